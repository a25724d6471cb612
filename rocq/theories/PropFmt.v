(** Properties C04 (third part), C56 and C57: textual output. *)
From Coq Require Import List String Ascii NArith ZArith Reals Bool Sorted.
From Verif Require Import Base ScopeM TermM SpecTerm SpecF64 FmtM SpecFmt.
From Verif Require FmtP DisplayP.
Import ListNotations.
Local Open Scope string_scope.

(** ** C04: the list of definitions and free variables never panics. *)
Theorem C04_fmt_equation : forall (T : Type) (vfmt : T -> string) (vzero vone : T -> bool) (sc : scope (term T)) (t : term T),
  exists defs frees,
    fmt_equation vfmt vzero vone sc t =
      Ok (String.concat ", " (map (fun d => fst d ++ "=" ++ display vfmt vzero vone (snd d)) defs ++ frees)) /\
    StronglySorted (fun a b => str_cmp a b = Lt) (map fst defs) /\
    StronglySorted (fun a b => str_cmp a b = Lt) frees /\
    (forall x d, In (x, d) defs <-> occurs x t /\ scope_get sc x = Some d) /\
    (forall x, In x frees <-> occurs x t /\ scope_get sc x = None).
Proof. exact @DisplayP.fmt_equation_lemma. Qed.
Print Assumptions C04_fmt_equation.

Example C04_fmt_ex :
  sfmt_equation [("WRITE", Scalar 100); ("READ", Add (Scalar 25) (Var "x"))]
    (Add (Mul (Var "s") (Var "READ")) (Add (Var "READ") (Add (Var "c") (Var "WRITE"))))
  = Ok "READ=25 + x, WRITE=100, c, s".
Proof. vm_compute. reflexivity. Qed.

(** ** C56: quantities are shown in their best unit, rounded to two decimals. *)
Theorem C56_value : forall unit, fmt_correct (fmt_value unit) (units_of unit) /\ fmt_monotone (fmt_value unit) (units_of unit).
Proof. exact FmtP.fmt_value_lemma. Qed.
Print Assumptions C56_value.

Theorem C56_scalar : fmt_correct fmt_scalar scalar_units /\ fmt_monotone fmt_scalar scalar_units.
Proof. exact (proj2 (proj2 FmtP.fmt_quantities_lemma)). Qed.
Print Assumptions C56_scalar.

Example C56_ex :
  fmt_time 1234567 = "1.23us" /\ fmt_time 999 = "999ps" /\ fmt_proof 1073741824 = "1.00GiB" /\ fmt_scalar 1005 = "1.00K" /\
  read_2 "1.23" = Some 123%N /\ best_unit time_units 1234567 "us" 1000000 /\ shows (fmt_time 1234567) "us" 1000000 123.
Proof.
  assert (B : best_unit time_units 1234567 "us" 1000000).
  { split; [cbn; auto|]. split.
    - right. vm_compute. discriminate.
    - intros s d I L; cbn in I; intuition (match goal with E : (_, _) = (_, _) |- _ => injection E as <- <- end; vm_compute in *; congruence). }
  repeat (split; [vm_compute; reflexivity|]). split; [exact B|].
  exists "1.23". split; [vm_compute; reflexivity|]. split; [discriminate|]. intros _. vm_compute. reflexivity.
Qed.

(** "The number in front of the unit is below the ratio to the next unit" is
    false: it may be rounded up to it. *)
Theorem C56_below_next_unit_refuted :
  exists v, best_unit time_units v "us" 1000000 /\ fmt_time v = "1000.00us".
Proof.
  exists 999999999%N. split; [|vm_compute; reflexivity]. split; [cbn; auto|]. split.
  - right. vm_compute. discriminate.
  - intros s d I L; cbn in I; intuition (match goal with E : (_, _) = (_, _) |- _ => injection E as <- <- end; vm_compute in *; congruence).
Qed.
Print Assumptions C56_below_next_unit_refuted.

(** ** C57: the displayed equation has the value of the equation, as long as
    constants 0 do not occur inside of products. *)
Theorem C57_display : forall t, plain t -> zeros_outside t ->
  exists e, read_equation (sdisplay t) = Some e /\ forall rho, xval rho e = poly_val rho t.
Proof. exact DisplayP.display_lemma. Qed.
Print Assumptions C57_display.

Definition ex_eq : sterm :=
  Add (Add (Scalar 9) (Mul (Scalar 0) (Var "l"))) (Mul (Add (Var "a") (Scalar 2)) (Mul (Scalar 1) (Add (Mul (Var "b") (Var "READ")) (Value 3%N)))).
Example C57_ex : plain ex_eq /\ zeros_outside ex_eq /\ sdisplay ex_eq = "9 + (a + 2) * (b * READ + 3)".
Proof.
  assert (I : forall x c s, x = String c s -> is_letter c = true -> all_chars (fun c => is_letter c || is_digit c) s = true -> is_ident x)
    by (intros; eexists; eexists; eauto).
  assert (NZ : forall n, n <> 0%N -> ~ is_zero (Scalar n) /\ ~ is_zero (Value n))
    by (intros n H; split; intros [C|C]; congruence).
  assert (NV : forall x, ~ is_zero (Var x)) by (intros x [C|C]; congruence).
  split; [|split; [|vm_compute; reflexivity]].
  - repeat split; try (vm_compute; reflexivity); eapply I; reflexivity.
  - split; [split; [exact Logic.I|]|].
    + right. right. left. right. reflexivity.
    + right. right. right. right. repeat split; try apply NV; apply NZ; discriminate.
Qed.

(** A weight is shown by its two numbers in brackets, the time first. *)
Theorem C57_weight : forall w, exists a b, cdisplay (Value w) = "(" ++ a ++ ", " ++ b ++ ")" /\
  read_dec a = Some (time w) /\ read_dec b = Some (proof w).
Proof. exact DisplayP.weight_text. Qed.
Print Assumptions C57_weight.
Example C57_weight_ex : cdisplay (Add (Mul (Value {| time := 3; proof := 0 |}) (Var "READ")) (Value {| time := 12; proof := 7 |})) = "(3, 0) * READ + (12, 7)".
Proof. reflexivity. Qed.

(** Without the condition the text may be wrong in two ways: a factor that is
    shown as nothing, and a sum without brackets. *)
Theorem C57_dropped_factor_refuted :
  exists t e, plain t /\ read_equation (sdisplay t) = Some e /\ exists rho, poly_val rho t = 0%N /\ xval rho e = 7%N.
Proof.
  exists (Mul (Var "x") (Add (Scalar 0) (Scalar 0))), (XVar "x"). repeat split; try (vm_compute; reflexivity).
  - exists "x"%char, "". repeat split.
  - exists (fun _ => 7%N). split; reflexivity.
Qed.
Print Assumptions C57_dropped_factor_refuted.

Theorem C57_lost_brackets_refuted :
  exists t e, plain t /\ read_equation (sdisplay t) = Some e /\ exists rho, poly_val rho t = 4%N /\ xval rho e = 3%N.
Proof.
  exists (Mul (Add (Add (Var "a") (Var "b")) (Mul (Scalar 0) (Var "c"))) (Var "d")), (XAdd (XVar "a") (XMul (XVar "b") (XVar "d"))).
  repeat split; try (vm_compute; reflexivity).
  - exists "a"%char, "". repeat split.
  - exists "b"%char, "". repeat split.
  - exists "c"%char, "". repeat split.
  - exists "d"%char, "". repeat split.
  - exists (fun x => if String.eqb x "d" then 2%N else 1%N). split; vm_compute; reflexivity.
Qed.
Print Assumptions C57_lost_brackets_refuted.
