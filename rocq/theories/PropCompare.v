(** Properties C11-C19, C21 and C25: comparing two versions of an extrinsic. *)
From Coq Require Import List String NArith ZArith Reals Sorting.Sorted Permutation.
From Verif Require Import Base ScopeM TermM SpecTerm F64 SpecF64 CompareM SpecCompare.
From Verif Require CompareP2 CompareP3 CompareP4 CompareP5 MilsP AffineP.
Import ListNotations.
Local Open Scope string_scope.
Local Open Scope N_scope.

(** ** C11: a component is always instantiated inside its annotated range. *)
Theorem C11_instance : forall c ra rb st p e,
  let A := (annotated ra c ++ annotated rb c)%list in
  let s := match which st with MMin => Low | MMax => High end in
  (forall v, instance_component c ra rb st p e = Ok v <->
     (exact st = true -> unambiguous A) /\ inst s A v) /\
  (is_err (instance_component c ra rb st p e) = true <-> exact st = true /\ ~ unambiguous A) /\
  returns (instance_component c ra rb st p e) /\
  instance_component c ra rb st p e = instance_component c rb ra st p e.
Proof. exact CompareP2.instance_lemma. Qed.
Print Assumptions C11_instance.

Example C11_ex :
  let old := Some [("n", mk_range 3 10)] in let new := Some [("n", mk_range 1 7); ("s", mk_range 2 5)] in
  instance_component "n" old new guess_min "p" "e" = Ok 1 /\
  instance_component "n" old new guess_max "p" "e" = Ok 10 /\
  instance_component "s" old new exact_max "p" "e" = Ok 5 /\
  instance_component "x" old new guess_max "p" "e" = Ok 100 /\
  is_err (instance_component "n" old new exact_min "p" "e") = true.
Proof. repeat split; reflexivity. Qed.

(** ** C12: exact methods fail exactly on missing or conflicting ranges (or on
    more than 16 components), and otherwise agree with the guessing methods. *)
Theorem C12_exact_err : forall ord a b m sc, is_order ord -> a <> None \/ b <> None ->
  returns (extend_scoped_components ord a b m sc) /\
  (is_err (extend_scoped_components ord a b m sc) = true <->
     (exists n, component_count (bound_in sc) a b n /\ (16 < n)%nat) \/
     (is_exact m /\ exists c, component (bound_in sc) a b c /\ ~ unambiguous (annotations a b c))).
Proof. exact CompareP2.extend_err_lemma. Qed.
Print Assumptions C12_exact_err.

Theorem C12_exact_agrees : forall ord ord' a b m sc l,
  is_order ord -> is_order ord' -> scope_wf sc ->
  extend_scoped_components ord a b m sc = Ok l ->
  extend_scoped_components ord' a b (guessing m) sc = Ok l.
Proof. exact CompareP2.extend_agree_lemma. Qed.
Print Assumptions C12_exact_agrees.

Example C12_ex :
  is_order (fun l => l) /\
  extend_scoped_components (fun l => l) (Some ex_old) (Some ex_new) ExactWorst [] =
    Ok [[("n", Scalar 1)]; [("n", Scalar 10)]] /\
  is_err (extend_scoped_components (fun l => l) (Some (mk_ext "f" "p" (Var "n") None)) None ExactWorst []) = true.
Proof. split; [intros l; apply Permutation_refl|]. split; reflexivity. Qed.

(** ** C13: the evaluated scopes are exactly the corners of the component box. *)
Theorem C13_corners : forall ord a b m sc l,
  is_order ord -> scope_wf sc -> sc <> [] ->
  extend_scoped_components ord a b m sc = Ok l ->
  StronglySorted (fun s s' => sscope_cmp s s' = Lt) l /\
  (forall s, In s l <-> is_corner sc a b m s) /\
  (forall n, component_count (bound_in sc) a b n -> (1 <= List.length l <= 2 ^ n)%nat).
Proof. exact CompareP2.extend_corners_lemma. Qed.
Print Assumptions C13_corners.

(** Two components, hence four corners of the box [1..2] x [0..100]. *)
Example C13_ex :
  extend_scoped_components (fun l => l)
    (Some (mk_ext "f" "p" (Mul (Var "s") (Var "n")) (Some [("n", mk_range 1 2)]))) None GuessWorst [("READ", Scalar 7)] =
  Ok [[("READ", Scalar 7); ("n", Scalar 1); ("s", Scalar 0)]; [("READ", Scalar 7); ("n", Scalar 1); ("s", Scalar 100)];
      [("READ", Scalar 7); ("n", Scalar 2); ("s", Scalar 0)]; [("READ", Scalar 7); ("n", Scalar 2); ("s", Scalar 100)]].
Proof. reflexivity. Qed.

(** ** C14: results do not depend on the iteration order of hash sets. *)
Theorem C14_scopes_order : forall ord ord' a b m sc,
  is_order ord -> is_order ord' -> scope_wf sc ->
  (forall l, extend_scoped_components ord a b m sc = Ok l -> extend_scoped_components ord' a b m sc = Ok l) /\
  (is_err (extend_scoped_components ord a b m sc) = true ->
   is_err (extend_scoped_components ord' a b m sc) = true).
Proof. exact CompareP2.extend_order_lemma. Qed.
Print Assumptions C14_scopes_order.

Theorem C14_compare_order : forall m ord ord' old new ps, is_order ord -> is_order ord' ->
  compare_extrinsics m ord old new ps = compare_extrinsics m ord' old new ps \/
  (is_err (compare_extrinsics m ord old new ps) = true /\ is_err (compare_extrinsics m ord' old new ps) = true).
Proof. exact CompareP3.compare_order_lemma. Qed.
Print Assumptions C14_compare_order.

(** The message does depend on the order: two unannotated components. *)
Example C14_ex :
  let e := Some (mk_ext "f" "p" (Add (Var "a") (Var "b")) None) in
  is_order (@rev string) /\
  extend_scoped_components (@rev string) e None ExactWorst [] <> extend_scoped_components (fun l => l) e None ExactWorst [] /\
  extend_scoped_components (@rev string) e None GuessWorst [] = extend_scoped_components (fun l => l) e None GuessWorst [].
Proof. split; [intros l; apply Permutation_sym, Permutation_rev|]. split; vm_compute; [discriminate|reflexivity]. Qed.

(** ** C15: comparing never panics when a version is present, except for an
    arithmetic overflow in a build that checks for it. *)
Theorem C15_compare_no_panic : forall m ord old new ps, is_order ord ->
  (old = None /\ new = None -> exists why, compare_extrinsics m ord old new ps = Panic why) /\
  (old <> None \/ new <> None ->
     returns (compare_extrinsics m ord old new ps) \/
     (m = Checked /\ exists s e why,
        is_corner (storage_scope (p_unit ps)) old new (p_method ps) s /\ (old = Some e \/ new = Some e) /\
        eval Checked s (effective (p_unit ps) (eterm e)) = Panic why /\
        compare_extrinsics m ord old new ps = Panic why)).
Proof. exact CompareP3.compare_no_panic_lemma. Qed.
Print Assumptions C15_compare_no_panic.

Example C15_ex :
  let e := Some (mk_ext "f" "p" (Mul (Value (2 ^ 127)) (Var "n")) (Some [("n", mk_range 0 2)])) in
  (exists why, compare_extrinsics Checked (fun l => l) e None {| p_method := Asymptotic; p_unit := Time |} = Panic why) /\
  is_ok (compare_extrinsics Wrapping (fun l => l) e None {| p_method := Asymptotic; p_unit := Time |}) = true.
Proof. split; [eexists|]; vm_compute; reflexivity. Qed.

(** ** C16: the reported change is the worst corner; the last one of equally bad corners. *)
Theorem C16_worst_corner : forall m ord o n ps tc, is_order ord ->
  compare_extrinsics m ord (Some o) (Some n) ps = Ok tc ->
  let d := p_unit ps in
  let at_corner s v w := eval m s (effective d (eterm o)) = Ok v /\ eval m s (effective d (eterm n)) = Ok w in
  exists pre post vo vn,
    StronglySorted (fun s s' => sscope_cmp s s' = Lt) (pre ++ tc_scope tc :: post)%list /\
    (forall s, In s (pre ++ tc_scope tc :: post)%list <->
       is_corner (storage_scope d) (Some o) (Some n) (p_method ps) s) /\
    at_corner (tc_scope tc) vo vn /\
    tc_old_v tc = Some vo /\ tc_new_v tc = Some vn /\ tc_percent tc = percent vo vn /\
    tc_method tc = p_method ps /\
    (forall s, In s pre -> exists v w, at_corner s v w /\ (mils (percent v w) <= mils (tc_percent tc))%Z) /\
    (forall s, In s post -> exists v w, at_corner s v w /\ (mils (percent v w) < mils (tc_percent tc))%Z).
Proof. exact CompareP4.worst_corner_lemma. Qed.
Print Assumptions C16_worst_corner.

(** [5 + 2n] against [1 + 3n] for n in [1, 10]: -42.857% at 1, +24% at 10. *)
Example C16_ex :
  match compare_extrinsics Checked (fun l => l) (Some ex_old) (Some ex_new) {| p_method := ExactWorst; p_unit := Time |} with
  | Ok tc => scope_get (tc_scope tc) "n" = Some (Scalar 10) /\ mils (tc_percent tc) = 24000%Z /\ mils (percent 7 4) = (-42857)%Z
  | _ => False
  end.
Proof. vm_compute. repeat split; reflexivity. Qed.

(** ** C17: for equations affine in every component, no point of the box is
    worse than the reported one. *)
Theorem C17_interior : forall m ord o n meth d tc rho, is_order ord ->
  meth = ExactWorst \/ meth = GuessWorst ->
  typed o -> typed n -> multi_affine (eterm o) -> multi_affine (eterm n) ->
  compare_extrinsics m ord (Some o) (Some n) {| p_method := meth; p_unit := d |} = Ok tc ->
  (forall r, in_box d (Some o) (Some n) r -> poly_val r (eterm o) <= 2 ^ 53 /\ poly_val r (eterm n) <= 2 ^ 53) ->
  in_box d (Some o) (Some n) rho -> 0 < poly_val rho (eterm o) + poly_val rho (eterm n) ->
  (mils (percent (poly_val rho (eterm o)) (poly_val rho (eterm n))) <= mils (tc_percent tc))%Z.
Proof. exact AffineP.interior_lemma. Qed.
Print Assumptions C17_interior.

(** Both equations of the example are affine. *)
Example C17_ex : multi_affine (eterm ex_old) /\ multi_affine (eterm ex_new) /\
  is_ok (compare_extrinsics Checked (fun l => l) (Some ex_old) (Some ex_new) {| p_method := ExactWorst; p_unit := Time |}) = true.
Proof.
  split; [|split; [|vm_compute; reflexivity]]; intros p x Hp _; simpl in Hp;
    destruct Hp as [<-|[<-|[]]]; cbn [count_occ snd mono_mul app];
    try destruct (string_dec "n" x); repeat constructor.
Qed.

(** Without the restriction the claim is false: [100 + n*n] against [100 + 50*n]
    for n in [0, 100] is reported as 0% although n = 10 is +200%. *)
Theorem C17_interior_quadratic_refuted : exists ord o n tc rho, is_order ord /\ typed o /\ typed n /\
  compare_extrinsics Checked ord (Some o) (Some n) {| p_method := ExactWorst; p_unit := Time |} = Ok tc /\
  (forall r, in_box Time (Some o) (Some n) r ->
     0 < poly_val r (eterm o) <= 2 ^ 53 /\ poly_val r (eterm n) <= 2 ^ 53) /\
  in_box Time (Some o) (Some n) rho /\
  (mils (tc_percent tc) < mils (percent (poly_val rho (eterm o)) (poly_val rho (eterm n))))%Z.
Proof. exact AffineP.quadratic_refuted_lemma. Qed.
Print Assumptions C17_interior_quadratic_refuted.

(** ** C18: Base reports a minimum and Asymptotic a maximum over the box. *)
Theorem C18_base_min : forall m ord old new d tc rho, is_order ord ->
  (forall e, old = Some e \/ new = Some e -> typed e) ->
  compare_extrinsics m ord old new {| p_method := Base; p_unit := d |} = Ok tc ->
  in_box d old new rho ->
  (forall e, old = Some e -> exists v, tc_old_v tc = Some v /\ v <= poly_val rho (eterm e)) /\
  (forall e, new = Some e -> exists v, tc_new_v tc = Some v /\ v <= poly_val rho (eterm e)).
Proof. exact CompareP4.base_min_lemma. Qed.
Print Assumptions C18_base_min.

Theorem C18_asymptotic_max : forall ord old new meth d tc rho, is_order ord ->
  meth = Asymptotic \/ meth = ExactAsymptotic ->
  (forall e, old = Some e \/ new = Some e -> typed e) ->
  compare_extrinsics Checked ord old new {| p_method := meth; p_unit := d |} = Ok tc ->
  in_box d old new rho ->
  (forall e, old = Some e -> exists v, tc_old_v tc = Some v /\ poly_val rho (eterm e) <= v) /\
  (forall e, new = Some e -> exists v, tc_new_v tc = Some v /\ poly_val rho (eterm e) <= v).
Proof. exact CompareP4.asymptotic_max_lemma. Qed.
Print Assumptions C18_asymptotic_max.

(** In a build without overflow checks the maximum is only one if nothing wraps. *)
Theorem C18_wrapping_refuted : exists ord e tc rho v, is_order ord /\ typed e /\
  compare_extrinsics Wrapping ord None (Some e) {| p_method := Asymptotic; p_unit := Time |} = Ok tc /\
  in_box Time None (Some e) rho /\ tc_new_v tc = Some v /\ v < poly_val rho (eterm e).
Proof. exact CompareP5.wrapping_refuted. Qed.
Print Assumptions C18_wrapping_refuted.

(** The hypotheses hold for [100 + n*n] and [100 + 50*n] with n in [0, 100], at n = 10. *)
Example C18_ex :
  let rho := fun x => if String.eqb x "READ" then 25000000 else if String.eqb x "WRITE" then 100000000 else 10 in
  typed AffineP.quad_old /\ typed AffineP.quad_new /\
  in_box Time (Some AffineP.quad_old) (Some AffineP.quad_new) rho /\
  (forall meth, In meth [Base; Asymptotic; ExactAsymptotic] ->
     is_ok (compare_extrinsics Checked (fun l => l) (Some AffineP.quad_old) (Some AffineP.quad_new)
              {| p_method := meth; p_unit := Time |}) = true).
Proof.
  split; [apply AffineP.quad_typed|]. split; [apply AffineP.quad_typed|]. split.
  - apply AffineP.quad_box; vm_compute; congruence.
  - intros meth [<-|[<-|[<-|[]]]]; vm_compute; reflexivity.
Qed.

(** ** C19: change kinds are decided by presence and equality only. *)
Theorem C19_change_kind : forall m ord old new ps tc, is_order ord ->
  compare_extrinsics m ord old new ps = Ok tc ->
  let d := p_unit ps in
  let same := exists o n, old = Some o /\ new = Some n /\
    erase_us (effective d (eterm o)) = erase_us (effective d (eterm n)) in
  (tc_change tc = Added <-> old = None /\ new <> None) /\
  (tc_change tc = Removed <-> old <> None /\ new = None) /\
  (tc_change tc = Unchanged <-> same) /\
  (tc_change tc = Changed <-> old <> None /\ new <> None /\ ~ same).
Proof. exact CompareP4.change_kind_lemma. Qed.
Print Assumptions C19_change_kind.

Theorem C19_swap : forall m ord ord' old new ps tc, is_order ord -> is_order ord' ->
  compare_extrinsics m ord old new ps = Ok tc ->
  exists tc', compare_extrinsics m ord' new old ps = Ok tc' /\ tc_change tc' = swap_kind (tc_change tc).
Proof. exact CompareP4.swap_lemma. Qed.
Print Assumptions C19_swap.

(** A variable renamed only by an underscore counts as unchanged, equal values
    of different equations count as changed. *)
Example C19_ex :
  let cmp a b := match compare_extrinsics Checked (fun l => l) (Some (mk_ext "f" "p" a None)) (Some (mk_ext "f" "p" b None))
                   {| p_method := Base; p_unit := Time |} with Ok tc => Some (tc_change tc) | _ => None end in
  cmp (Var "n_s") (Var "ns") = Some Unchanged /\ cmp (Value 2) (Scalar 2) = Some Changed.
Proof. split; vm_compute; reflexivity. Qed.

(** ** C21: storage operations do not count in the proof dimension. *)
Theorem C21_storage : forall m ord old new ps tc, is_order ord ->
  compare_extrinsics m ord old new ps = Ok tc ->
  let d := p_unit ps in
  tc_old tc = option_map (fun e : sextrinsic => effective d (eterm e)) old /\
  tc_new tc = option_map (fun e : sextrinsic => effective d (eterm e)) new /\
  scope_get (tc_scope tc) "READ" = Some (Scalar (read_cost d)) /\
  scope_get (tc_scope tc) "WRITE" = Some (Scalar (write_cost d)) /\
  (forall e, old = Some e -> exists v, tc_old_v tc = Some v /\ eval m (tc_scope tc) (eterm e) = Ok v) /\
  (forall e, new = Some e -> exists v, tc_new_v tc = Some v /\ eval m (tc_scope tc) (eterm e) = Ok v).
Proof. exact CompareP4.storage_lemma. Qed.
Print Assumptions C21_storage.

Example C21_ex :
  let e := Some (mk_ext "f" "p" (Add (Value 7) (Mul (Scalar 2) (Var "READ"))) None) in
  let v d := match compare_extrinsics Checked (fun l => l) e None {| p_method := Base; p_unit := d |} with
             | Ok tc => tc_old_v tc | _ => None end in
  v Time = Some 50000007 /\ v Proof_size = Some 7.
Proof. split; vm_compute; reflexivity. Qed.

(** ** C25: the order on changes is a total preorder that ranks first by kind
    and then by the percentage in thousandths. *)
Theorem C25_preorder : forall a b c,
  change_cmp a a = Eq /\ change_cmp b a = CompOpp (change_cmp a b) /\
  (change_cmp a b <> Gt -> change_cmp b c <> Gt -> change_cmp a c <> Gt) /\
  (change_cmp a b = Lt -> change_cmp b c <> Gt -> change_cmp a c = Lt) /\
  (change_cmp a b <> Gt -> change_cmp b c = Lt -> change_cmp a c = Lt) /\
  (change_cmp a b = Eq -> change_cmp a c = change_cmp b c).
Proof. exact MilsP.change_cmp_preorder. Qed.
Print Assumptions C25_preorder.

Theorem C25_rank : forall a b,
  (change_cmp a b = Lt <-> rank_lt a b) /\ (change_cmp a b = Gt <-> rank_lt b a) /\
  (change_cmp a b = Eq <-> tc_change a = tc_change b /\ mils (tc_percent a) = mils (tc_percent b)).
Proof. exact MilsP.change_cmp_spec. Qed.
Print Assumptions C25_rank.

(** The thousandths: 1000 times the percentage, truncated. *)
Theorem C25_thousandths : forall x r, is_double x -> has_value x r -> (Rabs r <= powerRZ 2 110)%R ->
  (Rabs (IZR (mils x) - 1000 * r) < 1 + powerRZ 2 (-52) * (Rabs (1000 * r) + 1))%R /\
  ((0 <= r)%R -> (0 <= mils x)%Z) /\ ((r <= 0)%R -> (mils x <= 0)%Z) /\
  (forall z, (1000 * r)%R = IZR z -> (Z.abs z <= 2 ^ 53)%Z -> mils x = z).
Proof. exact MilsP.mils_accuracy. Qed.
Print Assumptions C25_thousandths.

Theorem C25_thousandths_mono : forall x y, is_double x -> is_double y -> f64_leq x y -> (mils x <= mils y)%Z.
Proof. exact MilsP.mils_mono. Qed.
Print Assumptions C25_thousandths_mono.

Theorem C25_thousandths_special :
  mils (Floats.SpecFloat.S754_infinity false) = i128_max /\
  mils (Floats.SpecFloat.S754_infinity true) = i128_min /\ mils Floats.SpecFloat.S754_nan = 0%Z.
Proof. exact MilsP.mils_inf. Qed.
Print Assumptions C25_thousandths_special.

Example C25_ex :
  let row k p := {| tc_old := None; tc_old_v := None; tc_new := None; tc_new_v := None; tc_scope := [];
                    tc_percent := p; tc_change := k; tc_method := Base |} in
  is_double (percent 3 4) /\
  change_cmp (row Changed (percent 0 0)) (row Changed (percent 5 5)) = Eq /\
  change_cmp (row Added (percent 0 9)) (row Removed (percent 9 0)) = Lt /\
  change_cmp (row Changed (percent 3 4)) (row Changed (percent 100 133)) = Gt.
Proof. repeat split; vm_compute; reflexivity. Qed.
