(** A comparison whose values wrap around. *)
From Coq Require Import List String NArith Permutation Lia.
From Verif Require Import Base ScopeM TermM SpecTerm CompareM SpecCompare.
From Verif Require AffineP.
Import ListNotations.
Local Open Scope string_scope.
Local Open Scope N_scope.

Definition wrap_ext : sextrinsic := mk_ext "f" "p" (Mul (Value (2 ^ 127)) (Var "n")) (Some [("n", mk_range 0 2)]).
Lemma wrapping_refuted : exists ord e tc rho v, is_order ord /\ typed e /\
  compare_extrinsics Wrapping ord None (Some e) {| p_method := Asymptotic; p_unit := Time |} = Ok tc /\
  in_box Time None (Some e) rho /\ tc_new_v tc = Some v /\ v < poly_val rho (eterm e).
Proof.
  exists (fun l => l), wrap_ext.
  destruct (compare_extrinsics Wrapping (fun l => l) None (Some wrap_ext) {| p_method := Asymptotic; p_unit := Time |})
    as [tc| | |] eqn:E; try (vm_compute in E; discriminate).
  exists tc, (fun x => if String.eqb x "READ" then 25000000 else if String.eqb x "WRITE" then 100000000 else 1), 0.
  split; [intros l; apply Permutation_refl|]. split; [|split; [reflexivity|split; [|split]]].
  - split.
    + cbn. split; [|exact I]. rewrite u128_bound_eq. vm_compute. reflexivity.
    + intros rs c r K. inversion K; subst. unfold ranges_get. cbn [mget]. destruct (str_cmp c "n"); inversion 1; split; reflexivity.
  - split; [reflexivity|]. split; [reflexivity|]. intros c [(e & [He|He] & Hc) Nc]; inversion He; subst e.
    assert (c = "n") by (destruct Hc as [<-|[]]; auto). subst c.
    exists 0, 2. split; [|split; [|vm_compute; split; discriminate]]; simpl; unfold least, greatest; simpl; (split; [auto|]); intros w [<-|[]]; lia.
  - vm_compute in E. inversion E; subst tc. reflexivity.
  - vm_compute. reflexivity.
Qed.
