(** Proofs about evaluation, variables and substitution. *)
From Coq Require Import List String Ascii Arith NArith Bool Lia Permutation Sorting.Sorted.
From Verif Require Import Base ScopeM TermM SpecTerm.
Import ListNotations.

(** ** Polynomials *)
Definition sumN (l : list N) : N := fold_right N.add 0%N l.

Lemma mono_val_mul rho p q : mono_val rho (mono_mul p q) = (mono_val rho p * mono_val rho q)%N.
Proof.
  destruct p as [c xs], q as [d ys]. unfold mono_val, mono_mul; simpl.
  induction xs as [|x xs IH]; simpl.
  - induction ys as [|y ys IHy]; simpl; [lia|]. rewrite IHy. lia.
  - rewrite IH. lia.
Qed.

Definition mvals rho l := fold_right (fun p acc => mono_val rho p + acc)%N 0%N l.

Lemma mvals_app rho l r : mvals rho (l ++ r) = (mvals rho l + mvals rho r)%N.
Proof. induction l as [|p l IH]; simpl; [reflexivity|]. unfold mvals in *. simpl. rewrite IH. lia. Qed.

Lemma mvals_map_mul rho p l : mvals rho (map (mono_mul p) l) = (mono_val rho p * mvals rho l)%N.
Proof.
  induction l as [|q l IH]; simpl; [lia|]. rewrite mono_val_mul, IH. lia.
Qed.

Lemma poly_val_leaf_value rho n : poly_val rho (Value n) = n.
Proof. unfold poly_val, mono_val; simpl. lia. Qed.
Lemma poly_val_leaf_scalar rho n : poly_val rho (Scalar n) = n.
Proof. unfold poly_val, mono_val; simpl. lia. Qed.
Lemma poly_val_var rho x : poly_val rho (Var x) = rho x.
Proof. unfold poly_val, mono_val; simpl. lia. Qed.
Lemma poly_val_add rho l r : poly_val rho (Add l r) = (poly_val rho l + poly_val rho r)%N.
Proof. unfold poly_val; simpl. apply mvals_app. Qed.
Lemma poly_val_mul rho l r : poly_val rho (Mul l r) = (poly_val rho l * poly_val rho r)%N.
Proof.
  unfold poly_val; simpl. change (mvals rho (flat_map (fun p => map (mono_mul p) (monomials r)) (monomials l))
    = mvals rho (monomials l) * mvals rho (monomials r))%N.
  induction (monomials l) as [|p l' IH]; simpl; [reflexivity|].
  rewrite mvals_app, mvals_map_mul, IH. lia.
Qed.
Global Opaque poly_val.
Global Hint Rewrite poly_val_leaf_value poly_val_leaf_scalar poly_val_var poly_val_add poly_val_mul : pv.
Ltac pv := autorewrite with pv in *.

Lemma poly_val_ext rho rho' t :
  (forall x, occurs x t -> rho x = rho' x) -> poly_val rho t = poly_val rho' t.
Proof.
  unfold occurs. induction t as [v|n|x|l IHl r IHr|l IHl r IHr]; simpl; intros E; pv; auto.
  - rewrite IHl, IHr; auto; intros; apply E, in_or_app; auto.
  - rewrite IHl, IHr; auto; intros; apply E, in_or_app; auto.
Qed.

(** ** Evaluation in number scopes does not need fuel *)
Fixpoint seval (m : mode) (look : string -> option N) (t : sterm) : outcome N :=
  match t with
  | Value n | Scalar n => Ok n
  | Var x => match look x with Some n => Ok n | None => Err (not_found x) end
  | Add l r => let* a := seval m look l in let* b := seval m look r in uadd m a b
  | Mul l r => let* a := seval m look l in let* b := seval m look r in umul m a b
  end.

Definition lookup_num (sc : sscope) (x : string) : option N :=
  match scope_get sc x with Some u => number u | None => None end.

Lemma eval_fuel_unfold m sc f t :
  eval_fuel m sc f t =
  match t with
  | Value x => Ok x
  | Scalar x => Ok x
  | Add x y => let* a := eval_fuel m sc f x in let* b := eval_fuel m sc f y in uadd m a b
  | Mul x y => let* a := eval_fuel m sc f x in let* b := eval_fuel m sc f y in umul m a b
  | Var x => match scope_get sc x with
             | Some var => match f with
                           | O => Diverge
                           | S f => eval_fuel m sc f var
                           end
             | None => Err (not_found x)
             end
  end.
Proof. destruct f, t; reflexivity. Qed.

Global Arguments eval_fuel m ctx fuel _ : simpl never.

Lemma eval_fuel_number m sc f t :
  (forall x, occurs x t -> forall u, scope_get sc x = Some u -> number u <> None) ->
  eval_fuel m sc (S f) t = seval m (lookup_num sc) t.
Proof.
  intros H. induction t as [v|n|x|l IHl r IHr|l IHl r IHr]; rewrite eval_fuel_unfold; simpl; auto.
  - unfold lookup_num. specialize (H x (or_introl eq_refl)).
    destruct (scope_get sc x) as [u|]; [|reflexivity]. specialize (H u eq_refl).
    destruct u; simpl in *; try congruence; rewrite eval_fuel_unfold; reflexivity.
  - rewrite IHl, IHr; auto; intros; eapply H; eauto; apply in_or_app; auto.
  - rewrite IHl, IHr; auto; intros; eapply H; eauto; apply in_or_app; auto.
Qed.

Lemma eval_number_gen m sc t :
  (forall x, occurs x t -> forall u, scope_get sc x = Some u -> number u <> None) ->
  eval m sc t = seval m (lookup_num sc) t.
Proof.
  intros H. unfold eval, scope_len. destruct sc as [|kv sc].
  - simpl. clear H. induction t as [v|n|x|l IHl r IHr|l IHl r IHr]; rewrite eval_fuel_unfold; simpl in *; auto.
    + now rewrite <- IHl, <- IHr.
    + now rewrite <- IHl, <- IHr.
  - simpl. now apply eval_fuel_number.
Qed.

Lemma eval_number m sc t : number_scope sc -> eval m sc t = seval m (lookup_num sc) t.
Proof. intros H. apply eval_number_gen. intros; eapply H; eauto. Qed.

Lemma binds_number sc rho t : binds sc rho t ->
  forall x, occurs x t -> forall u, scope_get sc x = Some u -> number u <> None.
Proof.
  intros H x Hx u Hu. destruct (H x Hx) as (u' & E & N'). congruence.
Qed.

Lemma binds_lookup sc rho t x : binds sc rho t -> occurs x t -> lookup_num sc x = Some (rho x).
Proof.
  intros H Hx. unfold lookup_num. destruct (H x Hx) as (u & -> & E). exact E.
Qed.

Lemma seval_ext m l1 l2 t : (forall x, occurs x t -> l1 x = l2 x) -> seval m l1 t = seval m l2 t.
Proof.
  unfold occurs. induction t as [v|n|x|l IHl r IHr|l IHl r IHr]; simpl; intros E; auto.
  - rewrite E; auto.
  - rewrite IHl, IHr; auto; intros; apply E, in_or_app; auto.
  - rewrite IHl, IHr; auto; intros; apply E, in_or_app; auto.
Qed.

(** ** C01: exactness *)
Definition rsome (rho : string -> N) : string -> option N := fun x => Some (rho x).

Lemma eval_binds m sc rho t : binds sc rho t -> eval m sc t = seval m (rsome rho) t.
Proof.
  intros H. rewrite (eval_number_gen m sc t (binds_number _ _ _ H)).
  apply seval_ext. intros x Hx. now apply binds_lookup with (t := t).
Qed.

Definition fits rho t := forall s, subterm s t -> (poly_val rho s < u128_bound)%N.

Lemma fits_add rho l r : fits rho (Add l r) -> fits rho l /\ fits rho r /\ (poly_val rho l + poly_val rho r < u128_bound)%N.
Proof.
  intros H. repeat split.
  - intros s Hs. apply H. now apply sub_add_l.
  - intros s Hs. apply H. now apply sub_add_r.
  - rewrite <- poly_val_add. apply H. constructor.
Qed.
Lemma fits_mul rho l r : fits rho (Mul l r) -> fits rho l /\ fits rho r /\ (poly_val rho l * poly_val rho r < u128_bound)%N.
Proof.
  intros H. repeat split.
  - intros s Hs. apply H. now apply sub_mul_l.
  - intros s Hs. apply H. now apply sub_mul_r.
  - rewrite <- poly_val_mul. apply H. constructor.
Qed.

Lemma uadd_fits m a b : (a + b < u128_bound)%N -> uadd m a b = Ok (a + b)%N.
Proof. intros H. unfold uadd. apply N.ltb_lt in H. now rewrite H. Qed.
Lemma umul_fits m a b : (a * b < u128_bound)%N -> umul m a b = Ok (a * b)%N.
Proof. intros H. unfold umul. apply N.ltb_lt in H. now rewrite H. Qed.

Lemma seval_fits m rho t : fits rho t -> seval m (rsome rho) t = Ok (poly_val rho t).
Proof.
  induction t as [v|n|x|l IHl r IHr|l IHl r IHr]; simpl; intros H; pv; auto.
  - apply fits_add in H as (Hl & Hr & H). rewrite IHl, IHr by assumption. simpl. now apply uadd_fits.
  - apply fits_mul in H as (Hl & Hr & H). rewrite IHl, IHr by assumption. simpl. now apply umul_fits.
Qed.

Lemma seval_wrapping_some look t :
  (forall x, occurs x t -> look x <> None) -> exists n, seval Wrapping look t = Ok n.
Proof.
  unfold occurs. induction t as [v|n|x|l IHl r IHr|l IHl r IHr]; simpl; intros H; eauto.
  - specialize (H x (or_introl eq_refl)). destruct (look x); [eauto|congruence].
  - destruct IHl as (a & ->); [intros; apply H, in_or_app; auto|].
    destruct IHr as (b & ->); [intros; apply H, in_or_app; auto|]. simpl.
    unfold uadd. destruct (a + b <? u128_bound)%N; eauto.
  - destruct IHl as (a & ->); [intros; apply H, in_or_app; auto|].
    destruct IHr as (b & ->); [intros; apply H, in_or_app; auto|]. simpl.
    unfold umul. destruct (a * b <? u128_bound)%N; eauto.
Qed.

Lemma uadd_wrapping a b : uadd Wrapping a b = Ok ((a + b) mod u128_bound)%N.
Proof.
  unfold uadd. destruct (N.ltb_spec (a + b) (u128_bound)); auto.
  now rewrite N.mod_small.
Qed.
Lemma umul_wrapping a b : umul Wrapping a b = Ok ((a * b) mod u128_bound)%N.
Proof.
  unfold umul. destruct (N.ltb_spec (a * b) (u128_bound)); auto.
  now rewrite N.mod_small.
Qed.

Lemma seval_wrapping rho t :
  u128_term t -> (forall x, occurs x t -> (rho x < u128_bound)%N) ->
  seval Wrapping (rsome rho) t = Ok (poly_val rho t mod u128_bound)%N.
Proof.
  unfold occurs. induction t as [v|n|x|l IHl r IHr|l IHl r IHr]; simpl; intros Hu Hr; pv.
  - now rewrite N.mod_small.
  - now rewrite N.mod_small.
  - unfold rsome. rewrite N.mod_small; auto.
  - destruct Hu as [Ul Ur].
    rewrite IHl, IHr by (auto; intros; apply Hr, in_or_app; auto). simpl.
    rewrite uadd_wrapping. f_equal. symmetry. apply N.add_mod. discriminate.
  - destruct Hu as [Ul Ur].
    rewrite IHl, IHr by (auto; intros; apply Hr, in_or_app; auto). simpl.
    rewrite umul_wrapping. f_equal. symmetry. apply N.mul_mod. discriminate.
Qed.

Lemma seval_checked_bound look t n :
  u128_term t -> (forall x v, occurs x t -> look x = Some v -> (v < u128_bound)%N) ->
  seval Checked look t = Ok n -> (n < u128_bound)%N.
Proof.
  unfold occurs. destruct t as [v|k|x|l r|l r]; simpl; intros Hu Hr E.
  - inversion E; now subst.
  - inversion E; now subst.
  - specialize (Hr x). destruct (look x) as [v|]; inversion E; subst. apply Hr; auto.
  - destruct (seval Checked look l) as [a| | |]; try discriminate.
    destruct (seval Checked look r) as [b| | |]; try discriminate. simpl in E.
    unfold uadd in E. destruct (N.ltb_spec (a + b) (u128_bound)); inversion E; now subst.
  - destruct (seval Checked look l) as [a| | |]; try discriminate.
    destruct (seval Checked look r) as [b| | |]; try discriminate. simpl in E.
    unfold umul in E. destruct (N.ltb_spec (a * b) (u128_bound)); inversion E; now subst.
Qed.

(** In a checked build a successful evaluation means that everything fitted. *)
Lemma seval_checked_fits rho t n :
  u128_term t -> (forall x, occurs x t -> (rho x < u128_bound)%N) ->
  seval Checked (rsome rho) t = Ok n -> fits rho t.
Proof.
  unfold occurs. revert n. induction t as [v|k|x|l IHl r IHr|l IHl r IHr]; simpl; intros n Hu Hr E.
  - intros s Hs. inversion Hs; subst. now pv.
  - intros s Hs. inversion Hs; subst. now pv.
  - intros s Hs. inversion Hs; subst. pv. auto.
  - destruct Hu as [Ul Ur].
    destruct (seval Checked (rsome rho) l) as [a| | |] eqn:El; try discriminate.
    destruct (seval Checked (rsome rho) r) as [b| | |] eqn:Er; try discriminate. simpl in E.
    assert (Fl : fits rho l) by (eapply IHl; eauto; intros; apply Hr, in_or_app; auto).
    assert (Fr : fits rho r) by (eapply IHr; eauto; intros; apply Hr, in_or_app; auto).
    rewrite (seval_fits _ _ _ Fl) in El. rewrite (seval_fits _ _ _ Fr) in Er.
    inversion El; inversion Er; subst a b.
    unfold uadd in E. destruct (N.ltb_spec (poly_val rho l + poly_val rho r) (u128_bound)); inversion E.
    intros s Hs. inversion Hs; subst; auto. now pv.
  - destruct Hu as [Ul Ur].
    destruct (seval Checked (rsome rho) l) as [a| | |] eqn:El; try discriminate.
    destruct (seval Checked (rsome rho) r) as [b| | |] eqn:Er; try discriminate. simpl in E.
    assert (Fl : fits rho l) by (eapply IHl; eauto; intros; apply Hr, in_or_app; auto).
    assert (Fr : fits rho r) by (eapply IHr; eauto; intros; apply Hr, in_or_app; auto).
    rewrite (seval_fits _ _ _ Fl) in El. rewrite (seval_fits _ _ _ Fr) in Er.
    inversion El; inversion Er; subst a b.
    unfold umul in E. destruct (N.ltb_spec (poly_val rho l * poly_val rho r) (u128_bound)); inversion E.
    intros s Hs. inversion Hs; subst; auto. now pv.
Qed.

Lemma seval_shape m look t :
  (exists n, seval m look t = Ok n) \/
  (exists x, seval m look t = Err (not_found x)) \/
  (exists w, seval m look t = Panic w).
Proof.
  induction t as [v|n|x|l IHl r IHr|l IHl r IHr]; simpl; eauto.
  - destruct (look x); eauto.
  - destruct IHl as [(a & ->)|[(x & ->)|(w & ->)]]; simpl; eauto.
    destruct IHr as [(b & ->)|[(x & ->)|(w & ->)]]; simpl; eauto.
    unfold uadd. destruct (_ <? _)%N; eauto. destruct m; eauto.
  - destruct IHl as [(a & ->)|[(x & ->)|(w & ->)]]; simpl; eauto.
    destruct IHr as [(b & ->)|[(x & ->)|(w & ->)]]; simpl; eauto.
    unfold umul. destruct (_ <? _)%N; eauto. destruct m; eauto.
Qed.

Lemma seval_err_free m look t e :
  seval m look t = Err e ->
  exists x pre post, e = not_found x /\ var_list t = pre ++ x :: post /\
    (forall y, In y pre -> look y <> None) /\ look x = None.
Proof.
  revert e. induction t as [v|n|x|l IHl r IHr|l IHl r IHr]; simpl; intros e E; try discriminate.
  - destruct (look x) eqn:L; inversion E; subst.
    exists x, [], []. repeat split; auto.
  - assert (Hok : forall a, seval m look l = Ok a -> forall y, In y (var_list l) -> look y <> None).
    { clear. induction l as [v|n|x|l1 IH1 l2 IH2|l1 IH1 l2 IH2]; simpl; intros a E y Hy; try tauto.
      - destruct Hy as [<-|[]]. destruct (look x); congruence.
      - destruct (seval m look l1) eqn:E1; try discriminate.
        destruct (seval m look l2) eqn:E2; try discriminate.
        apply in_app_or in Hy as [Hy|Hy]; eauto.
      - destruct (seval m look l1) eqn:E1; try discriminate.
        destruct (seval m look l2) eqn:E2; try discriminate.
        apply in_app_or in Hy as [Hy|Hy]; eauto. }
    destruct (seval m look l) as [a| e' | |] eqn:El; simpl in E; try discriminate.
    + destruct (seval m look r) as [b| e' | |] eqn:Er; simpl in E; try discriminate.
      * unfold uadd in E. destruct (_ <? _)%N; try discriminate. destruct m; discriminate.
      * inversion E; subst. destruct (IHr _ eq_refl) as (x & pre & post & -> & V & P & Q).
        exists x, (var_list l ++ pre), post. rewrite V, app_assoc. repeat split; auto.
        intros y Hy. apply in_app_or in Hy as [Hy|Hy]; eauto.
    + inversion E; subst. destruct (IHl _ eq_refl) as (x & pre & post & -> & V & P & Q).
      exists x, pre, (post ++ var_list r). rewrite V, <- app_assoc. repeat split; auto.
  - assert (Hok : forall a, seval m look l = Ok a -> forall y, In y (var_list l) -> look y <> None).
    { clear. induction l as [v|n|x|l1 IH1 l2 IH2|l1 IH1 l2 IH2]; simpl; intros a E y Hy; try tauto.
      - destruct Hy as [<-|[]]. destruct (look x); congruence.
      - destruct (seval m look l1) eqn:E1; try discriminate.
        destruct (seval m look l2) eqn:E2; try discriminate.
        apply in_app_or in Hy as [Hy|Hy]; eauto.
      - destruct (seval m look l1) eqn:E1; try discriminate.
        destruct (seval m look l2) eqn:E2; try discriminate.
        apply in_app_or in Hy as [Hy|Hy]; eauto. }
    destruct (seval m look l) as [a| e' | |] eqn:El; simpl in E; try discriminate.
    + destruct (seval m look r) as [b| e' | |] eqn:Er; simpl in E; try discriminate.
      * unfold umul in E. destruct (_ <? _)%N; try discriminate. destruct m; discriminate.
      * inversion E; subst. destruct (IHr _ eq_refl) as (x & pre & post & -> & V & P & Q).
        exists x, (var_list l ++ pre), post. rewrite V, app_assoc. repeat split; auto.
        intros y Hy. apply in_app_or in Hy as [Hy|Hy]; eauto.
    + inversion E; subst. destruct (IHl _ eq_refl) as (x & pre & post & -> & V & P & Q).
      exists x, pre, (post ++ var_list r). rewrite V, <- app_assoc. repeat split; auto.
Qed.

Lemma seval_ok_bound m look t a :
  seval m look t = Ok a -> forall y, occurs y t -> look y <> None.
Proof.
  unfold occurs. revert a. induction t as [v|n|x|l1 IH1 l2 IH2|l1 IH1 l2 IH2]; simpl; intros a E y Hy; try tauto.
  - destruct Hy as [<-|[]]. destruct (look x); congruence.
  - destruct (seval m look l1) eqn:E1; try discriminate.
    destruct (seval m look l2) eqn:E2; try discriminate.
    apply in_app_or in Hy as [Hy|Hy]; eauto.
  - destruct (seval m look l1) eqn:E1; try discriminate.
    destruct (seval m look l2) eqn:E2; try discriminate.
    apply in_app_or in Hy as [Hy|Hy]; eauto.
Qed.

Lemma eval_exact_lemma : forall sc rho t,
  binds sc rho t ->
  (forall m, (forall s, subterm s t -> (poly_val rho s < u128_bound)%N) ->
     eval m sc t = Ok (poly_val rho t)) /\
  (u128_term t -> (forall x, occurs x t -> (rho x < u128_bound)%N) ->
     ((exists s, subterm s t /\ (u128_bound <= poly_val rho s)%N) ->
        exists why, eval Checked sc t = Panic why) /\
     eval Wrapping sc t = Ok (poly_val rho t mod u128_bound)%N).
Proof.
  intros sc rho t H. split.
  - intros m F. rewrite (eval_binds _ _ _ _ H). now apply seval_fits.
  - intros U R. split.
    + intros (s & Hs & Hbig). rewrite (eval_binds _ _ _ _ H).
      destruct (seval_shape Checked (rsome rho) t) as [(n & E)|[(x & E)|(w & E)]]; eauto.
      * exfalso. apply seval_checked_fits in E; auto. apply E in Hs. lia.
      * apply seval_err_free in E as (y & pre & post & _ & _ & _ & Q). discriminate Q.
    + rewrite (eval_binds _ _ _ _ H). now apply seval_wrapping.
Qed.

(** ** C02: errors *)
Lemma lookup_none_iff sc x : number_scope sc -> lookup_num sc x = None <-> scope_get sc x = None.
Proof.
  intros H. unfold lookup_num. specialize (H x). destruct (scope_get sc x) as [u|]; [|tauto].
  specialize (H u eq_refl). split; [tauto|discriminate].
Qed.

Lemma eval_err_lemma : forall m sc t,
  number_scope sc ->
  (forall msg, eval m sc t = Err msg ->
     exists x, leftmost_unbound sc t x /\ msg = ("Variable '" ++ x ++ "' not found")%string) /\
  (forall x, occurs x t -> ~ bound_in sc x ->
     (exists msg, eval m sc t = Err msg) \/ (m = Checked /\ exists why, eval m sc t = Panic why)) /\
  eval m sc t <> Diverge.
Proof.
  intros m sc t H. rewrite (eval_number _ _ _ H). split; [|split].
  - intros msg E. apply seval_err_free in E as (x & pre & post & -> & V & P & Q).
    exists x. split; [|reflexivity]. exists pre, post. split; [exact V|]. split.
    + intros y Hy. unfold bound_in. rewrite <- (lookup_none_iff _ _ H). auto.
    + unfold bound_in. rewrite <- (lookup_none_iff _ _ H). auto.
  - intros x Hx Hn. unfold bound_in in Hn. rewrite <- (lookup_none_iff _ _ H) in Hn.
    destruct (seval_shape m (lookup_num sc) t) as [(n & E)|[(y & E)|(w & E)]]; eauto.
    + exfalso. apply Hn. eapply seval_ok_bound; eauto.
    + right. split; [|eauto]. destruct m; auto. exfalso. revert w E. clear.
      induction t as [v|n|x|l IHl r IHr|l IHl r IHr]; simpl; intros w E; try discriminate.
      * destruct (lookup_num sc x); discriminate.
      * destruct (seval Wrapping (lookup_num sc) l) eqn:El; simpl in *; eauto; try discriminate.
        destruct (seval Wrapping (lookup_num sc) r) eqn:Er; simpl in *; eauto; try discriminate.
        rewrite uadd_wrapping in E. discriminate.
      * destruct (seval Wrapping (lookup_num sc) l) eqn:El; simpl in *; eauto; try discriminate.
        destruct (seval Wrapping (lookup_num sc) r) eqn:Er; simpl in *; eauto; try discriminate.
        rewrite umul_wrapping in E. discriminate.
  - destruct (seval_shape m (lookup_num sc) t) as [(n & E)|[(y & E)|(w & E)]]; rewrite E; discriminate.
Qed.

(** ** C03: termination *)
Lemma eval_fuel_mono m sc f t : eval_fuel m sc f t <> Diverge -> eval_fuel m sc (S f) t = eval_fuel m sc f t.
Proof.
  revert t. induction f as [|f IHf]; intros t.
  - induction t as [v|n|x|l IHl r IHr|l IHl r IHr]; rewrite (eval_fuel_unfold _ _ 0), (eval_fuel_unfold _ _ 1); auto.
    + destruct (scope_get sc x); [congruence|auto].
    + destruct (eval_fuel m sc 0 l) eqn:El; simpl in *; try congruence;
        rewrite IHl by discriminate; simpl; auto.
      destruct (eval_fuel m sc 0 r) eqn:Er; simpl in *; try congruence;
        rewrite IHr by discriminate; simpl; auto.
    + destruct (eval_fuel m sc 0 l) eqn:El; simpl in *; try congruence;
        rewrite IHl by discriminate; simpl; auto.
      destruct (eval_fuel m sc 0 r) eqn:Er; simpl in *; try congruence;
        rewrite IHr by discriminate; simpl; auto.
  - induction t as [v|n|x|l IHl r IHr|l IHl r IHr];
      rewrite (eval_fuel_unfold _ _ (S (S f))), (eval_fuel_unfold _ _ (S f)); auto.
    + destruct (scope_get sc x); auto.
    + destruct (eval_fuel m sc (S f) l) eqn:El; simpl in *; try congruence;
        rewrite IHl by discriminate; simpl; auto.
      destruct (eval_fuel m sc (S f) r) eqn:Er; simpl in *; try congruence;
        rewrite IHr by discriminate; simpl; auto.
    + destruct (eval_fuel m sc (S f) l) eqn:El; simpl in *; try congruence;
        rewrite IHl by discriminate; simpl; auto.
      destruct (eval_fuel m sc (S f) r) eqn:Er; simpl in *; try congruence;
        rewrite IHr by discriminate; simpl; auto.
Qed.

Lemma eval_fuel_mono_le m sc f g t :
  f <= g -> eval_fuel m sc f t <> Diverge -> eval_fuel m sc g t = eval_fuel m sc f t.
Proof.
  induction 1 as [|g Hg IH]; intros H; auto.
  rewrite eval_fuel_mono; auto. rewrite IH; auto.
Qed.

(** If no bound variable of the scope changes between fuel [f] and [g], no term does. *)
Lemma eval_fuel_agree m sc f g t :
  (forall x, occurs x t -> eval_fuel m sc f (Var x) = eval_fuel m sc g (Var x)) ->
  eval_fuel m sc f t = eval_fuel m sc g t.
Proof.
  unfold occurs. induction t as [v|n|x|l IHl r IHr|l IHl r IHr]; intros H.
  - destruct f, g; reflexivity.
  - destruct f, g; reflexivity.
  - apply H. now left.
  - rewrite (eval_fuel_unfold _ _ f), (eval_fuel_unfold _ _ g).
    rewrite IHl, IHr; auto; intros; apply H; simpl; apply in_or_app; auto.
  - rewrite (eval_fuel_unfold _ _ f), (eval_fuel_unfold _ _ g).
    rewrite IHl, IHr; auto; intros; apply H; simpl; apply in_or_app; auto.
Qed.

Definition is_div (o : outcome N) : bool := match o with Diverge => true | _ => false end.
Lemma is_div_spec o : is_div o = true <-> o = Diverge.
Proof. destruct o; simpl; split; congruence. Qed.

(** Keys that diverge with fuel [f]. *)
Definition divs m sc f : list string := filter (fun x => is_div (eval_fuel m sc f (Var x))) (keys sc).

Lemma filter_le {A} (p q : A -> bool) l :
  (forall x, In x l -> q x = true -> p x = true) -> List.length (filter q l) <= List.length (filter p l).
Proof.
  induction l as [|x l IH]; simpl; intros H; auto.
  assert (IH' : List.length (filter q l) <= List.length (filter p l)) by (apply IH; auto).
  specialize (H x (or_introl eq_refl)).
  destruct (q x) eqn:Q, (p x) eqn:P; simpl; intuition (try congruence; lia).
Qed.

Lemma filter_eq_len {A} (p q : A -> bool) l :
  (forall x, In x l -> q x = true -> p x = true) ->
  List.length (filter q l) = List.length (filter p l) ->
  forall x, In x l -> q x = p x.
Proof.
  induction l as [|x l IH]; simpl; intros H E y Hy; [tauto|].
  assert (L : List.length (filter q l) <= List.length (filter p l)) by (apply filter_le; auto).
  pose proof (H x (or_introl eq_refl)) as Hx.
  destruct (q x) eqn:Q, (p x) eqn:P; simpl in E; try (specialize (Hx eq_refl); congruence).
  - destruct Hy as [<-|Hy]; [congruence|]. apply IH; auto.
  - lia.
  - destruct Hy as [<-|Hy]; [congruence|]. apply IH; auto.
Qed.

Lemma divs_dec m sc f x :
  is_div (eval_fuel m sc (S f) (Var x)) = true -> is_div (eval_fuel m sc f (Var x)) = true.
Proof.
  rewrite !is_div_spec. intros H. destruct (is_div (eval_fuel m sc f (Var x))) eqn:E.
  - now apply is_div_spec.
  - rewrite <- H. symmetry. apply eval_fuel_mono. intros C. apply is_div_spec in C. congruence.
Qed.

Definition stable m sc f := forall x, eval_fuel m sc f (Var x) = eval_fuel m sc (S f) (Var x).

Lemma stable_of_len m sc f : List.length (divs m sc (S f)) = List.length (divs m sc f) -> stable m sc f.
Proof.
  intros E x. unfold divs in E.
  destruct (scope_get sc x) as [u|] eqn:G.
  - assert (Hin : In x (keys sc)).
    { destruct (in_dec string_dec x (keys sc)); auto. exfalso.
      apply (mget_none _ str_cmp_strict) in n. unfold scope_get in G. congruence. }
    pose proof (filter_eq_len (fun x => is_div (eval_fuel m sc f (Var x)))
      (fun x => is_div (eval_fuel m sc (S f) (Var x))) (keys sc)
      (fun y _ => divs_dec m sc f y) E x Hin) as Hx. simpl in Hx.
    destruct (is_div (eval_fuel m sc f (Var x))) eqn:D.
    + apply is_div_spec in D. apply is_div_spec in Hx. congruence.
    + symmetry. apply eval_fuel_mono. intros C. apply is_div_spec in C. congruence.
  - rewrite !eval_fuel_unfold, G. reflexivity.
Qed.

Lemma stable_next m sc f : stable m sc f -> stable m sc (S f).
Proof.
  intros H x. rewrite (eval_fuel_unfold _ _ (S f)), (eval_fuel_unfold _ _ (S (S f))).
  destruct (scope_get sc x); auto. apply eval_fuel_agree. intros; apply H.
Qed.

Lemma stable_all m sc f t : stable m sc f -> forall g, f <= g -> eval_fuel m sc g t = eval_fuel m sc f t.
Proof.
  intros H g Hg.
  assert (Hs : forall k, stable m sc (f + k)).
  { induction k; [now rewrite Nat.add_0_r|]. rewrite Nat.add_succ_r. now apply stable_next. }
  replace g with (f + (g - f)) by lia. generalize (g - f) as k. clear g Hg.
  induction k; [now rewrite Nat.add_0_r|].
  rewrite Nat.add_succ_r, <- IHk. symmetry. apply eval_fuel_agree. intros; apply Hs.
Qed.

Lemma stable_at_len m sc : exists f, f <= List.length (keys sc) /\ stable m sc f.
Proof.
  assert (H : forall k, (exists f, f < k /\ stable m sc f) \/ List.length (divs m sc k) + k <= List.length (keys sc)).
  { induction k as [|k IH].
    - right. rewrite Nat.add_0_r. unfold divs.
      etransitivity; [apply (filter_le (fun _ => true)); auto|].
      clear. induction (keys sc); simpl; lia.
    - destruct IH as [(f & Hf & S')|IH]; [left; exists f; split; auto; lia|].
      destruct (Nat.eq_dec (List.length (divs m sc (S k))) (List.length (divs m sc k))) as [E|NE].
      + left. exists k. split; [lia|]. now apply stable_of_len.
      + right. assert (List.length (divs m sc (S k)) <= List.length (divs m sc k)).
        { apply filter_le. intros; now apply divs_dec. } lia. }
  destruct (H (S (List.length (keys sc)))) as [(f & Hf & S')|H']; [|lia].
  exists f. split; auto. lia.
Qed.

Lemma eval_stable m sc t g : scope_len sc <= g -> eval_fuel m sc g t = eval m sc t.
Proof.
  intros Hg. unfold eval. destruct (stable_at_len m sc) as (f & Hf & S').
  unfold keys in Hf. rewrite map_length in Hf. unfold scope_len in *.
  rewrite (stable_all m sc f t S' g) by lia. symmetry. apply stable_all; auto.
Qed.

Lemma evals_complete m sc t r : evals m sc t r -> exists f, eval_fuel m sc f t = r /\ r <> Diverge.
Proof.
  induction 1 as [n|n|x G|x u r G E IH|l r a b E1 IH1 E2 IH2|l r a b E1 IH1 E2 IH2
                 |op l r e Hop E IH Hno|op l r a e Hop E1 IH1 E2 IH2 Hno].
  - exists 0. split; [reflexivity|discriminate].
  - exists 0. split; [reflexivity|discriminate].
  - exists 0. rewrite eval_fuel_unfold, G. split; [reflexivity|discriminate].
  - destruct IH as (f & IH & D). exists (S f). rewrite eval_fuel_unfold, G. auto.
  - destruct IH1 as (f & IH1 & D1), IH2 as (g & IH2 & D2). exists (f + g). split.
    + rewrite eval_fuel_unfold.
      rewrite (eval_fuel_mono_le m sc f (f + g)) by (try lia; congruence).
      rewrite (eval_fuel_mono_le m sc g (f + g)) by (try lia; congruence).
      rewrite IH1, IH2. reflexivity.
    + unfold uadd. destruct (_ <? _)%N; [discriminate|]. destruct m; discriminate.
  - destruct IH1 as (f & IH1 & D1), IH2 as (g & IH2 & D2). exists (f + g). split.
    + rewrite eval_fuel_unfold.
      rewrite (eval_fuel_mono_le m sc f (f + g)) by (try lia; congruence).
      rewrite (eval_fuel_mono_le m sc g (f + g)) by (try lia; congruence).
      rewrite IH1, IH2. reflexivity.
    + unfold umul. destruct (_ <? _)%N; [discriminate|]. destruct m; discriminate.
  - destruct IH as (f & IH & D). exists f. split; auto.
    rewrite eval_fuel_unfold. destruct Hop; subst op; rewrite IH; destruct e; try reflexivity; discriminate.
  - destruct IH1 as (f & IH1 & D1), IH2 as (g & IH2 & D2). exists (f + g). split; auto.
    rewrite eval_fuel_unfold. destruct Hop; subst op;
      rewrite (eval_fuel_mono_le m sc f (f + g)) by (try lia; congruence);
      rewrite (eval_fuel_mono_le m sc g (f + g)) by (try lia; congruence);
      rewrite IH1, IH2; destruct e; try reflexivity; discriminate.
Qed.

Lemma evals_sound m sc f t r : eval_fuel m sc f t = r -> r <> Diverge -> evals m sc t r.
Proof.
  revert t r. induction f as [|f IHf].
  - induction t as [v|n|x|l IHl r IHr|l IHl r IHr]; intros res; rewrite eval_fuel_unfold; intros E D; subst res.
    + constructor.
    + constructor.
    + destruct (scope_get sc x) eqn:G; [congruence|]. now constructor.
    + destruct (eval_fuel m sc 0 l) eqn:El; simpl in *; try congruence;
        try (eapply ev_fail_l; [now left|apply IHl; congruence|reflexivity]).
      destruct (eval_fuel m sc 0 r) eqn:Er; simpl in *; try congruence;
        try (eapply ev_fail_r; [now left|apply IHl; [eauto|congruence]|apply IHr; congruence|reflexivity]).
      constructor; [apply IHl|apply IHr]; congruence.
    + destruct (eval_fuel m sc 0 l) eqn:El; simpl in *; try congruence;
        try (eapply ev_fail_l; [now right|apply IHl; congruence|reflexivity]).
      destruct (eval_fuel m sc 0 r) eqn:Er; simpl in *; try congruence;
        try (eapply ev_fail_r; [now right|apply IHl; [eauto|congruence]|apply IHr; congruence|reflexivity]).
      constructor; [apply IHl|apply IHr]; congruence.
  - induction t as [v|n|x|l IHl r IHr|l IHl r IHr]; intros res; rewrite eval_fuel_unfold; intros E D; subst res.
    + constructor.
    + constructor.
    + destruct (scope_get sc x) eqn:G; [|now constructor].
      eapply ev_var; eauto.
    + destruct (eval_fuel m sc (S f) l) eqn:El; simpl in *; try congruence;
        try (eapply ev_fail_l; [now left|apply IHl; congruence|reflexivity]).
      destruct (eval_fuel m sc (S f) r) eqn:Er; simpl in *; try congruence;
        try (eapply ev_fail_r; [now left|apply IHl; [eauto|congruence]|apply IHr; congruence|reflexivity]).
      constructor; [apply IHl|apply IHr]; congruence.
    + destruct (eval_fuel m sc (S f) l) eqn:El; simpl in *; try congruence;
        try (eapply ev_fail_l; [now right|apply IHl; congruence|reflexivity]).
      destruct (eval_fuel m sc (S f) r) eqn:Er; simpl in *; try congruence;
        try (eapply ev_fail_r; [now right|apply IHl; [eauto|congruence]|apply IHr; congruence|reflexivity]).
      constructor; [apply IHl|apply IHr]; congruence.
Qed.

Lemma eval_iff_evals m sc t r : r <> Diverge -> (eval m sc t = r <-> evals m sc t r).
Proof.
  intros D. split.
  - intros E. now apply (evals_sound m sc (scope_len sc)).
  - intros E. apply evals_complete in E as (f & E & _).
    destruct (Nat.le_ge_cases f (scope_len sc)) as [L|L].
    + unfold eval. rewrite (eval_fuel_mono_le m sc f) by congruence. exact E.
    + rewrite <- (eval_stable m sc t f L). exact E.
Qed.

(** Divergence comes from a diverging variable. *)
Lemma div_var m sc f t : eval_fuel m sc f t = Diverge -> exists x, occurs x t /\ eval_fuel m sc f (Var x) = Diverge.
Proof.
  unfold occurs. induction t as [v|n|x|l IHl r IHr|l IHl r IHr]; intros E.
  - destruct f; discriminate.
  - destruct f; discriminate.
  - exists x. split; [now left|exact E].
  - rewrite eval_fuel_unfold in E. destruct (eval_fuel m sc f l) eqn:El; simpl in E; try discriminate.
    + destruct (eval_fuel m sc f r) eqn:Er; simpl in E; try discriminate.
      * unfold uadd in E. destruct (_ <? _)%N; try discriminate. destruct m; discriminate.
      * destruct (IHr eq_refl) as (x & Hx & Ex). exists x. split; auto. simpl. apply in_or_app; auto.
    + destruct (IHl eq_refl) as (x & Hx & Ex). exists x. split; auto. simpl. apply in_or_app; auto.
  - rewrite eval_fuel_unfold in E. destruct (eval_fuel m sc f l) eqn:El; simpl in E; try discriminate.
    + destruct (eval_fuel m sc f r) eqn:Er; simpl in E; try discriminate.
      * unfold umul in E. destruct (_ <? _)%N; try discriminate. destruct m; discriminate.
      * destruct (IHr eq_refl) as (x & Hx & Ex). exists x. split; auto. simpl. apply in_or_app; auto.
    + destruct (IHl eq_refl) as (x & Hx & Ex). exists x. split; auto. simpl. apply in_or_app; auto.
Qed.

Lemma div_step m sc x :
  eval m sc (Var x) = Diverge ->
  exists u y, scope_get sc x = Some u /\ occurs y u /\ eval m sc (Var y) = Diverge.
Proof.
  intros E. rewrite <- (eval_stable m sc _ (S (scope_len sc))) in E by lia.
  rewrite eval_fuel_unfold in E. destruct (scope_get sc x) as [u|] eqn:G; [|discriminate].
  apply div_var in E as (y & Hy & Ey). exists u, y. auto.
Qed.

Lemma depends_plus_trans sc x y z : depends_plus sc x y -> depends_plus sc y z -> depends_plus sc x z.
Proof. induction 1; intros; eapply dp_more; eauto. Qed.

(** A chain [x0 -> x1 -> ... -> xk] of diverging variables, newest first. *)
Lemma div_chain m sc x k :
  eval m sc (Var x) = Diverge ->
  (exists z, (z = x \/ depends_plus sc x z) /\ depends_plus sc z z) \/
  exists l y, List.length l = k /\ NoDup (y :: l) /\ (forall z, In z (y :: l) -> In z (keys sc)) /\
    (forall z, In z l -> depends_plus sc z y) /\
    eval m sc (Var y) = Diverge /\ (y = x \/ depends_plus sc x y).
Proof.
  intros E. induction k as [|k IH].
  - right. exists [], x. split; [reflexivity|]. split; [constructor; [auto|constructor]|].
    split.
    + intros z [<-|[]]. destruct (div_step _ _ _ E) as (u & y & G & _).
      destruct (in_dec string_dec x (keys sc)); auto. exfalso.
      apply (mget_none _ str_cmp_strict) in n. unfold scope_get in G. congruence.
    + split; [intros z []|]. auto.
  - destruct IH as [IH|(l & y & L & ND & K & D & Ey & R)]; [now left|].
    destruct (div_step _ _ _ Ey) as (u & w & G & Hw & Ew).
    assert (Dyw : depends_plus sc y w) by (apply dp_one; exists u; auto).
    assert (Rw : depends_plus sc x w).
    { destruct R as [->|R]; auto. eapply depends_plus_trans; eauto. }
    destruct (in_dec string_dec w (y :: l)) as [Hin|Hnin].
    + left. exists w. split; auto. destruct Hin as [<-|Hin]; auto.
      eapply depends_plus_trans; [apply D; eauto|auto].
    + right. exists (y :: l), w. split; [simpl; lia|]. split; [now constructor|]. split.
      * intros z [<-|Hz]; auto. destruct (div_step _ _ _ Ew) as (u' & y' & G' & _).
        destruct (in_dec string_dec w (keys sc)); auto. exfalso.
        apply (mget_none _ str_cmp_strict) in n. unfold scope_get in G'. congruence.
      * split; [|auto]. intros z [<-|Hz]; auto. eapply depends_plus_trans; [apply D; eauto|auto].
Qed.

Lemma eval_cycle_lemma : forall m sc t,
  (forall r, r <> Diverge -> (eval m sc t = r <-> evals m sc t r)) /\
  (eval m sc t = Diverge ->
     (forall r, ~ evals m sc t r) /\ exists x, reaches sc t x /\ depends_plus sc x x).
Proof.
  intros m sc t. split; [intros; now apply eval_iff_evals|]. intros E. split.
  - intros r H. pose proof H as H'. apply evals_complete in H' as (f & _ & D).
    apply (eval_iff_evals m sc t r D) in H. congruence.
  - apply div_var in E as (x & Hx & Ex). change (eval m sc (Var x) = Diverge) in Ex.
    destruct (div_chain m sc x (List.length (keys sc)) Ex) as [(z & R & C)|(l & y & L & ND & K & _)].
    + exists z. split; auto. destruct R as [->|R]; [now left|right; eauto].
    + exfalso. assert (Hle : List.length (y :: l) <= List.length (keys sc)).
      { apply NoDup_incl_length; auto. }
      simpl in Hle. lia.
Qed.

(** ** C04: free and bound variables *)
Lemma set_union_in a b x : In x (set_union a b) <-> In x a \/ In x b.
Proof. unfold set_union. rewrite (sof_list_in _ str_cmp_strict). apply in_app_iff. Qed.

Lemma free_vars_in {T} (sc : scope (term T)) t x :
  In x (free_vars sc t) <-> occurs x t /\ ~ bound_in sc x.
Proof.
  unfold occurs, bound_in. induction t as [v|n|y|l IHl r IHr|l IHl r IHr]; simpl; try tauto.
  - destruct (scope_get sc y) eqn:G; simpl; split; try tauto.
    + intros [[->|[]] H]. apply H. congruence.
    + intros [->|[]]. rewrite G. split; [now left|tauto].
  - rewrite set_union_in, IHl, IHr, in_app_iff. tauto.
  - rewrite set_union_in, IHl, IHr, in_app_iff. tauto.
Qed.

Lemma bound_vars_in {T} (sc : scope (term T)) t x :
  In x (bound_vars sc t) <-> occurs x t /\ bound_in sc x.
Proof.
  unfold occurs, bound_in. induction t as [v|n|y|l IHl r IHr|l IHl r IHr]; simpl; try tauto.
  - destruct (scope_get sc y) eqn:G; simpl; split; try tauto.
    + intros [->|[]]. rewrite G. split; [now left|discriminate].
    + intros [[->|[]] H]. congruence.
  - rewrite set_union_in, IHl, IHr, in_app_iff. tauto.
  - rewrite set_union_in, IHl, IHr, in_app_iff. tauto.
Qed.

Lemma free_vars_sorted {T} (sc : scope (term T)) t : sorted_set str_cmp (free_vars sc t).
Proof.
  destruct t; simpl; try constructor; try apply sof_list_sorted; try apply str_cmp_strict.
  destruct (scope_get sc x); repeat constructor.
Qed.
Lemma bound_vars_sorted {T} (sc : scope (term T)) t : sorted_set str_cmp (bound_vars sc t).
Proof.
  destruct t; simpl; try constructor; try apply sof_list_sorted; try apply str_cmp_strict.
  destruct (scope_get sc x); repeat constructor.
Qed.

Lemma vars_split_lemma : forall (T : Type) (sc : scope (term T)) (t : term T),
  (forall x, In x (free_vars sc t) <-> occurs x t /\ ~ bound_in sc x) /\
  (forall x, In x (bound_vars sc t) <-> occurs x t /\ bound_in sc x) /\
  (forall x, ~ (In x (free_vars sc t) /\ In x (bound_vars sc t))) /\
  (forall x, occurs x t <-> In x (free_vars sc t) \/ In x (bound_vars sc t)) /\
  StronglySorted (fun a b => str_cmp a b = Lt) (free_vars sc t) /\
  StronglySorted (fun a b => str_cmp a b = Lt) (bound_vars sc t).
Proof.
  intros T sc t.
  split; [intros; apply free_vars_in|]. split; [intros; apply bound_vars_in|].
  split; [intros x; rewrite free_vars_in, bound_vars_in; tauto|].
  split.
  - intros x. rewrite free_vars_in, bound_vars_in.
    assert (bound_in sc x \/ ~ bound_in sc x) by (unfold bound_in; destruct (scope_get sc x); [left|right]; congruence).
    tauto.
  - split; [apply free_vars_sorted|apply bound_vars_sorted].
Qed.

(** ** C05: substitution *)
Lemma get_put_eq {T} (sc : scope T) x v : scope_get (put_var sc x v) x = Some v.
Proof. apply mget_minsert_eq, str_cmp_strict. Qed.
Lemma get_put_ne {T} (sc : scope T) x y v : x <> y -> scope_get (put_var sc x v) y = scope_get sc y.
Proof. intros. apply mget_minsert_ne; auto. apply str_cmp_strict. Qed.

Lemma seval_subst m look v s t :
  seval m look (substitute v s t) =
  (fix go t := match t with
     | Value n | Scalar n => Ok n
     | Var x => if String.eqb x v then seval m look s
                else match look x with Some n => Ok n | None => Err (not_found x) end
     | Add l r => let* a := go l in let* b := go r in uadd m a b
     | Mul l r => let* a := go l in let* b := go r in umul m a b
     end) t.
Proof.
  induction t as [w|n|x|l IHl r IHr|l IHl r IHr]; simpl; auto.
  - destruct (String.eqb x v); reflexivity.
  - now rewrite IHl, IHr.
  - now rewrite IHl, IHr.
Qed.

Lemma number_scope_put sc v n : number_scope sc -> number_scope (put_var sc v (Scalar n)).
Proof.
  intros H x u. destruct (string_dec v x) as [->|N'].
  - rewrite get_put_eq. inversion 1. discriminate.
  - rewrite get_put_ne by auto. apply H.
Qed.

Lemma lookup_put sc v n x :
  lookup_num (put_var sc v (Scalar n)) x = if String.eqb x v then Some n else lookup_num sc x.
Proof.
  unfold lookup_num. destruct (String.eqb_spec x v) as [->|N'].
  - now rewrite get_put_eq.
  - now rewrite get_put_ne by auto.
Qed.

Lemma subst_value_lemma m sc v s n t :
  number_scope sc -> eval m sc s = Ok n ->
  eval m sc (substitute v s t) = eval m (put_var sc v (Scalar n)) t.
Proof.
  intros H E. rewrite (eval_number _ _ _ H) in E. rewrite (eval_number _ _ _ H).
  rewrite (eval_number _ _ t (number_scope_put sc v n H)).
  rewrite seval_subst.
  induction t as [w|k|x|l IHl r IHr|l IHl r IHr]; simpl; auto.
  - rewrite lookup_put. destruct (String.eqb x v); auto.
  - now rewrite IHl, IHr.
  - now rewrite IHl, IHr.
Qed.

(** Binding the variable to the term itself, for terms that do not mention it. *)
Lemma eval_fuel_put_indep m sc v s f t :
  number_scope sc -> ~ occurs v t ->
  eval_fuel m (put_var sc v s) (S f) t = seval m (lookup_num sc) t.
Proof.
  intros H Hn. rewrite eval_fuel_number.
  - apply seval_ext. intros x Hx. unfold lookup_num. rewrite get_put_ne; auto. congruence.
  - intros x Hx u G. rewrite get_put_ne in G by congruence. eauto.
Qed.

Lemma subst_term_lemma m sc v s t :
  number_scope sc -> ~ occurs v s ->
  eval m sc (substitute v s t) = eval m (put_var sc v s) t.
Proof.
  intros H Hn. rewrite (eval_number _ _ _ H).
  rewrite <- (eval_stable m (put_var sc v s) t (S (S (scope_len (put_var sc v s))))) by lia.
  generalize (scope_len (put_var sc v s)) as f. intros f.
  rewrite seval_subst.
  induction t as [w|k|x|l IHl r IHr|l IHl r IHr]; rewrite eval_fuel_unfold; auto.
  - destruct (String.eqb_spec x v) as [->|N'].
    + rewrite get_put_eq. now rewrite eval_fuel_put_indep.
    + rewrite get_put_ne by auto. unfold lookup_num. destruct (scope_get sc x) as [u|] eqn:G; auto.
      specialize (H x u G). destruct u; simpl in *; try congruence; rewrite eval_fuel_unfold; reflexivity.
  - now rewrite IHl, IHr.
  - now rewrite IHl, IHr.
Qed.

Lemma subst_occurs_lemma {T} v (s t : term T) x :
  occurs x (substitute v s t) <-> (occurs x t /\ x <> v) \/ (occurs v t /\ occurs x s).
Proof.
  unfold occurs. induction t as [w|k|y|l IHl r IHr|l IHl r IHr]; simpl; try tauto.
  - destruct (String.eqb_spec y v) as [->|N']; simpl; intuition congruence.
  - rewrite !in_app_iff, IHl, IHr. tauto.
  - rewrite !in_app_iff, IHl, IHr. tauto.
Qed.
