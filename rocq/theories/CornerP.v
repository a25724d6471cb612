(** Proofs about the methods that look at one corner of the ranges only. *)
From Coq Require Import List String NArith ZArith Reals Lra Lia Bool Permutation Sorted Floats.SpecFloat.
From Flocq Require Import Core IEEE754.BinarySingleNaN.
From Verif Require Import Base ScopeM TermM SpecTerm TermP SpecChrom F64 F64P SpecF64 PercentP CompareM SpecCompare
  CompareP2 CompareP3 CompareP4 AffineP MilsP RowsM SpecRows RowsP SpecEnd SpecCorner EndP.
Import ListNotations.
Local Open Scope R_scope.

Lemma corner_sides meth s : looks_at meth s -> low_side meth = s /\ high_side meth = s.
Proof. destruct meth; cbn; intros H; subst; auto; contradiction. Qed.

Lemma corner_same d o n meth s rho sc e : looks_at meth s -> at_corner s d (Some o) (Some n) rho ->
  is_corner (storage_scope d) (Some o) (Some n) meth sc -> Some o = Some e \/ Some n = Some e ->
  poly_val (rho_of sc) (eterm e) = poly_val rho (eterm e).
Proof.
  intros M (R & W & A) C He. destruct (corner_sides _ _ M) as [L H]. destruct (corner_storage _ _ _ _ _ C) as [R' W'].
  apply poly_val_ext. intros x Hx.
  destruct (string_dec x "READ") as [->|N1]; [rewrite R; now apply rho_get|].
  destruct (string_dec x "WRITE") as [->|N2]; [rewrite W; now apply rho_get|].
  assert (K : SpecCompare.component storage_var (Some o) (Some n) x) by (split; [eauto|intros [K|K]; congruence]).
  destruct C as (_ & C & _). destruct (C x) as (v & G & V); [now apply component_storage|].
  rewrite (rho_get _ _ _ G). rewrite L, H in V. destruct V as [V|V]; exact (inst_fun _ _ _ _ V (A x K)).
Qed.

Lemma corner_point m ord o n meth s d tc rho : is_order ord -> looks_at meth s -> typed o -> typed n ->
  compare_extrinsics m ord (Some o) (Some n) {| p_method := meth; p_unit := d |} = Ok tc ->
  at_corner s d (Some o) (Some n) rho ->
  (poly_val rho (eterm o) < u128_bound)%N -> (poly_val rho (eterm n) < u128_bound)%N ->
  tc_old_v tc = Some (poly_val rho (eterm o)) /\ tc_new_v tc = Some (poly_val rho (eterm n)) /\
  tc_percent tc = percent (poly_val rho (eterm o)) (poly_val rho (eterm n)).
Proof.
  intros Ho M To Tn E Hr B1 B2.
  destruct (worst_corner_lemma _ _ _ _ _ _ Ho E) as (pre & post & vo & vn & _ & Hi & [A1 A2] & Vo & Vn & Ep & _).
  cbn [p_unit p_method] in *.
  assert (C : is_corner (storage_scope d) (Some o) (Some n) meth (tc_scope tc)) by (apply Hi, in_elt).
  assert (T : forall e, Some o = Some e \/ Some n = Some e -> typed e) by (intros e [K|K]; inversion K; subst; auto).
  pose proof (corner_same d o n meth s rho _ o M Hr C (or_introl eq_refl)) as S1.
  pose proof (corner_same d o n meth s rho _ n M Hr C (or_intror eq_refl)) as S2.
  rewrite (eval_effective _ _ _ _ m _ _ C) in A1. rewrite (eval_effective _ _ _ _ m _ _ C) in A2.
  destruct (corner_value m d _ _ _ _ o vo T C (or_introl eq_refl) A1) as [_ Wo].
  destruct (corner_value m d _ _ _ _ n vn T C (or_intror eq_refl) A2) as [_ Wn].
  rewrite S1 in Wo. rewrite S2 in Wn. rewrite Wo in * by (right; exact B1). rewrite Wn in * by (right; exact B2). auto.
Qed.

Lemma corner_changed m ord o n ps tc rho s : is_order ord -> compare_extrinsics m ord (Some o) (Some n) ps = Ok tc ->
  distinct_names (eterm o) (eterm n) -> at_corner s (p_unit ps) (Some o) (Some n) rho ->
  poly_val rho (eterm o) <> poly_val rho (eterm n) -> tc_change tc = Changed.
Proof.
  intros Ho E D (R & W & _) N. destruct (change_kind_lemma _ _ _ _ _ _ Ho E) as (_ & _ & _ & K).
  apply K. split; [discriminate|]. split; [discriminate|]. intros (o' & n' & [= <-] & [= <-] & S).
  apply N. exact (same_value (p_unit ps) _ _ rho D S R W).
Qed.

Lemma corner_shown : forall m ords rx olds news meth s d f rows k o n rho z, (forall k, is_order (ords k)) ->
  looks_at meth s -> compare_files m ords rx olds news {| p_method := meth; p_unit := d |} f = Ok rows ->
  threshold_mils (f_threshold f) z -> kind_selected f Changed ->
  is_first olds k (Some o) -> is_first news k (Some n) ->
  passes rx (f_pallet f) (fst k) -> passes rx (f_extrinsic f) (snd k) ->
  sane d (in_dim d o) (in_dim d n) s -> at_corner s d (Some (in_dim d o)) (Some (in_dim d n)) rho ->
  let v := poly_val rho (restrict d (eterm o)) in let w := poly_val rho (restrict d (eterm n)) in
  differs (IZR z / 1000) v w ->
  exists r, In r (filter_changes rows f) /\ row_key r = k /\
    (is_failed r \/ exists c, reports r c /\ tc_change c = Changed /\ tc_old_v c = Some v /\ tc_new_v c = Some w /\ tc_percent c = percent v w).
Proof.
  intros m ords rx olds news meth s d f rows k o n rho z Ho M E HT S Fo Fn Pp Pe (To & Tn & D & B) Hr v w G.
  destruct (row_present _ _ _ _ _ _ _ _ _ _ _ E Fo Fn Pp Pe) as (r & I & K & R). exists r.
  destruct (threshold_isF _ _ HT) as (FT & _ & PT). destruct (B rho Hr) as [V1 W1].
  assert (Q : relevant f r /\ (is_failed r \/ exists c, reports r c /\ tc_change c = Changed /\ tc_old_v c = Some v /\ tc_new_v c = Some w /\ tc_percent c = percent v w)).
  { apply row_of_cases in R as [F|(tc & C & R)].
    - assert (is_failed r) by exact F. split; now left.
    - cbn [p_unit] in C. assert (R' : reports r tc) by exact R.
      destruct (corner_point m (ords k) _ _ meth s d tc rho (Ho k) M To Tn C Hr V1 W1) as (Vo & Vn & Ep).
      cbn [eterm in_dim] in *. fold v w in Vo, Vn, Ep, V1, W1.
      assert (N : v <> w).
      { destruct G as [G|[G0 G]]; [lia|]. intros Q. pose proof (slack_pos v w G0). rewrite <- Q, rel_same, Rabs_R0 in G by auto. rewrite <- Q in H. lra. }
      assert (Kc : tc_change tc = Changed) by (eapply (corner_changed m (ords k) _ _ _ tc rho s); eauto).
      split; [|right; exists tc; auto].
      eapply relevant_changed; eauto. rewrite Ep. intros [_ Nb]. apply Nb.
      destruct G as [[G0 G1]|[G0 G]].
      + rewrite G0, percent_zero_pos by (auto; lia). apply (isF_leq_inf _ _ FT).
      + destruct (percent_close v w (conj G0 V1) W1) as (p & Hp & Bp).
        apply (isF_leq _ _ (IZR z / 1000) (Rabs p)); auto.
        * apply abs_isF, double_isF; auto. apply percent_double.
        * revert G. unfold Rabs. destruct (Rcase_abs (rel_change_of v w)), (Rcase_abs p); lra. }
  destruct Q as [Q1 Q2]. split; auto.
  apply (selects_in (relevant f) rows _ r); auto.
  apply filter_lemma; [eapply threshold_double; eauto|eapply typed_lemma; eauto].
Qed.

Lemma corner_real : forall m ords rx olds news meth s d f rows r c o n rho z, (forall k, is_order (ords k)) ->
  looks_at meth s -> compare_files m ords rx olds news {| p_method := meth; p_unit := d |} f = Ok rows ->
  threshold_mils (f_threshold f) z -> In r (filter_changes rows f) -> reports r c -> tc_change c = Changed ->
  is_first olds (row_key r) (Some o) -> is_first news (row_key r) (Some n) ->
  sane d (in_dim d o) (in_dim d n) s -> at_corner s d (Some (in_dim d o)) (Some (in_dim d n)) rho ->
  let v := poly_val rho (restrict d (eterm o)) in let w := poly_val rho (restrict d (eterm n)) in
  tc_old_v c = Some v /\ tc_new_v c = Some w /\ tc_percent c = percent v w /\
  ((0 < v)%N -> IZR z / 1000 - slack v w <= Rabs (rel_change_of v w)).
Proof.
  intros m ords rx olds news meth s d f rows r c o n rho z Ho M E HT I Rp Kc Fo Fn (To & Tn & D & B) Hr v w.
  assert (Ty : typed_rows rows) by (eapply typed_lemma; eauto).
  pose proof (first_lemma _ _ _ _ _ _ _ _ _ _ _ E (filter_in _ _ _ I) Fo Fn) as R.
  apply row_of_cases in R as [(e & F)|(tc & C & R)].
  - destruct (reports_not_failed _ _ Rp). eexists; eauto.
  - cbn [p_unit] in C. assert (c = tc) by (eapply reports_fun; eauto; exact R). subst tc.
    destruct (B rho Hr) as [V1 W].
    destruct (corner_point m (ords _) _ _ meth s d c rho (Ho _) M To Tn C Hr V1 W) as (Vo & Vn & Ep).
    cbn [eterm in_dim] in *. fold v w in Vo, Vn, Ep, V1, W. split; auto. split; auto. split; auto. intros V0.
    destruct (percent_close _ _ (conj V0 V1) W) as (p & Hp & Bp). rewrite <- Ep in Hp.
    assert (Dp : is_double (tc_percent c)) by (rewrite Ep; apply percent_double).
    destruct (threshold_isF _ _ HT) as (FT & _ & PT).
    assert (L : f64_leq (f_threshold f) (f64_abs (tc_percent c))).
    { eapply kept_lemma; eauto; try (eapply threshold_double; eassumption).
      - intros Q. rewrite Q in FT. destruct HT as (_ & _ & VT). rewrite Q in VT. exact VT.
      - intros Q. rewrite Q in Hp. exact Hp. }
    pose proof (isF_has_value _ _ (abs_isF _ _ (double_isF _ _ Dp Hp))) as HA.
    assert (Lr : IZR z / 1000 <= Rabs p).
    { destruct HT as (_ & _ & VT). revert L VT HA. generalize (f64_abs (tc_percent c)) (f_threshold f). intros a b L VT HA.
      destruct a, b; cbn [has_value] in VT, HA; try contradiction; cbn [f64_leq] in L; destruct L as (x & y & Lx & Ly & Lxy);
        cbn [has_value] in Lx, Ly; rewrite VT, HA; lra. }
    revert Lr. unfold Rabs. destruct (Rcase_abs (rel_change_of v w)), (Rcase_abs p); lra.
Qed.
