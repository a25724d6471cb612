(** Proofs about the integer rank of a percentage. *)
From Coq Require Import ZArith NArith Reals Lra Lia Psatz Bool Floats.SpecFloat.
From Flocq Require Import Core IEEE754.BinarySingleNaN Relative.
From Verif Require Import Base F64 F64P SpecF64 PercentP CompareM SpecCompare.
Local Open Scope R_scope.

Definition clamp (z : Z) : Z := Z.max i128_min (Z.min i128_max z).

Lemma clamp_le a b : (a <= b)%Z -> (clamp a <= clamp b)%Z.
Proof. unfold clamp. lia. Qed.
Lemma clamp_id a : (- 2 ^ 127 <= a <= 2 ^ 127 - 1)%Z -> clamp a = a.
Proof. unfold clamp, i128_min, i128_max. lia. Qed.
Lemma clamp_nonneg a : (0 <= a)%Z -> (0 <= clamp a)%Z.
Proof.
  intros H. change 0%Z with (clamp 0). now apply clamp_le.
Qed.
Lemma clamp_nonpos a : (a <= 0)%Z -> (clamp a <= 0)%Z.
Proof. intros H. change 0%Z with (clamp 0). now apply clamp_le. Qed.

Lemma Ztrunc_pos_F2R m e : Ztrunc (F2R (Float radix2 (Zpos m) e)) =
  (if (0 <=? e)%Z then Zpos m * 2 ^ e else Zpos m / 2 ^ (- e))%Z.
Proof.
  unfold F2R. simpl. destruct (Z.leb_spec 0 e).
  - rewrite <- (IZR_Zpower radix2) by auto. rewrite <- mult_IZR. apply Ztrunc_IZR.
  - rewrite Ztrunc_floor.
    + rewrite <- (Z.opp_involutive e) at 1. rewrite bpow_opp, <- (IZR_Zpower radix2) by lia.
      apply Zfloor_div. apply Z.neq_sym, Z.lt_neq, (Z.pow_pos_nonneg 2); lia.
    + apply Rmult_le_pos; [apply IZR_le; lia|apply bpow_ge_0].
Qed.

Lemma isF_i128 x r : isF x r -> f64_to_i128 x = clamp (Ztrunc r).
Proof.
  intros (b & <- & F & <-). destruct b as [s|s| |s m e B]; simpl in *; try discriminate.
  - replace 0 with (IZR 0) by reflexivity. now rewrite Ztrunc_IZR.
  - fold (clamp (if s then - (if (0 <=? e)%Z then Z.pos m * 2 ^ e else Z.pos m / 2 ^ - e)
       else (if (0 <=? e)%Z then Z.pos m * 2 ^ e else Z.pos m / 2 ^ - e))%Z).
    f_equal. destruct s.
    + change (cond_Zopp true (Zpos m)) with (- Zpos m)%Z. rewrite F2R_Zopp, Ztrunc_opp. now rewrite Ztrunc_pos_F2R.
    + change (cond_Zopp false (Zpos m)) with (Zpos m). now rewrite Ztrunc_pos_F2R.
Qed.

Lemma isF_1000 : isF (f64_of_N 1000) 1000.
Proof.
  replace 1000 with (rN 1000).
  - apply isF_u128. rewrite u128_bound_eq. reflexivity.
  - rewrite rN_small by (vm_compute; discriminate). reflexivity.
Qed.

Lemma big_trunc r : bpow radix2 1024 <= r -> clamp (Ztrunc r) = i128_max.
Proof.
  intros H. assert (K : (2 ^ 127 <= Ztrunc r)%Z).
  { rewrite <- (Ztrunc_IZR (2 ^ 127)). apply Ztrunc_le.
    eapply Rle_trans; [|exact H]. change (IZR (2 ^ 127)) with (bpow radix2 127). apply bpow_le. lia. }
  unfold clamp, i128_min, i128_max. lia.
Qed.

Lemma mils_isF x r : isF x r -> mils x = clamp (Ztrunc (rnd (1000 * r))).
Proof.
  intros H. unfold mils.
  assert (Hm : isF x r) by exact H. destruct H as (bx & <- & Fx & <-).
  destruct isF_1000 as (bk & Ek & Fk & Rk). rewrite <- Ek, mul_equiv.
  pose proof (Bmult_correct prec emax Hprec Hmax mode_NE bx bk) as C.
  rewrite Rk, Rmult_comm in C. change (round radix2 (SpecFloat.fexp prec emax) (round_mode mode_NE) (1000 * B2R bx))
    with (rnd (1000 * B2R bx)) in C.
  destruct (Rlt_bool_spec (Rabs (rnd (1000 * B2R bx))) (bpow radix2 emax)) as [L|L].
  - destruct C as (C1 & C2 & _). rewrite Fx, Fk in C2. apply isF_i128. eexists. eauto.
  - rewrite C. simpl.
    assert (Sk : Bsign bk = false).
    { destruct bk as [s|s| |s m e B]; simpl in Fk, Rk |- *; try discriminate; auto.
      destruct s; auto. exfalso. revert Rk. unfold cond_Zopp.
        assert (F2R (Float radix2 (- Z.pos m) e) < 0) by (apply F2R_lt_0; reflexivity). lra. }
    rewrite Sk. rewrite xorb_false_r. unfold overflow_to_inf, binary_overflow. simpl.
    assert (G : 0 <= B2R bx -> Bsign bx = true -> False).
    { intros G S. destruct bx as [s|s| |s m e B]; simpl in Fx, S; try discriminate; subst s; simpl B2R in *.
      - rewrite Rmult_0_r, rnd_0, Rabs_R0 in L. pose proof (bpow_gt_0 radix2 emax). lra.
      - simpl in G. assert (F2R (Float radix2 (Z.neg m) e) < 0) by (apply F2R_lt_0; reflexivity). lra. }
    assert (G' : B2R bx <= 0 -> Bsign bx = false -> False).
    { intros G' S. destruct bx as [s|s| |s m e B]; simpl in Fx, S; try discriminate; subst s; simpl B2R in *.
      - rewrite Rmult_0_r, rnd_0, Rabs_R0 in L. pose proof (bpow_gt_0 radix2 emax). lra.
      - simpl in G'. assert (0 < F2R (Float radix2 (Z.pos m) e)) by (apply F2R_gt_0; reflexivity). lra. }
    destruct (Bsign bx) eqn:S; simpl.
    + assert (N1 : B2R bx < 0) by (destruct (Rlt_or_le (B2R bx) 0); auto; exfalso; auto).
      assert (N2 : rnd (1000 * B2R bx) <= 0) by (rewrite <- rnd_0; apply rnd_le; lra).
      rewrite Rabs_left1 in L by auto.
      assert (K : (2 ^ 127 <= Ztrunc (- rnd (1000 * B2R bx)))%Z).
      { rewrite <- (Ztrunc_IZR (2 ^ 127)). apply Ztrunc_le.
        eapply Rle_trans; [|exact L]. change (IZR (2 ^ 127)) with (bpow radix2 127). apply bpow_le. unfold emax. lia. }
      rewrite Ztrunc_opp in K. unfold clamp, i128_min, i128_max. lia.
    + assert (N1 : 0 < B2R bx) by (destruct (Rlt_or_le 0 (B2R bx)); auto; exfalso; auto).
      assert (N2 : 0 <= rnd (1000 * B2R bx)) by (rewrite <- rnd_0; apply rnd_le; lra).
      rewrite Rabs_pos_eq in L by auto. symmetry. now apply big_trunc.
Qed.

Lemma mils_mono_isF x y a b : isF x a -> isF y b -> a <= b -> (mils x <= mils y)%Z.
Proof.
  intros Hx Hy H. rewrite (mils_isF _ _ Hx), (mils_isF _ _ Hy). apply clamp_le, Ztrunc_le, rnd_le. lra.
Qed.

(** ** Arbitrary doubles *)
Lemma double_isF x r : is_double x -> has_value x r -> isF x r.
Proof.
  intros H V. exists (SF2B x H). split; [apply B2SF_SF2B|]. split.
  - rewrite is_finite_SF2B. destruct x; simpl in *; auto; contradiction.
  - rewrite B2R_SF2B. symmetry. apply (has_value_SF2R x r); auto. destruct x; simpl in *; auto; contradiction.
Qed.

Lemma mils_range x : (i128_min <= mils x <= i128_max)%Z.
Proof.
  unfold mils, f64_to_i128, i128_min, i128_max. destruct (f64_mul x _) as [s|s| |s m e]; try lia. destruct s; lia.
Qed.

Lemma mils_inf : mils (S754_infinity false) = i128_max /\ mils (S754_infinity true) = i128_min /\ mils S754_nan = 0%Z.
Proof. repeat split; vm_compute; reflexivity. Qed.

Lemma mils_mono : forall x y, is_double x -> is_double y -> f64_leq x y -> (mils x <= mils y)%Z.
Proof.
  destruct mils_inf as (I1 & I2 & _).
  intros x y Dx Dy H. pose proof (mils_range x). pose proof (mils_range y).
  assert (K : (exists a b, has_value x a /\ has_value y b /\ a <= b) -> (mils x <= mils y)%Z).
  { intros (a & b & A & B & L). apply (mils_mono_isF x y a b); auto using double_isF. }
  destruct x as [s|[]| |s m e]; destruct y as [s'|[]| |s' m' e']; simpl in H; try contradiction; try (now apply K); lia.
Qed.

Lemma trunc_err r : Rabs (IZR (Ztrunc r) - r) < 1.
Proof.
  destruct (Rle_or_lt 0 r) as [H|H].
  - rewrite Ztrunc_floor by auto. pose proof (Zfloor_lb r). pose proof (Zfloor_ub r). apply Rabs_lt. lra.
  - rewrite Ztrunc_ceil by lra. pose proof (Zceil_ub r).
    pose proof (Zceil_lb r). apply Rabs_lt. lra.
Qed.

Lemma mils_accuracy : forall x r, is_double x -> has_value x r -> Rabs r <= powerRZ 2 110 ->
  Rabs (IZR (mils x) - 1000 * r) < 1 + powerRZ 2 (-52) * (Rabs (1000 * r) + 1) /\
  (0 <= r -> (0 <= mils x)%Z) /\ (r <= 0 -> (mils x <= 0)%Z) /\
  (forall z, 1000 * r = IZR z -> (Z.abs z <= 2 ^ 53)%Z -> mils x = z).
Proof.
  intros x r D V B. pose proof (double_isF _ _ D V) as F. rewrite (mils_isF _ _ F).
  rewrite <- bpow_powerRZ in B.
  assert (BB : Rabs (rnd (1000 * r)) <= bpow radix2 120).
  { apply rnd_abs_lt; [lia|]. rewrite Rabs_mult, (Rabs_pos_eq 1000) by lra.
    change 120%Z with (10 + 110)%Z. rewrite bpow_plus. change (bpow radix2 10) with 1024.
    pose proof (Rabs_pos r). nra. }
  assert (C : clamp (Ztrunc (rnd (1000 * r))) = Ztrunc (rnd (1000 * r))).
  { apply clamp_id. change (bpow radix2 120) with (IZR (2 ^ 120)) in BB. apply Rabs_le_inv in BB as [B1 B2].
    apply Ztrunc_le in B1. apply Ztrunc_le in B2. rewrite <- opp_IZR, Ztrunc_IZR in B1. rewrite Ztrunc_IZR in B2.
    assert (2 ^ 120 <= 2 ^ 127 - 1)%Z by (vm_compute; discriminate). lia. }
  rewrite C. split; [|split; [|split]].
  - pose proof (trunc_err (rnd (1000 * r))) as T. pose proof (rnd_abs (1000 * r)) as R.
    rewrite <- bpow_powerRZ. assert (Hu : bpow radix2 (-52) = 2 * u).
    { unfold u. change (-52)%Z with (1 + -53)%Z. rewrite bpow_plus. reflexivity. }
    rewrite Hu. pose proof u_small as [U _]. pose proof (Rabs_pos (1000 * r)) as P.
    assert (0 <= u * Rabs (1000 * r)) by (apply Rmult_le_pos; lra).
    apply Rabs_lt. apply Rabs_lt_inv in T. apply Rabs_le_inv in R. lra.
  - intros H. rewrite <- (Ztrunc_IZR 0). apply Ztrunc_le. rewrite <- rnd_0 at 1. apply rnd_le. lra.
  - intros H. rewrite <- (Ztrunc_IZR 0). apply Ztrunc_le. rewrite <- rnd_0. apply rnd_le. lra.
  - intros z E Z. rewrite E, rnd_IZR by auto. apply Ztrunc_IZR.
Qed.

(** ** The order on changes *)
Lemma rel_rank_inj a b : rel_rank a = rel_rank b -> a = b.
Proof. destruct a, b; simpl; congruence || discriminate. Qed.

Lemma kind_below_rank a b : kind_below a b <-> (rel_rank a < rel_rank b)%N.
Proof. destruct a, b; cbn; split; intros; try lia; auto. Qed.

Lemma change_cmp_spec a b :
  (change_cmp a b = Lt <-> rank_lt a b) /\ (change_cmp a b = Gt <-> rank_lt b a) /\
  (change_cmp a b = Eq <-> tc_change a = tc_change b /\ mils (tc_percent a) = mils (tc_percent b)).
Proof.
  unfold change_cmp, rank_lt, rel_cmp. rewrite !kind_below_rank.
  destruct (N.compare_spec (rel_rank (tc_change a)) (rel_rank (tc_change b))) as [E|E|E].
  - apply rel_rank_inj in E. rewrite E.
    destruct (Z.compare_spec (mils (tc_percent a)) (mils (tc_percent b))) as [F|F|F];
      repeat split; intros; try discriminate; auto; try lia; destruct H as [H|[_ H]] || destruct H as [_ H]; lia.
  - assert (N : tc_change a <> tc_change b) by (intros K; rewrite K in E; lia).
    repeat split; intros; try discriminate; auto; try (destruct H as [H|[H _]]; [lia|congruence]); destruct H; congruence.
  - assert (N : tc_change a <> tc_change b) by (intros K; rewrite K in E; lia).
    repeat split; intros; try discriminate; auto; try (destruct H as [H|[H _]]; [lia|congruence]); destruct H; congruence.
Qed.

Lemma change_cmp_preorder : forall a b c,
  change_cmp a a = Eq /\ change_cmp b a = CompOpp (change_cmp a b) /\
  (change_cmp a b <> Gt -> change_cmp b c <> Gt -> change_cmp a c <> Gt) /\
  (change_cmp a b = Lt -> change_cmp b c <> Gt -> change_cmp a c = Lt) /\
  (change_cmp a b <> Gt -> change_cmp b c = Lt -> change_cmp a c = Lt) /\
  (change_cmp a b = Eq -> change_cmp a c = change_cmp b c).
Proof.
  assert (A : forall a b, change_cmp a b =
    match N.compare (rel_rank (tc_change a)) (rel_rank (tc_change b)) with
    | Eq => Z.compare (mils (tc_percent a)) (mils (tc_percent b)) | c => c end).
  { intros a b. unfold change_cmp, rel_cmp. destruct (N.compare _ _); reflexivity. }
  intros a b c. rewrite !A. generalize (rel_rank (tc_change a)) (rel_rank (tc_change b)) (rel_rank (tc_change c))
    (mils (tc_percent a)) (mils (tc_percent b)) (mils (tc_percent c)). intros ra rb rc pa pb pc.
  split; [rewrite N.compare_refl; apply Z.compare_refl|].
  split. { rewrite (N.compare_antisym ra rb), (Z.compare_antisym pa pb). destruct (N.compare ra rb); reflexivity. }
  destruct (N.compare_spec ra rb), (N.compare_spec rb rc), (N.compare_spec ra rc); try lia;
  destruct (Z.compare_spec pa pb), (Z.compare_spec pb pc), (Z.compare_spec pa pc); try lia;
  repeat split; intros; congruence.
Qed.
