(** Proofs about [percent]. *)
From Coq Require Import ZArith NArith Reals Lra Lia Psatz Bool Floats.SpecFloat.
From Flocq Require Import Core IEEE754.BinarySingleNaN Relative.
From Verif Require Import Base F64 F64P SpecF64.
Local Open Scope R_scope.

Lemma bpow_powerRZ e : bpow radix2 e = powerRZ 2 e.
Proof. now rewrite bpow_powerRZ. Qed.

Lemma has_value_SF2R x r : is_finite_SF x = true -> (has_value x r <-> r = SF2R radix2 x).
Proof.
  destruct x as [s|s| |s m e]; simpl; try discriminate; intros _; [tauto|].
  unfold F2R. simpl. rewrite bpow_powerRZ.
  destruct s; simpl; split; intros ->; try lra.
  all: try (change (Z.neg m) with (- Z.pos m)%Z; rewrite opp_IZR; lra).
Qed.

Lemma isF_has_value x r : isF x r -> has_value x r.
Proof.
  intros H. apply has_value_SF2R.
  - eapply isF_finite; eauto.
  - symmetry. now apply isF_SF2R.
Qed.

Lemma has_value_fun x a b : has_value x a -> has_value x b -> a = b.
Proof. destruct x; simpl; congruence || tauto. Qed.

Lemma isF_leq x y a b : isF x a -> isF y b -> a <= b -> f64_leq x y.
Proof.
  intros Hx Hy L. pose proof (isF_has_value _ _ Hx) as Vx. pose proof (isF_has_value _ _ Hy) as Vy.
  destruct x; destruct y; simpl in Vx, Vy; try tauto; simpl; exists a, b; simpl; auto.
Qed.

Lemma isF_leq_inf x a : isF x a -> f64_leq x (S754_infinity false).
Proof. intros (b & <- & F & _). destruct b as [s|s| |s m e B]; simpl in *; try discriminate; auto; destruct s; auto. Qed.

Lemma f64_leq_SFleb x y : isF x (SF2R radix2 x) -> isF y (SF2R radix2 y) -> f64_leq x y <-> SFleb x y = true.
Proof.
  intros Hx Hy. rewrite (isF_le _ _ _ _ Hx Hy). split.
  - intros L. apply Rle_bool_true.
    pose proof (isF_has_value _ _ Hx) as Vx. pose proof (isF_has_value _ _ Hy) as Vy.
    assert (H : exists a b, has_value x a /\ has_value y b /\ a <= b).
    { destruct x; destruct y; simpl in Vx, Vy; try tauto; exact L. }
    destruct H as (a & b & Ha & Hb & L').
    now rewrite (has_value_fun _ _ _ Vx Ha), (has_value_fun _ _ _ Vy Hb).
  - intros L. apply (isF_leq _ _ _ _ Hx Hy).
    destruct (Rle_bool_spec (SF2R radix2 x) (SF2R radix2 y)); congruence || lra.
Qed.

(** ** The chain of roundings in [percent]. *)
Definition rN (n : N) : R := rnd (RN n).

Lemma u128_le_bpow n : (n < u128_bound)%N -> 0 <= RN n <= bpow radix2 128.
Proof.
  intros H. rewrite u128_bound_eq in H. unfold RN. split.
  - apply IZR_le. lia.
  - change (bpow radix2 128) with (IZR (2 ^ 128)). apply IZR_le.
    change (2 ^ 128)%Z with (Z.of_N (2 ^ 128)). lia.
Qed.

Lemma isF_u128 n : (n < u128_bound)%N -> isF (f64_of_N n) (rN n).
Proof.
  intros H. apply isF_of_N. rewrite u128_bound_eq in H.
  eapply N.le_trans; [apply N.lt_le_incl, H|]. apply N.pow_le_mono_r; lia.
Qed.

Lemma rN_bounds n : (n < u128_bound)%N -> 0 <= rN n <= bpow radix2 128.
Proof.
  intros H. apply u128_le_bpow in H. unfold rN. split.
  - rewrite <- rnd_0. now apply rnd_le.
  - rewrite <- (rnd_bpow 128) by lia. now apply rnd_le.
Qed.

Lemma rN_pos n : (0 < n)%N -> 1 <= rN n.
Proof.
  intros H. unfold rN. rewrite <- (rnd_IZR 1) by lia. apply rnd_le.
  unfold RN. apply IZR_le. lia.
Qed.

Lemma rN_le a b : (a <= b)%N -> rN a <= rN b.
Proof. intros H. apply rnd_le. unfold RN. apply IZR_le. lia. Qed.

Lemma rN_0 : rN 0 = 0.
Proof. apply rnd_0. Qed.

Lemma rN_small n : (n <= 2 ^ 53)%N -> rN n = RN n.
Proof. intros H. unfold rN, RN. apply rnd_IZR. change (2 ^ 53)%Z with (Z.of_N (2 ^ 53)). lia. Qed.

Lemma isF_100 : isF (f64_of_N 100) 100.
Proof.
  replace 100 with (rN 100).
  - apply isF_u128. rewrite u128_bound_eq. reflexivity.
  - rewrite rN_small by (vm_compute; discriminate). reflexivity.
Qed.

Definition quot (o n : R) : R := rnd (n / o).
Definition pval (o n : R) : R := rnd (rnd (100 * quot o n) - 100).

Lemma ratio_bounds o n : 1 <= o -> 0 <= n <= bpow radix2 128 -> 0 <= n / o <= bpow radix2 128.
Proof.
  intros Ho [Hn Hn']. assert (0 < / o <= 1).
  { split; [apply Rinv_0_lt_compat; lra|]. rewrite <- Rinv_1. apply Rinv_le; lra. }
  unfold Rdiv. split; [apply Rmult_le_pos; lra|]. nra.
Qed.

Lemma quot_bounds o n : 1 <= o -> 0 <= n <= bpow radix2 128 -> 0 <= quot o n <= bpow radix2 128.
Proof.
  intros Ho Hn. destruct (ratio_bounds o n Ho Hn) as [H1 H2]. unfold quot. split.
  - rewrite <- rnd_0. now apply rnd_le.
  - rewrite <- (rnd_bpow 128) by lia. now apply rnd_le.
Qed.

Lemma bpow_128_135 : 100 * bpow radix2 128 <= bpow radix2 135.
Proof.
  change (bpow radix2 128) with (IZR (2 ^ 128)). change (bpow radix2 135) with (IZR (2 ^ 135)).
  rewrite <- mult_IZR. apply IZR_le. vm_compute. discriminate.
Qed.

Lemma prod_bounds o n : 1 <= o -> 0 <= n <= bpow radix2 128 -> 0 <= rnd (100 * quot o n) <= bpow radix2 135.
Proof.
  intros Ho Hn. destruct (quot_bounds o n Ho Hn) as [H1 H2]. split.
  - rewrite <- rnd_0. apply rnd_le. lra.
  - rewrite <- (rnd_bpow 135) by lia. apply rnd_le. pose proof bpow_128_135. lra.
Qed.

Lemma bpow_135_big : 100 <= bpow radix2 135.
Proof. change (bpow radix2 135) with (IZR (2 ^ 135)). apply IZR_le. vm_compute. discriminate. Qed.

Lemma percent_isF o n : (o < u128_bound)%N -> (n < u128_bound)%N -> (0 < o)%N ->
  isF (percent o n) (pval (rN o) (rN n)).
Proof.
  intros Ho Hn Hp. pose proof (rN_pos o Hp) as Po. pose proof (rN_bounds n Hn) as Bn.
  unfold percent, pval. apply (isF_sub _ _ _ _ 135); try lia.
  - apply (isF_mul _ _ _ _ 135); try lia; [apply isF_100| |].
    + apply (isF_div _ _ _ _ 128); try lia; try (now apply isF_u128).
      * lra.
      * destruct (ratio_bounds _ _ Po Bn). rewrite Rabs_pos_eq by lra. lra.
    + destruct (quot_bounds _ _ Po Bn). pose proof bpow_128_135.
      unfold quot in *. rewrite Rabs_pos_eq by lra. lra.
  - apply isF_100.
  - destruct (prod_bounds _ _ Po Bn) as [H1 H2]. pose proof bpow_135_big. unfold quot in *.
    apply Rabs_le. lra.
Qed.

Lemma pval_mono o n o' n' : 1 <= o -> 1 <= o' -> n / o <= n' / o' -> pval o n <= pval o' n'.
Proof.
  intros Ho Ho' H. unfold pval, quot. apply rnd_le. apply Rplus_le_compat_r. apply rnd_le.
  apply Rmult_le_compat_l; [lra|]. now apply rnd_le.
Qed.

Lemma pval_same o : 1 <= o -> pval o o = 0.
Proof.
  intros H. unfold pval, quot. replace (o / o) with 1 by (field; lra).
  rewrite (rnd_IZR 1) by lia. rewrite Rmult_1_r, (rnd_IZR 100) by lia.
  replace (100 - 100) with 0 by lra. apply rnd_0.
Qed.

Lemma pval_zero o : 1 <= o -> pval o 0 = -100.
Proof.
  intros H. unfold pval, quot. unfold Rdiv. rewrite Rmult_0_l, rnd_0, Rmult_0_r, rnd_0.
  replace (0 - 100) with (-100) by lra. apply (rnd_IZR (-100)). lia.
Qed.

Lemma pval_ge o n : 1 <= o -> 0 <= n -> -100 <= pval o n.
Proof.
  intros Ho Hn. rewrite <- (pval_zero o Ho). apply pval_mono; auto.
  unfold Rdiv. rewrite Rmult_0_l. apply Rmult_le_pos; auto. left. apply Rinv_0_lt_compat. lra.
Qed.

Lemma f64_of_pos n : (n < u128_bound)%N -> (0 < n)%N -> exists m e, f64_of_N n = S754_finite false m e.
Proof.
  intros H P. apply (isF_pos _ (rN n)); [now apply isF_u128|]. pose proof (rN_pos n P). lra.
Qed.

Lemma percent_zero_zero : percent 0 0 = S754_nan.
Proof. reflexivity. Qed.

Lemma percent_zero_pos n : (n < u128_bound)%N -> (0 < n)%N -> percent 0 n = S754_infinity false.
Proof.
  intros H P. unfold percent. destruct (f64_of_pos n H P) as (m & e & ->).
  reflexivity.
Qed.


Lemma percent_value o n : (o < u128_bound)%N -> (n < u128_bound)%N -> (0 < o)%N ->
  has_value (percent o n) (pval (rN o) (rN n)).
Proof. intros. apply isF_has_value. now apply percent_isF. Qed.

Lemma percent_special_lemma : forall old new, (old < u128_bound)%N -> (new < u128_bound)%N ->
  (percent old new = S754_nan <-> old = 0%N /\ new = 0%N) /\
  (percent old new = S754_infinity false <-> old = 0%N /\ (0 < new)%N) /\
  percent old new <> S754_infinity true /\
  ((0 < old)%N -> exists r, has_value (percent old new) r /\ -100 <= r) /\
  ((0 < old)%N -> old = new -> has_value (percent old new) 0) /\
  ((0 < old)%N -> new = 0%N -> has_value (percent old new) (-100)).
Proof.
  intros o n Ho Hn. destruct (N.eq_dec o 0) as [->|No].
  - destruct (N.eq_dec n 0) as [->|Nn].
    + rewrite percent_zero_zero. repeat split; intros; try lia; try discriminate.
    + rewrite percent_zero_pos by lia. repeat split; intros; try lia; try discriminate.
  - assert (P : (0 < o)%N) by lia. pose proof (percent_value o n Ho Hn P) as V.
    pose proof (rN_pos o P) as Po. pose proof (rN_bounds n Hn) as Bn.
    assert (NF : forall x, x = S754_nan \/ x = S754_infinity true \/ x = S754_infinity false -> percent o n <> x).
    { intros x [->|[->| ->]] E; rewrite E in V; exact V. }
    split; [|split; [|split; [|split; [|split]]]].
    + split; [intros E; now apply NF in E; auto|lia].
    + split; [intros E; now apply NF in E; auto|lia].
    + apply NF; auto.
    + intros _. eexists. split; [exact V|]. apply pval_ge; tauto.
    + intros _ <-. now rewrite pval_same in V.
    + intros _ ->. now rewrite rN_0, pval_zero in V.
Qed.

Lemma div_le_cross o n o' n' : 0 < o -> 0 < o' -> n * o' <= n' * o -> n / o <= n' / o'.
Proof.
  intros Ho Ho' H. apply Rmult_le_reg_r with o; auto. apply Rmult_le_reg_r with o'; auto.
  replace (n / o * o * o') with (n * o') by (field; lra).
  replace (n' / o' * o * o') with (n' * o) by (field; lra). exact H.
Qed.

Lemma percent_leq o n o' n' :
  (o < u128_bound)%N -> (n < u128_bound)%N -> (o' < u128_bound)%N -> (n' < u128_bound)%N ->
  (0 < o)%N -> (0 < o')%N -> rN n * rN o' <= rN n' * rN o ->
  f64_leq (percent o n) (percent o' n').
Proof.
  intros Ho Hn Ho' Hn' P P' H. pose proof (rN_pos o P). pose proof (rN_pos o' P').
  eapply isF_leq; [apply percent_isF; auto|apply percent_isF; auto|].
  apply pval_mono; auto. apply div_le_cross; lra.
Qed.

Lemma percent_mono_new o n n' : (o < u128_bound)%N -> (n' < u128_bound)%N -> (0 < o)%N -> (n <= n')%N ->
  f64_leq (percent o n) (percent o n').
Proof.
  intros. apply percent_leq; auto; try lia. apply Rmult_le_compat_r.
  - pose proof (rN_pos o). lra || (assert (1 <= rN o) by (apply rN_pos; auto); lra).
  - now apply rN_le.
Qed.

Lemma percent_mono_old o o' n : (o' < u128_bound)%N -> (n < u128_bound)%N -> (0 < n)%N -> (o <= o')%N ->
  f64_leq (percent o' n) (percent o n).
Proof.
  intros Ho Hn P L. destruct (N.eq_dec o 0) as [->|No].
  - rewrite percent_zero_pos by auto. destruct (N.eq_dec o' 0) as [->|No'].
    + rewrite percent_zero_pos by auto. exact I.
    + eapply isF_leq_inf. apply percent_isF; lia.
  - apply percent_leq; auto; try lia. apply Rmult_le_compat_l; [apply rN_bounds; auto|].
    now apply rN_le.
Qed.

Lemma percent_mono_ratio o n o' n' :
  (0 < o <= 2 ^ 53)%N -> (0 < o' <= 2 ^ 53)%N -> (n <= 2 ^ 53)%N -> (n' <= 2 ^ 53)%N ->
  (n * o' <= n' * o)%N -> f64_leq (percent o n) (percent o' n').
Proof.
  assert (B : forall k, (k <= 2 ^ 53)%N -> (k < u128_bound)%N).
  { intros k Hk. rewrite u128_bound_eq. eapply N.le_lt_trans; [exact Hk|reflexivity]. }
  intros [P Ho] [P' Ho'] Hn Hn' H. apply percent_leq; auto.
  rewrite !rN_small by assumption. unfold RN. rewrite <- !mult_IZR, <- !N2Z.inj_mul. apply IZR_le. lia.
Qed.

Lemma percent_sign_lemma o n : (o < u128_bound)%N -> (n < u128_bound)%N -> (0 < o)%N ->
  ((o <= n)%N -> exists r, has_value (percent o n) r /\ 0 <= r) /\
  ((n <= o)%N -> exists r, has_value (percent o n) r /\ r <= 0).
Proof.
  intros Ho Hn P. pose proof (rN_pos o P) as Po. split; intros L; eexists; (split; [now apply percent_value|]).
  - rewrite <- (pval_same (rN o) Po). apply pval_mono; auto. apply Rmult_le_compat_r.
    + left. apply Rinv_0_lt_compat. lra.
    + now apply rN_le.
  - rewrite <- (pval_same (rN o) Po). apply pval_mono; auto. apply Rmult_le_compat_r.
    + left. apply Rinv_0_lt_compat. lra.
    + now apply rN_le.
Qed.

(** *** Strict sign for moderate values *)
Lemma generic_scaled z e : (Z.abs z <= 2 ^ 53)%Z -> (-1074 <= e)%Z -> rnd (IZR z * bpow radix2 e) = IZR z * bpow radix2 e.
Proof.
  intros Hz He. apply round_generic; [apply valid_rnd_N|].
  change (SpecFloat.fexp prec emax) with (FLT_exp (-1074) 53). apply generic_format_FLT.
  destruct (Z.eq_dec (Z.abs z) (2 ^ 53)) as [E|NE].
  - exists (Float radix2 (Z.sgn z) (53 + e)).
    + unfold F2R. cbn [Fnum Fexp]. rewrite bpow_plus, <- Rmult_assoc. f_equal.
      change (bpow radix2 53) with (IZR (2 ^ 53)).
      rewrite <- mult_IZR. f_equal. rewrite <- E. symmetry; rewrite Z.mul_comm; apply Z.abs_sgn.
    + simpl Fnum. destruct z; simpl; lia.
    + cbn [Fexp]. lia.
  - exists (Float radix2 z e).
    + reflexivity.
    + simpl Fnum. change (Zpower radix2 53) with (2 ^ 53)%Z. lia.
    + simpl. lia.
Qed.

Lemma bpow_m50 : bpow radix2 (-50) = / IZR (2 ^ 50).
Proof. reflexivity. Qed.
Lemma bpow_m45 : bpow radix2 (-45) = / IZR (2 ^ 45).
Proof. reflexivity. Qed.

Lemma rnd_1p50 z : (z = 1 \/ z = -1)%Z -> rnd (1 + IZR z * bpow radix2 (-50)) = 1 + IZR z * bpow radix2 (-50).
Proof.
  intros Hz. replace (1 + IZR z * bpow radix2 (-50)) with (IZR (2 ^ 50 + z) * bpow radix2 (-50)).
  - apply generic_scaled; lia.
  - rewrite bpow_m50, plus_IZR. field. apply not_0_IZR. discriminate.
Qed.
Lemma rnd_100p45 z : (z = 1 \/ z = -1)%Z -> rnd (100 + IZR z * bpow radix2 (-45)) = 100 + IZR z * bpow radix2 (-45).
Proof.
  intros Hz. replace (100 + IZR z * bpow radix2 (-45)) with (IZR (100 * 2 ^ 45 + z) * bpow radix2 (-45)).
  - apply generic_scaled; lia.
  - rewrite bpow_m45, plus_IZR, mult_IZR. field. apply not_0_IZR. discriminate.
Qed.

Lemma percent_strict_lemma o n : (0 < o <= 2 ^ 50)%N -> (n <= 2 ^ 50)%N ->
  ((o < n)%N -> exists r, has_value (percent o n) r /\ 0 < r) /\
  ((n < o)%N -> exists r, has_value (percent o n) r /\ r < 0).
Proof.
  assert (B : forall k, (k <= 2 ^ 50)%N -> (k < u128_bound)%N /\ rN k = RN k).
  { intros k Hk. split.
    - rewrite u128_bound_eq. eapply N.le_lt_trans; [exact Hk|reflexivity].
    - apply rN_small. eapply N.le_trans; [exact Hk|]. vm_compute. discriminate. }
  intros [P Ho] Hn. destruct (B o Ho) as [Bo Eo]. destruct (B n Hn) as [Bn En].
  pose proof (percent_value o n Bo Bn P) as V. rewrite Eo, En in V.
  assert (Po : 1 <= RN o) by (unfold RN; apply IZR_le; lia).
  assert (Ho' : RN o <= IZR (2 ^ 50)).
  { unfold RN. apply IZR_le. change (2 ^ 50)%Z with (Z.of_N (2 ^ 50)). lia. }
  assert (I50 : 0 < bpow radix2 (-50)) by apply bpow_gt_0.
  assert (I45 : 0 < bpow radix2 (-45)) by apply bpow_gt_0.
  assert (I : bpow radix2 (-50) * IZR (2 ^ 50) = 1).
  { rewrite bpow_m50. apply Rinv_l. apply not_0_IZR. discriminate. }
  assert (J : bpow radix2 (-45) = 32 * bpow radix2 (-50)).
  { rewrite bpow_m45, bpow_m50. change (IZR (2 ^ 50)) with (IZR (32 * 2 ^ 45)). rewrite mult_IZR.
    field. apply not_0_IZR. discriminate. }
  assert (K : bpow radix2 (-45) < 1).
  { rewrite <- (Rmult_1_l 1). change 1 with (bpow radix2 0) at 2. rewrite Rmult_1_l. apply bpow_lt. lia. }
  assert (U : bpow radix2 (-50) * RN o <= 1) by nra.
  split; intros L; eexists; (split; [exact V|]).
  - assert (Hs : RN o + 1 <= RN n) by (unfold RN; rewrite <- plus_IZR; apply IZR_le; lia).
    assert (R1 : 1 + bpow radix2 (-50) <= RN n / RN o).
    { apply Rmult_le_reg_r with (RN o); [lra|]. unfold Rdiv. rewrite Rmult_assoc, Rinv_l by lra. nra. }
    assert (R2 : 1 + bpow radix2 (-50) <= quot (RN o) (RN n)).
    { unfold quot. pose proof (rnd_1p50 1 (or_introl eq_refl)) as E. rewrite Rmult_1_l in E.
      rewrite <- E. now apply rnd_le. }
    assert (R3 : 100 + bpow radix2 (-45) <= rnd (100 * quot (RN o) (RN n))).
    { pose proof (rnd_100p45 1 (or_introl eq_refl)) as E. rewrite Rmult_1_l in E.
      rewrite <- E. apply rnd_le. lra. }
    assert (R4 : bpow radix2 (-45) <= pval (RN o) (RN n)).
    { unfold pval. rewrite <- (rnd_bpow (-45)) at 1 by lia. apply rnd_le. lra. }
    lra.
  - assert (Hs : RN n + 1 <= RN o) by (unfold RN; rewrite <- plus_IZR; apply IZR_le; lia).
    assert (R1 : RN n / RN o <= 1 + -1 * bpow radix2 (-50)).
    { apply Rmult_le_reg_r with (RN o); [lra|]. unfold Rdiv. rewrite Rmult_assoc, Rinv_l by lra. nra. }
    assert (R2 : quot (RN o) (RN n) <= 1 + -1 * bpow radix2 (-50)).
    { unfold quot. pose proof (rnd_1p50 (-1) (or_intror eq_refl)) as E.
      rewrite <- E. now apply rnd_le. }
    assert (R3 : rnd (100 * quot (RN o) (RN n)) <= 100 + -1 * bpow radix2 (-45)).
    { pose proof (rnd_100p45 (-1) (or_intror eq_refl)) as E.
      rewrite <- E. apply rnd_le. lra. }
    assert (R4 : pval (RN o) (RN n) <= - bpow radix2 (-45)).
    { unfold pval. replace (- bpow radix2 (-45)) with (rnd (-1 * bpow radix2 (-45))).
      - apply rnd_le. lra.
      - rewrite (generic_scaled (-1)) by lia. lra. }
    lra.
Qed.

(** *** Accuracy *)
Definition u : R := bpow radix2 (-53).

Lemma u_small : 0 < u /\ u <= / 1000000.
Proof.
  split; [apply bpow_gt_0|]. unfold u. change (bpow radix2 (-53)) with (/ IZR (2 ^ 53)).
  apply Rinv_le; [lra|]. apply IZR_le. vm_compute. discriminate.
Qed.

Lemma rnd_rel x : x = 0 \/ bpow radix2 (-1022) <= Rabs x -> Rabs (rnd x - x) <= u * Rabs x.
Proof.
  intros [->|H].
  - rewrite rnd_0, Rminus_0_r, Rabs_R0. lra.
  - unfold rnd. change (SpecFloat.fexp prec emax) with (FLT_exp (-1074) 53).
    eapply Rle_trans; [apply relative_error_N_FLT; [reflexivity|]|].
    + exact H.
    + apply Req_le. f_equal. unfold u. replace (-53)%Z with (-1 + (- (53) + 1))%Z by reflexivity. rewrite (bpow_plus radix2 (-1)). reflexivity.
Qed.

Lemma rnd_abs x : Rabs (rnd x - x) <= u * Rabs x + u.
Proof.
  destruct (Rle_or_lt (bpow radix2 (-1022)) (Rabs x)) as [H|H].
  - pose proof (rnd_rel x (or_intror H)). pose proof u_small. lra.
  - pose proof u_small. pose proof (Rabs_pos x).
    assert (A : Rabs (rnd x) <= bpow radix2 (-1022)) by (apply rnd_abs_lt; [lia|lra]).
    assert (B : bpow radix2 (-1022) <= u / 2).
    { replace (u / 2) with (bpow radix2 (-54)).
      - apply bpow_le. lia.
      - unfold u. change (-53)%Z with (1 + -54)%Z. rewrite bpow_plus. change (bpow radix2 1) with 2. field. }
    eapply Rle_trans; [apply Rabs_triang|]. rewrite Rabs_Ropp. nra.
Qed.

Lemma RN_range n : RN n = 0 \/ bpow radix2 (-1022) <= Rabs (RN n).
Proof.
  destruct (N.eq_dec n 0) as [->|H]; [now left|right].
  assert (1 <= RN n) by (unfold RN; apply IZR_le; lia).
  rewrite Rabs_pos_eq by lra. eapply Rle_trans; [|eassumption].
  change 1 with (bpow radix2 0). apply bpow_le. lia.
Qed.

Lemma acc_a v x O ro a : 0 < v <= / 1000000 -> 0 <= x -> 1 <= O ->
  - (v * O) <= ro - O <= v * O -> 1 <= ro ->
  x * O * (1 - v) <= a * ro <= x * O * (1 + v) ->
  x - 3 * (v * x) <= a <= x + 3 * (v * x).
Proof.
  intros [V0 V1] X0 O1 [E1 E2] R1 [A1 A2].
  assert (XO : 0 <= x * O) by (apply Rmult_le_pos; lra).
  assert (VV : 0 <= v * v <= v / 1000000) by (split; [nra|]; unfold Rdiv; apply Rmult_le_compat_l; lra).
  split; apply Rmult_le_reg_r with ro; try lra.
  - apply Rle_trans with (2 := A1).
    replace ((x - 3 * (v * x)) * ro) with (x * ((1 - 3 * v) * ro)) by ring.
    replace (x * O * (1 - v)) with (x * (O * (1 - v))) by ring.
    apply Rmult_le_compat_l; [lra|].
    apply Rle_trans with ((1 - 3 * v) * (O * (1 + v))).
    + apply Rmult_le_compat_l; lra.
    + replace ((1 - 3 * v) * (O * (1 + v))) with (O * (1 - 2 * v - 3 * (v * v))) by ring.
      apply Rmult_le_compat_l; lra.
  - apply Rle_trans with (1 := A2).
    replace ((x + 3 * (v * x)) * ro) with (x * ((1 + 3 * v) * ro)) by ring.
    replace (x * O * (1 + v)) with (x * (O * (1 + v))) by ring.
    apply Rmult_le_compat_l; [lra|].
    apply Rle_trans with ((1 + 3 * v) * (O * (1 - v))).
    + replace ((1 + 3 * v) * (O * (1 - v))) with (O * (1 + 2 * v - 3 * (v * v))) by ring.
      apply Rmult_le_compat_l; lra.
    + apply Rmult_le_compat_l; lra.
Qed.

Lemma acc_mul v k z x : 0 < v <= / 1000000 -> 0 <= x -> 0 <= k <= 1000 -> x - k * (v * x) <= z <= x + k * (v * x) ->
  v * x / 2 <= v * z <= 2 * (v * x).
Proof.
  intros [V0 V1] X0 [K0 K1] [Z1 Z2]. assert (Y0 : 0 <= v * x) by (apply Rmult_le_pos; lra).
  assert (Y1 : v * (v * x) <= v * x / 1000000).
  { unfold Rdiv. rewrite (Rmult_comm (v * x)). apply Rmult_le_compat_r; lra. }
  assert (Y2 : 0 <= v * (v * x)) by (apply Rmult_le_pos; lra).
  assert (Y3 : k * (v * (v * x)) <= 1000 * (v * (v * x))) by (apply Rmult_le_compat_r; lra).
  split.
  - apply Rle_trans with (v * (x - k * (v * x))); [|apply Rmult_le_compat_l; lra].
    replace (v * (x - k * (v * x))) with (v * x - k * (v * (v * x))) by ring. lra.
  - apply Rle_trans with (v * (x + k * (v * x))); [apply Rmult_le_compat_l; lra|].
    replace (v * (x + k * (v * x))) with (v * x + k * (v * (v * x))) by ring. lra.
Qed.

Lemma percent_accuracy_lemma : forall old new, (0 < old < u128_bound)%N -> (new < u128_bound)%N ->
  exists r, has_value (percent old new) r /\
    Rabs (r - 100 * (RN new - RN old) / RN old) <= powerRZ 2 (-48) * (100 * RN new / RN old + 100).
Proof.
  intros o n [P Ho] Hn. eexists. split; [now apply percent_value|].
  pose proof u_small as [U0 U1].
  assert (O1 : 1 <= RN o) by (unfold RN; apply IZR_le; lia).
  assert (N0 : 0 <= RN n) by (unfold RN; apply IZR_le; lia).
  pose proof (rN_pos o P) as Po. pose proof (rN_bounds n Hn) as Bn. pose proof (rN_bounds o Ho) as Bo.
  pose proof (rnd_rel (RN o) (RN_range o)) as Eo. fold (rN o) in Eo. rewrite (Rabs_pos_eq (RN o)) in Eo by lra.
  pose proof (rnd_rel (RN n) (RN_range n)) as En. fold (rN n) in En. rewrite (Rabs_pos_eq (RN n)) in En by lra.
  set (x := RN n / RN o). assert (X0 : 0 <= x).
  { unfold x, Rdiv. apply Rmult_le_pos; auto. left; apply Rinv_0_lt_compat; lra. }
  assert (Xn : RN n = x * RN o) by (unfold x; field; lra).
  set (a := rN n / rN o). assert (Ea : a * rN o = rN n) by (unfold a; field; lra).
  apply Rabs_le_inv in Eo, En.
  assert (HA : x - 3 * (u * x) <= a <= x + 3 * (u * x)).
  { apply (acc_a u x (RN o) (rN o)); auto. rewrite Ea, <- Xn. lra. }
  assert (Y0 : 0 <= u * x) by (apply Rmult_le_pos; lra).
  assert (Y1 : u * x <= x / 1000000).
  { unfold Rdiv. rewrite (Rmult_comm x). apply Rmult_le_compat_r; lra. }
  assert (Aq : a = 0 \/ bpow radix2 (-1022) <= Rabs a).
  { destruct (N.eq_dec n 0) as [->|Nn].
    - left. unfold a. rewrite rN_0. unfold Rdiv. apply Rmult_0_l.
    - right. assert (1 <= rN n) by (apply rN_pos; lia).
      assert (bpow radix2 (-128) <= a).
      { apply Rmult_le_reg_r with (rN o); [lra|]. rewrite Ea.
        apply Rle_trans with (bpow radix2 (-128) * bpow radix2 128).
        - apply Rmult_le_compat_l; [apply bpow_ge_0|tauto].
        - rewrite <- bpow_plus. simpl. lra. }
      pose proof (bpow_gt_0 radix2 (-128)). rewrite Rabs_pos_eq by lra.
      eapply Rle_trans; [|eassumption]. apply bpow_le. lia. }
  assert (A0 : 0 <= a) by lra.
  pose proof (rnd_rel a Aq) as Eq. rewrite (Rabs_pos_eq a) in Eq by lra.
  change (rnd a) with (quot (rN o) (rN n)) in Eq. set (q := quot (rN o) (rN n)) in *.
  apply Rabs_le_inv in Eq.
  destruct (acc_mul u 3 a x) as [_ UA]; auto; try lra.
  assert (HQ : x - 5 * (u * x) <= q <= x + 5 * (u * x)) by lra.
  assert (Q0 : 0 <= q) by lra.
  destruct (acc_mul u 5 q x) as [_ UQ]; auto; try lra.
  pose proof (rnd_abs (100 * q)) as Ep. rewrite (Rabs_pos_eq (100 * q)) in Ep by lra.
  set (p := rnd (100 * q)) in *. apply Rabs_le_inv in Ep.
  assert (HP : 100 * x - 700 * (u * x) - u <= p <= 100 * x + 700 * (u * x) + u) by lra.
  pose proof (rnd_abs (p - 100)) as Er. change (rnd (p - 100)) with (pval (rN o) (rN n)) in Er.
  set (r := pval (rN o) (rN n)) in *.
  assert (HP' : Rabs (p - 100) <= 101 * x + 101).
  { apply Rabs_le. lra. }
  assert (HU : u * Rabs (p - 100) <= 101 * (u * x) + 101 * u).
  { eapply Rle_trans; [apply Rmult_le_compat_l; [lra|exact HP']|]. lra. }
  replace (100 * (RN n - RN o) / RN o) with (100 * x - 100) by (unfold x; field; lra).
  replace (100 * RN n / RN o) with (100 * x) by (unfold x; field; lra).
  replace (powerRZ 2 (-48)) with (32 * u).
  - apply Rabs_le_inv in Er. apply Rabs_le. lra.
  - rewrite <- bpow_powerRZ. unfold u. change (-48)%Z with (5 + -53)%Z. rewrite bpow_plus. reflexivity.
Qed.
