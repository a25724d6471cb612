(** Proofs about formatted quantities. *)
From Coq Require Import List String Ascii NArith ZArith Reals Lra Lia Psatz Bool Floats.SpecFloat.
From Flocq Require Import Core IEEE754.BinarySingleNaN.
From Verif Require Import Base TermM F64 F64P SpecF64 PercentP FmtM SpecFmt DecP.
Import ListNotations.
Local Open Scope string_scope.
Local Open Scope R_scope.

(** ** Rounding to hundredths *)
Lemma Znearest_IZR z : ZnearestE (IZR z) = z.
Proof. apply (Zrnd_IZR _ (Valid_rnd := valid_rnd_N _)). Qed.

Lemma div_round_nearest num den : (0 < den)%N -> Z.of_N (div_round num den) = ZnearestE (RN num / RN den).
Proof.
  intros Hd. unfold div_round, RN.
  assert (Hd' : (0 < Z.of_N den)%Z) by lia.
  assert (HdR : 0 < IZR (Z.of_N den)) by (apply IZR_lt; lia).
  unfold Znearest.
  rewrite Zfloor_div by lia.
  assert (Hq : (Z.of_N num / Z.of_N den)%Z = Z.of_N (num / den)) by (rewrite N2Z.inj_div; reflexivity).
  assert (Hr : IZR (Z.of_N num) / IZR (Z.of_N den) - IZR (Z.of_N num / Z.of_N den) = IZR (Z.of_N (num mod den)) / IZR (Z.of_N den)).
  { rewrite N2Z.inj_mod. pose proof (Z.div_mod (Z.of_N num) (Z.of_N den)) as E.
    specialize (E ltac:(lia)). apply (f_equal IZR) in E. rewrite plus_IZR, mult_IZR in E.
    set (a := IZR (Z.of_N num)) in *. set (b := IZR (Z.of_N den)) in *. rewrite E. field. lra. }
  rewrite Hr. set (r := (num mod den)%N). set (q := (num / den)%N) in *.
  assert (Hfl : Zfloor (IZR (Z.of_N num) / IZR (Z.of_N den)) = Z.of_N q) by (rewrite Zfloor_div by lia; exact Hq).
  assert (Hceil : (0 < r)%N -> Zceil (IZR (Z.of_N num) / IZR (Z.of_N den)) = (Z.of_N q + 1)%Z).
  { intros Hr0. rewrite Zceil_floor_neq; rewrite Hfl; [reflexivity|].
    intros C. rewrite Hq, <- C in Hr. assert (0 < IZR (Z.of_N r)) by (apply IZR_lt; lia).
    assert (0 < IZR (Z.of_N r) / IZR (Z.of_N den)) by (apply Rdiv_lt_0_compat; assumption). unfold r in *. lra. }
  assert (Hc : Rcompare (IZR (Z.of_N r) / IZR (Z.of_N den)) (/ 2) = N.compare (2 * r) den).
  { assert (E : forall c, c = Eq \/ c = Lt \/ c = Gt) by (intros []; auto).
    destruct (N.compare_spec (2 * r) den) as [C|C|C].
    - apply Rcompare_Eq. apply (f_equal (fun n => IZR (Z.of_N n))) in C. rewrite N2Z.inj_mul, mult_IZR in C. change (IZR (Z.of_N 2)) with 2 in C. rewrite <- C. field. lra.
    - apply Rcompare_Lt. apply (Rmult_lt_reg_r (IZR (Z.of_N den))); [assumption|].
      unfold Rdiv. rewrite Rmult_assoc, Rinv_l by lra. rewrite Rmult_1_r.
      assert (IZR (2 * Z.of_N r) < IZR (Z.of_N den)) by (apply IZR_lt; lia). rewrite mult_IZR in *. lra.
    - apply Rcompare_Gt. apply (Rmult_lt_reg_r (IZR (Z.of_N den))); [assumption|].
      unfold Rdiv. rewrite Rmult_assoc, Rinv_l by lra. rewrite Rmult_1_r.
      assert (IZR (Z.of_N den) < IZR (2 * Z.of_N r)) by (apply IZR_lt; lia). rewrite mult_IZR in *. lra. }
  rewrite Hc, Hq. destruct (N.compare_spec (2 * r) den) as [C|C|C]; cbv zeta.
  - rewrite Hceil by lia. replace (Z.even (Z.of_N q)) with (N.even q).
    2:{ destruct q as [|[]]; reflexivity. }
    destruct (N.even q); cbn [negb]; lia.
  - reflexivity.
  - rewrite Hceil by lia. lia.
Qed.

Lemma hundredths_nearest m e : Z.of_N (hundredths m e) = ZnearestE (100 * (IZR (Zpos m) * bpow radix2 e)).
Proof.
  destruct e as [|p|p]; unfold hundredths.
  - change (bpow radix2 0) with 1. change (Z.to_N 0) with 0%N. rewrite N.pow_0_r, !N.mul_1_r.
    replace (100 * (IZR (Z.pos m) * 1)) with (IZR (Z.pos m * 100)) by (rewrite mult_IZR; lra).
    rewrite Znearest_IZR. lia.
  - rewrite <- IZR_Zpower by lia.
    replace (100 * (IZR (Z.pos m) * IZR (Zpower radix2 (Z.pos p)))) with (IZR (Z.pos m * 100 * 2 ^ Z.pos p))
      by (rewrite !mult_IZR; change (Zpower radix2 (Z.pos p)) with (2 ^ Z.pos p)%Z; lra).
    rewrite Znearest_IZR. rewrite !N2Z.inj_mul, N2Z.inj_pow, Z2N.id by lia. reflexivity.
  - rewrite div_round_nearest by (apply N.neq_0_lt_0, N.pow_nonzero; lia). f_equal.
    unfold RN. rewrite N2Z.inj_mul, N2Z.inj_pow, mult_IZR.
    change (Z.of_N (N.pos m)) with (Z.pos m). change (Z.of_N 100) with 100%Z.
    change (Z.of_N 2 ^ Z.of_N (N.pos p))%Z with (Zpower radix2 (Z.pos p)). rewrite IZR_Zpower by lia.
    change (Z.neg p) with (- Z.pos p)%Z. rewrite bpow_opp. unfold Rdiv. ring.
Qed.

Lemma dec_2_read q : read_2 (dec_2 q) = Some q.
Proof.
  unfold read_2, dec_2. cbn [append]. rewrite split_dot_digits by apply dec_digits.
  rewrite read_dec_dec, !read_digit_digit.
  - f_equal. pose proof (N.div_mod q 100). pose proof (N.div_mod (q mod 100) 10).
    assert (q mod 10 = (q mod 100) mod 10)%N.
    { change 100%N with (10 * 10)%N. rewrite N.mod_mul_r by lia.
      rewrite N.add_mod, (N.mul_comm 10), N.mod_mul, N.add_0_r, !N.mod_mod by lia. reflexivity. }
    lia.
  - apply N.mod_lt. lia.
  - apply N.div_lt_upper_bound; [lia|]. pose proof (N.mod_lt q 100). lia.
Qed.

(** ** The quotient *)
Definition qval (v d : N) : R := rnd (rN v / RN d).

Lemma quot_isF v d : (v < u128_bound)%N -> (0 < d <= 2 ^ 53)%N -> isF (f64_div (f64_of_N v) (f64_of_N d)) (qval v d).
Proof.
  intros Hv Hd.
  assert (Id : isF (f64_of_N d) (RN d)).
  { rewrite <- (rN_small d) by lia. unfold rN. apply isF_of_N. apply N.le_trans with (2 ^ 53)%N; [lia|].
    apply N.pow_le_mono_r; lia. }
  assert (Hd1 : 1 <= RN d) by (apply IZR_le; lia).
  assert (Hb := rN_bounds v Hv).
  apply (isF_div _ _ _ _ 128); try lia; auto using isF_u128.
  - lra.
  - destruct (ratio_bounds (RN d) (rN v) Hd1 Hb). rewrite Rabs_pos_eq; assumption.
Qed.

Lemma fmt_quot_spec v d : (v < u128_bound)%N -> (0 < d <= 2 ^ 53)%N -> (d <= v)%N ->
  exists q, fmt_quot v d = dec_2 q /\ Z.of_N q = ZnearestE (100 * qval v d).
Proof.
  intros Hv Hd Hle. pose proof (quot_isF v d Hv Hd) as I.
  assert (Hpos : 0 < qval v d).
  { apply Rlt_le_trans with 1; [lra|]. unfold qval. rewrite <- (rnd_IZR 1) by (vm_compute; discriminate).
    apply rnd_le. rewrite <- (rN_small d) by lia. pose proof (rN_le d v Hle).
    assert (1 <= rN d) by (apply rN_pos; lia).
    apply (Rmult_le_reg_r (rN d)); [lra|]. unfold Rdiv. rewrite Rmult_assoc, Rinv_l by lra. lra. }
  destruct (isF_pos _ _ I Hpos) as (m & e & E). exists (hundredths m e). unfold fmt_quot. rewrite E. split; [reflexivity|].
  rewrite hundredths_nearest. f_equal. f_equal. rewrite E in I. apply isF_SF2R in I. rewrite <- I. reflexivity.
Qed.

Lemma qval_mono v v' d : (v <= v')%N -> (0 < d)%N -> qval v d <= qval v' d.
Proof.
  intros H Hd. apply rnd_le. assert (0 < RN d) by (apply IZR_lt; lia).
  unfold Rdiv. apply Rmult_le_compat_r; [left; now apply Rinv_0_lt_compat|]. now apply rN_le.
Qed.

Lemma qval_accuracy v d : (v < u128_bound)%N -> (0 < d <= v)%N -> (d <= 2 ^ 53)%N ->
  Rabs (qval v d - RN v / RN d) <= powerRZ 2 (-51) * (RN v / RN d).
Proof.
  intros Hv Hd Hd'.
  assert (D : 0 < RN d) by (apply IZR_lt; lia).
  assert (V : RN d <= RN v) by (apply IZR_le; lia).
  assert (A1 : Rabs (rN v - RN v) <= u * Rabs (RN v)) by (apply rnd_rel, RN_range).
  rewrite (Rabs_pos_eq (RN v)) in A1 by lra.
  destruct u_small as [U0 U1].
  assert (X : 1 <= RN v / RN d).
  { apply (Rmult_le_reg_r (RN d)); [lra|]. unfold Rdiv. rewrite Rmult_assoc, Rinv_l by lra. lra. }
  set (x := RN v / RN d) in *.
  assert (A2 : Rabs (rN v / RN d - x) <= u * x).
  { replace (rN v / RN d - x) with ((rN v - RN v) * / RN d) by (unfold x; field; lra).
    rewrite Rabs_mult, (Rabs_pos_eq (/ RN d)) by (left; now apply Rinv_0_lt_compat).
    replace (u * x) with ((u * RN v) * / RN d) by (unfold x; field; lra).
    apply Rmult_le_compat_r; [left; now apply Rinv_0_lt_compat|exact A1]. }
  set (y := rN v / RN d) in *.
  apply Rabs_le_inv in A2.
  assert (UX : 0 <= u * x <= / 1000000 * x).
  { split; [apply Rmult_le_pos; lra|apply Rmult_le_compat_r; lra]. }
  assert (Y : / 2 <= y <= 2 * x) by lra.
  assert (A3 : Rabs (qval v d - y) <= u * Rabs y).
  { apply rnd_rel. right. rewrite Rabs_pos_eq by lra. apply Rle_trans with (/ 2); [|lra].
    change (/ 2) with (bpow radix2 (-1)). apply bpow_le. lia. }
  rewrite (Rabs_pos_eq y) in A3 by lra. apply Rabs_le_inv in A3.
  assert (U : powerRZ 2 (-51) = 4 * u).
  { unfold u. rewrite <- bpow_powerRZ. change 4 with (bpow radix2 2). rewrite <- bpow_plus. reflexivity. }
  assert (UY : u * y <= u * (2 * x)) by (apply Rmult_le_compat_l; lra).
  rewrite U. apply Rabs_le. lra.
Qed.

(** ** Units *)
Section Units.
  (** A formatter that tests the units of [us] in turn, the last being 1. *)
  Variable smallest : string.
  Fixpoint fmt_units (us : units) (v : N) : string :=
    match us with
    | [] => dec_of_N v ++ smallest
    | (suf, d) :: us' => if (d <=? v)%N then fmt_quot v d ++ suf else fmt_units us' v
    end.
  (** Descending scales between 2 and 2^53. *)
  Fixpoint good_units (top : N) (us : units) : Prop :=
    match us with
    | [] => True
    | (_, d) :: us' => (1 < d < top)%N /\ good_units d us'
    end.

  Lemma good_units_lt top us s d : good_units top us -> In (s, d) us -> (1 < d < top)%N.
  Proof.
    revert top. induction us as [|[s' d'] us IH]; intros top G I; [destruct I|].
    destruct G as [G1 G2]. destruct I as [[= <- <-]|I]; [exact G1|]. specialize (IH _ G2 I). lia.
  Qed.

  Lemma fmt_units_unit us : forall top v, good_units top us ->
    exists suf d, best_unit (us ++ [(smallest, 1%N)])%list v suf d /\
      ((d = 1%N /\ suf = smallest /\ fmt_units us v = dec_of_N v ++ smallest) \/
       (1 < d <= v /\ d < top /\ fmt_units us v = fmt_quot v d ++ suf)%N).
  Proof.
    induction us as [|[s d] us IH]; intros top v G; cbn [fmt_units].
    - exists smallest, 1%N. split; [|left; auto]. split; [left; reflexivity|]. split; [left; reflexivity|].
      intros s' d' [[= <- <-]|[]] _. lia.
    - destruct G as [G1 G2]. destruct (N.leb_spec d v) as [L|L].
      + exists s, d. split.
        * split; [left; reflexivity|]. split; [right; exact L|]. intros s' d' [[= <- <-]|I] _; [lia|].
          apply in_app_or in I. destruct I as [I|[[= <- <-]|[]]]; [|lia].
          pose proof (good_units_lt _ _ _ _ G2 I). lia.
        * right. lia || (split; [lia|split; [lia|reflexivity]]).
      + destruct (IH d v G2) as (s' & d' & (I & B1 & B2) & R). exists s', d'. split.
        * split; [right; exact I|]. split; [exact B1|]. intros s2 d2 [[= <- <-]|I2] L2; [lia|]. eauto.
        * destruct R as [R|(R1 & R2 & R3)]; [left; exact R|right]. repeat split; auto; lia.
  Qed.
End Units.

Lemma best_unit_fun us v s d s' d' : NoDup (map snd us) -> (forall s d, In (s, d) us -> 1 <= d)%N -> best_unit us v s d -> best_unit us v s' d' -> s = s' /\ d = d'.
Proof.
  intros ND P (I & B & M) (I' & B' & M'). pose proof (P _ _ I). pose proof (P _ _ I').
  assert (E : d = d').
  { destruct B as [B|B], B' as [B'|B']; subst; auto.
    - specialize (M _ _ I' B'). specialize (M' _ _ I).
      destruct (N.le_gt_cases 1 v) as [L|]; [specialize (M' L)|]; lia.
    - specialize (M' _ _ I B). specialize (M _ _ I').
      destruct (N.le_gt_cases 1 v) as [L|]; [specialize (M L)|]; lia.
    - specialize (M _ _ I' B'). specialize (M' _ _ I B). lia. }
  subst d'. split; [|reflexivity].
  clear -ND I I'. induction us as [|[a b] us IH]; [destruct I|]. cbn in ND. inversion ND as [|? ? N1 N2]; subst.
  destruct I as [[= <- <-]|I], I' as [E|I'].
  - congruence.
  - exfalso. apply N1. apply (in_map snd) in I'. exact I'.
  - injection E as <- <-. exfalso. apply N1. apply (in_map snd) in I. exact I.
  - auto.
Qed.

Lemma units_correct smallest us : good_units (2 ^ 53) us ->
  fmt_correct (fmt_units smallest us) (us ++ [(smallest, 1%N)])%list.
Proof.
  intros G v Hv. destruct (fmt_units_unit smallest us _ v G) as (suf & d & B & [(-> & -> & E)|(H1 & H2 & E)]).
  - exists smallest, 1%N, (100 * v)%N. split; [exact B|]. split; [|split; [|reflexivity]].
    + exists (dec_of_N v). split; [exact E|]. split; [|congruence]. intros _. exists v. split; [apply read_dec_dec|reflexivity].
    + unfold RN. rewrite N2Z.inj_mul, mult_IZR. change (IZR (Z.of_N 1)) with 1. change (IZR (Z.of_N 100)) with 100.
      assert (0 <= IZR (Z.of_N v)) by (apply IZR_le; lia).
      replace (100 * IZR (Z.of_N v) / 100 - IZR (Z.of_N v) / 1) with 0 by field. rewrite Rabs_R0.
      assert (0 < powerRZ 2 (-51)) by (apply powerRZ_lt; lra). nra.
  - destruct (fmt_quot_spec v d Hv ltac:(lia) ltac:(lia)) as (q & Eq & Hq).
    exists suf, d, q. split; [exact B|]. split; [|split; [|lia]].
    + exists (dec_2 q). rewrite <- Eq. split; [exact E|]. split; [lia|]. intros _. rewrite Eq. apply dec_2_read.
    + pose proof (qval_accuracy v d Hv ltac:(lia) ltac:(lia)) as A.
      assert (Rabs (RN q - 100 * qval v d) <= / 2).
      { unfold RN. rewrite Hq. rewrite <- Rabs_Ropp, Ropp_minus_distr. apply Znearest_half. }
      apply Rabs_le. apply Rabs_le_inv in A. apply Rabs_le_inv in H. lra.
Qed.

Lemma units_monotone smallest us : good_units (2 ^ 53) us -> NoDup (map snd (us ++ [(smallest, 1%N)])%list) ->
  fmt_monotone (fmt_units smallest us) (us ++ [(smallest, 1%N)])%list.
Proof.
  intros G ND v v' suf d q q' L Hv' B B' (t & E & S1 & S2) (t' & E' & S1' & S2').
  assert (Hv : (v < u128_bound)%N) by lia.
  destruct (fmt_units_unit smallest us _ v G) as (suf1 & d1 & B1 & R1).
  destruct (fmt_units_unit smallest us _ v' G) as (suf2 & d2 & B2 & R2).
  assert (P : forall s d, In (s, d) (us ++ [(smallest, 1%N)])%list -> (1 <= d)%N).
  { intros s0 d0 I. apply in_app_or in I. destruct I as [I|[[= <- <-]|[]]]; [|lia].
    pose proof (good_units_lt _ _ _ _ G I). lia. }
  destruct (best_unit_fun _ _ _ _ _ _ ND P B B1) as [<- <-].
  destruct (best_unit_fun _ _ _ _ _ _ ND P B' B2) as [<- <-].
  destruct R1 as [(D1 & F1 & R1)|(D1 & F1 & R1)], R2 as [(D2 & F2 & R2)|(D2 & F2 & R2)]; try lia.
  - subst d suf. rewrite E in R1. apply app_str_inj_r in R1. rewrite E' in R2. apply app_str_inj_r in R2.
    destruct (S1 eq_refl) as (i & Ri & ->), (S1' eq_refl) as (i' & Ri' & ->).
    rewrite R1, read_dec_dec in Ri. rewrite R2, read_dec_dec in Ri'. injection Ri as <-. injection Ri' as <-. lia.
  - rewrite E in R1. apply app_str_inj_r in R1. rewrite E' in R2. apply app_str_inj_r in R2.
    specialize (S2 ltac:(lia)). specialize (S2' ltac:(lia)).
    destruct (fmt_quot_spec v d Hv ltac:(lia) ltac:(lia)) as (p & Ep & Hp).
    destruct (fmt_quot_spec v' d Hv' ltac:(lia) ltac:(lia)) as (p' & Ep' & Hp').
    rewrite R1, Ep, dec_2_read in S2. rewrite R2, Ep', dec_2_read in S2'. injection S2 as ->. injection S2' as ->.
    assert (ZnearestE (100 * qval v d) <= ZnearestE (100 * qval v' d))%Z.
    { apply Zrnd_le; [apply valid_rnd_N|]. pose proof (qval_mono v v' d L ltac:(lia)). lra. }
    lia.
Qed.

Lemma fmt_ext (f g : N -> string) us : (forall v, f v = g v) ->
  (fmt_correct f us -> fmt_correct g us) /\ (fmt_monotone f us -> fmt_monotone g us).
Proof.
  intros E. split.
  - intros H v Hv. rewrite <- E. apply H, Hv.
  - intros H v v' suf d q q'. rewrite <- !E. apply H.
Qed.

Lemma fmt_quantities_lemma :
  (fmt_correct fmt_time time_units /\ fmt_monotone fmt_time time_units) /\
  (fmt_correct fmt_proof proof_units /\ fmt_monotone fmt_proof proof_units) /\
  (fmt_correct fmt_scalar scalar_units /\ fmt_monotone fmt_scalar scalar_units).
Proof.
  assert (K : forall sm us f, good_units (2 ^ 53) us -> NoDup (map snd (us ++ [(sm, 1%N)])%list) ->
     (forall v, f v = fmt_units sm us v) ->
     fmt_correct f (us ++ [(sm, 1%N)])%list /\ fmt_monotone f (us ++ [(sm, 1%N)])%list).
  { intros sm us f G N E. assert (E' : forall v, fmt_units sm us v = f v) by (intros; symmetry; apply E).
    destruct (fmt_ext _ f (us ++ [(sm, 1%N)])%list E') as [X Y]. split.
    - apply X, units_correct, G.
    - apply Y, units_monotone; auto. }
  split; [|split].
  - apply (K "ps" [("s", 1000000000000%N); ("ms", 1000000000%N); ("us", 1000000%N); ("ns", 1000%N)]).
    + cbn; lia.
    + cbn. repeat constructor; cbn; intuition discriminate.
    + reflexivity.
  - apply (K "B" [("GiB", 1073741824%N); ("MiB", 1048576%N); ("KiB", 1024%N)]).
    + cbn; lia.
    + cbn. repeat constructor; cbn; intuition discriminate.
    + reflexivity.
  - apply (K "" [("T", 1000000000000%N); ("G", 1000000000%N); ("M", 1000000%N); ("K", 1000%N)]).
    + cbn; lia.
    + cbn. repeat constructor; cbn; intuition discriminate.
    + intros v. unfold fmt_scalar. cbn [fmt_units]. rewrite app_str_nil. reflexivity.
Qed.

Lemma fmt_value_lemma unit : fmt_correct (fmt_value unit) (units_of unit) /\ fmt_monotone (fmt_value unit) (units_of unit).
Proof. destruct unit; apply fmt_quantities_lemma. Qed.
