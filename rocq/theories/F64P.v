(** Real-number semantics of the float model, through Flocq. The first lemmas
    follow Flocq's own [PrimFloat] file, without the primitive floats. *)
From Coq Require Import ZArith NArith Reals Lra Lia Bool Floats.SpecFloat.
From Flocq Require Import Core IEEE754.BinarySingleNaN Relative.
From Verif Require Import F64.
Local Open Scope R_scope.

Notation prec := f64_prec.
Notation emax := f64_emax.
Local Instance Hprec : FLX.Prec_gt_0 prec := eq_refl _.
Local Instance Hmax : Prec_lt_emax prec emax := eq_refl _.

Lemma round_nearest_even_equiv s m l :
  round_nearest_even m l = choice_mode mode_NE s m l.
Proof.
  case l; [reflexivity|intro c]. case c; [ | reflexivity..].
  now simpl; unfold Round.cond_incr; case Z.even.
Qed.

Lemma binary_round_aux_equiv sx mx ex lx :
  SpecFloat.binary_round_aux prec emax sx mx ex lx
  = binary_round_aux prec emax mode_NE sx mx ex lx.
Proof.
  unfold SpecFloat.binary_round_aux, binary_round_aux.
  set (mrse' := shr_fexp _ _ _). case mrse'; intros mrs' e'; simpl.
  now rewrite (round_nearest_even_equiv sx).
Qed.

Lemma binary_round_equiv s m e :
  SpecFloat.binary_round prec emax s m e = binary_round prec emax mode_NE s m e.
Proof.
  unfold SpecFloat.binary_round, binary_round, shl_align_fexp.
  set (mez := shl_align _ _ _); case mez as [mz ez]. apply binary_round_aux_equiv.
Qed.

Lemma binary_normalize_equiv m e szero :
  SpecFloat.binary_normalize prec emax m e szero
  = B2SF (binary_normalize prec emax Hprec Hmax mode_NE m e szero).
Proof.
  case m as [ | p | p].
  - now simpl.
  - simpl; rewrite B2SF_SF2B; apply binary_round_equiv.
  - simpl; rewrite B2SF_SF2B; apply binary_round_equiv.
Qed.

Definition bin := binary_float prec emax.

Lemma mul_equiv (x y : bin) : f64_mul (B2SF x) (B2SF y) = B2SF (Bmult mode_NE x y).
Proof.
  unfold f64_mul. case x as [sx|sx| |sx mx ex Bx]; case y as [sy|sy| |sy my ey By]; [now trivial.. | ].
  simpl. rewrite B2SF_SF2B. apply binary_round_aux_equiv.
Qed.

Lemma div_equiv (x y : bin) : f64_div (B2SF x) (B2SF y) = B2SF (Bdiv mode_NE x y).
Proof.
  unfold f64_div. case x as [sx|sx| |sx mx ex Bx]; case y as [sy|sy| |sy my ey By]; [now trivial.. | ].
  simpl. rewrite B2SF_SF2B. set (melz := SFdiv_core_binary _ _ _ _ _ _).
  case melz as [[mz ez] lz]. apply binary_round_aux_equiv.
Qed.

Lemma sub_equiv (x y : bin) : f64_sub (B2SF x) (B2SF y) = B2SF (Bminus mode_NE x y).
Proof.
  unfold f64_sub. case x as [sx|sx| |sx mx ex Bx]; case y as [sy|sy| |sy my ey By];
    [now (trivial || simpl; case Bool.eqb).. | ].
  simpl. unfold Zminus. rewrite <- cond_Zopp_negb. apply binary_normalize_equiv.
Qed.

(** ** Rounding *)
Definition rnd (x : R) : R := round radix2 (SpecFloat.fexp prec emax) ZnearestE x.

Local Instance fexp_valid : Valid_exp (SpecFloat.fexp prec emax) := fexp_correct prec emax Hprec.

Lemma rnd_le x y : x <= y -> rnd x <= rnd y.
Proof. apply round_le; [apply fexp_valid|apply valid_rnd_N]. Qed.

Lemma rnd_0 : rnd 0 = 0.
Proof. apply round_0. apply valid_rnd_N. Qed.

Lemma generic_IZR z : (Z.abs z <= 2 ^ 53)%Z -> generic_format radix2 (SpecFloat.fexp prec emax) (IZR z).
Proof.
  intros H. change (SpecFloat.fexp prec emax) with (FLT_exp (-1074) 53).
  apply generic_format_FLT.
  destruct (Z.eq_dec (Z.abs z) (2 ^ 53)) as [E|NE].
  - exists (Float radix2 (Z.sgn z) 53).
    + unfold F2R. simpl Fnum. simpl Fexp. change (bpow radix2 53) with (IZR (2 ^ 53)).
      rewrite <- mult_IZR. f_equal. rewrite <- E. symmetry; apply Z.sgn_abs || (rewrite Z.mul_comm; apply Z.abs_sgn).
    + simpl Fnum. destruct z; simpl; lia.
    + simpl. lia.
  - exists (Float radix2 z 0).
    + unfold F2R. simpl. ring.
    + simpl Fnum. change (Zpower radix2 53) with (2 ^ 53)%Z. lia.
    + simpl. lia.
Qed.

Lemma rnd_IZR z : (Z.abs z <= 2 ^ 53)%Z -> rnd (IZR z) = IZR z.
Proof. intros H. apply round_generic; [apply valid_rnd_N|now apply generic_IZR]. Qed.

Lemma rnd_bpow e : (-1074 <= e)%Z -> rnd (bpow radix2 e) = bpow radix2 e.
Proof.
  intros H. apply round_generic; [apply valid_rnd_N|].
  apply generic_format_bpow. change (SpecFloat.fexp prec emax) with (FLT_exp (-1074) 53).
  unfold FLT_exp. lia.
Qed.

Lemma rnd_abs_lt x e : (-1074 <= e)%Z -> Rabs x <= bpow radix2 e -> Rabs (rnd x) <= bpow radix2 e.
Proof.
  intros He H. unfold rnd. rewrite <- round_NE_abs by apply fexp_valid.
  rewrite <- (rnd_bpow e He). now apply rnd_le.
Qed.

(** [isF x r]: the float [x] is finite and has real value [r]. *)
Definition isF (x : f64) (r : R) : Prop :=
  exists b : bin, B2SF b = x /\ is_finite b = true /\ B2R b = r.

Lemma no_overflow x e : (-1074 <= e)%Z -> (e < 1024)%Z -> Rabs x <= bpow radix2 e ->
  Rlt_bool (Rabs (round radix2 (SpecFloat.fexp prec emax) (round_mode mode_NE) x)) (bpow radix2 emax) = true.
Proof.
  intros H1 H2 H. apply Rlt_bool_true. eapply Rle_lt_trans; [apply (rnd_abs_lt x e H1 H)|].
  apply bpow_lt. exact H2.
Qed.

Lemma isF_of_N n : (n <= 2 ^ 1000)%N -> isF (f64_of_N n) (rnd (IZR (Z.of_N n))).
Proof.
  intros H. unfold f64_of_N. rewrite binary_normalize_equiv.
  eexists. split; [reflexivity|].
  pose proof (binary_normalize_correct prec emax Hprec Hmax mode_NE (Z.of_N n) 0 false) as C.
  cbv zeta in C. replace (F2R {| Fnum := Z.of_N n; Fexp := 0 |}) with (IZR (Z.of_N n)) in C
    by (unfold F2R; simpl; ring).
  rewrite (no_overflow _ 1000) in C.
  - destruct C as (C1 & C2 & _). split; auto.
  - lia.
  - lia.
  - change (bpow radix2 1000) with (IZR (2 ^ 1000)). rewrite <- abs_IZR. apply IZR_le.
    rewrite Z.abs_eq by lia. change (2 ^ 1000)%Z with (Z.of_N (2 ^ 1000)). lia.
Qed.

Lemma isF_mul x y a b e : (-1074 <= e)%Z -> (e < 1024)%Z -> isF x a -> isF y b -> Rabs (a * b) <= bpow radix2 e ->
  isF (f64_mul x y) (rnd (a * b)).
Proof.
  intros He1 He2 (bx & <- & Fx & <-) (by' & <- & Fy & <-) H. rewrite mul_equiv.
  eexists. split; [reflexivity|].
  pose proof (Bmult_correct prec emax Hprec Hmax mode_NE bx by') as C.
  rewrite (no_overflow _ e He1 He2 H) in C. destruct C as (C1 & C2 & _).
  rewrite C2, Fx, Fy. split; auto.
Qed.

Lemma isF_div x y a b e : (-1074 <= e)%Z -> (e < 1024)%Z -> isF x a -> isF y b -> b <> 0 -> Rabs (a / b) <= bpow radix2 e ->
  isF (f64_div x y) (rnd (a / b)).
Proof.
  intros He1 He2 (bx & <- & Fx & <-) (by' & <- & Fy & <-) Hb H. rewrite div_equiv.
  eexists. split; [reflexivity|].
  pose proof (Bdiv_correct prec emax Hprec Hmax mode_NE bx by' Hb) as C.
  rewrite (no_overflow _ e He1 He2 H) in C. destruct C as (C1 & C2 & _).
  rewrite C2, Fx. split; auto.
Qed.

Lemma isF_sub x y a b e : (-1074 <= e)%Z -> (e < 1024)%Z -> isF x a -> isF y b -> Rabs (a - b) <= bpow radix2 e ->
  isF (f64_sub x y) (rnd (a - b)).
Proof.
  intros He1 He2 (bx & <- & Fx & <-) (by' & <- & Fy & <-) H. rewrite sub_equiv.
  eexists. split; [reflexivity|].
  pose proof (Bminus_correct prec emax Hprec Hmax mode_NE bx by' Fx Fy) as C.
  rewrite (no_overflow _ e He1 He2 H) in C. destruct C as (C1 & C2 & _). split; auto.
Qed.

Lemma isF_compare x y a b : isF x a -> isF y b -> SFcompare x y = Some (Rcompare a b).
Proof.
  intros (bx & <- & Fx & <-) (by' & <- & Fy & <-).
  change (SFcompare (B2SF bx) (B2SF by')) with (Bcompare bx by').
  now apply Bcompare_correct.
Qed.

Lemma isF_lt x y a b : isF x a -> isF y b -> f64_lt x y = Rlt_bool a b.
Proof.
  intros Hx Hy. unfold f64_lt, SFltb. rewrite (isF_compare _ _ _ _ Hx Hy).
  unfold Rlt_bool. destruct (Rcompare a b); reflexivity.
Qed.

Lemma isF_le x y a b : isF x a -> isF y b -> SFleb x y = Rle_bool a b.
Proof.
  intros Hx Hy. unfold SFleb. rewrite (isF_compare _ _ _ _ Hx Hy).
  unfold Rle_bool. destruct (Rcompare a b); reflexivity.
Qed.

Lemma isF_SF2R x r : isF x r -> SF2R radix2 x = r.
Proof. intros (b & <- & _ & <-). apply SF2R_B2SF. Qed.

Lemma isF_unique x y r : r <> 0 -> isF x r -> isF y r -> x = y.
Proof.
  intros Hr (bx & <- & Fx & E) (by' & <- & Fy & E'). f_equal. apply B2R_inj.
  - destruct bx; simpl in *; try congruence; try discriminate; auto.
  - destruct by'; simpl in *; try congruence; try discriminate; auto.
  - congruence.
Qed.

Lemma isF_finite x r : isF x r -> is_finite_SF x = true.
Proof. intros (b & <- & F & _). now rewrite is_finite_SF_B2SF. Qed.

(** Shape of a float with positive value. *)
Lemma isF_pos x r : isF x r -> 0 < r -> exists m e, x = S754_finite false m e.
Proof.
  intros (b & <- & F & <-) Hr. destruct b as [s|s| |s m e B]; simpl in *; try discriminate.
  - lra.
  - destruct s; [|eauto]. exfalso. unfold F2R in Hr. simpl in Hr.
    pose proof (bpow_gt_0 radix2 e). assert (IZR (Z.neg m) < 0) by (apply IZR_lt; lia). nra.
Qed.

Lemma isF_nonneg_shape x r : isF x r -> 0 <= r ->
  (exists s, x = S754_zero s) \/ exists m e, x = S754_finite false m e.
Proof.
  intros Hx [Hr|Hr].
  - right. eapply isF_pos; eauto.
  - left. destruct Hx as (b & <- & F & E). destruct b as [s|s| |s m e B]; simpl in *; try discriminate; eauto.
    exfalso. rewrite <- Hr in E. unfold F2R in E. simpl in E.
    pose proof (bpow_gt_0 radix2 e). apply Rmult_integral in E as [E|E]; [|lra].
    destruct s; simpl in E; apply eq_IZR in E; discriminate.
Qed.
