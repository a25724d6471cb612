(** Proofs about the tool as a whole: no regression is missed. *)
From Coq Require Import List String NArith ZArith Reals Lra Lia Bool Permutation Sorted Floats.SpecFloat.
From Flocq Require Import Core IEEE754.BinarySingleNaN Relative.
From Verif Require Import Base ScopeM TermM SpecTerm TermP SpecChrom F64 F64P SpecF64 PercentP CompareM SpecCompare
  CompareP2 CompareP3 CompareP4 AffineP MilsP RowsM SpecRows RowsP SpecEnd.
Import ListNotations.
Local Open Scope R_scope.

(** ** Thresholds with three decimals *)
Local Notation fexp64 := (SpecFloat.fexp prec emax).
Local Instance fexp_valid' : Valid_exp fexp64 := fexp_correct prec emax Hprec.

Lemma isF_generic x r : isF x r -> generic_format radix2 fexp64 r.
Proof. intros (b & _ & _ & <-). apply generic_format_B2R. Qed.

Lemma below_rel a t : generic_format radix2 fexp64 a -> generic_format radix2 fexp64 t ->
  0 < t -> a < t -> a <= t * (1 - u).
Proof.
  intros Ga Gt P L. apply (Rle_trans _ (pred radix2 fexp64 t)).
  - apply pred_ge_gt; auto. apply fexp_valid'.
  - rewrite pred_eq_pos by lra. unfold pred_pos.
    change fexp64 with (FLT_exp (-1074) 53).
    assert (T : bpow radix2 (mag radix2 t - 1) <= t < bpow radix2 (mag radix2 t)).
    { destruct (mag radix2 t) as [e He]. simpl. rewrite Rabs_pos_eq in He by lra. apply He. lra. }
    assert (U : forall e k, (e - 53 <= k)%Z -> bpow radix2 e * u <= bpow radix2 k).
    { intros e k H. unfold u. rewrite <- bpow_plus. apply bpow_le. lia. }
    pose proof u_small as [U0 _].
    destruct (Req_bool_spec t (bpow radix2 (mag radix2 t - 1))) as [E|E].
    + assert (bpow radix2 (mag radix2 t - 1) * u <= bpow radix2 (FLT_exp (-1074) 53 (mag radix2 t - 1))).
      { apply U. unfold FLT_exp. lia. }
      rewrite <- E in H at 1. lra.
    + rewrite ulp_neq_0 by lra. unfold cexp.
      assert (bpow radix2 (mag radix2 t) * u <= bpow radix2 (FLT_exp (-1074) 53 (mag radix2 t))).
      { apply U. unfold FLT_exp. lia. }
      assert (t * u <= bpow radix2 (mag radix2 t) * u) by (apply Rmult_le_compat_r; lra). lra.
Qed.

Lemma mils_below x r t z : isF x r -> generic_format radix2 fexp64 t -> 1000 * t = IZR z -> (0 < z <= 2 ^ 53)%Z ->
  r < t -> (mils x < z)%Z.
Proof.
  intros Fx Gt Ez [Z0 Z1] L. rewrite (mils_isF _ _ Fx). pose proof (isF_generic _ _ Fx) as Gr.
  assert (T0 : 0 < t) by (apply IZR_lt in Z0; lra).
  assert (K : rnd (1000 * r) < IZR z).
  { destruct (Rle_or_lt (1000 * r) (/ 2)) as [S|S].
    - assert (rnd (1000 * r) <= / 2).
      { change (/ 2) with (bpow radix2 (-1)). rewrite <- (rnd_bpow (-1)) by lia. apply rnd_le. exact S. }
      assert (1 <= IZR z) by (apply IZR_le; lia). lra.
    - pose proof (below_rel r t Gr Gt T0 L) as B. pose proof u_small as [U0 U1].
      assert (N : bpow radix2 (-1022) <= Rabs (1000 * r)).
      { rewrite Rabs_pos_eq by lra. apply (Rle_trans _ (/ 2)); [|lra]. change (/ 2) with (bpow radix2 (-1)). apply bpow_le. lia. }
      pose proof (rnd_rel (1000 * r) (or_intror N)) as R. rewrite (Rabs_pos_eq (1000 * r)) in R by lra.
      apply Rabs_le_inv in R as [_ R].
      assert (1000 * r <= 1000 * t * (1 - u)) by lra.
      assert (1000 * r * (1 + u) <= 1000 * t * (1 - u) * (1 + u)) by (apply Rmult_le_compat_r; lra).
      assert (0 < 1000 * t * (u * u)) by (apply Rmult_lt_0_compat; [lra|apply Rmult_lt_0_compat; lra]).
      lra. }
  assert (C : forall a, (0 <= a)%Z -> (clamp a <= a)%Z) by (intros a; unfold clamp, i128_min, i128_max; lia).
  destruct (Rle_or_lt 0 (rnd (1000 * r))) as [P|P].
  - assert (F : (Ztrunc (rnd (1000 * r)) < z)%Z).
    { rewrite Ztrunc_floor by exact P. apply lt_IZR. eapply Rle_lt_trans; [apply Zfloor_lb|exact K]. }
    assert (0 <= Ztrunc (rnd (1000 * r)))%Z by (rewrite <- (Ztrunc_IZR 0); now apply Ztrunc_le).
    specialize (C _ H). lia.
  - assert (Ztrunc (rnd (1000 * r)) <= 0)%Z by (rewrite <- (Ztrunc_IZR 0); apply Ztrunc_le; lra).
    pose proof (clamp_nonpos _ H). lia.
Qed.

Lemma threshold_isF x z : threshold_mils x z -> isF x (IZR z / 1000) /\ 1000 * (IZR z / 1000) = IZR z /\ 0 <= IZR z / 1000.
Proof.
  intros (D & Z & V). split; [now apply double_isF|]. split; [field|].
  assert (0 <= IZR z) by (apply IZR_le; lia). lra.
Qed.

(** Thousandths decide about thresholds with three decimals. *)
Lemma mils_threshold x r T z : is_double x -> has_value x r -> threshold_mils T z -> (0 < z)%Z ->
  ((z <= mils x)%Z <-> f64_leq T x).
Proof.
  intros D V H Z. destruct (threshold_isF _ _ H) as (FT & E & P). pose proof (double_isF _ _ D V) as Fx.
  destruct H as (DT & ZB & VT). split.
  - intros L. destruct (Rlt_or_le r (IZR z / 1000)) as [B|B].
    + assert (mils x < z)%Z by (apply (mils_below x r _ z Fx (isF_generic _ _ FT) E); auto; lia). lia.
    + now apply (isF_leq T x (IZR z / 1000) r).
  - intros L. assert (M : mils T = z).
    { refine (proj2 (proj2 (proj2 (mils_accuracy T _ DT VT _))) z E _); [|lia].
      rewrite Rabs_pos_eq by exact P. rewrite <- bpow_powerRZ.
      assert (IZR z <= IZR (2 ^ 53)) by (apply IZR_le; lia). change (IZR (2 ^ 53)) with (bpow radix2 53) in H.
      assert (bpow radix2 53 <= bpow radix2 110) by (apply bpow_le; lia). lra. }
    rewrite <- M. now apply mils_mono.
Qed.

(** ** Equal equations have equal values *)
Lemma no_storage_vars rho t : rho "READ"%string = 0%N -> rho "WRITE"%string = 0%N -> poly_val rho (no_storage t) = poly_val rho t.
Proof.
  intros R W. induction t as [| |x|l IHl r IHr|l IHl r IHr]; cbn [no_storage]; auto.
  - destruct (String.eqb_spec x "READ"); [subst; cbn [orb]; now rewrite poly_val_leaf_scalar, poly_val_var|].
    destruct (String.eqb_spec x "WRITE"); [subst; cbn [orb]; now rewrite poly_val_leaf_scalar, poly_val_var|]. reflexivity.
  - now rewrite !poly_val_add, IHl, IHr.
  - now rewrite !poly_val_mul, IHl, IHr.
Qed.

Lemma erase_us_inj s : forall t, (forall x y, occurs x s -> occurs y t -> without_us x = without_us y -> x = y) ->
  erase_us s = erase_us t -> s = t.
Proof.
  unfold occurs. induction s as [n|n|x|l IHl r IHr|l IHl r IHr]; intros [n'|n'|y|l' r'|l' r'] H E; cbn [erase_us] in E; try discriminate E.
  - now injection E as ->.
  - now injection E as ->.
  - injection E as E. f_equal. apply H; simpl; auto.
  - injection E as E1 E2. cbn [var_list] in H. f_equal; [apply IHl|apply IHr]; auto; intros x y Hx Hy; apply H; apply in_app_iff; auto.
  - injection E as E1 E2. cbn [var_list] in H. f_equal; [apply IHl|apply IHr]; auto; intros x y Hx Hy; apply H; apply in_app_iff; auto.
Qed.

Lemma same_value d s t rho : distinct_names s t -> erase_us (effective d s) = erase_us (effective d t) ->
  rho "READ"%string = read_cost d -> rho "WRITE"%string = write_cost d -> poly_val rho s = poly_val rho t.
Proof.
  intros D E R W.
  assert (K : effective d s = effective d t).
  { apply erase_us_inj; auto. intros x y Hx Hy. apply occurs_effective_sub in Hx, Hy. apply D; auto. }
  destruct d; cbn [effective] in K.
  - now rewrite K.
  - rewrite <- (no_storage_vars rho s), <- (no_storage_vars rho t) by auto. now rewrite K.
Qed.

(** ** Corners are points of the box *)
Lemma corner_in_box d o n meth s rho : low_side meth = Low -> high_side meth = High ->
  in_box d (Some o) (Some n) rho -> is_corner (storage_scope d) (Some o) (Some n) meth s ->
  in_box d (Some o) (Some n) (rho_of s).
Proof.
  intros L H (_ & _ & B) C. destruct (corner_storage _ _ _ _ _ C) as [R W].
  split; [now apply rho_get|]. split; [now apply rho_get|].
  intros c Hc. destruct (B c Hc) as (lo & hi & Il & Ih & K). exists lo, hi. split; auto. split; auto.
  destruct C as (_ & C & _). destruct (C c) as (v & G & V); [now apply component_storage|].
  rewrite (rho_get _ _ _ G). rewrite L, H in V. destruct V as [V|V].
  - rewrite (inst_fun _ _ _ _ V Il). lia.
  - rewrite (inst_fun _ _ _ _ V Ih). lia.
Qed.

Lemma method_sides meth : meth = ExactWorst \/ meth = GuessWorst -> low_side meth = Low /\ high_side meth = High.
Proof. intros [->| ->]; auto. Qed.

(** The reported values are the values at a point of the box. *)
Lemma reported_point m ord o n meth d tc rho : is_order ord -> meth = ExactWorst \/ meth = GuessWorst ->
  tame d o n -> compare_extrinsics m ord (Some o) (Some n) {| p_method := meth; p_unit := d |} = Ok tc ->
  in_box d (Some o) (Some n) rho ->
  exists rho', in_box d (Some o) (Some n) rho' /\
    tc_old_v tc = Some (poly_val rho' (eterm o)) /\ tc_new_v tc = Some (poly_val rho' (eterm n)) /\
    tc_percent tc = percent (poly_val rho' (eterm o)) (poly_val rho' (eterm n)).
Proof.
  intros Ho M (To & Tn & _ & _ & _ & B) E Hr. destruct (method_sides _ M) as [L H].
  destruct (worst_corner_lemma _ _ _ _ _ _ Ho E) as (pre & post & vo & vn & _ & Hi & [A1 A2] & Vo & Vn & Ep & _).
  cbn [p_unit p_method] in *.
  assert (C : is_corner (storage_scope d) (Some o) (Some n) meth (tc_scope tc)) by (apply Hi, in_elt).
  assert (T : forall e, Some o = Some e \/ Some n = Some e -> typed e) by (intros e [K|K]; inversion K; subst; auto).
  pose proof (corner_in_box _ _ _ _ _ _ L H Hr C) as G. destruct (B _ G) as [P1 P2].
  rewrite (eval_effective _ _ _ _ m _ _ C) in A1. rewrite (eval_effective _ _ _ _ m _ _ C) in A2.
  destruct (corner_value m d _ _ _ _ o vo T C (or_introl eq_refl) A1) as [_ Wo].
  destruct (corner_value m d _ _ _ _ n vn T C (or_intror eq_refl) A2) as [_ Wn].
  rewrite Wo in * by (right; exact P1). rewrite Wn in * by (right; exact P2).
  exists (rho_of (tc_scope tc)). auto.
Qed.

Lemma percent_close v w : (0 < v < u128_bound)%N -> (w < u128_bound)%N -> exists r,
  has_value (percent v w) r /\ rel_change_of v w - slack v w <= r <= rel_change_of v w + slack v w.
Proof.
  intros [V0 V1] W. destruct (percent_accuracy_lemma v w) as (r & Hr & A); auto.
  exists r. split; auto. fold (rel_change_of v w) in A. fold (slack v w) in A. apply Rabs_le_inv in A. lra.
Qed.

Lemma slack_pos v w : (0 < v)%N -> 0 < slack v w.
Proof.
  intros V. unfold slack. rewrite <- bpow_powerRZ. apply Rmult_lt_0_compat; [apply bpow_gt_0|].
  assert (0 < RN v) by (apply IZR_lt; lia). assert (0 <= RN w) by (apply IZR_le; lia).
  assert (0 <= 100 * RN w / RN v) by (apply Rmult_le_pos; [lra|apply Rlt_le, Rinv_0_lt_compat; lra]). lra.
Qed.
Lemma rel_same v : (0 < v)%N -> rel_change_of v v = 0.
Proof. intros V. unfold rel_change_of. assert (0 < RN v) by (apply IZR_lt; lia). field. lra. Qed.

Lemma changed_kind m ord o n ps tc rho : is_order ord -> compare_extrinsics m ord (Some o) (Some n) ps = Ok tc ->
  distinct_names (eterm o) (eterm n) -> in_box (p_unit ps) (Some o) (Some n) rho ->
  poly_val rho (eterm o) <> poly_val rho (eterm n) -> tc_change tc = Changed.
Proof.
  intros Ho E D (R & W & _) N. destruct (change_kind_lemma _ _ _ _ _ _ Ho E) as (_ & _ & _ & K).
  apply K. split; [discriminate|]. split; [discriminate|]. intros (o' & n' & [= <-] & [= <-] & S).
  apply N. exact (same_value (p_unit ps) _ _ rho D S R W).
Qed.

Lemma abs_isF x r : isF x r -> isF (f64_abs x) (Rabs r).
Proof.
  intros (b & <- & F & <-). exists (Babs b). split; [|split].
  - destruct b as [s|s| |s m e B]; reflexivity.
  - now rewrite is_finite_Babs.
  - apply B2R_Babs.
Qed.

(** What a large number contributes to the order at least. *)
Lemma mils_lower x r L : isF x r -> 0 <= L <= r -> L <= bpow radix2 100 ->
  1000 * L - 1 - powerRZ 2 (-52) * (1000 * L + 1) < IZR (mils x) /\ (0 <= mils x)%Z.
Proof.
  intros F [L0 L1] L2. rewrite (mils_isF _ _ F).
  assert (K : (clamp (Ztrunc (rnd (1000 * L))) <= clamp (Ztrunc (rnd (1000 * r))))%Z).
  { apply clamp_le, Ztrunc_le, rnd_le. lra. }
  assert (P : 0 <= rnd (1000 * L)) by (rewrite <- rnd_0 at 1; apply rnd_le; lra).
  assert (T0 : (0 <= Ztrunc (rnd (1000 * L)))%Z) by (rewrite <- (Ztrunc_IZR 0); now apply Ztrunc_le).
  assert (BB : Rabs (rnd (1000 * L)) <= bpow radix2 120).
  { apply rnd_abs_lt; [lia|]. rewrite Rabs_pos_eq by lra.
    change 120%Z with (20 + 100)%Z. rewrite bpow_plus. assert (1000 <= bpow radix2 20) by (simpl; lra). nra. }
  assert (C : clamp (Ztrunc (rnd (1000 * L))) = Ztrunc (rnd (1000 * L))).
  { apply clamp_id. change (bpow radix2 120) with (IZR (2 ^ 120)) in BB. apply Rabs_le_inv in BB as [B1 B2].
    apply Ztrunc_le in B2. rewrite Ztrunc_IZR in B2.
    assert (2 ^ 120 <= 2 ^ 127 - 1)%Z by (vm_compute; discriminate). lia. }
  rewrite C in K. split; [|lia]. apply IZR_le in K.
  pose proof (trunc_err (rnd (1000 * L))) as T. pose proof (rnd_abs (1000 * L)) as R.
  rewrite (Rabs_pos_eq (1000 * L)) in R by lra. apply Rabs_lt_inv in T. apply Rabs_le_inv in R.
  rewrite <- bpow_powerRZ. assert (Hu : bpow radix2 (-52) = 2 * u).
  { unfold u. change (-52)%Z with (1 + -53)%Z. rewrite bpow_plus. reflexivity. }
  rewrite Hu. pose proof u_small as [U _].
  assert (0 <= u * (1000 * L)) by (apply Rmult_le_pos; lra). lra.
Qed.

(** A number that does not come before it in the order. *)
Lemma mils_order y p L : is_double y -> has_value y p -> -100 <= p -> 0 <= L <= bpow radix2 100 ->
  1000 * L - 1 - powerRZ 2 (-52) * (1000 * L + 1) < IZR (mils y) -> (0 <= mils y)%Z ->
  L - powerRZ 2 (-48) * (L + 100) - 2 / 1000 <= p.
Proof.
  intros Dy Vy P0 [L0 L1] K N.
  assert (E : powerRZ 2 (-48) = 16 * powerRZ 2 (-52)).
  { rewrite <- !bpow_powerRZ. change 16 with (bpow radix2 4). rewrite <- bpow_plus. reflexivity. }
  assert (E0 : 0 < powerRZ 2 (-52) < / 1000) by (rewrite <- bpow_powerRZ; split; [apply bpow_gt_0|simpl; lra]).
  destruct (Rle_or_lt L p) as [G|G].
  { assert (0 <= powerRZ 2 (-52) * (L + 100)) by (apply Rmult_le_pos; lra). rewrite E. lra. }
  destruct (mils_accuracy y p Dy Vy) as (A2 & _ & N2 & _).
  { rewrite <- bpow_powerRZ. assert (bpow radix2 100 <= bpow radix2 110) by (apply bpow_le; lia).
    assert (100 <= bpow radix2 110) by (simpl; lra). apply Rabs_le. lra. }
  rewrite E. set (e := powerRZ 2 (-52)) in *. clearbody e. apply IZR_le in N.
  assert (P : Rabs (1000 * p) <= 1000 * L + 2).
  { destruct (Rle_or_lt 0 p) as [P|P]; [rewrite Rabs_pos_eq by lra; lra|].
    apply Rabs_def2 in A2 as [A2 A2']. rewrite (Rabs_left (1000 * p)) in * by lra.
    assert (e * (- (1000 * p) + 1) <= / 1000 * (- (1000 * p) + 1)) by (apply Rmult_le_compat_r; lra). lra. }
  apply Rabs_def2 in A2 as [A2 A2'].
  assert (e * (Rabs (1000 * p) + 1) <= e * (1000 * L + 3)) by (apply Rmult_le_compat_l; lra).
  assert (0 <= e * L) by (apply Rmult_le_pos; lra). lra.
Qed.

(** The largest rank there is belongs to large numbers only. *)
Lemma mils_max y p : is_double y -> has_value y p -> -100 <= p -> mils y = i128_max -> bpow radix2 100 <= p.
Proof.
  intros Dy Vy P0 M. destruct (Rle_or_lt (bpow radix2 100) p) as [G|G]; auto. exfalso.
  destruct (mils_accuracy y p Dy Vy) as (A & _).
  { rewrite <- bpow_powerRZ. assert (bpow radix2 100 <= bpow radix2 110) by (apply bpow_le; lia).
    assert (100 <= bpow radix2 110) by (simpl; lra). apply Rabs_le. lra. }
  rewrite M in A. apply Rabs_def2 in A as [A _]. rewrite <- bpow_powerRZ in A.
  assert (E0 : 0 < bpow radix2 (-52) < / 1000) by (split; [apply bpow_gt_0|simpl; lra]).
  set (e := bpow radix2 (-52)) in *. clearbody e.
  assert (P : Rabs (1000 * p) <= 1000 * bpow radix2 100).
  { apply Rabs_le. assert (100 <= bpow radix2 100) by (simpl; lra). lra. }
  assert (e * (Rabs (1000 * p) + 1) <= / 1000 * (1000 * bpow radix2 100 + 1)).
  { apply Rmult_le_compat; lra || (pose proof (Rabs_pos (1000 * p)); lra). }
  change (bpow radix2 100) with (IZR (2 ^ 100)) in *.
  change i128_max with (2 ^ 127 - 1)%Z in A. 
  assert (Q : 1002 * IZR (2 ^ 100) <= IZR (2 ^ 127 - 1)) by (rewrite <- mult_IZR; apply IZR_le; vm_compute; discriminate).
  assert (1000 <= IZR (2 ^ 100)) by (apply IZR_le; vm_compute; discriminate). lra.
Qed.

Lemma rel_bounds v w : (0 < v)%N ->
  0 <= 100 * RN w / RN v /\ rel_change_of v w = 100 * RN w / RN v - 100 /\
  slack v w = powerRZ 2 (-48) * (100 * RN w / RN v + 100).
Proof.
  intros V. assert (V1 : 1 <= RN v) by (apply IZR_le; lia). assert (W0 : 0 <= RN w) by (apply IZR_le; lia).
  assert (I : 0 < / RN v) by (apply Rinv_0_lt_compat; lra).
  split; [|split; [unfold rel_change_of; field; lra|reflexivity]]. unfold Rdiv. apply Rmult_le_pos; lra.
Qed.

Lemma ratio_le v w v' w' : (0 < v)%N -> (0 < v')%N -> (w * v' <= w' * v)%N -> 100 * RN w / RN v <= 100 * RN w' / RN v'.
Proof.
  intros V V' H. assert (0 < RN v) by (apply IZR_lt; lia). assert (0 < RN v') by (apply IZR_lt; lia).
  unfold Rdiv. rewrite !Rmult_assoc. apply Rmult_le_compat_l; [lra|].
  apply (div_le_cross (RN v) (RN w) (RN v') (RN w')); auto. unfold RN. rewrite <- !mult_IZR. apply IZR_le. lia.
Qed.

Lemma percent_cases v w : (v < u128_bound)%N -> (w < u128_bound)%N ->
  percent v w = S754_nan \/ percent v w = S754_infinity false \/ exists p, has_value (percent v w) p /\ -100 <= p.
Proof.
  intros V W. destruct (N.eq_dec v 0) as [->|Z].
  - destruct (N.eq_dec w 0) as [->|Y]; [left; apply percent_zero_zero|right; left; apply percent_zero_pos; auto; lia].
  - right. right. eexists. split; [apply percent_value; auto; lia|]. apply pval_ge.
    + apply rN_pos. lia.
    + apply rN_bounds; auto.
Qed.

Lemma regression_found m ord o n meth d tc rho T z : is_order ord -> meth = ExactWorst \/ meth = GuessWorst ->
  tame d o n -> compare_extrinsics m ord (Some o) (Some n) {| p_method := meth; p_unit := d |} = Ok tc ->
  in_box d (Some o) (Some n) rho -> threshold_mils T z ->
  let v := poly_val rho (eterm o) in let w := poly_val rho (eterm n) in
  grown (IZR z / 1000) v w ->
  tc_change tc = Changed /\ ~ f64_below (f64_abs (tc_percent tc)) T /\
    (at_least (tc_percent tc) (IZR z / 1000) v w \/ tc_percent tc = S754_nan /\ IZR z / 1000 = 0 /\ about v w <= 0).
Proof.
  intros Ho M Ht E Hr HT v w G. pose proof Ht as (To & Tn & Ao & An & D & B).
  destruct (B rho Hr) as [V1 W1]. fold v w in V1, W1.
  destruct (threshold_isF _ _ HT) as (FT & ET & PT).
  assert (P0 : (0 < w + v)%N) by (destruct G as [G|G]; lia).
  assert (Nvw : v <> w).
  { destruct G as [G|[G0 G]]; [lia|]. intros K. pose proof (slack_pos v w G0). rewrite <- K, rel_same in G by auto. rewrite <- K in H. lra. }
  destruct (corner_found m ord o n meth d tc rho Ho M To Tn Ao An E B Hr P0) as (rc & Hc & Lc & Pc & Mc).
  fold v w in Lc. destruct (B rc Hc) as [Vc Wc].
  set (v' := poly_val rc (eterm o)) in *. set (w' := poly_val rc (eterm n)) in *.
  destruct (reported_point m ord o n meth d tc rho Ho M Ht E Hr) as (rho' & Hr' & _ & _ & Ep).
  destruct (B rho' Hr') as [V2 W2]. pose proof (percent_cases _ _ V2 W2) as PC. rewrite <- Ep in PC.
  assert (Dp : is_double (tc_percent tc)) by (rewrite Ep; apply percent_double).
  split; [eapply (changed_kind m ord o n _ tc rho); eauto|].
  destruct mils_inf as (I1 & I2 & I3).
  assert (TI : f64_leq T (S754_infinity false)) by (apply (isF_leq_inf T _ FT)).
  assert (Tz : IZR z / 1000 <= bpow radix2 100).
  { destruct HT as (_ & [_ ZB] & _). apply IZR_le in ZB. change (IZR (2 ^ 53)) with (bpow radix2 53) in ZB.
    assert (bpow radix2 53 <= bpow radix2 100) by (apply bpow_le; lia). pose proof (bpow_gt_0 radix2 53). lra. }
  assert (Fin : forall p, has_value (tc_percent tc) p -> IZR z / 1000 <= Rabs p -> ~ f64_below (f64_abs (tc_percent tc)) T).
  { intros p Hp Lp [_ Nb]. apply Nb. apply (isF_leq T _ (IZR z / 1000) (Rabs p)); auto. exact (abs_isF _ _ (double_isF _ _ Dp Hp)). }
  destruct PC as [PC|[PC|(p & Hp & P100)]].
  2:{ split; [|left; now left]. rewrite PC. intros [_ Nb]. apply Nb. exact TI. }
  - (* NaN *)
    assert (Nb : ~ f64_below (f64_abs (tc_percent tc)) T) by (rewrite PC; intros [Nb _]; destruct T; exact Nb).
    split; [exact Nb|right]. rewrite PC, I3 in Mc.
    assert (V' : (0 < v')%N).
    { destruct (N.eq_dec v' 0) as [Z|]; [|lia]. exfalso. rewrite Z, percent_zero_pos in Mc by (auto; lia). rewrite I1 in Mc.
      apply Mc. reflexivity. }
    destruct G as [[Gv Gw]|[Gv G]]; [exfalso; nia|].
    destruct (percent_close v' w' (conj V' Vc) Wc) as (r & Pr & Rr).
    destruct (rel_bounds v w Gv) as (X0 & Rl & Sl). destruct (rel_bounds v' w' V') as (Y0 & Rl' & Sl').
    pose proof (ratio_le v w v' w' Gv V' Lc) as XY.
    assert (E48 : 0 < powerRZ 2 (-48) < / 1000) by (rewrite <- bpow_powerRZ; split; [apply bpow_gt_0|simpl; lra]).
    assert (LB : rel_change_of v w - slack v w <= r).
    { rewrite Rl, Sl. rewrite Rl', Sl' in Rr. set (X := 100 * RN w / RN v) in *. set (Y := 100 * RN w' / RN v') in *. nra. }
    assert (Z0 : z = 0%Z).
    { destruct (Z.eq_dec z 0) as [|NZ]; auto. exfalso. destruct HT as (D1 & [ZB ZC] & VT).
      assert (z <= mils (percent v' w'))%Z.
      { apply (mils_threshold _ r T z); auto using percent_double; [now repeat split|lia|].
        apply (isF_leq T _ (IZR z / 1000) r); auto; [|lra]. apply double_isF; auto using percent_double. }
      lia. }
    split; auto. split; [rewrite Z0; lra|].
    unfold about. destruct (N.eqb_spec v 0) as [|_]; [lia|].
    pose proof (slack_pos v w Gv) as SP.
    set (L := Rmin (rel_change_of v w - slack v w) (bpow radix2 100)).
    assert (L0 : 0 <= L) by (apply Rmin_glb; [lra|apply bpow_ge_0]).
    assert (L1 : L <= r) by (eapply Rle_trans; [apply Rmin_l|exact LB]).
    destruct (mils_lower _ r L (double_isF _ _ (percent_double v' w') Pr) (conj L0 L1) (Rmin_r _ _)) as [K _].
    apply IZR_le in Mc.
    assert (E52 : 0 < powerRZ 2 (-52) < / 1000) by (rewrite <- bpow_powerRZ; split; [apply bpow_gt_0|simpl; lra]).
    assert (L < 2 / 1000).
    { assert (powerRZ 2 (-52) * (1000 * L + 1) <= / 1000 * (1000 * L + 1)) by (apply Rmult_le_compat_r; lra). lra. }
    assert (Rmin (rel_change_of v w) (powerRZ 2 100) - slack v w <= L).
    { apply Rmin_glb; [pose proof (Rmin_l (rel_change_of v w) (powerRZ 2 100))|pose proof (Rmin_r (rel_change_of v w) (powerRZ 2 100)); rewrite bpow_powerRZ]; lra. }
    lra.
  - (* a number *)
    assert (Q : (0 < IZR z / 1000 -> IZR z / 1000 <= p) /\ about v w <= p).
    { destruct (N.eq_dec v' 0) as [Zv'|Zv'].
      - assert (mils (tc_percent tc) = i128_max).
        { rewrite Zv', percent_zero_pos in Mc by (auto; lia). rewrite I1 in Mc. pose proof (mils_range (tc_percent tc)). lia. }
        pose proof (mils_max _ _ Dp Hp P100 H) as PB. split; [lra|].
        unfold about. rewrite <- bpow_powerRZ. destruct (N.eqb_spec v 0) as [|NZ]; auto.
        assert (0 < v)%N as Gv by lia. pose proof (slack_pos v w Gv). pose proof (Rmin_r (rel_change_of v w) (bpow radix2 100)). lra.
      - assert (V' : (0 < v')%N) by lia. destruct G as [[Gv Gw]|[Gv G]]; [exfalso; nia|].
        destruct (percent_close v' w' (conj V' Vc) Wc) as (r & Pr & Rr).
        destruct (rel_bounds v w Gv) as (X0 & Rl & Sl). destruct (rel_bounds v' w' V') as (Y0 & Rl' & Sl').
        pose proof (ratio_le v w v' w' Gv V' Lc) as XY.
        assert (E48 : 0 < powerRZ 2 (-48) < / 1000) by (rewrite <- bpow_powerRZ; split; [apply bpow_gt_0|simpl; lra]).
        assert (LB : rel_change_of v w - slack v w <= r).
        { rewrite Rl, Sl. rewrite Rl', Sl' in Rr. set (X := 100 * RN w / RN v) in *. set (Y := 100 * RN w' / RN v') in *. nra. }
        split.
        + intros Z'. assert (Z : (0 < z)%Z) by (apply lt_IZR; lra).
          assert (Lt : f64_leq T (tc_percent tc)).
          { apply (mils_threshold _ p T z); auto.
            assert (Lz : (z <= mils (percent v' w'))%Z).
            { apply (mils_threshold _ r T z); auto using percent_double.
              apply (isF_leq T _ (IZR z / 1000) r); auto; [|lra]. apply double_isF; auto using percent_double. }
            lia. }
          destruct T as [s|s| |s q e]; destruct (tc_percent tc) as [s'|s'| |s' q' e']; simpl in Lt, Hp; try contradiction;
            destruct HT as (_ & _ & VT); cbn in VT; try contradiction;
            destruct Lt as (a & b & La & Lb & Lab); cbn in La, Lb; rewrite ?La, ?Lb in *; subst; lra.
        + unfold about. destruct (N.eqb_spec v 0) as [|_]; [lia|].
          pose proof (slack_pos v w Gv) as SP.
          set (L := Rmin (rel_change_of v w - slack v w) (bpow radix2 100)).
          assert (L0 : 0 <= L) by (apply Rmin_glb; [lra|apply bpow_ge_0]).
          assert (L1 : L <= r) by (eapply Rle_trans; [apply Rmin_l|exact LB]).
          destruct (mils_lower _ r L (double_isF _ _ (percent_double v' w') Pr) (conj L0 L1) (Rmin_r _ _)) as [K K0].
          pose proof (IZR_le _ _ Mc) as Mc'.
          pose proof (mils_order _ p L Dp Hp P100 (conj L0 (Rmin_r _ _)) ltac:(lra) ltac:(lia)) as O.
          assert (LX : L <= 100 * RN w / RN v) by (pose proof (Rmin_l (rel_change_of v w - slack v w) (bpow radix2 100)) as LL; fold L in LL; lra).
          assert (powerRZ 2 (-48) * (L + 100) <= slack v w) by (rewrite Sl; apply Rmult_le_compat_l; lra).
          assert (Rmin (rel_change_of v w) (powerRZ 2 100) - slack v w <= L).
          { apply Rmin_glb; [pose proof (Rmin_l (rel_change_of v w) (powerRZ 2 100))|pose proof (Rmin_r (rel_change_of v w) (powerRZ 2 100)); rewrite bpow_powerRZ]; lra. }
          lra. }
    destruct Q as [Q1 Q2].
    assert (Ar : IZR z / 1000 <= Rabs p).
    { destruct (Req_dec (IZR z / 1000) 0) as [->|NZ]; [apply Rabs_pos|]. pose proof (Rle_abs p). lra. }
    split; [now apply (Fin p)|left; right]. exists p. auto.
Qed.

(** ** Tables *)
Lemma relevant_changed f r c : reports r c -> tc_change c = Changed -> kind_selected f Changed ->
  ~ f64_below (f64_abs (tc_percent c)) (f_threshold f) -> relevant f r.
Proof.
  intros R K S L. right. exists c. rewrite K. split; auto. split; auto. split; [discriminate|auto].
Qed.

Lemma row_present m ords rx olds news ps f rows k o n : compare_files m ords rx olds news ps f = Ok rows ->
  is_first olds k (Some o) -> is_first news k (Some n) ->
  passes rx (f_pallet f) (fst k) -> passes rx (f_extrinsic f) (snd k) ->
  exists r, In r rows /\ row_key r = k /\ row_of m (ords k) ps (Some o) (Some n) (row_diff r).
Proof.
  intros E Fo Fn Pp Pe. destruct (rows_lemma _ _ _ _ _ _ _ _ E) as [_ K].
  assert (I : In k (map row_key rows)).
  { apply K. split; auto. exists o. apply is_first_in in Fo as [I1 I2]. auto. }
  apply in_map_iff in I as (r & <- & I). exists r. split; auto. split; auto.
  eapply first_lemma; eauto.
Qed.

Lemma row_of_cases m ord ps o n df : row_of m ord ps (Some o) (Some n) df ->
  (exists e, df = DFailed e) \/ exists tc,
    compare_extrinsics m ord (Some (in_dim (p_unit ps) o)) (Some (in_dim (p_unit ps) n)) ps = Ok tc /\
    (df = DChanged tc \/ exists w, df = DWarning tc w).
Proof.
  unfold row_of. cbn [option_map]. destruct (compare_extrinsics _ _ _ _ _) as [tc| | |]; try contradiction; eauto.
  intros (e & _ & H). right. exists tc. split; auto. destruct (sanity_check_term _); try contradiction; eauto.
Qed.

(** The row of a regression, before filtering. *)
Lemma regression_row m ords rx olds news meth d f rows k o n rho z : (forall k, is_order (ords k)) ->
  meth = ExactWorst \/ meth = GuessWorst ->
  compare_files m ords rx olds news {| p_method := meth; p_unit := d |} f = Ok rows ->
  threshold_mils (f_threshold f) z -> kind_selected f Changed ->
  is_first olds k (Some o) -> is_first news k (Some n) ->
  passes rx (f_pallet f) (fst k) -> passes rx (f_extrinsic f) (snd k) ->
  tame d (in_dim d o) (in_dim d n) -> in_box d (Some (in_dim d o)) (Some (in_dim d n)) rho ->
  let v := poly_val rho (restrict d (eterm o)) in let w := poly_val rho (restrict d (eterm n)) in
  grown (IZR z / 1000) v w ->
  exists r, In r rows /\ relevant f r /\ row_key r = k /\
    shows r (IZR z / 1000) v w.
Proof.
  intros Ho M E HT S Fo Fn Pp Pe Ht Hr v w G.
  destruct (row_present _ _ _ _ _ _ _ _ _ _ _ E Fo Fn Pp Pe) as (r & I & K & R). exists r.
  split; auto. apply row_of_cases in R as [F|(tc & C & R)].
  - assert (is_failed r) by exact F. split; [now left|]. split; [auto|now left].
  - cbn [p_unit] in C.
    destruct (regression_found m (ords k) _ _ meth d tc rho _ z (Ho k) M Ht C Hr HT G) as (Kc & L & Q).
    assert (R' : reports r tc) by exact R.
    split; [eapply relevant_changed; eauto|]. split; auto. right. exists tc. auto.
Qed.

Lemma selects_in {A} (P : A -> Prop) l l' x : selects P l l' -> In x l -> P x -> In x l'.
Proof.
  induction 1 as [|y l l' Py S IH|y l l' Py S IH]; simpl; auto.
  - intros [->|I] Px; auto.
  - intros [->|I] Px; auto. contradiction.
Qed.
Lemma threshold_double x z : threshold_mils x z -> is_double x.
Proof. intros H. apply H. Qed.

Lemma regression_lemma : forall m ords rx olds news meth d f rows k o n rho z, (forall k, is_order (ords k)) ->
  meth = ExactWorst \/ meth = GuessWorst ->
  compare_files m ords rx olds news {| p_method := meth; p_unit := d |} f = Ok rows ->
  threshold_mils (f_threshold f) z -> kind_selected f Changed ->
  is_first olds k (Some o) -> is_first news k (Some n) ->
  passes rx (f_pallet f) (fst k) -> passes rx (f_extrinsic f) (snd k) ->
  tame d (in_dim d o) (in_dim d n) -> in_box d (Some (in_dim d o)) (Some (in_dim d n)) rho ->
  let v := poly_val rho (restrict d (eterm o)) in let w := poly_val rho (restrict d (eterm n)) in
  grown (IZR z / 1000) v w ->
  exists r, In r (filter_changes rows f) /\ row_key r = k /\
    shows r (IZR z / 1000) v w.
Proof.
  intros m ords rx olds news meth d f rows k o n rho z Ho M E HT S Fo Fn Pp Pe Ht Hr v w G.
  destruct (regression_row m ords rx olds news meth d f rows k o n rho z Ho M E HT S Fo Fn Pp Pe Ht Hr G) as (r & I & Re & K & C).
  exists r. split; auto.
  apply (selects_in (relevant f) rows _ r); auto.
  apply filter_lemma; [eapply threshold_double; eauto|eapply typed_lemma; eauto].
Qed.

(** ** Improvements, and soundness *)
Lemma improvement_lemma : forall m ords rx olds news meth d f rows k o n rho z, (forall k, is_order (ords k)) ->
  meth = ExactWorst \/ meth = GuessWorst ->
  compare_files m ords rx olds news {| p_method := meth; p_unit := d |} f = Ok rows ->
  threshold_mils (f_threshold f) z -> kind_selected f Changed ->
  is_first olds k (Some o) -> is_first news k (Some n) ->
  passes rx (f_pallet f) (fst k) -> passes rx (f_extrinsic f) (snd k) ->
  tame d (in_dim d o) (in_dim d n) -> in_box d (Some (in_dim d o)) (Some (in_dim d n)) rho ->
  (forall rho, in_box d (Some (in_dim d o)) (Some (in_dim d n)) rho ->
     let v := poly_val rho (restrict d (eterm o)) in let w := poly_val rho (restrict d (eterm n)) in
     (0 < v)%N /\ rel_change_of v w <= - (IZR z / 1000 + slack v w)) ->
  exists r, In r (filter_changes rows f) /\ row_key r = k /\
    (is_failed r \/ exists c p, reports r c /\ tc_change c = Changed /\ has_value (tc_percent c) p /\ p <= - (IZR z / 1000)).
Proof.
  intros m ords rx olds news meth d f rows k o n rho z Ho M E HT S Fo Fn Pp Pe Ht Hr G.
  destruct (row_present _ _ _ _ _ _ _ _ _ _ _ E Fo Fn Pp Pe) as (r & I & K & R). exists r.
  destruct (threshold_isF _ _ HT) as (FT & _ & PT).
  assert (Q : relevant f r /\ (is_failed r \/ exists c p, reports r c /\ tc_change c = Changed /\ has_value (tc_percent c) p /\ p <= - (IZR z / 1000))).
  { apply row_of_cases in R as [F|(tc & C & R)].
    - assert (is_failed r) by exact F. split; now left.
    - cbn [p_unit] in C. assert (R' : reports r tc) by exact R.
      destruct (reported_point m (ords k) _ _ meth d tc rho (Ho k) M Ht C Hr) as (rho' & Hr' & _ & _ & Ep).
      pose proof Ht as (_ & _ & _ & _ & D & B). destruct (B rho' Hr') as [V1 W].
      specialize (G rho' Hr'). cbv zeta in G. cbn [eterm in_dim] in *. destruct G as [V0 G].
      destruct (percent_close _ _ (conj V0 V1) W) as (p & Hp & Bp).
      assert (P : p <= - (IZR z / 1000)) by lra.
      assert (Kc : tc_change tc = Changed).
      { eapply (changed_kind m (ords k) _ _ _ tc rho'); eauto. cbn [eterm in_dim]. intros Q.
        pose proof (slack_pos _ (poly_val rho' (restrict d (eterm n))) V0). rewrite <- Q, rel_same in G by auto. rewrite <- Q in H. lra. }
      rewrite <- Ep in Hp.
      assert (Dp : is_double (tc_percent tc)) by (rewrite Ep; apply percent_double).
      split; [|right; exists tc, p; auto].
      eapply relevant_changed; eauto. intros [_ Nb]. apply Nb. apply (isF_leq _ _ (IZR z / 1000) (Rabs p)); auto.
      + apply abs_isF, double_isF; auto.
      + rewrite Rabs_left1 by lra. lra. }
  destruct Q as [Q1 Q2]. split; auto.
  apply (selects_in (relevant f) rows _ r); auto.
  apply filter_lemma; [eapply threshold_double; eauto|eapply typed_lemma; eauto].
Qed.

Lemma filter_in rows f r : In r (filter_changes rows f) -> In r rows.
Proof. unfold filter_changes. intros H. apply filter_In in H. apply H. Qed.

Lemma real_lemma : forall m ords rx olds news meth d f rows r c o n rho z, (forall k, is_order (ords k)) ->
  meth = ExactWorst \/ meth = GuessWorst ->
  compare_files m ords rx olds news {| p_method := meth; p_unit := d |} f = Ok rows ->
  threshold_mils (f_threshold f) z -> In r (filter_changes rows f) -> reports r c -> tc_change c = Changed ->
  is_first olds (row_key r) (Some o) -> is_first news (row_key r) (Some n) ->
  tame d (in_dim d o) (in_dim d n) -> in_box d (Some (in_dim d o)) (Some (in_dim d n)) rho ->
  exists rho', in_box d (Some (in_dim d o)) (Some (in_dim d n)) rho' /\
    let v := poly_val rho' (restrict d (eterm o)) in let w := poly_val rho' (restrict d (eterm n)) in
    tc_old_v c = Some v /\ tc_new_v c = Some w /\ tc_percent c = percent v w /\
    ((0 < v)%N -> IZR z / 1000 - slack v w <= Rabs (rel_change_of v w)).
Proof.
  intros m ords rx olds news meth d f rows r c o n rho z Ho M E HT I Rp Kc Fo Fn Ht Hr.
  assert (Ty : typed_rows rows) by (eapply typed_lemma; eauto).
  pose proof (first_lemma _ _ _ _ _ _ _ _ _ _ _ E (filter_in _ _ _ I) Fo Fn) as R.
  apply row_of_cases in R as [(e & F)|(tc & C & R)].
  - destruct (reports_not_failed _ _ Rp). eexists; eauto.
  - cbn [p_unit] in C. assert (c = tc) by (eapply reports_fun; eauto; exact R). subst tc.
    destruct (reported_point m (ords _) _ _ meth d c rho (Ho _) M Ht C Hr) as (rho' & Hr' & Vo & Vn & Ep).
    exists rho'. split; auto. cbn [eterm in_dim] in *. split; auto. split; auto. split; auto.
    pose proof Ht as (_ & _ & _ & _ & _ & B). destruct (B rho' Hr') as [V1 W]. cbn [eterm in_dim] in *. intros V0.
    destruct (percent_close _ _ (conj V0 V1) W) as (p & Hp & Bp). rewrite <- Ep in Hp.
    assert (Dp : is_double (tc_percent c)) by (rewrite Ep; apply percent_double).
    destruct (threshold_isF _ _ HT) as (FT & _ & PT).
    assert (L : f64_leq (f_threshold f) (f64_abs (tc_percent c))).
    { eapply kept_lemma; eauto; try (eapply threshold_double; eassumption).
      - intros Q. rewrite Q in FT. destruct HT as (_ & _ & VT). rewrite Q in VT. exact VT.
      - intros Q. rewrite Q in Hp. exact Hp. }
    pose proof (isF_has_value _ _ (abs_isF _ _ (double_isF _ _ Dp Hp))) as HA.
    assert (Lr : IZR z / 1000 <= Rabs p).
    { destruct HT as (_ & _ & VT). revert L VT HA. generalize (f64_abs (tc_percent c)) (f_threshold f). intros a b L VT HA.
      destruct a, b; cbn [has_value] in VT, HA; try contradiction; cbn [f64_leq] in L; destruct L as (x & y & Lx & Ly & Lxy);
        cbn [has_value] in Lx, Ly; rewrite VT, HA; lra. }
    assert (A : Rabs p <= Rabs (rel_change_of (poly_val rho' (restrict d (eterm o))) (poly_val rho' (restrict d (eterm n))))
                 + slack (poly_val rho' (restrict d (eterm o))) (poly_val rho' (restrict d (eterm n)))).
    { apply Rabs_le. pose proof (Rle_abs (rel_change_of (poly_val rho' (restrict d (eterm o))) (poly_val rho' (restrict d (eterm n))))).
      pose proof (Rle_abs (- rel_change_of (poly_val rho' (restrict d (eterm o))) (poly_val rho' (restrict d (eterm n))))).
      rewrite Rabs_Ropp in H0. lra. }
    lra.
Qed.
