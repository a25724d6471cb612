(** Equations affine in every component attain their worst ratio at a corner. *)
From Coq Require Import Reals List String NArith ZArith Lia Bool Permutation Arith.
From Verif Require Import Base ScopeM TermM SpecTerm TermP ScopeP F64 F64P SpecF64 PercentP CompareM SpecCompare
  CompareP CompareP2 CompareP3 CompareP4 MilsP.
Import ListNotations.
Local Open Scope list_scope.

Definition upd (rho : string -> N) (x : string) (v : N) (y : string) : N := if String.eqb y x then v else rho y.

Lemma mono_val_cons rho c x xs : mono_val rho (c, x :: xs) = (rho x * mono_val rho (c, xs))%N.
Proof. reflexivity. Qed.

Lemma mono_affine rho x p : (count_occ string_dec (snd p) x <= 1)%nat ->
  exists a b, forall v, mono_val (upd rho x v) p = (a + b * v)%N.
Proof.
  destruct p as [c xs]. cbn [snd]. intros H.
  assert (K0 : forall xs, ~ In x xs -> exists a, forall v, mono_val (upd rho x v) (c, xs) = a).
  { clear. induction xs as [|y xs IH]; intros Hx.
    - exists c. reflexivity.
    - destruct IH as [a Ha]; [intros K; apply Hx; now right|]. exists (rho y * a)%N. intros v.
      rewrite mono_val_cons, Ha. unfold upd. destruct (String.eqb_spec y x); auto. exfalso. apply Hx. now left. }
  induction xs as [|y xs IH].
  - exists c, 0%N. intros v. unfold mono_val. cbn [fst snd fold_right]. lia.
  - cbn [count_occ] in H. destruct (string_dec y x) as [->|N].
    + destruct (K0 xs) as [a Ha]; [apply (count_occ_not_In string_dec); lia|].
      exists 0%N, a. intros v. rewrite mono_val_cons, Ha. unfold upd. rewrite String.eqb_refl. lia.
    + destruct (IH H) as (a & b & Hab). exists (rho y * a)%N, (rho y * b)%N. intros v.
      rewrite mono_val_cons, Hab. unfold upd. destruct (String.eqb_spec y x); [contradiction|]. lia.
Qed.

Lemma poly_affine rho x t : (forall p, In p (monomials t) -> (count_occ string_dec (snd p) x <= 1)%nat) ->
  exists a b, forall v, poly_val (upd rho x v) t = (a + b * v)%N.
Proof.
  intros H.
  assert (K : forall l, (forall p, In p l -> (count_occ string_dec (snd p) x <= 1)%nat) ->
     exists a b, forall v, mvals (upd rho x v) l = (a + b * v)%N).
  { induction l as [|p l IH]; intros Hl.
    - exists 0%N, 0%N. intros v. unfold mvals. cbn [fold_right]. lia.
    - destruct (IH ltac:(intros; apply Hl; now right)) as (a & b & Hab).
      destruct (mono_affine rho x p) as (a' & b' & Hab'); [apply Hl; now left|].
      exists (a' + a)%N, (b' + b)%N. intros v. unfold mvals in *. cbn [fold_right]. rewrite Hab, Hab'. lia. }
  destruct (K _ H) as (a & b & Hab). exists a, b. exact Hab.
Qed.

(** One component moved to an end of its range does not lower the ratio. *)
Lemma ratio_end (a b c d lo v hi : N) : (lo <= v <= hi)%N -> (0 < (a + b * v) + (c + d * v))%N -> exists e, (e = lo \/ e = hi) /\
  ((a + b * v) * (c + d * e) <= (a + b * e) * (c + d * v))%N /\ (0 < (a + b * e) + (c + d * e))%N.
Proof.
  intros [H1 H2] P. destruct (N.eq_dec (a + b * lo + (c + d * lo)) 0) as [Z|Z].
  - exists hi. split; auto. assert (a = 0 /\ c = 0)%N as [-> ->] by lia. split; nia.
  - destruct (N.le_ge_cases (b * c) (a * d)) as [K|K]; [exists lo|exists hi]; (split; [auto|]); split; nia.
Qed.

Lemma ratio_trans (n1 o1 n2 o2 n3 o3 : N) : (0 < n2 + o2)%N ->
  (n1 * o2 <= n2 * o1)%N -> (n2 * o3 <= n3 * o2)%N -> (n1 * o3 <= n3 * o1)%N.
Proof.
  intros P H1 H2. destruct (N.eq_dec o2 0) as [->|Z].
  - assert (o3 = 0)%N by nia. subst. lia.
  - assert (n1 * o3 * o2 <= n3 * o1 * o2)%N by nia. nia.
Qed.

Lemma upd_same rho x y : upd rho x (rho x) y = rho y.
Proof. unfold upd. destruct (String.eqb_spec y x); congruence. Qed.

Section Box.
  Variables (o n : sterm) (lo hi : string -> N) (good : (string -> N) -> Prop).
  Hypothesis good_upd : forall rho x v, good rho -> (v = lo x \/ v = hi x) -> ~ storage_var x -> good (upd rho x v).
  Hypothesis good_range : forall rho x, good rho -> ~ storage_var x -> (lo x <= rho x <= hi x)%N.
  Hypothesis Ao : multi_affine o.
  Hypothesis An : multi_affine n.

  Lemma move_all l : forall rho, good rho -> (0 < poly_val rho n + poly_val rho o)%N -> (forall x, In x l -> ~ storage_var x) ->
    exists rho', good rho' /\ (forall x, In x l -> rho' x = lo x \/ rho' x = hi x) /\
      (forall x, ~ In x l -> rho' x = rho x) /\
      (poly_val rho n * poly_val rho' o <= poly_val rho' n * poly_val rho o)%N /\ (0 < poly_val rho' n + poly_val rho' o)%N.
  Proof.
    induction l as [|x l IH]; intros rho G Q Hl.
    - exists rho. repeat split; auto; simpl; tauto || lia.
    - destruct (IH rho G Q ltac:(intros; apply Hl; now right)) as (r & Gr & Cr & Or & Lr & Pr).
      assert (Nx : ~ storage_var x) by (apply Hl; now left).
      destruct (poly_affine r x n) as (a & b & Hn). { intros p Hp. now apply An. }
      destruct (poly_affine r x o) as (c & d & Hd). { intros p Hp. now apply Ao. }
      assert (En : poly_val r n = (a + b * r x)%N).
      { rewrite <- Hn. apply poly_val_ext. intros y _. now rewrite upd_same. }
      assert (Eo : poly_val r o = (c + d * r x)%N).
      { rewrite <- Hd. apply poly_val_ext. intros y _. now rewrite upd_same. }
      assert (K : exists v, (v = lo x \/ v = hi x) /\
        (poly_val r n * poly_val (upd r x v) o <= poly_val (upd r x v) n * poly_val r o)%N /\ (0 < poly_val (upd r x v) n + poly_val (upd r x v) o)%N).
      { rewrite En, Eo in Pr. destruct (ratio_end a b c d (lo x) (r x) (hi x) (good_range r x Gr Nx) Pr) as (e & He & K).
        exists e. split; auto. rewrite Hn, Hd, En, Eo. exact K. }
      destruct K as (v & Hv & K & Kp). exists (upd r x v). split; [now apply good_upd|]. split; [|split; [|split; [|exact Kp]]].
      + intros y [<-|Hy]; unfold upd.
        * rewrite String.eqb_refl. exact Hv.
        * destruct (String.eqb_spec y x) as [->|]; auto.
      + intros y Hy. unfold upd. destruct (String.eqb_spec y x) as [->|]; [exfalso; apply Hy; now left|].
        apply Or. intros K'. apply Hy. now right.
      + apply ratio_trans with (n2 := poly_val r n) (o2 := poly_val r o); auto.
  Qed.
End Box.

(** The corner of a given choice. *)
Lemma corner_of_rho d old new meth rho : low_side meth = Low -> high_side meth = High ->
  (forall c, component storage_var old new c ->
     inst Low (annotations old new c) (rho c) \/ inst High (annotations old new c) (rho c)) ->
  exists s, is_corner (storage_scope d) old new meth s /\
    (forall c, component storage_var old new c -> rho_of s c = rho c).
Proof.
  intros M1 M2 H. pose proof (frees_of_nodup old new (storage_scope d)) as Hn.
  pose proof (frees_of_component old new (storage_scope d)) as Hi.
  set (fr := frees_of old new (storage_scope d)) in *.
  set (l := map (fun x => (x, rho x)) fr).
  assert (Hl : map fst l = fr) by (unfold l; now rewrite map_map, map_id).
  assert (G : forall c, component (bound_in (storage_scope d)) old new c ->
    scope_get (put_all l (storage_scope d)) c = Some (Scalar (rho c))).
  { intros c Hc. apply put_all_in; [now rewrite Hl|]. apply in_map_iff. exists c. split; auto. now apply Hi. }
  exists (put_all l (storage_scope d)). split.
  - split; [apply put_all_wf, storage_scope_wf|]. split.
    + intros c Hc. exists (rho c). split; auto. rewrite M1, M2. apply H. now apply component_storage in Hc.
    + intros x Hx. apply put_all_out. rewrite Hl. now rewrite Hi.
  - intros c Hc. apply (component_storage d) in Hc. now apply rho_get, G.
Qed.

Lemma small_u128 k : (k <= 2 ^ 53)%N -> (k < u128_bound)%N.
Proof. intros Hk. rewrite u128_bound_eq. eapply N.le_lt_trans; [exact Hk|reflexivity]. Qed.

Lemma mils_percent_le o n o' n' : (o <= 2 ^ 53)%N -> (o' <= 2 ^ 53)%N -> (n <= 2 ^ 53)%N -> (n' <= 2 ^ 53)%N ->
  (0 < n + o)%N -> (0 < n' + o')%N -> (n * o' <= n' * o)%N -> (mils (percent o n) <= mils (percent o' n'))%Z.
Proof.
  intros Ho Ho' Hn Hn' P P' H. destruct (N.eq_dec o' 0) as [->|Z'].
  { rewrite (percent_zero_pos n') by (auto using small_u128; lia). rewrite (proj1 mils_inf). apply mils_range. }
  assert (Z : (0 < o)%N) by nia.
  assert (Fp : forall a b, (0 < a)%N -> (a <= 2 ^ 53)%N -> (b <= 2 ^ 53)%N -> isF (percent a b) (pval (rN a) (rN b))).
  { intros a b A1 A2 B. apply percent_isF; auto using small_u128. }
  assert (Z'' : (0 < o')%N) by lia.
  apply (mils_mono_isF _ _ _ _ (Fp o n Z Ho Hn) (Fp o' n' Z'' Ho' Hn')).
  apply pval_mono; try (apply rN_pos; lia).
  rewrite !rN_small by assumption.
  apply div_le_cross; unfold RN.
  - apply IZR_lt. lia.
  - apply IZR_lt. lia.
  - rewrite <- !mult_IZR. apply IZR_le. lia.
Qed.

(** A corner that is not better than the point [rho], and not worse than what is reported. *)
Lemma corner_found : forall m ord o n meth d tc rho, is_order ord ->
  meth = ExactWorst \/ meth = GuessWorst ->
  typed o -> typed n -> multi_affine (eterm o) -> multi_affine (eterm n) ->
  compare_extrinsics m ord (Some o) (Some n) {| p_method := meth; p_unit := d |} = Ok tc ->
  (forall r, in_box d (Some o) (Some n) r ->
     (poly_val r (eterm o) < u128_bound /\ poly_val r (eterm n) < u128_bound)%N) ->
  in_box d (Some o) (Some n) rho -> (0 < poly_val rho (eterm n) + poly_val rho (eterm o))%N ->
  exists rho', in_box d (Some o) (Some n) rho' /\
    (poly_val rho (eterm n) * poly_val rho' (eterm o) <= poly_val rho' (eterm n) * poly_val rho (eterm o))%N /\
    (0 < poly_val rho' (eterm n) + poly_val rho' (eterm o))%N /\
    (mils (percent (poly_val rho' (eterm o)) (poly_val rho' (eterm n))) <= mils (tc_percent tc))%Z.
Proof.
  intros m ord o n meth d tc rho Ho M To Tn Ao An E Hpos Hb Hp.
  assert (T : forall e, Some o = Some e \/ Some n = Some e -> typed e) by (intros e [K|K]; inversion K; subst; auto).
  assert (M1 : low_side meth = Low) by (destruct M; subst; auto).
  assert (M2 : high_side meth = High) by (destruct M; subst; auto).
  set (lo := fun c => instv Low (annotations (Some o) (Some n) c)).
  set (hi := fun c => instv High (annotations (Some o) (Some n) c)).
  assert (Hr : forall r c, in_box d (Some o) (Some n) r -> component storage_var (Some o) (Some n) c -> (lo c <= r c <= hi c)%N).
  { intros r c (_ & _ & K) Hc. destruct (K c Hc) as (l & h & L & H & B).
    apply inst_instv in L, H. unfold lo, hi. rewrite <- L, <- H. exact B. }
  (* variables that are no component are kept inside an artificial range *)
  pose (fr := frees_of (Some o) (Some n) (storage_scope d)).
  assert (Hfr : forall c, In c fr <-> component storage_var (Some o) (Some n) c).
  { intros c. unfold fr. now rewrite frees_of_component, component_storage. }
  pose (lo' := fun c => if in_dec string_dec c fr then lo c else rho c).
  pose (hi' := fun c => if in_dec string_dec c fr then hi c else rho c).
  pose (good := fun r => in_box d (Some o) (Some n) r /\ forall x, ~ In x fr -> ~ storage_var x -> r x = rho x).
  destruct (move_all (eterm o) (eterm n) lo' hi' good) with (l := fr) (rho := rho) as (rho' & G & C & _ & L & Lp).
  - intros r x v [G G'] Hv Nx. unfold lo', hi' in Hv. split.
    + destruct G as (R & W & K). split; [|split].
      * unfold upd. destruct (String.eqb_spec "READ" x); auto. exfalso. apply Nx. now left.
      * unfold upd. destruct (String.eqb_spec "WRITE" x); auto. exfalso. apply Nx. now right.
      * intros c Hc. destruct (K c Hc) as (l & h & Ll & Hh & B). exists l, h. split; auto. split; auto.
        unfold upd. destruct (String.eqb_spec c x) as [->|]; auto.
        destruct (in_dec string_dec x fr) as [I|I]; [|exfalso; apply I; now apply Hfr].
        apply inst_instv in Ll, Hh. unfold lo, hi in Hv. subst l h. destruct Hv; subst v; lia.
    + intros y Hy Ny. unfold upd. destruct (String.eqb_spec y x) as [->|]; auto.
      destruct (in_dec string_dec x fr); [contradiction|]. tauto.
  - intros r x [G G'] Nx. unfold lo', hi'. destruct (in_dec string_dec x fr) as [I|I].
    + apply Hr; auto. now apply Hfr.
    + rewrite G' by auto. lia.
  - exact Ao.
  - exact An.
  - split; auto.
  - exact Hp.
  - intros x Hx. apply Hfr in Hx as [_ K]. exact K.
  - destruct G as [G _].
    assert (C' : forall c, component storage_var (Some o) (Some n) c ->
       inst Low (annotations (Some o) (Some n) c) (rho' c) \/ inst High (annotations (Some o) (Some n) c) (rho' c)).
    { intros c Hc. rewrite !inst_instv. apply Hfr in Hc. specialize (C c Hc). unfold lo', hi' in C.
      destruct (in_dec string_dec c fr); [exact C|contradiction]. }
    destruct (corner_of_rho d (Some o) (Some n) meth rho' M1 M2 C') as (s & Hs & Es).
    destruct (worst_corner_lemma _ _ _ _ _ _ Ho E) as (pre & post & vo & vn & _ & Hi & _ & _ & _ & Ep & _ & W1 & W2).
    cbn [p_unit p_method] in *.
    assert (Ev : forall e, e = o \/ e = n -> poly_val (rho_of s) (eterm e) = poly_val rho' (eterm e)).
    { intros e He. apply poly_val_ext. intros x Hx. destruct (corner_storage _ _ _ _ _ Hs) as [R W].
      destruct (box_cases d (Some o) (Some n) rho' e x G) as [[-> K]|[[-> K]|K]]; auto.
      - destruct He; subst; auto.
      - rewrite K. now apply rho_get.
      - rewrite K. now apply rho_get. }
    destruct (Hpos rho' G) as [P1 P2].
    assert (W : exists v w, eval m s (effective d (eterm o)) = Ok v /\ eval m s (effective d (eterm n)) = Ok w /\
       (mils (percent v w) <= mils (tc_percent tc))%Z).
    { apply Hi in Hs. apply in_app_iff in Hs as [K|[<-|K]].
      - destruct (W1 s K) as (v & w & [A B] & D). exists v, w. auto.
      - destruct (worst_corner_lemma _ _ _ _ _ _ Ho E) as (_ & _ & vo' & vn' & _ & _ & [A B] & _ & _ & Ep' & _).
        cbn [p_unit p_method] in *. exists vo', vn'. rewrite Ep'. split; auto. split; auto. lia.
      - destruct (W2 s K) as (v & w & [A B] & D). exists v, w. split; auto. split; auto. lia. }
    destruct W as (v & w & A & B & D). rewrite (eval_effective _ _ _ _ m _ _ Hs) in A. rewrite (eval_effective _ _ _ _ m _ _ Hs) in B.
    destruct (corner_value m d _ _ _ s o v T Hs (or_introl eq_refl) A) as [_ Vo].
    destruct (corner_value m d _ _ _ s n w T Hs (or_intror eq_refl) B) as [_ Vn].
    rewrite Ev in Vo, Vn by auto. rewrite Vo in D by (right; exact P1). rewrite Vn in D by (right; exact P2).
    exists rho'. auto.
Qed.

Lemma interior_lemma : forall m ord o n meth d tc rho, is_order ord ->
  meth = ExactWorst \/ meth = GuessWorst ->
  typed o -> typed n -> multi_affine (eterm o) -> multi_affine (eterm n) ->
  compare_extrinsics m ord (Some o) (Some n) {| p_method := meth; p_unit := d |} = Ok tc ->
  (forall r, in_box d (Some o) (Some n) r -> (poly_val r (eterm o) <= 2 ^ 53 /\ poly_val r (eterm n) <= 2 ^ 53)%N) ->
  in_box d (Some o) (Some n) rho -> (0 < poly_val rho (eterm o) + poly_val rho (eterm n))%N ->
  (mils (percent (poly_val rho (eterm o)) (poly_val rho (eterm n))) <= mils (tc_percent tc))%Z.
Proof.
  intros m ord o n meth d tc rho Ho M To Tn Ao An E B Hb Hp.
  destruct (corner_found m ord o n meth d tc rho Ho M To Tn Ao An E) as (rho' & Hb' & L & P & D); auto; [|lia|].
  - intros r Hr. destruct (B r Hr). split; now apply small_u128.
  - eapply Z.le_trans; [|exact D]. destruct (B rho Hb). destruct (B rho' Hb'). apply mils_percent_le; auto. lia.
Qed.

(** ** The affine restriction is needed *)
Definition quad_old : sextrinsic :=
  mk_ext "f" "p" (Add (Value 100%N) (Mul (Var "n") (Var "n"))) (Some [("n"%string, mk_range 0 100)]).
Definition quad_new : sextrinsic :=
  mk_ext "f" "p" (Add (Value 100%N) (Mul (Scalar 50) (Var "n"))) (Some [("n"%string, mk_range 0 100)]).

Lemma quad_box rho : (rho "READ" = 25000000 -> rho "WRITE" = 100000000 -> rho "n" <= 100 ->
  in_box Time (Some quad_old) (Some quad_new) rho)%N%string.
Proof.
  intros R W H. split; [exact R|]. split; [exact W|]. intros c [(e & [He|He] & Hc) Nc]; inversion He; subst e.
  - assert (c = "n"%string) by (destruct Hc as [<-|[<-|[]]]; auto). subst c.
    exists 0%N, 100%N. split; [|split; [|lia]]; simpl; unfold least, greatest; simpl; (split; [auto|]); intros w [<-|[<-|[]]]; lia.
  - assert (c = "n"%string) by (destruct Hc as [<-|[]]; auto). subst c.
    exists 0%N, 100%N. split; [|split; [|lia]]; simpl; unfold least, greatest; simpl; (split; [auto|]); intros w [<-|[<-|[]]]; lia.
Qed.

Lemma quad_n rho : in_box Time (Some quad_old) (Some quad_new) rho -> (rho "n"%string <= 100)%N.
Proof.
  intros (_ & _ & H). destruct (H "n"%string) as (lo & hi & _ & [Hh _] & B).
  - split; [|intros [K|K]; discriminate]. exists quad_old. split; auto. right. now left.
  - simpl in Hh. lia.
Qed.

Lemma quad_typed : typed quad_old /\ typed quad_new.
Proof.
  assert (K : forall rs c r, Some [("n"%string, mk_range 0 100)] = Some rs -> ranges_get rs c = Some r -> (rmin r < 2 ^ 32 /\ rmax r < 2 ^ 32)%N).
  { intros rs c r E. inversion E; subst. unfold ranges_get. cbn [mget]. destruct (str_cmp c "n"); inversion 1; split; reflexivity. }
  assert (B : forall k, (k < 2 ^ 32)%N -> (k < u128_bound)%N) by (apply u128_small).
  split; (split; [|exact K]); simpl; repeat split; apply B; reflexivity.
Qed.

Lemma quadratic_refuted_lemma : exists ord o n tc rho, is_order ord /\ typed o /\ typed n /\
  compare_extrinsics Checked ord (Some o) (Some n) {| p_method := ExactWorst; p_unit := Time |} = Ok tc /\
  (forall r, in_box Time (Some o) (Some n) r ->
     (0 < poly_val r (eterm o) <= 2 ^ 53 /\ poly_val r (eterm n) <= 2 ^ 53)%N) /\
  in_box Time (Some o) (Some n) rho /\
  (mils (tc_percent tc) < mils (percent (poly_val rho (eterm o)) (poly_val rho (eterm n))))%Z.
Proof.
  exists (fun l => l), quad_old, quad_new.
  destruct (compare_extrinsics Checked (fun l => l) (Some quad_old) (Some quad_new) {| p_method := ExactWorst; p_unit := Time |})
    as [tc| | |] eqn:E; try (vm_compute in E; discriminate).
  exists tc, (fun x => if String.eqb x "READ" then 25000000%N else if String.eqb x "WRITE" then 100000000%N else 10%N).
  split; [intros l; apply Permutation_refl|]. split; [apply quad_typed|]. split; [apply quad_typed|].
  split; [reflexivity|]. split; [|split].
  - intros r Hr. apply quad_n in Hr. cbn [quad_old quad_new eterm]. pv.
    assert (r "n"%string * r "n"%string <= 100 * 100)%N by (apply N.mul_le_mono; auto).
    change (2 ^ 53)%N with 9007199254740992%N. lia.
  - apply quad_box; simpl; lia.
  - vm_compute in E. inversion E; subst tc. vm_compute. reflexivity.
Qed.
