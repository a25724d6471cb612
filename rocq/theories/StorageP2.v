(** Proofs about the constants of Substrate in the files of storage weights. *)
From Coq Require Import List String Ascii Arith NArith Bool Lia.
From Verif Require Import Base ScopeM TermM SpecTerm TermP SpecChrom ChromP CompareM SynM AttrM ParseM StorageM SpecParse SpecStorage SpecNanos ParseP ParseP2 StorageP.
Import ListNotations.
Local Open Scope string_scope.
Local Open Scope N_scope.

Lemma storage_sound2 c x : storage_macro (Some c) = Ok x -> exists r w, db_const c (w_db x) r w /\
  storage_expression r = Ok (rw_read (w_rws x)) /\ storage_expression w = Ok (rw_write (w_rws x)).
Proof.
  unfold storage_macro. intros H. apply bind_ok in H. destruct H as (d & Hd & H). apply bind_ok in H. destruct H as (tn & Ht & H).
  destruct (String.eqb_spec tn "RuntimeDbWeight"); [|discriminate H]. cbn in H. subst tn.
  destruct (c_expr c) as [| | | | | | |p fields|] eqn:EE; try discriminate H. apply bind_ok in H. destruct H as (ws & H & [= <-]).
  unfold parse_runtime_db_weight in H. destruct (String.eqb_spec (path_to_string p "") "RuntimeDbWeight") as [N|]; [|discriminate H].
  destruct (Nat.eqb_spec (List.length fields) 2) as [L|]; [|discriminate H]. cbn [negb] in H.
  destruct (find_field "read" fields) as [r|] eqn:R; [|discriminate H]. destruct (find_field "write" fields) as [w|] eqn:W; [|discriminate H].
  apply bind_ok in H. destruct H as (tr & Hr & H). apply bind_ok in H. destruct H as (tw & Hw & [= <-]).
  exists (snd r), (snd w). split; [|split; assumption].
  split. { cbn. destruct (String.eqb_spec (c_name c) "RocksDbWeight"); [injection Hd as <-; assumption|].
           destruct (String.eqb_spec (c_name c) "ParityDbWeight"); [injection Hd as <-; assumption|discriminate Hd]. }
  split. { destruct (c_ty c) as [|q|]; try discriminate Ht. injection Ht as Ht. eauto. }
  exists p, fields. split; [exact EE|]. split; [exact N|]. now apply fields_two.
Qed.

Lemma get_with {T} (sc : scope T) x y v : scope_get (with_var sc x v) y = if String.eqb x y then Some v else scope_get sc y.
Proof. destruct (String.eqb_spec x y) as [->|N]; [apply get_put_eq|now apply get_put_ne]. Qed.
Lemma substrate_get x : (nanosecond x -> scope_get from_substrate x = Some (Scalar 1000)) /\
  (scope_get from_substrate x <> None -> nanosecond x).
Proof.
  split.
  - intros (s & [-> | ->] & [-> | ->]); vm_compute; reflexivity.
  - unfold from_substrate. rewrite !get_with. unfold nanosecond.
    destruct (String.eqb_spec "constants::WEIGHT_REF_TIME_PER_NANOS" x) as [<-|N1]; [intros _; eexists; split; [right; reflexivity|right; reflexivity]|].
    destruct (String.eqb_spec "constants::WEIGHT_PER_NANOS" x) as [<-|N2]; [intros _; eexists; split; [left; reflexivity|right; reflexivity]|].
    destruct (String.eqb_spec "WEIGHT_REF_TIME_PER_NANOS" x) as [<-|N3]; [intros _; eexists; split; [right; reflexivity|left; reflexivity]|].
    destruct (String.eqb_spec "WEIGHT_PER_NANOS" x) as [<-|N4]; [intros _; eexists; split; [left; reflexivity|left; reflexivity]|].
    intros H. now destruct H.
Qed.
Lemma nano_not x : nanosecond x -> x <> "READ" /\ x <> "WRITE".
Proof. intros (s & [-> | ->] & [-> | ->]); split; discriminate. Qed.

Lemma bound128 : u128_bound = 2 ^ 128. Proof. vm_compute. reflexivity. Qed.
Lemma picos_evals e n : picos e n -> forall t sc m, storage_expression e = Ok t ->
  (forall x, nanosecond x -> scope_get sc x = Some (Scalar 1000)) -> evals m sc t (Ok n).
Proof.
  induction 1 as [n B|p N|l r a b Hl IHl Hr IHr B|l r a b Hl IHl Hr IHr B]; intros t sc m E S.
  - cbn in E. rewrite <- bound128 in B. apply N.ltb_lt in B. rewrite B in E. cbn in E. injection E as <-. constructor.
  - cbn in E. injection E as <-. eapply ev_var; [apply S; exact N|constructor].
  - cbn in E. inv_ok. subst. rewrite <- (umul_fits m) by now rewrite bound128. constructor; auto.
  - cbn in E. inv_ok. subst. rewrite <- (uadd_fits m) by now rewrite bound128. constructor; auto.
Qed.
Lemma evals_poly m sc rho t : (forall x, occurs x t -> evals m sc (Var x) (Ok (rho x))) ->
  (forall s, subterm s t -> poly_val rho s < u128_bound) -> evals m sc t (Ok (poly_val rho t)).
Proof.
  induction t as [n|n|x|l IHl r IHr|l IHl r IHr]; intros O B.
  - rewrite poly_val_leaf_value. constructor.
  - rewrite poly_val_leaf_scalar. constructor.
  - rewrite poly_val_var. apply O. now left.
  - pose proof (B _ (sub_here _)) as K. rewrite poly_val_add in *. rewrite <- (uadd_fits m) by exact K.
    constructor; [apply IHl|apply IHr]; intros; try (apply O; apply in_or_app; auto); apply B; constructor; assumption.
  - pose proof (B _ (sub_here _)) as K. rewrite poly_val_mul in *. rewrite <- (umul_fits m) by exact K.
    constructor; [apply IHl|apply IHr]; intros; try (apply O; apply in_or_app; auto); apply B; constructor; assumption.
Qed.

Definition with_comps (comps : list (string * N)) (sc : sscope) : sscope :=
  fold_left (fun s p => put_var s (fst p) (Scalar (snd p))) comps sc.
Lemma comps_get comps : forall sc x,
  (In x (map fst comps) -> exists n, In (x, n) comps /\ scope_get (with_comps comps sc) x = Some (Scalar n)) /\
  (~ In x (map fst comps) -> scope_get (with_comps comps sc) x = scope_get sc x).
Proof.
  induction comps as [|[y n] comps IH]; intros sc x; [cbn; tauto|].
  change (with_comps ((y, n) :: comps) sc) with (with_comps comps (with_var sc y (Scalar n))). cbn [map fst In]. destruct (IH (with_var sc y (Scalar n)) x) as [I1 I2].
  destruct (in_dec string_dec x (map fst comps)) as [J|J].
  - split; [|intros K; tauto]. intros _. destruct (I1 J) as (k & Hk & E). exists k. auto.
  - split.
    + intros [<-|K]; [|tauto]. exists n. split; [auto|]. rewrite (I2 J), get_with. now rewrite String.eqb_refl.
    + intros K. rewrite (I2 J), get_with. destruct (String.eqb_spec y x); [subst; tauto|reflexivity].
Qed.

Lemma nanos_lemma : forall items x, proper_file items -> storage_content (Some items) = Ok x ->
  exists c r w, In c (flat_map consts items) /\ db_const c (w_db x) r w /\
  forall nr nw, picos r nr -> picos w nw ->
    forall m, eval m from_substrate (rw_read (w_rws x)) = Ok nr /\ eval m from_substrate (rw_write (w_rws x)) = Ok nw /\
    forall comps rho t,
      (forall y, In y (map fst comps) -> ~ nanosecond y /\ y <> "READ" /\ y <> "WRITE") -> env comps nr nw rho ->
      (forall y, occurs y t -> nanosecond y \/ y = "READ" \/ y = "WRITE" \/ In y (map fst comps)) ->
      (forall s, subterm s t -> poly_val rho s < 2 ^ 128) ->
      eval m (fold_left (fun s p => put_var s (fst p) (Scalar (snd p))) comps
                (with_storage_weights from_substrate (rw_read (w_rws x)) (rw_write (w_rws x)))) t = Ok (poly_val rho t).
Proof.
  intros items x [P1 P2] E.
  assert (X : exists c, In c (flat_map consts items) /\ storage_macro (Some c) = Ok x).
  { unfold storage_content in E. cbn in E. clear P2.
    pose proof (items_flat storage_macro ltac:(eexists; reflexivity) "No DB weights found" items P1) as S. rewrite E in S.
    destruct (pick storage_macro (flat_map consts items)) eqn:K; cbn in S; try discriminate S. injection S as <-. clear - K.
    unfold pick in K. induction (flat_map consts items) as [|c l IH]; [discriminate K|]. cbn [first_ok] in K. destruct (storage_macro (Some c)) eqn:M; try discriminate K.
    - injection K as <-. exists c. split; [now left|exact M].
    - destruct (IH K) as (c' & I & H). exists c'. split; [now right|exact H]. }
  destruct X as (c & Ic & M). destruct (storage_sound2 c x M) as (r & w & D & Er & Ew). exists c, r, w. split; [exact Ic|]. split; [exact D|].
  intros nr nw Pr Pw m.
  assert (R : forall sc, (forall y, nanosecond y -> scope_get sc y = Some (Scalar 1000)) -> evals m sc (rw_read (w_rws x)) (Ok nr)) by (intros; eapply picos_evals; eauto).
  assert (W : forall sc, (forall y, nanosecond y -> scope_get sc y = Some (Scalar 1000)) -> evals m sc (rw_write (w_rws x)) (Ok nw)) by (intros; eapply picos_evals; eauto).
  split; [|split].
  - apply eval_iff_evals; [discriminate|]. apply R. intros y Hy. now apply substrate_get.
  - apply eval_iff_evals; [discriminate|]. apply W. intros y Hy. now apply substrate_get.
  - intros comps rho t NC (Rr & Rw & Rn & Rc) O B. apply eval_iff_evals; [discriminate|].
    set (sc0 := with_storage_weights from_substrate (rw_read (w_rws x)) (rw_write (w_rws x))).
    fold (with_comps comps sc0). 
    assert (Sn : forall y, nanosecond y -> scope_get (with_comps comps sc0) y = Some (Scalar 1000)).
    { intros y Hy. destruct (comps_get comps sc0 y) as [_ C2]. rewrite C2.
      - unfold sc0, with_storage_weights. rewrite !get_with. destruct (nano_not y Hy) as [A1 A2].
        destruct (String.eqb_spec STORAGE_WRITE_VAR y) as [<-|_]; [now destruct A2|].
        destruct (String.eqb_spec STORAGE_READ_VAR y) as [<-|_]; [now destruct A1|]. now apply substrate_get.
      - intros K. apply NC in K. tauto. }
    apply evals_poly; [|now rewrite bound128]. intros y Hy. destruct (O y Hy) as [K|[->|[->|K]]].
    + rewrite (Rn y K). eapply ev_var; [apply Sn, K|constructor].
    + rewrite Rr. eapply ev_var; [|apply R, Sn]. destruct (comps_get comps sc0 "READ") as [_ C2]. rewrite C2.
      * unfold sc0, with_storage_weights. rewrite !get_with. reflexivity.
      * intros K. apply NC in K. tauto.
    + rewrite Rw. eapply ev_var; [|apply W, Sn]. destruct (comps_get comps sc0 "WRITE") as [_ C2]. rewrite C2.
      * unfold sc0, with_storage_weights. rewrite !get_with. reflexivity.
      * intros K. apply NC in K. tauto.
    + destruct (comps_get comps sc0 y) as [C1 _]. destruct (C1 K) as (n & In1 & G). rewrite (Rc y n In1). eapply ev_var; [exact G|constructor].
Qed.
Lemma names_lemma x : scope_get from_substrate x <> None <-> nanosecond x.
Proof. destruct (substrate_get x) as [A B]. split; [exact B|]. intros H. rewrite (A H). discriminate. Qed.
