(** Proofs about the parsers of storage and overhead weights. *)
From Coq Require Import List String Ascii Arith NArith Bool Lia.
From Verif Require Import Base ScopeM TermM SpecTerm TermP SpecChrom ChromP CompareM SynM AttrM ParseM StorageM SpecParse SpecStorage ParseP ParseP2.
Import ListNotations.
Local Open Scope string_scope.
Local Open Scope N_scope.

Section ItemInd.
  Variable P : item -> Prop.
  Hypothesis HImpl : forall t l, P (IImpl t l).
  Hypothesis HMod0 : forall s, P (IMod s None).
  Hypothesis HMod : forall s l, Forall P l -> P (IMod s (Some l)).
  Hypothesis HMacro : forall p c, P (IMacro p c).
  Hypothesis HOther : P IOther.
  Fixpoint item_ind' (i : item) : P i :=
    match i with
    | IImpl t l => HImpl t l
    | IMod s None => HMod0 s
    | IMod s (Some l) => HMod s l ((fix all (l : list item) : Forall P l :=
        match l with [] => Forall_nil P | a :: l' => Forall_cons a (item_ind' a) (all l') end) l)
    | IMacro p c => HMacro p c
    | IOther => HOther
    end.
End ItemInd.

(** Equal up to the text of an error. *)
Definition sim {A} (a b : outcome A) : Prop :=
  match a, b with Err _, Err _ => True | a, b => a = b end.
Lemma sim_refl {A} (a : outcome A) : sim a a.
Proof. destruct a; cbn; auto. Qed.

(** The first success in a list of items is that in the list of all constants. *)
Section Flat.
  Context {A : Type} (pm : option item_const -> outcome A).
  Hypothesis pm_none : exists msg, pm None = Err msg.
  Definition pick (l : list item_const) : outcome A := first_ok (fun c => pm (Some c)) "" l.
  Lemma pick_app a b : pick (a ++ b)%list = match pick a with Err _ => pick b | r => r end.
  Proof. unfold pick. induction a as [|c a IH]; cbn; [reflexivity|]. destruct (pm (Some c)); auto. Qed.
  Lemma item_flat i : proper_macros i -> sim (handle_const_item pm i) (pick (consts i)).
  Proof.
    induction i as [t l|s|s l IH|p c|] using item_ind'; intros G; try exact I.
    - cbn. destruct (String.eqb s "constants"); exact I.
    - cbn [handle_const_item consts]. destruct (String.eqb s "constants"); [|exact I].
      induction IH as [|i l Hi Hl IH]; [exact I|]. cbn in G. destruct G as [G1 G2]. specialize (Hi G1). specialize (IH G2).
      cbn [flat_map]. rewrite pick_app. destruct (handle_const_item pm i); destruct (pick (consts i)); cbn in Hi; try discriminate Hi; auto; congruence.
    - cbn in G. cbn [handle_const_item consts].
      destruct (exists_last G) as (pre & x & E). rewrite E, rev_app_distr, last_last. cbn [rev app].
      destruct c as [c|]; destruct (String.eqb x "parameter_types"); try exact I.
      + unfold pick. cbn. destruct (pm (Some c)); cbn; auto.
      + destruct pm_none as (msg & ->). exact I.
  Qed.
  Lemma items_flat msg items : Forall proper_macros items ->
    sim (first_ok (handle_const_item pm) msg items) (pick (flat_map consts items)).
  Proof.
    induction 1 as [|i l G _ IH]; [exact I|]. cbn [first_ok flat_map]. rewrite pick_app. pose proof (item_flat i G) as Hi.
    destruct (handle_const_item pm i); destruct (pick (consts i)); cbn in Hi; try discriminate Hi; auto; congruence.
  Qed.

  (** With readings for the constants. *)
  Variable read : item_const -> A -> Prop.
  Hypothesis sound : forall c x, pm (Some c) = Ok x -> read c x.
  Hypothesis complete : forall c x, int_literals (c_expr c) -> read c x -> exists y, pm (Some c) = Ok y.
  Hypothesis total : forall c, int_literals (c_expr c) -> returns (pm (Some c)).

  Lemma pick_ok l x : (forall c, In c l -> int_literals (c_expr c)) -> pick l = Ok x -> first_reading read l x.
  Proof.
    unfold pick. induction l as [|c l IH]; intros G; cbn; [discriminate|]. destruct (pm (Some c)) as [y|msg| |] eqn:E; try discriminate.
    - intros [= ->]. exists [], c, l. split; [reflexivity|]. split; [now apply sound|]. intros c' x' [].
    - intros H. destruct (IH (fun c' Hc => G c' (or_intror Hc)) H) as (pre & c' & post & -> & R & N). exists (c :: pre), c', post.
      split; [reflexivity|]. split; [exact R|]. intros k x' [<-|Hk]; [|now apply N]. intros K.
      destruct (complete c x' (G c (or_introl eq_refl)) K) as (y & Hy). congruence.
  Qed.
  Lemma pick_returns l : (forall c, In c l -> int_literals (c_expr c)) -> returns (pick l).
  Proof.
    unfold pick. induction l as [|c l IH]; intros G; [exact I|]. cbn. pose proof (total c (G c (or_introl eq_refl))) as R.
    destruct (pm (Some c)); try exact R. apply IH. intros k Hk. apply G. now right.
  Qed.
  Lemma pick_err l : (forall c, In c l -> int_literals (c_expr c)) -> (is_err (pick l) = true <-> forall c x, In c l -> ~ read c x).
  Proof.
    unfold pick. induction l as [|c l IH]; intros G; cbn; [split; [intros _ c x []|reflexivity]|].
    pose proof (total c (G c (or_introl eq_refl))) as R. destruct (pm (Some c)) as [y|msg| |] eqn:E; try (destruct R; fail).
    - split; [discriminate|]. intros H. apply sound in E. now destruct (H c y (or_introl eq_refl)).
    - rewrite IH by (intros k Hk; apply G; now right). split.
      + intros H k x [<-|Hk]; [|now apply H]. intros K. destruct (complete c x (G c (or_introl eq_refl)) K) as (y & Hy). congruence.
      + intros H k x Hk. apply H. now right.
  Qed.

  Lemma content_lemma msg items : proper_file items ->
    (forall x, first_ok (handle_const_item pm) msg items = Ok x -> first_reading read (flat_map consts items) x) /\
    (is_err (first_ok (handle_const_item pm) msg items) = true <-> forall c x, In c (flat_map consts items) -> ~ read c x) /\
    returns (first_ok (handle_const_item pm) msg items).
  Proof.
    intros [G1 G2]. pose proof (items_flat msg items G1) as S. pose proof (pick_returns _ G2) as R. pose proof (pick_err _ G2) as E.
    pose proof (fun x => pick_ok _ x G2) as K.
    destruct (first_ok (handle_const_item pm) msg items); destruct (pick (flat_map consts items)); cbn in S, R |- *; try discriminate S; try (destruct R; fail).
    - injection S as ->. split; [exact K|]. split; [|exact I]. exact E.
    - split; [discriminate|]. split; [|exact I]. exact E.
  Qed.
End Flat.

(** ** C41: storage weights *)
Lemma storage_arith e : forall t, storage_expression e = Ok t -> forall rho, arith rho e = Some (poly_val rho t).
Proof.
  induction e as [e IH|e IH|r m args tr IHr IHa|l|p|func args tr IHf IHa|o l r IHl IHr|p fs IH|] using expr_ind'; intros t E rho; try discriminate E; cbn in E |- *.
  - destruct l as [n|]; cbn in E; [|discriminate]. destruct (n <? u128_bound); inv_ok. subst. now pv.
  - inv_ok. subst. now pv.
  - inv_ok. destruct o; inv_ok; subst; rewrite (IHl _ H rho), (IHr _ H0 rho); now pv.
Qed.
Lemma arith_storage e rho : int_literals e -> arith rho e <> None -> exists t, storage_expression e = Ok t.
Proof.
  induction e as [e IH|e IH|r m args tr IHr IHa|l|p|func args tr IHf IHa|o l r IHl IHr|p fs IH|] using expr_ind'; intros G A; cbn in A |- *; try congruence.
  - destruct (G l) as (n & -> & B); [cbn; auto|]. apply N.ltb_lt in B. cbn. rewrite B. cbn. eauto.
  - eauto.
  - assert (Gl : int_literals l) by (intros x Hx; apply G; cbn; apply in_or_app; auto).
    assert (Gr : int_literals r) by (intros x Hx; apply G; cbn; apply in_or_app; auto).
    destruct o; destruct (arith rho l); try congruence; destruct (arith rho r); try congruence;
      destruct (IHl Gl ltac:(discriminate)) as (a & ->); destruct (IHr Gr ltac:(discriminate)) as (b & ->); cbn; eauto.
Qed.
Lemma storage_returns e : int_literals e -> returns (storage_expression e).
Proof.
  induction e as [e IH|e IH|r m args tr IHr IHa|l|p|func args tr IHf IHa|o l r IHl IHr|p fs IH|] using expr_ind'; intros G; try exact I; cbn.
  - apply returns_bind; [|intros; exact I]. apply int_lit, G. cbn. auto.
  - assert (Gl : int_literals l) by (intros x Hx; apply G; cbn; apply in_or_app; auto).
    assert (Gr : int_literals r) by (intros x Hx; apply G; cbn; apply in_or_app; auto).
    apply returns_bind; auto. intros. apply returns_bind; auto. intros. destruct o; exact I.
Qed.

Lemma fields_two fields r w : List.length fields = 2%nat -> find_field "read" fields = Some r -> find_field "write" fields = Some w ->
  fields = [(Some "read", snd r); (Some "write", snd w)] \/ fields = [(Some "write", snd w); (Some "read", snd r)].
Proof.
  intros L R W. destruct fields as [|[n1 e1] [|[n2 e2] [|]]]; try discriminate L. clear L. unfold find_field in *. cbn in R, W.
  assert (Named : forall (m : option string) s, s <> "" -> String.eqb (member_to_string m) s = true -> m = Some s).
  { intros [m|] s N H; apply String.eqb_eq in H; cbn in H; congruence. }
  destruct (String.eqb (member_to_string n1) "read") eqn:A1.
  - injection R as <-. apply Named in A1; [|discriminate]. subst n1. cbn in W.
    destruct (String.eqb (member_to_string n2) "write") eqn:A2; [|discriminate W]. injection W as <-. apply Named in A2; [|discriminate]. subst. auto.
  - destruct (String.eqb (member_to_string n2) "read") eqn:A2; [|discriminate R]. injection R as <-. apply Named in A2; [|discriminate]. subst n2. cbn in W.
    destruct (String.eqb (member_to_string n1) "write") eqn:A3; [|discriminate W]. injection W as <-. apply Named in A3; [|discriminate]. subst. auto.
Qed.

Lemma storage_sound c x : storage_macro (Some c) = Ok x -> db_reading c x.
Proof.
  unfold storage_macro. intros H. apply bind_ok in H. destruct H as (d & Hd & H). apply bind_ok in H. destruct H as (tn & Ht & H).
  destruct (String.eqb_spec tn "RuntimeDbWeight"); [|discriminate H]. cbn in H. subst tn.
  destruct (c_expr c) as [| | | | | | |p fields|] eqn:EE; try discriminate H. apply bind_ok in H. destruct H as (ws & H & [= <-]).
  unfold parse_runtime_db_weight in H. destruct (String.eqb_spec (path_to_string p "") "RuntimeDbWeight") as [N|]; [|discriminate H].
  destruct (Nat.eqb_spec (List.length fields) 2) as [L|]; [|discriminate H]. cbn [negb] in H.
  destruct (find_field "read" fields) as [r|] eqn:R; [|discriminate H]. destruct (find_field "write" fields) as [w|] eqn:W; [|discriminate H].
  apply bind_ok in H. destruct H as (tr & Hr & H). apply bind_ok in H. destruct H as (tw & Hw & [= <-]).
  exists (snd r), (snd w). split; [|split; intros rho; cbn; now apply storage_arith].
  split. { cbn. destruct (String.eqb_spec (c_name c) "RocksDbWeight"); [injection Hd as <-; assumption|].
           destruct (String.eqb_spec (c_name c) "ParityDbWeight"); [injection Hd as <-; assumption|discriminate Hd]. }
  split. { destruct (c_ty c) as [|q|]; try discriminate Ht. injection Ht as Ht. eauto. }
  exists p, fields. split; [exact EE|]. split; [exact N|]. now apply fields_two.
Qed.
Lemma storage_complete c x : int_literals (c_expr c) -> db_reading c x -> exists y, storage_macro (Some c) = Ok y.
Proof.
  intros G (r & w & (Hn & (q & Ht & Nq) & p & fields & EE & Np & F) & Ar & Aw).
  assert (Gr : int_literals r /\ int_literals w).
  { rewrite EE in G. split; intros l Hl; apply G; cbn; apply in_flat_map.
    - exists (Some "read", r). split; [destruct F as [-> | ->]; cbn; auto|exact Hl].
    - exists (Some "write", w). split; [destruct F as [-> | ->]; cbn; auto|exact Hl]. }
  destruct (arith_storage r (fun _ => 0) (proj1 Gr)) as (tr & Er); [rewrite Ar; discriminate|].
  destruct (arith_storage w (fun _ => 0) (proj2 Gr)) as (tw & Ew); [rewrite Aw; discriminate|].
  unfold storage_macro. rewrite Ht, EE. unfold names_type in *. unfold type_to_string, parse_runtime_db_weight, path_to_string.
  rewrite Nq, Np, Hn. destruct F as [-> | ->]; destruct (w_db x); cbn; rewrite Er; cbn; rewrite Ew; cbn; eauto.
Qed.
Lemma storage_total c : int_literals (c_expr c) -> returns (storage_macro (Some c)).
Proof.
  intros G. unfold storage_macro. apply returns_bind.
  { destruct (String.eqb _ _); [exact I|]. destruct (String.eqb _ _); exact I. }
  intros d _. apply returns_bind; [destruct (c_ty c); exact I|]. intros tn _. destruct (negb _); [exact I|].
  destruct (c_expr c) as [| | | | | | |p fields|] eqn:EE; try exact I. apply returns_bind; [|intros; exact I].
  unfold parse_runtime_db_weight. destruct (negb _); [exact I|]. destruct (negb _); [exact I|].
  assert (Gf : forall n f, find_field n fields = Some f -> int_literals (snd f)).
  { intros n f H. apply find_some in H. destruct H as [H _]. intros l Hl. apply G. cbn. apply in_flat_map. eauto. }
  destruct (find_field "read" fields) eqn:R; [|exact I]. destruct (find_field "write" fields) eqn:W; [|exact I].
  apply returns_bind; [apply storage_returns; eauto|]. intros. apply returns_bind; [apply storage_returns; eauto|]. intros; exact I.
Qed.
Lemma storage_lemma items : proper_file items ->
  (forall x, storage_content (Some items) = Ok x -> first_reading db_reading (flat_map consts items) x) /\
  (is_err (storage_content (Some items)) = true <-> forall c x, In c (flat_map consts items) -> ~ db_reading c x) /\
  returns (storage_content (Some items)).
Proof.
  apply content_lemma; eauto using storage_sound, storage_complete, storage_total. eexists. reflexivity.
Qed.

(** ** C42: overhead weights *)
Lemma accepted_spec c t : (match c_expr c with
    | EBinary op l r => let* simple := binary_to_term op l r in Ok (into_chromatic Time simple)
    | e => parse_expression e
    end) = Ok t <-> accepted (c_expr c) t.
Proof.
  destruct (c_expr c) as [| | | | | |op e1 e2| |]; try reflexivity. cbn [accepted]. unfold binary_to_term. split.
  - intros H. apply bind_ok in H. destruct H as (s & H & [= <-]). apply bind_ok in H. destruct H as (a & Ha & H).
    apply bind_ok in H. destruct H as (b & Hb & H). exists a, b. split; [exact Ha|]. split; [exact Hb|].
    destruct op; inv_ok; subst; auto.
  - intros (a & b & -> & -> & [[-> ->]|[-> ->]]); reflexivity.
Qed.
Lemma overhead_sound c x : overhead_macro (Some c) = Ok x <-> overhead_reading c x.
Proof.
  unfold overhead_macro, overhead_reading, weight_const. split.
  - intros H. apply bind_ok in H. destruct H as (tn & Ht & H). destruct (String.eqb_spec tn "Weight"); [|discriminate H]. cbn [negb] in H. subst tn.
    apply bind_ok in H. destruct H as (t & Ha & H). apply (proj1 (accepted_spec c t)) in Ha.
    split. { destruct (c_ty c) as [|q|]; try discriminate Ht. injection Ht as Ht. eauto. }
    destruct (String.eqb_spec (c_name c) "BlockExecutionWeight"); [injection H as <-; auto|].
    destruct (String.eqb_spec (c_name c) "ExtrinsicBaseWeight"); [injection H as <-; auto|discriminate H].
  - intros ((q & Ht & Nq) & Hn & Ha). rewrite Ht. cbn [type_to_string bind]. unfold names_type in Nq. unfold path_to_string. rewrite Nq. cbn [String.eqb Ascii.eqb Bool.eqb negb].
    apply (proj2 (accepted_spec c _)) in Ha. cbv beta in Ha. rewrite Ha. cbn. rewrite Hn. destruct x; reflexivity.
Qed.
Lemma overhead_total c : int_literals (c_expr c) -> returns (overhead_macro (Some c)).
Proof.
  intros G. unfold overhead_macro. apply returns_bind; [destruct (c_ty c); exact I|]. intros tn _. destruct (negb _); [exact I|].
  apply returns_bind.
  - destruct (c_expr c) as [| | | | | |op l r| |] eqn:EE; try (apply expression_returns; exact G).
    assert (Gl : int_literals l) by (intros x Hx; apply G; cbn; apply in_or_app; auto).
    assert (Gr : int_literals r) by (intros x Hx; apply G; cbn; apply in_or_app; auto).
    apply returns_bind; [|intros; exact I]. unfold binary_to_term. apply returns_bind; [now apply scalar_returns|]. intros.
    apply returns_bind; [now apply scalar_returns|]. intros. destruct op; exact I.
  - intros t _. destruct (String.eqb _ _); [exact I|]. destruct (String.eqb _ _); exact I.
Qed.
Lemma overhead_lemma items : proper_file items ->
  (forall x, overhead_content (Some items) = Ok x -> first_reading overhead_reading (flat_map consts items) x) /\
  (is_err (overhead_content (Some items)) = true <-> forall c x, In c (flat_map consts items) -> ~ overhead_reading c x) /\
  returns (overhead_content (Some items)).
Proof.
  apply content_lemma; auto using overhead_total.
  - eexists. reflexivity.
  - intros c x. apply overhead_sound.
  - intros c x _ H. exists x. now apply overhead_sound.
Qed.
Lemma overhead_time c o v1 rho rd wr n : overhead_reading c o -> literal_args (c_expr c) ->
  ref_time_of v1 rho rd wr (c_expr c) = Some n -> poly_val (with_rw rho rd wr) (restrict Time (overhead_term o)) = n.
Proof.
  intros (_ & _ & A) G V. unfold ref_time_of in V.
  assert (T : forall e v, val v1 rho rd wr e = Some v -> (match v with VNum n => Some n | VWeight t _ => Some t end) = Some n -> time_of v = n)
    by (intros e [|]; cbn; congruence).
  assert (K : forall e, c_expr c = e -> val v1 rho rd wr e <> None -> parse_expression e = Ok (overhead_term o) ->
     (match val v1 rho rd wr e with Some (VNum n) => Some n | Some (VWeight t _) => Some t | None => None end) = Some n ->
     poly_val (with_rw rho rd wr) (restrict Time (overhead_term o)) = n).
  { intros e <- N P Q. destruct (val v1 rho rd wr (c_expr c)) as [v|] eqn:E; [|congruence]. rewrite (chrom_time _ _ _ _ _ _ _ P E G).
    destruct v; cbn in *; congruence. }
  destruct (c_expr c) as [| | | | | |op l r| |] eqn:EE.
  7: { cbn [accepted] in A. destruct A as (a & b & Ha & Hb & A).
    assert (B : op = BMul \/ op = BAdd) by tauto.
    destruct B as [-> | ->]; destruct A as [[? ->]|[? ->]]; try discriminate; rewrite restrict_into; pv;
      match type of V with (match ?x with _ => _ end) = _ => destruct x as [v|] eqn:E; [|discriminate V] end;
      apply val2_some in E; destruct E as (x & y & Ex & Ey & E); rewrite (scalar_val _ _ _ _ _ _ _ Ha Ex), (scalar_val _ _ _ _ _ _ _ Hb Ey).
    - rewrite <- (val_mul_time _ _ _ E). destruct v; cbn in *; congruence.
    - rewrite <- (val_add_time _ _ _ E). destruct v; cbn in *; congruence. }
  all: apply (K _ eq_refl); auto; intros E; rewrite E in V; discriminate V.
Qed.

Lemma factor_accepted rho rd wr e : factor e ->
  (exists s, parse_scalar_expression e = Ok s) /\ (exists n, val false rho rd wr e = Some (VNum n)).
Proof.
  intros [e' H|e' H].
  - destruct (numeral_accepted rho rd wr e' H) as (? & ? & _). auto.
  - destruct (component_accepted rho rd wr e' H) as (? & _ & ? & _). auto.
Qed.
Lemma nanos_accepted rho rd wr e : nanos e ->
  (exists s, parse_scalar_expression e = Ok s) /\ (exists n, val false rho rd wr e = Some (VNum n)) /\ has_literal true e.
Proof.
  intros [e' H|a b tr Ha Hb].
  - destruct (numeral_accepted rho rd wr e' H) as (? & ? & ? & _). auto.
  - destruct (factor_accepted rho rd wr a Ha) as ((s & E) & n & V). destruct (numeral_accepted rho rd wr b Hb) as ((s' & E') & (n' & V') & L & _).
    simpl. rewrite E, E', V, V'. simpl. repeat split; eauto.
Qed.
Lemma overhead_form_accepted rho rd wr e : overhead_form e ->
  (exists t, accepted e t) /\ (exists n, ref_time_of false rho rd wr e = Some n) /\ literal_args e.
Proof.
  intros [a b Ha Hb|a b Ha Hb|a b p tr Ha Hb P|a p tr Ha P].
  - destruct (factor_accepted rho rd wr a Ha) as ((s & E) & n & V). destruct (factor_accepted rho rd wr b Hb) as ((s' & E') & n' & V').
    unfold ref_time_of. cbn [accepted literal_args]. rewrite V, V'. cbn. repeat split; eauto 10.
  - destruct (factor_accepted rho rd wr a Ha) as ((s & E) & n & V). destruct (factor_accepted rho rd wr b Hb) as ((s' & E') & n' & V').
    unfold ref_time_of. cbn [accepted literal_args]. rewrite V, V'. cbn. repeat split; eauto 10.
  - destruct (nanos_accepted rho rd wr a Ha) as ((s & E) & (n & V) & L). destruct (numeral_accepted rho rd wr b Hb) as ((s' & E') & (n' & V') & L' & NA).
    unfold ref_time_of. repeat split; auto.
    + cbn [accepted parse_expression]. unfold parse_call. cbn [function_name bind]. unfold path_to_string. rewrite P. cbn. rewrite E. cbn. rewrite E'. cbn. eauto.
    + cbn [val weight_fn_of]. rewrite P. cbn. rewrite V, V'. eauto.
  - destruct (nanos_accepted rho rd wr a Ha) as ((s & E) & (n & V) & L). unfold ref_time_of. split; [|split].
    + cbn [accepted parse_expression]. unfold parse_call. cbn [function_name bind]. unfold path_to_string. rewrite P. cbn. unfold parse_ref_time_args. cbn. rewrite E. cbn. eauto.
    + cbn [val weight_fn_of]. rewrite P. cbn. rewrite V. eauto.
    + cbn. split; [auto|]. intros (q & pre & [= <-] & Q). rewrite P in Q. change ["Weight"; "from_ref_time"] with (([] ++ ["Weight"]) ++ ["from_ref_time"])%list in Q.
      change (pre ++ ["Weight"; "from_proof_size"])%list with (pre ++ (["Weight"] ++ ["from_proof_size"]))%list in Q. rewrite app_assoc in Q.
      apply app_inj_tail in Q. destruct Q as [_ Q]. discriminate Q.
Qed.
Lemma overhead_form_reading c : weight_const c -> overhead_form (c_expr c) ->
  (c_name c = "BlockExecutionWeight" -> exists t, overhead_reading c (BlockExecution t)) /\
  (c_name c = "ExtrinsicBaseWeight" -> exists t, overhead_reading c (ExtrinsicBase t)) /\
  literal_args (c_expr c) /\ forall rho rd wr, exists n, ref_time_of false rho rd wr (c_expr c) = Some n.
Proof.
  intros W F. destruct (overhead_form_accepted (fun _ => 0) 0 0 _ F) as ((t & A) & _ & L).
  repeat split; auto.
  - intros N. exists t. repeat split; assumption.
  - intros N. exists t. repeat split; assumption.
  - intros rho rd wr. apply (overhead_form_accepted rho rd wr _ F).
Qed.
