(** Proofs about [compare_extrinsics]. *)
From Coq Require Import List String NArith ZArith Lia Bool Permutation Sorting.Sorted Arith Ascii.
From Verif Require Import Base ScopeM TermM SpecTerm TermP ScopeP F64 CompareM SpecCompare CompareP CompareP2.
Import ListNotations.
Local Open Scope list_scope.

(** ** The effective equations *)
Lemma subst_no_storage t :
  substitute "WRITE" (Scalar 0) (substitute "READ" (Scalar 0) t) = no_storage t.
Proof.
  induction t as [v|n|x|l IHl r IHr|l IHl r IHr]; simpl; auto.
  - destruct (String.eqb x "READ"); simpl; auto.
  - now rewrite IHl, IHr.
  - now rewrite IHl, IHr.
Qed.

Lemma drop_effective d e : drop_storage d e = option_map (map_term (effective d)) e.
Proof.
  destruct d; simpl.
  - destruct e as [[n p t r]|]; reflexivity.
  - destruct e as [[n p t r]|]; simpl; auto. unfold map_term. simpl. now rewrite subst_no_storage.
Qed.

Lemma base_scope_eq d : base_scope d = storage_scope d.
Proof. destruct d; reflexivity. Qed.

Lemma storage_scope_wf d : scope_wf (storage_scope d).
Proof. destruct d; unfold scope_wf, map_wf, sorted_set; repeat constructor. Qed.

Lemma storage_get d x : scope_get (storage_scope d) x =
  if String.eqb x "READ" then Some (Scalar (read_cost d))
  else if String.eqb x "WRITE" then Some (Scalar (write_cost d)) else None.
Proof.
  unfold scope_get, storage_scope. cbn [mget].
  destruct (String.eqb_spec x "READ") as [->|N1]; [reflexivity|].
  destruct (str_cmp x "READ") eqn:E1; [apply (cmp_eq _ str_cmp_strict) in E1; congruence| |];
    (destruct (String.eqb_spec x "WRITE") as [->|N2]; [reflexivity|];
     destruct (str_cmp x "WRITE") eqn:E2; auto; apply (cmp_eq _ str_cmp_strict) in E2; congruence).
Qed.

Lemma storage_bound d x : bound_in (storage_scope d) x <-> storage_var x.
Proof.
  unfold bound_in, storage_var. rewrite storage_get.
  destruct (String.eqb_spec x "READ"), (String.eqb_spec x "WRITE"); split; intros; try congruence; auto;
    try discriminate. destruct H; contradiction.
Qed.

Lemma storage_var_dec x : storage_var x \/ ~ storage_var x.
Proof. unfold storage_var. destruct (string_dec x "READ"), (string_dec x "WRITE"); tauto. Qed.

Lemma occurs_effective d x t : ~ storage_var x -> (occurs x (effective d t) <-> occurs x t).
Proof.
  intros H. destruct d; simpl; [tauto|]. unfold occurs.
  induction t as [v|n|y|l IHl r IHr|l IHl r IHr]; simpl; try tauto.
  - destruct (String.eqb_spec y "READ") as [->|N1]; simpl; [unfold storage_var in H; intuition congruence|].
    destruct (String.eqb_spec y "WRITE") as [->|N2]; simpl; [unfold storage_var in H; intuition congruence|].
    tauto.
  - rewrite !in_app_iff. tauto.
  - rewrite !in_app_iff. tauto.
Qed.

Lemma occurs_effective_sub d x t : occurs x (effective d t) -> occurs x t.
Proof.
  destruct d; simpl; auto. unfold occurs.
  induction t as [v|n|y|l IHl r IHr|l IHl r IHr]; simpl; try tauto.
  - destruct (_ || _)%bool; simpl; tauto.
  - rewrite !in_app_iff. tauto.
  - rewrite !in_app_iff. tauto.
Qed.

Notation eff d := (option_map (map_term (effective d))).

Lemma component_storage d a b c : component (bound_in (storage_scope d)) a b c <-> component storage_var a b c.
Proof. unfold component. now rewrite storage_bound. Qed.

Lemma component_eff d a b c :
  component (bound_in (storage_scope d)) (eff d a) (eff d b) c <-> component (bound_in (storage_scope d)) a b c.
Proof.
  unfold component. rewrite storage_bound. split.
  - intros [(e & He & Hc) Hs]. split; auto.
    destruct He as [He|He].
    + destruct a as [[n p t r]|]; simpl in He; [|discriminate]. inversion He; subst.
      simpl in Hc. apply occurs_effective in Hc; auto. eexists. split; [left; reflexivity|]. exact Hc.
    + destruct b as [[n p t r]|]; simpl in He; [|discriminate]. inversion He; subst.
      simpl in Hc. apply occurs_effective in Hc; auto. eexists. split; [right; reflexivity|]. exact Hc.
  - intros [(e & He & Hc) Hs]. split; auto. exists (map_term (effective d) e). split.
    + destruct He as [-> | ->]; auto.
    + simpl. now apply occurs_effective.
Qed.

Lemma annotation_eff d e c : annotation (eff d e) c = annotation e c.
Proof. destruct e as [[n p t r]|]; reflexivity. Qed.

Lemma is_corner_eff d a b m s :
  is_corner (storage_scope d) (eff d a) (eff d b) m s <-> is_corner (storage_scope d) a b m s.
Proof.
  unfold is_corner, annotations. split; intros (A & B & C); (split; [exact A|split]).
  - intros c Hc. specialize (B c (proj2 (component_eff d a b c) Hc)). now rewrite !annotation_eff in B.
  - intros x Hx. apply C. now rewrite component_eff.
  - intros c Hc. specialize (B c (proj1 (component_eff d a b c) Hc)). now rewrite !annotation_eff.
  - intros x Hx. apply C. now rewrite component_eff in Hx.
Qed.

(** ** Values at a corner *)
Definition rho_of (sc : sscope) (x : string) : N := match lookup_num sc x with Some n => n | None => 0%N end.

Lemma corner_lookup d a b m s x : is_corner (storage_scope d) a b m s ->
  (component storage_var a b x \/ storage_var x) -> exists n, scope_get s x = Some (Scalar n).
Proof.
  intros (_ & A & B) [Hx|Hx].
  - apply (component_storage d) in Hx. apply A in Hx as (v & -> & _). eauto.
  - rewrite B.
    + rewrite storage_get. destruct Hx as [->| ->]; simpl; eauto.
    + rewrite component_storage. intros [_ K]. auto.
Qed.

Lemma corner_number d a b m s : is_corner (storage_scope d) a b m s -> number_scope s.
Proof.
  intros Hc x u Hu. destruct Hc as (_ & A & B).
  assert (K : component (bound_in (storage_scope d)) a b x \/ ~ component (bound_in (storage_scope d)) a b x).
  { assert (Ho : is_order (fun l => l)) by (intros l; apply Permutation_refl).
    destruct (in_dec string_dec x (frees_of a b (storage_scope d))) as [I|I];
      rewrite frees_of_component in I; auto. }
  destruct K as [K|K].
  - apply A in K as (v & E & _). rewrite Hu in E. inversion E; subst. discriminate.
  - apply B in K. rewrite Hu, storage_get in K.
    destruct (String.eqb x "READ"); [inversion K; discriminate|].
    destruct (String.eqb x "WRITE"); inversion K; discriminate.
Qed.

Lemma corner_binds d a b m s e : is_corner (storage_scope d) a b m s -> (a = Some e \/ b = Some e) ->
  binds s (rho_of s) (effective d (eterm e)).
Proof.
  intros Hc He x Hx. apply occurs_effective_sub in Hx.
  destruct (corner_lookup d a b m s x Hc) as [n E].
  - destruct (storage_var_dec x) as [S|S]; auto. left. split; eauto.
  - exists (Scalar n). split; auto. unfold rho_of, lookup_num. now rewrite E.
Qed.

Lemma corner_free_nil d a b m s e : is_corner (storage_scope d) a b m s -> (a = Some e \/ b = Some e) ->
  free_vars s (effective d (eterm e)) = [].
Proof.
  intros Hc He. destruct (free_vars s (effective d (eterm e))) as [|x l] eqn:E; auto. exfalso.
  assert (Hx : In x (free_vars s (effective d (eterm e)))) by (rewrite E; now left).
  apply free_vars_in in Hx as [H1 H2]. apply H2. unfold bound_in.
  destruct (corner_binds d a b m s e Hc He x H1) as (u & K & _). intros K2. pose proof (eq_trans (eq_sym K) K2). discriminate.
Qed.

Lemma corner_eval m' d a b m s e : is_corner (storage_scope d) a b m s -> (a = Some e \/ b = Some e) ->
  (exists v, eval m' s (effective d (eterm e)) = Ok v) \/
  (m' = Checked /\ exists w, eval m' s (effective d (eterm e)) = Panic w).
Proof.
  intros Hc He. pose proof (corner_binds d a b m s e Hc He) as Hb.
  rewrite (eval_binds m' s _ _ Hb).
  destruct (seval_shape m' (rsome (rho_of s)) (effective d (eterm e))) as [H|[(x & H)|(w & H)]]; eauto.
  - exfalso. destruct (seval_err_free _ _ _ _ H) as (y & pre & post & _ & _ & _ & K). discriminate.
  - destruct m'; eauto. exfalso.
    destruct (seval_wrapping_some (rsome (rho_of s)) (effective d (eterm e))) as [n K]; [discriminate|congruence].
Qed.

(** ** The result at one corner *)
Definition kind (o n : option sterm) : rel_change :=
  if opt_eqb o n then Unchanged else
  match o, n with
  | Some _, Some _ => Changed
  | None, Some _ => Added
  | Some _, None => Removed
  | None, None => Unchanged
  end.

Definition oeval (m : mode) (s : sscope) (t : option sterm) : option N :=
  match t with Some t => ok_opt (eval m s t) | None => None end.

Definition point_change (m : mode) (o n : option sterm) (meth : method) (s : sscope) : term_change :=
  {| tc_old := o; tc_old_v := oeval m s o; tc_new := n; tc_new_v := oeval m s n; tc_scope := s;
     tc_percent := percent (dflt (oeval m s o)) (dflt (oeval m s n)); tc_change := kind o n; tc_method := meth |}.

Definition evok (m : mode) (s : sscope) (t : option sterm) : Prop :=
  match t with Some t => exists v, eval m s t = Ok v | None => True end.

Lemma eval_opt_ok m s t : evok m s t -> eval_opt m s t = Ok (oeval m s t).
Proof. destruct t as [t|]; simpl; auto. intros [v ->]. reflexivity. Qed.

Lemma compare_terms_ok m o n meth s : o <> None \/ n <> None -> evok m s o -> evok m s n ->
  compare_terms m o n meth s = Ok (point_change m o n meth s).
Proof.
  intros Hp Ho Hn. unfold compare_terms. rewrite !eval_opt_ok by assumption. cbn [bind].
  unfold point_change, kind. destruct (opt_eqb o n) eqn:E; [reflexivity|].
  destruct o as [o|], n as [n|]; simpl in *; try reflexivity.
  - destruct Ho as [v ->], Hn as [w ->]. reflexivity.
  - destruct Ho as [v ->]. reflexivity.
  - destruct Hn as [v ->]. reflexivity.
  - discriminate.
Qed.

Definition sel (l : list term_change) : option term_change :=
  match l with
  | [] => None
  | r :: _ => if is_added_removed (tc_change r) then Some r else max_by change_cmp l
  end.

Lemma all_kind (l : list term_change) k : (forall r, In r l -> tc_change r = k) -> forall f,
  forallb (fun r => f (tc_change r)) l = match l with [] => true | _ => f k end.
Proof.
  intros H f. induction l as [|r l IH]; simpl; auto. rewrite (H r (or_introl eq_refl)).
  rewrite IH by (intros; apply H; now right). destruct l; [apply andb_true_r|]. destruct (f k); reflexivity.
Qed.

(** The full description of [compare_extrinsics] once the corners are known. *)
Lemma compare_char m ord old new ps l : is_order ord -> old <> None \/ new <> None ->
  let d := p_unit ps in
  let o := option_map eterm (eff d old) in let n := option_map eterm (eff d new) in
  extend_scoped_components ord (eff d old) (eff d new) (p_method ps) (storage_scope d) = Ok l ->
  (exists s e w, is_corner (storage_scope d) old new (p_method ps) s /\ (old = Some e \/ new = Some e) /\
     m = Checked /\ eval m s (effective d (eterm e)) = Panic w /\ compare_extrinsics m ord old new ps = Panic w) \/
  ((forall s, In s l -> evok m s o /\ evok m s n) /\
   exists r, sel (map (point_change m o n (p_method ps)) l) = Some r /\
     compare_extrinsics m ord old new ps = Ok r).
Proof.
  intros Ho Hp d o n E.
  destruct (extend_corners_lemma _ _ _ _ _ _ Ho (storage_scope_wf d) ltac:(destruct d; discriminate) E) as (Hs & Hi & Hl).
  unfold compare_extrinsics. fold d. rewrite !drop_effective, base_scope_eq, E. cbn [bind].
  match goal with |- context [match ?x with Some _ => bind _ _ | None => _ end] => assert (HP : exists e, x = Some e) end.
  { destruct old as [x|]; [eexists; reflexivity|]. destruct new as [x|]; [eexists; reflexivity|]. destruct Hp; congruence. }
  destruct HP as [e0 ->].
  assert (HC : forall s, In s l -> is_corner (storage_scope d) old new (p_method ps) s).
  { intros s H. apply Hi in H. exact (proj1 (is_corner_eff _ _ _ _ _) H). }
  assert (HF : forall s, In s l -> compare_in_scope m (eff d old) (eff d new) (p_method ps) s =
     compare_terms m o n (p_method ps) s).
  { intros s H. apply HC in H. unfold compare_in_scope.
    assert (K : forall e, old = Some e \/ new = Some e -> free_vars s (eterm (map_term (effective d) e)) = []).
    { intros e He. exact (corner_free_nil d _ _ _ s e H He). }
    destruct old as [eo|], new as [en|]; cbn [option_map]; rewrite ?K by auto; reflexivity. }
  assert (HP' : o <> None \/ n <> None).
  { unfold o, n. destruct old, new; simpl; try (left; discriminate); try (right; discriminate); destruct Hp; congruence. }
  assert (HD : forall l', (forall s, In s l' -> In s l) ->
     (forall s, In s l' -> evok m s o /\ evok m s n) \/
     (exists s e w, In s l' /\ (old = Some e \/ new = Some e) /\ m = Checked /\ eval m s (effective d (eterm e)) = Panic w /\
        mapM (compare_in_scope m (eff d old) (eff d new) (p_method ps)) l' = Panic w)).
  { induction l' as [|s l' IH]; intros Hsub; [left; intros ? []|].
    assert (Hs' : is_corner (storage_scope d) old new (p_method ps) s) by (apply HC, Hsub; now left).
    assert (D1 : evok m s o \/ (m = Checked /\ exists e w, old = Some e /\ eval m s (effective d (eterm e)) = Panic w)).
    { unfold o. destruct old as [eo|]; simpl; auto.
      destruct (corner_eval m d _ _ _ s eo Hs' (or_introl eq_refl)) as [K|[K (w & K')]]; eauto 8. }
    assert (D2 : evok m s n \/ (m = Checked /\ exists e w, new = Some e /\ eval m s (effective d (eterm e)) = Panic w)).
    { unfold n. destruct new as [en|]; simpl; auto.
      destruct (corner_eval m d _ _ _ s en Hs' (or_intror eq_refl)) as [K|[K (w & K')]]; eauto 8. }
    destruct D1 as [D1|(M & eo & w & Eo & Ew)].
    2:{ right. exists s, eo, w. split; [now left|]. split; auto. split; auto. split; auto.
        cbn [mapM]. rewrite HF by (apply Hsub; now left). unfold compare_terms, o. rewrite Eo.
        cbn [option_map map_term eterm eval_opt]. now rewrite Ew. }
    destruct D2 as [D2|(M & en & w & En & Ew)].
    2:{ right. exists s, en, w. split; [now left|]. split; auto. split; auto. split; auto.
        cbn [mapM]. rewrite HF by (apply Hsub; now left). unfold compare_terms. rewrite eval_opt_ok by assumption.
        unfold n. rewrite En. cbn [option_map map_term eterm eval_opt bind]. now rewrite Ew. }
    destruct IH as [IH|(s' & e & w & H1 & H2 & H3 & H4 & H5)].
    - intros; apply Hsub; now right.
    - left. intros x [<-|Hx]; auto.
    - right. exists s', e, w. repeat split; auto; [now right|].
      cbn [mapM]. rewrite HF by (apply Hsub; now left). rewrite compare_terms_ok by auto. cbn [bind].
      now rewrite H5. }
  destruct (HD l (fun s H => H)) as [HA|(s & e & w & H1 & H2 & H3 & H4 & H5)].
  2:{ left. exists s, e, w. rewrite H5. repeat split; auto; try apply HC; auto. }
  right. split; auto.
  rewrite (mapM_ok _ (point_change m o n (p_method ps))).
  2:{ intros s H. rewrite HF by auto. destruct (HA s H). now apply compare_terms_ok. }
  cbn [bind]. set (res := map (point_change m o n (p_method ps)) l).
  assert (HK : forall r, In r res -> tc_change r = kind o n).
  { intros r H. unfold res in H. apply in_map_iff in H as (s & <- & _). reflexivity. }
  assert (HN : exists r0 res', res = r0 :: res').
  { unfold res. destruct (corner_exists ord old new (p_method ps) (storage_scope d) Ho (storage_scope_wf d)) as [s H].
    apply (proj2 (is_corner_eff d old new (p_method ps) s)) in H. apply Hi in H. destruct l; [destruct H|]. simpl. eauto. }
  destruct HN as (r0 & res' & HN). clearbody res.
  rewrite (all_kind res _ HK is_added_removed), (all_kind res _ HK is_changed_unchanged).
  subst res. unfold sel. rewrite (HK r0 (or_introl eq_refl)).
  destruct (kind o n); cbn [is_added_removed is_changed_unchanged max_by]; eauto.
Qed.

Lemma compare_err m ord old new ps : is_order ord -> old <> None \/ new <> None ->
  let d := p_unit ps in
  is_err (extend_scoped_components ord (eff d old) (eff d new) (p_method ps) (storage_scope d)) = true ->
  is_err (compare_extrinsics m ord old new ps) = true.
Proof.
  intros Ho Hp d E. unfold compare_extrinsics. fold d. rewrite !drop_effective, base_scope_eq.
  destruct (extend_scoped_components _ _ _ _ _); simpl in *; auto; discriminate.
Qed.

Lemma eff_present d (a b : option sextrinsic) : a <> None \/ b <> None -> eff d a <> None \/ eff d b <> None.
Proof. intros [H|H]; [left|right]; destruct a, b; simpl; congruence. Qed.

Lemma extend_dec ord a b m sc : is_order ord -> a <> None \/ b <> None ->
  (exists l, extend_scoped_components ord a b m sc = Ok l) \/ is_err (extend_scoped_components ord a b m sc) = true.
Proof.
  intros Ho Hp. destruct (extend_cases ord a b m sc Ho Hp) as [(l & E & _)|[E _]]; eauto.
Qed.

(** *** C15 *)
Lemma compare_no_panic_lemma : forall m ord old new ps, is_order ord ->
  (old = None /\ new = None -> exists why, compare_extrinsics m ord old new ps = Panic why) /\
  (old <> None \/ new <> None ->
     returns (compare_extrinsics m ord old new ps) \/
     (m = Checked /\ exists s e why,
        is_corner (storage_scope (p_unit ps)) old new (p_method ps) s /\ (old = Some e \/ new = Some e) /\
        eval Checked s (effective (p_unit ps) (eterm e)) = Panic why /\
        compare_extrinsics m ord old new ps = Panic why)).
Proof.
  intros m ord old new ps Ho. split.
  - intros [-> ->]. destruct ps as [meth []]; eexists; reflexivity.
  - intros Hp. pose proof (eff_present (p_unit ps) old new Hp) as Hp'.
    destruct (extend_dec ord _ _ (p_method ps) (storage_scope (p_unit ps)) Ho Hp') as [[l E]|E].
    + destruct (compare_char m ord old new ps l Ho Hp E) as [(s & e & w & H1 & H2 & -> & H4 & H5)|(_ & r & _ & ->)].
      * right. split; auto. exists s, e, w. auto.
      * left. exact I.
    + left. apply (compare_err m) in E; auto. destruct (compare_extrinsics m ord old new ps); simpl in *; auto; discriminate.
Qed.

(** *** C14 *)
Lemma compare_order_lemma : forall m ord ord' old new ps, is_order ord -> is_order ord' ->
  compare_extrinsics m ord old new ps = compare_extrinsics m ord' old new ps \/
  (is_err (compare_extrinsics m ord old new ps) = true /\ is_err (compare_extrinsics m ord' old new ps) = true).
Proof.
  intros m ord ord' old new ps Ho Ho'. destruct (present_dec old new) as [Hp|[-> ->]].
  2:{ left. destruct ps as [meth []]; reflexivity. }
  pose proof (eff_present (p_unit ps) old new Hp) as Hp'.
  destruct (extend_order_lemma ord ord' (eff (p_unit ps) old) (eff (p_unit ps) new) (p_method ps)
    (storage_scope (p_unit ps)) Ho Ho' (storage_scope_wf _)) as [H1 H2].
  destruct (extend_dec ord _ _ (p_method ps) (storage_scope (p_unit ps)) Ho Hp') as [[l E]|E].
  - left. unfold compare_extrinsics. rewrite !drop_effective, base_scope_eq, (H1 l E), E. reflexivity.
  - right. split; apply compare_err; auto.
Qed.

(** *** [max_by] *)
Lemma max_fold {A} (cmp : A -> A -> comparison) (rank : A -> Z) l x :
  (forall a b, In a (x :: l) -> In b (x :: l) -> cmp a b = Z.compare (rank a) (rank b)) ->
  exists pre y post, x :: l = pre ++ y :: post /\
    fold_left (fun x y => match cmp x y with Gt => x | _ => y end) l x = y /\
    (forall a, In a pre -> (rank a <= rank y)%Z) /\ (forall a, In a post -> (rank a < rank y)%Z).
Proof.
  revert x. induction l as [|z l IH]; intros x H.
  - exists [], x, []. repeat split; simpl; tauto.
  - simpl fold_left. rewrite (H x z) by (simpl; auto). destruct (Z.compare_spec (rank x) (rank z)) as [C|C|C].
    + destruct (IH z) as (pre & y & post & E & F & G1 & G2).
      { intros a b Ha Hb. apply H; now right. }
      exists (x :: pre), y, post. rewrite F. repeat split; auto.
      * simpl. now rewrite E.
      * assert (K : (rank z <= rank y)%Z).
        { assert (Iz : In z (pre ++ y :: post)) by (rewrite <- E; now left).
          apply in_app_iff in Iz as [Iz|[<-|Iz]]; [auto|lia|apply G2 in Iz; lia]. }
        intros a [<-|Ha]; [lia|auto].
    + destruct (IH z) as (pre & y & post & E & F & G1 & G2).
      { intros a b Ha Hb. apply H; now right. }
      exists (x :: pre), y, post. rewrite F. repeat split; auto.
      * simpl. now rewrite E.
      * assert (K : (rank z <= rank y)%Z).
        { assert (Iz : In z (pre ++ y :: post)) by (rewrite <- E; now left).
          apply in_app_iff in Iz as [Iz|[<-|Iz]]; [auto|lia|apply G2 in Iz; lia]. }
        intros a [<-|Ha]; [lia|auto].
    + destruct (IH x) as (pre & y & post & E & F & G1 & G2).
      { intros a b Ha Hb. apply H; simpl in *; tauto. }
      rewrite F. destruct pre as [|p pre]; injection E as E1 E2.
      * exists [], y, (z :: l). rewrite E1, E2 in *. repeat split; simpl; try tauto.
        intros a [<-|Ha]; auto.
      * exists (x :: z :: pre), y, post. rewrite E2. repeat split; auto.
        intros a [<-|[<-|Ha]].
        -- apply G1. left. auto.
        -- pose proof (G1 x ltac:(left; auto)). lia.
        -- apply G1. now right.
Qed.
