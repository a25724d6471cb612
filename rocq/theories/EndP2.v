(** Proofs about the tool as a whole, from the source of weight functions. *)
From Coq Require Import List String Ascii NArith ZArith Reals Lia Bool.
From Verif Require Import Base ScopeM TermM SpecTerm TermP SpecChrom ChromP F64 SpecF64 CompareM SpecCompare CompareP3 CompareP4 RowsM SpecRows
  DecP SynM AttrM ParseM SpecParse SpecAttr StrP ParseP AttrP SpecEnd.
From Verif Require EndP.
Import ListNotations.
Local Open Scope string_scope.

(** ** The products of a term, without coefficients *)
Fixpoint mv {T} (t : term T) : list (list string) :=
  match t with
  | Value _ | Scalar _ => [[]]
  | Var x => [[x]]
  | Add l r => app (mv l) (mv r)
  | Mul l r => flat_map (fun p => map (app p) (mv r)) (mv l)
  end.
Lemma mv_monomials t : map (fun p : monomial => snd p) (monomials t) = mv t.
Proof.
  induction t as [| | |l IHl r IHr|l IHl r IHr]; cbn [monomials mv]; auto.
  - rewrite map_app. now f_equal.
  - rewrite <- IHl, <- IHr. clear. induction (monomials l) as [|p m IH]; cbn [flat_map map]; auto.
    rewrite map_app. f_equal; [|exact IH]. rewrite !map_map. reflexivity.
Qed.
Lemma mv_restrict d t : mv (restrict d t) = mv t.
Proof. induction t as [| | |l IHl r IHr|l IHl r IHr]; cbn [restrict mv]; rewrite ?IHl, ?IHr; auto. Qed.
Lemma mv_into d t : mv (into_chromatic d t) = mv t.
Proof. induction t as [| | |l IHl r IHr|l IHl r IHr]; cbn [into_chromatic mv]; rewrite ?IHl, ?IHr; auto. Qed.
Lemma vars_restrict d t : var_list (restrict d t) = var_list t.
Proof. induction t as [| | |l IHl r IHr|l IHl r IHr]; cbn [restrict var_list]; rewrite ?IHl, ?IHr; auto. Qed.
Lemma vars_into d t : var_list (into_chromatic d t) = var_list t.
Proof. induction t as [| | |l IHl r IHr|l IHl r IHr]; cbn [into_chromatic var_list]; rewrite ?IHl, ?IHr; auto. Qed.

(** A term has the names and the degrees of an expression. *)
Definition shaped {T} (e : expr) (t : term T) : Prop :=
  (forall x, ~ storage_var x -> (occurs x t <-> In x (names e))) /\
  (forall l x, In l (mv t) -> ~ storage_var x -> (count_occ string_dec l x <= degree x e)%nat).

Lemma count_app l l' x : count_occ string_dec (l ++ l')%list x = (count_occ string_dec l x + count_occ string_dec l' x)%nat.
Proof. apply count_occ_app. Qed.

Section Shape.
  Context {T : Type}.
  Implicit Types t : term T.
  Lemma shaped_leaf_s e n : names e = [] -> shaped e (@Scalar T n).
  Proof. intros E. split; [intros x _; unfold occurs; rewrite E; reflexivity|]. intros l x [<-|[]] _. cbn. lia. Qed.
  Lemma shaped_leaf_v e w : names e = [] -> shaped e (@Value T w).
  Proof. intros E. split; [intros x _; unfold occurs; rewrite E; reflexivity|]. intros l x [<-|[]] _. cbn. lia. Qed.
  Lemma shaped_var p : shaped (EPath p) (@Var T (name_of p)).
  Proof.
    split; [reflexivity|]. intros l x [<-|[]] _. cbn [degree count_occ].
    destruct (string_dec (name_of p) x) as [->|N]; [rewrite String.eqb_refl; lia|]. lia.
  Qed.
  Lemma shaped_mul e r a l t : (forall x, In x (names e) <-> In x (names r) \/ In x (names a)) ->
    (forall x, degree x r + degree x a <= degree x e)%nat -> shaped r l -> shaped a t -> shaped e (Mul l t).
  Proof.
    intros Hn Hd [O1 M1] [O2 M2]. split.
    - intros x Nx. unfold occurs in *. cbn [var_list]. rewrite in_app_iff, Hn, O1, O2 by auto. reflexivity.
    - intros y x I Nx. cbn [mv] in I. apply in_flat_map in I as (p & Ip & I). apply in_map_iff in I as (q & <- & Iq).
      rewrite count_app. specialize (M1 p x Ip Nx). specialize (M2 q x Iq Nx). specialize (Hd x). lia.
  Qed.
  Lemma shaped_add e r a l t : (forall x, In x (names e) <-> In x (names r) \/ In x (names a)) ->
    (forall x, degree x r <= degree x e /\ degree x a <= degree x e)%nat -> shaped r l -> shaped a t -> shaped e (Add l t).
  Proof.
    intros Hn Hd [O1 M1] [O2 M2]. split.
    - intros x Nx. unfold occurs in *. cbn [var_list]. rewrite in_app_iff, Hn, O1, O2 by auto. reflexivity.
    - intros y x I Nx. cbn [mv] in I. specialize (Hd x). apply in_app_iff in I as [I|I].
      + specialize (M1 y x I Nx). lia.
      + specialize (M2 y x I Nx). lia.
  Qed.
  Lemma shaped_storage e a t s : storage_var s -> (forall x, In x (names e) <-> In x (names a)) ->
    (forall x, degree x a <= degree x e)%nat -> shaped a t -> shaped e (Mul t (Var s)).
  Proof.
    intros S Hn Hd [O M]. split.
    - intros x Nx. unfold occurs in *. cbn [var_list]. rewrite in_app_iff, Hn, O by auto. split; [intros [I|[->|[]]]; auto; contradiction|auto].
    - intros y x I Nx. cbn [mv] in I. apply in_flat_map in I as (p & Ip & [<-|[]]). rewrite count_app. cbn [count_occ].
      destruct (string_dec s x) as [->|_]; [contradiction|]. specialize (M p x Ip Nx). specialize (Hd x). lia.
  Qed.
End Shape.
Lemma shaped_same {T T'} e (t : term T) (t' : term T') : var_list t' = var_list t -> mv t' = mv t -> shaped e t -> shaped e t'.
Proof. unfold shaped, occurs. intros -> -> H. exact H. Qed.
Lemma shaped_into e d t : shaped e t -> shaped e (into_chromatic d t).
Proof. apply shaped_same; [apply vars_into|apply mv_into]. Qed.
Lemma shaped_restrict e d t : shaped e t -> shaped e (restrict d t).
Proof. apply shaped_same; [apply vars_restrict|apply mv_restrict]. Qed.

Lemma splice_vars s : forall o x, In x (var_list (splice_add s o)) <-> In x (var_list s) \/ In x (var_list o).
Proof.
  induction s as [w|n|y|l IHl r IHr|l IHl r IHr]; intros o x; destruct o as [w'|n'|y'|l' r'|l' r']; cbn [splice_add var_list];
    try (rewrite ?in_app_iff; tauto).
  - destruct (_ && _)%bool; [cbn; tauto|]. destruct (_ && _)%bool; cbn; tauto.
  - rewrite !in_app_iff, IHl, IHr. tauto.
Qed.
Lemma splice_mv s : forall o p, In p (mv (splice_add s o)) -> In p (mv s) \/ In p (mv o).
Proof.
  induction s as [w|n|y|l IHl r IHr|l IHl r IHr]; intros o x; destruct o as [w'|n'|y'|l' r'|l' r']; cbn [splice_add];
    try (cbn [mv]; rewrite ?in_app_iff; tauto).
  - destruct (_ && _)%bool; [cbn; tauto|]. destruct (_ && _)%bool; cbn; tauto.
  - cbn [mv]. rewrite !in_app_iff. intros [H|H]; [apply IHl in H|apply IHr in H]; tauto.
Qed.
Lemma shaped_splice e a b s o : (forall x, In x (names e) <-> In x (names a) \/ In x (names b)) ->
  (forall x, degree x a <= degree x e /\ degree x b <= degree x e)%nat -> shaped a s -> shaped b o -> shaped e (splice_add s o).
Proof.
  intros Hn Hd [O1 M1] [O2 M2]. split.
  - intros x Nx. unfold occurs in *. now rewrite splice_vars, Hn, O1, O2.
  - intros y x I Nx. specialize (Hd x). apply splice_mv in I as [I|I].
    + specialize (M1 y x I Nx). lia.
    + specialize (M2 y x I Nx). lia.
Qed.

(** ** What the parser makes of an expression *)
Lemma shaped_sub {T} e e' (t : term T) : (forall x, In x (names e) <-> In x (names e')) -> (forall x, degree x e' <= degree x e)%nat ->
  shaped e' t -> shaped e t.
Proof.
  intros Hn Hd [O M]. split; [intros x Nx; now rewrite Hn, O|]. intros l x I Nx. specialize (M l x I Nx). specialize (Hd x). lia.
Qed.

Lemma scalar_shaped v1 rho rd wr e : forall t v, parse_scalar_expression e = Ok t -> val v1 rho rd wr e = Some v -> shaped e t.
Proof.
  induction e as [e IH|e IH|r m args tr IHr IHa|l|p|func args tr IHf IHa|o l r IHl IHr|p fs IH|] using expr_ind'; intros t v E V; try discriminate E.
  - exact (IH _ _ E V).
  - exact (IH _ _ E V).
  - cbn [val] in V. destruct args as [|a [|b args]]; [| |discriminate V].
    + destruct (String.eqb m "into") eqn:M1.
      { apply eqb_subst in M1. subst m. cbn in E. apply (shaped_sub _ r); [|intros x; cbn; lia|eauto]. intros x. cbn. now rewrite app_nil_r. }
      destruct (String.eqb m "ref_time") eqn:M2; [|discriminate V].
      apply eqb_subst in M2. subst m. cbn in E. destruct (val v1 rho rd wr r) as [[n|ti pr]|] eqn:Vr; try discriminate V.
      apply (shaped_sub _ r); [|intros x; cbn; lia|eauto]. intros x. cbn. now rewrite app_nil_r.
    + inversion IHa as [|? ? IHa' _]; subst.
      destruct (String.eqb m "saturating_add") eqn:M1.
      { apply eqb_subst in M1. subst m. cbn in E. inv_ok. subst t. apply val2_some in V. destruct V as (vx & vy & Vx & Vy & V).
        apply (shaped_add _ r a); [intros y; cbn; apply in_app_iff|intros y; cbn; lia|eauto|eauto]. }
      destruct (String.eqb m "saturating_mul") eqn:M2.
      { apply eqb_subst in M2. subst m. cbn in E. inv_ok. subst t. apply val2_some in V. destruct V as (vx & vy & Vx & Vy & V).
        apply (shaped_mul _ r a); [intros y; cbn; apply in_app_iff|intros y; cbn; lia|eauto|eauto]. }
      destruct (String.eqb m "reads") eqn:M3.
      { apply eqb_subst in M3. subst m. cbn in E. inv_ok. subst t. apply val_db_some in V. destruct V as (n & Va & ->).
        apply (shaped_storage _ a); [now left|intros y; cbn; reflexivity|intros y; cbn; lia|eauto]. }
      destruct (String.eqb m "writes") eqn:M4; [|discriminate V].
      { apply eqb_subst in M4. subst m. cbn in E. inv_ok. subst t. apply val_db_some in V. destruct V as (n & Va & ->).
        apply (shaped_storage _ a); [now right|intros y; cbn; reflexivity|intros y; cbn; lia|eauto]. }
  - destruct l as [n|]; [|discriminate V]. cbn in E. destruct (n <? u128_bound)%N; inv_ok. subst. now apply shaped_leaf_s.
  - cbn in E. inv_ok. subst t. apply shaped_var.
  - cbn [val] in V. destruct (weight_fn_of func) as [f|] eqn:W; [|discriminate V]. apply weight_fn_of_spec in W.
    destruct (scalar_call _ _ _ _ _ W E) as (C1 & C2 & C3).
    destruct args as [|a [|b [|]]]; try discriminate V.
    + destruct (String.eqb_spec f "zero"); [|discriminate V]. rewrite (C2 e). now apply shaped_leaf_v.
    + inversion IHa as [|? ? IHa' _]; subst. destruct v1; [discriminate V|].
      destruct (val false rho rd wr a) as [[n|]|] eqn:Va; try discriminate V.
      destruct (String.eqb_spec f "from_ref_time").
      * destruct (C1 e) as (a' & [= <-] & Ea). apply (shaped_sub _ a); eauto. reflexivity.
      * destruct (String.eqb_spec f "from_proof_size"); [|discriminate V]. now destruct (C3 (or_introl e)).
    + destruct v1; [discriminate V|].
      destruct (val false rho rd wr a) as [[n|]|]; try discriminate V. destruct (val false rho rd wr b) as [[k|]|]; try discriminate V.
      destruct (String.eqb_spec f "from_parts"); [|discriminate V]. now destruct (C3 (or_intror e)).
Qed.

Lemma rw_shaped v1 rho rd wr args t a n : parse_rw_args args = Ok t -> args = [a] -> val v1 rho rd wr a = Some (VNum n) -> shaped a t.
Proof.
  intros E -> V. apply rw_arg in E. destruct E as (a' & [= <-] & [(k & -> & _ & ->)|(_ & s & Es & ->)]).
  - now apply shaped_leaf_s.
  - apply shaped_into. eapply scalar_shaped; eauto.
Qed.

Lemma chrom_shaped v1 rho rd wr e : forall t v, parse_expression e = Ok t -> val v1 rho rd wr e = Some v -> shaped e t.
Proof.
  induction e as [e IH|e IH|r m args tr IHr IHa|l|p|func args tr IHf IHa|o l r IHl IHr|p fs IH|] using expr_ind'; intros t v E V; try discriminate E.
  - exact (IH _ _ E V).
  - exact (IH _ _ E V).
  - cbn [val] in V. destruct args as [|a [|b args]]; [| |discriminate V].
    + destruct (String.eqb m "into") eqn:M1.
      { apply eqb_subst in M1. subst m. cbn in E. apply (shaped_sub _ r); [|intros x; cbn; lia|eauto]. intros x. cbn. now rewrite app_nil_r. }
      destruct (String.eqb m "ref_time") eqn:M2; [|discriminate V].
      apply eqb_subst in M2. subst m. discriminate E.
    + inversion IHa as [|? ? IHa' _]; subst.
      destruct (String.eqb m "saturating_add") eqn:M1.
      { apply eqb_subst in M1. subst m. cbn in E. inv_ok. subst t. apply val2_some in V. destruct V as (vx & vy & Vx & Vy & V).
        apply (shaped_add _ r a); [intros y; cbn; apply in_app_iff|intros y; cbn; lia|eauto|eauto]. }
      destruct (String.eqb m "saturating_mul") eqn:M2.
      { apply eqb_subst in M2. subst m. cbn in E. inv_ok. subst t. apply val2_some in V. destruct V as (vx & vy & Vx & Vy & V).
        apply (shaped_mul _ r a); [intros y; cbn; apply in_app_iff|intros y; cbn; lia|eauto|eauto]. }
      destruct (String.eqb m "reads") eqn:M3.
      { apply eqb_subst in M3. subst m. simpl in E. inv_ok. subst t. apply val_db_some in V. destruct V as (n & Va & ->).
        apply (shaped_storage _ a); [now left|intros y; cbn; reflexivity|intros y; cbn; lia|]. eapply rw_shaped; eauto. }
      destruct (String.eqb m "writes") eqn:M4; [|discriminate V].
      { apply eqb_subst in M4. subst m. simpl in E. inv_ok. subst t. apply val_db_some in V. destruct V as (n & Va & ->).
        apply (shaped_storage _ a); [now right|intros y; cbn; reflexivity|intros y; cbn; lia|]. eapply rw_shaped; eauto. }
  - cbn in E. inv_ok. subst t. apply shaped_var.
  - cbn [val] in V. destruct (weight_fn_of func) as [f|] eqn:W; [|discriminate V]. apply weight_fn_of_spec in W.
    destruct (chrom_call _ _ _ _ _ W E) as (C1 & C2 & C3 & C4).
    destruct args as [|a [|b [|]]]; try discriminate V.
    + destruct (String.eqb_spec f "zero"); [|discriminate V]. rewrite (C4 e). now apply shaped_leaf_v.
    + destruct v1; [discriminate V|]. destruct (val false rho rd wr a) as [[n|]|] eqn:Va; try discriminate V.
      destruct (String.eqb_spec f "from_ref_time").
      * destruct (C1 e) as (a' & s & [= <-] & Ea & ->). apply shaped_into. apply (shaped_sub _ a); [reflexivity|reflexivity|]. eapply scalar_shaped; eauto.
      * destruct (String.eqb_spec f "from_proof_size"); [|discriminate V].
        destruct (C2 e) as (a' & s & [= <-] & Ea & ->). apply shaped_into. apply (shaped_sub _ a); [reflexivity|reflexivity|]. eapply scalar_shaped; eauto.
    + destruct v1; [discriminate V|]. destruct (val false rho rd wr a) as [[n|]|] eqn:Va; try discriminate V. destruct (val false rho rd wr b) as [[k|]|] eqn:Vb; try discriminate V.
      destruct (String.eqb_spec f "from_parts"); [|discriminate V].
      destruct (C3 e) as (a' & b' & s & s' & [= <- <-] & Ea & Eb & ->).
      apply (shaped_splice _ a b).
      * intros x. cbn. apply in_app_iff.
      * intros x. cbn. lia.
      * apply shaped_into. eapply scalar_shaped; eauto.
      * apply shaped_into. eapply scalar_shaped; eauto.
Qed.

(** Numbers are [u128]. *)
Lemma scalar_u128 e : forall t, parse_scalar_expression e = Ok t -> u128_term t.
Proof.
  pose proof u128_bound_pos as UB.
  induction e as [e IH|e IH|r m args tr IHr IHa|l|p|func args tr IHf IHa|o l r IHl IHr|p fs IH|] using expr_ind'; intros t E; try discriminate E; auto.
  - cbn [parse_scalar_expression] in E.
    assert (A : forall s, match args with [a] => parse_scalar_expression a | _ => Err "Expected one argument" end = Ok s -> u128_term s).
    { intros s H. destruct args as [|a [|]]; try discriminate H. inversion IHa; subst; auto. }
    destruct (String.eqb m "ref_time"); [destruct (negb _); [discriminate E|auto]|].
    destruct (String.eqb m "reads"); [inv_ok; subst t; cbn; eauto|].
    destruct (String.eqb m "writes"); [inv_ok; subst t; cbn; eauto|].
    destruct (String.eqb m "saturating_add"); [inv_ok; subst t; cbn; eauto|].
    destruct (String.eqb m "saturating_mul"); [inv_ok; subst t; cbn; eauto|].
    destruct (String.eqb m "into"); [auto|discriminate E].
  - cbn in E. destruct l as [n|]; [|discriminate E]. cbn in E. destruct (N.ltb_spec n u128_bound); inv_ok. subst. exact H.
  - cbn in E. inv_ok. subst. exact I.
  - cbn [parse_scalar_expression] in E. inv_ok.
    destruct (ends_with x "::from_ref_time").
    + destruct args as [|a [|]]; try discriminate E. inversion IHa; subst; auto.
    + destruct (ends_with x "::zero"); [|discriminate E]. destruct (negb _); inv_ok. subst. cbn. lia.
Qed.
Lemma into_u128 d t : u128_term t -> u128_cterm (into_chromatic d t).
Proof.
  pose proof u128_bound_pos as UB.
  induction t as [n|n|x|l IHl r IHr|l IHl r IHr]; cbn [u128_term into_chromatic u128_cterm]; auto; try (intros [H1 H2]; auto; fail);
    intros H; destruct d; unfold u128_weight; cbn; lia.
Qed.
Lemma splice_u128 s : forall o, u128_cterm s -> u128_cterm o -> u128_cterm (splice_add s o).
Proof.
  induction s as [w|n|y|l IHl r IHr|l IHl r IHr]; intros o Hs Ho; destruct o as [w'|n'|y'|l' r'|l' r']; cbn [splice_add u128_cterm] in *; auto.
  - destruct (_ && _)%bool; [cbn; unfold u128_weight in *; cbn; lia|]. destruct (_ && _)%bool; [cbn; unfold u128_weight in *; cbn; lia|]. cbn. auto.
  - destruct Hs, Ho. auto.
Qed.
Lemma rw_u128 args t : parse_rw_args args = Ok t -> u128_cterm t.
Proof.
  intros E. apply rw_arg in E. destruct E as (a & -> & [(n & -> & H & ->)|(_ & s & Es & ->)]); [exact H|].
  apply into_u128. eapply scalar_u128; eauto.
Qed.
Lemma call_u128 func args tr t : parse_call func args tr = Ok t -> u128_cterm t.
Proof.
  pose proof u128_bound_pos as UB. unfold parse_call. intros E. inv_ok.
  destruct (ends_with x "::from_ref_time"); [unfold parse_ref_time_args in E; inv_ok; subst; apply into_u128; eapply scalar_u128; eauto|].
  destruct (ends_with x "::from_proof_size"); [unfold parse_proof_size_args in E; inv_ok; subst; apply into_u128; eapply scalar_u128; eauto|].
  destruct (ends_with x "::from_parts").
  { unfold parse_parts_args in E. destruct args as [|a [|b [|]]]; inv_ok. subst.
    apply splice_u128; apply into_u128; eapply scalar_u128; eauto. }
  destruct (ends_with x "::zero"); [|discriminate E]. destruct (negb _); inv_ok. subst. cbn. unfold u128_weight. cbn. lia.
Qed.
Lemma chrom_u128 e : forall t, parse_expression e = Ok t -> u128_cterm t.
Proof.
  induction e as [e IH|e IH|r m args tr IHr IHa|l|p|func args tr IHf IHa|o l r IHl IHr|p fs IH|] using expr_ind'; intros t E; try discriminate E; auto.
  - cbn [parse_expression] in E.
    assert (A : forall s, match args with [a] => parse_expression a | _ => Err "Expected one argument" end = Ok s -> u128_cterm s).
    { intros s H. destruct args as [|a [|]]; try discriminate H. inversion IHa; subst; auto. }
    destruct (String.eqb m "reads"); [inv_ok; subst t; cbn; eauto using rw_u128|].
    destruct (String.eqb m "writes"); [inv_ok; subst t; cbn; eauto using rw_u128|].
    destruct (String.eqb m "saturating_add"); [inv_ok; subst t; cbn; eauto|].
    destruct (String.eqb m "saturating_mul"); [inv_ok; subst t; cbn; eauto|].
    destruct (String.eqb m "into"); [auto|discriminate E].
  - cbn in E. inv_ok. subst. exact I.
  - exact (call_u128 _ _ _ _ E).
Qed.
Lemma restrict_u128 d t : u128_cterm t -> u128_term (restrict d t).
Proof.
  induction t as [n|n|x|l IHl r IHr|l IHl r IHr]; cbn [u128_cterm restrict u128_term]; auto; try (intros [H1 H2]; auto; fail).
  intros [H1 H2]. destruct d; cbn; auto.
Qed.

Lemma method_shaped v1 m name t rs e rho rd wr v : handle_method m = Ok (name, t, rs) -> m_stmts m = [SExpr e] ->
  val v1 rho rd wr e = Some v -> shaped e t /\ u128_cterm t /\ parse_component_attrs (m_attrs m) = Ok rs.
Proof.
  intros H S V. apply handle_method_inv in H. destruct H as (e' & S' & _ & _ & A & H). assert (e' = e) by congruence. subst e'.
  split; [|split].
  - destruct H as [H|(_ & s & Hs & ->)]; [eapply chrom_shaped; eauto|]. apply shaped_into. eapply scalar_shaped; eauto.
  - destruct H as [H|(_ & s & Hs & ->)]; [eapply chrom_u128; eauto|]. apply into_u128. eapply scalar_u128; eauto.
  - auto.
Qed.

(** ** Names *)
Lemma plain_without s : plain_name s -> without_us s = s.
Proof.
  unfold plain_name, without_us. induction s as [|c s IH]; cbn [list_ascii_of_string filter]; auto.
  intros H. destruct (Ascii.eqb_spec c "_") as [->|N].
  - exfalso. apply H. now left.
  - cbn [negb string_of_list_ascii]. f_equal. apply IH. intros I. apply H. now right.
Qed.
Lemma names_value v1 rho rd wr e : forall v x, val v1 rho rd wr e = Some v -> In x (names e) -> ~ storage_var x.
Proof.
  induction e as [e IH|e IH|r m args tr IHr IHa|l|p|func args tr IHf IHa|o l r IHl IHr|p fs IH|] using expr_ind'; intros v x V I; try contradiction.
  - exact (IH _ _ V I).
  - exact (IH _ _ V I).
  - cbn [val] in V. cbn [names] in I. destruct args as [|a [|b args]]; [| |discriminate V].
    + rewrite app_nil_r in I. destruct (String.eqb m "into") eqn:M1.
      { apply eqb_subst in M1. subst m. cbn in I. eauto. }
      destruct (String.eqb m "ref_time") eqn:M2; [|discriminate V].
      apply eqb_subst in M2. subst m. cbn in I. destruct (val v1 rho rd wr r) as [[n|ti pr]|] eqn:Vr; try discriminate V. eauto.
    + inversion IHa as [|? ? IHa' _]; subst.
      destruct (String.eqb m "saturating_add") eqn:M1.
      { apply eqb_subst in M1. subst m. cbn in I. apply val2_some in V. destruct V as (vx & vy & Vx & Vy & V). apply in_app_iff in I as [I|I]; eauto. }
      destruct (String.eqb m "saturating_mul") eqn:M2.
      { apply eqb_subst in M2. subst m. cbn in I. apply val2_some in V. destruct V as (vx & vy & Vx & Vy & V). apply in_app_iff in I as [I|I]; eauto. }
      destruct (String.eqb m "reads") eqn:M3.
      { apply val_db_some in V. destruct V as (n & Va & ->). cbn in I. eauto. }
      destruct (String.eqb m "writes") eqn:M4; [|discriminate V].
      apply val_db_some in V. destruct V as (n & Va & ->). cbn in I. eauto.
  - destruct I as [<-|[]]. cbn [val] in V. destruct (_ || _)%bool eqn:B; [discriminate V|]. apply orb_false_iff in B as [B1 B2].
    apply String.eqb_neq in B1, B2. intros [S|S]; contradiction.
  - cbn [val] in V. cbn [names] in I. destruct (weight_fn_of func) as [f|]; [|discriminate V].
    destruct args as [|a [|b [|]]]; try contradiction.
    + inversion IHa as [|? ? IHa' _]; subst. destruct v1; [discriminate V|].
      destruct (val false rho rd wr a) as [[n|]|] eqn:Va; try discriminate V. eauto.
    + inversion IHa as [|? ? IHa' IHb]; subst. inversion IHb as [|? ? IHb' _]; subst. destruct v1; [discriminate V|].
      destruct (val false rho rd wr a) as [[n|]|] eqn:Va; try discriminate V. destruct (val false rho rd wr b) as [[k|]|] eqn:Vb; try discriminate V.
      apply in_app_iff in I as [I|I]; eauto.
Qed.

(** ** The two versions of the weights *)
Lemma versions rho rd wr e : forall n v, val true rho rd wr e = Some (VNum n) -> val false rho rd wr e = Some v -> v = VNum n \/ v = VWeight n 0.
Proof.
  induction e as [e IH|e IH|r m args tr IHr IHa|l|p|func args tr IHf IHa|o l r IHl IHr|p fs IH|] using expr_ind'; intros k v V W; try discriminate V.
  - exact (IH _ _ V W).
  - exact (IH _ _ V W).
  - cbn [val] in V, W. destruct args as [|a [|b args]]; [| |discriminate V].
    + destruct (String.eqb m "into"); [eauto|]. destruct (String.eqb m "ref_time"); [|discriminate V].
      destruct (val true rho rd wr r) as [[n|ti pr]|] eqn:Vr; try discriminate V. destruct (val_v1_num _ _ _ _ _ Vr) as [[n E] _]. discriminate E.
    + inversion IHa as [|? ? IHa' _]; subst.
      assert (K : forall f, val2 f (val true rho rd wr r) (val true rho rd wr a) = Some (VNum k) -> val2 f (val false rho rd wr r) (val false rho rd wr a) = Some v ->
        exists x y x' y', f (VNum x) (VNum y) = Some (VNum k) /\ f x' y' = Some v /\ (x' = VNum x \/ x' = VWeight x 0) /\ (y' = VNum y \/ y' = VWeight y 0)).
      { intros f A B. apply val2_some in A. apply val2_some in B. destruct A as (x & y & X & Y & A). destruct B as (x' & y' & X' & Y' & B).
        destruct (val_v1_num _ _ _ _ _ X) as [[nx ->] _]. destruct (val_v1_num _ _ _ _ _ Y) as [[ny ->] _].
        exists nx, ny, x', y'. split; [exact A|]. split; [exact B|]. split; eauto. }
      destruct (String.eqb m "saturating_add").
      { destruct (K _ V W) as (x & y & x' & y' & A & B & [-> | ->] & [-> | ->]); cbn in A, B; try discriminate B; injection A as <-; injection B as <-; auto. }
      destruct (String.eqb m "saturating_mul").
      { destruct (K _ V W) as (x & y & x' & y' & A & B & [-> | ->] & [-> | ->]); cbn in A, B; try discriminate B; injection A as <-; injection B as <-; auto. }
      clear K. assert (K : forall c, val_db true c (val true rho rd wr a) = Some (VNum k) -> val_db false c (val false rho rd wr a) = Some v -> v = VWeight k 0).
      { intros c A B. apply val_db_some in A. apply val_db_some in B. destruct A as (n & Va & A). destruct B as (n' & Vb & ->).
        destruct (IHa' _ _ Va Vb) as [E|E]; [|discriminate E]. injection E as ->. injection A as ->. reflexivity. }
      destruct (String.eqb m "reads"); [right; eauto|]. destruct (String.eqb m "writes"); [right; eauto|discriminate V].
  - destruct l; [|discriminate V]. injection V as <-. injection W as <-. auto.
  - cbn [val] in V, W. destruct (_ || _)%bool; [discriminate V|]. injection V as <-. injection W as <-. auto.
  - cbn [val] in V, W. destruct (weight_fn_of func) as [f|]; [|discriminate V]. destruct args as [|a [|b [|]]]; try discriminate V.
    destruct (String.eqb f "zero"); [|discriminate V]. injection V as <-. injection W as <-. auto.
Qed.
Lemma computes_once rho e a b a' b' : computes rho e a b -> computes rho e a' b' -> a = a' /\ b = b'.
Proof.
  intros [V|[V ->]] [V'|[V' ->]]; try (rewrite V in V'; injection V' as <-; auto; subst; auto).
  - destruct (versions _ _ _ _ _ _ V' V) as [E|E]; [discriminate E|]. injection E as <- <-. auto.
  - destruct (versions _ _ _ _ _ _ V V') as [E|E]; [discriminate E|]. injection E as <- <-. auto.
Qed.
Lemma formed_version e : well_formed e -> exists v1, forall rho, exists v, val v1 rho 25000000 100000000 e = Some v.
Proof. intros [[_ V]|[_ V]]; [exists false|exists true]; intros rho; [destruct (V rho) as (a & b & E)|destruct (V rho) as (a & E)]; eauto. Qed.

(** ** Ranges *)
Lemma annotates_last attrs c r : (forall a c r, In a attrs -> declares a c r -> plain_name c) ->
  (annotates attrs c r <-> last_declared attrs c r).
Proof.
  intros P. split.
  - intros (pre & a & post & E & D & L). assert (Pc : plain_name c) by (apply (P a c r); auto; rewrite E; apply in_elt).
    exists pre, a, post, c. split; auto. split; auto. split; [now apply plain_without|].
    intros a' c'' r' I D' W. rewrite plain_without in W by (apply (P a' c'' r'); auto; rewrite E; apply in_app_iff; right; now right).
    subst c''. exact (L a' r' I D').
  - intros (pre & a & post & c' & E & D & W & L). rewrite plain_without in W by (apply (P a c' r); auto; rewrite E; apply in_elt). subst c'.
    exists pre, a, post. split; auto. split; auto. intros a' r' I D'. apply (L a' c r' I D'). apply plain_without.
    apply (P a' c r'); auto. rewrite E. apply in_app_iff. right. now right.
Qed.
Lemma source_annotated attrs rs c : (forall a c r, In a attrs -> declares a c r -> plain_name c) -> parse_component_attrs attrs = Ok rs ->
  forall A, source_range attrs c A <-> A = annotated rs c.
Proof.
  intros P E A. pose proof (fun r => annotates_last attrs c r P) as L.
  assert (K : annotated rs c = [] \/ exists r, annotated rs c = [r]).
  { unfold annotated. destruct rs as [rs|]; auto. destruct (ranges_get rs c); eauto. }
  split.
  - intros [(r & -> & H)|[-> H]].
    + symmetry. apply (annotated_spec attrs); auto. now apply L.
    + destruct K as [K|[r K]]; auto. exfalso. apply (H r). apply L. now apply (annotated_spec attrs rs).
  - intros ->. destruct K as [K|[r K]]; rewrite K.
    + right. split; auto. intros r H. apply L in H. apply (annotated_spec attrs rs) in H; auto. congruence.
    + left. exists r. split; auto. apply L. now apply (annotated_spec attrs rs).
Qed.
Lemma attrs_small attrs rs rm c r : parse_component_attrs attrs = Ok rs -> rs = Some rm -> ranges_get rm c = Some r -> (rmin r < 2 ^ 32 /\ rmax r < 2 ^ 32)%N.
Proof.
  intros E -> G. assert (A : annotated (Some rm) c = [r]) by (unfold annotated; now rewrite G).
  apply (annotated_spec attrs _ c r E) in A. destruct A as (pre & a & post & c' & _ & D & _). destruct D as (text & mi & ma & _ & _ & D1 & D2 & _).
  split; [apply D1|apply D2].
Qed.

(** ** Both versions of a function *)
Section Both.
  Variables (d : dimension) (mo mn : SynM.method) (eo en : expr) (k : string * string) (o n : cextrinsic) (to tn : cterm) (ro rn : option comp_ranges).
  Hypothesis Ho : handle_method mo = Ok (snd k, to, ro).
  Hypothesis Hn : handle_method mn = Ok (snd k, tn, rn).
  Hypothesis So : m_stmts mo = [SExpr eo].
  Hypothesis Sn : m_stmts mn = [SExpr en].
  Hypothesis Eo : o = mk_ext (snd k) (fst k) to ro.
  Hypothesis En : n = mk_ext (snd k) (fst k) tn rn.
  Hypothesis Ht : tame_source d mo mn eo en.

  Let rho_d (rho : string -> N) := with_rw rho (read_cost d) (write_cost d).

  Lemma body_value m e t rs name rho : handle_method m = Ok (name, t, rs) -> m_stmts m = [SExpr e] -> tame_body e ->
    exists v, weight_at d rho e v /\ poly_val (rho_d rho) (restrict d t) = v.
  Proof.
    intros H S ([[L V]|[L V]] & _).
    - destruct (V rho) as (a & b & Vr). destruct (method_meaning _ _ _ _ _ _ _ _ _ _ H S L Vr) as [M1 M2].
      exists (match d with Time => a | Proof_size => b end). split; [exists a, b; split; [now left|reflexivity]|]. unfold rho_d. destruct d; auto.
    - destruct (V rho) as (a & Vr). destruct (method_meaning_v1 _ _ _ _ _ _ _ _ _ H S Vr) as [M1 M2].
      exists (match d with Time => a | Proof_size => 0%N end). split; [exists a, 0%N; split; [right; auto|reflexivity]|]. unfold rho_d. destruct d; auto.
  Qed.
  Lemma weight_fun rho e v w : weight_at d rho e v -> weight_at d rho e w -> v = w.
  Proof. intros (a & b & V & ->) (a' & b' & V' & ->). destruct (computes_once _ _ _ _ _ _ V V') as [-> ->]. reflexivity. Qed.

  Lemma body_shape m e t rs name : handle_method m = Ok (name, t, rs) -> m_stmts m = [SExpr e] -> tame_body e ->
    shaped e (restrict d t) /\ u128_term (restrict d t) /\ parse_component_attrs (m_attrs m) = Ok rs /\
    (forall x, In x (names e) -> ~ storage_var x).
  Proof.
    intros H S (W & _). destruct (formed_version _ W) as (v1 & V). destruct (V (fun _ => 0%N)) as (v & Vr).
    destruct (method_shaped _ _ _ _ _ _ _ _ _ _ H S Vr) as (K & U & P). split; [now apply shaped_restrict|].
    split; [now apply restrict_u128|]. split; auto. intros x. eapply names_value; eauto.
  Qed.
  Lemma body_affine e t : tame_body e -> shaped e t -> multi_affine t.
  Proof.
    intros (_ & D & _) [_ M] p x I Nx. specialize (D x). pose proof (M (snd p) x) as K.
    rewrite <- mv_monomials in K. assert (K' : In (snd p) (map (fun p : monomial => snd p) (monomials t))).
    { apply in_map_iff. exists p. auto. }
    specialize (K K' Nx). lia.
  Qed.

  Lemma rho_same rho t : rho "READ" = read_cost d -> rho "WRITE" = write_cost d -> poly_val (rho_d rho) t = poly_val rho t.
  Proof.
    intros R W. apply poly_val_ext. intros x _. unfold rho_d, with_rw.
    destruct (String.eqb_spec x "READ") as [->|]; auto. destruct (String.eqb_spec x "WRITE") as [->|]; auto.
  Qed.

  Lemma box_source rho : in_box d (Some (in_dim d o)) (Some (in_dim d n)) rho <->
    rho "READ" = read_cost d /\ rho "WRITE" = write_cost d /\ in_source_box mo mn eo en rho.
  Proof.
    destruct Ht as (To & Tn & P & _).
    destruct (body_shape _ _ _ _ _ Ho So To) as ([Oo _] & _ & Ao & No). destruct (body_shape _ _ _ _ _ Hn Sn Tn) as ([On _] & _ & An & Nn).
    assert (Po : forall c A, source_range (m_attrs mo) c A <-> A = annotated ro c) by (intros c; apply source_annotated; eauto).
    assert (Pn : forall c A, source_range (m_attrs mn) c A <-> A = annotated rn c) by (intros c; apply source_annotated; eauto).
    assert (C : forall c, SpecCompare.component storage_var (Some (in_dim d o)) (Some (in_dim d n)) c <-> (In c (names eo) \/ In c (names en))).
    { intros c. unfold SpecCompare.component. rewrite Eo, En. split.
      - intros [(e & [[= <-]|[= <-]] & I) S]; cbn [eterm in_dim] in I; [left; now apply Oo|right; now apply On].
      - intros [I|I].
        + split; [|now apply No]. eexists. split; [left; reflexivity|]. cbn. apply Oo; auto.
        + split; [|now apply Nn]. eexists. split; [right; reflexivity|]. cbn. apply On; auto. }
    unfold in_box, in_source_box. split; intros (R & W & B); (split; [exact R|split; [exact W|]]); intros c Hc.
    - destruct (B c) as (lo & hi & L & H & K); [now apply C|].
      exists (annotated ro c), (annotated rn c), lo, hi. rewrite Po, Pn. subst o n. auto.
    - destruct (B c) as (A1 & A2 & lo & hi & P1 & P2 & L & H & K); [now apply C|]. apply Po in P1. apply Pn in P2. subst A1 A2.
      exists lo, hi. subst o n. auto.
  Qed.

  Lemma source_tame : tame d (in_dim d o) (in_dim d n).
  Proof.
    pose proof Ht as (To & Tn & P & B).
    destruct (body_shape _ _ _ _ _ Ho So To) as (Ko & Uo & Ao & No). destruct (body_shape _ _ _ _ _ Hn Sn Tn) as (Kn & Un & An & Nn).
    unfold tame, typed. rewrite Eo, En. cbn [eterm eranges in_dim].
    split; [|split; [|split; [|split; [|split]]]].
    - split; auto. intros rm c r. apply (attrs_small _ _ rm c r Ao).
    - split; auto. intros rm c r. apply (attrs_small _ _ rm c r An).
    - now apply (body_affine eo).
    - now apply (body_affine en).
    - assert (Q : forall x, occurs x (restrict d to) \/ occurs x (restrict d tn) -> without_us x = x).
      { intros x Hx. destruct (storage_var_dec x) as [[->| ->]|Nx]; [reflexivity|reflexivity|].
        apply plain_without. destruct Hx as [Hx|Hx]; [apply Ko in Hx; auto; apply To, Hx|apply Kn in Hx; auto; apply Tn, Hx]. }
      intros x y Hx Hy W. rewrite (Q x Hx), (Q y Hy) in W. exact W.
    - intros rho Hb. rewrite <- Eo, <- En in Hb. apply box_source in Hb as (R & W & Hb).
      destruct (body_value _ _ _ _ _ rho Ho So To) as (v & Wv & Vv). destruct (body_value _ _ _ _ _ rho Hn Sn Tn) as (w & Ww & Vw).
      rewrite rho_same in Vv, Vw by auto. rewrite Vv, Vw. eapply B; eauto.
  Qed.
  Lemma source_point rho v w : in_source_box mo mn eo en rho -> weight_at d rho eo v -> weight_at d rho en w ->
    in_box d (Some (in_dim d o)) (Some (in_dim d n)) (rho_d rho) /\
    poly_val (rho_d rho) (restrict d (eterm o)) = v /\ poly_val (rho_d rho) (restrict d (eterm n)) = w.
  Proof.
    intros Hb Wv Ww. pose proof Ht as (To & Tn & P & B). split.
    - apply box_source. split; [reflexivity|]. split; [reflexivity|].
      destruct (body_shape _ _ _ _ _ Ho So To) as (_ & _ & _ & No). destruct (body_shape _ _ _ _ _ Hn Sn Tn) as (_ & _ & _ & Nn).
      intros c Hc. destruct (Hb c Hc) as (A1 & A2 & lo & hi & P1 & P2 & L & H & K). exists A1, A2, lo, hi. repeat split; auto; unfold rho_d, with_rw.
      all: assert (Nc : ~ storage_var c) by (destruct Hc; auto);
        destruct (String.eqb_spec c "READ") as [->|]; [exfalso; apply Nc; now left|];
        destruct (String.eqb_spec c "WRITE") as [->|]; [exfalso; apply Nc; now right|]; apply K.
    - destruct (body_value _ _ _ _ _ rho Ho So To) as (v' & Wv' & Vv). destruct (body_value _ _ _ _ _ rho Hn Sn Tn) as (w' & Ww' & Vw).
      rewrite Eo, En. cbn [eterm]. rewrite (weight_fun _ _ _ _ Wv Wv'), (weight_fun _ _ _ _ Ww Ww'). auto.
  Qed.
End Both.

Local Open Scope R_scope.
Lemma source_regression : forall m ords rx olds news meth d f rows k mo mn eo en rho z v w, (forall k, is_order (ords k)) ->
  meth = ExactWorst \/ meth = GuessWorst ->
  compare_files m ords rx olds news {| p_method := meth; p_unit := d |} f = Ok rows ->
  threshold_mils (f_threshold f) z -> kind_selected f Changed ->
  entry_of olds k mo eo -> entry_of news k mn en ->
  passes rx (f_pallet f) (fst k) -> passes rx (f_extrinsic f) (snd k) ->
  tame_source d mo mn eo en -> in_source_box mo mn eo en rho -> weight_at d rho eo v -> weight_at d rho en w ->
  grown (IZR z / 1000) v w ->
  exists r, In r (filter_changes rows f) /\ row_key r = k /\
    shows r (IZR z / 1000) v w.
Proof.
  intros m ords rx olds news meth d f rows k mo mn eo en rho z v w Ho M E HT S (So & to & ro & Hmo & Fo) (Sn & tn & rn & Hmn & Fn) Pp Pe Ht Hb Wv Ww G.
  pose proof (source_tame d mo mn eo en k _ _ to tn ro rn Hmo Hmn So Sn eq_refl eq_refl Ht) as T.
  destruct (source_point d mo mn eo en k _ _ to tn ro rn Hmo Hmn So Sn eq_refl eq_refl Ht rho v w Hb Wv Ww) as (B & Vo & Vn).
  pose proof (EndP.regression_lemma m ords rx olds news meth d f rows k _ _ _ z Ho M E HT S Fo Fn Pp Pe T B) as R.
  cbv zeta in R. rewrite Vo, Vn in R. exact (R G).
Qed.
