(** Proofs about the parser: implementations and database handles. *)
From Coq Require Import List String Ascii NArith ZArith Bool Lia.
From Verif Require Import Base ScopeM TermM SpecTerm TermP SpecChrom ChromP CompareM SpecFmt DecP SynM AttrM ParseM SpecParse StrP ParseP ParseP2.
Import ListNotations.
Local Open Scope string_scope.
Local Open Scope N_scope.

(** ** C38: the first usable implementation *)
(** The entry of a function within a pallet. *)
Definition entry (pallet : string) (m : method) (x : cextrinsic) : Prop :=
  epallet x = pallet /\ handle_method m = Ok (ename x, eterm x, eranges x).

Lemma weight_type_spec t : weight_type t = Ok tt <-> weight_impl t.
Proof.
  unfold weight_impl. split.
  - destruct t as [[|n]|[lead segs]|]; cbn; try discriminate.
    + auto.
    + destruct lead; [discriminate|]. destruct segs as [|s [|]]; cbn; try discriminate.
      destruct (String.eqb_spec s "WeightInfo"); [intros _; right; exists s; auto|].
      destruct (String.eqb_spec s "SubstrateWeight"); [intros _; right; exists s; auto|]. discriminate.
  - intros [-> |(name & [-> | ->] & ->)]; reflexivity.
Qed.
Lemma methods_entries pallet items ws : handle_methods pallet items = Ok ws <-> Forall2 (entry pallet) (methods items) ws.
Proof.
  revert ws. induction items as [|[m|] items IH]; intros ws; cbn.
  - split; [intros [= <-]; constructor|]. intros H. inversion H. reflexivity.
  - split.
    + intros H. apply bind_ok in H. destruct H as ([[n t] rs] & H1 & H). apply bind_ok in H. destruct H as (rest & H2 & [= <-]).
      constructor; [|now apply IH]. split; [reflexivity|]. exact H1.
    + intros H. inversion H as [|? x ? ws' [Hp Hx] Hr]; subst. rewrite Hx. cbn. apply IH in Hr. rewrite Hr. cbn. destruct x; reflexivity.
  - apply IH.
Qed.
Lemma item_usable pallet i ws : handle_item pallet i = Ok ws <-> usable (entry pallet) i ws.
Proof.
  unfold usable. split.
  - destruct i; cbn; try discriminate. intros H. apply bind_ok in H. destruct H as ([] & H1 & H). apply bind_ok in H. destruct H as (ws' & H2 & H).
    exists self_ty, items. rewrite <- weight_type_spec. destruct ws'; [discriminate H|]. injection H as <-. repeat split; auto; [discriminate|].
    now apply methods_entries.
  - intros (t & items & -> & W & N & F). cbn. apply weight_type_spec in W. apply methods_entries in F. rewrite W. cbn. rewrite F. cbn.
    destruct ws; congruence.
Qed.
Lemma content_first pallet items ws : parse_content pallet (Some items) = Ok ws -> first_usable (entry pallet) items ws.
Proof.
  cbn. induction items as [|i items IH]; cbn; [discriminate|]. intros H. destruct (handle_item pallet i) eqn:E; try discriminate H.
  - injection H as <-. exists [], i, items. split; [reflexivity|]. split; [now apply item_usable|]. intros j ws' [].
  - destruct (IH H) as (pre & k & post & -> & U & N). exists (i :: pre), k, post. split; [reflexivity|]. split; [exact U|].
    intros j ws' [<-|Hj]; [|now apply N]. intros K. apply item_usable in K. congruence.
Qed.
Lemma first_content pallet items ws : Forall harmless_item items -> first_usable (entry pallet) items ws -> parse_content pallet (Some items) = Ok ws.
Proof.
  intros G (pre & k & post & -> & U & N). cbn. induction pre as [|i pre IH]; cbn in *.
  - apply item_usable in U. now rewrite U.
  - inversion G as [|? ? Gi G']; subst. pose proof (item_returns pallet i Gi) as R. destruct (handle_item pallet i) as [ws'|msg| |] eqn:E.
    + apply item_usable in E. now destruct (N i ws' (or_introl eq_refl)).
    + apply IH; auto.
    + destruct R.
    + destruct R.
Qed.
Lemma content_fails pallet items : Forall harmless_item items ->
  (is_err (parse_content pallet (Some items)) = true <-> forall i ws, In i items -> ~ usable (entry pallet) i ws).
Proof.
  intros G. cbn. induction G as [|i items Gi G IH]; cbn.
  - split; [intros _ i ws []|reflexivity].
  - pose proof (item_returns pallet i Gi) as R. destruct (handle_item pallet i) as [ws|msg| |] eqn:E; try (destruct R; fail).
    + split; [discriminate|]. intros H. apply item_usable in E. now destruct (H i ws (or_introl eq_refl)).
    + rewrite IH. split.
      * intros H j ws [<-|Hj]; [|now apply H]. intros K. apply item_usable in K. congruence.
      * intros H j ws Hj. apply H. now right.
Qed.
Lemma entry_shape m name t rs : handle_method m = Ok (name, t, rs) ->
  name = m_name m /\ declares_weight m /\ exists e, m_stmts m = [SExpr e].
Proof.
  intros H. apply handle_method_inv in H. destruct H as (e & S & -> & R & _). split; [reflexivity|]. split; [|eauto].
  unfold declares_weight. unfold returns_weight in R. destruct (m_output m) as [|[|p|]]; try discriminate R.
  destruct (rev (segments p)) as [|s l] eqn:E; [discriminate R|]. destruct (ends_with s "Weight") eqn:W; [|discriminate R].
  apply ends_with_spec in W. destruct W as (x & ->). exists p, (rev l), x. split; [reflexivity|].
  rewrite <- (rev_involutive (segments p)), E. reflexivity.
Qed.

(** ** C40: database handles *)
Lemma no_colon_app a b : no_colon (a ++ b) <-> no_colon a /\ no_colon b.
Proof. induction a; cbn; tauto. Qed.

(** The segments of a joined path, read from the right. *)
Lemma split_join s : forall R a b, no_colon s -> R <> String ":" b -> s ++ "::" ++ R = a ++ "::" ++ b ->
  (a = s /\ R = b) \/ (exists a', a = s ++ "::" ++ a' /\ R = a' ++ "::" ++ b).
Proof.
  induction s as [|c s IH]; intros R a b Ns Nb H.
  - cbn in H. destruct a as [|x [|y a]]; cbn in H.
    + left. split; [reflexivity|congruence].
    + congruence.
    + injection H as -> -> ->. right. exists a. split; reflexivity.
  - destruct Ns as [Nc Ns]. destruct a as [|x a]; cbn in H.
    + injection H as -> H. congruence.
    + injection H as <- H. destruct (IH _ _ _ Ns Nb H) as [[-> ->]|(a' & -> & ->)]; [left|right]; [|exists a']; auto.
Qed.
Lemma join_single l b : Forall no_colon l -> no_colon b -> String.concat "::" l = b -> l = [b] \/ (l = [] /\ b = "").
Proof.
  intros N Nb H. destruct l as [|s [|s' l]].
  - right. auto.
  - left. cbn in H. congruence.
  - rewrite concat_cons in H by discriminate. subst b. apply no_colon_app in Nb. destruct Nb as [_ Nb]. cbn in Nb. tauto.
Qed.
Lemma join_last l : forall a b, Forall no_colon l -> no_colon b -> String.concat "::" l = a ++ "::" ++ b ->
  exists pre, l = (pre ++ [b])%list /\ pre <> [] /\ String.concat "::" pre = a.
Proof.
  induction l as [|s l IH]; intros a b N Nb H.
  - destruct a; discriminate H.
  - inversion N as [|? ? Ns N']; subst. destruct l as [|s' l].
    + cbn in H. subst s. apply no_colon_app in Ns. destruct Ns as [_ Ns]. cbn in Ns. tauto.
    + rewrite concat_cons in H by discriminate.
      assert (NR : String.concat "::" (s' :: l) <> String ":" b).
      { inversion N' as [|? ? Ns' _]; subst. destruct l as [|s2 l]; [|rewrite concat_cons by discriminate]; destruct s' as [|c s']; cbn in Ns' |- *;
          try discriminate; try (intros [= E _]; tauto). intros [= E]. rewrite <- E in Nb. cbn in Nb. tauto. }
      destruct (split_join _ _ _ _ Ns NR H) as [[-> R]|(a' & -> & R)].
      * exists [s]. destruct (join_single _ _ N' Nb R) as [->|[E _]]; [|discriminate E]. repeat split; congruence.
      * destruct (IH _ _ N' Nb R) as (pre & E & Np & C). exists (s :: pre). rewrite E. repeat split; [discriminate|].
        rewrite concat_cons by assumption. now rewrite C.
Qed.
Lemma app_cases a : forall b s t, a ++ s = b ++ t -> (exists c, s = c ++ t /\ b = a ++ c) \/ (exists c, t = c ++ s /\ a = b ++ c).
Proof.
  induction a as [|x a IH]; intros [|y b] s t H; cbn in *.
  - left. exists "". auto.
  - left. exists (String y b). auto.
  - right. exists (String x a). auto.
  - injection H as -> H. destruct (IH _ _ _ H) as [(c & -> & ->)|(c & -> & ->)]; [left|right]; exists c; auto.
Qed.
(** What does not contain a colon lies within the last segment. *)
Lemma join_suffix l a w : Forall no_colon l -> l <> [] -> no_colon w -> String.concat "::" l = a ++ w ->
  exists pre x, l = (pre ++ [append x w])%list.
Proof.
  intros N NE Nw H. destruct (exists_last NE) as (pre & s & ->). destruct pre as [|p pre].
  - cbn in H. exists [], a. now rewrite H.
  - rewrite concat_snoc in H by discriminate. rewrite <- app_str_assoc in H. destruct (app_cases _ _ _ _ H) as [(c & -> & _)|(c & -> & E)].
    + eauto.
    + apply no_colon_app in Nw. destruct Nw as [Nc Ns]. destruct (app_cases _ _ _ _ E) as [(d & E1 & _)|(d & E1 & E2)].
      * destruct c as [|c1 c]; [exists (p :: pre), ""; reflexivity|]. exfalso. cbn in Nc. destruct d as [|d1 [|d2 d]]; cbn in E1.
        -- injection E1 as <- _. tauto.
        -- injection E1 as _ <- _. tauto.
        -- injection E1 as _ _ E1. destruct d; discriminate E1.
      * rewrite E1 in Nc. apply no_colon_app in Nc. cbn in Nc. tauto.
Qed.

Lemma db_path_spec p : identifiers p -> (validate_db_func (EPath p) = Ok tt <-> db_path p).
Proof.
  unfold identifiers, db_path. intros N. unfold validate_db_func. set (q := String.concat "::" (segments p)).
  assert (K : (negb (String.eqb q "T::DbWeight::get") && negb (ends_with q "RocksDbWeight::get") && negb (ends_with q "ParityDbWeight::get"))%bool = false
     <-> q = "T::DbWeight::get" \/ (exists a, q = (a ++ "RocksDbWeight") ++ "::" ++ "get") \/ (exists a, q = (a ++ "ParityDbWeight") ++ "::" ++ "get")).
  { rewrite <- !negb_orb, negb_false_iff, !orb_true_iff, String.eqb_eq, !ends_with_spec.
    setoid_rewrite app_str_assoc. cbn [append]. tauto. }
  transitivity (q = "T::DbWeight::get" \/ (exists a, q = (a ++ "RocksDbWeight") ++ "::" ++ "get") \/ (exists a, q = (a ++ "ParityDbWeight") ++ "::" ++ "get")).
  { rewrite <- K. destruct (_ && _)%bool; split; congruence. }
  clear K. assert (NCG : no_colon "get") by (cbn; repeat split; discriminate).
  assert (S : forall w, no_colon w -> ((exists a, q = (a ++ w) ++ "::" ++ "get") <-> exists pre x, segments p = (pre ++ [append x w; "get"])%list)).
  { intros w Nw. split.
    - intros (a & E). destruct (join_last _ _ _ N NCG E) as (pre & E1 & NE & C).
      assert (N' : Forall no_colon pre) by (rewrite E1 in N; apply Forall_app in N; apply N).
      destruct (join_suffix _ _ _ N' NE Nw C) as (pre' & x & ->). exists pre', x. rewrite E1, <- app_assoc. reflexivity.
    - intros (pre & x & E). unfold q. rewrite E. destruct (concat_last2 "::" pre (x ++ w) "get") as (y & ->). exists (y ++ x).
      now rewrite !app_str_assoc. }
  rewrite (S "RocksDbWeight"), (S "ParityDbWeight") by (cbn; repeat split; discriminate). split.
  - intros [E|[(pre & x & E)|(pre & x & E)]]; eauto. left.
    destruct (join_last _ "T::DbWeight" "get" N NCG E) as (pre & E1 & _ & C).
    assert (N' : Forall no_colon pre) by (rewrite E1 in N; apply Forall_app in N; apply N).
    destruct (join_last _ "T" "DbWeight" N' ltac:(cbn; repeat split; discriminate) C) as (pre' & E2 & _ & C').
    assert (N'' : Forall no_colon pre') by (rewrite E2 in N'; apply Forall_app in N'; apply N').
    destruct (join_single _ "T" N'' ltac:(cbn; repeat split; discriminate) C') as [E3|[_ E3]]; [|discriminate E3].
    rewrite E1, E2, E3. reflexivity.
  - intros [E|(pre & x & [E|E])].
    + left. unfold q. rewrite E. reflexivity.
    + right. left. eauto.
    + right. right. eauto.
Qed.

Lemma db_handle_spec e : proper_call e -> (validate_db_call e = Ok tt <-> db_handle e).
Proof.
  intros G. unfold db_handle. split.
  - destruct e; try discriminate. cbn [validate_db_call]. intros H. apply bind_ok in H. destruct H as ([] & H1 & H2).
    destruct args; [|discriminate H2]. destruct e; try discriminate H1. exists p, trailing. split; [reflexivity|].
    apply db_path_spec; [|exact H1]. eapply G. reflexivity.
  - intros (p & tr & -> & D). cbn [validate_db_call]. apply db_path_spec in D; [|eapply G; reflexivity]. rewrite D. reflexivity.
Qed.
Lemma validate_unit e : (exists u, validate_db_call e = Ok u) <-> validate_db_call e = Ok tt.
Proof. split; [intros [[] H]|eauto]; exact H. Qed.

Lemma reads_spec r args tr t : proper_call r ->
  (parse_expression (EMethodCall r "reads" args tr) = Ok t <->
   db_handle r /\ exists ta, parse_rw_args args = Ok ta /\ t = Mul ta (Var "READ")).
Proof.
  intros G. cbn [parse_expression String.eqb Ascii.eqb Bool.eqb]. rewrite <- (db_handle_spec r G). split.
  - intros H. apply bind_ok in H. destruct H as ([] & H1 & H). apply bind_ok in H. destruct H as (ta & H2 & [= <-]). eauto.
  - intros (-> & ta & -> & ->). reflexivity.
Qed.
Lemma writes_spec r args tr t : proper_call r ->
  (parse_expression (EMethodCall r "writes" args tr) = Ok t <->
   db_handle r /\ exists ta, parse_rw_args args = Ok ta /\ t = Mul ta (Var "WRITE")).
Proof.
  intros G. cbn [parse_expression String.eqb Ascii.eqb Bool.eqb]. rewrite <- (db_handle_spec r G). split.
  - intros H. apply bind_ok in H. destruct H as ([] & H1 & H). apply bind_ok in H. destruct H as (ta & H2 & [= <-]). eauto.
  - intros (-> & ta & -> & ->). reflexivity.
Qed.
Lemma scalar_arg_spec {B} args (f : expr -> outcome sterm) (k : sterm -> B) t :
  (let* r := match args with [a] => f a | _ => Err "Expected one argument" end in Ok (k r)) = Ok t <->
  exists a ta, args = [a] /\ f a = Ok ta /\ t = k ta.
Proof.
  split.
  - intros H. apply bind_ok in H. destruct H as (ta & H & [= <-]). destruct args as [|a [|]]; try discriminate H. eauto.
  - intros (a & ta & -> & H & ->). now rewrite H.
Qed.
Lemma scalar_reads_spec r args tr t : proper_call r ->
  (parse_scalar_expression (EMethodCall r "reads" args tr) = Ok t <->
   db_handle r /\ exists a ta, args = [a] /\ parse_scalar_expression a = Ok ta /\ t = Mul ta (Var "READ")).
Proof.
  intros G. cbn [parse_scalar_expression String.eqb Ascii.eqb Bool.eqb]. rewrite <- (db_handle_spec r G). split.
  - intros H. apply bind_ok in H. destruct H as ([] & H1 & H). apply scalar_arg_spec in H. auto.
  - intros (-> & H). cbn [bind]. now apply scalar_arg_spec.
Qed.
Lemma scalar_writes_spec r args tr t : proper_call r ->
  (parse_scalar_expression (EMethodCall r "writes" args tr) = Ok t <->
   db_handle r /\ exists a ta, args = [a] /\ parse_scalar_expression a = Ok ta /\ t = Mul ta (Var "WRITE")).
Proof.
  intros G. cbn [parse_scalar_expression String.eqb Ascii.eqb Bool.eqb]. rewrite <- (db_handle_spec r G). split.
  - intros H. apply bind_ok in H. destruct H as ([] & H1 & H). apply scalar_arg_spec in H. auto.
  - intros (-> & H). cbn [bind]. now apply scalar_arg_spec.
Qed.
(** An argument of [reads] or [writes] in a weight. *)
Lemma rw_args_spec args ta : parse_rw_args args = Ok ta <->
  exists a, args = [a] /\ ((exists n, a = ELit (LInt n) /\ n < u128_bound /\ ta = Scalar n) \/
    ((forall l, a <> ELit l) /\ exists s, parse_scalar_expression a = Ok s /\ ta = into_chromatic Time s)).
Proof.
  split; [apply rw_arg|]. intros (a & -> & [(n & -> & B & ->)|(N & s & E & ->)]).
  - apply N.ltb_lt in B. cbn. now rewrite B.
  - unfold parse_rw_args. cbn [extract_arg bind]. destruct a; try (now rewrite E). now destruct (N l).
Qed.

(** ** C33: functions of the template *)
Lemma declares_ok m : declares_weight m -> returns_weight m = Ok tt.
Proof.
  intros (p & pre & x & E & S). unfold returns_weight. rewrite E, S, rev_app_distr. cbn [rev app]. now rewrite ends_with_app.
Qed.
Lemma template_method m e rs : template e -> m_stmts m = [SExpr e] -> declares_weight m -> parse_component_attrs (m_attrs m) = Ok rs ->
  exists t, handle_method m = Ok (m_name m, t, rs) /\ forall rho rd wr, exists a b, val false rho rd wr e = Some (VWeight a b) /\
    poly_val (with_rw rho rd wr) (restrict Time t) = a /\ poly_val (with_rw rho 0 0) (restrict Proof_size t) = b.
Proof.
  intros T S D A. destruct (template_accepted (fun _ => 0) 0 0 e T) as ((t & E) & _ & L).
  assert (H : handle_method m = Ok (m_name m, t, rs)).
  { unfold handle_method. rewrite (declares_ok m D). cbn [bind]. rewrite S. cbn [bind]. rewrite E. cbn [bind]. now rewrite A. }
  exists t. split; [exact H|]. intros rho rd wr. destruct (template_accepted rho rd wr e T) as (_ & (a & b & V) & _). exists a, b.
  split; [exact V|]. exact (method_meaning _ _ _ _ _ _ _ _ _ _ H S L V).
Qed.
(** The first version: numbers, read as scalars. *)
Lemma component_v1 rho rd wr e : component e -> (exists n, val true rho rd wr e = Some (VNum n)) /\ int_literals e.
Proof.
  induction 1 as [p N1 N2|e tr C IH|e C IH|e C IH]; cbn; auto.
  - apply String.eqb_neq in N1, N2. rewrite N1, N2. cbn. split; [eauto|intros l []].
  - destruct IH as [V L]. split; [exact V|]. intros l I. apply L. cbn in I. now rewrite app_nil_r in I.
Qed.
Lemma numeral_v1 rho rd wr e : numeral e -> (exists n, val true rho rd wr e = Some (VNum n)) /\ int_literals e.
Proof. induction 1 as [n H|e C IH|e C IH]; cbn; auto. split; [eauto|]. intros l [<-|[]]. eauto. Qed.
Lemma lit_app r m a tr : int_literals r -> int_literals a -> int_literals (EMethodCall r m [a] tr).
Proof. intros R A l I. cbn in I. rewrite app_nil_r in I. apply in_app_iff in I as [I|I]; auto. Qed.
Definition v1_fine rho rd wr (e : expr) : Prop :=
  (exists s, parse_scalar_expression e = Ok s) /\ (exists n, val true rho rd wr e = Some (VNum n)) /\ has_literal true e /\ int_literals e.
Lemma count_v1 rho rd wr e : count e -> v1_fine rho rd wr e.
Proof.
  intros [e' H|e' c tr H Hc].
  - destruct (numeral_v1 rho rd wr e' H). destruct (numeral_accepted rho rd wr e' H) as (E & _ & L & _). repeat split; auto.
  - destruct (numeral_v1 rho rd wr e' H) as ((n & V) & I). destruct (numeral_accepted rho rd wr e' H) as ((t & E) & _ & L & _).
    destruct (component_accepted rho rd wr c Hc) as ((t' & E') & _). destruct (component_v1 rho rd wr c Hc) as ((n' & V') & I').
    split; [|split; [|split]]; [simpl; rewrite ?E, ?E'; simpl; eauto|simpl; rewrite ?V, ?V'; simpl; eauto|simpl; auto|now apply lit_app].
Qed.
Lemma db_literals db : db_call db -> int_literals db.
Proof. intros [p lead tr _] l []. Qed.
Lemma old_summand_accepted rho rd wr e : old_summand e -> v1_fine rho rd wr e.
Proof.
  induction 1 as [e C|db n tr Hd Hn|db n tr Hd Hn|e S IH].
  - now apply count_v1.
  - destruct (count_v1 rho rd wr n Hn) as ((t & E) & (k & V) & L & I). split; [|split; [|split]].
    + cbn [parse_scalar_expression String.eqb Ascii.eqb Bool.eqb]. rewrite (db_accepted _ Hd), E. cbn. eauto.
    + simpl. rewrite V. simpl. eauto.
    + simpl. now left.
    + apply lit_app; auto using db_literals.
  - destruct (count_v1 rho rd wr n Hn) as ((t & E) & (k & V) & L & I). split; [|split; [|split]].
    + cbn [parse_scalar_expression String.eqb Ascii.eqb Bool.eqb]. rewrite (db_accepted _ Hd), E. cbn. eauto.
    + simpl. rewrite V. simpl. eauto.
    + simpl. now left.
    + apply lit_app; auto using db_literals.
  - exact IH.
Qed.
Lemma old_accepted rho rd wr e : old_template e -> v1_fine rho rd wr e.
Proof.
  induction 1 as [e S|e s tr T IH S].
  - now apply old_summand_accepted.
  - destruct IH as ((t & E) & (n & V) & L & I). destruct (old_summand_accepted rho rd wr s S) as ((t' & E') & (n' & V') & L' & I').
    split; [|split; [|split]]; [simpl; rewrite ?E, ?E'; simpl; eauto|simpl; rewrite ?V, ?V'; simpl; eauto|simpl; auto|now apply lit_app].
Qed.
Lemma old_method m e rs : old_template e -> m_stmts m = [SExpr e] -> declares_weight m -> parse_component_attrs (m_attrs m) = Ok rs ->
  exists t, handle_method m = Ok (m_name m, t, rs) /\ forall rho rd wr, exists n, val true rho rd wr e = Some (VNum n) /\
    poly_val (with_rw rho rd wr) (restrict Time t) = n /\ poly_val (with_rw rho 0 0) (restrict Proof_size t) = 0.
Proof.
  intros T S D A. destruct (old_accepted (fun _ => 0) 0 0 e T) as ((s & E) & _ & L & I).
  assert (H : exists t, handle_method m = Ok (m_name m, t, rs)).
  { unfold handle_method. rewrite (declares_ok m D). cbn [bind]. rewrite S. cbn [bind]. pose proof (expression_returns e I) as R.
    destruct (parse_expression e) as [t|msg|w|]; cbn in R; try destruct R; rewrite ?E; cbn [bind]; rewrite A; cbn [bind]; eauto. }
  destruct H as (t & H). exists t. split; [exact H|]. intros rho rd wr. destruct (old_accepted rho rd wr e T) as (_ & (n & V) & _). exists n.
  split; [exact V|]. destruct (method_meaning_v1 _ _ _ _ _ _ _ _ _ H S V) as [X Y]. auto.
Qed.
