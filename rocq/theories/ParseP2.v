(** Proofs about the parser of weight functions, continued. *)
From Coq Require Import List String Ascii NArith ZArith Bool Lia.
From Verif Require Import Base ScopeM TermM SpecTerm TermP SpecChrom ChromP CompareM SpecFmt DecP SynM AttrM ParseM SpecParse StrP ParseP.
Import ListNotations.
Local Open Scope string_scope.
Local Open Scope N_scope.

(** ** C33: the benchmarking template is accepted *)
Lemma component_accepted rho rd wr e : component e ->
  (exists s, parse_scalar_expression e = Ok s) /\ (exists t, parse_expression e = Ok t) /\ (exists n, val false rho rd wr e = Some (VNum n)) /\ literal_args e.
Proof.
  induction 1 as [p N1 N2|e tr C IH|e C IH|e C IH]; cbn.
  - apply String.eqb_neq in N1, N2. rewrite N1, N2. cbn. eauto 10.
  - destruct IH as (? & ? & ? & ?). auto 10.
  - exact IH.
  - exact IH.
Qed.
Lemma numeral_accepted rho rd wr e : numeral e ->
  (exists s, parse_scalar_expression e = Ok s) /\ (exists n, val false rho rd wr e = Some (VNum n)) /\ (forall b, has_literal b e) /\ no_access e.
Proof.
  induction 1 as [n H|e C IH|e C IH]; cbn.
  - apply N.ltb_lt in H. rewrite H. cbn. eauto 10.
  - exact IH.
  - exact IH.
Qed.
Lemma numeral_rw e : numeral e -> exists t, parse_rw_args [e] = Ok t.
Proof.
  intros H. destruct (numeral_accepted (fun _ => 0) 0 0 e H) as ((s & E) & _). unfold parse_rw_args, extract_arg. cbn [bind].
  destruct H as [n H| |].
  - apply N.ltb_lt in H. cbn. rewrite H. cbn. eauto.
  - rewrite E. cbn. eauto.
  - rewrite E. cbn. eauto.
Qed.
Lemma count_accepted rho rd wr e : count e -> (exists t, parse_rw_args [e] = Ok t) /\ (exists n, val false rho rd wr e = Some (VNum n)).
Proof.
  intros [e' H|e' c tr H Hc].
  - split; [now apply numeral_rw|]. apply (numeral_accepted rho rd wr e' H).
  - destruct (numeral_accepted rho rd wr e' H) as ((s & E) & (n & V) & _).
    destruct (component_accepted rho rd wr c Hc) as ((s' & E') & _ & (n' & V') & _). split.
    + unfold parse_rw_args, extract_arg. simpl. rewrite E, E'. simpl. eauto.
    + simpl. rewrite V, V'. simpl. eauto.
Qed.
Lemma db_accepted e : db_call e -> validate_db_call e = Ok tt.
Proof. intros [p lead tr [-> | [-> | ->]]]; reflexivity. Qed.
Lemma summand_accepted rho rd wr e : summand e ->
  (exists t, parse_expression e = Ok t) /\ (exists a b, val false rho rd wr e = Some (VWeight a b)) /\ literal_args e.
Proof.
  induction 1 as [a b p tr Ha Hb P|a p tr Ha P|a p tr Ha P|p tr P|e c tr S IH Hc|db n tr Hd Hn|db n tr Hd Hn|e S IH].
  - destruct (numeral_accepted rho rd wr a Ha) as ((s & E) & (n & V) & La & _).
    destruct (numeral_accepted rho rd wr b Hb) as ((s' & E') & (n' & V') & Lb & NA).
    repeat split.
    + cbn [parse_expression]. unfold parse_call. cbn [function_name bind]. unfold path_to_string. rewrite P. cbn. rewrite E. cbn. rewrite E'. cbn. eauto.
    + cbn [val weight_fn_of]. rewrite P. cbn. rewrite V, V'. eauto.
    + apply La.
    + apply Lb.
    + exact NA.
  - destruct (numeral_accepted rho rd wr a Ha) as ((s & E) & (n & V) & La & NA).
    repeat split.
    + cbn [parse_expression]. unfold parse_call. cbn [function_name bind]. unfold path_to_string. rewrite P. cbn. unfold parse_ref_time_args. cbn. rewrite E. cbn. eauto.
    + cbn [val weight_fn_of]. rewrite P. cbn. rewrite V. eauto.
    + intros _. apply La.
    + apply La.
    + exact NA.
  - destruct (numeral_accepted rho rd wr a Ha) as ((s & E) & (n & V) & La & NA).
    repeat split.
    + cbn [parse_expression]. unfold parse_call. cbn [function_name bind]. unfold path_to_string. rewrite P. cbn. unfold parse_proof_size_args. cbn. rewrite E. cbn. eauto.
    + cbn [val weight_fn_of]. rewrite P. cbn. rewrite V. eauto.
    + intros _. apply La.
    + apply La.
    + exact NA.
  - repeat split.
    + cbn [parse_expression]. unfold parse_call. cbn [function_name bind]. unfold path_to_string. rewrite P. cbn. eauto.
    + cbn [val weight_fn_of]. rewrite P. cbn. eauto.
  - destruct IH as ((t & E) & (a & b & V) & L). destruct (component_accepted rho rd wr c Hc) as (_ & (s' & E') & (n' & V') & L').
    repeat split; simpl; rewrite ?E, ?E', ?V, ?V'; simpl; eauto.
  - destruct (count_accepted rho rd wr n Hn) as ((t & E) & (k & V)). repeat split.
    + cbn [parse_expression String.eqb Ascii.eqb Bool.eqb]. rewrite (db_accepted _ Hd), E. cbn. eauto.
    + simpl. rewrite V. simpl. eauto.
  - destruct (count_accepted rho rd wr n Hn) as ((t & E) & (k & V)). repeat split.
    + cbn [parse_expression String.eqb Ascii.eqb Bool.eqb]. rewrite (db_accepted _ Hd), E. cbn. eauto.
    + simpl. rewrite V. simpl. eauto.
  - exact IH.
Qed.
Lemma template_accepted rho rd wr e : template e ->
  (exists t, parse_expression e = Ok t) /\ (exists a b, val false rho rd wr e = Some (VWeight a b)) /\ literal_args e.
Proof.
  induction 1 as [e S|e s tr T IH S].
  - now apply summand_accepted.
  - destruct IH as ((t & E) & (a & b & V) & L). destruct (summand_accepted rho rd wr s S) as ((t' & E') & (a' & b' & V') & L').
    repeat split; simpl; rewrite ?E, ?E', ?V, ?V'; simpl; eauto.
Qed.

(** ** C35: parentheses, casts, conversions *)
Lemma erase_scalar e : parse_scalar_expression (erase e) = parse_scalar_expression e.
Proof.
  induction e as [e IH|e IH|r m args tr IHr IHa|l|p|func args tr IHf IHa|o l r IHl IHr|p fs IH|] using expr_ind'; try reflexivity.
  - exact IH.
  - exact IH.
  - cbn [erase]. destruct (String.eqb m "into") eqn:M.
    { apply eqb_subst in M. subst m. exact IHr. }
    assert (A : match map erase args with [a] => parse_scalar_expression a | _ => Err "Expected one argument" end =
                match args with [a] => parse_scalar_expression a | _ => Err "Expected one argument" end).
    { destruct args as [|a [|]]; try reflexivity. inversion IHa; subst. cbn. assumption. }
    assert (TR : empty_or_trailing (map erase args) tr = empty_or_trailing args tr) by (destruct args; reflexivity).
    destruct (String.eqb m "reads") eqn:M1; [|destruct (String.eqb m "writes") eqn:M2];
      cbn [orb parse_scalar_expression]; rewrite ?M, ?M1, ?M2, A, TR, ?IHr; reflexivity.
  - cbn [erase parse_scalar_expression].
    assert (A : match map erase args with [a] => parse_scalar_expression a | _ => Err "Expected one argument" end =
                match args with [a] => parse_scalar_expression a | _ => Err "Expected one argument" end).
    { destruct args as [|a [|]]; try reflexivity. inversion IHa; subst. cbn. assumption. }
    rewrite A. replace (empty_or_trailing (map erase args) tr) with (empty_or_trailing args tr) by (destruct args; reflexivity). reflexivity.
Qed.

Lemma same_refl a : same_equation a a.
Proof. destruct a; cbn; auto. Qed.
Lemma same_add a a' b b' : same_equation a a' -> same_equation b b' ->
  same_equation (let* x := a in let* y := b in Ok (Add x y)) (let* x := a' in let* y := b' in Ok (Add x y)).
Proof.
  destruct a, a', b, b'; cbn; intros H K; try congruence; try (injection H as ->; congruence).
  destruct H as [H1 H2], K as [K1 K2]. split; intros; pv; [now rewrite H1, K1|now rewrite H2, K2].
Qed.
Lemma same_mul a a' b b' : same_equation a a' -> same_equation b b' ->
  same_equation (let* x := a in let* y := b in Ok (Mul x y)) (let* x := a' in let* y := b' in Ok (Mul x y)).
Proof.
  destruct a, a', b, b'; cbn; intros H K; try congruence; try (injection H as ->; congruence).
  destruct H as [H1 H2], K as [K1 K2]. split; intros; pv; [now rewrite H1, K1|now rewrite H2, K2].
Qed.

(** The literal within an argument of [reads] or [writes]. *)
Lemma erase_lit a l : erase a = ELit l -> parse_scalar_expression a = parse_scalar_expression (ELit l).
Proof. intros H. rewrite <- erase_scalar. now rewrite H. Qed.

Lemma rw_erase args x : x = "READ" \/ x = "WRITE" ->
  same_equation (let* r := parse_rw_args (map erase args) in Ok (Mul r (Var x))) (let* r := parse_rw_args args in Ok (Mul r (Var x))).
Proof.
  intros X. unfold parse_rw_args, extract_arg. destruct args as [|a [|]]; cbn [map bind]; try apply same_refl.
  pose proof (erase_scalar a) as ES.
  assert (NL : (forall l, erase a <> ELit l) ->
    (match erase a with ELit l => let* n := lit_to_value l in Ok (Scalar n) | e => let* t := parse_scalar_expression e in Ok (into_chromatic Time t) end)
    = let* t := parse_scalar_expression a in Ok (into_chromatic Time t)).
  { intros N. rewrite <- ES. destruct (erase a); try reflexivity. now destruct (N l). }
  assert (L : forall l, erase a = ELit l ->
    same_equation (let* r := let* n := lit_to_value l in Ok (Scalar n) in Ok (Mul r (Var x)))
                  (let* r := let* t := parse_scalar_expression a in Ok (into_chromatic Time t) in Ok (Mul r (Var x)))).
  { intros l H. rewrite (erase_lit _ _ H). cbn. destruct (lit_to_value l) as [n| | |]; cbn; try reflexivity.
    split; intros rho; intros; pv; [reflexivity|]. destruct X as [-> | ->]; rewrite ?H0, ?H1; lia. }
  destruct a.
  4: apply same_refl.
  all: destruct (erase _) eqn:EA;
    first [exact (L _ eq_refl) | rewrite NL by discriminate; apply same_refl | apply same_refl].
Qed.

Lemma erase_call func args tr : parse_call func (map erase args) tr = parse_call func args tr.
Proof.
  unfold parse_call. destruct (function_name func); try reflexivity. cbn [bind].
  replace (parse_ref_time_args (map erase args)) with (parse_ref_time_args args).
  2: { unfold parse_ref_time_args. destruct args as [|x [|y [|]]]; try reflexivity. cbn. now rewrite erase_scalar. }
  replace (parse_proof_size_args (map erase args)) with (parse_proof_size_args args).
  2: { unfold parse_proof_size_args. destruct args as [|x [|y [|]]]; try reflexivity. cbn. now rewrite erase_scalar. }
  replace (parse_parts_args (map erase args)) with (parse_parts_args args).
  2: { unfold parse_parts_args. destruct args as [|x [|y [|]]]; try reflexivity. cbn. now rewrite !erase_scalar. }
  replace (empty_or_trailing (map erase args) tr) with (empty_or_trailing args tr) by (destruct args; reflexivity). reflexivity.
Qed.

Lemma erase_expression e : same_equation (parse_expression (erase e)) (parse_expression e).
Proof.
  induction e as [e IH|e IH|r m args tr IHr IHa|l|p|func args tr IHf IHa|o l r IHl IHr|p fs IH|] using expr_ind'; try apply same_refl.
  - exact IH.
  - exact IH.
  - cbn [erase]. destruct (String.eqb m "into") eqn:M.
    { apply eqb_subst in M. subst m. exact IHr. }
    assert (A : same_equation (match map erase args with [a] => parse_expression a | _ => Err "Expected one argument" end)
                              (match args with [a] => parse_expression a | _ => Err "Expected one argument" end)).
    { destruct args as [|a [|]]; try apply same_refl. inversion IHa; subst. cbn. assumption. }
    destruct (String.eqb m "reads") eqn:M1; [|destruct (String.eqb m "writes") eqn:M2];
      cbn [orb parse_expression]; rewrite ?M, ?M1, ?M2.
    + destruct (validate_db_call r); try apply same_refl. cbn [bind]. apply rw_erase. now left.
    + destruct (validate_db_call r); try apply same_refl. cbn [bind]. apply rw_erase. now right.
    + destruct (String.eqb m "saturating_add"); [now apply same_add|]. destruct (String.eqb m "saturating_mul"); [now apply same_mul|].
      apply same_refl.
  - cbn [erase parse_expression]. rewrite erase_call. apply same_refl.
Qed.

Lemma shape_refl a : same_shape a a.
Proof. destruct a; cbn; auto. Qed.
Lemma shape_add a a' b b' : same_shape a a' -> same_shape b b' ->
  same_shape (let* x := a in let* y := b in Ok (Add x y)) (let* x := a' in let* y := b' in Ok (Add x y)).
Proof. destruct a, a', b, b'; cbn; intros H K; try congruence; try (injection H as ->; congruence). Qed.
Lemma shape_mul a a' b b' : same_shape a a' -> same_shape b b' ->
  same_shape (let* x := a in let* y := b in Ok (Mul x y)) (let* x := a' in let* y := b' in Ok (Mul x y)).
Proof. destruct a, a', b, b'; cbn; intros H K; try congruence; try (injection H as ->; congruence). Qed.
Lemma rw_shape args x :
  same_shape (let* r := parse_rw_args (map erase args) in Ok (Mul r (Var x))) (let* r := parse_rw_args args in Ok (Mul r (Var x))).
Proof.
  unfold parse_rw_args, extract_arg. destruct args as [|a [|]]; cbn [map bind]; try apply shape_refl.
  pose proof (erase_scalar a) as ES.
  assert (NL : (forall l, erase a <> ELit l) ->
    (match erase a with ELit l => let* n := lit_to_value l in Ok (Scalar n) | e => let* t := parse_scalar_expression e in Ok (into_chromatic Time t) end)
    = let* t := parse_scalar_expression a in Ok (into_chromatic Time t)).
  { intros N. rewrite <- ES. destruct (erase a); try reflexivity. now destruct (N l). }
  assert (L : forall l, erase a = ELit l ->
    same_shape (let* r := let* n := lit_to_value l in Ok (Scalar n) in Ok (Mul r (Var x)))
                  (let* r := let* t := parse_scalar_expression a in Ok (into_chromatic Time t) in Ok (Mul r (Var x)))).
  { intros l H. rewrite (erase_lit _ _ H). cbn. destruct (lit_to_value l) as [n| | |]; cbn; reflexivity. }
  destruct a.
  4: apply shape_refl.
  all: destruct (erase _) eqn:EA;
    first [exact (L _ eq_refl) | rewrite NL by discriminate; apply shape_refl | apply shape_refl].
Qed.
Lemma erase_shape e : same_shape (parse_expression (erase e)) (parse_expression e).
Proof.
  induction e as [e IH|e IH|r m args tr IHr IHa|l|p|func args tr IHf IHa|o l r IHl IHr|p fs IH|] using expr_ind'; try apply shape_refl.
  - exact IH.
  - exact IH.
  - cbn [erase]. destruct (String.eqb m "into") eqn:M.
    { apply eqb_subst in M. subst m. exact IHr. }
    assert (A : same_shape (match map erase args with [a] => parse_expression a | _ => Err "Expected one argument" end)
                              (match args with [a] => parse_expression a | _ => Err "Expected one argument" end)).
    { destruct args as [|a [|]]; try apply shape_refl. inversion IHa; subst. cbn. assumption. }
    destruct (String.eqb m "reads") eqn:M1; [|destruct (String.eqb m "writes") eqn:M2];
      cbn [orb parse_expression]; rewrite ?M, ?M1, ?M2.
    + destruct (validate_db_call r); try apply shape_refl. cbn [bind]. apply rw_shape.
    + destruct (validate_db_call r); try apply shape_refl. cbn [bind]. apply rw_shape.
    + destruct (String.eqb m "saturating_add"); [now apply shape_add|]. destruct (String.eqb m "saturating_mul"); [now apply shape_mul|].
      apply shape_refl.
  - cbn [erase parse_expression]. rewrite erase_call. apply shape_refl.
Qed.

(** ** C10: a cast hides a large number of storage accesses *)
Lemma cast_hides n tr tr' db : validate_db_call db = Ok tt -> 1000 < n -> n < u128_bound ->
  (let* t := parse_expression (EMethodCall db "reads" [ELit (LInt n)] tr) in let* s := simplify Time t in sanity_check_term s)
    = Err ("Call has " ++ dec_of_N n ++ " READs") /\
  (let* t := parse_expression (EMethodCall db "reads" [ECast (ELit (LInt n))] tr') in let* s := simplify Time t in sanity_check_term s)
    = Ok tt.
Proof.
  intros V G B. apply N.ltb_lt in B. cbn [parse_expression String.eqb Ascii.eqb Bool.eqb]. rewrite V.
  cbn -[u128_bound]. unfold lit_to_value. cbn -[u128_bound]. rewrite B. cbn -[u128_bound dec_of_N N.ltb N.max].
  split; [|reflexivity]. unfold sanity_check_term. cbn -[u128_bound dec_of_N N.ltb N.max].
  rewrite N.max_0_r. apply N.ltb_lt in G. rewrite G. replace (0 <? n)%N with true by (symmetry; apply N.ltb_lt; apply N.ltb_lt in G; lia). reflexivity.
Qed.

(** ** C37: no panic *)
Lemma returns_bind {A B} (a : outcome A) (f : A -> outcome B) : returns a -> (forall x, a = Ok x -> returns (f x)) -> returns (bind a f).
Proof. destruct a; cbn; auto. Qed.
Lemma in_literals_args x args l : In x args -> In l (literals x) -> In l (flat_map literals args).
Proof. intros. apply in_flat_map. eauto. Qed.

Lemma int_lit l : (exists n, l = LInt n /\ n < u128_bound) -> returns (lit_to_value l).
Proof. intros (n & -> & H). apply N.ltb_lt in H. cbn. rewrite H. exact I. Qed.

Lemma function_name_returns f : returns (function_name f).
Proof. destruct f; exact I. Qed.
Lemma validate_returns e : returns (validate_db_call e).
Proof.
  destruct e; try exact I. cbn. apply returns_bind.
  - destruct e; try exact I. cbn. destruct (_ && _)%bool; exact I.
  - intros _ _. destruct args; exact I.
Qed.

Lemma scalar_returns e : int_literals e -> returns (parse_scalar_expression e).
Proof.
  induction e as [e IH|e IH|r m args tr IHr IHa|l|p|func args tr IHf IHa|o l r IHl IHr|p fs IH|] using expr_ind'; intros G; try exact I.
  - now apply IH.
  - now apply IH.
  - assert (Gr : int_literals r) by (intros l Hl; apply G; cbn; apply in_or_app; now left).
    assert (A : returns (match args with [a] => parse_scalar_expression a | _ => Err "Expected one argument" end)).
    { destruct args as [|a [|]]; try exact I. inversion IHa as [|? ? Ha _]; subst. apply Ha. intros l Hl. apply G. cbn. apply in_or_app. right.
      now rewrite app_nil_r. }
    cbn [parse_scalar_expression].
    repeat match goal with |- context [if ?b then _ else _] => destruct b end; try exact I; try (now apply IHr);
      apply returns_bind; auto using validate_returns; intros; apply returns_bind; auto; intros; exact I.
  - cbn. apply returns_bind; [|intros; exact I]. apply int_lit, G. cbn. auto.
  - cbn [parse_scalar_expression]. apply returns_bind; [apply function_name_returns|]. intros name _.
    destruct (ends_with name "::from_ref_time").
    + destruct args as [|a [|]]; try exact I. inversion IHa as [|? ? Ha _]; subst. apply Ha. intros l Hl. apply G. cbn. apply in_or_app. right.
      now rewrite app_nil_r.
    + repeat match goal with |- context [if ?b then _ else _] => destruct b end; exact I.
Qed.

Lemma call_returns func args tr : Forall int_literals args -> returns (parse_call func args tr).
Proof.
  intros G. unfold parse_call. apply returns_bind; [apply function_name_returns|]. intros name _.
  destruct (ends_with name "::from_ref_time").
  { unfold parse_ref_time_args, extract_arg. destruct args as [|a [|]]; try exact I. inversion G; subst. cbn [bind].
    apply returns_bind; [now apply scalar_returns|]. intros; exact I. }
  destruct (ends_with name "::from_proof_size").
  { unfold parse_proof_size_args, extract_arg. destruct args as [|a [|]]; try exact I. inversion G; subst. cbn [bind].
    apply returns_bind; [now apply scalar_returns|]. intros; exact I. }
  destruct (ends_with name "::from_parts").
  { unfold parse_parts_args. destruct args as [|a [|b [|]]]; try exact I. inversion G as [|? ? ? G']; subst. inversion G'; subst.
    apply returns_bind; [now apply scalar_returns|]. intros. apply returns_bind; [now apply scalar_returns|]. intros; exact I. }
  repeat match goal with |- context [if ?b then _ else _] => destruct b end; exact I.
Qed.

Lemma expression_returns e : int_literals e -> returns (parse_expression e).
Proof.
  induction e as [e IH|e IH|r m args tr IHr IHa|l|p|func args tr IHf IHa|o l r IHl IHr|p fs IH|] using expr_ind'; intros G; try exact I.
  - now apply IH.
  - now apply IH.
  - assert (Gr : int_literals r) by (intros l Hl; apply G; cbn; apply in_or_app; now left).
    assert (Ga : forall a, In a args -> int_literals a).
    { intros a Ha l Hl. apply G. cbn. apply in_or_app. right. eapply in_literals_args; eauto. }
    assert (A : returns (match args with [a] => parse_expression a | _ => Err "Expected one argument" end)).
    { destruct args as [|a [|]]; try exact I. inversion IHa as [|? ? Ha _]; subst. apply Ha, Ga. now left. }
    assert (B : returns (parse_rw_args args)).
    { unfold parse_rw_args, extract_arg. destruct args as [|a [|]]; try exact I. cbn [bind]. specialize (Ga a (or_introl eq_refl)).
      destruct a; try (apply returns_bind; [now apply scalar_returns|]; intros; exact I).
      apply returns_bind; [|intros; exact I]. apply int_lit, Ga. cbn. auto. }
    cbn [parse_expression].
    repeat match goal with |- context [if ?b then _ else _] => destruct b end; try exact I; try (now apply IHr);
      apply returns_bind; auto using validate_returns; intros; apply returns_bind; auto; intros; exact I.
  - cbn [parse_expression]. apply call_returns, Forall_forall. intros a Ha l Hl. apply G. cbn. apply in_or_app. right. eapply in_literals_args; eauto.
Qed.

Lemma attr_returns a : returns (parse_component_attr a).
Proof.
  destruct a; [|exact I]. unfold parse_component_attr. destruct (negb _); [exact I|]. destruct (captures value) as [[[c mi] ma]|]; [|exact I].
  destruct (parse_u32 (strip_us mi)); [|exact I]. destruct (parse_u32 (strip_us ma)); [|exact I]. destruct (_ <? _); exact I.
Qed.
Lemma attrs_returns l : returns (parse_component_attrs l).
Proof.
  unfold parse_component_attrs. apply returns_bind; [|intros; exact I]. generalize (@nil (string * comp_range)).
  induction l as [|a l IH]; intros r; [exact I|]. cbn. apply returns_bind; [apply attr_returns|]. intros [[n rg]|] _; apply IH.
Qed.

Lemma method_returns m : harmless m -> returns (handle_method m).
Proof.
  intros G. unfold handle_method. apply returns_bind.
  { unfold returns_weight. destruct (m_output m) as [|[]]; try exact I. destruct (negb _); exact I. }
  intros _ _. destruct (m_stmts m) as [|s [|]] eqn:E; try exact I. destruct (G _ E) as (e & -> & L). cbn [bind].
  apply returns_bind.
  - pose proof (expression_returns e L) as R. destruct (parse_expression e); try exact R.
    apply returns_bind; [now apply scalar_returns|]. intros; exact I.
  - intros t _. apply returns_bind; [apply attrs_returns|]. intros; exact I.
Qed.
Lemma methods_return pallet items : (forall m, In m (methods items) -> harmless m) -> returns (handle_methods pallet items).
Proof.
  induction items as [|[m|] items IH]; intros G; cbn; [exact I| |].
  - apply returns_bind; [apply method_returns, G; now left|]. intros [[n t] rs] _. apply returns_bind; [|intros; exact I].
    apply IH. intros m' Hm. apply G. now right.
  - apply IH. exact G.
Qed.
Lemma weight_type_returns t : returns (weight_type t).
Proof.
  destruct t as [[|n]|p|]; try exact I. cbn. destruct (leading p); [exact I|]. destruct (negb (Nat.eqb _ _)); [exact I|].
  destruct (rev (segments p)); [exact I|]. destruct (_ && _)%bool; exact I.
Qed.
Lemma item_returns pallet i : harmless_item i -> returns (handle_item pallet i).
Proof.
  intros G. destruct i; try exact I. cbn. apply returns_bind; [apply weight_type_returns|]. intros _ _.
  apply returns_bind; [apply methods_return; intros m Hm; eapply G; eauto|]. intros [|] _; exact I.
Qed.
Lemma content_returns pallet items : Forall harmless_item items -> returns (parse_content pallet (Some items)).
Proof.
  induction 1 as [|i items G _ IH]; [exact I|]. cbn in IH |- *. pose proof (item_returns pallet i G) as R.
  destruct (handle_item pallet i); try exact R. exact IH.
Qed.
