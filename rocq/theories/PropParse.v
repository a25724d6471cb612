(** Properties C20, C33-C38 and C40: from the source of weight functions to equations. *)
From Coq Require Import List String Ascii NArith Bool Lia.
From Verif Require Import Base ScopeM TermM SpecTerm SpecChrom CompareM SpecCompare SynM AttrM ParseM SpecParse SpecAttr.
From Verif Require ParseP ParseP2 ParseP3 AttrP StorageP3.
Import ListNotations.
Local Open Scope string_scope.

(** ** C33: an equation means what the weight function computes. *)
Theorem C33_meaning : forall m name t rs e rho rd wr a b,
  handle_method m = Ok (name, t, rs) -> m_stmts m = [SExpr e] -> literal_args e ->
  val false rho rd wr e = Some (VWeight a b) ->
  poly_val (with_rw rho rd wr) (restrict Time t) = a /\ poly_val (with_rw rho 0 0) (restrict Proof_size t) = b.
Proof. exact ParseP.method_meaning. Qed.
Print Assumptions C33_meaning.

(** The first version of the weights: numbers, without constructors. *)
Theorem C33_meaning_v1 : forall m name t rs e rho rd wr n,
  handle_method m = Ok (name, t, rs) -> m_stmts m = [SExpr e] -> val true rho rd wr e = Some (VNum n) ->
  poly_val (with_rw rho rd wr) (restrict Time t) = n /\
  (has_literal true e -> poly_val (with_rw rho 0 0) (restrict Proof_size t) = 0%N).
Proof. exact ParseP.method_meaning_v1. Qed.
Print Assumptions C33_meaning_v1.

(** Everything that the benchmarking template writes is accepted, and means that. *)
Theorem C33_template : forall m e rs,
  template e -> m_stmts m = [SExpr e] -> declares_weight m -> parse_component_attrs (m_attrs m) = Ok rs ->
  exists t, handle_method m = Ok (m_name m, t, rs) /\ forall rho rd wr, exists a b,
    val false rho rd wr e = Some (VWeight a b) /\
    poly_val (with_rw rho rd wr) (restrict Time t) = a /\ poly_val (with_rw rho 0 0) (restrict Proof_size t) = b.
Proof. exact ParseP3.template_method. Qed.
Print Assumptions C33_template.
(** As does everything that its predecessor for the first version writes. *)
Theorem C33_template_v1 : forall m e rs,
  old_template e -> m_stmts m = [SExpr e] -> declares_weight m -> parse_component_attrs (m_attrs m) = Ok rs ->
  exists t, handle_method m = Ok (m_name m, t, rs) /\ forall rho rd wr, exists n,
    val true rho rd wr e = Some (VNum n) /\
    poly_val (with_rw rho rd wr) (restrict Time t) = n /\ poly_val (with_rw rho 0 0) (restrict Proof_size t) = 0%N.
Proof. exact ParseP3.old_method. Qed.
Print Assumptions C33_template_v1.

Example C33_ex :
  template ex_body /\ literal_args ex_body /\ declares_weight ex_fn /\
  val false (fun _ => 10%N) 25 100 ex_body = Some (VWeight (38000000 + 2000 * 10 + 25 + 20 * 100) (3593 + 2603 * 10)).
Proof.
  assert (T : template ex_body).
  { unfold ex_body, ex_meth, ex_call, ex_db, ex_int, ex_path.
    assert (S : component (EMethodCall (EPath (mk_path false ["s"])) "into" [] false)).
    { constructor. constructor; cbn; discriminate. }
    assert (L : forall n, (n <? u128_bound)%N = true -> numeral (ELit (LInt n))) by (intros; constructor; now apply N.ltb_lt).
    repeat apply tmpl_add; try apply tmpl_one; try (apply sum_mul; [|exact S]);
      try (apply sum_parts; [apply L; vm_compute; reflexivity|apply L; vm_compute; reflexivity|reflexivity]).
    - apply sum_reads; [apply db_get; auto|]. apply count_num, L. vm_compute. reflexivity.
    - apply sum_writes; [apply db_get; auto|]. apply count_mul; [|exact S]. constructor. apply L. vm_compute. reflexivity. }
  split; [exact T|]. split; [exact (proj2 (proj2 (ParseP2.template_accepted (fun _ => 0%N) 0 0 _ T)))|]. split.
  - exists (mk_path false ["Weight"]), [], "". auto.
  - vm_compute. reflexivity.
Qed.
(** [1_000.saturating_add(2_000.saturating_mul(s as Weight)).saturating_add(T::DbWeight::get().reads(3 as Weight))] *)
Example C33_v1_ex :
  let e := ex_meth (ex_meth (EParen (ex_int 1000)) "saturating_add"
      [ex_meth (EParen (ex_int 2000)) "saturating_mul" [ECast (ex_path ["s"])]]) "saturating_add" [ex_meth ex_db "reads" [ECast (ex_int 3)]] in
  let m := mk_method [] "f" (RType (TPath (mk_path false ["Weight"]))) [SExpr e] in
  val true (fun _ => 10%N) 25 100 e = Some (VNum 21075) /\ has_literal true e /\ old_template e /\
  handle_method m = Ok ("f", Add (Add (wt 1000 0) (Mul (wt 2000 0) (Var "s"))) (Mul (wt 3 0) (Var "READ")), None).
Proof.
  intros e m. split; [vm_compute; reflexivity|]. split; [vm_compute; repeat split; auto|]. split; [|vm_compute; reflexivity].
  assert (L : forall n, (n <? u128_bound)%N = true -> numeral (ELit (LInt n))) by (intros; constructor; now apply N.ltb_lt).
  unfold e, ex_meth, ex_int, ex_path, ex_db, ex_call. apply old_add; [apply old_add|].
  - apply old_one, old_count, count_num, num_paren, L. vm_compute. reflexivity.
  - apply old_count, count_mul; [apply num_paren, L; vm_compute; reflexivity|]. apply comp_cast, comp_path; discriminate.
  - apply old_reads; [apply db_get; auto|]. apply count_num, num_cast, L. vm_compute. reflexivity.
Qed.

(** ** C34: without the condition on literals, C33 is false: the Time dimension of
    [Weight::from_parts(5, s)] depends on the proof size [s]. *)
Theorem C34_leak_refuted : exists m t e rho rd wr a b,
  handle_method m = Ok ("f", t, None) /\ m_stmts m = [SExpr e] /\ val false rho rd wr e = Some (VWeight a b) /\
  poly_val (with_rw rho rd wr) (restrict Time t) <> a.
Proof.
  exists (mk_method [] "f" (RType (TPath (mk_path false ["Weight"]))) [SExpr (ex_call ["Weight"; "from_parts"] [ex_int 5; ex_path ["s"]])]),
    (Add (wt 5 0) (Var "s")), (ex_call ["Weight"; "from_parts"] [ex_int 5; ex_path ["s"]]), (fun _ => 7%N), 0%N, 0%N, 5%N, 7%N.
  repeat split; try (vm_compute; reflexivity). vm_compute. discriminate.
Qed.
Print Assumptions C34_leak_refuted.
(** And so is the dimension of proof sizes computed from storage accesses: there
    the tool counts them as nothing. *)
Theorem C34_access_refuted : exists m t e rho rd wr a b,
  handle_method m = Ok ("f", t, None) /\ m_stmts m = [SExpr e] /\ val false rho rd wr e = Some (VWeight a b) /\
  poly_val (with_rw rho 0 0) (restrict Proof_size t) <> b.
Proof.
  set (e := ex_call ["Weight"; "from_proof_size"] [ex_meth (ex_meth ex_db "reads" [ex_int 2]) "ref_time" []]).
  exists (mk_method [] "f" (RType (TPath (mk_path false ["Weight"]))) [SExpr e]),
    (Mul (wt 0 2) (Var "READ")), e, (fun _ => 7%N), 25%N, 100%N, 0%N, 50%N.
  repeat split; try (vm_compute; reflexivity). vm_compute. discriminate.
Qed.
Print Assumptions C34_access_refuted.

(** ** C35: parentheses, casts and conversions do not matter. *)
Theorem C35_scalar : forall e, parse_scalar_expression (erase e) = parse_scalar_expression e.
Proof. exact ParseP2.erase_scalar. Qed.
Print Assumptions C35_scalar.
Theorem C35_weight : forall e, same_equation (parse_expression (erase e)) (parse_expression e).
Proof. exact ParseP2.erase_expression. Qed.
Print Assumptions C35_weight.
(** The equations are even the same trees, up to writing a scalar as a value. *)
Theorem C35_structure : forall e, same_shape (parse_expression (erase e)) (parse_expression e).
Proof. exact ParseP2.erase_shape. Qed.
Print Assumptions C35_structure.

Example C35_ex :
  let s := ex_meth (EParen (ECast (ex_path ["s"]))) "into" [] in
  let e := EParen (ex_meth (ex_meth ex_db "reads" [ECast (EParen (ex_int 3))]) "saturating_mul" [s]) in
  erase e = ex_meth (ex_meth ex_db "reads" [ex_int 3]) "saturating_mul" [ex_path ["s"]] /\
  parse_expression e = Ok (Mul (Mul (wt 3 0) (Var "READ")) (Var "s")) /\
  parse_expression (erase e) = Ok (Mul (Mul (Scalar 3) (Var "READ")) (Var "s")).
Proof. vm_compute. auto. Qed.

(** ** C10, from the source: the only difference that C35 leaves is enough to
    hide any number of storage accesses from the sanity check. *)
Theorem C10_cast_hides : forall n tr tr' db,
  validate_db_call db = Ok tt -> (1000 < n)%N -> (n < u128_bound)%N ->
  (let* t := parse_expression (EMethodCall db "reads" [ELit (LInt n)] tr) in let* s := simplify Time t in sanity_check_term s)
    = Err ("Call has " ++ dec_of_N n ++ " READs") /\
  (let* t := parse_expression (EMethodCall db "reads" [ECast (ELit (LInt n))] tr') in let* s := simplify Time t in sanity_check_term s)
    = Ok tt.
Proof. exact ParseP2.cast_hides. Qed.
Print Assumptions C10_cast_hides.

Example C10_cast_ex :
  validate_db_call ex_db = Ok tt /\
  parse_expression (ex_meth ex_db "reads" [ECast (ex_int 5000)]) = Ok (Mul (wt 5000 0) (Var "READ")).
Proof. vm_compute. auto. Qed.

(** ** C36: range annotations *)
Theorem C36_attribute : forall a,
  (forall c r, parse_component_attr a = Ok (Some (c, r)) <-> declares a c r) /\
  (parse_component_attr a = Ok None <-> silent a) /\
  (is_err (parse_component_attr a) = true <-> malformed a).
Proof. exact AttrP.attr_spec. Qed.
Print Assumptions C36_attribute.

Theorem C36_template : forall pre c mi ma post i j,
  ~ In "`"%char (list_ascii_of_string pre) -> c <> "" -> over word_chars c ->
  over grouped_digits mi -> over grouped_digits ma -> denotes mi i -> denotes ma j ->
  let text := pre ++ "The range of component `" ++ c ++ "` is `[" ++ mi ++ ", " ++ ma ++ "]`" ++ post in
  parse_component_attr (doc text) =
    if (i <=? j)%N then Ok (Some (c, mk_range i j)) else Err "Min value is greater than max value".
Proof. exact AttrP.template_comment. Qed.
Print Assumptions C36_template.

Theorem C36_attributes : forall attrs,
  (forall rs, parse_component_attrs attrs = Ok rs -> forall c r, annotated rs c = [r] <-> last_declared attrs c r) /\
  (is_err (parse_component_attrs attrs) = true <-> exists a, In a attrs /\ malformed a).
Proof. exact (fun attrs => conj (fun rs H c r => AttrP.annotated_spec attrs rs c r H) (AttrP.attrs_err attrs)). Qed.
Print Assumptions C36_attributes.

Example C36_ex : declares (doc "`a` The range of component `c_1` is `[1_0, 2_00_]`. `d` `[1,2]`") "c_1" (mk_range 10 200) /\
  denotes "1_0" 10 /\ over grouped_digits "1_0" /\ over word_chars "c_1" /\ silent (doc "`c` is `[1, x]`") /\
  malformed (doc "`c` is `[2, 1]`") /\ malformed (doc "`c` is `[0, 4294967296]`") /\
  last_declared [doc "`c_1` `[1,2]`"; doc "`c1` `[3,4]`"; doc "x"] "c1" (mk_range 3 4).
Proof.
  split; [apply AttrP.attr_spec; vm_compute; reflexivity|]. split; [vm_compute; auto|].
  split; [intros c H; apply AttrP.class_in; cbn in H; repeat (destruct H as [<-|H]; [reflexivity|]); destruct H|].
  split; [intros c H; apply AttrP.class_in; cbn in H; repeat (destruct H as [<-|H]; [reflexivity|]); destruct H|].
  split; [apply AttrP.attr_spec; vm_compute; reflexivity|]. split; [apply AttrP.attr_spec; vm_compute; reflexivity|].
  split; [apply AttrP.attr_spec; vm_compute; reflexivity|].
  apply (AttrP.annotated_spec _ (Some [("c1", mk_range 3 4)])); vm_compute; reflexivity.
Qed.

(** ** C20: an annotation reaches its component, unless there is an underscore. *)
Theorem C20_reaches : forall st p e m m' rs rs' c r,
  parse_component_attrs m = Ok rs -> parse_component_attrs m' = Ok rs' ->
  last_declared m c r -> (last_declared m' c r \/ forall r', ~ last_declared m' c r') ->
  instance_component c rs rs' st p e = Ok (match which st with MMin => rmin r | MMax => rmax r end) /\
  instance_component c rs' rs st p e = Ok (match which st with MMin => rmin r | MMax => rmax r end).
Proof. exact AttrP.declared_instance. Qed.
Print Assumptions C20_reaches.

Theorem C20_underscore_lost : forall attrs rs c,
  parse_component_attrs attrs = Ok rs -> In "_"%char (list_ascii_of_string c) -> annotated rs c = [].
Proof. exact AttrP.annotated_lost. Qed.
Print Assumptions C20_underscore_lost.

(** The claim for all names is false: the range of [n_1] is not found. *)
Theorem C20_underscore_refuted : exists a rs c r,
  declares a c r /\ parse_component_attrs [a] = Ok rs /\
  is_err (instance_component c rs rs (method_max ExactWorst) "p" "f") = true /\
  instance_component c rs rs (method_max GuessWorst) "p" "f" = Ok 100%N /\ rmax r = 5000%N.
Proof.
  exists (doc "The range of component `n_1` is `[1, 5000]`."), (Some [("n1", mk_range 1 5000)]), "n_1", (mk_range 1 5000).
  split; [apply AttrP.attr_spec; vm_compute; reflexivity|]. vm_compute. auto.
Qed.
Print Assumptions C20_underscore_refuted.

Example C20_ex : last_declared [doc "The range of component `n` is `[1, 5000]`."] "n" (mk_range 1 5000) /\
  forall r, ~ last_declared [] "n" r.
Proof.
  split.
  - apply (AttrP.annotated_spec _ (Some [("n", mk_range 1 5000)])); vm_compute; reflexivity.
  - intros r (pre & a & post & c & E & _). destruct pre; discriminate E.
Qed.

(** ** C37: no panic on integer literals and expressions. *)
Theorem C37_no_panic : forall pallet items, Forall harmless_item items -> returns (parse_content pallet (Some items)).
Proof. exact ParseP2.content_returns. Qed.
Print Assumptions C37_no_panic.

Example C37_ex : Forall harmless_item [IOther; IImpl (TTuple 0) [IFn ex_fn; INotFn]; IImpl TOther []].
Proof.
  repeat constructor; intros t items m [= <- <-]; cbn; try contradiction; try discriminate.
  intros [<-|[]] s [= <-]. exists ex_body. split; [reflexivity|]. intros l H. cbn in H.
  repeat (destruct H as [<-|H]; [eexists; split; [reflexivity|]; apply N.ltb_lt; vm_compute; reflexivity|]). destruct H.
Qed.

(** In general it does panic: on a literal that is not an integer, on one above
    2^128, and on a single [let] statement. *)
Theorem C37_panic_refuted : exists pallet l big,
  let file stmt := Some [IImpl (TTuple 0) [IFn (mk_method [] "f" (RType (TPath (mk_path false ["Weight"]))) [stmt])]] in
  let body l := SExpr (ex_call ["Weight"; "from_ref_time"] [ELit l]) in
  ~ returns (parse_content pallet (file (body l))) /\ ~ returns (parse_content pallet (file (body (LInt big)))) /\
  ~ returns (parse_content pallet (file SOther)).
Proof. exists "p", LOther, (2 ^ 128)%N. vm_compute. tauto. Qed.
Print Assumptions C37_panic_refuted.

(** ** C38: the first usable implementation of a file. *)
Theorem C38_sound : forall pallet f ws,
  parse_content pallet f = Ok ws -> exists items, f = Some items /\ first_usable (ParseP3.entry pallet) items ws.
Proof. exact StorageP3.content_file. Qed.
Print Assumptions C38_sound.
Theorem C38_complete : forall pallet items ws, Forall harmless_item items ->
  first_usable (ParseP3.entry pallet) items ws -> parse_content pallet (Some items) = Ok ws.
Proof. exact ParseP3.first_content. Qed.
Print Assumptions C38_complete.
Theorem C38_fails : forall pallet f, (forall items, f = Some items -> Forall harmless_item items) ->
  (is_err (parse_content pallet f) = true <-> forall items i ws, f = Some items -> In i items -> ~ usable (ParseP3.entry pallet) i ws).
Proof. exact StorageP3.content_file_fails. Qed.
Print Assumptions C38_fails.
Theorem C38_entry : forall m name t rs, handle_method m = Ok (name, t, rs) ->
  name = m_name m /\ declares_weight m /\ exists e, m_stmts m = [SExpr e].
Proof. exact ParseP3.entry_shape. Qed.
Print Assumptions C38_entry.

(** The block for [MyWeights] is not one, that with a function of an unknown form is not usable. *)
Example C38_ex :
  let bad := mk_method [] "g" (RType (TPath (mk_path false ["Weight"]))) [SExpr EOther] in
  let t := Add (Add (Add (Add (wt 38000000 3593) (Mul (wt 2000 0) (Var "s"))) (Mul (Scalar 1) (Var "READ")))
       (Mul (Mul (wt 2 0) (Var "s")) (Var "WRITE"))) (Mul (wt 0 2603) (Var "s")) in
  parse_content "balances" (Some [IOther; IImpl (TPath (mk_path false ["MyWeights"])) [IFn ex_fn];
     IImpl (TPath (mk_path false ["WeightInfo"])) [IFn ex_fn; IFn bad];
     IImpl (TPath (mk_path false ["SubstrateWeight"])) [INotFn; IFn ex_fn]; IImpl (TTuple 0) []])
  = Ok [mk_ext "transfer" "balances" t (Some [("s", mk_range 0 1000)])].
Proof. vm_compute. reflexivity. Qed.

(** ** C40: storage accesses need a database handle. *)
Theorem C40_reads : forall r args tr t, proper_call r ->
  (parse_expression (EMethodCall r "reads" args tr) = Ok t <->
   db_handle r /\ exists ta, parse_rw_args args = Ok ta /\ t = Mul ta (Var "READ")).
Proof. exact ParseP3.reads_spec. Qed.
Print Assumptions C40_reads.
Theorem C40_writes : forall r args tr t, proper_call r ->
  (parse_expression (EMethodCall r "writes" args tr) = Ok t <->
   db_handle r /\ exists ta, parse_rw_args args = Ok ta /\ t = Mul ta (Var "WRITE")).
Proof. exact ParseP3.writes_spec. Qed.
Print Assumptions C40_writes.
Theorem C40_count : forall args ta, parse_rw_args args = Ok ta <->
  exists a, args = [a] /\ ((exists n, a = ELit (LInt n) /\ (n < u128_bound)%N /\ ta = Scalar n) \/
    ((forall l, a <> ELit l) /\ exists s, parse_scalar_expression a = Ok s /\ ta = into_chromatic Time s)).
Proof. exact ParseP3.rw_args_spec. Qed.
Print Assumptions C40_count.
Theorem C40_scalar_reads : forall r args tr t, proper_call r ->
  (parse_scalar_expression (EMethodCall r "reads" args tr) = Ok t <->
   db_handle r /\ exists a ta, args = [a] /\ parse_scalar_expression a = Ok ta /\ t = Mul ta (Var "READ")).
Proof. exact ParseP3.scalar_reads_spec. Qed.
Print Assumptions C40_scalar_reads.
Theorem C40_scalar_writes : forall r args tr t, proper_call r ->
  (parse_scalar_expression (EMethodCall r "writes" args tr) = Ok t <->
   db_handle r /\ exists a ta, args = [a] /\ parse_scalar_expression a = Ok ta /\ t = Mul ta (Var "WRITE")).
Proof. exact ParseP3.scalar_writes_spec. Qed.
Print Assumptions C40_scalar_writes.

Example C40_ex :
  proper_call ex_db /\ db_handle ex_db /\
  db_handle (ex_call ["crate"; "MyRocksDbWeight"; "get"] []) /\ ~ db_handle (ex_call ["U"; "DbWeight"; "get"] []) /\
  ~ db_handle (ex_call ["T"; "DbWeight"; "get"] [ex_int 1]) /\
  parse_expression (ex_meth ex_db "reads" [ex_int 7]) = Ok (Mul (Scalar 7) (Var "READ")).
Proof.
  split; [intros p args tr [= <- <- <-]; repeat constructor; discriminate|].
  split; [exists (mk_path false ["T"; "DbWeight"; "get"]), false; split; [reflexivity|now left]|].
  split. { exists (mk_path false ["crate"; "MyRocksDbWeight"; "get"]), false. split; [reflexivity|]. right. exists ["crate"], "My". now left. }
  split; [|split; [intros (p & tr & H & _); discriminate H|vm_compute; reflexivity]].
  intros H. apply ParseP3.db_handle_spec in H; [vm_compute in H; discriminate H|].
  intros p args tr [= <- <- <-]. repeat constructor; discriminate.
Qed.
