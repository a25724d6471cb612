(** Properties C78-C80: the texts of weight files. *)
From Coq Require Import List String Ascii NArith ZArith Bool Lia Reals Lra Floats.SpecFloat.
From Verif Require Import Base TermM SpecTerm SpecChrom F64 SpecF64 CompareM SpecCompare SpecFmt RowsM SpecRows SynM ParseM SpecAttr SpecParse
  FilesM SpecFiles GitM SpecGit WebM SpecWeb SpecEnd LexM GramM SpecText SpecTmpl TmplX.
From Verif Require GramP2 TmplP3 TmplP5 TmplP6 EndP3 RowsP WebP PropGit PropEnd.
Import ListNotations.
Local Open Scope string_scope.
Local Open Scope R_scope.

(** ** C78: the reader of source texts. *)
(** It accepts exactly the texts of the grammar and returns what they denote. *)
Theorem C78_items : forall s is, read_items s = Some is <-> text_of is s.
Proof. exact GramP2.read_iff. Qed.
Print Assumptions C78_items.
Theorem C78_expr : forall s e, read_expr s = Some e <-> expr_text e s.
Proof. exact GramP2.read_expr_iff. Qed.
Print Assumptions C78_expr.
(** No text has two meanings. *)
Theorem C78_unambiguous : forall s is is', text_of is s -> text_of is' s -> is = is'.
Proof. exact GramP2.text_unique. Qed.
Print Assumptions C78_unambiguous.
(** Layout, comments, and underscores and suffixes of numbers do not matter. *)
Theorem C78_layout : forall ts s s', lexes ts s -> lexes ts s' -> read_items s = read_items s' /\ read_expr s = read_expr s'.
Proof. exact TmplP6.same_tokens. Qed.
Print Assumptions C78_layout.
Definition ex_one : string := "impl X for () { /// Doc" ++ nl ++ "fn f(s: u32) -> Weight { (1_000 as Weight).saturating_add(s * 5u64 + 6) } }".
Definition ex_two : string := "impl X for(){/// Doc" ++ nl ++ "fn f ( s:u32 ) ->Weight{// s" ++ nl ++ "(1000_u128 as Weight) . saturating_add(s*5+0_6)}}// end".
Definition ex_items : list item :=
  [IImpl (TTuple 0) [IFn (mk_method [ANameValue (mk_path false ["doc"]) " Doc"] "f" (RType (TPath (mk_path false ["Weight"])))
    [SExpr (EMethodCall (EParen (ECast (ELit (LInt 1000)))) "saturating_add"
      [EBinary BAdd (EBinary BMul (EPath (mk_path false ["s"])) (ELit (LInt 5))) (ELit (LInt 6))] false)])]].
Example C78_ex : read_items ex_one = Some ex_items /\ read_items ex_two = Some ex_items /\ text_of ex_items ex_one /\ text_of ex_items ex_two /\
  (exists ts, lexes ts ex_one /\ lexes ts ex_two) /\
  read_items "impl X for () { fn f() -> Weight { (1 } }" = None /\
  read_expr "1.2" = None /\ read_expr "1 + 2 * 3 as u64" = Some (EBinary BAdd (ELit (LInt 1)) (EBinary BMul (ELit (LInt 2)) (ECast (ELit (LInt 3))))).
Proof.
  split; [vm_compute; reflexivity|]. split; [vm_compute; reflexivity|]. split; [apply C78_items; vm_compute; reflexivity|].
  split; [apply C78_items; vm_compute; reflexivity|]. split; [|repeat split].
  destruct (lex ex_one) as [ts|] eqn:E; [|vm_compute in E; discriminate E]. exists ts. rewrite <- !LexP.lex_iff. split; [exact E|].
  rewrite <- E. vm_compute. reflexivity.
Qed.

(** ** C79: from the texts of the files of two commits to the rows. *)
(** [syn] is any reader that agrees with the grammar on what it accepts, for instance that of C78. *)
Theorem C79_reader : reads_grammar read_items /\ forall is s, text_of is s -> read_items s <> None.
Proof. exact TmplP6.reader_ok. Qed.
Print Assumptions C79_reader.
Theorem C79_trees : forall syn tglob texts m ords rx repo, reads_grammar syn -> (forall k, is_order (ords k)) ->
  forall meth d ps f pat mx c_old c_new rows k mo mn eo en rho z v w,
  meth = ExactWorst \/ meth = GuessWorst ->
  compare_trees tglob (fun c => disk_of syn (texts c)) m ords rx repo {| p_method := meth; p_unit := d |} ps f pat mx c_old c_new = Ok rows ->
  threshold_mils (f_threshold f) z -> kind_selected f Changed ->
  text_source_of syn (tglob c_old) (texts c_old) repo pat k mo eo -> text_source_of syn (tglob c_new) (texts c_new) repo pat k mn en ->
  passes rx (f_pallet f) (fst k) -> passes rx (f_extrinsic f) (snd k) ->
  tame_source d mo mn eo en -> in_source_box mo mn eo en rho -> weight_at d rho eo v -> weight_at d rho en w ->
  grown (IZR z / 1000) v w ->
  typed_rows rows /\ exists r, In r (filter_changes rows f) /\ row_key r = k /\ shows r (IZR z / 1000) v w.
Proof. exact TmplP5.text_trees. Qed.
Print Assumptions C79_trees.
Theorem C79_web : forall syn tglob texts m ords rx repo, reads_grammar syn -> (forall k, is_order (ords k)) ->
  forall a s sorted old new pat c_old c_new k mo mn eo en rho v w,
  wa_method a = ExactWorst \/ wa_method a = GuessWorst -> (wa_threshold a < 2 ^ 32)%N -> wa_pull a <> Some false ->
  do_compare run_git (fun s => tglob (r_work s)) (fun s => disk_of syn (texts (r_work s))) m ords rx repo a s (Ok sorted) ->
  trimmed (wa_old a) old -> trimmed (wa_new a) new -> trimmed (wa_pattern a) pat ->
  r_remote s old = Some c_old -> r_remote s new = Some c_new -> unambiguous s old -> unambiguous s new ->
  text_source_of syn (tglob c_old) (texts c_old) repo pat k mo eo -> text_source_of syn (tglob c_new) (texts c_new) repo pat k mn en ->
  passes rx (wa_pallet a) (fst k) -> passes rx (wa_extrinsic a) (snd k) ->
  tame_source (wa_unit a) mo mn eo en -> in_source_box mo mn eo en rho -> weight_at (wa_unit a) rho eo v -> weight_at (wa_unit a) rho en w ->
  grown (RN (wa_threshold a)) v w ->
  exists r, In r sorted /\ row_key r = k /\ shows r (RN (wa_threshold a)) v w.
Proof. exact TmplP5.text_web. Qed.
Print Assumptions C79_web.

(** ** C80: from the measurements to the rows. *)
(** The files that the template writes denote one equation per function, with the numbers that were measured. *)
Theorem C80_entries : forall syn u v d pallet, reads_grammar syn -> numerals u -> numerals v -> weights_ok d -> w_benches d <> [] ->
  syn (file_text u v d) <> None ->
  exists es, parse_content pallet (syn (file_text u v d)) = Ok es /\ Forall2 (describes pallet) (w_benches d) es.
Proof. exact TmplP5.file_described. Qed.
Print Assumptions C80_entries.
Theorem C80_grammar : forall u v d, numerals u -> numerals v -> weights_ok d -> exists is, text_of is (file_text u v d).
Proof. exact TmplP6.file_in_grammar. Qed.
Print Assumptions C80_grammar.
Theorem C80_trees : forall syn tglob texts m ords rx repo, reads_grammar syn -> (forall k, is_order (ords k)) ->
  forall meth d ps f pat mx c_old c_new rows k bo bn rho z,
  meth = ExactWorst \/ meth = GuessWorst ->
  compare_trees tglob (fun c => disk_of syn (texts c)) m ords rx repo {| p_method := meth; p_unit := d |} ps f pat mx c_old c_new = Ok rows ->
  threshold_mils (f_threshold f) z -> kind_selected f Changed ->
  data_source_of syn (tglob c_old) (texts c_old) repo pat k bo -> data_source_of syn (tglob c_new) (texts c_new) repo pat k bn ->
  passes rx (f_pallet f) (fst k) -> passes rx (f_extrinsic f) (snd k) ->
  tame_data d bo bn -> in_bench_box bo bn rho -> grown (IZR z / 1000) (bench_weight d rho bo) (bench_weight d rho bn) ->
  typed_rows rows /\
  exists r, In r (filter_changes rows f) /\ row_key r = k /\ shows r (IZR z / 1000) (bench_weight d rho bo) (bench_weight d rho bn).
Proof. exact TmplP5.data_trees. Qed.
Print Assumptions C80_trees.
Theorem C80_web : forall syn tglob texts m ords rx repo, reads_grammar syn -> (forall k, is_order (ords k)) ->
  forall a s sorted old new pat c_old c_new k bo bn rho,
  wa_method a = ExactWorst \/ wa_method a = GuessWorst -> (wa_threshold a < 2 ^ 32)%N -> wa_pull a <> Some false ->
  do_compare run_git (fun s => tglob (r_work s)) (fun s => disk_of syn (texts (r_work s))) m ords rx repo a s (Ok sorted) ->
  trimmed (wa_old a) old -> trimmed (wa_new a) new -> trimmed (wa_pattern a) pat ->
  r_remote s old = Some c_old -> r_remote s new = Some c_new -> unambiguous s old -> unambiguous s new ->
  data_source_of syn (tglob c_old) (texts c_old) repo pat k bo -> data_source_of syn (tglob c_new) (texts c_new) repo pat k bn ->
  passes rx (wa_pallet a) (fst k) -> passes rx (wa_extrinsic a) (snd k) ->
  tame_data (wa_unit a) bo bn -> in_bench_box bo bn rho ->
  grown (RN (wa_threshold a)) (bench_weight (wa_unit a) rho bo) (bench_weight (wa_unit a) rho bn) ->
  exists r, In r sorted /\ row_key r = k /\ shows r (RN (wa_threshold a)) (bench_weight (wa_unit a) rho bo) (bench_weight (wa_unit a) rho bn).
Proof. exact TmplP5.data_web. Qed.
Print Assumptions C80_web.

Lemma ex_source c : (c <= 2 ^ 60)%N ->
  data_source_of read_items (PropGit.ex_tglob c) (ex_texts c) [CCur] "*.rs" ("x.rs", "f") (ex_bench c).
Proof.
  intros C. split.
  - intros p (_ & parts & part & fs & _ & _ & L & I). unfold lists, PropGit.ex_tglob in L. destruct (String.eqb _ _); [|discriminate L].
    injection L as L. destruct fs as [|q [|]]; try discriminate L. injection L as <-. destruct I as [<-|[]].
    exists [CName "x.rs"]. repeat split; try discriminate. constructor; [|constructor]. cbn. repeat split; discriminate.
  - exists [CCur; CName "x.rs"], [CName "x.rs"], grouped, dec_of_N, (ex_data c). split.
    { split; [intros (dir & E); destruct dir as [|x [|y [|]]]; discriminate E|].
      exists ["*.rs"], "*.rs", [[CCur; CName "x.rs"]]. repeat split; try discriminate; try (now left).
      constructor; [|constructor]. cbn. repeat split; discriminate. }
    split; [repeat split; try discriminate; constructor; [|constructor]; cbn; repeat split; discriminate|].
    split; [reflexivity|]. split; [reflexivity|].
    split; [destruct (C80_grammar _ _ _ numerals_grouped numerals_dec (ex_data_ok c C)) as (is & T); now apply (proj2 C79_reader is)|].
    split; [exact numerals_grouped|]. split; [exact numerals_dec|]. split; [now apply ex_data_ok|]. split; [right; now left|reflexivity].
Qed.
Example C80_ex :
  (exists r, do_compare run_git (fun s => PropGit.ex_tglob (r_work s)) (fun s => disk_of read_items (ex_texts (r_work s))) Checked (fun _ l => l)
    RowsP.rx_all [CCur] PropEnd.ex_args PropGit.ex_s (Ok [r]) /\ row_key r = ("x.rs", "f")) /\
  r_remote PropGit.ex_s "master" = Some 5%N /\ r_remote PropGit.ex_s "dev" = Some 6%N /\
  data_source_of read_items (PropGit.ex_tglob 5) (ex_texts 5) [CCur] "*.rs" ("x.rs", "f") (ex_bench 5) /\
  data_source_of read_items (PropGit.ex_tglob 6) (ex_texts 6) [CCur] "*.rs" ("x.rs", "f") (ex_bench 6) /\
  tame_data Time (ex_bench 5) (ex_bench 6) /\ in_bench_box (ex_bench 5) (ex_bench 6) (fun _ => 1%N) /\
  bench_weight Time (fun _ => 1%N) (ex_bench 5) = 334505000%N /\ bench_weight Time (fun _ => 1%N) (ex_bench 6) = 376406000%N /\
  grown (RN 10) 334505000 376406000.
Proof.
  split; [|split; [reflexivity|split; [reflexivity|split; [|split; [|split; [|split; [|split; [|split]]]]]]]].
  - eexists. split; [|shelve]. eapply dc_ok; [vm_compute; reflexivity|]. constructor. vm_compute. reflexivity.
    Unshelve. reflexivity.
  - apply ex_source. lia.
  - apply ex_source. lia.
  - apply ex_tame; lia.
  - apply ex_box. lia.
  - reflexivity.
  - reflexivity.
  - right. split; [reflexivity|]. unfold rel_change_of, slack, RN. rewrite EndP3.pow48. cbn. lra.
Qed.
(** Hypotheses of C79 are met by those of C80. *)
Example C79_ex : exists mo mn eo en,
  text_source_of read_items (PropGit.ex_tglob 5) (ex_texts 5) [CCur] "*.rs" ("x.rs", "f") mo eo /\
  text_source_of read_items (PropGit.ex_tglob 6) (ex_texts 6) [CCur] "*.rs" ("x.rs", "f") mn en /\
  tame_source Time mo mn eo en /\ in_source_box mo mn eo en (fun _ => 1%N) /\
  weight_at Time (fun _ => 1%N) eo 334505000 /\ weight_at Time (fun _ => 1%N) en 376406000.
Proof.
  destruct C80_ex as (_ & _ & _ & S5 & S6 & T & B & W5 & W6 & _).
  destruct (TmplP5.data_source _ _ _ _ _ _ _ S5) as (vo & so & Vo & Bo & Fo & So). destruct (TmplP5.data_source _ _ _ _ _ _ _ S6) as (vn & sn & Vn & Bn & Fn & Sn).
  do 4 eexists. split; [exact So|]. split; [exact Sn|]. split; [now apply TmplP5.data_tame|]. split; [now apply TmplP5.box_iff|].
  rewrite <- W5, <- W6. split; now apply TmplP5.body_weight.
Qed.
(** The function of the first version, as its template writes it; its file is read to the measurements. *)
Example C80_styles_ex : forall st, exists es, parse_content "x.rs" (read_items (file_text grouped dec_of_N (ex_styled st))) = Ok es /\
  Forall2 (describes "x.rs") (w_benches (ex_styled st)) es.
Proof.
  intros st. apply C80_entries; [exact (proj1 C79_reader)|exact numerals_grouped|exact numerals_dec|apply ex_styled_ok|discriminate|].
  destruct (C80_grammar _ _ _ numerals_grouped numerals_dec (ex_styled_ok st)) as (is & T). now apply (proj2 C79_reader is).
Qed.
Example C80_old_ex : fn_text grouped dec_of_N Runtime_old "T::DbWeight" (ex_bench1 5) =
  ("	// Storage: Staking Bonded (r:1 w:1)" ++ nl ++
   "	/// The range of component `s` is `[1, 100]`." ++ nl ++
   "	fn f(s: u32, ) -> Weight {" ++ nl ++
   "		(203_005_000 as Weight)" ++ nl ++
   "			// Standard Error: 1_020" ++ nl ++
   "			.saturating_add((6_500_000 as Weight).saturating_mul(s as Weight))" ++ nl ++
   "			.saturating_add(T::DbWeight::get().reads(4 as Weight))" ++ nl ++
   "			.saturating_add(T::DbWeight::get().reads((1 as Weight).saturating_mul(s as Weight)))" ++ nl ++
   "	}" ++ nl)%string.
Proof. vm_compute. reflexivity. Qed.
