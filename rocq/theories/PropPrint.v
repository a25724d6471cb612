(** Property C83: what the command line says about the measurements. *)
From Coq Require Import List String Ascii Arith NArith ZArith Bool Reals Lra Lia.
From Verif Require Import Base ScopeM TermM F64 SpecF64 CompareM SpecCompare RowsM SpecRows FmtM SpecFmt SynM ParseM SpecParse SpecAttr StorageM FilesM SpecFiles GitM SpecGit
  CliM SpecCli SpecEnd GramM SpecText SpecTmpl TmplX SpecShow SpecPrint.
From Verif Require EndP3 RowsP CliP PropGit PropCli PropIso PropText PropShow PrintP.
Import ListNotations.
Local Open Scope string_scope.
Local Open Scope R_scope.

(** ** C83: the table tells all and only the changes that were measured. *)
(** [compare files] has printed [out] and was successful. Then [out] is a table, and
    - if a weight has grown by the threshold anywhere in the ranges of the components, then the table has a red record for it,
    - if a weight is lower by the threshold everywhere in the ranges, then the table has a green record for it,
    - every record shows two weights that were measured, and their change.
    The measurements are those that the benchmarking template has written into the files; of files with the same name the first one counts. *)
Theorem C83_files : forall dbg rxr render syn m ords rx texts meth d ps f z verbose fp old new out,
  reads_grammar syn -> (forall k, is_order (ords k)) -> meth = ExactWorst \/ meth = GuessWorst -> threshold_mils (f_threshold f) z -> printable fp ->
  cli_compare_files dbg rxr render (disk_of syn texts) m ords rx {| p_method := meth; p_unit := d |} ps f verbose fp old new (out, Ok tt) ->
  exists table, prints_all rxr render fp verbose (file_source_of syn texts old) (file_source_of syn texts new) rx meth d f (IZR z / 1000) table out.
Proof. exact PrintP.files_printed. Qed.
Print Assumptions C83_files.
(** [compare commits] does the same with the files in two commits: those that the versions stand for, after a fetch if one is asked for. *)
Theorem C83_commits : forall dbg rxr render syn m ords rx tglob texts repo meth d ps f z verbose fp old new pat mx s c_old c_new out,
  reads_grammar syn -> (forall k, is_order (ords k)) -> meth = ExactWorst \/ meth = GuessWorst -> threshold_mils (f_threshold f) z -> printable fp ->
  stand_for s ps old new c_old c_new ->
  cli_compare_commits dbg rxr render run_git (fun s => tglob (r_work s)) (fun s => disk_of syn (texts (r_work s))) m ords rx {| p_method := meth; p_unit := d |} ps f verbose fp
    old new repo pat mx s (out, Ok tt) ->
  exists table, prints_all rxr render fp verbose (data_source_of syn (tglob c_old) (texts c_old) repo pat) (data_source_of syn (tglob c_new) (texts c_new) repo pat)
    rx meth d f (IZR z / 1000) table out.
Proof. exact PrintP.commits_printed. Qed.
Print Assumptions C83_commits.
(** [compare files] compares the entries of the old files with those of the new files. Files that cannot be read are left out if errors are
    ignored; otherwise nothing is printed, and the command fails. *)
Theorem C83_entries : forall dbg rxr render m ords rx disk params ps f verbose fp old new out res,
  (forall olds news, entries_of (parse_file disk) (g_ignore_errors ps) old olds -> entries_of (parse_file disk) (g_ignore_errors ps) new news ->
    (cli_compare_files dbg rxr render disk m ords rx params ps f verbose fp old new (out, res) <->
     show dbg rxr render (compare_files m ords rx olds news params f) f verbose fp (p_unit params) (out, res))) /\
  ((forall l, ~ entries_of (parse_file disk) (g_ignore_errors ps) old l) \/ (forall l, ~ entries_of (parse_file disk) (g_ignore_errors ps) new l) ->
    cli_compare_files dbg rxr render disk m ords rx params ps f verbose fp old new (out, res) -> out = [] /\ is_ok res = false).
Proof. exact PrintP.files_entries. Qed.
Print Assumptions C83_entries.

Definition ex_f : fparams := {| f_threshold := f64_of_N 10; f_change := None; f_extrinsic := None; f_pallet := None |}.
(** The files in the directory "old" are those of the commit 5, the others are those of the commit 8. *)
Definition ex_dirs (p : fpath) : string + string := match p with [CName "old"; _] => inr (ex_text 5) | _ => inr (ex_text 8) end.
Definition ex_old : list fpath := [[CName "old"; CName "x.rs"]].
Definition ex_new : list fpath := [[CName "new"; CName "x.rs"]].
Definition ex_ps : gparams := {| g_ignore_errors := false; g_pull := true; g_force := false; g_offline := false |}.
Lemma ex_reads c : (c <= 2 ^ 60)%N -> read_items (file_text grouped dec_of_N (ex_data c)) <> None.
Proof. intros C. destruct (PropText.C80_grammar _ _ _ numerals_grouped numerals_dec (ex_data_ok c C)) as (is & T). now apply (proj2 PropText.C79_reader is). Qed.
Lemma ex_file (dir : string) c : (c <= 2 ^ 60)%N -> ex_dirs [CName dir; CName "x.rs"] = inr (ex_text c) ->
  file_source_of read_items ex_dirs [[CName dir; CName "x.rs"]] ("x.rs", "f") (ex_bench c).
Proof.
  intros C T. exists [CName dir; CName "x.rs"], grouped, dec_of_N, (ex_data c). split.
  { exists [], []. split; [reflexivity|]. split; [exists [CName dir]; reflexivity|intros ? []]. }
  split; [exact T|]. split; [now apply ex_reads|]. split; [exact numerals_grouped|]. split; [exact numerals_dec|].
  split; [now apply ex_data_ok|]. split; [right; now left|reflexivity].
Qed.
Lemma ex_show dbg rxr render diff f verbose fp d r :
  match diff with Ok rows => print_changes dbg rxr render (rev (sort_changes_insert (filter_changes rows f))) verbose fp d = r | _ => False end ->
  show dbg rxr render diff f verbose fp d r.
Proof. destruct diff as [rows| | |]; try contradiction. intros <-. eapply show_rows; [reflexivity|apply RowsP.sort_insert_lemma]. Qed.
Definition ex_table (old new change : string) : list string :=
  ["File,Extrinsic,Old,New,Change Percent" ++ String newline ("x.rs,f," ++ old ++ "," ++ new ++ "," ++ change ++ String newline "")].
Example C83_ex :
  cli_compare_files PropCli.ex_dbg PropCli.ex_rxr PropCli.ex_render (disk_of read_items ex_dirs) Checked (fun _ l => l) RowsP.rx_all
    {| p_method := ExactWorst; p_unit := Time |} ex_ps ex_f false (PropCli.ex_fp CSV false None) ex_old ex_new (ex_table "334.50us" "460.21us" "+37.58", Ok tt) /\
  reads_grammar read_items /\ threshold_mils (f_threshold ex_f) 10000 /\ printable (PropCli.ex_fp CSV false None) /\
  file_source_of read_items ex_dirs ex_old ("x.rs", "f") (ex_bench 5) /\ file_source_of read_items ex_dirs ex_new ("x.rs", "f") (ex_bench 8) /\
  tame_data Time (ex_bench 5) (ex_bench 8) /\ in_bench_box (ex_bench 5) (ex_bench 8) (fun _ => 1%N) /\
  grown (IZR 10000 / 1000) (bench_weight Time (fun _ => 1%N) (ex_bench 5)) (bench_weight Time (fun _ => 1%N) (ex_bench 8)).
Proof.
  split; [|split; [|split; [|split; [|split; [|split; [|split; [|split]]]]]]].
  - apply ex_show. vm_compute. reflexivity.
  - apply PropText.C79_reader.
  - change 10000%Z with (1000 * Z.of_N 10)%Z. now apply EndP3.int_threshold.
  - right. right. split; reflexivity.
  - now apply ex_file.
  - now apply ex_file.
  - now apply ex_tame.
  - now apply ex_box.
  - right. split; [reflexivity|]. unfold rel_change_of, slack, RN. rewrite EndP3.pow48. cbn. lra.
Qed.
(** The tag v1 stands for the commit 1, and dev stands for the commit 6 after the fetch. *)
Example C83_ex_commits :
  cli_compare_commits PropCli.ex_dbg PropCli.ex_rxr PropCli.ex_render run_git (fun s => PropIso.ex_xglob) (fun s => disk_of read_items (ex_texts (r_work s))) Checked (fun _ l => l)
    RowsP.rx_all {| p_method := ExactWorst; p_unit := Time |} ex_ps ex_f false (PropCli.ex_fp CSV false None) "v1" "dev" [CName "repos"; CName "x"] "*.rs" 100 PropGit.ex_s
    (ex_table "166.90us" "376.41us" "+125.53", Ok tt) /\
  stand_for PropGit.ex_s ex_ps "v1" "dev" 1 6 /\
  data_source_of read_items PropIso.ex_xglob (ex_texts 1) [CName "repos"; CName "x"] "*.rs" ("x.rs", "f") (ex_bench 1) /\
  data_source_of read_items PropIso.ex_xglob (ex_texts 6) [CName "repos"; CName "x"] "*.rs" ("x.rs", "f") (ex_bench 6).
Proof.
  split; [|split; [|split]].
  - apply ex_show. vm_compute. reflexivity.
  - destruct PropGit.C47_ex_pull as (Fo & Fn & N & So & Sn & _). split; [intros _; split; [exact Fo|split; [exact Fn|exact N]]|]. split; [exact So|exact Sn].
  - now apply PropShow.ex_source.
  - now apply PropShow.ex_source.
Qed.
(** The second file cannot be read. If errors are ignored, then the entries are those of the first one. *)
Example C83_ex_entries : exists disk l, entries_of (parse_file disk) true (app ex_old ex_new) l /\ l <> [] /\ forall l, ~ entries_of (parse_file disk) false (app ex_old ex_new) l.
Proof.
  set (disk := fun p => match p with [CName "old"; _] => disk_of read_items ex_dirs p | _ => inl "not found" end).
  exists disk. assert (H : match try_parse_files disk (app ex_old ex_new) with Ok l => l <> [] | _ => False end) by (vm_compute; discriminate).
  destruct (try_parse_files disk (app ex_old ex_new)) as [l| | |] eqn:E; try contradiction. exists l. split; [|split].
  - now apply (PrintP.reads_lemma _ true).
  - exact H.
  - intros l' E'. apply (PrintP.reads_lemma _ false) in E'. vm_compute in E'. discriminate E'.
Qed.
