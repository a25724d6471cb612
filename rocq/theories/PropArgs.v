(** Property C86: the arguments of the command line. *)
From Coq Require Import List String Ascii Arith NArith ZArith Bool Permutation Reals.
From Coq Require SpecFloat.
From Verif Require Import Base ScopeM TermM F64 SpecF64 CompareM SpecCompare RowsM SpecRows FmtM SpecFmt SynM ParseM SpecParse SpecAttr StorageM FilesM SpecFiles GitM SpecGit
  CliM SpecCli SpecEnd GramM SpecText SpecTmpl TmplX SpecShow SpecPrint ArgsM SpecArgs.
From Verif Require EndP3 RowsP PropCli PropPrint PropText ArgsP6 ArgsP7.
Import ListNotations.
Local Open Scope string_scope.

(** ** C86: the program does what the arguments say. *)
(** A line is accepted as a compare command if and only if it is a sequence of parts that says everything that is needed, and nothing twice;
    and then the command has the settings that the parts say, and the defaults for the others. *)
Theorem C86_arguments : forall parse_f64 argv c, parse_f64 "5" = Some (f64_of_N 5) -> compares c ->
  (cli_args parse_f64 argv = Parsed c <-> means parse_f64 argv c).
Proof. exact (fun parse_f64 argv c F => ArgsP6.args_lemma parse_f64 F argv c). Qed.
Print Assumptions C86_arguments.
(** The order of the parts does not matter, except among the commits and among the uses of an option that takes many values. *)
Theorem C86_order : forall parse_f64 k args args' ss ss' c, parse_f64 "5" = Some (f64_of_N 5) ->
  line parse_f64 k false args ss -> line parse_f64 k false args' ss' -> Permutation ss ss' -> same_lists ss ss' ->
  cli_args parse_f64 ("compare" :: kind_word k :: args) = Parsed c -> cli_args parse_f64 ("compare" :: kind_word k :: args') = Parsed c.
Proof. exact ArgsP7.order_lemma. Qed.
Print Assumptions C86_order.
(** From the arguments to the output: the table tells what was measured, for the method, the unit, the threshold and the filters that the arguments say. *)
Theorem C86_files : forall parse_f64 to_path dbg rxr render W git glob syn (texts : fpath -> string + string) m ords rx mx (w : W) argv c old new z out,
  parse_f64 "5" = Some (f64_of_N 5) -> means parse_f64 argv (Compare_files c old new) ->
  reads_grammar syn -> (forall k, is_order (ords k)) -> p_method (ca_params c) = ExactWorst \/ p_method (ca_params c) = GuessWorst ->
  threshold_mils (f_threshold (ca_filter c)) z -> printable (ca_format c) ->
  cli_main parse_f64 to_path dbg rxr render git glob (fun _ => disk_of syn texts) m ords rx mx argv w (out, Ok tt) ->
  exists table, prints_all rxr render (ca_format c) (ca_verbose c) (file_source_of syn texts (map to_path old)) (file_source_of syn texts (map to_path new)) rx
    (p_method (ca_params c)) (p_unit (ca_params c)) (ca_filter c) (IZR z / 1000) table out.
Proof. exact ArgsP7.main_files. Qed.
Print Assumptions C86_files.
Theorem C86_commits : forall parse_f64 to_path dbg rxr render syn m ords rx tglob texts mx s argv c old new repo pat z c_old c_new out,
  parse_f64 "5" = Some (f64_of_N 5) -> means parse_f64 argv (Compare_commits c old new repo pat) ->
  reads_grammar syn -> (forall k, is_order (ords k)) -> p_method (ca_params c) = ExactWorst \/ p_method (ca_params c) = GuessWorst ->
  threshold_mils (f_threshold (ca_filter c)) z -> printable (ca_format c) -> stand_for s (ca_git c) old new c_old c_new ->
  cli_main parse_f64 to_path dbg rxr render run_git (fun s => tglob (r_work s)) (fun s => disk_of syn (texts (r_work s))) m ords rx mx argv s (out, Ok tt) ->
  exists table, prints_all rxr render (ca_format c) (ca_verbose c) (data_source_of syn (tglob c_old) (texts c_old) (to_path repo) pat) (data_source_of syn (tglob c_new) (texts c_new) (to_path repo) pat) rx
    (p_method (ca_params c)) (p_unit (ca_params c)) (ca_filter c) (IZR z / 1000) table out.
Proof. exact ArgsP7.main_commits. Qed.
Print Assumptions C86_commits.
(** The name "weight" for the unit, kept for compatibility, is known to [FromStr], and to the web (C71); the command line refuses it. *)
Theorem C86_weight_refuted : exists before after, dimension_of_str "time" = dimension_of_str "weight" /\
  (forall parse_f64, cli_args parse_f64 (before ++ "weight" :: after) = Usage) /\
  (forall parse_f64, parse_f64 "5" = Some (f64_of_N 5) -> exists c, cli_args parse_f64 (before ++ "time" :: after) = Parsed c).
Proof.
  exists ["compare"; "files"; "--method"; "base"; "--unit"], ["--old"; "a"; "--new"; "b"]. split; [reflexivity|]. split; [reflexivity|].
  intros f F. eexists. cbn. unfold leaf_args. cbn. unfold command_of, compare_args_of. cbn. rewrite F. reflexivity.
Qed.
Print Assumptions C86_weight_refuted.
(** The parts cannot be in any order: commits after [--change] are taken for changes. *)
Theorem C86_change_refuted : exists options commits,
  (forall parse_f64, cli_args parse_f64 ("compare" :: "commits" :: options ++ commits) = Usage) /\
  (forall parse_f64, parse_f64 "5" = Some (f64_of_N 5) -> exists c, cli_args parse_f64 ("compare" :: "commits" :: commits ++ options) = Parsed c).
Proof.
  exists ["--method"; "base"; "--path-pattern"; "*.rs"; "--change"; "added"], ["v1"; "v2"]. split; [reflexivity|].
  intros f F. eexists. cbn. unfold leaf_args. cbn. unfold command_of, compare_args_of. cbn. rewrite F. reflexivity.
Qed.
Print Assumptions C86_change_refuted.

Definition ex_f64 (s : string) : option f64 :=
  if String.eqb s "5" then Some (f64_of_N 5) else if String.eqb s "10" then Some (f64_of_N 10) else if String.eqb s "-5" then Some (SpecFloat.SFopp (f64_of_N 5)) else None.
Definition ex_settings (meth : CompareM.method) (ig : bool) (ft : f64) (ch : option (list rel_change)) (v : bool) : compare_args :=
  {| ca_params := {| p_method := meth; p_unit := Time |}; ca_git := {| g_ignore_errors := ig; g_pull := false; g_force := false; g_offline := false |};
     ca_filter := {| f_threshold := ft; f_change := ch; f_extrinsic := None; f_pallet := None |};
     ca_format := {| fp_format := Human; fp_print_terms := false; fp_no_color := false; fp_strip := None |}; ca_verbose := v |}.
(** The commands of the documentation, README.md:86 and 126. *)
Example C86_ex :
  means ex_f64 ["compare"; "files"; "--old"; "kusama/a.rs"; "kusama/b.rs"; "--new"; "polkadot/a.rs"; "--method"; "asymptotic"; "--ignore-errors"; "--change"; "changed"; "unchanged";
                "--unit"; "time"; "--threshold"; "10"]
    (Compare_files (ex_settings Asymptotic true (f64_of_N 10) (Some [Changed; Unchanged]) false) ["kusama/a.rs"; "kusama/b.rs"] ["polkadot/a.rs"]) /\
  means ex_f64 ["--verbose"; "compare"; "commits"; "HEAD"; "HEAD~100"; "--threshold"; "10"; "--method"; "asymptotic"; "--path-pattern"; "a,b"]
    (Compare_commits (ex_settings Asymptotic false (f64_of_N 10) None true) "HEAD" "HEAD~100" "." "a,b") /\
  means ex_f64 ["compare"; "commits"; "-mBASE"; "--path-pattern=*.rs"; "--change=Added"; "v1"; "--threshold=-5"; "--change"; "--"]
    (Compare_commits (ex_settings Base false (SpecFloat.SFopp (f64_of_N 5)) (Some [Added]) false) "v1" "master" "." "*.rs") /\
  (forall c, ~ means ex_f64 ["compare"; "commits"; "-mBASE"; "--path-pattern=*.rs"; "v1"; "--threshold"; "-5"] c) /\
  (forall c, ~ means ex_f64 ["compare"; "files"; "--method"; "base"; "--method"; "base"; "--old"; "--new"] c).
Proof.
  split; [|split; [|split; [|split]]]; try (apply C86_arguments; [reflexivity|exact I|vm_compute; reflexivity]).
  - intros c H. assert (K : compares c) by (destruct c; [exact I|exact I|destruct H as (? & ? & [] & ? & ? & _ & _ & [])]). apply C86_arguments in H; [|reflexivity|exact K]. vm_compute in H. discriminate H.
  - intros c H. assert (K : compares c) by (destruct c; [exact I|exact I|destruct H as (? & ? & [] & ? & ? & _ & _ & [])]). apply C86_arguments in H; [|reflexivity|exact K]. vm_compute in H. discriminate H.
Qed.
(** The command of [C83_ex], as it is written; and another order of its parts. *)
Definition ex_argv : list string := ["compare"; "files"; "--threshold"; "10"; "--old"; "old/x.rs"; "--new"; "new/x.rs"; "--format"; "csv"; "-m"; "exact-worst"; "--no-color"].
Definition ex_path (s : string) : fpath := if String.eqb s "old/x.rs" then [CName "old"; CName "x.rs"] else [CName "new"; CName "x.rs"].
Definition ex_compare : compare_args :=
  {| ca_params := {| p_method := ExactWorst; p_unit := Time |}; ca_git := {| g_ignore_errors := false; g_pull := false; g_force := false; g_offline := false |};
     ca_filter := {| f_threshold := f64_of_N 10; f_change := None; f_extrinsic := None; f_pallet := None |};
     ca_format := {| fp_format := CSV; fp_print_terms := false; fp_no_color := true; fp_strip := None |}; ca_verbose := false |}.
Example C86_ex_files :
  means ex_f64 ex_argv (Compare_files ex_compare ["old/x.rs"] ["new/x.rs"]) /\
  cli_main ex_f64 ex_path PropCli.ex_dbg PropCli.ex_rxr PropCli.ex_render run_git (fun _ _ => None) (fun _ => disk_of read_items PropPrint.ex_dirs) Checked (fun _ l => l) RowsP.rx_all 0 ex_argv
    PropGit.ex_s (PropPrint.ex_table "334.50us" "460.21us" "+37.58", Ok tt) /\
  reads_grammar read_items /\ threshold_mils (f_threshold (ca_filter ex_compare)) 10000 /\ printable (ca_format ex_compare).
Proof.
  split; [apply C86_arguments; [reflexivity|exact I|vm_compute; reflexivity]|]. split; [|split; [|split]].
  - apply PropPrint.ex_show. vm_compute. reflexivity.
  - apply PropText.C79_reader.
  - change 10000%Z with (1000 * Z.of_N 10)%Z. now apply EndP3.int_threshold.
  - right. right. split; reflexivity.
Qed.
Example C86_ex_order : exists args args' ss ss' c, args <> args' /\
  line ex_f64 Commits false args ss /\ line ex_f64 Commits false args' ss' /\ Permutation ss ss' /\ same_lists ss ss' /\
  cli_args ex_f64 ("compare" :: "commits" :: args) = Parsed c.
Proof.
  exists ["v1"; "--method"; "base"; "v2"; "--path-pattern"; "*.rs"], ["--path-pattern"; "*.rs"; "v1"; "v2"; "--method"; "base"],
    [SCommit "v1"; SMethod Base; SCommit "v2"; SPattern "*.rs"], [SPattern "*.rs"; SCommit "v1"; SCommit "v2"; SMethod Base].
  assert (U : forall c s, c <> "-"%char -> ~ dashed (String c s)) by (intros c s N (c' & s' & E); injection E as -> _; now elim N).
  assert (Me : closed_part ex_f64 Commits ["--method"; "base"] (SMethod Base)).
  { apply (cp_method _ _ "base"); [left; apply lv_next, U; discriminate|]. repeat apply spells_same. constructor. }
  assert (Pa : closed_part ex_f64 Commits ["--path-pattern"; "*.rs"] (SPattern "*.rs")) by (apply cp_pattern; [reflexivity|apply lv_next, U; discriminate]).
  eexists. split; [discriminate|]. split; [|split; [|split; [|split]]].
  - apply line_commit; [reflexivity|apply U; discriminate|]. apply (line_closed _ _ _ _ _ ["v2"; "--path-pattern"; "*.rs"] _ Me).
    apply line_commit; [reflexivity|apply U; discriminate|]. apply (line_closed _ _ _ _ _ [] _ Pa). constructor.
  - apply (line_closed _ _ _ _ _ ["v1"; "v2"; "--method"; "base"] _ Pa). apply line_commit; [reflexivity|apply U; discriminate|].
    apply line_commit; [reflexivity|apply U; discriminate|]. apply (line_closed _ _ _ _ _ [] _ Me). constructor.
  - apply (Permutation_trans (l' := [SCommit "v1"; SCommit "v2"; SMethod Base; SPattern "*.rs"])); [apply perm_skip, perm_swap|].
    apply Permutation_sym. apply (Permutation_cons_append [SCommit "v1"; SCommit "v2"; SMethod Base]).
  - repeat split.
  - reflexivity.
Qed.
