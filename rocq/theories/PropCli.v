(** Properties of the command line (C32, C53 on the console, C58, C59). *)
From Coq Require Import List String Ascii Arith NArith ZArith Bool Permutation Sorted Reals Floats.SpecFloat.
From Verif Require Import Base ScopeM TermM F64 SpecF64 CompareM SpecCompare RowsM SpecRows FmtM SynM ParseM StorageM FilesM SpecFiles GitM CliM SpecCli.
From Verif Require CliP PropRows PropFiles.
Import ListNotations.
Local Open Scope string_scope.

(** ** C32: failures first, then the worst offender. *)
Theorem C32_table : forall dbg rxr render diff filt verbose fp dim out res md rows,
  is_double (f_threshold filt) -> typed_rows rows -> diff = Ok rows ->
  (fp_format fp = Human /\ md = false \/ fp_format fp = Markdown /\ md = true) ->
  show dbg rxr render diff filt verbose fp dim (out, res) ->
  exists kept shown, selects (relevant filt) rows kept /\ Permutation kept shown /\ StronglySorted worst_first shown /\
    (kept = [] -> out = app (no_changes verbose) [""] /\ res = Ok tt) /\
    (kept <> [] ->
      (exists cells, Forall2 (cells_of dbg rxr fp dim) shown cells /\ out = [render md (titles (fp_print_terms fp)) cells] /\ res = Ok tt) \/
      ((forall cells, ~ Forall2 (cells_of dbg rxr fp dim) shown cells) /\ out = [] /\ exists w, res = Panic w)).
Proof. exact CliP.show_human. Qed.
Print Assumptions C32_table.
(** In a table of this order the first row that is no failure is one of the worst. *)
Theorem C32_first : forall l r c, StronglySorted worst_first l ->
  (exists pre post, l = app pre (r :: post) /\ forall x, In x pre -> is_failed x) -> reports r c ->
  forall r' c', In r' l -> reports r' c' -> ~ rank_lt c c'.
Proof. exact CliP.first_worst. Qed.
Print Assumptions C32_first.
(** The percentages of both commands are doubles. *)
Theorem C32_files : forall disk m ords rx params ps filt old new rows, (forall k, is_order (ords k)) ->
  (let* olds := if g_ignore_errors ps then try_parse_files disk old else parse_files disk old in
   let* news := if g_ignore_errors ps then try_parse_files disk new else parse_files disk new in
   compare_files m ords rx olds news params filt) = Ok rows -> typed_rows rows.
Proof. exact CliP.files_typed. Qed.
Print Assumptions C32_files.
Theorem C32_commits : forall W git glob disk m ords rx repo old new cps ps filt pat mx (w : W) rows, (forall k, is_order (ords k)) ->
  fst (fst (compare_commits git glob disk m ords rx repo old new cps ps filt pat mx w)) = Ok rows -> typed_rows rows.
Proof. exact @CliP.commits_typed. Qed.
Print Assumptions C32_commits.
(** A failed comparison prints nothing, and its error is the result. *)
Theorem C32_failed : forall dbg rxr render diff filt verbose fp dim out res, is_ok diff = false ->
  show dbg rxr render diff filt verbose fp dim (out, res) ->
  out = [] /\ match diff with Ok _ => False | Err e => res = Err e | Panic w => res = Panic w | Diverge => res = Diverge end.
Proof. exact CliP.show_failed. Qed.
Print Assumptions C32_failed.
(** Two of the formats that are offered never print anything. *)
Theorem C32_unsupported : forall dbg rxr render diff filt verbose fp dim out res, (fp_format fp = JSON \/ fp_format fp = BriefHuman) ->
  show dbg rxr render diff filt verbose fp dim (out, res) -> out = [] /\ is_ok res = false.
Proof. exact CliP.show_unsupported. Qed.
Print Assumptions C32_unsupported.
Theorem C32_exists : forall dbg rxr render diff filt verbose fp dim, exists r, show dbg rxr render diff filt verbose fp dim r.
Proof. exact CliP.show_exists. Qed.
Print Assumptions C32_exists.

Definition ex_dbg (s : sscope) : string := "{a,b}".
Definition ex_rxr (re : string) : option (string -> option string) := if String.eqb re "[" then None else Some (fun s => Some s).
Definition ex_render (md : bool) (h : list string) (cells : list (list string)) : string :=
  String.concat "|" (map (fun l => nth 1 l "") cells).
Definition ex_fp (f : out_format) (terms : bool) (strip : option string) : format_params :=
  {| fp_format := f; fp_print_terms := terms; fp_no_color := true; fp_strip := strip |}.
Definition ex_term_row (name : string) (o n : N) : row :=
  {| row_name := name; row_file := "p.rs"; row_diff := DChanged
    {| tc_old := Some (Scalar o); tc_old_v := Some o; tc_new := Some (Add (Scalar n) (Var "READ")); tc_new_v := Some n; tc_scope := [];
       tc_percent := percent o n; tc_change := if (o =? n)%N then Unchanged else Changed; tc_method := Base |} |}.
Example C32_ex :
  print_changes ex_dbg ex_rxr ex_render (rev (sort_changes_insert (filter_changes PropRows.ex_table (PropRows.ex_f (f64_of_N 5))))) false
    (ex_fp Human false None) Time = (["x|y|d|a"], Ok tt) /\
  print_changes ex_dbg ex_rxr ex_render PropRows.ex_table false (ex_fp Human false (Some "[")) Time = ([], Panic "Invalid regex") /\
  print_changes ex_dbg ex_rxr ex_render PropRows.ex_table false (ex_fp JSON false None) Time = ([], Err "Unsupported output format") /\
  is_double (f64_of_N 5) /\ typed_rows PropRows.ex_table.
Proof.
  split; [vm_compute; reflexivity|]. split; [vm_compute; reflexivity|]. split; [reflexivity|]. split; [vm_compute; reflexivity|].
  intros r c I R. unfold PropRows.ex_table in I. cbn [In] in I.
  repeat (destruct I as [<-|I]; [destruct R as [R|[w R]]; try discriminate; injection R as <-; vm_compute; reflexivity|]). destruct I.
Qed.

(** ** C53: the colours on the console. *)
Theorem C53_console : forall p, is_double p ->
  (negative p <-> painted "32" (fmt_plus5_2 p) (color_percent p Changed false)) /\
  (positive p <-> painted "31" (fmt_plus5_2 p) (color_percent p Changed false)) /\
  ((p = S754_nan \/ has_value p 0%R) <-> painted "37" (fmt_plus5_2 p) (color_percent p Changed false)).
Proof. exact CliP.console_colours. Qed.
Print Assumptions C53_console.
Theorem C53_signs : forall p, is_double p ->
  (negative p -> exists t, after_blanks (String "-" t) (fmt_plus5_2 p)) /\
  (positive p -> exists t, after_blanks (String "+" t) (fmt_plus5_2 p)) /\
  (p = S754_nan -> after_blanks "NaN" (fmt_plus5_2 p)).
Proof. exact CliP.sign_lemma. Qed.
Print Assumptions C53_signs.
Theorem C53_kinds : forall p, painted "31" "Added" (color_percent p Added false) /\ painted "32" "Removed" (color_percent p Removed false) /\
  color_percent p Unchanged false = "Unchanged" /\
  color_percent p Changed true = fmt_plus5_2 p /\ color_percent p Added true = "Added" /\ color_percent p Removed true = "Removed" /\
  color_percent p Unchanged true = "Unchanged".
Proof. exact CliP.kind_colours. Qed.
Print Assumptions C53_kinds.
Example C53_ex : is_double (percent 4 3) /\ negative (percent 4 3) /\ is_double (percent 3 4) /\ positive (percent 3 4) /\
  color_percent (percent 4 3) Changed false = String "027" ("[32m-25.00" ++ String "027" "[0m").
Proof.
  split; [vm_compute; reflexivity|]. split; [apply CliP.negative_spec; vm_compute; reflexivity|].
  split; [vm_compute; reflexivity|]. split; [apply CliP.positive_spec; vm_compute; reflexivity|]. vm_compute. reflexivity.
Qed.

(** ** C58: comma separated values. *)
Theorem C58_csv : forall dbg rxr render diff filt verbose fp dim out res rows,
  is_double (f_threshold filt) -> typed_rows rows -> diff = Ok rows -> fp_format fp = CSV -> fp_print_terms fp = false ->
  (forall r, In r rows -> clean (row_file r) /\ clean (row_name r)) ->
  show dbg rxr render diff filt verbose fp dim (out, res) ->
  res = Ok tt /\
  exists kept failures changes, selects (relevant filt) rows kept /\ Permutation kept (app failures changes) /\
    StronglySorted worst_first (app failures changes) /\ Forall is_failed failures /\ Forall (fun r => exists c, reports r c) changes /\
    (kept = [] -> out = app (no_changes verbose) [""]) /\
    (kept <> [] -> exists text records, out = [text] /\
      csv_holds text (["File"; "Extrinsic"; "Old"; "New"; "Change Percent"] :: records) /\ Forall2 (record_of fp dim) changes records /\
      Forall (fun r => List.length r = 5%nat) records).
Proof. exact CliP.show_csv. Qed.
Print Assumptions C58_csv.
(** With the terms, every row has one field less than the header. *)
Theorem C58_terms : forall dbg l verbose fp dim, l <> [] -> fp_print_terms fp = true ->
  (forall r, In r l -> clean (row_file r) /\ clean (row_name r)) ->
  (forall r c, In r l -> reports r c -> clean_terms c /\ without newline (dbg (tc_scope c))) ->
  exists text header records changes, print_changes_csv dbg l verbose fp dim = ([], Ok text) /\
    csv_holds text (header :: records) /\ List.length header = 8%nat /\ selects (fun r => exists c, reports r c) l changes /\
    List.length records = List.length changes /\ Forall (fun r => List.length r = 7%nat) records.
Proof. exact CliP.csv_terms_lemma. Qed.
Print Assumptions C58_terms.
(** A comparison of which all rows failed prints the header only. *)
Theorem C58_failures_refuted : exists rows, rows <> [] /\ print_changes ex_dbg ex_rxr ex_render rows false (ex_fp CSV false None) Time =
  (["File,Extrinsic,Old,New,Change Percent" ++ String newline ""], Ok tt).
Proof. exists [PropRows.ex_bad "f"]. split; [discriminate|reflexivity]. Qed.
Print Assumptions C58_failures_refuted.
Example C58_ex :
  print_changes ex_dbg ex_rxr ex_render [ex_term_row "f" 4 3; PropRows.ex_bad "g"; ex_term_row "h" 5 5] false (ex_fp CSV false None) Time =
    (["File,Extrinsic,Old,New,Change Percent" ++ String newline ("p.rs,f,4ps,3ps,-25.00" ++ String newline ("p.rs,h,5ps,5ps,Unchanged" ++ String newline ""))], Ok tt) /\
  print_changes ex_dbg ex_rxr ex_render [ex_term_row "f" 4 3] false (ex_fp CSV true None) Time =
    (["File,Extrinsic,Old,New,Change Percent,Old Weight Term,New Weight Term,Used variables" ++
      String newline ("p.rs,f,4ps,3ps,-25.004,3 + READ,{a b}" ++ String newline "")], Ok tt).
Proof. split; vm_compute; reflexivity. Qed.

(** ** C59: names. *)
Theorem C59_methods : forall s, ((exists v, method_of_str s = Ok v) <-> In s method_variants) /\
  (~ In s method_variants -> exists e, method_of_str s = Err e).
Proof. exact CliP.method_all_names. Qed.
Print Assumptions C59_methods.
Theorem C59_method_reflect : forall s v, In (v, s) method_reflect <-> method_of_str s = Ok v.
Proof. exact CliP.method_reflects. Qed.
Print Assumptions C59_method_reflect.
Theorem C59_method_complete : forall v, exists s, method_of_str s = Ok v.
Proof. exact CliP.method_complete. Qed.
Print Assumptions C59_method_complete.
Theorem C59_dimensions : forall s, ((exists v, dimension_of_str s = Ok v) <-> In s dimension_variants \/ s = "weight") /\
  (~ In s dimension_variants -> s <> "weight" -> exists e, dimension_of_str s = Err e).
Proof. exact CliP.dimension_all_names. Qed.
Print Assumptions C59_dimensions.
Theorem C59_dimension_reflect : forall s v, (In (v, s) dimension_reflect \/ (v, s) = (Time, "weight")) <-> dimension_of_str s = Ok v.
Proof. exact CliP.dimension_reflects. Qed.
Print Assumptions C59_dimension_reflect.
Theorem C59_changes : forall s v, (change_of_str s = Ok v <-> In (v, s) [(Unchanged, "unchanged"); (Changed, "changed"); (Added, "added"); (Removed, "removed")]) /\
  (In s change_variants <-> is_ok (change_of_str s) = true) /\ (~ In s change_variants -> exists e, change_of_str s = Err e).
Proof. exact CliP.change_all_names. Qed.
Print Assumptions C59_changes.
Theorem C59_formats : forall s v, (format_of_str s = Ok v <->
    In (v, s) [(Human, "human"); (BriefHuman, "brief-human"); (CSV, "csv"); (JSON, "json"); (Markdown, "markdown")]) /\
  (In s format_variants <-> is_ok (format_of_str s) = true) /\ (~ In s format_variants -> exists e, format_of_str s = Err e).
Proof. exact CliP.format_all_names. Qed.
Print Assumptions C59_formats.
Theorem C59_strippings : forall s v, (stripping_of_str s = Ok v <-> In (v, s) [(FileName, "file_name"); (RepoRelative, "repo_relative")]) /\
  (In s stripping_variants <-> is_ok (stripping_of_str s) = true) /\ (~ In s stripping_variants -> exists e, stripping_of_str s = Err e).
Proof. exact CliP.stripping_all_names. Qed.
Print Assumptions C59_strippings.
Example C59_ex : method_of_str "guess-worst" = Ok GuessWorst /\ In (GuessWorst, "guess-worst") method_reflect /\
  dimension_of_str "weight" = Ok Time /\ dimension_of_str "Time" = Err "Unknown method: Time" /\ change_of_str "added" = Ok Added /\
  format_of_str "" = Err "Unknown output format: " /\ stripping_of_str "file_name" = Ok FileName.
Proof. cbn. tauto. Qed.

(** ** C60: the parse command succeeds exactly when every file can be read, but what it counts are functions, not files. *)
Theorem C60_parse : forall disk files,
  (forall l, all_of (parse_file disk) files l -> cli_parse_files disk false files =
    (["Trying to parse " ++ dec_of_N (N.of_nat (List.length files)) ++ " files...";
      "Parsed " ++ dec_of_N (N.of_nat (List.length l)) ++ " files successfully"], Ok tt)) /\
  ((forall l, ~ all_of (parse_file disk) files l) -> is_ok (snd (cli_parse_files disk false files)) = false).
Proof. exact CliP.parse_command. Qed.
Print Assumptions C60_parse.
Definition ex_weight (name : string) : impl_item := IFn (mk_method [] name (RType (TPath (mk_path false ["Weight"])))
  [SExpr (ex_call ["Weight"; "from_parts"] [ex_int 1; ex_int 0])]).
Definition ex_two : file := Some [IImpl (TTuple 0) [ex_weight "f"; ex_weight "g"]].
Theorem C60_count_refuted : exists disk files, List.length files = 1%nat /\ cli_parse_files disk false files =
  (["Trying to parse 1 files..."; "Parsed 2 files successfully"], Ok tt).
Proof. exists (fun _ => inr ex_two), [[CName "w.rs"]]. split; vm_compute; reflexivity. Qed.
Print Assumptions C60_count_refuted.
