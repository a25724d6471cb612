(** Model of the command line: cli/src/main.rs:104-403, and of the names of
    the options: core/src/lib.rs:418-489, 891-901. *)
From Coq Require Import List String Ascii Arith NArith ZArith Bool Floats.SpecFloat.
From Verif Require Import Base ScopeM TermM F64 CompareM RowsM FmtM SynM ParseM StorageM FilesM GitM.
Import ListNotations.
Local Open Scope string_scope.

(** ** Names *)

(** core/src/lib.rs:418-431 *)
Definition method_of_str (s : string) : outcome CompareM.method :=
  if String.eqb s "base" then Ok Base
  else if String.eqb s "guess-worst" then Ok GuessWorst
  else if String.eqb s "exact-worst" then Ok ExactWorst
  else if String.eqb s "exact-asymptotic" then Ok ExactAsymptotic
  else if String.eqb s "asymptotic" then Ok Asymptotic
  else Err ("Unknown method: " ++ s).
(** core/src/lib.rs:433-451 *)
Definition method_all : list CompareM.method := [Base; GuessWorst; ExactWorst; ExactAsymptotic; Asymptotic].
Definition method_variants : list string := ["base"; "guess-worst"; "exact-worst"; "exact-asymptotic"; "asymptotic"].
Definition method_reflect : list (CompareM.method * string) := combine method_all method_variants.

(** core/src/lib.rs:453-463; the text of the error says "method", too. *)
Definition dimension_of_str (s : string) : outcome dimension :=
  if String.eqb s "time" || String.eqb s "weight" then Ok Time
  else if String.eqb s "proof" then Ok Proof_size
  else Err ("Unknown method: " ++ s).
(** core/src/lib.rs:891-901 *)
Definition dimension_all : list dimension := [Time; Proof_size].
Definition dimension_variants : list string := ["time"; "proof"].
Definition dimension_reflect : list (dimension * string) := combine dimension_all dimension_variants.

(** core/src/lib.rs:471-489 *)
Definition change_of_str (s : string) : outcome rel_change :=
  if String.eqb s "unchanged" then Ok Unchanged
  else if String.eqb s "changed" then Ok Changed
  else if String.eqb s "added" then Ok Added
  else if String.eqb s "removed" then Ok Removed
  else Err ("Unknown change: " ++ s).
Definition change_variants : list string := ["unchanged"; "changed"; "added"; "removed"].

(** cli/src/main.rs:139-176 *)
Inductive out_format := Human | BriefHuman | CSV | JSON | Markdown.
Definition format_variants : list string := ["human"; "brief-human"; "csv"; "json"; "markdown"].
Definition format_of_str (s : string) : outcome out_format :=
  if String.eqb s "human" then Ok Human
  else if String.eqb s "brief-human" then Ok BriefHuman
  else if String.eqb s "csv" then Ok CSV
  else if String.eqb s "json" then Ok JSON
  else if String.eqb s "markdown" then Ok Markdown
  else Err ("Unknown output format: " ++ s).

(** ** Colours *)

(** cli/src/main.rs:364-368 and 386-403 *)
Inductive ansi := White | Red | Green.
Definition esc : ascii := "027".
Definition ansi_code (c : ansi) : string := match c with White => "37" | Red => "31" | Green => "32" end.
Definition paint (c : ansi) (s : string) : string :=
  String esc "[" ++ ansi_code c ++ "m" ++ s ++ String esc "[0m".
Definition maybe_color (c : ansi) (msg : string) (no_color : bool) : string :=
  if no_color then msg else paint c msg.
(** cli/src/main.rs:370-384 *)
Definition f64_zero : f64 := S754_zero false.
Definition color_percent (p : f64) (change : rel_change) (no_color : bool) : string :=
  match change with
  | Unchanged => "Unchanged"
  | Added => maybe_color Red "Added" no_color
  | Removed => maybe_color Green "Removed" no_color
  | Changed =>
      let s := fmt_plus5_2 p in
      if f64_lt p f64_zero then maybe_color Green s no_color
      else if f64_gt p f64_zero then maybe_color Red s no_color
      else maybe_color White s no_color
  end.

(** ** Output *)

(** core/src/lib.rs:67-89 *)
Definition row_term (r : row) : option term_change :=
  match row_diff r with DChanged c | DWarning c _ => Some c | DFailed _ => None end.
Definition row_error (r : row) : option string :=
  match row_diff r with DFailed e => Some e | _ => None end.

(** cli/src/main.rs:105-126 *)
Record format_params := { fp_format : out_format; fp_print_terms : bool; fp_no_color : bool; fp_strip : option string }.

(** [str::replace] of a character by a string. *)
Fixpoint replace_char (c : ascii) (by_ : string) (s : string) : string :=
  match s with
  | "" => ""
  | String a s' => if Ascii.eqb a c then by_ ++ replace_char c by_ s' else String a (replace_char c by_ s')
  end.
Definition newline : ascii := "010".

Definition fmt_opt_value (dim : dimension) (v : option N) : string :=
  match v with Some v => fmt_value dim v | None => "" end.
Definition fmt_opt_term (t : option sterm) : string :=
  match t with Some t => sdisplay t | None => "-" end.

Section Output.
  (** [format!("{:?}", scope)]; [fancy_regex]: [None] for an invalid expression, otherwise
      [replace_all] by the empty string, which can fail; the layout of the table. *)
  Variables (debug_scope : sscope -> string)
    (regex_remove : string -> option (string -> option string))
    (render : bool -> list string -> list (list string) -> string).

  (** cli/src/main.rs:128-137 *)
  Definition filter_path (fp : format_params) (path : string) : outcome string :=
    match fp_strip fp with
    | None => Ok path
    | Some prefix =>
        match regex_remove prefix with
        | None => Panic "Invalid regex"
        | Some f => match f path with Some s => Ok s | None => Panic "called `Result::unwrap()` on an `Err` value" end
        end
    end.

  (** cli/src/main.rs:271-294 *)
  Definition csv_row (fp : format_params) (dim : dimension) (info : row) (change : term_change) : string :=
    row_file info ++ "," ++ row_name info ++ "," ++ fmt_opt_value dim (tc_old_v change) ++ ","
      ++ fmt_opt_value dim (tc_new_v change) ++ "," ++ color_percent (tc_percent change) (tc_change change) (fp_no_color fp)
    ++ (if fp_print_terms fp then
          fmt_opt_term (tc_old change) ++ "," ++ fmt_opt_term (tc_new change) ++ ","
            ++ replace_char "," " " (debug_scope (tc_scope change))
        else "")
    ++ String newline "".
  Definition csv_header (fp : format_params) : string :=
    "File,Extrinsic,Old,New,Change Percent"
      ++ (if fp_print_terms fp then ",Old Weight Term,New Weight Term,Used variables" else "") ++ String newline "".
  (** cli/src/main.rs:250-298: what the function returns, after what it prints. [verbose]
      sends the message to the log. *)
  Definition no_changes (verbose : bool) : list string := if verbose then [] else ["No changes found."].
  Definition print_changes_csv (per_extrinsic : list row) (verbose : bool) (fp : format_params) (dim : dimension)
      : list string * outcome string :=
    match per_extrinsic with
    | [] => (no_changes verbose, Ok "")
    | _ =>
        ([], Ok (String.concat "" (csv_header fp ::
               flat_map (fun p => match row_term p with Some t => [csv_row fp dim p t] | None => [] end) per_extrinsic)))
    end.

  (** cli/src/main.rs:324-352 *)
  Definition error_cells (fp : format_params) (info : row) : outcome (list string) :=
    let* path := filter_path fp (row_file info) in
    Ok [path; row_name info; "-"; "-"; "ERROR"].
  Definition term_cells (fp : format_params) (dim : dimension) (info : row) (change : term_change) : outcome (list string) :=
    let* path := filter_path fp (row_file info) in
    Ok ([path; row_name info; fmt_opt_value dim (tc_old_v change); fmt_opt_value dim (tc_new_v change);
         color_percent (tc_percent change) (tc_change change) (fp_no_color fp)]
        ++ (if fp_print_terms fp then
              [fmt_opt_term (tc_old change); fmt_opt_term (tc_new change); debug_scope (tc_scope change)]
            else []))%list.
  Definition human_header (fp : format_params) : list string :=
    (["File"; "Extrinsic"; "Old"; "New"; "Change [%]"]
      ++ (if fp_print_terms fp then ["Old Weight Term"; "New Weight Term"; "Used variables"] else []))%list.
  Definition human_cells (per_extrinsic : list row) (fp : format_params) (dim : dimension) : outcome (list (list string)) :=
    let* errors := mapM (error_cells fp) (filter (fun p => match row_error p with Some _ => true | None => false end) per_extrinsic) in
    let* terms := mapM (fun x => term_cells fp dim (fst x) (snd x))
      (flat_map (fun p => match row_term p with Some t => [(p, t)] | None => [] end) per_extrinsic) in
    Ok (errors ++ terms)%list.
  (** cli/src/main.rs:300-354 *)
  Definition print_changes_human (per_extrinsic : list row) (verbose : bool) (fp : format_params) (dim : dimension) (markdown : bool)
      : list string * outcome string :=
    match per_extrinsic with
    | [] => (no_changes verbose, Ok "")
    | _ => ([], let* cells := human_cells per_extrinsic fp dim in Ok (render markdown (human_header fp) cells))
    end.

  (** cli/src/main.rs:233-248: the lines that are printed, and the result. *)
  Definition print_changes (per_extrinsic : list row) (verbose : bool) (fp : format_params) (dim : dimension) : list string * outcome unit :=
    let '(out, res) :=
      match fp_format fp with
      | Human => print_changes_human per_extrinsic verbose fp dim false
      | Markdown => print_changes_human per_extrinsic verbose fp dim true
      | CSV => print_changes_csv per_extrinsic verbose fp dim
      | _ => ([], Err "Unsupported output format")
      end in
    match res with
    | Ok s => ((out ++ [s])%list, Ok tt)
    | Err e => (out, Err e)
    | Panic w => (out, Panic w)
    | Diverge => (out, Diverge)
    end.

  (** cli/src/main.rs:201-205 and 216-221: what happens with the result of the comparison. Sorting
      has several possible executions, so this is a relation. *)
  Inductive show (diff : outcome (list row)) (filt : fparams) (verbose : bool) (fp : format_params) (dim : dimension)
      : list string * outcome unit -> Prop :=
  | show_rows rows sorted : diff = Ok rows -> sort_changes (filter_changes rows filt) sorted ->
      show diff filt verbose fp dim (print_changes (rev sorted) verbose fp dim)
  | show_err e : diff = Err e -> show diff filt verbose fp dim ([], Err e)
  | show_panic w : diff = Panic w -> show diff filt verbose fp dim ([], Panic w)
  | show_diverge : diff = Diverge -> show diff filt verbose fp dim ([], Diverge).

  (** cli/src/main.rs:189-206 *)
  Definition cli_compare_files (disk : fpath -> string + file) (m : mode) (ords : string * string -> list string -> list string)
      (rx : regex_engine) (params : cparams) (ps : gparams) (filt : fparams) (verbose : bool) (fp : format_params) (old new : list fpath)
      : list string * outcome unit -> Prop :=
    show (let* olds := if g_ignore_errors ps then try_parse_files disk old else parse_files disk old in
          let* news := if g_ignore_errors ps then try_parse_files disk new else parse_files disk new in
          compare_files m ords rx olds news params filt) filt verbose fp (p_unit params).
  (** cli/src/main.rs:207-222; [usize::MAX] files: [max_files] is a parameter. *)
  Definition cli_compare_commits {W} (git : W -> list string -> W * cmd_result)
      (glob : W -> string -> option (list (option fpath))) (disk : W -> fpath -> string + file) (m : mode)
      (ords : string * string -> list string -> list string) (rx : regex_engine) (params : cparams) (ps : gparams) (filt : fparams)
      (verbose : bool) (fp : format_params) (old new : string) (repo : fpath) (path_pattern : string) (max_files : nat) (w : W)
      : list string * outcome unit -> Prop :=
    show (fst (fst (compare_commits git glob disk m ords rx repo old new params ps filt path_pattern max_files w)))
      filt verbose fp (p_unit params).
  (** cli/src/main.rs:223-227 *)
  Definition cli_parse_files (disk : fpath -> string + file) (verbose : bool) (files : list fpath) : list string * outcome unit :=
    let say s := if verbose then [] else [s] in
    let start := say ("Trying to parse " ++ dec_of_N (N.of_nat (List.length files)) ++ " files...") in
    match parse_files disk files with
    | Ok parsed => (app start (say ("Parsed " ++ dec_of_N (N.of_nat (List.length parsed)) ++ " files successfully")), Ok tt)
    | Err e => (start, Err e)
    | Panic w => (start, Panic w)
    | Diverge => (start, Diverge)
    end.
End Output.
