(** Model of the arguments of the command line: cli/src/main.rs:12-126 and
    core/src/lib.rs:119-164, as clap 4.5.16 reads them. Modelled are the commands [compare files] and
    [compare commits]; errors of usage are one value, and so are the texts of [--help] and [--version]. *)
From Coq Require Import List String Ascii Arith NArith Bool.
From Verif Require Import Base ScopeM TermM F64 CompareM RowsM FmtM SynM ParseM StorageM FilesM GitM CliM.
Import ListNotations.
Local Open Scope string_scope.

(** What becomes of the arguments. *)
Inductive parsed (A : Type) := Parsed (a : A) | Info | Usage.
Arguments Parsed {A} a.
Arguments Info {A}.
Arguments Usage {A}.
Definition pbind {A B} (m : parsed A) (k : A -> parsed B) : parsed B :=
  match m with Parsed a => k a | Info => Info | Usage => Usage end.

(** ** clap *)
(** The number of values: a flag, an option with one value, an option with [num_args = 0..]. *)
Inductive arity := Flag | One | Many.
(** [Arg] *)
Record arg := mk_arg { a_id : string; a_longs : list string; a_short : option ascii; a_arity : arity; a_value : string -> bool }.

(** clap_lex: [RawArgs::is_escape], [ParsedArg::to_long], [ParsedArg::to_short] *)
Definition dash : ascii := "-".
Definition escape_arg : string := "--".
Fixpoint split_eq (s : string) : string * option string :=
  match s with
  | "" => ("", None)
  | String c s' => if Ascii.eqb c "=" then ("", Some s') else let (a, b) := split_eq s' in (String c a, b)
  end.
Definition to_long (s : string) : option (string * option string) :=
  match s with
  | String a (String b (String c s')) => if Ascii.eqb a dash && Ascii.eqb b dash then Some (split_eq (String c s')) else None
  | _ => None
  end.
Definition to_short (s : string) : option (ascii * string) :=
  match s with
  | String a (String b s') => if Ascii.eqb a dash && negb (Ascii.eqb b dash) then Some (b, s') else None
  | _ => None
  end.
(** The value that follows the letter: [-mV], [-m=V], or none. *)
Definition attached_short (s : string) : option string :=
  match s with
  | "" => None
  | String c s' => if Ascii.eqb c "=" then Some s' else Some s
  end.

Section Clap.
  (** The declared options and the number of positional arguments. *)
  Variables (decls : list arg) (max_pos : nat).
  Definition seen_args : Type := list (string * list string).
  Definition find_long (name : string) : option arg := find (fun d => existsb (String.eqb name) (a_longs d)) decls.
  Definition find_short (c : ascii) : option arg :=
    find (fun d => match a_short d with Some c' => Ascii.eqb c c' | None => false end) decls.
  Definition given (seen : seen_args) (id : string) : bool := existsb (fun p => String.eqb (fst p) id) seen.

  (** [Parser::react]: an option with all of its values. Only options with several values can be repeated. *)
  Definition react (d : arg) (vs : list string) (seen : seen_args) : parsed seen_args :=
    if negb (match a_arity d with Flag => Nat.eqb (List.length vs) 0 | One => Nat.eqb (List.length vs) 1 | Many => true end) then Usage
    else if negb (forallb (a_value d) vs) then Usage
    else if String.eqb (a_id d) "help" then Info
    else if match a_arity d with Many => false | _ => given seen (a_id d) end then Usage
    else Parsed (seen ++ [(a_id d, vs)])%list.
  (** [Parser::resolve_pending] *)
  Definition resolve (pending : option (arg * list string)) (seen : seen_args) : parsed seen_args :=
    match pending with Some (d, vs) => react d vs seen | None => Parsed seen end.
  (** Positional arguments. *)
  Definition push_pos (v : string) (pos : list string) : parsed (list string) :=
    if Nat.ltb (List.length pos) max_pos then Parsed (pos ++ [v])%list else Usage.
  Fixpoint push_all (vs : list string) (pos : list string) : parsed (list string) :=
    match vs with
    | [] => Parsed pos
    | v :: vs' => pbind (push_pos v pos) (push_all vs')
    end.

  (** [Parser::get_matches_with]: an option that waits for its value is reacted to as soon as it has it. *)
  Fixpoint scan (argv : list string) (seen : seen_args) (pending : option (arg * list string)) (pos : list string)
      : parsed (seen_args * list string) :=
    match argv with
    | [] => pbind (resolve pending seen) (fun seen => Parsed (seen, pos))
    | a :: rest =>
        let option_found (d : arg) (value : option string) :=
          pbind (resolve pending seen) (fun seen =>
            match a_arity d, value with
            | Flag, Some _ => Usage
            | Flag, None => pbind (react d [] seen) (fun seen => scan rest seen None pos)
            | _, Some v => pbind (react d [v] seen) (fun seen => scan rest seen None pos)
            | _, None => scan rest seen (Some (d, [])) pos
            end) in
        if String.eqb a escape_arg then
          pbind (resolve pending seen) (fun seen => pbind (push_all rest pos) (fun pos => Parsed (seen, pos)))
        else match to_long a with
        | Some (name, value) => match find_long name with Some d => option_found d value | None => Usage end
        | None =>
            match to_short a with
            | Some (c, text) =>
                match find_short c with
                | Some d => match a_arity d with
                            | Flag => pbind (resolve pending seen) (fun seen => pbind (react d [] seen) (fun seen =>
                                        if String.eqb text "" then scan rest seen None pos else Usage))
                            | _ => option_found d (attached_short text)
                            end
                | None => Usage
                end
            | None =>
                match pending with
                | Some (d, vs) =>
                    match a_arity d with
                    | Many => scan rest seen (Some (d, vs ++ [a])%list) pos
                    | _ => pbind (react d (vs ++ [a])%list seen) (fun seen => scan rest seen None pos)
                    end
                | None => pbind (push_pos a pos) (fun pos => scan rest seen None pos)
                end
            end
        end
    end.
End Clap.

(** [eq_ignore_ascii_case] *)
Definition lower (c : ascii) : ascii :=
  let n := N_of_ascii c in if (65 <=? n)%N && (n <=? 90)%N then ascii_of_N (n + 32) else c.
Fixpoint lower_string (s : string) : string := match s with "" => "" | String c s' => String (lower c) (lower_string s') end.
(** [EnumValueParser] with [ignore_case]: the names are those of [#[derive(ValueEnum)]]. *)
Fixpoint lookup_name {A} (names : list (string * A)) (s : string) : option A :=
  match names with
  | [] => None
  | (n, a) :: names' => if String.eqb (lower_string s) n then Some a else lookup_name names' s
  end.
(** core/src/lib.rs:332-345 *)
Definition method_value : string -> option CompareM.method :=
  lookup_name [("base", Base); ("exact-worst", ExactWorst); ("guess-worst", GuessWorst); ("exact-asymptotic", ExactAsymptotic); ("asymptotic", Asymptotic)].
(** core/src/lib.rs:407-416; the alias of [serde] is none of clap. *)
Definition unit_value : string -> option dimension := lookup_name [("time", Time); ("proof", Proof_size)].
(** core/src/lib.rs:108-117 *)
Definition change_value : string -> option rel_change :=
  lookup_name [("unchanged", Unchanged); ("added", Added); ("removed", Removed); ("changed", Changed)].
(** cli/src/main.rs:139-154 *)
Definition format_value : string -> option out_format :=
  lookup_name [("human", Human); ("brief-human", BriefHuman); ("csv", CSV); ("json", JSON); ("markdown", Markdown)].
Definition is_some {A} (o : option A) : bool := match o with Some _ => true | None => false end.
Definition any_text (s : string) : bool := true.
(** [PathBufValueParser] *)
Definition path_text (s : string) : bool := negb (String.eqb s "").

(** ** The commands *)
Record compare_args := {
  ca_params : cparams; ca_git : gparams; ca_filter : fparams; ca_format : format_params; ca_verbose : bool }.
Inductive command :=
| Compare_files (c : compare_args) (old new : list string)
| Compare_commits (c : compare_args) (old new repo path_pattern : string)
| Parse_files (argv : list string) (verbose : bool).
Inductive compare_kind := Files | Commits.

Section Commands.
  (** [f64::from_str] *)
  Variable parse_f64 : string -> option f64.

  Definition flag (name : string) : arg := mk_arg name [name] None Flag any_text.
  (** core/src/lib.rs:119-164, cli/src/main.rs:18-19 and 104-126 *)
  Definition common_decls : list arg :=
    [ mk_arg "method" ["method"] (Some "m"%char) One (fun s => is_some (method_value s));
      mk_arg "unit" ["unit"] (Some "u"%char) One (fun s => is_some (unit_value s));
      flag "ignore-errors"; flag "git-pull"; flag "git-force"; flag "offline";
      mk_arg "threshold" ["threshold"] None One (fun s => is_some (parse_f64 s));
      mk_arg "change" ["change"] None Many (fun s => is_some (change_value s));
      mk_arg "extrinsic" ["extrinsic"] None One any_text;
      mk_arg "pallet" ["pallet"; "file"] None One any_text;
      mk_arg "format" ["format"] None One (fun s => is_some (format_value s));
      flag "print-terms"; flag "no-color";
      mk_arg "strip-path-prefix" ["strip-path-prefix"] None One any_text;
      flag "verbose";
      mk_arg "help" ["help"] (Some "h"%char) Flag any_text ].
  (** cli/src/main.rs:57-63 *)
  Definition files_decls : list arg :=
    [ mk_arg "old" ["old"] None Many path_text; mk_arg "new" ["new"] None Many path_text ].
  (** cli/src/main.rs:81-93; the two commits are positional. *)
  Definition commits_decls : list arg :=
    [ mk_arg "repo" ["repo"] None One path_text; mk_arg "path-pattern" ["path-pattern"] None One any_text ].
  Definition decls_of (k : compare_kind) : list arg :=
    (common_decls ++ match k with Files => files_decls | Commits => commits_decls end)%list.
  Definition max_pos_of (k : compare_kind) : nat := match k with Files => 0 | Commits => 2 end.

  Definition values (seen : seen_args) (id : string) : list string :=
    flat_map (fun p => if String.eqb (fst p) id then snd p else []) seen.
  Definition value_of {A} (read : string -> option A) (seen : seen_args) (id : string) (default : option string) : option A :=
    match values seen id with
    | v :: _ => read v
    | [] => match default with Some v => read v | None => None end
    end.
  Definition text_of (seen : seen_args) (id : string) : option string :=
    match values seen id with v :: _ => Some v | [] => None end.
  Definition all_values {A} (read : string -> option A) (vs : list string) : list A :=
    flat_map (fun v => match read v with Some a => [a] | None => [] end) vs.

  (** The derived [FromArgMatches]; a required argument that is missing is an error of usage. *)
  Definition compare_args_of (seen : seen_args) (verbose : bool) : option compare_args :=
    match value_of method_value seen "method" None, value_of unit_value seen "unit" (Some "time"),
          value_of parse_f64 seen "threshold" (Some "5"), value_of format_value seen "format" (Some "human") with
    | Some meth, Some unit, Some threshold, Some format => Some
        {| ca_params := {| p_method := meth; p_unit := unit |};
           ca_git := {| g_ignore_errors := given seen "ignore-errors"; g_pull := given seen "git-pull";
                        g_force := given seen "git-force"; g_offline := given seen "offline" |};
           ca_filter := {| f_threshold := threshold;
                           f_change := if given seen "change" then Some (all_values change_value (values seen "change")) else None;
                           f_extrinsic := text_of seen "extrinsic"; f_pallet := text_of seen "pallet" |};
           ca_format := {| fp_format := format; fp_print_terms := given seen "print-terms"; fp_no_color := given seen "no-color";
                           fp_strip := text_of seen "strip-path-prefix" |};
           ca_verbose := verbose || given seen "verbose" |}
    | _, _, _, _ => None
    end.
  Definition command_of (k : compare_kind) (seen : seen_args) (pos : list string) (verbose : bool) : option command :=
    match compare_args_of seen verbose with
    | None => None
    | Some c =>
        match k with
        | Files =>
            if given seen "old" && given seen "new" then Some (Compare_files c (values seen "old") (values seen "new")) else None
        | Commits =>
            match pos, text_of seen "repo", text_of seen "path-pattern" with
            | old :: pos', repo, Some pattern =>
                Some (Compare_commits c old (match pos' with new :: _ => new | [] => "master" end)
                        (match repo with Some r => r | None => "." end) pattern)
            | _, _, _ => None
            end
        end
    end.
  Definition leaf_args (k : compare_kind) (argv : list string) (verbose : bool) : parsed command :=
    pbind (scan (decls_of k) (max_pos_of k) argv [] None []) (fun '(seen, pos) =>
      match command_of k seen pos verbose with Some c => Parsed c | None => Usage end).

  (** cli/src/main.rs:12-41: [--verbose] is global; here, the other arguments in front of a
      subcommand are only [--help], [-h] and the command [help], and for the program itself [--version] and [-V]. *)
  Fixpoint sub_args (infos : list string) (argv : list string) (verbose : bool) (leaf : string -> list string -> bool -> parsed command) : parsed command :=
    match argv with
    | [] => Usage
    | a :: rest =>
        if String.eqb a "--verbose" then if verbose then Usage else sub_args infos rest true leaf
        else if existsb (String.eqb a) infos then Info
        else leaf a rest verbose
    end.
  Definition cli_args (argv : list string) : parsed command :=
    sub_args ["--help"; "-h"; "help"; "--version"; "-V"] argv false (fun name rest verbose =>
      if String.eqb name "compare" then
        sub_args ["--help"; "-h"; "help"] rest false (fun name rest verbose' =>
          if String.eqb name "files" then leaf_args Files rest (verbose || verbose')
          else if String.eqb name "commits" then leaf_args Commits rest (verbose || verbose')
          else Usage)
      else if String.eqb name "parse" then Parsed (Parse_files rest verbose)
      else Usage).
End Commands.

(** [main], cli/src/main.rs:179-231, for the two compare commands: the line is read, and then the command runs with what was read.
    Nothing is said about [parse files] and about the texts of [--help] and [--version]; the message of an error of usage is left out.
    [to_path] are the components of a path. *)
Definition cli_main {W} (parse_f64 : string -> option f64) (to_path : string -> fpath) (dbg : sscope -> string) (rxr : string -> option (string -> option string))
    (render : bool -> list string -> list (list string) -> string) (git : W -> list string -> W * cmd_result) (glob : W -> string -> option (list (option fpath)))
    (disk : W -> fpath -> string + file) (m : mode) (ords : string * string -> list string -> list string) (rx : regex_engine) (max_files : nat)
    (argv : list string) (w : W) (r : list string * outcome unit) : Prop :=
  match cli_args parse_f64 argv with
  | Parsed (Compare_files c old new) =>
      cli_compare_files dbg rxr render (disk w) m ords rx (ca_params c) (ca_git c) (ca_filter c) (ca_verbose c) (ca_format c) (map to_path old) (map to_path new) r
  | Parsed (Compare_commits c old new repo pattern) =>
      cli_compare_commits dbg rxr render git glob disk m ords rx (ca_params c) (ca_git c) (ca_filter c) (ca_verbose c) (ca_format c) old new (to_path repo) pattern max_files w r
  | Parsed (Parse_files _ _) | Info => True
  | Usage => r = ([], Err "usage")
  end.

(** cli/tests/swc_works.rs:31-45 and README.md:126 *)
Example cli_args_ex :
  let f64 s := if String.eqb s "5" then Some (f64_of_N 5) else if String.eqb s "10" then Some (f64_of_N 10) else None in
  (match cli_args f64 ["compare"; "commits"; "--method"; "base"; "--path-pattern"; "runtime/*.rs"; "v0.9.19"; "v0.9.20"; "--repo"; "repos/polkadot"] with
   | Parsed (Compare_commits c "v0.9.19" "v0.9.20" "repos/polkadot" "runtime/*.rs") => ca_params c = {| p_method := Base; p_unit := Time |} /\ f_threshold (ca_filter c) = f64_of_N 5
   | _ => False
   end) /\
  (match cli_args f64 ["--verbose"; "compare"; "commits"; "HEAD"; "HEAD~100"; "--threshold"; "10"; "--method"; "asymptotic"; "--path-pattern"; "a,b"] with
   | Parsed (Compare_commits c "HEAD" "HEAD~100" "." "a,b") => ca_verbose c = true /\ p_method (ca_params c) = Asymptotic /\ f_threshold (ca_filter c) = f64_of_N 10
   | _ => False
   end).
Proof. vm_compute. auto. Qed.
