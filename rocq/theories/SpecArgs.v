(** What the arguments of the two compare commands mean: a grammar, without a parser. *)
From Coq Require Import List String Ascii Arith NArith Bool Permutation.
From Verif Require Import Base ScopeM TermM F64 CompareM RowsM FmtM SynM ParseM StorageM FilesM GitM CliM ArgsM.
Import ListNotations.
Local Open Scope string_scope.

(** [s] is the word [w] of small letters, up to capital ones. *)
Inductive spells : string -> string -> Prop :=
| spells_nil : spells "" ""
| spells_same c s w : spells s w -> spells (String c s) (String c w)
| spells_capital n s w : (65 <= n <= 90)%N -> spells s w -> spells (String (ascii_of_N n) s) (String (ascii_of_N (n + 32)) w).
Definition method_word (m : CompareM.method) : string :=
  match m with Base => "base" | ExactWorst => "exact-worst" | GuessWorst => "guess-worst" | ExactAsymptotic => "exact-asymptotic" | Asymptotic => "asymptotic" end.
Definition unit_word (d : dimension) : string := match d with Time => "time" | Proof_size => "proof" end.
Definition change_word (c : rel_change) : string :=
  match c with Unchanged => "unchanged" | Added => "added" | Removed => "removed" | Changed => "changed" end.
Definition format_word (f : out_format) : string :=
  match f with Human => "human" | BriefHuman => "brief-human" | CSV => "csv" | JSON => "json" | Markdown => "markdown" end.

(** What a part of the command line says. *)
Inductive saying :=
| SMethod (m : CompareM.method) | SUnit (d : dimension) | SIgnoreErrors | SPull | SForce | SOffline
| SThreshold (t : f64) | SChange (l : list rel_change) | SExtrinsic (s : string) | SPallet (s : string)
| SFormat (f : out_format) | STerms | SNoColor | SStrip (s : string) | SVerbose
| SOld (paths : list string) | SNew (paths : list string) | SRepo (s : string) | SPattern (s : string) | SCommit (s : string).

(** Arguments that look like options; a lone "-" does not. *)
Definition dashed (s : string) : Prop := exists c s', s = String "-" (String c s').
(** An option [--name] with one value. *)
Inductive long_value (name v : string) : list string -> Prop :=
| lv_next : ~ dashed v -> long_value name v ["--" ++ name; v]
| lv_eq : long_value name v ["--" ++ name ++ "=" ++ v].
(** An option [-c] with one value. *)
Inductive short_value (c : ascii) (v : string) : list string -> Prop :=
| sv_next : ~ dashed v -> short_value c v [String "-" (String c ""); v]
| sv_eq : short_value c v [String "-" (String c (String "=" v))]
| sv_attached a v' : v = String a v' -> a <> "="%char -> short_value c v [String "-" (String c v)].

Section Meaning.
  (** The doubles that texts denote. *)
  Variable parse_f64 : string -> option f64.

  (** Parts after which a plain argument is a commit... *)
  Inductive closed_part (k : compare_kind) : list string -> saying -> Prop :=
  | cp_method v m args : long_value "method" v args \/ short_value "m" v args -> spells v (method_word m) -> closed_part k args (SMethod m)
  | cp_unit v d args : long_value "unit" v args \/ short_value "u" v args -> spells v (unit_word d) -> closed_part k args (SUnit d)
  | cp_ignore : closed_part k ["--ignore-errors"] SIgnoreErrors
  | cp_pull : closed_part k ["--git-pull"] SPull
  | cp_force : closed_part k ["--git-force"] SForce
  | cp_offline : closed_part k ["--offline"] SOffline
  | cp_threshold v t args : long_value "threshold" v args -> parse_f64 v = Some t -> closed_part k args (SThreshold t)
  | cp_change v c : spells v (change_word c) -> closed_part k ["--change=" ++ v] (SChange [c])
  | cp_extrinsic v args : long_value "extrinsic" v args -> closed_part k args (SExtrinsic v)
  | cp_pallet v args : long_value "pallet" v args \/ long_value "file" v args -> closed_part k args (SPallet v)
  | cp_format v f args : long_value "format" v args -> spells v (format_word f) -> closed_part k args (SFormat f)
  | cp_terms : closed_part k ["--print-terms"] STerms
  | cp_color : closed_part k ["--no-color"] SNoColor
  | cp_strip v args : long_value "strip-path-prefix" v args -> closed_part k args (SStrip v)
  | cp_verbose : closed_part k ["--verbose"] SVerbose
  | cp_old v : k = Files -> v <> "" -> closed_part k ["--old=" ++ v] (SOld [v])
  | cp_new v : k = Files -> v <> "" -> closed_part k ["--new=" ++ v] (SNew [v])
  | cp_repo v args : k = Commits -> long_value "repo" v args -> v <> "" -> closed_part k args (SRepo v)
  | cp_pattern v args : k = Commits -> long_value "path-pattern" v args -> closed_part k args (SPattern v).
  (** ... and parts that take all plain arguments that follow. *)
  Inductive open_part (k : compare_kind) : list string -> saying -> Prop :=
  | op_change vs cs : Forall (fun v => ~ dashed v) vs -> Forall2 (fun v c => spells v (change_word c)) vs cs -> open_part k ("--change" :: vs) (SChange cs)
  | op_old vs : k = Files -> Forall (fun v => ~ dashed v /\ v <> "") vs -> open_part k ("--old" :: vs) (SOld vs)
  | op_new vs : k = Files -> Forall (fun v => ~ dashed v /\ v <> "") vs -> open_part k ("--new" :: vs) (SNew vs).
  (** A command line; [true] after an open part. *)
  Inductive line (k : compare_kind) : bool -> list string -> list saying -> Prop :=
  | line_nil o : line k o [] []
  | line_closed o a s rest ss : closed_part k a s -> line k false rest ss -> line k o (a ++ rest)%list (s :: ss)
  | line_open o a s rest ss : open_part k a s -> line k true rest ss -> line k o (a ++ rest)%list (s :: ss)
  | line_commit v rest ss : k = Commits -> ~ dashed v -> line k false rest ss -> line k false (v :: rest) (SCommit v :: ss)
  | line_dashes o vs : k = Commits \/ vs = [] -> line k o ("--" :: vs) (map SCommit vs).

  (** ** From sayings to settings *)
  Definition said {A} (f : saying -> option A) (ss : list saying) : list A :=
    flat_map (fun s => match f s with Some a => [a] | None => [] end) ss.
  (** Said once, or not at all and then it is the default. *)
  Definition once {A} (f : saying -> option A) (ss : list saying) (default : option A) (a : A) : Prop :=
    said f ss = [a] \/ said f ss = [] /\ default = Some a.
  Definition maybe {A} (f : saying -> option A) (ss : list saying) (o : option A) : Prop :=
    said f ss = match o with Some a => [a] | None => [] end.
  Definition switch (f : saying -> option unit) (ss : list saying) (b : bool) : Prop := said f ss = if b then [tt] else [].
  Definition s_method s := match s with SMethod m => Some m | _ => None end.
  Definition s_unit s := match s with SUnit d => Some d | _ => None end.
  Definition s_ignore s := match s with SIgnoreErrors => Some tt | _ => None end.
  Definition s_pull s := match s with SPull => Some tt | _ => None end.
  Definition s_force s := match s with SForce => Some tt | _ => None end.
  Definition s_offline s := match s with SOffline => Some tt | _ => None end.
  Definition s_threshold s := match s with SThreshold t => Some t | _ => None end.
  Definition s_change s := match s with SChange l => Some l | _ => None end.
  Definition s_extrinsic s := match s with SExtrinsic x => Some x | _ => None end.
  Definition s_pallet s := match s with SPallet x => Some x | _ => None end.
  Definition s_format s := match s with SFormat f => Some f | _ => None end.
  Definition s_terms s := match s with STerms => Some tt | _ => None end.
  Definition s_color s := match s with SNoColor => Some tt | _ => None end.
  Definition s_strip s := match s with SStrip x => Some x | _ => None end.
  Definition s_verbose s := match s with SVerbose => Some tt | _ => None end.
  Definition s_old s := match s with SOld l => Some l | _ => None end.
  Definition s_new s := match s with SNew l => Some l | _ => None end.
  Definition s_repo s := match s with SRepo x => Some x | _ => None end.
  Definition s_pattern s := match s with SPattern x => Some x | _ => None end.
  Definition s_commit s := match s with SCommit x => Some x | _ => None end.

  Definition common (ss : list saying) (before : bool) (c : compare_args) : Prop :=
    once s_method ss None (p_method (ca_params c)) /\
    once s_unit ss (Some Time) (p_unit (ca_params c)) /\
    switch s_ignore ss (g_ignore_errors (ca_git c)) /\ switch s_pull ss (g_pull (ca_git c)) /\
    switch s_force ss (g_force (ca_git c)) /\ switch s_offline ss (g_offline (ca_git c)) /\
    once s_threshold ss (Some (f64_of_N 5)) (f_threshold (ca_filter c)) /\
    f_change (ca_filter c) = (match said s_change ss with [] => None | l => Some (List.concat l) end) /\
    maybe s_extrinsic ss (f_extrinsic (ca_filter c)) /\ maybe s_pallet ss (f_pallet (ca_filter c)) /\
    once s_format ss (Some Human) (fp_format (ca_format c)) /\
    switch s_terms ss (fp_print_terms (ca_format c)) /\ switch s_color ss (fp_no_color (ca_format c)) /\
    maybe s_strip ss (fp_strip (ca_format c)) /\
    exists v, switch s_verbose ss v /\ ca_verbose c = before || v.
  Definition settings (k : compare_kind) (ss : list saying) (before : bool) (c : command) : Prop :=
    match k, c with
    | Files, Compare_files c old new =>
        common ss before c /\ said s_old ss <> [] /\ said s_new ss <> [] /\ old = List.concat (said s_old ss) /\ new = List.concat (said s_new ss)
    | Commits, Compare_commits c old new repo pattern =>
        common ss before c /\ (said s_commit ss = [old; new] \/ said s_commit ss = [old] /\ new = "master") /\
        once s_repo ss (Some ".") repo /\ once s_pattern ss None pattern
    | _, _ => False
    end.
  Definition kind_word (k : compare_kind) : string := match k with Files => "files" | Commits => "commits" end.
  (** [--verbose] can also stand in front of the names of the commands. *)
  Definition means (argv : list string) (c : command) : Prop :=
    exists v1 v2 k args ss,
      argv = ((if v1 : bool then ["--verbose"] else []) ++ "compare" :: (if v2 : bool then ["--verbose"] else []) ++ kind_word k :: args)%list /\
      line k false args ss /\ settings k ss (v1 || v2) c.
End Meaning.
(** Options that can be repeated say the same, and so do the commits. *)
Definition same_lists (ss ss' : list saying) : Prop :=
  said s_change ss = said s_change ss' /\ said s_old ss = said s_old ss' /\ said s_new ss = said s_new ss' /\ said s_commit ss = said s_commit ss'.
Definition compares (c : command) : Prop := match c with Parse_files _ _ => False | _ => True end.
