(** Specification vocabulary for comparisons among other requests. *)
From Coq Require Import List String Ascii Arith NArith Bool.
From Verif Require Import Base ScopeM TermM F64 CompareM RowsM FmtM SynM ParseM StorageM FilesM GitM SpecGit WebM SiteM ServerM IsoM.
Import ListNotations.
Local Open Scope string_scope.

(** What requests do with a directory: a whole comparison, or a command for the list of branches. *)
Inductive op := OCompare (i : nat) (a : web_args) (o : outcome (list row)) | OCommand (repo : string) (args : list string).
Section Serial.
  Context {W : Type} (git : W -> list string -> W * cmd_result)
    (glob : W -> string -> option (list (option fpath))) (disk : W -> fpath -> string + file)
    (m : mode) (ords : string * string -> list string -> list string) (rx : regex_engine) (where_ : string -> fpath).
  (** The state in which the comparison for [a] leaves its directory, if nothing else happens. *)
  Definition leaves (a : web_args) (w : W) : W :=
    snd (fst (compare_commits git glob disk m ords rx (where_ (wa_repo a)) (trim (wa_old a)) (trim (wa_new a)) (web_params a) (web_git a)
      (web_filter a) (trim (wa_pattern a)) web_max_files w)).
  (** One operation after the other, the latest first, from the directories [ws]. *)
  Inductive serial (ws : fpath -> W) : list op -> (fpath -> W) -> Prop :=
  | serial_nil : serial ws [] ws
  | serial_compare h ws1 ws2 i a o : serial ws h ws1 ->
      do_compare git glob disk m ords rx (where_ (wa_repo a)) a (ws1 (where_ (wa_repo a))) o ->
      ws2 (where_ (wa_repo a)) = leaves a (ws1 (where_ (wa_repo a))) -> (forall d, d <> where_ (wa_repo a) -> ws2 d = ws1 d) ->
      serial ws (OCompare i a o :: h) ws2
  | serial_command h ws1 ws2 repo args : serial ws h ws1 -> In args branch_commands ->
      ws2 (where_ repo) = fst (git (ws1 (where_ repo)) args) -> (forall d, d <> where_ repo -> ws2 d = ws1 d) ->
      serial ws (OCommand repo args :: h) ws2.
End Serial.
(** The comparisons of a history, and those that the server has made. *)
Definition comparisons (h : list op) : list (nat * web_args * outcome (list row)) :=
  flat_map (fun x => match x with OCompare i a o => [(i, a, o)] | OCommand _ _ => [] end) h.
Definition computed (l : list event) : list (nat * web_args * outcome (list row)) :=
  flat_map (fun e => match e with Computed i a o _ => [(i, a, o)] | _ => [] end) l.
(** No two repositories are in one directory. *)
Definition own_directories (known : string -> bool) (where_ : string -> fpath) : Prop :=
  forall r r', known r = true -> known r' = true -> where_ r = where_ r' -> r = r'.
(** No comparison is going on. *)
Definition quiet (l : list ipc) : Prop := forall a q, ~ In (Exec a q) l.
(** The server has answered [a] with [v]: from the cache or not. *)
Definition answered (l : list event) (a : web_args) (v : list row) : Prop :=
  exists i t, In (Answered i a (Cached v) t) l \/ In (Answered i a (Fresh v) t) l.

(** ** git fetch --all *)
(** The model of git with the commands for branches. Tags are as they were. *)
Definition run_git_all (s : grepo) (args : list string) : grepo * cmd_result :=
  match args with
  | ["fetch"; "--all"; "--prune"; "--tags"] =>
      (mk_repo (r_remote s) (r_remote s) (r_local s) (r_other s) (r_path s) (r_head s) (r_work s), good)
  | ["ls-remote"; "--tags"; "--heads"] => (s, good)
  | _ => run_git s args
  end.

(** Where the thread is in the coarser model, in which a comparison is one step. *)
Definition coarse (p : ipc) : pc := match p with At p => p | Exec a _ => Running a end.
Section Possible.
  Context {W : Type} (git : W -> list string -> W * cmd_result)
    (glob : W -> string -> option (list (option fpath))) (disk : W -> fpath -> string + file)
    (m : mode) (ords : string * string -> list string -> list string) (rx : regex_engine) (where_ : string -> fpath).
  (** The comparison for [a] can end with [o], if nothing else happens at the same time, and only whole comparisons and
      commands for branches happened before. *)
  Definition possible (ws : fpath -> W) (a : web_args) (o : outcome (list row)) : Prop :=
    exists h ws', serial git glob disk m ords rx where_ ws h ws' /\
      do_compare git glob disk m ords rx (where_ (wa_repo a)) a (ws' (where_ (wa_repo a))) o.
End Possible.

(** The repositories after the start, web/src/main.rs:87-93, 133-137: their names and directories. *)
Definition is_known (repos : list (string * site_repo)) (r : string) : bool := existsb (fun p => String.eqb (fst p) r) repos.
Definition dir_of (repos : list (string * site_repo)) (r : string) : fpath :=
  match find (fun p => String.eqb (fst p) r) repos with Some p => sr_path (snd p) | None => [] end.
