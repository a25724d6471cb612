(** Model of the comparison of commits: core/src/lib.rs:166-302. *)
From Coq Require Import List String Ascii Arith NArith Bool.
From Verif Require Import Base ScopeM TermM F64 CompareM RowsM SynM ParseM StorageM FilesM.
Import ListNotations.
Local Open Scope string_scope.

(** core/src/lib.rs:119-146: the other parameters of a comparison. *)
Record gparams := { g_ignore_errors : bool; g_pull : bool; g_force : bool; g_offline : bool }.
(** core/src/lib.rs:166-170 *)
Definition should_pull (ps : gparams) : bool := g_pull ps && negb (g_offline ps).

(** [Command::output]: the program could not be started, or it ended. *)
Inductive cmd_result := NotRun (e : string) | Exited (success : bool) (stderr : string).
Definition succeeded (r : cmd_result) : bool := match r with Exited b _ => b | NotRun _ => false end.

(** [str::contains] *)
Fixpoint contains (pat s : string) : bool :=
  String.prefix pat s || match s with "" => false | String _ s' => contains pat s' end.

Section Git.
  (** The state of the repository and its working directory is [W]; [git] runs the
      program in it. What [glob] and the file system return depends on the state. *)
  Context {W : Type} (git : W -> list string -> W * cmd_result)
    (glob : W -> string -> option (list (option fpath))) (disk : W -> fpath -> string + file).

  (** An action returns an outcome, the new state, and the commands that it ran. *)
  Definition act (A : Type) : Type := W -> outcome A * W * list (list string * bool).
  Definition ret {A} (o : outcome A) : act A := fun w => (o, w, []).
  Definition abind {A B} (m : act A) (k : A -> act B) : act B :=
    fun w =>
      let '(o, w', t) := m w in
      match o with
      | Ok a => let '(o', w'', t') := k a w' in (o', w'', (t ++ t')%list)
      | Err e => (Err e, w', t)
      | Panic p => (Panic p, w', t)
      | Diverge => (Diverge, w', t)
      end.
  Definition command (args : list string) : act cmd_result :=
    fun w => let (w', r) := git w args in (Ok r, w', [(args, succeeded r)]).
  (** What the code reads from the disk at this point. *)
  Definition read {A} (f : W -> outcome A) : act A := fun w => (f w, w, []).

  (** core/src/lib.rs:246-262 *)
  Definition git_pull (refname : string) : act unit :=
    abind (command ["fetch"; "origin"; refname]) (fun r =>
      ret (match r with
           | NotRun e => Err ("Failed to fetch branch: " ++ e)
           | Exited false e => Err ("Failed to fetch branch: " ++ e)
           | Exited true _ => Ok tt
           end)).
  Definition maybe_pull (pull : bool) (refname : string) : act unit :=
    if pull then git_pull refname else ret (Ok tt).

  (** core/src/lib.rs:264-302 *)
  Definition git_reset (refname : string) (pull : bool) : act unit :=
    abind (maybe_pull pull refname) (fun _ =>
    abind (command ["reset"; "--hard"; "origin/" ++ refname]) (fun r =>
      match r with
      | Exited true _ => ret (Ok tt)
      | _ =>
          abind (command ["reset"; "--hard"; refname]) (fun r =>
            ret (match r with
                 | NotRun e => Err ("Failed to reset branch: " ++ e)
                 | Exited false e => Err ("Failed to reset branch: " ++ e)
                 | Exited true _ => Ok tt
                 end))
      end)).

  (** core/src/lib.rs:212-244 *)
  Definition git_checkout (refname : string) (should_pull force : bool) : act unit :=
    if force then git_reset refname should_pull
    else
      abind (maybe_pull should_pull refname) (fun _ =>
      abind (command ["checkout"; refname]) (fun r =>
        ret (match r with
             | NotRun e => Err ("Failed to checkout branch: " ++ e)
             | Exited false e => Err ("Failed to checkout branch: " ++ e)
             | Exited true _ => Ok tt
             end))).

  (** core/src/lib.rs:184-193 and 199-207 *)
  Definition load (repo : fpath) (ps : gparams) (path_pattern : string) (max_files : nat) (w : W) : outcome (list cextrinsic) :=
    let* paths := list_files (glob w) repo path_pattern max_files in
    if g_ignore_errors ps then try_parse_files_in_repo (disk w) repo paths else parse_files_in_repo (disk w) repo paths.

  (** core/src/lib.rs:172-210. The texts of errors of git are not quoted. *)
  Definition compare_commits (m : mode) (orders : string * string -> list string -> list string) (rx : regex_engine)
      (repo : fpath) (old new : string) (cps : cparams) (ps : gparams) (filt : fparams) (path_pattern : string) (max_files : nat)
      : act (list row) :=
    if contains ".." path_pattern then ret (Err "Path pattern cannot contain '..'")
    else
      abind (git_checkout old (should_pull ps) (g_force ps)) (fun _ =>
      abind (read (load repo ps path_pattern max_files)) (fun olds =>
      abind (git_checkout new (should_pull ps) (g_force ps)) (fun _ =>
      abind (read (load repo ps path_pattern max_files)) (fun news =>
        ret (compare_files m orders rx olds news cps filt))))).
End Git.
