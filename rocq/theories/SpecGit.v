(** Specification vocabulary for comparisons of commits, and a model of git. *)
From Coq Require Import List String Ascii Arith NArith Bool.
From Verif Require Import Base ScopeM TermM CompareM RowsM SynM ParseM StorageM FilesM SpecFiles GitM.
Import ListNotations.
Local Open Scope string_scope.

Definition has_dots (s : string) : Prop := exists a b, s = a ++ ".." ++ b.

(** ** The commands for one version *)
Definition fetched (fetch : bool) (ref : string) : list (list string * bool) :=
  if fetch then [(["fetch"; "origin"; ref], true)] else [].
(** The commands that are run for [ref], whether they succeeded, and whether the whole visit did. *)
Inductive visit (fetch force : bool) (ref : string) : list (list string * bool) -> bool -> Prop :=
| visit_fetch : fetch = true -> visit fetch force ref [(["fetch"; "origin"; ref], false)] false
| visit_checkout ok : force = false -> visit fetch force ref (fetched fetch ref ++ [(["checkout"; ref], ok)])%list ok
| visit_reset : force = true -> visit fetch force ref (fetched fetch ref ++ [(["reset"; "--hard"; append "origin/" ref], true)])%list true
| visit_fallback ok : force = true ->
    visit fetch force ref (fetched fetch ref ++ [(["reset"; "--hard"; append "origin/" ref], false); (["reset"; "--hard"; ref], ok)])%list ok.

Section Trace.
  Context {W : Type} (git : W -> list string -> W * cmd_result).
  (** The commands [t], with these successes, lead from [w] to [w']. *)
  Inductive steps : W -> list (list string * bool) -> W -> Prop :=
  | steps_nil w : steps w [] w
  | steps_cons w args w1 r t w' : git w args = (w1, r) -> steps w1 t w' -> steps w ((args, succeeded r) :: t) w'.

  Context (glob : W -> string -> option (list (option fpath))) (disk : W -> fpath -> string + file).
  (** In the state [w], the files of the pattern contain [l]. *)
  Definition loads (repo : fpath) (ignore : bool) (pattern : string) (mx : nat) (w : W) (l : list cextrinsic) : Prop :=
    exists ps, list_files (glob w) repo pattern mx = Ok ps /\
      (if ignore then gathers (parse_file_in_repo (disk w) repo) ps l else all_of (parse_file_in_repo (disk w) repo) ps l).
End Trace.

(** ** A model of git

    One remote repository, called origin. Commits are numbers. *)
Inductive ghead := OnBranch (b : string) | Detached.
Record grepo := mk_repo {
  (** Branches of the remote repository. *)
  r_remote : string -> option N;
  (** refs/remotes/origin/..., refs/heads/... *)
  r_tracking : string -> option N;
  r_local : string -> option N;
  (** Tags and hashes. *)
  r_other : string -> option N;
  (** Files under version control. *)
  r_path : string -> bool;
  r_head : ghead;
  (** The commit in the working directory. *)
  r_work : N }.
Definition put (f : string -> option N) (k : string) (v : N) (x : string) : option N :=
  if String.eqb x k then Some v else f x.
Definition set_work (s : grepo) (c : N) : grepo :=
  mk_repo (r_remote s) (r_tracking s) (r_local s) (r_other s) (r_path s) (r_head s) c.
Definition set_head (s : grepo) (h : ghead) : grepo :=
  mk_repo (r_remote s) (r_tracking s) (r_local s) (r_other s) (r_path s) h (r_work s).
Definition set_local (s : grepo) (b : string) (c : N) : grepo :=
  mk_repo (r_remote s) (r_tracking s) (put (r_local s) b c) (r_other s) (r_path s) (r_head s) (r_work s).
Definition set_tracking (s : grepo) (b : string) (c : N) : grepo :=
  mk_repo (r_remote s) (put (r_tracking s) b c) (r_local s) (r_other s) (r_path s) (r_head s) (r_work s).

(** origin/b *)
Fixpoint drop_prefix (p s : string) : option string :=
  match p, s with
  | "", s => Some s
  | String a p', String b s' => if Ascii.eqb a b then drop_prefix p' s' else None
  | String _ _, "" => None
  end.
(** gitrevisions(7), for names of tags, commits, local branches, and origin/b. *)
Definition resolve (s : grepo) (rev : string) : option N :=
  match r_other s rev with
  | Some c => Some c
  | None =>
      match r_local s rev with
      | Some c => Some c
      | None => match drop_prefix "origin/" rev with Some b => r_tracking s b | None => None end
      end
  end.

Definition good : cmd_result := Exited true "".
Definition bad : cmd_result := Exited false "fatal".
(** git-fetch(1): a branch, or a tag or commit. *)
Definition git_fetch (s : grepo) (ref : string) : grepo * cmd_result :=
  match r_remote s ref with
  | Some c => (set_tracking s ref c, good)
  | None => match r_other s ref with Some _ => (s, good) | None => (s, bad) end
  end.
(** git-reset(1): the current branch moves as well. *)
Definition git_reset_hard (s : grepo) (rev : string) : grepo * cmd_result :=
  match resolve s rev with
  | Some c => (set_work (match r_head s with OnBranch b => set_local s b c | Detached => s end) c, good)
  | None => (s, bad)
  end.
(** git-checkout(1): a local branch; another revision; a new local branch for
    one of the remote repository; or a file, which is restored. *)
Definition git_switch (s : grepo) (ref : string) : grepo * cmd_result :=
  match r_local s ref with
  | Some c => (set_work (set_head s (OnBranch ref)) c, good)
  | None =>
      match resolve s ref with
      | Some c => (set_work (set_head s Detached) c, good)
      | None =>
          match r_tracking s ref with
          | Some c => (set_work (set_head (set_local s ref c) (OnBranch ref)) c, good)
          | None => if r_path s ref then (s, good) else (s, bad)
          end
      end
  end.
Definition run_git (s : grepo) (args : list string) : grepo * cmd_result :=
  match args with
  | [a; b; ref] =>
      if String.eqb a "fetch" && String.eqb b "origin" then git_fetch s ref
      else if String.eqb a "reset" && String.eqb b "--hard" then git_reset_hard s ref
      else (s, bad)
  | [a; ref] => if String.eqb a "checkout" then git_switch s ref else (s, bad)
  | _ => (s, bad)
  end.

(** The commit that a name stands for: for checkout, *)
Definition stands_for (s : grepo) (ref : string) (c : N) : Prop :=
  r_local s ref = Some c \/
  r_local s ref = None /\ (resolve s ref = Some c \/ resolve s ref = None /\ r_tracking s ref = Some c).
(** and for reset, where a branch of the remote repository is preferred. *)
Definition stands_for_reset (s : grepo) (ref : string) (c : N) : Prop :=
  resolve s (append "origin/" ref) = Some c \/ resolve s (append "origin/" ref) = None /\ resolve s ref = Some c.

(** Nothing else is called origin/ref, and that is not the current branch. *)
Definition unambiguous (s : grepo) (ref : string) : Prop :=
  r_other s (append "origin/" ref) = None /\ r_local s (append "origin/" ref) = None /\ r_head s <> OnBranch (append "origin/" ref).
(** Moving the current branch does not change what [ref] stands for. *)
Definition undisturbed (s : grepo) (ref : string) : Prop :=
  r_head s <> OnBranch (append "origin/" ref) /\ (r_head s = OnBranch ref -> resolve s (append "origin/" ref) <> None).

(** What a name is called after fetching it: git knows it as a branch of the remote repository, or as a tag or commit. *)
Definition fetchable (s : grepo) (ref : string) : Prop := r_remote s ref <> None \/ r_other s ref <> None.
Definition refreshed (s : grepo) (ref : string) : grepo :=
  match r_remote s ref with Some c => set_tracking s ref c | None => s end.

(** The comparison of two trees. [tglob] and [tdisk] are the files of a commit. *)
Definition compare_trees (tglob : N -> string -> option (list (option fpath))) (tdisk : N -> fpath -> string + file)
    m ords rx repo cps ps filt pat mx (c_old c_new : N) : outcome (list row) :=
  let* olds := load tglob tdisk repo ps pat mx c_old in
  let* news := load tglob tdisk repo ps pat mx c_new in
  compare_files m ords rx olds news cps filt.
