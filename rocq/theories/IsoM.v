(** Model of comparisons that run step by step while other requests are served: core/src/lib.rs:172-330 and
    core/src/parse/pallet.rs:73-107 as programs whose steps are commands and accesses to files, and web/src/main.rs:211-287,
    386-420 with these steps in between. *)
From Coq Require Import List String Ascii Arith NArith Bool.
From Verif Require Import Base ScopeM TermM F64 CompareM RowsM FmtM SynM ParseM StorageM FilesM GitM WebM ServerM.
Import ListNotations.
Local Open Scope string_scope.

(** ** Programs *)

(** A program ends, or it runs git, lists the files of a pattern, or reads a file, and goes on with what it got. *)
Inductive prog (A : Type) : Type :=
| PRet (o : outcome A)
| PGit (args : list string) (k : cmd_result -> prog A)
| PGlob (pattern : string) (k : option (list (option fpath)) -> prog A)
| PFile (p : fpath) (k : string + file -> prog A).
Arguments PRet {A}. Arguments PGit {A}. Arguments PGlob {A}. Arguments PFile {A}.

Fixpoint pbind {A B} (m : prog A) (k : A -> prog B) : prog B :=
  match m with
  | PRet (Ok a) => k a
  | PRet (Err e) => PRet (Err e)
  | PRet (Panic w) => PRet (Panic w)
  | PRet Diverge => PRet Diverge
  | PGit args f => PGit args (fun r => pbind (f r) k)
  | PGlob pat f => PGlob pat (fun r => pbind (f r) k)
  | PFile p f => PFile p (fun r => pbind (f r) k)
  end.

(** core/src/lib.rs:246-262 *)
Definition p_pull (pull : bool) (refname : string) : prog unit :=
  if pull then
    PGit ["fetch"; "origin"; refname] (fun r =>
      PRet (match r with
            | NotRun e => Err ("Failed to fetch branch: " ++ e)
            | Exited false e => Err ("Failed to fetch branch: " ++ e)
            | Exited true _ => Ok tt
            end))
  else PRet (Ok tt).
(** core/src/lib.rs:264-302 *)
Definition p_reset (refname : string) (pull : bool) : prog unit :=
  pbind (p_pull pull refname) (fun _ =>
    PGit ["reset"; "--hard"; "origin/" ++ refname] (fun r =>
      match r with
      | Exited true _ => PRet (Ok tt)
      | _ =>
          PGit ["reset"; "--hard"; refname] (fun r =>
            PRet (match r with
                  | NotRun e => Err ("Failed to reset branch: " ++ e)
                  | Exited false e => Err ("Failed to reset branch: " ++ e)
                  | Exited true _ => Ok tt
                  end))
      end)).
(** core/src/lib.rs:212-244 *)
Definition p_checkout (refname : string) (pull force : bool) : prog unit :=
  if force then p_reset refname pull
  else
    pbind (p_pull pull refname) (fun _ =>
      PGit ["checkout"; refname] (fun r =>
        PRet (match r with
              | NotRun e => Err ("Failed to checkout branch: " ++ e)
              | Exited false e => Err ("Failed to checkout branch: " ++ e)
              | Exited true _ => Ok tt
              end))).
(** core/src/lib.rs:304-330 *)
Fixpoint p_list_loop (base_path : fpath) (max_files : nat) (paths : list fpath) (patterns : list string) : prog (list fpath) :=
  match patterns with
  | [] => PRet (Ok paths)
  | regex :: patterns' =>
      PGlob (path_text base_path ++ "/" ++ regex) (fun r =>
        match r with
        | None => PRet (Err "Invalid path pattern")
        | Some files =>
            match collect files with
            | None => PRet (Err "Path pattern error")
            | Some files =>
                let paths := (paths ++ filter (fun f => negb (is_mod_rs f)) files)%list in
                if Nat.ltb max_files (List.length paths) then PRet (Err "Found too many files")
                else p_list_loop base_path max_files paths patterns'
            end
        end)
  end.
Definition p_list_files (base_path : fpath) (regex : string) (max_files : nat) : prog (list fpath) :=
  pbind (p_list_loop base_path max_files [] (split_char "," regex)) (fun paths => PRet (Ok (dedup (sort_paths paths)))).
(** core/src/parse/pallet.rs:73-87 and 89-107: each file is read when its turn comes. *)
Fixpoint p_parse (ignore : bool) (repo : fpath) (res : list cextrinsic) (paths : list fpath) : prog (list cextrinsic) :=
  match paths with
  | [] => PRet (Ok res)
  | p :: paths' =>
      PFile p (fun content =>
        match parse_file_in_repo (fun _ => content) repo p with
        | Ok parsed => p_parse ignore repo (res ++ parsed)%list paths'
        | Err e => if ignore then p_parse ignore repo res paths' else PRet (Err e)
        | Panic w => PRet (Panic w)
        | Diverge => PRet Diverge
        end)
  end.
(** core/src/lib.rs:184-193 and 199-207 *)
Definition p_load (repo : fpath) (ps : gparams) (path_pattern : string) (max_files : nat) : prog (list cextrinsic) :=
  pbind (p_list_files repo path_pattern max_files) (p_parse (g_ignore_errors ps) repo []).
(** core/src/lib.rs:172-210 *)
Definition p_compare (m : mode) (orders : string * string -> list string -> list string) (rx : regex_engine)
    (repo : fpath) (old new : string) (cps : cparams) (ps : gparams) (filt : fparams) (path_pattern : string) (max_files : nat)
    : prog (list row) :=
  if contains ".." path_pattern then PRet (Err "Path pattern cannot contain '..'")
  else
    pbind (p_checkout old (should_pull ps) (g_force ps)) (fun _ =>
    pbind (p_load repo ps path_pattern max_files) (fun olds =>
    pbind (p_checkout new (should_pull ps) (g_force ps)) (fun _ =>
    pbind (p_load repo ps path_pattern max_files) (fun news =>
      PRet (compare_files m orders rx olds news cps filt))))).

(** web/src/main.rs:386-420: what follows the comparison. *)
Inductive finish (a : web_args) : outcome (list row) -> outcome (list row) -> Prop :=
| fin_ok rows sorted : sort_changes (filter_changes rows (web_filter a)) sorted -> finish a (Ok rows) (Ok sorted)
| fin_err e : finish a (Err e) (Err e)
| fin_panic w : finish a (Panic w) (Panic w).

(** ** The server *)

Definition fpath_dec (a b : fpath) : {a = b} + {a <> b}.
Proof. repeat decide equality. Defined.

(** web/src/main.rs:225-227, 252-253: what a request for branches runs. *)
Definition branch_commands : list (list string) := [["fetch"; "--all"; "--prune"; "--tags"]; ["ls-remote"; "--tags"; "--heads"]].

Section Iso.
  (** Every directory is in a state of type [W]. [where_] is the directory of a repository. *)
  Context {W : Type} (git : W -> list string -> W * cmd_result)
    (glob : W -> string -> option (list (option fpath))) (disk : W -> fpath -> string + file)
    (m : mode) (ords : string * string -> list string -> list string) (rx : regex_engine)
    (shards : nat) (shard : string -> nat) (known : string -> bool) (where_ : string -> fpath).

  (** The program without any other request. *)
  Fixpoint perform {A} (p : prog A) (w : W) : outcome A * W :=
    match p with
    | PRet o => (o, w)
    | PGit args k => let (w', r) := git w args in perform (k r) w'
    | PGlob pat k => perform (k (glob w pat)) w
    | PFile p k => perform (k (disk w p)) w
    end.

  Definition web_prog (a : web_args) : prog (list row) :=
    p_compare m ords rx (where_ (wa_repo a)) (trim (wa_old a)) (trim (wa_new a)) (web_params a) (web_git a) (web_filter a)
      (trim (wa_pattern a)) web_max_files.

  (** A thread is where it is in [ServerM], or it is in the middle of a comparison. *)
  Inductive ipc := At (p : pc) | Exec (a : web_args) (q : prog (list row)).
  Definition worlds : Type := fpath -> W.
  Definition put_world (ws : worlds) (d : fpath) (w : W) : worlds := fun e => if fpath_dec d e then w else ws e.
  Definition not_running (p : pc) : Prop := forall a, p <> Running a.

  (** One step of thread [i]. Requests for branches may run their commands several times here. *)
  Inductive istep (i : nat) : shared -> worlds -> ipc -> shared -> worlds -> ipc -> Prop :=
  | i_other s ws p s' p' : tstep shards shard known (fun _ _ => False) i s p s' p' -> not_running p' ->
      istep i s ws (At p) s' ws (At p')
  | i_begin s ws p s' a : tstep shards shard known (fun _ _ => False) i s p s' (Running a) ->
      istep i s ws (At p) s' ws (Exec a (web_prog a))
  | i_git s ws a args k w r : git (ws (where_ (wa_repo a))) args = (w, r) ->
      istep i s ws (Exec a (PGit args k)) s (put_world ws (where_ (wa_repo a)) w) (Exec a (k r))
  | i_glob s ws a pat k : istep i s ws (Exec a (PGlob pat k)) s ws (Exec a (k (glob (ws (where_ (wa_repo a))) pat)))
  | i_file s ws a p k : istep i s ws (Exec a (PFile p k)) s ws (Exec a (k (disk (ws (where_ (wa_repo a))) p)))
  | i_end s ws a o o' s' : finish a o o' -> tstep shards shard known (fun _ => finish a o) i s (Running a) s' (Ran a o') ->
      istep i s ws (Exec a (PRet o)) s' ws (At (Ran a o'))
  | i_branches s ws repo args : In args branch_commands ->
      istep i s ws (At (Listing repo)) s (put_world ws (where_ repo) (fst (git (ws (where_ repo)) args))) (At (Listing repo)).

  Definition iconfig : Type := (shared * worlds * list ipc)%type.
  Fixpoint set_ith (l : list ipc) (i : nat) (p : ipc) : list ipc :=
    match l, i with
    | [], _ => []
    | _ :: l', O => p :: l'
    | q :: l', S i' => q :: set_ith l' i' p
    end.
  (** All interleavings of the threads; time passes as well. *)
  Inductive irun : iconfig -> iconfig -> Prop :=
  | irun_nil c : irun c c
  | irun_thread c s ws l i p s' ws' p' : irun c (s, ws, l) -> nth_error l i = Some p -> istep i s ws p s' ws' p' ->
      irun c (s', ws', set_ith l i p')
  | irun_time c s ws l d : irun c (s, ws, l) -> irun c (later s d, ws, l).
  (** The server has started, and these requests will arrive. *)
  Definition istart (ws : worlds) (now : N) (rs : list request) : iconfig := (fst (start now rs), ws, map At (snd (start now rs))).
End Iso.
