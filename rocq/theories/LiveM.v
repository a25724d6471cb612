(** Model of the web server while the remote repositories change: the executions of [IsoM] in which, at any moment, others
    push branches to the remote repositories or delete them there. git is the model of [SpecGit] and [SpecIso]. *)
From Coq Require Import List String Ascii Arith NArith Bool.
From Verif Require Import Base ScopeM TermM F64 CompareM RowsM FmtM SynM ParseM StorageM FilesM GitM SpecGit WebM ServerM IsoM SpecIso.
Import ListNotations.
Local Open Scope string_scope.

(** The branches of the remote repository are [r] now; nothing changes in the directory itself. *)
Definition pushed (s : grepo) (r : string -> option N) : grepo :=
  mk_repo r (r_tracking s) (r_local s) (r_other s) (r_path s) (r_head s) (r_work s).

Section Live.
  Context (tglob : N -> string -> option (list (option fpath))) (tdisk : N -> fpath -> string + file)
    (m : mode) (ords : string * string -> list string -> list string) (rx : regex_engine)
    (shards : nat) (shard : string -> nat) (known : string -> bool) (where_ : string -> fpath).
  (** [lrun c h c']: from [c] to [c']; [h] are the configurations before [c'], the latest first. Every directory has a remote
      repository of its own. *)
  Inductive lrun (c : iconfig (W := grepo)) : list (iconfig (W := grepo)) -> iconfig (W := grepo) -> Prop :=
  | lrun_nil : lrun c [] c
  | lrun_thread h s ws l i p s' ws' p' : lrun c h (s, ws, l) -> nth_error l i = Some p ->
      istep run_git_all (fun s => tglob (r_work s)) (fun s => tdisk (r_work s)) m ords rx shards shard known where_ i s ws p s' ws' p' ->
      lrun c ((s, ws, l) :: h) (s', ws', set_ith l i p')
  | lrun_time h s ws l d : lrun c h (s, ws, l) -> lrun c ((s, ws, l) :: h) (later s d, ws, l)
  | lrun_push h s ws l dir r : lrun c h (s, ws, l) -> lrun c ((s, ws, l) :: h) (s, put_world ws dir (pushed (ws dir) r), l).
End Live.
