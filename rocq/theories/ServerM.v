(** Model of the concurrent behaviour of the web server: web/src/main.rs:87-93, 178-420.

    Every request is a thread. Requests share
    - the cache of [do_compare_cached] ([#[cached(time = 600, result = true, sync_writes = true, with_cached_flag = true)]]
      of cached 0.53): a [std::sync::Mutex] around a map from arguments to results and times of storing. The mutex is
      locked during the whole call, and it is poisoned if a panic unwinds through the call.
    - [REPOS], a [DashMap] of dashmap 6: the entries are spread over shards, and every shard is behind one
      reader-writer lock, which is not poisoned and at which waiting writers do not stop readers.

    [known] are the names in [REPOS], which does not change once the server runs; [shard] is where they are.
    [runs a o] says that the comparison for [a] can end like [o]. *)
From Coq Require Import List String Arith NArith Bool.
From Verif Require Import Base ScopeM TermM F64 CompareM RowsM FmtM WebM.
Import ListNotations.

Definition opt_string_dec (a b : option string) : {a = b} + {a <> b}.
Proof. decide equality. apply string_dec. Defined.
(** The key of the cache: [CompareArgs], which derives [Eq]. *)
Definition web_args_dec (a b : web_args) : {a = b} + {a <> b}.
Proof.
  decide equality; try apply string_dec; try apply opt_string_dec; try apply bool_dec; try apply N.eq_dec;
    try (decide equality; apply bool_dec); decide equality.
Defined.

Inductive request :=
| RCompare (a : web_args)     (** web/src/main.rs:289-324 *)
| RBranches (repo : string)   (** web/src/main.rs:211-287 *)
| RNames.                     (** web/src/main.rs:178-207, 329-334: pages that list the repositories *)

(** How a request for a comparison ends: with a result from the cache or a new one, with status 500, or with a panic. *)
Inductive answer := Cached (v : list row) | Fresh (v : list row) | Failed | Crashed.

(** Where a thread is. The comments say which locks it holds. *)
Inductive pc :=
| Idle (r : request)                     (** not started *)
| Names (r : request) (i : nat)          (** [REPOS.iter()] is in shard [i]: reads [i] *)
| Names2 (r : request) (i : nat)         (** ... and has locked the next one: reads [i] and [i + 1] *)
| Listed (r : request)                   (** all names are collected *)
| HasOrg (a : web_args)                  (** [REPOS.get], line 304: reads [shard (wa_repo a)] *)
| Enter (a : web_args)                   (** calls [do_compare_cached] *)
| Look (a : web_args)                    (** has locked the cache *)
| Miss (a : web_args)                    (** ... and found nothing *)
| Running (a : web_args)                 (** ... and has locked the repository with [get_mut]: writes [shard (wa_repo a)] *)
| Ran (a : web_args) (o : outcome (list row)) (** [do_compare_cached_no_cache] has returned, or unwinds: holds the cache only *)
| HasRepo (repo : string)                (** [REPOS.get], line 218: reads [shard repo] *)
| Listing (repo : string)                (** git runs for /branches: reads [shard repo] *)
| Done.

(** What happened, the latest first. *)
Inductive event :=
| Computed (i : nat) (a : web_args) (o : outcome (list row)) (t : N)
| Stored (i : nat) (a : web_args) (v : list row) (t : N)
| Answered (i : nat) (a : web_args) (r : answer) (t : N).

(** Time is in milliseconds. *)
Record shared := {
  s_now : N;
  s_cache : web_args -> option (list row * N);
  s_mutex : bool; s_poisoned : bool;
  s_readers : nat -> nat; s_writer : nat -> bool;
  s_log : list event }.

Definition set_cache (s : shared) (a : web_args) (e : option (list row * N)) : shared :=
  {| s_now := s_now s; s_cache := fun b => if web_args_dec a b then e else s_cache s b; s_mutex := s_mutex s; s_poisoned := s_poisoned s;
     s_readers := s_readers s; s_writer := s_writer s; s_log := s_log s |}.
Definition set_mutex (s : shared) (b : bool) : shared :=
  {| s_now := s_now s; s_cache := s_cache s; s_mutex := b; s_poisoned := s_poisoned s;
     s_readers := s_readers s; s_writer := s_writer s; s_log := s_log s |}.
Definition poison (s : shared) : shared :=
  {| s_now := s_now s; s_cache := s_cache s; s_mutex := s_mutex s; s_poisoned := true;
     s_readers := s_readers s; s_writer := s_writer s; s_log := s_log s |}.
Definition set_readers (s : shared) (k n : nat) : shared :=
  {| s_now := s_now s; s_cache := s_cache s; s_mutex := s_mutex s; s_poisoned := s_poisoned s;
     s_readers := fun j => if Nat.eqb k j then n else s_readers s j; s_writer := s_writer s; s_log := s_log s |}.
Definition set_writer (s : shared) (k : nat) (b : bool) : shared :=
  {| s_now := s_now s; s_cache := s_cache s; s_mutex := s_mutex s; s_poisoned := s_poisoned s;
     s_readers := s_readers s; s_writer := fun j => if Nat.eqb k j then b else s_writer s j; s_log := s_log s |}.
Definition record (s : shared) (e : event) : shared :=
  {| s_now := s_now s; s_cache := s_cache s; s_mutex := s_mutex s; s_poisoned := s_poisoned s;
     s_readers := s_readers s; s_writer := s_writer s; s_log := e :: s_log s |}.
Definition later (s : shared) (d : N) : shared :=
  {| s_now := (s_now s + d)%N; s_cache := s_cache s; s_mutex := s_mutex s; s_poisoned := s_poisoned s;
     s_readers := s_readers s; s_writer := s_writer s; s_log := s_log s |}.

Definition lock_read (s : shared) (k : nat) : shared := set_readers s k (S (s_readers s k)).
Definition unlock_read (s : shared) (k : nat) : shared := set_readers s k (Nat.pred (s_readers s k)).

Section Server.
  Variables (shards : nat) (shard : string -> nat) (known : string -> bool) (runs : web_args -> outcome (list row) -> Prop).

  (** [TimedCache::cache_get]: [instant.elapsed().as_secs() < 600]. *)
  Definition is_fresh (now t : N) : bool := N.ltb ((now - t) / 1000) 600.
  Definition look_up (s : shared) (a : web_args) : option (list row) :=
    match s_cache s a with
    | Some (v, t) => if is_fresh (s_now s) t then Some v else None
    | None => None
    end.

  (** One step of thread [i]. *)
  Inductive tstep (i : nat) : shared -> pc -> shared -> pc -> Prop :=
  (** [REPOS.iter()] locks the next shard before it unlocks the last one. *)
  | t_start s r : (forall repo, r <> RBranches repo) -> s_writer s 0 = false ->
      tstep i s (Idle r) (lock_read s 0) (Names r 0)
  | t_next s r k : S k < shards -> s_writer s (S k) = false ->
      tstep i s (Names r k) (lock_read s (S k)) (Names2 r k)
  | t_drop s r k : tstep i s (Names2 r k) (unlock_read s k) (Names r (S k))
  | t_last s r k : S k = shards -> tstep i s (Names r k) (unlock_read s k) (Listed r)
  | t_listed s : tstep i s (Listed RNames) s Done
  (** web/src/main.rs:302-311 *)
  | t_get_org s a : s_writer s (shard (wa_repo a)) = false ->
      tstep i s (Listed (RCompare a)) (lock_read s (shard (wa_repo a))) (HasOrg a)
  | t_org s a : known (wa_repo a) = true ->
      tstep i s (HasOrg a) (unlock_read s (shard (wa_repo a))) (Enter a)
  | t_no_org s a : known (wa_repo a) = false ->
      tstep i s (HasOrg a) (record (unlock_read s (shard (wa_repo a))) (Answered i a Failed (s_now s))) Done
  (** [CACHE.lock().unwrap()] *)
  | t_lock s a : s_mutex s = false -> s_poisoned s = false -> tstep i s (Enter a) (set_mutex s true) (Look a)
  | t_poisoned s a : s_mutex s = false -> s_poisoned s = true ->
      tstep i s (Enter a) (record s (Answered i a Crashed (s_now s))) Done
  (** [cache.cache_get(&key)], which removes an entry that is too old *)
  | t_hit s a v : look_up s a = Some v ->
      tstep i s (Look a) (record (set_mutex s false) (Answered i a (Cached v) (s_now s))) Done
  | t_miss s a : look_up s a = None -> tstep i s (Look a) (set_cache s a None) (Miss a)
  (** [REPOS.get_mut] *)
  | t_get_mut s a : known (wa_repo a) = true -> s_writer s (shard (wa_repo a)) = false -> s_readers s (shard (wa_repo a)) = 0 ->
      tstep i s (Miss a) (set_writer s (shard (wa_repo a)) true) (Running a)
  | t_no_repo s a e : known (wa_repo a) = false -> s_writer s (shard (wa_repo a)) = false -> s_readers s (shard (wa_repo a)) = 0 ->
      tstep i s (Miss a) (record s (Computed i a (Err e) (s_now s))) (Ran a (Err e))
  | t_run s a o : runs a o -> o <> Diverge ->
      tstep i s (Running a) (record (set_writer s (shard (wa_repo a)) false) (Computed i a o (s_now s))) (Ran a o)
  (** [cache.cache_set] and the end of the call *)
  | t_store s a v :
      tstep i s (Ran a (Ok v))
        (record (record (set_mutex (set_cache s a (Some (v, s_now s))) false) (Stored i a v (s_now s))) (Answered i a (Fresh v) (s_now s))) Done
  | t_error s a e : tstep i s (Ran a (Err e)) (record (set_mutex s false) (Answered i a Failed (s_now s))) Done
  | t_panic s a w : tstep i s (Ran a (Panic w)) (record (poison (set_mutex s false)) (Answered i a Crashed (s_now s))) Done
  (** web/src/main.rs:218-286; a panic also unlocks the shard *)
  | t_branches s repo : s_writer s (shard repo) = false ->
      tstep i s (Idle (RBranches repo)) (lock_read s (shard repo)) (HasRepo repo)
  | t_repo s repo : known repo = true -> tstep i s (HasRepo repo) s (Listing repo)
  | t_repo_unknown s repo : known repo = false -> tstep i s (HasRepo repo) (unlock_read s (shard repo)) Done
  | t_list_end s repo : tstep i s (Listing repo) (unlock_read s (shard repo)) Done.

  Definition config : Type := (shared * list pc)%type.
  Fixpoint set_nth (l : list pc) (i : nat) (p : pc) : list pc :=
    match l, i with
    | [], _ => []
    | _ :: l', O => p :: l'
    | q :: l', S i' => q :: set_nth l' i' p
    end.
  (** A step of a thread ([Some i]), or time passes ([None]). *)
  Inductive step : config -> option nat -> config -> Prop :=
  | step_thread s l i p s' p' : nth_error l i = Some p -> tstep i s p s' p' -> step (s, l) (Some i) (s', set_nth l i p')
  | step_time s l d : step (s, l) None (later s d, l).
  (** [execution c n c']: from [c] to [c'] with [n] steps of threads. *)
  Inductive execution : config -> nat -> config -> Prop :=
  | ex_nil c : execution c 0 c
  | ex_thread c n c' i c'' : execution c n c' -> step c' (Some i) c'' -> execution c (S n) c''
  | ex_time c n c' c'' : execution c n c' -> step c' None c'' -> execution c n c''.

  (** The server has started, and these requests will arrive. *)
  Definition start (now : N) (rs : list request) : config :=
    ({| s_now := now; s_cache := fun _ => None; s_mutex := false; s_poisoned := false;
        s_readers := fun _ => 0; s_writer := fun _ => false; s_log := [] |}, map Idle rs).
End Server.
