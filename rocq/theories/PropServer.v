(** Properties C49, C50 and C51: concurrent requests. In all theorems, [runs a o] says how the comparison
    for [a] can end; it can end differently every time. *)
From Coq Require Import List String Ascii Arith NArith ZArith Bool.
From Verif Require Import Base ScopeM TermM F64 CompareM RowsM FmtM SynM ParseM StorageM FilesM GitM SpecGit CliM WebM ServerM SpecServer.
From Verif Require RowsP PropGit ServerP.
Import ListNotations.
Local Open Scope string_scope.

(** ** C49: the cache. *)
(** An answer from the cache was stored for the same arguments less than 600 seconds before. *)
Theorem C49_cached : forall shards shard known runs, 0 < shards -> forall rs now n c i a v t,
  execution shards shard known runs (start now rs) n c -> happened c (Answered i a (Cached v) t) ->
  exists j t0, before c (Stored j a v t0) (Answered i a (Cached v) t) /\ (t0 <= t < t0 + 600 * 1000)%N.
Proof. exact ServerP.cached_lemma. Qed.
Print Assumptions C49_cached.
(** What is stored is a successful result that the storing request has computed. *)
Theorem C49_stored : forall shards shard known runs, 0 < shards -> forall rs now n c i a v t,
  execution shards shard known runs (start now rs) n c -> happened c (Stored i a v t) ->
  nth_error rs i = Some (RCompare a) /\ runs a (Ok v) /\
  exists t', before c (Computed i a (Ok v) t') (Stored i a v t) /\ (t' <= t)%N.
Proof. exact ServerP.stored_lemma. Qed.
Print Assumptions C49_stored.
(** An answer that is not flagged was computed by the request itself, and is then in the cache. *)
Theorem C49_fresh : forall shards shard known runs, 0 < shards -> forall rs now n c i a v t,
  execution shards shard known runs (start now rs) n c -> happened c (Answered i a (Fresh v) t) ->
  nth_error rs i = Some (RCompare a) /\ runs a (Ok v) /\
  exists t', before c (Computed i a (Ok v) t') (Answered i a (Fresh v) t) /\ (t' <= t)%N /\ happened c (Stored i a v t).
Proof. exact ServerP.fresh_lemma. Qed.
Print Assumptions C49_fresh.
(** A failure is never served from the cache: the request has computed it itself, or the repository is unknown. *)
Theorem C49_failed : forall shards shard known runs, 0 < shards -> forall rs now n c i a t,
  execution shards shard known runs (start now rs) n c -> happened c (Answered i a Failed t) ->
  nth_error rs i = Some (RCompare a) /\
  (known (wa_repo a) = false \/ exists x t', before c (Computed i a (Err x) t') (Answered i a Failed t) /\ (t' <= t)%N).
Proof. exact ServerP.failed_lemma. Qed.
Print Assumptions C49_failed.
(** The same arguments are stored again after 600 seconds at the earliest. *)
Theorem C49_once : forall shards shard known runs, 0 < shards -> forall rs now n c i j a v w t t',
  execution shards shard known runs (start now rs) n c -> before c (Stored j a w t') (Stored i a v t) -> (t' + 600 * 1000 <= t)%N.
Proof. exact ServerP.once_lemma. Qed.
Print Assumptions C49_once.
(** Within 600 seconds, a request with the same arguments gets exactly this result from the cache. *)
Theorem C49_hit : forall shards shard known runs, 0 < shards -> forall rs now n c i j a v t c',
  execution shards shard known runs (start now rs) n c -> nth_error (snd c) i = Some (Look a) -> happened c (Stored j a v t) ->
  (s_now (fst c) < t + 600 * 1000)%N -> step shards shard known runs c (Some i) c' ->
  s_log (fst c') = Answered i a (Cached v) (s_now (fst c)) :: s_log (fst c).
Proof. exact ServerP.hit_lemma. Qed.
Print Assumptions C49_hit.

(** ** C50: exclusive access and progress, for every number of requests and every schedule. *)
Theorem C50_exclusive : forall shards shard known runs now rs n c i j a b,
  execution shards shard known runs (start now rs) n c -> compares c i a -> compares c j b -> i = j.
Proof. exact ServerP.exclusive_lemma. Qed.
Print Assumptions C50_exclusive.
(** No comparison runs while the branches of its repository are listed. *)
Theorem C50_branches : forall shards shard known runs now rs n c i j a repo,
  execution shards shard known runs (start now rs) n c -> compares c i a -> lists c j repo -> shard repo <> shard (wa_repo a).
Proof. exact ServerP.branches_lemma. Qed.
Print Assumptions C50_branches.
(** No deadlock: if every comparison ends, then some request that has started can go on. *)
Theorem C50_progress : forall shards shard known (runs : web_args -> outcome (list row) -> Prop), 0 < shards ->
  (forall a, exists o, runs a o /\ o <> Diverge) -> forall now rs n c i,
  execution shards shard known runs (start now rs) n c -> active c i ->
  exists j c', active c j /\ step shards shard known runs c (Some j) c'.
Proof. exact ServerP.progress_lemma. Qed.
Print Assumptions C50_progress.
(** No livelock: every schedule has at most this many steps. *)
Theorem C50_bounded : forall shards shard known runs, 0 < shards -> forall now rs n c,
  execution shards shard known runs (start now rs) n c -> n <= List.length rs * (2 * shards + 9).
Proof. exact ServerP.bounded_lemma. Qed.
Print Assumptions C50_bounded.
Theorem C50_completes : forall shards shard known (runs : web_args -> outcome (list row) -> Prop), 0 < shards ->
  (forall a, exists o, runs a o /\ o <> Diverge) -> forall now rs n c,
  execution shards shard known runs (start now rs) n c ->
  exists m c', execution shards shard known runs c m c' /\ all_done c'.
Proof. exact ServerP.completes_lemma. Qed.
Print Assumptions C50_completes.
(** In the end every request for a comparison has an answer, and only one. *)
Theorem C50_answered : forall shards shard known runs, 0 < shards -> forall rs now n c i a,
  execution shards shard known runs (start now rs) n c -> all_done c -> nth_error rs i = Some (RCompare a) ->
  exists r t, happened c (Answered i a r t).
Proof. exact ServerP.answer_lemma. Qed.
Print Assumptions C50_answered.
Theorem C50_unique : forall shards shard known runs, 0 < shards -> forall rs now n c i a b r r' t t',
  execution shards shard known runs (start now rs) n c ->
  happened c (Answered i a r t) -> happened c (Answered i b r' t') -> Answered i a r t = Answered i b r' t'.
Proof. exact ServerP.unique_lemma. Qed.
Print Assumptions C50_unique.

(** ** C51: panics. *)
(** Only panics of comparisons crash requests... *)
Theorem C51_cause : forall shards shard known runs, 0 < shards -> forall rs now n c i a t,
  execution shards shard known runs (start now rs) n c -> happened c (Answered i a Crashed t) ->
  s_poisoned (fst c) = true /\
  exists j b w t', before c (Computed j b (Panic w) t') (Answered i a Crashed t).
Proof. exact ServerP.crashed_poisoned. Qed.
Print Assumptions C51_cause.
(** ... but after the first one, every request for a comparison crashes, unless its repository is unknown.
    Nothing is computed any more. *)
Theorem C51_all : forall shards shard known runs, 0 < shards -> forall rs now n c i a t m c',
  execution shards shard known runs (start now rs) n c -> happened c (Answered i a Crashed t) ->
  execution shards shard known runs c m c' ->
  exists l, s_log (fst c') = (l ++ s_log (fst c))%list /\
    forall e, In e l -> exists j b t', e = Answered j b Crashed t' \/ e = Answered j b Failed t' /\ known (wa_repo b) = false.
Proof. exact ServerP.after_crash. Qed.
Print Assumptions C51_all.

(** Examples with two repositories in one shard. A file of the repository "bad" makes the parser panic. *)
Definition ex_args (repo : string) : web_args :=
  {| wa_old := " master"; wa_new := "dev "; wa_repo := repo; wa_pattern := "*.rs"; wa_extrinsic := None; wa_pallet := None;
     wa_ignore_errors := true; wa_threshold := 5%N; wa_unit := Time; wa_pull := None; wa_method := GuessWorst |}.
Definition ex_known (r : string) : bool := String.eqb r "good" || String.eqb r "bad".
Definition ex_disk (repo : string) (s : grepo) (p : fpath) : string + file :=
  if String.eqb repo "bad" then
    inr (Some [IImpl (TTuple 0) [IFn (mk_method [] "f" (RType (TPath (mk_path false ["Weight"])))
      [SExpr (ex_call ["Weight"; "from_parts"] [ELit LOther; ex_int 0])])]])
  else PropGit.ex_tdisk (r_work s) p.
Definition ex_runs (a : web_args) : outcome (list row) -> Prop :=
  do_compare run_git (fun s => PropGit.ex_tglob (r_work s)) (ex_disk (wa_repo a)) Checked (fun _ l => l) RowsP.rx_all [CCur] a PropGit.ex_s.
Definition ex_good : web_args := ex_args "good".
Definition ex_bad : web_args := ex_args "bad".
Definition ex_rows : list row :=
  [mk_row "f" "x.rs" (DChanged
    {| tc_old := Some (Value 50%N); tc_old_v := Some 50%N; tc_new := Some (Value 60%N); tc_new_v := Some 60%N;
       tc_scope := [("READ", Scalar 25000000); ("WRITE", Scalar 100000000)]; tc_percent := SpecFloat.S754_finite false 5629499534213120 (Zneg 48);
       tc_change := Changed; tc_method := GuessWorst |})].
Example ex_runs_good : ex_runs ex_good (Ok ex_rows).
Proof. apply dc_ok with ex_rows; [vm_compute; reflexivity|]. constructor. vm_compute. reflexivity. Qed.
Example ex_runs_only o : ex_runs ex_good o -> exists v, o = Ok v.
Proof. intros [rows v H S|e H|p H]; [eauto| |]; vm_compute in H; discriminate. Qed.
Example ex_runs_bad : ex_runs ex_bad (Panic "internal error: entered unreachable code").
Proof. apply dc_panic. vm_compute. reflexivity. Qed.

Local Ltac go k rule := eapply ServerP.ex_cons with (i := k);
  [eapply step_thread; [reflexivity|eapply rule; try reflexivity; try discriminate]|].
(** The second request is answered from the cache, 599.999 seconds after the first one. *)
Example C49_ex : exists n c, execution 1 (fun _ => 0) ex_known ex_runs (start 0 [RCompare ex_good; RCompare ex_good]) n c /\
  all_done c /\ s_log (fst c) =
    [Answered 1 ex_good (Cached ex_rows) 599999%N; Answered 0 ex_good (Fresh ex_rows) 0%N; Stored 0 ex_good ex_rows 0%N;
     Computed 0 ex_good (Ok ex_rows) 0%N].
Proof.
  do 2 eexists. split.
  { go 0 t_start. go 0 t_last. go 0 t_get_org. go 0 t_org. go 0 t_lock. go 0 t_miss. go 0 t_get_mut.
    go 0 t_run; [exact ex_runs_good|discriminate|]. go 0 t_store.
    apply ServerP.ex_wait with (d := 599999%N).
    go 1 t_start. go 1 t_last. go 1 t_get_org. go 1 t_org. go 1 t_lock. go 1 t_hit. apply ex_nil. }
  split; [|reflexivity]. intros p [<-|[<-|[]]]; reflexivity.
Qed.
(** One millisecond later it is computed again. *)
Example C49_ex_old : exists n c, execution 1 (fun _ => 0) ex_known ex_runs (start 0 [RCompare ex_good; RCompare ex_good]) n c /\
  all_done c /\ s_log (fst c) =
    [Answered 1 ex_good (Fresh ex_rows) 600000%N; Stored 1 ex_good ex_rows 600000%N; Computed 1 ex_good (Ok ex_rows) 600000%N;
     Answered 0 ex_good (Fresh ex_rows) 0%N; Stored 0 ex_good ex_rows 0%N; Computed 0 ex_good (Ok ex_rows) 0%N].
Proof.
  do 2 eexists. split.
  { go 0 t_start. go 0 t_last. go 0 t_get_org. go 0 t_org. go 0 t_lock. go 0 t_miss. go 0 t_get_mut.
    go 0 t_run; [exact ex_runs_good|discriminate|]. go 0 t_store.
    apply ServerP.ex_wait with (d := 600000%N).
    go 1 t_start. go 1 t_last. go 1 t_get_org. go 1 t_org. go 1 t_lock. go 1 t_miss. go 1 t_get_mut.
    go 1 t_run; [exact ex_runs_good|discriminate|]. go 1 t_store. apply ex_nil. }
  split; [|reflexivity]. intros p [<-|[<-|[]]]; reflexivity.
Qed.
(** A comparison runs, a second one waits for the cache, and the branches of a repository in another shard are listed. *)
Example C50_ex : exists n c, execution 2 (fun r => if String.eqb r "good" then 0 else 1) ex_known ex_runs
    (start 0 [RCompare ex_good; RCompare ex_bad; RBranches "bad"]) n c /\
  compares c 0 ex_good /\ lists c 2 "bad" /\ active c 1 /\ s_log (fst c) = [].
Proof.
  do 2 eexists. split.
  { go 0 t_start. go 0 t_next. { repeat constructor. } go 0 t_drop. go 0 t_last. go 0 t_get_org. go 0 t_org.
    go 1 t_start. go 1 t_next. { repeat constructor. } go 1 t_drop. go 1 t_last. go 1 t_get_org. go 1 t_org.
    go 0 t_lock. go 0 t_miss. go 0 t_get_mut. go 2 t_branches. go 2 t_repo. apply ex_nil. }
  split; [reflexivity|]. split; [reflexivity|]. split; [|reflexivity].
  eexists. split; [reflexivity|]. split; intros; discriminate.
Qed.
(** One would expect that a panic affects only the requests whose own comparison panics. It does not: the second request,
    for another repository, crashes, although its comparison can only succeed. *)
Theorem C51_isolation_refuted : exists known runs rs now n c i a t,
  execution 2 (fun r => if String.eqb r "good" then 0 else 1) known runs (start now rs) n c /\ all_done c /\
  happened c (Answered i a Crashed t) /\ known (wa_repo a) = true /\ (forall o, runs a o -> exists v, o = Ok v) /\
  forall o t', ~ happened c (Computed i a o t').
Proof.
  exists ex_known, ex_runs, [RCompare ex_bad; RCompare ex_good], 0%N. do 2 eexists. exists 1, ex_good. eexists. split.
  { go 0 t_start. go 0 t_next. { repeat constructor. } go 0 t_drop. go 0 t_last. go 0 t_get_org. go 0 t_org.
    go 0 t_lock. go 0 t_miss. go 0 t_get_mut. go 0 t_run; [exact ex_runs_bad|discriminate|]. go 0 t_panic.
    go 1 t_start. go 1 t_next. { repeat constructor. } go 1 t_drop. go 1 t_last. go 1 t_get_org. go 1 t_org.
    go 1 t_poisoned. apply ex_nil. }
  split; [intros p [<-|[<-|[]]]; reflexivity|]. split; [left; reflexivity|]. split; [reflexivity|].
  split; [exact ex_runs_only|]. intros o t' [H|[H|[H|[]]]]; discriminate.
Qed.
Print Assumptions C51_isolation_refuted.
