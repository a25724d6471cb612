(** Property C81: answers while the remote repositories change. *)
From Coq Require Import List String Ascii Arith NArith ZArith Bool Reals Lra Lia.
From Verif Require Import Base ScopeM TermM F64 SpecF64 CompareM SpecCompare RowsM SpecRows FmtM SynM ParseM SpecParse SpecAttr StorageM FilesM SpecFiles GitM SpecGit WebM SpecWeb SiteM
  ServerM SpecServer IsoM SpecIso SpecEnd SpecText SpecTmpl LiveM SpecLive.
From Verif Require EndP3 RowsP WebP PropGit PropEnd PropIso IsoP3 LiveP LiveP2.
Import ListNotations.
Local Open Scope string_scope.

(** ** C81: an answer is about commits that were the newest ones while they were compared. *)
(** At any moment, others may push branches to the remote repositories or delete them there. Unless a request turns the pull
    off, the result is that of comparing two commits. A request with the same parameters has compared them, not more than ten
    minutes ago, and each of them was the newest one of its branch at a moment of that comparison. *)
Theorem C81_newest : forall tglob tdisk m ords rx shards shard known where_, own_directories known where_ ->
  forall ws0 now rs h s ws l i a v t old new pat, 0 < shards ->
  lrun tglob tdisk m ords rx shards shard known where_ (istart ws0 now rs) h (s, ws, l) -> answered_at (s_log s) i a v t -> wa_pull a <> Some false ->
  trimmed (wa_old a) old -> trimmed (wa_new a) new -> trimmed (wa_pattern a) pat ->
  let d := where_ (wa_repo a) in
  unambiguous (ws0 d) old -> unambiguous (ws0 d) new -> branch_name h d old -> branch_name h d new ->
  exists j t0 c_old c_new rows, nth_error rs j = Some (RCompare a) /\ In (Stored j a v t0) (s_log s) /\ (t0 <= t < t0 + 600000)%N /\
    looked_up h d j a old new c_old c_new t0 /\
    compare_trees tglob tdisk m ords rx d (web_params a) (web_git a) (web_filter a) pat web_max_files c_old c_new = Ok rows /\
    sort_changes (filter_changes rows (web_filter a)) v.
Proof. exact LiveP.live_lemma. Qed.
Print Assumptions C81_newest.
(** If the source code of a weight function is slower in the second of these commits, at any point of the ranges, then the answer
    has a row that shows it. *)
Theorem C81_regression : forall tglob m ords rx shards shard known where_ tdisk ws0 now rs h s ws l i a rows t old new pat,
  (forall k, is_order (ords k)) -> own_directories known where_ -> 0 < shards ->
  lrun tglob tdisk m ords rx shards shard known where_ (istart ws0 now rs) h (s, ws, l) -> answered_at (s_log s) i a rows t ->
  wa_method a = ExactWorst \/ wa_method a = GuessWorst -> (wa_threshold a < 2 ^ 32)%N -> wa_pull a <> Some false ->
  trimmed (wa_old a) old -> trimmed (wa_new a) new -> trimmed (wa_pattern a) pat ->
  let d := where_ (wa_repo a) in
  unambiguous (ws0 d) old -> unambiguous (ws0 d) new -> branch_name h d old -> branch_name h d new ->
  exists j t0 c_old c_new, In (Stored j a rows t0) (s_log s) /\ (t0 <= t < t0 + 600000)%N /\ looked_up h d j a old new c_old c_new t0 /\
    forall k mo mn eo en rho v w,
    source_of (tglob c_old) (tdisk c_old) d pat k mo eo -> source_of (tglob c_new) (tdisk c_new) d pat k mn en ->
    passes rx (wa_pallet a) (fst k) -> passes rx (wa_extrinsic a) (snd k) ->
    tame_source (wa_unit a) mo mn eo en -> in_source_box mo mn eo en rho -> weight_at (wa_unit a) rho eo v -> weight_at (wa_unit a) rho en w ->
    grown (RN (wa_threshold a)) v w ->
    exists r, In r rows /\ row_key r = k /\ shows r (RN (wa_threshold a)) v w.
Proof. exact LiveP2.live_regression. Qed.
Print Assumptions C81_regression.
(** The same for the measurements, if the files were written with the template; see C80. *)
Theorem C81_measured : forall tglob m ords rx shards shard known where_ syn texts ws0 now rs h s ws l i a rows t old new pat,
  reads_grammar syn -> (forall k, is_order (ords k)) -> own_directories known where_ -> 0 < shards ->
  lrun tglob (fun c => disk_of syn (texts c)) m ords rx shards shard known where_ (istart ws0 now rs) h (s, ws, l) -> answered_at (s_log s) i a rows t ->
  wa_method a = ExactWorst \/ wa_method a = GuessWorst -> (wa_threshold a < 2 ^ 32)%N -> wa_pull a <> Some false ->
  trimmed (wa_old a) old -> trimmed (wa_new a) new -> trimmed (wa_pattern a) pat ->
  let d := where_ (wa_repo a) in
  unambiguous (ws0 d) old -> unambiguous (ws0 d) new -> branch_name h d old -> branch_name h d new ->
  exists j t0 c_old c_new, In (Stored j a rows t0) (s_log s) /\ (t0 <= t < t0 + 600000)%N /\ looked_up h d j a old new c_old c_new t0 /\
    forall k bo bn rho,
    data_source_of syn (tglob c_old) (texts c_old) d pat k bo -> data_source_of syn (tglob c_new) (texts c_new) d pat k bn ->
    passes rx (wa_pallet a) (fst k) -> passes rx (wa_extrinsic a) (snd k) -> tame_data (wa_unit a) bo bn -> in_bench_box bo bn rho ->
    grown (RN (wa_threshold a)) (bench_weight (wa_unit a) rho bo) (bench_weight (wa_unit a) rho bn) ->
    exists r, In r rows /\ row_key r = k /\ shows r (RN (wa_threshold a)) (bench_weight (wa_unit a) rho bo) (bench_weight (wa_unit a) rho bn).
Proof. exact LiveP2.live_measured. Qed.
Print Assumptions C81_measured.

Local Ltac go k rule := eapply IsoP3.cons_other with (i := k);
  [reflexivity|eapply rule; try reflexivity; try discriminate; try (repeat constructor; fail)|intros ? ?; discriminate|].
Local Ltac compare k :=
  go k t_start; go k t_next; go k t_drop; go k t_last; go k t_get_org; go k t_org; go k t_lock.
(** Someone pushes 7 to "master" and 8 to "dev" after 5, the old commit, was fetched. The result is that of 5 and 8. *)
Definition ex_later : string -> option N := PropGit.ex_names [("master", 7); ("dev", 8)]%N.
Definition ex_lrun := lrun PropGit.ex_tglob EndP3.ex_tree Checked (fun _ l => l) RowsP.rx_all 2 PropIso.ex_shard PropIso.ex_known PropIso.ex_where.
Lemma ex_pushed : exists h v s ws l,
  ex_lrun (istart (fun _ => PropGit.ex_s) 0 [RCompare (PropIso.ex_args None); RCompare (PropIso.ex_args None)]) h (s, ws, l) /\
  Forall (fun c => (forall d, LiveP2.remotes c d = r_remote PropGit.ex_s) \/ forall d, LiveP2.remotes c d = if fpath_dec [CCur] d then ex_later else r_remote PropGit.ex_s) h /\
  s_log s = [Answered 1 (PropIso.ex_args None) (Cached v) 7%N; Answered 0 (PropIso.ex_args None) (Fresh v) 0%N;
    Stored 0 (PropIso.ex_args None) v 0%N; Computed 0 (PropIso.ex_args None) (Ok v) 0%N] /\
  PropIso.ex_values v = Some (Some 6000%N, Some 9000%N).
Proof.
  edestruct (LiveP2.one_push PropGit.ex_tglob EndP3.ex_tree Checked (fun _ l => l) RowsP.rx_all 2 PropIso.ex_shard PropIso.ex_known PropIso.ex_where) with (dir := [CCur]) (r := ex_later)
    (a := istart (fun _ => PropGit.ex_s) 0 [RCompare (PropIso.ex_args None); RCompare (PropIso.ex_args None)]) as (h & L & F).
  - compare 0. go 0 t_miss. eapply IsoP3.cons_begin with (i := 0); [reflexivity|apply t_get_mut; reflexivity|].
    apply IsoP3.cons_exec with (n := 2) (i := 0) (a := PropIso.ex_args None) (q := web_prog Checked (fun _ l => l) RowsP.rx_all PropIso.ex_where (PropIso.ex_args None)); [reflexivity|].
    apply irun_nil.
  - eapply IsoP3.cons_exec with (n := 7) (i := 0); [reflexivity|].
    eapply IsoP3.cons_end with (i := 0); [reflexivity|vm_compute; reflexivity|constructor; vm_compute; reflexivity|]. go 0 t_store.
    apply IsoP3.cons_time with (d := 7%N). compare 1. go 1 t_hit. apply irun_nil.
  - exists h. eexists. eexists. eexists. eexists. split; [exact L|]. split; [exact F|]. split; reflexivity.
Qed.
Lemma ex_kept (h : list (iconfig (W := grepo))) name : (name = "master" \/ name = "dev") ->
  Forall (fun c => (forall d, LiveP2.remotes c d = r_remote PropGit.ex_s) \/ forall d, LiveP2.remotes c d = if fpath_dec [CCur] d then ex_later else r_remote PropGit.ex_s) h ->
  branch_name h [CCur] name.
Proof.
  intros Nm F c I. left. rewrite Forall_forall in F. unfold newest. destruct (F c I) as [H|H]; specialize (H [CCur]); unfold LiveP2.remotes in H; rewrite H.
  - destruct Nm as [-> | ->]; vm_compute; discriminate.
  - destruct (fpath_dec [CCur] [CCur]); [|congruence]. destruct Nm as [-> | ->]; vm_compute; discriminate.
Qed.
Example C81_ex : exists h v s ws l rho,
  ex_lrun (istart (fun _ => PropGit.ex_s) 0 [RCompare (PropIso.ex_args None); RCompare (PropIso.ex_args None)]) h (s, ws, l) /\
  answered_at (s_log s) 1 (PropIso.ex_args None) v 7 /\ own_directories PropIso.ex_known PropIso.ex_where /\
  trimmed (wa_old (PropIso.ex_args None)) "master" /\ trimmed (wa_new (PropIso.ex_args None)) "dev" /\ trimmed (wa_pattern (PropIso.ex_args None)) "*.rs" /\
  unambiguous PropGit.ex_s "master" /\ unambiguous PropGit.ex_s "dev" /\ branch_name h (PropIso.ex_where "x") "master" /\ branch_name h (PropIso.ex_where "x") "dev" /\
  source_of (PropGit.ex_tglob 5) (EndP3.ex_tree 5) (PropIso.ex_where "x") "*.rs" ("x.rs", "f") (EndP3.ex_fn 1000 5) (EndP3.ex_b 1000 5 "s") /\
  source_of (PropGit.ex_tglob 8) (EndP3.ex_tree 8) (PropIso.ex_where "x") "*.rs" ("x.rs", "f") (EndP3.ex_fn 1000 8) (EndP3.ex_b 1000 8 "s") /\
  tame_source Time (EndP3.ex_fn 1000 5) (EndP3.ex_fn 1000 8) (EndP3.ex_b 1000 5 "s") (EndP3.ex_b 1000 8 "s") /\
  in_source_box (EndP3.ex_fn 1000 5) (EndP3.ex_fn 1000 8) (EndP3.ex_b 1000 5 "s") (EndP3.ex_b 1000 8 "s") rho /\
  weight_at Time rho (EndP3.ex_b 1000 5 "s") 6000 /\ weight_at Time rho (EndP3.ex_b 1000 8 "s") 9000 /\
  grown (RN 10) 6000 9000.
Proof.
  destruct ex_pushed as (h & v & s & ws & l & R & F & L & _). destruct PropEnd.C75_ex as (_ & To & _ & _ & Uo & Un & So & _).
  exists h, v, s, ws, l, (PropEnd.ex_rho "s" 1000). split; [exact R|]. split; [left; rewrite L; now left|]. split; [apply PropIso.C76_ex|]. split; [exact To|].
  split; [now apply WebP.trim_iff|]. split; [now apply WebP.trim_iff|]. split; [exact Uo|]. split; [exact Un|].
  split; [apply (ex_kept h "master"); auto|]. split; [apply (ex_kept h "dev"); auto|].
  split; [apply So; reflexivity|]. split; [apply So; reflexivity|]. split; [apply EndP3.ex_tame; lia|].
  split; [apply EndP3.ex_in_box; vm_compute; discriminate|].
  split; [exact (EndP3.ex_weight_at (PropEnd.ex_rho "s" 1000) 1000 5)|]. split; [exact (EndP3.ex_weight_at (PropEnd.ex_rho "s" 1000) 1000 8)|].
  right. split; [reflexivity|]. unfold rel_change_of, slack, RN. rewrite EndP3.pow48. cbn. lra.
Qed.
(** The two commits need not have been the newest ones at the same time: here there is no such moment. *)
Theorem C81_together_refuted : exists h v s ws l,
  ex_lrun (istart (fun _ => PropGit.ex_s) 0 [RCompare (PropIso.ex_args None); RCompare (PropIso.ex_args None)]) h (s, ws, l) /\
  answered_at (s_log s) 1 (PropIso.ex_args None) v 7 /\
  forall c c_old c_new rows, In c h -> newest c (PropIso.ex_where "x") "master" = Some c_old -> newest c (PropIso.ex_where "x") "dev" = Some c_new ->
    compare_trees PropGit.ex_tglob EndP3.ex_tree Checked (fun _ l => l) RowsP.rx_all (PropIso.ex_where "x") (web_params (PropIso.ex_args None)) (web_git (PropIso.ex_args None))
      (web_filter (PropIso.ex_args None)) "*.rs" web_max_files c_old c_new = Ok rows ->
    ~ sort_changes (filter_changes rows (web_filter (PropIso.ex_args None))) v.
Proof.
  destruct ex_pushed as (h & v & s & ws & l & R & F & L & V). exists h, v, s, ws, l. split; [exact R|]. split; [left; rewrite L; now left|].
  intros c c_old c_new rows I Ro Rn C Q. rewrite Forall_forall in F. unfold newest in *.
  assert (X : c_old = 5%N /\ c_new = 6%N \/ c_old = 7%N /\ c_new = 8%N).
  { destruct (F c I) as [H|H]; specialize (H [CCur]); unfold LiveP2.remotes in H; change (PropIso.ex_where "x") with [CCur] in *; rewrite H in Ro, Rn.
    - left. vm_compute in Ro, Rn. injection Ro as <-. injection Rn as <-. auto.
    - right. destruct (fpath_dec [CCur] [CCur]); [|congruence]. vm_compute in Ro, Rn. injection Ro as <-. injection Rn as <-. auto. }
  apply RowsP.sort_lemma in Q. destruct Q as (Q & _).
  destruct X as [(-> & ->)|(-> & ->)]; vm_compute in C; injection C as <-; apply Permutation.Permutation_sym in Q;
    match type of Q with Permutation.Permutation v ?l => let l' := eval vm_compute in l in change l with l' in Q end;
    (apply Permutation.Permutation_sym, Permutation.Permutation_length_1_inv in Q || apply Permutation.Permutation_sym, Permutation.Permutation_nil in Q);
    subst v; vm_compute in V; discriminate V.
Qed.
Print Assumptions C81_together_refuted.
