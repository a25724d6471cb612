(** Properties C76 and C77: comparisons while other requests are served. *)
From Coq Require Import List String Ascii Arith NArith ZArith Bool Reals Lra Lia.
From Verif Require Import Base ScopeM TermM F64 SpecF64 CompareM SpecCompare RowsM SpecRows FmtM SynM ParseM SpecParse SpecAttr StorageM FilesM SpecFiles GitM SpecGit WebM SpecWeb SiteM
  ServerM SpecServer IsoM SpecIso SpecEnd.
From Verif Require EndP3 RowsP WebP PropGit PropEnd IsoP IsoP2 IsoP3.
Import ListNotations.
Local Open Scope string_scope.

(** ** C76: a comparison is not disturbed. *)
(** A comparison runs git and reads the files of its directory step by step; other requests do so at the same time. *)
(** The steps, one after the other, are the comparison of C47 and C48. *)
Theorem C76_program : forall (W : Type) (git : W -> list string -> W * cmd_result) glob disk m ords rx repo old new cps ps filt pat mx w,
  perform git glob disk (p_compare m ords rx repo old new cps ps filt pat mx) w =
  fst (compare_commits git glob disk m ords rx repo old new cps ps filt pat mx w).
Proof. exact @IsoP.program_lemma. Qed.
Print Assumptions C76_program.
(** If every repository has a directory of its own, then every execution, with any interleaving of the steps, has the answers
    of one in which a comparison is one step: C49 to C51 hold. *)
Theorem C76_server : forall (W : Type) (git : W -> list string -> W * cmd_result) glob disk m ords rx shards shard known where_,
  own_directories known where_ -> forall ws0 now rs s ws l,
  irun git glob disk m ords rx shards shard known where_ (istart ws0 now rs) (s, ws, l) ->
  exists n, execution shards shard known (possible git glob disk m ords rx where_ ws0) (ServerM.start now rs) n (s, map coarse l).
Proof. exact @IsoP.server_lemma. Qed.
Print Assumptions C76_server.
(** And the results are those of whole comparisons and commands, one after the other, in the order in which the comparisons have
    ended. If no comparison is going on, then the directories are those after them as well. *)
Theorem C76_serial : forall (W : Type) (git : W -> list string -> W * cmd_result) glob disk m ords rx shards shard known where_,
  own_directories known where_ -> forall ws0 now rs s ws l,
  irun git glob disk m ords rx shards shard known where_ (istart ws0 now rs) (s, ws, l) ->
  exists h wsS, serial git glob disk m ords rx where_ ws0 h wsS /\ comparisons h = computed (s_log s) /\
    (quiet l -> forall d, ws d = wsS d).
Proof. exact @IsoP.serial_lemma. Qed.
Print Assumptions C76_serial.
(** Every result that is answered, also from the cache, is one of these. *)
Theorem C76_answer : forall (W : Type) (git : W -> list string -> W * cmd_result) glob disk m ords rx shards shard known where_ ws0 now rs s ws l a v,
  own_directories known where_ -> 0 < shards ->
  irun git glob disk m ords rx shards shard known where_ (istart ws0 now rs) (s, ws, l) -> answered (s_log s) a v ->
  exists h ws', serial git glob disk m ords rx where_ ws0 h ws' /\ comparisons h = computed (s_log s) /\
    exists i, nth_error rs i = Some (RCompare a) /\ In (OCompare i a (Ok v)) h.
Proof. exact @IsoP3.answered_lemma. Qed.
Print Assumptions C76_answer.
(** If the names are names of directories below the root, then every repository has its own directory. *)
Theorem C76_own : forall remote exists_ is_dir root static names repos, SiteM.start remote exists_ is_dir root static names = Ok repos ->
  Forall (fun n => plain (CName n)) names -> own_directories (is_known repos) (dir_of repos).
Proof. exact IsoP3.own_lemma. Qed.
Print Assumptions C76_own.

Definition ex_org (_ : fpath) : cmd_result * string := (Exited true "", "https://github.com/paritytech/x").
Definition ex_shard (r : string) : nat := if String.eqb r "x" then 0 else 1.
Definition ex_where (r : string) : fpath := if String.eqb r "x" then [CCur] else [CName r].
Definition ex_known (r : string) : bool := String.eqb r "x" || String.eqb r "y".
Definition ex_args (pull : option bool) : web_args :=
  {| wa_old := " master"; wa_new := "dev "; wa_repo := "x"; wa_pattern := "*.rs"; wa_extrinsic := None; wa_pallet := None;
     wa_ignore_errors := true; wa_threshold := 10%N; wa_unit := Time; wa_pull := pull; wa_method := ExactWorst |}.
Definition ex_irun (known : string -> bool) (where_ : string -> fpath) :=
  irun run_git_all (fun s => PropGit.ex_tglob (r_work s)) (fun s => EndP3.ex_tree (r_work s)) Checked (fun _ l => l) RowsP.rx_all 2 ex_shard known where_.
(** The values of a table with one row. *)
Definition ex_values (v : list row) : option (option N * option N) :=
  match v with [mk_row "f" "x.rs" (DChanged c)] => Some (tc_old_v c, tc_new_v c) | _ => None end.

Local Ltac go k rule := eapply IsoP3.cons_other with (i := k);
  [reflexivity|eapply rule; try reflexivity; try discriminate; try (repeat constructor; fail)|intros ? ?; discriminate|].
Local Ltac compare k :=
  go k t_start; go k t_next; go k t_drop; go k t_last; go k t_get_org; go k t_org; go k t_lock.
(** While the files of the old commit are listed, the branches of "y" are fetched, which are the 5 and 6 of the remote
    repository then. A third request is answered from the cache. *)
Example C76_ex : own_directories ex_known ex_where /\
  exists v s ws l, ex_irun ex_known ex_where (istart (fun _ => PropGit.ex_s) 0 [RCompare (ex_args None); RBranches "y"; RCompare (ex_args None)]) (s, ws, l) /\
    s_log s = [Answered 2 (ex_args None) (Cached v) 7%N; Answered 0 (ex_args None) (Fresh v) 0%N; Stored 0 (ex_args None) v 0%N; Computed 0 (ex_args None) (Ok v) 0%N] /\
    ex_values v = Some (Some 6000%N, Some 7000%N) /\ quiet l /\
    r_tracking (ws [CName "y"]) "master" = Some 5%N /\ r_tracking (ws [CName "z"]) "master" = Some 3%N.
Proof.
  split.
  { intros r r' K K'. unfold ex_known, ex_where in *. destruct (String.eqb_spec r "x"), (String.eqb_spec r' "x"); try congruence; discriminate. }
  eexists. eexists. eexists. eexists. split.
  - compare 0. go 0 t_miss. eapply IsoP3.cons_begin with (i := 0); [reflexivity|apply t_get_mut; reflexivity|].
    apply IsoP3.cons_exec with (n := 3) (i := 0) (a := ex_args None) (q := web_prog Checked (fun _ l => l) RowsP.rx_all ex_where (ex_args None)); [reflexivity|].
    go 1 t_branches. go 1 t_repo. apply IsoP3.cons_branches with (i := 1) (repo := "y") (args := ["fetch"; "--all"; "--prune"; "--tags"]); [reflexivity|now left|].
    eapply IsoP3.cons_exec with (n := 7) (i := 0); [reflexivity|].
    eapply IsoP3.cons_end with (i := 0); [reflexivity|vm_compute; reflexivity|constructor; vm_compute; reflexivity|]. go 0 t_store.
    apply IsoP3.cons_time with (d := 7%N). compare 2. go 2 t_hit. go 1 t_list_end. apply irun_nil.
  - split; [reflexivity|]. split; [reflexivity|]. split; [|split; vm_compute; reflexivity].
    intros a q [H|[H|[H|[]]]]; discriminate H.
Qed.

(** The server also accepts two names for one directory, which is then not locked by the other name. Here the branches of "./x" are fetched while "x" is compared, between the two commits, and without a pull the old
    commit is the 3 from before and the new one the 6 from after that. No order of whole operations has this result. *)
Definition ex_xglob (_ : string) : option (list (option fpath)) := Some [Some [CName "repos"; CName "x"; CName "x.rs"]].
Theorem C76_alias_refuted : exists repos s ws l,
  SiteM.start ex_org (fun _ => true) (fun _ => true) [CName "repos"] "static" ["x"; "./x"] = Ok repos /\
  irun run_git_all (fun _ => ex_xglob) (fun s => EndP3.ex_tree (r_work s)) Checked (fun _ l => l) RowsP.rx_all 2 ex_shard (is_known repos) (dir_of repos)
    (istart (fun _ => PropGit.ex_s) 0 [RCompare (ex_args (Some false)); RBranches "./x"]) (s, ws, l) /\
  ~ exists h wsS, serial run_git_all (fun _ => ex_xglob) (fun s => EndP3.ex_tree (r_work s)) Checked (fun _ l => l) RowsP.rx_all (dir_of repos)
      (fun _ => PropGit.ex_s) h wsS /\ comparisons h = computed (s_log s).
Proof.
  eexists. eexists. eexists. eexists. split; [vm_compute; reflexivity|]. split.
  - set (repos := (_ :: _) : list (string * site_repo)).
    compare 0. go 0 t_miss. eapply IsoP3.cons_begin with (i := 0); [reflexivity|apply t_get_mut; reflexivity|].
    apply IsoP3.cons_exec with (n := 2) (i := 0) (a := ex_args (Some false)) (q := web_prog Checked (fun _ l => l) RowsP.rx_all (dir_of repos) (ex_args (Some false))); [reflexivity|].
    go 1 t_branches. go 1 t_repo. apply IsoP3.cons_branches with (i := 1) (repo := "./x") (args := ["fetch"; "--all"; "--prune"; "--tags"]); [reflexivity|now left|].
    eapply IsoP3.cons_exec with (n := 7) (i := 0); [reflexivity|].
    eapply IsoP3.cons_end with (i := 0); [reflexivity|vm_compute; reflexivity|constructor; vm_compute; reflexivity|]. apply irun_nil.
  - set (repos := (_ :: _) : list (string * site_repo)). cbn [s_log record computed flat_map app].
    set (v := [mk_row _ _ _]). intros (h & wsS & S & C).
    set (fetched := fst (run_git_all PropGit.ex_s ["fetch"; "--all"; "--prune"; "--tags"])).
    assert (N : forall h ws, serial run_git_all (fun _ => ex_xglob) (fun s => EndP3.ex_tree (r_work s)) Checked (fun _ l => l) RowsP.rx_all (dir_of repos)
      (fun _ => PropGit.ex_s) h ws -> comparisons h = [] -> forall d, ws d = PropGit.ex_s \/ ws d = fetched).
    { clear h wsS S C. induction 1 as [|h ws1 ws2 i a o S IH D E O|h ws1 ws2 repo args S IH I E O]; intros C d; [now left|discriminate C|].
      specialize (IH C). destruct (fpath_dec d (dir_of repos repo)) as [->|Ne]; [|rewrite (O d Ne); apply IH].
      rewrite E. destruct I as [<-|[<-|[]]]; destruct (IH (dir_of repos repo)) as [-> | ->]; auto. }
    revert C. induction S as [|h ws1 ws2 i a o S IH D E O|h ws1 ws2 repo args S IH I E O]; [discriminate| |exact IH].
    intros C. change (comparisons (OCompare i a o :: h)) with ((i, a, o) :: comparisons h) in C. injection C as _ Ea Eo Eh.
    specialize (N h ws1 S Eh). subst a o.
    destruct (N (dir_of repos (wa_repo (ex_args (Some false))))) as [K|K]; rewrite K in D; clear -D; inversion D as [rows v' H Q| |]; subst v';
      vm_compute in H; injection H as <-; apply RowsP.sort_lemma in Q; destruct Q as (Q & _); apply Permutation.Permutation_length_1_inv in Q;
      apply (f_equal ex_values) in Q; vm_compute in Q; discriminate Q.
Qed.
Print Assumptions C76_alias_refuted.

(** ** C77: every answer of the server is about the newest commits, and shows every regression. *)
(** [ws0] are the repositories when the server starts; the remote repositories do not change then. Unless a request turns the
    pull off, the result is that of comparing the newest commits, whatever other requests do at the same time or did before. *)
Theorem C77_newest : forall tglob tdisk m ords rx shards shard known where_ ws0 now rs s ws l a v old new pat c_old c_new,
  own_directories known where_ -> 0 < shards ->
  irun run_git_all (fun s => tglob (r_work s)) (fun s => tdisk (r_work s)) m ords rx shards shard known where_ (istart ws0 now rs) (s, ws, l) ->
  answered (s_log s) a v -> wa_pull a <> Some false ->
  trimmed (wa_old a) old -> trimmed (wa_new a) new -> trimmed (wa_pattern a) pat ->
  let g := ws0 (where_ (wa_repo a)) in
  r_remote g old = Some c_old -> r_remote g new = Some c_new -> unambiguous g old -> unambiguous g new ->
  exists rows, compare_trees tglob tdisk m ords rx (where_ (wa_repo a)) (web_params a) (web_git a) (web_filter a) pat web_max_files c_old c_new = Ok rows /\
    sort_changes (filter_changes rows (web_filter a)) v.
Proof. exact IsoP2.answer_newest. Qed.
Print Assumptions C77_newest.
(** If the source code of a weight function has become slower at any point of the ranges, then the answer has a row that shows
    it; see C73 to C75. *)
Theorem C77_regression : forall tglob tdisk m ords rx shards shard known where_ ws0 now rs s ws l a rows old new pat c_old c_new k mo mn eo en rho v w,
  (forall k, is_order (ords k)) -> own_directories known where_ -> 0 < shards ->
  irun run_git_all (fun s => tglob (r_work s)) (fun s => tdisk (r_work s)) m ords rx shards shard known where_ (istart ws0 now rs) (s, ws, l) ->
  answered (s_log s) a rows ->
  wa_method a = ExactWorst \/ wa_method a = GuessWorst -> (wa_threshold a < 2 ^ 32)%N -> wa_pull a <> Some false ->
  trimmed (wa_old a) old -> trimmed (wa_new a) new -> trimmed (wa_pattern a) pat ->
  let g := ws0 (where_ (wa_repo a)) in let repo := where_ (wa_repo a) in
  r_remote g old = Some c_old -> r_remote g new = Some c_new -> unambiguous g old -> unambiguous g new ->
  source_of (tglob c_old) (tdisk c_old) repo pat k mo eo -> source_of (tglob c_new) (tdisk c_new) repo pat k mn en ->
  passes rx (wa_pallet a) (fst k) -> passes rx (wa_extrinsic a) (snd k) ->
  tame_source (wa_unit a) mo mn eo en -> in_source_box mo mn eo en rho -> weight_at (wa_unit a) rho eo v -> weight_at (wa_unit a) rho en w ->
  grown (RN (wa_threshold a)) v w ->
  exists r, In r rows /\ row_key r = k /\ shows r (RN (wa_threshold a)) v w.
Proof. exact IsoP2.answer_regression. Qed.
Print Assumptions C77_regression.
(** The execution of C76_ex meets the hypotheses, with the two functions of C75_ex. *)
Example C77_ex : exists v s ws l rho,
  ex_irun ex_known ex_where (istart (fun _ => PropGit.ex_s) 0 [RCompare (ex_args None); RBranches "y"; RCompare (ex_args None)]) (s, ws, l) /\
  answered (s_log s) (ex_args None) v /\ own_directories ex_known ex_where /\
  trimmed (wa_old (ex_args None)) "master" /\ trimmed (wa_new (ex_args None)) "dev" /\ trimmed (wa_pattern (ex_args None)) "*.rs" /\
  r_remote PropGit.ex_s "master" = Some 5%N /\ r_remote PropGit.ex_s "dev" = Some 6%N /\
  unambiguous PropGit.ex_s "master" /\ unambiguous PropGit.ex_s "dev" /\
  source_of (PropGit.ex_tglob 5) (EndP3.ex_tree 5) (ex_where "x") "*.rs" ("x.rs", "f") (EndP3.ex_fn 1000 5) (EndP3.ex_b 1000 5 "s") /\
  source_of (PropGit.ex_tglob 6) (EndP3.ex_tree 6) (ex_where "x") "*.rs" ("x.rs", "f") (EndP3.ex_fn 1000 6) (EndP3.ex_b 1000 6 "s") /\
  tame_source Time (EndP3.ex_fn 1000 5) (EndP3.ex_fn 1000 6) (EndP3.ex_b 1000 5 "s") (EndP3.ex_b 1000 6 "s") /\
  in_source_box (EndP3.ex_fn 1000 5) (EndP3.ex_fn 1000 6) (EndP3.ex_b 1000 5 "s") (EndP3.ex_b 1000 6 "s") rho /\
  weight_at Time rho (EndP3.ex_b 1000 5 "s") 6000 /\ weight_at Time rho (EndP3.ex_b 1000 6 "s") 7000 /\
  grown (RN 10) 6000 7000.
Proof.
  destruct C76_ex as (Ow & v & s & ws & l & R & L & _). destruct PropEnd.C75_ex as (_ & To & Ro & Rn & Uo & Un & So & Ta & G).
  exists v, s, ws, l, (PropEnd.ex_rho "s" 1000). split; [exact R|].
  split; [exists 0, 0%N; right; rewrite L; right; now left|]. split; [exact Ow|]. split; [exact To|].
  split; [now apply WebP.trim_iff|]. split; [now apply WebP.trim_iff|].
  repeat (split; [assumption|]). split; [apply So; reflexivity|]. split; [apply So; reflexivity|]. split; [exact Ta|].
  split; [apply EndP3.ex_in_box; vm_compute; discriminate|].
  split; [exact (EndP3.ex_weight_at (PropEnd.ex_rho "s" 1000) 1000 5)|]. split; [exact (EndP3.ex_weight_at (PropEnd.ex_rho "s" 1000) 1000 6)|]. exact G.
Qed.
(** Without a pull the commits may be old ones: 3 and 4 instead of 5 and 6. *)
Theorem C77_pull_refuted : exists v s ws l,
  ex_irun ex_known ex_where (istart (fun _ => PropGit.ex_s) 0 [RCompare (ex_args (Some false))]) (s, ws, l) /\
  answered (s_log s) (ex_args (Some false)) v /\
  r_remote PropGit.ex_s "master" = Some 5%N /\ r_remote PropGit.ex_s "dev" = Some 6%N /\ ex_values v = Some (Some 4000%N, Some 5000%N).
Proof.
  eexists. eexists. eexists. eexists. split.
  - compare 0. go 0 t_miss. eapply IsoP3.cons_begin with (i := 0); [reflexivity|apply t_get_mut; reflexivity|].
    apply IsoP3.cons_exec with (n := 8) (i := 0) (a := ex_args (Some false)) (q := web_prog Checked (fun _ l => l) RowsP.rx_all ex_where (ex_args (Some false))); [reflexivity|].
    eapply IsoP3.cons_end with (i := 0); [reflexivity|vm_compute; reflexivity|constructor; vm_compute; reflexivity|]. go 0 t_store. apply irun_nil.
  - split; [exists 0, 0%N; right; now left|]. split; [reflexivity|]. split; reflexivity.
Qed.
Print Assumptions C77_pull_refuted.
