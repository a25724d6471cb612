(** Property C82: what the page with the results says about the measurements. *)
From Coq Require Import List String Ascii Arith NArith ZArith Bool Reals Lra Lia.
From Verif Require Import Base ScopeM TermM F64 SpecF64 CompareM SpecCompare RowsM SpecRows FmtM SpecFmt SynM ParseM SpecParse SpecAttr StorageM FilesM SpecFiles GitM SpecGit WebM SpecWeb
  PageM SiteM SpecSite ServerM SpecServer IsoM SpecIso SpecEnd GramM SpecText SpecTmpl TmplX LiveM SpecLive SpecShow.
From Verif Require EndP3 RowsP WebP GitP SiteP PropGit PropEnd PropIso PropText IsoP3 LiveP LiveP2 ShowP3.
Import ListNotations.
Local Open Scope string_scope.
Local Open Scope R_scope.

(** ** C82: the page tells all and only the changes that were measured. *)
(** The server has started with plain names of repositories and answers requests at the same time, while others push to the remote
    repositories. Request [i] with the query [q] is answered at the time [t] by [page]. The query asks for a comparison of two branches with
    a pull, by one of the methods that look for the worst case. Then there are two commits, each of which was the newest one of its branch
    while they were compared, not more than ten minutes ago, and
    - if a weight has grown by the threshold anywhere in the ranges of the components, then the page says so,
    - if a weight is lower by the threshold everywhere in the ranges, then the page says so,
    - every row of the table shows two weights that were measured, and their change. *)
Theorem C82_page : forall tglob texts syn m ords rx shards shard remote exists_ is_dir root static names repos ws0 now rs h s ws l i t ent version q run page,
  reads_grammar syn -> (forall k, is_order (ords k)) -> (0 < shards)%nat ->
  SiteM.start remote exists_ is_dir root static names = Ok repos -> Forall (fun n => plain (CName n)) names ->
  lrun tglob (fun c => disk_of syn (texts c)) m ords rx shards shard (is_known repos) (dir_of repos) (istart ws0 now rs) h (s, ws, l) ->
  (forall a org rows cached, asks ent (map (fun p => (fst p, sr_org (snd p))) repos) q a org -> run a = Ok (rows, cached) -> answered_at (s_log s) i a rows t) ->
  compare_answer ent version m repos q run = Ok (200%nat, page) ->
  exists a org, asks ent (map (fun p => (fst p, sr_org (snd p))) repos) q a org /\ let d := dir_of repos (wa_repo a) in
    forall old new pat, wa_method a = ExactWorst \/ wa_method a = GuessWorst -> wa_pull a <> Some false ->
    trimmed (wa_old a) old -> trimmed (wa_new a) new -> trimmed (wa_pattern a) pat ->
    unambiguous (ws0 d) old -> unambiguous (ws0 d) new -> branch_name h d old -> branch_name h d new ->
    exists j t0 c_old c_new, (t0 <= t < t0 + 600000)%N /\ looked_up h d j a old new c_old c_new t0 /\
      let measured c := data_source_of syn (tglob c) (texts c) d pat in
      tells_regressions (measured c_old) (measured c_new) rx a page /\ tells_improvements (measured c_old) (measured c_new) rx a page /\
      tells_truth (measured c_old) (measured c_new) a page.
Proof. exact ShowP3.shown_lemma. Qed.
Print Assumptions C82_page.

Local Ltac go k rule := eapply IsoP3.cons_other with (i := k);
  [reflexivity|eapply rule; try reflexivity; try discriminate; try (repeat constructor; fail)|intros ? ?; discriminate|].
Local Ltac compare k :=
  go k t_start; go k t_next; go k t_drop; go k t_last; go k t_get_org; go k t_org; go k t_lock.
Definition ex_query : string := "old=master&new=dev&repo=x&path_pattern=*.rs&ignore_errors=true&threshold=10&unit=time&method=exact-worst".
Definition ex_args : web_args :=
  {| wa_old := "master"; wa_new := "dev"; wa_repo := "x"; wa_pattern := "*.rs"; wa_extrinsic := None; wa_pallet := None;
     wa_ignore_errors := true; wa_threshold := 10%N; wa_unit := Time; wa_pull := None; wa_method := ExactWorst |}.
Definition ex_repos : list (string * site_repo) := [("x", {| sr_name := "x"; sr_path := [CName "repos"; CName "x"]; sr_org := "paritytech" |})].
(** As in C81, 7 and 8 are pushed while the comparison runs. *)
Definition ex_later : string -> option N := PropGit.ex_names [("master", 7); ("dev", 8)]%N.
Definition ex_lrun := lrun (fun _ => PropIso.ex_xglob) (fun c => disk_of read_items (ex_texts c)) Checked (fun _ l => l) RowsP.rx_all 2 PropIso.ex_shard (is_known ex_repos) (dir_of ex_repos).
Lemma ex_source c : (c <= 2 ^ 60)%N ->
  data_source_of read_items PropIso.ex_xglob (ex_texts c) (dir_of ex_repos "x") "*.rs" ("x.rs", "f") (ex_bench c).
Proof.
  intros C. change (dir_of ex_repos "x") with [CName "repos"; CName "x"]. split.
  - intros p (_ & parts & part & fs & _ & _ & L & I). unfold lists, PropIso.ex_xglob in L.
    injection L as L. destruct fs as [|q [|]]; try discriminate L. injection L as <-. destruct I as [<-|[]].
    exists [CName "x.rs"]. repeat split; try discriminate. constructor; [|constructor]. cbn. repeat split; discriminate.
  - exists [CName "repos"; CName "x"; CName "x.rs"], [CName "x.rs"], grouped, dec_of_N, (ex_data c). split.
    { split; [intros (dir & E); destruct dir as [|x [|y [|z [|]]]]; discriminate E|].
      exists ["*.rs"], "*.rs", [[CName "repos"; CName "x"; CName "x.rs"]]. repeat split; try discriminate; try (now left).
      constructor; [|constructor]. cbn. repeat split; discriminate. }
    split; [repeat split; try discriminate; constructor; [|constructor]; cbn; repeat split; discriminate|].
    split; [reflexivity|]. split; [reflexivity|].
    split; [destruct (PropText.C80_grammar _ _ _ numerals_grouped numerals_dec (ex_data_ok c C)) as (is & T); now apply (proj2 PropText.C79_reader is)|].
    split; [exact numerals_grouped|]. split; [exact numerals_dec|]. split; [now apply ex_data_ok|]. split; [right; now left|reflexivity].
Qed.
Lemma ex_pushed : exists h v s ws l,
  ex_lrun (istart (fun _ => PropGit.ex_s) 0 [RCompare ex_args; RCompare ex_args]) h (s, ws, l) /\
  Forall (fun c => (forall d, LiveP2.remotes c d = r_remote PropGit.ex_s) \/
    forall d, LiveP2.remotes c d = if fpath_dec [CName "repos"; CName "x"] d then ex_later else r_remote PropGit.ex_s) h /\
  answered_at (s_log s) 1 ex_args v 7 /\
  match compare_answer (fun s => s) "1" Checked ex_repos ex_query (fun _ => Ok (v, true)) with
  | Ok (200, page) => contains "<p style='color:red'>" page = true
  | _ => False
  end.
Proof.
  edestruct (LiveP2.one_push (fun _ => PropIso.ex_xglob) (fun c => disk_of read_items (ex_texts c)) Checked (fun _ l => l) RowsP.rx_all 2 PropIso.ex_shard (is_known ex_repos) (dir_of ex_repos))
    with (dir := [CName "repos"; CName "x"]) (r := ex_later) (a := istart (fun _ => PropGit.ex_s) 0 [RCompare ex_args; RCompare ex_args]) as (h & L & F).
  - compare 0%nat. go 0%nat t_miss. eapply IsoP3.cons_begin with (i := 0%nat); [reflexivity|apply t_get_mut; reflexivity|].
    apply IsoP3.cons_exec with (n := 2%nat) (i := 0%nat) (a := ex_args) (q := web_prog Checked (fun _ l => l) RowsP.rx_all (dir_of ex_repos) ex_args); [reflexivity|].
    apply irun_nil.
  - eapply IsoP3.cons_exec with (n := 7%nat) (i := 0%nat); [reflexivity|].
    eapply IsoP3.cons_end with (i := 0%nat); [reflexivity|vm_compute; reflexivity|constructor; vm_compute; reflexivity|]. go 0%nat t_store.
    apply IsoP3.cons_time with (d := 7%N). compare 1%nat. go 1%nat t_hit. apply irun_nil.
  - exists h. eexists. eexists. eexists. eexists. split; [exact L|]. split; [exact F|]. split; [left; left; reflexivity|]. vm_compute. reflexivity.
Qed.
Lemma ex_kept (h : list (iconfig (W := grepo))) name : (name = "master" \/ name = "dev") ->
  Forall (fun c => (forall d, LiveP2.remotes c d = r_remote PropGit.ex_s) \/
    forall d, LiveP2.remotes c d = if fpath_dec [CName "repos"; CName "x"] d then ex_later else r_remote PropGit.ex_s) h ->
  branch_name h (dir_of ex_repos "x") name.
Proof.
  intros Nm F c I. left. rewrite Forall_forall in F. unfold newest. change (dir_of ex_repos "x") with [CName "repos"; CName "x"].
  destruct (F c I) as [H|H]; specialize (H [CName "repos"; CName "x"]); unfold LiveP2.remotes in H; rewrite H.
  - destruct Nm as [-> | ->]; vm_compute; discriminate.
  - destruct (fpath_dec _ _); [|congruence]. destruct Nm as [-> | ->]; vm_compute; discriminate.
Qed.
Example C82_ex : exists h v s ws l page,
  reads_grammar read_items /\
  SiteM.start PropIso.ex_org (fun _ => true) (fun _ => true) [CName "repos"] "static" ["x"] = Ok ex_repos /\ Forall (fun n => plain (CName n)) ["x"] /\
  ex_lrun (istart (fun _ => PropGit.ex_s) 0 [RCompare ex_args; RCompare ex_args]) h (s, ws, l) /\
  (forall a org rows cached, asks (fun s => s) (map (fun p => (fst p, sr_org (snd p))) ex_repos) ex_query a org -> Ok (v, true) = Ok (rows, cached) ->
    a = ex_args /\ answered_at (s_log s) 1 a rows 7) /\
  compare_answer (fun s => s) "1" Checked ex_repos ex_query (fun _ => Ok (v, true)) = Ok (200%nat, page) /\ contains "<p style='color:red'>" page = true /\
  trimmed (wa_old ex_args) "master" /\ trimmed (wa_new ex_args) "dev" /\ trimmed (wa_pattern ex_args) "*.rs" /\
  unambiguous PropGit.ex_s "master" /\ unambiguous PropGit.ex_s "dev" /\ branch_name h (dir_of ex_repos "x") "master" /\ branch_name h (dir_of ex_repos "x") "dev" /\
  data_source_of read_items PropIso.ex_xglob (ex_texts 5) (dir_of ex_repos "x") "*.rs" ("x.rs", "f") (ex_bench 5) /\
  data_source_of read_items PropIso.ex_xglob (ex_texts 8) (dir_of ex_repos "x") "*.rs" ("x.rs", "f") (ex_bench 8) /\
  tame_data Time (ex_bench 5) (ex_bench 8) /\ in_bench_box (ex_bench 5) (ex_bench 8) (fun _ => 1%N) /\
  grown (RN 10) (bench_weight Time (fun _ => 1%N) (ex_bench 5)) (bench_weight Time (fun _ => 1%N) (ex_bench 8)).
Proof.
  destruct ex_pushed as (h & v & s & ws & l & R & F & A & P). destruct PropEnd.C75_ex as (_ & _ & _ & _ & Uo & Un & _).
  destruct (compare_answer (fun s => s) "1" Checked ex_repos ex_query (fun _ => Ok (v, true))) as [[c page]| | |] eqn:E; try contradiction.
  assert (c = 200%nat) by (do 200 (destruct c as [|c]; [contradiction|]); destruct c; [reflexivity|contradiction]). subst c.
  exists h, v, s, ws, l, page. split; [apply PropText.C79_reader|]. split; [vm_compute; reflexivity|]. split; [constructor; [cbn; repeat split; discriminate|constructor]|].
  split; [exact R|]. split.
  { intros a org rows cached As Q. injection Q as <- <-. apply (SiteP.prepare_iff (fun s => s) ex_repos) in As; [|repeat constructor].
    vm_compute in As. injection As as <- _. split; [reflexivity|exact A]. }
  split; [exact E|]. split; [exact P|]. split; [now apply WebP.trim_iff|]. split; [now apply WebP.trim_iff|]. split; [now apply WebP.trim_iff|].
  split; [exact Uo|]. split; [exact Un|]. split; [now apply ex_kept; auto|]. split; [now apply ex_kept; auto|].
  split; [apply ex_source; lia|]. split; [apply ex_source; lia|]. split; [apply ex_tame; lia|]. split; [apply ex_box; lia|].
  right. split; [reflexivity|]. unfold rel_change_of, slack, RN. rewrite EndP3.pow48. cbn. lra.
Qed.
(** In the other direction, the weight is lower everywhere. *)
Example C82_ex_improvement : forall rho, in_bench_box (ex_bench 8) (ex_bench 5) rho ->
  let v := bench_weight Time rho (ex_bench 8) in let w := bench_weight Time rho (ex_bench 5) in (0 < v)%N /\ rel_change_of v w <= - (RN 10 + slack v w).
Proof.
  intros rho B. apply ex_box in B. cbv zeta. set (x := rho "s") in *.
  assert (E : forall c, bench_weight Time rho (ex_bench c) = (100000000 + 40601000 * c + (25000000 + 1300000 * c) * x)%N).
  { intros c. unfold bench_weight, time_of, linear, ex_bench. cbn [b_time b_slopes b_reads b_reads_by b_writes b_writes_by map total fold_right fst snd]. fold x. lia. }
  rewrite !E. split; [lia|].
  assert (X : 1 <= RN x <= 100) by (unfold RN; split; apply IZR_le; lia).
  assert (V : forall c, RN (100000000 + 40601000 * c + (25000000 + 1300000 * c) * x) = 100000000 + 40601000 * RN c + (25000000 + 1300000 * RN c) * RN x).
  { intros c. unfold RN. rewrite !N2Z.inj_add, !N2Z.inj_mul, !N2Z.inj_add, !N2Z.inj_mul, !plus_IZR, !mult_IZR, !plus_IZR, !mult_IZR. reflexivity. }
  unfold rel_change_of, slack. rewrite EndP3.pow48, !V. change (RN 10) with 10. change (RN 8) with 8. change (RN 5) with 5.
  set (v := 100000000 + 40601000 * 8 + (25000000 + 1300000 * 8) * RN x). set (w := 100000000 + 40601000 * 5 + (25000000 + 1300000 * 5) * RN x).
  assert (Vp : 0 < v) by (unfold v; lra). assert (Wr : w / v <= 88 / 100) by (apply Rmult_le_reg_r with v; [exact Vp|]; unfold Rdiv at 1; rewrite Rmult_assoc, Rinv_l by lra; unfold v, w; lra).
  replace (100 * (w - v) / v) with (100 * (w / v) - 100) by (field; lra). replace (100 * w / v) with (100 * (w / v)) by (field; lra). lra.
Qed.
