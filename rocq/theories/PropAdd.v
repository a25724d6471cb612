(** Property C84: functions that only one of the two versions has. *)
From Coq Require Import List String Ascii Arith NArith ZArith Bool Lia.
From Verif Require Import Base ScopeM TermM SpecTerm F64 SpecF64 CompareM SpecCompare RowsM SpecRows FmtM SpecFmt SynM ParseM SpecParse SpecAttr StorageM FilesM SpecFiles GitM SpecGit WebM SpecWeb
  PageM SiteM SpecSite ServerM SpecServer IsoM SpecIso CliM SpecCli SpecEnd GramM SpecText SpecTmpl TmplX LiveM SpecLive SpecShow SpecPrint SpecAdd.
From Verif Require EndP3 RowsP SiteP PropGit PropEnd PropCli PropIso PropText PropShow PropPrint IsoP3 LiveP2 AddP AddP2 AddP3.
Import ListNotations.
Local Open Scope string_scope.

(** ** C84: functions that were added or removed are always shown, with their least weight. *)
(** A comparison with one version reports the corner in which all components have their lower values: their minima with most of the methods,
    their maxima with the asymptotic ones. *)
Theorem C84_corner : forall m ord o n e ps tc, is_order ord -> o = None /\ n = Some e \/ o = Some e /\ n = None -> proper o n ->
  compare_extrinsics m ord o n ps = Ok tc -> let d := p_unit ps in
  is_corner (storage_scope d) o n (p_method ps) (tc_scope tc) /\
  (forall c, SpecCompare.component storage_var o n c -> exists v, scope_get (tc_scope tc) c = Some (Scalar v) /\ inst (low_side (p_method ps)) (annotations o n c) v).
Proof. exact AddP.lone_first. Qed.
Print Assumptions C84_corner.
(** So it reports the least weight that the function can have. *)
Theorem C84_least : forall m ord o n e meth d tc, is_order ord -> low_side meth = Low -> o = None /\ n = Some e \/ o = Some e /\ n = None -> proper o n -> typed e ->
  (m = Checked \/ forall rho, in_box d o n rho -> (poly_val rho (eterm e) < u128_bound)%N) ->
  compare_extrinsics m ord o n {| p_method := meth; p_unit := d |} = Ok tc ->
  exists rho, in_box d o n rho /\
    match o, n with
    | None, Some _ => tc_change tc = Added /\ tc_old_v tc = None /\ tc_new_v tc = Some (poly_val rho (eterm e))
    | Some _, None => tc_change tc = Removed /\ tc_old_v tc = Some (poly_val rho (eterm e)) /\ tc_new_v tc = None
    | _, _ => False
    end /\
    forall rho', in_box d o n rho' -> (poly_val rho (eterm e) <= poly_val rho' (eterm e))%N.
Proof. exact AddP.lone_value. Qed.
Print Assumptions C84_least.
(** The worst case of an added function is not what the methods with this name report: its weight can be greater in the ranges. *)
Definition ex_term : sterm := Add (Value 10%N) (Mul (Value 3%N) (Var "s")).
Definition ex_ext : sextrinsic := mk_ext "f" "x.rs" ex_term (Some [("s", mk_range 1 100)]).
Theorem C84_worst_refuted : exists meth e tc v rho, (meth = ExactWorst \/ meth = GuessWorst) /\ proper None (Some e) /\ typed e /\
  compare_extrinsics Checked (fun l => l) None (Some e) {| p_method := meth; p_unit := Time |} = Ok tc /\ tc_new_v tc = Some v /\
  in_box Time None (Some e) rho /\ (v < poly_val rho (eterm e))%N.
Proof.
  assert (H : match compare_extrinsics Checked (fun l => l) None (Some ex_ext) {| p_method := ExactWorst; p_unit := Time |} with Ok tc => tc_new_v tc = Some 13%N | _ => False end) by (vm_compute; reflexivity).
  destruct (compare_extrinsics Checked (fun l => l) None (Some ex_ext) {| p_method := ExactWorst; p_unit := Time |}) as [tc| | |] eqn:E; try contradiction.
  exists ExactWorst, ex_ext, tc, 13%N, (fun c => if String.eqb c "READ" then 25000000%N else if String.eqb c "WRITE" then 100000000%N else 100%N).
  split; [now left|]. split; [|split; [|split; [exact E|split; [exact H|split; [|vm_compute; reflexivity]]]]].
  - intros c r I. assert (A : r = mk_range 1 100).
    { change (annotations None (Some ex_ext) c) with (match mget str_cmp c [("s", mk_range 1 100)] with Some x => [x] | None => [] end) in I.
      cbn [mget] in I. destruct (str_cmp c "s") in I; [destruct I as [<-|[]]; reflexivity|destruct I|destruct I]. }
    subst r. vm_compute. discriminate.
  - split.
    + cbn. rewrite u128_bound_eq. lia.
    + intros rm c r Q I. injection Q as <-. unfold ranges_get in I. cbn [mget] in I. destruct (str_cmp c "s") in I; try discriminate I. injection I as <-. split; reflexivity.
  - split; [reflexivity|]. split; [reflexivity|]. intros c [(e & [Q|Q] & O) S]; [discriminate Q|]. injection Q as <-.
    assert (c = "s"). { cbn in O. intuition auto. } subst c. exists 1%N, 100%N.
    split; [split; [now left|intros w [<-|[]]; cbn; lia]|]. split; [split; [now left|intros w [<-|[]]; cbn; lia]|]. cbn. lia.
Qed.
Print Assumptions C84_worst_refuted.

(** The page, with the same run of the server as in C82. *)
Theorem C84_page : forall tglob texts syn m ords rx shards shard remote exists_ is_dir root static names repos ws0 now rs h s ws l i t ent version q run page,
  reads_grammar syn -> (forall k, is_order (ords k)) -> (0 < shards)%nat ->
  SiteM.start remote exists_ is_dir root static names = Ok repos -> Forall (fun n => plain (CName n)) names ->
  lrun tglob (fun c => disk_of syn (texts c)) m ords rx shards shard (is_known repos) (dir_of repos) (istart ws0 now rs) h (s, ws, l) ->
  (forall a org rows cached, asks ent (map (fun p => (fst p, sr_org (snd p))) repos) q a org -> run a = Ok (rows, cached) -> answered_at (s_log s) i a rows t) ->
  compare_answer ent version m repos q run = Ok (200%nat, page) ->
  exists a org, asks ent (map (fun p => (fst p, sr_org (snd p))) repos) q a org /\ let d := dir_of repos (wa_repo a) in
    forall old new pat, low_side (wa_method a) = Low -> wa_pull a <> Some false ->
    trimmed (wa_old a) old -> trimmed (wa_new a) new -> trimmed (wa_pattern a) pat ->
    SpecGit.unambiguous (ws0 d) old -> SpecGit.unambiguous (ws0 d) new -> branch_name h d old -> branch_name h d new ->
    exists j t0 c_old c_new, (t0 <= t < t0 + 600000)%N /\ looked_up h d j a old new c_old c_new t0 /\
      let has c := data_source_of syn (tglob c) (texts c) d pat in let lacks c := data_lacks (tglob c) (texts c) d pat in
      tells_only (fun o => only_in o (has c_old) (has c_new) (lacks c_old) (lacks c_new)) rx a page.
Proof. exact AddP3.only_shown. Qed.
Print Assumptions C84_page.
(** The command line, as in C83. *)
Theorem C84_files : forall dbg rxr render syn m ords rx texts meth d ps f verbose fp old new out,
  reads_grammar syn -> (forall k, is_order (ords k)) -> low_side meth = Low -> is_double (f_threshold f) -> printable fp ->
  cli_compare_files dbg rxr render (disk_of syn texts) m ords rx {| p_method := meth; p_unit := d |} ps f verbose fp old new (out, Ok Datatypes.tt) ->
  exists table, prints render fp verbose out (map snd table) /\
    prints_only rxr fp (fun o => only_in o (file_source_of syn texts old) (file_source_of syn texts new) (files_lack texts old) (files_lack texts new)) rx meth d f table.
Proof. exact AddP3.files_only. Qed.
Print Assumptions C84_files.
Theorem C84_commits : forall dbg rxr render syn m ords rx tglob texts repo meth d ps f verbose fp old new pat mx s c_old c_new out,
  reads_grammar syn -> (forall k, is_order (ords k)) -> low_side meth = Low -> is_double (f_threshold f) -> printable fp ->
  stand_for s ps old new c_old c_new ->
  cli_compare_commits dbg rxr render run_git (fun s => tglob (r_work s)) (fun s => disk_of syn (texts (r_work s))) m ords rx {| p_method := meth; p_unit := d |} ps f verbose fp
    old new repo pat mx s (out, Ok Datatypes.tt) ->
  let has c := data_source_of syn (tglob c) (texts c) repo pat in let lacks c := data_lacks (tglob c) (texts c) repo pat in
  exists table, prints render fp verbose out (map snd table) /\
    prints_only rxr fp (fun o => only_in o (has c_old) (has c_new) (lacks c_old) (lacks c_new)) rx meth d f table.
Proof. exact AddP3.commits_only. Qed.
Print Assumptions C84_commits.

(** ** Examples *)
Example C84_ex : exists tc, compare_extrinsics Checked (fun l => l) (Some ex_ext) None {| p_method := GuessWorst; p_unit := Time |} = Ok tc /\
  tc_change tc = Removed /\ tc_old_v tc = Some 13%N /\ tc_new_v tc = None.
Proof.
  assert (H : match compare_extrinsics Checked (fun l => l) (Some ex_ext) None {| p_method := GuessWorst; p_unit := Time |} with
              | Ok tc => tc_change tc = Removed /\ tc_old_v tc = Some 13%N /\ tc_new_v tc = None | _ => False end) by (vm_compute; auto).
  destruct (compare_extrinsics Checked (fun l => l) (Some ex_ext) None {| p_method := GuessWorst; p_unit := Time |}) as [tc| | |]; try contradiction. exists tc. auto.
Qed.
(** The file before the function was added. *)
Definition ex_less : weights := {| w_style := Pallet_parts; w_preamble := w_preamble (ex_data 0); w_pallet := w_pallet (ex_data 0); w_benches := [ex_bench0] |}.
Definition ex_before : string := file_text grouped dec_of_N ex_less.
Lemma ex_lacks : text_lacks (inr ex_before) "f".
Proof.
  right. exists grouped, dec_of_N, ex_less. split; [reflexivity|]. split; [exact numerals_grouped|]. split; [exact numerals_dec|].
  split; [apply weights_okb_ok; vm_compute; reflexivity|]. intros b [<-|[]]. discriminate.
Qed.
Lemma ex_alone c d : (c <= 2 ^ 60)%N -> tame_alone d (ex_bench c).
Proof.
  intros C. destruct (ex_tame c c d C C) as [P W]. split; [intros x H; apply P; destruct H; auto|].
  intros rho H. apply W. apply AddP2.alone_box; [apply (ok_benches _ (ex_data_ok c C)); right; now left|exact H].
Qed.
Definition ex_dirs (p : fpath) : string + string := match p with [CName "old"; _] => inr ex_before | _ => inr (ex_text 8) end.
Example C84_ex_files : let f := PropPrint.ex_f in
  cli_compare_files PropCli.ex_dbg PropCli.ex_rxr PropCli.ex_render (disk_of read_items ex_dirs) Checked (fun _ l => l) RowsP.rx_all
    {| p_method := ExactWorst; p_unit := Time |} PropPrint.ex_ps f false (PropCli.ex_fp CSV false None) PropPrint.ex_old PropPrint.ex_new
    (PropPrint.ex_table "" "460.21us" "Added", Ok Datatypes.tt) /\
  is_double (f_threshold f) /\ kind_selected f Added /\ tame_alone Time (ex_bench 8) /\
  only_in In_new (file_source_of read_items ex_dirs PropPrint.ex_old) (file_source_of read_items ex_dirs PropPrint.ex_new)
    (files_lack ex_dirs PropPrint.ex_old) (files_lack ex_dirs PropPrint.ex_new) ("x.rs", "f") (ex_bench 8).
Proof.
  split; [|split; [|split; [|split]]].
  - apply PropPrint.ex_show. vm_compute. reflexivity.
  - reflexivity.
  - intros ks Q. discriminate Q.
  - now apply ex_alone.
  - split.
    + intros p [<-|[]] _. exact ex_lacks.
    + exists [CName "new"; CName "x.rs"], grouped, dec_of_N, (ex_data 8). split.
      { exists [], []. split; [reflexivity|]. split; [exists [CName "new"]; reflexivity|intros ? []]. }
      split; [reflexivity|]. split; [now apply PropPrint.ex_reads|]. split; [exact numerals_grouped|]. split; [exact numerals_dec|].
      split; [now apply ex_data_ok|]. split; [right; now left|reflexivity].
Qed.
(** With texts as in C82, but the function is new in the commits after 5. *)
Definition ex_new_texts (c : N) (p : fpath) : string + string := if (c <=? 5)%N then inr ex_before else inr (ex_text c).
Lemma ex_source c : (5 < c <= 2 ^ 60)%N -> data_source_of read_items PropIso.ex_xglob (ex_new_texts c) [CName "repos"; CName "x"] "*.rs" ("x.rs", "f") (ex_bench c).
Proof.
  intros C. destruct (PropShow.ex_source c) as (B & p & rest & u & v & d & L & Bp & P & T & A); [lia|]. split; [exact B|].
  exists p, rest, u, v, d. split; [exact L|]. split; [exact Bp|]. split; [exact P|]. split; [|exact A].
  unfold ex_new_texts. assert (K : (c <=? 5)%N = false) by (apply N.leb_gt; lia). rewrite K. exact T.
Qed.
Lemma ex_data_lacks c : (c <= 5)%N -> data_lacks PropIso.ex_xglob (ex_new_texts c) [CName "repos"; CName "x"] "*.rs" ("x.rs", "f").
Proof.
  intros C. destruct (PropShow.ex_source 0) as (B & _); [lia|]. split; [exact B|]. intros p rest _ _ _.
  unfold ex_new_texts. assert (K : (c <=? 5)%N = true) by (apply N.leb_le; lia). rewrite K. exact ex_lacks.
Qed.
(** The tag v1 stands for the commit 1, and dev stands for the commit 6 after the fetch; here the function is removed. *)
Example C84_ex_commits :
  cli_compare_commits PropCli.ex_dbg PropCli.ex_rxr PropCli.ex_render run_git (fun s => PropIso.ex_xglob) (fun s => disk_of read_items (ex_new_texts (r_work s))) Checked (fun _ l => l)
    RowsP.rx_all {| p_method := ExactWorst; p_unit := Time |} PropPrint.ex_ps PropPrint.ex_f false (PropCli.ex_fp CSV false None) "dev" "v1" [CName "repos"; CName "x"] "*.rs" 100 PropGit.ex_s
    (PropPrint.ex_table "376.41us" "" "Removed", Ok Datatypes.tt) /\
  stand_for PropGit.ex_s PropPrint.ex_ps "dev" "v1" 6 1 /\
  data_source_of read_items PropIso.ex_xglob (ex_new_texts 6) [CName "repos"; CName "x"] "*.rs" ("x.rs", "f") (ex_bench 6) /\
  data_lacks PropIso.ex_xglob (ex_new_texts 1) [CName "repos"; CName "x"] "*.rs" ("x.rs", "f").
Proof.
  split; [|split; [|split]].
  - apply PropPrint.ex_show. vm_compute. reflexivity.
  - destruct PropGit.C47_ex_pull as (Fo & Fn & _ & So & Sn & _). split; [intros _; split; [exact Fn|split; [exact Fo|discriminate]]|]. split; [exact Sn|exact So].
  - apply ex_source. lia.
  - apply ex_data_lacks. lia.
Qed.
Local Ltac go k rule := eapply IsoP3.cons_other with (i := k);
  [reflexivity|eapply rule; try reflexivity; try discriminate; try (repeat constructor; fail)|intros ? ?; discriminate|].
Local Ltac compare k :=
  go k t_start; go k t_next; go k t_drop; go k t_last; go k t_get_org; go k t_org; go k t_lock.
Definition ex_lrun := lrun (fun _ => PropIso.ex_xglob) (fun c => disk_of read_items (ex_new_texts c)) Checked (fun _ l => l) RowsP.rx_all 2 PropIso.ex_shard (is_known PropShow.ex_repos) (dir_of PropShow.ex_repos).
Example C84_ex_page : exists h v s ws l,
  ex_lrun (istart (fun _ => PropGit.ex_s) 0 [RCompare PropShow.ex_args; RCompare PropShow.ex_args]) h (s, ws, l) /\
  answered_at (s_log s) 1 PropShow.ex_args v 7 /\
  match compare_answer (fun s => s) "1" Checked PropShow.ex_repos PropShow.ex_query (fun _ => Ok (v, true)) with
  | Ok (200, page) => contains (cell " data-order='460208000'" "460.21us") page = true /\ contains (orange "Added") page = true
  | _ => False
  end.
Proof.
  edestruct (LiveP2.one_push (fun _ => PropIso.ex_xglob) (fun c => disk_of read_items (ex_new_texts c)) Checked (fun _ l => l) RowsP.rx_all 2 PropIso.ex_shard (is_known PropShow.ex_repos) (dir_of PropShow.ex_repos))
    with (dir := [CName "repos"; CName "x"]) (r := PropShow.ex_later) (a := istart (fun _ => PropGit.ex_s) 0 [RCompare PropShow.ex_args; RCompare PropShow.ex_args]) as (h & L & F).
  - compare 0%nat. go 0%nat t_miss. eapply IsoP3.cons_begin with (i := 0%nat); [reflexivity|apply t_get_mut; reflexivity|].
    apply IsoP3.cons_exec with (n := 2%nat) (i := 0%nat) (a := PropShow.ex_args) (q := web_prog Checked (fun _ l => l) RowsP.rx_all (dir_of PropShow.ex_repos) PropShow.ex_args); [reflexivity|].
    apply irun_nil.
  - eapply IsoP3.cons_exec with (n := 7%nat) (i := 0%nat); [reflexivity|].
    eapply IsoP3.cons_end with (i := 0%nat); [reflexivity|vm_compute; reflexivity|constructor; vm_compute; reflexivity|]. go 0%nat t_store.
    apply IsoP3.cons_time with (d := 7%N). compare 1%nat. go 1%nat t_hit. apply irun_nil.
  - exists h. eexists. eexists. eexists. eexists. split; [exact L|]. split; [left; left; reflexivity|]. vm_compute. split; reflexivity.
Qed.
