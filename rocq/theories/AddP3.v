(** Proofs about functions that only one version has: the page and the command line. *)
From Coq Require Import List String Ascii NArith ZArith Reals Lia Bool Permutation Sorted Floats.SpecFloat.
From Verif Require Import Base ScopeM TermM SpecTerm SpecChrom F64 SpecF64 CompareM SpecCompare RowsM SpecRows RowsP
  FmtM SpecFmt SynM AttrM ParseM SpecParse SpecAttr FilesM SpecFiles GitM SpecGit HtmlM HtmlP WebM PageM SiteM CliM SpecCli SpecWeb SpecSite ServerM IsoM SpecIso LiveM SpecLive
  SpecEnd SpecText SpecTmpl SpecShow ShowP ShowP2 ShowP3 SpecPrint PrintP SpecAdd AddP AddP2.
From Verif Require ChromP EndP EndP3 PageP DecP FilesP FmtP GitP ParseP3 SiteP IsoP3 LiveP TmplP3 TmplP5.
Import ListNotations.
Local Open Scope string_scope.

(** ** Absent functions *)
Lemma methods_named n items l e : handle_methods n items = Ok l -> In e l -> exists m, In m (methods items) /\ ename e = m_name m.
Proof.
  revert l. induction items as [|[m|] items IH]; intros l; cbn; [intros [= <-] []| |intros H I; destruct (IH l H I) as (m & J & Q); eauto].
  intros H. apply ChromP.bind_ok in H. destruct H as ([[name t] rs] & Hm & H). apply ChromP.bind_ok in H. destruct H as (rest & Hr & [= <-]).
  apply ParseP3.entry_shape in Hm. destruct Hm as (-> & _). intros [<-|I]; [exists m; split; [now left|reflexivity]|].
  destruct (IH rest Hr I) as (m' & J & Q). exists m'. split; [now right|exact Q].
Qed.
Lemma content_named n items l e : parse_content n (Some items) = Ok l -> In e l -> exists ty its m, In (IImpl ty its) items /\ In m (methods its) /\ ename e = m_name m.
Proof.
  cbn. induction items as [|i items IH]; cbn; [discriminate|].
  destruct (handle_item n i) as [l'| | |] eqn:E; try discriminate.
  - intros [= <-] I. destruct i as [ty its| | |]; try discriminate E. cbn in E. apply ChromP.bind_ok in E. destruct E as (u & _ & E). apply ChromP.bind_ok in E. destruct E as (ws & H & E).
    destruct ws; [discriminate|]. injection E as <-. destruct (methods_named n its _ e H I) as (m & J & Q). exists ty, its, m. auto.
  - intros H I. destruct (IH H I) as (ty & its & m & J & Q). exists ty, its, m. auto.
Qed.
Lemma text_absent syn texts p name n f xs : reads_grammar syn -> text_lacks (texts p) name -> disk_of syn texts p = inr f -> parse_content n f = Ok xs -> forall e, In e xs -> ename e <> name.
Proof.
  intros Hs [(er & T)|(u & v & d & T & U & V & D & Nb)] F P e I; unfold disk_of in F; rewrite T in F; [discriminate F|]. injection F as <-.
  destruct (syn (file_text u v d)) as [items|] eqn:Sy; [|discriminate P].
  assert (items = TmplP3.items_of v d). { assert (Q : syn (file_text u v d) = Some (TmplP3.items_of v d)) by (apply Hs; [now apply TmplP3.file_items|congruence]). congruence. }
  subst items. destruct (content_named _ _ _ _ P I) as (ty & its & m & J & K & ->).
  assert (X : exists rocks, its = TmplP3.fns v rocks d).
  { unfold TmplP3.items_of in J. destruct (TmplP3.runtime_style d); cbn in J; repeat (destruct J as [J|J]; [try discriminate J; injection J as _ <-; eauto|]); destruct J. }
  destruct X as (rocks & ->). unfold TmplP3.fns in K. rewrite TmplP5.methods_fns in K. apply in_map_iff in K. destruct K as (b & <- & K). exact (Nb b K).
Qed.
Lemma gathers_in (parse : fpath -> outcome (list cextrinsic)) files l e : gathers parse files l -> In e l -> exists p xs, In p files /\ parse p = Ok xs /\ In e xs.
Proof.
  induction 1 as [|p ps xs l P G IH|p ps er l P G IH]; intros I; [destruct I| |].
  - apply in_app_or in I. destruct I as [I|I]; [exists p, xs; repeat split; auto; now left|]. destruct (IH I) as (q & ys & J & K). exists q, ys. split; [now right|exact K].
  - destruct (IH I) as (q & ys & J & K). exists q, ys. split; [now right|exact K].
Qed.
Lemma files_absent syn texts ignore files l k : reads_grammar syn -> entries_of (parse_file (disk_of syn texts)) ignore files l -> files_lack texts files k -> is_first l k None.
Proof.
  intros Hs En La e I K. assert (G : gathers (parse_file (disk_of syn texts)) files l) by (destruct ignore; [exact En|now apply FilesP.all_gathers]).
  destruct (gathers_in _ _ _ _ G I) as (p & xs & J & P & Ie). apply FilesP.file_ok in P. destruct P as (f & n & D & Nm & P).
  pose proof (FilesP.content_pallet _ _ _ P) as Fp. rewrite Forall_forall in Fp. rewrite <- K in La. cbn [fst snd ext_key] in La. 
  apply (text_absent syn texts p (ename e) n f xs Hs) with (e := e); auto. apply La; auto. unfold ext_key. cbn [fst]. rewrite (Fp e Ie). exact Nm.
Qed.
Lemma load_absent syn {W} (texts : W -> fpath -> string + string) (glob : W -> string -> option (list (option fpath))) repo ps pat mx w l k : reads_grammar syn ->
  load glob (fun w => disk_of syn (texts w)) repo ps pat mx w = Ok l -> data_lacks (glob w) (texts w) repo pat k -> is_first l k None.
Proof.
  intros Hs L [B La] e I K. unfold load in L. apply ChromP.bind_ok in L. destruct L as (paths & Lf & L).
  assert (G : gathers (parse_file_in_repo (disk_of syn (texts w)) repo) paths l).
  { destruct (g_ignore_errors ps); [now apply FilesP.try_all_ok|]. apply FilesP.all_gathers. now apply FilesP.parse_all_ok. }
  destruct (gathers_in _ _ _ _ G I) as (p & xs & J & P & Ie). apply FilesP.file_in_repo_ok in P. destruct P as (f & n & D & Sn & P).
  pose proof (FilesP.content_pallet _ _ _ P) as Fp. rewrite Forall_forall in Fp.
  assert (Li : listed (glob w) repo pat p).
  { pose proof (FilesP.split_parts pat) as PP. destruct (FilesP.list_files_ok _ _ _ _ _ _ PP Lf) as (found & F2 & So & Ip & _).
    apply Ip in J. destruct J as [(fs & If & Iq) Nq]. split; auto. exists (split_char "," pat).
    assert (X : exists part, In part (split_char "," pat) /\ lists (glob w) repo part fs).
    { clear -F2 If. induction F2 as [|a b ll ll' Hab F2 IH]; [destruct If|]. destruct If as [->|If]; [exists a; split; [now left|auto]|].
      destruct (IH If) as (part & Hp1 & Hp2). exists part. split; [now right|auto]. }
    destruct X as (part & X1 & X2). exists part, fs. auto. }
  destruct (B p Li) as (rest & Br). rewrite (FilesP.strip_below _ _ _ Br) in Sn. injection Sn as <-.
  apply (text_absent syn (texts w) p (snd k) (path_text rest) f xs Hs) with (e := e); auto.
  - apply (La p rest); auto. rewrite <- (Fp e Ie), <- K. reflexivity.
  - rewrite <- K. reflexivity.
Qed.

(** ** Both versions *)
Section Data.
  Variables (syn : string -> option (list item)) (tglob : N -> string -> option (list (option fpath))) (texts : N -> fpath -> string + string).
  Variables (m : mode) (ords : string * string -> list string -> list string) (rx : regex_engine) (repo : fpath).
  Variables (cps : cparams) (ps : gparams) (f : fparams) (pat : string) (mx : nat) (c_old c_new : N) (rows : list row).
  Hypotheses (Hsyn : reads_grammar syn)
    (C : compare_trees tglob (fun c => disk_of syn (texts c)) m ords rx repo cps ps f pat mx c_old c_new = Ok rows).
  Definition data_only (o : only) : string * string -> bench -> Prop :=
    only_in o (data_source_of syn (tglob c_old) (texts c_old) repo pat) (data_source_of syn (tglob c_new) (texts c_new) repo pat)
      (data_lacks (tglob c_old) (texts c_old) repo pat) (data_lacks (tglob c_new) (texts c_new) repo pat).
  Lemma only_entries : exists olds news, compare_files m ords rx olds news cps f = Ok rows /\ forall o k b, data_only o k b -> side_entries o olds news k b.
  Proof.
    destruct (EndP3.trees_inv tglob _ m ords rx repo _ _ _ _ _ _ _ _ C) as (olds & news & Lo & Ln & E).
    exists olds, news. split; [exact E|].
    assert (Eo : forall k b, data_source_of syn (tglob c_old) (texts c_old) repo pat k b -> bench_entry olds k b).
    { intros k b S; destruct (TmplP5.data_source _ _ _ _ _ _ _ S) as (v & st & V & B & Fs & S'). exists v, st. split; [exact V|]. split; [exact B|]. split; [exact Fs|]. eapply EndP3.load_entry; [exact Lo|]; now apply TmplP5.text_source. }
    assert (En : forall k b, data_source_of syn (tglob c_new) (texts c_new) repo pat k b -> bench_entry news k b).
    { intros k b S; destruct (TmplP5.data_source _ _ _ _ _ _ _ S) as (v & st & V & B & Fs & S'). exists v, st. split; [exact V|]. split; [exact B|]. split; [exact Fs|]. eapply EndP3.load_entry; [exact Ln|]; now apply TmplP5.text_source. }
    intros [|] k b [H1 H2]; split; auto; [exact (load_absent syn texts tglob repo ps pat mx c_old olds k Hsyn Lo H1)|exact (load_absent syn texts tglob repo ps pat mx c_new news k Hsyn Ln H2)].
  Qed.
End Data.

(** ** The page *)
Lemma selects_all {A} (P : A -> Prop) l l' x : selects P l l' -> In x l -> P x -> In x l'.
Proof. induction 1 as [|y l l' Py S IH|y l l' Py S IH]; cbn; auto. - intros [->|I] Px; [now left|right; auto]. - intros [->|I] Px; [contradiction|auto]. Qed.
Lemma forall2_in_l {A B} (P : A -> B -> Prop) l l' x : Forall2 P l l' -> In x l -> exists y, In y l' /\ P x y.
Proof. induction 1 as [|a b l l' H F IH]; [intros []|]. intros [->|I]; [exists b; split; [now left|exact H]|]. destruct (IH I) as (y & J & K). exists y. split; [now right|exact K]. Qed.
Lemma tr_alone m args org r c tr s v : row_html m args org r c = Ok tr -> tc_old_v c = old_value s v -> tc_new_v c = new_value s v -> tc_change c = kind s -> (v < u128_bound)%N ->
  tr_shows_alone (wa_unit args) (row_key r) s v tr.
Proof.
  intros H Hv Hw Hc L. destruct (PageP.columns_lemma _ _ _ _ _ _ H) as (col & key & a2 & a3 & a4 & a5 & a6 & _ & _ & X). cbv zeta in X. rewrite Hv, Hw in X.
  destruct X as (_ & K3 & K4 & _ & _ & E).
  set (cv := fun x : option N => match x with Some v => escape (fmt_value (wa_unit args) v) | None => "-" end).
  assert (Vc : forall a x, (x = Some v \/ x = None) -> sort_key a (match x with Some v => Z.of_N v | None => 0%Z end) -> opt_cell (wa_unit args) x (cell a (cv x))).
  { intros a x [->| ->] Ka; [|exists a; split; [reflexivity|exact Ka]]. exists a, (escape (fmt_value (wa_unit args) v)), (fmt_value (wa_unit args) v). split; [reflexivity|]. split; [exact Ka|]. split; [apply escaped|].
    destruct (FmtP.fmt_value_lemma (wa_unit args)) as [F _]. exact (F v L). }
  eexists (escape (row_file r)), a2, (escape (row_name r)), _, (cell a3 (cv (old_value s v))), (cell a4 (cv (new_value s v))), a5, a6, col, _, _, _.
  split; [apply escaped|]. split; [apply escaped|]. split; [apply Vc; [destruct s; auto|exact K3]|]. split; [apply Vc; [destruct s; auto|exact K4]|].
  rewrite E, Hc. cbn [combine map fst snd row_key]. rewrite !concat_cons. cbn [String.concat]. rewrite !DecP.app_str_assoc. destruct s; reflexivity.
Qed.
Section Page.
  Variables (syn : string -> option (list item)) (tglob : N -> string -> option (list (option fpath))) (texts : N -> fpath -> string + string).
  Variables (m : mode) (ords : string * string -> list string -> list string) (rx : regex_engine) (repo : fpath).
  Variables (a : web_args) (ps : gparams) (pat : string) (mx : nat) (c_old c_new : N) (rows v : list row) (org results head : string).
  Hypotheses (Hsyn : reads_grammar syn) (Hords : forall k, is_order (ords k)) (M : low_side (wa_method a) = Low) (Th : (wa_threshold a < 2 ^ 32)%N)
    (C : compare_trees tglob (fun c => disk_of syn (texts c)) m ords rx repo (web_params a) ps (web_filter a) pat mx c_old c_new = Ok rows)
    (So : sort_changes (filter_changes rows (web_filter a)) v) (Pg : page_results m a org v = Ok results).
  Lemma page_only : tells_only (data_only syn tglob texts repo pat c_old c_new) rx a (head ++ results).
  Proof.
    destruct (only_entries syn tglob texts m ords rx repo (web_params a) ps (web_filter a) pat mx c_old c_new rows Hsyn C) as (olds & news & E & En).
    destruct (PageP.body_lemma _ _ _ _ _ Pg) as (shown & trs & top & Se & F & Er). exists (head ++ top), trs.
    split; [rewrite Er; now rewrite DecP.app_str_assoc|].
    assert (Dt : is_double (f_threshold (web_filter a))) by (eapply EndP.threshold_double; exact (EndP3.int_threshold _ Th)).
    assert (Sm : forall r, In r v <-> In r (filter_changes rows (web_filter a))).
    { intros r. destruct (RowsP.sort_lemma _ _ So) as (P & _). split; intros I; (eapply Permutation_in; [|exact I]); [now apply Permutation_sym|exact P]. }
    pose proof (fun s k b r => lone_row m ords rx olds news (wa_method a) (wa_unit a) (web_filter a) rows Hords M E s k b r) as Lr.
    split.
    - intros o k b Oh Pp Pe Ta. apply En in Oh. destruct (lone_exists m ords rx olds news (wa_method a) (wa_unit a) (web_filter a) rows E o k b Oh Pp Pe) as (r & I & K).
      assert (Iv : In r v).
      { apply Sm. apply (lone_kept m ords rx olds news (wa_method a) (wa_unit a) (web_filter a) rows Hords M E o k b r Oh Ta Dt I K). right. intros ks Q. discriminate Q. }
      destruct (Lr o k b r Oh Ta I K) as [[(e & Fe & Oc) Inc]|(c & x & Rp & Le & Lx & Ck & Ov & Nv)].
      + right. split; [exact Inc|]. exists e. split; [exact Oc|]. apply PageP.occurs_right. now apply (proj1 (PageP.page_lemma _ _ _ _ _ Pg) r).
      + left. assert (Is : In r shown) by (eapply selects_all; [exact Se|exact Iv|exact (reports_not_failed _ _ Rp)]).
        destruct (forall2_in_l _ _ _ _ F Is) as (tr & It & c' & Rp' & H). rewrite (reports_fun _ _ _ Rp' Rp) in *.
        exists tr, x. split; [exact It|]. split; [exact Le|]. subst k. eapply tr_alone; eauto.
    - apply Forall_forall. intros tr I. apply (Forall2_in_r _ _ _ _ F) in I. destruct I as (r & Ir & c & Rp & H).
      assert (Iv : In r v) by exact (proj1 (EndP3.selects_sound _ _ _ _ Se Ir)). exists (row_key r). split.
      { destruct (PageP.columns_lemma _ _ _ _ _ _ H) as (col & key & a2 & a3 & a4 & a5 & a6 & _ & _ & X). cbv zeta in X. destruct X as (_ & _ & _ & _ & _ & ->).
        cbn [row_key fst snd]. eexists. reflexivity. }
      intros o b Oh Ta. apply En in Oh. apply Sm in Iv. apply EndP.filter_in in Iv.
      destruct (Lr o _ b r Oh Ta Iv eq_refl) as [[(e & Fe & _) _]|(c' & x & Rp' & Le & Lx & Ck & Ov & Nv)]; [exfalso; apply (reports_not_failed _ _ Rp); exists e; exact Fe|].
      rewrite (reports_fun _ _ _ Rp' Rp) in *. exists x. split; [exact Le|]. eapply tr_alone; eauto.
  Qed.
End Page.
Section Requests.
  Context (tglob : N -> string -> option (list (option fpath))) (texts : N -> fpath -> string + string) (syn : string -> option (list item))
    (m : mode) (ords : string * string -> list string -> list string) (rx : regex_engine) (shards : nat) (shard : string -> nat).
  Lemma only_shown remote exists_ is_dir root static names repos ws0 now rs h s ws l i t ent version q run page :
    reads_grammar syn -> (forall k, is_order (ords k)) -> (0 < shards)%nat ->
    SiteM.start remote exists_ is_dir root static names = Ok repos -> Forall (fun n => plain (CName n)) names ->
    lrun tglob (fun c => disk_of syn (texts c)) m ords rx shards shard (is_known repos) (dir_of repos) (istart ws0 now rs) h (s, ws, l) ->
    (forall a org rows cached, asks ent (map (fun p => (fst p, sr_org (snd p))) repos) q a org -> run a = Ok (rows, cached) -> answered_at (s_log s) i a rows t) ->
    compare_answer ent version m repos q run = Ok (200%nat, page) ->
    exists a org, asks ent (map (fun p => (fst p, sr_org (snd p))) repos) q a org /\ let d := dir_of repos (wa_repo a) in
      forall old new pat, low_side (wa_method a) = Low -> wa_pull a <> Some false ->
      trimmed (wa_old a) old -> trimmed (wa_new a) new -> trimmed (wa_pattern a) pat ->
      unambiguous (ws0 d) old -> unambiguous (ws0 d) new -> branch_name h d old -> branch_name h d new ->
      exists j t0 c_old c_new, (t0 <= t < t0 + 600000)%N /\ looked_up h d j a old new c_old c_new t0 /\
        let has c := data_source_of syn (tglob c) (texts c) d pat in let lacks c := data_lacks (tglob c) (texts c) d pat in
        tells_only (fun o => only_in o (has c_old) (has c_new) (lacks c_old) (lacks c_new)) rx a page.
  Proof.
    intros Hs Or Sh St Pl R Hrun An. pose proof (proj1 (SiteP.start_lemma _ _ _ _ _ _ _) St) as (_ & _ & _ & Sorted & _).
    destruct (SiteP.answer_200 ent version m repos q run page Sorted An) as (a & org & diff & cached & results & As & Ra & Pg & ->).
    exists a, org. split; [exact As|]. cbv zeta. intros old new pat Me Pu To Tn Tp Uo Un Bo Bn.
    destruct (LiveP.live_lemma tglob _ m ords rx shards shard (is_known repos) (dir_of repos) (IsoP3.own_lemma _ _ _ _ _ _ _ St Pl) ws0 now rs h s ws l i a diff t old new pat Sh R
      (Hrun _ _ _ _ As Ra) Pu To Tn Tp Uo Un Bo Bn) as (j & t0 & c_old & c_new & rs0 & _ & _ & Tt & L & C & So).
    exists j, t0, c_old, c_new. split; [exact Tt|]. split; [exact L|]. pose proof (asks_threshold _ _ _ _ _ As) as Th.
    exact (page_only syn tglob texts m ords rx _ a _ pat _ c_old c_new _ diff org results _ Hs Or Me Th C So Pg).
  Qed.
End Requests.

(** ** The command line *)
Section Table.
  Context (dbg : sscope -> string) (rxr : string -> option (string -> option string)) (render : bool -> list string -> list (list string) -> string).
  Variables (m : mode) (ords : string * string -> list string -> list string) (rx : regex_engine) (olds news : list cextrinsic).
  Variables (meth : CompareM.method) (d : dimension) (f : fparams) (rows : list row) (fp : format_params) (verbose : bool) (out : list string).
  Variable (only_has : only -> string * string -> bench -> Prop).
  Hypotheses (Hords : forall k, is_order (ords k)) (M : low_side meth = Low)
    (E : compare_files m ords rx olds news {| p_method := meth; p_unit := d |} f = Ok rows) (Dt : is_double (f_threshold f))
    (En : forall o k b, only_has o k b -> side_entries o olds news k b)
    (Pr : printable fp) (Sh : show dbg rxr render (Ok rows) f verbose fp d (out, Ok Datatypes.tt)).
  Lemma record_lone s k b r rec : side_entries s olds news k b -> tame_alone d b -> In r rows -> row_key r = k -> record_for rxr fp d r rec ->
    is_failed r /\ error_record rxr fp k rec /\ incomparable meth (uses b) (range_in b) \/
    ~ is_failed r /\ exists v, least_weight d b v /\ record_alone rxr fp d k s v rec.
  Proof.
    intros Se Ta I K Rc. destruct (lone_row m ords rx olds news meth d f rows Hords M E s k b r Se Ta I K) as [[(e & F & O) Inc]|(c & v & Rp & Le & Lv & Ck & Ov & Nv)].
    - left. assert (Fa : is_failed r) by (exists e; exact F). split; [exact Fa|]. split; [|exact Inc].
      destruct Rc as [rec _ Er|c path terms Rp _ _]; [now rewrite <- K|exfalso; exact (reports_not_failed _ _ Rp Fa)].
    - right. split; [exact (reports_not_failed _ _ Rp)|]. exists v. split; [exact Le|].
      destruct Rc as [rec Fa _|c' path terms Rp' P L]; [exfalso; exact (reports_not_failed _ _ Rp Fa)|].
      rewrite (reports_fun _ _ _ Rp' Rp), Ov, Nv, Ck. exists path, (fmt_opt_value d (old_value s v)), (fmt_opt_value d (new_value s v)), (color_percent (tc_percent c) (kind s) (fp_no_color fp)), terms.
      subst k. split; [reflexivity|]. split; [exact P|]. pose proof (value_shown d v Lv) as Vs.
      destruct s; (split; [first [reflexivity|exact Vs]|]; split; [first [reflexivity|exact Vs]|]; split; [|exact L]); destruct (fp_no_color fp); reflexivity.
  Qed.
  Lemma only_table : exists table, prints render fp verbose out (map snd table) /\ prints_only rxr fp only_has rx meth d f table.
  Proof.
    assert (Ty : typed_rows rows) by (eapply typed_lemma; eauto).
    destruct (table_lemma dbg rxr render rows f verbose fp d out Dt Ty Pr Sh) as (tab & Po & (rest & Pe & Re) & Fr). rewrite Forall_forall in Fr.
    set (table := map (fun x => (row_key (fst x), snd x)) tab). exists table.
    assert (Tin : forall r rec, In (r, rec) tab -> In r (filter_changes rows f)).
    { intros r rec I. eapply Permutation_in; [apply Permutation_sym, Pe|]. apply in_or_app. right. apply in_map_iff. exists (r, rec). auto. }
    assert (Cov : forall r, In r (filter_changes rows f) -> fp_format fp = CSV /\ is_failed r \/ exists rec, In (r, rec) tab /\ In (row_key r, rec) table).
    { intros r I. apply (Permutation_in _ Pe) in I. apply in_app_or in I. destruct I as [I|I]; [left; auto|right]. apply in_map_iff in I. destruct I as ([r' rec] & <- & I).
      exists rec. split; [exact I|]. apply in_map_iff. exists (r', rec). auto. }
    split; [unfold table; rewrite map_map; exact Po|]. split; [|split].
    - intros o k b Oh Pp Ppe Ks Ta. apply En in Oh. destruct (lone_exists m ords rx olds news meth d f rows E o k b Oh Pp Ppe) as (r & I & K).
      assert (If : In r (filter_changes rows f)) by (apply (lone_kept m ords rx olds news meth d f rows Hords M E o k b r Oh Ta Dt I K); now right).
      destruct (Cov r If) as [[Fc Fa]|(rec & It & Ik)].
      { right. split; [|now left]. destruct (lone_row m ords rx olds news meth d f rows Hords M E o k b r Oh Ta I K) as [[_ Inc]|(c & v & Rp & _)]; [exact Inc|exfalso; exact (reports_not_failed _ _ Rp Fa)]. }
      rewrite K in Ik. pose proof (Fr _ It) as Rf. cbn [fst snd] in Rf.
      destruct (record_lone o k b r rec Oh Ta I K Rf) as [(Fa & Er & Inc)|(_ & v & Le & Rs)].
      + right. split; [exact Inc|]. right. exists rec. auto.
      + left. exists rec, v. auto.
    - unfold table. rewrite map_map. cbn [fst]. destruct (rows_lemma m ords rx olds news _ f rows E) as [So _].
      assert (Nd : NoDup (map row_key rows)).
      { clear -So. induction So as [|k l S IH F]; constructor; auto. intros I. rewrite Forall_forall in F. apply F in I. apply key_before_cmp in I. now rewrite (cmp_refl _ key_cmp_strict) in I. }
      assert (Nf : NoDup (map row_key (filter_changes rows f))) by (unfold filter_changes; now apply nodup_filter).
      apply (Permutation_map row_key) in Pe. apply (Permutation_NoDup Pe) in Nf. rewrite map_app, map_map in Nf. now apply nodup_right in Nf.
    - apply Forall_forall. intros [k rec] I. apply in_map_iff in I. destruct I as ([r rec'] & Ek & It). cbn [fst snd] in Ek. injection Ek as <- <-.
      intros o b Oh Ta. apply En in Oh. pose proof (Tin _ _ It) as I. pose proof (EndP.filter_in _ _ _ I) as Ir. pose proof (Fr _ It) as Rf. cbn [fst snd] in Rf.
      destruct (record_lone o (row_key r) b r rec' Oh Ta Ir eq_refl Rf) as [(Fa & Er & Inc)|(Nf & v & Le & Rs)]; [left; auto|right].
      split; [|exists v; auto]. apply (lone_kept m ords rx olds news meth d f rows Hords M E o _ b r Oh Ta Dt Ir eq_refl) in I. destruct I as [I|I]; [contradiction|exact I].
  Qed.
End Table.
Section Commands.
  Context (dbg : sscope -> string) (rxr : string -> option (string -> option string)) (render : bool -> list string -> list (list string) -> string).
  Variables (syn : string -> option (list item)) (m : mode) (ords : string * string -> list string -> list string) (rx : regex_engine).
  Lemma files_only texts meth d ps f verbose fp old new out : reads_grammar syn -> (forall k, is_order (ords k)) -> low_side meth = Low ->
    is_double (f_threshold f) -> printable fp ->
    cli_compare_files dbg rxr render (disk_of syn texts) m ords rx {| p_method := meth; p_unit := d |} ps f verbose fp old new (out, Ok Datatypes.tt) ->
    exists table, prints render fp verbose out (map snd table) /\
      prints_only rxr fp (fun o => only_in o (file_source_of syn texts old) (file_source_of syn texts new) (files_lack texts old) (files_lack texts new)) rx meth d f table.
  Proof.
    intros Hs Ho M HT Pr S. unfold cli_compare_files in S. destruct (show_ok _ _ _ _ _ _ _ _ _ S) as (rows & E). rewrite E in S.
    destruct (if g_ignore_errors ps then try_parse_files (disk_of syn texts) old else parse_files (disk_of syn texts) old) as [lo| | |] eqn:Eo; try discriminate E. cbn [bind] in E.
    destruct (if g_ignore_errors ps then try_parse_files (disk_of syn texts) new else parse_files (disk_of syn texts) new) as [ln| | |] eqn:En; try discriminate E. cbn [bind] in E.
    apply reads_lemma in Eo, En. eapply (only_table dbg rxr render m ords rx lo ln meth d f rows fp verbose out); eauto.
    intros [|] k b [H1 H2]; split.
    - exact (files_absent syn texts _ old lo k Hs Eo H1).
    - exact (file_entry syn texts Hs _ new ln k b En H2).
    - exact (file_entry syn texts Hs _ old lo k b Eo H1).
    - exact (files_absent syn texts _ new ln k Hs En H2).
  Qed.
  Lemma commits_only tglob texts repo meth d ps f verbose fp old new pat mx s c_old c_new out : reads_grammar syn -> (forall k, is_order (ords k)) -> low_side meth = Low ->
    is_double (f_threshold f) -> printable fp -> stand_for s ps old new c_old c_new ->
    cli_compare_commits dbg rxr render run_git (fun s => tglob (r_work s)) (fun s => disk_of syn (texts (r_work s))) m ords rx {| p_method := meth; p_unit := d |} ps f verbose fp old new repo pat mx s (out, Ok Datatypes.tt) ->
    let has c := data_source_of syn (tglob c) (texts c) repo pat in let lacks c := data_lacks (tglob c) (texts c) repo pat in
    exists table, prints render fp verbose out (map snd table) /\
      prints_only rxr fp (fun o => only_in o (has c_old) (has c_new) (lacks c_old) (lacks c_new)) rx meth d f table.
  Proof.
    intros Hs Ho M HT Pr St S. unfold cli_compare_commits in S. destruct (show_ok _ _ _ _ _ _ _ _ _ S) as (rows & E).
    assert (Dt : ~ has_dots pat).
    { intros Hd. unfold compare_commits in E. apply GitP.contains_spec in Hd. rewrite Hd in E. discriminate E. }
    destruct (stand_for_trees m ords rx tglob (fun c => disk_of syn (texts c)) repo old new {| p_method := meth; p_unit := d |} ps f pat mx s c_old c_new Dt St) as (s' & t & C).
    rewrite C in *. cbn [fst] in *. rewrite E in S.
    destruct (only_entries syn tglob texts m ords rx repo _ ps f pat mx c_old c_new rows Hs E) as (olds & news & Ef & En).
    cbv zeta. eapply (only_table dbg rxr render m ords rx olds news meth d f rows fp verbose out); eauto.
  Qed.
End Commands.
