(** Proofs about what the page says: the page. *)
From Coq Require Import List String Ascii NArith ZArith Reals Lra Lia Bool Permutation Sorted Floats.SpecFloat.
From Flocq Require Import Core.Raux.
From Verif Require Import Base ScopeM TermM SpecTerm SpecChrom F64 SpecF64 CompareM SpecCompare CompareP RowsM SpecRows RowsP
  FmtM SpecFmt SynM AttrM ParseM SpecParse SpecAttr FilesM SpecFiles GitM SpecGit HtmlM HtmlP WebM PageM SiteM SpecCli SpecWeb SpecSite ServerM IsoM SpecIso LiveM SpecLive
  SpecEnd SpecText SpecTmpl SpecShow ShowP ShowP2.
From Verif Require EndP EndP3 PageP DecP RowsP SiteP IsoP3 LiveP TmplP5.
Import ListNotations.
Local Open Scope string_scope.
Local Open Scope R_scope.

Section Page.
  Variables (syn : string -> option (list item)) (tglob : N -> string -> option (list (option fpath))) (texts : N -> fpath -> string + string).
  Variables (m : mode) (ords : string * string -> list string -> list string) (rx : regex_engine) (repo : fpath).
  Variables (a : web_args) (ps : gparams) (pat : string) (mx : nat) (c_old c_new : N) (rows v : list row) (org results head : string).
  Hypotheses (Hsyn : reads_grammar syn) (Hords : forall k, is_order (ords k)) (M : wa_method a = ExactWorst \/ wa_method a = GuessWorst) (Th : (wa_threshold a < 2 ^ 32)%N)
    (C : compare_trees tglob (fun c => disk_of syn (texts c)) m ords rx repo (web_params a) ps (web_filter a) pat mx c_old c_new = Ok rows)
    (So : sort_changes (filter_changes rows (web_filter a)) v) (Pg : page_results m a org v = Ok results).
  Let old := data_source_of syn (tglob c_old) (texts c_old) repo pat.
  Let new := data_source_of syn (tglob c_new) (texts c_new) repo pat.
  Let page := head ++ results.
  Let z := (1000 * Z.of_N (wa_threshold a))%Z.

  Lemma z_eq : IZR z / 1000 = RN (wa_threshold a).
  Proof. apply EndP3.thousand. Qed.
  Lemma same_rows r : In r v <-> In r (filter_changes rows (web_filter a)).
  Proof. destruct (RowsP.sort_lemma _ _ So) as (P & _). split; intros I; (eapply Permutation_in; [|exact I]); [now apply Permutation_sym|exact P]. Qed.
  Lemma page_failed r k e : In r v -> row_diff r = DFailed e -> SpecWeb.occurs (fst k ++ "::" ++ snd k) e -> complains page k.
  Proof.
    intros I F O. exists e. split; [exact O|]. unfold page. apply PageP.occurs_right. now apply (proj1 (PageP.page_lemma _ _ _ _ _ Pg) r).
  Qed.
  Lemma page_row k bo bn r : old k bo -> new k bn -> tame_data (wa_unit a) bo bn -> In r v -> row_key r = k ->
    is_failed r /\ bench_incomparable (wa_method a) bo bn /\ complains page k \/
    exists c tr rho, let x := bench_weight (wa_unit a) rho bo in let y := bench_weight (wa_unit a) rho bn in
      reports r c /\ in_bench_box bo bn rho /\ row_html m a org r c = Ok tr /\ SpecWeb.occurs tr page /\
      tr_shows (wa_unit a) k x y (html_color_percent (tc_percent c) (tc_change c)) tr /\
      percent_text x y (html_color_percent (tc_percent c) Changed) /\ is_double (tc_percent c) /\
      (tc_change c = Changed /\ ((0 < x)%N -> RN (wa_threshold a) - slack x y <= Rabs (rel_change_of x y)) \/
       tc_change c = Unchanged /\ wa_threshold a = 0%N /\ forall rho, in_bench_box bo bn rho -> bench_weight (wa_unit a) rho bo = bench_weight (wa_unit a) rho bn).
  Proof.
    intros Oo On Td I K. apply same_rows in I as I'.
    destruct (data_row syn tglob texts m ords rx repo (wa_method a) (wa_unit a) ps (web_filter a) pat mx c_old c_new rows z Hsyn Hords M C (EndP3.int_threshold _ Th)
      k bo bn r Oo On Td I' K) as [[(e & F & O) Inc]|(c & rho & Rp & Bx & Lv & Lw & Ov & Nv & Pv & X)].
    - left. split; [exists e; exact F|]. split; [exact Inc|]. exact (page_failed r k e I F O).
    - right. destruct (proj2 (proj2 (PageP.page_lemma _ _ _ _ _ Pg)) r c I Rp) as (tr & H & Oc).
      exists c, tr, rho. cbv zeta. split; [exact Rp|]. split; [exact Bx|]. split; [exact H|]. split; [unfold page; now apply PageP.occurs_right|].
      split; [rewrite <- K; eapply tr_lemma; eauto|]. rewrite Pv. split; [now apply percent_shown|]. split; [apply RowsP.percent_double|].
      rewrite <- z_eq. destruct X as [X|(Q & Z0 & X)]; [left; exact X|right]. split; [exact Q|]. split; [unfold z in Z0; lia|exact X].
  Qed.

  Lemma page_truth : tells_truth old new a page.
  Proof.
    destruct (PageP.body_lemma _ _ _ _ _ Pg) as (shown & trs & top & Se & F & E). exists (head ++ top), trs.
    split; [unfold page; rewrite E; now rewrite DecP.app_str_assoc|].
    apply Forall_forall. intros tr I. apply (Forall2_in_r _ _ _ _ F) in I. destruct I as (r & Ir & c & Rp & H).
    assert (Iv : In r v) by exact (proj1 (EndP3.selects_sound _ _ _ _ Se Ir)). exists (row_key r). split.
    { destruct (PageP.columns_lemma _ _ _ _ _ _ H) as (col & key & a2 & a3 & a4 & a5 & a6 & _ & _ & X). cbv zeta in X. destruct X as (_ & _ & _ & _ & _ & ->).
      cbn [row_key fst snd]. eexists. reflexivity. }
    intros bo bn Oo On Td. destruct (page_row _ bo bn r Oo On Td Iv eq_refl) as [[Fa _]|(c' & tr' & rho & Rp' & Bx & H' & _ & Ts & Pt & _ & X)].
    { exfalso. exact (reports_not_failed _ _ Rp Fa). }
    rewrite (reports_fun _ _ _ Rp' Rp) in *. rewrite H in H'. injection H' as <-.
    exists rho, (html_color_percent (tc_percent c) (tc_change c)). split; [exact Bx|]. cbv zeta. split; [exact Ts|].
    destruct X as [(Q & X)|(Q & T0 & X)]; rewrite Q; [left; split; [exact Pt|exact X]|right]. split; [reflexivity|]. split; [exact T0|exact X].
  Qed.
  Lemma page_regressions : tells_regressions old new rx a page.
  Proof.
    intros k bo bn rho Oo On Pp Pe Td Bx. cbv zeta. intros T0 G.
    destruct (TmplP5.data_trees syn tglob texts m ords rx repo Hsyn Hords (wa_method a) (wa_unit a) ps (web_filter a) pat mx c_old c_new rows k bo bn rho z M C (EndP3.int_threshold _ Th))
      as (_ & r & I & K & Sh); auto.
    { intros ks Q. discriminate Q. }
    { now rewrite z_eq. }
    rewrite z_eq in Sh. apply same_rows in I.
    destruct (page_row k bo bn r Oo On Td I K) as [(_ & Inc & Co)|(c & tr & rho' & Rp & Bx' & H & Oc & Ts & Pt & Db & X)]; [right; auto|].
    destruct Sh as [Fa|(c' & Rp' & Q & Sh)]; [exfalso; exact (reports_not_failed _ _ Rp Fa)|]. rewrite (reports_fun _ _ _ Rp' Rp) in *. rewrite Q in Ts.
    assert (Tp : 0 < RN (wa_threshold a)) by (apply (IZR_lt 0); lia).
    left. destruct Sh as [[Inf|(p & Hp & _ & L & Ab)]|(_ & Z0 & _)]; [| |lra].
    - exists tr, "inf", rho'. split; [exact Oc|]. split; [exact Bx'|]. rewrite Inf in *. split; [exact Ts|]. split; [exact Pt|]. now left.
    - specialize (L Tp). destruct (fmt_pos _ _ Db Hp) as (q & Rd & Eq); [lra|].
      assert (Rs : html_color_percent (tc_percent c) Changed = red (fmt_2 (f64_abs (tc_percent c)))) by (apply red_shown; [exact Db|apply (positive_value _ p Hp); lra]).
      rewrite Rs in *. exists tr, (fmt_2 (f64_abs (tc_percent c))), rho'. split; [exact Oc|]. split; [exact Bx'|]. split; [exact Ts|]. split; [exact Pt|]. right.
      exists q. split; [exact Rd|]. split; [now apply (q_above q p)|]. apply q_near in Eq. apply Rabs_le_inv in Eq. lra.
  Qed.
  Lemma page_improvements : tells_improvements old new rx a page.
  Proof.
    intros k bo bn Oo On Pp Pe Td T0 G.
    destruct (data_improvement syn tglob texts m ords rx repo (wa_method a) (wa_unit a) ps (web_filter a) pat mx c_old c_new rows z Hsyn Hords M C (EndP3.int_threshold _ Th)
      k bo bn) as (r & I & K & Sh); auto.
    { intros ks Q. discriminate Q. }
    { intros rho Hb. rewrite z_eq. now apply G. }
    rewrite z_eq in Sh. apply same_rows in I.
    destruct (page_row k bo bn r Oo On Td I K) as [(_ & Inc & Co)|(c & tr & rho' & Rp & Bx' & H & Oc & Ts & Pt & Db & X)]; [right; auto|].
    destruct Sh as [Fa|(c' & p & Rp' & Q & Hp & L)]; [exfalso; exact (reports_not_failed _ _ Rp Fa)|]. rewrite (reports_fun _ _ _ Rp' Rp) in *. rewrite Q in Ts.
    assert (Tp : 0 < RN (wa_threshold a)) by (apply (IZR_lt 0); lia). left.
    destruct (fmt_neg _ _ Db Hp) as (q & Rd & Eq); [lra|].
    assert (Rs : html_color_percent (tc_percent c) Changed = green (fmt_2 (f64_abs (tc_percent c)))) by (apply green_shown; [exact Db|apply (negative_value _ p Hp); lra]).
    rewrite Rs in *. exists tr, (fmt_2 (f64_abs (tc_percent c))), q, rho'. split; [exact Oc|]. split; [exact Bx'|]. split; [exact Ts|]. split; [exact Pt|].
    split; [exact Rd|]. apply (q_above q (- p)); [exact Eq|lra].
  Qed.
End Page.

Lemma asks_threshold ent orgs q a org : asks ent orgs q a org -> (wa_threshold a < 2 ^ 32)%N.
Proof.
  intros (l & b & _ & D & E & _). rewrite (dc_threshold _ _ _ E). destruct (d_threshold _ _ D) as (t & _ & (dd & _ & _ & L)). exact L.
Qed.

Section Requests.
  Context (tglob : N -> string -> option (list (option fpath))) (texts : N -> fpath -> string + string) (syn : string -> option (list item))
    (m : mode) (ords : string * string -> list string -> list string) (rx : regex_engine) (shards : nat) (shard : string -> nat).
  Lemma shown_lemma remote exists_ is_dir root static names repos ws0 now rs h s ws l i t ent version q run page :
    reads_grammar syn -> (forall k, is_order (ords k)) -> (0 < shards)%nat ->
    SiteM.start remote exists_ is_dir root static names = Ok repos -> Forall (fun n => plain (CName n)) names ->
    lrun tglob (fun c => disk_of syn (texts c)) m ords rx shards shard (is_known repos) (dir_of repos) (istart ws0 now rs) h (s, ws, l) ->
    (forall a org rows cached, asks ent (map (fun p => (fst p, sr_org (snd p))) repos) q a org -> run a = Ok (rows, cached) -> answered_at (s_log s) i a rows t) ->
    compare_answer ent version m repos q run = Ok (200%nat, page) ->
    exists a org, asks ent (map (fun p => (fst p, sr_org (snd p))) repos) q a org /\ let d := dir_of repos (wa_repo a) in
      forall old new pat, wa_method a = ExactWorst \/ wa_method a = GuessWorst -> wa_pull a <> Some false ->
      trimmed (wa_old a) old -> trimmed (wa_new a) new -> trimmed (wa_pattern a) pat ->
      unambiguous (ws0 d) old -> unambiguous (ws0 d) new -> branch_name h d old -> branch_name h d new ->
      exists j t0 c_old c_new, (t0 <= t < t0 + 600000)%N /\ looked_up h d j a old new c_old c_new t0 /\
        let measured c := data_source_of syn (tglob c) (texts c) d pat in
        tells_regressions (measured c_old) (measured c_new) rx a page /\ tells_improvements (measured c_old) (measured c_new) rx a page /\
        tells_truth (measured c_old) (measured c_new) a page.
  Proof.
    intros Hs Or Sh St Pl R Hrun An. pose proof (proj1 (SiteP.start_lemma _ _ _ _ _ _ _) St) as (_ & _ & _ & Sorted & _).
    destruct (SiteP.answer_200 ent version m repos q run page Sorted An) as (a & org & diff & cached & results & As & Ra & Pg & ->).
    exists a, org. split; [exact As|]. cbv zeta. intros old new pat Me Pu To Tn Tp Uo Un Bo Bn.
    destruct (LiveP.live_lemma tglob _ m ords rx shards shard (is_known repos) (dir_of repos) (IsoP3.own_lemma _ _ _ _ _ _ _ St Pl) ws0 now rs h s ws l i a diff t old new pat Sh R
      (Hrun _ _ _ _ As Ra) Pu To Tn Tp Uo Un Bo Bn) as (j & t0 & c_old & c_new & rs0 & _ & _ & Tt & L & C & So).
    exists j, t0, c_old, c_new. split; [exact Tt|]. split; [exact L|]. pose proof (asks_threshold _ _ _ _ _ As) as Th.
    split; [eapply page_regressions; eauto|]. split; [eapply page_improvements; eauto|eapply page_truth; eauto].
  Qed.
End Requests.
