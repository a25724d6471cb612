(** Proofs about what the page says: from measurements to the page. *)
From Coq Require Import List String Ascii NArith ZArith Reals Lra Lia Bool Permutation Floats.SpecFloat.
From Verif Require Import Base ScopeM TermM SpecTerm SpecChrom F64 SpecF64 CompareM SpecCompare CompareP RowsM SpecRows RowsP
  FmtM SpecFmt SynM AttrM ParseM SpecParse SpecAttr FilesM SpecFiles GitM SpecGit HtmlM HtmlP WebM PageM SpecCli SpecWeb SpecEnd SpecText SpecTmpl SpecShow ShowP.
From Verif Require EndP EndP2 EndP3 CliP PageP GitP DecP FmtP PercentP TmplP2 TmplP3 TmplP4 TmplP5.
Import ListNotations.
Local Open Scope string_scope.

(** ** The ranges are not empty *)
Definition find_range (b : bench) (c : string) : list comp_range :=
  match find (fun p => String.eqb (fst p) c) (b_ranges b) with Some p => [snd p] | None => [] end.
Lemma find_range_in b c : range_in b c (find_range b c) /\ forall r, In r (find_range b c) -> In (c, r) (b_ranges b).
Proof.
  unfold find_range. destruct (find _ _) as [[c' r]|] eqn:F.
  - apply find_some in F. destruct F as [I E]. cbn in E. apply String.eqb_eq in E. subst c'. cbn [snd]. split; [left; eauto|]. intros x [<-|[]]. exact I.
  - split; [right; split; [reflexivity|]|intros x []]. intros r I. pose proof (find_none _ _ F _ I) as K. cbn in K. now rewrite String.eqb_refl in K.
Qed.
Lemma inst_order A lo hi : (forall r, In r A -> (rmin r <= rmax r)%N) -> inst Low A lo -> inst High A hi -> (lo <= hi)%N.
Proof.
  destruct A as [|r A]; intros H L G.
  - cbn in L, G. subst. lia.
  - destruct L as [I L]. destruct G as [_ G]. apply in_map_iff in I. destruct I as (x & <- & I).
    specialize (H x I). assert (K : (rmax x <= hi)%N) by (apply G; now apply in_map). lia.
Qed.
Lemma box_inhabited bo bn : bench_ok bo -> bench_ok bn -> exists rho, in_bench_box bo bn rho.
Proof.
  intros Bo Bn. exists (fun c => instv Low (app (find_range bo c) (find_range bn c))). intros c _.
  destruct (find_range_in bo c) as [Ro Io]. destruct (find_range_in bn c) as [Rn In_].
  exists (find_range bo c), (find_range bn c), (instv Low (app (find_range bo c) (find_range bn c))), (instv High (app (find_range bo c) (find_range bn c))).
  split; [exact Ro|]. split; [exact Rn|]. split; [now apply inst_instv|]. split; [now apply inst_instv|]. split; [lia|].
  apply (inst_order (app (find_range bo c) (find_range bn c))); try now apply inst_instv.
  intros r I. apply in_app_or in I. destruct I as [I|I]; [apply Io in I; apply (ok_ranges bo Bo) in I|apply In_ in I; apply (ok_ranges bn Bn) in I]; lia.
Qed.

(** ** Improvements *)
Local Open Scope R_scope.
Lemma source_improvement m ords rx olds news meth d f rows k mo mn eo en rho z : (forall k, is_order (ords k)) -> meth = ExactWorst \/ meth = GuessWorst ->
  compare_files m ords rx olds news {| p_method := meth; p_unit := d |} f = Ok rows ->
  threshold_mils (f_threshold f) z -> kind_selected f Changed -> entry_of olds k mo eo -> entry_of news k mn en ->
  passes rx (f_pallet f) (fst k) -> passes rx (f_extrinsic f) (snd k) -> tame_source d mo mn eo en -> in_source_box mo mn eo en rho ->
  (forall rho v w, in_source_box mo mn eo en rho -> weight_at d rho eo v -> weight_at d rho en w -> (0 < v)%N /\ rel_change_of v w <= - (IZR z / 1000 + slack v w)) ->
  exists r, In r (filter_changes rows f) /\ row_key r = k /\
    (is_failed r \/ exists c p, reports r c /\ tc_change c = Changed /\ has_value (tc_percent c) p /\ p <= - (IZR z / 1000)).
Proof.
  intros Ho M E HT S (So & to & ro & Hmo & Fo) (Sn & tn & rn & Hmn & Fn) Pp Pe Ht Hb G.
  pose proof (EndP2.source_tame d mo mn eo en k _ _ to tn ro rn Hmo Hmn So Sn eq_refl eq_refl Ht) as T.
  pose proof (EndP2.box_source d mo mn eo en k _ _ to tn ro rn Hmo Hmn So Sn eq_refl eq_refl Ht) as Bx.
  pose proof Ht as (To & Tn & _).
  assert (V : forall rho, exists v w, weight_at d rho eo v /\ weight_at d rho en w /\
    poly_val (with_rw rho (read_cost d) (write_cost d)) (restrict d to) = v /\ poly_val (with_rw rho (read_cost d) (write_cost d)) (restrict d tn) = w).
  { intros rh. destruct (EndP2.body_value d mo mn eo en Ht _ _ _ _ _ rh Hmo So To) as (v & Wv & Vv).
    destruct (EndP2.body_value d mo mn eo en Ht _ _ _ _ _ rh Hmn Sn Tn) as (w & Ww & Vw). exists v, w. auto. }
  destruct (V rho) as (v0 & w0 & Wv0 & Ww0 & _).
  destruct (EndP2.source_point d mo mn eo en k _ _ to tn ro rn Hmo Hmn So Sn eq_refl eq_refl Ht rho v0 w0 Hb Wv0 Ww0) as (B0 & _).
  apply (EndP.improvement_lemma m ords rx olds news meth d f rows k _ _ _ z Ho M E HT S Fo Fn Pp Pe T B0).
  intros rh Hr. cbv zeta. cbn [eterm]. apply Bx in Hr. destruct Hr as (Rr & Rw & Sb). destruct (V rh) as (v & w & Wv & Ww & Vv & Vw).
  rewrite EndP2.rho_same in Vv, Vw by auto. rewrite Vv, Vw. exact (G rh v w Sb Wv Ww).
Qed.

(** ** Rows from measurements *)
(** The entry of the function is the one that the template writes for the measurements. *)
Definition bench_entry (l : list cextrinsic) (k : string * string) (b : bench) : Prop :=
  exists v st, numerals v /\ bench_ok b /\ TmplP4.fits st b /\ entry_of l k (TmplP3.fn_of v st false b) (TmplP2.e_body st false b).
Section Entries.
  Variables (m : mode) (ords : string * string -> list string -> list string) (rx : regex_engine) (olds news : list cextrinsic).
  Variables (meth : CompareM.method) (d : dimension) (f : fparams) (rows : list row) (z : Z).
  Hypotheses (Hords : forall k, is_order (ords k)) (M : meth = ExactWorst \/ meth = GuessWorst)
    (E : compare_files m ords rx olds news {| p_method := meth; p_unit := d |} f = Ok rows) (HT : threshold_mils (f_threshold f) z).
  Lemma entry_row k bo bn r : bench_entry olds k bo -> bench_entry news k bn -> tame_data d bo bn -> In r (filter_changes rows f) -> row_key r = k ->
    (exists e, row_diff r = DFailed e /\ SpecWeb.occurs (fst k ++ "::" ++ snd k) e) /\ bench_incomparable meth bo bn \/
    exists c rho, let v := bench_weight d rho bo in let w := bench_weight d rho bn in
      reports r c /\ in_bench_box bo bn rho /\ (v < u128_bound)%N /\ (w < u128_bound)%N /\
      tc_old_v c = Some v /\ tc_new_v c = Some w /\ tc_percent c = percent v w /\
      (tc_change c = Changed /\ ((0 < v)%N -> IZR z / 1000 - slack v w <= Rabs (rel_change_of v w)) \/
       tc_change c = Unchanged /\ z = 0%Z /\ forall rho, in_bench_box bo bn rho -> bench_weight d rho bo = bench_weight d rho bn).
  Proof.
    intros (vo & so & Vo & Bo & Fo & Eo) (vn & sn & Vn & Bn & Fn & En) Td I K. assert (Ts : tame_source d (TmplP3.fn_of vo so false bo) (TmplP3.fn_of vn sn false bn) (TmplP2.e_body so false bo) (TmplP2.e_body sn false bn)) by now apply TmplP5.data_tame.
    destruct (box_inhabited bo bn Bo Bn) as (rho0 & B0). apply (TmplP5.box_iff vo vn so sn bo bn rho0 Vo Vn Bo Bn) in B0.
    destruct (source_row m ords rx olds news meth d f rows k _ _ _ _ rho0 z Hords M E HT Eo En Ts B0 r I K) as [[F Inc]|(c & rho & v & w & Rp & Sb & Wv & Ww & Lv & Lw & Ov & Nv & Pv & X)].
    - left. split; [exact F|]. destruct Inc as [(l & N & L & J)|(Me & c & A & U & (Ao & An & -> & R1 & R2) & Na)].
      + left. exists l. split; [exact N|]. split; [exact L|]. intros c Ic. specialize (J c Ic). now rewrite !TmplP4.names_body in J.
      + right. split; [exact Me|]. exists c, (app Ao An). rewrite !TmplP4.names_body in U. split; [exact U|]. split; [|exact Na].
        exists Ao, An. split; [reflexivity|]. split; [now apply (TmplP4.fn_range vo so Vo false)|now apply (TmplP4.fn_range vn sn Vn false)].
    - right. apply TmplP5.body_weight_inv in Wv; auto. apply TmplP5.body_weight_inv in Ww; auto. subst v w. apply (TmplP5.box_iff vo vn so sn bo bn rho Vo Vn Bo Bn) in Sb.
      exists c, rho. cbv zeta. repeat (split; [assumption|]). destruct X as [X|(Q & Z0 & X)]; [left; exact X|right]. split; [exact Q|]. split; [exact Z0|].
      intros rh Hb. apply (X rh); [now apply TmplP5.box_iff|now apply TmplP5.body_weight|now apply TmplP5.body_weight].
  Qed.
  Lemma entry_improvement k bo bn : kind_selected f Changed -> bench_entry olds k bo -> bench_entry news k bn ->
    passes rx (f_pallet f) (fst k) -> passes rx (f_extrinsic f) (snd k) -> tame_data d bo bn ->
    (forall rho, in_bench_box bo bn rho -> let v := bench_weight d rho bo in let w := bench_weight d rho bn in
       (0 < v)%N /\ rel_change_of v w <= - (IZR z / 1000 + slack v w)) ->
    exists r, In r (filter_changes rows f) /\ row_key r = k /\
      (is_failed r \/ exists c p, reports r c /\ tc_change c = Changed /\ has_value (tc_percent c) p /\ p <= - (IZR z / 1000)).
  Proof.
    intros Ks (vo & so & Vo & Bo & Fo & Eo) (vn & sn & Vn & Bn & Fn & En) Pp Pe Td G. assert (Ts : tame_source d (TmplP3.fn_of vo so false bo) (TmplP3.fn_of vn sn false bn) (TmplP2.e_body so false bo) (TmplP2.e_body sn false bn)) by now apply TmplP5.data_tame.
    destruct (box_inhabited bo bn Bo Bn) as (rho0 & B0). apply (TmplP5.box_iff vo vn so sn bo bn rho0 Vo Vn Bo Bn) in B0.
    apply (source_improvement m ords rx olds news meth d f rows k _ _ _ _ rho0 z Hords M E HT Ks Eo En Pp Pe Ts B0).
    intros rho v w Sb Wv Ww. apply TmplP5.body_weight_inv in Wv; auto. apply TmplP5.body_weight_inv in Ww; auto. subst v w. apply G. now apply (TmplP5.box_iff vo vn so sn).
  Qed.
  Lemma entry_regression k bo bn rho : kind_selected f Changed -> bench_entry olds k bo -> bench_entry news k bn ->
    passes rx (f_pallet f) (fst k) -> passes rx (f_extrinsic f) (snd k) -> tame_data d bo bn -> in_bench_box bo bn rho ->
    grown (IZR z / 1000) (bench_weight d rho bo) (bench_weight d rho bn) ->
    exists r, In r (filter_changes rows f) /\ row_key r = k /\ shows r (IZR z / 1000) (bench_weight d rho bo) (bench_weight d rho bn).
  Proof.
    intros Ks (vo & so & Vo & Bo & Fo & Eo) (vn & sn & Vn & Bn & Fn & En) Pp Pe Td Bx G. eapply (EndP2.source_regression m ords rx olds news meth d f rows k); eauto using TmplP5.body_weight;
      [now apply TmplP5.data_tame|now apply TmplP5.box_iff].
  Qed.
End Entries.
Section Data.
  Variables (syn : string -> option (list item)) (tglob : N -> string -> option (list (option fpath))) (texts : N -> fpath -> string + string).
  Variables (m : mode) (ords : string * string -> list string -> list string) (rx : regex_engine) (repo : fpath).
  Variables (meth : CompareM.method) (d : dimension) (ps : gparams) (f : fparams) (pat : string) (mx : nat) (c_old c_new : N) (rows : list row) (z : Z).
  Hypotheses (Hsyn : reads_grammar syn) (Hords : forall k, is_order (ords k)) (M : meth = ExactWorst \/ meth = GuessWorst)
    (C : compare_trees tglob (fun c => disk_of syn (texts c)) m ords rx repo {| p_method := meth; p_unit := d |} ps f pat mx c_old c_new = Ok rows)
    (HT : threshold_mils (f_threshold f) z).
  Let old := data_source_of syn (tglob c_old) (texts c_old) repo pat.
  Let new := data_source_of syn (tglob c_new) (texts c_new) repo pat.

  Lemma data_entries : exists olds news, compare_files m ords rx olds news {| p_method := meth; p_unit := d |} f = Ok rows /\
    (forall k b, old k b -> bench_entry olds k b) /\ (forall k b, new k b -> bench_entry news k b).
  Proof.
    destruct (EndP3.trees_inv tglob _ m ords rx repo _ _ _ _ _ _ _ _ C) as (olds & news & Lo & Ln & E).
    exists olds, news. split; [exact E|]. split; intros k b S; destruct (TmplP5.data_source _ _ _ _ _ _ _ S) as (v & st & V & B & Fs & S').
    - exists v, st. split; [exact V|]. split; [exact B|]. split; [exact Fs|]. eapply EndP3.load_entry; [exact Lo|]; now apply TmplP5.text_source.
    - exists v, st. split; [exact V|]. split; [exact B|]. split; [exact Fs|]. eapply EndP3.load_entry; [exact Ln|]; now apply TmplP5.text_source.
  Qed.
  Lemma data_row k bo bn r : old k bo -> new k bn -> tame_data d bo bn -> In r (filter_changes rows f) -> row_key r = k ->
    (exists e, row_diff r = DFailed e /\ SpecWeb.occurs (fst k ++ "::" ++ snd k) e) /\ bench_incomparable meth bo bn \/
    exists c rho, let v := bench_weight d rho bo in let w := bench_weight d rho bn in
      reports r c /\ in_bench_box bo bn rho /\ (v < u128_bound)%N /\ (w < u128_bound)%N /\
      tc_old_v c = Some v /\ tc_new_v c = Some w /\ tc_percent c = percent v w /\
      (tc_change c = Changed /\ ((0 < v)%N -> IZR z / 1000 - slack v w <= Rabs (rel_change_of v w)) \/
       tc_change c = Unchanged /\ z = 0%Z /\ forall rho, in_bench_box bo bn rho -> bench_weight d rho bo = bench_weight d rho bn).
  Proof. intros So Sn. destruct data_entries as (olds & news & E & Eo & En). apply (entry_row m ords rx olds news); auto. Qed.
  Lemma data_improvement k bo bn : kind_selected f Changed -> old k bo -> new k bn -> passes rx (f_pallet f) (fst k) -> passes rx (f_extrinsic f) (snd k) -> tame_data d bo bn ->
    (forall rho, in_bench_box bo bn rho -> let v := bench_weight d rho bo in let w := bench_weight d rho bn in
       (0 < v)%N /\ rel_change_of v w <= - (IZR z / 1000 + slack v w)) ->
    exists r, In r (filter_changes rows f) /\ row_key r = k /\
      (is_failed r \/ exists c p, reports r c /\ tc_change c = Changed /\ has_value (tc_percent c) p /\ p <= - (IZR z / 1000)).
  Proof. intros Ks So Sn. destruct data_entries as (olds & news & E & Eo & En). apply (entry_improvement m ords rx olds news meth); auto. Qed.
End Data.

(** ** Rows of the page *)
Lemma concat_cons x l : String.concat "" (x :: l) = x ++ String.concat "" l.
Proof. destruct l; [cbn; now rewrite DecP.app_str_nil|reflexivity]. Qed.
Lemma escaped s : text_for (escape s) s.
Proof. split; [apply PageP.escape_mild|apply PageP.escape_decodes]. Qed.
Lemma tr_lemma m args org r c tr v w : row_html m args org r c = Ok tr -> tc_old_v c = Some v -> tc_new_v c = Some w -> (v < u128_bound)%N -> (w < u128_bound)%N ->
  tr_shows (wa_unit args) (row_key r) v w (html_color_percent (tc_percent c) (tc_change c)) tr.
Proof.
  intros H Hv Hw Lv Lw. destruct (PageP.columns_lemma _ _ _ _ _ _ H) as (col & key & a2 & a3 & a4 & a5 & a6 & _ & _ & X). cbv zeta in X. rewrite Hv, Hw in X.
  destruct X as (_ & K3 & K4 & _ & _ & E).
  assert (Vc : forall a x, (x < u128_bound)%N -> sort_key a (Z.of_N x) -> value_cell (wa_unit args) x (cell a (escape (fmt_value (wa_unit args) x)))).
  { intros a x Lx Ka. exists a, (escape (fmt_value (wa_unit args) x)), (fmt_value (wa_unit args) x). split; [reflexivity|]. split; [exact Ka|]. split; [apply escaped|].
    destruct (FmtP.fmt_value_lemma (wa_unit args)) as [F _]. exact (F x Lx). }
  eexists (escape (row_file r)), a2, (escape (row_name r)), _, (cell a3 (escape (fmt_value (wa_unit args) v))), (cell a4 (escape (fmt_value (wa_unit args) w))), a5, a6, col, _, _, _.
  split; [apply escaped|]. split; [apply escaped|]. split; [now apply Vc|]. split; [now apply Vc|].
  rewrite E. cbn [combine map fst snd row_key]. rewrite !concat_cons. cbn [String.concat]. rewrite !DecP.app_str_assoc. reflexivity.
Qed.
