(** Proofs about what the page says: rows from source code. *)
From Coq Require Import List String Ascii NArith ZArith Reals Lra Lia Bool Permutation Floats.SpecFloat.
From Flocq Require Import Core.
From Verif Require Import Base ScopeM TermM SpecTerm TermP SpecChrom ChromP F64 SpecF64 PercentP CompareM SpecCompare CompareP2 CompareP3 CompareP4 RowsM SpecRows RowsP
  FmtM SpecFmt FmtP SynM AttrM ParseM SpecParse SpecAttr AttrP HtmlM HtmlP SpecCli SpecWeb SpecEnd SpecText SpecTmpl SpecShow.
From Verif Require MilsP EndP EndP2 CliP PageP GitP DecP.
Import ListNotations.
Local Open Scope string_scope.

(** ** When comparisons fail *)
Lemma occurs_self a s b : SpecWeb.occurs s (a ++ s ++ b).
Proof. exists a, b. reflexivity. Qed.
Lemma instance_names c ra rb st p e msg : instance_component c ra rb st p e = Err msg -> SpecWeb.occurs (p ++ "::" ++ e) msg.
Proof.
  unfold instance_component. intros H.
  repeat match type of H with context [match ?x with _ => _ end] => destruct x; try discriminate H end; injection H as <-.
  all: first
    [exists ("Component " ++ c ++ " of call "), (" has different ranges in the old and new version - use Guess instead!"); rewrite !DecP.app_str_assoc; reflexivity
    |exists ("No range for component " ++ c ++ " of call "), (" - use Guess instead!"); rewrite !DecP.app_str_assoc; reflexivity].
Qed.
Lemma mapM_err {A B} (f : A -> outcome B) l msg : mapM f l = Err msg -> exists x, In x l /\ f x = Err msg.
Proof.
  induction l as [|x l IH]; cbn; [discriminate|]. destruct (f x) eqn:F; cbn; try discriminate.
  - destruct (mapM f l); cbn; try discriminate. intros H. injection H as ->. destruct IH as (y & I & E); auto. exists y. auto.
  - intros H. injection H as ->. exists x. auto.
Qed.
Lemma extend_names ord o b meth sc msg : extend_scoped_components ord (Some o) b meth sc = Err msg -> SpecWeb.occurs (epallet o ++ "::" ++ ename o) msg.
Proof.
  unfold extend_scoped_components. destruct (Nat.ltb _ _).
  - intros H. injection H as <-. eexists "Too many components to compare: ", _. rewrite !DecP.app_str_assoc. reflexivity.
  - destruct (mapM _ _) as [bs|e|w|] eqn:M; cbn [bind]; try discriminate. intros H. injection H as <-.
    apply mapM_err in M. destruct M as (x & _ & M).
    destruct (instance_component x _ _ (method_min meth) _ _) eqn:I1; cbn [bind] in M; try discriminate M.
    + destruct (instance_component x _ _ (method_max meth) _ _) eqn:I2; cbn [bind] in M; try discriminate M. injection M as <-. eapply instance_names; eauto.
    + injection M as <-. eapply instance_names; eauto.
Qed.
Lemma compare_fails m ord o n ps msg : is_order ord -> compare_extrinsics m ord (Some o) (Some n) ps = Err msg ->
  SpecWeb.occurs (epallet o ++ "::" ++ ename o) msg /\
  ((exists l, NoDup l /\ 16 < List.length l /\ forall c, In c l -> SpecCompare.component storage_var (Some o) (Some n) c) \/
   is_exact (p_method ps) /\ exists c, SpecCompare.component storage_var (Some o) (Some n) c /\ ~ unambiguous (annotations (Some o) (Some n) c)).
Proof.
  intros Ho E. set (d := p_unit ps). assert (Hp : Some o <> None \/ Some n <> None) by (left; discriminate).
  destruct (extend_dec ord _ _ (p_method ps) (storage_scope d) Ho (eff_present d _ _ Hp)) as [[l X]|X].
  - exfalso. destruct (compare_char m ord (Some o) (Some n) ps l Ho Hp X) as [(s & e & w & _ & _ & _ & _ & K)|(_ & r & _ & K)]; rewrite K in E; discriminate E.
  - split.
    + unfold compare_extrinsics in E. fold d in E. rewrite !drop_effective, base_scope_eq in E.
      destruct (extend_scoped_components ord (eff d (Some o)) (eff d (Some n)) (p_method ps) (storage_scope d)) as [?|e|?|] eqn:Q; try discriminate X.
      cbn [bind] in E. injection E as ->. cbn [option_map] in Q. apply extend_names in Q. exact Q.
    + apply (extend_err_lemma ord _ _ (p_method ps) (storage_scope d) Ho (eff_present d _ _ Hp)) in X.
      destruct X as [(k & (l & N & I & L) & G)|(Ex & c & C & U)].
      * left. exists l. split; [exact N|]. split; [lia|]. intros c J. apply I in J. apply (component_storage d), (proj1 (component_eff d _ _ _)), J.
      * right. split; [exact Ex|]. exists c. split; [apply (component_storage d), (proj1 (component_eff d _ _ _)), C|]. unfold annotations in *. now rewrite !annotation_eff in U.
Qed.

(** ** Printed percentages *)
Local Open Scope R_scope.
Lemma nearest_near x : Rabs (IZR (ZnearestE x) - x) <= / 2.
Proof. rewrite Rabs_minus_sym. apply Znearest_half. Qed.
Lemma nearest_mono z x : IZR z <= x -> (z <= ZnearestE x)%Z.
Proof. intros H. rewrite <- (Znearest_IZR z). apply (Zrnd_le ZnearestE). exact H. Qed.
Lemma fmt_pos p r : is_double p -> has_value p r -> 0 < r -> exists q, read_2 (fmt_2 (f64_abs p)) = Some q /\ Z.of_N q = ZnearestE (100 * r).
Proof.
  intros D V P. destruct p as [s|[]| |s m e]; cbn in V; try contradiction; [lra|].
  assert (s = false).
  { destruct s; auto. exfalso. subst r. assert (0 < IZR (Zpos m)) by (apply IZR_lt; lia). assert (0 < powerRZ 2 e) by (apply powerRZ_lt; lra). nra. }
  subst s. exists (hundredths m e). change (fmt_2 (f64_abs (S754_finite false m e))) with (dec_2 (hundredths m e)). rewrite dec_2_read. split; [reflexivity|].
  rewrite hundredths_nearest. f_equal. rewrite V, bpow_powerRZ. lra.
Qed.
Lemma fmt_neg p r : is_double p -> has_value p r -> r < 0 -> exists q, read_2 (fmt_2 (f64_abs p)) = Some q /\ Z.of_N q = ZnearestE (100 * - r).
Proof.
  intros D V P. destruct p as [s|[]| |s m e]; cbn in V; try contradiction; [lra|].
  assert (s = true).
  { destruct s; auto. exfalso. subst r. assert (0 < IZR (Zpos m)) by (apply IZR_lt; lia). assert (0 < powerRZ 2 e) by (apply powerRZ_lt; lra). nra. }
  subst s. exists (hundredths m e). change (fmt_2 (f64_abs (S754_finite true m e))) with (dec_2 (hundredths m e)). rewrite dec_2_read. split; [reflexivity|].
  rewrite hundredths_nearest. f_equal. rewrite V, bpow_powerRZ. lra.
Qed.
Lemma q_near q x : Z.of_N q = ZnearestE (100 * x) -> Rabs (RN q / 100 - x) <= / 200.
Proof.
  intros E. unfold RN. rewrite E. pose proof (nearest_near (100 * x)) as H. apply Rabs_le_inv in H. apply Rabs_le. lra.
Qed.
Lemma q_above q x t : Z.of_N q = ZnearestE (100 * x) -> RN t <= x -> RN t <= RN q / 100.
Proof.
  intros E H. unfold RN in *. rewrite E. assert (K : (100 * Z.of_N t <= ZnearestE (100 * x))%Z) by (apply nearest_mono; rewrite mult_IZR; lra).
  apply IZR_le in K. rewrite mult_IZR in K. lra.
Qed.
Lemma positive_value p r : has_value p r -> 0 < r -> SpecCli.positive p.
Proof.
  intros V P. split.
  - destruct p as [s|[]| |s m e]; cbn in V; try contradiction; exists 0, r; repeat split; auto; lra.
  - intros L. destruct p as [s|[]| |s m e]; cbn in V; try contradiction; destruct L as (x & y & X & Y & L); cbn in X, Y; subst; lra.
Qed.
Lemma negative_value p r : has_value p r -> r < 0 -> SpecCli.negative p.
Proof.
  intros V P. split.
  - destruct p as [s|[]| |s m e]; cbn in V; try contradiction; exists r, 0; repeat split; auto; lra.
  - intros L. destruct p as [s|[]| |s m e]; cbn in V; try contradiction; destruct L as (x & y & X & Y & L); cbn in X, Y; subst; lra.
Qed.
Lemma red_shown p : is_double p -> SpecCli.positive p -> html_color_percent p Changed = red (fmt_2 (f64_abs p)).
Proof. intros D P. apply (proj1 (proj2 (html_colours p D))) in P. unfold in_html in P. rewrite P. unfold red. cbn. now rewrite !DecP.app_str_assoc. Qed.
Lemma green_shown p : is_double p -> SpecCli.negative p -> html_color_percent p Changed = green (fmt_2 (f64_abs p)).
Proof. intros D P. apply (proj1 (html_colours p D)) in P. unfold in_html in P. rewrite P. unfold green. cbn. now rewrite !DecP.app_str_assoc. Qed.
Lemma percent_shown v w : (v < u128_bound)%N -> (w < u128_bound)%N -> percent_text v w (html_color_percent (percent v w) Changed).
Proof.
  intros V W. destruct (N.eq_dec v 0) as [->|V0]; [destruct (N.eq_dec w 0) as [->|W0]|].
  - left. split; [auto|]. rewrite percent_zero_zero. reflexivity.
  - right. left. split; [lia|]. rewrite percent_zero_pos by (auto; lia). reflexivity.
  - right. right. split; [lia|]. assert (V1 : (0 < v)%N) by lia. pose proof (EndP.percent_close v w (conj V1 V) W) as (r & Hr & B).
    assert (D : is_double (percent v w)) by apply percent_double. pose proof (EndP.slack_pos v w V1) as SP.
    destruct (percent_sign_lemma v w V W V1) as [S1 S2].
    destruct (Rtotal_order r 0) as [L|[->|G]].
    + left. destruct (fmt_neg _ _ D Hr L) as (q & Q & E). exists (fmt_2 (f64_abs (percent v w))), q. split; [exact Q|]. right.
      split; [|split; [apply green_shown; auto; now apply (negative_value _ r)|]].
      * destruct (N.le_gt_cases v w) as [K|K]; [|exact K]. destruct (S1 K) as (r' & H' & P). rewrite (has_value_fun _ _ _ Hr H') in L. lra.
      * apply q_near in E. apply Rabs_le_inv in E. apply Rabs_le. lra.
    + right. split; [|apply Rabs_le; lra].
      assert (K : In (html_color_percent (percent v w) Changed) ["0"; "-0"]) by (apply (html_colours (percent v w) D); exact Hr).
      destruct K as [K|[K|[]]]; rewrite <- K; auto.
    + left. destruct (fmt_pos _ _ D Hr G) as (q & Q & E). exists (fmt_2 (f64_abs (percent v w))), q. split; [exact Q|]. left.
      split; [|split; [apply red_shown; auto; now apply (positive_value _ r)|]].
      * destruct (N.le_gt_cases w v) as [K|K]; [|exact K]. destruct (S2 K) as (r' & H' & P). rewrite (has_value_fun _ _ _ Hr H') in G. lra.
      * apply q_near in E. apply Rabs_le_inv in E. apply Rabs_le. lra.
Qed.

(** ** Rows from source code *)
Definition source_ranges (mo mn : SynM.method) (c : string) (A : list comp_range) : Prop :=
  exists Ao An, A = app Ao An /\ source_range (m_attrs mo) c Ao /\ source_range (m_attrs mn) c An.
Definition source_incomparable (meth : CompareM.method) (mo mn : SynM.method) (eo en : expr) : Prop :=
  incomparable meth (fun c => In c (names eo) \/ In c (names en)) (source_ranges mo mn).
Section Rows.
  Variables (m : mode) (ords : string * string -> list string -> list string) (rx : regex_engine) (olds news : list cextrinsic) (meth : CompareM.method) (d : dimension) (f : fparams) (rows : list row).
  Variables (k : string * string) (mo mn : SynM.method) (eo en : expr) (rho0 : string -> N) (z : Z).
  Hypotheses (Ho : forall k, is_order (ords k)) (M : meth = ExactWorst \/ meth = GuessWorst)
    (E : compare_files m ords rx olds news {| p_method := meth; p_unit := d |} f = Ok rows)
    (HT : threshold_mils (f_threshold f) z)
    (Eo : entry_of olds k mo eo) (En : entry_of news k mn en) (Ht : tame_source d mo mn eo en) (Hb : in_source_box mo mn eo en rho0).

  Lemma source_component to tn ro rn c : handle_method mo = Ok (snd k, to, ro) -> handle_method mn = Ok (snd k, tn, rn) -> m_stmts mo = [SExpr eo] -> m_stmts mn = [SExpr en] ->
    SpecCompare.component storage_var (Some (in_dim d (mk_ext (snd k) (fst k) to ro))) (Some (in_dim d (mk_ext (snd k) (fst k) tn rn))) c ->
    (In c (names eo) \/ In c (names en)) /\ source_ranges mo mn c (annotations (Some (in_dim d (mk_ext (snd k) (fst k) to ro))) (Some (in_dim d (mk_ext (snd k) (fst k) tn rn))) c).
  Proof.
    intros Hmo Hmn So Sn [(e & Ce & I) S]. destruct Ht as (To & Tn & P & _).
    destruct (EndP2.body_shape d _ _ _ _ _ Hmo So To) as ([Oo _] & _ & Ao & _). destruct (EndP2.body_shape d _ _ _ _ _ Hmn Sn Tn) as ([On _] & _ & An & _).
    split.
    - destruct Ce as [Ce|Ce]; injection Ce as <-; cbn [eterm in_dim] in I; [left; now apply Oo|right; now apply On].
    - exists (annotated ro c), (annotated rn c). split; [reflexivity|]. split; [apply (EndP2.source_annotated (m_attrs mo) ro)|apply (EndP2.source_annotated (m_attrs mn) rn)]; eauto.
  Qed.
  Lemma source_row r : In r (filter_changes rows f) -> row_key r = k ->
    (exists e, row_diff r = DFailed e /\ SpecWeb.occurs (fst k ++ "::" ++ snd k) e) /\ source_incomparable meth mo mn eo en \/
    exists c rho v w, reports r c /\ in_source_box mo mn eo en rho /\ weight_at d rho eo v /\ weight_at d rho en w /\ (v < u128_bound)%N /\ (w < u128_bound)%N /\
      tc_old_v c = Some v /\ tc_new_v c = Some w /\ tc_percent c = percent v w /\
      (tc_change c = Changed /\ ((0 < v)%N -> IZR z / 1000 - slack v w <= Rabs (rel_change_of v w)) \/
       tc_change c = Unchanged /\ z = 0%Z /\ forall rho v w, in_source_box mo mn eo en rho -> weight_at d rho eo v -> weight_at d rho en w -> v = w).
  Proof.
    intros I Kr. destruct Eo as (So & to & ro & Hmo & Fo). destruct En as (Sn & tn & rn & Hmn & Fn).
    pose proof (EndP2.source_tame d mo mn eo en k _ _ to tn ro rn Hmo Hmn So Sn eq_refl eq_refl Ht) as T.
    pose proof (EndP2.box_source d mo mn eo en k _ _ to tn ro rn Hmo Hmn So Sn eq_refl eq_refl Ht) as Bx.
    pose proof Ht as (To & Tn & _ & Bv).
    assert (Ex : exists v w, weight_at d rho0 eo v /\ weight_at d rho0 en w).
    { destruct (EndP2.body_value d mo mn eo en Ht _ _ _ _ _ rho0 Hmo So To) as (v & Wv & _). destruct (EndP2.body_value d mo mn eo en Ht _ _ _ _ _ rho0 Hmn Sn Tn) as (w & Ww & _). eauto. }
    destruct Ex as (v0 & w0 & Wv0 & Ww0).
    destruct (EndP2.source_point d mo mn eo en k _ _ to tn ro rn Hmo Hmn So Sn eq_refl eq_refl Ht rho0 v0 w0 Hb Wv0 Ww0) as (B0 & _).
    assert (Cm : forall c, SpecCompare.component storage_var (Some (in_dim d (mk_ext (snd k) (fst k) to ro))) (Some (in_dim d (mk_ext (snd k) (fst k) tn rn))) c ->
      (In c (names eo) \/ In c (names en)) /\ source_ranges mo mn c (annotations (Some (in_dim d (mk_ext (snd k) (fst k) to ro))) (Some (in_dim d (mk_ext (snd k) (fst k) tn rn))) c)) by (intros c; apply source_component; auto).
    subst k. pose proof (first_lemma _ _ _ _ _ _ _ _ _ _ _ E (EndP.filter_in _ _ _ I) Fo Fn) as R.
    set (o := mk_ext (snd (row_key r)) (fst (row_key r)) to ro) in *. set (n := mk_ext (snd (row_key r)) (fst (row_key r)) tn rn) in *.
    assert (Pt : forall rho v w, in_source_box mo mn eo en rho -> weight_at d rho eo v -> weight_at d rho en w -> exists rho', in_box d (Some (in_dim d o)) (Some (in_dim d n)) rho' /\
      poly_val rho' (restrict d to) = v /\ poly_val rho' (restrict d tn) = w).
    { intros rho v w H1 H2 H3. destruct (EndP2.source_point d mo mn eo en _ _ _ to tn ro rn Hmo Hmn So Sn eq_refl eq_refl Ht rho v w H1 H2 H3) as (X & Y & Z). eauto. }
    unfold row_of in R. cbn [option_map p_unit] in R.
    destruct (compare_extrinsics m (ords (row_key r)) (Some (in_dim d o)) (Some (in_dim d n)) {| p_method := meth; p_unit := d |}) as [tc|msg|w|] eqn:C; try contradiction.
    - right. assert (Rp : reports r tc).
      { destruct R as (e & _ & R). destruct (sanity_check_term _); try contradiction; [left; exact R|right; eauto]. }
      destruct (EndP.reported_point m (ords _) _ _ meth d tc _ (Ho _) M T C B0) as (rho' & Hr' & Vo & Vn & Ep).
      cbn [eterm in_dim] in Vo, Vn, Ep. change (eterm o) with to in *. change (eterm n) with tn in *.
      apply Bx in Hr' as K. destruct K as (Rr & Rw & Sb).
      destruct (EndP2.body_value d mo mn eo en Ht _ _ _ _ _ rho' Hmo So To) as (v & Wv & Vv). destruct (EndP2.body_value d mo mn eo en Ht _ _ _ _ _ rho' Hmn Sn Tn) as (w & Ww & Vw).
      rewrite EndP2.rho_same in Vv, Vw by auto. rewrite Vv in *. rewrite Vw in *.
      exists tc, rho', v, w. split; [exact Rp|]. split; [exact Sb|]. split; [exact Wv|]. split; [exact Ww|].
      destruct (Bv rho' v w Sb Wv Ww) as [Lv Lw]. split; [exact Lv|]. split; [exact Lw|]. split; [exact Vo|]. split; [exact Vn|]. split; [exact Ep|].
      destruct (change_kind_lemma _ _ _ _ _ _ (Ho _) C) as (Ka & Kr & Ku & Kc). cbn [p_unit] in *.
      destruct (tc_change tc) eqn:Q.
      + right. split; [reflexivity|]. split.
        * destruct (Z.eq_dec z 0) as [|Nz]; auto. exfalso. apply filter_In in I. destruct I as [I Kp].
          assert (Dt : is_double (f_threshold f)) by (eapply EndP.threshold_double; eauto).
          apply keep_spec in Kp; auto.
          2:{ intros c' Rc. eapply typed_lemma; eauto. }
          destruct Kp as [Kp|(c' & R' & _ & U & _)]; [exact (reports_not_failed _ _ Rp Kp)|].
          rewrite (reports_fun _ _ _ R' Rp) in U. apply (U Q).
          destruct micro_lemma as (Dm & rm & Vm & Bm). destruct HT as (_ & Zb & VT).
          assert (1 <= IZR z) by (apply IZR_le; lia). assert (powerRZ 2 (-73) <= 1 / 100000).
          { replace (-73)%Z with (-20 + -53)%Z by reflexivity. rewrite powerRZ_add by lra. 
            assert (powerRZ 2 (-53) <= 1). { rewrite <- bpow_powerRZ. change 1 with (bpow radix2 0). apply bpow_le. lia. }
            assert (powerRZ 2 (-20) <= 1 / 100000) by (rewrite <- bpow_powerRZ; cbn; lra). assert (0 < powerRZ 2 (-53)) by (apply powerRZ_lt; lra). assert (0 < powerRZ 2 (-20)) by (apply powerRZ_lt; lra). nra. }
          apply Rabs_le_inv in Bm.
          apply (isF_leq _ _ rm (IZR z / 1000)); [now apply MilsP.double_isF|now apply MilsP.double_isF|lra].
        * intros rho v' w' H1 H2 H3. destruct (Pt rho v' w' H1 H2 H3) as (rh & (R1 & R2 & _) & <- & <-).
          destruct (proj1 Ku eq_refl) as (o' & n' & [= <-] & [= <-] & Sm). cbn [eterm in_dim] in Sm.
          destruct T as (_ & _ & _ & _ & Dn & _). exact (EndP.same_value d _ _ rh Dn Sm R1 R2).
      + destruct (proj1 Ka eq_refl) as [K _]. discriminate K.
      + destruct (proj1 Kr eq_refl) as [_ K]. discriminate K.
      + left. split; [reflexivity|]. intros V0.
        destruct (EndP.real_lemma m ords rx olds news meth d f rows r tc o n _ z Ho M E HT I Rp Q Fo Fn T B0) as (rh & _ & Vo' & Vn' & _ & L).
        cbv zeta in *. rewrite Vo in Vo'. rewrite Vn in Vn'. injection Vo' as Q1. injection Vn' as Q2. change (eterm o) with to in *. change (eterm n) with tn in *. rewrite <- Q1, <- Q2 in L. exact (L V0).
    - left. destruct (compare_fails _ _ _ _ _ _ (Ho _) C) as [Oc F]. split; [exists msg; split; [exact R|exact Oc]|].
      destruct F as [(l & N & L & I')|(X & c & Cc & U)].
      + left. exists l. split; [exact N|]. split; [exact L|]. intros c J. now apply Cm, I'.
      + right. split; [destruct M as [->| ->]; [reflexivity|destruct X; discriminate]|]. exists c. eexists. destruct (Cm c Cc). eauto.
  Qed.
End Rows.
