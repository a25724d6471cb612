(** Proofs about the methods that look at one corner, from the source of weight functions and from commits. *)
From Coq Require Import List String Ascii NArith ZArith Reals Lia Bool Permutation.
From Verif Require Import Base ScopeM TermM SpecTerm TermP SpecChrom ChromP F64 SpecF64 CompareM SpecCompare CompareP3 CompareP4 RowsM SpecRows RowsP
  DecP SynM AttrM ParseM SpecParse SpecAttr StrP ParseP AttrP StorageM FilesM SpecFiles GitM SpecGit WebM SpecWeb SpecEnd SpecCorner SpecCorner2 EndP2.
From Verif Require CornerP EndP3 PageP WebP GitP.
Import ListNotations.
Local Open Scope string_scope.

Section Both.
  Variables (s : side) (d : dimension) (mo mn : SynM.method) (eo en : expr) (k : string * string) (o n : cextrinsic) (to tn : cterm) (ro rn : option comp_ranges).
  Hypothesis Ho : handle_method mo = Ok (snd k, to, ro).
  Hypothesis Hn : handle_method mn = Ok (snd k, tn, rn).
  Hypothesis So : m_stmts mo = [SExpr eo].
  Hypothesis Sn : m_stmts mn = [SExpr en].
  Hypothesis Eo : o = mk_ext (snd k) (fst k) to ro.
  Hypothesis En : n = mk_ext (snd k) (fst k) tn rn.
  Hypothesis Ht : sane_source s d mo mn eo en.

  Let rho_d (rho : string -> N) := with_rw rho (read_cost d) (write_cost d).

  Lemma plain_value m e t rs name rho : handle_method m = Ok (name, t, rs) -> m_stmts m = [SExpr e] -> plain_body e ->
    exists v, weight_at d rho e v /\ poly_val (rho_d rho) (restrict d t) = v.
  Proof.
    intros H S ([[L V]|[L V]] & _).
    - destruct (V rho) as (a & b & Vr). destruct (method_meaning _ _ _ _ _ _ _ _ _ _ H S L Vr) as [M1 M2].
      exists (match d with Time => a | Proof_size => b end). split; [exists a, b; split; [now left|reflexivity]|]. unfold rho_d. destruct d; auto.
    - destruct (V rho) as (a & Vr). destruct (method_meaning_v1 _ _ _ _ _ _ _ _ _ H S Vr) as [M1 M2].
      exists (match d with Time => a | Proof_size => 0%N end). split; [exists a, 0%N; split; [right; auto|reflexivity]|]. unfold rho_d. destruct d; auto.
  Qed.
  Lemma plain_shape m e t rs name : handle_method m = Ok (name, t, rs) -> m_stmts m = [SExpr e] -> plain_body e ->
    shaped e (restrict d t) /\ u128_term (restrict d t) /\ parse_component_attrs (m_attrs m) = Ok rs /\
    (forall x, In x (names e) -> ~ storage_var x).
  Proof.
    intros H S (W & _). destruct (formed_version _ W) as (v1 & V). destruct (V (fun _ => 0%N)) as (v & Vr).
    destruct (method_shaped _ _ _ _ _ _ _ _ _ _ H S Vr) as (K & U & P). split; [now apply shaped_restrict|].
    split; [now apply restrict_u128|]. split; auto. intros x. eapply names_value; eauto.
  Qed.
  Lemma plain_same rho t : rho "READ" = read_cost d -> rho "WRITE" = write_cost d -> poly_val (rho_d rho) t = poly_val rho t.
  Proof.
    intros R W. apply poly_val_ext. intros x _. unfold rho_d, with_rw.
    destruct (String.eqb_spec x "READ") as [->|]; auto. destruct (String.eqb_spec x "WRITE") as [->|]; auto.
  Qed.

  Lemma corner_source rho : at_corner s d (Some (in_dim d o)) (Some (in_dim d n)) rho <->
    rho "READ" = read_cost d /\ rho "WRITE" = write_cost d /\ at_source_corner s mo mn eo en rho.
  Proof.
    destruct Ht as (To & Tn & P & _).
    destruct (plain_shape _ _ _ _ _ Ho So To) as ([Oo _] & _ & Ao & No). destruct (plain_shape _ _ _ _ _ Hn Sn Tn) as ([On _] & _ & An & Nn).
    assert (Po : forall c A, source_range (m_attrs mo) c A <-> A = annotated ro c) by (intros c; apply source_annotated; eauto).
    assert (Pn : forall c A, source_range (m_attrs mn) c A <-> A = annotated rn c) by (intros c; apply source_annotated; eauto).
    assert (C : forall c, SpecCompare.component storage_var (Some (in_dim d o)) (Some (in_dim d n)) c <-> (In c (names eo) \/ In c (names en))).
    { intros c. unfold SpecCompare.component. rewrite Eo, En. split.
      - intros [(e & [[= <-]|[= <-]] & I) S]; cbn [eterm in_dim] in I; [left; now apply Oo|right; now apply On].
      - intros [I|I].
        + split; [|now apply No]. eexists. split; [left; reflexivity|]. cbn. apply Oo; auto.
        + split; [|now apply Nn]. eexists. split; [right; reflexivity|]. cbn. apply On; auto. }
    unfold at_corner, at_source_corner. split; intros (R & W & B); (split; [exact R|split; [exact W|]]); intros c Hc.
    - assert (K : inst s (annotations (Some (in_dim d o)) (Some (in_dim d n)) c) (rho c)) by (now apply B, C).
      exists (annotated ro c), (annotated rn c). rewrite Po, Pn. subst o n. auto.
    - destruct (B c) as (A1 & A2 & P1 & P2 & K); [now apply C|]. apply Po in P1. apply Pn in P2. subst A1 A2. subst o n. exact K.
  Qed.

  Lemma source_sane : sane d (in_dim d o) (in_dim d n) s.
  Proof.
    pose proof Ht as (To & Tn & P & B).
    destruct (plain_shape _ _ _ _ _ Ho So To) as (Ko & Uo & Ao & No). destruct (plain_shape _ _ _ _ _ Hn Sn Tn) as (Kn & Un & An & Nn).
    unfold sane, typed. rewrite Eo, En. cbn [eterm eranges in_dim].
    split; [|split; [|split]].
    - split; auto. intros rm c r. apply (attrs_small _ _ rm c r Ao).
    - split; auto. intros rm c r. apply (attrs_small _ _ rm c r An).
    - assert (Q : forall x, SpecTerm.occurs x (restrict d to) \/ SpecTerm.occurs x (restrict d tn) -> without_us x = x).
      { intros x Hx. destruct (storage_var_dec x) as [[->| ->]|Nx]; [reflexivity|reflexivity|].
        apply plain_without. destruct Hx as [Hx|Hx]; [apply Ko in Hx; auto; apply To, Hx|apply Kn in Hx; auto; apply Tn, Hx]. }
      intros x y Hx Hy W. rewrite (Q x Hx), (Q y Hy) in W. exact W.
    - intros rho Hb. pose proof (proj1 (corner_source rho)) as K. rewrite Eo, En in K. apply K in Hb as (R & W & Hb). clear K.
      destruct (plain_value _ _ _ _ _ rho Ho So To) as (v & Wv & Vv). destruct (plain_value _ _ _ _ _ rho Hn Sn Tn) as (w & Ww & Vw).
      rewrite plain_same in Vv, Vw by auto. rewrite Vv, Vw. eapply B; eauto.
  Qed.
  Lemma corner_values rho v w : at_source_corner s mo mn eo en rho -> weight_at d rho eo v -> weight_at d rho en w ->
    at_corner s d (Some (in_dim d o)) (Some (in_dim d n)) (rho_d rho) /\
    poly_val (rho_d rho) (restrict d (eterm o)) = v /\ poly_val (rho_d rho) (restrict d (eterm n)) = w.
  Proof.
    intros Hb Wv Ww. pose proof Ht as (To & Tn & P & B). split.
    - apply corner_source. split; [reflexivity|]. split; [reflexivity|].
      destruct (plain_shape _ _ _ _ _ Ho So To) as (_ & _ & _ & No). destruct (plain_shape _ _ _ _ _ Hn Sn Tn) as (_ & _ & _ & Nn).
      intros c Hc. destruct (Hb c Hc) as (A1 & A2 & P1 & P2 & K). exists A1, A2. repeat split; auto. unfold rho_d, with_rw.
      assert (Nc : ~ storage_var c) by (destruct Hc; auto).
      destruct (String.eqb_spec c "READ") as [->|]; [exfalso; apply Nc; now left|].
      destruct (String.eqb_spec c "WRITE") as [->|]; [exfalso; apply Nc; now right|]. exact K.
    - destruct (plain_value _ _ _ _ _ rho Ho So To) as (v' & Wv' & Vv). destruct (plain_value _ _ _ _ _ rho Hn Sn Tn) as (w' & Ww' & Vw).
      rewrite Eo, En. cbn [eterm]. rewrite (weight_fun _ _ _ _ _ Wv Wv'), (weight_fun _ _ _ _ _ Ww Ww'). auto.
  Qed.
End Both.

Local Open Scope R_scope.
Lemma source_shown : forall m ords rx olds news meth s d f rows k mo mn eo en rho z v w, (forall k, is_order (ords k)) ->
  looks_at meth s ->
  compare_files m ords rx olds news {| p_method := meth; p_unit := d |} f = Ok rows ->
  threshold_mils (f_threshold f) z -> kind_selected f Changed ->
  entry_of olds k mo eo -> entry_of news k mn en ->
  passes rx (f_pallet f) (fst k) -> passes rx (f_extrinsic f) (snd k) ->
  sane_source s d mo mn eo en -> at_source_corner s mo mn eo en rho -> weight_at d rho eo v -> weight_at d rho en w ->
  differs (IZR z / 1000) v w ->
  exists r, In r (filter_changes rows f) /\ row_key r = k /\ shows_exactly r v w.
Proof.
  intros m ords rx olds news meth s d f rows k mo mn eo en rho z v w Ho M E HT S (So & to & ro & Hmo & Fo) (Sn & tn & rn & Hmn & Fn) Pp Pe Ht Hb Wv Ww G.
  pose proof (source_sane s d mo mn eo en k _ _ to tn ro rn Hmo Hmn So Sn eq_refl eq_refl Ht) as T.
  destruct (corner_values s d mo mn eo en k _ _ to tn ro rn Hmo Hmn So Sn eq_refl eq_refl Ht rho v w Hb Wv Ww) as (B & Vo & Vn).
  pose proof (CornerP.corner_shown m ords rx olds news meth s d f rows k _ _ _ z Ho M E HT S Fo Fn Pp Pe T B) as R.
  cbv zeta in R. rewrite Vo, Vn in R. exact (R G).
Qed.
Lemma source_real : forall m ords rx olds news meth s d f rows r c mo mn eo en rho z v w, (forall k, is_order (ords k)) ->
  looks_at meth s ->
  compare_files m ords rx olds news {| p_method := meth; p_unit := d |} f = Ok rows ->
  threshold_mils (f_threshold f) z -> In r (filter_changes rows f) -> reports r c -> tc_change c = Changed ->
  entry_of olds (row_key r) mo eo -> entry_of news (row_key r) mn en ->
  sane_source s d mo mn eo en -> at_source_corner s mo mn eo en rho -> weight_at d rho eo v -> weight_at d rho en w ->
  tc_old_v c = Some v /\ tc_new_v c = Some w /\ tc_percent c = percent v w /\
  ((0 < v)%N -> IZR z / 1000 - slack v w <= Rabs (rel_change_of v w)).
Proof.
  intros m ords rx olds news meth s d f rows r c mo mn eo en rho z v w Ho M E HT I Rp Kc (So & to & ro & Hmo & Fo) (Sn & tn & rn & Hmn & Fn) Ht Hb Wv Ww.
  pose proof (source_sane s d mo mn eo en _ _ _ to tn ro rn Hmo Hmn So Sn eq_refl eq_refl Ht) as T.
  destruct (corner_values s d mo mn eo en _ _ _ to tn ro rn Hmo Hmn So Sn eq_refl eq_refl Ht rho v w Hb Wv Ww) as (B & Vo & Vn).
  pose proof (CornerP.corner_real m ords rx olds news meth s d f rows r c _ _ _ z Ho M E HT I Rp Kc Fo Fn T B) as R.
  cbv zeta in R. rewrite Vo, Vn in R. exact R.
Qed.

Lemma web_shown : forall tglob tdisk m ords rx repo, (forall k, is_order (ords k)) ->
  forall a st sorted old new pat c_old c_new k s mo mn eo en rho v w,
  looks_at (wa_method a) s -> (wa_threshold a < 2 ^ 32)%N -> wa_pull a <> Some false ->
  do_compare run_git (fun s => tglob (r_work s)) (fun s => tdisk (r_work s)) m ords rx repo a st (Ok sorted) ->
  trimmed (wa_old a) old -> trimmed (wa_new a) new -> trimmed (wa_pattern a) pat ->
  r_remote st old = Some c_old -> r_remote st new = Some c_new -> unambiguous st old -> unambiguous st new ->
  source_of (tglob c_old) (tdisk c_old) repo pat k mo eo -> source_of (tglob c_new) (tdisk c_new) repo pat k mn en ->
  passes rx (wa_pallet a) (fst k) -> passes rx (wa_extrinsic a) (snd k) ->
  sane_source s (wa_unit a) mo mn eo en -> at_source_corner s mo mn eo en rho -> weight_at (wa_unit a) rho eo v -> weight_at (wa_unit a) rho en w ->
  differs (RN (wa_threshold a)) v w ->
  exists r, In r sorted /\ row_key r = k /\ shows_exactly r v w.
Proof.
  intros tglob tdisk m ords rx repo Ho a st sorted old new pat c_old c_new k s mo mn eo en rho v w M Ht Pl H To Tn Tp Ro Rn Uo Un So Sn Pp Pe Ta Hb Wv Ww G.
  apply WebP.trim_iff in To, Tn, Tp. subst old new pat.
  destruct (PageP.answer_inv _ _ _ _ _ _ _ _ _ _ H) as (rows & E & S).
  assert (ND : ~ has_dots (trim (wa_pattern a))).
  { intros D. apply GitP.contains_spec in D. unfold compare_commits in E. rewrite D in E. discriminate E. }
  destruct (GitP.trees_newest tglob tdisk m ords rx repo (trim (wa_old a)) (trim (wa_new a)) (web_params a) (web_git a) (web_filter a)
    (trim (wa_pattern a)) web_max_files st c_old c_new ND) as (s' & tr & Q & _); auto.
  { cbn. destruct (wa_pull a) as [[|]|]; try congruence; auto. }
  rewrite Q in E. cbn [fst] in E. destruct (EndP3.trees_inv _ _ _ _ _ _ _ _ _ _ _ _ _ _ E) as (olds & news & Lo & Ln & C).
  destruct (source_shown m ords rx olds news (wa_method a) s (wa_unit a) (web_filter a) rows k mo mn eo en rho
    (1000 * Z.of_N (wa_threshold a)) v w Ho M C (EndP3.int_threshold _ Ht)) as (r & I & K & X); auto.
  - intros ks K. discriminate K.
  - exact (EndP3.load_entry _ _ _ _ _ _ _ _ _ _ _ Lo So).
  - exact (EndP3.load_entry _ _ _ _ _ _ _ _ _ _ _ Ln Sn).
  - rewrite EndP3.thousand. exact G.
  - exists r. destruct (RowsP.sort_lemma _ _ S) as (P & _). split; [eapply Permutation_in; eauto|]. auto.
Qed.
