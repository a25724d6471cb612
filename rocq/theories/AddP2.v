(** Proofs about functions that only one version has: rows. *)
From Coq Require Import List String Ascii NArith ZArith Lia Bool Permutation Floats.SpecFloat.
From Verif Require Import Base ScopeM TermM SpecTerm TermP SpecChrom ChromP F64 SpecF64 CompareM SpecCompare CompareP2 CompareP3 CompareP4 RowsM SpecRows RowsP
  FmtM SpecFmt SynM AttrM ParseM SpecParse SpecAttr FilesM SpecFiles SpecCli SpecWeb SpecEnd SpecText SpecTmpl SpecShow ShowP ShowP2 SpecPrint SpecAdd AddP.
From Verif Require EndP EndP2 EndP3 DecP TmplP2 TmplP3 TmplP4 TmplP5.
Import ListNotations.
Local Open Scope string_scope.

(** ** When comparisons fail *)
Lemma extend_names_any ord a b x meth sc msg : match a with Some e => Some e | None => b end = Some x ->
  extend_scoped_components ord a b meth sc = Err msg -> SpecWeb.occurs (epallet x ++ "::" ++ ename x) msg.
Proof.
  intros X. unfold extend_scoped_components. rewrite X. destruct (Nat.ltb _ _).
  - intros H. injection H as <-. eexists "Too many components to compare: ", _. rewrite !DecP.app_str_assoc. reflexivity.
  - destruct (mapM _ _) as [bs|e|w|] eqn:M; cbn [bind]; try discriminate. intros H. injection H as <-.
    apply mapM_err in M. destruct M as (c & _ & M).
    destruct (instance_component c _ _ (method_min meth) _ _) eqn:I1; cbn [bind] in M; try discriminate M.
    + destruct (instance_component c _ _ (method_max meth) _ _) eqn:I2; cbn [bind] in M; try discriminate M. injection M as <-. eapply instance_names; eauto.
    + injection M as <-. eapply instance_names; eauto.
Qed.
Lemma lone_fails m ord o n x ps msg : is_order ord -> lone o n x -> compare_extrinsics m ord o n ps = Err msg ->
  SpecWeb.occurs (epallet x ++ "::" ++ ename x) msg /\
  ((exists l, NoDup l /\ 16 < List.length l /\ forall c, In c l -> SpecCompare.component storage_var o n c) \/
   is_exact (p_method ps) /\ exists c, SpecCompare.component storage_var o n c /\ ~ unambiguous (annotations o n c)).
Proof.
  intros Ho Lo E. set (d := p_unit ps). assert (Hp : o <> None \/ n <> None) by (destruct Lo as [[-> ->]|[-> ->]]; [right|left]; discriminate).
  assert (Fx : exists x', match eff d o with Some e => Some e | None => eff d n end = Some x' /\ epallet x' = epallet x /\ ename x' = ename x).
  { destruct Lo as [[-> ->]|[-> ->]]; cbn; eauto. }
  destruct (extend_dec ord _ _ (p_method ps) (storage_scope d) Ho (eff_present d _ _ Hp)) as [[l X]|X].
  - exfalso. destruct (compare_char m ord o n ps l Ho Hp X) as [(s & e & w & _ & _ & _ & _ & K)|(_ & r & _ & K)]; rewrite K in E; discriminate E.
  - split.
    + unfold compare_extrinsics in E. fold d in E. rewrite !drop_effective, base_scope_eq in E.
      destruct (extend_scoped_components ord (eff d o) (eff d n) (p_method ps) (storage_scope d)) as [?|e|?|] eqn:Q; try discriminate X.
      cbn [bind] in E. injection E as ->. destruct Fx as (x' & Fx & <- & <-). exact (extend_names_any _ _ _ _ _ _ _ Fx Q).
    + apply (extend_err_lemma ord _ _ (p_method ps) (storage_scope d) Ho (eff_present d _ _ Hp)) in X.
      destruct X as [(k & (l & N & I & L) & G)|(Ex & c & C & U)].
      * left. exists l. split; [exact N|]. split; [lia|]. intros c J. apply I in J. apply (component_storage d), (proj1 (component_eff d _ _ _)), J.
      * right. split; [exact Ex|]. exists c. split; [apply (component_storage d), (proj1 (component_eff d _ _ _)), C|]. unfold annotations in *. now rewrite !annotation_eff in U.
Qed.

(** ** One version stands for both *)
Lemma inst_twice s A v : inst s (app A A) v <-> inst s A v.
Proof.
  destruct A as [|r A]; [reflexivity|]. set (B := r :: A). 
  assert (M : forall (f : comp_range -> N) x, In x (map f (app B B)) <-> In x (map f B)) by (intros f x; rewrite map_app, in_app_iff; tauto).
  assert (K : inst s (app B B) v <-> match s with Low => In v (map rmin (app B B)) /\ (forall x, In x (map rmin (app B B)) -> (v <= x)%N) | High => In v (map rmax (app B B)) /\ (forall x, In x (map rmax (app B B)) -> (x <= v)%N) end).
  { destruct s; reflexivity. }
  rewrite K. destruct s; cbn [inst B]; fold B; rewrite M; split; intros [H1 H2]; split; auto; intros x I; apply H2; now apply M.
Qed.
Lemma range_fun b c A A' : bench_ok b -> range_in b c A -> range_in b c A' -> A = A'.
Proof.
  intros B [(r & -> & I)|[-> N]] [(r' & -> & I')|[-> N']]; auto.
  - f_equal. eapply TmplP4.range_once; eauto.
  - exfalso. eapply N'; eauto.
  - exfalso. eapply N; eauto.
Qed.
Lemma alone_box b rho : bench_ok b -> in_bench_box b b rho <-> in_ranges b rho.
Proof.
  intros B. split; intros H c U.
  - destruct (H c (or_introl U)) as (A & A' & lo & hi & R & R' & L & G & K). rewrite (range_fun b c A' A B R' R) in *. exists A, lo, hi.
    split; [exact R|]. split; [now apply inst_twice|]. split; [now apply inst_twice|exact K].
  - assert (U' : uses b c) by (destruct U; auto). destruct (H c U') as (A & lo & hi & R & L & G & K). exists A, A, lo, hi.
    split; [exact R|]. split; [exact R|]. split; [now apply inst_twice|]. split; [now apply inst_twice|exact K].
Qed.
Lemma alone_tame d b : bench_ok b -> tame_alone d b -> tame_data d b b.
Proof.
  intros B [P W]. split; [intros c H; apply P; destruct H as [H|[H|[H|H]]]; auto|]. intros rho H. apply alone_box in H; auto.
Qed.

(** ** Rows *)
Definition side_entries (o : only) (olds news : list cextrinsic) (k : string * string) (b : bench) : Prop :=
  only_in o (bench_entry olds) (bench_entry news) (fun k => is_first olds k None) (fun k => is_first news k None) k b.
Section Rows.
  Variables (m : mode) (ords : string * string -> list string -> list string) (rx : regex_engine) (olds news : list cextrinsic).
  Variables (meth : CompareM.method) (d : dimension) (f : fparams) (rows : list row).
  Hypotheses (Hords : forall k, is_order (ords k)) (M : low_side meth = Low)
    (E : compare_files m ords rx olds news {| p_method := meth; p_unit := d |} f = Ok rows).
  Lemma lone_row s k b r : side_entries s olds news k b -> tame_alone d b -> In r rows -> row_key r = k ->
    (exists e, row_diff r = DFailed e /\ SpecWeb.occurs (fst k ++ "::" ++ snd k) e) /\ incomparable meth (uses b) (range_in b) \/
    exists c v, reports r c /\ least_weight d b v /\ (v < u128_bound)%N /\ tc_change c = kind s /\ tc_old_v c = old_value s v /\ tc_new_v c = new_value s v.
  Proof.
    intros Se Ta I K.
    assert (H : exists l t rs v st, numerals v /\ bench_ok b /\ TmplP4.fits st b /\ handle_method (TmplP3.fn_of v st false b) = Ok (snd k, t, rs) /\
      l = mk_ext (snd k) (fst k) t rs /\ is_first olds k (match s with In_new => None | In_old => Some l end) /\ is_first news k (match s with In_new => Some l | In_old => None end)).
    { destruct s; [destruct Se as [A (v & st & V & B & Ft & _ & t & rs & Hm & F)]|destruct Se as [(v & st & V & B & Ft & _ & t & rs & Hm & F) A]]; do 5 eexists; split; try exact V; split; try exact B; split; try exact Ft; split; try exact Hm; split; try reflexivity; split; assumption. }
    destruct H as (l & t & rs & v & st & V & B & Ft & Hm & El & Fo & Fn).
    set (mt := TmplP3.fn_of v st false b) in *. set (e := TmplP2.e_body st false b).
    assert (Sm : m_stmts mt = [SExpr e]) by reflexivity.
    assert (Ts : tame_source d mt mt e e) by (apply TmplP5.data_tame; auto using alone_tame).
    pose proof (EndP2.source_tame d mt mt e e k _ _ t t rs rs Hm Hm Sm Sm El El Ts) as (Ty & _).
    pose proof (EndP2.box_source d mt mt e e k _ _ t t rs rs Hm Hm Sm Sm El El Ts) as Bx.
    pose proof Ts as (To & _ & Pn & _).
    destruct (EndP2.body_shape d _ _ _ _ _ Hm Sm To) as ([Oo _] & _ & Ao & No).
    set (x := in_dim d l) in *. set (oo := match s with In_new => None | In_old => Some x end). set (nn := match s with In_new => Some x | In_old => None end).
    assert (Lo : lone oo nn x) by (destruct s; [left|right]; auto).
    assert (An : forall c, annotations oo nn c = annotated rs c) by (intros c; subst l; destruct s; cbn; [reflexivity|apply app_nil_r]).
    assert (Ri : forall c, range_in b c (annotated rs c)).
    { intros c. apply (TmplP4.fn_range v st V false b c _ B). apply (EndP2.source_annotated (m_attrs mt) rs); eauto. }
    assert (Cm : forall c, SpecCompare.component storage_var oo nn c <-> SpecCompare.component storage_var (Some x) (Some x) c).
    { intros c. split; intros [(e' & H & J) S]; (split; [|exact S]); exists e'; (split; [|exact J]); destruct s; cbn in *; destruct H as [H|H]; inversion H; auto. }
    assert (Us : forall c, SpecCompare.component storage_var oo nn c -> uses b c).
    { intros c C. apply Cm in C. destruct C as [(e' & H & J) Nsv]. assert (e' = x) by (destruct H as [H|H]; congruence). subst e' x l. cbn [eterm in_dim] in J. apply (TmplP4.names_body st false b). now apply (Oo c Nsv). }
    assert (Pr : proper oo nn).
    { intros c r' J. rewrite An in J. destruct (Ri c) as [(r0 & Q & J0)|[Q _]]; rewrite Q in J; [|destruct J]. destruct J as [<-|[]]. now apply (ok_ranges b B) in J0. }
    assert (Eb : forall rho, in_box d oo nn rho <-> in_box d (Some x) (Some x) rho).
    { intros rho. unfold in_box. split; intros (R1 & R2 & R3); (split; [exact R1|split; [exact R2|]]); intros c C.
      - apply Cm in C. destruct (R3 c C) as (lo & hi & L & G & Q). rewrite An in L, G. exists lo, hi. subst x l. change (annotations _ _ c) with (app (annotated rs c) (annotated rs c)). rewrite !inst_twice. auto.
      - apply Cm in C. destruct (R3 c C) as (lo & hi & L & G & Q). subst x l. change (annotations (Some _) (Some _) c) with (app (annotated rs c) (annotated rs c)) in L, G. rewrite inst_twice in L, G. exists lo, hi. rewrite An. auto. }
    assert (Vb : forall rho, in_box d oo nn rho -> poly_val rho (eterm x) = bench_weight d rho b /\ in_ranges b rho).
    { intros rho H. apply Eb, Bx in H. destruct H as (R1 & R2 & Sb). destruct (EndP2.body_value d mt mt e e Ts _ _ _ _ _ rho Hm Sm To) as (w & Ww & Wv).
      rewrite EndP2.rho_same in Wv by auto. apply TmplP5.body_weight_inv in Ww; auto. split; [subst x; rewrite El; cbn [eterm in_dim]; congruence|].
      apply alone_box; auto. now apply (TmplP5.box_iff v v st st). }
    assert (Pt : forall rho, in_ranges b rho -> exists rho', in_box d oo nn rho' /\ poly_val rho' (eterm x) = bench_weight d rho b).
    { intros rho H. apply alone_box in H; auto. apply (TmplP5.box_iff v v st st b b rho V V B B) in H.
      destruct (EndP2.source_point d mt mt e e k _ _ t t rs rs Hm Hm Sm Sm El El Ts rho _ _ H (TmplP5.body_weight d st rho b B Ft) (TmplP5.body_weight d st rho b B Ft)) as (X & Y & _).
      eexists. split; [apply Eb; exact X|]. subst x l. exact Y. }
    subst k. pose proof (first_lemma _ _ _ _ _ _ _ _ _ _ _ E I Fo Fn) as R. unfold row_of in R. cbn [p_unit] in R.
    replace (option_map (in_dim d) (match s with In_new => None | In_old => Some l end)) with oo in R by (destruct s; reflexivity).
    replace (option_map (in_dim d) (match s with In_new => Some l | In_old => None end)) with nn in R by (destruct s; reflexivity).
    destruct (compare_extrinsics m (ords (row_key r)) oo nn {| p_method := meth; p_unit := d |}) as [tc|msg|w|] eqn:C; try contradiction.
    - right. assert (Rp : reports r tc).
      { destruct R as (e' & _ & R). destruct (sanity_check_term _); try contradiction; [left; exact R|right; eauto]. }
      destruct (lone_value m (ords (row_key r)) oo nn x meth d tc (Hords _) M Lo Pr Ty) as (rho & Br & Ch & Le); auto.
      { right. intros rho H. destruct (Vb rho H) as [-> H']. now apply Ta. }
      destruct (Vb rho Br) as [Ev Ir]. rewrite Ev in *. exists tc, (bench_weight d rho b). split; [exact Rp|]. split; [split; [eauto|]|split; [now apply Ta|]].
      + intros rho' H'. destruct (Pt rho' H') as (rh & H1 & <-). now apply Le.
      + destruct s; exact Ch.
    - left. destruct (lone_fails _ _ _ _ _ _ _ (Hords _) Lo C) as [Oc F]. split.
      { exists msg. split; [exact R|]. subst x l. exact Oc. }
      destruct F as [(ll & N & L & I')|(X & c & Cc & U)].
      + left. exists ll. split; [exact N|]. split; [exact L|]. intros c J. now apply Us, I'.
      + right. split; [destruct X as [X|X]; cbn in X; [exact X|rewrite X in M; discriminate M]|]. exists c, (annotated rs c). rewrite An in U. split; [now apply Us|]. split; [apply Ri|exact U].
  Qed.
  Lemma lone_kept s k b r : side_entries s olds news k b -> tame_alone d b -> is_double (f_threshold f) -> In r rows -> row_key r = k ->
    (In r (filter_changes rows f) <-> is_failed r \/ kind_selected f (kind s)).
  Proof.
    intros Se Ta Dt I K. assert (Ty : typed_rows rows) by (eapply typed_lemma; eauto). unfold filter_changes. rewrite filter_In, keep_spec; auto; [|intros c Rc; eapply Ty; eauto].
    destruct (lone_row s k b r Se Ta I K) as [[(e & F & _) _]|(c & v & Rp & _ & _ & Ck & _)].
    - assert (is_failed r) by (exists e; exact F). split; [intros _; now left|intros _; split; [exact I|now left]].
    - assert (Nf : ~ is_failed r) by exact (reports_not_failed _ _ Rp). split.
      + intros [_ [F|(c' & R' & S & _)]]; [now left|right]. rewrite (reports_fun _ _ _ R' Rp), Ck in S. exact S.
      + intros [F|S]; [contradiction|]. split; [exact I|]. right. exists c. rewrite Ck. split; [exact Rp|]. split; [exact S|]. destruct s; split; discriminate.
  Qed.
  Lemma lone_exists s k b : side_entries s olds news k b -> passes rx (f_pallet f) (fst k) -> passes rx (f_extrinsic f) (snd k) -> exists r, In r rows /\ row_key r = k.
  Proof.
    intros Se Pp Pe. destruct (rows_lemma m ords rx olds news _ f rows E) as [_ Kp].
    assert (X : exists e, (In e olds \/ In e news) /\ ext_key e = k).
    { destruct s; [destruct Se as [_ (v & st & _ & _ & _ & _ & t & rs & _ & F)]|destruct Se as [(v & st & _ & _ & _ & _ & t & rs & _ & F) _]]; destruct F as (l1 & l2 & -> & Q & _);
        eexists; (split; [|exact Q]); [right|left]; apply in_or_app; right; now left. }
    assert (J : In k (map row_key rows)) by (apply Kp; auto). apply in_map_iff in J. destruct J as (r & Q & J). eauto.
  Qed.
End Rows.
