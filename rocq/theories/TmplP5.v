(** From measurements to the answer. *)
From Coq Require Import List String Ascii NArith ZArith Bool Lia Reals Floats.SpecFloat.
From Verif Require Import Base TermM SpecTerm SpecChrom F64 CompareM SpecCompare RowsM SpecRows SynM ParseM SpecAttr SpecParse FilesM SpecFiles AttrM AttrP ParseP ParseP2 ParseP3 GitM SpecGit CompareP4 LexM SpecText GramM GramP2 SpecF64 SpecEnd EndP3 ServerM SpecServer WebM SpecWeb SpecTmpl TmplP TmplP2 TmplP3 TmplP4.
Import ListNotations.
Local Open Scope string_scope.
Local Open Scope list_scope.
Local Open Scope N_scope.

(** ** Texts *)
Lemma reader_reads : reads_grammar read_items.
Proof. intros is s T _. now apply read_iff. Qed.
Lemma text_source syn glob texts repo pat k m e : reads_grammar syn -> text_source_of syn glob texts repo pat k m e ->
  source_of glob (disk_of syn texts) repo pat k m e.
Proof.
  intros G (B & p & rest & s & items & L & Bp & Pk & T & A & Tx & W & N & S). split; [exact B|].
  exists p, rest, items. repeat split; auto; try apply L; try apply Bp. unfold disk_of. rewrite T. f_equal. now apply G.
Qed.

(** ** Measurements *)
Lemma methods_fns v st r bs : methods (map (fun b => IFn (fn_of v st r b)) bs) = map (fn_of v st r) bs.
Proof. induction bs as [|b bs IH]; [reflexivity|]. cbn. now rewrite IH. Qed.
Lemma items_split v d : exists pre post, items_of v d = pre ++ IImpl (TPath (mk_path false [impl_name d])) (fns v false d) :: post /\
  (forall i, In i pre -> i = IOther).
Proof.
  eexists. eexists. split; [unfold items_of; reflexivity|]. intros i I. destruct (runtime_style d); cbn in I; intuition.
Qed.
Lemma impl_weight d : weight_impl (TPath (mk_path false [impl_name d])).
Proof. right. exists (impl_name d). unfold impl_name. destruct (runtime_style d); auto. Qed.
Lemma style_fits d b : weights_ok d -> In b (w_benches d) -> fits (w_style d) b.
Proof. intros D I E. now apply (ok_version d D E). Qed.
Lemma weights_file v d b : numerals v -> weights_ok d -> In b (w_benches d) -> weight_file (items_of v d) (fn_of v (w_style d) false b).
Proof.
  intros V D I. destruct (items_split v d) as (pre & post & E & O). exists pre, (TPath (mk_path false [impl_name d])), (fns v false d), post.
  split; [exact E|]. split; [apply impl_weight|]. split; [intros t its J; specialize (O _ J); discriminate O|].
  unfold fns. rewrite methods_fns. split; [|split].
  - apply Forall_forall. intros m J. apply in_map_iff in J. destruct J as (x & <- & J). apply fn_template; auto; [now apply (ok_benches d D)|now apply style_fits].
  - rewrite map_map. exact (ok_distinct d D).
  - now apply in_map.
Qed.
Lemma data_source syn glob texts repo pat k b : data_source_of syn glob texts repo pat k b -> exists v st, numerals v /\ bench_ok b /\ fits st b /\
  text_source_of syn glob texts repo pat k (fn_of v st false b) (e_body st false b).
Proof.
  intros (B & p & rest & u & v & d & L & Bp & Pk & T & A & U & V & D & I & N). exists v, (w_style d). split; [exact V|]. split; [now apply (ok_benches d D)|].
  split; [now apply style_fits|].
  split; [exact B|]. exists p, rest, (file_text u v d), (items_of v d). split; [exact L|]. split; [exact Bp|]. split; [exact Pk|]. split; [exact T|]. split; [exact A|].
  split; [now apply file_items|]. split; [now apply weights_file|]. split; [exact N|reflexivity].
Qed.

Lemma body_computes st rho b : bench_ok b -> fits st b -> computes rho (e_body st false b) (time_of rho 25000000 100000000 b) (proof_of rho b).
Proof.
  intros B F. pose proof (body_val st false rho 25000000 100000000 b B F) as V. unfold two in V. destruct (old st) eqn:O; [right|now left].
  split; [exact V|]. destruct st; try discriminate O. destruct (F eq_refl) as [E1 E2]. unfold proof_of, linear. now rewrite E1, E2.
Qed.
Lemma body_weight d st rho b : bench_ok b -> fits st b -> weight_at d rho (e_body st false b) (bench_weight d rho b).
Proof. intros B F. eexists. eexists. split; [now apply body_computes|]. destruct d; reflexivity. Qed.
Lemma body_weight_inv d st rho b v : bench_ok b -> fits st b -> weight_at d rho (e_body st false b) v -> v = bench_weight d rho b.
Proof. intros B F W. exact (EndP2.weight_fun d rho _ _ _ W (body_weight d st rho b B F)). Qed.
Lemma box_iff vo vn so sn bo bn rho : numerals vo -> numerals vn -> bench_ok bo -> bench_ok bn ->
  (in_source_box (fn_of vo so false bo) (fn_of vn sn false bn) (e_body so false bo) (e_body sn false bn) rho <-> in_bench_box bo bn rho).
Proof.
  intros Vo Vn Bo Bn. unfold in_source_box, in_bench_box. split; intros H c U.
  - destruct (H c) as (Ao & An & lo & hi & So & Sn & R); [now rewrite !names_body|]. exists Ao, An, lo, hi.
    split; [now apply (fn_range vo so Vo false)|]. split; [now apply (fn_range vn sn Vn false)|exact R].
  - rewrite !names_body in U. destruct (H c U) as (Ao & An & lo & hi & So & Sn & R). exists Ao, An, lo, hi.
    split; [now apply fn_range|]. split; [now apply fn_range|exact R].
Qed.
Lemma body_tame st b : bench_ok b -> fits st b -> (forall c, uses b c -> plain_name c) -> tame_body (e_body st false b).
Proof.
  intros B F P. pose proof (body_template st false b B F) as T.
  split; [|split; [intros x; now apply degree_body|intros x I; apply P; now apply names_body in I]].
  pose proof (fun rho => body_val st false rho 25000000 100000000 b B F) as V. unfold two in V. destruct (old st); [right|left]; (split; [|intros rho; rewrite V; eauto]).
  - apply (old_accepted (fun _ => 0) 0 0 _ T).
  - apply (template_accepted (fun _ => 0) 0 0 _ T).
Qed.
Lemma data_tame d vo vn so sn bo bn : numerals vo -> numerals vn -> bench_ok bo -> bench_ok bn -> fits so bo -> fits sn bn -> tame_data d bo bn ->
  tame_source d (fn_of vo so false bo) (fn_of vn sn false bn) (e_body so false bo) (e_body sn false bn).
Proof.
  intros Vo Vn Bo Bn Fo Fn (P & V). split; [apply body_tame; auto|]. split; [apply body_tame; auto|]. split.
  - intros a c r I D. apply P. right. right. destruct I as [I|I]; [left|right].
    + apply (docs_declare vo so Vo bo a c r Bo I) in D. destruct D as [_ D]. apply in_map_iff. now exists (c, r).
    + apply (docs_declare vn sn Vn bn a c r Bn I) in D. destruct D as [_ D]. apply in_map_iff. now exists (c, r).
  - intros rho v w B Hv Hw. apply body_weight_inv in Hv; auto. apply body_weight_inv in Hw; auto. subst v w. apply V. now apply box_iff in B.
Qed.

(** ** The entries *)
Lemma last_annotates b v st c r : numerals v -> bench_ok b -> plain_name c -> (forall c' r, In (c', r) (b_ranges b) -> plain_name c') ->
  (last_declared (map adoc (docs v st b)) c r <-> In (c, r) (b_ranges b)).
Proof.
  intros V B Pc P. assert (W : forall x, plain_name x -> without_us x = x) by (intros x; apply EndP2.plain_without).
  split.
  - intros (pre & a & post & c' & E & D & Ec & _). apply (docs_declare v st V b a c' r B) in D; [|rewrite E; apply in_elt].
    destruct D as [_ D]. rewrite W in Ec by now apply (P c' r). now subst.
  - intros I. apply (fn_annotates v st V false b c r B) in I. destruct I as (pre & a & post & E & D & L). exists pre, a, post, c.
    split; [exact E|]. split; [exact D|]. split; [now apply W|]. intros a' c'' r' I' D' Ec.
    assert (J : In a' (map adoc (docs v st b))). { change (map adoc (docs v st b)) with (m_attrs (fn_of v st false b)). rewrite E. apply in_or_app. right. now right. }
    pose proof (proj1 (docs_declare v st V b a' c'' r' B J) D') as [_ K].
    rewrite W in Ec by now apply (P c'' r'). subst c''. exact (L a' r' I' D').
Qed.
Lemma fn_entry pallet v st b : numerals v -> bench_ok b -> fits st b -> exists e, ParseP3.entry pallet (fn_of v st false b) e /\ describes pallet b e.
Proof.
  intros V B F. destruct (parse_component_attrs (map adoc (docs v st b))) as [rs|msg|w|] eqn:R.
  2:{ exfalso. assert (K : is_err (parse_component_attrs (map adoc (docs v st b))) = true) by now rewrite R.
      apply attrs_err in K. destruct K as (a & I & M). now apply (docs_fine v st V b a B I). }
  2,3: pose proof (attrs_returns (map adoc (docs v st b))) as K; rewrite R in K; destruct K.
  assert (M : exists t, handle_method (fn_of v st false b) = Ok (b_name b, t, rs) /\ forall rho rd wr,
    poly_val (with_rw rho rd wr) (restrict Time t) = time_of rho rd wr b /\ poly_val (with_rw rho 0 0) (restrict Proof_size t) = proof_of rho b).
  { pose proof (body_template st false b B F) as T. pose proof (fun rho rd wr => body_val st false rho rd wr b B F) as Vb. unfold two in Vb.
    assert (Dw : declares_weight (fn_of v st false b)) by (exists (mk_path false ["Weight"]), [], ""; auto).
    destruct (old st) eqn:O.
    - destruct (old_method (fn_of v st false b) (e_body st false b) rs T eq_refl Dw R) as (t & H & Hv). exists t. split; [exact H|].
      intros rho rd wr. destruct (Hv rho rd wr) as (x & E & X & Y). rewrite Vb in E. injection E as <-. split; [exact X|]. rewrite Y.
      destruct st; try discriminate O. destruct (F eq_refl) as [E1 E2]. unfold proof_of, linear. now rewrite E1, E2.
    - destruct (template_method (fn_of v st false b) (e_body st false b) rs T eq_refl Dw R) as (t & H & Hv). exists t. split; [exact H|].
      intros rho rd wr. destruct (Hv rho rd wr) as (x & y & E & X & Y). rewrite Vb in E. injection E as <- <-. auto. }
  destruct M as (t & H & Hv).
  exists (mk_ext (b_name b) pallet t rs). split; [split; [reflexivity|exact H]|]. split; [reflexivity|]. split; [reflexivity|]. split; [|split].
  - intros rho rd wr. apply Hv.
  - intros rho. exact (proj2 (Hv rho 0 0)).
  - intros c Pc P r. cbn [eranges]. rewrite (annotated_spec _ _ c r R). now apply last_annotates.
Qed.
Lemma first_other pallet msg pre i post : (forall x, In x pre -> x = IOther) ->
  first_ok (handle_item pallet) msg (pre ++ i :: post) = first_ok (handle_item pallet) msg (i :: post).
Proof.
  intros O. induction pre as [|x pre IH]; [reflexivity|]. rewrite (O x) by now left. cbn [app first_ok handle_item]. apply IH. intros y I. apply O. now right.
Qed.
Lemma file_described syn u v d pallet : reads_grammar syn -> numerals u -> numerals v -> weights_ok d -> w_benches d <> [] ->
  syn (file_text u v d) <> None ->
  exists es, parse_content pallet (syn (file_text u v d)) = Ok es /\ Forall2 (describes pallet) (w_benches d) es.
Proof.
  intros G U V D N A. rewrite (G _ _ (file_items u v U V d D) A).
  assert (K : exists es, Forall2 (entry pallet) (methods (fns v false d)) es /\ Forall2 (describes pallet) (w_benches d) es).
  { unfold fns. rewrite methods_fns. assert (B : forall b, In b (w_benches d) -> bench_ok b /\ fits (w_style d) b) by (intros b I; split; [now apply (ok_benches d D)|now apply style_fits]).
    clear N. induction (w_benches d) as [|b bs IH]; [exists []; split; constructor|].
    destruct IH as (es & E1 & E2); [intros x I; apply B; now right|]. destruct (B b (or_introl eq_refl)) as [Bb Fb].
    destruct (fn_entry pallet v (w_style d) b V Bb Fb) as (e & H1 & H2).
    exists (e :: es). split; constructor; auto. }
  destruct K as (es & E1 & E2). exists es. split; [|exact E2].
  destruct (items_split v d) as (pre & post & E & O). rewrite E.
  assert (Us : usable (entry pallet) (IImpl (TPath (mk_path false [impl_name d])) (fns v false d)) es).
  { eexists. eexists. split; [reflexivity|]. split; [apply impl_weight|]. split; [|exact E1].
    intros ->. inversion E2. congruence. }
  apply item_usable in Us. unfold parse_content. rewrite (first_other _ _ _ _ _ O). cbn [first_ok]. now rewrite Us.
Qed.

(** ** The answers *)
Section End_.
  Variables (syn : string -> option (list item)) (tglob : N -> string -> option (list (option fpath))) (texts : N -> fpath -> string + string).
  Variables (m : mode) (ords : string * string -> list string -> list string) (rx : regex_engine) (repo : fpath).
  Hypotheses (Hsyn : reads_grammar syn) (Hords : forall k, is_order (ords k)).
  Let tdisk (c : N) := disk_of syn (texts c).

  Lemma text_trees meth d ps f pat mx c_old c_new rows k mo mn eo en rho z v w :
    meth = ExactWorst \/ meth = GuessWorst ->
    compare_trees tglob tdisk m ords rx repo {| p_method := meth; p_unit := d |} ps f pat mx c_old c_new = Ok rows ->
    threshold_mils (f_threshold f) z -> kind_selected f Changed ->
    text_source_of syn (tglob c_old) (texts c_old) repo pat k mo eo -> text_source_of syn (tglob c_new) (texts c_new) repo pat k mn en ->
    passes rx (f_pallet f) (fst k) -> passes rx (f_extrinsic f) (snd k) ->
    tame_source d mo mn eo en -> in_source_box mo mn eo en rho -> weight_at d rho eo v -> weight_at d rho en w ->
    grown (IZR z / 1000) v w ->
    typed_rows rows /\ exists r, In r (filter_changes rows f) /\ row_key r = k /\ shows r (IZR z / 1000) v w.
  Proof.
    intros Hm C T K So Sn. eapply (trees_regression tglob tdisk m ords rx repo Hords); eauto; now apply text_source.
  Qed.
  Lemma text_web a s sorted old new pat c_old c_new k mo mn eo en rho v w :
    wa_method a = ExactWorst \/ wa_method a = GuessWorst -> (wa_threshold a < 2 ^ 32)%N -> wa_pull a <> Some false ->
    do_compare run_git (fun s => tglob (r_work s)) (fun s => tdisk (r_work s)) m ords rx repo a s (Ok sorted) ->
    trimmed (wa_old a) old -> trimmed (wa_new a) new -> trimmed (wa_pattern a) pat ->
    r_remote s old = Some c_old -> r_remote s new = Some c_new -> unambiguous s old -> unambiguous s new ->
    text_source_of syn (tglob c_old) (texts c_old) repo pat k mo eo -> text_source_of syn (tglob c_new) (texts c_new) repo pat k mn en ->
    passes rx (wa_pallet a) (fst k) -> passes rx (wa_extrinsic a) (snd k) ->
    tame_source (wa_unit a) mo mn eo en -> in_source_box mo mn eo en rho -> weight_at (wa_unit a) rho eo v -> weight_at (wa_unit a) rho en w ->
    grown (RN (wa_threshold a)) v w ->
    exists r, In r sorted /\ row_key r = k /\ shows r (RN (wa_threshold a)) v w.
  Proof.
    intros Hm Ht Hp C To Tn Tp Ro Rn Uo Un So Sn. eapply (web_regression tglob tdisk m ords rx repo Hords); eauto; now apply text_source.
  Qed.
  Lemma data_trees meth d ps f pat mx c_old c_new rows k bo bn rho z :
    meth = ExactWorst \/ meth = GuessWorst ->
    compare_trees tglob tdisk m ords rx repo {| p_method := meth; p_unit := d |} ps f pat mx c_old c_new = Ok rows ->
    threshold_mils (f_threshold f) z -> kind_selected f Changed ->
    data_source_of syn (tglob c_old) (texts c_old) repo pat k bo -> data_source_of syn (tglob c_new) (texts c_new) repo pat k bn ->
    passes rx (f_pallet f) (fst k) -> passes rx (f_extrinsic f) (snd k) ->
    tame_data d bo bn -> in_bench_box bo bn rho -> grown (IZR z / 1000) (bench_weight d rho bo) (bench_weight d rho bn) ->
    typed_rows rows /\ exists r, In r (filter_changes rows f) /\ row_key r = k /\ shows r (IZR z / 1000) (bench_weight d rho bo) (bench_weight d rho bn).
  Proof.
    intros Hm C T K So Sn Pp Pe Td Bx Gr. destruct (data_source _ _ _ _ _ _ _ So) as (vo & so & Vo & Bo & Fo & So'). destruct (data_source _ _ _ _ _ _ _ Sn) as (vn & sn & Vn & Bn & Fn & Sn').
    eapply text_trees; eauto using body_weight; [now apply data_tame|now apply box_iff].
  Qed.
  Lemma data_web a s sorted old new pat c_old c_new k bo bn rho :
    wa_method a = ExactWorst \/ wa_method a = GuessWorst -> (wa_threshold a < 2 ^ 32)%N -> wa_pull a <> Some false ->
    do_compare run_git (fun s => tglob (r_work s)) (fun s => tdisk (r_work s)) m ords rx repo a s (Ok sorted) ->
    trimmed (wa_old a) old -> trimmed (wa_new a) new -> trimmed (wa_pattern a) pat ->
    r_remote s old = Some c_old -> r_remote s new = Some c_new -> unambiguous s old -> unambiguous s new ->
    data_source_of syn (tglob c_old) (texts c_old) repo pat k bo -> data_source_of syn (tglob c_new) (texts c_new) repo pat k bn ->
    passes rx (wa_pallet a) (fst k) -> passes rx (wa_extrinsic a) (snd k) ->
    tame_data (wa_unit a) bo bn -> in_bench_box bo bn rho ->
    grown (RN (wa_threshold a)) (bench_weight (wa_unit a) rho bo) (bench_weight (wa_unit a) rho bn) ->
    exists r, In r sorted /\ row_key r = k /\ shows r (RN (wa_threshold a)) (bench_weight (wa_unit a) rho bo) (bench_weight (wa_unit a) rho bn).
  Proof.
    intros Hm Ht Hp C To Tn Tp Ro Rn Uo Un So Sn Pp Pe Td Bx Gr.
    destruct (data_source _ _ _ _ _ _ _ So) as (vo & so & Vo & Bo & Fo & So'). destruct (data_source _ _ _ _ _ _ _ Sn) as (vn & sn & Vn & Bn & Fn & Sn').
    eapply text_web with (old := old) (new := new) (c_old := c_old) (c_new := c_new); eauto using body_weight; [now apply data_tame|now apply box_iff].
  Qed.
End End_.
