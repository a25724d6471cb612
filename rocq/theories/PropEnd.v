(** Properties C73-C75: regressions. *)
From Coq Require Import List String Ascii NArith ZArith Bool Permutation Sorted Reals Lra Lia Floats.SpecFloat.
From Verif Require Import Base ScopeM TermM SpecTerm SpecChrom F64 SpecF64 CompareM SpecCompare RowsM SpecRows SynM AttrM ParseM SpecParse SpecAttr
  StorageM FilesM SpecFiles GitM SpecGit CliM SpecCli WebM SpecWeb SpecEnd.
From Verif Require EndP EndP2 EndP3 AttrP RowsP WebP GitP PropGit.
Import ListNotations.
Local Open Scope string_scope.
Local Open Scope R_scope.

(** ** C73: no regression is missed, and none is invented. *)
(** If at any point of the box of the ranges the weight has grown by the threshold (and the rounding error),
    then the filtered table has a row of that extrinsic, which shows at least the threshold. *)
Theorem C73_regression : forall m ords rx olds news meth d f rows k o n rho z, (forall k, is_order (ords k)) ->
  meth = ExactWorst \/ meth = GuessWorst ->
  compare_files m ords rx olds news {| p_method := meth; p_unit := d |} f = Ok rows ->
  threshold_mils (f_threshold f) z -> kind_selected f Changed ->
  is_first olds k (Some o) -> is_first news k (Some n) ->
  passes rx (f_pallet f) (fst k) -> passes rx (f_extrinsic f) (snd k) ->
  tame d (in_dim d o) (in_dim d n) -> in_box d (Some (in_dim d o)) (Some (in_dim d n)) rho ->
  let v := poly_val rho (restrict d (eterm o)) in let w := poly_val rho (restrict d (eterm n)) in
  grown (IZR z / 1000) v w ->
  exists r, In r (filter_changes rows f) /\ row_key r = k /\ shows r (IZR z / 1000) v w.
Proof. exact EndP.regression_lemma. Qed.
Print Assumptions C73_regression.
(** If the weight is lower by the threshold on the whole box, then that is shown as well. *)
Theorem C73_improvement : forall m ords rx olds news meth d f rows k o n rho z, (forall k, is_order (ords k)) ->
  meth = ExactWorst \/ meth = GuessWorst ->
  compare_files m ords rx olds news {| p_method := meth; p_unit := d |} f = Ok rows ->
  threshold_mils (f_threshold f) z -> kind_selected f Changed ->
  is_first olds k (Some o) -> is_first news k (Some n) ->
  passes rx (f_pallet f) (fst k) -> passes rx (f_extrinsic f) (snd k) ->
  tame d (in_dim d o) (in_dim d n) -> in_box d (Some (in_dim d o)) (Some (in_dim d n)) rho ->
  (forall rho, in_box d (Some (in_dim d o)) (Some (in_dim d n)) rho ->
     let v := poly_val rho (restrict d (eterm o)) in let w := poly_val rho (restrict d (eterm n)) in
     (0 < v)%N /\ rel_change_of v w <= - (IZR z / 1000 + slack v w)) ->
  exists r, In r (filter_changes rows f) /\ row_key r = k /\
    (is_failed r \/ exists c p, reports r c /\ tc_change c = Changed /\ has_value (tc_percent c) p /\ p <= - (IZR z / 1000)).
Proof. exact EndP.improvement_lemma. Qed.
Print Assumptions C73_improvement.
(** What is shown is the change at some point of the box. *)
Theorem C73_real : forall m ords rx olds news meth d f rows r c o n rho z, (forall k, is_order (ords k)) ->
  meth = ExactWorst \/ meth = GuessWorst ->
  compare_files m ords rx olds news {| p_method := meth; p_unit := d |} f = Ok rows ->
  threshold_mils (f_threshold f) z -> In r (filter_changes rows f) -> reports r c -> tc_change c = Changed ->
  is_first olds (row_key r) (Some o) -> is_first news (row_key r) (Some n) ->
  tame d (in_dim d o) (in_dim d n) -> in_box d (Some (in_dim d o)) (Some (in_dim d n)) rho ->
  exists rho', in_box d (Some (in_dim d o)) (Some (in_dim d n)) rho' /\
    let v := poly_val rho' (restrict d (eterm o)) in let w := poly_val rho' (restrict d (eterm n)) in
    tc_old_v c = Some v /\ tc_new_v c = Some w /\ tc_percent c = percent v w /\
    ((0 < v)%N -> IZR z / 1000 - slack v w <= Rabs (rel_change_of v w)).
Proof. exact EndP.real_lemma. Qed.
Print Assumptions C73_real.

Definition ex_f (t : f64) : fparams := {| f_threshold := t; f_change := None; f_extrinsic := None; f_pallet := None |}.
Definition ex_compare (meth : CompareM.method) (o n : cextrinsic) (t : f64) : outcome (list row) :=
  compare_files Checked (fun _ l => l) RowsP.rx_all [o] [n] {| p_method := meth; p_unit := Time |} (ex_f t).
(** The parameters of a point. *)
Definition ex_rho (x : string) (n : N) (y : string) : N :=
  if String.eqb y "READ" then 25000000 else if String.eqb y "WRITE" then 100000000 else if String.eqb y x then n else 0.
(** The values at that point. *)
Definition regressed (o n : cextrinsic) (rho : string -> N) (v w : N) : Prop :=
  in_box Time (Some (in_dim Time o)) (Some (in_dim Time n)) rho /\
  poly_val rho (restrict Time (eterm o)) = v /\ poly_val rho (restrict Time (eterm n)) = w.

(** 1000 + 5 s becomes 1000 + 6 s. *)
Example C73_ex :
  let o := EndP3.ex_line 1000 5 "s" 1000 in let n := EndP3.ex_line 1000 6 "s" 1000 in
  (exists r, ex_compare ExactWorst o n (f64_of_N 10) = Ok [r] /\ row_key r = ("p", "f") /\ exists c, reports r c /\ tc_change c = Changed) /\
  threshold_mils (f64_of_N 10) 10000 /\ is_first [o] ("p", "f") (Some o) /\
  tame Time (in_dim Time o) (in_dim Time n) /\ regressed o n (ex_rho "s" 1000) 6000 7000 /\
  grown (10000 / 1000) 6000 7000 /\
  (** The new one was at least 12 percent better, if they are swapped. *)
  tame Time (in_dim Time (EndP3.ex_line 1200 6 "s" 1000)) (in_dim Time o) /\
  forall rho, in_box Time (Some (in_dim Time (EndP3.ex_line 1200 6 "s" 1000))) (Some (in_dim Time o)) rho ->
    let v := poly_val rho (restrict Time (eterm (EndP3.ex_line 1200 6 "s" 1000))) in let w := poly_val rho (restrict Time (eterm o)) in
    (0 < v)%N /\ rel_change_of v w <= - (12000 / 1000 + slack v w).
Proof.
  intros o n. split; [|split; [|split; [|split; [|split; [|split; [|split]]]]]].
  - eexists. split; [vm_compute; reflexivity|]. split; [reflexivity|]. eexists. split; [left; reflexivity|reflexivity].
  - exact (EndP3.int_threshold 10 ltac:(lia)).
  - exists [], []. repeat split. intros e [].
  - apply EndP3.line_tame; discriminate || lia.
  - split; [|split; vm_compute; reflexivity]. apply EndP3.line_box; try discriminate. vm_compute. repeat split; discriminate.
  - right. split; [reflexivity|]. unfold rel_change_of, slack, RN. rewrite EndP3.pow48. cbn. lra.
  - apply EndP3.line_tame; discriminate || lia.
  - intros rho H. apply EndP3.line_box in H; try discriminate. destruct H as (_ & _ & H). cbv zeta. subst o. rewrite !EndP3.line_value.
    generalize dependent (rho "s"). intros s Hs. split; [lia|]. replace (1200 + 6 * s)%N with (6 * (200 + s))%N by lia.
    replace (1000 + 5 * s)%N with (5 * (200 + s))%N by lia. unfold rel_change_of, slack, RN. rewrite !N2Z.inj_mul, !mult_IZR.
    assert (0 < IZR (Z.of_N (200 + s))) by (apply IZR_lt; lia). set (x := IZR (Z.of_N (200 + s))) in *.
    change (IZR (Z.of_N 6)) with 6. change (IZR (Z.of_N 5)) with 5.
    replace (100 * (5 * x - 6 * x) / (6 * x)) with (- (100 / 6)) by (field; lra).
    replace (100 * (5 * x) / (6 * x)) with (500 / 6) by (field; lra). rewrite EndP3.pow48. lra.
Qed.

(** 5 s becomes 1 + 5 s: at 0 the old weight is 0. *)
Example C73_ex_zero :
  let o := EndP3.ex_line 0 5 "s" 1000 in let n := EndP3.ex_line 1 5 "s" 1000 in
  tame Time (in_dim Time o) (in_dim Time n) /\ regressed o n (ex_rho "s" 0) 0 1 /\ grown (10000 / 1000) 0 1 /\
  exists r c, ex_compare ExactWorst o n (f64_of_N 10) = Ok [r] /\ reports r c /\ at_least (tc_percent c) (10000 / 1000) 0 1.
Proof.
  intros o n. split; [apply EndP3.line_tame; discriminate || lia|].
  split; [split; [|split; vm_compute; reflexivity]; apply EndP3.line_box; try discriminate; vm_compute; repeat split; discriminate|].
  split; [left; split; reflexivity|].
  eexists. eexists. split; [vm_compute; reflexivity|]. split; [left; reflexivity|]. left. reflexivity.
Qed.
(** (1000000 + 100 a) b becomes 1000001 b: at [b = 0] nothing becomes nothing, and that is shown for the growth of 0.0001
    percent at [a = 0, b = 1]. *)
Definition ex_plane (base slope : N) : cextrinsic :=
  mk_ext "f" "p" (Mul (Add (wt base 0) (Mul (wt slope 0) (Var "a"))) (Var "b")) (Some [("a", mk_range 0 1000); ("b", mk_range 0 1)]).
Theorem C73_nan_refuted : exists r c rho, let o := ex_plane 1000000 100 in let n := ex_plane 1000001 0 in
  ex_compare ExactWorst o n (f64_of_N 0) = Ok [r] /\ regressed o n rho 1000000 1000001 /\ grown 0 1000000 1000001 /\
  reports r c /\ tc_percent c = S754_nan.
Proof.
  eexists. eexists. exists (fun y => if String.eqb y "READ" then 25000000 else if String.eqb y "WRITE" then 100000000 else if String.eqb y "b" then 1 else 0)%N.
  cbv zeta. split; [vm_compute; reflexivity|]. split; [split; [|split; vm_compute; reflexivity]|].
  - split; [reflexivity|]. split; [reflexivity|]. intros c [(e & E & Oc) _].
    assert (c = "a" \/ c = "b") as [->| ->] by (destruct E as [[= <-]|[= <-]]; cbn in Oc; intuition congruence).
    + exists 0%N, 1000%N. repeat split; cbn; auto; try lia; intros w [<-|[<-|[]]]; lia.
    + exists 0%N, 1%N. repeat split; cbn; auto; try lia; intros w [<-|[<-|[]]]; lia.
  - split; [right; split; [reflexivity|]; unfold rel_change_of, slack, RN; rewrite EndP3.pow48; cbn; lra|].
    split; [left; reflexivity|reflexivity].
Qed.
Print Assumptions C73_nan_refuted.
(** The rounding error matters: from 100 to 115 it is 15 percent, but with a threshold of 15 the table is empty. *)
Theorem C73_exact_refuted : exists o n rho rows,
  ex_compare ExactWorst o n (f64_of_N 15) = Ok rows /\ threshold_mils (f64_of_N 15) 15000 /\ tame Time (in_dim Time o) (in_dim Time n) /\
  regressed o n rho 100 115 /\ 15000 / 1000 <= rel_change_of 100 115 /\ filter_changes rows (ex_f (f64_of_N 15)) = [].
Proof.
  exists (EndP3.ex_line 100 0 "s" 0), (EndP3.ex_line 115 0 "s" 0), (ex_rho "s" 0). eexists.
  split; [vm_compute; reflexivity|]. split; [exact (EndP3.int_threshold 15 ltac:(lia))|].
  split; [apply EndP3.line_tame; discriminate || lia|].
  split; [split; [|split; vm_compute; reflexivity]; apply EndP3.line_box; try discriminate; vm_compute; repeat split; discriminate|].
  split; [unfold rel_change_of, RN; cbn; lra|]. vm_compute. reflexivity.
Qed.
Print Assumptions C73_exact_refuted.
(** Three decimals matter as well: the corner is chosen by thousandths of percents. With a threshold of 15.00048828125
    the change of 15.0009 percent at [s = 0] is hidden by that of 15.0003 percent at [s = 50]. *)
Theorem C73_fine_refuted : exists t x o n rho rows,
  is_double t /\ has_value t x /\ ex_compare ExactWorst o n t = Ok rows /\ tame Time (in_dim Time o) (in_dim Time n) /\
  regressed o n rho 10000000 11500090 /\ grown x 10000000 11500090 /\ filter_changes rows (ex_f t) = [].
Proof.
  exists (S754_finite false 8444524179226624 (-49)), (30721 / 2048), (EndP3.ex_line 10000000 1 "s" 50), (EndP3.ex_line 11500090 0 "s" 50), (ex_rho "s" 0). eexists.
  split; [reflexivity|]. split; [unfold has_value; rewrite EndP3.pow49; lra|]. split; [vm_compute; reflexivity|].
  split; [apply EndP3.line_tame; discriminate || lia|].
  split; [split; [|split; vm_compute; reflexivity]; apply EndP3.line_box; try discriminate; vm_compute; repeat split; discriminate|].
  split; [right; split; [reflexivity|]; unfold rel_change_of, slack, RN; rewrite EndP3.pow48; cbn; lra|]. vm_compute. reflexivity.
Qed.
Print Assumptions C73_fine_refuted.
(** So does the method: the default of the web page only looks at the largest values of the components. A tenfold weight is
    not shown. *)
Theorem C73_asymptotic_refuted : exists o n rho rows,
  ex_compare Asymptotic o n (f64_of_N 10) = Ok rows /\ tame Time (in_dim Time o) (in_dim Time n) /\
  regressed o n rho 100 1000 /\ filter_changes rows (ex_f (f64_of_N 10)) = [].
Proof.
  exists (EndP3.ex_line 100 10 "s" 1000), (EndP3.ex_line 1000 9 "s" 1000), (ex_rho "s" 0). eexists.
  split; [vm_compute; reflexivity|]. split; [apply EndP3.line_tame; discriminate || lia|].
  split; [split; [|split; vm_compute; reflexivity]; apply EndP3.line_box; try discriminate; vm_compute; repeat split; discriminate|].
  vm_compute. reflexivity.
Qed.
Print Assumptions C73_asymptotic_refuted.
(** And the names: equations that differ in the underscores of a variable count as unchanged. *)
Theorem C73_names_refuted : exists o n rho rows,
  ex_compare ExactWorst o n (f64_of_N 10) = Ok rows /\
  typed (in_dim Time o) /\ typed (in_dim Time n) /\ multi_affine (eterm (in_dim Time o)) /\ multi_affine (eterm (in_dim Time n)) /\
  regressed o n rho 1000 6000 /\ filter_changes rows (ex_f (f64_of_N 10)) = [].
Proof.
  exists (EndP3.ex_line 1000 50 "ns" 1000), (EndP3.ex_line 1000 50 "n_s" 100), (ex_rho "n_s" 100). eexists.
  split; [vm_compute; reflexivity|].
  assert (U : (1000 < u128_bound)%N) by reflexivity.
  split; [apply EndP3.line_typed; lia|]. split; [apply EndP3.line_typed; lia|].
  split; [apply EndP3.line_affine|]. split; [apply EndP3.line_affine|].
  split; [|vm_compute; reflexivity]. split; [|split; vm_compute; reflexivity].
  split; [reflexivity|]. split; [reflexivity|]. intros c [(e & [[= <-]|[= <-]] & I) _]; cbn in I; destruct I as [<-|[]].
  - exists 0%N, 1000%N. 
    split; [split; [now left|intros w [<-|[]]; apply N.le_refl]|]. split; [split; [now left|intros w [<-|[]]; apply N.le_refl]|].
    vm_compute. split; discriminate.
  - exists 0%N, 100%N. 
    split; [split; [now left|intros w [<-|[]]; apply N.le_refl]|]. split; [split; [now left|intros w [<-|[]]; apply N.le_refl]|].
    vm_compute. split; discriminate.
Qed.
Print Assumptions C73_names_refuted.

(** And squares: [100 + n*n] against [100 + 50*n] for [n] up to 50 is the same at both ends; 200 percent at [n = 10] are not shown. *)
Theorem C73_quadratic_refuted : exists o n rho rows,
  ex_compare ExactWorst o n (f64_of_N 10) = Ok rows /\ typed (in_dim Time o) /\ typed (in_dim Time n) /\
  distinct_names (eterm (in_dim Time o)) (eterm (in_dim Time n)) /\
  regressed o n rho 200 600 /\ filter_changes rows (ex_f (f64_of_N 10)) = [].
Proof.
  exists (mk_ext "f" "p" (Add (wt 100 0) (Mul (Mul (wt 1 0) (Var "n")) (Var "n"))) (Some [("n", mk_range 0 50)])), (EndP3.ex_line 100 50 "n" 50), (ex_rho "n" 10).
  eexists. split; [vm_compute; reflexivity|]. assert (U : (1000 < u128_bound)%N) by reflexivity.
  split.
  { split; [cbn; repeat split; lia|]. intros rs c r [= <-]. unfold ranges_get. cbn. destruct (str_cmp c "n"); try discriminate. intros K. injection K as <-. cbn. lia. }
  split; [apply EndP3.line_typed; lia|].
  split; [intros y z Hy Hz _; cbn in Hy, Hz; intuition congruence|].
  split; [|vm_compute; reflexivity]. split; [|split; vm_compute; reflexivity].
  split; [reflexivity|]. split; [reflexivity|]. intros c [(e & [[= <-]|[= <-]] & I) _]; cbn in I.
  - assert (c = "n") by (intuition congruence). subst c. exists 0%N, 50%N.
    split; [split; [now left|intros w [<-|[<-|[]]]; apply N.le_refl]|]. split; [split; [now left|intros w [<-|[<-|[]]]; apply N.le_refl]|].
    vm_compute. split; discriminate.
  - assert (c = "n") by (intuition congruence). subst c. exists 0%N, 50%N.
    split; [split; [now left|intros w [<-|[<-|[]]]; apply N.le_refl]|]. split; [split; [now left|intros w [<-|[<-|[]]]; apply N.le_refl]|].
    vm_compute. split; discriminate.
Qed.
Print Assumptions C73_quadratic_refuted.

(** ** C74: from the source code of the functions. *)
(** [v] and [w] are what the weight functions return for the parameters [rho] within the annotated ranges. *)
Theorem C74_source : forall m ords rx olds news meth d f rows k mo mn eo en rho z v w, (forall k, is_order (ords k)) ->
  meth = ExactWorst \/ meth = GuessWorst ->
  compare_files m ords rx olds news {| p_method := meth; p_unit := d |} f = Ok rows ->
  threshold_mils (f_threshold f) z -> kind_selected f Changed ->
  entry_of olds k mo eo -> entry_of news k mn en ->
  passes rx (f_pallet f) (fst k) -> passes rx (f_extrinsic f) (snd k) ->
  tame_source d mo mn eo en -> in_source_box mo mn eo en rho -> weight_at d rho eo v -> weight_at d rho en w ->
  grown (IZR z / 1000) v w ->
  exists r, In r (filter_changes rows f) /\ row_key r = k /\ shows r (IZR z / 1000) v w.
Proof. exact EndP2.source_regression. Qed.
Print Assumptions C74_source.
(** The functions of the template are accepted; what remains are the conditions on names, products and values. *)
Theorem C74_template : forall m, template_fn m -> exists e t rs, m_stmts m = [SExpr e] /\ handle_method m = Ok (m_name m, t, rs) /\
  well_formed e.
Proof. exact EndP3.template_source. Qed.
Print Assumptions C74_template.
(** [Weight::from_parts(1_000, 0).saturating_add(Weight::from_parts(5, 0).saturating_mul(s.into()))], which becomes 6 s. *)
Example C74_ex :
  tame_source Time (EndP3.ex_fn 1000 5) (EndP3.ex_fn 1000 6) (EndP3.ex_b 1000 5 "s") (EndP3.ex_b 1000 6 "s") /\
  in_source_box (EndP3.ex_fn 1000 5) (EndP3.ex_fn 1000 6) (EndP3.ex_b 1000 5 "s") (EndP3.ex_b 1000 6 "s") (ex_rho "s" 1000) /\
  weight_at Time (ex_rho "s" 1000) (EndP3.ex_b 1000 5 "s") 6000 /\ weight_at Time (ex_rho "s" 1000) (EndP3.ex_b 1000 6 "s") 7000 /\
  template_fn (EndP3.ex_fn 1000 5) /\
  exists t rs, entry_of [mk_ext "f" "p" t rs] ("p", "f") (EndP3.ex_fn 1000 5) (EndP3.ex_b 1000 5 "s").
Proof.
  split; [apply EndP3.ex_tame; lia|]. split; [apply EndP3.ex_in_box; vm_compute; discriminate|].
  split; [exact (EndP3.ex_weight_at (ex_rho "s" 1000) 1000 5)|]. split; [exact (EndP3.ex_weight_at (ex_rho "s" 1000) 1000 6)|].
  split; [apply EndP3.ex_template; reflexivity|].
  eexists. eexists. split; [reflexivity|]. eexists. eexists. split; [vm_compute; reflexivity|].
  exists [], []. repeat split. intros e [].
Qed.
(** Names without underscores matter: the range of [n_s] is lost, and with it a regression of 100 percent at [n_s = 1000]. *)
Definition ex_us (slope : N) : SynM.method :=
  mk_method [doc "The range of component `n_s` is `[0, 1_000]`."] "f" (RType (TPath (mk_path false ["Weight"]))) [SExpr (EndP3.ex_b 1000 slope "n_s")].
Theorem C74_underscore_refuted : exists olds news rows,
  compare_files Checked (fun _ l => l) RowsP.rx_all olds news {| p_method := GuessWorst; p_unit := Time |} (ex_f (f64_of_N 20)) = Ok rows /\
  entry_of olds ("p", "f") (ex_us 0) (EndP3.ex_b 1000 0 "n_s") /\ entry_of news ("p", "f") (ex_us 1) (EndP3.ex_b 1000 1 "n_s") /\
  source_range (m_attrs (ex_us 0)) "n_s" [mk_range 0 1000] /\ source_range (m_attrs (ex_us 1)) "n_s" [mk_range 0 1000] /\
  in_source_box (ex_us 0) (ex_us 1) (EndP3.ex_b 1000 0 "n_s") (EndP3.ex_b 1000 1 "n_s") (ex_rho "n_s" 1000) /\
  weight_at Time (ex_rho "n_s" 1000) (EndP3.ex_b 1000 0 "n_s") 1000 /\ weight_at Time (ex_rho "n_s" 1000) (EndP3.ex_b 1000 1 "n_s") 2000 /\
  filter_changes rows (ex_f (f64_of_N 20)) = [].
Proof.
  assert (R : forall s, source_range (m_attrs (ex_us s)) "n_s" [mk_range 0 1000]).
  { intros s. left. eexists. split; [reflexivity|]. exists [], (doc "The range of component `n_s` is `[0, 1_000]`."), []. split; [reflexivity|].
    split; [apply AttrP.attr_spec; vm_compute; reflexivity|intros a' r' []]. }
  set (entry s := mk_ext "f" "p" (Add (wt 1000 0) (Mul (wt s 0) (Var "n_s"))) (Some [("ns", mk_range 0 1000)])).
  assert (E : forall s, In s [0; 1]%N -> entry_of [entry s] ("p", "f") (ex_us s) (EndP3.ex_b 1000 s "n_s")).
  { intros s Hs. split; [reflexivity|]. exists (eterm (entry s)), (eranges (entry s)). split.
    - destruct Hs as [<-|[<-|[]]]; vm_compute; reflexivity.
    - exists [], []. repeat split. intros e []. }
  exists [entry 0%N], [entry 1%N]. eexists. split; [vm_compute; reflexivity|].
  split; [apply E; now left|]. split; [apply E; right; now left|]. split; [apply R|]. split; [apply R|]. split.
  - intros c Hc. assert (c = "n_s") by (destruct Hc as [[<-|[]]|[<-|[]]]; reflexivity). subst c.
    exists [mk_range 0 1000], [mk_range 0 1000], 0%N, 1000%N. split; [apply R|]. split; [apply R|].
    split; [split; [now left|intros w [<-|[<-|[]]]; apply N.le_refl]|]. split; [split; [now left|intros w [<-|[<-|[]]]; apply N.le_refl]|].
    vm_compute. split; discriminate.
  - split; [eexists; eexists; split; [left; cbn; reflexivity|reflexivity]|]. split; [eexists; eexists; split; [left; cbn; reflexivity|reflexivity]|].
    vm_compute. reflexivity.
Qed.
Print Assumptions C74_underscore_refuted.

(** ** C75: from the commits of a repository. *)
(** [tglob] and [tdisk] are the files of a commit; see C47 and C48 for the commits that are compared. *)
Theorem C75_trees : forall tglob tdisk m ords rx repo, (forall k, is_order (ords k)) ->
  forall meth d ps f pat mx c_old c_new rows k mo mn eo en rho z v w,
  meth = ExactWorst \/ meth = GuessWorst ->
  compare_trees tglob tdisk m ords rx repo {| p_method := meth; p_unit := d |} ps f pat mx c_old c_new = Ok rows ->
  threshold_mils (f_threshold f) z -> kind_selected f Changed ->
  source_of (tglob c_old) (tdisk c_old) repo pat k mo eo -> source_of (tglob c_new) (tdisk c_new) repo pat k mn en ->
  passes rx (f_pallet f) (fst k) -> passes rx (f_extrinsic f) (snd k) ->
  tame_source d mo mn eo en -> in_source_box mo mn eo en rho -> weight_at d rho eo v -> weight_at d rho en w ->
  grown (IZR z / 1000) v w ->
  typed_rows rows /\ exists r, In r (filter_changes rows f) /\ row_key r = k /\ shows r (IZR z / 1000) v w.
Proof. exact EndP3.trees_regression. Qed.
Print Assumptions C75_trees.
(** Every row that the filter keeps is in the table on the terminal. *)
Theorem C75_table : forall dbg rxr render f verbose fp dim out rows md r,
  is_double (f_threshold f) -> typed_rows rows -> In r (filter_changes rows f) ->
  (fp_format fp = Human /\ md = false \/ fp_format fp = Markdown /\ md = true) ->
  show dbg rxr render (Ok rows) f verbose fp dim (out, Ok tt) ->
  exists cells all, cells_of dbg rxr fp dim r cells /\ In cells all /\ out = [render md (titles (fp_print_terms fp)) all].
Proof. exact EndP3.table_row. Qed.
Print Assumptions C75_table.
(** And for the web page, with the newest commits of two branches of the remote repository. *)
Theorem C75_web : forall tglob tdisk m ords rx repo, (forall k, is_order (ords k)) ->
  forall a s sorted old new pat c_old c_new k mo mn eo en rho v w,
  wa_method a = ExactWorst \/ wa_method a = GuessWorst -> (wa_threshold a < 2 ^ 32)%N -> wa_pull a <> Some false ->
  do_compare run_git (fun s => tglob (r_work s)) (fun s => tdisk (r_work s)) m ords rx repo a s (Ok sorted) ->
  trimmed (wa_old a) old -> trimmed (wa_new a) new -> trimmed (wa_pattern a) pat ->
  r_remote s old = Some c_old -> r_remote s new = Some c_new -> unambiguous s old -> unambiguous s new ->
  source_of (tglob c_old) (tdisk c_old) repo pat k mo eo -> source_of (tglob c_new) (tdisk c_new) repo pat k mn en ->
  passes rx (wa_pallet a) (fst k) -> passes rx (wa_extrinsic a) (snd k) ->
  tame_source (wa_unit a) mo mn eo en -> in_source_box mo mn eo en rho -> weight_at (wa_unit a) rho eo v -> weight_at (wa_unit a) rho en w ->
  grown (RN (wa_threshold a)) v w ->
  exists r, In r sorted /\ row_key r = k /\ shows r (RN (wa_threshold a)) v w.
Proof. exact EndP3.web_regression. Qed.
Print Assumptions C75_web.

Definition ex_args : web_args :=
  {| wa_old := " master"; wa_new := "dev "; wa_repo := "polkadot"; wa_pattern := "*.rs"; wa_extrinsic := None; wa_pallet := None;
     wa_ignore_errors := true; wa_threshold := 10%N; wa_unit := Time; wa_pull := None; wa_method := ExactWorst |}.
Example C75_ex :
  (exists r, do_compare run_git (fun s => PropGit.ex_tglob (r_work s)) (fun s => EndP3.ex_tree (r_work s)) Checked (fun _ l => l) RowsP.rx_all
    [CCur] ex_args PropGit.ex_s (Ok [r]) /\ row_key r = ("x.rs", "f")) /\
  trimmed " master" "master" /\ r_remote PropGit.ex_s "master" = Some 5%N /\ r_remote PropGit.ex_s "dev" = Some 6%N /\
  unambiguous PropGit.ex_s "master" /\ unambiguous PropGit.ex_s "dev" /\
  (forall c, (c < 1000)%N -> source_of (PropGit.ex_tglob c) (EndP3.ex_tree c) [CCur] "*.rs" ("x.rs", "f") (EndP3.ex_fn 1000 c) (EndP3.ex_b 1000 c "s")) /\
  tame_source Time (EndP3.ex_fn 1000 5) (EndP3.ex_fn 1000 6) (EndP3.ex_b 1000 5 "s") (EndP3.ex_b 1000 6 "s") /\
  grown (RN 10) 6000 7000.
Proof.
  split; [|split; [|split; [|split; [|split; [|split; [|split; [|split]]]]]]].
  - eexists. split; [|shelve]. eapply dc_ok; [vm_compute; reflexivity|]. constructor. vm_compute. reflexivity.
    Unshelve. reflexivity.
  - now apply WebP.trim_iff.
  - reflexivity.
  - reflexivity.
  - repeat split; discriminate.
  - repeat split; discriminate.
  - intros c Hc. split.
    + intros p (_ & parts & part & fs & _ & _ & L & I). unfold lists, PropGit.ex_tglob in L. destruct (String.eqb _ _); [|discriminate L].
      injection L as L. destruct fs as [|q [|]]; try discriminate L. injection L as <-. destruct I as [<-|[]].
      exists [CName "x.rs"]. repeat split; try discriminate. constructor; [|constructor]. cbn. repeat split; discriminate.
    + exists [CCur; CName "x.rs"], [CName "x.rs"], [IOther; IImpl (TTuple 0) [IFn (EndP3.ex_fn 1000 c)]].
      split.
      { split; [intros (dir & E); destruct dir as [|x [|y [|]]]; discriminate E|].
        exists ["*.rs"], "*.rs", [[CCur; CName "x.rs"]]. repeat split; try discriminate; try (now left).
        constructor; [|constructor]. cbn. repeat split; discriminate. }
      split; [repeat split; try discriminate; constructor; [|constructor]; cbn; repeat split; discriminate|].
      split; [reflexivity|]. split; [reflexivity|]. split; [|split; reflexivity].
      exists [IOther], (TTuple 0), [IFn (EndP3.ex_fn 1000 c)], []. split; [reflexivity|]. split; [now left|].
      split; [intros t its [K|[]]; discriminate K|].
      split; [constructor; [|constructor]; apply EndP3.ex_template; [reflexivity|apply (N.lt_trans _ 1000 _ Hc); reflexivity]|].
      split; [constructor; [intros []|constructor]|now left].
  - apply EndP3.ex_tame; lia.
  - right. split; [reflexivity|]. unfold rel_change_of, slack, RN. rewrite EndP3.pow48. cbn. lra.
Qed.
