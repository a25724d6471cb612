(** Proofs about tables of differences. *)
From Coq Require Import List String Ascii NArith ZArith Bool Lia Permutation Sorted Reals Floats.SpecFloat.
From Flocq Require Import Core IEEE754.BinarySingleNaN.
From Verif Require Import Base ScopeM TermM SpecTerm SpecChrom ChromP F64 SpecF64 F64P MilsP
  CompareM SpecCompare CompareP3 CompareP4 RowsM SpecRows SortP.
Import ListNotations.
Local Open Scope string_scope.

(** ** Strings and keys *)
Lemma str_before_cmp s : forall t, str_before s t <-> str_cmp s t = Lt.
Proof.
  induction s as [|a s IH]; intros [|b t]; cbn.
  - split; [intros H; inversion H|discriminate].
  - split; [reflexivity|constructor].
  - split; [intros H; inversion H|discriminate].
  - unfold lex, ascii_cmp. destruct (N.compare_spec (N_of_ascii a) (N_of_ascii b)) as [E|E|E].
    + assert (a = b) by (rewrite <- (ascii_N_embedding a), <- (ascii_N_embedding b), E; reflexivity). subst b.
      rewrite <- IH. split; [intros H; inversion H; subst; [lia|assumption]|apply sb_same].
    + split; [reflexivity|intros _; apply sb_less; assumption].
    + split; [intros H; inversion H; subst; lia|discriminate].
Qed.
Lemma key_before_cmp a b : key_before a b <-> key_cmp a b = Lt.
Proof.
  destruct a as [a1 a2], b as [b1 b2]. unfold key_before, key_cmp, pair_cmp, lex. cbn.
  rewrite !str_before_cmp. destruct (str_cmp a1 b1) eqn:E.
  - apply str_cmp_strict in E. subst. split; [intros [H|[_ H]]; auto; discriminate|auto].
  - split; auto.
  - split; [intros [H|[-> _]]; [discriminate|]|discriminate].
    rewrite (proj2 (cmp_eq _ str_cmp_strict b1 b1) eq_refl) in E. discriminate.
Qed.

(** ** Doubles *)
Lemma double_finite_isF x : is_double x -> is_finite_SF x = true -> exists r, isF x r /\ has_value x r.
Proof.
  intros V F. destruct x as [s| | |s m e]; try discriminate.
  - exists 0%R. split; [apply double_isF; [exact V|reflexivity]|reflexivity].
  - eexists. split; [apply double_isF; [exact V|cbn [has_value]; reflexivity]|reflexivity].
Qed.
Lemma has_value_fun x a b : has_value x a -> has_value x b -> a = b.
Proof. destruct x; cbn; try tauto; congruence. Qed.

Lemma leq_spec x y : is_double x -> is_double y -> f64_leq x y <-> SFleb x y = true.
Proof.
  intros Vx Vy.
  destruct (is_finite_SF x) eqn:Fx, (is_finite_SF y) eqn:Fy.
  - destruct (double_finite_isF x Vx Fx) as (a & Ia & Ha), (double_finite_isF y Vy Fy) as (b & Ib & Hb).
    rewrite (isF_le x y a b Ia Ib).
    assert (E : f64_leq x y <-> exists a b, has_value x a /\ has_value y b /\ (a <= b)%R).
    { destruct x, y; try discriminate; cbn [f64_leq]; reflexivity. }
    rewrite E. split.
    + intros (a' & b' & Ha' & Hb' & L). rewrite (has_value_fun x a' a Ha' Ha), (has_value_fun y b' b Hb' Hb) in L.
      apply Raux.Rle_bool_true. exact L.
    + intros L. exists a, b. split; auto. split; auto.
      destruct (Raux.Rle_bool_spec a b); [assumption|discriminate].
  - destruct x as [sx|sx| |sx mx ex], y as [sy|[]| |sy my ey]; try discriminate; cbn; intuition; try discriminate; destruct sx; auto; discriminate.
  - destruct x as [sx|[]| |sx mx ex], y as [sy|sy| |sy my ey]; try discriminate; cbn; intuition; try discriminate; destruct sy; auto; discriminate.
  - destruct x as [sx|[]| |sx mx ex], y as [sy|[]| |sy my ey]; try discriminate; cbn; intuition; discriminate.
Qed.

Lemma SFltb_leb x y : is_double x -> is_double y -> SFltb x y = true <-> SFleb x y = true /\ SFleb y x <> true.
Proof.
  intros Vx Vy.
  destruct (is_finite_SF x) eqn:Fx, (is_finite_SF y) eqn:Fy.
  - destruct (double_finite_isF x Vx Fx) as (a & Ia & Ha), (double_finite_isF y Vy Fy) as (b & Ib & Hb).
    rewrite (isF_le x y a b Ia Ib), (isF_le y x b a Ib Ia).
    change (SFltb x y) with (f64_lt x y). rewrite (isF_lt x y a b Ia Ib).
    destruct (Raux.Rlt_bool_spec a b), (Raux.Rle_bool_spec a b), (Raux.Rle_bool_spec b a); split; intros;
      try discriminate; try (split; congruence); try Lra.lra; try (destruct H2; congruence).
  - destruct x as [sx|sx| |sx mx ex], y as [sy|[]| |sy my ey]; try discriminate; cbn; intuition; try discriminate; destruct sx; auto; discriminate.
  - destruct x as [sx|[]| |sx mx ex], y as [sy|sy| |sy my ey]; try discriminate; cbn; intuition; try discriminate; destruct sy; auto; discriminate.
  - destruct x as [sx|[]| |sx mx ex], y as [sy|[]| |sy my ey]; try discriminate; cbn; intuition; try discriminate; congruence.
Qed.
Lemma below_spec x y : is_double x -> is_double y -> f64_below x y <-> f64_lt x y = true.
Proof.
  intros Vx Vy. unfold f64_below, f64_lt. rewrite SFltb_leb, !leq_spec by assumption. tauto.
Qed.
Lemma abs_double x : is_double x -> is_double (f64_abs x).
Proof. destruct x; cbn; auto. Qed.
Lemma leq_total x y : is_double x -> is_double y -> x <> S754_nan -> y <> S754_nan -> f64_leq x y \/ f64_leq y x.
Proof.
  intros Vx Vy Nx Ny.
  destruct (is_finite_SF x) eqn:Fx, (is_finite_SF y) eqn:Fy.
  - destruct (double_finite_isF x Vx Fx) as (a & Ia & Ha), (double_finite_isF y Vy Fy) as (b & Ib & Hb).
    destruct (Rle_or_lt a b).
    + left. destruct x, y; try discriminate; exists a, b; auto.
    + right. destruct x, y; try discriminate; exists b, a; intuition.
  - destruct x as [sx|sx| |sx mx ex], y as [sy|[]| |sy my ey]; try discriminate; try congruence; cbn; auto.
  - destruct x as [sx|[]| |sx mx ex], y as [sy|sy| |sy my ey]; try discriminate; try congruence; cbn; auto.
  - destruct x as [sx|[]| |sx mx ex], y as [sy|[]| |sy my ey]; try discriminate; try congruence; cbn; auto.
Qed.
Lemma leq_trans x y z : is_double x -> is_double y -> is_double z -> f64_leq x y -> f64_leq y z -> f64_leq x z.
Proof.
  intros Vx Vy Vz.
  assert (Fin : forall u v, is_finite_SF u = true -> is_finite_SF v = true ->
    f64_leq u v <-> exists a b, has_value u a /\ has_value v b /\ (a <= b)%R).
  { intros u v. destruct u, v; try discriminate; cbn [f64_leq]; reflexivity. }
  destruct (is_finite_SF x) eqn:Fx, (is_finite_SF y) eqn:Fy, (is_finite_SF z) eqn:Fz.
  - rewrite !Fin by assumption. intros (a & b & Ha & Hb & L) (b' & c & Hb' & Hc & L').
    rewrite (has_value_fun y b' b Hb' Hb) in L'. exists a, c. split; auto. split; auto. Lra.lra.
  - destruct z as [?|[]| |? ? ?]; try discriminate; destruct x, y; try discriminate; cbn; auto.
  - destruct y as [?|[]| |? ? ?]; try discriminate; destruct x, z; try discriminate; cbn; tauto.
  - destruct y as [?|[]| |? ? ?], z as [?|[]| |? ? ?]; try discriminate; destruct x; try discriminate; cbn; tauto.
  - destruct x as [?|[]| |? ? ?]; try discriminate; destruct y, z; try discriminate; cbn; tauto.
  - destruct x as [?|[]| |? ? ?], z as [?|[]| |? ? ?]; try discriminate; destruct y; try discriminate; cbn; tauto.
  - destruct x as [?|[]| |? ? ?], y as [?|[]| |? ? ?]; try discriminate; destruct z; try discriminate; cbn; tauto.
  - destruct x as [?|[]| |? ? ?], y as [?|[]| |? ? ?], z as [?|[]| |? ? ?]; try discriminate; cbn; tauto.
Qed.

Lemma micro_double : is_double f64_micro.
Proof. vm_compute. reflexivity. Qed.
Lemma micro_lemma : is_micro f64_micro.
Proof.
  split; [exact micro_double|]. eexists. split.
  - let v := eval vm_compute in f64_micro in change f64_micro with v. cbn [has_value]. reflexivity.
  - cbn [powerRZ]. unfold Rabs. destruct (Rcase_abs _); cbv [Pos.to_nat Pos.iter_op Nat.add]; Lra.lra.
Qed.

(** ** Filtering *)
Lemma included_spec f c : included f c = true <-> kind_selected f c.
Proof.
  unfold included, kind_selected. destruct (f_change f) as [ks|].
  - rewrite existsb_exists. split.
    + intros (k & I & E) ks' [= <-]. unfold rel_eqb in E. apply N.eqb_eq, rel_rank_inj in E. subst. exact I.
    + intros H. exists c. split; [apply H; reflexivity|]. unfold rel_eqb. apply N.eqb_refl.
  - split; [intros _ ? [=]|reflexivity].
Qed.
Lemma reports_fun r c c' : reports r c -> reports r c' -> c = c'.
Proof. intros [H|[w H]] [K|[w' K]]; congruence. Qed.
Lemma reports_not_failed r c : reports r c -> ~ is_failed r.
Proof. intros [H|[w H]] [e K]; congruence. Qed.
Lemma row_cases r : is_failed r \/ exists c, reports r c.
Proof.
  destruct (row_diff r) as [c|c w|e] eqn:E; [right|right|left]; exists c || exists e; auto.
  - left; auto.
  - right; exists w; auto.
Qed.
Lemma keep_failed f r : is_failed r -> keep f r = true.
Proof. intros [e H]. unfold keep. rewrite H. reflexivity. Qed.
Lemma keep_reports f r c : reports r c -> keep f r =
  if negb (included f (tc_change c)) then false
      else match tc_change c with
           | Changed => if f64_lt (f64_abs (tc_percent c)) (f_threshold f) then false else true
           | Unchanged => if f64_ge (f_threshold f) f64_micro then false else true
           | _ => true
           end.
Proof. intros [H|[w H]]; unfold keep; rewrite H; reflexivity. Qed.

Lemma keep_spec f r : is_double (f_threshold f) -> (forall c, reports r c -> is_double (tc_percent c)) ->
  keep f r = true <-> relevant f r.
Proof.
  intros Vt Vp. destruct (row_cases r) as [F|[c R]].
  { rewrite keep_failed by assumption. split; [left; assumption|reflexivity]. }
  rewrite (keep_reports f r c R). specialize (Vp c R).
  assert (E : relevant f r <-> (kind_selected f (tc_change c) /\
    (tc_change c = Unchanged -> ~ f64_leq f64_micro (f_threshold f)) /\
    (tc_change c = Changed -> ~ f64_below (f64_abs (tc_percent c)) (f_threshold f)))).
  { unfold relevant. split.
    - intros [H|(c' & R' & H)]; [exfalso; exact (reports_not_failed _ _ R H)|]. rewrite (reports_fun _ _ _ R R'). exact H.
    - intros H. right. exists c. auto. }
  rewrite E, <- included_spec, below_spec, leq_spec by auto using abs_double, micro_double.
  unfold f64_ge. destruct (included f (tc_change c)); cbn [negb].
  2:{ split; [discriminate|intros [K _]; discriminate]. }
  destruct (tc_change c); (split; [intros H; repeat split; try discriminate; intros _ K; rewrite K in H; discriminate|intros (_ & H1 & H2)]);
    try reflexivity.
  - destruct (SFleb f64_micro (f_threshold f)); [exfalso; apply H1; reflexivity|reflexivity].
  - destruct (f64_lt _ _); [exfalso; apply H2; reflexivity|reflexivity].
Qed.

Lemma filter_selects {A} (p : A -> bool) (P : A -> Prop) l : (forall x, In x l -> p x = true <-> P x) ->
  selects P l (filter p l).
Proof.
  induction l as [|x l IH]; intros H; [constructor|]. simpl.
  assert (K := H x (or_introl eq_refl)). destruct (p x).
  - constructor; [apply K; reflexivity|]. apply IH. intros; apply H; right; auto.
  - constructor; [intros Q; apply K in Q; discriminate|]. apply IH. intros; apply H; right; auto.
Qed.
Lemma filter_lemma : forall l f, is_double (f_threshold f) -> typed_rows l ->
  selects (relevant f) l (filter_changes l f).
Proof. intros l f Vt Vp. apply filter_selects. intros r I. apply keep_spec; auto. intros c. apply Vp, I. Qed.

Lemma filter_idem_lemma : forall l f, filter_changes (filter_changes l f) f = filter_changes l f.
Proof.
  intros l f. unfold filter_changes. induction l as [|x l IH]; [reflexivity|]. simpl.
  destruct (keep f x) eqn:E; simpl; [rewrite E, IH; reflexivity|exact IH].
Qed.

Lemma filter_mono_lemma : forall l f t, is_double (f_threshold f) -> is_double t -> typed_rows l ->
  f64_leq (f_threshold f) t ->
  filter_changes (filter_changes l f) (with_threshold f t) = filter_changes l (with_threshold f t).
Proof.
  intros l f t V Vt T L. unfold filter_changes.
  assert (K : forall r, In r l -> keep (with_threshold f t) r = true -> keep f r = true).
  { intros r I. rewrite !keep_spec; auto; try (intros c; apply T, I).
    intros [H|(c & R & S & U & C)]; [left; exact H|right]. exists c. split; auto. split; [exact S|].
    assert (Vp : is_double (f64_abs (tc_percent c))) by (apply abs_double; eapply T; eauto). split.
    - intros E M. apply (U E). change (f_threshold (with_threshold f t)) with t. eapply leq_trans; [| | |exact M|exact L]; auto using micro_double.
    - intros E [M1 M2]. apply (C E). change (f_threshold (with_threshold f t)) with t. split; [eapply leq_trans; [| | |exact M1|exact L]; auto|].
      intros M3. apply M2. eapply leq_trans; [| | |exact L|exact M3]; auto. }
  clear T. induction l as [|x l IH]; [reflexivity|]. simpl.
  assert (IHl : filter (keep (with_threshold f t)) (filter (keep f) l) = filter (keep (with_threshold f t)) l).
  { apply IH. intros; apply K; auto; right; auto. }
  destruct (keep f x) eqn:E; simpl; rewrite IHl; [reflexivity|].
  destruct (keep (with_threshold f t) x) eqn:E'; [|reflexivity].
  rewrite (K x (or_introl eq_refl) E') in E. discriminate.
Qed.

Lemma kept_lemma : forall l f r c, is_double (f_threshold f) -> typed_rows l ->
  In r (filter_changes l f) -> reports r c -> tc_change c = Changed ->
  f_threshold f <> S754_nan -> tc_percent c <> S754_nan -> f64_leq (f_threshold f) (f64_abs (tc_percent c)).
Proof.
  intros l f r c V T I R C N1 N2. apply filter_In in I. destruct I as [I K].
  apply keep_spec in K; auto; [|intros c'; apply T, I].
  destruct K as [K|(c' & R' & S & U & D)]; [exfalso; exact (reports_not_failed _ _ R K)|].
  rewrite <- (reports_fun _ _ _ R R') in D. specialize (D C).
  assert (Vp : is_double (f64_abs (tc_percent c))) by (apply abs_double; eapply T; eauto).
  destruct (leq_total (f_threshold f) (f64_abs (tc_percent c))) as [L|L]; auto.
  - destruct (tc_percent c); cbn; congruence.
  - assert (Q : f64_leq (f_threshold f) (f64_abs (tc_percent c)) \/ ~ f64_leq (f_threshold f) (f64_abs (tc_percent c))).
    { rewrite leq_spec by auto. destruct (SFleb _ _); auto. }
    destruct Q as [Q|Q]; [exact Q|]. exfalso. apply D. split; auto.
Qed.

(** ** Sorting *)
Definition zrank (c : term_change) : Z := (Z.of_N (rel_rank (tc_change c)) * 2 ^ 128 + mils (tc_percent c))%Z.
Definition rrank (r : row) : option Z := option_map zrank (row_term r).

Lemma zrank_cmp a b : change_cmp a b = Z.compare (zrank a) (zrank b).
Proof.
  unfold change_cmp, zrank, rel_cmp.
  pose proof (mils_range (tc_percent a)) as Ra. pose proof (mils_range (tc_percent b)) as Rb.
  unfold i128_min, i128_max in *. revert Ra Rb.
  generalize (mils (tc_percent a)) (mils (tc_percent b)) (rel_rank (tc_change a)) (rel_rank (tc_change b)).
  intros p q x y Ra Rb. destruct (N.compare_spec x y) as [E|E|E]; symmetry.
  - subst. destruct (Z.compare_spec p q) as [F|F|F];
      [apply Z.compare_eq_iff|apply Z.compare_lt_iff|apply Z.compare_gt_iff]; lia.
  - apply Z.compare_lt_iff. lia.
  - apply Z.compare_gt_iff. lia.
Qed.

Lemma diff_less_spec a b : diff_less a b =
  match rrank a, rrank b with None, _ => true | _, None => false | Some x, Some y => (x <? y)%Z end.
Proof.
  unfold diff_less, rrank, row_term, diff_cmp.
  destruct (row_diff a), (row_diff b); cbn [option_map]; try reflexivity; rewrite zrank_cmp; unfold Z.ltb;
    destruct (Z.compare _ _); reflexivity.
Qed.

Lemma rrank_failed r : rrank r = None <-> is_failed r.
Proof.
  unfold rrank, row_term, is_failed. destruct (row_diff r); cbn; split; try discriminate; eauto.
  - intros [e H]; discriminate.
  - intros [e' H]; discriminate.
Qed.
Lemma rrank_reports r c : reports r c -> rrank r = Some (zrank c).
Proof. intros [H|[w H]]; unfold rrank, row_term; rewrite H; reflexivity. Qed.
Lemma zrank_lt a b : rank_lt a b <-> (zrank a < zrank b)%Z.
Proof. rewrite <- (proj1 (change_cmp_spec a b)), zrank_cmp. apply Z.compare_lt_iff. Qed.

Lemma row_le_spec a b : row_le a b <-> (is_failed a \/ le rrank a b).
Proof.
  unfold row_le, le. split.
  - intros [H|(c & d & Ra & Rb & N)]; [auto|right]. rewrite (rrank_reports _ _ Ra), (rrank_reports _ _ Rb).
    rewrite zrank_lt in N. lia.
  - intros [H|H]; [auto|]. destruct (row_cases a) as [F|[c Ra]]; [auto|right].
    destruct (row_cases b) as [F|[d Rb]].
    + apply rrank_failed in F. rewrite F in H. destruct (rrank a); tauto.
    + rewrite (rrank_reports _ _ Ra), (rrank_reports _ _ Rb) in H. exists c, d. rewrite zrank_lt. repeat split; auto. lia.
Qed.
Lemma same_rank_spec a b : same_rank a b <-> exists k, has rrank k a = true /\ has rrank k b = true.
Proof.
  unfold same_rank, has. split.
  - intros (c & d & Ra & Rb & N1 & N2). exists (zrank c).
    rewrite (rrank_reports _ _ Ra), (rrank_reports _ _ Rb). rewrite !Z.eqb_eq. rewrite zrank_lt in N1, N2. lia.
  - intros (k & Ha & Hb). destruct (row_cases a) as [F|[c Ra]].
    { apply rrank_failed in F. rewrite F in Ha. discriminate. }
    destruct (row_cases b) as [F|[d Rb]].
    { apply rrank_failed in F. rewrite F in Hb. discriminate. }
    rewrite (rrank_reports _ _ Ra) in Ha. rewrite (rrank_reports _ _ Rb) in Hb. rewrite Z.eqb_eq in *.
    exists c, d. rewrite !zrank_lt. repeat split; auto; lia.
Qed.

(** The rows of [l] that have the rank of [r], in order. *)
Lemma selects_filter {A} (p : A -> bool) (P : A -> Prop) l l' : (forall x, p x = true <-> P x) ->
  selects P l l' -> l' = filter p l.
Proof.
  intros H. induction 1 as [|x l l' Px S IH|x l l' Px S IH]; [reflexivity| |]; simpl.
  - rewrite (proj2 (H x) Px), IH. reflexivity.
  - destruct (p x) eqn:E; [exfalso; apply Px, H, E|exact IH].
Qed.

Lemma sort_lemma : forall l s, sort_changes l s ->
  Permutation l s /\ StronglySorted row_le s /\
  (forall r cls, selects (same_rank r) l cls <-> selects (same_rank r) s cls).
Proof.
  intros l s H. destruct (msort_good rrank diff_less diff_less_spec l s H) as (P & (f & o & -> & F & N & S) & St).
  split; [exact P|]. split.
  - clear -F N S. assert (So : StronglySorted row_le o).
    { clear F. induction S as [|x o S IH Hx]; [constructor|]. inversion N; subst. constructor; auto.
      eapply Forall_impl; [|exact Hx]. intros a Ha. apply row_le_spec. auto. }
    clear S. induction F as [|x f Hx F IH]; [exact So|]. simpl. constructor; [exact IH|].
    apply Forall_forall. intros y _. left. apply rrank_failed. exact Hx.
  - intros r cls. destruct (row_cases r) as [Fr|[c Rr]].
    { assert (K : forall x, ~ same_rank r x).
      { intros x (c & d & Rr & _). exact (reports_not_failed _ _ Rr Fr). }
      assert (E : forall m, selects (same_rank r) m cls <-> cls = []).
      { intros m. split.
        - intros Q. apply (selects_filter (fun _ => false)) in Q.
          + rewrite Q. clear. induction m; auto.
          + intros x. split; [discriminate|intros Z; exfalso; exact (K _ Z)].
        - intros ->. induction m; constructor; auto. }
      rewrite !E. reflexivity. }
    assert (K : forall x, has rrank (zrank c) x = true <-> same_rank r x).
    { intros x. rewrite same_rank_spec. split.
      - intros E. exists (zrank c). split; auto. unfold has. rewrite (rrank_reports _ _ Rr). apply Z.eqb_refl.
      - intros (k & E & E'). unfold has in E. rewrite (rrank_reports _ _ Rr) in E. apply Z.eqb_eq in E. subst k. exact E'. }
    split; intros Q; apply (selects_filter _ _ _ _ K) in Q; subst cls.
    + rewrite <- (St (zrank c)). apply filter_selects. intros; apply K.
    + rewrite (St (zrank c)). apply filter_selects. intros; apply K.
Qed.

Lemma sort_insert_lemma : forall l, sort_changes l (sort_changes_insert l).
Proof. intros l. apply (fold_insert_msort diff_less l [] []). constructor. reflexivity. Qed.

(** ** compare_files *)
Lemma simplify_ext_ok d e : simplify_ext d e = Ok (in_dim d e).
Proof. unfold simplify_ext. rewrite simplify_restrict. reflexivity. Qed.
Lemma mapM_total {A B} (f : A -> outcome B) (g : A -> B) l : (forall x, f x = Ok (g x)) -> mapM f l = Ok (map g l).
Proof. intros H. induction l as [|x l IH]; [reflexivity|]. simpl. rewrite H. cbn [bind]. rewrite IH. reflexivity. Qed.

Lemma find_ext_first d l p n o : is_first l (p, n) o -> find_ext p n (map (in_dim d) l) = option_map (in_dim d) o.
Proof.
  unfold find_ext, is_first, ext_key. destruct o as [e|].
  - intros (l1 & l2 & -> & E & N). rewrite map_app. induction l1 as [|x l1 IH].
    + simpl. inversion E. rewrite !String.eqb_refl. reflexivity.
    + simpl. destruct (String.eqb (ename x) n && String.eqb (epallet x) p) eqn:Q.
      * apply andb_true_iff in Q. destruct Q as [Q1 Q2]. apply String.eqb_eq in Q1, Q2.
        exfalso. apply (N x); [left; reflexivity|]. congruence.
      * apply IH. intros e' I. apply N. right. exact I.
  - intros N. induction l as [|x l IH]; [reflexivity|]. simpl.
    destruct (String.eqb (ename x) n && String.eqb (epallet x) p) eqn:Q.
    + apply andb_true_iff in Q. destruct Q as [Q1 Q2]. apply String.eqb_eq in Q1, Q2.
      exfalso. apply (N x); [left; reflexivity|]. congruence.
    + apply IH. intros e' I. apply N. right. exact I.
Qed.
Lemma is_first_exists l k : exists o, is_first l k o.
Proof.
  induction l as [|x l [o IH]]; [exists None; intros e []|].
  assert (D : {ext_key x = k} + {ext_key x <> k}) by (repeat decide equality).
  destruct D as [D|D].
  - exists (Some x), [], l. split; [reflexivity|]. split; [exact D|]. intros e' [].
  - exists o. destruct o as [e|].
    + destruct IH as (l1 & l2 & -> & E & N). exists (x :: l1), l2. split; [reflexivity|]. split; [exact E|].
      intros e' [<-|I]; auto.
    + intros e [<-|I]; auto.
Qed.
Lemma is_first_in l k e : is_first l k (Some e) -> In e l /\ ext_key e = k.
Proof. intros (l1 & l2 & -> & E & _). split; [apply in_or_app; right; left; reflexivity|exact E]. Qed.
Lemma is_first_none l k o : is_first l k o -> (o = None <-> ~ exists e, In e l /\ ext_key e = k).
Proof.
  intros H. destruct o as [e|].
  - split; [discriminate|]. intros N. exfalso. apply N. exists e. apply (is_first_in _ _ _ H).
  - split; [|reflexivity]. intros _ (e & I & E). exact (H e I E).
Qed.
Lemma is_first_fun l k o o' : is_first l k o -> is_first l k o' -> o = o'.
Proof.
  intros H H'. assert (E := is_first_none _ _ _ H). assert (E' := is_first_none _ _ _ H').
  destruct o as [e|], o' as [e'|]; try reflexivity.
  - f_equal. destruct H as (l1 & l2 & E1 & K & N), H' as (l1' & l2' & E1' & K' & N'). clear E E'.
    revert l1' l E1 E1' N'. induction l1 as [|x l1 IH]; intros [|x' l1'] l E1 E1' N'; subst l; simpl in E1'; inversion E1'; subst; auto.
    + exfalso. apply (N' x'); [left; reflexivity|congruence].
    + exfalso. apply (N e'); [left; reflexivity|congruence].
    + eapply IH; eauto. intros; apply N; right; auto. intros; apply N'; right; auto.
  - exfalso. assert (Q : Some e = None) by tauto. discriminate.
  - exfalso. assert (Q : Some e' = None) by tauto. discriminate.
Qed.

Lemma selected_spec rx p s : selected rx p s = true <-> passes rx p s.
Proof.
  unfold selected, passes. destruct p as [re|].
  - destruct (rx_match rx re s) as [[]|] eqn:E; split; intros H; try discriminate; try (right; exists re; auto; fail); auto.
    + destruct H as [H|(re' & [= <-] & H)]; [discriminate|congruence].
    + destruct H as [H|(re' & [= <-] & H)]; [discriminate|congruence].
  - split; auto.
Qed.

(** The keys of the table. *)
Definition table_keys (rx : regex_engine) (olds news : list cextrinsic) (f : fparams) : list (string * string) :=
  filter (fun k => selected rx (f_pallet f) (fst k) && selected rx (f_extrinsic f) (snd k))
    (sof_list key_cmp (map ext_key olds ++ map ext_key news)%list).
Lemma compile_ok rx p q : compile rx p = Ok q -> q = p /\ (forall s, p = Some s -> rx_new rx s = None).
Proof.
  unfold compile. destruct p as [s|].
  - destruct (rx_new rx s) eqn:E; [discriminate|]. intros [= <-]. split; [reflexivity|]. intros ? [= <-]. exact E.
  - intros [= <-]. split; [reflexivity|]. intros ? [=].
Qed.
Lemma compare_files_unfold m ords rx olds news ps f : valid_filters rx f ->
  compare_files m ords rx olds news ps f =
  mapM (fun k => compare_row m (ords k) ps (map (in_dim (p_unit ps)) olds) (map (in_dim (p_unit ps)) news) k)
    (table_keys rx olds news f).
Proof.
  intros V. unfold compare_files, table_keys.
  assert (C : forall p, (forall s, p = Some s -> rx_new rx s = None) -> compile rx p = Ok p).
  { intros [s|] H; [|reflexivity]. cbn. rewrite (H s eq_refl). reflexivity. }
  rewrite !C by (intros s E; apply V; auto). cbn [bind].
  rewrite !(mapM_total (simplify_ext (p_unit ps)) (in_dim (p_unit ps))) by (apply simplify_ext_ok).
  cbn [bind]. f_equal. rewrite !map_map. reflexivity.
Qed.
Lemma compare_files_valid m ords rx olds news ps f rows :
  compare_files m ords rx olds news ps f = Ok rows -> valid_filters rx f.
Proof.
  unfold compare_files. destruct (compile rx (f_extrinsic f)) as [q| | |] eqn:E; cbn [bind]; try discriminate.
  destruct (compile rx (f_pallet f)) as [q'| | |] eqn:E'; cbn [bind]; try discriminate. intros _ p [H|H].
  - apply (proj2 (compile_ok _ _ _ E)), H.
  - apply (proj2 (compile_ok _ _ _ E')), H.
Qed.

Lemma mapM_ok {A B} (f : A -> outcome B) l r : mapM f l = Ok r -> Forall2 (fun x y => f x = Ok y) l r.
Proof.
  revert r. induction l as [|x l IH]; intros r; simpl; [intros [= <-]; constructor|].
  destruct (f x) as [y| | |] eqn:E; cbn [bind]; try discriminate.
  destruct (mapM f l) as [ys| | |]; cbn [bind]; try discriminate. intros [= <-]. constructor; auto.
Qed.
Lemma compare_row_key m o ps olds news k r : compare_row m o ps olds news k = Ok r -> row_key r = k.
Proof.
  unfold compare_row. destruct k as [p n].
  destruct (match compare_extrinsics m o _ _ ps with Ok _ => _ | _ => _ end) eqn:E; cbn [bind]; try discriminate.
  intros [= <-]. reflexivity.
Qed.
Lemma Forall2_keys m ords ps olds news ks rows :
  Forall2 (fun k r => compare_row m (ords k) ps olds news k = Ok r) ks rows -> map row_key rows = ks.
Proof. induction 1 as [|k r ks rows H F IH]; [reflexivity|]. simpl. rewrite IH. f_equal. eapply compare_row_key; eauto. Qed.

Lemma key_cmp_strict : strict_cmp key_cmp.
Proof. apply pair_cmp_strict; apply str_cmp_strict. Qed.

Lemma filter_sorted {A} (R : A -> A -> Prop) (p : A -> bool) l : StronglySorted R l -> StronglySorted R (filter p l).
Proof.
  induction 1 as [|x l S IH H]; [constructor|]. simpl. destruct (p x); [|exact IH]. constructor; auto.
  rewrite Forall_forall in *. intros y I. apply filter_In in I. apply H, I.
Qed.

Lemma rows_lemma : forall m ords rx olds news ps f rows,
  compare_files m ords rx olds news ps f = Ok rows ->
  StronglySorted key_before (map row_key rows) /\
  forall k, In k (map row_key rows) <->
    (exists e, (In e olds \/ In e news) /\ ext_key e = k) /\ passes rx (f_pallet f) (fst k) /\ passes rx (f_extrinsic f) (snd k).
Proof.
  intros m ords rx olds news ps f rows H.
  rewrite compare_files_unfold in H by (eapply compare_files_valid; eauto).
  apply mapM_ok, Forall2_keys in H. rewrite H. unfold table_keys. split.
  - assert (S := filter_sorted (slt key_cmp) (fun k => selected rx (f_pallet f) (fst k) && selected rx (f_extrinsic f) (snd k)) _
      (sof_list_sorted key_cmp key_cmp_strict (map ext_key olds ++ map ext_key news)%list)).
    clear H. induction S as [|x l S IH K]; constructor; auto. eapply Forall_impl; [|exact K].
    intros y. unfold slt. apply key_before_cmp.
  - intros k. rewrite filter_In, (sof_list_in key_cmp key_cmp_strict), andb_true_iff, !selected_spec, in_app_iff, !in_map_iff.
    split.
    + intros [[(e & E & I)|(e & E & I)] P]; (split; [exists e; auto|exact P]).
    + intros [(e & [I|I] & E) P]; (split; [|exact P]); [left|right]; exists e; auto.
Qed.

Lemma sanity_returns t : (exists u, sanity_check_term t = Ok u) \/ exists e, sanity_check_term t = Err e.
Proof.
  unfold sanity_check_term. repeat match goal with |- context [if ?b then _ else _] => destruct b end; eauto.
Qed.

Lemma compare_row_of m o ps olds news p n r oo no :
  is_first olds (p, n) oo -> is_first news (p, n) no ->
  compare_row m o ps (map (in_dim (p_unit ps)) olds) (map (in_dim (p_unit ps)) news) (p, n) = Ok r ->
  row_of m o ps oo no (row_diff r).
Proof.
  intros Fo Fn. unfold compare_row, row_of.
  rewrite (find_ext_first _ _ _ _ _ Fo), (find_ext_first _ _ _ _ _ Fn).
  destruct (compare_extrinsics m o _ _ ps) as [tc|e|w|] eqn:E; cbn [bind]; try discriminate.
  - destruct no as [ne|]; cbn [option_map].
    + destruct (sanity_returns (eterm (in_dim (p_unit ps) ne))) as [[u Q]|[e Q]]; rewrite Q; cbn [bind]; intros [= <-];
        (exists ne; split; [auto|]); unfold in_dim in Q; cbn in Q; rewrite Q; reflexivity.
    + destruct oo as [oe|]; cbn [option_map bind]; try discriminate.
      destruct (sanity_returns (eterm (in_dim (p_unit ps) oe))) as [[u Q]|[e Q]]; rewrite Q; cbn [bind]; intros [= <-];
        (exists oe; split; [auto|]); unfold in_dim in Q; cbn in Q; rewrite Q; reflexivity.
  - intros [= <-]. reflexivity.
Qed.

Lemma Forall2_in_r {A B} (R : A -> B -> Prop) l l' y : Forall2 R l l' -> In y l' -> exists x, In x l /\ R x y.
Proof.
  induction 1 as [|a b l l' H F IH]; intros []; [subst; exists a; split; [left|]; auto|].
  destruct (IH H0) as (x & I & Q). exists x. split; [right|]; auto.
Qed.

Lemma first_lemma : forall m ords rx olds news ps f rows r o n,
  compare_files m ords rx olds news ps f = Ok rows -> In r rows ->
  is_first olds (row_key r) o -> is_first news (row_key r) n ->
  row_of m (ords (row_key r)) ps o n (row_diff r).
Proof.
  intros m ords rx olds news ps f rows r o n H I Fo Fn.
  rewrite compare_files_unfold in H by (eapply compare_files_valid; eauto).
  apply mapM_ok in H. destruct (Forall2_in_r _ _ _ _ H I) as (k & Ik & E).
  rewrite (compare_row_key _ _ _ _ _ _ _ E) in *. destruct k as [p q]. eapply compare_row_of; eauto.
Qed.

(** *** Totality *)
Lemma mapM_returns {A B} (f : A -> outcome B) l : (forall x, In x l -> exists y, f x = Ok y) -> exists r, mapM f l = Ok r.
Proof.
  induction l as [|x l IH]; intros H; [exists []; reflexivity|]. simpl.
  destruct (H x (or_introl eq_refl)) as [y ->]. destruct IH as [r ->]; [intros; apply H; right; auto|].
  eexists. reflexivity.
Qed.
Lemma compare_row_total m o ps olds news p n oo no : is_order o ->
  is_first olds (p, n) oo -> is_first news (p, n) no -> oo <> None \/ no <> None ->
  let c := compare_row m o ps (map (in_dim (p_unit ps)) olds) (map (in_dim (p_unit ps)) news) (p, n) in
  (exists r, c = Ok r) \/
  (m = Checked /\ exists why, c = Panic why /\
     compare_extrinsics m o (option_map (in_dim (p_unit ps)) oo) (option_map (in_dim (p_unit ps)) no) ps = Panic why).
Proof.
  intros Ho Fo Fn NN. cbv zeta. unfold compare_row.
  rewrite (find_ext_first _ _ _ _ _ Fo), (find_ext_first _ _ _ _ _ Fn).
  destruct (compare_no_panic_lemma m o (option_map (in_dim (p_unit ps)) oo) (option_map (in_dim (p_unit ps)) no) ps Ho) as [_ T].
  destruct T as [T|(M & s & e & why & _ & _ & _ & T)].
  - destruct NN as [NN|NN]; [left; destruct oo|right; destruct no]; cbn; congruence.
  - left. destruct (compare_extrinsics m o _ _ ps) as [tc|e|w|] eqn:E; cbn in T; try contradiction.
    + destruct no as [ne|]; cbn [option_map].
      * destruct (sanity_returns (eterm (in_dim (p_unit ps) ne))) as [[u Q]|[e Q]]; rewrite Q; cbn [bind]; eexists; reflexivity.
      * destruct oo as [oe|]; [|destruct NN; congruence]. cbn [option_map].
        destruct (sanity_returns (eterm (in_dim (p_unit ps) oe))) as [[u Q]|[e Q]]; rewrite Q; cbn [bind]; eexists; reflexivity.
    + eexists. reflexivity.
  - right. split; [exact M|]. exists why. rewrite T. split; reflexivity.
Qed.

Lemma table_key_present rx olds news f k : In k (table_keys rx olds news f) ->
  exists e, (In e olds \/ In e news) /\ ext_key e = k.
Proof.
  unfold table_keys. rewrite filter_In, (sof_list_in key_cmp key_cmp_strict), in_app_iff, !in_map_iff.
  intros [[(e & E & I)|(e & E & I)] _]; exists e; auto.
Qed.
Lemma first_present olds news k oo no : is_first olds k oo -> is_first news k no ->
  (exists e, (In e olds \/ In e news) /\ ext_key e = k) -> oo <> None \/ no <> None.
Proof.
  intros Fo Fn (e & [I|I] & E); [left|right]; intros Q; subst.
  - exact (Fo e I eq_refl).
  - exact (Fn e I eq_refl).
Qed.
Lemma mapM_first_panic {A B} (f : A -> outcome B) (P : A -> string -> Prop) l :
  (forall x, In x l -> (exists y, f x = Ok y) \/ (exists w, f x = Panic w /\ P x w)) ->
  (exists r, mapM f l = Ok r) \/ (exists x w, In x l /\ mapM f l = Panic w /\ P x w).
Proof.
  induction l as [|x l IH]; intros H; [left; exists []; reflexivity|]. simpl.
  destruct (H x (or_introl eq_refl)) as [[y ->]|[w [-> Pw]]].
  - cbn [bind]. destruct IH as [[r ->]|(x' & w & I & -> & Q)]; [intros; apply H; right; auto| |].
    + left. eexists. reflexivity.
    + right. exists x', w. auto.
  - right. exists x, w. auto.
Qed.

Lemma total_lemma : forall m ords rx olds news ps f, (forall k, is_order (ords k)) ->
  (valid_filters rx f ->
    (exists rows, compare_files m ords rx olds news ps f = Ok rows) \/
    (m = Checked /\ exists k o n why, is_first olds k o /\ is_first news k n /\
       compare_extrinsics Checked (ords k) (option_map (in_dim (p_unit ps)) o) (option_map (in_dim (p_unit ps)) n) ps = Panic why /\
       compare_files m ords rx olds news ps f = Panic why)) /\
  (~ valid_filters rx f -> exists e, compare_files m ords rx olds news ps f = Err e).
Proof.
  intros m ords rx olds news ps f Ho. split.
  - intros V. rewrite compare_files_unfold by assumption.
    destruct (mapM_first_panic
      (fun k => compare_row m (ords k) ps (map (in_dim (p_unit ps)) olds) (map (in_dim (p_unit ps)) news) k)
      (fun k why => m = Checked /\ exists o n, is_first olds k o /\ is_first news k n /\
         compare_extrinsics Checked (ords k) (option_map (in_dim (p_unit ps)) o) (option_map (in_dim (p_unit ps)) n) ps = Panic why)
      (table_keys rx olds news f)) as [R|(k & w & I & E & M & o & n & Fo & Fn & Q)].
    + intros [p q] I. destruct (is_first_exists olds (p, q)) as [oo Fo], (is_first_exists news (p, q)) as [no Fn].
      destruct (compare_row_total m (ords (p, q)) ps olds news p q oo no (Ho _) Fo Fn
        (first_present _ _ _ _ _ Fo Fn (table_key_present _ _ _ _ _ I))) as [R|(M & why & E & C)]; [left; exact R|right].
      exists why. split; [exact E|]. split; [exact M|]. exists oo, no. subst m. auto.
    + left. exact R.
    + right. split; [exact M|]. exists k, o, n, w. auto.
  - intros NV. unfold compare_files, compile.
    destruct (f_extrinsic f) as [s|] eqn:E1.
    + destruct (rx_new rx s) as [e|] eqn:Q1; [exists e; reflexivity|]. cbn [bind].
      destruct (f_pallet f) as [s'|] eqn:E2.
      * destruct (rx_new rx s') as [e|] eqn:Q2; [exists e; reflexivity|].
        exfalso. apply NV. intros p [H|H]; congruence.
      * exfalso. apply NV. intros p [H|H]; congruence.
    + cbn [bind]. destruct (f_pallet f) as [s'|] eqn:E2.
      * destruct (rx_new rx s') as [e|] eqn:Q2; [exists e; reflexivity|].
        exfalso. apply NV. intros p [H|H]; congruence.
      * exfalso. apply NV. intros p [H|H]; congruence.
Qed.

(** *** Duplicates and order *)
Lemma same_firsts_keys l l' : same_firsts l l' -> forall k, In k (map ext_key l) <-> In k (map ext_key l').
Proof.
  intros S k. assert (Q : forall a b, (forall k o, is_first a k o -> is_first b k o) ->
    In k (map ext_key a) -> In k (map (@ext_key cterm) b)).
  { intros a b H I. apply in_map_iff in I. destruct I as (e & E & I).
    destruct (is_first_exists a k) as [[e'|] F].
    - apply H, is_first_in in F. destruct F as [F1 F2]. apply in_map_iff. exists e'. auto.
    - exfalso. exact (F e I E). }
  split; apply Q; intros k' o; apply S.
Qed.
Lemma compare_row_ext m o ps olds news olds' news' k : same_firsts olds olds' -> same_firsts news news' ->
  compare_row m o ps (map (in_dim (p_unit ps)) olds) (map (in_dim (p_unit ps)) news) k =
  compare_row m o ps (map (in_dim (p_unit ps)) olds') (map (in_dim (p_unit ps)) news') k.
Proof.
  intros So Sn. destruct k as [p n]. unfold compare_row.
  destruct (is_first_exists olds (p, n)) as [oo Fo], (is_first_exists news (p, n)) as [no Fn].
  rewrite (find_ext_first (p_unit ps) olds p n oo Fo), (find_ext_first (p_unit ps) news p n no Fn).
  apply So in Fo. apply Sn in Fn.
  rewrite (find_ext_first (p_unit ps) olds' p n oo Fo), (find_ext_first (p_unit ps) news' p n no Fn). reflexivity.
Qed.
Lemma mapM_ext {A B} (f g : A -> outcome B) l : (forall x, f x = g x) -> mapM f l = mapM g l.
Proof. intros H. induction l as [|x l IH]; [reflexivity|]. simpl. rewrite H, IH. reflexivity. Qed.

Lemma invalid_same m ords rx olds news olds' news' ps f : ~ valid_filters rx f ->
  compare_files m ords rx olds news ps f = compare_files m ords rx olds' news' ps f.
Proof.
  intros NV. unfold compare_files, compile.
  destruct (f_extrinsic f) as [s|] eqn:E1.
  + destruct (rx_new rx s) as [e|] eqn:Q1; [reflexivity|]. cbn [bind].
    destruct (f_pallet f) as [s'|] eqn:E2.
    * destruct (rx_new rx s') as [e|] eqn:Q2; [reflexivity|]. exfalso. apply NV. intros p [H|H]; congruence.
    * exfalso. apply NV. intros p [H|H]; congruence.
  + cbn [bind]. destruct (f_pallet f) as [s'|] eqn:E2.
    * destruct (rx_new rx s') as [e|] eqn:Q2; [reflexivity|]. exfalso. apply NV. intros p [H|H]; congruence.
    * exfalso. apply NV. intros p [H|H]; congruence.
Qed.

Lemma valid_dec rx f : valid_filters rx f \/ ~ valid_filters rx f.
Proof.
  unfold valid_filters.
  assert (D : forall o, (forall p, o = Some p -> rx_new rx p = None) \/ ~ (forall p, o = Some p -> rx_new rx p = None)).
  { intros [s|].
    - destruct (rx_new rx s) as [e|] eqn:E; [right; intros H; rewrite (H s eq_refl) in E; discriminate|left; intros ? [= <-]; exact E].
    - left. intros ? [=]. }
  destruct (D (f_extrinsic f)) as [A|A], (D (f_pallet f)) as [B|B]; [left|right|right|right]; firstorder.
Qed.

Lemma duplicates_lemma : forall m ords rx olds news olds' news' ps f,
  same_firsts olds olds' -> same_firsts news news' ->
  compare_files m ords rx olds news ps f = compare_files m ords rx olds' news' ps f.
Proof.
  intros m ords rx olds news olds' news' ps f So Sn.
  destruct (valid_dec rx f) as [V|V]; [|apply invalid_same; exact V].
  rewrite !compare_files_unfold by assumption.
  replace (table_keys rx olds' news' f) with (table_keys rx olds news f).
  - apply mapM_ext. intros k. apply compare_row_ext; assumption.
  - unfold table_keys. f_equal. apply (sof_list_ext key_cmp key_cmp_strict). intros k.
    rewrite !in_app_iff, (same_firsts_keys _ _ So k), (same_firsts_keys _ _ Sn k). reflexivity.
Qed.

Lemma is_first_nodup l k e : NoDup (map ext_key l) -> In e l -> ext_key e = k -> is_first l k (Some e).
Proof.
  intros N I E. apply in_split in I. destruct I as (l1 & l2 & ->). exists l1, l2. split; [reflexivity|]. split; [exact E|].
  intros e' I' E'. rewrite map_app in N. simpl in N. apply NoDup_remove_2 in N. apply N.
  apply in_or_app. left. rewrite E, <- E'. apply in_map. exact I'.
Qed.
Lemma perm_same_firsts l l' : NoDup (map ext_key l) -> Permutation l l' -> same_firsts l l'.
Proof.
  assert (Q : forall l l', NoDup (map ext_key l) -> Permutation l l' -> forall k o, is_first l k o -> is_first l' k o).
  { intros a b N P k o F. assert (Nb : NoDup (map ext_key b)) by (eapply Permutation_NoDup; [apply Permutation_map; exact P|exact N]).
    destruct o as [e|].
    - destruct (is_first_in _ _ _ F) as [I E]. apply is_first_nodup; auto. eapply Permutation_in; eauto.
    - intros e I E. apply (F e); auto. eapply Permutation_in; [symmetry; exact P|exact I]. }
  intros N P k o. split; apply Q; auto.
  - eapply Permutation_NoDup; [apply Permutation_map; exact P|exact N].
  - symmetry. exact P.
Qed.
Lemma permutation_lemma : forall m ords rx olds news olds' news' ps f,
  NoDup (map ext_key olds) -> NoDup (map ext_key news) -> Permutation olds olds' -> Permutation news news' ->
  compare_files m ords rx olds news ps f = compare_files m ords rx olds' news' ps f.
Proof. intros. apply duplicates_lemma; apply perm_same_firsts; assumption. Qed.

(** *** Comparing with itself *)
Lemma self_row : forall m ords rx l ps f rows r c, (forall k, is_order (ords k)) ->
  compare_files m ords rx l l ps f = Ok rows -> In r rows -> reports r c -> tc_change c = Unchanged.
Proof.
  intros m ords rx l ps f rows r c Ho H I R.
  destruct (is_first_exists l (row_key r)) as [o F].
  assert (Q := first_lemma m ords rx l l ps f rows r o o H I F F). unfold row_of in Q.
  destruct (compare_extrinsics m _ _ _ ps) as [tc|e|w|] eqn:E; try contradiction.
  - destruct Q as (e & En & Q). assert (c = tc).
    { destruct (sanity_check_term _); try contradiction; destruct R as [R|[w R]]; congruence. }
    subst tc. destruct (change_kind_lemma _ _ _ _ _ _ (Ho _) E) as (_ & _ & U & _). apply U.
    assert (o = Some e) by (destruct En as [En|[En1 En2]]; congruence). subst o. cbn. eexists _, _. repeat split; reflexivity.
  - exfalso. destruct R as [R|[w R]]; congruence.
Qed.
Lemma self_lemma : forall m ords rx l ps f rows, (forall k, is_order (ords k)) ->
  compare_files m ords rx l l ps f = Ok rows ->
  (forall r, In r rows -> is_failed r \/ exists c, reports r c /\ tc_change c = Unchanged) /\
  (is_double (f_threshold f) -> f64_leq f64_micro (f_threshold f) ->
     forall r, In r (filter_changes rows f) -> is_failed r).
Proof.
  intros m ords rx l ps f rows Ho H. split.
  - intros r I. destruct (row_cases r) as [F|[c R]]; [auto|right]. exists c. split; [exact R|]. eapply self_row; eauto.
  - intros V L r I. apply filter_In in I. destruct I as [I K]. destruct (row_cases r) as [F|[c R]]; [exact F|exfalso].
    rewrite (keep_reports _ _ _ R), (self_row _ _ _ _ _ _ _ _ _ Ho H I R) in K.
    apply leq_spec in L; auto using micro_double. unfold f64_ge in K. rewrite L in K.
    destruct (included f Unchanged); discriminate.
Qed.

Definition rx_all : regex_engine := {| rx_new := fun _ => None; rx_match := fun re s => Some (String.prefix re s) |}.
Lemma nan_refuted_lemma : exists olds news rows f r c,
  compare_files Checked (fun _ l => l) rx_all olds news {| p_method := ExactWorst; p_unit := Time |} f = Ok rows /\
  is_double (f_threshold f) /\ f_threshold f <> S754_nan /\
  In r (filter_changes rows f) /\ reports r c /\ tc_change c = Changed /\
  ~ f64_leq (f_threshold f) (f64_abs (tc_percent c)).
Proof.
  pose (e := fun t => mk_ext "f" "p" t None : cextrinsic).
  pose (f := {| f_threshold := f64_of_N 5; f_change := None; f_extrinsic := None; f_pallet := None |}).
  pose (c := mk_change (Some (Value 0%N)) (Some 0%N) (Some (Add (Value 0%N) (Value 0%N))) (Some 0%N)
    [("READ", Scalar 25000000); ("WRITE", Scalar 100000000)] S754_nan Changed ExactWorst).
  pose (r := mk_row "f" "p" (DChanged c)).
  exists [e (Value {| time := 0; proof := 1 |})], [e (Add (Value {| time := 0; proof := 1 |}) (Value {| time := 0; proof := 1 |}))],
    [r], f, r, c.
  split; [vm_compute; reflexivity|]. split; [vm_compute; reflexivity|]. split; [vm_compute; discriminate|].
  split; [vm_compute; left; reflexivity|]. split; [left; reflexivity|]. split; [reflexivity|]. vm_compute. auto.
Qed.

(** *** Percentages are doubles *)
Lemma valid_B2SF (b : bin) : is_double (B2SF b).
Proof. apply valid_binary_B2SF. Qed.
Lemma percent_double a b : is_double (percent a b).
Proof.
  unfold percent, f64_of_N. change f64_prec with prec. change f64_emax with emax.
  rewrite !binary_normalize_equiv, div_equiv, mul_equiv, sub_equiv. apply valid_B2SF.
Qed.
Lemma typed_lemma : forall m ords rx olds news ps f rows, (forall k, is_order (ords k)) ->
  compare_files m ords rx olds news ps f = Ok rows -> typed_rows rows.
Proof.
  intros m ords rx olds news ps f rows Ho H r c I R.
  destruct (is_first_exists olds (row_key r)) as [o Fo], (is_first_exists news (row_key r)) as [n Fn].
  assert (Q := first_lemma m ords rx olds news ps f rows r o n H I Fo Fn). unfold row_of in Q.
  destruct (compare_extrinsics m _ _ _ ps) as [tc|e|w|] eqn:E; try contradiction.
  - destruct Q as (e & En & Q). assert (c = tc).
    { destruct (sanity_check_term _); try contradiction; destruct R as [R|[w R]]; congruence. }
    subst tc. destruct (compare_ok_point _ _ _ _ _ _ (Ho _) E) as (s & _ & _ & _ & ->). apply percent_double.
  - exfalso. destruct R as [R|[w R]]; congruence.
Qed.
