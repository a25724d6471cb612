(** Proofs about component instances, corner scopes and [extend_scoped_components]. *)
From Coq Require Import List String NArith ZArith Lia Bool Permutation Sorting.Sorted Arith.
From Verif Require Import Base ScopeM TermM SpecTerm TermP ScopeP F64 CompareM SpecCompare.
Import ListNotations.
Local Open Scope list_scope.

(** ** The derived order on terms and scopes *)
Lemma lex_eq c d : lex c d = Eq <-> c = Eq /\ d = Eq.
Proof. destruct c; simpl; intuition congruence. Qed.
Lemma lex_lt c d : lex c d = Lt <-> c = Lt \/ (c = Eq /\ d = Lt).
Proof. destruct c; simpl; intuition congruence. Qed.
Lemma lex_opp c d : CompOpp (lex c d) = lex (CompOpp c) (CompOpp d).
Proof. destruct c; reflexivity. Qed.

Lemma term_cmp_strict {T} (vcmp : T -> T -> comparison) : strict_cmp vcmp -> strict_cmp (term_cmp vcmp).
Proof.
  intros H. split.
  - induction x as [v|n|s|l1 IH1 r1 IH2|l1 IH1 r1 IH2]; destruct y as [v'|n'|s'|l' r'|l' r']; simpl;
      try (split; discriminate).
    + rewrite (cmp_eq _ H). split; congruence.
    + rewrite N.compare_eq_iff. split; congruence.
    + rewrite (cmp_eq _ str_cmp_strict). split; congruence.
    + rewrite lex_eq, IH1, IH2. split; [intros [-> ->]; reflexivity|inversion 1; auto].
    + rewrite lex_eq, IH1, IH2. split; [intros [-> ->]; reflexivity|inversion 1; auto].
  - induction x as [v|n|s|l1 IH1 r1 IH2|l1 IH1 r1 IH2]; destruct y as [v'|n'|s'|l' r'|l' r']; simpl; try reflexivity.
    + apply (cmp_anti _ H).
    + apply N.compare_antisym.
    + apply (cmp_anti _ str_cmp_strict).
    + now rewrite lex_opp, IH1, IH2.
    + now rewrite lex_opp, IH1, IH2.
  - assert (E : forall x y : term T, term_cmp vcmp x y = Eq -> x = y).
    { induction x as [v|n|s|l1 IH1 r1 IH2|l1 IH1 r1 IH2]; destruct y as [v'|n'|s'|l' r'|l' r']; simpl; try discriminate.
      - intros E. apply (cmp_eq _ H) in E. congruence.
      - intros E. apply N.compare_eq_iff in E. congruence.
      - intros E. apply (cmp_eq _ str_cmp_strict) in E. congruence.
      - intros E. apply lex_eq in E as [E1 E2]. now rewrite (IH1 _ E1), (IH2 _ E2).
      - intros E. apply lex_eq in E as [E1 E2]. now rewrite (IH1 _ E1), (IH2 _ E2). }
    assert (R : forall x : term T, term_cmp vcmp x x = Eq).
    { induction x as [v|n|s|l1 IH1 r1 IH2|l1 IH1 r1 IH2]; simpl.
      - apply (cmp_refl _ H).
      - apply N.compare_refl.
      - apply (cmp_refl _ str_cmp_strict).
      - now rewrite IH1, IH2.
      - now rewrite IH1, IH2. }
    induction x as [v|n|s|l1 IH1 r1 IH2|l1 IH1 r1 IH2]; destruct y as [v'|n'|s'|l' r'|l' r'];
      destruct z as [v''|n''|s''|l'' r''|l'' r'']; simpl; try discriminate; try reflexivity.
    + apply (cmp_trans _ H).
    + apply (cmp_trans _ N_cmp_strict).
    + apply (cmp_trans _ str_cmp_strict).
    + rewrite !lex_lt. intros [A|[A A']] [B|[B B']].
      * left. eapply IH1; eauto.
      * apply E in B. subst. now left.
      * apply E in A. subst. now left.
      * apply E in A, B. subst. right. split; auto. eapply IH2; eauto.
    + rewrite !lex_lt. intros [A|[A A']] [B|[B B']].
      * left. eapply IH1; eauto.
      * apply E in B. subst. now left.
      * apply E in A. subst. now left.
      * apply E in A, B. subst. right. split; auto. eapply IH2; eauto.
Qed.

Lemma sterm_cmp_strict : strict_cmp sterm_cmp.
Proof. apply term_cmp_strict, N_cmp_strict. Qed.
Lemma sscope_cmp_strict : strict_cmp sscope_cmp.
Proof. apply list_cmp_strict, pair_cmp_strict; [apply str_cmp_strict|apply sterm_cmp_strict]. Qed.

(** ** Instances *)
Definition side_of (st : strategy) : side := match which st with MMin => Low | MMax => High end.

(** Executable version of [inst]. *)
Definition instv (s : side) (l : list comp_range) : N :=
  match l, s with
  | [], Low => 0
  | [], High => 100
  | r :: l, Low => fold_right (fun r v => N.min (rmin r) v) (rmin r) l
  | r :: l, High => fold_right (fun r v => N.max (rmax r) v) (rmax r) l
  end%N.

Lemma inst_instv s l v : inst s l v <-> v = instv s l.
Proof.
  destruct l as [|r l], s; simpl; try tauto.
  - assert (K : least (map rmin (r :: l)) (fold_right (fun r v => N.min (rmin r) v) (rmin r) l)).
    { unfold least. simpl. induction l as [|q l [IH1 IH2]]; simpl.
      - split; [now left|]. intros w [<-|[]]. lia.
      - split.
        + destruct (N.min_dec (rmin q) (fold_right (fun r v => N.min (rmin r) v) (rmin r) l)) as [->| ->]; [tauto|].
          destruct IH1; tauto.
        + intros w [<-|[<-|Hw]]; try lia.
          * pose proof (IH2 _ (or_introl eq_refl)). lia.
          * pose proof (IH2 w (or_intror Hw)). lia. }
    split; [|now intros ->]. intros [H1 H2]. destruct K as [K1 K2].
    apply N.le_antisymm; [apply H2, K1|apply K2, H1].
  - assert (K : greatest (map rmax (r :: l)) (fold_right (fun r v => N.max (rmax r) v) (rmax r) l)).
    { unfold greatest. simpl. induction l as [|q l [IH1 IH2]]; simpl.
      - split; [now left|]. intros w [<-|[]]. lia.
      - split.
        + destruct (N.max_dec (rmax q) (fold_right (fun r v => N.max (rmax r) v) (rmax r) l)) as [->| ->]; [tauto|].
          destruct IH1; tauto.
        + intros w [<-|[<-|Hw]]; try lia.
          * pose proof (IH2 _ (or_introl eq_refl)). lia.
          * pose proof (IH2 w (or_intror Hw)). lia. }
    split; [|now intros ->]. intros [H1 H2]. destruct K as [K1 K2].
    apply N.le_antisymm; [apply K2, H1|apply H2, K1].
Qed.

Lemma range_eqb_spec a b : range_eqb a b = true <-> a = b.
Proof.
  unfold range_eqb. rewrite andb_true_iff, !N.eqb_eq. destruct a, b; simpl.
  split; [intros [-> ->]; reflexivity|inversion 1; auto].
Qed.

Definition ranges_of (e : option sextrinsic) : option comp_ranges :=
  option_map (fun e : sextrinsic => match eranges e with Some r => r | None => [] end) e.

Lemma ranges_of_annotation e c : annotation e c = annotated (ranges_of e) c.
Proof. destruct e as [[n p t [r|]]|]; reflexivity. Qed.

Lemma instance_spec_gen c ra rb st p e :
  (exact st = false \/ unambiguous (annotated ra c ++ annotated rb c) ->
     instance_component c ra rb st p e = Ok (instv (side_of st) (annotated ra c ++ annotated rb c))) /\
  (exact st = true -> ~ unambiguous (annotated ra c ++ annotated rb c) ->
     exists msg, instance_component c ra rb st p e = Err msg).
Proof.
  unfold instance_component, annotated.
  set (ga := match ra with Some r => ranges_get r c | None => None end).
  set (gb := match rb with Some r => ranges_get r c | None => None end).
  replace (match ra with Some r => match ranges_get r c with Some x => [x] | None => [] end | None => [] end)
    with (match ga with Some x => [x] | None => [] end) by (unfold ga; destruct ra; auto).
  replace (match rb with Some r => match ranges_get r c with Some x => [x] | None => [] end | None => [] end)
    with (match gb with Some x => [x] | None => [] end) by (unfold gb; destruct rb; auto).
  destruct ga as [r|], gb as [r'|]; simpl;
    destruct st as [ex w]; unfold side_of; simpl.
  - destruct (range_eqb r r') eqn:E.
    + apply range_eqb_spec in E. subst r'. split.
      * intros _. destruct w; simpl; f_equal; lia.
      * intros -> H. exfalso. apply H. split; [discriminate|].
        intros x y [<-|[<-|[]]] [<-|[<-|[]]]; auto.
    + split.
      * intros [->|[_ U]].
        -- destruct w; simpl; f_equal; lia.
        -- exfalso. specialize (U r r'). simpl in U.
           rewrite (proj2 (range_eqb_spec r r')) in E by auto. discriminate.
      * intros -> _. destruct w; eauto.
  - split.
    + intros _. destruct w; reflexivity.
    + intros _ H. exfalso. apply H. split; [discriminate|]. intros x y [<-|[]] [<-|[]]; auto.
  - split.
    + intros _. destruct w; reflexivity.
    + intros _ H. exfalso. apply H. split; [discriminate|]. intros x y [<-|[]] [<-|[]]; auto.
  - split.
    + intros [->|[U _]]; [|congruence]. destruct w; reflexivity.
    + intros -> _. destruct w; eauto.
Qed.

Lemma instance_spec c a b st p e :
  (exact st = false \/ unambiguous (annotations a b c) ->
     instance_component c (ranges_of a) (ranges_of b) st p e = Ok (instv (side_of st) (annotations a b c))) /\
  (exact st = true -> ~ unambiguous (annotations a b c) ->
     exists msg, instance_component c (ranges_of a) (ranges_of b) st p e = Err msg).
Proof. unfold annotations. rewrite !ranges_of_annotation. apply instance_spec_gen. Qed.

Lemma unambiguous_dec l : unambiguous l \/ ~ unambiguous l.
Proof.
  destruct l as [|r l]; [right; intros [H _]; congruence|].
  destruct (forallb (range_eqb r) l) eqn:E.
  - left. split; [discriminate|]. rewrite forallb_forall in E.
    assert (K : forall x, In x (r :: l) -> r = x).
    { intros x [<-|Hx]; auto. now apply range_eqb_spec, E. }
    intros x y Hx Hy. now rewrite <- (K x Hx), <- (K y Hy).
  - right. intros [_ H]. assert (forallb (range_eqb r) l = true); [|congruence].
    apply forallb_forall. intros x Hx. apply range_eqb_spec. apply H; simpl; auto.
Qed.

Lemma method_sides m :
  side_of (method_min m) = low_side m /\ side_of (method_max m) = high_side m /\
  exact (method_min m) = exact (method_max m) /\ (exact (method_min m) = true <-> is_exact m).
Proof.
  unfold is_exact. destruct m; simpl; unfold side_of; simpl; repeat split; intros; auto; try discriminate;
    destruct H; discriminate.
Qed.

(** ** Corners *)
Definition put_all (l : list (string * N)) (sc : sscope) : sscope :=
  fold_left (fun s p => put_var s (fst p) (Scalar (snd p))) l sc.

Lemma put_all_wf l sc : scope_wf sc -> scope_wf (put_all l sc).
Proof.
  unfold put_all. revert sc. induction l as [|p l IH]; simpl; intros sc H; auto.
  apply IH. now apply minsert_wf; [apply str_cmp_strict|].
Qed.

Lemma put_all_out l sc x : ~ In x (map fst l) -> scope_get (put_all l sc) x = scope_get sc x.
Proof.
  unfold put_all. revert sc. induction l as [|[y v] l IH]; simpl; intros sc H; auto.
  rewrite IH by tauto. apply get_put_ne. intuition congruence.
Qed.

Lemma put_all_in l sc x v : NoDup (map fst l) -> In (x, v) l -> scope_get (put_all l sc) x = Some (Scalar v).
Proof.
  unfold put_all. revert sc. induction l as [|[y w] l IH]; simpl; intros sc Hn Hi; [tauto|].
  inversion Hn as [|? ? Hy Hn']; subst. destruct Hi as [E|Hi]; [|now apply IH].
  inversion E; subst. change (scope_get (put_all l (put_var sc x (Scalar v))) x = Some (Scalar v)).
  rewrite put_all_out by auto. apply get_put_eq.
Qed.

Lemma minsert_nonempty {K V} (cmp : K -> K -> comparison) k (v : V) m : minsert cmp k v m <> [].
Proof. destruct m as [|[k' v'] m]; simpl; [discriminate|]. destruct (cmp k k'); discriminate. Qed.

Lemma put_all_nonempty l sc : sc <> [] -> put_all l sc <> [].
Proof.
  unfold put_all. revert sc. induction l as [|p l IH]; simpl; intros sc H; auto.
  apply IH. apply minsert_nonempty.
Qed.

Lemma land_bit i c : N.eqb (N.land i (N.shiftl 1 c)) 0 = negb (N.testbit i c).
Proof.
  rewrite N.shiftl_1_l. destruct (N.testbit i c) eqn:E; simpl.
  - apply N.eqb_neq. intros H. assert (F : N.testbit (N.land i (2 ^ c)) c = false) by (rewrite H; apply N.bits_0).
    rewrite N.land_spec, E, N.pow2_bits_true in F. discriminate.
  - apply N.eqb_eq. apply N.bits_inj_0. intros j. rewrite N.land_spec.
    destruct (N.eq_dec j c) as [->|Hj]; [now rewrite E|].
    rewrite N.pow2_bits_false by congruence. apply andb_false_r.
Qed.

(** The choices made by corner [i], and by a list of bits. *)
Fixpoint choose (bits : list bool) (frees : list string) (bounds : list (N * N)) : list (string * N) :=
  match bits, frees, bounds with
  | b :: bits', x :: frees', (lo, hi) :: bounds' =>
      (x, if b then hi else lo) :: choose bits' frees' bounds'
  | _, _, _ => []
  end.
Definition bits_of (i c : N) (n : nat) : list bool := map (fun j => N.testbit i (c + N.of_nat j)) (seq 0 n).

Lemma bits_of_S i c n : bits_of i c (S n) = N.testbit i c :: bits_of i (c + 1) n.
Proof.
  unfold bits_of. simpl. f_equal; [f_equal; lia|]. rewrite <- seq_shift, map_map.
  apply List.map_ext. intros j. f_equal. lia.
Qed.

Lemma put_corner_choose i c frees bounds sc : List.length bounds = List.length frees ->
  put_corner i c frees (map fst bounds) (map snd bounds) sc =
  put_all (choose (bits_of i c (List.length frees)) frees bounds) sc.
Proof.
  revert c bounds sc. induction frees as [|x frees IH]; intros c [|[lo hi] bounds] sc E; try discriminate; auto.
  simpl List.length. rewrite bits_of_S. cbn [put_corner map fst snd choose].
  rewrite land_bit, IH by (simpl in E; lia). unfold put_all. cbn [fold_left fst snd].
  destruct (N.testbit i c); reflexivity.
Qed.

Fixpoint N_of_bits (l : list bool) : N :=
  match l with [] => 0 | b :: l => 2 * N_of_bits l + N.b2n b end%N.

Lemma N_of_bits_bound l : (N_of_bits l < 2 ^ N.of_nat (List.length l))%N.
Proof.
  induction l as [|b l IH]; cbn [List.length N_of_bits]; [reflexivity|].
  rewrite Nat2N.inj_succ, N.pow_succ_r'. destruct b; cbn [N.b2n]; lia.
Qed.

Lemma bits_of_N_of_bits l : bits_of (N_of_bits l) 0 (List.length l) = l.
Proof.
  assert (H : forall l c k, (forall j, N.testbit k (c + j) = N.testbit (N_of_bits l) j) ->
    bits_of k c (List.length l) = l).
  { clear l. induction l as [|b l IH]; intros c k H; auto. cbn [List.length]. rewrite bits_of_S. f_equal.
    - rewrite <- (N.add_0_r c), H. cbn [N_of_bits]. apply N.testbit_0_r.
    - apply IH. intros j. replace (c + 1 + j)%N with (c + N.succ j)%N by lia. rewrite H.
      cbn [N_of_bits]. apply N.testbit_succ_r. }
  apply H. intros j. reflexivity.
Qed.

Lemma corner_ids_in n i : In i (corner_ids n) <-> (i < 2 ^ N.of_nat n)%N.
Proof.
  unfold corner_ids. rewrite in_map_iff.
  assert (P : N.of_nat (2 ^ n) = (2 ^ N.of_nat n)%N).
  { induction n as [|n IH]; [reflexivity|]. rewrite Nat2N.inj_succ, N.pow_succ_r', <- IH, Nat.pow_succ_r'. lia. }
  rewrite <- P. split.
  - intros (k & <- & Hk). apply in_seq in Hk. lia.
  - intros H. exists (N.to_nat i). split; [lia|]. apply in_seq. lia.
Qed.

Lemma choose_fst bits frees bounds : List.length bits = List.length frees -> List.length bounds = List.length frees ->
  map fst (choose bits frees bounds) = frees.
Proof.
  revert bits bounds. induction frees as [|x frees IH]; intros [|b bits] [|[lo hi] bounds] E1 E2; try discriminate; auto.
  simpl. f_equal. apply IH; simpl in *; lia.
Qed.

Lemma choose_in f bits frees x v : List.length bits = List.length frees ->
  In (x, v) (choose bits frees (map f frees)) -> In x frees /\ (v = fst (f x) \/ v = snd (f x)).
Proof.
  revert bits. induction frees as [|y frees IH]; intros [|b bits] E H; simpl in *; try tauto.
  destruct (f y) as [lo hi] eqn:Ef. destruct H as [H|H].
  - inversion H; subst. rewrite Ef. simpl. destruct b; auto.
  - apply IH in H; [|lia]. tauto.
Qed.

Lemma choose_onto (f : string -> N * N) (g : string -> N) frees :
  (forall x, In x frees -> g x = fst (f x) \/ g x = snd (f x)) ->
  exists bits, List.length bits = List.length frees /\
    choose bits frees (map f frees) = map (fun x => (x, g x)) frees.
Proof.
  induction frees as [|x frees IH]; intros H.
  - exists []. auto.
  - destruct IH as (bits & E & C); [intros y Hy; apply H; now right|].
    destruct (H x (or_introl eq_refl)) as [G|G].
    + exists (false :: bits). simpl. destruct (f x) as [lo hi]. simpl in G. rewrite E, C, G. auto.
    + exists (true :: bits). simpl. destruct (f x) as [lo hi]. simpl in G. rewrite E, C, G. auto.
Qed.

(** The set of scopes that is collected. *)
Definition corner_list (frees : list string) (f : string -> N * N) (sc : sscope) : list sscope :=
  fold_left (fun scopes i =>
    let c := put_corner i 0 frees (map fst (map f frees)) (map snd (map f frees)) sc in
    if scope_is_empty c then scopes else sinsert sscope_cmp c scopes)
    (corner_ids (List.length frees)) [].

Lemma fold_insert_filter ids (g : N -> sscope) acc :
  fold_left (fun scopes i => if scope_is_empty (g i) then scopes else sinsert sscope_cmp (g i) scopes) ids acc =
  fold_left (fun s x => sinsert sscope_cmp x s) (filter (fun s => negb (scope_is_empty s)) (map g ids)) acc.
Proof.
  revert acc. induction ids as [|i ids IH]; intros acc; simpl; auto.
  destruct (scope_is_empty (g i)); simpl; apply IH.
Qed.

Lemma corner_list_sorted frees f sc : sorted_set sscope_cmp (corner_list frees f sc).
Proof.
  unfold corner_list. rewrite fold_insert_filter. apply (sof_list_sorted _ sscope_cmp_strict).
Qed.

Lemma is_empty_spec {T} (s : scope T) : scope_is_empty s = true <-> s = [].
Proof. destruct s; simpl; split; congruence. Qed.

Lemma corner_list_in frees f sc s : NoDup frees -> scope_wf sc ->
  (In s (corner_list frees f sc) <->
   s <> [] /\ scope_wf s /\
   (forall x, In x frees -> exists v, scope_get s x = Some (Scalar v) /\ (v = fst (f x) \/ v = snd (f x))) /\
   (forall x, ~ In x frees -> scope_get s x = scope_get sc x)).
Proof.
  intros Hn Hw. unfold corner_list. rewrite fold_insert_filter, (fold_sinsert_in _ sscope_cmp_strict).
  rewrite filter_In, in_map_iff. split.
  - intros [[(i & <- & Hi) He]|[]].
    rewrite put_corner_choose in * by now rewrite map_length.
    set (bits := bits_of i 0 (List.length frees)) in *.
    assert (Hl : List.length bits = List.length frees) by (unfold bits, bits_of; now rewrite map_length, seq_length).
    assert (Hf : map fst (choose bits frees (map f frees)) = frees) by (apply choose_fst; auto; now rewrite map_length).
    split; [|split; [|split]].
    + intros E. rewrite E in He. discriminate.
    + now apply put_all_wf.
    + intros x Hx. assert (Hx' := Hx). rewrite <- Hf in Hx'. apply in_map_iff in Hx' as ([y v] & <- & Hv).
      exists v. simpl in *. split; [apply put_all_in; auto; now rewrite Hf|].
      now apply choose_in in Hv.
    + intros x Hx. apply put_all_out. now rewrite Hf.
  - intros (He & Hs & H1 & H2). left. split.
    + set (g := fun x => match scope_get s x with Some (Scalar v) => v | _ => 0%N end).
      destruct (choose_onto f g frees) as (bits & Hl & C).
      { intros x Hx. destruct (H1 x Hx) as (v & E & O). unfold g. now rewrite E. }
      exists (N_of_bits bits). split.
      * rewrite put_corner_choose by now rewrite map_length.
        rewrite <- Hl, bits_of_N_of_bits, C.
        apply (map_ext _ str_cmp_strict); auto; [now apply put_all_wf|].
        intros k. change (scope_get (put_all (map (fun x => (x, g x)) frees) sc) k = scope_get s k).
        destruct (in_dec string_dec k frees) as [Hk|Hk].
        -- rewrite (put_all_in _ sc k (g k)).
           ++ destruct (H1 k Hk) as (v & E & _). unfold g. now rewrite E.
           ++ now rewrite map_map, map_id.
           ++ apply in_map_iff. eauto.
        -- rewrite put_all_out, H2; auto. now rewrite map_map, map_id.
      * apply corner_ids_in. rewrite <- Hl. apply N_of_bits_bound.
    + apply negb_true_iff. destruct (scope_is_empty s) eqn:E; auto. now apply is_empty_spec in E.
Qed.

Lemma fold_sinsert_length {A} (cmp : A -> A -> comparison) l s :
  List.length (fold_left (fun s x => sinsert cmp x s) l s) <= List.length s + List.length l.
Proof.
  assert (K : forall x s, List.length (sinsert cmp x s) <= S (List.length s)).
  { intros x s'. induction s' as [|y s' IH]; simpl; auto. destruct (cmp x y); simpl; lia. }
  revert s. induction l as [|x l IH]; intros s; simpl; [lia|].
  eapply Nat.le_trans; [apply IH|]. specialize (K x s). lia.
Qed.

Lemma filter_length {A} (p : A -> bool) l : List.length (filter p l) <= List.length l.
Proof. induction l as [|x l IH]; simpl; auto. destruct (p x); simpl; lia. Qed.

Lemma corner_list_length frees f sc : List.length (corner_list frees f sc) <= 2 ^ List.length frees.
Proof.
  unfold corner_list. rewrite fold_insert_filter. eapply Nat.le_trans; [apply fold_sinsert_length|].
  simpl. eapply Nat.le_trans; [apply filter_length|]. rewrite map_length.
  unfold corner_ids. now rewrite map_length, seq_length.
Qed.

(** ** [extend_scoped_components] *)
Lemma mapM_ok {A B} (f : A -> outcome B) (g : A -> B) l :
  (forall x, In x l -> f x = Ok (g x)) -> mapM f l = Ok (map g l).
Proof.
  induction l as [|x l IH]; simpl; intros H; auto.
  rewrite (H x (or_introl eq_refl)). simpl. rewrite IH; [reflexivity|]. intros y Hy. apply H. now right.
Qed.

Lemma mapM_err {A B} (f : A -> outcome B) l :
  (forall x, In x l -> is_ok (f x) = true \/ is_err (f x) = true) ->
  (exists x, In x l /\ is_err (f x) = true) -> is_err (mapM f l) = true.
Proof.
  induction l as [|x l IH]; simpl; intros H (y & Hy & E); [tauto|].
  destruct (f x) as [v|e|e|] eqn:F; simpl; auto.
  - destruct Hy as [->|Hy]; [rewrite F in E; discriminate|].
    assert (K : is_err (mapM f l) = true) by (apply IH; eauto).
    destruct (mapM f l); simpl in *; auto; discriminate.
  - destruct (H x (or_introl eq_refl)) as [K|K]; rewrite F in K; discriminate.
  - destruct (H x (or_introl eq_refl)) as [K|K]; rewrite F in K; discriminate.
Qed.

Definition frees_of (a b : option sextrinsic) (sc : sscope) : list string :=
  set_union (match a with Some e => free_vars sc (eterm e) | None => [] end)
            (match b with Some e => free_vars sc (eterm e) | None => [] end).

Lemma frees_of_component a b sc c : In c (frees_of a b sc) <-> component (bound_in sc) a b c.
Proof.
  unfold frees_of, component. rewrite set_union_in. split.
  - intros [H|H].
    + destruct a as [e|]; [|destruct H]. apply free_vars_in in H as [H1 H2]. eauto 6.
    + destruct b as [e|]; [|destruct H]. apply free_vars_in in H as [H1 H2]. eauto 6.
  - intros [(e & [->| ->] & H1) H2].
    + left. now apply free_vars_in.
    + right. now apply free_vars_in.
Qed.

Lemma frees_of_nodup a b sc : NoDup (frees_of a b sc).
Proof.
  apply (sorted_set_nodup _ str_cmp_strict). unfold frees_of, set_union.
  apply sof_list_sorted, str_cmp_strict.
Qed.

Lemma order_frees ord a b sc : is_order ord ->
  NoDup (ord (frees_of a b sc)) /\ (forall c, In c (ord (frees_of a b sc)) <-> component (bound_in sc) a b c).
Proof.
  intros H. split.
  - eapply Permutation_NoDup; [apply Permutation_sym, H|apply frees_of_nodup].
  - intros c. rewrite <- frees_of_component. split; apply Permutation_in; [apply H|apply Permutation_sym, H].
Qed.

Definition bounds_of (a b : option sextrinsic) (m : method) (c : string) : N * N :=
  (instv (low_side m) (annotations a b c), instv (high_side m) (annotations a b c)).

Lemma component_count_frees ord a b sc n : is_order ord ->
  (component_count (bound_in sc) a b n <-> List.length (ord (frees_of a b sc)) = n).
Proof.
  intros H. destruct (order_frees ord a b sc H) as [Hn Hi]. split.
  - intros (l & Hl & Hc & <-). apply Permutation_length. apply NoDup_Permutation; auto.
    intros c. now rewrite Hi, Hc.
  - intros <-. exists (ord (frees_of a b sc)). auto.
Qed.

Lemma extend_unfold ord a b m sc :
  extend_scoped_components ord a b m sc =
  match (match a with Some e => Some e | None => b end) with
  | None => Panic "called `Option::unwrap()` on a `None` value"
  | Some e =>
      if Nat.ltb 16 (List.length (ord (frees_of a b sc))) then
        Err ("Too many components to compare: " ++ epallet e ++ "::" ++ ename e ++ " has "
             ++ dec_of_N (N.of_nat (List.length (ord (frees_of a b sc)))) ++ " components - limit is 16")
      else
        let* bounds := mapM (fun free =>
          let* lo := instance_component free (ranges_of a) (ranges_of b) (method_min m) (epallet e) (ename e) in
          let* hi := instance_component free (ranges_of a) (ranges_of b) (method_max m) (epallet e) (ename e) in
          Ok (lo, hi)) (ord (frees_of a b sc)) in
        Ok (fold_left (fun scopes i =>
              let c := put_corner i 0 (ord (frees_of a b sc)) (map fst bounds) (map snd bounds) sc in
              if scope_is_empty c then scopes else sinsert sscope_cmp c scopes)
            (corner_ids (List.length (ord (frees_of a b sc)))) [])
  end.
Proof. reflexivity. Qed.

Lemma extend_spec ord a b m sc : is_order ord -> a <> None \/ b <> None ->
  let frees := ord (frees_of a b sc) in
  if (Nat.ltb 16 (List.length frees)) then is_err (extend_scoped_components ord a b m sc) = true
  else
    ((is_exact m -> forall c, component (bound_in sc) a b c -> unambiguous (annotations a b c)) ->
       extend_scoped_components ord a b m sc = Ok (corner_list frees (bounds_of a b m) sc)) /\
    (is_exact m -> (exists c, component (bound_in sc) a b c /\ ~ unambiguous (annotations a b c)) ->
       is_err (extend_scoped_components ord a b m sc) = true).
Proof.
  intros Ho Hp frees. subst frees. destruct (order_frees ord a b sc Ho) as [Hn Hi].
  rewrite extend_unfold. set (frees := ord (frees_of a b sc)) in *.
  assert (E : exists e, (match a with Some e => Some e | None => b end) = Some e).
  { destruct a as [e|]; eauto. destruct b as [e|]; eauto. destruct Hp; congruence. }
  destruct E as [e ->].
  destruct (Nat.ltb 16 (List.length frees)) eqn:L; [reflexivity|].
  destruct (method_sides m) as (S1 & S2 & S3 & S4). split.
  - intros U. rewrite (mapM_ok _ (bounds_of a b m)); [reflexivity|].
    intros c Hc. apply Hi in Hc.
    assert (K : exact (method_min m) = false \/ unambiguous (annotations a b c)).
    { destruct (exact (method_min m)) eqn:X; auto. right. apply U; tauto. }
    destruct (instance_spec c a b (method_min m) (epallet e) (ename e)) as [-> _]; auto.
    destruct (instance_spec c a b (method_max m) (epallet e) (ename e)) as [-> _]; [|now rewrite <- S3].
    simpl. unfold bounds_of. now rewrite S1, S2.
  - intros X (c & Hc & Hu).
    assert (K : is_err (mapM (fun free =>
          let* lo := instance_component free (ranges_of a) (ranges_of b) (method_min m) (epallet e) (ename e) in
          let* hi := instance_component free (ranges_of a) (ranges_of b) (method_max m) (epallet e) (ename e) in
          Ok (lo, hi)) frees) = true).
    { apply S4 in X. apply mapM_err.
      - intros x _. destruct (unambiguous_dec (annotations a b x)) as [Y|Y].
        + destruct (instance_spec x a b (method_min m) (epallet e) (ename e)) as [-> _]; auto.
          destruct (instance_spec x a b (method_max m) (epallet e) (ename e)) as [-> _]; auto.
        + destruct (instance_spec x a b (method_min m) (epallet e) (ename e)) as [_ Z].
          destruct (Z X Y) as [msg ->]. auto.
      - exists c. split; [now apply Hi|].
        destruct (instance_spec c a b (method_min m) (epallet e) (ename e)) as [_ Z].
        destruct (Z X Hu) as [msg ->]. auto. }
    destruct (mapM _ frees); simpl in *; auto; discriminate.
Qed.
