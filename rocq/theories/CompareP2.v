(** Proofs about [extend_scoped_components] (statements) and [compare_extrinsics]. *)
From Coq Require Import List String NArith ZArith Lia Bool Permutation Sorting.Sorted Arith.
From Verif Require Import Base ScopeM TermM SpecTerm TermP ScopeP F64 CompareM SpecCompare CompareP.
Import ListNotations.
Local Open Scope list_scope.

Lemma instance_swap c ra rb st p e : instance_component c ra rb st p e = instance_component c rb ra st p e.
Proof.
  unfold instance_component.
  destruct (match ra with Some r => ranges_get r c | None => None end) as [r|],
    (match rb with Some r => ranges_get r c | None => None end) as [r'|]; auto.
  assert (S : range_eqb r r' = range_eqb r' r) by (unfold range_eqb; now rewrite (N.eqb_sym (rmin r)), (N.eqb_sym (rmax r))).
  rewrite <- S. destruct (range_eqb r r') eqn:E.
  - apply range_eqb_spec in E. now subst.
  - rewrite (N.min_comm (rmin r)), (N.max_comm (rmax r)). reflexivity.
Qed.

Lemma instance_lemma : forall c ra rb st p e,
  let A := annotated ra c ++ annotated rb c in
  let s := match which st with MMin => Low | MMax => High end in
  (forall v, instance_component c ra rb st p e = Ok v <->
     (exact st = true -> unambiguous A) /\ inst s A v) /\
  (is_err (instance_component c ra rb st p e) = true <-> exact st = true /\ ~ unambiguous A) /\
  returns (instance_component c ra rb st p e) /\
  instance_component c ra rb st p e = instance_component c rb ra st p e.
Proof.
  intros c ra rb st p e A s.
  destruct (instance_spec_gen c ra rb st p e) as [H1 H2]. fold A in H1, H2.
  change s with (side_of st) in *. clear s.
  split; [|split; [|split; [|apply instance_swap]]].
  - intros v. rewrite inst_instv. destruct (unambiguous_dec A) as [U|U].
    + rewrite H1 by auto. split; [inversion 1; auto|]. now intros [_ ->].
    + destruct (exact st) eqn:X.
      * destruct (H2 eq_refl U) as [msg ->]. split; [discriminate|]. intros [K _]. exfalso. apply U, K, eq_refl.
      * rewrite H1 by auto. split; [inversion 1; split; auto; discriminate|]. now intros [_ ->].
  - destruct (unambiguous_dec A) as [U|U].
    + rewrite H1 by auto. simpl. split; [discriminate|tauto].
    + destruct (exact st) eqn:X.
      * destruct (H2 eq_refl U) as [msg ->]. simpl. tauto.
      * rewrite H1 by auto. simpl. split; [discriminate|]. intros [? _]; discriminate.
  - destruct (unambiguous_dec A) as [U|U].
    + rewrite H1 by auto. exact I.
    + destruct (exact st) eqn:X.
      * destruct (H2 eq_refl U) as [msg ->]. exact I.
      * rewrite H1 by auto. exact I.
Qed.

(** ** Error cases *)
Lemma present_dec (a b : option sextrinsic) : (a <> None \/ b <> None) \/ (a = None /\ b = None).
Proof. destruct a; [left; left; discriminate|]. destruct b; [left; right; discriminate|auto]. Qed.

Lemma exact_dec m : is_exact m \/ ~ is_exact m.
Proof. unfold is_exact. destruct m; intuition congruence. Qed.

Lemma find_ambiguous ord a b (sc : sscope) : is_order ord ->
  (forall c, component (bound_in sc) a b c -> unambiguous (annotations a b c)) \/
  (exists c, component (bound_in sc) a b c /\ ~ unambiguous (annotations a b c)).
Proof.
  intros H. destruct (order_frees ord a b sc H) as [_ Hi].
  assert (K : forall l, (forall c, In c l -> unambiguous (annotations a b c)) \/
    exists c, In c l /\ ~ unambiguous (annotations a b c)).
  { induction l as [|x l [IH|(c & Hc & U)]]; [left; intros ? []| |right; exists c; simpl; auto].
    destruct (unambiguous_dec (annotations a b x)) as [U|U].
    - left. intros c [<-|Hc]; auto.
    - right. exists x. simpl; auto. }
  destruct (K (ord (frees_of a b sc))) as [K'|(c & Hc & U)].
  - left. intros c Hc. now apply K', Hi.
  - right. exists c. split; auto. now apply Hi.
Qed.

(** Everything there is to know about the outcome. *)
Lemma extend_cases ord a b m sc : is_order ord -> a <> None \/ b <> None ->
  (exists l, extend_scoped_components ord a b m sc = Ok l /\
     l = corner_list (ord (frees_of a b sc)) (bounds_of a b m) sc /\
     List.length (ord (frees_of a b sc)) <= 16 /\
     (is_exact m -> forall c, component (bound_in sc) a b c -> unambiguous (annotations a b c))) \/
  (is_err (extend_scoped_components ord a b m sc) = true /\
     (16 < List.length (ord (frees_of a b sc)) \/
      (is_exact m /\ exists c, component (bound_in sc) a b c /\ ~ unambiguous (annotations a b c)))).
Proof.
  intros Ho Hp. pose proof (extend_spec ord a b m sc Ho Hp) as H. cbv zeta in H.
  destruct (Nat.ltb_spec 16 (List.length (ord (frees_of a b sc)))) as [L|L].
  - right. auto.
  - destruct H as [H1 H2]. destruct (exact_dec m) as [X|X].
    + destruct (find_ambiguous ord a b sc Ho) as [U|U].
      * left. eexists. split; [apply H1; auto|]. auto.
      * right. split; [now apply H2|]. auto.
    + left. eexists. split; [apply H1; tauto|]. repeat split; auto. tauto.
Qed.

Lemma extend_err_lemma : forall ord a b m sc, is_order ord -> a <> None \/ b <> None ->
  returns (extend_scoped_components ord a b m sc) /\
  (is_err (extend_scoped_components ord a b m sc) = true <->
     (exists n, component_count (bound_in sc) a b n /\ 16 < n) \/
     (is_exact m /\ exists c, component (bound_in sc) a b c /\ ~ unambiguous (annotations a b c))).
Proof.
  intros ord a b m sc Ho Hp.
  destruct (extend_cases ord a b m sc Ho Hp) as [(l & E & _ & L & U)|[E C]].
  - rewrite E. simpl. split; [exact I|]. split; [discriminate|]. intros [(n & Hc & Hn)|(X & c & Hc & Hu)].
    + apply (component_count_frees ord) in Hc; auto. lia.
    + exfalso. apply Hu, U; auto.
  - split; [destruct (extend_scoped_components ord a b m sc); simpl in *; auto; discriminate|].
    rewrite E. split; auto. intros _. destruct C as [L|C]; auto. left.
    exists (List.length (ord (frees_of a b sc))). split; auto. now apply (component_count_frees ord).
Qed.

Lemma corner_list_ext frees frees' f f' sc : NoDup frees -> NoDup frees' -> scope_wf sc ->
  (forall c, In c frees <-> In c frees') -> (forall c, In c frees -> f c = f' c) ->
  corner_list frees f sc = corner_list frees' f' sc.
Proof.
  intros N1 N2 W E F. apply (sorted_set_ext _ sscope_cmp_strict); try apply corner_list_sorted.
  intros s. rewrite !corner_list_in by auto. split; intros (A & B & C & D); repeat split; auto.
  - intros x Hx. apply E in Hx. destruct (C x Hx) as (v & G & O). exists v. now rewrite <- (F x Hx).
  - intros x Hx. apply D. now rewrite E.
  - intros x Hx. assert (Hx' := Hx). apply E in Hx. destruct (C x Hx) as (v & G & O). exists v. now rewrite (F x Hx').
  - intros x Hx. apply D. now rewrite <- E.
Qed.

Lemma guessing_sides m : low_side (guessing m) = low_side m /\ high_side (guessing m) = high_side m /\
  ~ is_exact (guessing m).
Proof. unfold is_exact. destruct m; simpl; intuition congruence. Qed.

Lemma extend_agree_gen ord ord' a b m m' sc l :
  is_order ord -> is_order ord' -> scope_wf sc ->
  (is_exact m' -> is_exact m) -> low_side m' = low_side m -> high_side m' = high_side m ->
  extend_scoped_components ord a b m sc = Ok l -> extend_scoped_components ord' a b m' sc = Ok l.
Proof.
  intros Ho Ho' Hw X Sl Sh E.
  destruct (present_dec a b) as [Hp|[-> ->]]; [|rewrite extend_unfold in E; discriminate].
  destruct (order_frees ord a b sc Ho) as [N1 I1]. destruct (order_frees ord' a b sc Ho') as [N2 I2].
  assert (Le : List.length (ord' (frees_of a b sc)) = List.length (ord (frees_of a b sc))).
  { rewrite (Permutation_length (Ho _)). apply Permutation_length, Ho'. }
  destruct (extend_cases ord a b m sc Ho Hp) as [(l' & E' & -> & L & U)|[E' _]]; rewrite E in E'; [|discriminate].
  inversion E'; subst l. clear E'.
  destruct (extend_cases ord' a b m' sc Ho' Hp) as [(l' & -> & -> & _ & _)|[_ C]].
  - f_equal. apply corner_list_ext; auto.
    + intros c. now rewrite I1, I2.
    + intros c _. unfold bounds_of. now rewrite Sl, Sh.
  - exfalso. destruct C as [C|(Y & c & Hc & Hu)]; [lia|]. apply Hu, U; auto.
Qed.

Lemma extend_agree_lemma : forall ord ord' a b m sc l,
  is_order ord -> is_order ord' -> scope_wf sc ->
  extend_scoped_components ord a b m sc = Ok l ->
  extend_scoped_components ord' a b (guessing m) sc = Ok l.
Proof.
  intros ord ord' a b m sc l Ho Ho' Hw. destruct (guessing_sides m) as (A & B & C).
  apply extend_agree_gen; auto. tauto.
Qed.

Lemma extend_order_lemma : forall ord ord' a b m sc,
  is_order ord -> is_order ord' -> scope_wf sc ->
  (forall l, extend_scoped_components ord a b m sc = Ok l -> extend_scoped_components ord' a b m sc = Ok l) /\
  (is_err (extend_scoped_components ord a b m sc) = true ->
   is_err (extend_scoped_components ord' a b m sc) = true).
Proof.
  intros ord ord' a b m sc Ho Ho' Hw. split.
  - intros l. apply extend_agree_gen; auto.
  - intros E. destruct (present_dec a b) as [Hp|[-> ->]]; [|rewrite extend_unfold in E; discriminate].
    destruct (extend_cases ord' a b m sc Ho' Hp) as [(l' & E' & _)|[E' _]]; auto.
    apply (extend_agree_gen ord' ord a b m m sc l') in E'; auto. rewrite E' in E. discriminate.
Qed.

Lemma is_corner_in ord a b m sc s : is_order ord -> scope_wf sc ->
  (In s (corner_list (ord (frees_of a b sc)) (bounds_of a b m) sc) <-> s <> [] /\ is_corner sc a b m s).
Proof.
  intros Ho Hw. destruct (order_frees ord a b sc Ho) as [Hn Hi].
  rewrite corner_list_in by auto. unfold is_corner, bounds_of. simpl.
  split.
  - intros (A & B & C & D). repeat split; auto.
    + intros c Hc. apply Hi in Hc. destruct (C c Hc) as (v & G & O). exists v. split; auto.
      now rewrite !inst_instv.
    + intros x Hx. apply D. now rewrite Hi.
  - intros (A & B & C & D). repeat split; auto.
    + intros c Hc. apply Hi in Hc. destruct (C c Hc) as (v & G & O). exists v. split; auto.
      now rewrite !inst_instv in O.
    + intros x Hx. apply D. now rewrite <- Hi.
Qed.

Lemma get_nonempty {T} (base s : scope T) : base <> [] -> scope_wf base ->
  (forall x v, scope_get base x = Some v -> scope_get s x <> None) -> s <> [].
Proof.
  intros Hb Hw H ->. destruct base as [|[k v] base]; [congruence|].
  apply (H k v); [|reflexivity]. unfold scope_get. simpl. now rewrite (cmp_refl _ str_cmp_strict).
Qed.

Lemma corner_nonempty base a b m s : base <> [] -> scope_wf base -> is_corner base a b m s -> s <> [].
Proof.
  intros Hb Hw (_ & A & B). apply (get_nonempty base); auto. intros x v Hx.
  rewrite B; [congruence|]. intros [_ K]. apply K. unfold bound_in. congruence.
Qed.

Lemma corner_exists ord a b m sc : is_order ord -> scope_wf sc -> exists s, is_corner sc a b m s.
Proof.
  intros Ho Hw. destruct (order_frees ord a b sc Ho) as [Hn Hi].
  exists (put_all (map (fun x => (x, fst (bounds_of a b m x))) (ord (frees_of a b sc))) sc).
  split; [now apply put_all_wf|]. split.
  - intros c Hc. apply Hi in Hc. exists (fst (bounds_of a b m c)). split.
    + apply put_all_in.
      * now rewrite map_map, map_id.
      * apply in_map_iff. eauto.
    + left. now rewrite inst_instv.
  - intros x Hx. apply put_all_out. rewrite map_map, map_id. now rewrite Hi.
Qed.

Lemma extend_corners_lemma : forall ord a b m sc l,
  is_order ord -> scope_wf sc -> sc <> [] ->
  extend_scoped_components ord a b m sc = Ok l ->
  StronglySorted (fun s s' => sscope_cmp s s' = Lt) l /\
  (forall s, In s l <-> is_corner sc a b m s) /\
  (forall n, component_count (bound_in sc) a b n -> 1 <= List.length l <= 2 ^ n).
Proof.
  intros ord a b m sc l Ho Hw Hne E.
  destruct (present_dec a b) as [Hp|[-> ->]]; [|rewrite extend_unfold in E; discriminate].
  destruct (extend_cases ord a b m sc Ho Hp) as [(l' & E' & -> & L & U)|[E' _]]; rewrite E in E'; [|discriminate].
  inversion E'; subst l. clear E'.
  assert (I : forall s, In s (corner_list (ord (frees_of a b sc)) (bounds_of a b m) sc) <-> is_corner sc a b m s).
  { intros s. rewrite is_corner_in by auto. split; [tauto|]. intros H. split; auto.
    eapply corner_nonempty; eauto. }
  split; [apply corner_list_sorted|]. split; [exact I|].
  intros n Hc. apply (component_count_frees ord) in Hc; auto. subst n. split; [|apply corner_list_length].
  destruct (corner_exists ord a b m sc Ho Hw) as [s Hs]. apply I in Hs.
  destruct (corner_list _ _ _); simpl in *; [tauto|lia].
Qed.
