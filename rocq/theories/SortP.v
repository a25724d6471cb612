(** The merge sort of the standard library, run with a comparison that ranks some
    elements (the failures) below everything, themselves included. *)
From Coq Require Import List ZArith Bool Lia Permutation Sorted.
From Verif Require Import RowsM.
Import ListNotations.
Local Open Scope Z_scope.

Section SortP.
  Context {A : Type} (rank : A -> option Z) (less : A -> A -> bool).
  Hypothesis less_spec : forall a b, less a b =
    match rank a, rank b with None, _ => true | _, None => false | Some x, Some y => x <? y end.

  Definition fails (a : A) : Prop := rank a = None.
  Definition le (a b : A) : Prop :=
    match rank a, rank b with Some x, Some y => x <= y | _, _ => False end.
  Definition has (k : Z) (a : A) : bool :=
    match rank a with Some x => x =? k | None => false end.
  (** Failures first, then ascending ranks. *)
  Definition good (s : list A) : Prop :=
    exists f o, s = f ++ o /\ Forall fails f /\ Forall (fun a => ~ fails a) o /\ StronglySorted le o.
  Definition stable (l s : list A) : Prop := forall k, filter (has k) s = filter (has k) l.

  Lemma le_trans a b c : le a b -> le b c -> le a c.
  Proof. unfold le. destruct (rank a), (rank b), (rank c); try tauto. lia. Qed.

  Lemma has_fails k f : Forall fails f -> filter (has k) f = [].
  Proof.
    induction 1 as [|x f H _ IH]; [reflexivity|]. simpl. unfold has at 1. unfold fails in H. rewrite H. exact IH.
  Qed.

  Lemma filter_cons (p : A -> bool) x l : filter p (x :: l) = if p x then x :: filter p l else filter p l.
  Proof. reflexivity. Qed.

  Lemma merge_lo_cons x l y r : merge_lo less (x :: l) (y :: r) =
    if less y x then y :: merge_lo less (x :: l) r else x :: merge_lo less l (y :: r).
  Proof. reflexivity. Qed.
  Lemma merge_lo_nil l : merge_lo less l [] = l.
  Proof. destruct l; reflexivity. Qed.
  Lemma merge_back_cons x l y r : merge_back less (x :: l) (y :: r) =
    if less y x then x :: merge_back less l (y :: r) else y :: merge_back less (x :: l) r.
  Proof. reflexivity. Qed.
  Lemma merge_back_nil l : merge_back less l [] = l.
  Proof. destruct l; reflexivity. Qed.

  (** *** Permutations *)
  Lemma merge_lo_perm l : forall r, Permutation (l ++ r) (merge_lo less l r).
  Proof.
    induction l as [|x l IHl]; [reflexivity|].
    induction r as [|y r IHr]; [rewrite app_nil_r; reflexivity|].
    rewrite merge_lo_cons. destruct (less y x).
    - rewrite <- IHr. simpl. rewrite <- Permutation_middle. apply perm_swap.
    - simpl. constructor. apply IHl.
  Qed.
  Lemma merge_back_perm l : forall r, Permutation (l ++ r) (merge_back less l r).
  Proof.
    induction l as [|x l IHl]; [reflexivity|].
    induction r as [|y r IHr]; [rewrite app_nil_r; reflexivity|].
    rewrite merge_back_cons. destruct (less y x).
    - simpl. constructor. apply IHl.
    - rewrite <- IHr. simpl. rewrite <- Permutation_middle. apply perm_swap.
  Qed.
  Lemma merge_hi_perm l r : Permutation (l ++ r) (merge_hi less l r).
  Proof.
    unfold merge_hi. rewrite <- Permutation_rev, <- merge_back_perm.
    apply Permutation_app; apply Permutation_rev.
  Qed.
  Lemma insert_back_perm x p : Permutation (x :: p) (insert_back less x p).
  Proof.
    induction p as [|y p IH]; [reflexivity|]. simpl. destruct (less x y); [|reflexivity].
    rewrite <- IH. apply perm_swap.
  Qed.
  Lemma insert_tail_perm p x : Permutation (p ++ [x]) (insert_tail less p x).
  Proof.
    unfold insert_tail. rewrite <- Permutation_rev, <- insert_back_perm, <- Permutation_cons_append.
    constructor. apply Permutation_rev.
  Qed.

  (** *** Failures and the others *)
  Lemma less_fail a b : fails a -> less a b = true.
  Proof. unfold fails. intros H. rewrite less_spec, H. reflexivity. Qed.
  Lemma less_nofail a b : ~ fails a -> fails b -> less a b = false.
  Proof. unfold fails. intros H K. rewrite less_spec, K. destruct (rank a); congruence. Qed.
  Lemma less_true a b : ~ fails a -> ~ fails b -> less a b = true <-> ~ le b a.
  Proof.
    unfold fails, le. intros H K. rewrite less_spec.
    destruct (rank a), (rank b); try congruence. rewrite Z.ltb_lt. lia.
  Qed.
  Lemma less_false a b : ~ fails a -> ~ fails b -> less a b = false <-> le b a.
  Proof.
    unfold fails, le. intros H K. rewrite less_spec.
    destruct (rank a), (rank b); try congruence. rewrite Z.ltb_ge. lia.
  Qed.
  Lemma le_total a b : ~ fails a -> ~ fails b -> le a b \/ le b a.
  Proof. unfold fails, le. destruct (rank a), (rank b); try congruence. lia. Qed.
  Lemma has_same k a b : has k a = true -> has k b = true -> le a b /\ le b a.
  Proof.
    unfold has, le. destruct (rank a), (rank b); try discriminate. rewrite !Z.eqb_eq. lia.
  Qed.

  Definition sortd (o : list A) : Prop := Forall (fun a => ~ fails a) o /\ StronglySorted le o.

  Lemma merge_lo_fails f1 f2 o1 o2 : Forall fails f1 -> Forall fails f2 ->
    Forall (fun a => ~ fails a) o1 -> Forall (fun a => ~ fails a) o2 ->
    merge_lo less (f1 ++ o1) (f2 ++ o2) = f2 ++ f1 ++ merge_lo less o1 o2.
  Proof.
    intros F1 F2 O1 O2. induction F2 as [|y f2 Hy F2 IH].
    - simpl. induction F1 as [|x f1 Hx F1 IH]; [reflexivity|].
      destruct o2 as [|y o2].
      + rewrite !merge_lo_nil. reflexivity.
      + simpl app. rewrite merge_lo_cons, less_nofail; auto. 2:{ inversion O2; auto. }
        simpl. f_equal. exact IH.
    - destruct (f1 ++ o1) as [|x l] eqn:E.
      + destruct f1; [|discriminate]. simpl in E. subst. reflexivity.
      + simpl app. rewrite merge_lo_cons, less_fail by assumption. f_equal. exact IH.
  Qed.

  Lemma merge_lo_sorted o1 : forall o2, sortd o1 -> sortd o2 ->
    sortd (merge_lo less o1 o2) /\ forall k, filter (has k) (merge_lo less o1 o2) = filter (has k) o1 ++ filter (has k) o2.
  Proof.
    unfold sortd. induction o1 as [|x o1 IH1]; [simpl; auto|].
    induction o2 as [|y o2 IH2]; intros [N1 S1] [N2 S2].
    - rewrite merge_lo_nil. split; [auto|]. intros k. rewrite app_nil_r. reflexivity.
    - rewrite merge_lo_cons. inversion N1 as [|? ? Nx N1']; inversion N2 as [|? ? Ny N2']; subst.
      inversion S1 as [|? ? S1' A1]; inversion S2 as [|? ? S2' A2]; subst.
      destruct (less y x) eqn:E.
      + apply less_true in E; auto. assert (Lyx : le y x) by (destruct (le_total x y); tauto).
        destruct (IH2 (conj N1 S1) (conj N2' S2')) as [[N S] F]. split; [split|].
        * constructor; auto.
        * constructor; auto. rewrite <- merge_lo_perm. apply Forall_app. split; auto.
          constructor; auto. eapply Forall_impl; [|exact A1]. intros; eapply le_trans; eauto.
        * intros k. rewrite !(filter_cons _ y), F. destruct (has k y) eqn:Hk; [|reflexivity].
          assert (Z0 : filter (has k) (x :: o1) = []).
          { destruct (filter (has k) (x :: o1)) as [|z zs] eqn:Q; [reflexivity|exfalso].
            assert (I : In z (filter (has k) (x :: o1))) by (rewrite Q; left; reflexivity).
            apply filter_In in I. destruct I as [[->|I] Hz].
            - destruct (has_same k y z Hk Hz); tauto.
            - rewrite Forall_forall in A1. specialize (A1 _ I). destruct (has_same k y z Hk Hz) as [_ Q2].
              apply E. eapply le_trans; eauto. }
          rewrite Z0. reflexivity.
      + apply less_false in E; auto.
        destruct (IH1 (y :: o2) (conj N1' S1') (conj N2 S2)) as [[N S] F]. split; [split|].
        * constructor; auto.
        * constructor; auto. rewrite <- merge_lo_perm. apply Forall_app. split; auto.
          constructor; auto. eapply Forall_impl; [|exact A2]. intros; eapply le_trans; eauto.
        * intros k. rewrite !(filter_cons _ x), F. destruct (has k x); reflexivity.
  Qed.

  (** Merging from the back gives the same. *)
  Definition revsorted (o : list A) : Prop := Forall (fun a => ~ fails a) o /\ StronglySorted (fun a b => le b a) o.

  Lemma sorted_snoc R (o : list A) x : StronglySorted R o -> Forall (fun a => R a x) o -> StronglySorted R (o ++ [x]).
  Proof.
    induction 1 as [|y o S IH H]; intros F; simpl; [repeat constructor|].
    inversion F; subst. constructor; auto. apply Forall_app. split; auto.
  Qed.
  Lemma sorted_rev R (o : list A) : StronglySorted R o -> StronglySorted (fun a b => R b a) (rev o).
  Proof.
    induction 1 as [|y o S IH H]; simpl; [constructor|]. apply sorted_snoc; auto.
    apply Forall_rev. exact H.
  Qed.
  Lemma sortd_rev o : sortd o -> revsorted (rev o).
  Proof. intros [N S]. split; [apply Forall_rev; auto|apply sorted_rev; auto]. Qed.
  Lemma filter_rev (p : A -> bool) l : filter p (rev l) = rev (filter p l).
  Proof.
    induction l as [|x l IH]; [reflexivity|]. simpl. rewrite filter_app, IH. simpl.
    destruct (p x); simpl; [reflexivity|apply app_nil_r].
  Qed.

  Lemma merge_back_sorted o1 : forall o2, revsorted o1 -> revsorted o2 ->
    revsorted (merge_back less o1 o2) /\ forall k, filter (has k) (merge_back less o1 o2) = filter (has k) o2 ++ filter (has k) o1.
  Proof.
    unfold revsorted. induction o1 as [|x o1 IH1].
    { simpl. intros o2 _ H. split; auto. intros. rewrite app_nil_r. reflexivity. }
    induction o2 as [|y o2 IH2]; intros [N1 S1] [N2 S2].
    - rewrite merge_back_nil. split; [auto|]. reflexivity.
    - rewrite merge_back_cons. inversion N1 as [|? ? Nx N1']; inversion N2 as [|? ? Ny N2']; subst.
      inversion S1 as [|? ? S1' A1]; inversion S2 as [|? ? S2' A2]; subst.
      destruct (less y x) eqn:E.
      + apply less_true in E; auto. assert (Lyx : le y x) by (destruct (le_total x y); tauto).
        destruct (IH1 (y :: o2) (conj N1' S1') (conj N2 S2)) as [[N S] F]. split; [split|].
        * constructor; auto.
        * constructor; auto. rewrite <- merge_back_perm. apply Forall_app. split; auto.
          constructor; auto. eapply Forall_impl; [|exact A2]. simpl. intros a Ha. eapply le_trans; [exact Ha|exact Lyx].
        * intros k. rewrite !(filter_cons _ x), F. destruct (has k x) eqn:Hk; [|reflexivity].
          assert (Z0 : filter (has k) (y :: o2) = []).
          { destruct (filter (has k) (y :: o2)) as [|z zs] eqn:Q; [reflexivity|exfalso].
            assert (I : In z (filter (has k) (y :: o2))) by (rewrite Q; left; reflexivity).
            apply filter_In in I. destruct I as [[->|I] Hz].
            - destruct (has_same k x z Hk Hz); tauto.
            - rewrite Forall_forall in A2. specialize (A2 _ I). destruct (has_same k x z Hk Hz) as [Q2 _].
              apply E. eapply le_trans; eauto. }
          rewrite Z0. reflexivity.
      + apply less_false in E; auto.
        destruct (IH2 (conj N1 S1) (conj N2' S2')) as [[N S] F]. split; [split|].
        * constructor; auto.
        * constructor; auto. rewrite <- merge_back_perm. apply Forall_app. split; auto.
          constructor; auto. eapply Forall_impl; [|exact A1]. simpl. intros a Ha. eapply le_trans; [exact Ha|exact E].
        * intros k. rewrite !(filter_cons _ y), F. destruct (has k y); reflexivity.
  Qed.

  Lemma merge_back_fails o1 o2 f1 f2 : Forall fails f1 -> Forall fails f2 ->
    Forall (fun a => ~ fails a) o1 -> Forall (fun a => ~ fails a) o2 ->
    merge_back less (o1 ++ f1) (o2 ++ f2) = merge_back less o1 o2 ++ f1 ++ f2.
  Proof.
    intros F1 F2 O1. revert o2. induction O1 as [|x o1 Hx O1 IH1].
    - intros o2 O2. simpl. induction O2 as [|y o2 Hy O2 IH2].
      + simpl. induction F1 as [|x f1 Hx F1 IH]; [reflexivity|].
        destruct f2 as [|y f2]; [rewrite merge_back_nil, app_nil_r; reflexivity|].
        rewrite merge_back_cons, less_fail by (inversion F2; auto). simpl. f_equal. exact IH.
      + destruct f1 as [|x f1]; [reflexivity|]. simpl app.
        rewrite merge_back_cons, less_nofail; auto. 2:{ inversion F1; auto. }
        f_equal. exact IH2.
    - induction 1 as [|y o2 Hy O2 IH2].
      + rewrite merge_back_nil. simpl app at 2. simpl app at 1. destruct f2 as [|y f2].
        * rewrite merge_back_nil, app_nil_r. reflexivity.
        * rewrite merge_back_cons, less_fail by (inversion F2; auto). simpl. f_equal.
          specialize (IH1 [] (Forall_nil _)). rewrite merge_back_nil in IH1. exact IH1.
      + simpl app. rewrite !merge_back_cons. destruct (less y x).
        * simpl. f_equal. apply (IH1 (y :: o2)). constructor; auto.
        * simpl. f_equal. exact IH2.
  Qed.

  Lemma good_intro f o : Forall fails f -> sortd o -> good (f ++ o).
  Proof. intros F [N S]. exists f, o. auto. Qed.

  Lemma merge_lo_good s t : good s -> good t ->
    good (merge_lo less s t) /\ stable (s ++ t) (merge_lo less s t).
  Proof.
    intros (f1 & o1 & -> & F1 & N1 & S1) (f2 & o2 & -> & F2 & N2 & S2).
    rewrite merge_lo_fails by assumption.
    destruct (merge_lo_sorted o1 o2 (conj N1 S1) (conj N2 S2)) as [M F]. split.
    - rewrite app_assoc. apply good_intro; auto. apply Forall_app; auto.
    - intros k. rewrite !filter_app, F, !has_fails by assumption. reflexivity.
  Qed.
  Lemma revsorted_rev o : revsorted o -> sortd (rev o).
  Proof. intros [N S]. split; [apply Forall_rev; auto|]. apply (sorted_rev (fun a b => le b a)). exact S. Qed.
  Lemma merge_hi_good s t : good s -> good t ->
    good (merge_hi less s t) /\ stable (s ++ t) (merge_hi less s t).
  Proof.
    intros (f1 & o1 & -> & F1 & N1 & S1) (f2 & o2 & -> & F2 & N2 & S2).
    unfold merge_hi. rewrite !rev_app_distr, merge_back_fails by (apply Forall_rev; assumption).
    destruct (merge_back_sorted (rev o1) (rev o2)) as [M F]; try (apply sortd_rev; split; assumption).
    rewrite !rev_app_distr, !rev_involutive. split.
    - apply good_intro; [apply Forall_app; auto|]. apply revsorted_rev, M.
    - intros k. rewrite !filter_app, (filter_rev _ (merge_back _ _ _)), F, rev_app_distr, !filter_rev, !rev_involutive,
        !has_fails by assumption. reflexivity.
  Qed.

  (** Inserting is merging a single element from the back. *)
  Lemma insert_back_merge x p : insert_back less x p = merge_back less p [x].
  Proof.
    induction p as [|y p IH]; [reflexivity|]. rewrite merge_back_cons. simpl. destruct (less x y); [|reflexivity].
    f_equal. exact IH.
  Qed.
  Lemma good_one x : good [x].
  Proof.
    destruct (rank x) as [z|] eqn:E.
    - exists [], [x]. split; [reflexivity|]. split; [constructor|]. split; [|repeat constructor].
      constructor; [|constructor]. unfold fails. congruence.
    - exists [x], []. split; [reflexivity|]. split; [repeat constructor; exact E|]. split; constructor.
  Qed.
  Lemma insert_tail_good s x : good s ->
    good (insert_tail less s x) /\ stable (s ++ [x]) (insert_tail less s x).
  Proof.
    intros G. unfold insert_tail. rewrite insert_back_merge.
    apply (merge_hi_good s [x] G (good_one x)).
  Qed.

  (** Runs. *)
  Lemma asc_good l : not_descending less l = true -> good l.
  Proof.
    induction l as [|x l IH]; intros H; [exists [], []; repeat constructor|].
    destruct l as [|y l]; [apply good_one|].
    simpl in H. apply andb_true_iff in H. destruct H as [Hxy H]. specialize (IH H).
    apply negb_true_iff in Hxy. destruct IH as (f & o & E & F & N & S).
    destruct f as [|y' f].
    - simpl in E. subst o. destruct (rank x) as [z|] eqn:R.
      + assert (Nx : ~ fails x) by (unfold fails; congruence).
        exists [], (x :: y :: l). split; [reflexivity|]. split; [constructor|]. split; [constructor; auto|].
        constructor; auto. inversion N; subst. apply less_false in Hxy; auto.
        constructor; auto. inversion S; subst. eapply Forall_impl; [|eassumption]. intros; eapply le_trans; eauto.
      + exists [x], (y :: l). split; [reflexivity|]. split; [repeat constructor; exact R|]. auto.
    - simpl in E. inversion E; subst y'. inversion F; subst. rewrite less_fail in Hxy by assumption. discriminate.
  Qed.
  Lemma desc_good l : descending less l = true -> good (rev l) /\ stable l (rev l).
  Proof.
    assert (K : descending less l = true -> exists o f, l = o ++ f /\ Forall fails f /\
      Forall (fun a => ~ fails a) o /\ StronglySorted (fun a b => le b a /\ ~ le a b) o).
    { induction l as [|x l IH]; intros H; [exists [], []; repeat constructor|].
      destruct l as [|y l].
      { destruct (rank x) as [z|] eqn:R.
        - exists [x], []. split; [reflexivity|]. split; [constructor|]. split; [|repeat constructor].
          constructor; [unfold fails; congruence|constructor].
        - exists [], [x]. split; [reflexivity|]. split; [repeat constructor; exact R|]. split; constructor. }
      simpl in H. apply andb_true_iff in H. destruct H as [Hyx H]. specialize (IH H).
      destruct IH as (o & f & E & F & N & S).
      destruct (rank x) as [z|] eqn:R.
      - assert (Nx : ~ fails x) by (unfold fails; congruence).
        exists (x :: o), f. split; [simpl; congruence|]. split; auto. split; [constructor; auto|].
        constructor; auto. destruct o as [|y' o]; [constructor|].
        simpl in E. inversion E; subst y'. inversion N; subst. apply less_true in Hyx; auto.
        assert (L : le y x) by (destruct (le_total x y); tauto).
        constructor; auto. inversion S; subst. eapply Forall_impl; [|eassumption]. simpl.
        intros a [Q1 Q2]. split; [eapply le_trans; eauto|]. intros Q3. apply Hyx. eapply le_trans; eauto.
      - destruct o as [|y' o].
        + simpl in E. exists [], (x :: y :: l). split; [reflexivity|]. rewrite E. split; [constructor; auto|]. auto.
        + simpl in E. inversion E; subst y'. inversion N; subst.
          rewrite less_nofail in Hyx by assumption. discriminate. }
    intros H. destruct (K H) as (o & f & -> & F & N & S). split.
    - rewrite rev_app_distr. apply good_intro; [apply Forall_rev; auto|]. apply revsorted_rev. split; auto.
      clear -S. induction S; constructor; auto. eapply Forall_impl; [|eassumption]. simpl. tauto.
    - intros k. rewrite rev_app_distr, !filter_app, !filter_rev, has_fails by assumption. simpl. rewrite app_nil_r.
      clear -S less_spec. induction S as [|x o S IH HF]; [reflexivity|]. simpl. destruct (has k x) eqn:Hk; [|exact IH].
      assert (Z0 : filter (has k) o = []).
      { destruct (filter (has k) o) as [|z zs] eqn:Q; [reflexivity|exfalso].
        assert (I : In z (filter (has k) o)) by (rewrite Q; left; reflexivity).
        apply filter_In in I. destruct I as [I Hz]. rewrite Forall_forall in HF. destruct (HF _ I).
        destruct (has_same k x z Hk Hz); tauto. }
      rewrite Z0. reflexivity.
  Qed.

  Lemma stable_app l s r t u : stable l s -> stable r t -> stable (s ++ t) u -> stable (l ++ r) u.
  Proof. intros H K L k. rewrite L, !filter_app, H, K. reflexivity. Qed.

  Lemma msort_good l s : msort less l s -> Permutation l s /\ good s /\ stable l s.
  Proof.
    induction 1 as [l H|l H|l s x M (P & G & S)|l s r t M1 (P1 & G1 & S1) M2 (P2 & G2 & S2)|l s r t M1 (P1 & G1 & S1) M2 (P2 & G2 & S2)].
    - split; [reflexivity|]. split; [apply asc_good; auto|]. intros k. reflexivity.
    - split; [apply Permutation_rev|]. apply desc_good; auto.
    - split; [rewrite P; apply insert_tail_perm|].
      destruct (insert_tail_good s x G) as [G' S']. split; auto.
      eapply stable_app; eauto. intros k. reflexivity.
    - split; [rewrite P1, P2; apply merge_lo_perm|].
      destruct (merge_lo_good s t G1 G2) as [G' S']. split; auto. eapply stable_app; eauto.
    - split; [rewrite P1, P2; apply merge_hi_perm|].
      destruct (merge_hi_good s t G1 G2) as [G' S']. split; auto. eapply stable_app; eauto.
  Qed.

  Lemma fold_insert_msort l : forall p s, msort less p s -> msort less (p ++ l) (fold_left (insert_tail less) l s).
  Proof.
    induction l as [|x l IH]; intros p s H; simpl; [rewrite app_nil_r; exact H|].
    replace (p ++ x :: l) with ((p ++ [x]) ++ l) by (rewrite <- app_assoc; reflexivity).
    apply IH. constructor. exact H.
  Qed.
End SortP.
