(** Proofs about GramM: expressions. *)
From Coq Require Import List String Ascii NArith Bool Lia.
From Verif Require Import Base TermM CompareM SynM AttrM LexM GramM SpecText.
Import ListNotations.
Local Open Scope string_scope.
Local Open Scope list_scope.

(** ** Classes of tokens *)
Lemma punct_iff c x : punct c x = true <-> x = P c.
Proof.
  destruct x as [[]|]; cbn; try (split; [discriminate|intros K; discriminate K]). rewrite Ascii.eqb_eq. split; [now intros ->|now intros [= ->]].
Qed.
Lemma word_iff w x : word w x = true <-> x = W w.
Proof.
  destruct x as [[]|]; cbn; try (split; [discriminate|intros K; discriminate K]). rewrite String.eqb_eq. split; [now intros ->|now intros [= ->]].
Qed.
Lemma group_iff d x : group d x = true <-> exists b, x = Group d b.
Proof.
  destruct x as [|d' b]; cbn; [split; [discriminate|intros (b & K); discriminate K]|].
  split; [destruct d, d'; try discriminate; intros _; now exists b|intros (b' & [= -> _]); destruct d; reflexivity].
Qed.
Lemma name_iff x : is_name x = true <-> name x.
Proof.
  unfold is_name, name. rewrite negb_true_iff, <- not_true_iff_false, existsb_exists.
  assert (E : forall k, In k keywords <-> In k reserved) by (intros k; cbn; tauto).
  split; intros H K; apply H.
  - exists x. split; [now apply E|apply String.eqb_refl].
  - destruct K as (y & I & Q). apply String.eqb_eq in Q. subst y. now apply E.
Qed.
Lemma name_not x k : name x -> In k reserved -> String.eqb x k = false.
Proof. intros N I. apply String.eqb_neq. intros ->. contradiction. Qed.
Lemma without_iff x l p : (forall y, p y = true <-> y = x) -> (without x l <-> forall z, In z l -> p z = false).
Proof.
  intros H. unfold without. split.
  - intros W z I. destruct (p z) eqn:E; [|reflexivity]. apply H in E. subst z. contradiction.
  - intros F I. specialize (F x I). rewrite (proj2 (H x) eq_refl) in F. discriminate.
Qed.
Definition free (p : tt -> bool) (l : list tt) : Prop := forall z, In z l -> p z = false.
Lemma free_punct c l : free (punct c) l <-> without (P c) l.
Proof. symmetry. apply without_iff. intros y. apply punct_iff. Qed.
Lemma free_word w l : free (word w) l <-> without (W w) l.
Proof. symmetry. apply without_iff. intros y. apply word_iff. Qed.
Lemma free_group d l : free (group d) l <-> forall b, without (Group d b) l.
Proof.
  unfold free, without. split.
  - intros F b I. specialize (F _ I). destruct d; discriminate.
  - intros F z I. destruct (group d z) eqn:E; [|reflexivity]. apply group_iff in E. destruct E as (b & ->). exfalso. now apply (F b).
Qed.
Lemma free_app p a b : free p (a ++ b) <-> free p a /\ free p b.
Proof. unfold free. split; [intros H; split; intros z I; apply H, in_or_app; auto|intros [H K] z I; apply in_app_or in I; destruct I; auto]. Qed.
Lemma free_cons p x l : free p (x :: l) <-> p x = false /\ free p l.
Proof. unfold free. split; [intros H; split; [apply H; now left|intros z I; apply H; now right]|intros [H K] z [<-|I]; auto]. Qed.
Lemma free_nil p : free p []. Proof. intros z []. Qed.
Lemma free_rev p l : free p (rev l) <-> free p l.
Proof. unfold free. split; intros H z I; apply H; [now apply in_rev in I|now apply in_rev]. Qed.
Lemma free_exists p l : free p l <-> existsb p l = false.
Proof.
  unfold free. rewrite <- not_true_iff_false, existsb_exists. split.
  - intros H (z & I & E). rewrite (H z I) in E. discriminate.
  - intros H z I. destruct (p z) eqn:E; [|reflexivity]. exfalso. apply H. now exists z.
Qed.
Lemma free_or p q l : free (fun x => p x || q x)%bool l <-> free p l /\ free q l.
Proof.
  unfold free. split; [intros H; split; intros z I; specialize (H z I); apply orb_false_iff in H; tauto|].
  intros [H K] z I. now rewrite (H z I), (K z I).
Qed.

(** ** Cuts *)
Lemma cut_some p l a y b : cut p l = Some (a, y, b) <-> l = a ++ y :: b /\ p y = true /\ free p a.
Proof.
  revert a. induction l as [|x l IH]; intros a; cbn.
  - split; [discriminate|]. intros (K & _). destruct a; discriminate K.
  - destruct (p x) eqn:E.
    + split.
      * intros [= <- <- <-]. repeat split; [exact E|apply free_nil].
      * intros (K & Py & F). destruct a as [|z a]; [now injection K as <- <-|]. injection K as <- _.
        rewrite (F x (or_introl eq_refl)) in E. discriminate.
    + destruct (cut p l) as [[[a' y'] b']|] eqn:C.
      * split.
        -- intros [= <- <- <-]. destruct (proj1 (IH a') eq_refl) as (-> & Py & F). repeat split; [exact Py|]. apply free_cons. auto.
        -- intros (K & Py & F). destruct a as [|z a]; [injection K as <- <-; congruence|]. injection K as <- ->. apply free_cons in F.
           assert (Some (a', y', b') = Some (a, y, b)) as [= -> -> ->] by (apply IH; tauto). reflexivity.
      * split; [discriminate|]. intros (K & Py & F). destruct a as [|z a]; [injection K as <- <-; congruence|]. injection K as <- ->. apply free_cons in F.
        assert (None = Some (a, y, b)) as C' by (apply IH; tauto). discriminate.
Qed.
Lemma cut_none p l : cut p l = None <-> free p l.
Proof.
  split.
  - induction l as [|x l IH]; cbn; [intros _; apply free_nil|]. destruct (p x) eqn:E; [discriminate|].
    destruct (cut p l) as [[[] ]|]; [discriminate|]. intros _. apply free_cons. auto.
  - intros F. destruct (cut p l) as [[[a y] b]|] eqn:C; [|reflexivity]. apply cut_some in C. destruct C as (-> & Py & _).
    rewrite (F y) in Py; [discriminate|]. apply in_or_app. right. now left.
Qed.
Lemma cut_last_some p l a y b : cut_last p l = Some (a, y, b) <-> l = a ++ y :: b /\ p y = true /\ free p b.
Proof.
  unfold cut_last. destruct (cut p (rev l)) as [[[a' y'] b']|] eqn:C.
  - apply cut_some in C. destruct C as (E & Py & F). assert (l = rev b' ++ y' :: rev a') as El.
    { rewrite <- (rev_involutive l), E, rev_app_distr. cbn. now rewrite <- app_assoc. }
    split.
    + intros [= <- <- <-]. repeat split; [exact El|exact Py|now apply free_rev].
    + intros (K & Py' & F'). assert (cut p (rev l) = Some (rev b, y, rev a)) as C'.
      { apply cut_some. split; [|split; [exact Py'|now apply free_rev]]. rewrite K, rev_app_distr. cbn. now rewrite <- app_assoc. }
      assert (cut p (rev l) = Some (a', y', b')) as C by (apply cut_some; auto). rewrite C' in C. injection C as <- <- <-.
      now rewrite !rev_involutive.
  - split; [discriminate|]. intros (-> & Py & _). apply cut_none in C. apply (proj1 (free_rev p _)) in C. rewrite (C y) in Py; [discriminate|].
    apply in_or_app. right. now left.
Qed.
Lemma cut_last_none p l : cut_last p l = None <-> free p l.
Proof.
  unfold cut_last. rewrite <- free_rev, <- cut_none. destruct (cut p (rev l)) as [[[] ]|]; split; congruence.
Qed.

(** ** Paths and types *)
Lemma segments_sound n : forall l xs, (List.length l <= n)%nat -> p_segments l = Some xs -> g_segments xs l.
Proof.
  induction n as [|n IH]; intros l xs L H; [destruct l; [discriminate|cbn in L; lia]|].
  destruct l as [|[[x| | | | | | | | |]|] l]; try discriminate. destruct l as [|[[| | | | | | | | |]|] l]; try discriminate.
  - cbn in H. destruct (is_name x) eqn:N; [|discriminate]. injection H as <-. constructor. now apply name_iff.
  - cbn [p_segments] in H. destruct (is_name x) eqn:N; [|discriminate]. destruct (p_segments l) as [ys|] eqn:E; [|discriminate]. injection H as <-.
    constructor; [now apply name_iff|]. apply IH; [cbn in L; lia|exact E].
Qed.
Lemma segments_complete xs l : g_segments xs l -> p_segments l = Some xs.
Proof.
  induction 1 as [x N|x xs l N S IH]; cbn [p_segments]; apply name_iff in N; rewrite N; [reflexivity|]. now rewrite IH.
Qed.
Lemma segments_iff l xs : p_segments l = Some xs <-> g_segments xs l.
Proof. split; [apply (segments_sound (List.length l)); lia|apply segments_complete]. Qed.
Lemma path_iff l p : p_path l = Some p <-> g_path p l.
Proof.
  split.
  - intros H. destruct l as [|x l]; [discriminate H|]. unfold p_path in H.
    assert (D : x = Leaf KColons \/ match p_segments (x :: l) with Some xs => Some (mk_path false xs) | None => None end = Some p).
    { destruct x as [[]|]; auto. }
    destruct D as [->|D].
    + destruct (p_segments l) as [xs|] eqn:E; [|discriminate]. injection H as <-. constructor. now apply segments_iff.
    + destruct (p_segments (x :: l)) as [xs|] eqn:E; [|discriminate]. injection D as <-. constructor. now apply segments_iff.
  - intros [xs l' S|xs l' S]; apply segments_iff in S; unfold p_path.
    + destruct l' as [|[[]|] l']; try discriminate S; now rewrite S.
    + now rewrite S.
Qed.
(** The trees of a path. *)
Definition path_tree (x : tt) : Prop := x = Leaf KColons \/ exists n, x = W n /\ name n.
Lemma segments_trees xs l : g_segments xs l -> Forall path_tree l.
Proof. induction 1 as [x N|x xs l N S IH]; constructor; [right; eauto|constructor|right; eauto|]. constructor; [now left|exact IH]. Qed.
Lemma path_trees p l : g_path p l -> Forall path_tree l.
Proof. intros [xs l' S|xs l' S]; [eapply segments_trees; eauto|]. constructor; [now left|]. eapply segments_trees; eauto. Qed.
Lemma segments_last xs l : g_segments xs l -> exists r n, l = r ++ [W n] /\ name n.
Proof.
  induction 1 as [x N|x xs l N S IH]; [now exists [], x|]. destruct IH as (r & n & -> & Nn). now exists (W x :: Leaf KColons :: r), n.
Qed.
Lemma path_last p l : g_path p l -> exists r n, l = r ++ [W n] /\ name n.
Proof.
  intros [xs l' S|xs l' S]; [eapply segments_last; eauto|]. destruct (segments_last _ _ S) as (r & n & -> & N). now exists (Leaf KColons :: r), n.
Qed.
Lemma path_free_punct p l c : g_path p l -> free (punct c) l.
Proof. intros H z I. apply path_trees in H. rewrite Forall_forall in H. destruct (H z I) as [->|(n & -> & _)]; reflexivity. Qed.
Lemma path_free_word p l k : g_path p l -> In k reserved -> free (word k) l.
Proof. intros H R z I. apply path_trees in H. rewrite Forall_forall in H. destruct (H z I) as [->|(n & -> & N)]; [reflexivity|]. cbn. now apply name_not. Qed.
Lemma path_free_group p l d : g_path p l -> free (group d) l.
Proof. intros H z I. apply path_trees in H. rewrite Forall_forall in H. destruct (H z I) as [->|(n & -> & _)]; reflexivity. Qed.

Lemma type_iff l t : p_type l = Some t <-> g_type t l.
Proof.
  split.
  - intros H.
    assert (D : (l = [Group DParen []] /\ t = TTuple 0) \/
      match cut (punct "<") l with
      | None => match p_path l with Some p => Some (TPath p) | None => None end
      | Some (a, _, b) =>
          match rev b with
          | x :: b' =>
              if (negb (punct ">" x) || existsb (fun x => punct "<" x || punct ">" x) b')%bool then None
              else match p_path a with Some p => Some (TPath p) | None => None end
          | [] => None
          end
      end = Some t).
    { destruct l as [|[|[] [|]] [|]]; auto. left. split; [reflexivity|]. now injection H as <-. }
    clear H. destruct D as [[-> ->]|D]; [constructor|]. destruct (cut (punct "<") l) as [[[a y] b]|] eqn:C.
    + apply cut_some in C. destruct C as (-> & Y & _). apply punct_iff in Y. subst y.
      destruct (rev b) as [|x b'] eqn:R; [discriminate|].
      destruct (punct ">" x) eqn:X; [|discriminate]. destruct (existsb _ b') eqn:E; [discriminate|]. cbn [negb orb] in D.
      apply punct_iff in X. subst x. apply free_exists, free_or in E. destruct E as [E1 E2].
      destruct (p_path a) as [p|] eqn:Pa; [|discriminate]. injection D as <-. apply path_iff in Pa.
      assert (b = rev b' ++ [P ">"]) as -> by (rewrite <- (rev_involutive b), R; reflexivity).
      apply (T_generic p a (rev b')); [exact Pa| |]; apply free_punct; now apply free_rev.
    + destruct (p_path l) as [p|] eqn:Pa; [|discriminate]. injection D as <-. constructor. now apply path_iff.
  - intros [|p l' G|p l' args G L1 L2]; [reflexivity| |].
    + pose proof (path_free_punct _ _ "<" G) as F. apply cut_none in F. apply path_iff in G. unfold p_type.
      rewrite F, G. destruct l' as [|[|[] [|]] [|]]; try reflexivity. discriminate G.
    + pose proof (path_free_punct _ _ "<" G) as F. destruct (path_last _ _ G) as (r & n & E & _). apply path_iff in G. unfold p_type.
      assert (C : cut (punct "<") (l' ++ [P "<"] ++ args ++ [P ">"]) = Some (l', P "<", args ++ [P ">"])) by (apply cut_some; auto).
      rewrite C. rewrite rev_app_distr. cbn [rev app]. change (punct ">" (P ">")) with true. cbn [negb orb].
      assert (Q : existsb (fun x => punct "<" x || punct ">" x)%bool (rev args) = false).
      { apply free_exists, free_rev, free_or. split; now apply free_punct. }
      rewrite Q, G. destruct (l' ++ _) as [|[|[] [|]] [|]] eqn:K; try reflexivity.
      exfalso. apply (f_equal (@List.length tt)) in K. subst l'. rewrite !app_length in K. cbn in K. lia.
Qed.

(** ** Commas *)
Lemma commas_free l : l <> [] -> free (punct ",") l -> commas l = ([l], false).
Proof.
  induction l as [|x l IH]; [contradiction|]. intros _ F. apply free_cons in F. destruct F as [Fx F]. cbn [commas]. rewrite Fx.
  destruct l as [|y l]; [reflexivity|]. rewrite IH; [reflexivity|discriminate|exact F].
Qed.
Lemma commas_app x y : free (punct ",") x ->
  commas (x ++ P "," :: y) = match y with [] => ([x], true) | _ => (x :: fst (commas y), snd (commas y)) end.
Proof.
  induction x as [|z x IH]; intros F.
  - cbn [app commas]. change (punct "," (P ",")) with true. cbv iota. destruct y as [|w y]; [reflexivity|]. now destruct (commas (w :: y)).
  - apply free_cons in F. destruct F as [Fz F]. cbn [app commas]. rewrite Fz, (IH F). destruct y; reflexivity.
Qed.
Lemma commas_cases l :
  l = [] \/ (l <> [] /\ free (punct ",") l) \/ exists x y, l = x ++ P "," :: y /\ free (punct ",") x.
Proof.
  destruct (cut (punct ",") l) as [[[a z] b]|] eqn:C.
  - apply cut_some in C. destruct C as (-> & Z & F). apply punct_iff in Z. subst z. right. right. now exists a, b.
  - apply cut_none in C. destruct l as [|x l]; [now left|]. right. left. split; [discriminate|exact C].
Qed.
Lemma commas_nonempty y : y <> [] -> fst (commas y) <> [].
Proof.
  intros N. destruct (commas_cases y) as [->|[[_ F]|(x & z & -> & F)]]; [contradiction| |].
  - rewrite commas_free by assumption. discriminate.
  - rewrite commas_app by assumption. destruct z; discriminate.
Qed.

(** ** Soundness *)
Definition at_level (lv : level) : expr -> list tt -> Prop :=
  match lv with LSum => g_sum | LMul => g_product | LCast => g_cast | LPost => g_call end.
Section ArgsSound.
  Variable f : list tt -> option expr.
  Hypothesis F : forall l e, f l = Some e -> g_sum e l.
  Lemma args_sound n : forall l es tr, (List.length l <= n)%nat -> p_args f l = Some (es, tr) -> g_args es tr l.
  Proof.
    induction n as [|n IH]; intros l es tr L H.
    - destruct l; [|cbn in L; lia]. injection H as <- <-. constructor.
    - unfold p_args in H. destruct (commas_cases l) as [->|[[N Fr]|(x & y & -> & Fr)]].
      + injection H as <- <-. constructor.
      + rewrite commas_free in H by assumption. cbn in H. destruct (f l) as [e|] eqn:E; [|discriminate]. injection H as <- <-.
        constructor. now apply F.
      + rewrite commas_app in H by assumption. destruct y as [|w y].
        * cbn in H. destruct (f x) as [e|] eqn:E; [|discriminate]. injection H as <- <-. apply A_comma. now apply F.
        * cbn [map all_some] in H. destruct (f x) as [e|] eqn:E; [|discriminate].
          destruct (all_some _) as [es'|] eqn:A; [|discriminate]. injection H as <- <-.
          assert (p_args f (w :: y) = Some (es', snd (commas (w :: y)))) as Q.
          { unfold p_args. destruct (commas (w :: y)) as [ps tr]. cbn [fst snd] in *. now rewrite A. }
          apply IH in Q; [|rewrite app_length in L; cbn in L |- *; lia].
          apply (A_more e x es' _ (w :: y)); [now apply F| |exact Q].
          intros ->. inversion Q.
  Qed.
  Lemma field_sound l x : p_field f l = Some x -> exists n e y, x = (Some n, e) /\ l = W n :: P ":" :: y /\ name n /\ g_sum e y.
  Proof.
    unfold p_field. destruct l as [|[[n| | | | | | | | |]|] [|c l]]; try discriminate. destruct (punct ":" c) eqn:C; [|discriminate].
    apply punct_iff in C. subst c. cbn [andb]. destruct (is_name n) eqn:N; [|discriminate]. destruct (f l) as [e|] eqn:E; [|discriminate].
    intros [= <-]. exists n, e, l. repeat split; [now apply name_iff|now apply F].
  Qed.
  Lemma fields_sound n : forall l fs, (List.length l <= n)%nat -> p_fields f l = Some fs -> g_fields fs l.
  Proof.
    induction n as [|n IH]; intros l fs L H.
    - destruct l; [|cbn in L; lia]. injection H as <-. constructor.
    - unfold p_fields in H. destruct (commas_cases l) as [->|[[N Fr]|(x & y & -> & Fr)]].
      + injection H as <-. constructor.
      + rewrite commas_free in H by assumption. cbn [fst map all_some] in H. destruct (p_field f l) as [e|] eqn:E; [|discriminate]. injection H as <-.
        destruct (field_sound _ _ E) as (m & e' & z & -> & -> & Nm & G). now constructor.
      + rewrite commas_app in H by assumption. destruct y as [|w y].
        * cbn [fst map all_some] in H. destruct (p_field f x) as [e|] eqn:E; [|discriminate]. injection H as <-.
          destruct (field_sound _ _ E) as (m & e' & z & -> & -> & Nm & G). now apply F_comma.
        * cbn [fst map all_some] in H. destruct (p_field f x) as [e|] eqn:E; [|discriminate].
          destruct (all_some _) as [fs'|] eqn:A; [|discriminate]. injection H as <-.
          apply IH in A; [|rewrite app_length in L; cbn in L |- *; lia].
          destruct (field_sound _ _ E) as (m & e' & z & -> & -> & Nm & G). apply (F_more m e' z fs' (w :: y)); auto.
          intros ->. inversion A.
  Qed.
End ArgsSound.
Lemma rev_split {A} (l : list A) x r : rev l = x :: r -> l = rev r ++ [x].
Proof. intros H. rewrite <- (rev_involutive l), H. reflexivity. Qed.
Lemma receiver_iff r r' m : receiver r = Some (r', m) <-> r = W m :: P "." :: r'.
Proof.
  unfold receiver. split.
  - destruct r as [|[[n| | | | | | | | |]|] [|x r]]; try discriminate. destruct (punct "." x) eqn:X; [|discriminate].
    apply punct_iff in X. subst x. now intros [= -> ->].
  - intros ->. reflexivity.
Qed.
Lemma expr_sound fuel : forall lv l e, p_expr fuel lv l = Some e -> at_level lv e l.
Proof.
  induction fuel as [|fuel IH]; intros lv l e H; [discriminate|]. destruct lv; cbn [p_expr at_level] in *.
  - destruct (cut_last _ l) as [[[a y] b]|] eqn:C.
    + apply cut_last_some in C. destruct C as (-> & Y & _). apply punct_iff in Y. subst y.
      destruct (p_expr fuel LSum a) as [e1|] eqn:E1; [|discriminate]. destruct (p_expr fuel LMul b) as [e2|] eqn:E2; [|discriminate].
      injection H as <-. apply (G_add e1 a e2 b); [now apply (IH LSum)|now apply (IH LMul)].
    + apply G_product. now apply (IH LMul).
  - destruct (cut_last _ l) as [[[a y] b]|] eqn:C.
    + apply cut_last_some in C. destruct C as (-> & Y & _). apply punct_iff in Y. subst y.
      destruct (p_expr fuel LMul a) as [e1|] eqn:E1; [|discriminate]. destruct (p_expr fuel LCast b) as [e2|] eqn:E2; [|discriminate].
      injection H as <-. apply (G_mul e1 a e2 b); [now apply (IH LMul)|now apply (IH LCast)].
    + apply G_cast. now apply (IH LCast).
  - destruct (cut_last _ l) as [[[a y] b]|] eqn:C.
    + apply cut_last_some in C. destruct C as (-> & Y & _). apply word_iff in Y. subst y.
      destruct (p_expr fuel LCast a) as [e1|] eqn:E1; [|discriminate]. destruct (p_path b) as [t|] eqn:E2; [|discriminate].
      injection H as <-. apply (G_as e1 a t b); [now apply (IH LCast)|now apply path_iff].
    + apply G_call. now apply (IH LPost).
  - assert (Pa : match p_path l with Some p => Some (EPath p) | None => None end = Some e -> g_call e l).
    { destruct (p_path l) as [p|] eqn:E; [|discriminate]. intros [= <-]. apply G_path. now apply path_iff. }
    destruct (rev l) as [|[t|d us] r] eqn:R; [discriminate| |].
    + destruct t; try (exact (Pa H)). destruct r; [|exact (Pa H)]. injection H as <-. apply rev_split in R. subst l. constructor.
    + apply rev_split in R.
      assert (As : forall args tr, p_args (p_expr fuel LSum) us = Some (args, tr) -> g_args args tr us).
      { intros args tr. apply (args_sound _ (IH LSum) (List.length us)). lia. }
      destruct d; [|exact (Pa H)|].
      * destruct r as [|z r].
        { destruct (p_expr fuel LSum us) as [e'|] eqn:E; [|discriminate]. injection H as <-. subst l. apply G_paren. now apply (IH LSum). }
        destruct (receiver (z :: r)) as [[r' m]|] eqn:Rc.
        -- destruct (p_expr fuel LPost (rev r')) as [e'|] eqn:E; [|discriminate]. destruct (p_args _ us) as [[args tr]|] eqn:A; [|discriminate].
           destruct (is_name m) eqn:N; [|discriminate]. injection H as <-. apply receiver_iff in Rc. rewrite Rc in R. cbn in R. rewrite <- !app_assoc in R.
           subst l. apply (G_method e' (rev r') m args tr us); [now apply (IH LPost)|now apply name_iff|now apply As].
        -- destruct (p_expr fuel LPost (rev (z :: r))) as [e'|] eqn:E; [|discriminate]. destruct (p_args _ us) as [[args tr]|] eqn:A; [|discriminate].
           injection H as <-. subst l. apply (G_apply e' (rev (z :: r)) args tr us); [now apply (IH LPost)|now apply As].
      * destruct (p_path (rev r)) as [p|] eqn:E; [|discriminate]. destruct (p_fields _ us) as [fs|] eqn:A; [|discriminate]. injection H as <-. subst l.
        apply G_struct; [now apply path_iff|]. apply (fields_sound _ (IH LSum) (List.length us)); [lia|exact A].
Qed.

(** ** Completeness *)
Scheme sum_min := Minimality for g_sum Sort Prop
  with product_min := Minimality for g_product Sort Prop
  with cast_min := Minimality for g_cast Sort Prop
  with call_min := Minimality for g_call Sort Prop
  with args_min := Minimality for g_args Sort Prop
  with fields_min := Minimality for g_fields Sort Prop.
Combined Scheme grammar_min from sum_min, product_min, cast_min, call_min, args_min, fields_min.

(** What cannot be on the top level. *)
Definition bad (lv : level) (x : tt) : bool :=
  match lv with
  | LSum => punct "," x
  | LMul => punct "," x || punct "+" x
  | LCast => punct "," x || punct "+" x || punct "*" x
  | LPost => punct "," x || punct "+" x || punct "*" x || word "as" x
  end.
Lemma bad_mono x : (bad LPost x = false -> bad LCast x = false) /\ (bad LCast x = false -> bad LMul x = false) /\ (bad LMul x = false -> bad LSum x = false).
Proof. cbn. destruct (punct "," x), (punct "+" x), (punct "*" x); cbn; auto. Qed.
Lemma free_mono p q l : (forall x, p x = false -> q x = false) -> free p l -> free q l.
Proof. intros H F z I. auto. Qed.
Lemma path_bad p l : g_path p l -> free (bad LPost) l.
Proof.
  intros H. pose proof (path_free_punct _ _ "," H) as A. pose proof (path_free_punct _ _ "+" H) as B.
  pose proof (path_free_punct _ _ "*" H) as C. pose proof (path_free_word _ _ "as" H ltac:(cbn; tauto)) as D.
  intros z I. unfold bad. now rewrite (A z I), (B z I), (C z I), (D z I).
Qed.
Lemma name_word m k : name m -> In k reserved -> word k (W m) = false.
Proof. intros N I. cbn. now apply name_not. Qed.
Lemma grammar_free :
  (forall e l, g_sum e l -> free (bad LSum) l) /\ (forall e l, g_product e l -> free (bad LMul) l) /\
  (forall e l, g_cast e l -> free (bad LCast) l) /\ (forall e l, g_call e l -> free (bad LPost) l) /\
  (forall es tr l, g_args es tr l -> True) /\ (forall fs l, g_fields fs l -> True).
Proof.
  apply grammar_min; auto.
  - intros a x b y _ F _ K. apply free_app. split; [exact F|]. apply free_cons. split; [reflexivity|]. eapply free_mono; [|exact K]. intros z. apply bad_mono.
  - intros e x _ F. eapply free_mono; [|exact F]. intros z. apply bad_mono.
  - intros a x b y _ F _ K. apply free_app. split; [exact F|]. apply free_cons. split; [reflexivity|]. eapply free_mono; [|exact K]. intros z. apply bad_mono.
  - intros e x _ F. eapply free_mono; [|exact F]. intros z. apply bad_mono.
  - intros e x t y _ F G. apply free_app. split; [exact F|]. apply free_cons. split; [reflexivity|]. eapply free_mono; [|eapply path_bad; exact G]. intros z. apply bad_mono.
  - intros e x _ F. eapply free_mono; [|exact F]. intros z. apply bad_mono.
  - intros e x m args tr y _ F N _ _. apply free_app. split; [exact F|]. apply free_cons. split; [reflexivity|]. apply free_cons. split.
    + unfold bad. rewrite name_word; [reflexivity|exact N|cbn; tauto].
    + apply free_cons. split; [reflexivity|apply free_nil].
  - intros e x args tr y _ F _ _. apply free_app. split; [exact F|]. apply free_cons. split; [reflexivity|apply free_nil].
  - intros e x _ _. apply free_cons. split; [reflexivity|apply free_nil].
  - intros p x fs y G _ _. apply free_app. split; [eapply path_bad; exact G|]. apply free_cons. split; [reflexivity|apply free_nil].
  - intros n. apply free_cons. split; [reflexivity|apply free_nil].
  - intros p x G. eapply path_bad; exact G.
Qed.
Lemma sum_free e l : g_sum e l -> free (punct ",") l.
Proof. apply grammar_free. Qed.
Lemma product_free e l : g_product e l -> free (punct "+") l.
Proof. intros G. apply grammar_free in G. eapply free_mono; [|exact G]. intros x. cbn. now destruct (punct "," x), (punct "+" x). Qed.
Lemma cast_free e l : g_cast e l -> free (punct "*") l.
Proof. intros G. apply grammar_free in G. eapply free_mono; [|exact G]. intros x. cbn. now destruct (punct "," x), (punct "+" x), (punct "*" x). Qed.
Lemma call_free e l : g_call e l -> free (word "as") l.
Proof. intros G. apply grammar_free in G. eapply free_mono; [|exact G]. intros x. unfold bad. now destruct (punct "," x), (punct "+" x), (punct "*" x), (word "as" x). Qed.
(** A callee is not empty, and does not end with a dot and a name. *)
Lemma call_end e l : g_call e l -> rev l <> [] /\ receiver (rev l) = None.
Proof.
  intros [e' x m args tr y G N A|e' x args tr y G A|e' x G|p x fs y G A|n|p x G].
  - rewrite rev_app_distr. cbn. split; [discriminate|reflexivity].
  - rewrite rev_app_distr. cbn. split; [discriminate|reflexivity].
  - cbn. split; [discriminate|reflexivity].
  - rewrite rev_app_distr. cbn. split; [discriminate|reflexivity].
  - cbn. split; [discriminate|reflexivity].
  - destruct (path_last _ _ G) as (r & n & E & _). split; [rewrite E, rev_app_distr; discriminate|].
    destruct (receiver (rev x)) as [[r' m]|] eqn:R; [|reflexivity]. apply receiver_iff in R.
    pose proof (path_free_punct _ _ "." G) as F. apply free_rev in F. rewrite R in F. specialize (F (P ".")). cbn in F.
    discriminate F. auto.
Qed.

Lemma lsize_app a b : lsize (a ++ b) = (lsize a + lsize b)%nat.
Proof. unfold lsize. now rewrite map_app, list_sum_app. Qed.
Lemma lsize_cons x l : lsize (x :: l) = (tsize x + lsize l)%nat. Proof. reflexivity. Qed.
Lemma lsize_nil : lsize [] = 0%nat. Proof. reflexivity. Qed.
Lemma tsize_group d l : tsize (Group d l) = S (lsize l). Proof. reflexivity. Qed.
Lemma tsize_leaf t : tsize (Leaf t) = 1%nat. Proof. reflexivity. Qed.
Ltac sizes := repeat (rewrite ?lsize_app, ?lsize_cons, ?lsize_nil, ?tsize_group, ?tsize_leaf in *; cbn [app] in *); lia.

Lemma args_more f e x es tr y : free (punct ",") x -> y <> [] -> f x = Some e -> p_args f y = Some (es, tr) -> p_args f (x ++ P "," :: y) = Some (e :: es, tr).
Proof.
  intros F N E A. unfold p_args in *. rewrite (commas_app x y F). destruct y as [|w y]; [contradiction|].
  destruct (commas (w :: y)) as [ps tr']. cbn [fst snd map all_some]. rewrite E. destruct (all_some _); [|discriminate]. now injection A as -> ->.
Qed.
Lemma sum_nonempty e l : g_sum e l -> l <> [].
Proof.
  assert (H : (forall e l, g_sum e l -> l <> []) /\ (forall e l, g_product e l -> l <> []) /\
    (forall e l, g_cast e l -> l <> []) /\ (forall e l, g_call e l -> l <> []) /\
    (forall es tr l, g_args es tr l -> True) /\ (forall fs l, g_fields fs l -> True)).
  { apply grammar_min; auto; try (intros; match goal with |- ?x ++ _ <> [] => destruct x; discriminate end).
    - discriminate.
    - discriminate.
    - intros p x G. destruct (path_last _ _ G) as (r & n & -> & _). destruct r; discriminate. }
  apply H.
Qed.
Lemma args_nonempty e es tr l : g_args (e :: es) tr l -> l <> [].
Proof. intros H. inversion H; subst; [eapply sum_nonempty; eauto|destruct x; discriminate|destruct x; discriminate]. Qed.
Lemma fields_nonempty e es l : g_fields (e :: es) l -> l <> [].
Proof. intros H. inversion H; subst; discriminate. Qed.
Lemma field_ok f x e y : name x -> f y = Some e -> p_field f (W x :: P ":" :: y) = Some (Some x, e).
Proof. intros N E. apply name_iff in N. unfold p_field. change (punct ":" (P ":")) with true. cbn [andb]. now rewrite N, E. Qed.
Lemma field_free x y : free (punct ",") y -> free (punct ",") (W x :: P ":" :: y).
Proof. intros F. apply free_cons. split; [reflexivity|]. apply free_cons. split; [reflexivity|exact F]. Qed.
Lemma expr_complete :
  (forall e l, g_sum e l -> forall fuel, (4 * lsize l + 4 <= fuel)%nat -> p_expr fuel LSum l = Some e) /\
  (forall e l, g_product e l -> forall fuel, (4 * lsize l + 3 <= fuel)%nat -> p_expr fuel LMul l = Some e) /\
  (forall e l, g_cast e l -> forall fuel, (4 * lsize l + 2 <= fuel)%nat -> p_expr fuel LCast l = Some e) /\
  (forall e l, g_call e l -> forall fuel, (4 * lsize l + 1 <= fuel)%nat -> p_expr fuel LPost l = Some e) /\
  (forall es tr l, g_args es tr l -> forall fuel, (4 * lsize l + 4 <= fuel)%nat -> p_args (p_expr fuel LSum) l = Some (es, tr)) /\
  (forall fs l, g_fields fs l -> forall fuel, (4 * lsize l + 4 <= fuel)%nat -> p_fields (p_expr fuel LSum) l = Some fs).
Proof.
  apply grammar_min.
  - intros a x b y Ga Ha Gb Hb [|fuel] L; [lia|]. cbn [p_expr].
    rewrite (proj2 (cut_last_some (punct "+") (x ++ [P "+"] ++ y) x (P "+") y)) by (split; [reflexivity|split; [reflexivity|eapply product_free; eauto]]).
    rewrite Ha, Hb by sizes. reflexivity.
  - intros e x G H [|fuel] L; [lia|]. cbn [p_expr]. rewrite (proj2 (cut_last_none _ _) (product_free _ _ G)). apply H. lia.
  - intros a x b y Ga Ha Gb Hb [|fuel] L; [lia|]. cbn [p_expr].
    rewrite (proj2 (cut_last_some (punct "*") (x ++ [P "*"] ++ y) x (P "*") y)) by (split; [reflexivity|split; [reflexivity|eapply cast_free; eauto]]).
    rewrite Ha, Hb by sizes. reflexivity.
  - intros e x G H [|fuel] L; [lia|]. cbn [p_expr]. rewrite (proj2 (cut_last_none _ _) (cast_free _ _ G)). apply H. lia.
  - intros e x t y Ge He Gt [|fuel] L; [lia|]. cbn [p_expr].
    rewrite (proj2 (cut_last_some (word "as") (x ++ [W "as"] ++ y) x (W "as") y))
      by (split; [reflexivity|split; [reflexivity|eapply path_free_word; [eauto|cbn; tauto]]]).
    apply path_iff in Gt. rewrite He, Gt by sizes. reflexivity.
  - intros e x G H [|fuel] L; [lia|]. cbn [p_expr]. rewrite (proj2 (cut_last_none _ _) (call_free _ _ G)). apply H. lia.
  - intros e x m args tr y G H N Ga Ha [|fuel] L; [lia|]. cbn [p_expr]. rewrite rev_app_distr. cbn [rev app].
    change (receiver (W m :: P "." :: rev x)) with (Some (rev x, m)). cbv iota beta. apply name_iff in N. rewrite rev_involutive, H, Ha, N by sizes. reflexivity.
  - intros e x args tr y G H Ga Ha [|fuel] L; [lia|]. cbn [p_expr]. rewrite rev_app_distr. cbn [rev app].
    destruct (call_end _ _ G) as [N R]. specialize (H fuel). specialize (Ha fuel). assert (E : rev (rev x) = x) by apply rev_involutive.
    destruct (rev x) as [|z r]; [contradiction|]. rewrite R, E, H, Ha by sizes. reflexivity.
  - intros e x G H [|fuel] L; [lia|]. cbn [p_expr rev app]. rewrite H by sizes. reflexivity.
  - intros p x fs y G Gf Hf [|fuel] L; [lia|]. cbn [p_expr]. rewrite rev_app_distr. cbn [rev app]. apply path_iff in G.
    rewrite rev_involutive, G, Hf by sizes. reflexivity.
  - intros n [|fuel] L; [lia|]. reflexivity.
  - intros p x G [|fuel] L; [lia|]. cbn [p_expr]. destruct (path_last _ _ G) as (r & n & E & _). apply path_iff in G.
    rewrite E at 1. rewrite rev_app_distr. cbn [rev app]. now rewrite G.
  - intros fuel L. reflexivity.
  - intros e x G H fuel L. unfold p_args. rewrite commas_free; [|eapply sum_nonempty; eauto|eapply sum_free; eauto]. cbn [map all_some]. now rewrite H.
  - intros e x G H fuel L. unfold p_args. rewrite commas_app by (eapply sum_free; eauto). cbn [map all_some]. rewrite H by sizes. reflexivity.
  - intros e x es tr y G H N Ga Ha fuel L. apply args_more; [eapply sum_free; eauto| |apply H; sizes|apply Ha; sizes].
    destruct es; [contradiction|]. eapply args_nonempty; eauto.
  - intros fuel L. reflexivity.
  - intros x e y N G H fuel L. unfold p_fields. rewrite commas_free; [|discriminate|apply field_free; eapply sum_free; eauto].
    cbn [fst map all_some]. rewrite (field_ok _ x e y N); [reflexivity|]. apply H. sizes.
  - intros x e y N G H fuel L. unfold p_fields. change (W x :: P ":" :: y ++ [P ","]) with ((W x :: P ":" :: y) ++ P "," :: []).
    rewrite commas_app by (apply field_free; eapply sum_free; eauto).
    cbn [fst map all_some]. rewrite (field_ok _ x e y N); [reflexivity|]. apply H. sizes.
  - intros x e y fs z N G H Nf Gf Hf fuel L. unfold p_fields. change (W x :: P ":" :: y ++ [P ","] ++ z) with ((W x :: P ":" :: y) ++ P "," :: z).
    rewrite commas_app by (apply field_free; eapply sum_free; eauto). destruct z as [|w z].
    { exfalso. destruct fs; [contradiction|]. eapply fields_nonempty; eauto. }
    cbn [fst map all_some]. rewrite (field_ok _ x e y N) by (apply H; sizes).
    specialize (Hf fuel). unfold p_fields in Hf. rewrite Hf by sizes. reflexivity.
Qed.
Lemma exp_iff l e : p_exp l = Some e <-> g_sum e l.
Proof. split; [apply (expr_sound _ LSum)|intros G; now apply expr_complete]. Qed.
