(** Proofs about GramM: items and texts. *)
From Coq Require Import List String Ascii NArith Bool Lia.
From Verif Require Import Base TermM CompareM SynM AttrM LexM GramM SpecText LexP GramP.
Import ListNotations.
Local Open Scope string_scope.
Local Open Scope list_scope.

(** ** Attributes and visibility *)
Definition no_attr (l : list tt) : Prop :=
  (forall s r, l <> Leaf (KDoc s) :: r) /\ (forall a r, l <> P "#" :: Group DBracket a :: r).
Lemma attrs_complete atts a l : g_attrs atts a -> no_attr l -> p_attrs (a ++ l) = Some (atts, l).
Proof.
  intros G [N1 N2]. induction G as [|s atts a G IH|b atts a Wb G IH].
  - cbn [app]. destruct l as [|x l]; [reflexivity|].
    assert (E : match l with Group DBracket a :: r => if punct "#" x then
        match p_attr a, p_attrs r with Some a, Some (atts, r) => Some (a :: atts, r) | _, _ => None end
        else Some ([], x :: l) | _ => Some ([], x :: l) end = Some ([], x :: l)).
    { destruct l as [|[|[] b] r]; try reflexivity. destruct (punct "#" x) eqn:Q; [|reflexivity]. apply punct_iff in Q. subst x. exfalso. now apply (N2 b r). }
    destruct x as [[]|]; try exact E. exfalso. now apply (N1 s l).
  - cbn [app p_attrs]. now rewrite IH.
  - cbn [app p_attrs]. change (punct "#" (P "#")) with true. cbv iota. rewrite IH. unfold p_attr.
    apply free_punct, free_exists in Wb. now rewrite Wb.
Qed.
Lemma attrs_sound n : forall l atts r, (List.length l <= n)%nat -> p_attrs l = Some (atts, r) -> exists a, l = a ++ r /\ g_attrs atts a.
Proof.
  induction n as [|n IH]; intros l atts r L H.
  - destruct l; [|cbn in L; lia]. injection H as <- <-. exists []. split; [reflexivity|constructor].
  - assert (Nil : Some ([], l) = Some (atts, r) -> exists a, l = a ++ r /\ g_attrs atts a).
    { intros [= <- <-]. exists []. split; [reflexivity|constructor]. }
    destruct l as [|x l]; [exact (Nil H)|].
    assert (D : (exists s, x = Leaf (KDoc s)) \/ (exists b r', x = P "#" /\ l = Group DBracket b :: r') \/ p_attrs (x :: l) = Some ([], x :: l)).
    { destruct x as [t|d us]; [destruct t; eauto|]; cbn [p_attrs]; (destruct l as [|[|[] b] r']; try (now right; right));
        try (now right; right). destruct (punct "#" (Leaf (KPunct c))) eqn:Q; [|now right; right]. apply punct_iff in Q. right. left. rewrite Q. eauto. }
    destruct D as [(s & ->)|[(b & r' & -> & ->)|D]]; [| |rewrite D in H; exact (Nil H)].
    + cbn [p_attrs] in H. destruct (p_attrs l) as [[atts' r']|] eqn:E; [|discriminate]. injection H as <- <-.
      destruct (IH l atts' r') as (a & -> & G); [cbn in L; lia|exact E|]. exists (Leaf (KDoc s) :: a). split; [reflexivity|now constructor].
    + cbn [p_attrs] in H. change (punct "#" (P "#")) with true in H. cbv iota in H. unfold p_attr in H. destruct (existsb _ b) eqn:X; [discriminate|].
      destruct (p_attrs r') as [[atts' r'']|] eqn:E; [|discriminate]. injection H as <- <-.
      destruct (IH r' atts' r'') as (a & -> & G); [cbn in L; lia|exact E|]. exists (P "#" :: Group DBracket b :: a). split; [reflexivity|].
      constructor; [|exact G]. now apply free_punct, free_exists.
Qed.
Lemma attrs_sound' l atts r : p_attrs l = Some (atts, r) -> exists a, l = a ++ r /\ g_attrs atts a.
Proof. apply (attrs_sound (List.length l)). lia. Qed.

Definition no_inner (l : list tt) : Prop :=
  (forall s r, l <> Leaf (KInner s) :: r) /\ (forall r, l <> P "#" :: P "!" :: r).
Lemma inner_complete i l : g_inner i -> no_inner l -> skip_inner (i ++ l) = l.
Proof.
  intros G [N1 N2]. induction G as [|s i G IH|a i G IH].
  - cbn [app]. destruct l as [|x l]; [reflexivity|].
    assert (E : match l with y :: Group DBracket _ :: r => if (punct "#" x && punct "!" y)%bool then skip_inner r else x :: l | _ => x :: l end = x :: l).
    { destruct l as [|y [|[|[] b] r]]; try reflexivity. destruct (punct "#" x) eqn:Q; [|reflexivity]. destruct (punct "!" y) eqn:Q'; [|reflexivity].
      apply punct_iff in Q, Q'. subst x y. exfalso. now apply (N2 (Group DBracket b :: r)). }
    destruct x as [[]|]; try exact E. exfalso. now apply (N1 s l).
  - exact IH.
  - exact IH.
Qed.
Lemma inner_sound n : forall l, (List.length l <= n)%nat -> exists i, l = i ++ skip_inner l /\ g_inner i.
Proof.
  induction n as [|n IH]; intros l L.
  - destruct l; [|cbn in L; lia]. exists []. split; [reflexivity|constructor].
  - assert (Nil : skip_inner l = l -> exists i, l = i ++ skip_inner l /\ g_inner i).
    { intros E. exists []. split; [now rewrite E|constructor]. }
    destruct l as [|x l]; [now apply Nil|].
    assert (D : (exists s, x = Leaf (KInner s)) \/ (exists b r', x = P "#" /\ l = P "!" :: Group DBracket b :: r') \/ skip_inner (x :: l) = x :: l).
    { destruct x as [t|d us]; [destruct t; eauto|]; cbn [skip_inner]; (destruct l as [|y [|[|[] b] r']]; try (now right; right));
        try (now right; right). destruct (punct "#" (Leaf (KPunct c))) eqn:Q; [|now right; right]. destruct (punct "!" y) eqn:Q'; [|now right; right].
      apply punct_iff in Q, Q'. right. left. rewrite Q, Q'. eauto. }
    destruct D as [(s & ->)|[(b & r' & -> & ->)|D]]; [| |exact (Nil D)].
    + destruct (IH l) as (i & E & G); [cbn in L; lia|]. exists (Leaf (KInner s) :: i). split; [|now constructor]. cbn [skip_inner app]. now rewrite <- E.
    + destruct (IH r') as (i & E & G); [cbn in L; lia|]. exists (P "#" :: P "!" :: Group DBracket b :: i). split; [|now constructor].
      change (skip_inner (P "#" :: P "!" :: Group DBracket b :: r')) with (skip_inner r'). cbn [app]. now rewrite <- E.
Qed.
Lemma inner_sound' l : exists i, l = i ++ skip_inner l /\ g_inner i.
Proof. apply (inner_sound (List.length l)). lia. Qed.
Lemma vis_complete v k l : g_vis v -> k <> "pub" -> skip_vis (v ++ W k :: l) = W k :: l.
Proof.
  intros G N. destruct G; cbn [app skip_vis].
  - cbn [word is_leaf]. apply String.eqb_neq in N. cbn. now rewrite N.
  - reflexivity.
  - reflexivity.
Qed.
Lemma vis_sound l : exists v, l = v ++ skip_vis l /\ g_vis v.
Proof.
  destruct l as [|x l]; [exists []; split; [reflexivity|constructor]|]. cbn [skip_vis]. destruct (word "pub" x) eqn:E.
  - apply word_iff in E. subst x. 
    assert (D : (exists b r, l = Group DParen b :: r) \/ match l with Group DParen _ :: r => r | _ => l end = l) by (destruct l as [|[|[] b] r]; eauto).
    destruct D as [(b & r & ->)|D].
    + exists [W "pub"; Group DParen b]. split; [reflexivity|constructor].
    + rewrite D. exists [W "pub"]. split; [reflexivity|constructor].
  - exists []. split; [reflexivity|constructor].
Qed.
(** After attributes: a visibility or a keyword. *)
Lemma vis_starts v k l : g_vis v -> exists j r, v ++ W k :: l = W j :: r /\ (v = [] /\ j = k \/ j = "pub").
Proof. intros G. destruct G; cbn; eexists; eexists; split; try reflexivity; auto. Qed.
Lemma no_attr_word j l : no_attr (W j :: l).
Proof. split; intros; discriminate. Qed.

(** ** Sequences *)
Section Seq.
  Variable A : Type.
  Variable R : A -> list tt -> Prop.
  Inductive seq : list A -> list tt -> Prop :=
  | seq_nil : seq [] []
  | seq_cons i x is y : R i x -> seq is y -> seq (i :: is) (x ++ y).
  Variable p : list tt -> option (A * list tt).
  Lemma many_sound : (forall l i r, p l = Some (i, r) -> exists x, l = x ++ r /\ R i x) ->
    forall fuel l is, many p fuel l = Some is -> seq is l.
  Proof.
    intros H fuel. induction fuel as [|fuel IH]; intros l is E; [discriminate|]. cbn [many] in E. destruct l as [|t l].
    - injection E as <-. constructor.
    - destruct (p (t :: l)) as [[i r]|] eqn:Q; [|discriminate]. destruct (many p fuel r) as [is'|] eqn:M; [|discriminate]. injection E as <-.
      destruct (H _ _ _ Q) as (x & -> & G). constructor; auto.
  Qed.
  Lemma many_step i x is y fuel : p (x ++ y) = Some (i, y) -> x <> [] -> (forall fuel, (List.length y < fuel)%nat -> many p fuel y = Some is) ->
    (List.length (x ++ y) < fuel)%nat -> many p fuel (x ++ y) = Some (i :: is).
  Proof.
    intros E N H L. destruct fuel as [|fuel]; [lia|]. cbn [many]. destruct (x ++ y) as [|t l] eqn:Q; [destruct x; [contradiction|discriminate]|].
    rewrite E, H; [reflexivity|]. rewrite <- Q, app_length in L. destruct x; [contradiction|]. cbn in L. lia.
  Qed.
End Seq.
Arguments seq {A}.

(** ** Implementations *)
Lemma fn_complete atts f params out o e b rest : name f -> g_output out o -> g_sum e b ->
  p_fn atts (W f :: Group DParen params :: o ++ [Group DBrace b] ++ rest) = Some (IFn (mk_method atts f out [SExpr e]), rest).
Proof.
  intros N G S. apply name_iff in N. apply exp_iff in S. unfold p_fn.
  assert (F : free (group DBrace) o).
  { destruct G as [|t l T F]; [apply free_nil|]. apply free_cons. split; [reflexivity|]. now apply free_group. }
  rewrite (proj2 (cut_some (group DBrace) (o ++ [Group DBrace b] ++ rest) o (Group DBrace b) rest)) by (repeat split; auto).
  rewrite S, N. destruct G as [|t l T _]; [reflexivity|]. apply type_iff in T. now rewrite T.
Qed.
Lemma fn_sound atts l i r : p_fn atts l = Some (i, r) ->
  exists f params out o e b, l = W f :: Group DParen params :: o ++ [Group DBrace b] ++ r /\
    i = IFn (mk_method atts f out [SExpr e]) /\ name f /\ g_output out o /\ g_sum e b.
Proof.
  unfold p_fn. destruct l as [|[[f| | | | | | | | |]|] [|[|[] params] l]]; try discriminate.
  destruct (cut (group DBrace) l) as [[[o y] r']|] eqn:C; [|discriminate]. apply cut_some in C. destruct C as (-> & Y & F).
  apply group_iff in Y. destruct Y as (b & ->). destruct (match o with [] => Some RDefault | _ => _ end) as [out|] eqn:O; [|discriminate].
  destruct (p_exp b) as [e|] eqn:E; [|discriminate]. destruct (is_name f) eqn:N; [|discriminate]. intros [= <- <-].
  exists f, params, out, o, e, b. split; [reflexivity|]. split; [reflexivity|]. split; [now apply name_iff|]. split; [|now apply exp_iff].
  destruct o as [|[[]|] t]; try discriminate.
  - injection O as <-. constructor.
  - destruct (p_type t) as [ty|] eqn:T; [|discriminate]. injection O as <-. constructor; [now apply type_iff|]. apply free_group. now apply free_cons in F.
Qed.
Lemma semi_iff l r : semi l = Some r <-> exists a, l = a ++ P ";" :: r /\ without (P ";") a.
Proof.
  unfold semi. destruct (cut (punct ";") l) as [[[a y] r']|] eqn:C.
  - pose proof C as C'. apply cut_some in C. destruct C as (-> & Y & F). apply punct_iff in Y. subst y. split.
    + intros [= <-]. exists a. split; [reflexivity|now apply free_punct].
    + intros (a' & E & W). assert (cut (punct ";") (a ++ P ";" :: r') = Some (a', P ";", r)) as Q.
      { apply cut_some. repeat split; [exact E|now apply free_punct]. }
      rewrite Q in C'. now injection C' as _ ->.
  - split; [discriminate|]. intros (a & -> & _). apply cut_none in C. specialize (C (P ";") ltac:(apply in_or_app; right; now left)). discriminate.
Qed.
Lemma impl_item_complete i x rest : g_impl_item i x -> p_impl_item (x ++ rest) = Some (i, rest).
Proof.
  intros [atts a v f params out o e b Ga Gv N Go Gs|atts a v k y l Ga Gv K N Wl]; unfold p_impl_item; rewrite <- !app_assoc; cbn [app].
  - destruct (vis_starts v "fn" (W f :: Group DParen params :: o ++ Group DBrace b :: rest) Gv) as (j & r & E & _).
    rewrite (attrs_complete atts a) by (auto; rewrite E; apply no_attr_word).
    rewrite vis_complete by (auto; discriminate). cbn [String.eqb]. change (String.eqb "fn" "fn") with true. cbv iota. now apply fn_complete.
  - destruct (vis_starts v k (W y :: l ++ P ";" :: rest) Gv) as (j & r & E & _).
    rewrite (attrs_complete atts a) by (auto; rewrite E; apply no_attr_word).
    rewrite vis_complete by (auto; destruct K; subst; discriminate).
    assert (S : semi (W y :: l ++ P ";" :: rest) = Some rest).
    { apply semi_iff. exists (W y :: l). split; [reflexivity|]. intros [Q|I]; [discriminate Q|contradiction]. }
    apply name_iff in N. destruct K as [->| ->]; cbn [String.eqb]; rewrite N, S; reflexivity.
Qed.
Lemma impl_item_sound l i r : p_impl_item l = Some (i, r) -> exists x, l = x ++ r /\ g_impl_item i x.
Proof.
  unfold p_impl_item. destruct (p_attrs l) as [[atts l1]|] eqn:A; [|discriminate]. destruct (attrs_sound' _ _ _ A) as (a & -> & Ga).
  destruct (vis_sound l1) as (v & E & Gv). destruct (skip_vis l1) as [|[[k| | | | | | | | |]|] l2]; try discriminate. rewrite E. clear A E.
  destruct (String.eqb_spec k "fn") as [->|N1].
  - intros H. destruct (fn_sound _ _ _ _ H) as (f & params & out & o & e & b & -> & -> & N & Go & Gs).
    exists (a ++ v ++ [W "fn"; W f; Group DParen params] ++ o ++ [Group DBrace b]). split; [now rewrite <- !app_assoc|econstructor; eauto].
  - destruct (String.eqb k "type" || String.eqb k "const")%bool eqn:K; [|discriminate].
    assert (Kk : k = "type" \/ k = "const") by (apply orb_true_iff in K; destruct K as [K|K]; apply String.eqb_eq in K; auto).
    destruct l2 as [|[[y| | | | | | | | |]|] l2]; try discriminate. destruct (is_name y) eqn:N; [|discriminate].
    destruct (semi (W y :: l2)) as [r'|] eqn:S; [|discriminate]. intros [= <- <-]. apply semi_iff in S. destruct S as (b & Eb & Wb).
    destruct b as [|z b]; [discriminate Eb|]. injection Eb as <- ->.
    exists (a ++ v ++ [W k; W y] ++ b ++ [P ";"]). split; [now rewrite <- !app_assoc|]. eapply II_other; eauto; [now apply name_iff|].
    intros I. apply Wb. now right.
Qed.
Lemma impl_item_starts i x : g_impl_item i x -> x <> [] /\ forall l, no_inner (x ++ l).
Proof.
  assert (H : forall atts a v k l, g_attrs atts a -> g_vis v -> a ++ v ++ W k :: l <> [] /\ forall l', no_inner ((a ++ v ++ W k :: l) ++ l')).
  { intros atts a v k l Ga Gv. destruct (vis_starts v k l Gv) as (j & r & E & _). rewrite E. split; [destruct a; discriminate|].
    intros l'. destruct Ga; split; intros; discriminate. }
  intros [atts a v f params out o e b Ga Gv N Go Gs|atts a v k y l Ga Gv K N Wl]; eapply H; eauto.
Qed.
Lemma impl_items_complete is l : g_impl_items is l -> forall fuel, (List.length l < fuel)%nat -> many p_impl_item fuel l = Some is.
Proof.
  induction 1 as [|i x is y G Gs IH]; intros fuel L; [destruct fuel; [lia|reflexivity]|].
  apply many_step; [now apply impl_item_complete|now apply (impl_item_starts i)|exact IH|exact L].
Qed.
Lemma impl_items_seq is l : seq g_impl_item is l -> g_impl_items is l.
Proof. induction 1; constructor; auto. Qed.
Lemma impl_items_start is l : g_impl_items is l -> no_inner l.
Proof. intros [|i x is' y G _]; [split; intros; discriminate|]. now apply (impl_item_starts i). Qed.
Lemma impl_items_iff is l : p_impl_items l = Some is <-> exists i b, l = i ++ b /\ g_inner i /\ g_impl_items is b.
Proof.
  unfold p_impl_items. split.
  - intros H. destruct (inner_sound' l) as (i & E & G). exists i, (skip_inner l). split; [exact E|]. split; [exact G|].
    apply impl_items_seq. eapply many_sound; [|exact H]. exact impl_item_sound.
  - intros (i & b & -> & G & S). rewrite inner_complete; [|exact G|eapply impl_items_start; eauto]. cbv zeta. apply impl_items_complete; [exact S|lia].
Qed.

(** ** Items *)
Lemma const_iff c l : p_const l = Some c <-> g_const c l.
Proof.
  split.
  - unfold p_const. destruct (p_attrs l) as [[atts l1]|] eqn:A; [|discriminate]. destruct (attrs_sound' _ _ _ A) as (a & -> & Ga).
    destruct (vis_sound l1) as (v & E & Gv). destruct (skip_vis l1) as [|k [|[[x| | | | | | | | |]|] [|d l2]]]; try discriminate. rewrite E. clear A E.
    destruct (word "const" k) eqn:Wk; [|discriminate]. destruct (punct ":" d) eqn:Pd; [|discriminate]. apply word_iff in Wk. apply punct_iff in Pd. subst k d.
    cbn [andb]. destruct (cut (punct "=") l2) as [[[t y] z]|] eqn:C; [|discriminate]. apply cut_some in C. destruct C as (-> & Y & F).
    apply punct_iff in Y. subst y. destruct (rev z) as [|d z'] eqn:R; [discriminate|]. apply rev_split in R. subst z.
    destruct (punct ";" d) eqn:Pd; [|discriminate]. apply punct_iff in Pd. subst d. destruct (p_type t) as [ty|] eqn:T; [|discriminate].
    destruct (p_exp (rev z')) as [e|] eqn:Ex; [|discriminate]. destruct (is_name x) eqn:N; [|discriminate]. intros [= <-].
    apply (C_const atts a v x ty t e (rev z')); auto; [now apply name_iff|now apply type_iff|now apply free_punct|now apply exp_iff].
  - intros [atts a v x t y e z Ga Gv N T Wy S]. unfold p_const. cbn [app].
    destruct (vis_starts v "const" (W x :: P ":" :: y ++ P "=" :: z ++ [P ";"]) Gv) as (j & r & E & _).
    rewrite (attrs_complete atts a) by (auto; rewrite E; apply no_attr_word). rewrite vis_complete by (auto; discriminate).
    change (word "const" (W "const") && punct ":" (P ":"))%bool with true. cbv iota.
    rewrite (proj2 (cut_some (punct "=") (y ++ P "=" :: z ++ [P ";"]) y (P "=") (z ++ [P ";"]))) by (repeat split; now apply free_punct).
    rewrite rev_app_distr. cbn [rev app]. change (punct ";" (P ";")) with true. cbv iota. rewrite rev_involutive.
    apply type_iff in T. apply exp_iff in S. apply name_iff in N. now rewrite T, S, N.
Qed.
Lemma impl_complete h t y i is b rest : (forall b, without (Group DBrace b) h) -> g_type t y ->
  (forall b, without (Group DBrace b) y) -> without (W "for") y -> g_inner i -> g_impl_items is b ->
  p_impl (h ++ [W "for"] ++ y ++ [Group DBrace (i ++ b)] ++ rest) = Some (IImpl t is, rest).
Proof.
  intros Fh T Fy Wy Gi Gs. unfold p_impl.
  rewrite (proj2 (cut_some (group DBrace) (h ++ [W "for"] ++ y ++ [Group DBrace (i ++ b)] ++ rest) (h ++ [W "for"] ++ y) (Group DBrace (i ++ b)) rest)).
  - rewrite (proj2 (cut_last_some (word "for") (h ++ [W "for"] ++ y) h (W "for") y)) by (repeat split; now apply free_word).
    apply type_iff in T. rewrite T. rewrite (proj2 (impl_items_iff is (i ++ b))) by eauto. reflexivity.
  - split; [now rewrite <- !app_assoc|]. split; [reflexivity|]. apply free_app. split; [now apply free_group|]. apply free_cons. split; [reflexivity|now apply free_group].
Qed.
Lemma impl_sound l it r : p_impl l = Some (it, r) -> exists h t y i is b,
  l = h ++ [W "for"] ++ y ++ [Group DBrace (i ++ b)] ++ r /\ it = IImpl t is /\ (forall b, without (Group DBrace b) h) /\ g_type t y /\
  (forall b, without (Group DBrace b) y) /\ without (W "for") y /\ g_inner i /\ g_impl_items is b.
Proof.
  unfold p_impl. destruct (cut (group DBrace) l) as [[[hd x] r']|] eqn:C; [|discriminate]. apply cut_some in C. destruct C as (-> & X & F).
  apply group_iff in X. destruct X as (bb & ->). destruct (cut_last (word "for") hd) as [[[h z] y]|] eqn:C; [|discriminate].
  apply cut_last_some in C. destruct C as (-> & Z & Fy). apply word_iff in Z. subst z. destruct (p_type y) as [t|] eqn:T; [|discriminate].
  destruct (p_impl_items bb) as [is|] eqn:I; [|discriminate]. intros [= <- <-]. apply impl_items_iff in I. destruct I as (i & b & -> & Gi & Gs).
  apply free_app in F. destruct F as [F1 F2]. apply free_cons in F2. destruct F2 as [_ F2].
  exists h, t, y, i, is, b. repeat split; auto; [now rewrite <- app_assoc|now apply free_group|now apply type_iff|now apply free_group|now apply free_word].
Qed.
Lemma macro_complete p x c b rest : g_path p x -> List.last (segments p) "" = "parameter_types" -> g_const c b ->
  p_macro (x ++ [P "!"; Group DBrace b] ++ rest) = Some (IMacro p (Some c), rest).
Proof.
  intros G L C. unfold p_macro.
  rewrite (proj2 (cut_some (punct "!") (x ++ [P "!"; Group DBrace b] ++ rest) x (P "!") (Group DBrace b :: rest)))
    by (repeat split; eapply path_free_punct; eauto).
  apply path_iff in G. apply const_iff in C. rewrite G, C, L. reflexivity.
Qed.
Lemma macro_sound l it r : p_macro l = Some (it, r) -> exists p x c b,
  l = x ++ [P "!"; Group DBrace b] ++ r /\ it = IMacro p (Some c) /\ g_path p x /\ List.last (segments p) "" = "parameter_types" /\ g_const c b.
Proof.
  unfold p_macro. destruct (cut (punct "!") l) as [[[x y] [|[|[] b] r']]|] eqn:C; try discriminate. apply cut_some in C. destruct C as (-> & Y & _).
  apply punct_iff in Y. subst y. destruct (p_path x) as [p|] eqn:Q; [|discriminate]. destruct (p_const b) as [c|] eqn:K; [|discriminate].
  destruct (String.eqb_spec (List.last (segments p) "") "parameter_types") as [E|]; [|discriminate]. intros [= <- <-].
  exists p, x, c, b. repeat split; auto; [now apply path_iff|now apply const_iff].
Qed.
Definition semi_or_brace (x : tt) : bool := punct ";" x || group DBrace x.
Lemma header_free l : header l <-> free semi_or_brace l.
Proof. unfold header, semi_or_brace. rewrite free_or, free_punct, free_group. reflexivity. Qed.
Lemma semi_or_brace_iff x : semi_or_brace x = true -> x = P ";" \/ exists b, x = Group DBrace b.
Proof. unfold semi_or_brace. rewrite orb_true_iff, punct_iff, group_iff. auto. Qed.
Lemma cut_header l x rest : header l -> semi_or_brace x = true -> cut semi_or_brace (l ++ x :: rest) = Some (l, x, rest).
Proof. intros H X. apply cut_some. split; [reflexivity|]. split; [exact X|now apply header_free]. Qed.

Scheme item_min := Minimality for g_item Sort Prop with items_min := Minimality for g_items Sort Prop.
Combined Scheme items_ind from item_min, items_min.
Lemma item_starts i x : g_item i x -> x <> [] /\ forall l, no_inner (x ++ l).
Proof.
  assert (K : forall atts a k l, g_attrs atts a -> a ++ W k :: l <> [] /\ forall l', no_inner ((a ++ W k :: l) ++ l')).
  { intros atts a k l Ga. split; [destruct a; discriminate|]. intros l'. destruct Ga; split; intros; discriminate. }
  assert (H : forall atts a v k l, g_attrs atts a -> g_vis v -> a ++ v ++ W k :: l <> [] /\ forall l', no_inner ((a ++ v ++ W k :: l) ++ l')).
  { intros atts a v k l Ga Gv. destruct (vis_starts v k l Gv) as (j & r & E & _). rewrite E. eapply K; eauto. }
  intros [atts a v l Ga Gv W0|atts a v k l b Ga Gv K0 Hl|atts a v l Ga Gv Hl|atts a v x0 Ga Gv N|atts a v x0 j is b Ga Gv N Gj Gs
    |atts a h t y j is b Ga Fh T Fy Wy Gj Gs|atts a p x0 c b Ga Gp L Gc]; try (eapply H; eauto; fail).
  - eapply K; eauto.
  - destruct Gp as [xs l0 S|xs l0 S].
    + destruct S; cbn [app]; eapply K; eauto.
    + cbn [app]. split; [destruct a; discriminate|]. intros l'. destruct Ga; split; intros; discriminate.
Qed.
Lemma items_start is l : g_items is l -> no_inner l.
Proof. intros [|i x is' y G _]; [split; intros; discriminate|]. now apply (item_starts i). Qed.
(** Items with a keyword and a visibility. *)
Lemma item_decl fuel atts a v k l : g_attrs atts a -> g_vis v -> In k ["use"; "trait"; "fn"; "struct"; "mod"] ->
  p_item (S fuel) (a ++ v ++ W k :: l) = p_decl (fun b => let b := skip_inner b in many (p_item fuel) (S (List.length b)) b) (W k :: l).
Proof.
  intros Ga Gv K. cbn [p_item]. destruct (vis_starts v k l Gv) as (j & r & E & D).
  rewrite (attrs_complete atts a) by (auto; rewrite E; apply no_attr_word).
  assert (k <> "pub") as Nk by (intros ->; cbn in K; intuition discriminate).
  pose proof (vis_complete v k l Gv Nk) as V. rewrite E in V |- *. rewrite V.
  assert (J : String.eqb j "impl" = false /\ is_name j = false).
  { destruct D as [[-> ->]| ->]; [|split; reflexivity]. cbn in K. intuition (subst; reflexivity). }
  destruct J as [-> ->]. reflexivity.
Qed.
Lemma item_complete :
  (forall i x, g_item i x -> forall fuel rest, (lsize x < fuel)%nat -> p_item fuel (x ++ rest) = Some (i, rest)) /\
  (forall is l, g_items is l -> forall fuel n, (lsize l < fuel)%nat -> (List.length l < n)%nat -> many (p_item fuel) n l = Some is).
Proof.
  apply items_ind.
  - intros atts a v l Ga Gv Wl [|fuel] rest L; [lia|]. rewrite <- !app_assoc. cbn [app]. rewrite (item_decl fuel atts) by (auto; cbn; tauto).
    cbn [p_decl]. change (String.eqb "use" "use") with true. cbv iota. rewrite (proj2 (semi_iff (l ++ P ";" :: rest) rest)) by eauto. reflexivity.
  - intros atts a v k l b Ga Gv K H [|fuel] rest L; [lia|]. rewrite <- !app_assoc. cbn [app].
    rewrite (item_decl fuel atts) by (auto; destruct K as [->|[->| ->]]; cbn; tauto).
    cbn [p_decl]. change (fun x => punct ";" x || group DBrace x)%bool with semi_or_brace.
    rewrite (cut_header l (Group DBrace b) rest H eq_refl). destruct K as [->|[->| ->]]; reflexivity.
  - intros atts a v l Ga Gv H [|fuel] rest L; [lia|]. rewrite <- !app_assoc. cbn [app]. rewrite (item_decl fuel atts) by (auto; cbn; tauto).
    cbn [p_decl]. change (fun x => punct ";" x || group DBrace x)%bool with semi_or_brace. rewrite (cut_header l (P ";") rest H eq_refl). reflexivity.
  - intros atts a v x Ga Gv N [|fuel] rest L; [lia|]. rewrite <- !app_assoc. cbn [app]. rewrite (item_decl fuel atts) by (auto; cbn; tauto).
    apply name_iff in N. cbn [p_decl]. rewrite N. reflexivity.
  - intros atts a v x i is b Ga Gv N Gi Gs IH [|fuel] rest L; [lia|]. rewrite <- !app_assoc. cbn [app]. rewrite (item_decl fuel atts) by (auto; cbn; tauto).
    apply name_iff in N. cbn [p_decl]. rewrite N. cbn [negb]. change (punct ";" (Group DBrace (i ++ b))) with false.
    rewrite (inner_complete i b Gi (items_start _ _ Gs)). cbv zeta. rewrite IH; [reflexivity| |lia]. sizes.
  - intros atts a h t y i is b Ga Fh T Fy Wy Gi Gs [|fuel] rest L; [lia|]. rewrite <- !app_assoc. cbn [app p_item].
    rewrite (attrs_complete atts a) by (auto; apply no_attr_word). change (String.eqb "impl" "impl") with true. cbv iota.
    exact (impl_complete h t y i is b rest Fh T Fy Wy Gi Gs).
  - intros atts a p x c b Ga Gp Lp Gc [|fuel] rest L; [lia|]. rewrite <- !app_assoc. cbn [p_item].
    pose proof (macro_complete p x c b rest Gp Lp Gc) as M.
    assert (D : (exists n r, x = W n :: r /\ name n) \/ exists r, x = Leaf KColons :: r).
    { destruct Gp as [xs l S|xs l S]; [|eauto]. left. destruct S; eauto. }
    destruct D as [(n & r & -> & N)|(r & ->)]; cbn [app] in M |- *.
    + rewrite (attrs_complete atts a) by (auto; apply no_attr_word). rewrite (name_not n "impl" N) by (cbn; tauto). apply name_iff in N. now rewrite N.
    + rewrite (attrs_complete atts a) by (auto; split; intros; discriminate). exact M.
  - intros fuel [|n] _ L; [lia|reflexivity].
  - intros i x is y Gx IHx Gy IHy fuel n Lf L. apply many_step; [apply IHx; sizes|now apply (item_starts i)| |exact L].
    intros n' L'. apply IHy; [sizes|exact L'].
Qed.
Lemma items_seq is l : seq g_item is l -> g_items is l.
Proof. induction 1; constructor; auto. Qed.
Lemma decl_sound f v l it r : g_vis v -> (forall b is, f b = Some is -> exists i b', b = i ++ b' /\ g_inner i /\ g_items is b') ->
  p_decl f l = Some (it, r) -> exists y, l = y ++ r /\ forall atts a, g_attrs atts a -> g_item it (a ++ v ++ y).
Proof.
  intros Gv Hf. unfold p_decl. destruct l as [|[[k| | | | | | | | |]|] l]; try discriminate.
  destruct (String.eqb_spec k "use") as [->|_].
  { destruct (semi l) as [r'|] eqn:S; [|discriminate]. intros [= <- <-]. apply semi_iff in S. destruct S as (b & -> & Wb).
    exists ([W "use"] ++ b ++ [P ";"]). split; [cbn; now rewrite <- app_assoc|]. intros. eapply I_use; eauto. }
  change (fun x => punct ";" x || group DBrace x)%bool with semi_or_brace.
  destruct (String.eqb k "trait" || String.eqb k "fn")%bool eqn:K.
  { destruct (cut semi_or_brace l) as [[[h x] r']|] eqn:C; [|discriminate]. apply cut_some in C. destruct C as (-> & X & F).
    destruct x as [|d b]; [discriminate|]. intros [= <- <-]. apply semi_or_brace_iff in X. destruct X as [X|(b' & X)]; [discriminate X|]. injection X as -> ->.
    exists ([W k] ++ h ++ [Group DBrace b']). split; [cbn; now rewrite <- app_assoc|]. intros. eapply I_block; eauto; [|now apply header_free].
    apply orb_true_iff in K. destruct K as [K|K]; apply String.eqb_eq in K; auto. }
  destruct (String.eqb_spec k "struct") as [->|_].
  { destruct (cut semi_or_brace l) as [[[h x] r']|] eqn:C; [|discriminate]. apply cut_some in C. destruct C as (-> & X & F). apply header_free in F.
    intros [= <- <-]. apply semi_or_brace_iff in X. exists ([W "struct"] ++ h ++ [x]). split; [cbn; now rewrite <- app_assoc|]. intros.
    destruct X as [->|(b & ->)]; [eapply I_struct; eauto|eapply I_block; eauto]. }
  destruct (String.eqb_spec k "mod") as [->|_]; [|discriminate].
  destruct l as [|[[x| | | | | | | | |]|] [|y l]]; try discriminate. destruct (is_name x) eqn:N; [|discriminate]. apply name_iff in N. cbn [negb].
  destruct (punct ";" y) eqn:Y.
  - apply punct_iff in Y. subst y. intros [= <- <-]. exists [W "mod"; W x; P ";"]. split; [reflexivity|]. intros. eapply I_file; eauto.
  - destruct y as [|[] b]; try discriminate. destruct (f b) as [is|] eqn:Q; [|discriminate]. intros [= <- <-]. destruct (Hf _ _ Q) as (i & b' & -> & Gi & Gs).
    exists [W "mod"; W x; Group DBrace (i ++ b')]. split; [reflexivity|]. intros. eapply I_mod; eauto.
Qed.
Lemma item_sound fuel : forall l it r, p_item fuel l = Some (it, r) -> exists x, l = x ++ r /\ g_item it x.
Proof.
  induction fuel as [|fuel IH]; intros l it r H; [discriminate|]. cbn [p_item] in H.
  destruct (p_attrs l) as [[atts l1]|] eqn:A; [|discriminate]. destruct (attrs_sound' _ _ _ A) as (a & -> & Ga). clear A.
  assert (M : p_macro l1 = Some (it, r) -> exists x, a ++ l1 = x ++ r /\ g_item it x).
  { intros Q. destruct (macro_sound _ _ _ Q) as (p & x & c & b & -> & -> & Gp & L & Gc).
    exists (a ++ x ++ [P "!"; Group DBrace b]). split; [now rewrite <- !app_assoc|]. eapply I_macro; eauto. }
  destruct l1 as [|[[k| | | | | | | | |]|] l2]; try (exact (M H)).
  destruct (String.eqb_spec k "impl") as [->|_].
  - destruct (impl_sound _ _ _ H) as (h & t & y & i & is & b & -> & -> & Fh & T & Fy & Wy & Gi & Gs).
    exists (a ++ [W "impl"] ++ h ++ [W "for"] ++ y ++ [Group DBrace (i ++ b)]). split; [now rewrite <- !app_assoc|]. eapply I_impl; eauto.
  - destruct (is_name k); [exact (M H)|]. destruct (vis_sound (W k :: l2)) as (v & E & Gv). clear M.
    assert (Hf : forall b is, (fun b => let b := skip_inner b in many (p_item fuel) (S (List.length b)) b) b = Some is ->
      exists i b', b = i ++ b' /\ g_inner i /\ g_items is b').
    { intros b is Q. cbv zeta beta in Q. destruct (inner_sound' b) as (i & Eb & Gi). exists i, (skip_inner b). split; [exact Eb|]. split; [exact Gi|].
      apply items_seq. eapply many_sound; [|exact Q]. exact IH. }
    destruct (decl_sound _ v _ _ _ Gv Hf H) as (y & Ey & G). rewrite E, Ey.
    exists (a ++ v ++ y). split; [now rewrite <- !app_assoc|]. now apply (G atts).
Qed.
Lemma file_iff is l : p_file l = Some is <-> exists i b, l = i ++ b /\ g_inner i /\ g_items is b.
Proof.
  unfold p_file. split.
  - intros H. destruct (inner_sound' l) as (i & E & G). exists i, (skip_inner l). split; [exact E|]. split; [exact G|].
    apply items_seq. eapply many_sound; [|exact H]. apply item_sound.
  - intros (i & b & -> & G & S). rewrite (inner_complete i b G (items_start _ _ S)). cbv zeta. apply item_complete; [exact S|lia|lia].
Qed.

(** ** Texts *)
Lemma read_iff s is : read_items s = Some is <-> text_of is s.
Proof.
  unfold read_items, text_of. split.
  - destruct (lex s) as [ts|] eqn:L; [|discriminate]. destruct (trees ts) as [l|] eqn:T; [|discriminate]. intros H.
    apply file_iff in H. destruct H as (i & b & -> & Gi & Gs). exists ts, i, b. repeat split; auto; [now apply lex_iff|now apply trees_iff].
  - intros (ts & i & l & L & T & Gi & Gs). apply lex_iff in L. apply trees_iff in T. rewrite L, T. apply file_iff. eauto.
Qed.
Lemma read_expr_iff s e : read_expr s = Some e <-> expr_text e s.
Proof.
  unfold read_expr, expr_text. split.
  - destruct (lex s) as [ts|] eqn:L; [|discriminate]. destruct (trees ts) as [l|] eqn:T; [|discriminate]. intros H.
    exists ts, l. repeat split; [now apply lex_iff|now apply trees_iff|now apply exp_iff].
  - intros (ts & l & L & T & G). apply lex_iff in L. apply trees_iff in T. rewrite L, T. now apply exp_iff.
Qed.
Lemma text_unique s is is' : text_of is s -> text_of is' s -> is = is'.
Proof. intros A B. apply read_iff in A, B. congruence. Qed.
