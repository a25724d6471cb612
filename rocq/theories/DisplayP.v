(** Displayed equations read back. *)
From Coq Require Import List String Ascii NArith ZArith Bool Lia Sorted.
From Verif Require Import Base ScopeM TermM SpecTerm TermP FmtM SpecFmt DecP.
Import ListNotations.
Local Open Scope string_scope.

(** ** Tokens *)
Lemma flush_app w l : flush w l = (flush w [] ++ l)%list.
Proof. destruct w; reflexivity. Qed.

Lemma tokens_blank s s' : forall w, tokens w (s ++ String " " s') = (tokens w s ++ tokens "" s')%list.
Proof.
  induction s as [|c s IH]; intros w.
  - cbn. apply flush_app.
  - cbn [append tokens]. destruct (Ascii.eqb c " "); [rewrite IH, (flush_app w (_ ++ _)), (flush_app w (tokens _ _)); now rewrite <- app_assoc|].
    destruct (Ascii.eqb c "("); [rewrite IH, (flush_app w (_ :: _ ++ _)), (flush_app w (_ :: tokens _ _)); now rewrite <- app_assoc|].
    destruct (Ascii.eqb c ")"); [rewrite IH, (flush_app w (_ :: _ ++ _)), (flush_app w (_ :: tokens _ _)); now rewrite <- app_assoc|].
    apply IH.
Qed.
Lemma tokens_close s : forall w, tokens w (s ++ ")") = (tokens w s ++ [TClose])%list.
Proof.
  induction s as [|c s IH]; intros w.
  - cbn. apply flush_app.
  - cbn [append tokens]. destruct (Ascii.eqb c " "); [rewrite IH, (flush_app w (_ ++ _)), (flush_app w (tokens _ _)); now rewrite <- app_assoc|].
    destruct (Ascii.eqb c "("); [rewrite IH, (flush_app w (_ :: _ ++ _)), (flush_app w (_ :: tokens _ _)); now rewrite <- app_assoc|].
    destruct (Ascii.eqb c ")"); [rewrite IH, (flush_app w (_ :: _ ++ _)), (flush_app w (_ :: tokens _ _)); now rewrite <- app_assoc|].
    apply IH.
Qed.
Definition toks (s : string) : list token := tokens "" s.
Lemma toks_op op a b : toks (a ++ String " " (String op (String " " b))) = (toks a ++ toks (String op "") ++ toks b)%list.
Proof. unfold toks. rewrite tokens_blank. f_equal. apply (tokens_blank (String op "") b). Qed.
Lemma toks_paren s : toks ("(" ++ s ++ ")") = (TOpen :: toks s ++ [TClose])%list.
Proof. unfold toks. cbn. f_equal. apply tokens_close. Qed.

Definition plain_char (c : ascii) : bool := is_letter c || is_digit c.
Lemma plain_char_special c : plain_char c = true -> Ascii.eqb c " " = false /\ Ascii.eqb c "(" = false /\ Ascii.eqb c ")" = false.
Proof.
  intros H. repeat split; match goal with |- Ascii.eqb c ?d = false => destruct (Ascii.eqb_spec c d) as [->|]; [discriminate H|reflexivity] end.
Qed.
Lemma tokens_plain s : forall w, all_chars plain_char s = true -> tokens w s = flush (w ++ s) [].
Proof.
  induction s as [|c s IH]; intros w H; cbn [tokens]; [now rewrite app_str_nil|].
  cbn [all_chars] in H. apply andb_true_iff in H. destruct H as [H1 H2].
  destruct (plain_char_special c H1) as (-> & -> & ->). rewrite IH by assumption.
  rewrite app_str_assoc. reflexivity.
Qed.
Lemma toks_plain s : all_chars plain_char s = true -> s <> "" -> toks s = [TWord s].
Proof. intros H N. unfold toks. rewrite tokens_plain by assumption. cbn. destruct s; [congruence|reflexivity]. Qed.
Lemma all_chars_impl (p q : ascii -> bool) s : (forall c, p c = true -> q c = true) -> all_chars p s = true -> all_chars q s = true.
Proof. intros H. induction s; cbn; [auto|]. rewrite !andb_true_iff. intros [A B]. auto. Qed.

(** ** Grammar *)
Definition fn : Type := (string -> N) -> N.
Inductive gatom : list token -> fn -> Prop :=
| ga_word w f : w <> "+" -> w <> "*" -> (forall rho, f rho = xval rho (word w)) -> gatom [TWord w] f
| ga_paren l f : gsum l f -> gatom (TOpen :: l ++ [TClose]) f
with gprod : list token -> fn -> Prop :=
| gp_one l f : gatom l f -> gprod l f
| gp_mul a b f g h : gatom a f -> gprod b g -> (forall rho, h rho = f rho * g rho)%N -> gprod (a ++ TWord "*" :: b) h
with gsum : list token -> fn -> Prop :=
| gs_one l f : gprod l f -> gsum l f
| gs_add a b f g h : gprod a f -> gsum b g -> (forall rho, h rho = f rho + g rho)%N -> gsum (a ++ TWord "+" :: b) h.
Scheme gatom_mind := Induction for gatom Sort Prop
  with gprod_mind := Induction for gprod Sort Prop
  with gsum_mind := Induction for gsum Sort Prop.
Combined Scheme g_mind from gatom_mind, gprod_mind, gsum_mind.

Lemma gprod_cat a f : gprod a f -> forall b g h, gprod b g -> (forall rho, h rho = f rho * g rho)%N -> gprod (a ++ TWord "*" :: b) h.
Proof.
  induction 1 as [l f A|a b f g h A B IH E]; intros b' g' h' B' E'.
  - eapply gp_mul; eauto.
  - rewrite <- app_assoc. cbn. eapply gp_mul; [exact A| |].
    + eapply (IH _ _ (fun rho => g rho * g' rho)%N B'). reflexivity.
    + intros rho. rewrite E', E. cbn. lia.
Qed.
Lemma gsum_cat a f : gsum a f -> forall b g h, gsum b g -> (forall rho, h rho = f rho + g rho)%N -> gsum (a ++ TWord "+" :: b) h.
Proof.
  induction 1 as [l f A|a b f g h A B IH E]; intros b' g' h' B' E'.
  - eapply gs_add; eauto.
  - rewrite <- app_assoc. cbn. eapply gs_add; [exact A| |].
    + eapply (IH _ _ (fun rho => g rho + g' rho)%N B'). reflexivity.
    + intros rho. rewrite E', E. cbn. lia.
Qed.

(** ** The reader accepts the grammar *)
Definition no_op (op : string) (rest : list token) : Prop := forall l, rest <> TWord op :: l.
Lemma read_sum_S f l : read_sum (S f) l = match read_product f l with
      | Some (a, TWord "+" :: l') =>
          match read_sum f l' with Some (b, l'') => Some (XAdd a b, l'') | None => None end
      | r => r
      end.
Proof. reflexivity. Qed.
Lemma read_product_S f l : read_product (S f) l = match read_atom f l with
      | Some (a, TWord "*" :: l') =>
          match read_product f l' with Some (b, l'') => Some (XMul a b, l'') | None => None end
      | r => r
      end.
Proof. reflexivity. Qed.
Lemma sum_stop f (a : expr) rest : no_op "+" rest ->
  match Some (a, rest) with
  | Some (a, TWord "+" :: l') => match read_sum f l' with Some (b, l'') => Some (XAdd a b, l'') | None => None end
  | r => r
  end = Some (a, rest).
Proof.
  intros H. destruct rest as [|[| |w] l]; try reflexivity. destruct (String.eqb_spec w "+"); [subst; now destruct (H l)|].
  destruct w as [|[[] [] [] [] [] [] [] []] [|]]; try reflexivity. congruence.
Qed.
Lemma product_stop f (a : expr) rest : no_op "*" rest ->
  match Some (a, rest) with
  | Some (a, TWord "*" :: l') => match read_product f l' with Some (b, l'') => Some (XMul a b, l'') | None => None end
  | r => r
  end = Some (a, rest).
Proof.
  intros H. destruct rest as [|[| |w] l]; try reflexivity. destruct (String.eqb_spec w "*"); [subst; now destruct (H l)|].
  destruct w as [|[[] [] [] [] [] [] [] []] [|]]; try reflexivity. congruence.
Qed.

Lemma reads :
  (forall l f, gatom l f -> forall rest n, (3 * List.length l - 2 <= n)%nat ->
     exists e, read_atom n (l ++ rest) = Some (e, rest) /\ forall rho, xval rho e = f rho) /\
  (forall l f, gprod l f -> forall rest n, (3 * List.length l - 1 <= n)%nat -> no_op "*" rest ->
     exists e, read_product n (l ++ rest) = Some (e, rest) /\ forall rho, xval rho e = f rho) /\
  (forall l f, gsum l f -> forall rest n, (3 * List.length l <= n)%nat -> no_op "*" rest -> no_op "+" rest ->
     exists e, read_sum n (l ++ rest) = Some (e, rest) /\ forall rho, xval rho e = f rho).
Proof.
  assert (L : (forall l f, gatom l f -> l <> []) /\ (forall l f, gprod l f -> l <> []) /\ (forall l f, gsum l f -> l <> [])).
  { apply g_mind; intros; try discriminate; auto; destruct a; discriminate || assumption. }
  destruct L as (LA & LP & LS).
  assert (len : forall l : list token, l <> [] -> (1 <= List.length l)%nat) by (intros []; cbn; [congruence|lia]).
  apply g_mind.
  - intros w f N1 N2 E rest [|n] Hn; [cbn in Hn; lia|]. exists (word w). split; [|intros; now rewrite E].
    cbn. destruct (String.eqb_spec w "+"); [congruence|]. destruct (String.eqb_spec w "*"); [congruence|]. reflexivity.
  - intros l f G IH rest [|n] Hn; [cbn in Hn; rewrite app_length in Hn; cbn in Hn; lia|].
    cbn [List.length] in Hn. rewrite app_length in Hn. cbn in Hn.
    destruct (IH (TClose :: rest) n) as (e & R & V); [lia|discriminate|discriminate|].
    exists e. split; [|exact V]. cbn [app read_atom]. rewrite <- app_assoc. cbn [app]. rewrite R. reflexivity.
  - intros l f G IH rest n Hn NO. pose proof (len _ (LA _ _ G)). destruct n as [|n]; [lia|].
    destruct (IH rest n) as (e & R & V); [lia|]. exists e. split; [|exact V].
    rewrite read_product_S, R. now apply product_stop.
  - intros a b f g h GA IHA GB IHB E rest n Hn NO. pose proof (len _ (LA _ _ GA)). pose proof (len _ (LP _ _ GB)).
    rewrite app_length in Hn. cbn [List.length] in Hn. destruct n as [|n]; [lia|].
    destruct (IHA (TWord "*" :: b ++ rest) n) as (e & R & V); [lia|].
    destruct (IHB rest n) as (e' & R' & V'); [lia|exact NO|].
    exists (XMul e e'). split.
    + rewrite read_product_S, <- app_assoc. cbn [app]. rewrite R, R'. reflexivity.
    + intros rho. cbn. now rewrite V, V', E.
  - intros l f G IH rest n Hn NO NO'. pose proof (len _ (LP _ _ G)). destruct n as [|n]; [lia|].
    destruct (IH rest n) as (e & R & V); [lia|exact NO|]. exists e. split; [|exact V].
    rewrite read_sum_S, R. now apply sum_stop.
  - intros a b f g h GA IHA GB IHB E rest n Hn NO NO'. pose proof (len _ (LP _ _ GA)). pose proof (len _ (LS _ _ GB)).
    rewrite app_length in Hn. cbn [List.length] in Hn. destruct n as [|n]; [lia|].
    destruct (IHA (TWord "+" :: b ++ rest) n) as (e & R & V); [lia|intros l C; discriminate C|].
    destruct (IHB rest n) as (e' & R' & V'); [lia|exact NO|exact NO'|].
    exists (XAdd e e'). split.
    + rewrite read_sum_S, <- app_assoc. cbn [app]. rewrite R, R'. reflexivity.
    + intros rho. cbn. now rewrite V, V', E.
Qed.

Lemma gsum_reads s f : gsum (toks s) f -> exists e, read_equation s = Some e /\ forall rho, xval rho e = f rho.
Proof.
  intros G. destruct reads as (_ & _ & H). destruct (H _ _ G [] (3 * List.length (toks s) + 3)%nat) as (e & R & V).
  - lia.
  - intros l; discriminate.
  - intros l; discriminate.
  - rewrite app_nil_r in R. exists e. split; [|exact V]. unfold read_equation. fold (toks s). rewrite R. reflexivity.
Qed.

(** ** Words *)
Lemma gatom_num n : gatom (toks (dec_of_N n)) (fun _ => n).
Proof.
  rewrite toks_plain.
  - apply ga_word.
    + intros C. pose proof (read_dec_dec n) as R. rewrite C in R. discriminate R.
    + intros C. pose proof (read_dec_dec n) as R. rewrite C in R. discriminate R.
    + intros rho. unfold word. now rewrite read_dec_dec.
  - apply (all_chars_impl is_digit); [|apply dec_digits]. intros c H. unfold plain_char. now rewrite H, orb_true_r.
  - apply dec_nonempty.
Qed.
Lemma letter_not_digit c : is_letter c = true -> read_digit c = None.
Proof.
  unfold is_letter, read_digit. set (n := N_of_ascii c). intros H.
  destruct ((48 <=? n) && (n <=? 57))%N eqn:E; [|reflexivity].
  rewrite andb_true_iff, !N.leb_le in E. rewrite !orb_true_iff, !andb_true_iff, !N.leb_le, N.eqb_eq in H. lia.
Qed.
Lemma gatom_var x : is_ident x -> gatom (toks x) (fun rho => rho x).
Proof.
  intros (c & s & -> & L & A). rewrite toks_plain.
  - apply ga_word.
    + intros C. injection C as -> _. discriminate L.
    + intros C. injection C as -> _. discriminate L.
    + intros rho. unfold word. cbn. now rewrite (letter_not_digit c L).
  - cbn. unfold plain_char at 1. now rewrite L.
  - discriminate.
Qed.

(** ** Displayed terms *)
Lemma fmt_scalar_small n : (n < 1000)%N -> fmt_scalar n = dec_of_N n.
Proof.
  intros H. unfold fmt_scalar.
  repeat match goal with |- context [N.leb ?k n] => destruct (N.leb_spec k n); [lia|] end. reflexivity.
Qed.
Notation mf := (maybe_fmt fmt_scalar (N.eqb 0) (N.eqb 1)).
Definition fval (t : sterm) : fn := fun rho => poly_val rho t.
Lemma is_zero_spec (t : sterm) : is_const_zero (N.eqb 0) t = true <-> is_zero t.
Proof.
  unfold is_zero. destruct t; cbn [is_const_zero is_const_one]; rewrite ?N.eqb_eq; split; intros H; try discriminate H;
    try (destruct H as [H|H]; congruence); subst; auto.
Qed.
Lemma is_one_spec (t : sterm) : is_const_one (N.eqb 1) t = true <-> is_one t.
Proof.
  unfold is_one. destruct t; cbn [is_const_zero is_const_one]; rewrite ?N.eqb_eq; split; intros H; try discriminate H;
    try (destruct H as [H|H]; congruence); subst; auto.
Qed.
Lemma is_one_val t : is_one t -> forall rho, poly_val rho t = 1%N.
Proof. intros [->| ->] rho; pv; reflexivity. Qed.
Lemma is_zero_val t : is_zero t -> forall rho, poly_val rho t = 0%N.
Proof. intros [->| ->] rho; pv; reflexivity. Qed.
Lemma no_zero_not t : no_zero t -> ~ is_zero t.
Proof. intros H Z. destruct Z; subst; apply H; [left|right]; reflexivity. Qed.
Lemma gsum_ext l f g : gsum l f -> (forall rho, f rho = g rho) -> gsum l g
with gprod_ext l f g : gprod l f -> (forall rho, f rho = g rho) -> gprod l g
with gatom_ext l f g : gatom l f -> (forall rho, f rho = g rho) -> gatom l g.
Proof.
  - intros G E. destruct G as [l f G|a b f f' h A B H].
    + apply gs_one. eapply gprod_ext; eauto.
    + eapply gs_add; eauto. intros rho. now rewrite <- E.
  - intros G E. destruct G as [l f G|a b f f' h A B H].
    + apply gp_one. eapply gatom_ext; eauto.
    + eapply gp_mul; eauto. intros rho. now rewrite <- E.
  - intros G E. destruct G as [w f N1 N2 H|l f G].
    + apply ga_word; auto. intros rho. now rewrite <- E.
    + apply ga_paren. eapply gsum_ext; eauto.
Qed.

Lemma leaf_atom t : plain t -> match t with Add _ _ | Mul _ _ => True | _ => forall br, exists s, mf t br = Some s /\ gatom (toks s) (fval t) end.
Proof.
  destruct t as [n|n|x| |]; cbn; auto; intros H br.
  - exists (dec_of_N n). split; [now rewrite fmt_scalar_small|].
    eapply gatom_ext; [apply gatom_num|]. intros rho. unfold fval. now pv.
  - exists (dec_of_N n). split; [now rewrite fmt_scalar_small|].
    eapply gatom_ext; [apply gatom_num|]. intros rho. unfold fval. now pv.
  - exists x. split; [reflexivity|]. eapply gatom_ext; [apply gatom_var, H|]. intros rho. unfold fval. now pv.
Qed.

Lemma not_true b : b <> true -> b = false.
Proof. destruct b; congruence. Qed.

Lemma show_no_zero t : plain t -> no_zero t ->
  (exists s, mf t true = Some s /\ gsum (toks s) (fval t)) /\
  (exists s, mf t false = Some s /\ gprod (toks s) (fval t)).
Proof.
  assert (leaf : forall t, (forall br, exists s, mf t br = Some s /\ gatom (toks s) (fval t)) ->
    (exists s, mf t true = Some s /\ gsum (toks s) (fval t)) /\ (exists s, mf t false = Some s /\ gprod (toks s) (fval t))).
  { intros t' H. destruct (H true) as (s & E & G), (H false) as (s' & E' & G'). split; [exists s|exists s']; split; auto.
    - now apply gs_one, gp_one.
    - now apply gp_one. }
  induction t as [n|n|x|l IHl r IHr|l IHl r IHr]; intros P Z.
  - apply leaf. exact (leaf_atom _ P).
  - apply leaf. exact (leaf_atom _ P).
  - apply leaf. exact (leaf_atom _ P).
  - destruct P as [Pl Pr], Z as [Zl Zr]. specialize (IHl Pl Zl). specialize (IHr Pr Zr).
    assert (El : is_const_zero (N.eqb 0) l = false) by (apply not_true; rewrite is_zero_spec; now apply no_zero_not).
    assert (Er : is_const_zero (N.eqb 0) r = false) by (apply not_true; rewrite is_zero_spec; now apply no_zero_not).
    destruct IHl as [(sl & Sl & Gl) _], IHr as [(sr & Sr & Gr) _].
    assert (G : gsum (toks (sl ++ " + " ++ sr)) (fval (Add l r))).
    { cbn [append]. rewrite toks_op. eapply gsum_cat; eauto. intros rho. unfold fval. now pv. }
    split; eexists; (split; [cbn [maybe_fmt]; rewrite El, Er, Sl, Sr; reflexivity|]).
    + exact G.
    + replace ("(" ++ sl ++ " + " ++ sr ++ ")") with ("(" ++ (sl ++ " + " ++ sr) ++ ")") by (now rewrite !app_str_assoc).
      rewrite toks_paren. apply gp_one, ga_paren, G.
  - destruct P as [Pl Pr], Z as [Zl Zr]. specialize (IHl Pl Zl). specialize (IHr Pr Zr).
    assert (El : is_const_zero (N.eqb 0) l = false) by (apply not_true; rewrite is_zero_spec; now apply no_zero_not).
    assert (Er : is_const_zero (N.eqb 0) r = false) by (apply not_true; rewrite is_zero_spec; now apply no_zero_not).
    cbn [maybe_fmt]. rewrite El, Er. cbn [orb].
    destruct (is_const_one (N.eqb 1) l) eqn:Ol.
    { apply is_one_spec in Ol. destruct IHr as [(s & S & G) (s' & S' & G')].
      assert (V : forall rho, fval r rho = fval (Mul l r) rho) by (intros rho; unfold fval; pv; rewrite (is_one_val l) by assumption; lia).
      split; [exists s|exists s']; (split; [assumption|]); [eapply gsum_ext|eapply gprod_ext]; eauto. }
    destruct (is_const_one (N.eqb 1) r) eqn:Or.
    { apply is_one_spec in Or. destruct IHl as [(s & S & G) (s' & S' & G')].
      assert (V : forall rho, fval l rho = fval (Mul l r) rho) by (intros rho; unfold fval; pv; rewrite (is_one_val r) by assumption; lia).
      split; [exists s|exists s']; (split; [assumption|]); [eapply gsum_ext|eapply gprod_ext]; eauto. }
    destruct IHl as [_ (sl & Sl & Gl)], IHr as [_ (sr & Sr & Gr)]. rewrite Sl, Sr.
    assert (G : gprod (toks (sl ++ " * " ++ sr)) (fval (Mul l r))).
    { cbn [append]. rewrite toks_op. eapply gprod_cat; eauto. intros rho. unfold fval. now pv. }
    split; eexists; (split; [reflexivity|]); [apply gs_one|]; exact G.
Qed.

Lemma show_zeros t : plain t -> zeros_outside t ->
  (exists s, mf t true = Some s /\ gsum (toks s) (fval t)) \/
  (mf t true = None /\ forall rho, poly_val rho t = 0%N).
Proof.
  assert (leaf : forall t, (forall br, exists s, mf t br = Some s /\ gatom (toks s) (fval t)) ->
    (exists s, mf t true = Some s /\ gsum (toks s) (fval t)) \/ (mf t true = None /\ forall rho, poly_val rho t = 0%N)).
  { intros t' H. destruct (H true) as (s & E & G). left. exists s. split; auto. now apply gs_one, gp_one. }
  induction t as [n|n|x|l IHl r IHr|l IHl r IHr]; intros P Z.
  - apply leaf. exact (leaf_atom _ P).
  - apply leaf. exact (leaf_atom _ P).
  - apply leaf. exact (leaf_atom _ P).
  - destruct P as [Pl Pr], Z as [Zl Zr]. specialize (IHl Pl Zl). specialize (IHr Pr Zr). cbn [maybe_fmt].
    destruct (is_const_zero (N.eqb 0) l) eqn:El, (is_const_zero (N.eqb 0) r) eqn:Er; cbn [andb].
    + right. split; [reflexivity|]. intros rho. pv. apply is_zero_spec in El, Er. now rewrite !is_zero_val.
    + apply is_zero_spec in El.
      destruct IHr as [(s & S & G)|(S & V)]; [left; exists s; split; [exact S|]|right; split; [exact S|]].
      * eapply gsum_ext; [exact G|]. intros rho. unfold fval. pv. now rewrite (is_zero_val l).
      * intros rho. pv. now rewrite (is_zero_val l), V.
    + apply is_zero_spec in Er.
      destruct IHl as [(s & S & G)|(S & V)]; [left; exists s; split; [exact S|]|right; split; [exact S|]].
      * eapply gsum_ext; [exact G|]. intros rho. unfold fval. pv. rewrite (is_zero_val r) by assumption. lia.
      * intros rho. pv. now rewrite (is_zero_val r), V.
    + destruct IHl as [(sl & Sl & Gl)|(Sl & Vl)], IHr as [(sr & Sr & Gr)|(Sr & Vr)]; rewrite Sl, Sr.
      * left. eexists. split; [reflexivity|]. cbn [append]. rewrite toks_op. eapply gsum_cat; eauto. intros rho. unfold fval. now pv.
      * left. exists sl. split; [reflexivity|]. eapply gsum_ext; [exact Gl|]. intros rho. unfold fval. pv. rewrite Vr. lia.
      * left. exists sr. split; [reflexivity|]. eapply gsum_ext; [exact Gr|]. intros rho. unfold fval. pv. now rewrite Vl.
      * right. split; [reflexivity|]. intros rho. pv. now rewrite Vl, Vr.
  - destruct P as [Pl Pr]. specialize (IHl Pl). specialize (IHr Pr). cbn [zeros_outside] in Z. cbn [maybe_fmt].
    destruct (is_const_one (N.eqb 1) l) eqn:Ol.
    { apply is_one_spec in Ol.
      assert (Zr : (zeros_outside r) \/ (no_zero r)).
      { destruct Z as [[_ Z]|[[Z _]|[Z|[Z|[_ Z]]]]]; auto; left.
        - destruct Z; subst; exact I.
        - exfalso. destruct Ol, Z; subst; discriminate.
        - destruct Z; subst; exact I. }
      assert (V : forall rho, fval r rho = fval (Mul l r) rho) by (intros rho; unfold fval; pv; rewrite (is_one_val l) by assumption; lia).
      destruct Zr as [Zr|Zr].
      - destruct (IHr Zr) as [(s & S & G)|(S & V')]; [left; exists s; split; [exact S|]|right; split; [exact S|]].
        + eapply gsum_ext; eauto.
        + intros rho. pv. rewrite V'. lia.
      - destruct (show_no_zero r Pr Zr) as [(s & S & G) _]. left. exists s. split; [exact S|]. eapply gsum_ext; eauto. }
    destruct (is_const_one (N.eqb 1) r) eqn:Or.
    { apply is_one_spec in Or.
      assert (Zr : (zeros_outside l) \/ (no_zero l)).
      { destruct Z as [[Z _]|[[_ Z]|[Z|[Z|[Z _]]]]]; auto; left.
        - apply is_one_spec in Z. congruence.
        - destruct Z; subst; exact I.
        - exfalso. destruct Or, Z; subst; discriminate. }
      assert (V : forall rho, fval l rho = fval (Mul l r) rho) by (intros rho; unfold fval; pv; rewrite (is_one_val r) by assumption; lia).
      destruct Zr as [Zr|Zr].
      - destruct (IHl Zr) as [(s & S & G)|(S & V')]; [left; exists s; split; [exact S|]|right; split; [exact S|]].
        + eapply gsum_ext; eauto.
        + intros rho. pv. rewrite V'. lia.
      - destruct (show_no_zero l Pl Zr) as [(s & S & G) _]. left. exists s. split; [exact S|]. eapply gsum_ext; eauto. }
    destruct (is_const_zero (N.eqb 0) r || is_const_zero (N.eqb 0) l) eqn:Ez.
    { right. split; [reflexivity|]. intros rho. pv. apply orb_true_iff in Ez. rewrite !is_zero_spec in Ez.
      destruct Ez as [E|E]; rewrite (is_zero_val _ E); lia. }
    apply orb_false_iff in Ez. destruct Ez as [Er El].
    assert (NZ : no_zero l /\ no_zero r).
    { rewrite <- !is_one_spec, <- !is_zero_spec in Z. destruct Z as [[Z _]|[[Z _]|[Z|[Z|Z]]]]; congruence || exact Z. }
    destruct NZ as [Zl Zr].
    destruct (show_no_zero l Pl Zl) as [_ (sl & Sl & Gl)], (show_no_zero r Pr Zr) as [_ (sr & Sr & Gr)]. rewrite Sl, Sr.
    left. eexists. split; [reflexivity|]. apply gs_one. cbn [append]. rewrite toks_op. eapply gprod_cat; eauto.
    intros rho. unfold fval. now pv.
Qed.

Lemma display_lemma t : plain t -> zeros_outside t ->
  exists e, read_equation (sdisplay t) = Some e /\ forall rho, xval rho e = poly_val rho t.
Proof.
  intros P Z. apply (gsum_reads (sdisplay t) (fval t)). unfold sdisplay, display.
  destruct (show_zeros t P Z) as [(s & S & G)|(S & V)]; rewrite S; [exact G|].
  apply gs_one, gp_one. apply gatom_ext with (fun _ => 0%N); [exact (gatom_num 0)|]. intros rho. unfold fval. now rewrite V.
Qed.

(** ** Definitions *)
Lemma fmt_equation_lemma {T} (vfmt : T -> string) vzero vone (sc : scope (term T)) (t : term T) :
  exists defs frees,
    fmt_equation vfmt vzero vone sc t =
      Ok (String.concat ", " (map (fun d => fst d ++ "=" ++ display vfmt vzero vone (snd d)) defs ++ frees)) /\
    StronglySorted (fun a b => str_cmp a b = Lt) (map fst defs) /\
    StronglySorted (fun a b => str_cmp a b = Lt) frees /\
    (forall x d, In (x, d) defs <-> occurs x t /\ scope_get sc x = Some d) /\
    (forall x, In x frees <-> occurs x t /\ scope_get sc x = None).
Proof.
  destruct (vars_split_lemma T sc t) as (F & B & _ & _ & SF & SB).
  assert (K : forall l, (forall x, In x l -> bound_in sc x) -> exists defs,
    mapM (fun var => match scope_get sc var with
      | Some v => Ok (var ++ "=" ++ display vfmt vzero vone v)
      | None => Panic "called `Option::unwrap()` on a `None` value"
      end) l = Ok (map (fun d => fst d ++ "=" ++ display vfmt vzero vone (snd d)) defs) /\ map fst defs = l /\
    (forall x d, In (x, d) defs <-> In x l /\ scope_get sc x = Some d)).
  { induction l as [|x l IH]; intros H.
    - exists []. cbn. repeat split; try tauto.
    - destruct IH as (defs & E & M & I); [intros; apply H; now right|].
      assert (Hx : bound_in sc x) by (apply H; now left). unfold bound_in in Hx.
      destruct (scope_get sc x) as [v|] eqn:G; [|congruence].
      exists ((x, v) :: defs). cbn [mapM map]. rewrite G. cbn [bind]. rewrite E. cbn [bind map fst snd]. rewrite M.
      repeat split; auto.
      + destruct H0 as [[= <- <-]|H0]; [now left|]. right. now apply I in H0.
      + destruct H0 as [[= <- <-]|H0]; [assumption|]. now apply I in H0.
      + intros [[<-|H1] H2]; [left; congruence|]. right. now apply I. }
  destruct (K (bound_vars sc t)) as (defs & E & M & I).
  { intros x Hx. now apply B. }
  exists defs, (free_vars sc t). repeat split.
  - unfold fmt_equation. rewrite E. reflexivity.
  - rewrite M. exact SB.
  - exact SF.
  - apply I in H. now apply B.
  - apply I in H. apply H.
  - intros [H1 H2]. apply I. split; [|exact H2]. apply B. split; [exact H1|]. unfold bound_in. congruence.
  - now apply F in H.
  - apply F in H. destruct H as [_ H]. unfold bound_in in H. destruct (scope_get sc x); [|reflexivity]. destruct H. discriminate.
  - intros [H1 H2]. apply F. split; [exact H1|]. unfold bound_in. rewrite H2. congruence.
Qed.

Lemma weight_text w : exists a b, cdisplay (Value w) = "(" ++ a ++ ", " ++ b ++ ")" /\
  read_dec a = Some (time w) /\ read_dec b = Some (proof w).
Proof. exists (dec_of_N (time w)), (dec_of_N (proof w)). split; [reflexivity|]. split; apply DecP.read_dec_dec. Qed.
