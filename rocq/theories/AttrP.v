(** Proofs about the range annotations. *)
From Coq Require Import List String Ascii NArith ZArith Bool Lia.
From Verif Require Import Base ScopeM TermM SpecTerm TermP SpecChrom ChromP CompareM SpecCompare CompareP4 SpecFmt DecP SynM AttrM SpecAttr StrP ParseP ParseP2.
Import ListNotations.
Local Open Scope string_scope.
Local Open Scope N_scope.

(** ** Character classes *)
Definition class (alphabet : string) (c : ascii) : bool := existsb (Ascii.eqb c) (list_ascii_of_string alphabet).
Lemma class_in al c : class al c = true <-> In c (list_ascii_of_string al).
Proof.
  unfold class. rewrite existsb_exists. split.
  - intros (x & H & E). apply Ascii.eqb_eq in E. now subst.
  - intros H. exists c. split; [exact H|]. apply Ascii.eqb_refl.
Qed.
Lemma re_w_class c : re_w c = class word_chars c.
Proof. destruct c as [[] [] [] [] [] [] [] []]; vm_compute; reflexivity. Qed.
Lemma re_s_class c : re_s c = class blanks c.
Proof. destruct c as [[] [] [] [] [] [] [] []]; vm_compute; reflexivity. Qed.
Lemma re_dus_class c : re_dus c = class grouped_digits c.
Proof. destruct c as [[] [] [] [] [] [] [] []]; vm_compute; reflexivity. Qed.
Lemma re_ws_class c : (re_w c || re_s c)%bool = class (word_chars ++ blanks) c.
Proof. destruct c as [[] [] [] [] [] [] [] []]; vm_compute; reflexivity. Qed.

Lemma over_cons al c s : over al (String c s) <-> class al c = true /\ over al s.
Proof.
  unfold over. rewrite class_in. cbn [list_ascii_of_string In]. split.
  - intros H. split; [apply H; now left|]. intros d Hd. apply H. now right.
  - intros [H K] d [<-|Hd]; auto.
Qed.
Lemma over_nil al : over al "".
Proof. intros c []. Qed.

(** ** Repetitions *)
Section Span.
  Variables (p : ascii -> bool) (al : string).
  Hypothesis P : forall c, p c = class al c.
  Lemma span_spec s : forall a b, span p s = (a, b) -> s = a ++ b /\ over al a.
  Proof.
    induction s as [|c s IH]; cbn; intros a b H.
    - injection H as <- <-. split; [reflexivity|apply over_nil].
    - destruct (p c) eqn:E.
      + destruct (span p s) as [a' b'] eqn:S. injection H as <- <-. destruct (IH _ _ eq_refl) as [-> O].
        split; [reflexivity|]. apply over_cons. now rewrite <- P.
      + injection H as <- <-. split; [reflexivity|apply over_nil].
  Qed.
  Definition stops (b : string) : Prop := match b with "" => True | String c _ => class al c = false end.
  Lemma span_over a b : over al a -> stops b -> span p (a ++ b) = (a, b).
  Proof.
    intros O St. induction a as [|c a IH]; cbn.
    - destruct b as [|c b]; [reflexivity|]. cbn in St |- *. now rewrite P, St.
    - apply over_cons in O. destruct O as [O1 O2]. rewrite P, O1, (IH O2). reflexivity.
  Qed.
End Span.
Lemma eat_spec c s s' : eat c s = Some s' <-> s = String c s'.
Proof.
  destruct s as [|d s]; cbn; [split; discriminate|]. destruct (Ascii.eqb_spec d c).
  - subst. split; [intros [= ->]|intros [= ->]]; reflexivity.
  - split; [discriminate|congruence].
Qed.

Definition here (s c min max : string) : Prop := note_at s "" c min max.

Lemma eqb_nonempty s : String.eqb s "" = false <-> s <> "".
Proof. apply String.eqb_neq. Qed.

Lemma match_here_spec s c mi ma : match_here s = Some (c, mi, ma) <-> here s c mi ma.
Proof.
  unfold here, note_at. cbn [append]. split.
  - unfold match_here. intros H.
    destruct (eat "`" s) as [s0|] eqn:E0; [|discriminate]. apply eat_spec in E0.
    destruct (span re_w s0) as [c' s1] eqn:S1. apply (span_spec _ _ re_w_class) in S1. destruct S1 as [-> O1].
    destruct (String.eqb c' "") eqn:N1; [discriminate|].
    destruct (eat "`" s1) as [s2|] eqn:E2; [|discriminate]. apply eat_spec in E2. subst s1.
    destruct (span (fun c => re_w c || re_s c)%bool s2) as [bt s3] eqn:S3. apply (span_spec _ _ re_ws_class) in S3. destruct S3 as [-> O3].
    destruct (eat "`" s3) as [s4|] eqn:E4; [|discriminate]. apply eat_spec in E4. subst s3.
    destruct (eat "[" s4) as [s5|] eqn:E5; [|discriminate]. apply eat_spec in E5. subst s4.
    destruct (span re_dus s5) as [mi' s6] eqn:S6. apply (span_spec _ _ re_dus_class) in S6. destruct S6 as [-> O6].
    destruct (String.eqb mi' "") eqn:N6; [discriminate|].
    destruct (eat "," s6) as [s7|] eqn:E7; [|discriminate]. apply eat_spec in E7. subst s6.
    destruct (span re_s s7) as [ws s8] eqn:S8. apply (span_spec _ _ re_s_class) in S8. destruct S8 as [-> O8].
    destruct (span re_dus s8) as [ma' s9] eqn:S9. apply (span_spec _ _ re_dus_class) in S9. destruct S9 as [-> O9].
    destruct (String.eqb ma' "") eqn:N9; [discriminate|].
    destruct (eat "]" s9) as [s10|] eqn:E10; [|discriminate]. apply eat_spec in E10. subst s9.
    destruct (eat "`" s10) as [s11|] eqn:E11; [|discriminate]. apply eat_spec in E11. subst s10.
    injection H as <- <- <-. apply eqb_nonempty in N1, N6, N9. exists bt, ws, s11. rewrite E0. auto 10.
  - intros (bt & ws & post & -> & N1 & O1 & O3 & N6 & O6 & O8 & N9 & O9). apply eqb_nonempty in N1, N6. apply eqb_nonempty in N9 as N9'.
    unfold match_here. cbn [eat append Ascii.eqb Bool.eqb].
    rewrite (span_over _ _ re_w_class c _ O1) by reflexivity. rewrite N1. cbn [eat Ascii.eqb Bool.eqb].
    rewrite (span_over _ _ re_ws_class bt _ O3) by reflexivity. cbn [eat Ascii.eqb Bool.eqb].
    rewrite (span_over _ _ re_dus_class mi _ O6) by reflexivity. rewrite N6. cbn [eat Ascii.eqb Bool.eqb].
    rewrite (span_over _ _ re_s_class ws _ O8).
    + rewrite (span_over _ _ re_dus_class ma _ O9) by reflexivity. rewrite N9'. reflexivity.
    + destruct ma as [|d ma]; [congruence|]. apply over_cons in O9. destruct O9 as [O9 _]. cbn.
      clear -O9. revert O9. destruct d as [[] [] [] [] [] [] [] []]; vm_compute; congruence.
Qed.

(** ** The first match *)
Lemma annotation_shift s pre c mi ma : note_at s pre c mi ma <-> exists rest, s = pre ++ rest /\ here rest c mi ma.
Proof.
  unfold here, note_at. split.
  - intros (bt & ws & post & -> & H). eexists. split; [reflexivity|]. exists bt, ws, post. split; [reflexivity|exact H].
  - intros (rest & -> & bt & ws & post & -> & H). exists bt, ws, post. split; [reflexivity|exact H].
Qed.
Lemma annotation_cons x s pre c mi ma : note_at (String x s) (String x pre) c mi ma <-> note_at s pre c mi ma.
Proof.
  rewrite !annotation_shift. split; intros (rest & E & H); exists rest; split; auto.
  - now injection E.
  - now rewrite E.
Qed.

Lemma captures_none s : captures s = None <-> forall pre c mi ma, ~ note_at s pre c mi ma.
Proof.
  induction s as [|x s IH]; cbn [captures].
  - split.
    + intros H pre c mi ma A. apply annotation_shift in A. destruct A as (rest & E & A). destruct pre; [|discriminate E].
      cbn in E. subst rest. apply match_here_spec in A. rewrite A in H. discriminate.
    + intros H. destruct (match_here "") as [[[c mi] ma]|] eqn:E; [|reflexivity]. apply match_here_spec in E. now destruct (H "" c mi ma).
  - destruct (match_here (String x s)) as [[[c mi] ma]|] eqn:E.
    + split; [discriminate|]. intros H. apply match_here_spec in E. now destruct (H "" c mi ma).
    + rewrite IH. split.
      * intros H pre c mi ma A. destruct pre as [|y pre].
        -- apply match_here_spec in A. congruence.
        -- assert (y = x) by (apply annotation_shift in A; destruct A as (rest & [= E1 _] & _); congruence). subst y.
           apply (proj1 (annotation_cons _ _ _ _ _ _)) in A. now apply (H pre c mi ma).
      * intros H pre c mi ma A. apply (proj2 (annotation_cons x _ _ _ _ _)) in A. now apply (H _ _ _ _ A).
Qed.
Lemma captures_some s c mi ma : captures s = Some (c, mi, ma) <-> first_note s c mi ma.
Proof.
  unfold first_note. induction s as [|x s IH]; cbn [captures].
  - split.
    + intros H. destruct (match_here "") as [r|] eqn:E; [|discriminate]. injection H as ->. apply match_here_spec in E. exists "".
      split; [exact E|]. intros; cbn; lia.
    + intros (pre & A & _). apply annotation_shift in A. destruct A as (rest & E & A). destruct pre; [|discriminate E].
      cbn in E. subst rest. apply match_here_spec in A. now rewrite A.
  - destruct (match_here (String x s)) as [[[c0 mi0] ma0]|] eqn:E.
    + apply match_here_spec in E. split.
      * intros [= -> -> ->]. exists "". split; [exact E|]. intros; cbn; lia.
      * intros (pre & A & L). specialize (L _ _ _ _ E). destruct pre; [|cbn in L; lia].
        apply match_here_spec in A. apply match_here_spec in E. congruence.
    + rewrite IH. split.
      * intros (pre & A & L). exists (String x pre). split; [now apply annotation_cons|]. intros pre' c' mi' ma' A'. destruct pre' as [|y pre'].
        -- apply match_here_spec in A'. congruence.
        -- assert (y = x) by (apply annotation_shift in A'; destruct A' as (rest & [= E1 _] & _); congruence). subst y.
           apply (proj1 (annotation_cons _ _ _ _ _ _)) in A'. specialize (L _ _ _ _ A'). cbn. lia.
      * intros (pre & A & L). destruct pre as [|y pre].
        -- apply match_here_spec in A. congruence.
        -- assert (y = x) by (apply annotation_shift in A; destruct A as (rest & [= E1 _] & _); congruence). subst y.
           apply (proj1 (annotation_cons _ _ _ _ _ _)) in A. exists pre. split; [exact A|]. intros pre' c' mi' ma' A'.
           apply (proj2 (annotation_cons x _ _ _ _ _)) in A'. specialize (L _ _ _ _ A'). cbn in L. lia.
Qed.

(** ** Numbers *)
Lemma digits_read s : forall acc, all_chars is_digit s = true -> read_digits acc s = Some (digits_val acc s).
Proof.
  induction s as [|c s IH]; intros acc H; [reflexivity|]. cbn in H |- *. apply andb_true_iff in H. destruct H as [H1 H2].
  unfold is_digit in H1. unfold read_digit in *. destruct (_ && _)%bool; [|discriminate]. now apply IH.
Qed.
Lemma read_parse s n : all_chars is_digit s = true -> (parse_u32 s = Some n <-> read_dec s = Some n /\ n < 2 ^ 32).
Proof.
  intros H. unfold parse_u32, read_dec. destruct s as [|c s]; [split; [discriminate|intros [? _]; discriminate]|].
  cbn [String.eqb]. rewrite (digits_read _ 0 H). change u32_max with 4294967295. change (2 ^ 32) with 4294967296.
  set (d := digits_val 0 (String c s)). clearbody d.
  destruct (N.leb_spec d 4294967295); split.
  - intros [= <-]. split; [reflexivity|lia].
  - intros [[= <-] _]. reflexivity.
  - discriminate.
  - intros [[= <-] ?]. lia.
Qed.
Lemma strip_digits s : over grouped_digits s -> all_chars is_digit (strip_us s) = true.
Proof.
  induction s as [|c s IH]; [reflexivity|]. intros O. apply over_cons in O. destruct O as [O1 O2]. cbn.
  destruct (Ascii.eqb c "_") eqn:E; [now apply IH|]. cbn. rewrite (IH O2), andb_true_r.
  revert O1 E. clear. destruct c as [[] [] [] [] [] [] [] []]; vm_compute; congruence.
Qed.
Lemma parse_denotes s n : over grouped_digits s -> (parse_u32 (strip_us s) = Some n <-> denotes s n).
Proof. intros O. rewrite (read_parse _ _ (strip_digits s O)). unfold denotes. now rewrite strip_without. Qed.

Lemma first_over s c mi ma : first_note s c mi ma -> over grouped_digits mi /\ over grouped_digits ma.
Proof. intros (pre & (bt & ws & post & H) & _). tauto. Qed.
Lemma first_unique s c mi ma c' mi' ma' : first_note s c mi ma -> first_note s c' mi' ma' -> c = c' /\ mi = mi' /\ ma = ma'.
Proof. intros H K. apply captures_some in H, K. rewrite H in K. injection K as <- <- <-. auto. Qed.
Lemma denotes_unique s n k : denotes s n -> denotes s k -> n = k.
Proof. intros [H _] [K _]. congruence. Qed.

(** ** C36: one attribute *)
Lemma doc_unique a t t' : doc_comment a t -> doc_comment a t' -> t = t'.
Proof. intros (p & -> & _) (p' & [= _ ->] & _). reflexivity. Qed.
Lemma doc_dec a : (exists t, doc_comment a t) \/ (forall t, ~ doc_comment a t) /\ parse_component_attr a = Ok None.
Proof.
  destruct a as [p v|].
  - destruct (String.eqb_spec (String.concat "" (segments p)) "doc") as [E|E].
    + left. exists v, p. auto.
    + right. split; [intros t (p' & [= <- _] & K); congruence|]. cbn. unfold path_to_string. apply String.eqb_neq in E. now rewrite E.
  - right. split; [|reflexivity]. intros t (p & [=] & _).
Qed.
Lemma attr_doc a t : doc_comment a t -> parse_component_attr a =
  match captures t with
  | None => Ok None
  | Some (component, min, max) =>
      match parse_u32 (strip_us min) with
      | None => Err "Could not parse min value"
      | Some min =>
          match parse_u32 (strip_us max) with
          | None => Err "Could not parse max value"
          | Some max =>
              if (max <? min)%N then Err "Min value is greater than max value"
              else Ok (Some (component, {| rmin := min; rmax := max |}))
          end
      end
  end.
Proof. intros (p & -> & H). cbn. unfold path_to_string. now rewrite H. Qed.

Lemma attr_spec a :
  (forall c r, parse_component_attr a = Ok (Some (c, r)) <-> declares a c r) /\
  (parse_component_attr a = Ok None <-> silent a) /\
  (is_err (parse_component_attr a) = true <-> malformed a).
Proof.
  destruct (doc_dec a) as [(t & D)|(N & ->)].
  2: { split; [|split].
    - intros c r. split; [discriminate|]. intros (t & mi & ma & D & _). now destruct (N t).
    - split; [|reflexivity]. intros _ t D. now destruct (N t).
    - split; [discriminate|]. intros (t & c & mi & ma & D & _). now destruct (N t). }
  rewrite (attr_doc _ _ D). destruct (captures t) as [[[c mi] ma]|] eqn:C.
  - apply captures_some in C. destruct (first_over _ _ _ _ C) as [O1 O2].
    assert (F : forall t' c' mi' ma', doc_comment a t' -> first_note t' c' mi' ma' -> c' = c /\ mi' = mi /\ ma' = ma).
    { intros t' c' mi' ma' D' F'. pose proof (doc_unique _ _ _ D D') as <-. eapply first_unique; eauto. }
    assert (S : ~ silent a). { intros H. destruct C as (pre & A & _). now apply (H t D pre c mi ma). }
    destruct (parse_u32 (strip_us mi)) as [i|] eqn:P1; [destruct (parse_u32 (strip_us ma)) as [j|] eqn:P2; [destruct (N.ltb_spec j i)|]|].
    + apply parse_denotes in P1, P2; auto. split; [|split].
      * intros c' r. split; [discriminate|]. intros (t' & mi' & ma' & D' & F' & X & Y & Z). destruct (F _ _ _ _ D' F') as (-> & -> & ->).
        rewrite (denotes_unique _ _ _ P1 X), (denotes_unique _ _ _ P2 Y) in H. lia.
      * split; [discriminate|tauto].
      * split; [|reflexivity]. intros _. exists t, c, mi, ma. split; [exact D|]. split; [exact C|]. intros (i' & j' & X & Y & Z).
        rewrite (denotes_unique _ _ _ P1 X), (denotes_unique _ _ _ P2 Y) in H. lia.
    + apply parse_denotes in P1, P2; auto. split; [|split].
      * intros c' r. split.
        -- intros [= <- <-]. exists t, mi, ma. auto.
        -- intros (t' & mi' & ma' & D' & F' & X & Y & Z). destruct (F _ _ _ _ D' F') as (-> & -> & ->). destruct r as [x y]. cbn in X, Y.
           rewrite (denotes_unique _ _ _ P1 X), (denotes_unique _ _ _ P2 Y). reflexivity.
      * split; [discriminate|tauto].
      * split; [discriminate|]. intros (t' & c' & mi' & ma' & D' & F' & X). destruct (F _ _ _ _ D' F') as (-> & -> & ->). destruct X. eauto.
    + assert (Q : forall n, ~ denotes ma n). { intros n X. apply parse_denotes in X; auto. congruence. } split; [|split].
      * intros c' r. split; [discriminate|]. intros (t' & mi' & ma' & D' & F' & X & Y & Z). destruct (F _ _ _ _ D' F') as (-> & -> & ->). now destruct (Q (rmax r)).
      * split; [discriminate|tauto].
      * split; [|reflexivity]. intros _. exists t, c, mi, ma. split; [exact D|]. split; [exact C|]. intros (i' & j' & X & Y & Z). now destruct (Q j').
    + assert (Q : forall n, ~ denotes mi n). { intros n X. apply parse_denotes in X; auto. congruence. } split; [|split].
      * intros c' r. split; [discriminate|]. intros (t' & mi' & ma' & D' & F' & X & Y & Z). destruct (F _ _ _ _ D' F') as (-> & -> & ->). now destruct (Q (rmin r)).
      * split; [discriminate|tauto].
      * split; [|reflexivity]. intros _. exists t, c, mi, ma. split; [exact D|]. split; [exact C|]. intros (i' & j' & X & Y & Z). now destruct (Q i').
  - assert (F : forall t' c' mi' ma', doc_comment a t' -> first_note t' c' mi' ma' -> False).
    { intros t' c' mi' ma' D' F'. pose proof (doc_unique _ _ _ D D') as <-. apply captures_some in F'. congruence. }
    split; [|split].
    + intros c r. split; [discriminate|]. intros (t' & mi' & ma' & D' & F' & _). now destruct (F _ _ _ _ D' F').
    + split; [|reflexivity]. intros _ t' D'. pose proof (doc_unique _ _ _ D D') as <-. now apply captures_none.
    + split; [discriminate|]. intros (t' & c' & mi' & ma' & D' & F' & _). now destruct (F _ _ _ _ D' F').
Qed.

(** ** The comment of the benchmarking template *)
Lemma stops_first : forall a b a' b', ~ In "`"%char (list_ascii_of_string a) -> a ++ String "`" b = a' ++ String "`" b' -> (String.length a <= String.length a')%nat.
Proof.
  intros a. induction a as [|x a IH]; intros b a' b' N H; [cbn; lia|]. destruct a' as [|y a']; cbn in H |- *.
  - injection H as -> _. destruct N. now left.
  - injection H as -> H. apply le_n_S, (IH b a' b'); auto. intros K. apply N. now right.
Qed.
Lemma template_comment pre c mi ma post i j : ~ In "`"%char (list_ascii_of_string pre) ->
  c <> "" -> over word_chars c -> over grouped_digits mi -> over grouped_digits ma -> denotes mi i -> denotes ma j ->
  let text := pre ++ "The range of component `" ++ c ++ "` is `[" ++ mi ++ ", " ++ ma ++ "]`" ++ post in
  parse_component_attr (doc text) =
    if i <=? j then Ok (Some (c, mk_range i j)) else Err "Min value is greater than max value".
Proof.
  intros Np Nc Oc Oi Oj Di Dj text.
  assert (A : first_note text c mi ma).
  { exists (pre ++ "The range of component "). split.
    - exists " is ", " ", post. split; [unfold text; rewrite !app_str_assoc; reflexivity|].
      assert (mi <> "") by (intros ->; destruct Di; discriminate). assert (ma <> "") by (intros ->; destruct Dj; discriminate).
      repeat split; auto; intros x; [|]; cbn [list_ascii_of_string In append]; intros Hx; apply class_in;
        repeat (destruct Hx as [<-|Hx]; [reflexivity|]); destruct Hx.
    - intros pre' c' mi' ma' A'. apply annotation_shift in A'. destruct A' as (rest & E & bt & ws & po & -> & _).
      unfold text in E. replace (pre ++ "The range of component `" ++ c ++ "` is `[" ++ mi ++ ", " ++ ma ++ "]`" ++ post)
        with ((pre ++ "The range of component ") ++ String "`" (c ++ "` is `[" ++ mi ++ ", " ++ ma ++ "]`" ++ post)) in E
        by (rewrite !app_str_assoc; reflexivity).
      apply stops_first in E; [exact E|]. clear -Np. intros K. rewrite list_ascii_app in K. apply in_app_or in K. destruct K as [K|K]; [tauto|].
      cbn in K. repeat (destruct K as [K|K]; [discriminate K|]). destruct K. }
  destruct (N.leb_spec i j).
  - apply attr_spec. exists text, mi, ma. split; [exists (mk_path false ["doc"]); auto|]. auto.
  - rewrite (attr_doc _ text) by (exists (mk_path false ["doc"]); auto). apply captures_some in A. rewrite A.
    apply parse_denotes in Di; auto. apply parse_denotes in Dj; auto. rewrite Di, Dj. apply N.ltb_lt in H. now rewrite H.
Qed.

(** ** All attributes *)
Lemma collect_spec attrs : forall res res', collect_attrs attrs res = Ok res' -> forall k r,
  mget str_cmp k res' = Some r <-> last_declared attrs k r \/
    ((forall a c r', In a attrs -> declares a c r' -> without_us c <> k) /\ mget str_cmp k res = Some r).
Proof.
  induction attrs as [|a attrs IH]; intros res res' H k r; cbn in H.
  - injection H as <-. split.
    + intros E. right. split; [intros a c r' []|exact E].
    + intros [(pre & a & post & c & E & _)|[_ E]]; [destruct pre; discriminate E|exact E].
  - apply bind_ok in H. destruct H as ([[c rg]|] & Ha & H).
    + apply attr_spec in Ha. rewrite (IH _ _ H k r). rewrite strip_without. split.
      * intros [(pre & a' & post & c' & -> & D & E & L)|[L E]].
        -- left. exists (a :: pre), a', post, c'. auto.
        -- destruct (String.eqb_spec (without_us c) k) as [K|K].
           ++ subst k. rewrite (mget_minsert_eq str_cmp str_cmp_strict) in E. injection E as ->. left. exists [], a, attrs, c. repeat split; auto.
           ++ right. rewrite (mget_minsert_ne str_cmp str_cmp_strict) in E by auto. split; [|exact E]. intros a' c' r' [<-|Hin] D; [|eauto].
              assert (c' = c) by (apply attr_spec in D, Ha; congruence). now subst.
      * intros [(pre & a' & post & c' & E & D & K & L)|[L E]].
        -- destruct pre as [|x pre]; cbn in E; injection E as -> ->.
           ++ right. split; [exact L|]. assert (c' = c /\ r = rg) as [-> ->] by (apply attr_spec in D, Ha; split; congruence). subst k.
              apply (mget_minsert_eq str_cmp str_cmp_strict).
           ++ left. exists pre, a', post, c'. auto.
        -- right. split; [intros; eapply L; eauto; now right|]. rewrite (mget_minsert_ne str_cmp str_cmp_strict); [exact E|]. eapply L; [now left|exact Ha].
    + assert (Nd : forall c r', ~ declares a c r') by (intros c r' D; apply attr_spec in D; congruence).
      rewrite (IH _ _ H k r). split.
      * intros [(pre & a' & post & c' & -> & D & E & L)|[L E]].
        -- left. exists (a :: pre), a', post, c'. auto.
        -- right. split; [|exact E]. intros a' c' r' [<-|Hin] D; [now destruct (Nd c' r')|eauto].
      * intros [(pre & a' & post & c' & E & D & K & L)|[L E]].
        -- destruct pre as [|x pre]; cbn in E; injection E as -> ->; [now destruct (Nd c' r)|]. left. exists pre, a', post, c'. auto.
        -- right. split; [|exact E]. intros; eapply L; eauto. now right.
Qed.
Definition range_of (rs : option comp_ranges) (c : string) : option comp_range :=
  match rs with Some rs => ranges_get rs c | None => None end.
Lemma attrs_spec attrs rs : parse_component_attrs attrs = Ok rs -> forall c r, range_of rs c = Some r <-> last_declared attrs c r.
Proof.
  intros H c r. unfold parse_component_attrs in H. apply bind_ok in H. destruct H as (res & H & E).
  assert (X : range_of rs c = mget str_cmp c res) by (injection E as <-; destruct res; reflexivity). rewrite X.
  rewrite (collect_spec _ _ _ H). cbn. split; [intros [K|[_ K]]; [exact K|discriminate K]|auto].
Qed.
Lemma attrs_err attrs : is_err (parse_component_attrs attrs) = true <-> exists a, In a attrs /\ malformed a.
Proof.
  unfold parse_component_attrs. transitivity (is_err (collect_attrs attrs []) = true); [destruct (collect_attrs attrs []); cbn; tauto|].
  generalize (@nil (string * comp_range)). induction attrs as [|a attrs IH]; intros res; cbn.
  - split; [discriminate|]. intros (a & [] & _).
  - pose proof (attr_spec a) as (_ & _ & A). destruct (parse_component_attr a) as [[[c r]|]|msg| |] eqn:E; cbn.
    + rewrite IH. split; [intros (b & ? & ?); eauto|]. intros (b & [<-|Hb] & M); [apply A in M; discriminate M|eauto].
    + rewrite IH. split; [intros (b & ? & ?); eauto|]. intros (b & [<-|Hb] & M); [apply A in M; discriminate M|eauto].
    + split; [|reflexivity]. intros _. exists a. split; [now left|]. now apply A.
    + pose proof (ParseP2.attr_returns a) as R. rewrite E in R. destruct R.
    + pose proof (ParseP2.attr_returns a) as R. rewrite E in R. destruct R.
Qed.

(** ** C20: underscores *)
Lemma without_no_us s : ~ In "_"%char (list_ascii_of_string (without_us s)).
Proof.
  unfold without_us. rewrite list_ascii_of_string_of_list_ascii, filter_In. intros [_ H]. discriminate H.
Qed.
Lemma underscore_lost attrs rs c : parse_component_attrs attrs = Ok rs -> In "_"%char (list_ascii_of_string c) -> range_of rs c = None.
Proof.
  intros H U. destruct (range_of rs c) as [r|] eqn:E; [|reflexivity]. apply (attrs_spec _ _ H) in E.
  destruct E as (pre & a & post & c' & _ & _ & <- & _). now apply without_no_us in U.
Qed.

Lemma annotated_spec attrs rs c r : parse_component_attrs attrs = Ok rs -> (annotated rs c = [r] <-> last_declared attrs c r).
Proof.
  intros H. rewrite <- (attrs_spec _ _ H). unfold annotated, range_of. destruct rs as [rs|]; [|split; discriminate].
  destruct (ranges_get rs c); split; congruence.
Qed.
Lemma annotated_lost attrs rs c : parse_component_attrs attrs = Ok rs -> In "_"%char (list_ascii_of_string c) -> annotated rs c = [].
Proof.
  intros H U. pose proof (underscore_lost _ _ _ H U) as E. unfold annotated. unfold range_of in E. destruct rs; [|reflexivity]. now rewrite E.
Qed.
(** The instances of a component whose range is declared on one side only or on
    both sides alike. *)
Lemma declared_instance st p e m m' rs rs' c r :
  parse_component_attrs m = Ok rs -> parse_component_attrs m' = Ok rs' -> last_declared m c r ->
  (last_declared m' c r \/ forall r', ~ last_declared m' c r') ->
  instance_component c rs rs' st p e = Ok (match which st with MMin => rmin r | MMax => rmax r end) /\
  instance_component c rs' rs st p e = Ok (match which st with MMin => rmin r | MMax => rmax r end).
Proof.
  intros H H' L L'. apply (attrs_spec _ _ H) in L. unfold range_of in L. unfold instance_component. rewrite L.
  assert (X : range_of rs' c = Some r \/ range_of rs' c = None).
  { destruct L' as [L'|L']; [left; now apply (attrs_spec _ _ H')|right]. destruct (range_of rs' c) as [r'|] eqn:E; [|reflexivity].
    apply (attrs_spec _ _ H') in E. now destruct (L' r'). }
  unfold range_of in X. destruct X as [-> | ->]; [|split; reflexivity]. unfold range_eqb. rewrite !N.eqb_refl. split; reflexivity.
Qed.
