(** Proofs about LexM: texts to tokens to trees. *)
From Coq Require Import List String Ascii NArith Bool Lia.
From Verif Require Import Base TermM CompareM SpecCompare CompareP4 SpecFmt SynM AttrM SpecAttr StrP AttrP LexM SpecText.
Import ListNotations.
Local Open Scope string_scope.

(** ** Characters *)
Ltac all_chars_tac c := destruct c as [[] [] [] [] [] [] [] []]; vm_compute; reflexivity.
Lemma space_class c : is_space c = class gaps c. Proof. all_chars_tac c. Qed.
Lemma ident_class c : ident_start c = class letters c. Proof. all_chars_tac c. Qed.
Lemma d_class c : re_d c = class digits c. Proof. all_chars_tac c. Qed.
Lemma punct_class c : is_punct c = class puncts c. Proof. all_chars_tac c. Qed.
Lemma class_in' al c : class al c = true <-> in_class al c. Proof. apply class_in. Qed.
Lemma one_class c d : Ascii.eqb c d = class (String c "") d.
Proof. unfold class. cbn [list_ascii_of_string existsb]. rewrite orb_false_r. apply Ascii.eqb_sym. Qed.
Lemma begins_iff p al s : (forall c, p c = class al c) -> (begins al s <-> starts p s = true).
Proof.
  intros H. split.
  - intros (c & r & -> & I). cbn. rewrite H. now apply class_in'.
  - destruct s as [|c r]; [discriminate|]. cbn. rewrite H. intros I. exists c, r. split; [reflexivity|]. now apply class_in'.
Qed.
Lemma begins_not p al s : (forall c, p c = class al c) -> (~ begins al s <-> starts p s = false).
Proof. intros H. rewrite (begins_iff p al s H). destruct (starts p s); split; congruence. Qed.
Lemma has_iff c s : str_has c s = true <-> In c (list_ascii_of_string s).
Proof.
  induction s as [|d s IH]; cbn; [split; [discriminate|tauto]|]. rewrite orb_true_iff, IH, Ascii.eqb_eq. tauto.
Qed.
Lemma has_not c s : str_has c s = false <-> ~ In c (list_ascii_of_string s).
Proof. rewrite <- has_iff. destruct (str_has c s); split; congruence. Qed.

Definition all_in (p : ascii -> bool) (s : string) : Prop := forall c, In c (list_ascii_of_string s) -> p c = true.
Lemma all_in_over p al s : (forall c, p c = class al c) -> (all_in p s <-> over al s).
Proof. intros H. unfold all_in, over. split; intros K c I; specialize (K c I); rewrite ?H in *; now apply class_in. Qed.
Lemma span_inv p s : forall a b, span p s = (a, b) -> s = a ++ b /\ all_in p a /\ starts p b = false.
Proof.
  induction s as [|c s IH]; cbn; intros a b H.
  - injection H as <- <-. repeat split; intros c [].
  - destruct (p c) eqn:E.
    + destruct (span p s) as [a' b']. injection H as <- <-. destruct (IH _ _ eq_refl) as (-> & A & B).
      split; [reflexivity|]. split; [|exact B]. intros d [<-|I]; auto.
    + injection H as <- <-. repeat split; [intros d []|exact E].
Qed.
Lemma span_intro p a b : all_in p a -> starts p b = false -> span p (a ++ b) = (a, b).
Proof.
  intros A B. induction a as [|c a IH]; cbn.
  - destruct b as [|c b]; [reflexivity|]. cbn in B |- *. now rewrite B.
  - rewrite (A c (or_introl eq_refl)), IH; [reflexivity|]. intros d I. apply A. now right.
Qed.

(** ** Integers *)
Lemma suffix_iff s : suffix s <-> existsb (String.eqb s) int_suffixes = true.
Proof.
  rewrite existsb_exists. split.
  - intros H. exists s. split; [|apply String.eqb_refl]. destruct H as [->|(sg & w & -> & S & I)]; [now left|].
    cbn in I. destruct S as [->| ->]; repeat (destruct I as [<-|I]; [cbn; tauto|]); destruct I.
  - intros (x & I & E). apply String.eqb_eq in E. subst x. cbn in I. destruct I as [<-|I]; [now left|right].
    repeat (destruct I as [<-|I]; [eexists; eexists; split; [reflexivity|]; split; [tauto|cbn; tauto]|]). destruct I.
Qed.
Lemma suffix_stops s : suffix s -> starts re_dus s = false.
Proof. intros [->|(sg & w & -> & [->| ->] & _)]; reflexivity. Qed.
Lemma suffix_word s : suffix s -> all_in re_w s.
Proof.
  intros [->|(sg & w & -> & S & I)] c; [intros []|].
  cbn in I. destruct S as [->| ->]; repeat (destruct I as [<-|I]; [cbn; intros J; repeat (destruct J as [<-|J]; [reflexivity|]); destruct J|]); destruct I.
Qed.
Lemma dec_value ds : begins digits ds -> over grouped_digits ds -> read_dec (without_us ds) = Some (digits_val 0 (strip_us ds)).
Proof.
  intros (c & r & -> & I) O. rewrite <- strip_without. unfold read_dec. cbn [strip_us].
  assert (c <> "_"%char) by (intros ->; revert I; unfold in_class; cbn; intuition discriminate).
  assert (Ascii.eqb c "_" = false) as E by now apply Ascii.eqb_neq.
  pose proof (digits_read _ 0 (strip_digits _ O)) as D. cbn [strip_us] in D. rewrite E in *. exact D.
Qed.
Lemma all_in_app p a b : all_in p (a ++ b) <-> all_in p a /\ all_in p b.
Proof.
  induction a as [|c a IH]; cbn; [split; [intros H; split; [intros c []|exact H]|tauto]|].
  split.
  - intros H. assert (all_in p (a ++ b)) as [A B]%IH by (intros d I; apply H; now right). split; [|exact B].
    intros d [<-|I]; [apply H; now left|now apply A].
  - intros [A B] d [<-|I]; [apply A; now left|]. apply IH; auto. split; [|exact B]. intros x J. apply A. now right.
Qed.
Lemma dus_w s : all_in re_dus s -> all_in re_w s.
Proof. intros H c I. specialize (H c I). revert H. unfold re_dus, re_w. rewrite !orb_true_iff. tauto. Qed.
Lemma int_iff x n : starts re_d x = true ->
  (all_in re_w x /\ int_of x = Some n <->
   exists ds suf, x = ds ++ suf /\ begins digits ds /\ over grouped_digits ds /\ suffix suf /\ read_dec (without_us ds) = Some n).
Proof.
  intros D. unfold int_of. split.
  - intros [A H]. destruct (span re_dus x) as [ds suf] eqn:E. destruct (span_inv _ _ _ _ E) as (-> & A1 & S1).
    destruct (existsb _ _) eqn:Ex; [|discriminate]. injection H as <-. exists ds, suf.
    apply (all_in_over _ _ _ re_dus_class) in A1.
    assert (begins digits ds) as B.
    { destruct ds as [|c ds]; [|apply (begins_iff _ _ _ d_class); exact D].
      exfalso. cbn in *. destruct suf as [|c suf]; [discriminate|]. cbn in *. unfold re_dus in S1. now rewrite D in S1. }
    repeat split; auto; [now apply suffix_iff|now apply dec_value].
  - intros (ds & suf & -> & B & O & S & R). split.
    + apply all_in_app. split; [apply dus_w; now apply (all_in_over _ _ _ re_dus_class)|now apply suffix_word].
    + rewrite span_intro; [|now apply (all_in_over _ _ _ re_dus_class)|now apply suffix_stops].
      apply suffix_iff in S. rewrite S. rewrite (dec_value _ B O) in R. exact R.
Qed.
Lemma fraction_iff s : no_fraction s = true <-> forall s', s = "." ++ s' -> begins letters s'.
Proof.
  unfold no_fraction. destruct s as [|c s]; [split; [intros _ s' K; discriminate K|reflexivity]|].
  destruct (Ascii.eqb_spec c ".") as [->|N].
  - rewrite <- (begins_iff _ _ s ident_class). split; [intros H s' [= <-]; exact H|intros H; now apply H].
  - split; [intros _ s' [= E _]; contradiction|reflexivity].
Qed.

(** ** Comments *)
Definition not_nl (c : ascii) : bool := negb (Ascii.eqb c newline).
Lemma line_iff body s : lacks nl_cr body /\ (s = "" \/ begins nl s) <-> all_in not_nl body /\ str_has cr body = false /\ starts not_nl s = false.
Proof.
  assert (B : (s = "" \/ begins nl s) <-> starts not_nl s = false).
  { split.
    - intros [->|(c & r & -> & [<-|[]])]; reflexivity.
    - destruct s as [|c s]; [now left|]. cbn. unfold not_nl. rewrite negb_false_iff, Ascii.eqb_eq. intros ->. right. exists newline, s. split; [reflexivity|now left]. }
  rewrite B, has_not. unfold lacks, all_in, in_class. cbn. split.
  - intros [L Q]. repeat split; auto.
    + intros c I. unfold not_nl. apply negb_true_iff, Ascii.eqb_neq. intros ->. apply (L newline I). now left.
    + intros I. apply (L _ I). right. now left.
  - intros (A & C & Q). split; [|exact Q]. intros c I [<-|[<-|[]]]; [|contradiction].
    specialize (A _ I). discriminate A.
Qed.
Lemma comment_iff body ts : comment body = ts <->
  (ts = [] /\ (~ begins "/!" body \/ exists b, body = "//" ++ b)) \/
  (exists b, body = "/" ++ b /\ ~ begins "/" b /\ ts = [KDoc b]) \/ (exists b, body = "!" ++ b /\ ts = [KInner b]).
Proof.
  assert (Sl : forall b, ~ begins "/" b <-> starts (Ascii.eqb "/") b = false).
  { intros b. apply begins_not. intros c. apply one_class. }
  unfold comment. destruct body as [|c b].
  - split; [intros <-; left; split; [reflexivity|left; intros (c & r & K & _); discriminate K]|].
    intros [[-> _]|[(b & K & _)|(b & K & _)]]; [reflexivity|discriminate K|discriminate K].
  - destruct (Ascii.eqb_spec c "/") as [->|N1]; [|destruct (Ascii.eqb_spec c "!") as [->|N2]].
    + destruct (starts _ b) eqn:E; split.
      * intros <-. left. split; [reflexivity|]. right. destruct b as [|c b]; [discriminate|]. cbn [starts] in E. apply Ascii.eqb_eq in E. subst c. now exists b.
      * intros [[-> _]|[(b' & [= <-] & K & _)|(b' & K & _)]]; [reflexivity| |discriminate K]. apply Sl in K. congruence.
      * intros <-. right. left. exists b. repeat split. now apply Sl.
      * intros [[-> [K|(b' & [= ->])]]|[(b' & [= <-] & _ & ->)|(b' & K & _)]]; [| |reflexivity|discriminate K].
        -- exfalso. apply K. exists "/"%char, b. split; [reflexivity|now left].
        -- discriminate E.
    + split.
      * intros <-. right. right. now exists b.
      * intros [[-> [K|(b' & K)]]|[(b' & K & _)|(b' & [= <-] & ->)]]; [|discriminate K|discriminate K|reflexivity].
        exfalso. apply K. exists "!"%char, b. split; [reflexivity|right; now left].
    + split.
      * intros <-. left. split; [reflexivity|]. left. intros (d & r & [= <- <-] & [<-|[<-|[]]]); contradiction.
      * intros [[-> _]|[(b' & [= E _] & _)|(b' & [= E _] & _)]]; [reflexivity|contradiction|contradiction].
Qed.

(** ** Single tokens *)
Lemma app_assoc_s a b c : (a ++ b) ++ c = a ++ b ++ c.
Proof. induction a as [|x a IH]; cbn; [reflexivity|now rewrite IH]. Qed.
Lemma length_app a b : String.length (a ++ b) = (String.length a + String.length b)%nat.
Proof. induction a as [|x a IH]; cbn; [reflexivity|now rewrite IH]. Qed.
Lemma str_iff body : lacks (dquote ++ "\" ++ String "013" "") body <->
  all_in (fun c => negb (Ascii.eqb c quote)) body /\ (str_has "\" body || str_has cr body)%bool = false.
Proof.
  unfold lacks, all_in, in_class. rewrite orb_false_iff, !has_not. cbn. split.
  - intros L. repeat split.
    + intros c I. apply negb_true_iff, Ascii.eqb_neq. intros ->. apply (L _ I). now left.
    + intros I. apply (L _ I). right. now left.
    + intros I. apply (L _ I). right. right. now left.
  - intros (A & B & C) c I [<-|[<-|[<-|[]]]]; try contradiction. specialize (A _ I). discriminate A.
Qed.
Lemma ident_next c : (re_w c || (Ascii.eqb c quote || Ascii.eqb c "#"))%bool = class (word_chars ++ dquote ++ "#") c.
Proof. all_chars_tac c. Qed.
Lemma starts_or p q s : starts (fun c => p c || q c)%bool s = (starts p s || starts q s)%bool.
Proof. destruct s; reflexivity. Qed.
Lemma ident_rest s : ~ begins (word_chars ++ dquote ++ "#") s <-> starts re_w s = false /\ starts (fun c => Ascii.eqb c quote || Ascii.eqb c "#")%bool s = false.
Proof. rewrite (begins_not _ _ s ident_next), starts_or, orb_false_iff. reflexivity. Qed.

Lemma open_iff c d : open_of c = Some d <-> c = (match d with DParen => "(" | DBracket => "[" | DBrace => "{" end)%char.
Proof.
  unfold open_of. destruct (Ascii.eqb_spec c "(") as [->|N1]; [destruct d; split; congruence|].
  destruct (Ascii.eqb_spec c "[") as [->|N2]; [destruct d; split; congruence|].
  destruct (Ascii.eqb_spec c "{") as [->|N3]; destruct d; split; congruence.
Qed.
Lemma close_iff c d : close_of c = Some d <-> c = (match d with DParen => ")" | DBracket => "]" | DBrace => "}" end)%char.
Proof.
  unfold close_of. destruct (Ascii.eqb_spec c ")") as [->|N1]; [destruct d; split; congruence|].
  destruct (Ascii.eqb_spec c "]") as [->|N2]; [destruct d; split; congruence|].
  destruct (Ascii.eqb_spec c "}") as [->|N3]; destruct d; split; congruence.
Qed.
Lemma starts_eqb c s : starts (Ascii.eqb c) s = true <-> exists r, s = String c r.
Proof.
  destruct s as [|d s]; cbn; [split; [discriminate|intros (r & K); discriminate K]|]. rewrite Ascii.eqb_eq.
  split; [intros ->; now exists s|now intros (r & [= -> _])].
Qed.
Lemma begins_one c s : begins (String c "") s <-> starts (Ascii.eqb c) s = true.
Proof. apply begins_iff. intros d. apply one_class. Qed.

Lemma lex1_sound c r us rest ts : lex1 c r = Some (us, rest) -> lexes ts rest ->
  lexes (us ++ ts)%list (String c r) /\ (String.length rest < S (String.length r))%nat.
Proof.
  unfold lex1. intros H L. destruct (Ascii.eqb_spec c "/") as [->|N1].
  { destruct r as [|c' r']; [discriminate|]. destruct (Ascii.eqb_spec c' "/") as [->|]; [|discriminate].
    destruct (span _ r') as [body rest'] eqn:E. destruct (span_inv _ _ _ _ E) as (-> & A & S).
    destruct (str_has cr body) eqn:C; [discriminate|]. injection H as H ->.
    destruct (proj2 (line_iff body rest) (conj A (conj C S))) as [La B]. split; [|cbn; rewrite length_app; lia].
    apply comment_iff in H. destruct H as [[-> Cm]|[(b & -> & Nb & ->)|(b & -> & ->)]].
    - now apply (L_comment body ts rest).
    - assert (Lb : lacks nl_cr b) by (intros x I; apply La; now right). exact (L_doc b ts rest Lb B Nb L).
    - assert (Lb : lacks nl_cr b) by (intros x I; apply La; now right). exact (L_inner b ts rest Lb B L). }
  destruct (ident_start c) eqn:I1.
  { destruct (span re_w (String c r)) as [x rest'] eqn:E. destruct (span_inv _ _ _ _ E) as (Eq & A & S).
    destruct (starts _ rest') eqn:Q; [discriminate|]. injection H as <- ->. 
    assert (starts re_w (String c r) = true) as W.
    { cbn. revert I1. unfold ident_start, re_w. rewrite !orb_true_iff. tauto. }
    destruct x as [|c' x]; [cbn in Eq; subst rest; congruence|]. injection Eq as <- ->.
    split; [|rewrite length_app; lia].
    apply (L_ident (String c x) ts rest); auto.
    - now apply (begins_iff _ _ _ ident_class).
    - now apply (all_in_over _ _ _ re_w_class).
    - now apply ident_rest. }
  destruct (re_d c) eqn:D.
  { destruct (span re_w (String c r)) as [x rest'] eqn:E. destruct (span_inv _ _ _ _ E) as (Eq & A & S).
    destruct (int_of x) as [n|] eqn:I; [|discriminate]. destruct (no_fraction rest') eqn:F; [|discriminate]. injection H as <- ->.
    destruct x as [|c' x]; [cbn in Eq; subst rest; cbn in S; unfold re_w in S; now rewrite D in S|]. injection Eq as <- ->.
    split; [|rewrite length_app; lia].
    destruct (proj1 (int_iff (String c x) n D) (conj A I)) as (ds & suf & Ex & B & O & Sf & R).
    change (String c (x ++ rest)) with (String c x ++ rest). rewrite Ex, app_assoc_s. apply L_int; auto.
    - now apply (begins_not _ _ _ re_w_class).
    - now apply fraction_iff. }
  destruct (Ascii.eqb_spec c quote) as [->|N2].
  { destruct (span _ r) as [body rest'] eqn:E. destruct (span_inv _ _ _ _ E) as (-> & A & S).
    destruct rest' as [|q rest']; [discriminate|]. destruct (_ || _)%bool eqn:O; [discriminate|]. injection H as <- ->.
    cbn [starts] in S. apply negb_false_iff, Ascii.eqb_eq in S. subst q. split; [|rewrite length_app; cbn; lia].
    apply (L_str body ts rest); [|exact L]. now apply str_iff. }
  destruct (Ascii.eqb c ":" && _)%bool eqn:Co.
  { apply andb_prop in Co. destruct Co as [E S]. apply Ascii.eqb_eq in E. apply starts_eqb in S. destruct S as (r' & ->).
    injection H as <- <-. subst c. split; [now apply L_colons|cbn; lia]. }
  destruct (Ascii.eqb c "-" && _)%bool eqn:Ar.
  { apply andb_prop in Ar. destruct Ar as [E S]. apply Ascii.eqb_eq in E. apply starts_eqb in S. destruct S as (r' & ->).
    injection H as <- <-. subst c. split; [now apply L_arrow|cbn; lia]. }
  destruct (is_punct c) eqn:P.
  { injection H as <- <-. split; [|lia]. apply L_punct; auto.
    - apply class_in'. now rewrite <- punct_class.
    - intros -> B. apply begins_one in B. now rewrite B in Co.
    - intros -> B. apply begins_one in B. now rewrite B in Ar. }
  destruct (open_of c) as [d|] eqn:O; [|destruct (close_of c) as [d|] eqn:Cl; [|discriminate]]; injection H as <- <-; (split; [|lia]).
  - apply open_iff in O. subst c. destruct d; [now apply L_paren|now apply L_bracket|now apply L_brace].
  - apply close_iff in Cl. subst c. destruct d; [now apply L_paren'|now apply L_bracket'|now apply L_brace'].
Qed.

(** ** Texts *)
Lemma lex_sound fuel : forall s ts, lex_fuel fuel s = Some ts -> lexes ts s.
Proof.
  induction fuel as [|fuel IH]; intros s ts H; [discriminate|]. destruct s as [|c r].
  - injection H as <-. constructor.
  - cbn [lex_fuel] in H. destruct (is_space c) eqn:Sp.
    + apply L_gap; [apply class_in'; now rewrite <- space_class|now apply IH].
    + destruct (lex1 c r) as [[us rest]|] eqn:E; [|discriminate]. destruct (lex_fuel fuel rest) as [vs|] eqn:F; [|discriminate].
      injection H as <-. eapply lex1_sound; eauto.
Qed.
(** One step of the lexer, from the front. *)
Lemma step fuel c r us rest ts : is_space c = false -> lex1 c r = Some (us, rest) -> lex_fuel fuel rest = Some ts ->
  lex_fuel (S fuel) (String c r) = Some (us ++ ts)%list.
Proof. intros S E F. cbn [lex_fuel]. now rewrite S, E, F. Qed.
Lemma lex1_slash body rest us : lacks nl_cr body -> rest = "" \/ begins nl rest -> comment body = us ->
  lex1 "/" (String "/" (body ++ rest)) = Some (us, rest).
Proof.
  intros L B C. destruct (proj1 (line_iff body rest) (conj L B)) as (A & H & S). unfold lex1. change (Ascii.eqb "/" "/") with true. cbv iota.
  change (fun c => negb (Ascii.eqb c newline)) with not_nl. rewrite (span_intro _ _ _ A S), H. now rewrite C.
Qed.
Lemma d_not_ident c : re_d c = true -> ident_start c = false /\ Ascii.eqb c "/" = false /\ is_space c = false.
Proof. destruct c as [[] [] [] [] [] [] [] []]; vm_compute; auto; discriminate. Qed.
Lemma ident_facts c : ident_start c = true -> Ascii.eqb c "/" = false /\ is_space c = false.
Proof. destruct c as [[] [] [] [] [] [] [] []]; vm_compute; auto; discriminate. Qed.
Lemma punct_facts c : is_punct c = true ->
  Ascii.eqb c "/" = false /\ is_space c = false /\ ident_start c = false /\ re_d c = false /\ Ascii.eqb c quote = false.
Proof. destruct c as [[] [] [] [] [] [] [] []]; vm_compute; auto; discriminate. Qed.
Lemma lex_complete s ts : lexes ts s -> forall fuel, (String.length s < fuel)%nat -> lex_fuel fuel s = Some ts.
Proof.
  induction 1 as [|c ts s G L IH|body ts s La B Cm L IH|body ts s La B Nb L IH|body ts s La B L IH|x ts s Bx Ox Nx L IH|ds suf n ts s Bd Od Su R Nw Fr L IH
    |body ts s Ls L IH|ts s L IH|ts s L IH|c ts s Pc C1 C2 L IH|ts s L IH|ts s L IH|ts s L IH|ts s L IH|ts s L IH|ts s L IH];
    intros fuel Hf; (destruct fuel as [|fuel]; [exfalso; lia|]).
  - reflexivity.
  - cbn [lex_fuel]. rewrite space_class. apply class_in' in G. rewrite G. apply IH. cbn in Hf. lia.
  - cbn [append] in Hf |- *. eapply (step fuel "/" (String "/" (body ++ s)) [] s ts); [reflexivity|apply lex1_slash; auto; apply comment_iff; auto|].
    apply IH. cbn in Hf. rewrite length_app in Hf. lia.
  - cbn [append] in Hf |- *. eapply (step fuel "/" (String "/" (String "/" body ++ s)) [KDoc body] s ts); [reflexivity|apply lex1_slash; auto|].
    + intros c [<-|I]; [cbn; intros [K|[K|[]]]; discriminate K|now apply La].
    + apply comment_iff. right. left. now exists body.
    + apply IH. cbn in Hf. rewrite length_app in Hf. lia.
  - cbn [append] in Hf |- *. eapply (step fuel "/" (String "/" (String "!" body ++ s)) [KInner body] s ts); [reflexivity|apply lex1_slash; auto|].
    + intros c [<-|I]; [cbn; intros [K|[K|[]]]; discriminate K|now apply La].
    + apply IH. cbn in Hf. rewrite length_app in Hf. lia.
  - apply (begins_iff _ _ _ ident_class) in Bx. destruct x as [|c x]; [discriminate|]. cbn in Bx. destruct (ident_facts _ Bx) as (F1 & F2).
    cbn [append] in Hf |- *. apply (step fuel c (x ++ s) [KIdent (String c x)] s ts); [exact F2| |apply IH; cbn in Hf; rewrite length_app in Hf; lia].
    unfold lex1. apply ident_rest in Nx. destruct Nx as [N1 N2]. rewrite F1, Bx. change (String c (x ++ s)) with (String c x ++ s).
    rewrite (span_intro re_w (String c x) s); [now rewrite N2|now apply (all_in_over _ _ _ re_w_class)|exact N1].
  - assert (starts re_d (ds ++ suf) = true) as D.
    { destruct Bd as (c & r & -> & I). cbn. rewrite d_class. now apply class_in'. }
    destruct (proj2 (int_iff (ds ++ suf) n D)) as [A I]; [exists ds, suf; auto|].
    rewrite <- app_assoc_s in Hf |- *. destruct (ds ++ suf) as [|c x]; [discriminate|]. cbn in D. destruct (d_not_ident _ D) as (F1 & F2 & F3).
    cbn [append] in Hf |- *. apply (step fuel c (x ++ s) [KInt n] s ts); [exact F3| |apply IH; cbn in Hf; rewrite length_app in Hf; lia].
    unfold lex1. rewrite F2, F1, D. change (String c (x ++ s)) with (String c x ++ s).
    rewrite (span_intro re_w (String c x) s); [|exact A|now apply (begins_not _ _ _ re_w_class)].
    rewrite I. apply fraction_iff in Fr. now rewrite Fr.
  - apply str_iff in Ls. destruct Ls as [A O]. cbn [append dquote] in Hf |- *.
    apply (step fuel quote (body ++ String quote s) [KStr body] s ts); [reflexivity| |apply IH; cbn in Hf; rewrite length_app in Hf; cbn in Hf; lia].
    unfold lex1. change (Ascii.eqb quote "/") with false. change (ident_start quote) with false. change (re_d quote) with false.
    change (Ascii.eqb quote quote) with true. cbv iota. rewrite (span_intro _ body (String quote s)); [|exact A|reflexivity]. now rewrite O.
  - apply (step fuel ":" (":" ++ s) [KColons] s ts); [reflexivity|reflexivity|]. apply IH. cbn in Hf. lia.
  - apply (step fuel "-" (">" ++ s) [KArrow] s ts); [reflexivity|reflexivity|]. apply IH. cbn in Hf. lia.
  - apply class_in' in Pc. rewrite <- punct_class in Pc. destruct (punct_facts _ Pc) as (F1 & F2 & F3 & F4 & F5).
    apply (step fuel c s [KPunct c] s ts); [exact F2| |apply IH; cbn in Hf; lia]. unfold lex1. rewrite F1, F3, F4, F5, Pc.
    destruct (Ascii.eqb c ":" && _)%bool eqn:Co.
    { apply andb_prop in Co. destruct Co as [E S]. apply Ascii.eqb_eq in E. exfalso. apply (C1 E). now apply begins_one. }
    destruct (Ascii.eqb c "-" && _)%bool eqn:Ar; [|reflexivity].
    apply andb_prop in Ar. destruct Ar as [E S]. apply Ascii.eqb_eq in E. exfalso. apply (C2 E). now apply begins_one.
  - apply (step fuel "(" s [KOpen DParen] s ts); [reflexivity|reflexivity|]. apply IH. cbn in Hf. lia.
  - apply (step fuel "[" s [KOpen DBracket] s ts); [reflexivity|reflexivity|]. apply IH. cbn in Hf. lia.
  - apply (step fuel "{" s [KOpen DBrace] s ts); [reflexivity|reflexivity|]. apply IH. cbn in Hf. lia.
  - apply (step fuel ")" s [KClose DParen] s ts); [reflexivity|reflexivity|]. apply IH. cbn in Hf. lia.
  - apply (step fuel "]" s [KClose DBracket] s ts); [reflexivity|reflexivity|]. apply IH. cbn in Hf. lia.
  - apply (step fuel "}" s [KClose DBrace] s ts); [reflexivity|reflexivity|]. apply IH. cbn in Hf. lia.
Qed.
Lemma lex_iff s ts : lex s = Some ts <-> lexes ts s.
Proof. split; [apply lex_sound|intros H; apply (lex_complete s ts H); lia]. Qed.

(** ** Trees *)
Lemma delim_refl d : delim_eqb d d = true. Proof. destruct d; reflexivity. Qed.
Lemma delim_eq d d' : delim_eqb d d' = true -> d = d'. Proof. destruct d, d'; congruence || discriminate. Qed.
Lemma build_complete l us : tokens_of l us -> forall ts stack acc, build (us ++ ts)%list stack acc = build ts stack (rev l ++ acc)%list.
Proof.
  induction 1 as [|t l us Nt T IH|d b vs l us Tb IHb T IH]; intros ts stack acc; [reflexivity| |].
  - cbn [app build]. replace (rev (Leaf t :: l) ++ acc)%list with (rev l ++ Leaf t :: acc)%list by (cbn; now rewrite <- app_assoc).
    rewrite <- IH. destruct t as [| | | | | | | |d|d]; try reflexivity; exfalso; destruct (Nt d); congruence.
  - cbn [app build]. rewrite <- app_assoc. rewrite IHb. cbn [app build]. rewrite delim_refl, app_nil_r, rev_involutive, IH.
    f_equal. cbn. now rewrite <- app_assoc.
Qed.
(** What [build] still has to find. *)
Fixpoint rest_of (stack : list (delim * list tt)) (acc : list tt) (ts : list tok) (l : list tt) : Prop :=
  match stack with
  | [] => exists x, tokens_of x ts /\ l = (rev acc ++ x)%list
  | (d, prev) :: stack =>
      exists x us ts', ts = (us ++ KClose d :: ts')%list /\ tokens_of x us /\ rest_of stack (Group d (rev acc ++ x) :: prev)%list ts' l
  end.
Lemma rest_leaf stack acc t ts l : (forall d, t <> KOpen d /\ t <> KClose d) -> rest_of stack (Leaf t :: acc) ts l -> rest_of stack acc (t :: ts) l.
Proof.
  intros Nt. destruct stack as [|[d prev] stack]; cbn.
  - intros (x & T & ->). exists (Leaf t :: x). split; [now constructor|]. now rewrite <- app_assoc.
  - intros (x & us & ts' & -> & T & R). exists (Leaf t :: x), (t :: us), ts'. split; [reflexivity|]. split; [now constructor|].
    now rewrite <- app_assoc in R.
Qed.
Lemma rest_group stack acc d b us ts l : tokens_of b us -> rest_of stack (Group d b :: acc) ts l -> rest_of stack acc (KOpen d :: us ++ KClose d :: ts) l.
Proof.
  intros Tb. destruct stack as [|[d' prev] stack]; cbn.
  - intros (x & T & ->). exists (Group d b :: x). split; [now constructor|]. now rewrite <- app_assoc.
  - intros (x & vs & ts' & -> & T & R). exists (Group d b :: x), (KOpen d :: us ++ KClose d :: vs)%list, ts'.
    split; [cbn; now rewrite <- app_assoc|]. split; [now constructor|]. now rewrite <- app_assoc in R.
Qed.
Lemma build_sound ts : forall stack acc l, build ts stack acc = Some l -> rest_of stack acc ts l.
Proof.
  induction ts as [|t ts IH]; intros stack acc l H.
  - destruct stack as [|]; [|discriminate H]. injection H as <-. exists []. split; [constructor|]. now rewrite app_nil_r.
  - destruct t as [| | | | | | | |d|d]; try (apply rest_leaf; [intros d; split; discriminate|]; now apply IH).
    + cbn [build] in H. destruct (IH _ _ _ H) as (x & us & ts' & -> & T & R). now apply rest_group with (b := x).
    + cbn [build] in H. destruct stack as [|[d' prev] stack]; [discriminate|]. destruct (delim_eqb d d') eqn:E; [|discriminate].
      apply delim_eq in E. subst d'. cbn. exists [], [], ts. split; [reflexivity|]. split; [constructor|]. rewrite app_nil_r. now apply IH.
Qed.
Lemma trees_iff ts l : trees ts = Some l <-> tokens_of l ts.
Proof.
  split.
  - intros H. destruct (build_sound ts [] [] l H) as (x & T & ->). exact T.
  - intros T. unfold trees. pose proof (build_complete l ts T [] [] []) as B. rewrite !app_nil_r in B. rewrite B. cbn. now rewrite rev_involutive.
Qed.
