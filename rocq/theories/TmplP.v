(** The files of the benchmarking template: their tokens. *)
From Coq Require Import List String Ascii NArith Bool Lia.
From Verif Require Import Base CompareM SpecCompare SpecFmt SynM SpecAttr LexM SpecText SpecTmpl AttrM AttrP LexP.
Import ListNotations.
Local Open Scope string_scope.
Local Open Scope list_scope.

(** The tokens [ts], whatever follows. *)
Definition Tk (ts : list tok) (s : string) : Prop := forall us r, lexes us r -> lexes (ts ++ us) (s ++ r)%string.

Lemma Tk_nil : Tk [] "". Proof. now intros us r H. Qed.
Lemma Tk_app a b s t : Tk a s -> Tk b t -> Tk (a ++ b) (s ++ t)%string.
Proof. intros A B us r H. rewrite <- app_assoc, app_assoc_s. now apply A, B. Qed.
Lemma Tk_all ts s : Tk ts s -> lexes ts s.
Proof.
  intros T. specialize (T [] "" L_end). rewrite app_nil_r in T. replace s with (s ++ "")%string; auto.
  clear. induction s as [|c s IH]; cbn; [reflexivity|now rewrite IH].
Qed.

(** The last character separates it from whatever follows, and it is not part of a comment. *)
Definition safe (c : ascii) : bool := existsb (Ascii.eqb c) (list_ascii_of_string (String "010" " ([{}]),;")).
Fixpoint ends (p : ascii -> bool) (s : string) : bool :=
  match s with "" => false | String c "" => p c | String _ s' => ends p s' end.
Definition closed (s : string) : bool := (ends safe s && negb (str_has "/" s) || ends (Ascii.eqb newline) s)%bool.
Lemma ends_app p a b : b <> ""%string -> ends p (a ++ b) = ends p b.
Proof. intros N. induction a as [|c a IH]; [reflexivity|]. cbn [append ends]. destruct (a ++ b)%string eqn:E; [|exact IH]. destruct a, b; discriminate || congruence. Qed.
Lemma has_app c a b : str_has c (a ++ b) = (str_has c a || str_has c b)%bool.
Proof. induction a as [|d a IH]; [reflexivity|]. cbn. now rewrite IH, orb_assoc. Qed.
Lemma closed_app a b : closed (a ++ b) = true -> b = ""%string \/ closed b = true.
Proof.
  intros C. destruct (String.eqb_spec b ""); [now left|]. right. unfold closed in *. rewrite !ends_app, has_app in C by assumption.
  destruct (ends (Ascii.eqb newline) b); [apply orb_true_r|]. destruct (ends safe b), (str_has "/" b), (str_has "/" a); auto.
Qed.
Lemma ends_in p s : ends p s = true -> exists c, In c (list_ascii_of_string s) /\ p c = true.
Proof.
  induction s as [|c s IH]; [discriminate|]. cbn [ends]. destruct s; [intros H; exists c; split; auto; now left|].
  intros H. destruct (IH H) as (d & I & P). exists d. split; auto. now right.
Qed.
Lemma closed_safe s : closed s = true -> ends safe s = true.
Proof.
  unfold closed. intros H. apply orb_true_iff in H. destruct H as [H|H]; [now apply andb_true_iff in H|].
  induction s as [|c s IH]; [discriminate|]. cbn [ends] in *. destruct s; [apply Ascii.eqb_eq in H; now subst|auto].
Qed.
Lemma safe_word c : safe c = true -> in_class word_chars c -> False.
Proof.
  intros S W. apply class_in' in W. assert (H : (safe c && class word_chars c)%bool = false) by all_chars_tac c.
  rewrite S, W in H. discriminate H.
Qed.
Lemma app_nil_s s : (s ++ "")%string = s.
Proof. induction s as [|c s IH]; cbn; [reflexivity|now rewrite IH]. Qed.
Lemma begins_app al s r : s <> ""%string -> (begins al (s ++ r) <-> begins al s).
Proof.
  intros N. destruct s as [|c s]; [congruence|]. split; intros (d & t & E & I); injection E as <- _; eexists; eexists; (split; [reflexivity|exact I]).
Qed.
Lemma closed_not s : closed s = true -> s <> ""%string. Proof. intros H ->. discriminate H. Qed.
Lemma ends_over p al x : over al x -> ends p x = true -> exists c, in_class al c /\ p c = true.
Proof. intros O E. destruct (ends_in _ _ E) as (c & I & P). exists c. split; auto. apply O, I. Qed.

(** A closed text has its tokens whatever follows. *)
Ltac closed_case C s := let E := fresh "E" in
  match type of C with closed ?t = true => idtac end;
  destruct (closed_app _ s C) as [E|E].
Lemma line_end body s r : lacks nl_cr body -> s = ""%string \/ begins nl s -> closed ("//" ++ body ++ s) = true ->
  (closed s = true) /\ ((s ++ r)%string = ""%string \/ begins nl (s ++ r)).
Proof.
  intros L B C. assert (N : s <> ""%string).
  { intros ->. rewrite app_nil_s in C. unfold closed in C. cbn [append str_has] in C. cbn in C. rewrite andb_false_r in C. cbn in C.
    destruct body as [|c b]; [discriminate C|]. change (ends (Ascii.eqb newline) (String c b) = true) in C.
    destruct (ends_in _ _ C) as (d & I & E). apply Ascii.eqb_eq in E. subst d. apply (L _ I). now left. }
  split.
  - rewrite <- app_assoc_s in C. destruct (closed_app _ _ C); [contradiction|assumption].
  - right. destruct B as [|B]; [contradiction|]. now apply begins_app.
Qed.
Lemma Tk_closed ts s : lexes ts s -> closed s = true -> Tk ts s.
Proof.
  assert (X : lexes ts s -> (s = ""%string \/ closed s = true) -> Tk ts s).
  2:{ intros L C. apply X; auto. }
  assert (Step : forall a s, closed (a ++ s) = true -> s = ""%string \/ closed s = true) by (intros a s'; apply closed_app).
  assert (Stepc : forall c s, closed (String c s) = true -> s = ""%string \/ closed s = true) by (intros c s'; apply (closed_app (String c ""))).
  induction 1; intros C us r H'; (destruct C as [C|C]; [try discriminate C|]).
  - exact H'.
  - discriminate C.
  - cbn [append]. constructor; auto. apply IHlexes; auto. apply (Stepc c); auto.
  - destruct (line_end _ _ r H H0 C) as [Cs B]. rewrite !app_assoc_s. apply L_comment; auto. now apply IHlexes; auto.
  - assert (C' : closed ("//" ++ String "/" body ++ s) = true) by exact C.
    destruct (line_end (String "/" body) s r) as [Cs B]; auto.
    { intros c [<-|I]; [intros [K|[K|[]]]; discriminate K|now apply H]. }
    rewrite !app_assoc_s. cbn [app]. apply L_doc; auto. now apply IHlexes; auto.
  - assert (C' : closed ("//" ++ String "!" body ++ s) = true) by exact C.
    destruct (line_end (String "!" body) s r) as [Cs B]; auto.
    { intros c [<-|I]; [intros [K|[K|[]]]; discriminate K|now apply H]. }
    rewrite !app_assoc_s. cbn [app]. apply L_inner; auto. now apply IHlexes; auto.
  - destruct H as (c & t & -> & _). discriminate C.
  - assert (N : s <> ""%string).
    { intros ->. rewrite app_nil_s in C. apply closed_safe in C. destruct (ends_over _ _ _ H0 C) as (c & W & S). eauto using safe_word. }
    rewrite app_assoc_s. cbn [app]. apply L_ident; auto; [now rewrite begins_app|]. apply IHlexes; auto. now apply (Step x).
  - destruct H as (c & t & -> & _). discriminate C.
  - assert (W : all_in re_w (ds ++ suf)).
    { apply all_in_app. split; [|now apply suffix_word]. apply dus_w. now apply (all_in_over _ _ _ re_dus_class). }
    assert (N : s <> ""%string).
    { intros ->. rewrite app_nil_s in C. apply closed_safe in C. destruct (ends_in _ _ C) as (c & I & S). apply W in I.
      assert (Q : (re_w c && safe c)%bool = false) by all_chars_tac c. rewrite I, S in Q. discriminate Q. }
    rewrite !app_assoc_s. cbn [app]. apply L_int with (n := n); auto; [now rewrite begins_app|..].
    + intros s' E. destruct s as [|c s]; [congruence|]. injection E as -> <-. specialize (H4 s eq_refl).
      destruct H4 as (d & t & -> & I). eexists. eexists. split; [reflexivity|exact I].
    + apply IHlexes; auto. apply (Step (ds ++ suf)%string). now rewrite app_assoc_s.
  - destruct (closed_app (dquote ++ body ++ dquote) s) as [->|Cs]; [now rewrite !app_assoc_s|..].
    + rewrite app_nil_s in C. exfalso. apply closed_safe in C. rewrite <- app_assoc_s, ends_app in C by discriminate. discriminate C.
    + rewrite !app_assoc_s. cbn [app]. apply L_str; auto. apply IHlexes; auto.
  - rewrite app_assoc_s. cbn [app]. apply L_colons, IHlexes; auto. now apply (Step "::"%string).
  - rewrite app_assoc_s. cbn [app]. apply L_arrow, IHlexes; auto. now apply (Step "->"%string).
  - cbn [append app]. apply L_punct; auto.
    + intros -> B. destruct s as [|d s]; [discriminate C|]. rewrite begins_app in B by discriminate. now apply H0.
    + intros -> B. destruct s as [|d s]; [discriminate C|]. rewrite begins_app in B by discriminate. now apply H1.
    + apply IHlexes; auto. now apply (Stepc c).
  - cbn [append app]. apply L_paren, IHlexes; auto. now apply (Stepc "("%char).
  - cbn [append app]. apply L_bracket, IHlexes; auto. now apply (Stepc "["%char).
  - cbn [append app]. apply L_brace, IHlexes; auto. now apply (Stepc "{"%char).
  - cbn [append app]. apply L_paren', IHlexes; auto. now apply (Stepc ")"%char).
  - cbn [append app]. apply L_bracket', IHlexes; auto. now apply (Stepc "]"%char).
  - cbn [append app]. apply L_brace', IHlexes; auto. now apply (Stepc "}"%char).
Qed.
Lemma Tk_lit s ts : lex s = Some ts -> closed s = true -> Tk ts s.
Proof. intros L. apply Tk_closed. now apply lex_iff. Qed.

(** ** Parts that are not fixed *)
Definition apart (s : string) : Prop := ~ begins (word_chars ++ dquote ++ "#.") s /\ s <> ""%string.
Lemma apart_app s r : apart s -> apart (s ++ r).
Proof. intros [A N]. split; [now rewrite begins_app|]. destruct s; [congruence|discriminate]. Qed.
Lemma begins_mono al al' s : (forall c, in_class al c -> in_class al' c) -> begins al s -> begins al' s.
Proof. intros M (c & r & -> & I). exists c, r. auto. Qed.
Lemma Tk_ident x ts s : identifier x -> ~ begins (word_chars ++ dquote ++ "#") s -> s <> ""%string -> Tk ts s -> Tk (KIdent x :: ts) (x ++ s)%string.
Proof.
  intros (B & O & _) A N T us r H. rewrite app_assoc_s. cbn [app]. apply L_ident; auto. now rewrite begins_app.
Qed.
Definition is_numeral (s : string) (n : N) : Prop := begins digits s /\ over grouped_digits s /\ read_dec (without_us s) = Some n.
Lemma Tk_int d suf n ts s : is_numeral d n -> suffix suf -> ~ begins word_chars s -> ~ begins "." s -> s <> ""%string -> Tk ts s -> Tk (KInt n :: ts) (d ++ suf ++ s)%string.
Proof.
  intros (B & O & R) F A D N T us r H. rewrite !app_assoc_s. cbn [app]. apply L_int; auto; [now rewrite begins_app|].
  intros s' E. exfalso. apply D. destruct s as [|c s]; [congruence|]. injection E as -> _. exists "."%char, s. split; [reflexivity|now left].
Qed.
Lemma Tk_doc body : one_line body -> ~ begins "/" body -> Tk [KDoc body] ("///" ++ body ++ nl).
Proof.
  intros L N us r H. rewrite !app_assoc_s. cbn [app]. apply L_doc; auto.
  - right. eexists. eexists. split; [reflexivity|now left].
  - apply L_gap; [right; right; now left|exact H].
Qed.
Lemma Tk_comment body : one_line body -> ~ begins "/!" body \/ (exists b, body = "//" ++ b)%string -> Tk [] ("//" ++ body ++ nl).
Proof.
  intros L N us r H. rewrite !app_assoc_s. cbn [app]. apply L_comment; auto.
  - right. eexists. eexists. split; [reflexivity|now left].
  - apply L_gap; [right; right; now left|exact H].
Qed.
Lemma Tk_inner body : one_line body -> Tk [KInner body] ("//!" ++ body ++ nl).
Proof.
  intros L us r H. rewrite !app_assoc_s. cbn [app]. apply L_inner; auto.
  - right. eexists. eexists. split; [reflexivity|now left].
  - apply L_gap; [right; right; now left|exact H].
Qed.
Lemma Tk_space c ts s : in_class gaps c -> Tk ts s -> Tk ts (String c s).
Proof. intros I T us r H. cbn [append]. apply L_gap; auto. Qed.
Lemma Tk_tabs n ts s : Tk ts s -> Tk ts (tabs n ++ s)%string.
Proof. intros T. induction n as [|n IH]; [exact T|]. apply (Tk_space "009"); [right; now left|exact IH]. Qed.
Lemma Tk_lines {A} (f : A -> string) (g : A -> list tok) l : (forall x, In x l -> Tk (g x) (f x)) -> Tk (flat_map g l) (lines f l).
Proof.
  unfold lines. induction l as [|x l IH]; intros H; [exact Tk_nil|]. cbn [map flat_map].
  replace (String.concat "" (f x :: map f l)) with (f x ++ String.concat "" (map f l))%string.
  - apply Tk_app; [apply H; now left|]. apply IH. intros y I. apply H. now right.
  - cbn [String.concat]. destruct (map f l); [apply app_nil_s|reflexivity].
Qed.
