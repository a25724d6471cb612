(** Proofs about the pages of the web server. *)
From Coq Require Import List String Ascii Arith NArith Bool Lia.
From Verif Require Import Base ScopeM TermM F64 CompareM RowsM FmtM SynM ParseM StorageM FilesM GitM CliM WebM SpecFiles SpecWeb.
From Verif Require Import DecP StrP.
From Verif Require GitP.
Import ListNotations.
Local Open Scope string_scope.

Lemma only_cons P c s : only P (String c s) <-> P c /\ only P s.
Proof.
  unfold only. cbn. split.
  - intros H. split; [apply H; now left|]. intros x Hx. apply H. now right.
  - intros [H K] x [<-|Hx]; auto.
Qed.
Lemma only_app P a b : only P (a ++ b) <-> only P a /\ only P b.
Proof.
  unfold only. rewrite list_ascii_app. split.
  - intros H. split; intros x Hx; apply H, in_or_app; auto.
  - intros [H K] x Hx. apply in_app_or in Hx. destruct Hx; auto.
Qed.
Lemma only_impl (P Q : ascii -> Prop) s : (forall c, P c -> Q c) -> only P s -> only Q s.
Proof. unfold only. auto. Qed.

Lemma space_spec c : is_space c = true <-> blank c.
Proof.
  split.
  - intros H. destruct c as [[] [] [] [] [] [] [] []]; cbn in H; try discriminate H; cbn; tauto.
  - intros H. cbn in H. repeat (destruct H as [<-|H]; [reflexivity|]). destruct H.
Qed.
Lemma not_space c : ~ blank c -> is_space c = false.
Proof. intros H. destruct (is_space c) eqn:E; [|reflexivity]. apply space_spec in E. tauto. Qed.

(** ** Lines *)
Lemma lines_go s : forall cur t, only (fun c => c <> newline) s -> lines_from cur (s ++ String newline t) = strip_cr (cur ++ s) :: lines_from "" t.
Proof.
  induction s as [|c s IH]; intros cur t H; cbn [append lines_from].
  - rewrite Ascii.eqb_refl, app_str_nil. reflexivity.
  - apply only_cons in H. destruct H as [H K]. apply Ascii.eqb_neq in H. rewrite H, IH by assumption.
    now rewrite app_str_assoc.
Qed.
Lemma strip_cr_no s : forall c, c <> cr -> strip_cr (s ++ String c "") = s ++ String c "".
Proof.
  induction s as [|a s IH]; intros c H; cbn.
  - apply Ascii.eqb_neq in H. now rewrite H.
  - rewrite IH by assumption. replace (String.eqb (s ++ String c "") "") with false; [now rewrite andb_false_r|].
    symmetry. apply String.eqb_neq. destruct s; discriminate.
Qed.

(** ** Removing a text *)
Lemma remove_skip pat a : forall t, remove_from pat (String.length a) (a ++ t) = remove_from pat 0 t.
Proof.
  induction a as [|c a IH]; intros t; cbn [append String.length]; [reflexivity|]. cbn [remove_from]. apply IH.
Qed.
Lemma remove_here pat t : pat <> "" -> remove pat (pat ++ t) = remove pat t.
Proof.
  destruct pat as [|c p]; [congruence|]. intros _. unfold remove. cbn [append remove_from].
  replace (String.prefix (String c p) (String c (p ++ t))) with true.
  - cbn [String.length]. cbn [Nat.sub]. rewrite Nat.sub_0_r. apply remove_skip.
  - symmetry. apply GitP.prefix_spec. exists t. reflexivity.
Qed.
Lemma remove_go c p x t : x <> c -> remove (String c p) (String x t) = String x (remove (String c p) t).
Proof.
  intros H. unfold remove. cbn [remove_from String.prefix]. destruct (ascii_dec c x); [congruence|]. reflexivity.
Qed.
Lemma remove_over c p a t : only (fun x => x <> c) a -> remove (String c p) (a ++ t) = a ++ remove (String c p) t.
Proof.
  induction a as [|x a IH]; intros H; cbn [append]; [reflexivity|]. apply only_cons in H. destruct H as [H K].
  rewrite remove_go by assumption. now rewrite IH.
Qed.
Lemma remove_none pat s : ~ occurs pat s -> remove pat s = s.
Proof.
  intros H. unfold remove. induction s as [|c s IH]; [reflexivity|]. cbn [remove_from].
  destruct (String.prefix pat (String c s)) eqn:E.
  - exfalso. apply H. apply GitP.prefix_spec in E. destruct E as (b & E). exists "", b. exact E.
  - f_equal. apply IH. intros (a & b & ->). apply H. exists (String c a), b. reflexivity.
Qed.
Lemma hex_not_r s : only hex s -> only (fun x => x <> "r"%char) s.
Proof. apply only_impl. intros c H E. subst. cbn in H. repeat (destruct H as [H|H]; [discriminate|]). exact H. Qed.
Definition heads : string := "refs/heads/".
Definition tags : string := "refs/tags/".
Lemma remove_refs h tag name : only hex h ->
  remove tags (remove heads (h ++ String "009" ((if tag : bool then tags else heads) ++ name))) =
  h ++ String "009" (remove tags (remove heads name)).
Proof.
  intros H. apply hex_not_r in H. unfold heads, tags. rewrite remove_over by assumption.
  rewrite (remove_go "r" "efs/heads/" "009") by discriminate.
  rewrite remove_over by assumption. f_equal. rewrite (remove_go "r" "efs/tags/" "009") by discriminate. f_equal.
  destruct tag.
  - replace (remove "refs/heads/" ("refs/tags/" ++ name)) with ("refs/tags/" ++ remove "refs/heads/" name).
    + apply remove_here. discriminate.
    + assert (E : String.prefix "refs/heads/" ("refs/tags/" ++ name) = false) by reflexivity.
      change (remove "refs/heads/" ("refs/tags/" ++ name)) with
        (if String.prefix "refs/heads/" ("refs/tags/" ++ name) then remove_from "refs/heads/" 10 ("efs/tags/" ++ name)
         else String "r" (remove "refs/heads/" ("efs/tags/" ++ name))).
      rewrite E, (remove_over "r" "efs/heads/" "efs/tags/"); [reflexivity|].
      intros x I D. subst. cbn in I. repeat (destruct I as [I|I]; [discriminate|]). exact I.
  - now rewrite remove_here by discriminate.
Qed.

(** ** Words *)
Lemma words_over a : forall cur t, only (fun c => ~ blank c) a -> words_from cur (a ++ t) = words_from (cur ++ a) t.
Proof.
  induction a as [|c a IH]; intros cur t H; cbn [append]; [now rewrite app_str_nil|].
  apply only_cons in H. destruct H as [H K]. cbn [words_from]. rewrite not_space by assumption.
  rewrite IH by assumption. now rewrite app_str_assoc.
Qed.
Lemma words_two a b : a <> "" -> b <> "" -> only (fun c => ~ blank c) a -> only (fun c => ~ blank c) b ->
  words (a ++ String "009" b) = [a; b].
Proof.
  intros Na Nb Ha Hb. unfold words. rewrite words_over by assumption. cbn [append words_from].
  replace (is_space "009") with true by reflexivity.
  assert (Ea : String.eqb a "" = false) by now apply String.eqb_neq. rewrite Ea. cbn [app]. f_equal.
  transitivity (words_from "" (b ++ "")); [now rewrite app_str_nil|]. rewrite words_over by assumption. cbn [append words_from].
  assert (Eb : String.eqb b "" = false) by now apply String.eqb_neq. now rewrite Eb.
Qed.
Lemma hex_not_blank s : only hex s -> only (fun c => ~ blank c) s.
Proof.
  apply only_impl. intros c H B. cbn in H, B.
  repeat (destruct H as [<-|H]; [repeat (destruct B as [B|B]; [discriminate|]); exact B|]). exact H.
Qed.
Lemma get_In s : forall k c, String.get k s = Some c -> In c (list_ascii_of_string s).
Proof.
  induction s as [|x s IH]; intros k c H; cbn in H; [discriminate|]. destruct k; [injection H as ->; now left|].
  right. eauto.
Qed.
Lemma hex_12 h : only hex h -> 12 <= String.length h -> take12 h = Ok (substring 0 12 h).
Proof.
  intros H L. unfold take12. apply Nat.ltb_ge in L. rewrite L. destruct (String.get 12 h) as [c|] eqn:E; [|reflexivity].
  apply get_In in E. apply H in E. cbn in E.
  repeat (destruct E as [<-|E]; [reflexivity|]). destruct E.
Qed.

Lemma has_char_existsb c s : has_char c s = existsb (fun a => Ascii.eqb a c) (list_ascii_of_string s).
Proof. induction s as [|a s IH]; cbn; [reflexivity|]. now rewrite IH. Qed.
Lemma has_char_app c a b : has_char c (a ++ b) = has_char c a || has_char c b.
Proof. rewrite !has_char_existsb, list_ascii_app. apply existsb_app. Qed.
Lemma hex_no_char c h : ~ hex c -> only hex h -> has_char c h = false.
Proof.
  intros N H. rewrite has_char_existsb. apply not_true_is_false. intros E. apply existsb_exists in E.
  destruct E as (x & I & E). apply Ascii.eqb_eq in E. subst. apply N, H, I.
Qed.
Lemma existsb_or {A} (f g : A -> bool) l : existsb (fun x => f x || g x) l = existsb f l || existsb g l.
Proof. induction l as [|x l IH]; cbn; [reflexivity|]. rewrite IH. destruct (f x), (g x), (existsb f l); reflexivity. Qed.

Definition ref_body (r : ref) : string := ref_hash r ++ String "009" ((if ref_tag r then tags else heads) ++ ref_name r).
Lemma body_kept r : good_ref r -> negb (has_char "{" (ref_body r)) && negb (has_char "^" (ref_body r)) = negb (odd_ref r).
Proof.
  intros (H & _). unfold ref_body, odd_ref. rewrite existsb_or, negb_orb, <- !has_char_existsb, !has_char_app.
  rewrite !(hex_no_char _ (ref_hash r)) by (try assumption; cbn; intros X; repeat (destruct X as [X|X]; [discriminate|]); exact X).
  cbn [has_char]. rewrite !has_char_app. destruct (ref_tag r); reflexivity.
Qed.
Lemma last_char s : s <> "" -> exists t c, s = t ++ String c "".
Proof.
  induction s as [|c s IH]; [congruence|]. intros _. destruct s as [|d s].
  - exists "", c. reflexivity.
  - destruct IH as (t & x & E); [discriminate|]. exists (String c t), x. rewrite E. reflexivity.
Qed.
Lemma body_line r : good_ref r -> strip_cr (ref_body r) = ref_body r /\ only (fun c => c <> newline) (ref_body r).
Proof.
  intros (H & L & N & P). unfold ref_body. split.
  - destruct (last_char _ N) as (t & c & E). rewrite E.
    replace (ref_hash r ++ String "009" ((if ref_tag r then tags else heads) ++ t ++ String c ""))
      with ((ref_hash r ++ String "009" ((if ref_tag r then tags else heads) ++ t)) ++ String c "")
      by (rewrite app_str_assoc; cbn [append]; now rewrite app_str_assoc).
    apply strip_cr_no. intros ->. apply (P cr); [|cbn; tauto]. rewrite E, list_ascii_app. apply in_or_app. right. now left.
  - apply only_app. split; [|apply only_cons; split; [discriminate|apply only_app; split]].
    + eapply only_impl, hex_not_blank, H. intros c B ->. apply B. cbn. tauto.
    + destruct (ref_tag r); intros c I E; cbn in I; repeat (destruct I as [I|I]; [subst; discriminate|]); exact I.
    + eapply only_impl, P. intros c B ->. apply B. cbn. tauto.
Qed.
Lemma lines_refs refs : Forall good_ref refs -> lines (String.concat "" (map ref_line refs)) = map ref_body refs.
Proof.
  assert (C : forall l : list string, String.concat "" l = fold_right append "" l).
  { induction l as [|x [|y l] IH]; [reflexivity|cbn; now rewrite app_str_nil|]. rewrite concat_cons by discriminate. rewrite IH. reflexivity. }
  rewrite C. unfold lines. induction 1 as [|r refs G F IH]; [reflexivity|]. cbn [map fold_right].
  replace (ref_line r ++ fold_right append "" (map ref_line refs)) with (ref_body r ++ String newline (fold_right append "" (map ref_line refs))).
  - destruct (body_line r G) as [S P]. rewrite lines_go by assumption. cbn [append]. now rewrite S, IH.
  - unfold ref_body, ref_line, heads, tags. rewrite !app_str_assoc. f_equal. cbn [append]. f_equal.
    destruct (ref_tag r); cbn [append]; rewrite !app_str_assoc; reflexivity.
Qed.

Lemma entry_lemma r : good_ref r -> remove tags (remove heads (ref_name r)) <> "" ->
  only (fun c => ~ blank c) (remove tags (remove heads (ref_name r))) ->
  branch_entry (remove tags (remove heads (ref_body r))) = Ok (remove tags (remove heads (ref_name r)), substring 0 12 (ref_hash r)).
Proof.
  intros (H & L & N & P) M Q. unfold branch_entry, ref_body. rewrite remove_refs by assumption.
  rewrite words_two; [|destruct (ref_hash r); [cbn in L; lia|discriminate]|assumption|now apply hex_not_blank|assumption].
  rewrite hex_12 by assumption. reflexivity.
Qed.
Lemma entries_lemma refs : Forall good_ref refs ->
  (forall r, In r refs -> ~ occurs "refs/heads/" (ref_name r) /\ ~ occurs "refs/tags/" (ref_name r)) ->
  branch_list (String.concat "" (map ref_line refs)) =
    Ok (map (fun r => (ref_name r, substring 0 12 (ref_hash r))) (filter (fun r => negb (odd_ref r)) refs)).
Proof.
  intros G O. unfold branch_list. rewrite lines_refs by assumption. induction G as [|r refs G F IH]; [reflexivity|].
  cbn [map filter]. rewrite body_kept by assumption. 
  assert (I : forall r', In r' refs -> ~ occurs "refs/heads/" (ref_name r') /\ ~ occurs "refs/tags/" (ref_name r')) by (intros; apply O; now right).
  specialize (IH I). destruct (odd_ref r); cbn [negb]; [exact IH|]. cbn [map mapM]. fold heads tags. fold heads tags in IH. rewrite IH.
  destruct (O r) as [O1 O2]; [now left|].
  assert (E : remove tags (remove heads (ref_name r)) = ref_name r) by (rewrite (remove_none heads) by assumption; now apply remove_none).
  rewrite entry_lemma; rewrite ?E; [reflexivity|assumption|apply G|apply G].
Qed.

Lemma strip_cr_other s c : c <> "013"%char -> strip_cr (s ++ String c "") = s ++ String c "".
Proof.
  intros N. induction s as [|a s IH]; cbn [append strip_cr].
  - destruct (Ascii.eqb_spec c cr) as [->|_]; [now elim N|reflexivity].
  - rewrite IH. destruct (String.eqb_spec (s ++ String c "") "") as [E|_]; [destruct s; discriminate|]. now rewrite andb_false_r.
Qed.
Lemma lines_last c : c <> newline -> c <> "013"%char -> forall s cur,
  lines_from cur (s ++ String c "") = lines_from cur (s ++ String c (String newline "")).
Proof.
  intros N1 N2. induction s as [|a s IH]; intros cur; cbn [append lines_from].
  - destruct (Ascii.eqb_spec c newline) as [E|_]; [now elim N1|]. rewrite Ascii.eqb_refl, strip_cr_other by exact N2.
    destruct (String.eqb_spec (cur ++ String c "") "") as [E|_]; [destruct cur; discriminate|reflexivity].
  - destruct (Ascii.eqb a newline); now rewrite IH.
Qed.
Lemma last_line s c : c <> newline -> c <> "013"%char ->
  branch_list (s ++ String c "") = branch_list (s ++ String c (String newline "")).
Proof. intros N1 N2. unfold branch_list, lines. now rewrite lines_last. Qed.

(** ** Lines that make the server panic *)
Lemma lines_app s : forall cur t, lines_from cur (s ++ String newline t) = (lines_from cur (s ++ String newline "") ++ lines_from "" t)%list.
Proof.
  induction s as [|c s IH]; intros cur t; cbn [append lines_from].
  - rewrite Ascii.eqb_refl. reflexivity.
  - destruct (Ascii.eqb c newline); [cbn [app]; now rewrite IH|apply IH].
Qed.
Lemma entry_not_err l : is_err (branch_entry l) = false.
Proof.
  unfold branch_entry. destruct (words l) as [|h [|n w]]; [reflexivity|reflexivity|]. unfold take12.
  destruct (Nat.ltb _ _); [reflexivity|]. destruct (String.get 12 h) as [c|]; [destruct (continues c)|]; reflexivity.
Qed.
Definition panics {A} (o : outcome A) : bool := match o with Panic _ => true | _ => false end.
Lemma mapM_panics {A B} (f : A -> outcome B) l x : (forall x, is_err (f x) = false /\ f x <> Diverge) -> In x l -> panics (f x) = true ->
  panics (mapM f l) = true.
Proof.
  intros E. induction l as [|y l IH]; [intros []|]. intros I P. cbn [mapM]. destruct (E y) as [E1 E2].
  destruct (f y) as [b|e|w|] eqn:F; [|discriminate|reflexivity|congruence]. cbn [bind].
  destruct I as [->|I]; [rewrite F in P; discriminate|]. specialize (IH I P). destruct (mapM f l); try discriminate. reflexivity.
Qed.
Lemma entry_ends l : is_err (branch_entry l) = false /\ branch_entry l <> Diverge.
Proof.
  split; [apply entry_not_err|]. unfold branch_entry. destruct (words l) as [|h [|n w]]; try discriminate. unfold take12.
  destruct (Nat.ltb _ _); [discriminate|]. destruct (String.get 12 h) as [c|]; [destruct (continues c)|]; discriminate.
Qed.
Lemma strip_cr_only P s : only P s -> only P (strip_cr s).
Proof.
  induction s as [|c s IH]; intros H; cbn [strip_cr]; [exact H|]. apply only_cons in H. destruct H as [H K].
  destruct (Ascii.eqb c cr && String.eqb s ""); [intros x []|]. apply only_cons. auto.
Qed.
Lemma remove_only P pat s : forall k, only P s -> only P (remove_from pat k s).
Proof.
  induction s as [|c s IH]; intros k H; cbn [remove_from]; [exact H|]. apply only_cons in H. destruct H as [H K].
  destruct k; [|auto]. destruct (String.prefix pat (String c s)); [auto|]. apply only_cons. auto.
Qed.
Lemma only_no_char c s : only (fun x => x <> c) s -> has_char c s = false.
Proof.
  intros H. rewrite has_char_existsb. apply not_true_is_false. intros E. apply existsb_exists in E.
  destruct E as (x & I & E). apply Ascii.eqb_eq in E. subst. exact (H c I eq_refl).
Qed.
Lemma line_panics pre l post : before_line pre ->
  only (fun c => c <> newline /\ c <> "{"%char /\ c <> "^"%char) l ->
  panics (branch_entry (remove tags (remove heads (strip_cr l)))) = true ->
  panics (branch_list (pre ++ l ++ String newline post)) = true.
Proof.
  intros B H P. unfold branch_list, lines.
  assert (O : only (fun c => c <> newline) l) by (eapply only_impl, H; intros ?; cbn beta; tauto).
  eapply mapM_panics; [apply entry_ends| |exact P]. apply in_map, in_map, filter_In. split.
  - destruct B as [->|(t & ->)]; [cbn [append]; rewrite (lines_go l) by exact O; now left|].
    rewrite app_str_assoc. cbn [append]. rewrite (lines_app t), (lines_go l) by exact O. apply in_or_app. right. now left.
  - cbn [append]. rewrite !only_no_char; [reflexivity| |]; apply strip_cr_only; (eapply only_impl, H; intros ?; cbn beta; tauto).
Qed.
Lemma one_field_lemma pre l post : before_line pre -> only (fun c => ~ blank c /\ c <> "{"%char /\ c <> "^"%char) l ->
  panics (branch_list (pre ++ l ++ String newline post)) = true.
Proof.
  intros Hp H. apply line_panics; [exact Hp| |].
  - eapply only_impl, H. intros c (B & C & D). repeat split; try assumption. intros ->. apply B. cbn. tauto.
  - set (x := remove tags (remove heads (strip_cr l))).
    assert (X : only (fun c => ~ blank c) x) by (apply remove_only, remove_only, strip_cr_only; eapply only_impl, H; intros ?; cbn beta; tauto).
    unfold branch_entry, words. rewrite <- (app_str_nil x), words_over by assumption. cbn [append words_from].
    destruct (String.eqb x ""); reflexivity.
Qed.
Lemma words_first a : forall cur t, only (fun c => ~ blank c) a -> cur ++ a <> "" ->
  exists w, words_from cur (a ++ String "009" t) = (cur ++ a) :: w.
Proof.
  intros cur t H N. rewrite words_over by assumption. cbn [words_from]. replace (is_space "009") with true by reflexivity.
  apply String.eqb_neq in N. rewrite N. eexists. reflexivity.
Qed.
Lemma strip_cr_over a : forall c t, exists t', strip_cr (a ++ String c t) = a ++ t' /\ (c <> cr -> exists t'', t' = String c t'').
Proof.
  induction a as [|x a IH]; intros c t; cbn [append strip_cr].
  - destruct (Ascii.eqb c cr && String.eqb t "") eqn:E; [|eexists; split; [reflexivity|intros _; eexists; reflexivity]].
    exists "". split; [reflexivity|]. intros N. apply andb_true_iff in E. destruct E as [E _]. apply Ascii.eqb_eq in E. congruence.
  - destruct (IH c t) as (t' & -> & K). exists t'. split; [|exact K]. replace (String.eqb (a ++ String c t) "") with false.
    + now rewrite andb_false_r.
    + symmetry. apply String.eqb_neq. destruct a; discriminate.
Qed.
Lemma short_hash_lemma pre h l post : before_line pre -> only hex h -> h <> "" -> String.length h < 12 ->
  only (fun c => c <> newline /\ c <> "{"%char /\ c <> "^"%char) l ->
  panics (branch_list (pre ++ h ++ String "009" (l ++ String newline post))) = true.
Proof.
  intros Hp X N L H.
  replace (h ++ String "009" (l ++ String newline post)) with ((h ++ String "009" l) ++ String newline post) by now rewrite app_str_assoc.
  apply line_panics; [exact Hp| |].
  - apply only_app. split; [|apply only_cons; split; [repeat split; discriminate|exact H]].
    eapply only_impl, X. intros c I. cbn in I. repeat (destruct I as [<-|I]; [repeat split; discriminate|]). destruct I.
  - destruct (strip_cr_over h "009" l) as (t & -> & K). destruct K as (t' & ->); [discriminate|].
    unfold heads, tags. rewrite remove_over by now apply hex_not_r. rewrite (remove_go "r" "efs/heads/" "009") by discriminate.
    rewrite remove_over by now apply hex_not_r. rewrite (remove_go "r" "efs/tags/" "009") by discriminate.
    unfold branch_entry, words. destruct (words_first h "" (remove "refs/tags/" (remove "refs/heads/" t'))) as (w & E);
      [now apply hex_not_blank|exact N|]. rewrite E. destruct w as [|n w]; [reflexivity|]. cbn [append].
    unfold take12. apply Nat.ltb_lt in L. rewrite L. reflexivity.
Qed.

(** ** Versions, trimming, organisations *)
Lemma plus_spec w : forall v, v = replace_char "+" " " w <-> plus_as_space v w.
Proof.
  unfold plus_as_space. induction w as [|c w IH]; intros v; cbn [replace_char list_ascii_of_string map].
  - destruct v; cbn; split; congruence.
  - assert (E : (if Ascii.eqb c "+" then " " ++ replace_char "+" " " w else String c (replace_char "+" " " w)) =
                String (if ascii_dec c "+" then " " else c) (replace_char "+" " " w)).
    { destruct (ascii_dec c "+") as [->|N]; [reflexivity|]. apply Ascii.eqb_neq in N. now rewrite N. }
    rewrite E. destruct v as [|a v]; [split; discriminate|]. cbn [list_ascii_of_string]. specialize (IH v). split.
    + intros [= -> H]. f_equal. tauto.
    + intros [= H K]. f_equal; tauto.
Qed.
Lemma version_lemma current v :
  fst (version_check current (Some v)) = 200 /\ (v = current \/ plus_as_space v current) \/
  fst (version_check current (Some v)) = 500 /\ v <> current /\ ~ plus_as_space v current.
Proof.
  unfold version_check. destruct (String.eqb_spec current v) as [->|N]; [left; cbn; auto|].
  destruct (String.eqb_spec (replace_char "+" " " current) v) as [<-|M]; [left; split; [reflexivity|right; now apply plus_spec]|].
  right. cbn. split; [reflexivity|]. split; [congruence|]. intros P. apply M. symmetry. now apply plus_spec.
Qed.

Lemma trim_start_spec s : exists a, s = a ++ trim_start s /\ only blank a /\ forall c t, trim_start s = String c t -> ~ blank c.
Proof.
  induction s as [|c s IH]; cbn [trim_start].
  - exists "". split; [reflexivity|]. split; [intros x []|]. intros. discriminate.
  - destruct (is_space c) eqn:E.
    + destruct IH as (a & H & B & F). exists (String c a). split; [cbn; now f_equal|]. split; [|exact F]. apply only_cons. split; [now apply space_spec|exact B].
    + exists "". split; [reflexivity|]. split; [intros x []|]. intros d t [= <- <-] B. apply space_spec in B. congruence.
Qed.
Lemma trim_end_spec s : exists b, s = trim_end s ++ b /\ only blank b /\ forall c t, trim_end s = t ++ String c "" -> ~ blank c.
Proof.
  induction s as [|c s IH]; cbn [trim_end].
  - exists "". split; [reflexivity|]. split; [intros x []|]. intros d t H. destruct t; discriminate.
  - destruct IH as (b & H & B & F). destruct (trim_end s) as [|x t] eqn:E.
    + destruct (is_space c) eqn:S.
      * exists (String c b). split; [cbn; now f_equal|]. split; [apply only_cons; split; [now apply space_spec|exact B]|]. intros d u D. destruct u; discriminate.
      * exists b. split; [cbn; now f_equal|]. split; [exact B|]. intros d u D. destruct u as [|y u]; [injection D as <-|injection D as _ D; destruct u; discriminate].
        intros X. apply space_spec in X. congruence.
    + exists b. split; [cbn in H |- *; now f_equal|]. split; [exact B|]. intros d u D. destruct u as [|y u]; [discriminate|].
      injection D as _ D. eapply F, D.
Qed.
Lemma trim_lemma s : trimmed s (trim s).
Proof.
  unfold trim. destruct (trim_start_spec s) as (a & H & A & F). destruct (trim_end_spec (trim_start s)) as (b & K & B & G).
  split; [exists a, b; rewrite <- K; auto|]. split; [|exact G]. intros c t E. rewrite E in K. rewrite K in F. eapply F. reflexivity.
Qed.
Lemma blanks_unique a : forall a' t t', only blank a -> only blank a' -> a ++ t = a' ++ t' ->
  (forall c u, t = String c u -> ~ blank c) -> (forall c u, t' = String c u -> ~ blank c) -> t = t'.
Proof.
  induction a as [|x a IH]; intros [|y a'] t t' A A' E F F'; cbn in E.
  - exact E.
  - apply only_cons in A'. exfalso. eapply F; [exact E|]. exact (proj1 A').
  - apply only_cons in A. exfalso. eapply F'; [symmetry; exact E|]. exact (proj1 A).
  - injection E as -> E. apply only_cons in A, A'. eapply IH; [exact (proj2 A)|exact (proj2 A')|exact E| |]; eauto.
Qed.
Lemma app_snoc_inv a : forall b c d, a ++ String c "" = b ++ String d "" -> a = b /\ c = d.
Proof.
  induction a as [|x a IH]; intros [|y b] c d E; cbn in E.
  - injection E as ->. auto.
  - injection E as _ E. destruct b; discriminate.
  - injection E as _ E. destruct a; discriminate.
  - injection E as -> E. apply IH in E. destruct E as [-> ->]. auto.
Qed.
Lemma snoc_ind (P : string -> Prop) : P "" -> (forall s c, P s -> P (s ++ String c "")) -> forall s, P s.
Proof.
  intros H0 H s. remember (String.length s) as n eqn:E. revert s E. induction n as [|n IH]; intros s E.
  - destruct s; [exact H0|discriminate].
  - destruct (last_char s) as (t & c & ->); [intros ->; discriminate|]. apply H, IH. rewrite length_str_app in E. cbn in E. lia.
Qed.
Lemma blanks_unique_end b : forall b' t t', only blank b -> only blank b' -> t ++ b = t' ++ b' ->
  (forall c u, t = u ++ String c "" -> ~ blank c) -> (forall c u, t' = u ++ String c "" -> ~ blank c) -> t = t'.
Proof.
  induction b as [|b x IH] using snoc_ind; intros b'; induction b' as [|b' y _] using snoc_ind; intros t t' B B' E F F'.
  - now rewrite !app_str_nil in E.
  - rewrite app_str_nil in E. apply only_app in B'. destruct B' as [_ B']. apply only_cons in B'. rewrite <- app_str_assoc in E.
    exfalso. eapply F; [exact E|exact (proj1 B')].
  - rewrite app_str_nil in E. apply only_app in B. destruct B as [_ B]. apply only_cons in B. rewrite <- app_str_assoc in E.
    exfalso. eapply F'; [symmetry; exact E|exact (proj1 B)].
  - rewrite <- !app_str_assoc in E. apply app_snoc_inv in E. destruct E as [E _]. apply only_app in B, B'.
    eapply IH; [exact (proj1 B)|exact (proj1 B')|exact E| |]; assumption.
Qed.
Lemma trimmed_unique s t t' : trimmed s t -> trimmed s t' -> t = t'.
Proof.
  intros ((a & b & -> & A & B) & F & G) ((a' & b' & E & A' & B') & F' & G').
  destruct (String.eqb_spec t "") as [->|N]; destruct (String.eqb_spec t' "") as [->|N']; [reflexivity| | |].
  - exfalso. cbn in E. destruct t' as [|c u]; [congruence|]. apply (F' c u eq_refl).
    assert (O : only blank (a ++ b)) by (apply only_app; auto). rewrite E in O. apply only_app in O. destruct O as [_ O].
    cbn in O. apply only_cons in O. exact (proj1 O).
  - exfalso. cbn in E. destruct t as [|c u]; [congruence|]. apply (F c u eq_refl).
    assert (O : only blank (a' ++ b')) by (apply only_app; auto). rewrite <- E in O. apply only_app in O. destruct O as [_ O].
    cbn in O. apply only_cons in O. exact (proj1 O).
  - assert (E' : t ++ b = t' ++ b').
    { eapply blanks_unique; [exact A|exact A'|exact E| |].
      - intros c u X. destruct t as [|d t]; [congruence|]. injection X as -> _. eapply F. reflexivity.
      - intros c u X. destruct t' as [|d t']; [congruence|]. injection X as -> _. eapply F'. reflexivity. }
    exact (blanks_unique_end b b' t t' B B' E' G G').
Qed.
Lemma trim_iff s t : trim s = t <-> trimmed s t.
Proof. split; [intros <-; apply trim_lemma|]. intros H. eapply trimmed_unique; [apply trim_lemma|exact H]. Qed.

Lemma upto_slash_spec s o : upto_slash s = Some o <-> without "/" o /\ exists rest, s = o ++ String "/" rest.
Proof.
  revert o. induction s as [|c s IH]; intros o; cbn [upto_slash].
  - split; [discriminate|]. intros (_ & rest & E). destruct o; discriminate.
  - destruct (Ascii.eqb_spec c "/") as [->|N].
    + split; [intros [= <-]; split; [exact I|exists s; reflexivity]|]. intros (W & rest & E). destruct o as [|x o]; [reflexivity|].
      injection E as <- _. cbn in W. destruct W. congruence.
    + destruct (upto_slash s) as [t|] eqn:U.
      * split.
        -- intros [= <-]. destruct (proj1 (IH t) eq_refl) as (W & rest & ->). split; [cbn; auto|exists rest; reflexivity].
        -- intros (W & rest & E). destruct o as [|x o]; [injection E as -> _; congruence|]. injection E as <- E. cbn in W.
           assert (X : Some t = Some o) by (apply IH; split; [apply W|eauto]). injection X as ->. reflexivity.
      * split; [discriminate|]. intros (W & rest & E). destruct o as [|x o]; [injection E as -> _; congruence|]. injection E as <- E. cbn in W.
        assert (X : None = Some o) by (apply IH; split; [apply W|eauto]). discriminate.
Qed.
Lemma org_lemma url o : origin_org url = Some o <->
  o <> "" /\ without "/" o /\ exists c rest, c <> newline /\ url = "https://github" ++ String c ("com/" ++ o ++ String "/" rest).
Proof.
  unfold origin_org. split.
  - destruct (String.get 14 url) as [c|] eqn:G; [|discriminate].
    destruct (negb (Ascii.eqb c newline)) eqn:N; cbn [andb]; [|discriminate].
    destruct (String.prefix "https://github" url) eqn:P; cbn [andb]; [|discriminate].
    apply GitP.prefix_spec in P. destruct P as (u & ->). cbn in G. destruct u as [|c' u]; [discriminate|]. injection G as ->.
    destruct (String.prefix "com/" _) eqn:Q; [|discriminate].
    assert (S1 : forall n (v : string), substring 15 (S (14 + n)) ("https://github" ++ String c v) = substring 0 (S (14 + n)) v) by reflexivity.
    assert (S2 : forall n (v : string), substring 19 (S (14 + n)) ("https://github" ++ String c v) = substring 4 (S (14 + n)) v) by reflexivity.
    assert (F : forall (v : string) n, String.length v <= n -> substring 0 n v = v).
    { induction v as [|x v IH]; intros n H; [now destruct n|]. destruct n as [|n]; cbn in *; [lia|]. f_equal. apply IH. lia. }
    assert (L : forall v : string, String.length ("https://github" ++ String c v) = S (14 + String.length v)) by reflexivity.
    rewrite L, S1, F in Q by lia. apply GitP.prefix_spec in Q. destruct Q as (w & ->). rewrite L, S2.
    intros H. assert (U : upto_slash w = Some o /\ o <> "").
    { replace w with (substring 4 (S (14 + String.length ("com/" ++ w))) ("com/" ++ w)).
      - destruct (upto_slash _) as [[|]|]; [discriminate|injection H as <-; split; [reflexivity|discriminate]|discriminate].
      - change (substring 4 (S (14 + String.length ("com/" ++ w))) ("com/" ++ w)) with (substring 0 (S (14 + String.length ("com/" ++ w))) w).
        apply F. cbn. lia. }
    destruct U as [U O]. apply upto_slash_spec in U. destruct U as (W & rest & ->). split; [exact O|]. split; [exact W|].
    exists c, rest. split; [|reflexivity]. intros ->. discriminate.
  - intros (O & W & c & rest & N & ->). apply Ascii.eqb_neq in N.
    replace (String.get 14 ("https://github" ++ String c ("com/" ++ o ++ String "/" rest))) with (Some c) by reflexivity.
    rewrite N. cbn [negb andb].
    assert (F : forall (v : string) n, String.length v <= n -> substring 0 n v = v).
    { induction v as [|x v IH]; intros n H; [now destruct n|]. destruct n as [|n]; cbn in *; [lia|]. f_equal. apply IH. lia. }
    set (v := o ++ String "/" rest). assert (U : upto_slash v = Some o) by (apply upto_slash_spec; split; [exact W|eexists; reflexivity]).
    change (String.prefix "https://github" ("https://github" ++ String c ("com/" ++ v))) with true.
    change (substring 15 (String.length ("https://github" ++ String c ("com/" ++ v))) ("https://github" ++ String c ("com/" ++ v)))
      with ("com/" ++ substring 0 (15 + String.length v) v).
    change (substring 19 (String.length ("https://github" ++ String c ("com/" ++ v))) ("https://github" ++ String c ("com/" ++ v)))
      with (substring 0 (19 + String.length v) v).
    rewrite !(F v) by lia. replace (String.prefix "com/" ("com/" ++ v)) with true by (symmetry; apply GitP.prefix_spec; exists v; reflexivity). cbn [andb]. rewrite U. destruct o; [congruence|reflexivity].
Qed.

Lemma panics_ex {A} (o : outcome A) : panics o = true -> exists w, o = Panic w.
Proof. destruct o; try discriminate. eauto. Qed.
Lemma one_field_panic pre l post : before_line pre -> only (fun c => ~ blank c /\ c <> "{"%char /\ c <> "^"%char) l ->
  exists w, branch_list (pre ++ l ++ String newline post) = Panic w.
Proof. intros B H. now apply panics_ex, one_field_lemma. Qed.
Lemma short_hash_panic pre h l post : before_line pre -> only hex h -> h <> "" -> String.length h < 12 ->
  only (fun c => c <> newline /\ c <> "{"%char /\ c <> "^"%char) l ->
  exists w, branch_list (pre ++ h ++ String "009" (l ++ String newline post)) = Panic w.
Proof. intros. now apply panics_ex, short_hash_lemma. Qed.
