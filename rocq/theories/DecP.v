(** Decimal numerals read back. *)
From Coq Require Import List String Ascii NArith ZArith Bool Lia.
From Verif Require Import Base SpecFmt.
Import ListNotations.
Local Open Scope string_scope.

Lemma read_digit_digit d : (d < 10)%N -> read_digit (digit d) = Some d.
Proof.
  intros H. unfold read_digit, digit. rewrite N_ascii_embedding by lia.
  replace ((48 <=? 48 + d) && (48 + d <=? 57))%N with true by (symmetry; rewrite andb_true_iff, !N.leb_le; lia).
  f_equal. lia.
Qed.

Lemma dec_aux_read fuel : forall n acc, (0 < fuel)%nat -> (n < 10 ^ N.of_nat fuel)%N ->
  exists k, forall a, read_digits a (dec_aux fuel n acc) = read_digits (a * 10 ^ k + n)%N acc.
Proof.
  induction fuel as [|f IH]; intros n acc Hf Hn; [lia|]. cbn [dec_aux].
  destruct (N.ltb_spec n 10).
  - exists 1%N. intros a. cbn [read_digits]. rewrite read_digit_digit by (apply N.mod_lt; lia).
    rewrite N.mod_small by assumption. rewrite N.pow_1_r. reflexivity.
  - assert (Hf' : (0 < f)%nat).
    { destruct f; [|lia]. change (N.of_nat 1) with 1%N in Hn. rewrite N.pow_1_r in Hn. lia. }
    destruct (IH (n / 10)%N (String (digit (n mod 10)) acc) Hf') as [k Hk].
    { apply N.div_lt_upper_bound; [lia|]. rewrite Nat2N.inj_succ, N.pow_succ_r' in Hn. lia. }
    exists (N.succ k). intros a. rewrite Hk. cbn [read_digits]. rewrite read_digit_digit by (apply N.mod_lt; lia).
    f_equal. rewrite N.pow_succ_r'. pose proof (N.div_mod n 10). lia.
Qed.

Lemma dec_fuel n : (n < 10 ^ N.of_nat (S (N.to_nat (N.size n))))%N.
Proof.
  rewrite Nat2N.inj_succ, N2Nat.id, N.pow_succ_r'.
  assert (n < 2 ^ N.size n)%N by apply N.size_gt.
  assert (2 ^ N.size n <= 10 ^ N.size n)%N by (apply N.pow_le_mono_l; lia). lia.
Qed.

Lemma dec_aux_nonempty fuel n acc : (0 < fuel)%nat -> dec_aux fuel n acc <> "".
Proof.
  revert n acc. induction fuel as [|f IH]; intros n acc H; [lia|]. cbn [dec_aux].
  destruct (N.ltb n 10); [discriminate|]. destruct f; [discriminate|]. apply IH. lia.
Qed.
Lemma dec_nonempty n : dec_of_N n <> "".
Proof. apply dec_aux_nonempty. lia. Qed.

Lemma read_dec_dec n : read_dec (dec_of_N n) = Some n.
Proof.
  unfold read_dec. destruct (dec_of_N n) eqn:E; [now apply dec_nonempty in E|]. rewrite <- E.
  unfold dec_of_N. destruct (dec_aux_read (S (N.to_nat (N.size n))) n "" ltac:(lia) (dec_fuel n)) as [k ->].
  reflexivity.
Qed.

Lemma dec_inj a b : dec_of_N a = dec_of_N b -> a = b.
Proof. intros H. pose proof (read_dec_dec a) as Ha. rewrite H, read_dec_dec in Ha. congruence. Qed.

(** All characters are digits. *)
Lemma digit_is_digit d : (d < 10)%N -> is_digit (digit d) = true.
Proof. intros H. unfold is_digit. now rewrite read_digit_digit. Qed.
Lemma dec_aux_digits fuel : forall n acc, all_chars is_digit acc = true -> all_chars is_digit (dec_aux fuel n acc) = true.
Proof.
  induction fuel as [|f IH]; intros n acc H; [exact H|]. cbn [dec_aux].
  assert (K : all_chars is_digit (String (digit (n mod 10)) acc) = true).
  { cbn. rewrite digit_is_digit by (apply N.mod_lt; lia). exact H. }
  destruct (N.ltb n 10); [exact K|]. now apply IH.
Qed.
Lemma dec_digits n : all_chars is_digit (dec_of_N n) = true.
Proof. now apply dec_aux_digits. Qed.

Lemma all_chars_app p a b : all_chars p (a ++ b) = all_chars p a && all_chars p b.
Proof. induction a; cbn; [reflexivity|]. now rewrite IHa, andb_assoc. Qed.
Lemma app_str_assoc (a b c : string) : (a ++ b) ++ c = a ++ (b ++ c).
Proof. induction a; cbn; [reflexivity|]. now rewrite IHa. Qed.
Lemma app_str_nil (a : string) : a ++ "" = a.
Proof. induction a; cbn; [reflexivity|]. now rewrite IHa. Qed.
Lemma length_str_app a b : String.length (a ++ b) = (String.length a + String.length b)%nat.
Proof. induction a; cbn; [reflexivity|]. now rewrite IHa. Qed.
Lemma app_str_inj_r (a b c : string) : a ++ c = b ++ c -> a = b.
Proof.
  revert b. induction a as [|x a IH]; intros [|y b] H; cbn in H; auto.
  - apply (f_equal String.length) in H. cbn in H. rewrite length_str_app in H. lia.
  - apply (f_equal String.length) in H. cbn in H. rewrite length_str_app in H. lia.
  - inversion H. f_equal. eauto.
Qed.

Lemma split_dot_digits a b : all_chars is_digit a = true -> split_dot (a ++ String "." b) = Some (a, b).
Proof.
  induction a as [|c a IH]; [reflexivity|]. cbn [all_chars]. rewrite andb_true_iff. intros [H K].
  cbn [append split_dot]. destruct (Ascii.eqb_spec c "."); [subst; discriminate H|].
  rewrite (IH K). reflexivity.
Qed.
