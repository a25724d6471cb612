(** Lemmas about [ends_with] and joined paths. *)
From Coq Require Import List String Ascii NArith ZArith Bool Lia.
From Verif Require Import Base SynM SpecFmt DecP.
Import ListNotations.
Local Open Scope string_scope.

Lemma substring_app a b : String.substring (String.length a) (String.length b) (a ++ b) = b.
Proof.
  induction a; cbn; [|exact IHa]. induction b; cbn; [reflexivity|]. now rewrite IHb.
Qed.
Lemma substring_split s n : (n <= String.length s)%nat ->
  exists a, s = a ++ String.substring (String.length s - n) n s /\ String.length a = (String.length s - n)%nat.
Proof.
  intros H. remember (String.length s - n)%nat as k eqn:E. revert k n E H.
  induction s as [|c s IH]; intros k n E H; cbn [String.length] in E, H.
  - assert (n = 0)%nat by lia. subst. exists "". split; reflexivity.
  - destruct k as [|k].
    + assert (n = S (String.length s)) by lia. subst n. exists "". split; [|reflexivity]. cbn. f_equal.
      clear. induction s; cbn; [reflexivity|]. now rewrite <- IHs.
    + destruct (IH k n) as (a & Ha & La); [lia|lia|]. exists (String c a). split; [cbn; now f_equal|cbn; now f_equal].
Qed.

Lemma ends_with_spec s suf : ends_with s suf = true <-> exists a, s = a ++ suf.
Proof.
  unfold ends_with. rewrite andb_true_iff, Nat.leb_le, String.eqb_eq. split.
  - intros [H E]. destruct (substring_split s _ H) as (a & Ha & _). rewrite E in Ha. eauto.
  - intros (a & ->). rewrite length_str_app. split; [lia|].
    replace (String.length a + String.length suf - String.length suf)%nat with (String.length a) by lia. apply substring_app.
Qed.
Lemma ends_with_app a s : ends_with (a ++ s) s = true.
Proof. apply ends_with_spec. eauto. Qed.

Lemma app_tails a : forall b s t, a ++ s = b ++ t -> (exists c, s = c ++ t) \/ (exists c, t = c ++ s).
Proof.
  induction a as [|x a IH]; intros [|y b] s t H; cbn in H.
  - left. exists "". exact H.
  - left. exists (String y b). exact H.
  - right. exists (String x a). now symmetry.
  - injection H as _ H. eauto.
Qed.
Lemma ends_with_conflict x s t : ends_with (x ++ s) t = true -> ends_with s t || ends_with t s = true.
Proof.
  intros H. apply ends_with_spec in H. destruct H as (a & H). apply orb_true_iff. rewrite !ends_with_spec.
  eapply app_tails, H.
Qed.
Lemma ends_with_other x s t : ends_with s t || ends_with t s = false -> ends_with (x ++ s) t = false.
Proof. intros H. destruct (ends_with (x ++ s) t) eqn:E; [|reflexivity]. apply ends_with_conflict in E. congruence. Qed.

(** ** Joined paths *)
Lemma concat_cons (d s : string) l : l <> [] -> String.concat d (s :: l) = s ++ d ++ String.concat d l.
Proof. destruct l; [congruence|reflexivity]. Qed.
Lemma concat_snoc d l : forall s, l <> [] -> String.concat d (l ++ [s])%list = String.concat d l ++ d ++ s.
Proof.
  induction l as [|x l IH]; intros s H; [congruence|]. destruct l as [|y l].
  - reflexivity.
  - change ((x :: y :: l) ++ [s])%list with (x :: (y :: l) ++ [s])%list.
    rewrite concat_cons by (intros C; apply app_eq_nil in C; destruct C; discriminate).
    rewrite IH by discriminate. rewrite (concat_cons d x (y :: l)) by discriminate. now rewrite !app_str_assoc.
Qed.
Lemma concat_last2 d pre w f : exists x, String.concat d (pre ++ [w; f])%list = x ++ w ++ d ++ f.
Proof.
  change [w; f] with ([w] ++ [f])%list. rewrite app_assoc, concat_snoc by (destruct pre; discriminate).
  destruct pre as [|a pre].
  - exists "". reflexivity.
  - rewrite concat_snoc by discriminate. exists (String.concat d (a :: pre) ++ d). now rewrite !app_str_assoc.
Qed.
Lemma list_ascii_app a b : list_ascii_of_string (a ++ b) = (list_ascii_of_string a ++ list_ascii_of_string b)%list.
Proof. induction a; cbn; [reflexivity|]. now rewrite IHa. Qed.
