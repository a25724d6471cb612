(** Proofs about requests and the pages around the results. *)
From Coq Require Import List String Ascii Arith NArith Bool Lia Permutation Sorting.Sorted.
From Verif Require Import Base ScopeM TermM F64 CompareM RowsM FmtM FilesM GitM CliM HtmlM WebM PageM SiteM.
From Verif Require Import SpecFmt SpecFiles SpecRows SpecCli SpecWeb SpecSite.
From Verif Require DecP FilesP RowsP WebP PageP CliP.
Import ListNotations.
Local Open Scope string_scope.

(** ** Texts in queries *)
Lemma hex_val_spec c x : hex_val c = Some x <-> In (c, x) hexes.
Proof.
  split.
  - intros H. destruct c as [[] [] [] [] [] [] [] []]; vm_compute in H; try discriminate H; injection H as <-; cbn; tauto.
  - intros H. cbn in H. repeat (destruct H as [H|H]; [injection H as <- <-; reflexivity|]). destruct H.
Qed.
Lemma hex_not_plus c x : hex_val c = Some x -> Ascii.eqb c "+" = false.
Proof. intros H. apply hex_val_spec in H. cbn in H. repeat (destruct H as [H|H]; [injection H as <- _; reflexivity|]). destruct H. Qed.
Lemma dec_plus r : url_decode (String "+" r) = String " " (url_decode r).
Proof. unfold url_decode. cbn. now destruct (replace_char _ _ r) as [|a [|b r']]. Qed.
Lemma dec_hex a b x y r : hex_val a = Some x -> hex_val b = Some y ->
  url_decode (String "%" (String a (String b r))) = String (ascii_of_N (16 * x + y)) (url_decode r).
Proof.
  intros A B. unfold url_decode. cbn [replace_char]. rewrite (hex_not_plus _ _ A), (hex_not_plus _ _ B). cbn [Ascii.eqb Bool.eqb append].
  cbn [percent_decode Ascii.eqb Bool.eqb]. now rewrite A, B.
Qed.
Lemma dec_plain c r : c <> "+"%char -> c <> "%"%char -> url_decode (String c r) = String c (url_decode r).
Proof.
  intros P Q. unfold url_decode. cbn [replace_char]. apply Ascii.eqb_neq in P, Q. rewrite P. cbn [append percent_decode].
  rewrite Q. now destruct (replace_char _ _ r) as [|a [|b r']].
Qed.
Lemma two_hexes_spec r : two_hexes r <-> exists a b x y t, hex_val a = Some x /\ hex_val b = Some y /\ r = String a (String b t).
Proof. unfold two_hexes. split; intros (a & b & x & y & t & A & B & E); exists a, b, x, y, t; (split; [|split; [|exact E]]); now apply hex_val_spec. Qed.
Lemma dec_percent r : ~ two_hexes r -> url_decode (String "%" r) = String "%" (url_decode r).
Proof.
  intros H. unfold url_decode. cbn [replace_char Ascii.eqb Bool.eqb append percent_decode].
  destruct r as [|a [|b r]]; [reflexivity| |].
  - cbn [replace_char]. destruct (Ascii.eqb a "+"); reflexivity.
  - destruct (hex_val a) as [x|] eqn:A; [destruct (hex_val b) as [y|] eqn:B|].
    + exfalso. apply H, two_hexes_spec. now exists a, b, x, y, r.
    + cbn [replace_char]. rewrite (hex_not_plus _ _ A). cbn [append].
      destruct (Ascii.eqb b "+"); cbn [append]; rewrite A; [reflexivity|now rewrite B].
    + cbn [replace_char]. destruct (Ascii.eqb a "+"), (Ascii.eqb b "+"); cbn [append]; try reflexivity; now rewrite A.
Qed.
Lemma two_hexes_dec r : {two_hexes r} + {~ two_hexes r}.
Proof.
  destruct r as [|a [|b t]]; try (right; rewrite two_hexes_spec; intros (? & ? & ? & ? & ? & _ & _ & E); discriminate).
  destruct (hex_val a) as [x|] eqn:A; [destruct (hex_val b) as [y|] eqn:B|].
  - left. apply two_hexes_spec. now exists a, b, x, y, t.
  - right. rewrite two_hexes_spec. intros (? & ? & ? & ? & ? & A' & B' & E). congruence.
  - right. rewrite two_hexes_spec. intros (? & ? & ? & ? & ? & A' & B' & E). congruence.
Qed.
Lemma url_text_dec r : url_text r (url_decode r).
Proof.
  remember (String.length r) as n eqn:E. assert (L : String.length r <= n) by lia. clear E. revert r L.
  induction n as [|n IH]; intros [|c r] L; cbn in L; try lia; try constructor.
  destruct (ascii_dec c "+") as [->|P]; [rewrite dec_plus; constructor; apply IH; lia|].
  destruct (ascii_dec c "%") as [->|Q]; [|rewrite dec_plain by assumption; constructor; trivial; apply IH; lia].
  destruct (two_hexes_dec r) as [H|H]; [|rewrite dec_percent by exact H; constructor; trivial; apply IH; lia].
  apply two_hexes_spec in H as (a & b & x & y & t & A & B & ->). rewrite (dec_hex _ _ _ _ _ A B). apply hex_val_spec in A, B.
  constructor; trivial. apply IH. cbn in L. lia.
Qed.
Lemma url_text_fun r s : url_text r s -> url_decode r = s.
Proof.
  induction 1.
  - reflexivity.
  - now rewrite dec_plus, IHurl_text.
  - apply hex_val_spec in H, H0. now rewrite (dec_hex _ _ _ _ _ H H0), IHurl_text.
  - now rewrite dec_percent, IHurl_text by assumption.
  - now rewrite dec_plain, IHurl_text by assumption.
Qed.
Lemma split_eq_spec s k v : split_eq s = (k, v) -> without "=" k /\ (s = k ++ "=" ++ v \/ s = k /\ v = "").
Proof.
  revert k v. induction s as [|c s IH]; cbn; intros k v E; [injection E as <- <-; cbn; auto|].
  destruct (Ascii.eqb c "=") eqn:C.
  - injection E as <- <-. apply Ascii.eqb_eq in C as ->. cbn. auto.
  - destruct (split_eq s) as [k' v']. injection E as <- <-. destruct (IH k' v' eq_refl) as (W & D). apply Ascii.eqb_neq in C. cbn. split; [auto|].
    destruct D as [-> | [-> ->]]; auto.
Qed.
Lemma split_eq_fun s k v : without "=" k -> (s = k ++ "=" ++ v \/ s = k /\ v = "") -> split_eq s = (k, v).
Proof.
  revert s. induction k as [|c k IH]; intros s W D.
  - destruct D as [-> | [-> ->]]; reflexivity.
  - destruct W as [N W]. apply Ascii.eqb_neq in N. destruct D as [-> | [-> ->]]; cbn [append split_eq]; rewrite N.
    + now rewrite (IH (k ++ String "=" v)) by auto.
    + now rewrite (IH k) by auto.
Qed.
Lemma split_pieces c s : pieces c s (split_char c s).
Proof.
  unfold pieces. induction s as [|a s (N & F & C)]; cbn [split_char].
  - repeat split; [discriminate|]. constructor; [exact I|constructor].
  - destruct (Ascii.eqb a c) eqn:E.
    + apply Ascii.eqb_eq in E as ->. repeat split; [discriminate|constructor; [exact I|exact F]|]. rewrite <- C at 2.
      destruct (split_char c s); [congruence|reflexivity].
    + destruct (split_char c s) as [|p ps]; [congruence|]. inversion F; subst. repeat split; [discriminate|constructor; [|assumption]|].
      * cbn. split; [now apply Ascii.eqb_neq|assumption].
      * destruct ps; reflexivity.
Qed.
Lemma pieces_fun c s l : pieces c s l -> split_char c s = l.
Proof.
  intros (N & F & C). destruct (split_pieces c s) as (N' & F' & C').
  apply (FilesP.concat_inj c); try assumption. now rewrite C, C'.
Qed.
Lemma query_iff q l : query q l <-> query_pairs q = l.
Proof.
  split.
  - intros (parts & kept & P & K & F). unfold query_pairs. rewrite (pieces_fun _ _ _ P).
    apply (RowsP.selects_filter (fun part => negb (String.eqb part ""))) in K; [subst kept|intros x; rewrite negb_true_iff; apply String.eqb_neq].
    induction F as [|s p ss ps (rk & rv & W & D & K1 & V1) F IH]; [reflexivity|]. cbn [map]. rewrite (split_eq_fun _ _ _ W D). rewrite IH.
    apply url_text_fun in K1, V1. rewrite K1, V1. now destruct p.
  - intros <-. exists (split_char "&" q), (filter (fun part => negb (String.eqb part "")) (split_char "&" q)).
    split; [apply split_pieces|]. split.
    + apply RowsP.filter_selects. intros x _. rewrite negb_true_iff. apply String.eqb_neq.
    + unfold query_pairs. induction (filter _ _) as [|s l IH]; constructor; trivial. destruct (split_eq s) as [k v] eqn:E.
      apply split_eq_spec in E as (W & D). exists k, v. split; [exact W|]. split; [exact D|]. split; apply url_text_dec.
Qed.

(** ** Arguments *)
Lemma values_cons k p l : values_of k (p :: l) = if String.eqb (fst p) k then snd p :: values_of k l else values_of k l.
Proof. unfold values_of. cbn. now destruct (String.eqb (fst p) k). Qed.
Lemma values_app k a b : values_of k (a ++ b) = (values_of k a ++ values_of k b)%list.
Proof. unfold values_of. now rewrite filter_app, map_app. Qed.
Lemma lookup_values k l : lookup k l = hd_error (values_of k l).
Proof.
  induction l as [|p l IH]; [reflexivity|]. rewrite values_cons. unfold lookup in *. cbn. destruct (String.eqb (fst p) k); [reflexivity|exact IH].
Qed.
Lemma field_spec k : existsb (String.eqb k) fields = true <-> In k fields.
Proof. rewrite existsb_exists. split; [intros (x & I & E); now apply String.eqb_eq in E as ->|intros I; exists k; split; [exact I|apply String.eqb_refl]]. Qed.
Lemma take_ok l : forall seen f, take_fields seen l = Ok f ->
  forall k, In k fields -> values_of k f = (rev (values_of k l) ++ values_of k seen)%list /\
    (List.length (values_of k seen) <= 1 -> List.length (values_of k f) <= 1) /\ forall v, In v (values_of k l) -> value_ok k v = true.
Proof.
  induction l as [|[k0 v0] l IH]; intros seen f E k K; cbn [take_fields] in E.
  - injection E as <-. cbn. auto.
  - rewrite values_cons. cbn [fst snd]. destruct (existsb (String.eqb k0) fields) eqn:F; cbn [negb] in E.
    + rewrite lookup_values in E. destruct (hd_error (values_of k0 seen)) eqn:L; [discriminate|]. destruct (value_ok k0 v0) eqn:V; [|discriminate].
      destruct (IH _ _ E k K) as (A & B & C). rewrite values_cons in A, B. cbn [fst snd] in A, B.
      destruct (String.eqb k0 k) eqn:Q.
      * apply String.eqb_eq in Q as ->. cbn [rev]. rewrite <- app_assoc. split; [exact A|]. split.
        -- intros _. apply B. destruct (values_of k seen); [cbn; lia|discriminate].
        -- intros v [<-|H]; auto.
      * auto.
    + destruct (String.eqb k0 k) eqn:Q.
      * apply String.eqb_eq in Q as ->. apply field_spec in K. congruence.
      * exact (IH _ _ E k K).
Qed.
Lemma take_total l : forall seen, (forall k, In k fields -> List.length (rev (values_of k l) ++ values_of k seen) <= 1) ->
  (forall k v, In k fields -> In v (values_of k l) -> value_ok k v = true) -> exists f, take_fields seen l = Ok f.
Proof.
  induction l as [|[k0 v0] l IH]; intros seen U V; cbn [take_fields]; [eauto|].
  destruct (existsb (String.eqb k0) fields) eqn:F; cbn [negb].
  - apply field_spec in F. pose proof (U k0 F) as U0. rewrite values_cons in U0. cbn [fst snd] in U0. rewrite String.eqb_refl in U0.
    rewrite lookup_values. destruct (values_of k0 seen) as [|x xs] eqn:S; cbn [hd_error].
    2: { rewrite app_length, rev_length in U0. cbn in U0. lia. }
    rewrite (V k0 v0 F) by (rewrite values_cons; cbn; rewrite String.eqb_refl; left; reflexivity).
    apply IH.
    + intros k K. specialize (U k K). rewrite values_cons in *. cbn [fst snd] in *. destruct (String.eqb k0 k); [|exact U].
      rewrite app_length, rev_length in *. cbn in *. lia.
    + intros k v K I. apply V; [exact K|]. rewrite values_cons. cbn. destruct (String.eqb k0 k); [right; exact I|exact I].
  - apply IH.
    + intros k K. specialize (U k K). rewrite values_cons in U. cbn [fst snd] in U. destruct (String.eqb k0 k) eqn:Q; [|exact U].
      apply String.eqb_eq in Q as ->. apply field_spec in K. congruence.
    + intros k v K I. apply V; [exact K|]. rewrite values_cons. cbn. destruct (String.eqb k0 k); [right; exact I|exact I].
Qed.

Lemma digits_read d : forall acc, all_digits d = true -> read_digits acc d = Some (number acc d).
Proof.
  induction d as [|c d IH]; cbn; intros acc H; [reflexivity|]. apply andb_true_iff in H as [C H].
  assert (R : read_digit c = Some (N_of_ascii c - 48)%N) by (destruct c as [[] [] [] [] [] [] [] []]; try discriminate C; reflexivity).
  rewrite R. now apply IH.
Qed.
Lemma read_all_digits d : forall acc n, read_digits acc d = Some n -> all_digits d = true.
Proof.
  induction d as [|c d IH]; cbn; intros acc n H; [reflexivity|].
  destruct (read_digit c) as [x|] eqn:R; [|discriminate]. apply andb_true_iff. split; [|eapply IH; exact H].
  destruct c as [[] [] [] [] [] [] [] []]; try discriminate R; reflexivity.
Qed.
Lemma u32_of_spec v n : u32_of_str v = Some n <-> reads_u32 v n.
Proof.
  unfold u32_of_str, reads_u32. set (d := match v with String c s' => if Ascii.eqb c "+" then s' else v | "" => "" end).
  assert (D : v = d \/ v = "+" ++ d).
  { subst d. destruct v as [|c v]; [auto|]. destruct (Ascii.eqb c "+") eqn:E; [|auto]. apply Ascii.eqb_eq in E as ->. auto. }
  assert (U : forall d', v = d' \/ v = "+" ++ d' -> read_dec d' = Some n -> d' = d).
  { intros d' [->| ->] R.
    - subst d. destruct d' as [|c d']; [reflexivity|]. destruct (Ascii.eqb c "+") eqn:E; [|reflexivity]. apply Ascii.eqb_eq in E as ->. discriminate R.
    - subst d. reflexivity. }
  clearbody d. split.
  - destruct (negb (String.eqb d "") && all_digits d && (number 0 d <? u32_bound)%N) eqn:E; [|discriminate]. intros [= <-].
    apply andb_true_iff in E as [E L]. apply andb_true_iff in E as [E A]. apply N.ltb_lt in L. exists d. split; [exact D|]. split; [|exact L].
    unfold read_dec. rewrite (digits_read _ 0%N A). apply negb_true_iff, String.eqb_neq in E. now destruct d.
  - intros (d' & D' & R & L). pose proof (U d' D' R) as Q. subst d'. unfold read_dec in R.
    assert (R' : read_digits 0 d = Some n /\ d <> "") by (destruct d; [discriminate|split; [exact R|discriminate]]). destruct R' as [R' E].
    pose proof (read_all_digits _ _ _ R') as A. rewrite (digits_read _ _ A) in R'. injection R' as <-.
    apply String.eqb_neq in E. rewrite E, A. cbn [negb andb]. change (2 ^ 32)%N with u32_bound in L. apply N.ltb_lt in L. now rewrite L.
Qed.
Lemma bool_of_spec v b : bool_of_str v = Some b <-> reads_bool v b.
Proof.
  unfold bool_of_str, reads_bool. destruct (String.eqb_spec v "true") as [->|H], b; try (split; congruence).
  - destruct (String.eqb_spec v "false"); split; congruence.
  - destruct (String.eqb_spec v "false"); split; congruence.
Qed.
Local Ltac eqbs v := repeat match goal with |- context[String.eqb v ?s] => destruct (String.eqb_spec v s); [subst v|] end.
Lemma unit_spec v d : serde_dimension v = Some d <-> reads_unit v d.
Proof.
  unfold serde_dimension, reads_unit. eqbs v; cbn.
  all: split; [intros H; try discriminate H; injection H as <-; tauto|].
  all: intros [H|[H|[H|[]]]]; congruence.
Qed.
Lemma method_spec v m : serde_method v = Some m <-> reads_method v m.
Proof.
  unfold serde_method, reads_method. eqbs v; cbn.
  all: split; [intros H; try discriminate H; injection H as <-; tauto|].
  all: intros [H|[H|[H|[H|[H|[]]]]]]; congruence.
Qed.
Lemma some_match {A} (o : option A) : (match o with Some _ => true | None => false end) = true <-> exists a, o = Some a.
Proof. destruct o; split; eauto; try discriminate. intros [a H]. discriminate. Qed.
Lemma some_iff {A} (f : option A) (P : A -> Prop) : (forall a, f = Some a <-> P a) ->
  (match f with Some _ => true | None => false end) = true <-> exists a, P a.
Proof. intros H. rewrite some_match. split; intros [a E]; exists a; now apply H. Qed.
Lemma fits_spec k v : value_ok k v = true <-> fits k v.
Proof.
  pose proof (some_iff _ _ (bool_of_spec v)) as B. pose proof (some_iff _ _ (u32_of_spec v)) as U.
  pose proof (some_iff _ _ (unit_spec v)) as D. pose proof (some_iff _ _ (method_spec v)) as M.
  unfold value_ok, fits. eqbs k; cbn [orb].
  all: split; [intros H; repeat split; intros; try tauto; try discriminate; intuition congruence|].
  all: intros (A1 & A2 & A3 & A4); first [reflexivity|apply B; auto|apply U; auto|apply D; auto|apply M; auto].
Qed.
Lemma take0 l f : take_fields [] l = Ok f -> forall k, In k fields ->
  (lookup k f = None /\ values_of k l = []) \/ exists v, lookup k f = Some v /\ values_of k l = [v] /\ fits k v.
Proof.
  intros E k K. destruct (take_ok _ _ _ E k K) as (A & B & C). rewrite app_nil_r in A. specialize (B ltac:(cbn; lia)). rewrite lookup_values.
  assert (L : values_of k l = rev (values_of k f)) by (now rewrite A, rev_involutive).
  destruct (values_of k f) as [|v [|w vs]]; cbn in *; [auto| |lia]. right. exists v. rewrite L in *. repeat split; trivial.
  all: apply fits_spec, C; left; reflexivity.
Qed.
Lemma reads_u32_fun v n n' : reads_u32 v n -> reads_u32 v n' -> n = n'.
Proof. rewrite <- !u32_of_spec. congruence. Qed.
Local Ltac infields := cbn; tauto.
Lemma args_iff l a : read_args l = Ok a <-> describes l a.
Proof.
  split.
  - unfold read_args. destruct (take_fields [] l) as [f| | |] eqn:E; try discriminate. cbn [bind].
    pose proof (take0 _ _ E) as T. unfold typed_field.
    destruct (T "old" ltac:(infields)) as [[-> O]|(old & -> & O & _)]; [discriminate|]. cbn [required bind].
    destruct (T "new" ltac:(infields)) as [[-> W]|(new & -> & W & _)]; [discriminate|]. cbn [required bind].
    destruct (T "repo" ltac:(infields)) as [[-> R]|(repo & -> & R & _)]; [discriminate|]. cbn [required bind].
    destruct (T "path_pattern" ltac:(infields)) as [[-> P]|(pat & -> & P & _)]; [discriminate|]. cbn [required bind].
    destruct (T "ignore_errors" ltac:(infields)) as [[-> I]|(ign & -> & I & _)]; [discriminate|].
    destruct (bool_of_str ign) as [ib|] eqn:IB; [|discriminate]. cbn [required bind].
    destruct (T "threshold" ltac:(infields)) as [[-> H]|(thr & -> & H & _)]; [discriminate|].
    destruct (u32_of_str thr) as [tn|] eqn:TN; [|discriminate]. cbn [required bind].
    destruct (T "unit" ltac:(infields)) as [[-> U]|(un & -> & U & _)]; [discriminate|].
    destruct (serde_dimension un) as [ud|] eqn:UD; [|discriminate]. cbn [required bind].
    destruct (T "method" ltac:(infields)) as [[-> M]|(me & -> & M & _)]; [discriminate|].
    destruct (serde_method me) as [mm|] eqn:MM; [|discriminate]. cbn [required bind]. intros [= <-].
    constructor; cbn.
    1-4: (eexists; split; [eassumption|reflexivity]).
    + destruct (T "extrinsic" ltac:(infields)) as [[-> X]|(x & -> & X & _)]; [exact X|exists x; split; [exact X|reflexivity]].
    + destruct (T "pallet" ltac:(infields)) as [[-> X]|(x & -> & X & _)]; [exact X|exists x; split; [exact X|reflexivity]].
    + exists ign. split; [exact I|now apply bool_of_spec].
    + exists thr. split; [exact H|now apply u32_of_spec].
    + exists un. split; [exact U|now apply unit_spec].
    + destruct (T "git_pull" ltac:(infields)) as [[-> X]|(x & -> & X & F)]; [exact X|].
      destruct F as [F _]. destruct (F (or_intror eq_refl)) as [b B]. pose proof (proj2 (bool_of_spec _ _) B) as B'. rewrite B'.
      exists x. split; [exact X|exact B].
    + exists me. split; [exact M|now apply method_spec].
  - intros [(o & O & O') (n & W & W') (r & R & R') (p & P & P') X1 X2 (i & I & I') (t & H & H') (u & U & U') X3 (m & M & M')].
    unfold reads_text in *. subst o n r p.
    assert (F : exists f, take_fields [] l = Ok f).
    { apply take_total.
      - intros k K. rewrite app_nil_r, rev_length. cbn in K. unfold optional, given in *.
        repeat (destruct K as [<-|K]; [first [rewrite O|rewrite W|rewrite R|rewrite P|rewrite I|rewrite H|rewrite U|rewrite M
          |destruct (wa_extrinsic a); [destruct X1 as (? & -> & _)|rewrite X1]
          |destruct (wa_pallet a); [destruct X2 as (? & -> & _)|rewrite X2]
          |destruct (wa_pull a); [destruct X3 as (? & -> & _)|rewrite X3]]; cbn; lia|]). destruct K.
      - intros k v K V. apply fits_spec. cbn in K. unfold fits.
        repeat (destruct K as [<-|K]; [|]); try destruct K.
        all: repeat split; intros Q; try discriminate Q; try (destruct Q as [Q|Q]; try discriminate Q); clear Q.
        + rewrite I in V. destruct V as [<-|[]]. eauto.
        + rewrite H in V. destruct V as [<-|[]]. eauto.
        + rewrite U in V. destruct V as [<-|[]]. eauto.
        + unfold optional in X3. destruct (wa_pull a); [destruct X3 as (? & X3 & B); rewrite X3 in V; destruct V as [<-|[]]; eauto|rewrite X3 in V; destruct V].
        + rewrite M in V. destruct V as [<-|[]]. eauto. }
    destruct F as [f F]. pose proof (take0 _ _ F) as T.
    assert (L : forall k, In k fields -> lookup k f = hd_error (values_of k l)).
    { intros k K. destruct (T k K) as [[-> ->]|(v & -> & -> & _)]; reflexivity. }
    unfold read_args, typed_field. rewrite F. cbn [bind].
    rewrite (L "old"), (L "new"), (L "repo"), (L "path_pattern"), (L "ignore_errors"), (L "threshold"), (L "unit"), (L "method"),
      (L "extrinsic"), (L "pallet"), (L "git_pull") by infields.
    rewrite O, W, R, P, I, H, U, M. cbn [hd_error required bind].
    rewrite (proj2 (bool_of_spec _ _) I'), (proj2 (u32_of_spec _ _) H'), (proj2 (unit_spec _ _) U'), (proj2 (method_spec _ _) M').
    cbn [required bind]. destruct a as [a1 a2 a3 a4 a5 a6 a7 a8 a9 a10 a11]. unfold optional, given, reads_text in *. cbn in *. repeat f_equal.
    + destruct a5; [destruct X1 as (x & -> & ->); reflexivity|now rewrite X1].
    + destruct a6; [destruct X2 as (x & -> & ->); reflexivity|now rewrite X2].
    + destruct a10; [destruct X3 as (x & -> & B); cbn; now apply bool_of_spec|now rewrite X3].
Qed.
Lemma read_query_iff q a : read_query q = Ok a <-> exists l, query q l /\ describes l a.
Proof.
  unfold read_query. rewrite args_iff. split.
  - intros H. exists (query_pairs q). split; [now apply query_iff|exact H].
  - intros (l & Q & D). apply query_iff in Q as ->. exact D.
Qed.
Lemma read_args_ends l : returns (read_args l).
Proof.
  unfold read_args. assert (R : forall l seen, returns (take_fields seen l)).
  { clear. induction l as [|[k v] l IH]; intros seen; cbn; [exact I|]. destruct (negb _); [apply IH|].
    destruct (lookup k seen); [exact I|]. destruct (value_ok k v); [apply IH|exact I]. }
  specialize (R l []). destruct (take_fields [] l); try destruct R; cbn [bind]; [|exact I].
  repeat match goal with |- context[required ?k ?o] => destruct o; cbn [required bind]; [|exact I] end. exact I.
Qed.

(** ** Links *)
Lemma form_char_dec c r : url_decode (form_char c ++ r) = String c (url_decode r).
Proof.
  destruct c as [[] [] [] [] [] [] [] []];
    (match goal with |- url_decode (?f ++ r) = _ => let v := eval vm_compute in f in change f with v; cbn [append] end);
    first [apply dec_plus|erewrite dec_hex by reflexivity; reflexivity|apply dec_plain; discriminate].
Qed.
Lemma form_text_dec s : url_decode (form_text s) = s.
Proof. induction s as [|c s IH]; [reflexivity|]. cbn [form_text]. now rewrite form_char_dec, IH. Qed.
Lemma form_char_without c : without "=" (form_char c) /\ without "&" (form_char c).
Proof. destruct c as [[] [] [] [] [] [] [] []]; cbn; repeat split; discriminate. Qed.
Lemma form_text_without s : without "=" (form_text s) /\ without "&" (form_text s).
Proof.
  induction s as [|c s [A B]]; [cbn; auto|]. cbn [form_text]. rewrite !FilesP.without_app. destruct (form_char_without c). auto.
Qed.
Lemma form_pair_decode p : url_pair (form_text (fst p) ++ "=" ++ form_text (snd p)) p.
Proof.
  exists (form_text (fst p)), (form_text (snd p)). split; [apply form_text_without|]. split; [auto|].
  split; rewrite <- form_text_dec; apply url_text_dec.
Qed.
Lemma form_nonempty a b : (a ++ "=" ++ b) <> "".
Proof. destruct a; discriminate. Qed.
Lemma form_query_spec l : query (form_query l) l.
Proof.
  destruct l as [|p l].
  { exists [""], []. split; [|split; [|constructor]].
    - split; [discriminate|]. split; [constructor; [exact I|constructor]|reflexivity].
    - constructor; [congruence|constructor]. }
  set (ps := (p :: l)%list). set (parts := map (fun p => form_text (fst p) ++ "=" ++ form_text (snd p)) ps).
  exists parts, parts. split; [|split].
  - split; [discriminate|]. split; [|reflexivity]. apply Forall_forall. intros s S. apply in_map_iff in S as (x & <- & _).
    rewrite !FilesP.without_app. destruct (form_text_without (fst x)), (form_text_without (snd x)). cbn. repeat split; auto. discriminate.
  - subst parts. induction ps; cbn; constructor; trivial. apply form_nonempty.
  - subst parts. induction ps; cbn; constructor; trivial. apply form_pair_decode.
Qed.
Lemma form_roundtrip l : query_pairs (form_query l) = l.
Proof. apply query_iff, form_query_spec. Qed.
Lemma values_drop k k' l : values_of k' (drop_param k l) = if String.eqb k k' then [] else values_of k' l.
Proof.
  induction l as [|p l IH]; cbn [drop_param]; [now destruct (String.eqb k k')|]. rewrite values_cons.
  destruct (String.eqb_spec (fst p) k) as [E|E].
  - rewrite IH, E. now destruct (String.eqb_spec k k').
  - rewrite values_cons, IH. destruct (String.eqb_spec k k') as [<-|N]; [|reflexivity]. apply String.eqb_neq in E. now rewrite E.
Qed.
Lemma values_set k v k' l : values_of k' (set_param k v l) = if String.eqb k k' then [v] else values_of k' l.
Proof.
  induction l as [|p l IH]; cbn [set_param].
  - rewrite values_cons. cbn. now destruct (String.eqb k k').
  - destruct (String.eqb_spec (fst p) k) as [E|E].
    + rewrite !values_cons, values_drop. cbn [fst snd]. rewrite E. now destruct (String.eqb k k').
    + rewrite !values_cons, IH. destruct (String.eqb_spec k k') as [<-|N]; [|reflexivity]. apply String.eqb_neq in E. now rewrite E.
Qed.
Lemma redirect_lemma q k v q' l : url_redirect q k v = Some q' -> query q l ->
  exists l', query q' l' /\ values_of k l' = [v] /\ forall k', k' <> k -> values_of k' l' = values_of k' l.
Proof.
  unfold url_redirect. destruct (String.eqb v ""); [discriminate|]. intros [= <-] Q. apply query_iff in Q as <-.
  exists (set_param k v (query_pairs q)). split; [apply form_query_spec|]. split.
  - now rewrite values_set, String.eqb_refl.
  - intros k' N. rewrite values_set. destruct (String.eqb_spec k k'); congruence.
Qed.
Lemma given_change {A} (reads : string -> A -> Prop) k l l' a : values_of k l' = values_of k l -> given reads k l a -> given reads k l' a.
Proof. unfold given. now intros ->. Qed.
Lemma optional_change {A} (reads : string -> A -> Prop) k l l' a : values_of k l' = values_of k l -> optional reads k l a -> optional reads k l' a.
Proof. unfold optional, given. intros ->. auto. Qed.
Lemma given_fun {A} (reads : string -> A -> Prop) k l a b : (forall v a b, reads v a -> reads v b -> a = b) -> given reads k l a -> given reads k l b -> a = b.
Proof. intros F (v & V & R) (w & W & S). rewrite V in W. injection W as <-. eauto. Qed.
Lemma optional_fun {A} (reads : string -> A -> Prop) k l a b : (forall v a b, reads v a -> reads v b -> a = b) -> optional reads k l a -> optional reads k l b -> a = b.
Proof.
  intros F. destruct a as [a|], b as [b|]; cbn; trivial.
  - intros A1 A2. f_equal. eapply given_fun; eauto.
  - intros (v & V & _) E. congruence.
  - intros E (v & V & _). congruence.
Qed.
Lemma text_fun v a b : reads_text v a -> reads_text v b -> a = b. Proof. unfold reads_text. congruence. Qed.
Lemma bool_fun v a b : reads_bool v a -> reads_bool v b -> a = b. Proof. unfold reads_bool. destruct a, b; congruence. Qed.
Lemma unit_fun v a b : reads_unit v a -> reads_unit v b -> a = b. Proof. rewrite <- !unit_spec. congruence. Qed.
Lemma method_fun v a b : reads_method v a -> reads_method v b -> a = b. Proof. rewrite <- !method_spec. congruence. Qed.
Lemma given_is {A} (reads : string -> A -> Prop) k l v a : values_of k l = [v] -> given reads k l a -> reads v a.
Proof. intros V (w & W & R). rewrite V in W. now injection W as <-. Qed.
Lemma optional_is {A} (reads : string -> A -> Prop) k l v a : values_of k l = [v] -> optional reads k l a -> exists b, a = Some b /\ reads v b.
Proof. intros V. destruct a as [a|]; cbn; [intros G; exists a; split; [reflexivity|eapply given_is; eauto]|congruence]. Qed.
(** Only the field [k] changes. *)
Lemma changed_lemma k v l l' a b : values_of k l' = [v] -> (forall k', k' <> k -> values_of k' l' = values_of k' l) ->
  describes l a -> describes l' b -> same_but k a b /\ has_field k v b.
Proof.
  intros V S A B. split.
  - assert (G : forall X (reads : string -> X -> Prop) k', k' <> k -> forall x, given reads k' l x -> given reads k' l' x)
      by (intros X rd k' N x Y; exact (given_change rd k' l l' x (S _ N) Y)).
    assert (O : forall X (reads : string -> X -> Prop) k', k' <> k -> forall x, optional reads k' l x -> optional reads k' l' x)
      by (intros X rd k' N x Y; exact (optional_change rd k' l l' x (S _ N) Y)).
    destruct A, B. constructor; intros N; apply not_eq_sym in N.
    all: first [eapply given_fun; [|eapply G; [|eassumption]; trivial|eassumption]|eapply optional_fun; [|eapply O; [|eassumption]; trivial|eassumption]].
    all: first [exact text_fun|exact bool_fun|exact reads_u32_fun|exact unit_fun|exact method_fun].
  - destruct B. constructor; intros ->.
    1-4: symmetry; eapply (given_is reads_text); eassumption.
    1-2: match goal with D : optional _ ?k ?l _, V : values_of ?k ?l = _ |- _ => destruct (optional_is _ _ _ _ _ V D) as (? & -> & E); now rewrite E end.
    1-3: eapply given_is; eassumption.
    + eapply optional_is; eassumption.
    + eapply given_is; eassumption.
Qed.
Lemma given_replace {A} (reads : string -> A -> Prop) k k' v l l' a : values_of k l' = [v] -> (forall k', k' <> k -> values_of k' l' = values_of k' l) ->
  given reads k' l a -> (k = k' -> exists b, reads v b) -> exists b, given reads k' l' b.
Proof.
  intros V S G F. destruct (string_dec k' k) as [->|N].
  - destruct (F eq_refl) as [b R]. exists b, v. auto.
  - exists a. exact (given_change reads k' l l' a (S _ N) G).
Qed.
Lemma optional_replace {A} (reads : string -> A -> Prop) k k' v l l' a : values_of k l' = [v] -> (forall k', k' <> k -> values_of k' l' = values_of k' l) ->
  optional reads k' l a -> (k = k' -> exists b, reads v b) -> exists b, optional reads k' l' b.
Proof.
  intros V S G F. destruct (string_dec k' k) as [->|N].
  - destruct (F eq_refl) as [b R]. exists (Some b), v. auto.
  - exists a. exact (optional_change reads k' l l' a (S _ N) G).
Qed.
Lemma replaced_lemma k v l l' a : values_of k l' = [v] -> (forall k', k' <> k -> values_of k' l' = values_of k' l) ->
  describes l a -> fits k v -> exists b, describes l' b.
Proof.
  intros V S [D1 D2 D3 D4 D5 D6 D7 D8 D9 D10 D11] (F1 & F2 & F3 & F4).
  destruct (given_replace _ _ _ v _ _ _ V S D1) as [b1 B1]; [intros _; exists v; reflexivity|].
  destruct (given_replace _ _ _ v _ _ _ V S D2) as [b2 B2]; [intros _; exists v; reflexivity|].
  destruct (given_replace _ _ _ v _ _ _ V S D3) as [b3 B3]; [intros _; exists v; reflexivity|].
  destruct (given_replace _ _ _ v _ _ _ V S D4) as [b4 B4]; [intros _; exists v; reflexivity|].
  destruct (optional_replace _ _ _ v _ _ _ V S D5) as [b5 B5]; [intros _; exists v; reflexivity|].
  destruct (optional_replace _ _ _ v _ _ _ V S D6) as [b6 B6]; [intros _; exists v; reflexivity|].
  destruct (given_replace _ _ _ v _ _ _ V S D7) as [b7 B7]; [auto|].
  destruct (given_replace _ _ _ v _ _ _ V S D8) as [b8 B8]; [auto|].
  destruct (given_replace _ _ _ v _ _ _ V S D9) as [b9 B9]; [auto|].
  destruct (optional_replace _ _ _ v _ _ _ V S D10) as [b10 B10]; [auto|].
  destruct (given_replace _ _ _ v _ _ _ V S D11) as [b11 B11]; [auto|].
  exists {| wa_old := b1; wa_new := b2; wa_repo := b3; wa_pattern := b4; wa_extrinsic := b5; wa_pallet := b6; wa_ignore_errors := b7;
            wa_threshold := b8; wa_unit := b9; wa_pull := b10; wa_method := b11 |}. constructor; assumption.
Qed.
Lemma redirect_args q k v q' a : url_redirect q k v = Some q' -> read_query q = Ok a ->
  (fits k v -> exists b, read_query q' = Ok b) /\ forall b, read_query q' = Ok b -> same_but k a b /\ has_field k v b.
Proof.
  intros U A. apply read_query_iff in A as (l & Q & D). destruct (redirect_lemma _ _ _ _ _ U Q) as (l' & Q' & V & S). split.
  - intros F. destruct (replaced_lemma _ _ _ _ _ V S D F) as [b B]. exists b. apply read_query_iff. exists l'. auto.
  - intros b B. apply read_query_iff in B as (l2 & Q2 & B). apply query_iff in Q', Q2. rewrite Q' in Q2. subst l2.
    exact (changed_lemma k v l l' a b V S D B).
Qed.
Lemma bq_app a b : only (fun c => c <> "#"%char) a -> browser_query (a ++ b) = browser_query a ++ browser_query b.
Proof.
  induction a as [|c a IH]; intros H; [reflexivity|]. apply WebP.only_cons in H as [C H]. apply Ascii.eqb_neq in C.
  cbn [append browser_query]. rewrite C, (IH H). symmetry. apply DecP.app_str_assoc.
Qed.
Lemma query_char_dec c r : ~ In c link_chars -> url_decode (query_char c ++ r) = String c (url_decode r) /\ without "&" (query_char c).
Proof.
  intros H. destruct c as [[] [] [] [] [] [] [] []]; try (exfalso; apply H; cbn; tauto);
    (match goal with |- url_decode (?f ++ r) = _ /\ _ => let v := eval vm_compute in f in change f with v; cbn [append] end);
    (split; [first [erewrite dec_hex by reflexivity; reflexivity|apply dec_plain; discriminate]|cbn; repeat split; discriminate]).
Qed.
Lemma safe_text s : only (fun c => ~ In c link_chars) s -> url_decode (browser_query s) = s /\ without "&" (browser_query s).
Proof.
  induction s as [|c s IH]; intros H; [split; [reflexivity|exact I]|]. apply WebP.only_cons in H as [C H]. destruct (IH H) as [D W].
  cbn [browser_query]. destruct (Ascii.eqb_spec c "#") as [->|N]; [exfalso; apply C; cbn; tauto|].
  destruct (query_char_dec c (browser_query s) C) as [D' W']. rewrite D', D. split; [reflexivity|]. now apply FilesP.without_app.
Qed.
Lemma safe_hash s : only (fun c => ~ In c link_chars) s -> only (fun c => c <> "#"%char) s.
Proof. apply WebP.only_impl. intros c H ->. apply H. cbn. tauto. Qed.
Fixpoint without_b (x : ascii) (s : string) : bool := match s with "" => true | String c s' => negb (Ascii.eqb c x) && without_b x s' end.
Lemma without_b_spec x s : without_b x s = true -> without x s.
Proof. induction s as [|c s IH]; cbn; [auto|]. intros H. apply andb_true_iff in H as [C H]. apply negb_true_iff, Ascii.eqb_neq in C. auto. Qed.
Lemma without_only x s : without x s -> only (fun c => c <> x) s.
Proof. induction s as [|c s IH]; intros H; [intros y []|]. destruct H as [C H]. apply WebP.only_cons. auto. Qed.
Definition kept_part (s : string) : bool := negb (String.eqb s "").
Definition pair_of (s : string) : string * string := let (k, v) := split_eq s in (url_decode k, url_decode v).
Lemma pairs_of_pieces q l : pieces "&" q l -> query_pairs q = map pair_of (filter kept_part l).
Proof. intros P. unfold query_pairs. now rewrite (pieces_fun _ _ _ P). Qed.
Lemma sdk_pattern repo pattern : lookup repo presets = Some pattern -> repo = "polkadot-sdk" /\ pattern = snd (hd ("", "") presets).
Proof.
  unfold lookup, presets. cbn [find fst]. destruct (String.eqb_spec "polkadot-sdk" repo) as [<-|N]; [|discriminate]. cbn [snd hd].
  intros E. injection E as <-. auto.
Qed.
Definition sdk_pattern_text : string := Eval cbv in snd (hd ("", "") presets).
Lemma some_inj {A} (a b : A) : Some a = Some b -> a = b.
Proof. congruence. Qed.
Lemma root_link_lemma repo first second q : root_link repo first second = Some q ->
  only (fun c => ~ In c link_chars) first -> only (fun c => ~ In c link_chars) second ->
  exists pattern, lookup repo presets = Some pattern /\ read_query q = Ok (root_args repo first second pattern).
Proof.
  unfold root_link. destruct (lookup repo presets) as [pattern|] eqn:L; [|discriminate].
  intros E F S. apply some_inj in E. subst q. exists pattern. split; [reflexivity|]. apply sdk_pattern in L as [-> ->].
  change (snd (hd ("", "") presets)) with sdk_pattern_text.
  rewrite bq_app by (apply without_only, without_b_spec; reflexivity). rewrite bq_app by (apply without_only, without_b_spec; reflexivity).
  rewrite bq_app by (apply without_only, without_b_spec; reflexivity). rewrite bq_app by (apply without_only, without_b_spec; reflexivity).
  rewrite bq_app by (now apply safe_hash). rewrite bq_app by (apply without_only, without_b_spec; reflexivity).
  rewrite bq_app by (now apply safe_hash). rewrite bq_app by (apply without_only, without_b_spec; reflexivity).
  destruct (safe_text _ F) as [DF WF]. destruct (safe_text _ S) as [DS WS].
  set (f := browser_query first) in *. set (s := browser_query second) in *. clearbody f s.
  unfold read_query. rewrite (pairs_of_pieces _ ["unit=weight"; "ignore_errors=true"; "threshold=10"; "method=asymptotic"; "repo=polkadot-sdk"; "old=" ++ f; "new=" ++ s;
    "path_pattern=" ++ sdk_pattern_text]).
  - subst first second. reflexivity.
  - split; [discriminate|]. split.
    + repeat (apply Forall_cons; [first [apply without_b_spec; reflexivity|apply FilesP.without_app; split; [apply without_b_spec; reflexivity|assumption]]|]).
      constructor.
    + reflexivity.
Qed.
Lemma mr_link_lemma repo base head q : mr_link repo base head = Some q ->
  only (fun c => ~ In c link_chars) base -> only (fun c => ~ In c link_chars) head ->
  exists pattern, lookup repo presets = Some pattern /\ read_query q = Ok (root_args repo base head pattern).
Proof.
  unfold mr_link. destruct (lookup repo presets) as [pattern|] eqn:L; [|discriminate].
  intros E F S. apply some_inj in E. subst q. exists pattern. split; [reflexivity|]. apply sdk_pattern in L as [-> ->].
  change (snd (hd ("", "") presets)) with sdk_pattern_text.
  match goal with |- context[form_query ?l ++ _] => let v := eval vm_compute in (form_query l) in change (form_query l) with v end.
  rewrite bq_app by (apply without_only, without_b_spec; reflexivity). rewrite bq_app by (apply without_only, without_b_spec; reflexivity).
  rewrite bq_app by (now apply safe_hash). rewrite bq_app by (apply without_only, without_b_spec; reflexivity).
  destruct (safe_text _ F) as [DF WF]. destruct (safe_text _ S) as [DS WS].
  set (f := browser_query base) in *. set (s := browser_query head) in *. clearbody f s.
  unfold read_query. erewrite (pairs_of_pieces _ ["repo=polkadot-sdk"; "threshold=10"; "path_pattern=" ++ form_text sdk_pattern_text; "method=asymptotic"; "ignore_errors=true"; "unit=time"; "old=" ++ f; "new=" ++ s]).
  - subst base head. reflexivity.
  - split; [discriminate|]. split.
    + repeat (apply Forall_cons; [first [apply without_b_spec; reflexivity|apply FilesP.without_app; split; [apply without_b_spec; reflexivity|assumption]]|]).
      constructor.
    + reflexivity.
Qed.

(** ** Pages *)
Lemma escape_char_safe c : only (fun c => c <> "<"%char /\ c <> ">"%char /\ c <> """"%char /\ c <> "'"%char) (escape_char c).
Proof. intros x. destruct c as [[] [] [] [] [] [] [] []]; vm_compute; intuition (subst; discriminate). Qed.
Lemma escape_safe s : only (fun c => c <> "<"%char /\ c <> ">"%char /\ c <> """"%char /\ c <> "'"%char) (escape s).
Proof. induction s as [|c s IH]; [intros x []|]. cbn [escape]. apply WebP.only_app. split; [apply escape_char_safe|exact IH]. Qed.
Lemma escape_char_blank c : ~ blank c -> only (fun x => ~ blank x) (escape_char c).
Proof.
  intros H x. unfold escape_char.
  destruct (Ascii.eqb c """"); [|destruct (Ascii.eqb c "&"); [|destruct (Ascii.eqb c "'"); [|destruct (Ascii.eqb c "<"); [|destruct (Ascii.eqb c ">")]]]].
  6: { intros [<-|[]]. exact H. }
  all: cbn; intros I B; repeat (destruct I as [<-|I]; [cbn in B; repeat (destruct B as [B|B]; [discriminate B|]); destruct B|]); destruct I.
Qed.
Lemma escape_blank s : only (fun c => ~ blank c) s -> only (fun c => ~ blank c) (escape s).
Proof.
  induction s as [|c s IH]; intros H; [intros x []|]. apply WebP.only_cons in H as [C H]. cbn [escape]. apply WebP.only_app.
  split; [now apply escape_char_blank|auto].
Qed.
Lemma option_quoted v sel t raw_sel : raw_sel = " " ++ selected sel ->
  is_option ("<option value=" ++ quoted (escape v) ++ raw_sel ++ ">" ++ escape t ++ "</option>") v sel t.
Proof.
  intros ->. exists (quoted (escape v)), (" " ++ selected sel), (escape t). split.
  { left. exists (escape v). split; [reflexivity|]. split; [|apply PageP.escape_decodes].
    eapply WebP.only_impl; [|apply escape_safe]. cbn. tauto. }
  split; [eapply WebP.only_impl; [|apply escape_safe]; cbn; tauto|]. split; [apply PageP.escape_decodes|]. split; [|reflexivity].
  destruct sel; cbn; auto.
Qed.
Lemma escape_empty s : escape s = "" -> s = "".
Proof.
  destruct s as [|c s]; [reflexivity|]. cbn. unfold escape_char.
  destruct (Ascii.eqb c """"); [discriminate|destruct (Ascii.eqb c "&"); [discriminate|destruct (Ascii.eqb c "'"); [discriminate|destruct (Ascii.eqb c "<"); [discriminate|destruct (Ascii.eqb c ">"); discriminate]]]].
Qed.
Lemma option_unquoted v (sel : bool) t mark : v <> "" -> only (fun c => ~ blank c) v -> (if sel then mark = " selected" else mark = " " \/ mark = "") ->
  is_option ("<option value=" ++ escape v ++ mark ++ ">" ++ escape t ++ "</option>") v sel t.
Proof.
  intros N B M. exists (escape v), mark, (escape t). split.
  { right. split; [intros E; apply N, escape_empty, E|]. split; [|apply PageP.escape_decodes].
    intros c I. destruct (escape_safe v c I) as (_ & S1 & S2 & S3). split; [exact (escape_blank v B c I)|auto]. }
  split; [eapply WebP.only_impl; [|apply escape_safe]; cbn; tauto|]. split; [apply PageP.escape_decodes|]. auto.
Qed.
(** Up to the first character that is not [P]. *)
Lemma only_prefix (P : ascii -> Prop) a : forall a' c c' t t', only P a -> only P a' -> ~ P c -> ~ P c' ->
  a ++ String c t = a' ++ String c' t' -> a = a' /\ String c t = String c' t'.
Proof.
  induction a as [|x a IH]; intros [|x' a'] c c' t t' A A' C C' E; cbn in E.
  - auto.
  - injection E as -> _. apply WebP.only_cons in A' as [X _]. contradiction.
  - injection E as -> _. apply WebP.only_cons in A as [X _]. contradiction.
  - injection E as -> E. apply WebP.only_cons in A as [_ A], A' as [_ A']. destruct (IH _ _ _ _ _ A A' C C' E) as [-> ->]. auto.
Qed.
Lemma mark_cases (sel : bool) mark : (if sel then mark = " selected" else mark = " " \/ mark = "") -> mark = " selected" \/ mark = " " \/ mark = "".
Proof. destruct sel; tauto. Qed.
Lemma mark_fun (sel sel' : bool) mark : (if sel then mark = " selected" else mark = " " \/ mark = "") ->
  (if sel' then mark = " selected" else mark = " " \/ mark = "") -> sel = sel'.
Proof. destruct sel, sel'; intros A B; trivial; exfalso; (destruct A as [A|A] || destruct B as [B|B]); congruence. Qed.
Lemma attr_fun raw raw' v v' rest rest' x x' : attr_value raw v -> attr_value raw' v' ->
  (x = " "%char \/ x = ">"%char) -> (x' = " "%char \/ x' = ">"%char) ->
  raw ++ String x rest = raw' ++ String x' rest' -> raw = raw' /\ v = v' /\ String x rest = String x' rest'.
Proof.
  intros [(r & -> & Q & D)|(N & O & D)] [(r' & -> & Q' & D')|(N' & O' & D')] X X' E.
  - cbn [append] in E. injection E as E. rewrite !DecP.app_str_assoc in E. cbn [append] in E.
    destruct (only_prefix _ _ _ _ _ _ _ Q Q' ltac:(tauto) ltac:(tauto) E) as [-> E']. injection E' as -> ->. split; [reflexivity|]. split; [|reflexivity].
    eapply PageP.decodes_fun; eassumption.
  - exfalso. destruct raw' as [|c raw']; [congruence|]. cbn in E. injection E as <- _. apply WebP.only_cons in O' as [(_ & _ & C & _) _]. congruence.
  - exfalso. destruct raw as [|c raw]; [congruence|]. cbn in E. injection E as -> _. apply WebP.only_cons in O as [(_ & _ & C & _) _]. congruence.
  - assert (B : forall y, y = " "%char \/ y = ">"%char -> ~ (~ blank y /\ y <> ">"%char /\ y <> """"%char /\ y <> "'"%char)).
    { intros y [-> | ->]; [intros (C & _); apply C; left; reflexivity|tauto]. }
    destruct (only_prefix _ _ _ _ _ _ _ O O' (B _ X) (B _ X') E) as [-> E']. split; [reflexivity|]. split; [|exact E'].
    eapply PageP.decodes_fun; eassumption.
Qed.
Lemma app_str_cancel a : forall b c : string, a ++ b = a ++ c -> b = c.
Proof. induction a as [|x a IH]; cbn; intros b c E; [exact E|]. injection E as E. auto. Qed.
Lemma mark_split (sel : bool) mark rest : (if sel then mark = " selected" else mark = " " \/ mark = "") ->
  exists x t, mark ++ ">" ++ rest = String x t /\ (x = " "%char \/ x = ">"%char).
Proof. intros M. apply mark_cases in M as [->|[->| ->]]; do 2 eexists; split; try reflexivity; auto. Qed.
Lemma option_fun s v sel t v' sel' t' : is_option s v sel t -> is_option s v' sel' t' -> v = v' /\ sel = sel' /\ t = t'.
Proof.
  intros (raw & mark & body & A & B & D & M & E) (raw' & mark' & body' & A' & B' & D' & M' & E'). rewrite E in E'. clear E.
  apply app_str_cancel in E'.
  destruct (mark_split sel mark (body ++ "</option>") M) as (x & y & X & Y). destruct (mark_split sel' mark' (body' ++ "</option>") M') as (x' & y' & X' & Y').
  rewrite X, X' in E'. destruct (attr_fun _ _ _ _ _ _ _ _ A A' Y Y' E') as (_ & -> & Q). rewrite <- X, <- X' in Q. clear E' X X' Y Y' x x' y y'.
  assert (mark = mark' /\ body = body') as [-> ->].
  { assert (K : ">" ++ body ++ "</option>" = ">" ++ body' ++ "</option>" -> body = body').
    { intros K. apply app_str_cancel in K. apply DecP.app_str_inj_r in K. exact K. }
    apply mark_cases in M as [->|[->| ->]], M' as [->|[->| ->]]; cbn in Q; try discriminate Q.
    all: split; [reflexivity|]; apply K; repeat (injection Q as Q); cbn; now rewrite Q. }
  split; [reflexivity|]. split; [eapply mark_fun; eassumption|eapply PageP.decodes_fun; eassumption].
Qed.
Lemma map_forall2 {A B C} (f : A -> B) (g : A -> C) (R : B -> C -> Prop) l : (forall x, In x l -> R (f x) (g x)) -> Forall2 R (map f l) (map g l).
Proof. induction l as [|x l IH]; cbn; intros H; constructor; [apply H; auto|apply IH; intros y Y; apply H; auto]. Qed.
Lemma mark_selected (b : bool) : if b then " " ++ selected b = " selected" else " " ++ selected b = " " \/ " " ++ selected b = "".
Proof. destruct b; cbn; auto. Qed.
Lemma row_occurs label control : occurs control (config_row label control).
Proof. unfold config_row. do 3 apply PageP.occurs_right. apply PageP.occurs_left, PageP.occurs_self. Qed.
Local Ltac find_row := unfold config_table; repeat first [apply PageP.occurs_left; apply row_occurs|apply PageP.occurs_right].
Lemma dimension_eqb_spec a b : dimension_eqb a b = true <-> a = b.
Proof. destruct a, b; cbn; split; congruence. Qed.
Lemma method_eqb_spec a b : method_eqb a b = true <-> a = b.
Proof. destruct a, b; cbn; split; congruence. Qed.
Lemma repos_lemma version repos args c : (forall r, In r repos -> r <> "" /\ only (fun c => ~ blank c) r) ->
  exists opts, has_select (config_table version repos args c) "select_repo" opts /\
    Forall2 (fun o r => exists sel, is_option o r sel r /\ (sel = true <-> r = wa_repo args)) opts repos.
Proof.
  intros H. exists (map (repo_option args) repos). split.
  - unfold has_select. change ("<select id=""" ++ "select_repo" ++ """>" ++ String.concat "" (map (repo_option args) repos) ++ "</select>")
      with (select "select_repo" (map (repo_option args) repos)). find_row.
  - rewrite <- (map_id repos) at 2. apply map_forall2. intros r R. destruct (H r R) as [N B]. exists (String.eqb (wa_repo args) r). split.
    + unfold repo_option. pose proof (option_unquoted r _ r _ N B (mark_selected (String.eqb (wa_repo args) r))) as O. rewrite DecP.app_str_assoc in O. exact O.
    + rewrite String.eqb_eq. split; congruence.
Qed.
Lemma units_lemma version repos args c :
  exists opts, has_select (config_table version repos args c) "select_unit" opts /\
    Forall2 (fun o d => exists v sel, is_option o v sel v /\ reads_unit v d /\ (sel = true <-> d = wa_unit args)) opts [Time; Proof_size].
Proof.
  exists (map (unit_option args) dimension_reflect). split.
  - unfold has_select. change ("<select id=""" ++ "select_unit" ++ """>" ++ String.concat "" (map (unit_option args) dimension_reflect) ++ "</select>")
      with (select "select_unit" (map (unit_option args) dimension_reflect)). find_row.
  - change [Time; Proof_size] with (map fst dimension_reflect). apply map_forall2. intros [d v] I. exists v, (dimension_eqb (wa_unit args) d).
    cbn [fst]. split; [|split].
    + unfold unit_option. cbn [fst snd]. pose proof (option_quoted v (dimension_eqb (wa_unit args) d) v _ eq_refl) as O. rewrite DecP.app_str_assoc in O. exact O.
    + cbn in I. repeat (destruct I as [I|I]; [injection I as <- <-; cbn; tauto|]). destruct I.
    + rewrite dimension_eqb_spec. split; congruence.
Qed.
Lemma methods_lemma version repos args c :
  exists opts, has_select (config_table version repos args c) "select_method" opts /\
    Forall2 (fun o m => exists v sel, is_option o v sel v /\ reads_method v m /\ (sel = true <-> m = wa_method args)) opts
      [Base; GuessWorst; ExactWorst; ExactAsymptotic; Asymptotic].
Proof.
  exists (map (method_option args) method_reflect). split.
  - unfold has_select. change ("<select id=""" ++ "select_method" ++ """>" ++ String.concat "" (map (method_option args) method_reflect) ++ "</select>")
      with (select "select_method" (map (method_option args) method_reflect)). find_row.
  - change [Base; GuessWorst; ExactWorst; ExactAsymptotic; Asymptotic] with (map fst method_reflect). apply map_forall2. intros [d v] I. exists v, (method_eqb (wa_method args) d).
    cbn [fst]. split; [|split].
    + unfold method_option. cbn [fst snd]. pose proof (option_quoted v (method_eqb (wa_method args) d) v _ eq_refl) as O. rewrite DecP.app_str_assoc in O. exact O.
    + cbn in I. repeat (destruct I as [I|I]; [injection I as <- <-; cbn; tauto|]). destruct I.
    + rewrite method_eqb_spec. split; congruence.
Qed.
Lemma escape_id s : all_chars is_digit s = true -> escape s = s.
Proof.
  induction s as [|c s IH]; [reflexivity|]. cbn [all_chars]. intros H. apply andb_true_iff in H as [C H]. cbn [escape]. rewrite (IH H).
  destruct c as [[] [] [] [] [] [] [] []]; try discriminate C; reflexivity.
Qed.
Lemma text_input_eq id v : text_input id v = "<input id=""" ++ id ++ """ type=""text"" value=""" ++ escape v ++ """>".
Proof. unfold text_input, quoted, quote. rewrite !DecP.app_str_assoc. cbn [append]. rewrite ?DecP.app_str_assoc. reflexivity. Qed.
Lemma input_occurs page id v : occurs (text_input id v) page -> has_input page id v.
Proof. intros H. exists (escape v). split; [apply PageP.escape_mild|]. split; [apply PageP.escape_decodes|]. now rewrite <- text_input_eq. Qed.
Lemma threshold_row label r : occurs ("<input id=""input_threshold"" type=""number"" class=""form-control"" value=""" ++ r ++ """>")
  (config_row label ("<div class=" ++ quoted "input-group" ++ "><input id=" ++ quoted "input_threshold" ++ " type=" ++ quoted "number"
         ++ " class=" ++ quoted "form-control" ++ " value=" ++ quoted r ++ "><div class=" ++ quoted "input-group-append"
         ++ "><span class=" ++ quoted "input-group-text" ++ ">%</span></div></div>")).
Proof.
  eapply PageP.occurs_trans; [|apply row_occurs].
  exists "<div class=""input-group"">", "<div class=""input-group-append""><span class=""input-group-text"">%</span></div></div>".
  unfold quoted, quote. rewrite ?DecP.app_str_assoc. cbn [append]. reflexivity.
Qed.
Lemma checkbox_eq id b : checkbox id b = "<input id=""" ++ id ++ """ type=""checkbox"" " ++ (if b then "checked" else "") ++ ">".
Proof. unfold checkbox, quoted, quote. rewrite !DecP.app_str_assoc. cbn [append]. reflexivity. Qed.
Lemma cell_occurs label control : occurs ("<td>" ++ control ++ "</td>") (config_row label control).
Proof. exists ("<tr><td>" ++ label ++ "</td>"), "</tr>". unfold config_row. rewrite ?DecP.app_str_assoc. cbn [append]. reflexivity. Qed.
Lemma inputs_lemma version repos args c :
  let page := config_table version repos args c in
  has_input page "input_old" (wa_old args) /\ has_input page "input_new" (wa_new args) /\ has_input page "input_path_pattern" (wa_pattern args) /\
  (forall p, wa_pallet args = Some p -> has_input page "input_pallet" p) /\ (forall e, wa_extrinsic args = Some e -> has_input page "input_extrinsic" e) /\
  (wa_pallet args = None -> has_input page "input_pallet" ".*") /\ (wa_extrinsic args = None -> has_input page "input_extrinsic" ".*") /\
  (exists r, read_dec r = Some (wa_threshold args) /\ occurs ("<input id=""input_threshold"" type=""number"" class=""form-control"" value=""" ++ r ++ """>") page) /\
  occurs ("<input id=""checkbox_ignore_errors"" type=""checkbox"" " ++ (if wa_ignore_errors args then "checked" else "") ++ ">") page /\
  occurs ("<input id=""checkbox_git_pull"" type=""checkbox"" " ++ (match wa_pull args with Some false => "" | _ => "checked" end) ++ ">") page /\
  occurs ("<td>" ++ (if c then "Yes" else "No") ++ "</td>") page.
Proof.
  cbv zeta. split; [apply input_occurs; find_row|]. split; [apply input_occurs; find_row|]. split; [apply input_occurs; find_row|].
  split. { intros p E. apply input_occurs. unfold config_table. rewrite E. find_row. }
  split. { intros p E. apply input_occurs. unfold config_table. rewrite E. find_row. }
  split. { intros E. apply input_occurs. unfold config_table. rewrite E. find_row. }
  split. { intros E. apply input_occurs. unfold config_table. rewrite E. find_row. }
  split.
  { exists (dec_of_N (wa_threshold args)). split; [apply DecP.read_dec_dec|]. unfold config_table.
    rewrite (escape_id (dec_of_N (wa_threshold args))) by apply DecP.dec_digits.
    repeat first [apply PageP.occurs_left; apply threshold_row|apply PageP.occurs_right]. }
  split. { match goal with |- occurs ?s _ => replace s with (checkbox "checkbox_ignore_errors" (wa_ignore_errors args)) by (rewrite checkbox_eq; reflexivity) end. find_row. }
  split.
  { match goal with |- occurs ?s _ => replace s with (checkbox "checkbox_git_pull" (match wa_pull args with Some b => b | None => true end))
      by (rewrite checkbox_eq; destruct (wa_pull args) as [[]|]; reflexivity) end. find_row. }
  unfold config_table. replace (escape (if c then "Yes" else "No")) with (if c then "Yes" else "No") by (destruct c; reflexivity).
  repeat first [apply PageP.occurs_left; apply cell_occurs|apply PageP.occurs_right].
Qed.

(** ** Start *)
Section Start.
  Context (remote : fpath -> cmd_result * string) (exists_ : fpath -> bool).
  Lemma org_spec p o : get_origin_org remote p = Ok o <-> has_org remote p o.
  Proof.
    unfold get_origin_org, has_org. destruct (remote p) as [[e|b e] out]; [|destruct b].
    - split; [discriminate|intros (e' & url & Q & G); discriminate].
    - split.
      + destruct (origin_org out) as [o'|] eqn:O; [|discriminate]. intros H. apply PageP.ok_inj in H as ->. exists e, out. split; [reflexivity|]. now apply WebP.org_lemma.
      + intros (e' & url & Q & G). injection Q as _ <-. apply WebP.org_lemma in G. now rewrite G.
    - split; [discriminate|intros (e' & url & Q & G); discriminate].
  Qed.
  Lemma org_ends p : (exists o, get_origin_org remote p = Ok o) \/ (exists e, get_origin_org remote p = Err e).
  Proof. unfold get_origin_org. destruct (remote p) as [[e|b e] out]; [|destruct b]; [|destruct (origin_org out)|]; eauto. Qed.
  Definition good (root : fpath) (n : string) : Prop := exists_ (join root n) = true /\ exists o, has_org remote (join root n) o.
  Definition failed (root : fpath) (n e : string) : Prop :=
    (exists e', get_origin_org remote (join root n) = Err e' /\ e = "Failed to get origin of " ++ n ++ ": " ++ e') \/
    ((exists o, has_org remote (join root n) o) /\ exists_ (join root n) = false /\ e = "Repo directory '" ++ path_text (join root n) ++ "' does not exist").
  Lemma register_ok root names : forall repos out, map_wf str_cmp repos -> register remote exists_ root repos names = Ok out ->
    Forall (good root) names /\ map_wf str_cmp out /\
    forall n r, In (n, r) out <-> (In n names /\ sr_name r = n /\ sr_path r = join root n /\ has_org remote (join root n) (sr_org r)) \/ (~ In n names /\ In (n, r) repos).
  Proof.
    induction names as [|n names IH]; intros repos out W; cbn [register].
    - intros H. apply PageP.ok_inj in H as ->. split; [constructor|]. split; [exact W|]. intros m r. cbn. tauto.
    - destruct (get_origin_org remote (join root n)) as [o|e|e|] eqn:O; cbn [map_err bind]; try discriminate.
      destruct (exists_ (join root n)) eqn:X; [|discriminate]. intros H. apply IH in H; [|now apply (minsert_wf str_cmp str_cmp_strict)].
      destruct H as (F & W' & I). apply org_spec in O. split; [constructor; [split; eauto|exact F]|]. split; [exact W'|].
      intros m r. rewrite I. rewrite <- (mget_in str_cmp str_cmp_strict), <- (mget_in str_cmp str_cmp_strict) by (try apply (minsert_wf str_cmp str_cmp_strict); exact W).
      destruct (string_dec n m) as [<-|N].
      + rewrite (mget_minsert_eq str_cmp str_cmp_strict). split.
        * intros [(A & B)|(A & B)]; left; (split; [now left|]); [exact B|]. apply some_inj in B. subst r. cbn. auto.
        * intros [(A & B & C & D)|(A & B)]; [|destruct A; now left]. destruct (in_dec string_dec n names) as [K|K]; [auto|].
          right. split; [exact K|]. f_equal. destruct r as [rn rp ro]. cbn in *. subst. f_equal.
          destruct O as (e & u & E & G), D as (e' & u' & E' & G'). rewrite E in E'. injection E' as <- <-. apply WebP.org_lemma in G, G'. congruence.
      + rewrite (mget_minsert_ne str_cmp str_cmp_strict) by exact N. cbn [In]. split; [intros [A|A]; [left|right]; tauto|intros [A|A]; [left|right]; tauto].
  Qed.
  Lemma register_total root names : forall repos, Forall (good root) names -> exists out, register remote exists_ root repos names = Ok out.
  Proof.
    induction names as [|n names IH]; intros repos F; cbn [register]; [eauto|]. inversion F as [|? ? [X [o O]] F']; subst.
    apply org_spec in O. rewrite O. cbn [map_err bind]. rewrite X. now apply IH.
  Qed.
  Lemma register_err root names : forall repos,
    (exists out, register remote exists_ root repos names = Ok out) \/
    (exists e, register remote exists_ root repos names = Err e /\ exists before n after, names = before ++ n :: after /\ Forall (good root) before /\ failed root n e)%list.
  Proof.
    induction names as [|n names IH]; intros repos; cbn [register]; [eauto|].
    destruct (org_ends (join root n)) as [[o O]|[e O]]; rewrite O; cbn [map_err bind].
    - destruct (exists_ (join root n)) eqn:X.
      + edestruct IH as [[out H]|(e & H & before & m & after & -> & F & K)]; [left; eauto|right]. exists e. split; [exact H|].
        exists (n :: before), m, after. split; [reflexivity|]. split; [|exact K]. constructor; [|exact F]. split; [exact X|]. exists o. now apply org_spec.
      + right. eexists. split; [reflexivity|]. exists [], n, names. split; [reflexivity|]. split; [constructor|]. right. split; [exists o; now apply org_spec|auto].
    - right. eexists. split; [reflexivity|]. exists [], n, names. split; [reflexivity|]. split; [constructor|]. left. eauto.
  Qed.
End Start.
Lemma start_lemma remote exists_ is_dir root static names repos : start remote exists_ is_dir root static names = Ok repos <->
  names <> [] /\ is_dir (path_of static) = true /\
  (forall n, In n names -> exists_ (join root n) = true /\ exists o, has_org remote (join root n) o) /\
  StronglySorted (fun a b => str_cmp a b = Lt) (map fst repos) /\
  forall n r, In (n, r) repos <-> In n names /\ sr_name r = n /\ sr_path r = join root n /\ has_org remote (join root n) (sr_org r).
Proof.
  assert (W0 : map_wf str_cmp ([] : list (string * site_repo))) by constructor.
  unfold start. destruct names as [|n0 names0]; [split; [discriminate|intros [[] _]; reflexivity]|]. set (names := n0 :: names0). split.
  - destruct (register remote exists_ root [] names) as [out|e|e|] eqn:R; cbn [bind]; try discriminate.
    destruct (is_dir (path_of static)); [|discriminate]. intros H. apply PageP.ok_inj in H as ->. apply register_ok in R; [|exact W0].
    destruct R as (F & W & I). split; [discriminate|]. split; [reflexivity|]. split; [now apply Forall_forall|]. split; [exact W|].
    intros n r. rewrite I. cbn [In]. tauto.
  - intros (_ & D & G & S & I). destruct (register_total remote exists_ root names []) as [out R]; [apply Forall_forall; exact G|].
    rewrite R. cbn [bind]. rewrite D. f_equal. apply register_ok in R; [|exact W0]. destruct R as (F & W & J).
    assert (Wr : map_wf str_cmp repos) by exact S.
    apply (map_ext str_cmp str_cmp_strict); [exact W|exact Wr|]. intros k.
    assert (E : forall r, mget str_cmp k out = Some r <-> mget str_cmp k repos = Some r).
    { intros r. rewrite !(mget_in str_cmp str_cmp_strict) by assumption. rewrite J, I. cbn [In]. tauto. }
    destruct (mget str_cmp k out) as [r|] eqn:Q; [symmetry; now apply E|]. destruct (mget str_cmp k repos) as [r|]; [|reflexivity].
    apply E. reflexivity.
Qed.
Lemma start_err remote exists_ is_dir root static names :
  (exists repos, start remote exists_ is_dir root static names = Ok repos) \/
  (exists e, start remote exists_ is_dir root static names = Err e /\
    (names = [] /\ e = "Need at least one value to --repos" \/
     (exists before n after, names = before ++ n :: after /\
       (forall m, In m before -> exists_ (join root m) = true /\ exists o, has_org remote (join root m) o) /\
       ((~ (exists o, has_org remote (join root n) o)) /\ (exists why, e = "Failed to get origin of " ++ n ++ ": " ++ why)%string \/
        (exists o, has_org remote (join root n) o) /\ exists_ (join root n) = false /\ e = ("Repo directory '" ++ path_text (join root n) ++ "' does not exist")%string)) \/
     (forall m, In m names -> exists_ (join root m) = true /\ exists o, has_org remote (join root m) o) /\ is_dir (path_of static) = false /\
       e = ("Web root path '""" ++ static ++ """' is not a directory")%string))%list.
Proof.
  unfold start. destruct names as [|n0 names0]; [right; eexists; split; [reflexivity|auto]|]. set (names := n0 :: names0).
  destruct (register_err remote exists_ root names []) as [[out R]|(e & R & before & n & after & E & F & K)]; rewrite R; cbn [bind].
  - destruct (is_dir (path_of static)) eqn:D; [eauto|]. right. eexists. split; [reflexivity|]. right. right.
    apply register_ok in R; [|constructor]. destruct R as (F & _). split; [apply Forall_forall; exact F|]. split; [reflexivity|].
    unfold quoted, quote. now rewrite ?DecP.app_str_assoc.
  - right. exists e. split; [reflexivity|]. right. left. exists before, n, after. split; [exact E|]. split; [apply Forall_forall; exact F|].
    destruct K as [(w & K & ->)|K]; [left|right; exact K]. split; [|eauto]. intros (o & O). apply org_spec in O. rewrite O in K. discriminate.
Qed.
Lemma missing_lemma remote exists_ is_dir root static names e :
  (forall p, exists_ p = false -> exists why out, remote p = (NotRun why, out)) ->
  start remote exists_ is_dir root static names = Err e -> forall p, e <> ("Repo directory '" ++ p ++ "' does not exist")%string.
Proof.
  intros G S p ->. destruct (start_err remote exists_ is_dir root static names) as [[r H]|(e & H & C)]; [congruence|].
  rewrite H in S. injection S as S. subst e. destruct C as [(_ & C)|[(before & n & after & _ & _ & [(_ & why & C)|(O & X & _)])|(_ & _ & C)]]; try discriminate C.
  destruct O as (o & e & u & R & _). destruct (G _ X) as (w & out & Q). congruence.
Qed.
(** Paths *)
Lemma comp_plain s : plain (CName s) -> comp_of s = [CName s].
Proof.
  intros (A & B & C & _). unfold comp_of. destruct (String.eqb_spec s ""), (String.eqb_spec s "."), (String.eqb_spec s ".."); try contradiction. reflexivity.
Qed.
Lemma comps_plain l : Forall (fun s => plain (CName s)) l -> flat_map comp_of l = map CName l.
Proof. induction 1 as [|s l P _ IH]; [reflexivity|]. cbn [flat_map map]. now rewrite (comp_plain s P), IH. Qed.
Lemma join_plain root l : l <> [] -> Forall (fun s => plain (CName s)) l -> join root (String.concat "/" l) = (root ++ map CName l)%list.
Proof.
  intros N F. unfold join, path_of. rewrite (pieces_fun "/" _ l).
  2:{ apply CliP.pieces_intro; [exact N| |reflexivity]. eapply Forall_impl; [|exact F]. intros s H. apply H. }
  destruct l as [|s l]; [contradiction|]. inversion F as [|? ? P F']; subst. rewrite (comps_plain l F').
  pose proof (comp_plain s P) as C. destruct P as (A & B & _). destruct (String.eqb_spec s ""); [contradiction|]. destruct (String.eqb_spec s "."); [contradiction|].
  rewrite C. cbn [app map]. reflexivity.
Qed.
Lemma join_absolute root l : Forall (fun s => plain (CName s)) l -> join root (String "/" (String.concat "/" l)) = CRoot :: map CName l.
Proof.
  intros F. destruct l as [|s l]; [reflexivity|]. unfold join, path_of. rewrite (pieces_fun "/" _ ("" :: s :: l)).
  2:{ apply CliP.pieces_intro; [discriminate| |reflexivity]. constructor; [cbn; auto|]. eapply Forall_impl; [|exact F]. intros x H. apply H. }
  rewrite (comps_plain _ F). reflexivity.
Qed.

(** ** Answers *)
Lemma presets_iff repo pattern : lookup repo presets = Some pattern <-> repo = "polkadot-sdk" /\ pattern = sdk_files.
Proof.
  unfold lookup. cbn [find presets fst]. destruct (String.eqb_spec "polkadot-sdk" repo) as [<-|N]; cbn [snd].
  - split; [intros H; apply some_inj in H; subst; split; [reflexivity|vm_compute; reflexivity]|intros [_ ->]; vm_compute; reflexivity].
  - split; [discriminate|intros [E _]; congruence].
Qed.
Lemma root_link_iff repo first second : (exists q, root_link repo first second = Some q) <-> repo = "polkadot-sdk".
Proof.
  unfold root_link. destruct (lookup repo presets) as [p|] eqn:L.
  - apply presets_iff in L. split; [tauto|eauto].
  - split; [intros [q Q]; discriminate|intros ->; discriminate L].
Qed.
Lemma mr_link_iff repo first second : (exists q, mr_link repo first second = Some q) <-> repo = "polkadot-sdk".
Proof.
  unfold mr_link. destruct (lookup repo presets) as [p|] eqn:L.
  - apply presets_iff in L. split; [tauto|eauto].
  - split; [intros [q Q]; discriminate|intros ->; discriminate L].
Qed.
Lemma root_click repo first second q : root_link repo first second = Some q ->
  only (fun c => ~ In c link_chars) first -> only (fun c => ~ In c link_chars) second ->
  repo = "polkadot-sdk" /\ exists l, query q l /\ describes l (root_args repo first second sdk_files).
Proof.
  intros L A B. destruct (root_link_lemma _ _ _ _ L A B) as (p & P & R). apply presets_iff in P as [-> ->]. split; [reflexivity|]. now apply read_query_iff.
Qed.
Lemma mr_click repo base head q : mr_link repo base head = Some q ->
  only (fun c => ~ In c link_chars) base -> only (fun c => ~ In c link_chars) head ->
  repo = "polkadot-sdk" /\ exists l, query q l /\ describes l (root_args repo base head sdk_files).
Proof.
  intros L A B. destruct (mr_link_lemma _ _ _ _ L A B) as (p & P & R). apply presets_iff in P as [-> ->]. split; [reflexivity|]. now apply read_query_iff.
Qed.
Definition orgs_of (repos : list (string * site_repo)) : list (string * string) := map (fun p => (fst p, sr_org (snd p))) repos.
Definition by_name (repos : list (string * site_repo)) : Prop := StronglySorted (fun a b => str_cmp a b = Lt) (map fst repos).
Lemma prepare_iff ent repos q a org : by_name repos -> prepare ent repos q = Ok (a, org) <-> asks ent (orgs_of repos) q a org.
Proof.
  intros W. unfold prepare, asks, orgs_of. split.
  - destruct (read_query q) as [b|e|e|] eqn:R; cbn [bind]; try discriminate. cbn [wa_repo].
    destruct (mget str_cmp (wa_repo b) repos) as [r|] eqn:G; [|discriminate]. intros E. apply PageP.ok_inj in E.
    apply (f_equal fst) in E as E1. apply (f_equal snd) in E as E2. cbn [fst snd] in E1, E2. clear E. apply read_query_iff in R as (l & Q & D).
    exists l, b. split; [exact Q|]. split; [exact D|]. subst a org. split; [constructor; reflexivity|]. cbn [wa_repo].
    apply (mget_in str_cmp str_cmp_strict) in G; [|exact W]. change (wa_repo b, sr_org r) with ((fun p => (fst p, sr_org (snd p))) (wa_repo b, r)). now apply in_map.
  - intros (l & b & Q & D & C & I). assert (R : read_query q = Ok b) by (apply read_query_iff; eauto). rewrite R. cbn [bind wa_repo].
    apply in_map_iff in I as ([n r] & E & I). cbn in E. injection E as E1 E2. apply (mget_in str_cmp str_cmp_strict) in I; [|exact W].
    rewrite <- (dc_repo _ _ _ C), <- E1, I. f_equal. rewrite E2, E1. f_equal. destruct a. destruct C. cbn in *. subst. reflexivity.
Qed.
Lemma prepare_ends ent repos q : (exists x, prepare ent repos q = Ok x) \/ exists e, prepare ent repos q = Err e.
Proof.
  unfold prepare, read_query. pose proof (read_args_ends (query_pairs q)) as R. destruct (read_args (query_pairs q)) as [b|e|e|]; try destruct R; cbn [bind]; [|eauto].
  cbn [wa_repo]. destruct (mget str_cmp (wa_repo b) repos); eauto.
Qed.
Lemma error_page_shows e : fst (error_page e) = 500 /\ error_shown e (snd (error_page e)).
Proof. split; [reflexivity|]. exists (escape e). split; [apply PageP.escape_mild|]. split; [apply PageP.escape_decodes|reflexivity]. Qed.
Lemma answer_lemma ent version m repos q run : by_name repos ->
  (forall a org diff cached, asks ent (orgs_of repos) q a org -> run a = Ok (diff, cached) ->
    forall results, page_results m a org diff = Ok results ->
    compare_answer ent version m repos q run = Ok (200, config_table version (map fst repos) a cached ++ results)) /\
  (forall a org e, asks ent (orgs_of repos) q a org -> run a = Err e ->
    exists page, compare_answer ent version m repos q run = Ok (500, page) /\ error_shown e page) /\
  (~ (exists a org, asks ent (orgs_of repos) q a org) ->
    exists e page, error_shown e page /\ forall run', compare_answer ent version m repos q run' = Ok (500, page)).
Proof.
  intros W. split; [|split].
  - intros a org diff cached A R results P. apply prepare_iff in A; [|exact W]. unfold compare_answer. rewrite A, R, P. reflexivity.
  - intros a org e A R. apply prepare_iff in A; [|exact W]. unfold compare_answer. rewrite A, R. destruct (error_page_shows e) as [_ S].
    exists (snd (error_page e)). split; [reflexivity|exact S].
  - intros N. destruct (prepare_ends ent repos q) as [[[a org] P]|[e P]].
    + destruct N. exists a, org. now apply prepare_iff.
    + exists e, (snd (error_page e)). split; [apply error_page_shows|]. intros run'. unfold compare_answer. rewrite P. reflexivity.
Qed.
Lemma answer_200 ent version m repos q run page : by_name repos -> compare_answer ent version m repos q run = Ok (200, page) ->
  exists a org diff cached results, asks ent (orgs_of repos) q a org /\ run a = Ok (diff, cached) /\ page_results m a org diff = Ok results /\
    page = config_table version (map fst repos) a cached ++ results.
Proof.
  intros W. unfold compare_answer. destruct (prepare ent repos q) as [[a org]|e|e|] eqn:P; try discriminate.
  - destruct (run a) as [[diff cached]|e|e|] eqn:R; try discriminate. destruct (page_results m a org diff) as [results|e|e|] eqn:S; cbn [bind]; try discriminate.
    intros E. apply PageP.ok_inj in E. apply (f_equal snd) in E. cbn [snd] in E. exists a, org, diff, cached, results.
    split; [now apply prepare_iff|]. auto.
Qed.
Lemma asks_fun ent repos q a org a' org' : by_name repos -> asks ent (orgs_of repos) q a org -> asks ent (orgs_of repos) q a' org' -> a = a' /\ org = org'.
Proof. intros W A B. apply prepare_iff in A, B; try exact W. rewrite A in B. injection B as -> ->. auto. Qed.
(** ** The other pages *)
Lemma root_lemma repos : exists opts,
  occurs (" id=""repoSelect"" style=""width: 100%;"">" ++ String.concat "" opts ++ "</select>") (root_select repos) /\
  Forall2 (fun o r => is_option o (lower r) false r) opts repos.
Proof.
  exists (map (fun r => "<option value=" ++ quoted (escape (lower r)) ++ ">" ++ escape r ++ "</option>") repos). split.
  - unfold root_select. do 5 apply PageP.occurs_right. eexists "", "". unfold quoted, quote. rewrite ?DecP.app_str_assoc. cbn [append]. rewrite ?DecP.app_str_nil. reflexivity.
  - rewrite <- (map_id repos) at 2. apply map_forall2. intros r _. exists (quoted (escape (lower r))), "", (escape r).
    split. { left. exists (escape (lower r)). split; [reflexivity|]. split; [|apply PageP.escape_decodes]. eapply WebP.only_impl; [|apply escape_safe]. cbn. tauto. }
    split; [eapply WebP.only_impl; [|apply escape_safe]; cbn; tauto|]. split; [apply PageP.escape_decodes|]. split; [auto|]. reflexivity.
Qed.
Lemma mr_lemma repos : (forall r, In r repos -> only (fun c => ~ blank c) (sr_org r) /\ only (fun c => ~ blank c) (sr_name r)) ->
  exists opts, has_select (mr_select repos) "select_repo" opts /\
    Forall2 (fun o r => let v := sr_org r ++ ":" ++ sr_name r in is_option o v false v) opts repos.
Proof.
  intros H. eexists. split; [unfold mr_select; apply PageP.occurs_self|]. rewrite <- (map_id repos) at 2. apply map_forall2. intros r I. destruct (H r I) as [A B]. cbv zeta.
  pose proof (option_unquoted (mr_name r) false (mr_name r) "") as O. cbn [append] in O. apply O; [unfold mr_name; destruct (sr_org r); discriminate| |auto].
  unfold mr_name. apply WebP.only_app. split; [exact A|]. apply WebP.only_cons. split; [|exact B]. intros K. cbn in K. intuition discriminate.
Qed.
Lemma mr_split r : without ":" (sr_org r) -> without ":" (sr_name r) -> split_char ":" (mr_name r) = [sr_org r; sr_name r].
Proof.
  intros A B. apply pieces_fun. apply CliP.pieces_intro; [discriminate|repeat constructor; assumption|]. cbn [String.concat]. reflexivity.
Qed.
