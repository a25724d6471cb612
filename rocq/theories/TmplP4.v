(** What the files of the benchmarking template mean. *)
From Coq Require Import List String Ascii NArith ZArith Bool Lia Reals Floats.SpecFloat.
From Verif Require Import Base TermM SpecTerm SpecChrom CompareM SpecCompare SpecFmt SynM ParseM SpecAttr SpecParse FilesM SpecFiles AttrM AttrP ParseP ParseP2 ParseP3 LexM SpecText SpecEnd EndP3 SpecTmpl TmplP TmplP2 TmplP3.
Import ListNotations.
Local Open Scope string_scope.
Local Open Scope list_scope.
Local Open Scope N_scope.

(** ** Expressions *)
Definition old (st : style) : bool := match st with Runtime_old => true | _ => false end.
(** The first version has no proof sizes. *)
Definition fits (st : style) (b : bench) : Prop := st = Runtime_old -> b_proof b = 0 /\ b_proof_by b = [].
Definition part_fine (st : style) (p : part) : Prop :=
  match p with
  | PSize n => n < u128_bound /\ old st = false
  | PSlope c k => c <> "READ" /\ c <> "WRITE" /\ k < u128_bound
  | PProof c k => (c <> "READ" /\ c <> "WRITE" /\ k < u128_bound) /\ old st = false
  | PAccess what n => n < u128_bound /\ (what = "reads" \/ what = "writes")
  | PAccessBy what c n => (c <> "READ" /\ c <> "WRITE" /\ n < u128_bound) /\ (what = "reads" \/ what = "writes")
  end.
Lemma parts_fine st b : bench_ok b -> fits st b -> forall p, In p (parts st b) -> part_fine st p.
Proof.
  intros B F p I. assert (U : forall c, uses b c -> c <> "READ" /\ c <> "WRITE") by (intros c Hc; apply (ok_uses b B c Hc)).
  pose proof (ok_numbers b B) as Nn. unfold numbers in Nn.
  unfold parts in I. apply in_app_iff in I as [I|I].
  { apply base_part in I as [-> ->]. split; [|reflexivity]. apply Nn. right. now left. }
  unfold more_parts in I. rewrite !in_app_iff in I. destruct I as [I|[I|[I|[I|[I|I]]]]].
  - apply in_map_iff in I. destruct I as (q & <- & I). destruct (U (snd (fst q))) as [A C]; [left; apply in_map_iff; eauto|].
    repeat split; auto. apply Nn. do 4 right. rewrite !in_app_iff. left. apply in_map_iff. eauto.
  - destruct (N.eqb _ _); [destruct I|]. destruct I as [<-|[]]. split; [|now left]. apply Nn. right. right. now left.
  - apply in_map_iff in I. destruct I as (q & <- & I). destruct (U (fst q)) as [A C]; [right; left; apply in_map_iff; eauto|].
    split; [|now left]. repeat split; auto. apply Nn. do 4 right. rewrite !in_app_iff. right. left. apply in_map_iff. eauto.
  - destruct (N.eqb _ _); [destruct I|]. destruct I as [<-|[]]. split; [|now right]. apply Nn. right. right. right. now left.
  - apply in_map_iff in I. destruct I as (q & <- & I). destruct (U (fst q)) as [A C]; [right; right; left; apply in_map_iff; eauto|].
    split; [|now right]. repeat split; auto. apply Nn. do 4 right. rewrite !in_app_iff. right. right. left. apply in_map_iff. eauto.
  - apply in_map_iff in I. destruct I as (q & <- & I). destruct (U (fst q)) as [A C]; [right; right; right; apply in_map_iff; eauto|].
    split; [repeat split; auto|]; [apply Nn; do 4 right; rewrite !in_app_iff; right; right; right; apply in_map_iff; eauto|].
    destruct st; auto. destruct (F eq_refl) as [_ E]. rewrite E in I. destruct I.
Qed.
Lemma z_bound : 0 < u128_bound. Proof. rewrite u128_bound_eq. reflexivity. Qed.
Lemma num_int n : n < u128_bound -> numeral (e_int n). Proof. apply num_lit. Qed.
Lemma comp_e st c : c <> "READ" -> c <> "WRITE" -> component (e_conv st c).
Proof. intros A B. destruct st; cbn [e_conv]; [apply comp_into| apply comp_into| apply comp_into|apply comp_cast]; apply comp_path; assumption. Qed.
Lemma count_e st n : n < u128_bound -> numeral (e_count st n).
Proof. intros K. destruct st; cbn [e_count]; [| | |apply num_cast]; now apply num_int. Qed.
Lemma db_e r : db_call (e_get r). Proof. apply db_get. destruct r; cbn; auto. Qed.
Lemma time_e st n : old st = false -> n < u128_bound -> summand (e_time st n).
Proof.
  intros O K. destruct st; try discriminate O; cbn [e_time]; [apply sum_parts|apply sum_time|apply sum_parts]; try reflexivity; apply num_int; auto using z_bound.
Qed.
Lemma size_e st n : old st = false -> n < u128_bound -> summand (e_size st n).
Proof.
  intros O K. destruct st; try discriminate O; cbn [e_size]; [apply sum_parts|apply sum_proof|apply sum_parts]; try reflexivity; apply num_int; auto using z_bound.
Qed.
Lemma part_summand st r p : old st = false -> part_fine st p -> summand (e_part st r p).
Proof.
  intros O. destruct p; cbn [part_fine].
  - intros (K & _). now apply size_e.
  - intros (A & B & K). apply sum_mul; [now apply time_e|now apply comp_e].
  - intros (K & [->| ->]); [apply sum_reads|apply sum_writes]; auto using db_e; apply count_num; now apply count_e.
  - intros ((A & B & K) & [->| ->]); [apply sum_reads|apply sum_writes]; auto using db_e; apply count_mul; auto using comp_e; apply num_paren; now apply count_e.
  - intros ((A & B & K) & _). apply sum_mul; [now apply size_e|now apply comp_e].
Qed.
Lemma part_old st r p : old st = true -> part_fine st p -> old_summand (e_part st r p).
Proof.
  intros O. destruct p; cbn [part_fine].
  - intros (_ & K). congruence.
  - intros (A & B & K). destruct st; try discriminate O. apply old_count, count_mul; [apply num_paren, num_cast; now apply num_int|now apply comp_e].
  - intros (K & [->| ->]); [apply old_reads|apply old_writes]; auto using db_e; apply count_num; now apply count_e.
  - intros ((A & B & K) & [->| ->]); [apply old_reads|apply old_writes]; auto using db_e; apply count_mul; auto using comp_e; apply num_paren; now apply count_e.
  - intros (_ & K). congruence.
Qed.
Lemma body_template st r b : bench_ok b -> fits st b -> if old st then old_template (e_body st r b) else template (e_body st r b).
Proof.
  intros B Ft. pose proof (parts_fine st b B Ft) as F. unfold e_body. pose proof (ok_numbers b B) as Nn. unfold numbers in Nn.
  assert (Kt : b_time b < u128_bound) by (apply Nn; now left). assert (Kp : b_proof b < u128_bound) by (apply Nn; right; now left).
  destruct (old st) eqn:O.
  - assert (T : old_template (e_base st b)).
    { destruct st; try discriminate O. apply old_one, old_count, count_num, num_paren, num_cast. now apply num_int. }
    revert F T. generalize (e_base st b). induction (parts st b) as [|p ps IH]; intros e F T; [exact T|].
    apply IH; [intros q I; apply F; now right|]. apply old_add; [exact T|]. apply part_old; [exact O|]. apply F. now left.
  - assert (P : summand (e_weight (b_time b) (b_proof b))) by (apply sum_parts; try reflexivity; now apply num_int).
    assert (T : template (e_base st b)).
    { apply tmpl_one. destruct st; try discriminate O; cbn [e_base]; try destruct (N.eqb _ _); auto; now apply time_e. }
    revert F T. generalize (e_base st b). induction (parts st b) as [|p ps IH]; intros e F T; [exact T|].
    apply IH; [intros q I; apply F; now right|]. apply tmpl_add; [exact T|]. apply part_summand; [exact O|]. apply F. now left.
Qed.

(** Its value. *)
Definition part_time (rho : string -> N) (rd wr : N) (p : part) : N :=
  match p with
  | PSlope c k => k * rho c
  | PAccess what n => n * (if String.eqb what "reads" then rd else wr)
  | PAccessBy what c n => n * rho c * (if String.eqb what "reads" then rd else wr)
  | PSize _ | PProof _ _ => 0
  end.
Definition part_proof (rho : string -> N) (p : part) : N := match p with PSize n => n | PProof c n => n * rho c | _ => 0 end.
Definition two (st : style) (t p : N) : value := if old st then VNum t else VWeight t p.
Lemma conv_val st rho rd wr c : c <> "READ" -> c <> "WRITE" -> val (old st) rho rd wr (e_conv st c) = Some (VNum (rho c)).
Proof.
  intros A B. apply String.eqb_neq in A, B.
  destruct st; unfold e_conv, e_into, e_meth, e_path; cbn [val String.eqb Ascii.eqb Bool.eqb]; unfold name_of; cbn [segments String.concat]; now rewrite A, B.
Qed.
Lemma part_val st r rho rd wr p : part_fine st p -> val (old st) rho rd wr (e_part st r p) = Some (two st (part_time rho rd wr p) (part_proof rho p)).
Proof.
  destruct p; cbn [part_fine e_part part_time part_proof].
  - intros (_ & O). destruct st; try discriminate O; reflexivity.
  - intros (A & B & _). unfold e_mul, e_meth. cbn [val String.eqb Ascii.eqb Bool.eqb]. rewrite conv_val by assumption. destruct st; reflexivity.
  - intros (_ & [->| ->]); destruct st; reflexivity.
  - intros ((A & B & _) & [->| ->]); unfold e_mul, e_meth; cbn [val String.eqb Ascii.eqb Bool.eqb]; rewrite conv_val by assumption; destruct st; reflexivity.
  - intros ((A & B & _) & O). unfold e_mul, e_meth. cbn [val String.eqb Ascii.eqb Bool.eqb]. rewrite conv_val by assumption.
    destruct st; try discriminate O; reflexivity.
Qed.
Lemma fold_val st r rho rd wr ps : (forall p, In p ps -> part_fine st p) -> forall e t p, val (old st) rho rd wr e = Some (two st t p) ->
  val (old st) rho rd wr (fold_left (fun e p => e_meth e "saturating_add" [e_part st r p]) ps e) =
    Some (two st (t + total (map (part_time rho rd wr) ps)) (p + total (map (part_proof rho) ps))).
Proof.
  induction ps as [|q ps IH]; intros F e t p V.
  - cbn. rewrite !N.add_0_r. exact V.
  - cbn [fold_left map total fold_right]. fold (total (map (part_time rho rd wr) ps)). fold (total (map (part_proof rho) ps)).
    rewrite !N.add_assoc. apply IH; [intros q' I; apply F; now right|].
    unfold e_meth. cbn [val String.eqb Ascii.eqb Bool.eqb]. rewrite V, part_val by (apply F; now left). unfold two. now destruct (old st).
Qed.
Lemma total_app a b : total (a ++ b) = total a + total b.
Proof. unfold total. induction a as [|x a IH]; [reflexivity|]. cbn. rewrite IH. lia. Qed.
Lemma total_scale {A} (f : A -> N) c l : total (map (fun x => f x * c) l) = total (map f l) * c.
Proof. unfold total. induction l as [|x l IH]; [reflexivity|]. cbn. rewrite IH. lia. Qed.
Lemma total_zero {A} (f : A -> N) l : (forall x, f x = 0) -> total (map f l) = 0.
Proof. intros H. unfold total. induction l as [|x l IH]; [reflexivity|]. cbn. rewrite H. exact IH. Qed.
Lemma base_val st rho rd wr b : fits st b -> exists p, val (old st) rho rd wr (e_base st b) = Some (two st (b_time b) p) /\
  p + total (map (part_proof rho) (base_parts st b)) = b_proof b.
Proof.
  intros F. destruct st; cbn [e_base base_parts].
  - exists (b_proof b). split; [reflexivity|apply N.add_0_r].
  - exists (b_proof b). destruct (N.eqb_spec (b_proof b) 0) as [->|]; (split; [reflexivity|apply N.add_0_r]).
  - exists 0. split; [reflexivity|]. cbn. apply N.add_0_r.
  - exists 0. split; [reflexivity|]. destruct (F eq_refl) as [-> _]. reflexivity.
Qed.
Lemma body_val st r rho rd wr b : bench_ok b -> fits st b -> val (old st) rho rd wr (e_body st r b) = Some (two st (time_of rho rd wr b) (proof_of rho b)).
Proof.
  intros B F. unfold e_body. destruct (base_val st rho rd wr b F) as (p & V & Ep).
  rewrite (fold_val st r rho rd wr _ (parts_fine st b B F) _ _ _ V). unfold parts. rewrite !map_app, !total_app, !N.add_assoc, Ep.
  assert (Et : total (map (part_time rho rd wr) (base_parts st b)) = 0) by now destruct st. rewrite Et.
  f_equal. f_equal.
  - unfold time_of, more_parts, linear. rewrite !map_app, !total_app, !map_map.
    assert (E : forall what n, total (map (part_time rho rd wr) (if n =? 0 then [] else [PAccess what n])) = n * (if String.eqb what "reads" then rd else wr)).
    { intros what n. destruct (N.eqb_spec n 0) as [->|]; cbn [map total fold_right part_time]; lia. }
    rewrite !E. cbn [part_time String.eqb Ascii.eqb Bool.eqb].
    rewrite (total_scale (fun x => snd x * rho (fst x)) rd), (total_scale (fun x => snd x * rho (fst x)) wr), (total_zero (fun _ => 0)) by reflexivity. lia.
  - unfold proof_of, more_parts, linear. rewrite !map_app, !total_app, !map_map.
    assert (E : forall what n, total (map (part_proof rho) (if n =? 0 then [] else [PAccess what n])) = 0).
    { intros what n. now destruct (n =? 0). }
    rewrite !E. cbn [part_proof]. rewrite !(total_zero (fun _ => 0)) by reflexivity. lia.
Qed.

Definition part_name (p : part) : list string := match p with PSlope c _ | PProof c _ | PAccessBy _ c _ => [c] | PSize _ | PAccess _ _ => [] end.
Lemma parts_uses st b c : In c (flat_map part_name (parts st b)) <-> uses b c.
Proof.
  unfold parts, more_parts, uses. rewrite !flat_map_app, !in_app_iff, !flat_map_map. cbn [part_name].
  assert (E : forall A (f : A -> string) l, In c (flat_map (fun x => [f x]) l) <-> In c (map f l)).
  { intros A f l. induction l as [|x l IH]; cbn; [reflexivity|]. now rewrite IH. }
  rewrite !E. assert (Z : forall what n, In c (flat_map part_name (if n =? 0 then [] else [PAccess what n])) <-> False).
  { intros what n. now destruct (n =? 0). }
  rewrite !Z. assert (Z' : In c (flat_map part_name (base_parts st b)) <-> False) by now destruct st. rewrite Z'. intuition.
Qed.
Lemma names_part st r p c : In c (names (e_part st r p)) <-> In c (part_name p).
Proof.
  destruct p as [n|x k|what n|what x n|x k]; cbn [e_part part_name].
  - destruct st; reflexivity.
  - destruct st; reflexivity.
  - unfold e_meth, e_get. cbn [names]. destruct st, (_ || _)%bool; reflexivity.
  - unfold e_meth, e_get. cbn [names]. destruct st, (_ || _)%bool; reflexivity.
  - destruct st; reflexivity.
Qed.
Lemma names_fold st r ps c : forall e, In c (names (fold_left (fun e p => e_meth e "saturating_add" [e_part st r p]) ps e)) <->
  In c (names e) \/ In c (flat_map part_name ps).
Proof.
  induction ps as [|p ps IH]; intros e; [cbn; intuition|]. cbn [fold_left flat_map]. rewrite IH. unfold e_meth.
  cbn [names String.eqb Ascii.eqb Bool.eqb orb]. rewrite !in_app_iff, names_part. intuition.
Qed.
Lemma names_body st r b c : In c (names (e_body st r b)) <-> uses b c.
Proof.
  unfold e_body. rewrite names_fold, (parts_uses st).
  assert (E : names (e_base st b) = []) by (destruct st; cbn [e_base]; try destruct (N.eqb _ _); reflexivity). rewrite E. cbn. intuition.
Qed.
Lemma degree_part st r p x : part_fine st p -> (degree x (e_part st r p) <= 1)%nat.
Proof.
  assert (I : forall c, (degree x (e_conv st c) <= 1)%nat) by (intros c; destruct st; cbn; destruct (String.eqb _ _); lia).
  assert (T : forall n, degree x (e_time st n) = O) by now destruct st. assert (Z : forall n, degree x (e_size st n) = O) by now destruct st.
  assert (C : forall n, degree x (e_count st n) = O) by now destruct st.
  destruct p as [n|c k|what n|what c n|c k]; cbn [part_fine e_part].
  - intros _. rewrite Z. lia.
  - intros _. specialize (I c). unfold e_mul, e_meth. cbn [degree String.eqb Ascii.eqb Bool.eqb orb]. rewrite T. exact I.
  - intros [_ [->| ->]]; unfold e_meth; cbn [degree String.eqb Ascii.eqb Bool.eqb orb]; rewrite C; lia.
  - intros [_ [->| ->]]; specialize (I c); unfold e_mul, e_meth; cbn [degree String.eqb Ascii.eqb Bool.eqb orb]; rewrite C; exact I.
  - intros _. specialize (I c). unfold e_mul, e_meth. cbn [degree String.eqb Ascii.eqb Bool.eqb orb]. rewrite Z. exact I.
Qed.
Lemma degree_fold st r ps x : (forall p, In p ps -> part_fine st p) -> forall e, (degree x e <= 1)%nat ->
  (degree x (fold_left (fun e p => e_meth e "saturating_add" [e_part st r p]) ps e) <= 1)%nat.
Proof.
  induction ps as [|p ps IH]; intros F e D; [exact D|]. cbn [fold_left]. apply IH; [intros q I; apply F; now right|].
  unfold e_meth. cbn [degree String.eqb Ascii.eqb Bool.eqb orb]. pose proof (degree_part st r p x (F p (or_introl eq_refl))). lia.
Qed.
Lemma degree_body st r b x : bench_ok b -> fits st b -> (degree x (e_body st r b) <= 1)%nat.
Proof. intros B F. apply degree_fold; [now apply parts_fine|]. destruct st; cbn [e_base]; try destruct (N.eqb _ _); cbn; lia. Qed.

(** ** Annotations *)
Section Notes.
  Variables (v : N -> string) (st : style).
  Hypothesis (Hv : numerals v).
  Lemma range_declares c r b : bench_ok b -> In (c, r) (b_ranges b) -> parse_component_attr (adoc (range_doc v (c, r))) = Ok (Some (c, r)).
  Proof.
    intros B I. destruct (ok_ranges b B c r I) as ((Bc & Oc & _) & L & U).
    assert (D : forall n, n < 2 ^ 32 -> denotes (v n) n) by (intros n Hn; split; [apply Hv|exact Hn]).
    pose proof (template_comment " " c (v (rmin r)) (v (rmax r)) "." (rmin r) (rmax r)) as T. unfold range_doc. cbn [fst snd].
    change (adoc ?x) with (doc x). cbn [append] in T |- *. rewrite T.
    - apply N.leb_le in L. rewrite L. destruct r. reflexivity.
    - intros [K|[]]; discriminate K.
    - intros ->. destruct Bc as (x & y & E & _). discriminate E.
    - exact Oc.
    - apply Hv.
    - apply Hv.
    - apply D. lia.
    - apply D. lia.
  Qed.
  Lemma comment_in b a : In a (map adoc (comment_docs st b)) -> exists x, a = adoc (" " ++ x) /\ In x (b_comments b).
  Proof.
    intros I. apply in_map_iff in I. destruct I as (s & <- & I). unfold comment_docs in I.
    assert (J : In s (map (fun c => " " ++ c)%string (b_comments b))) by (destruct st; auto; destruct I).
    apply in_map_iff in J. destruct J as (x & <- & J). eauto.
  Qed.
  Lemma docs_declare b a c r : bench_ok b -> In a (map adoc (docs v st b)) -> (declares a c r <-> a = adoc (range_doc v (c, r)) /\ In (c, r) (b_ranges b)).
  Proof.
    intros B I. unfold docs in I. rewrite map_app, in_app_iff in I. split.
    - intros D. destruct I as [I|I].
      + apply comment_in in I. destruct I as (x & -> & I).
        destruct (ok_comments b B x I) as [_ S]. apply attr_spec in S, D. unfold adoc in D. congruence.
      + apply in_map_iff in I. destruct I as (s & <- & I). apply in_map_iff in I. destruct I as ([c' r'] & <- & I).
        apply attr_spec in D. rewrite (range_declares c' r' b B I) in D. injection D as -> ->. auto.
    - intros [-> J]. apply attr_spec. now apply range_declares with b.
  Qed.
  Lemma docs_fine b a : bench_ok b -> In a (map adoc (docs v st b)) -> ~ malformed a.
  Proof.
    intros B I M. apply attr_spec in M. unfold docs in I. rewrite map_app, in_app_iff in I. destruct I as [I|I].
    - apply comment_in in I. destruct I as (x & -> & I).
      destruct (ok_comments b B x I) as [_ S]. apply attr_spec in S. unfold adoc in M. rewrite S in M. discriminate M.
    - apply in_map_iff in I. destruct I as (s & <- & I). apply in_map_iff in I. destruct I as ([c' r'] & <- & I).
      rewrite (range_declares c' r' b B I) in M. discriminate M.
  Qed.
  Lemma fn_template rocks b : bench_ok b -> fits st b -> template_fn (fn_of v st rocks b).
  Proof.
    intros B F. split; [exists (e_body st rocks b); split; [reflexivity|pose proof (body_template st rocks b B F) as T; destruct (old st); auto]|]. split.
    - exists (mk_path false ["Weight"]), [], "". auto.
    - intros a I. now apply docs_fine with b.
  Qed.
  Lemma range_once b c r r' : bench_ok b -> In (c, r) (b_ranges b) -> In (c, r') (b_ranges b) -> r = r'.
  Proof.
    intros B. pose proof (ok_once b B) as N. revert N. induction (b_ranges b) as [|[x y] l IH]; intros N; [intros []|].
    cbn in N. inversion_clear N as [|? ? N1 N2]. intros [E|I] [E'|I'].
    - congruence.
    - injection E as -> ->. exfalso. apply N1. apply in_map_iff. now exists (c, r').
    - injection E' as -> ->. exfalso. apply N1. apply in_map_iff. now exists (c, r).
    - now apply IH.
  Qed.
  Lemma docs_split b c r : In (c, r) (b_ranges b) -> exists pre post, map adoc (docs v st b) = pre ++ adoc (range_doc v (c, r)) :: post /\
    exists p q, b_ranges b = p ++ (c, r) :: q /\ post = map adoc (map (range_doc v) q).
  Proof.
    intros I. apply in_split in I. destruct I as (p & q & E). unfold docs. rewrite E, map_app. cbn [map]. rewrite !map_app. cbn [map].
    eexists. eexists. split; [rewrite app_assoc; reflexivity|]. eauto.
  Qed.
  Lemma fn_annotates rocks b c r : bench_ok b -> (annotates (m_attrs (fn_of v st rocks b)) c r <-> In (c, r) (b_ranges b)).
  Proof.
    intros B. cbn [fn_of m_attrs]. split.
    - intros (pre & a & post & E & D & _). apply (docs_declare b a c r B) in D; [apply D|]. rewrite E. apply in_elt.
    - intros I. destruct (docs_split b c r I) as (pre & post & E & p & q & Er & Ep). exists pre, (adoc (range_doc v (c, r))), post. split; [exact E|].
      split.
      + apply (docs_declare b); auto. rewrite E. apply in_elt.
      + intros a' r' I' D. apply (docs_declare b a' c r' B) in D; [|rewrite E; apply in_or_app; right; now right].
        destruct D as [-> J]. rewrite Ep in I'. apply in_map_iff in I'. destruct I' as (s & E1 & I'). injection E1 as E1. subst s.
        apply in_map_iff in I'. destruct I' as ([c2 r2] & E2 & I').
        assert (J2 : In (c2, r2) (b_ranges b)) by (rewrite Er; apply in_or_app; right; now right).
        pose proof (range_declares c2 r2 b B J2) as A2. rewrite E2, (range_declares c r' b B J) in A2. injection A2 as <- <-.
        pose proof (ok_once b B) as N. rewrite Er, map_app in N. cbn in N. apply NoDup_remove_2 in N. apply N.
        apply in_or_app. right. apply in_map_iff. now exists (c, r').
  Qed.
  Lemma fn_range rocks b c A : bench_ok b -> (source_range (m_attrs (fn_of v st rocks b)) c A <-> range_in b c A).
  Proof.
    intros B. unfold source_range, range_in. split.
    - intros [(r & -> & H)|[-> H]]; [left; exists r; split; auto; now apply (fn_annotates rocks)|right; split; auto]. intros r I. apply (H r). now apply fn_annotates.
    - intros [(r & -> & H)|[-> H]]; [left; exists r; split; auto; now apply fn_annotates|right; split; auto]. intros r I. apply (H r). now apply (fn_annotates rocks) in I.
  Qed.
End Notes.
