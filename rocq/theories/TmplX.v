(** Numbers in groups of three digits, and a check that data is as the template needs it; for examples. *)
From Coq Require Import List String Ascii NArith PeanoNat Bool Lia.
From Verif Require Import Base TermM CompareM SpecCompare SpecFmt SynM AttrM SpecAttr AttrP DecP LexM SpecText SpecTmpl.
Import ListNotations.
Local Open Scope string_scope.
Local Open Scope list_scope.

Fixpoint groups (l : list ascii) : list ascii :=
  match l with
  | [] => []
  | c :: r => if (Nat.eqb (Nat.modulo (List.length r) 3) 0 && negb (Nat.eqb (List.length r) 0))%bool then c :: "_"%char :: groups r else c :: groups r
  end.
(** [40_601_000] *)
Definition grouped (n : N) : string := string_of_list_ascii (groups (list_ascii_of_string (dec_of_N n))).

Definition mem (alphabet : string) (c : ascii) : bool := existsb (Ascii.eqb c) (list_ascii_of_string alphabet).
Lemma mem_iff a c : mem a c = true <-> In c (list_ascii_of_string a).
Proof.
  unfold mem. rewrite existsb_exists. split.
  - intros (x & I & E). apply Ascii.eqb_eq in E. now subst.
  - intros I. exists c. split; [exact I|apply Ascii.eqb_refl].
Qed.
Definition all_in (alphabet s : string) : bool := forallb (mem alphabet) (list_ascii_of_string s).
Definition none_in (alphabet s : string) : bool := forallb (fun c => negb (mem alphabet c)) (list_ascii_of_string s).
Definition head_in (alphabet s : string) : bool := match s with "" => false | String c _ => mem alphabet c end.
Lemma all_in_over a s : all_in a s = true -> over a s.
Proof. unfold all_in, over. rewrite forallb_forall. intros H c I. apply mem_iff. now apply H. Qed.
Lemma none_in_lacks a s : none_in a s = true -> lacks a s.
Proof. unfold none_in, lacks, in_class. rewrite forallb_forall. intros H c I J. apply mem_iff in J. apply H in I. now rewrite J in I. Qed.
Lemma head_begins a s : head_in a s = true -> begins a s.
Proof. destruct s as [|c s]; [discriminate|]. intros H. exists c, s. split; [reflexivity|now apply mem_iff]. Qed.

Lemma digit_mem c : is_digit c = true -> mem digits c = true /\ mem grouped_digits c = true /\ Ascii.eqb c "_" = false.
Proof. destruct c as [[|] [|] [|] [|] [|] [|] [|] [|]]; vm_compute; intros K; try discriminate K; auto. Qed.
Lemma chars_in p s : all_chars p s = true -> forall c, In c (list_ascii_of_string s) -> p c = true.
Proof.
  induction s as [|x s IH]; [intros _ c []|]. cbn. intros H. apply andb_prop in H. destruct H as [X S]. intros c [<-|I]; auto.
Qed.
Lemma numerals_dec : numerals dec_of_N.
Proof.
  intros n. pose proof (dec_digits n) as D. pose proof (dec_nonempty n) as N. pose proof (read_dec_dec n) as R.
  pose proof (chars_in _ _ D) as D'. clear D. rename D' into D. split; [|split].
  - destruct (dec_of_N n) as [|c r]; [congruence|]. exists c, r. split; [reflexivity|]. apply mem_iff. apply digit_mem. apply D. now left.
  - intros c I. apply mem_iff. apply digit_mem. now apply D.
  - unfold without_us. replace (filter _ _) with (list_ascii_of_string (dec_of_N n)); [now rewrite string_of_list_ascii_of_string|].
    clear N R. induction (list_ascii_of_string (dec_of_N n)) as [|c l IH]; [reflexivity|]. cbn [filter].
    destruct (digit_mem c (D c (or_introl eq_refl))) as (_ & _ & ->). cbn [negb]. f_equal. apply IH. intros x I. apply D. now right.
Qed.
Lemma groups_in l c : In c (groups l) -> In c l \/ c = "_"%char.
Proof.
  induction l as [|x l IH]; [intros []|]. cbn [groups]. destruct (_ && _)%bool; cbn [In]; intuition auto.
Qed.
Lemma groups_filter l : filter (fun c => negb (Ascii.eqb c "_")) (groups l) = filter (fun c => negb (Ascii.eqb c "_")) l.
Proof.
  induction l as [|x l IH]; [reflexivity|]. cbn [groups]. destruct (_ && _)%bool; cbn [filter]; rewrite ?IH; destruct (Ascii.eqb x "_"); cbn [negb]; reflexivity.
Qed.
Lemma numerals_grouped : numerals grouped.
Proof.
  intros n. destruct (numerals_dec n) as (B & O & R). unfold grouped. split; [|split].
  - destruct B as (c & r & E & I). rewrite E. cbn [list_ascii_of_string groups]. destruct (_ && _)%bool; eexists; eexists; split; try reflexivity; exact I.
  - intros c. rewrite list_ascii_of_string_of_list_ascii. intros I. apply groups_in in I. destruct I as [I| ->]; [now apply O|]. apply mem_iff. reflexivity.
  - unfold without_us in *. rewrite list_ascii_of_string_of_list_ascii, groups_filter. exact R.
Qed.

(** ** The check *)
Definition str_in (x : string) (l : list string) : bool := existsb (String.eqb x) l.
Lemma str_in_iff x l : str_in x l = true <-> In x l.
Proof.
  unfold str_in. rewrite existsb_exists. split.
  - intros (y & I & E). apply String.eqb_eq in E. now subst.
  - intros I. exists x. split; [exact I|apply String.eqb_refl].
Qed.
Fixpoint distinct (l : list string) : bool := match l with [] => true | x :: r => negb (str_in x r) && distinct r end.
Lemma distinct_nodup l : distinct l = true -> NoDup l.
Proof.
  induction l as [|x l IH]; [constructor|]. cbn. intros H. apply andb_prop in H. destruct H as [N D]. constructor; [|now apply IH].
  intros I. apply str_in_iff in I. now rewrite I in N.
Qed.
Definition identifierb (x : string) : bool := head_in letters x && all_in word_chars x && negb (str_in x reserved).
Lemma identifierb_ok x : identifierb x = true -> identifier x.
Proof.
  unfold identifierb. intros H. apply andb_prop in H. destruct H as [H N]. apply andb_prop in H. destruct H as [H A].
  split; [now apply head_begins|]. split; [now apply all_in_over|]. intros I. apply str_in_iff in I. now rewrite I in N.
Qed.
Definition commentb (c : string) : bool :=
  none_in nl_cr c && match parse_component_attr (ANameValue (mk_path false ["doc"]) (" " ++ c)%string) with Ok None => true | _ => false end.
Definition rangeb (p : string * comp_range) : bool := identifierb (fst p) && N.leb (rmin (snd p)) (rmax (snd p)) && N.ltb (rmax (snd p)) (2 ^ 32).
Definition used (b : bench) : list string :=
  map (fun p => snd (fst p)) (b_slopes b) ++ map fst (b_reads_by b) ++ map fst (b_writes_by b) ++ map fst (b_proof_by b).
Definition useb (c : string) : bool := identifierb c && negb (String.eqb c "READ") && negb (String.eqb c "WRITE").
Definition bench_okb (b : bench) : bool :=
  identifierb (b_name b) && forallb commentb (b_comments b) && forallb rangeb (b_ranges b) && distinct (map fst (b_ranges b)) &&
  forallb identifierb (b_params b) && forallb (none_in nl_cr) (b_remarks b) && forallb (fun p => none_in nl_cr (fst (fst p))) (b_slopes b) &&
  forallb useb (used b) && forallb (fun n => N.ltb n u128_bound) (numbers b).
Ltac split_and H := repeat (let K := fresh "K" in rewrite andb_true_iff in H; destruct H as [H K]).
Lemma bench_okb_ok b : bench_okb b = true -> bench_ok b.
Proof.
  unfold bench_okb. intros H. split_and H. split; rewrite ?forallb_forall in *.
  - now apply identifierb_ok.
  - intros c I. assert (C : commentb c = true) by (apply K6; exact I). unfold commentb in C. apply andb_prop in C. destruct C as [C D].
    split; [now apply none_in_lacks|]. apply attr_spec. destruct (parse_component_attr _) as [[|]| | |]; try discriminate D. reflexivity.
  - intros c r I. assert (C : rangeb (c, r) = true) by (apply K5; exact I). unfold rangeb in C. split_and C. split; [now apply identifierb_ok|].
    split; [now apply N.leb_le|now apply N.ltb_lt].
  - now apply distinct_nodup.
  - intros c I. apply identifierb_ok. now apply K3.
  - intros c I. apply none_in_lacks. now apply K2.
  - intros c I. apply none_in_lacks. now apply (K1 c).
  - intros c U. assert (C : useb c = true). { apply K0. unfold used. rewrite !in_app_iff. exact U. } unfold useb in C. split_and C.
    split; [now apply identifierb_ok|]. split; intros ->; discriminate.
  - intros n I. apply N.ltb_lt. now apply K.
Qed.
Definition preambleb (s : string) : bool :=
  match s with
  | "" => true
  | String a (String b r) => (Ascii.eqb a "/" && Ascii.eqb b "/" && none_in nl_cr r &&
      (negb (head_in "/" r) || match r with String x (String y _) => Ascii.eqb x "/" && Ascii.eqb y "/" | _ => false end))%bool
  | _ => false
  end.
Lemma preambleb_ok s : preambleb s = true -> preamble_line s.
Proof.
  destruct s as [|a [|b r]]; [now left|discriminate|]. cbn [preambleb]. intros H. right. exists r.
  apply andb_prop in H. destruct H as [H T]. split_and H. apply Ascii.eqb_eq in H, K0. subst. split; [reflexivity|]. split; [now apply none_in_lacks|].
  apply orb_prop in T. destruct T as [T|T].
  - left. intros (c & q & -> & I). apply mem_iff in I. cbn [head_in] in T. now rewrite I in T.
  - right. destruct r as [|x [|y q]]; try discriminate T. apply andb_prop in T. destruct T as [X Y]. apply Ascii.eqb_eq in X, Y. subst. now exists q.
Qed.
Definition styleb (d : weights) : bool :=
  match w_style d with
  | Runtime_old => identifierb (w_pallet d) && forallb (fun b => N.eqb (b_proof b) 0 && match b_proof_by b with [] => true | _ => false end)%bool (w_benches d)
  | Runtime_parts => identifierb (w_pallet d)
  | _ => true
  end.
Definition weights_okb (d : weights) : bool :=
  styleb d && forallb preambleb (w_preamble d) && none_in nl_cr (w_pallet d) && forallb bench_okb (w_benches d) && distinct (map b_name (w_benches d)).
Lemma weights_okb_ok d : weights_okb d = true -> weights_ok d.
Proof.
  unfold weights_okb. intros H. split_and H. rewrite ?forallb_forall in *. split.
  - intros l I. apply preambleb_ok. now apply K2.
  - now apply none_in_lacks.
  - intros R. exists [w_pallet d]. split; [discriminate|]. split; [|reflexivity]. intros x [<-|[]]. apply identifierb_ok.
    unfold styleb in H. destruct (w_style d); try (now destruct R). now apply andb_prop in H.
  - intros R b I. unfold styleb in H. rewrite R in H. apply andb_prop in H. destruct H as [_ H]. rewrite forallb_forall in H. specialize (H b I).
    apply andb_prop in H. destruct H as [E F]. apply N.eqb_eq in E. split; [exact E|]. destruct (b_proof_by b); [reflexivity|discriminate F].
  - intros b I. apply bench_okb_ok. now apply K0.
  - now apply distinct_nodup.
Qed.

(** ** An example *)
(** The measurements at commit [c]. *)
Definition ex_bench (c : N) : bench :=
  {| b_name := "f"; b_comments := ["Storage: Staking Bonded (r:1 w:1)"]; b_ranges := [("s", mk_range 1 100)]; b_params := ["s"];
     b_remarks := ["Minimum execution time: 40_015 nanoseconds."]; b_time := 40601000 * c; b_proof := 10386;
     b_slopes := [("1_020", "s", 1300000 * c)]; b_reads := 4; b_reads_by := [("s", 1)]; b_writes := 0; b_writes_by := []; b_proof_by := [("s", 72)] |}%N.
Definition ex_bench0 : bench :=
  {| b_name := "on_idle"; b_comments := []; b_ranges := []; b_params := []; b_remarks := []; b_time := 0; b_proof := 0;
     b_slopes := []; b_reads := 1; b_reads_by := []; b_writes := 2; b_writes_by := []; b_proof_by := [] |}%N.
Definition ex_data (c : N) : weights :=
  {| w_style := Pallet_parts; w_preamble := ["// This file is part of Substrate."; ""; "//! Autogenerated weights for pallet_staking"]; w_pallet := "pallet_staking";
     w_benches := [ex_bench0; ex_bench c] |}.
Definition ex_text (c : N) : string := file_text grouped dec_of_N (ex_data c).
Definition ex_texts (c : N) (p : FilesM.fpath) : string + string := inr (ex_text c).

Lemma ex_data_ok c : (c <= 2 ^ 60)%N -> weights_ok (ex_data c).
Proof.
  intros C. assert (K : weights_ok (ex_data 0)) by (apply weights_okb_ok; vm_compute; reflexivity).
  split; [apply (ok_preamble _ K)|apply (ok_pallet _ K)|apply (ok_module _ K)|discriminate| |apply (ok_distinct _ K)].
  assert (K0 : bench_ok ex_bench0) by (apply (ok_benches _ K); now left).
  assert (K1 : bench_ok (ex_bench 0)) by (apply (ok_benches _ K); right; now left). intros b [<-|[<-|[]]]; [exact K0|].
  split; try apply K1.
  - intros p [<-|[]]. apply (ok_errors _ K1 ("1_020", "s", 0%N)). now left.
  - intros n I. rewrite u128_bound_eq. cbn [numbers ex_bench b_time b_proof b_reads b_writes b_slopes b_reads_by b_writes_by b_proof_by map snd app In] in I.
    repeat (destruct I as [<-|I]; [lia|]). destruct I.
Qed.
Lemma ex_uses c x : uses (ex_bench c) x -> x = "s".
Proof. unfold uses, ex_bench. cbn. intuition auto. Qed.
Lemma ex_range c A : range_in (ex_bench c) "s" A <-> A = [mk_range 1 100].
Proof.
  unfold range_in, ex_bench. cbn. split.
  - intros [(r & -> & [E|[]])|(_ & N)]; [now inversion E|]. exfalso. apply (N (mk_range 1 100)). now left.
  - intros ->. left. exists (mk_range 1 100). auto.
Qed.
Lemma ex_box a b rho : in_bench_box (ex_bench a) (ex_bench b) rho <-> (1 <= rho "s" <= 100)%N.
Proof.
  unfold in_bench_box. split.
  - intros H. destruct (H "s") as (Ao & An & lo & hi & Ro & Rn & L & U & B); [left; left; now left|].
    apply ex_range in Ro, Rn. subst. destruct L as [[<-|[<-|[]]] _], U as [[<-|[<-|[]]] _]; exact B.
  - intros H c U. assert (c = "s") as -> by (destruct U as [U|U]; now apply ex_uses in U).
    exists [mk_range 1 100], [mk_range 1 100], 1%N, 100%N. rewrite !ex_range. repeat split; try lia; cbn; auto.
    all: try (intros r [<-|[<-|[]]]; cbn; lia).
Qed.
Lemma ex_tame a b d : (a <= 2 ^ 60)%N -> (b <= 2 ^ 60)%N -> tame_data d (ex_bench a) (ex_bench b).
Proof.
  intros A B. split.
  - intros c U. assert (c = "s") as ->; [|intros [K|[]]; discriminate K].
    destruct U as [U|[U|[U|U]]]; try now apply ex_uses in U. all: destruct U as [<-|[]]; reflexivity.
  - intros rho H. apply ex_box in H. rewrite u128_bound_eq. destruct d; unfold bench_weight, time_of, proof_of, linear, total;
      cbn [ex_bench b_time b_proof b_slopes b_reads b_reads_by b_writes b_writes_by b_proof_by map fold_right fst snd].
    + assert (1300000 * a * rho "s" <= 2 ^ 100 /\ 1300000 * b * rho "s" <= 2 ^ 100)%N by (split; nia). change (2 ^ 100)%N with 1267650600228229401496703205376%N in *. change (2 ^ 60)%N with 1152921504606846976%N in *. lia.
    + lia.
Qed.

(** The measurements without proof sizes, in any style. *)
Definition ex_bench1 (c : N) : bench :=
  {| b_name := "f"; b_comments := b_comments (ex_bench c); b_ranges := b_ranges (ex_bench c); b_params := ["s"]; b_remarks := []; b_time := b_time (ex_bench c); b_proof := 0;
     b_slopes := b_slopes (ex_bench c); b_reads := 4; b_reads_by := [("s", 1)]; b_writes := 0; b_writes_by := []; b_proof_by := [] |}%N.
Definition ex_styled (st : style) : weights :=
  {| w_style := st; w_preamble := w_preamble (ex_data 5); w_pallet := "pallet_staking"; w_benches := [ex_bench0; match st with Runtime_old => ex_bench1 5 | _ => ex_bench 5 end] |}.
Lemma ex_styled_ok st : weights_ok (ex_styled st).
Proof. apply weights_okb_ok. destruct st; vm_compute; reflexivity. Qed.
