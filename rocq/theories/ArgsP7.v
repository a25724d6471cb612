(** Proofs about the reading of arguments: their order, and what follows for the output. *)
From Coq Require Import List String Ascii Arith NArith ZArith Bool Lia Permutation Reals.
From Verif Require Import Base ScopeM TermM F64 SpecF64 CompareM SpecCompare RowsM SpecRows FmtM SpecFmt SynM ParseM SpecParse SpecAttr StorageM FilesM SpecFiles GitM SpecGit
  CliM SpecCli SpecEnd GramM SpecText SpecTmpl TmplX SpecShow SpecPrint ArgsM SpecArgs ArgsP6.
From Verif Require PrintP.
Import ListNotations.
Local Open Scope string_scope.

Lemma said_perm {A} (f : saying -> option A) ss ss' : Permutation ss ss' -> Permutation (said f ss) (said f ss').
Proof.
  induction 1 as [|s l l' _ IH|s t l|l1 l2 l3 _ IH1 _ IH2]; cbn.
  - constructor.
  - now apply Permutation_app_head.
  - rewrite !app_assoc. apply Permutation_app_tail. apply Permutation_app_comm.
  - eapply perm_trans; eassumption.
Qed.
Lemma perm_one {A} (l : list A) a : Permutation l [a] -> l = [a].
Proof. intros H. apply Permutation_sym in H. now apply Permutation_length_1_inv in H. Qed.
Lemma perm_nil {A} (l : list A) : Permutation l [] -> l = [].
Proof. intros H. apply Permutation_sym in H. now apply Permutation_nil in H. Qed.
Lemma once_perm {A} (f : saying -> option A) ss ss' d a : Permutation ss ss' -> once f ss' d a -> once f ss d a.
Proof.
  intros P. apply (said_perm f) in P. unfold once. intros [H|[H D]]; rewrite H in P; [left; now apply perm_one|right; split; [now apply perm_nil|exact D]].
Qed.
Lemma maybe_perm {A} (f : saying -> option A) ss ss' o : Permutation ss ss' -> maybe f ss' o -> maybe f ss o.
Proof. intros P. apply (said_perm f) in P. unfold maybe. intros H. rewrite H in P. destruct o; [now apply perm_one|now apply perm_nil]. Qed.
Lemma switch_perm (f : saying -> option unit) ss ss' b : Permutation ss ss' -> switch f ss' b -> switch f ss b.
Proof. intros P. apply (said_perm f) in P. unfold switch. intros H. rewrite H in P. destruct b; [now apply perm_one|now apply perm_nil]. Qed.

Lemma common_perm ss ss' before c : Permutation ss ss' -> same_lists ss ss' -> common ss' before c -> common ss before c.
Proof.
  intros P (Sc & _). unfold common. rewrite Sc. intros (H1 & H2 & H5 & H6 & H7 & H8 & H3 & H15 & H9 & H10 & H4 & H11 & H12 & H13 & v & H14 & Hv).
  repeat (split; [first [exact H15 | now apply (once_perm _ _ _ _ _ P) | now apply (switch_perm _ _ _ _ P) | now apply (maybe_perm _ _ _ _ P)]|]).
  exists v. split; [now apply (switch_perm _ _ _ _ P)|exact Hv].
Qed.
Lemma settings_perm k ss ss' before c : Permutation ss ss' -> same_lists ss ss' -> settings k ss' before c -> settings k ss before c.
Proof.
  intros P L. pose proof L as (_ & So & Sn & Sm). destruct k, c as [ca old new|ca old new repo pattern|]; try (now intros []); cbn [settings]; rewrite ?So, ?Sn, ?Sm.
  - intros (C & H). split; [|exact H]. now apply (common_perm _ _ _ _ P L).
  - intros (C & H & R & Q). split; [now apply (common_perm _ _ _ _ P L)|]. split; [exact H|]. split; now apply (once_perm _ _ _ _ _ P).
Qed.
Lemma order_lemma parse_f64 k args args' ss ss' c : parse_f64 "5" = Some (f64_of_N 5) ->
  line parse_f64 k false args ss -> line parse_f64 k false args' ss' -> Permutation ss ss' -> same_lists ss ss' ->
  cli_args parse_f64 ("compare" :: kind_word k :: args) = Parsed c -> cli_args parse_f64 ("compare" :: kind_word k :: args') = Parsed c.
Proof.
  intros F L L' P S. assert (E : forall a, cli_args parse_f64 ("compare" :: kind_word k :: a) = leaf_args parse_f64 k a false) by (intros a; destruct k; reflexivity).
  rewrite !E, (leaf_line parse_f64 F k args ss false c L), (leaf_line parse_f64 F k args' ss' false c L'). intros H.
  apply (settings_perm k ss' ss false c); [now apply Permutation_sym| |exact H]. destruct S as (S1 & S2 & S3 & S4). repeat split; congruence.
Qed.

Lemma main_files parse_f64 to_path dbg rxr render W git glob syn (texts : fpath -> string + string) m ords rx mx (w : W) argv c old new z out :
  parse_f64 "5" = Some (f64_of_N 5) -> means parse_f64 argv (Compare_files c old new) ->
  reads_grammar syn -> (forall k, is_order (ords k)) -> p_method (ca_params c) = ExactWorst \/ p_method (ca_params c) = GuessWorst ->
  threshold_mils (f_threshold (ca_filter c)) z -> printable (ca_format c) ->
  cli_main parse_f64 to_path dbg rxr render git glob (fun _ => disk_of syn texts) m ords rx mx argv w (out, Ok tt) ->
  exists table, prints_all rxr render (ca_format c) (ca_verbose c) (file_source_of syn texts (map to_path old)) (file_source_of syn texts (map to_path new)) rx
    (p_method (ca_params c)) (p_unit (ca_params c)) (ca_filter c) (IZR z / 1000) table out.
Proof.
  intros F M. apply (args_lemma parse_f64 F argv (Compare_files c old new) I) in M. unfold cli_main. rewrite M. destruct (ca_params c) as [meth d]. cbn [p_method p_unit].
  intros G O Mt T Pr. exact (PrintP.files_printed dbg rxr render syn m ords rx texts meth d _ _ z _ _ _ _ out G O Mt T Pr).
Qed.
Lemma main_commits parse_f64 to_path dbg rxr render syn m ords rx tglob texts mx s argv c old new repo pat z c_old c_new out :
  parse_f64 "5" = Some (f64_of_N 5) -> means parse_f64 argv (Compare_commits c old new repo pat) ->
  reads_grammar syn -> (forall k, is_order (ords k)) -> p_method (ca_params c) = ExactWorst \/ p_method (ca_params c) = GuessWorst ->
  threshold_mils (f_threshold (ca_filter c)) z -> printable (ca_format c) -> stand_for s (ca_git c) old new c_old c_new ->
  cli_main parse_f64 to_path dbg rxr render run_git (fun s => tglob (r_work s)) (fun s => disk_of syn (texts (r_work s))) m ords rx mx argv s (out, Ok tt) ->
  exists table, prints_all rxr render (ca_format c) (ca_verbose c) (data_source_of syn (tglob c_old) (texts c_old) (to_path repo) pat) (data_source_of syn (tglob c_new) (texts c_new) (to_path repo) pat) rx
    (p_method (ca_params c)) (p_unit (ca_params c)) (ca_filter c) (IZR z / 1000) table out.
Proof.
  intros F M. apply (args_lemma parse_f64 F argv (Compare_commits c old new repo pat) I) in M. unfold cli_main. rewrite M. destruct (ca_params c) as [meth d]. cbn [p_method p_unit].
  intros G O Mt T Pr St. exact (PrintP.commits_printed dbg rxr render syn m ords rx tglob texts (to_path repo) meth d _ _ z _ _ old new pat mx s c_old c_new out G O Mt T Pr St).
Qed.
