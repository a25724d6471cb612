(** Lemmas about the output of the command line. *)
From Coq Require Import List String Ascii Arith NArith ZArith Bool Permutation Sorted Lia Reals Lra Floats.SpecFloat.
From Verif Require Import Base ScopeM TermM F64 SpecF64 CompareM SpecCompare RowsM SpecRows FmtM SpecFmt DecP SynM ParseM StorageM FilesM SpecFiles GitM CliM SpecCli.
From Verif Require RowsP FilesP.
Import ListNotations.
Local Open Scope list_scope.

(** ** Tables *)
Definition failed_b (r : row) : bool := match row_error r with Some _ => true | None => false end.
Definition report_b (r : row) : bool := match row_term r with Some _ => true | None => false end.
Definition printed (l : list row) : list row := filter failed_b l ++ filter report_b l.

Lemma failed_spec r : failed_b r = true <-> is_failed r.
Proof. unfold failed_b, row_error, is_failed. destruct (row_diff r); split; try discriminate; eauto; intros [e H]; discriminate. Qed.
Lemma report_spec r c : row_term r = Some c <-> reports r c.
Proof.
  unfold row_term, reports. split.
  - destruct (row_diff r) as [c'|c' w|e]; intros [= <-]; eauto.
  - intros [H|[w H]]; rewrite H; reflexivity.
Qed.
Lemma report_b_spec r : report_b r = true <-> exists c, reports r c.
Proof.
  unfold report_b. destruct (row_term r) as [c|] eqn:E.
  - split; [|reflexivity]. intros _. exists c. now apply report_spec.
  - split; [discriminate|]. intros [c H]. apply report_spec in H. congruence.
Qed.
Lemma failed_or_reports r : failed_b r = negb (report_b r).
Proof. unfold failed_b, report_b, row_error, row_term. now destruct (row_diff r). Qed.
Lemma printed_perm l : Permutation l (printed l).
Proof.
  unfold printed. induction l as [|r l IH]; [constructor|]. cbn [filter]. rewrite (failed_or_reports r).
  destruct (report_b r); cbn [negb].
  - apply Permutation_cons_app. exact IH.
  - cbn [app]. constructor. exact IH.
Qed.
Lemma sorted_filter {A} (R : A -> A -> Prop) f l : StronglySorted R l -> StronglySorted R (filter f l).
Proof.
  induction 1 as [|x l S IH F]; cbn; [constructor|]. destruct (f x); [|exact IH]. constructor; [exact IH|].
  apply Forall_forall. intros y Hy. apply filter_In in Hy. rewrite Forall_forall in F. now apply F.
Qed.
Lemma sorted_app {A} (R : A -> A -> Prop) l1 l2 : StronglySorted R l1 -> StronglySorted R l2 -> (forall a b, In a l1 -> In b l2 -> R a b) ->
  StronglySorted R (l1 ++ l2).
Proof.
  induction 1 as [|x l S IH F]; cbn; [auto|]. intros S2 H. constructor.
  - apply IH; auto.
  - apply Forall_app. split; [exact F|]. apply Forall_forall. auto.
Qed.
Lemma sorted_impl {A} (R Q : A -> A -> Prop) l : (forall a b, In a l -> In b l -> R a b -> Q a b) -> StronglySorted R l -> StronglySorted Q l.
Proof.
  intros H S. induction S as [|x l S IH F]; constructor.
  - apply IH. intros. apply H; cbn; auto.
  - rewrite Forall_forall in *. intros y Hy. apply H; cbn; auto.
Qed.
Lemma printed_sorted l s : sort_changes l s -> Permutation l (printed (rev s)) /\ StronglySorted worst_first (printed (rev s)).
Proof.
  intros H. apply RowsP.sort_lemma in H. destruct H as (P & S & _). split.
  - etransitivity; [exact P|]. etransitivity; [apply Permutation_rev|apply printed_perm].
  - apply FilesP.sorted_rev in S. unfold printed. apply sorted_app.
    + apply (sorted_impl (fun a b => row_le b a)); [|now apply sorted_filter].
      intros a b Ia Ib _. left. apply filter_In in Ia. now apply failed_spec.
    + apply (sorted_impl (fun a b => row_le b a)); [|now apply sorted_filter].
      intros a b Ia Ib K. apply filter_In in Ia, Ib. destruct Ia as [_ Ia], Ib as [_ Ib].
      destruct K as [K|(c & d & Rb & Ra & K)].
      * apply failed_spec in K. rewrite failed_or_reports, Ib in K. discriminate.
      * right. exists d, c. auto.
    + intros a b Ia Ib. left. apply filter_In in Ia. now apply failed_spec.
Qed.

Section Table.
  Context (dbg : sscope -> string) (rxr : string -> option (string -> option string)).

  Lemma mapM_iff {A B} (f : A -> outcome B) l r : mapM f l = Ok r <-> Forall2 (fun x y => f x = Ok y) l r.
  Proof.
    split; [apply RowsP.mapM_ok|]. induction 1 as [|x y l r E F IH]; cbn; [reflexivity|]. rewrite E. cbn. now rewrite IH.
  Qed.
  Lemma filter_path_spec fp p s : filter_path rxr fp p = Ok s <-> shown_path rxr fp p s.
  Proof.
    unfold filter_path, shown_path. destruct (fp_strip fp) as [re|]; [|split; [now intros [= <-]|now intros ->]].
    destruct (rxr re) as [f|]; [|split; [discriminate|now intros (f & H & _)]].
    destruct (f p) as [t|] eqn:E; split; try discriminate.
    - intros [= <-]. eauto.
    - intros (g & [= <-] & K). congruence.
    - intros (g & [= <-] & K). congruence.
  Qed.
  Lemma shown_value_spec dim v s : shown_value dim v s <-> s = fmt_opt_value dim v.
  Proof. split; [now intros []|]. intros ->. destruct v; constructor. Qed.
  Lemma shown_term_spec v s : shown_term v s <-> s = fmt_opt_term v.
  Proof. split; [now intros []|]. intros ->. destruct v; constructor. Qed.
  Lemma error_cells_spec fp dim r cs : failed_b r = true -> (error_cells rxr fp r = Ok cs <-> cells_of dbg rxr fp dim r cs).
  Proof.
    intros F. unfold error_cells. split.
    - destruct (filter_path rxr fp (row_file r)) as [s| | |] eqn:E; cbn; try discriminate. intros [= <-].
      apply cells_failed; [now apply failed_spec|now apply filter_path_spec].
    - intros H. inversion H; subst.
      + match goal with H : shown_path _ _ _ _ |- _ => apply filter_path_spec in H; rewrite H end. reflexivity.
      + rewrite failed_or_reports in F. assert (R : report_b r = true) by (apply report_b_spec; eauto). rewrite R in F. discriminate.
      + rewrite failed_or_reports in F. assert (R : report_b r = true) by (apply report_b_spec; eauto). rewrite R in F. discriminate.
  Qed.
  Lemma reports_fun r c d : reports r c -> reports r d -> c = d.
  Proof. intros A B. apply report_spec in A, B. congruence. Qed.
  Lemma term_cells_spec fp dim r c cs : row_term r = Some c -> (term_cells dbg rxr fp dim r c = Ok cs <-> cells_of dbg rxr fp dim r cs).
  Proof.
    intros R. apply report_spec in R. unfold term_cells. split.
    - destruct (filter_path rxr fp (row_file r)) as [s| | |] eqn:E; cbn [bind]; try discriminate. apply filter_path_spec in E. intros [= <-].
      destruct (fp_print_terms fp) eqn:T; cbn [app].
      + apply cells_terms; auto; try now apply shown_value_spec. all: now apply shown_term_spec.
      + apply cells_change; auto; now apply shown_value_spec.
    - intros H. inversion H; subst.
      + destruct H0 as [e H0]. destruct R as [R|[w R]]; congruence.
      + rewrite (reports_fun _ _ _ R H0). apply filter_path_spec in H1. rewrite H1. apply shown_value_spec in H2, H3. subst. rewrite H4. reflexivity.
      + rewrite (reports_fun _ _ _ R H0). apply filter_path_spec in H1. rewrite H1. apply shown_value_spec in H2, H3. apply shown_term_spec in H5, H6.
        subst. rewrite H4. reflexivity.
  Qed.
  Lemma Forall2_iff {A B} (R Q : A -> B -> Prop) l r : (forall a b, In a l -> (R a b <-> Q a b)) -> Forall2 R l r <-> Forall2 Q l r.
  Proof.
    intros H. split; intros F.
    - induction F as [|a b l r E F IH]; constructor; [apply H; cbn; auto|]. apply IH. intros; apply H; cbn; auto.
    - induction F as [|a b l r E F IH]; constructor; [apply H; cbn; auto|]. apply IH. intros; apply H; cbn; auto.
  Qed.
  Definition with_terms (l : list row) := flat_map (fun p => match row_term p with Some t => [(p, t)] | None => [] end) l.
  Lemma terms_spec fp dim l cs : Forall2 (fun x y => term_cells dbg rxr fp dim (fst x) (snd x) = Ok y) (with_terms l) cs <->
    Forall2 (cells_of dbg rxr fp dim) (filter report_b l) cs.
  Proof.
    revert cs. induction l as [|r l IH]; intros cs; cbn [with_terms flat_map filter]; [split; intros H; inversion H; constructor|].
    fold (with_terms l). unfold report_b at 1. destruct (row_term r) as [c|] eqn:E; cbn [app]; [|apply IH].
    split; intros H; inversion H; subst; constructor; try (now apply IH); cbn [fst snd] in *.
    - now apply (term_cells_spec fp dim r c).
    - now apply (term_cells_spec fp dim r c).
  Qed.
  Lemma human_spec l fp dim cs : human_cells dbg rxr l fp dim = Ok cs <-> Forall2 (cells_of dbg rxr fp dim) (printed l) cs.
  Proof.
    unfold human_cells. change (flat_map _ l) with (with_terms l).
    change (fun p => match row_error p with Some _ => true | None => false end) with failed_b.
    assert (E : forall r, mapM (error_cells rxr fp) (filter failed_b l) = Ok r <-> Forall2 (cells_of dbg rxr fp dim) (filter failed_b l) r).
    { intros r. rewrite mapM_iff. apply Forall2_iff. intros a b I. apply filter_In in I. apply error_cells_spec, I. }
    assert (T : forall r, mapM (fun x => term_cells dbg rxr fp dim (fst x) (snd x)) (with_terms l) = Ok r <-> Forall2 (cells_of dbg rxr fp dim) (filter report_b l) r).
    { intros r. rewrite mapM_iff. apply terms_spec. }
    unfold printed. split.
    - destruct (mapM (error_cells rxr fp) _) as [a| | |]; cbn [bind]; try discriminate.
      destruct (mapM _ (with_terms l)) as [b| | |]; cbn [bind]; try discriminate. intros [= <-].
      apply Forall2_app; [now apply E|now apply T].
    - intros F. apply Forall2_app_inv_l in F. destruct F as (a & b & Fa & Fb & ->). apply E in Fa. apply T in Fb. rewrite Fa. cbn [bind]. rewrite Fb. reflexivity.
  Qed.
  Lemma human_fails l fp dim : (exists cs, human_cells dbg rxr l fp dim = Ok cs) \/ (exists w, human_cells dbg rxr l fp dim = Panic w).
  Proof.
    assert (M : forall A (f : A -> outcome (list string)) l, (forall x, (exists y, f x = Ok y) \/ exists w, f x = Panic w) -> (exists y, mapM f l = Ok y) \/ exists w, mapM f l = Panic w).
    { intros A f x H. induction x as [|a x IH]; cbn; [left; eauto|]. destruct (H a) as [[y ->]|[w ->]]; cbn; [|right; eauto].
      destruct IH as [[ys ->]|[w ->]]; cbn; [left|right]; eauto. }
    assert (P : forall p, (exists s, filter_path rxr fp p = Ok s) \/ exists w, filter_path rxr fp p = Panic w).
    { intros p. unfold filter_path. destruct (fp_strip fp); [|left; eauto]. destruct (rxr s) as [f|]; [|right; eauto]. destruct (f p); [left|right]; eauto. }
    assert (Pe : forall r, (exists y, error_cells rxr fp r = Ok y) \/ exists w, error_cells rxr fp r = Panic w).
    { intros r. unfold error_cells. destruct (P (row_file r)) as [[s ->]|[w ->]]; cbn; [left|right]; eauto. }
    assert (Pt : forall x : row * term_change, (exists y, term_cells dbg rxr fp dim (fst x) (snd x) = Ok y) \/ exists w, term_cells dbg rxr fp dim (fst x) (snd x) = Panic w).
    { intros [r c]. cbn [fst snd]. unfold term_cells. destruct (P (row_file r)) as [[s ->]|[w ->]]; cbn [bind]; [left|right]; eauto. }
    unfold human_cells.
    match goal with |- context [mapM (error_cells rxr fp) ?x] => destruct (M _ _ x Pe) as [[a ->]|[w ->]] end; cbn [bind]; [|right; eauto].
    match goal with |- context [mapM _ ?x] => destruct (M _ _ x Pt) as [[b ->]|[w ->]] end; cbn [bind]; [left|right]; eauto.
  Qed.
End Table.

Lemma first_worst l r c : StronglySorted worst_first l -> (exists pre post, l = pre ++ r :: post /\ forall x, In x pre -> is_failed x) -> reports r c ->
  forall r' c', In r' l -> reports r' c' -> ~ rank_lt c c'.
Proof.
  intros S (pre & post & -> & F) R r' c' I R'. apply in_app_or in I. destruct I as [I|[I|I]].
  - destruct (F _ I) as [e E]. destruct R' as [R'|[w R']]; congruence.
  - subst r'. rewrite (reports_fun _ _ _ R' R). intros [K|[_ K]]; [destruct (tc_change c); exact K|lia].
  - clear F. induction pre as [|x pre IH]; cbn in S; inversion S; subst.
    + rewrite Forall_forall in H2. destruct (H2 _ I) as [[e E]|(a & b & A & B & K)].
      * destruct R as [R|[w R]]; congruence.
      * now rewrite (reports_fun _ _ _ R A), (reports_fun _ _ _ R' B).
    + now apply IH.
Qed.

(** ** Comma separated values *)
Lemma chars_without c p s : all_chars p s = true -> p c = false -> without c s.
Proof.
  intros H E. induction s as [|a s IH]; cbn in *; [exact I|]. apply andb_true_iff in H. destruct H as [A B].
  split; [congruence|auto].
Qed.
Lemma dec_clean n : clean (dec_of_N n).
Proof. pose proof (dec_digits n) as H. split; apply (chars_without _ _ _ H); reflexivity. Qed.
Lemma clean_app a b : clean (append a b) <-> clean a /\ clean b.
Proof. unfold clean. rewrite !FilesP.without_app. tauto. Qed.
Lemma digit_clean d : (d < 10)%N -> clean (String (digit d) "").
Proof.
  intros H. apply digit_is_digit in H. split; cbn; (split; [|exact I]); intros E; rewrite E in H; discriminate.
Qed.
Lemma lit_clean s : all_chars (fun c => negb (Ascii.eqb c ",") && negb (Ascii.eqb c newline)) s = true -> clean s.
Proof. intros H. split; apply (chars_without _ _ _ H); reflexivity. Qed.
Lemma dec_2_clean q : clean (dec_2 q).
Proof.
  unfold dec_2. apply clean_app. split; [apply dec_clean|]. apply clean_app. split; [now apply lit_clean|].
  change (String (digit (q mod 100 / 10)) (String (digit (q mod 10)) "")) with (append (String (digit (q mod 100 / 10)) "") (String (digit (q mod 10)) "")).
  apply clean_app. split; apply digit_clean.
  - apply N.div_lt_upper_bound; [discriminate|]. assert (q mod 100 < 100)%N by (apply N.mod_lt; discriminate). lia.
  - apply N.mod_lt. discriminate.
Qed.
Lemma fmt_2_clean x : clean (fmt_2 x).
Proof.
  destruct x as [[|]|[|]| |[|] m e]; try now apply lit_clean.
  all: apply clean_app; split; [now apply lit_clean|apply dec_2_clean].
Qed.
Ltac unit_clean := apply clean_app; split; [first [apply fmt_2_clean|apply dec_clean]|now apply lit_clean].
Lemma fmt_value_clean dim v : clean (fmt_value dim v).
Proof.
  destruct dim; cbn [fmt_value]; unfold fmt_time, fmt_proof, fmt_quot;
    repeat match goal with |- context [if ?b then _ else _] => destruct b end; unit_clean.
Qed.
Lemma fmt_scalar_clean v : clean (fmt_scalar v).
Proof.
  unfold fmt_scalar, fmt_quot. repeat match goal with |- context [if ?b then _ else _] => destruct b end; try unit_clean. apply dec_clean.
Qed.
Lemma fmt_opt_value_clean dim v : clean (fmt_opt_value dim v).
Proof. destruct v; cbn; [apply fmt_value_clean|now apply lit_clean]. Qed.
Lemma pad5_clean s : clean s -> clean (pad5 s).
Proof.
  intros H. unfold pad5. destruct (5 - String.length s)%nat as [|[|[|[|[|n]]]]]; [exact H|..]; apply clean_app; (split; [now apply lit_clean|exact H]).
Qed.
Lemma fmt_plus_clean p : clean (fmt_plus5_2 p).
Proof.
  unfold fmt_plus5_2. apply pad5_clean. destruct p as [[|]|[|]| |[|] m e]; try now apply lit_clean.
  all: apply clean_app; split; [now apply lit_clean|apply dec_2_clean].
Qed.
Lemma maybe_clean c s b : clean s -> clean (maybe_color c s b).
Proof.
  intros H. unfold maybe_color, paint. destruct b; [exact H|]. repeat (apply clean_app; split); try (now apply lit_clean); try exact H.
  destruct c; now apply lit_clean.
Qed.
Lemma color_clean p ch b : clean (color_percent p ch b).
Proof.
  unfold color_percent. destruct ch; [now apply lit_clean|apply maybe_clean; now apply lit_clean|apply maybe_clean; now apply lit_clean|].
  destruct (f64_lt p f64_zero); [|destruct (f64_gt p f64_zero)]; apply maybe_clean, fmt_plus_clean.
Qed.
Lemma clean_cons a s : a <> ","%char -> a <> newline -> clean s -> clean (String a s).
Proof. intros A B [C D]. split; cbn; auto. Qed.
Lemma maybe_fmt_clean t : clean_vars t -> forall b s, maybe_fmt fmt_scalar (N.eqb 0) (N.eqb 1) t b = Some s -> clean s.
Proof.
  induction t as [v|v|x|l IHl r IHr|l IHl r IHr]; cbn [clean_vars maybe_fmt]; intros H b s.
  - intros [= <-]. apply fmt_scalar_clean.
  - intros [= <-]. apply fmt_scalar_clean.
  - intros [= <-]. exact H.
  - destruct H as [Hl Hr]. specialize (IHl Hl). specialize (IHr Hr).
    repeat match goal with |- context [if ?b then _ else _] => destruct b end; try discriminate; eauto;
    destruct (maybe_fmt _ _ _ l _) as [sl|] eqn:El; destruct (maybe_fmt _ _ _ r _) as [sr|] eqn:Er; intros [= <-]; eauto;
    repeat first [apply clean_cons; [discriminate|discriminate|]|apply clean_app; split]; eauto; now apply lit_clean.
  - destruct H as [Hl Hr]. specialize (IHl Hl). specialize (IHr Hr).
    repeat match goal with |- context [if ?b then _ else _] => destruct b end; try discriminate; eauto;
    destruct (maybe_fmt _ _ _ l _) as [sl|] eqn:El; destruct (maybe_fmt _ _ _ r _) as [sr|] eqn:Er; intros [= <-]; eauto;
    repeat first [apply clean_cons; [discriminate|discriminate|]|apply clean_app; split]; eauto; now apply lit_clean.
Qed.
Lemma term_clean o : (forall t, o = Some t -> clean_vars t) -> clean (fmt_opt_term o).
Proof.
  intros H. destruct o as [t|]; cbn; [|now apply lit_clean]. unfold sdisplay, display.
  destruct (maybe_fmt _ _ _ t true) as [s|] eqn:E; [|now apply lit_clean]. eapply maybe_fmt_clean; eauto.
Qed.
Lemma replace_without c s : without "," (replace_char "," " " s) /\ (without c s -> c <> " "%char -> without c (replace_char "," " " s)).
Proof.
  induction s as [|a s [A B]]; cbn; [auto|]. destruct (Ascii.eqb_spec a ","); cbn.
  - split; [split; [discriminate|exact A]|]. intros [H1 H2] H3. split; [congruence|auto].
  - split; [split; assumption|]. intros [H1 H2] H3. split; auto.
Qed.

Lemma pieces_intro sep l s : l <> [] -> Forall (without sep) l -> String.concat (String sep "") l = s -> pieces sep s l.
Proof. split; auto. Qed.
Lemma concat_cons sep (x : string) l : l <> [] -> String.concat sep (x :: l) = append x (append sep (String.concat sep l)).
Proof. destruct l; [congruence|reflexivity]. Qed.
Lemma concat_lines lines : String.concat "" (map (fun s => append s (String newline "")) lines) = String.concat (String newline "") (lines ++ [""%string]).
Proof.
  induction lines as [|x lines IH]; [reflexivity|]. cbn [map app].
  assert (N : (lines ++ [""%string]) <> []) by (destruct lines; discriminate).
  rewrite (concat_cons _ x (lines ++ _)) by exact N. rewrite <- IH. destruct lines as [|y lines].
  - reflexivity.
  - cbn [map]. rewrite concat_cons by discriminate. cbn [append]. now rewrite app_str_assoc.
Qed.
Lemma csv_intro lines records : Forall (without newline) lines -> Forall2 (pieces ",") lines records ->
  csv_holds (String.concat "" (map (fun s => append s (String newline "")) lines)) records.
Proof.
  intros F R. exists lines. split; [|exact R]. rewrite concat_lines. split; [destruct lines; discriminate|]. split; [|reflexivity].
  apply Forall_app. split; [exact F|]. constructor; [exact I|constructor].
Qed.

Section Csv.
  Context (dbg : sscope -> string).
  Definition csv_line (fp : format_params) (dim : dimension) (r : row) (c : term_change) : string :=
    String.concat "," ([row_file r; row_name r; fmt_opt_value dim (tc_old_v c); fmt_opt_value dim (tc_new_v c)] ++
      (if fp_print_terms fp then
        [append (color_percent (tc_percent c) (tc_change c) (fp_no_color fp)) (fmt_opt_term (tc_old c)); fmt_opt_term (tc_new c);
         replace_char "," " " (dbg (tc_scope c))]
       else [color_percent (tc_percent c) (tc_change c) (fp_no_color fp)])).
  Lemma csv_row_line fp dim r c : csv_row dbg fp dim r c = append (csv_line fp dim r c) (String newline "").
  Proof.
    unfold csv_row, csv_line. destruct (fp_print_terms fp); cbn [app String.concat]; rewrite ?app_str_assoc; reflexivity.
  Qed.
  Definition header_fields (fp : format_params) : list string :=
    ["File"; "Extrinsic"; "Old"; "New"; "Change Percent"]%string ++
    (if fp_print_terms fp then ["Old Weight Term"; "New Weight Term"; "Used variables"]%string else []).
  Lemma header_line fp : csv_header fp = append (String.concat "," (header_fields fp)) (String newline "").
  Proof. unfold csv_header, header_fields. destruct (fp_print_terms fp); reflexivity. Qed.
  Lemma csv_lines l fp dim : flat_map (fun p => match row_term p with Some t => [csv_row dbg fp dim p t] | None => [] end) l =
    map (fun s => append s (String newline "")) (map (fun x => csv_line fp dim (fst x) (snd x)) (with_terms l)).
  Proof.
    induction l as [|r l IH]; cbn [flat_map with_terms]; [reflexivity|]. rewrite IH. fold (with_terms l).
    destruct (row_term r); cbn [app map fst snd]; [now rewrite csv_row_line|reflexivity].
  Qed.
  Lemma with_terms_in l r c : In (r, c) (with_terms l) <-> In r l /\ reports r c.
  Proof.
    unfold with_terms. rewrite in_flat_map. split.
    - intros (x & I & H). destruct (row_term x) as [d|] eqn:E; [|contradiction]. destruct H as [H|[]]. injection H as -> ->.
      split; [exact I|now apply report_spec].
    - intros [I R]. exists r. split; [exact I|]. apply report_spec in R. rewrite R. cbn. auto.
  Qed.
  Lemma with_terms_fst l : map fst (with_terms l) = filter report_b l.
  Proof.
    induction l as [|r l IH]; cbn; [reflexivity|]. unfold report_b at 1. destruct (row_term r); cbn; [now rewrite <- IH|exact IH].
  Qed.

  Lemma csv_plain l verbose fp dim : l <> [] -> fp_print_terms fp = false ->
    (forall r, In r l -> clean (row_file r) /\ clean (row_name r)) ->
    exists text records, print_changes_csv dbg l verbose fp dim = ([], Ok text) /\
      csv_holds text (["File"; "Extrinsic"; "Old"; "New"; "Change Percent"]%string :: records) /\
      Forall2 (record_of fp dim) (filter report_b l) records /\
      Forall (fun r => List.length r = 5%nat) records.
  Proof.
    intros N T C. destruct l as [|r0 l0]; [congruence|]. set (l := r0 :: l0) in *.
    set (rec := fun x : row * term_change => [row_file (fst x); row_name (fst x); fmt_opt_value dim (tc_old_v (snd x)); fmt_opt_value dim (tc_new_v (snd x));
      color_percent (tc_percent (snd x)) (tc_change (snd x)) (fp_no_color fp)]).
    exists (String.concat "" (csv_header fp :: flat_map (fun p => match row_term p with Some t => [csv_row dbg fp dim p t] | None => [] end) l)),
      (map rec (with_terms l)).
    split; [reflexivity|].
    assert (K : forall x, In x (with_terms l) -> Forall clean (rec x)).
    { intros [r c] I. apply with_terms_in in I. destruct I as [I _]. destruct (C _ I) as [A B].
      unfold rec; cbn [fst snd]; repeat first [apply Forall_cons|apply Forall_nil]; try exact A; try exact B; try apply fmt_opt_value_clean; apply color_clean. }
    assert (L : forall x, csv_line fp dim (fst x) (snd x) = String.concat "," (rec x)).
    { intros x. unfold csv_line. rewrite T. reflexivity. }
    split; [|split].
    - rewrite header_line, csv_lines.
      change (append ?h (String newline "") :: map ?f ?m) with (map f (h :: m)). apply csv_intro.
      + constructor.
        * unfold header_fields. rewrite T. apply (chars_without newline (fun c => negb (Ascii.eqb c newline))); reflexivity.
        * apply Forall_forall. intros s Hs. apply in_map_iff in Hs. destruct Hs as (x & <- & I). rewrite L. apply K in I.
          unfold rec in *. repeat match goal with H : Forall _ (_ :: _) |- _ => inversion H; clear H; subst end.
          cbn [String.concat]. rewrite !FilesP.without_app. cbn. repeat split; try discriminate; match goal with H : clean ?x |- without _ ?x => apply H end.
      + constructor.
        * apply pieces_intro; [discriminate| |unfold header_fields; rewrite T; reflexivity]. repeat constructor; discriminate.
        * assert (K2 : forall x, In x (with_terms l) -> pieces "," (csv_line fp dim (fst x) (snd x)) (rec x)).
          { intros x I. rewrite L. apply pieces_intro; [discriminate| |reflexivity]. eapply Forall_impl; [|exact (K _ I)]. intros s H. apply H. }
          clear K L. induction (with_terms l) as [|x xs IH]; constructor; [apply K2; cbn; auto|]. apply IH. intros; apply K2; cbn; auto.
    - rewrite <- with_terms_fst. assert (R : forall x, In x (with_terms l) -> record_of fp dim (fst x) (rec x)).
      { intros [r c] I. apply with_terms_in in I. apply record_change; [apply I|now apply shown_value_spec|now apply shown_value_spec]. }
      clear -R. induction (with_terms l) as [|x xs IH]; constructor; [apply R; cbn; auto|]. apply IH. intros; apply R; cbn; auto.
    - apply Forall_forall. intros x Hx. apply in_map_iff in Hx. destruct Hx as (y & <- & _). reflexivity.
  Qed.

  Lemma csv_terms l verbose fp dim : l <> [] -> fp_print_terms fp = true ->
    (forall r, In r l -> clean (row_file r) /\ clean (row_name r)) ->
    (forall r c, In r l -> reports r c -> clean_terms c /\ without newline (dbg (tc_scope c))) ->
    exists text header records, print_changes_csv dbg l verbose fp dim = ([], Ok text) /\
      csv_holds text (header :: records) /\ List.length header = 8%nat /\
      List.length records = List.length (filter report_b l) /\ Forall (fun r => List.length r = 7%nat) records.
  Proof.
    intros N T C D. destruct l as [|r0 l0]; [congruence|]. set (l := r0 :: l0) in *.
    set (rec := fun x : row * term_change => [row_file (fst x); row_name (fst x); fmt_opt_value dim (tc_old_v (snd x)); fmt_opt_value dim (tc_new_v (snd x));
      append (color_percent (tc_percent (snd x)) (tc_change (snd x)) (fp_no_color fp)) (fmt_opt_term (tc_old (snd x)));
      fmt_opt_term (tc_new (snd x)); replace_char "," " " (dbg (tc_scope (snd x)))]).
    exists (String.concat "" (csv_header fp :: flat_map (fun p => match row_term p with Some t => [csv_row dbg fp dim p t] | None => [] end) l)),
      (header_fields fp), (map rec (with_terms l)).
    split; [reflexivity|].
    assert (K : forall x, In x (with_terms l) -> Forall clean (rec x)).
    { intros [r c] I. apply with_terms_in in I. destruct I as [I R]. destruct (C _ I) as [A B]. destruct (D _ _ I R) as [Dt Dn].
      unfold rec; cbn [fst snd]; repeat first [apply Forall_cons|apply Forall_nil]; try exact A; try exact B; try apply fmt_opt_value_clean;
        try (apply clean_app; split; [apply color_clean|]); try (apply term_clean; intros t E; apply Dt; auto).
      split; [apply (replace_without newline)|apply (replace_without newline); [exact Dn|discriminate]]. }
    assert (L : forall x, csv_line fp dim (fst x) (snd x) = String.concat "," (rec x)).
    { intros x. unfold csv_line. rewrite T. reflexivity. }
    split; [|split; [|split]].
    - rewrite header_line, csv_lines.
      change (append ?h (String newline "") :: map ?f ?m) with (map f (h :: m)). apply csv_intro.
      + constructor.
        * unfold header_fields. rewrite T. apply (chars_without newline (fun c => negb (Ascii.eqb c newline))); reflexivity.
        * apply Forall_forall. intros s Hs. apply in_map_iff in Hs. destruct Hs as (x & <- & I). rewrite L. apply K in I.
          unfold rec in *. repeat match goal with H : Forall _ (_ :: _) |- _ => inversion H; clear H; subst end.
          cbn [String.concat]. rewrite !FilesP.without_app. cbn. repeat split; try discriminate; try match goal with H : clean ?x |- without _ ?x => apply H end.
          -- match goal with H : clean (append ?a ?b) |- without _ ?a => apply clean_app in H; apply H end.
          -- match goal with H : clean (append ?a ?b) |- without _ ?b => apply clean_app in H; apply H end.
      + constructor.
        * apply pieces_intro; [discriminate| |unfold header_fields; rewrite T; reflexivity]. unfold header_fields. rewrite T. repeat constructor; discriminate.
        * assert (K2 : forall x, In x (with_terms l) -> pieces "," (csv_line fp dim (fst x) (snd x)) (rec x)).
          { intros x I. rewrite L. apply pieces_intro; [discriminate| |reflexivity]. eapply Forall_impl; [|exact (K _ I)]. intros s H. apply H. }
          clear K L. induction (with_terms l) as [|x xs IH]; constructor; [apply K2; cbn; auto|]. apply IH. intros; apply K2; cbn; auto.
    - unfold header_fields. now rewrite T.
    - rewrite map_length, <- with_terms_fst, map_length. reflexivity.
    - apply Forall_forall. intros x Hx. apply in_map_iff in Hx. destruct Hx as (y & <- & _). reflexivity.
  Qed.
End Csv.

(** ** The whole output *)
Section Show.
  Context (dbg : sscope -> string) (rxr : string -> option (string -> option string)) (render : bool -> list string -> list (list string) -> string).

  Lemma header_titles fp : human_header fp = titles (fp_print_terms fp).
  Proof. unfold human_header. now destruct (fp_print_terms fp). Qed.
  Lemma show_human diff filt verbose fp dim out res md rows :
    is_double (f_threshold filt) -> typed_rows rows -> diff = Ok rows ->
    (fp_format fp = Human /\ md = false \/ fp_format fp = Markdown /\ md = true) ->
    show dbg rxr render diff filt verbose fp dim (out, res) ->
    exists kept shown, selects (relevant filt) rows kept /\ Permutation kept shown /\ StronglySorted worst_first shown /\
      (kept = [] -> out = no_changes verbose ++ [""%string] /\ res = Ok tt) /\
      (kept <> [] ->
        (exists cells, Forall2 (cells_of dbg rxr fp dim) shown cells /\ out = [render md (titles (fp_print_terms fp)) cells] /\ res = Ok tt) \/
        ((forall cells, ~ Forall2 (cells_of dbg rxr fp dim) shown cells) /\ out = [] /\ exists w, res = Panic w)).
  Proof.
    rewrite <- header_titles.
    intros Dt Dr E F H. subst diff. inversion H as [rows' s E' S H1|e E' Eq|w E' Eq|E' Eq]; try discriminate. injection E' as <-.
    destruct (printed_sorted _ _ S) as [P W]. exists (filter_changes rows filt), (printed (rev s)).
    split; [now apply RowsP.filter_lemma|]. split; [exact P|]. split; [exact W|].
    assert (Nil : filter_changes rows filt = [] <-> rev s = []).
    { destruct (RowsP.sort_lemma _ _ S) as (Ps & _ & _). split; intros K.
      - rewrite K in Ps. apply Permutation_nil in Ps. now rewrite Ps.
      - assert (s = []) by (rewrite <- (rev_involutive s), K; reflexivity). subst s. apply Permutation_sym, Permutation_nil in Ps. exact Ps. }
    unfold print_changes in H1. assert (G : match fp_format fp with
      | Human => print_changes_human dbg rxr render (rev s) verbose fp dim false
      | Markdown => print_changes_human dbg rxr render (rev s) verbose fp dim true
      | CSV => print_changes_csv dbg (rev s) verbose fp dim
      | _ => ([], Err "Unsupported output format"%string)
      end = print_changes_human dbg rxr render (rev s) verbose fp dim md).
    { destruct F as [[-> ->]|[-> ->]]; reflexivity. }
    rewrite G in H1. clear G. unfold print_changes_human in H1. split; intros K.
    - apply Nil in K. rewrite K in H1. injection H1 as <- <-. auto.
    - destruct (rev s) as [|r0 l0] eqn:Er; [elim K; now apply Nil|]. rewrite <- Er in *. clear K Nil.
      destruct (human_fails dbg rxr (rev s) fp dim) as [[cs Hc]|[w Hw]].
      + left. exists cs. rewrite Hc in H1. cbn in H1. injection H1 as <- <-. split; [now apply human_spec|auto].
      + right. rewrite Hw in H1. cbn in H1. injection H1 as <- <-. split; [|eauto].
        intros cs Hc. apply human_spec in Hc. congruence.
  Qed.
  Lemma show_csv diff filt verbose fp dim out res rows :
    is_double (f_threshold filt) -> typed_rows rows -> diff = Ok rows -> fp_format fp = CSV -> fp_print_terms fp = false ->
    (forall r, In r rows -> clean (row_file r) /\ clean (row_name r)) ->
    show dbg rxr render diff filt verbose fp dim (out, res) ->
    res = Ok tt /\
    exists kept failures changes, selects (relevant filt) rows kept /\ Permutation kept (failures ++ changes) /\
      StronglySorted worst_first (failures ++ changes) /\ Forall is_failed failures /\ Forall (fun r => exists c, reports r c) changes /\
      (kept = [] -> out = no_changes verbose ++ [""%string]) /\
      (kept <> [] -> exists text records, out = [text] /\
        csv_holds text (["File"; "Extrinsic"; "Old"; "New"; "Change Percent"]%string :: records) /\ Forall2 (record_of fp dim) changes records /\
        Forall (fun r => List.length r = 5%nat) records).
  Proof.
    intros Dt Dr E F T Cl H. subst diff. inversion H as [rows' s E' S H1|e E' Eq|w E' Eq|E' Eq]; try discriminate. injection E' as <-.
    destruct (printed_sorted _ _ S) as [P W].
    assert (Nil : filter_changes rows filt = [] <-> rev s = []).
    { destruct (RowsP.sort_lemma _ _ S) as (Ps & _ & _). split; intros K.
      - rewrite K in Ps. apply Permutation_nil in Ps. now rewrite Ps.
      - assert (s = []) by (rewrite <- (rev_involutive s), K; reflexivity). subst s. apply Permutation_sym, Permutation_nil in Ps. exact Ps. }
    assert (Sel : selects (relevant filt) rows (filter_changes rows filt)) by now apply RowsP.filter_lemma.
    assert (Cl' : forall r, In r (rev s) -> clean (row_file r) /\ clean (row_name r)).
    { intros r I. apply Cl. destruct (RowsP.sort_lemma _ _ S) as (Ps & _ & _). rewrite <- in_rev in I.
      apply Permutation_sym in Ps. apply (Permutation_in _ Ps) in I. unfold filter_changes in I. now apply filter_In in I. }
    unfold print_changes in H1. rewrite F in H1.
    assert (Fa : Forall is_failed (filter failed_b (rev s))).
    { apply Forall_forall. intros r I. apply filter_In in I. now apply failed_spec. }
    assert (Re : Forall (fun r => exists c, reports r c) (filter report_b (rev s))).
    { apply Forall_forall. intros r I. apply filter_In in I. now apply report_b_spec. }
    destruct (rev s) as [|r0 l0] eqn:Er.
    - cbn in H1. injection H1 as <- <-. split; [reflexivity|]. exists (filter_changes rows filt), [], [].
      split; [exact Sel|]. split; [rewrite (proj2 Nil eq_refl); constructor|]. split; [constructor|]. split; [constructor|]. split; [constructor|].
      split; [reflexivity|]. intros K. elim K. now apply Nil.
    - rewrite <- Er in *. destruct (csv_plain dbg (rev s) verbose fp dim) as (text & records & E1 & E2 & E3 & E4); auto.
      { rewrite Er. discriminate. }
      rewrite E1 in H1. cbn in H1. injection H1 as <- <-. split; [reflexivity|].
      exists (filter_changes rows filt), (filter failed_b (rev s)), (filter report_b (rev s)).
      split; [exact Sel|]. split; [exact P|]. split; [exact W|]. split; [exact Fa|]. split; [exact Re|]. split.
      + intros K. apply Nil in K. rewrite Er in K. discriminate.
      + intros _. exists text, records. auto.
  Qed.
  Lemma show_unsupported diff filt verbose fp dim out res : (fp_format fp = JSON \/ fp_format fp = BriefHuman) ->
    show dbg rxr render diff filt verbose fp dim (out, res) -> out = [] /\ is_ok res = false.
  Proof.
    intros F H. inversion H as [rows' s E' S H1|e E' Eq|w E' Eq|E' Eq]; subst; auto.
    unfold print_changes in H1. destruct F as [F|F]; rewrite F in H1; injection H1 as <- <-; auto.
  Qed.
  Lemma show_failed diff filt verbose fp dim out res : is_ok diff = false -> show dbg rxr render diff filt verbose fp dim (out, res) ->
    out = [] /\ match diff with
                | Ok _ => False
                | Err e => res = Err e
                | Panic w => res = Panic w
                | Diverge => res = Diverge
                end.
  Proof. intros F H. inversion H; subst; try discriminate; auto. Qed.
  Lemma show_exists diff filt verbose fp dim : exists r, show dbg rxr render diff filt verbose fp dim r.
  Proof.
    destruct diff as [rows|e|w|].
    - eexists. eapply show_rows; [reflexivity|]. apply RowsP.sort_insert_lemma.
    - eexists. now apply show_err.
    - eexists. now apply show_panic.
    - eexists. now apply show_diverge.
  Qed.
End Show.

(** ** Colours *)
Lemma zero_double : is_double zero_f64.
Proof. reflexivity. Qed.
Lemma negative_spec p : is_double p -> negative p <-> f64_lt p f64_zero = true.
Proof. intros D. apply (RowsP.below_spec p zero_f64 D zero_double). Qed.
Lemma positive_spec p : is_double p -> positive p <-> f64_gt p f64_zero = true.
Proof. intros D. apply (RowsP.below_spec zero_f64 p zero_double D). Qed.
Lemma not_both p : is_double p -> negative p -> positive p -> False.
Proof. intros D [A _] [_ B]. tauto. Qed.
Lemma neutral_spec p : is_double p -> ~ negative p -> ~ positive p -> p = S754_nan \/ has_value p 0.
Proof.
  intros D N P. destruct p as [s|[]| |s m e]; [right; reflexivity|elim N; split; cbn; tauto|elim P; split; cbn; tauto|left; reflexivity|].
  exfalso. assert (H : exists r, has_value (S754_finite s m e) r) by (eexists; reflexivity). destruct H as [r H].
  destruct (Rtotal_order r 0) as [L|[L|L]].
  - apply N. split; [exists r, 0%R; repeat split; auto; lra|]. intros (a & b & Ha & Hb & Lab). cbn in Ha. subst a.
    rewrite (PercentP.has_value_fun _ _ _ H Hb) in L. lra.
  - subst r. cbn in H. assert (K : (0 < IZR (Zpos m) * powerRZ 2 e)%R).
    { apply Rmult_lt_0_compat; [now apply IZR_lt|]. apply powerRZ_lt. lra. }
    destruct s; lra.
  - apply P. split; [exists 0%R, r; repeat split; auto; lra|]. intros (a & b & Ha & Hb & Lab). cbn in Hb. subst b.
    rewrite (PercentP.has_value_fun _ _ _ H Ha) in L. lra.
Qed.

(** The text behind the colour. *)
Definition percent_text (p : f64) : string := fmt_plus5_2 p.
Lemma console_colours p : is_double p ->
  (negative p <-> painted "32" (fmt_plus5_2 p) (color_percent p Changed false)) /\
  (positive p <-> painted "31" (fmt_plus5_2 p) (color_percent p Changed false)) /\
  ((p = S754_nan \/ has_value p 0) <-> painted "37" (fmt_plus5_2 p) (color_percent p Changed false)).
Proof.
  intros D. unfold color_percent, maybe_color. 
  assert (Z : (p = S754_nan \/ has_value p 0) -> ~ negative p /\ ~ positive p).
  { intros [->|V]; [split; intros [A _]; exact A|]. split; intros [A B]; apply B.
    - destruct p as [s|[]| |s m e]; cbn in V; try contradiction; exists 0%R, 0%R; repeat split; auto; lra.
    - destruct p as [s|[]| |s m e]; cbn in V; try contradiction; exists 0%R, 0%R; repeat split; auto; lra. }
  pose proof (negative_spec p D) as N. pose proof (positive_spec p D) as P. pose proof (neutral_spec p D) as O. pose proof (not_both p D) as B.
  destruct (f64_lt p f64_zero) eqn:E1; [|destruct (f64_gt p f64_zero) eqn:E2].
  - assert (negative p) by now apply N. split; [split; [reflexivity|auto]|]. split; (split; [intros K|discriminate]).
    + elim (B H K).
    + now destruct (Z K).
  - assert (positive p) by now apply P. split; [split; [|discriminate]|].
    + intros K. elim (B K H).
    + split; [split; [reflexivity|auto]|]. split; [intros K|discriminate]. now destruct (Z K).
  - assert (K1 : ~ negative p) by (intros K; apply N in K; discriminate).
    assert (K2 : ~ positive p) by (intros K; apply P in K; discriminate).
    split; [split; [intros K; now elim K1|discriminate]|]. split; [split; [intros K; now elim K2|discriminate]|].
    split; [reflexivity|]. intros _. auto.
Qed.

Lemma pad5_after s : after_blanks s (pad5 s).
Proof. unfold pad5. destruct (5 - String.length s)%nat as [|[|[|[|[|?]]]]]; repeat constructor. Qed.
Lemma sign_lemma p : is_double p ->
  (negative p -> exists t, after_blanks (String "-" t) (fmt_plus5_2 p)) /\
  (positive p -> exists t, after_blanks (String "+" t) (fmt_plus5_2 p)) /\
  (p = S754_nan -> after_blanks "NaN" (fmt_plus5_2 p)).
Proof.
  intros D. split; [|split].
  - intros N. destruct p as [s|[]| |[] m e].
    + destruct N as [_ N]. elim N. exists 0%R, 0%R. repeat split; auto; lra.
    + eexists. apply pad5_after.
    + destruct N as [N _]. elim N.
    + destruct N as [[] _].
    + eexists. unfold fmt_plus5_2. apply pad5_after.
    + destruct N as [(a & b & Ha & Hb & L) _]. cbn in Ha, Hb. subst a b.
      assert (K : (0 < IZR (Zpos m) * powerRZ 2 e)%R).
      { apply Rmult_lt_0_compat; [now apply IZR_lt|]. apply powerRZ_lt. lra. }
      lra.
  - intros N. destruct p as [s|[]| |[] m e].
    + destruct N as [_ N]. elim N. exists 0%R, 0%R. repeat split; auto; lra.
    + destruct N as [N _]. elim N.
    + eexists. apply pad5_after.
    + destruct N as [N _]. elim N.
    + destruct N as [(a & b & Ha & Hb & L) _]. cbn in Ha, Hb. subst a b.
      assert (K : (0 < IZR (Zpos m) * powerRZ 2 e)%R).
      { apply Rmult_lt_0_compat; [now apply IZR_lt|]. apply powerRZ_lt. lra. }
      lra.
    + eexists. unfold fmt_plus5_2. apply pad5_after.
  - intros ->. apply (pad5_after "NaN").
Qed.

(** ** Names *)
Ltac by_name := repeat match goal with |- context [String.eqb ?a ?b] => destruct (String.eqb_spec a b); [subst; cbn; intuition (eauto; congruence)|] end.
Lemma method_names s : (exists v, method_of_str s = Ok v) <-> In s method_variants.
Proof. unfold method_of_str. split; [by_name; intros [v H]; discriminate|]. intros H. cbn in H. intuition (subst; cbn; eauto). Qed.
Lemma method_reject s : ~ In s method_variants -> exists e, method_of_str s = Err e.
Proof. unfold method_of_str. intros N. repeat match goal with |- context [String.eqb ?a ?b] => destruct (String.eqb_spec a b); [subst; elim N; cbn; tauto|] end. eauto. Qed.
Lemma method_reflects s v : In (v, s) method_reflect <-> method_of_str s = Ok v.
Proof.
  split.
  - cbn. intuition (match goal with H : (_, _) = (_, _) |- _ => injection H as <- <- end; reflexivity).
  - unfold method_of_str. by_name; try discriminate; intros [= <-]; cbn; tauto.
Qed.
Lemma method_complete v : exists s, method_of_str s = Ok v.
Proof.
  destruct v; (exists "base"%string; reflexivity) || (exists "guess-worst"%string; reflexivity) || (exists "exact-worst"%string; reflexivity)
    || (exists "exact-asymptotic"%string; reflexivity) || (exists "asymptotic"%string; reflexivity).
Qed.

Lemma dimension_names s : (exists v, dimension_of_str s = Ok v) <-> In s dimension_variants \/ s = "weight"%string.
Proof.
  unfold dimension_of_str. split.
  - destruct (String.eqb_spec s "time"); [subst; cbn; tauto|]. destruct (String.eqb_spec s "weight"); [auto|]. cbn [orb].
    destruct (String.eqb_spec s "proof"); [subst; cbn; tauto|]. intros [v H]; discriminate.
  - cbn. intuition (subst; cbn; eauto).
Qed.
Lemma dimension_reflects s v : (In (v, s) dimension_reflect \/ (v, s) = (Time, "weight"%string)) <-> dimension_of_str s = Ok v.
Proof.
  split.
  - cbn. intros [[H|[H|[]]]|H]; [injection H as <- <-; reflexivity|injection H as <- <-; reflexivity|injection H as -> ->; reflexivity].
  - unfold dimension_of_str. destruct (String.eqb_spec s "time"); [subst; intros [= <-]; cbn; tauto|]. destruct (String.eqb_spec s "weight"); [subst; intros [= <-]; auto|]. cbn [orb].
    destruct (String.eqb_spec s "proof"); [subst; intros [= <-]; cbn; tauto|]. discriminate.
Qed.
Lemma dimension_reject s : ~ In s dimension_variants -> s <> "weight"%string -> exists e, dimension_of_str s = Err e.
Proof.
  unfold dimension_of_str. intros N W. destruct (String.eqb_spec s "time"); [subst; elim N; cbn; tauto|].
  destruct (String.eqb_spec s "weight"); [contradiction|]. cbn [orb]. destruct (String.eqb_spec s "proof"); [subst; elim N; cbn; tauto|]. eauto.
Qed.
Lemma change_names s v : change_of_str s = Ok v <-> In (v, s) (combine [Unchanged; Changed; Added; Removed] change_variants).
Proof.
  split.
  - unfold change_of_str. by_name; try discriminate; intros [= <-]; cbn; tauto.
  - cbn. intuition (match goal with H : (_, _) = (_, _) |- _ => injection H as <- <- end; reflexivity).
Qed.
Lemma change_reject s : ~ In s change_variants -> exists e, change_of_str s = Err e.
Proof. unfold change_of_str. intros N. repeat match goal with |- context [String.eqb ?a ?b] => destruct (String.eqb_spec a b); [subst; elim N; cbn; tauto|] end. eauto. Qed.
Lemma format_names s v : format_of_str s = Ok v <-> In (v, s) (combine [Human; BriefHuman; CSV; JSON; Markdown] format_variants).
Proof.
  split.
  - unfold format_of_str. by_name; try discriminate; intros [= <-]; cbn; tauto.
  - cbn. intuition (match goal with H : (_, _) = (_, _) |- _ => injection H as <- <- end; reflexivity).
Qed.
Lemma format_reject s : ~ In s format_variants -> exists e, format_of_str s = Err e.
Proof. unfold format_of_str. intros N. repeat match goal with |- context [String.eqb ?a ?b] => destruct (String.eqb_spec a b); [subst; elim N; cbn; tauto|] end. eauto. Qed.
Lemma stripping_names s v : stripping_of_str s = Ok v <-> In (v, s) (combine [FileName; RepoRelative] stripping_variants).
Proof.
  split.
  - unfold stripping_of_str. by_name; try discriminate; intros [= <-]; cbn; tauto.
  - cbn. intuition (match goal with H : (_, _) = (_, _) |- _ => injection H as <- <- end; reflexivity).
Qed.
Lemma stripping_reject s : ~ In s stripping_variants -> exists e, stripping_of_str s = Err e.
Proof. unfold stripping_of_str. intros N. repeat match goal with |- context [String.eqb ?a ?b] => destruct (String.eqb_spec a b); [subst; elim N; cbn; tauto|] end. eauto. Qed.

(** ** Whole commands *)
Lemma abind_ok {W A B} (a : @act W A) (k : A -> @act W B) w x : fst (fst (abind a k w)) = Ok x -> exists v w', fst (fst (k v w')) = Ok x.
Proof.
  unfold abind. destruct (a w) as [[[v| | |] w1] t1]; cbn; try discriminate. destruct (k v w1) as [[o w2] t2] eqn:E. cbn. intros ->.
  exists v, w1. now rewrite E.
Qed.
Lemma commits_typed {W} git glob disk m ords rx repo old new cps ps filt pat mx (w : W) rows : (forall k, is_order (ords k)) ->
  fst (fst (compare_commits git glob disk m ords rx repo old new cps ps filt pat mx w)) = Ok rows -> typed_rows rows.
Proof.
  intros Ho. unfold compare_commits. destruct (contains _ _); [discriminate|]. intros H.
  do 4 (apply abind_ok in H; destruct H as (? & ? & H)). cbn in H. revert H. apply RowsP.typed_lemma; auto.
Qed.
Lemma files_typed disk m ords rx params ps filt old new rows : (forall k, is_order (ords k)) ->
  (let* olds := if g_ignore_errors ps then try_parse_files disk old else parse_files disk old in
   let* news := if g_ignore_errors ps then try_parse_files disk new else parse_files disk new in
   compare_files m ords rx olds news params filt) = Ok rows -> typed_rows rows.
Proof.
  intros Ho. repeat (match goal with |- bind ?x _ = _ -> _ => destruct x; cbn [bind]; try discriminate end).
  apply RowsP.typed_lemma; auto.
Qed.
Lemma parse_counts disk files l : parse_files disk files = Ok l <-> all_of (parse_file disk) files l.
Proof. apply FilesP.parse_all_ok. Qed.
Lemma parse_command disk files : 
  (forall l, all_of (parse_file disk) files l -> cli_parse_files disk false files =
    ([append "Trying to parse " (append (dec_of_N (N.of_nat (List.length files))) " files...");
      append "Parsed " (append (dec_of_N (N.of_nat (List.length l))) " files successfully")], Ok tt)) /\
  ((forall l, ~ all_of (parse_file disk) files l) -> is_ok (snd (cli_parse_files disk false files)) = false).
Proof.
  split.
  - intros l H. apply parse_counts in H. unfold cli_parse_files. rewrite H. reflexivity.
  - intros N. unfold cli_parse_files. destruct (parse_files disk files) as [l| | |] eqn:E; try reflexivity.
    elim (N l). now apply parse_counts.
Qed.
Lemma kind_colours p : painted "31" "Added" (color_percent p Added false) /\ painted "32" "Removed" (color_percent p Removed false) /\
  color_percent p Unchanged false = "Unchanged"%string /\
  color_percent p Changed true = fmt_plus5_2 p /\ color_percent p Added true = "Added"%string /\ color_percent p Removed true = "Removed"%string /\
  color_percent p Unchanged true = "Unchanged"%string.
Proof. unfold color_percent, maybe_color. repeat split. destruct (f64_lt _ _); [reflexivity|]. destruct (f64_gt _ _); reflexivity. Qed.
Lemma selects_report l : selects (fun r => exists c, reports r c) l (filter report_b l).
Proof.
  induction l as [|r l IH]; cbn; [constructor|]. destruct (report_b r) eqn:E.
  - constructor; [now apply report_b_spec|exact IH].
  - constructor; [|exact IH]. intros K. apply report_b_spec in K. congruence.
Qed.
Lemma csv_terms_lemma dbg l verbose fp dim : l <> [] -> fp_print_terms fp = true ->
  (forall r, In r l -> clean (row_file r) /\ clean (row_name r)) ->
  (forall r c, In r l -> reports r c -> clean_terms c /\ without newline (dbg (tc_scope c))) ->
  exists text header records changes, print_changes_csv dbg l verbose fp dim = ([], Ok text) /\
    csv_holds text (header :: records) /\ List.length header = 8%nat /\ selects (fun r => exists c, reports r c) l changes /\
    List.length records = List.length changes /\ Forall (fun r => List.length r = 7%nat) records.
Proof.
  intros N T C D. destruct (csv_terms dbg l verbose fp dim N T C D) as (text & header & records & H1 & H2 & H3 & H4 & H5).
  exists text, header, records, (filter report_b l). split; [exact H1|]. split; [exact H2|]. split; [exact H3|]. split; [apply selects_report|]. auto.
Qed.
Lemma method_all_names s : ((exists v, method_of_str s = Ok v) <-> In s method_variants) /\
  (~ In s method_variants -> exists e, method_of_str s = Err e).
Proof. split; [apply method_names|apply method_reject]. Qed.
Lemma dimension_all_names s : ((exists v, dimension_of_str s = Ok v) <-> In s dimension_variants \/ s = "weight"%string) /\
  (~ In s dimension_variants -> s <> "weight"%string -> exists e, dimension_of_str s = Err e).
Proof. split; [apply dimension_names|apply dimension_reject]. Qed.
Ltac accept_iff names rej := split; [apply names|]; split; [|apply rej]; split; 
  [cbn; intuition (subst; reflexivity)|].
Lemma change_all_names s v : (change_of_str s = Ok v <-> In (v, s) [(Unchanged, "unchanged"); (Changed, "changed"); (Added, "added"); (Removed, "removed")]%string) /\
  (In s change_variants <-> is_ok (change_of_str s) = true) /\ (~ In s change_variants -> exists e, change_of_str s = Err e).
Proof.
  accept_iff change_names change_reject. destruct (change_of_str s) as [w| | |] eqn:E; try discriminate. intros _.
  apply change_names in E. now apply in_combine_r in E.
Qed.
Lemma format_all_names s v : (format_of_str s = Ok v <->
    In (v, s) [(Human, "human"); (BriefHuman, "brief-human"); (CSV, "csv"); (JSON, "json"); (Markdown, "markdown")]%string) /\
  (In s format_variants <-> is_ok (format_of_str s) = true) /\ (~ In s format_variants -> exists e, format_of_str s = Err e).
Proof.
  accept_iff format_names format_reject. destruct (format_of_str s) as [w| | |] eqn:E; try discriminate. intros _.
  apply format_names in E. now apply in_combine_r in E.
Qed.
Lemma stripping_all_names s v : (stripping_of_str s = Ok v <-> In (v, s) [(FileName, "file_name"); (RepoRelative, "repo_relative")]%string) /\
  (In s stripping_variants <-> is_ok (stripping_of_str s) = true) /\ (~ In s stripping_variants -> exists e, stripping_of_str s = Err e).
Proof.
  accept_iff stripping_names stripping_reject. destruct (stripping_of_str s) as [w| | |] eqn:E; try discriminate. intros _.
  apply stripping_names in E. now apply in_combine_r in E.
Qed.
