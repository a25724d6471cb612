(** Proofs about what the command line prints. *)
From Coq Require Import List String Ascii NArith ZArith Reals Lra Lia Bool Permutation Sorted Floats.SpecFloat.
From Flocq Require Import Core.
From Verif Require Import Base ScopeM TermM SpecTerm SpecChrom F64 SpecF64 PercentP CompareM SpecCompare RowsM SpecRows RowsP
  FmtM SpecFmt FmtP SynM AttrM ParseM SpecParse SpecAttr FilesM SpecFiles GitM SpecGit CliM SpecCli SpecEnd SpecText SpecTmpl SpecShow ShowP ShowP2 SpecPrint.
From Verif Require MilsP EndP EndP2 EndP3 CliP DecP FilesP FmtP GitP GitP2 TmplP2 TmplP3 TmplP5.
Import ListNotations.
Local Open Scope string_scope.
Local Open Scope R_scope.

(** ** Cells *)
Lemma length_append a b : String.length (a ++ b) = (String.length a + String.length b)%nat.
Proof. induction a; cbn; auto. Qed.
Lemma pad5_long s : (5 <= String.length s)%nat -> pad5 s = s.
Proof. intros H. unfold pad5. now replace (5 - String.length s)%nat with 0%nat by lia. Qed.
Lemma dec_nonempty n : (1 <= String.length (dec_of_N n))%nat.
Proof. pose proof (DecP.dec_nonempty n) as R. destruct (dec_of_N n); [congruence|cbn; lia]. Qed.
Lemma dec_2_long q : (4 <= String.length (dec_2 q))%nat.
Proof. unfold dec_2. rewrite !length_append. pose proof (dec_nonempty (q / 100)). cbn [String.length]. lia. Qed.
Lemma plus_pos p r : has_value p r -> 0 < r -> fmt_plus5_2 p = "+" ++ fmt_2 (f64_abs p).
Proof.
  intros V P. destruct p as [s|[]| |s m e]; cbn in V; try contradiction; [lra|].
  assert (s = false).
  { destruct s; auto. exfalso. subst r. assert (0 < IZR (Zpos m)) by (apply IZR_lt; lia). assert (0 < powerRZ 2 e) by (apply powerRZ_lt; lra). nra. }
  subst s. unfold fmt_plus5_2. rewrite pad5_long; [reflexivity|]. rewrite length_append. pose proof (dec_2_long (hundredths m e)). cbn [String.length]. lia.
Qed.
Lemma plus_neg p r : has_value p r -> r < 0 -> fmt_plus5_2 p = "-" ++ fmt_2 (f64_abs p).
Proof.
  intros V P. destruct p as [s|[]| |s m e]; cbn in V; try contradiction; [lra|].
  assert (s = true).
  { destruct s; auto. exfalso. subst r. assert (0 < IZR (Zpos m)) by (apply IZR_lt; lia). assert (0 < powerRZ 2 e) by (apply powerRZ_lt; lra). nra. }
  subst s. unfold fmt_plus5_2. rewrite pad5_long; [reflexivity|]. rewrite length_append. pose proof (dec_2_long (hundredths m e)). cbn [String.length]. lia.
Qed.
Lemma plain_percent p nc : color_percent p Changed nc = if nc then fmt_plus5_2 p else color_percent p Changed false.
Proof. destruct nc; [|reflexivity]. cbn. unfold maybe_color. now destruct (f64_lt p f64_zero), (f64_gt p f64_zero). Qed.
Lemma red_ink p nc : is_double p -> SpecCli.positive p -> ink nc "31" (fmt_plus5_2 p) (color_percent p Changed nc).
Proof. intros D P. rewrite plain_percent. destruct nc; [reflexivity|]. cbn [ink]. now apply CliP.console_colours. Qed.
Lemma green_ink p nc : is_double p -> SpecCli.negative p -> ink nc "32" (fmt_plus5_2 p) (color_percent p Changed nc).
Proof. intros D P. rewrite plain_percent. destruct nc; [reflexivity|]. cbn [ink]. now apply CliP.console_colours. Qed.
Lemma white_ink p nc : is_double p -> p = S754_nan \/ has_value p 0 -> ink nc "37" (fmt_plus5_2 p) (color_percent p Changed nc).
Proof. intros D P. rewrite plain_percent. destruct nc; [reflexivity|]. cbn [ink]. now apply CliP.console_colours. Qed.
Lemma console_shown nc v w : (v < u128_bound)%N -> (w < u128_bound)%N -> console_percent nc v w (color_percent (percent v w) Changed nc).
Proof.
  intros V W. destruct (N.eq_dec v 0) as [->|V0]; [destruct (N.eq_dec w 0) as [->|W0]|].
  - left. split; [auto|]. rewrite percent_zero_zero. apply (white_ink S754_nan); [reflexivity|now left].
  - right. left. split; [lia|]. rewrite percent_zero_pos by (auto; lia). destruct nc; reflexivity.
  - right. right. split; [lia|]. assert (V1 : (0 < v)%N) by lia. pose proof (EndP.percent_close v w (conj V1 V) W) as (r & Hr & B).
    assert (D : is_double (percent v w)) by apply percent_double. pose proof (EndP.slack_pos v w V1) as SP.
    destruct (percent_sign_lemma v w V W V1) as [S1 S2].
    destruct (Rtotal_order r 0) as [L|[->|G]].
    + left. destruct (fmt_neg _ _ D Hr L) as (q & Q & E). exists (fmt_2 (f64_abs (percent v w))), q. split; [exact Q|]. right.
      split; [|split; [rewrite <- (plus_neg _ r); auto; apply green_ink; auto; now apply (negative_value _ r)|]].
      * destruct (N.le_gt_cases v w) as [K|K]; [|exact K]. destruct (S1 K) as (r' & H' & P). rewrite (has_value_fun _ _ _ Hr H') in L. lra.
      * apply q_near in E. apply Rabs_le_inv in E. apply Rabs_le. lra.
    + right. split; [|apply Rabs_le; lra].
      pose proof (white_ink _ nc D (or_intror Hr)) as K. destruct (percent v w) as [s|[]| |s m e]; cbn in Hr; try contradiction.
      * destruct s; [right|left]; exact K.
      * exfalso. assert (0 < IZR (Zpos m)) by (apply IZR_lt; lia). assert (0 < powerRZ 2 e) by (apply powerRZ_lt; lra). destruct s; nra.
    + left. destruct (fmt_pos _ _ D Hr G) as (q & Q & E). exists (fmt_2 (f64_abs (percent v w))), q. split; [exact Q|]. left.
      split; [|split; [rewrite <- (plus_pos _ r); auto; apply red_ink; auto; now apply (positive_value _ r)|]].
      * destruct (N.le_gt_cases w v) as [K|K]; [|exact K]. destruct (S2 K) as (r' & H' & P). rewrite (has_value_fun _ _ _ Hr H') in G. lra.
      * apply q_near in E. apply Rabs_le_inv in E. apply Rabs_le. lra.
Qed.
Lemma q_hundredths q x t h : Z.of_N q = ZnearestE (100 * x) -> t <= x -> RN h / 100 <= t -> (h <= q)%N.
Proof.
  intros E H L. unfold RN in *. assert (K : (Z.of_N h <= ZnearestE (100 * x))%Z) by (apply nearest_mono; lra). lia.
Qed.

Lemma selects_fun {A} (P : A -> Prop) l a b : selects P l a -> selects P l b -> a = b.
Proof.
  intros H. revert b. induction H as [|x l a Px S IH|x l a Px S IH]; intros b K; inversion K; subst; try contradiction; auto. f_equal. auto.
Qed.

Lemma nodup_right {A} (l l' : list A) : NoDup (app l l') -> NoDup l'.
Proof. induction l as [|x l IH]; cbn; auto. intros H. inversion H; auto. Qed.
Lemma nodup_filter {A B} (g : A -> B) p l : NoDup (map g l) -> NoDup (map g (filter p l)).
Proof.
  induction l as [|x l IH]; cbn; [constructor|]. intros H. inversion H as [|? ? N1 N2]; subst. destruct (p x); cbn; auto. constructor; auto.
  intros I. apply N1. apply in_map_iff in I. destruct I as (y & <- & I). apply filter_In in I. now apply in_map.
Qed.
Lemma forall2_length {A B} (P : A -> B -> Prop) l l' : Forall2 P l l' -> List.length l = List.length l'.
Proof. induction 1; cbn; auto. Qed.

(** ** Records *)
Section Records.
  Context (dbg : sscope -> string) (rxr : string -> option (string -> option string)) (render : bool -> list string -> list (list string) -> string).
  Inductive record_for (fp : format_params) (dim : dimension) (r : row) : list string -> Prop :=
  | rf_failed rec : is_failed r -> error_record rxr fp (row_key r) rec -> record_for fp dim r rec
  | rf_change c path terms : reports r c -> path_cell rxr fp (row_file r) path -> List.length terms = (if fp_print_terms fp then 3%nat else 0%nat) ->
      record_for fp dim r (path :: row_name r :: fmt_opt_value dim (tc_old_v c) :: fmt_opt_value dim (tc_new_v c) ::
        color_percent (tc_percent c) (tc_change c) (fp_no_color fp) :: terms).

  Lemma cells_record fp dim r cells : fp_format fp <> CSV -> cells_of dbg rxr fp dim r cells -> record_for fp dim r cells.
  Proof.
    intros F C. assert (P : forall a b, shown_path rxr fp a b -> path_cell rxr fp a b) by (intros a b S; unfold path_cell; destruct (fp_format fp); auto; congruence).
    destruct C as [path Fa S|c path o n Rp S So Sn T|c path o n to tn Rp S So Sn T _ _].
    - apply rf_failed; [exact Fa|]. split; [exact F|]. exists path. split; [reflexivity|]. now apply P.
    - apply CliP.shown_value_spec in So, Sn. subst o n. apply rf_change; [exact Rp|now apply P|now rewrite T].
    - apply CliP.shown_value_spec in So, Sn. subst o n. apply (rf_change _ _ _ c path [_; _; _]); [exact Rp|now apply P|now rewrite T].
  Qed.
  Lemma map_combine {A B} (l : list A) (l' : list B) : List.length l = List.length l' -> map fst (combine l l') = l /\ map snd (combine l l') = l'.
  Proof. revert l'. induction l as [|a l IH]; intros [|b l']; cbn; try discriminate; auto. intros [= H]. destruct (IH l' H) as [-> ->]. auto. Qed.
  Lemma table_lemma rows f verbose fp dim out : is_double (f_threshold f) -> typed_rows rows -> printable fp ->
    show dbg rxr render (Ok rows) f verbose fp dim (out, Ok tt) ->
    exists table : list (row * list string), prints render fp verbose out (map snd table) /\
      (exists rest, Permutation (filter_changes rows f) (app rest (map fst table)) /\ forall r, In r rest -> fp_format fp = CSV /\ is_failed r) /\
      Forall (fun x => record_for fp dim (fst x) (snd x)) table.
  Proof.
    intros Dt Ty Pr S.
    assert (Sel : selects (relevant f) rows (filter_changes rows f)) by now apply filter_lemma.
    assert (Hum : forall md, (fp_format fp = Human /\ md = false \/ fp_format fp = Markdown /\ md = true) ->
      exists table : list (row * list string), prints render fp verbose out (map snd table) /\
      (exists rest, Permutation (filter_changes rows f) (app rest (map fst table)) /\ forall r, In r rest -> fp_format fp = CSV /\ is_failed r) /\
      Forall (fun x => record_for fp dim (fst x) (snd x)) table).
    { intros md F. inversion S as [rows' s E' So H1| | |]; try discriminate. injection E' as <-.
      destruct (CliP.show_human dbg rxr render (Ok rows) f verbose fp dim out (Ok tt) md rows Dt Ty eq_refl F S) as (kept & shown & Sl & Pe & _ & K0 & K1).
      assert (kept = filter_changes rows f) by (eapply selects_fun; eauto). subst kept.
      destruct (filter_changes rows f) as [|r0 l0] eqn:Fl.
      - exists []. split; [left; split; [reflexivity|]; now apply K0|]. split; [exists []; split; [constructor|intros r []]|constructor].
      - destruct K1 as [(cells & F2 & E & _)|(_ & _ & w & E)]; [discriminate| |discriminate E].
        destruct (map_combine shown cells (forall2_length _ _ _ F2)) as [M1 M2]. exists (combine shown cells). rewrite M1, M2. split; [|split].
        + right. rewrite <- CliP.header_titles in E. unfold columns. destruct F as [[-> ->]|[-> ->]]; exact E.
        + exists []. split; [exact Pe|intros r []].
        + apply Forall_forall. intros [r c] I. cbn [fst snd]. apply cells_record; [destruct F as [[-> _]|[-> _]]; discriminate|].
          clear -F2 I. induction F2 as [|x y l l' H F2 IH]; [destruct I|]. destruct I as [E|I]; [now injection E as <- <-|auto]. }
    destruct Pr as [F|[F|[F T]]]; [apply (Hum false); auto|apply (Hum true); auto|]. clear Hum.
    inversion S as [rows' s E' So H1| | |]; try discriminate. injection E' as <-. unfold print_changes in H1. rewrite F in H1.
    destruct (RowsP.sort_lemma _ _ So) as (Ps & _ & _).
    set (rec := fun x : row * term_change => (fst x, [row_file (fst x); row_name (fst x); fmt_opt_value dim (tc_old_v (snd x)); fmt_opt_value dim (tc_new_v (snd x));
      color_percent (tc_percent (snd x)) (tc_change (snd x)) (fp_no_color fp)])).
    exists (map rec (CliP.with_terms (rev s))). split; [|split].
    - destruct (rev s) as [|r0 l0] eqn:Er; [left; split; [reflexivity|]; cbn in H1; now injection H1 as <-|]. right. replace (columns fp) with (CliP.header_fields fp) by (unfold columns; now rewrite F). rewrite F.
      cbn [print_changes_csv] in H1. rewrite <- Er in *. apply (f_equal fst) in H1. cbn [fst app] in H1. rewrite <- H1. f_equal. rewrite CliP.header_line, CliP.csv_lines.
      cbn [map]. f_equal. f_equal. rewrite !map_map. apply List.map_ext. intros [r c]. unfold CliP.csv_line. rewrite T. reflexivity.
    - exists (filter CliP.failed_b (rev s)). split.
      + rewrite map_map. cbn [rec fst]. rewrite CliP.with_terms_fst. etransitivity; [exact Ps|]. etransitivity; [apply Permutation_rev|apply CliP.printed_perm].
      + intros r I. split; [exact F|]. apply filter_In in I. now apply CliP.failed_spec.
    - apply Forall_forall. intros x I. apply in_map_iff in I. destruct I as ([r c] & <- & I). apply CliP.with_terms_in in I. destruct I as [_ Rp].
      unfold rec. cbn [fst snd]. apply (rf_change _ _ _ c _ []); [exact Rp|unfold path_cell; now rewrite F|now rewrite T].
  Qed.
End Records.

(** ** Tables *)
Section Table.
  Context (dbg : sscope -> string) (rxr : string -> option (string -> option string)) (render : bool -> list string -> list (list string) -> string).
  Variables (m : mode) (ords : string * string -> list string -> list string) (rx : regex_engine) (olds news : list cextrinsic).
  Variables (meth : CompareM.method) (d : dimension) (f : fparams) (rows : list row) (z : Z) (fp : format_params) (verbose : bool) (out : list string).
  Variables (old new : string * string -> bench -> Prop).
  Hypotheses (Hords : forall k, is_order (ords k)) (M : meth = ExactWorst \/ meth = GuessWorst)
    (E : compare_files m ords rx olds news {| p_method := meth; p_unit := d |} f = Ok rows) (HT : threshold_mils (f_threshold f) z)
    (Eo : forall k b, old k b -> bench_entry olds k b) (En : forall k b, new k b -> bench_entry news k b)
    (Pr : printable fp) (Sh : show dbg rxr render (Ok rows) f verbose fp d (out, Ok tt)).
  Let t := IZR z / 1000.

  Lemma value_shown v : (v < u128_bound)%N -> value_text d (fmt_value d v) v.
  Proof. intros L. destruct (FmtP.fmt_value_lemma d) as [F _]. exact (F v L). Qed.
  Lemma record_row k bo bn r rec : old k bo -> new k bn -> tame_data d bo bn -> In r (filter_changes rows f) -> row_key r = k -> record_for rxr fp d r rec ->
    is_failed r /\ error_record rxr fp k rec /\ bench_incomparable meth bo bn \/
    exists c rho, let v := bench_weight d rho bo in let w := bench_weight d rho bn in
      reports r c /\ in_bench_box bo bn rho /\ record_shows rxr fp d k v w (color_percent (tc_percent c) (tc_change c) (fp_no_color fp)) rec /\
      console_percent (fp_no_color fp) v w (color_percent (tc_percent c) Changed (fp_no_color fp)) /\ is_double (tc_percent c) /\
      (tc_change c = Changed /\ ((0 < v)%N -> t - slack v w <= Rabs (rel_change_of v w)) \/
       tc_change c = Unchanged /\ z = 0%Z /\ forall rho, in_bench_box bo bn rho -> bench_weight d rho bo = bench_weight d rho bn).
  Proof.
    intros Oo On Td I K Rc.
    destruct (entry_row m ords rx olds news meth d f rows z Hords M E HT k bo bn r (Eo _ _ Oo) (En _ _ On) Td I K) as [[(e & F & O) Inc]|(c & rho & Rp & Bx & Lv & Lw & Ov & Nv & Pv & X)].
    - left. assert (Fa : is_failed r) by (exists e; exact F). split; [exact Fa|]. split; [|exact Inc].
      destruct Rc as [rec _ Er|c path terms Rp _ _]; [now rewrite <- K|exfalso; exact (reports_not_failed _ _ Rp Fa)].
    - right. exists c, rho. cbv zeta. split; [exact Rp|]. split; [exact Bx|]. split; [|split; [rewrite Pv; now apply console_shown|split; [rewrite Pv; apply percent_double|exact X]]].
      destruct Rc as [rec Fa _|c' path terms Rp' P L]; [exfalso; exact (reports_not_failed _ _ Rp Fa)|].
      rewrite (reports_fun _ _ _ Rp' Rp), Ov, Nv. cbn [fmt_opt_value]. exists path, (fmt_value d (bench_weight d rho bo)), (fmt_value d (bench_weight d rho bn)), terms.
      subst k. split; [reflexivity|]. split; [exact P|]. split; [now apply value_shown|]. split; [now apply value_shown|exact L].
  Qed.

  Lemma printed_table : exists table, prints_all rxr render fp verbose old new rx meth d f t table out.
  Proof.
    assert (Ty : typed_rows rows) by (eapply typed_lemma; eauto).
    assert (Dt : is_double (f_threshold f)) by (eapply EndP.threshold_double; eauto).
    destruct (table_lemma dbg rxr render rows f verbose fp d out Dt Ty Pr Sh) as (tab & Po & (rest & Pe & Re) & Fr). rewrite Forall_forall in Fr.
    set (table := map (fun x => (row_key (fst x), snd x)) tab). exists table.
    assert (Tin : forall r rec, In (r, rec) tab -> In r (filter_changes rows f)).
    { intros r rec I. eapply Permutation_in; [apply Permutation_sym, Pe|]. apply in_or_app. right. apply in_map_iff. exists (r, rec). auto. }
    assert (Cov : forall r, In r (filter_changes rows f) -> fp_format fp = CSV /\ is_failed r \/ exists rec, In (r, rec) tab /\ In (row_key r, rec) table).
    { intros r I. apply (Permutation_in _ Pe) in I. apply in_app_or in I. destruct I as [I|I]; [left; auto|right]. apply in_map_iff in I. destruct I as ([r' rec] & <- & I).
      exists rec. split; [exact I|]. apply in_map_iff. exists (r', rec). auto. }
    assert (Tp : 0 < t -> (0 < z)%Z) by (unfold t; intros H; apply lt_IZR; lra).
    split; [|split; [|split]].
    - unfold table. rewrite map_map. exact Po.
    - intros k bo bn rho Oo On Pp Ppe Ks Td Bx. cbv zeta. intros T0 G.
      destruct (entry_regression m ords rx olds news meth d f rows z Hords M E HT k bo bn rho Ks (Eo _ _ Oo) (En _ _ On) Pp Ppe Td Bx G) as (r & I & K & S).
      destruct (Cov r I) as [[Fc Fa]|(rec & It & Ik)].
      { right. destruct (entry_row m ords rx olds news meth d f rows z Hords M E HT k bo bn r (Eo _ _ Oo) (En _ _ On) Td I K) as [[_ Inc]|(c & rho' & Rp & _)];
          [split; [exact Inc|now left]|exfalso; exact (reports_not_failed _ _ Rp Fa)]. }
      rewrite K in Ik. pose proof (Fr _ It) as Rf. cbn [fst snd] in Rf.
      destruct (record_row k bo bn r rec Oo On Td I K Rf) as [(Fa & Er & Inc)|(c & rho' & Rp & Bx' & Rs & Cp & Db & X)].
      { right. split; [exact Inc|]. right. exists rec. auto. }
      destruct S as [Fa|(c' & Rp' & Q & S)]; [exfalso; exact (reports_not_failed _ _ Rp Fa)|]. rewrite (reports_fun _ _ _ Rp' Rp) in *. rewrite Q in Rs. fold t in S.
      left. exists rec, (color_percent (tc_percent c) Changed (fp_no_color fp)), rho'. split; [exact Ik|]. split; [exact Bx'|]. split; [exact Rs|]. split; [exact Cp|].
      destruct S as [[Inf|(p & Hp & _ & L & Ab)]|(_ & Z0 & _)]; [| |lra].
      + left. rewrite Inf. destruct (fp_no_color fp); reflexivity.
      + right. specialize (L T0). destruct (fmt_pos _ _ Db Hp) as (q & Rd & Eq); [lra|]. exists (fmt_2 (f64_abs (tc_percent c))), q.
        split; [rewrite <- (plus_pos _ p Hp) by lra; apply red_ink; [exact Db|apply (positive_value _ p Hp); lra]|]. split; [exact Rd|].
        split; [intros h; now apply (q_hundredths q p t)|]. apply q_near in Eq. apply Rabs_le_inv in Eq. lra.
    - intros k bo bn Oo On Pp Ppe Ks Td T0 G.
      destruct (entry_improvement m ords rx olds news meth d f rows z Hords M E HT k bo bn Ks (Eo _ _ Oo) (En _ _ On) Pp Ppe Td G) as (r & I & K & S).
      destruct (Cov r I) as [[Fc Fa]|(rec & It & Ik)].
      { right. destruct (entry_row m ords rx olds news meth d f rows z Hords M E HT k bo bn r (Eo _ _ Oo) (En _ _ On) Td I K) as [[_ Inc]|(c & rho' & Rp & _)];
          [split; [exact Inc|now left]|exfalso; exact (reports_not_failed _ _ Rp Fa)]. }
      rewrite K in Ik. pose proof (Fr _ It) as Rf. cbn [fst snd] in Rf.
      destruct (record_row k bo bn r rec Oo On Td I K Rf) as [(Fa & Er & Inc)|(c & rho' & Rp & Bx' & Rs & Cp & Db & X)].
      { right. split; [exact Inc|]. right. exists rec. auto. }
      destruct S as [Fa|(c' & p & Rp' & Q & Hp & L)]; [exfalso; exact (reports_not_failed _ _ Rp Fa)|]. rewrite (reports_fun _ _ _ Rp' Rp) in *. rewrite Q in Rs. fold t in L.
      destruct (fmt_neg _ _ Db Hp) as (q & Rd & Eq); [lra|].
      left. exists rec, (color_percent (tc_percent c) Changed (fp_no_color fp)), (fmt_2 (f64_abs (tc_percent c))), q, rho'.
      split; [exact Ik|]. split; [exact Bx'|]. split; [exact Rs|]. split; [exact Cp|].
      split; [rewrite <- (plus_neg _ p Hp) by lra; apply green_ink; [exact Db|apply (negative_value _ p Hp); lra]|]. split; [exact Rd|].
      intros h. apply (q_hundredths q (- p) t); [exact Eq|lra].
    - split.
      + unfold table. rewrite map_map. cbn [fst]. destruct (rows_lemma m ords rx olds news _ f rows E) as [So _].
        assert (Nd : NoDup (map row_key rows)).
        { clear -So. induction So as [|k l S IH F]; constructor; auto. intros I. rewrite Forall_forall in F. apply F in I. apply key_before_cmp in I. now rewrite (cmp_refl _ key_cmp_strict) in I. }
        assert (Nf : NoDup (map row_key (filter_changes rows f))).
        { unfold filter_changes. now apply nodup_filter. }
        apply (Permutation_map row_key) in Pe. apply (Permutation_NoDup Pe) in Nf. rewrite map_app, map_map in Nf. now apply nodup_right in Nf.
      + apply Forall_forall. intros [k rec] I. apply in_map_iff in I. destruct I as ([r rec'] & Ek & It). cbn [fst snd] in Ek. injection Ek as <- <-.
        pose proof (Tin _ _ It) as I. destruct (rows_lemma m ords rx olds news _ f rows E) as [_ Kp].
        assert (Ir : In r rows) by (unfold filter_changes in I; apply filter_In in I; apply I).
        destruct (proj1 (Kp (row_key r)) (in_map row_key _ _ Ir)) as (_ & Pp & Ppe). split; [exact Pp|]. split; [exact Ppe|].
        intros bo bn Oo On Td. pose proof (Fr _ It) as Rf. cbn [fst snd] in Rf.
        destruct (record_row (row_key r) bo bn r rec' Oo On Td I eq_refl Rf) as [(Fa & Er & Inc)|(c & rho' & Rp & Bx' & Rs & Cp & Db & X)]; [left; auto|right].
        exists rho', (color_percent (tc_percent c) (tc_change c) (fp_no_color fp)). split; [exact Bx'|]. cbv zeta. split; [exact Rs|].
        assert (Sel : kind_selected f (tc_change c)).
        { unfold filter_changes in I. apply filter_In in I. destruct I as [_ Kp']. apply keep_spec in Kp'; auto. 2:{ intros c' Rc. eapply Ty; eauto. }
          destruct Kp' as [Fa|(c' & R' & Sl & _)]; [exfalso; exact (reports_not_failed _ _ Rp Fa)|]. now rewrite (reports_fun _ _ _ R' Rp) in Sl. }
        destruct X as [(Q & X)|(Q & Z0 & X)]; rewrite Q in *; [left; auto|right]. split; [reflexivity|]. split; [exact Sel|]. split; [unfold t; rewrite Z0; lra|exact X].
  Qed.
End Table.

(** ** Files *)
Lemma first_split {A} (P : A -> Prop) pre p post pre' p' post' : app pre (p :: post) = app pre' (p' :: post') -> P p -> (forall q, In q pre -> ~ P q) -> P p' -> (forall q, In q pre' -> ~ P q) ->
  pre = pre' /\ p = p' /\ post = post'.
Proof.
  revert pre'. induction pre as [|x pre IH]; intros [|y pre'] E Pp N Pp' N'; cbn in E.
  - injection E as -> ->. auto.
  - injection E as -> E. exfalso. apply (N' y); [now left|exact Pp].
  - injection E as -> E. exfalso. apply (N p'); [now left|exact Pp'].
  - injection E as -> E. destruct (IH pre' E) as (-> & -> & ->); auto; intros q I; [apply N|apply N']; now right.
Qed.
Lemma named_fun p a b : named p a -> named p b -> a = b.
Proof. intros (x & ->) (y & E). apply app_inj_tail in E. destruct E as [_ E]. congruence. Qed.
Section Files.
  Variables (syn : string -> option (list item)) (texts : fpath -> string + string).
  Hypothesis Hsyn : reads_grammar syn.
  Let parse := parse_file (disk_of syn texts).
  Lemma file_pallet p xs : parse p = Ok xs -> exists n, named p n /\ Forall (fun e => epallet e = n) xs.
  Proof. intros H. apply FilesP.file_ok in H. destruct H as (f & n & _ & Nm & P). apply FilesP.content_pallet in P. eauto. Qed.
  Lemma gathers_app a b l : gathers parse (app a b) l -> exists la lb, l = app la lb /\ gathers parse a la /\ gathers parse b lb.
  Proof.
    revert l. induction a as [|p a IH]; intros l G; cbn in G; [exists [], l; repeat split; auto; constructor|].
    inversion G as [|? ? xs l' P G'|? ? e l' P G']; subst; destruct (IH _ G') as (la & lb & -> & Ga & Gb).
    - exists (app xs la), lb. split; [now rewrite app_assoc|]. split; [now apply gather_ok|exact Gb].
    - exists la, lb. split; [reflexivity|]. split; [eapply gather_err; eauto|exact Gb].
  Qed.
  Lemma gathers_pallet files l n : gathers parse files l -> (forall q, In q files -> ~ named q n) -> forall e, In e l -> epallet e <> n.
  Proof.
    induction 1 as [|p ps xs l P G IH|p ps er l P G IH]; intros N e I; [destruct I| |].
    - apply in_app_or in I. destruct I as [I|I]; [|apply IH; auto; intros q J; apply N; now right].
      destruct (file_pallet _ _ P) as (n' & Nm & F). rewrite Forall_forall in F. rewrite (F e I). intros ->. apply (N p); [now left|exact Nm].
    - apply IH; auto. intros q J. apply N. now right.
  Qed.
  Lemma file_entry ignore files l k b : entries_of parse ignore files l -> file_source_of syn texts files k b -> bench_entry l k b.
  Proof.
    intros En (p & u & v & dd & (pre & post & -> & Nm & Nq) & T & A & U & V & D & I & Nb). exists v, (w_style dd). split; [exact V|]. split; [now apply (ok_benches dd D)|]. split; [now apply TmplP5.style_fits|].
    assert (G : gathers parse (app pre (p :: post)) l) by (destruct ignore; [exact En|now apply FilesP.all_gathers]).
    apply gathers_app in G. destruct G as (la & lb & -> & Ga & Gb). pose proof (TmplP5.weights_file v dd b V D I) as Wf.
    destruct (EndP3.file_entries (fst k) (TmplP3.items_of v dd) _ Wf) as (ws & t & rs & C & Hm & Ie & Nd).
    assert (Sy : syn (file_text u v dd) = Some (TmplP3.items_of v dd)) by (apply Hsyn; [now apply TmplP3.file_items|exact A]).
    assert (P : parse p = Ok ws).
    { apply FilesP.file_ok. exists (Some (TmplP3.items_of v dd)), (fst k). split; [unfold disk_of; now rewrite T, Sy|]. split; [exact Nm|exact C]. }
    split; [reflexivity|]. change (m_name (TmplP3.fn_of v (w_style dd) false b)) with (b_name b) in *. rewrite Nb in *. exists t, rs. split; [exact Hm|].
    inversion Gb as [|? ? xs l' P' G'|? ? e l' P' G']; subst; [|congruence]. rewrite P in P'. injection P' as <-.
    apply in_split in Ie. destruct Ie as (l1 & l2 & ->). exists (app la l1), (app l2 l').
    split; [rewrite <- !app_assoc; reflexivity|]. split; [unfold ext_key; cbn; now destruct k|].
    intros e' Ie' K. apply in_app_or in Ie'. destruct Ie' as [J|J].
    - apply (gathers_pallet _ _ (fst k) Ga Nq e' J). now rewrite <- K.
    - rewrite map_app in Nd. cbn in Nd. apply NoDup_remove_2 in Nd. apply Nd. apply in_or_app. left. rewrite <- K. now apply (in_map ename).
  Qed.
End Files.

(** ** Commands *)
Section Commands.
  Context (dbg : sscope -> string) (rxr : string -> option (string -> option string)) (render : bool -> list string -> list (list string) -> string).
  Variables (syn : string -> option (list item)) (m : mode) (ords : string * string -> list string -> list string) (rx : regex_engine).
  Lemma reads_lemma disk (ignore : bool) files l : (if ignore then try_parse_files disk files else parse_files disk files) = Ok l <-> entries_of (parse_file disk) ignore files l.
  Proof. destruct ignore; [apply FilesP.try_all_ok|apply FilesP.parse_all_ok]. Qed.
  Lemma files_entries disk params ps filt verbose fp old new out res :
    (forall olds news, entries_of (parse_file disk) (g_ignore_errors ps) old olds -> entries_of (parse_file disk) (g_ignore_errors ps) new news ->
       (cli_compare_files dbg rxr render disk m ords rx params ps filt verbose fp old new (out, res) <->
        show dbg rxr render (compare_files m ords rx olds news params filt) filt verbose fp (p_unit params) (out, res))) /\
    ((forall l, ~ entries_of (parse_file disk) (g_ignore_errors ps) old l) \/ (forall l, ~ entries_of (parse_file disk) (g_ignore_errors ps) new l) ->
       cli_compare_files dbg rxr render disk m ords rx params ps filt verbose fp old new (out, res) -> out = [] /\ is_ok res = false).
  Proof.
    unfold cli_compare_files. split.
    - intros olds news Ho Hn. apply reads_lemma in Ho, Hn. rewrite Ho, Hn. reflexivity.
    - intros H S. apply CliP.show_failed in S.
      + destruct S as [-> S]. split; [reflexivity|].
        destruct (bind _ _); [contradiction|..]; now rewrite S.
      + destruct (if g_ignore_errors ps then try_parse_files disk old else parse_files disk old) as [lo| | |] eqn:Eo; try reflexivity. cbn [bind].
        destruct (if g_ignore_errors ps then try_parse_files disk new else parse_files disk new) as [ln| | |] eqn:En; try reflexivity.
        apply reads_lemma in Eo, En. exfalso. destruct H as [H|H]; eapply H; eauto.
  Qed.
  Lemma show_ok diff f verbose fp dim out : show dbg rxr render diff f verbose fp dim (out, Ok tt) -> exists rows, diff = Ok rows.
  Proof. intros S. destruct diff as [rows| | |]; [eauto|..]; apply CliP.show_failed in S; try reflexivity; destruct S as [_ S]; discriminate S. Qed.
  Lemma files_printed texts meth d ps f z verbose fp old new out : reads_grammar syn -> (forall k, is_order (ords k)) -> meth = ExactWorst \/ meth = GuessWorst ->
    threshold_mils (f_threshold f) z -> printable fp ->
    cli_compare_files dbg rxr render (disk_of syn texts) m ords rx {| p_method := meth; p_unit := d |} ps f verbose fp old new (out, Ok tt) ->
    exists table, prints_all rxr render fp verbose (file_source_of syn texts old) (file_source_of syn texts new) rx meth d f (IZR z / 1000) table out.
  Proof.
    intros Hs Ho M HT Pr S. unfold cli_compare_files in S. destruct (show_ok _ _ _ _ _ _ S) as (rows & E). rewrite E in S.
    destruct (if g_ignore_errors ps then try_parse_files (disk_of syn texts) old else parse_files (disk_of syn texts) old) as [lo| | |] eqn:Eo; try discriminate E. cbn [bind] in E.
    destruct (if g_ignore_errors ps then try_parse_files (disk_of syn texts) new else parse_files (disk_of syn texts) new) as [ln| | |] eqn:En; try discriminate E. cbn [bind] in E.
    apply reads_lemma in Eo, En. eapply (printed_table dbg rxr render m ords rx lo ln meth d f rows z fp verbose out); eauto; intros k b; now apply file_entry with (ignore := g_ignore_errors ps).
  Qed.
  Lemma stand_for_trees tglob tdisk repo old new cps ps filt pat mx s c_old c_new : ~ has_dots pat -> stand_for s ps old new c_old c_new ->
    exists s' t, compare_commits run_git (fun s => tglob (r_work s)) (fun s => tdisk (r_work s)) m ords rx repo old new cps ps filt pat mx s =
      (compare_trees tglob tdisk m ords rx repo cps ps filt pat mx c_old c_new, s', t).
  Proof.
    intros Dt [Fe St].
    assert (L : (g_pull ps = true /\ g_offline ps = false) \/ (g_pull ps = false \/ g_offline ps = true)) by (destruct (g_pull ps), (g_offline ps); auto).
    destruct L as [L|L].
    - destruct (Fe L) as (Fo & Fn & Ne). destruct L as [Lp Lo]. rewrite Lp, Lo in St. cbn [andb negb] in St. destruct (g_force ps) eqn:F.
      + destruct St as (So & Sn & Un). destruct (GitP2.trees_pull_force tglob tdisk m ords rx repo old new cps ps filt pat mx s c_old c_new) as (s' & t & E & _); eauto.
      + destruct St as (So & Sn). destruct (GitP2.trees_pull tglob tdisk m ords rx repo old new cps ps filt pat mx s c_old c_new) as (s' & t & E & _); eauto.
    - assert (Ls : (g_pull ps && negb (g_offline ps))%bool = false) by (destruct L as [-> | ->]; [reflexivity|apply andb_false_r]). rewrite Ls in St. destruct (g_force ps) eqn:F.
      + destruct St as (So & Sn & Un). destruct (GitP.trees_force tglob tdisk m ords rx repo old new cps ps filt pat mx s c_old c_new) as (s' & t & E & _); eauto.
      + destruct St as (So & Sn). destruct (GitP.trees_checkout tglob tdisk m ords rx repo old new cps ps filt pat mx s c_old c_new) as (s' & t & E & _); eauto.
  Qed.
  Lemma commits_printed tglob texts repo meth d ps f z verbose fp old new pat mx s c_old c_new out : reads_grammar syn -> (forall k, is_order (ords k)) -> meth = ExactWorst \/ meth = GuessWorst ->
    threshold_mils (f_threshold f) z -> printable fp -> stand_for s ps old new c_old c_new ->
    cli_compare_commits dbg rxr render run_git (fun s => tglob (r_work s)) (fun s => disk_of syn (texts (r_work s))) m ords rx {| p_method := meth; p_unit := d |} ps f verbose fp old new repo pat mx s (out, Ok tt) ->
    exists table, prints_all rxr render fp verbose (data_source_of syn (tglob c_old) (texts c_old) repo pat) (data_source_of syn (tglob c_new) (texts c_new) repo pat)
      rx meth d f (IZR z / 1000) table out.
  Proof.
    intros Hs Ho M HT Pr St S. unfold cli_compare_commits in S. destruct (show_ok _ _ _ _ _ _ S) as (rows & E).
    assert (Dt : ~ has_dots pat).
    { intros Hd. unfold compare_commits in E. apply GitP.contains_spec in Hd. rewrite Hd in E. discriminate E. }
    destruct (stand_for_trees tglob (fun c => disk_of syn (texts c)) repo old new {| p_method := meth; p_unit := d |} ps f pat mx s c_old c_new Dt St) as (s' & t & C).
    rewrite C in *. cbn [fst] in *. rewrite E in S.
    destruct (data_entries syn tglob texts m ords rx repo meth d ps f pat mx c_old c_new rows Hs E) as (olds & news & Ef & Eo & En).
    eapply (printed_table dbg rxr render m ords rx olds news meth d f rows z fp verbose out); eauto.
  Qed.
End Commands.
