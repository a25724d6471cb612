(** Proofs about the page with the results. *)
From Coq Require Import List String Ascii Arith NArith ZArith Bool Lia Sorted.
From Verif Require Import Base ScopeM TermM F64 CompareM RowsM FmtM SynM ParseM StorageM FilesM GitM CliM HtmlM WebM PageM
  SpecFiles SpecRows SpecWeb DecP StrP WebP SpecFmt.
From Coq Require Import Permutation.
From Verif Require Import SpecCompare SpecF64.

From Verif Require F64P PercentP CliP RowsP HtmlP FilesP CompareP3 CompareP4.
Import ListNotations.
Local Open Scope string_scope.

(** ** Escaping *)
Lemma mild_app a b : mild (a ++ b) <-> mild a /\ mild b.
Proof. apply only_app. Qed.
Lemma escape_mild s : mild (escape s).
Proof.
  induction s as [|c s IH]; [intros x []|]. cbn [escape]. apply mild_app. split; [|exact IH]. unfold escape_char.
  repeat (match goal with |- context [if Ascii.eqb ?a ?b then _ else _] => destruct (Ascii.eqb_spec a b) as [E|] end;
    [intros x I M; cbn in I, M; repeat (destruct I as [<-|I]; [repeat (destruct M as [M|M]; [discriminate|]); exact M|]); exact I|]).
  intros x [<-|[]] M. cbn in M. repeat (destruct M as [M|M]; [congruence|]). exact M.
Qed.
Lemma escape_decodes s : decodes (escape s) s.
Proof.
  induction s as [|c s IH]; [constructor|]. cbn [escape]. unfold escape_char.
  repeat (match goal with |- context [if Ascii.eqb ?a ?b then _ else _] => destruct (Ascii.eqb_spec a b) as [->|] end;
    [apply de_ref; [cbn; tauto|exact IH]|]).
  cbn [append]. apply de_char; assumption.
Qed.
Lemma decodes_fun t s : decodes t s -> forall s', decodes t s' -> s = s'.
Proof.
  induction 1 as [|c t s N D IH|t s name c I D IH]; intros s' H.
  - inversion H as [|c t u N D E|t u name c I D E]; [reflexivity|]. exfalso.
    cbn in I. repeat (destruct I as [I|I]; [injection I as <- <-; discriminate|]). exact I.
  - inversion H as [|c' t' u N' D' E|t' u name c' I' D' E]; [subst; f_equal; auto|]. exfalso.
    cbn in I'. repeat (destruct I' as [I'|I']; [injection I' as <- <-; injection E as <- _; congruence|]). exact I'.
  - inversion H as [E|c' t' u N' D' E|t' u name' c' I' D' E].
    + exfalso. cbn in I. repeat (destruct I as [I|I]; [injection I as <- <-; discriminate|]). exact I.
    + exfalso. cbn in I. repeat (destruct I as [I|I]; [injection I as <- <-; injection E as -> _; congruence|]). exact I.
    + cbn in I, I'.
      repeat (destruct I as [I|I]; [injection I as <- <-;
        repeat (destruct I' as [I'|I']; [injection I' as <- <-; first [discriminate E|injection E as <-; f_equal; apply IH; assumption]|]); destruct I'|]).
      destruct I.
Qed.
Lemma escape_inj s s' : escape s = escape s' -> s = s'.
Proof. intros E. eapply decodes_fun; [apply escape_decodes|]. rewrite E. apply escape_decodes. Qed.

(** ** Texts without markup *)
Definition mild_char (c : ascii) : bool := negb (existsb (Ascii.eqb c) markup).
Lemma lit_mild s : all_chars mild_char s = true -> mild s.
Proof.
  induction s as [|c s IH]; cbn [all_chars]; intros H; [intros x []|]. apply andb_true_iff in H. destruct H as [A B].
  apply only_cons. split; [|now apply IH]. intros I. unfold mild_char in A. apply negb_true_iff in A.
  assert (X : existsb (Ascii.eqb c) markup = true) by (apply existsb_exists; exists c; split; [exact I|apply Ascii.eqb_refl]). congruence.
Qed.
Lemma digits_mild s : all_chars is_digit s = true -> mild s.
Proof.
  intros H. induction s as [|c s IH]; cbn in H; [intros x []|]. apply andb_true_iff in H. destruct H as [A B].
  apply only_cons. split; [|exact (IH B)]. intros I. cbn in I. repeat (destruct I as [<-|I]; [discriminate|]). exact I.
Qed.
Lemma dec_mild n : mild (dec_of_N n).
Proof. apply digits_mild, dec_digits. Qed.
Lemma digit_mild d : (d < 10)%N -> mild (String (digit d) "").
Proof. intros H. apply digits_mild. cbn. now rewrite digit_is_digit. Qed.
Lemma dec_2_mild q : mild (dec_2 q).
Proof.
  unfold dec_2. apply mild_app. split; [apply dec_mild|]. apply mild_app. split; [now apply lit_mild|].
  change (String (digit (q mod 100 / 10)) (String (digit (q mod 10)) "")) with (append (String (digit (q mod 100 / 10)) "") (String (digit (q mod 10)) "")).
  apply mild_app. split; apply digit_mild.
  - apply N.div_lt_upper_bound; [discriminate|]. assert (q mod 100 < 100)%N by (apply N.mod_lt; discriminate). lia.
  - apply N.mod_lt. discriminate.
Qed.
Lemma fmt_2_mild x : mild (fmt_2 x).
Proof.
  destruct x as [[|]|[|]| |[|] m e]; try now apply lit_mild.
  all: apply mild_app; split; [now apply lit_mild|apply dec_2_mild].
Qed.
Ltac unit_mild := apply mild_app; split; [first [apply fmt_2_mild|apply dec_mild]|now apply lit_mild].
Lemma fmt_value_mild dim v : mild (fmt_value dim v).
Proof.
  destruct dim; cbn [fmt_value]; unfold fmt_time, fmt_proof, fmt_quot;
    repeat match goal with |- context [if ?b then _ else _] => destruct b end; unit_mild.
Qed.
Lemma fmt_scalar_mild v : mild (fmt_scalar v).
Proof.
  unfold fmt_scalar, fmt_quot. repeat match goal with |- context [if ?b then _ else _] => destruct b end; try unit_mild. apply dec_mild.
Qed.
Lemma mild_cons a s : mild_char a = true -> mild s -> mild (String a s).
Proof. intros A B. change (String a s) with (append (String a "") s). apply mild_app. split; [|exact B]. apply lit_mild. cbn. now rewrite A. Qed.
Lemma maybe_fmt_mild t : mild_vars t -> forall b s, maybe_fmt fmt_scalar (N.eqb 0) (N.eqb 1) t b = Some s -> mild s.
Proof.
  induction t as [v|v|x|l IHl r IHr|l IHl r IHr]; cbn [mild_vars maybe_fmt]; intros H b s.
  - intros [= <-]. apply fmt_scalar_mild.
  - intros [= <-]. apply fmt_scalar_mild.
  - intros [= <-]. exact H.
  - destruct H as [Hl Hr]. specialize (IHl Hl). specialize (IHr Hr).
    repeat match goal with |- context [if ?b then _ else _] => destruct b end; try discriminate; eauto;
    destruct (maybe_fmt _ _ _ l _) as [sl|] eqn:El; destruct (maybe_fmt _ _ _ r _) as [sr|] eqn:Er; intros [= <-]; eauto;
    repeat first [apply mild_cons; [reflexivity|]|apply mild_app; split]; eauto; now apply lit_mild.
  - destruct H as [Hl Hr]. specialize (IHl Hl). specialize (IHr Hr).
    repeat match goal with |- context [if ?b then _ else _] => destruct b end; try discriminate; eauto;
    destruct (maybe_fmt _ _ _ l _) as [sl|] eqn:El; destruct (maybe_fmt _ _ _ r _) as [sr|] eqn:Er; intros [= <-]; eauto;
    repeat first [apply mild_cons; [reflexivity|]|apply mild_app; split]; eauto; now apply lit_mild.
Qed.
Lemma display_mild t : mild_vars t -> mild (sdisplay t).
Proof.
  intros H. unfold sdisplay, display. destruct (maybe_fmt _ _ _ t true) as [s|] eqn:E; [|now apply lit_mild]. eapply maybe_fmt_mild; eauto.
Qed.

Lemma count_app c a b : count c (a ++ b) = count c a + count c b.
Proof. unfold count. rewrite list_ascii_app. apply count_occ_app. Qed.
Lemma mild_count c s : In c markup -> mild s -> count c s = 0.
Proof. intros I M. apply count_occ_not_In. intros H. exact (M c H I). Qed.
Lemma ok_inj {A} (a b : A) : Ok a = Ok b -> a = b.
Proof. intros [= ->]. reflexivity. Qed.
Lemma markup_lemma m args org r c s :
  mild (wa_old args) -> mild (wa_new args) -> mild (wa_repo args) -> mild org -> mild (row_file r) -> mild (row_name r) ->
  (forall t, tc_old c = Some t \/ tc_new c = Some t -> mild_vars t) ->
  row_html m args org r c = Ok s ->
  exists s0, row_html m (no_text_args args) "" (no_text_row r) (no_text_change c) = Ok s0 /\
    forall ch, In ch markup -> count ch s = count ch s0.
Proof.
  intros Ho Hn Hr Hg Hf Hm Ht. unfold row_html.
  change (order_abs m (no_text_change c)) with (order_abs m c).
  change (html_color_abs m (no_text_change c) (wa_unit (no_text_args args))) with (html_color_abs m c (wa_unit args)).
  destruct (order_abs m c) as [key| | |]; try discriminate. destruct (html_color_abs m c (wa_unit args)) as [col| | |]; try discriminate.
  cbn [bind]. intros H. apply ok_inj in H. rewrite <- H. clear H s. eexists. split; [reflexivity|]. intros ch I.
  assert (Z : forall x, mild x -> count ch x = 0) by (intros; now apply mild_count).
  assert (E : forall x, count ch (escape x) = 0) by (intros; apply Z, escape_mild).
  assert (T : forall t, tc_old c = Some t \/ tc_new c = Some t -> count ch (sdisplay t) = 0) by (intros; apply Z, display_mild, Ht; assumption).
  change (order_percent (no_text_change c)) with (order_percent c).
  change (html_color_percent (tc_percent (no_text_change c)) (tc_change (no_text_change c))) with (html_color_percent (tc_percent c) (tc_change c)).
  unfold equation_cell, row_id, quoted, value_cell, code_link.
  cbn [no_text_args no_text_row no_text_change wa_unit wa_repo wa_old wa_new row_file row_name tc_old tc_new tc_old_v tc_new_v tc_scope].
  assert (W : match row_warning (no_text_row r) with Some _ => "<td class=" ++ (quote ++ "text-warning" ++ quote) ++ ">" | None => "<td>" end =
              match row_warning r with Some _ => "<td class=" ++ (quote ++ "text-warning" ++ quote) ++ ">" | None => "<td>" end).
  { destruct r as [n f [d|d w|e]]; reflexivity. }
  change (mk_row "" "" (no_text_diff (row_diff r))) with (no_text_row r). rewrite W.
  assert (D : count ch (sdisplay (Var "")) = 0) by (apply Z, display_mild; intros x []).
  destruct (tc_old c) as [to|] eqn:Eo; destruct (tc_new c) as [tn|] eqn:En; cbn [no_text_term];
    rewrite !count_app, ?E, ?(Z _ Ho), ?(Z _ Hn), ?(Z _ Hr), ?(Z _ Hg), ?(Z _ Hf), ?(Z _ Hm), ?D;
    rewrite ?(T to), ?(T tn) by auto;
    change (count ch "") with 0; lia.
Qed.

(** ** What is on the page *)
Lemma filter_map_in {A B} (f : A -> option B) l y : In y (filter_map f l) <-> exists x, In x l /\ f x = Some y.
Proof.
  induction l as [|x l IH]; cbn.
  - split; [intros []|intros (x & [] & _)].
  - destruct (f x) as [z|] eqn:E; cbn; rewrite IH.
    + split; [intros [->|(x' & I & F)]; eauto|intros (x' & [->|I] & F); [left; congruence|eauto]].
    + split; [intros (x' & I & F); eauto|intros (x' & [->|I] & F); [congruence|eauto]].
Qed.
Lemma term_reports r c : row_term r = Some c <-> reports r c.
Proof.
  unfold row_term, reports. destruct (row_diff r) as [d|d w|e].
  - split; [intros [= ->]; auto|intros [[= ->]|(w & D)]; [reflexivity|discriminate]].
  - split; [intros [= ->]; eauto|intros [D|(w' & [= -> ->])]; [discriminate|reflexivity]].
  - split; [discriminate|intros [D|(w & D)]; discriminate].
Qed.
Lemma rows_select diff : selects (fun r => ~ is_failed r) diff (map fst (page_rows diff)) /\
  Forall (fun p => reports (fst p) (snd p)) (page_rows diff).
Proof.
  unfold page_rows. induction diff as [|r l [IH IH']]; cbn [filter_map]; [split; constructor|].
  destruct (row_term r) as [c|] eqn:E; cbn [map fst snd].
  - pose proof E as R. apply term_reports in R. split; [|constructor; assumption]. apply sel_keep; [|exact IH].
    intros (e & F). unfold row_term in E. rewrite F in E. discriminate.
  - split; [|exact IH']. apply sel_drop; [|exact IH]. intros H. apply H. unfold is_failed. unfold row_term in E. destruct (row_diff r); try discriminate. eauto.
Qed.
Lemma rows_partition diff : List.length (page_errors diff) + List.length (page_rows diff) = List.length diff.
Proof.
  unfold page_errors, page_rows, row_error, row_term. induction diff as [|r l IH]; [reflexivity|]. cbn [filter_map].
  destruct (row_diff r); cbn [List.length]; lia.
Qed.
Lemma errors_in diff e : In e (page_errors diff) <-> exists r, In r diff /\ row_diff r = DFailed e.
Proof.
  unfold page_errors. rewrite filter_map_in. split; intros (r & I & E); exists r; (split; [exact I|]); unfold row_error in *.
  - destruct (row_diff r); congruence.
  - now rewrite E.
Qed.
Lemma warnings_in diff w : In w (page_warnings diff) <-> exists r c, In r diff /\ row_diff r = DWarning c w.
Proof.
  unfold page_warnings. rewrite filter_map_in. split.
  - intros (r & I & E). unfold row_warning in E. destruct (row_diff r) eqn:D; try discriminate. injection E as ->. eauto.
  - intros (r & c & I & E). exists r. split; [exact I|]. unfold row_warning. now rewrite E.
Qed.

Lemma occurs_left a b x : occurs x a -> occurs x (a ++ b).
Proof. intros (p & q & ->). exists p, (q ++ b). now rewrite !app_str_assoc. Qed.
Lemma occurs_right a b x : occurs x b -> occurs x (a ++ b).
Proof. intros (p & q & ->). exists (a ++ p), q. now rewrite !app_str_assoc. Qed.
Lemma occurs_self x : occurs x x.
Proof. exists "", "". cbn. now rewrite app_str_nil. Qed.
Lemma occurs_trans x y z : occurs x y -> occurs y z -> occurs x z.
Proof. intros (a & b & ->) (c & d & ->). exists (c ++ a), (b ++ d). now rewrite !app_str_assoc. Qed.
Lemma occurs_concat sep x l : In x l -> occurs x (String.concat sep l).
Proof.
  induction l as [|y l IH]; [intros []|]. destruct l as [|z l].
  - intros [->|[]]. cbn. apply occurs_self.
  - rewrite concat_cons by discriminate. intros [->|I]; [apply occurs_left, occurs_self|]. apply occurs_right, occurs_right, IH, I.
Qed.
Lemma box_occurs cl ta te msgs e : In e msgs -> occurs (e ++ "<br>") (message_box cl ta te msgs).
Proof.
  intros I. unfold message_box. destruct msgs as [|m0 msgs0]; [destruct I|]. set (ms := m0 :: msgs0) in *.
  do 2 apply occurs_right. do 30 first [apply occurs_left, occurs_concat, in_map_iff; exists e; split; [reflexivity|exact I]|apply occurs_right].
Qed.
Lemma mapM_in {A B} (f : A -> outcome B) l ys x : mapM f l = Ok ys -> In x l -> exists y, f x = Ok y /\ In y ys.
Proof.
  revert ys. induction l as [|z l IH]; intros ys H; [intros []|]. cbn [mapM] in H. destruct (f z) as [b| | |] eqn:E; try discriminate. cbn [bind] in H.
  destruct (mapM f l) as [bs| | |] eqn:F; try discriminate. injection H as <-. intros [->|I].
  - exists b. split; [exact E|now left].
  - destruct (IH bs eq_refl I) as (y & Y & J). exists y. split; [exact Y|now right].
Qed.
Lemma page_lemma m args org diff s : page_results m args org diff = Ok s ->
  (forall r e, In r diff -> row_diff r = DFailed e -> occurs (e ++ "<br>") s) /\
  (forall r c w, In r diff -> row_diff r = DWarning c w -> occurs (w ++ "<br>") s) /\
  (forall r c, In r diff -> reports r c -> exists tr, row_html m args org r c = Ok tr /\ occurs tr s).
Proof.
  unfold page_results. destruct (mapM _ (page_rows diff)) as [trs| | |] eqn:M; try discriminate. cbn [bind]. intros H. apply ok_inj in H. subst s.
  split; [|split].
  - intros r e I D. apply occurs_left, box_occurs, errors_in. eauto.
  - intros r c w I D. apply occurs_right, occurs_left, box_occurs, warnings_in. eauto.
  - intros r c I R. assert (P : In (r, c) (page_rows diff)).
    { unfold page_rows. apply filter_map_in. exists r. split; [exact I|]. apply term_reports in R. now rewrite R. }
    destruct (mapM_in _ _ _ _ M P) as (tr & E & J). exists tr. split; [exact E|].
    do 3 apply occurs_right. apply occurs_left, occurs_concat, J.
Qed.
Lemma occurs_3 a b c rest : occurs (a ++ b ++ c) (a ++ b ++ c ++ rest).
Proof. exists "", rest. cbn [append]. now rewrite !app_str_assoc. Qed.
Lemma row_shows m args org r c tr : row_html m args org r c = Ok tr ->
  occurs ("<td>" ++ escape (row_file r) ++ "</td>") tr /\ occurs (escape (row_name r)) tr /\
  occurs (html_color_percent (tc_percent c) (tc_change c)) tr /\
  (exists s, html_color_abs m c (wa_unit args) = Ok s /\ occurs s tr) /\
  occurs (value_cell (wa_unit args) (tc_old_v c) ++ value_cell (wa_unit args) (tc_new_v c)) tr /\
  occurs ("<td>" ++ escape (show_scope (tc_scope c)) ++ "</td>") tr.
Proof.
  unfold row_html. destruct (order_abs m c) as [key| | |]; try discriminate. destruct (html_color_abs m c (wa_unit args)) as [col| | |]; try discriminate.
  cbn [bind]. intros H. apply ok_inj in H. subst tr.
  split; [do 3 apply occurs_right; apply occurs_3|].
  split; [do 7 apply occurs_right; apply occurs_left, occurs_self|].
  split; [do 16 apply occurs_right; apply occurs_left, occurs_self|].
  split; [eexists; split; [reflexivity|]; do 21 apply occurs_right; apply occurs_left, occurs_self|].
  split; [do 11 apply occurs_right; eexists "", _; cbn [append]; now rewrite app_str_assoc|].
  do 25 apply occurs_right. apply occurs_3.
Qed.

(** ** Identifiers of rows *)
Lemma last_dot f : forall g a b, without "." a -> without "." b -> f ++ String "." a = g ++ String "." b -> f = g /\ a = b.
Proof.
  induction f as [|x f IH]; intros [|y g] a b A B E; cbn in E.
  - injection E as ->. auto.
  - exfalso. injection E as _ E. subst a. apply FilesP.without_app in A. cbn in A. tauto.
  - exfalso. injection E as _ E. subst b. apply FilesP.without_app in B. cbn in B. tauto.
  - injection E as -> E. destruct (IH g a b A B E) as [-> ->]. auto.
Qed.
Lemma id_inj r r' : without "." (row_name r) -> without "." (row_name r') -> row_id r = row_id r' -> row_key r = row_key r'.
Proof. intros A B E. apply (last_dot (row_file r)) in E; [|assumption|assumption]. unfold row_key. destruct E as [-> ->]. reflexivity. Qed.
Lemma str_before_irrefl s t : str_before s t -> s <> t.
Proof. induction 1; [discriminate|intros [= -> ->]; lia|congruence]. Qed.
Lemma sorted_nodup l : StronglySorted key_before l -> NoDup l.
Proof.
  induction 1 as [|k l S IH F]; constructor; [|exact IH]. intros I. rewrite Forall_forall in F. specialize (F k I).
  destruct F as [F|[_ F]]; now apply str_before_irrefl in F.
Qed.
Lemma nodup_filter {A B} (f : A -> B) p l : NoDup (map f l) -> NoDup (map f (filter p l)).
Proof.
  induction l as [|x l IH]; cbn; intros H; [constructor|]. inversion H as [|? ? N H']; subst. destruct (p x); cbn; [|auto].
  constructor; [|auto]. intros I. apply N. apply in_map_iff in I. destruct I as (y & E & I). apply filter_In in I. apply in_map_iff. exists y. tauto.
Qed.
Lemma nodup_ids l : (forall r, In r l -> without "." (row_name r)) -> NoDup (map row_key l) -> NoDup (map row_id l).
Proof.
  induction l as [|r l IH]; cbn; intros W H; [constructor|]. inversion H as [|? ? N H']; subst. constructor; [|apply IH; [intros; apply W; now right|exact H']].
  intros I. apply N. apply in_map_iff in I. destruct I as (r' & E & I). apply in_map_iff. exists r'. split; [|exact I].
  apply id_inj; [apply W; now right|apply W; now left|exact E].
Qed.

(** ** The whole request *)
Definition both_values (rows : list row) : Prop :=
  forall r c, In r rows -> reports r c -> tc_change c = Changed -> exists o n, tc_old_v c = Some o /\ tc_new_v c = Some n.
Lemma files_values m ords rx olds news ps f rows : (forall k, is_order (ords k)) ->
  compare_files m ords rx olds news ps f = Ok rows -> both_values rows.
Proof.
  intros Ho H r c I R K.
  destruct (RowsP.is_first_exists olds (row_key r)) as [o Fo], (RowsP.is_first_exists news (row_key r)) as [n Fn].
  assert (Q := RowsP.first_lemma m ords rx olds news ps f rows r o n H I Fo Fn). unfold row_of in Q.
  destruct (compare_extrinsics m _ _ _ ps) as [tc|e|w|] eqn:E; try contradiction.
  - destruct Q as (e & En & Q). assert (c = tc).
    { destruct (sanity_check_term _); try contradiction; destruct R as [R|[w R]]; congruence. }
    subst tc. destruct (CompareP4.compare_ok_point _ _ _ _ _ _ (Ho _) E) as (s & _ & Eo & En' & ->).
    cbn [CompareP3.point_change tc_change tc_old_v tc_new_v] in *. unfold CompareP3.kind in K.
    destruct (CompareP4.eterms _ _) as [to|]; destruct (CompareP4.eterms (p_unit ps) (option_map _ n)) as [tn|]; cbn in *;
      try (destruct (opt_eqb _ _); discriminate); try discriminate.
    destruct Eo as [vo ->], En' as [vn ->]. cbn. eauto.
  - exfalso. destruct R as [R|[w R]]; congruence.
Qed.
Lemma commits_files {W} git glob disk m ords rx repo old new cps ps filt pat mx (w : W) rows :
  fst (fst (compare_commits git glob disk m ords rx repo old new cps ps filt pat mx w)) = Ok rows ->
  exists olds news, compare_files m ords rx olds news cps filt = Ok rows.
Proof.
  unfold compare_commits. destruct (contains _ _); [discriminate|]. intros H.
  do 4 (apply CliP.abind_ok in H; destruct H as (? & ? & H)). cbn in H. eauto.
Qed.
Lemma render_lemma m args org rows :
  (forall r c, In r rows -> reports r c -> tc_change c = Changed ->
     exists o n, tc_old_v c = Some o /\ tc_new_v c = Some n /\ (o < 2 ^ 127)%N /\ (n < 2 ^ 127)%N) ->
  exists s, page_results m args org rows = Ok s.
Proof.
  intros H. unfold page_results. destruct (rows_select rows) as [_ R].
  assert (M : forall l, (forall p, In p l -> In p (page_rows rows)) -> exists trs, mapM (fun p => row_html m args org (fst p) (snd p)) l = Ok trs).
  { induction l as [|p l IH]; intros S; [eexists; reflexivity|]. destruct IH as (trs & E); [intros; apply S; now right|]. cbn [mapM].
    assert (P : exists tr, row_html m args org (fst p) (snd p) = Ok tr).
    { assert (Ip : In p (page_rows rows)) by (apply S; now left).
      rewrite Forall_forall in R. specialize (R p Ip). unfold page_rows in Ip. apply filter_map_in in Ip. destruct Ip as (r & Ir & Er).
      destruct (row_term r) as [c|] eqn:T; [|discriminate]. injection Er as <-. cbn [fst snd] in *. unfold row_html.
      specialize (H r c Ir R). destruct (tc_change c) eqn:K.
      2-3: unfold order_abs, html_color_abs; rewrite K; cbn [bind]; eexists; reflexivity.
      1: unfold order_abs, html_color_abs; rewrite K; cbn [bind]; eexists; reflexivity.
      destruct (H eq_refl) as (o & n & Eo & En & Lo & Ln). rewrite (HtmlP.order_abs_exact m c o n) by assumption. cbn [bind].
      destruct (HtmlP.html_abs m c o n (wa_unit args) K Eo En Lo Ln) as (s & -> & _). cbn [bind]. eexists. reflexivity. }
    destruct P as (tr & ->). cbn [bind]. rewrite E. eexists. reflexivity. }
  destruct (M (page_rows rows)) as (trs & ->); [auto|]. eexists. reflexivity.
Qed.

(** ** The whole page *)
Lemma mapM_forall2 {A B} (f : A -> outcome B) l ys : mapM f l = Ok ys -> Forall2 (fun x y => f x = Ok y) l ys.
Proof.
  revert ys. induction l as [|x l IH]; intros ys H; cbn [mapM] in H; [injection H as <-; constructor|].
  destruct (f x) eqn:E; try discriminate. cbn [bind] in H. destruct (mapM f l); try discriminate. injection H as <-. constructor; auto.
Qed.
Lemma body_lemma m args org diff s : page_results m args org diff = Ok s ->
  exists shown trs top,
    selects (fun r => ~ is_failed r) diff shown /\
    Forall2 (fun r tr => exists c, reports r c /\ row_html m args org r c = Ok tr) shown trs /\
    s = top ++ "<tbody>" ++ String.concat "" trs ++ "</tbody>".
Proof.
  unfold page_results. destruct (mapM _ (page_rows diff)) as [trs| | |] eqn:M; try discriminate. cbn [bind]. intros H. apply ok_inj in H. subst s.
  destruct (rows_select diff) as [S F]. exists (map fst (page_rows diff)), trs. 
  assert (T : forall d, exists t, table_head d = t ++ "<tbody>").
  { intros d. exists (substring 0 (String.length (table_head d) - 7) (table_head d)). destruct d; vm_compute; reflexivity. }
  destruct (T (wa_unit args)) as [t Et]. rewrite Et.
  exists (message_box "btn-danger" "collapseErrors" " errors generated" (page_errors diff)
    ++ message_box "btn-warning" "collapseWarns" " warnings generated" (page_warnings diff) ++ t).
  split; [exact S|]. split; [|rewrite !app_str_assoc; reflexivity].
  apply mapM_forall2 in M. clear S T t Et. revert F M. generalize (page_rows diff). intros l F M. induction M; cbn; [constructor|].
  inversion F; subst. constructor; [|auto]. eauto.
Qed.
Lemma show_Z_reads z : reads_int (show_Z z) z.
Proof.
  unfold show_Z, reads_int. destruct (Z.ltb_spec z 0).
  - right. split; [assumption|]. eexists. split; [reflexivity|]. rewrite read_dec_dec. f_equal. lia.
  - left. split; [assumption|]. rewrite read_dec_dec. f_equal. lia.
Qed.
Lemma sort_key_Z z : sort_key (" data-order='" ++ show_Z z ++ "'") z.
Proof. exists (show_Z z). split; [reflexivity|apply show_Z_reads]. Qed.
Lemma sort_key_N v : sort_key (" data-order='" ++ dec_of_N (value_or_0 v) ++ "'") (match v with Some v => Z.of_N v | None => 0%Z end).
Proof.
  exists (dec_of_N (value_or_0 v)). split; [reflexivity|]. left. destruct v as [v|]; cbn [value_or_0]; split; try lia; rewrite read_dec_dec; f_equal. lia.
Qed.
Lemma columns_lemma m args org r c tr : row_html m args org r c = Ok tr ->
  exists col key a2 a3 a4 a5 a6, html_color_abs m c (wa_unit args) = Ok col /\ order_abs m c = Ok key /\
    let value v := match v with Some v => escape (fmt_value (wa_unit args) v) | None => "-" end in
    let number v := match v with Some v => Z.of_N v | None => 0%Z end in
    let equation rev t := match t with Some t => "<a href=""https://github.com/" ++ org ++ "/" ++ wa_repo args ++ "/tree/" ++ rev ++ "/" ++ row_file r ++ "#:~:text=fn " ++ row_name r ++
      """ target=""_blank""><sup><small>CODE</small></sup></a> " ++ sdisplay t | None => "-" end in
    let variables := String.concat ", " (map (fun p => fst p ++ " = " ++ sdisplay (snd p)) (tc_scope c)) in
    let texts := [escape (row_file r);
      escape (row_name r) ++ "<sup><a href=""#" ++ row_file r ++ "." ++ row_name r ++ """>🔗</a></sup>";
      value (tc_old_v c); value (tc_new_v c); html_color_percent (tc_percent c) (tc_change c); col;
      equation (wa_old args) (tc_old c); equation (wa_new args) (tc_new c); escape variables] in
    let attrs := [""; a2; a3; a4; a5; a6; ""; ""; ""] in
    ((exists d w, row_diff r = DWarning d w) /\ a2 = " class=""text-warning""" \/ (forall d w, row_diff r <> DWarning d w) /\ a2 = "") /\
    sort_key a3 (number (tc_old_v c)) /\ sort_key a4 (number (tc_new_v c)) /\ sort_key a5 (order_percent c) /\ sort_key a6 key /\
    tr = "<tr id=""" ++ row_file r ++ "." ++ row_name r ++ """>" ++ String.concat "" (map (fun p => cell (fst p) (snd p)) (combine attrs texts)) ++ "</tr>".
Proof.
  unfold row_html. destruct (order_abs m c) as [key| | |]; try discriminate. destruct (html_color_abs m c (wa_unit args)) as [col| | |]; try discriminate.
  cbn [bind]. intros H. apply ok_inj in H. exists col, key.
  exists (match row_warning r with Some _ => " class=""text-warning""" | None => "" end),
    (" data-order='" ++ dec_of_N (value_or_0 (tc_old_v c)) ++ "'"), (" data-order='" ++ dec_of_N (value_or_0 (tc_new_v c)) ++ "'"),
    (" data-order='" ++ show_Z (order_percent c) ++ "'"), (" data-order='" ++ show_Z key ++ "'").
  split; [reflexivity|]. split; [reflexivity|]. cbn zeta.
  split; [unfold row_warning; destruct (row_diff r); [right|left|right]; (split; [|reflexivity]); [discriminate|eauto|discriminate]|].
  split; [apply sort_key_N|]. split; [apply sort_key_N|]. split; [apply sort_key_Z|]. split; [apply sort_key_Z|].
  rewrite <- H. unfold cell, equation_cell, value_cell, quoted, row_id. fold (show_scope (tc_scope c)).
  assert (El : forall rev (o : option sterm), match o with Some t => "<a href=""https://github.com/" ++ org ++ "/" ++ wa_repo args ++ "/tree/" ++ rev ++ "/" ++ row_file r ++ "#:~:text=fn " ++ row_name r ++
      """ target=""_blank""><sup><small>CODE</small></sup></a> " ++ sdisplay t | None => "-" end =
    match o with Some t => code_link (wa_repo args) org (row_name r) (row_file r) rev ++ " " ++ sdisplay t | None => "-" end).
  { intros rev [t|]; [|reflexivity]. unfold code_link, quote. repeat (rewrite ?app_str_assoc; cbn [append]). reflexivity. }
  rewrite !El. clear El.
  assert (Ev : forall v, escape (match v with Some v => fmt_value (wa_unit args) v | None => "-" end) = match v with Some v => escape (fmt_value (wa_unit args) v) | None => "-" end) by (intros [?|]; reflexivity).
  rewrite !Ev. clear Ev H tr.
  generalize (row_file r) as f, (row_name r) as n. intros f n.
  generalize (escape f) as ef, (escape n) as en, (dec_of_N (value_or_0 (tc_old_v c))) as d1, (dec_of_N (value_or_0 (tc_new_v c))) as d2,
    (show_Z (order_percent c)) as d3, (show_Z key) as d4, (html_color_percent (tc_percent c) (tc_change c)) as hp, (escape (show_scope (tc_scope c))) as es.
  intros.
  generalize (match tc_old_v c with Some v => escape (fmt_value (wa_unit args) v) | None => "-" end) as v1.
  generalize (match tc_new_v c with Some v => escape (fmt_value (wa_unit args) v) | None => "-" end) as v2.
  generalize (match tc_old c with Some t => code_link (wa_repo args) org n f (wa_old args) ++ " " ++ sdisplay t | None => "-" end) as q1.
  generalize (match tc_new c with Some t => code_link (wa_repo args) org n f (wa_new args) ++ " " ++ sdisplay t | None => "-" end) as q2.
  intros. destruct (row_warning r); cbn [combine map fst snd]; repeat (rewrite concat_cons by discriminate); cbn [String.concat]; unfold quote;
    rewrite !app_str_assoc; cbn [append]; rewrite ?app_str_assoc; cbn [append]; reflexivity.
Qed.
Lemma heads_lemma d : exists top unit, unit = (match d with Time => "Time" | Proof_size => "Proof" end) /\ table_head d = top ++ "<thead><tr>" ++
  String.concat "" (map head_cell ["File"; "Extrinsic"; "Old [" ++ unit ++ "]"; "New [" ++ unit ++ "]"; "Rel. Change"; "Abs. Change";
    "Old Equation"; "New Equation"; "Used Variables"]) ++ "</tr></thead><tbody>".
Proof. exists "<table id=""sort_me"" class=""display table"">", (match d with Time => "Time" | Proof_size => "Proof" end). split; [reflexivity|]. destruct d; reflexivity. Qed.

(** ** Requests *)
Lemma commits_sorted {W} git glob disk m ords rx repo old new cps ps filt pat mx (w : W) rows :
  fst (fst (compare_commits git glob disk m ords rx repo old new cps ps filt pat mx w)) = Ok rows -> NoDup (map row_key rows).
Proof. intros H. apply commits_files in H. destruct H as (olds & news & H). apply RowsP.rows_lemma in H. apply sorted_nodup, H. Qed.
Lemma answer_inv {W} (git : W -> list string -> W * cmd_result) glob disk m ords rx path a w sorted :
  do_compare git glob disk m ords rx path a w (Ok sorted) ->
  exists rows, fst (fst (compare_commits git glob disk m ords rx path (trim (wa_old a)) (trim (wa_new a)) (web_params a) (web_git a) (web_filter a)
      (trim (wa_pattern a)) web_max_files w)) = Ok rows /\ sort_changes (filter_changes rows (web_filter a)) sorted.
Proof. intros H. inversion H as [rows s E S| |]; subst. eauto. Qed.
Lemma f64_of_N_double n : is_double (f64_of_N n).
Proof.
  unfold f64_of_N. change f64_prec with F64P.prec. change f64_emax with F64P.emax.
  rewrite F64P.binary_normalize_equiv. apply RowsP.valid_B2SF.
Qed.
Lemma f64_of_N_value n : (n <= 2 ^ 53)%N -> has_value (f64_of_N n) (RN n).
Proof.
  intros H. apply PercentP.isF_has_value. rewrite <- (PercentP.rN_small n) by lia. unfold PercentP.rN. apply F64P.isF_of_N. apply N.le_trans with (2 ^ 53)%N; [lia|].
  apply N.pow_le_mono_r; lia.
Qed.
Lemma answer_lemma {W} (git : W -> list string -> W * cmd_result) glob disk m ords rx path a w sorted :
  (forall k, is_order (ords k)) -> (wa_threshold a < 2 ^ 32)%N ->
  do_compare git glob disk m ords rx path a w (Ok sorted) ->
  exists old new pat t rows kept,
    let filt := {| f_threshold := t; f_change := None; f_extrinsic := wa_extrinsic a; f_pallet := wa_pallet a |} in
    trimmed (wa_old a) old /\ trimmed (wa_new a) new /\ trimmed (wa_pattern a) pat /\ is_double t /\ has_value t (RN (wa_threshold a)) /\
    fst (fst (compare_commits git glob disk m ords rx path old new {| p_method := wa_method a; p_unit := wa_unit a |}
      {| g_ignore_errors := wa_ignore_errors a; g_pull := negb (match wa_pull a with Some b => negb b | None => false end); g_force := true; g_offline := false |}
      filt pat (N.to_nat 6000) w)) = Ok rows /\
    selects (relevant filt) rows kept /\ Permutation kept sorted /\ StronglySorted row_le sorted.
Proof.
  intros Ho Ht H. destruct (answer_inv _ _ _ _ _ _ _ _ _ _ H) as (rows & E & S).
  exists (trim (wa_old a)), (trim (wa_new a)), (trim (wa_pattern a)), (f64_of_N (wa_threshold a)), rows, (filter_changes rows (web_filter a)).
  cbn zeta. split; [now apply WebP.trim_lemma|]. split; [now apply WebP.trim_lemma|]. split; [now apply WebP.trim_lemma|].
  split; [apply f64_of_N_double|]. split; [apply f64_of_N_value; lia|].
  split; [|split].
  - unfold web_params, web_git, web_filter, web_max_files in E. destruct (wa_pull a) as [[|]|]; exact E.
  - apply RowsP.filter_lemma; [apply f64_of_N_double|]. eapply CliP.commits_typed; eauto.
  - destruct (RowsP.sort_lemma _ _ S) as (P & R & _). auto.
Qed.
Lemma filter_in rows f r : In r (filter_changes rows f) -> In r rows.
Proof. intros I. apply filter_In in I. tauto. Qed.
Lemma ids_lemma {W} (git : W -> list string -> W * cmd_result) glob disk m ords rx path a w sorted :
  do_compare git glob disk m ords rx path a w (Ok sorted) ->
  NoDup (map row_key sorted) /\ ((forall r, In r sorted -> without "." (row_name r)) -> NoDup (map row_id sorted)).
Proof.
  intros H. destruct (answer_inv _ _ _ _ _ _ _ _ _ _ H) as (rows & E & S). apply commits_sorted in E.
  destruct (RowsP.sort_lemma _ _ S) as (P & _). assert (N : NoDup (map row_key sorted)).
  { eapply Permutation_NoDup; [apply Permutation_map, P|]. apply nodup_filter, E. }
  split; [exact N|]. intros D. now apply nodup_ids.
Qed.
Lemma renders_lemma {W} (git : W -> list string -> W * cmd_result) glob disk m ords rx path a w sorted org : (forall k, is_order (ords k)) ->
  do_compare git glob disk m ords rx path a w (Ok sorted) ->
  (forall r c v, In r sorted -> reports r c -> tc_old_v c = Some v \/ tc_new_v c = Some v -> (v < 2 ^ 127)%N) ->
  exists s, page_results m a org sorted = Ok s.
Proof.
  intros Ho H B. destruct (answer_inv _ _ _ _ _ _ _ _ _ _ H) as (rows & E & S). apply commits_files in E. destruct E as (olds & news & E).
  assert (V := files_values _ _ _ _ _ _ _ _ Ho E). destruct (RowsP.sort_lemma _ _ S) as (P & _).
  apply render_lemma. intros r c I R K. assert (I' : In r rows) by (apply Permutation_sym in P; eapply filter_in, Permutation_in; eauto).
  destruct (V r c I' R K) as (o & n & Eo & En). exists o, n. repeat split; auto; eapply B; eauto.
Qed.
