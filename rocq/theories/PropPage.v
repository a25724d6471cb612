(** Properties C62 to C65: the page with the results. *)
From Coq Require Import List String Ascii Arith NArith ZArith Bool.
From Verif Require Import Base ScopeM TermM F64 CompareM RowsM FmtM SynM ParseM StorageM FilesM GitM SpecGit CliM HtmlM WebM PageM.
From Verif Require Import SpecTerm SpecChrom SpecF64 SpecFiles SpecCompare SpecRows SpecWeb.
From Verif Require RowsP GitP PageP PropGit PropServer.
Import ListNotations.
Local Open Scope string_scope.

(** ** C62: escaped texts. *)
Theorem C62_no_markup : forall s, mild (escape s).
Proof. exact PageP.escape_mild. Qed.
Print Assumptions C62_no_markup.
(** A browser shows the text... *)
Theorem C62_shown : forall s, decodes (escape s) s.
Proof. exact PageP.escape_decodes. Qed.
Print Assumptions C62_shown.
(** ... and nothing else. *)
Theorem C62_only : forall t s s', decodes t s -> decodes t s' -> s = s'.
Proof. intros t s s' H H'. exact (PageP.decodes_fun t s H s' H'). Qed.
Print Assumptions C62_only.
Example C62_ex : escape "<a href=""x&y"">'" = "&lt;a href=&quot;x&amp;y&quot;&gt;&#039;" /\ ~ mild "<a>" /\ ~ decodes "<a>&amp;" "&".
Proof.
  split; [reflexivity|]. split.
  - intros H. apply (H "<"%char); cbn; auto.
  - intros H. inversion H as [|c t s N D E|t s name c I D E]; subst. cbn in I.
    repeat (destruct I as [I|I]; [first [discriminate I|injection I as <-; discriminate]|]). exact I.
Qed.

(** ** C63: every row is shown once, in the order of the table. *)
Theorem C63_body : forall m args org diff s, page_results m args org diff = Ok s ->
  exists shown trs top,
    selects (fun r => ~ is_failed r) diff shown /\
    Forall2 (fun r tr => exists c, reports r c /\ row_html m args org r c = Ok tr) shown trs /\
    s = top ++ "<tbody>" ++ String.concat "" trs ++ "</tbody>".
Proof. exact PageP.body_lemma. Qed.
Print Assumptions C63_body.
(** A row has nine cells... *)
Theorem C63_columns : forall m args org r c tr, row_html m args org r c = Ok tr ->
  exists col key a2 a3 a4 a5 a6, html_color_abs m c (wa_unit args) = Ok col /\ order_abs m c = Ok key /\
    let value v := match v with Some v => escape (fmt_value (wa_unit args) v) | None => "-" end in
    let number v := match v with Some v => Z.of_N v | None => 0%Z end in
    let equation rev t := match t with Some t => "<a href=""https://github.com/" ++ org ++ "/" ++ wa_repo args ++ "/tree/" ++ rev ++ "/" ++ row_file r ++ "#:~:text=fn " ++ row_name r ++
      """ target=""_blank""><sup><small>CODE</small></sup></a> " ++ sdisplay t | None => "-" end in
    let variables := String.concat ", " (map (fun p => fst p ++ " = " ++ sdisplay (snd p)) (tc_scope c)) in
    let texts := [escape (row_file r);
      escape (row_name r) ++ "<sup><a href=""#" ++ row_file r ++ "." ++ row_name r ++ """>🔗</a></sup>";
      value (tc_old_v c); value (tc_new_v c); html_color_percent (tc_percent c) (tc_change c); col;
      equation (wa_old args) (tc_old c); equation (wa_new args) (tc_new c); escape variables] in
    let attrs := [""; a2; a3; a4; a5; a6; ""; ""; ""] in
    ((exists d w, row_diff r = DWarning d w) /\ a2 = " class=""text-warning""" \/ (forall d w, row_diff r <> DWarning d w) /\ a2 = "") /\
    sort_key a3 (number (tc_old_v c)) /\ sort_key a4 (number (tc_new_v c)) /\ sort_key a5 (order_percent c) /\ sort_key a6 key /\
    tr = "<tr id=""" ++ row_file r ++ "." ++ row_name r ++ """>" ++ String.concat "" (map (fun p => cell (fst p) (snd p)) (combine attrs texts)) ++ "</tr>".
Proof. exact PageP.columns_lemma. Qed.
Print Assumptions C63_columns.
(** ... and so has the head of the table. *)
Theorem C63_head : forall d, exists top unit, unit = (match d with Time => "Time" | Proof_size => "Proof" end) /\ table_head d = top ++ "<thead><tr>" ++
  String.concat "" (map head_cell ["File"; "Extrinsic"; "Old [" ++ unit ++ "]"; "New [" ++ unit ++ "]"; "Rel. Change"; "Abs. Change";
    "Old Equation"; "New Equation"; "Used Variables"]) ++ "</tr></thead><tbody>".
Proof. exact PageP.heads_lemma. Qed.
Print Assumptions C63_head.
(** The messages of the rows without a change and of the rows with a warning are shown, too. *)
Theorem C63_messages : forall m args org diff s, page_results m args org diff = Ok s ->
  (forall r e, In r diff -> row_diff r = DFailed e -> occurs (e ++ "<br>") s) /\
  (forall r c w, In r diff -> row_diff r = DWarning c w -> occurs (w ++ "<br>") s) /\
  (forall r c, In r diff -> reports r c -> exists tr, row_html m args org r c = Ok tr /\ occurs tr s).
Proof. exact PageP.page_lemma. Qed.
Print Assumptions C63_messages.
Theorem C63_count : forall diff, List.length (page_errors diff) + List.length (page_rows diff) = List.length diff.
Proof. exact PageP.rows_partition. Qed.
Print Assumptions C63_count.
(** The page for the answer to a request can always be shown if the weights are below 2^127. *)
Theorem C63_renders : forall (W : Type) (git : W -> list string -> W * cmd_result) glob disk m ords rx path a w sorted org, (forall k, is_order (ords k)) ->
  do_compare git glob disk m ords rx path a w (Ok sorted) ->
  (forall r c v, In r sorted -> reports r c -> tc_old_v c = Some v \/ tc_new_v c = Some v -> (v < 2 ^ 127)%N) ->
  exists s, page_results m a org sorted = Ok s.
Proof. exact @PageP.renders_lemma. Qed.
Print Assumptions C63_renders.
Example C63_ex : match page_results Checked PropServer.ex_good "paritytech" PropServer.ex_rows with
  | Ok s => contains "<tr id=""x.rs.f""><td>x.rs</td><td>f<sup><a href=""#x.rs.f"">🔗</a></sup></td><td data-order='50'>50ps</td><td data-order='60'>60ps</td>" s = true
  | _ => False
  end.
Proof. vm_compute. reflexivity. Qed.

(** ** C64: links to rows. *)
Theorem C64_ids : forall (W : Type) (git : W -> list string -> W * cmd_result) glob disk m ords rx path a w sorted,
  do_compare git glob disk m ords rx path a w (Ok sorted) ->
  NoDup (map row_key sorted) /\ ((forall r, In r sorted -> without "." (row_name r)) -> NoDup (map row_id sorted)).
Proof. exact @PageP.ids_lemma. Qed.
Print Assumptions C64_ids.
Example C64_ex : PropServer.ex_runs PropServer.ex_good (Ok PropServer.ex_rows) /\ map row_id PropServer.ex_rows = ["x.rs.f"] /\
  (forall r, In r PropServer.ex_rows -> without "." (row_name r)).
Proof.
  split; [exact PropServer.ex_runs_good|]. split; [reflexivity|]. intros r [<-|[]]. cbn. repeat split; discriminate.
Qed.

(** ** C65: texts from outside do not change the structure of a row, if they have no markup... *)
Theorem C65_markup : forall m args org r c s,
  mild (wa_old args) -> mild (wa_new args) -> mild (wa_repo args) -> mild org -> mild (row_file r) -> mild (row_name r) ->
  (forall t, tc_old c = Some t \/ tc_new c = Some t -> mild_vars t) ->
  row_html m args org r c = Ok s ->
  exists s0, row_html m (no_text_args args) "" (no_text_row r) (no_text_change c) = Ok s0 /\
    forall ch, In ch markup -> count ch s = count ch s0.
Proof. exact PageP.markup_lemma. Qed.
Print Assumptions C65_markup.
Definition ex_evil : string := """><svg/onload=alert(1)>".
Definition ex_evil_repo : grepo :=
  mk_repo (PropGit.ex_names [("master", 5); (ex_evil, 6)]%N) (PropGit.ex_names [("master", 3)]%N) (PropGit.ex_names [("master", 2)]%N) (PropGit.ex_names [])
    (String.eqb "README.md") (OnBranch "master") 2%N.
Definition ex_evil_args : web_args :=
  {| wa_old := "master"; wa_new := ex_evil; wa_repo := "good"; wa_pattern := "*.rs"; wa_extrinsic := None; wa_pallet := None;
     wa_ignore_errors := true; wa_threshold := 5%N; wa_unit := Time; wa_pull := None; wa_method := GuessWorst |}.
Example C65_ex : mild (wa_old PropServer.ex_good) /\ mild (wa_new PropServer.ex_good) /\
  exists r c s, PropServer.ex_rows = [r] /\ reports r c /\ row_html Checked PropServer.ex_good "paritytech" r c = Ok s /\ count "<" s = 40.
Proof.
  split; [now apply PageP.lit_mild|]. split; [now apply PageP.lit_mild|]. do 3 eexists. split; [reflexivity|]. split; [left; reflexivity|].
  split; vm_compute; reflexivity.
Qed.
(** ... but the name of a branch can have markup, and it ends up on the page: the condition on it cannot be dropped. *)
Theorem C65_refuted : exists a rows r c s s0,
  do_compare run_git (fun s => PropGit.ex_tglob (r_work s)) (fun s => PropGit.ex_tdisk (r_work s)) Checked (fun _ l => l) RowsP.rx_all [CCur] a ex_evil_repo (Ok rows) /\
  In r rows /\ reports r c /\ mild (wa_old a) /\ mild (wa_repo a) /\ mild (row_file r) /\ mild (row_name r) /\
  (forall t, tc_old c = Some t \/ tc_new c = Some t -> mild_vars t) /\
  row_html Checked a "paritytech" r c = Ok s /\ row_html Checked (no_text_args a) "" (no_text_row r) (no_text_change c) = Ok s0 /\
  count "<" s = S (count "<" s0) /\ occurs "<svg/onload=alert(1)>" s.
Proof.
  exists ex_evil_args. do 5 eexists. split.
  { eapply dc_ok; [vm_compute; reflexivity|]. constructor. vm_compute. reflexivity. }
  split; [left; reflexivity|]. split; [left; reflexivity|]. split; [now apply PageP.lit_mild|]. split; [now apply PageP.lit_mild|].
  split; [now apply PageP.lit_mild|]. split; [now apply PageP.lit_mild|]. split; [intros t [[= <-]|[= <-]]; exact I|].
  split; [vm_compute; reflexivity|]. split; [vm_compute; reflexivity|]. split; [vm_compute; reflexivity|].
  apply GitP.contains_spec. vm_compute. reflexivity.
Qed.
Print Assumptions C65_refuted.
