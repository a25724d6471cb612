(** Property C89: the page of merge requests. *)
From Coq Require Import List String Ascii Arith NArith ZArith Bool Permutation Sorted.
From Verif Require Import Base FilesM GitM CliM WebM SiteM MrM SpecFmt SpecFiles SpecRows SpecSite SpecArgs SpecWeb SpecMr.
From Verif Require MrP.
Import ListNotations.
Local Open Scope string_scope.

(** ** C89: the page lists the merge requests of the chosen repository, marks those about weights, and compares their branches. *)
(** The repository is the one that the address says, or the default. *)
Theorem C89_listed : forall base l frag o r, no_params base -> no_params frag -> param_is l "owner" "paritytech" o -> param_is l "repo" "polkadot-sdk" r ->
  listed {| u_base := base; u_query := form_query l; u_fragment := frag |} = Some (o, r).
Proof. exact MrP.listed_lemma. Qed.
Print Assumptions C89_listed.
(** After a choice, it is the chosen one, and everything else in the address stays. *)
Theorem C89_choice : forall u o r, no_params (u_base u) -> no_params (u_fragment u) -> github_name o -> github_name r ->
  let u' := choose_repo u (o ++ ":" ++ r) in
  listed u' = Some (o, r) /\ u_base u' = u_base u /\
  exists l l', query (u_query u) l /\ query (u_query u') l' /\ values_of "owner" l' = [o] /\ values_of "repo" l' = [r] /\
    forall k, k <> "owner" -> k <> "repo" -> values_of k l' = values_of k l.
Proof. exact MrP.choice_lemma. Qed.
Print Assumptions C89_choice.
(** If no repository of a merge request was deleted: there is one row for each, the newest first; the rows of forks are gray and do nothing;
    of the others, exactly those about weights are green; and their number is shown. *)
Theorem C89_rows : forall show owner data, Forall (fun mr => pr_owner mr <> None) data ->
  exists order own, newest_first data order /\ selects (fun mr => pr_owner mr = Some owner /\ about_weights mr) order own /\
    let p := mr_answered show owner (Some data) in
    Forall2 (row_for show owner) order (mp_rows p) /\ mp_highlighted p = N.of_nat (List.length own) /\ mp_overlay p = false.
Proof. exact MrP.list_lemma. Qed.
Print Assumptions C89_rows.
(** Otherwise, the list ends with the first such merge request, the number is not shown, and the overlay stays. *)
Theorem C89_deleted : forall show owner data, (exists mr, In mr data /\ pr_owner mr = None) ->
  exists before mr after, newest_first data (before ++ mr :: after) /\ Forall (fun mr => pr_owner mr <> None) before /\ pr_owner mr = None /\
    let p := mr_answered show owner (Some data) in
    exists rows row, mp_rows p = (rows ++ [row])%list /\ Forall2 (row_for show owner) before rows /\ shows_pull show mr (row_cells row) /\ row_color row = None /\ row_opens row = None /\
    mp_highlighted p = 0%N /\ mp_overlay p = true.
Proof. exact MrP.deleted_lemma. Qed.
Print Assumptions C89_deleted.
(** A double click on a row with branches has them fetched and then asks for the comparison of these two branches, the base with the head,
    in the one repository that the pages know; in any other repository it covers the page. *)
Theorem C89_open : forall repo row base head fetched, row_opens row = Some (base, head) ->
  only (fun c => ~ In c link_chars) base -> only (fun c => ~ In c link_chars) head ->
  (repo = "polkadot-sdk" -> exists q l, double_click repo row fetched =
     (["/branches?repo=" ++ repo ++ "&fetch=true"], if fetched then Some ("/compare?" ++ q) else None, negb fetched) /\
     query q l /\ describes l (root_args repo base head sdk_files)) /\
  (repo <> "polkadot-sdk" -> double_click repo row fetched = ([], None, true)).
Proof. exact MrP.open_lemma. Qed.
Print Assumptions C89_open.

Definition ex_pull title head owner t := {| pr_title := title; pr_user := "someone"; pr_head := head; pr_base := "master"; pr_owner := owner; pr_updated := t |}.
Definition ex_data := [ex_pull "Fix a typo" "fix" (Some "paritytech") 10; ex_pull "Run benchmarks" "new-WEIGHTS" (Some "paritytech") 30;
  ex_pull "New weights" "main" (Some "someone") 20; ex_pull "Re-Weight" "w" (Some "paritytech") 20].
Definition ex_page := mr_answered (fun _ => "today") "paritytech" (Some ex_data).
Example C89_ex : map (fun r => (nth 0 (row_cells r) "", row_color r, row_opens r)) (mp_rows ex_page) =
    [("Run benchmarks", Some "seagreen", Some ("master", "new-WEIGHTS")); ("New weights", Some "gray", None);
     ("Re-Weight", Some "seagreen", Some ("master", "w")); ("Fix a typo", None, Some ("master", "fix"))] /\
  mp_highlighted ex_page = 2%N /\ mp_overlay ex_page = false /\ Forall (fun mr => pr_owner mr <> None) ex_data.
Proof. vm_compute. repeat split; repeat constructor; discriminate. Qed.
Definition ex_url := {| u_base := "http://localhost:8080/compare-mr"; u_query := "x=1%262&owner=a&repo=b"; u_fragment := "top" |}.
Example C89_ex_choice : listed ex_url = Some ("a", "b") /\ no_params (u_base ex_url) /\ no_params (u_fragment ex_url) /\ github_name "paritytech" /\
  href (choose_repo ex_url "paritytech:polkadot-sdk") = "http://localhost:8080/compare-mr?x=1%262&owner=paritytech&repo=polkadot-sdk#top" /\
  listed {| u_base := "http://localhost:8080/compare-mr"; u_query := ""; u_fragment := "" |} = Some ("paritytech", "polkadot-sdk") /\
  listed {| u_base := "http://localhost:8080/compare-mr"; u_query := "owner=100%"; u_fragment := "" |} = None.
Proof.
  assert (O : forall P s, Forall P (list_ascii_of_string s) -> only P s) by (intros P s H; exact (proj1 (Forall_forall P _) H)).
  assert (G : forall s, forallb (fun c => existsb (Ascii.eqb c) name_chars) (list_ascii_of_string s) = true -> only (fun c => In c name_chars) s).
  { intros s H c I. rewrite forallb_forall in H. apply H, existsb_exists in I as (d & I & E). apply Ascii.eqb_eq in E. now subst d. }
  split; [vm_compute; reflexivity|]. split; [apply O; repeat constructor; discriminate|]. split; [apply O; repeat constructor; discriminate|].
  split; [split; [discriminate|]; apply G; vm_compute; reflexivity|]. repeat split; vm_compute; reflexivity.
Qed.
Example C89_ex_open : match nth_error (mp_rows ex_page) 3 with
  | Some row => match double_click "polkadot-sdk" row true with
                | (["/branches?repo=polkadot-sdk&fetch=true"], Some _, false) => True
                | _ => False
                end
  | None => False
  end.
Proof. vm_compute. exact I. Qed.
(** One deleted repository hides all older merge requests. *)
Theorem C89_all_refuted : exists show owner data mr, In mr data /\ pr_owner mr = Some owner /\ about_weights mr /\
  let p := mr_answered show owner (Some data) in mp_overlay p = true /\ forall row, In row (mp_rows p) -> ~ row_for show owner mr row.
Proof.
  exists (fun _ => "today"), "paritytech", [ex_pull "Old idea" "x" None 2; ex_pull "New weights" "y" (Some "paritytech") 1], (ex_pull "New weights" "y" (Some "paritytech") 1).
  split; [now right; left|]. split; [reflexivity|]. split; [left; exists "New ", "weight", "s"; split; [reflexivity|repeat constructor]|]. split; [vm_compute; reflexivity|].
  intros row [<- | []] (_ & o & E & K & _). injection E as <-. destruct (K eq_refl) as [K' _]. discriminate K'.
Qed.
Print Assumptions C89_all_refuted.
(** Titles are put into the page as HTML: a title can bring its own elements. *)
Theorem C89_markup_refuted : exists show owner data row, In row (mp_rows (mr_answered show owner (Some data))) /\
  exists mr, In mr data /\ pr_title mr = "<img src=x onerror=alert(1)>" /\ nth 0 (row_cells row) "" = pr_title mr.
Proof.
  exists (fun _ => "today"), "paritytech", [ex_pull "<img src=x onerror=alert(1)>" "y" (Some "someone") 1]. eexists. split; [left; reflexivity|].
  eexists. split; [left; reflexivity|]. split; vm_compute; reflexivity.
Qed.
Print Assumptions C89_markup_refuted.
(** For GitHub, case does not matter in the name of an owner; here, all merge requests count as those of forks then. *)
Theorem C89_case_refuted : exists u owner repo, listed u = Some (owner, repo) /\ spells owner "paritytech" /\
  forall show mr row, pr_owner mr = Some "paritytech" -> row_for show owner mr row -> row_color row = Some "gray" /\ row_opens row = None.
Proof.
  exists {| u_base := "/compare-mr"; u_query := "owner=Paritytech"; u_fragment := "" |}, "Paritytech", "polkadot-sdk". split; [vm_compute; reflexivity|]. split.
  - apply (spells_capital 80); [easy|]. repeat constructor.
  - intros show mr row O (_ & o & E & _ & K). rewrite O in E. injection E as <-. destruct K as (A & B & _); [discriminate|]. auto.
Qed.
Print Assumptions C89_case_refuted.
