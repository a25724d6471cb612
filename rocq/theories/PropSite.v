(** Properties C67 to C72: the start of the web server, requests, links and the pages around the results. *)
From Coq Require Import List String Ascii Arith NArith Bool Sorting.Sorted.
From Verif Require Import Base ScopeM TermM F64 CompareM RowsM FmtM FilesM GitM CliM HtmlM WebM PageM SiteM.
From Verif Require Import SpecFmt SpecFiles SpecRows SpecCli SpecWeb SpecSite.
From Verif Require WebP SiteP.
Import ListNotations.
Local Open Scope string_scope.

(** ** C67: the start of the server. *)
(** It starts if and only if there is a repository, all are there with an organization, and so are the static
    files. It then knows every repository under its name, and no other. *)
Theorem C67_start : forall remote exists_ is_dir root static names repos, start remote exists_ is_dir root static names = Ok repos <->
  names <> [] /\ is_dir (path_of static) = true /\
  (forall n, In n names -> exists_ (join root n) = true /\ exists o, has_org remote (join root n) o) /\
  StronglySorted (fun a b => str_cmp a b = Lt) (map fst repos) /\
  forall n r, In (n, r) repos <-> In n names /\ sr_name r = n /\ sr_path r = join root n /\ has_org remote (join root n) (sr_org r).
Proof. exact SiteP.start_lemma. Qed.
Print Assumptions C67_start.
(** If not, there is a message about the first thing that is wrong. *)
Theorem C67_failure : forall remote exists_ is_dir root static names,
  (exists repos, start remote exists_ is_dir root static names = Ok repos) \/
  (exists e, start remote exists_ is_dir root static names = Err e /\
    (names = [] /\ e = "Need at least one value to --repos" \/
     (exists before n after, names = before ++ n :: after /\
       (forall m, In m before -> exists_ (join root m) = true /\ exists o, has_org remote (join root m) o) /\
       ((~ (exists o, has_org remote (join root n) o)) /\ (exists why, e = "Failed to get origin of " ++ n ++ ": " ++ why)%string \/
        (exists o, has_org remote (join root n) o) /\ exists_ (join root n) = false /\ e = ("Repo directory '" ++ path_text (join root n) ++ "' does not exist")%string)) \/
     (forall m, In m names -> exists_ (join root m) = true /\ exists o, has_org remote (join root m) o) /\ is_dir (path_of static) = false /\
       e = ("Web root path '""" ++ static ++ """' is not a directory")%string))%list.
Proof. exact SiteP.start_err. Qed.
Print Assumptions C67_failure.
(** As git cannot be run in a directory that is missing, the message about missing directories never comes. *)
Theorem C67_missing : forall remote exists_ is_dir root static names e,
  (forall p, exists_ p = false -> exists why out, remote p = (NotRun why, out)) ->
  start remote exists_ is_dir root static names = Err e -> forall p, e <> "Repo directory '" ++ p ++ "' does not exist".
Proof. exact SiteP.missing_lemma. Qed.
Print Assumptions C67_missing.
(** Where a repository is: below the root... *)
Theorem C67_path : forall root l, l <> [] -> Forall (fun s => plain (CName s)) l -> join root (String.concat "/" l) = (root ++ map CName l)%list.
Proof. exact SiteP.join_plain. Qed.
Print Assumptions C67_path.
(** ... but not always: a path from the root of the disk stays what it is. *)
Theorem C67_absolute : forall root l, Forall (fun s => plain (CName s)) l -> join root (String "/" (String.concat "/" l)) = CRoot :: map CName l.
Proof. exact SiteP.join_absolute. Qed.
Print Assumptions C67_absolute.
Theorem C67_below_refuted : exists root name, ~ exists rest, join root name = (root ++ rest)%list.
Proof. exists [CName "repos"], "/etc". intros [rest H]. discriminate H. Qed.
Print Assumptions C67_below_refuted.
Definition ex_remote (p : fpath) : cmd_result * string :=
  match p with
  | [_; CName "polkadot-sdk"] => (Exited true "", "https://github.com/paritytech/polkadot-sdk.git")
  | [_; CName "local"] => (Exited true "", "/srv/git/local")
  | _ => (NotRun "No such file or directory", "")
  end.
Definition ex_exists (p : fpath) : bool := match p with [_; CName "polkadot-sdk"] | [_; CName "local"] => true | _ => false end.
Example C67_ex :
  start ex_remote ex_exists (fun _ => true) [CName "repos"] "static" ["polkadot-sdk"] =
    Ok [("polkadot-sdk", {| sr_name := "polkadot-sdk"; sr_path := [CName "repos"; CName "polkadot-sdk"]; sr_org := "paritytech" |})] /\
  start ex_remote ex_exists (fun _ => true) [CName "repos"] "static" ["polkadot-sdk"; "local"] = Err "Failed to get origin of local: Failed to parse origin url" /\
  start ex_remote ex_exists (fun _ => true) [CName "repos"] "static" ["missing"] =
    Err "Failed to get origin of missing: Failed to get origin url: No such file or directory" /\
  start ex_remote ex_exists (fun _ => false) [CName "repos"] "static" ["polkadot-sdk"] = Err "Web root path '""static""' is not a directory".
Proof. repeat split; vm_compute; reflexivity. Qed.
Example C67_missing_ex : forall p, ex_exists p = false -> exists why out, ex_remote p = (NotRun why, out).
Proof.
  intros p H. unfold ex_remote, ex_exists in *.
  repeat match goal with |- exists _ _, match ?x with _ => _ end = _ => destruct x; try (eexists; eexists; reflexivity); try discriminate H end.
Qed.

(** ** C68: how a request is read and answered. *)
(** A query gives these arguments if and only if it has them. *)
Theorem C68_read : forall q a, read_query q = Ok a <-> exists l, query q l /\ describes l a.
Proof. exact SiteP.read_query_iff. Qed.
Print Assumptions C68_read.
(** Every text can be sent. *)
Theorem C68_encoded : forall l, query (form_query l) l.
Proof. exact SiteP.form_query_spec. Qed.
Print Assumptions C68_encoded.
(** A query is read in one way only. *)
Theorem C68_once : forall q l l', query q l -> query q l' -> l = l'.
Proof. intros q l l' A B. apply SiteP.query_iff in A, B. now rewrite <- A. Qed.
Print Assumptions C68_once.
(** The answer: the result page, or the message of the comparison; if the request asks for nothing, there is a
    message and no comparison is run. *)
Theorem C68_answer : forall ent version m repos q run, StronglySorted (fun a b => str_cmp a b = Lt) (map fst repos) ->
  let orgs := map (fun p => (fst p, sr_org (snd p))) repos in
  (forall a org diff cached, asks ent orgs q a org -> run a = Ok (diff, cached) ->
    forall results, page_results m a org diff = Ok results ->
    compare_answer ent version m repos q run = Ok (200, config_table version (map fst repos) a cached ++ results)) /\
  (forall a org e, asks ent orgs q a org -> run a = Err e ->
    exists page, compare_answer ent version m repos q run = Ok (500, page) /\ error_shown e page) /\
  (~ (exists a org, asks ent orgs q a org) ->
    exists e page, error_shown e page /\ forall run', compare_answer ent version m repos q run' = Ok (500, page)).
Proof. exact SiteP.answer_lemma. Qed.
Print Assumptions C68_answer.
Theorem C68_success : forall ent version m repos q run page, StronglySorted (fun a b => str_cmp a b = Lt) (map fst repos) ->
  compare_answer ent version m repos q run = Ok (200, page) ->
  exists a org diff cached results, asks ent (map (fun p => (fst p, sr_org (snd p))) repos) q a org /\ run a = Ok (diff, cached) /\
    page_results m a org diff = Ok results /\ page = config_table version (map fst repos) a cached ++ results.
Proof. exact SiteP.answer_200. Qed.
Print Assumptions C68_success.
Definition ex_query : string := "old=master&new=a%2Fb+c&repo=sdk&path_pattern=*.rs&ignore_errors=true&threshold=%2B10&unit=weight&method=exact-worst&pallet=x&other=1&&".
Definition ex_args : web_args :=
  {| wa_old := "master"; wa_new := "a/b c"; wa_repo := "sdk"; wa_pattern := "*.rs"; wa_extrinsic := None; wa_pallet := Some "x"; wa_ignore_errors := true;
     wa_threshold := 10; wa_unit := Time; wa_pull := None; wa_method := ExactWorst |}.
Definition ex_repos : list (string * site_repo) := [("sdk", {| sr_name := "sdk"; sr_path := []; sr_org := "paritytech" |})].
Example C68_ex : read_query ex_query = Ok ex_args /\
  read_query (ex_query ++ "&old=x") = Err "duplicate field `old`" /\ read_query "old=master" = Err "missing field `new`" /\
  read_query (ex_query ++ "&git_pull=yes") = Err "invalid value for `git_pull`" /\
  asks (fun s => s) [("sdk", "paritytech")] ex_query ex_args "paritytech" /\
  compare_answer (fun s => s) "0" Checked [] ex_query (fun _ => Diverge) = Ok (500, "<h1>Error</h1><h2>Unknown repo organization &#039;sdk&#039;</h2>") /\
  compare_answer (fun s => s) "0" Checked ex_repos ex_query (fun _ => Err "a < b") = Ok (500, "<h1>Error</h1><h2>a &lt; b</h2>").
Proof.
  split; [vm_compute; reflexivity|]. split; [vm_compute; reflexivity|]. split; [vm_compute; reflexivity|]. split; [vm_compute; reflexivity|].
  split; [|split; vm_compute; reflexivity].
  change [("sdk", "paritytech")] with (SiteP.orgs_of ex_repos). apply SiteP.prepare_iff; [repeat constructor|vm_compute; reflexivity].
Qed.

(** ** C69: changing one argument on the result page. *)
Theorem C69_redirect : forall q k v q' a, url_redirect q k v = Some q' -> read_query q = Ok a ->
  (fits k v -> exists b, read_query q' = Ok b) /\ forall b, read_query q' = Ok b -> same_but k a b /\ has_field k v b.
Proof. exact SiteP.redirect_args. Qed.
Print Assumptions C69_redirect.
Example C69_ex : match url_redirect ex_query "new" "feature/x&y=z #1+2" with
  | Some q => exists b, read_query q = Ok b /\ wa_new b = "feature/x&y=z #1+2" /\ same_but "new" ex_args b
  | None => False
  end /\ fits "method" "base" /\ ~ fits "method" "worst" /\ fits "old" "anything".
Proof.
  split.
  - destruct (url_redirect ex_query "new" "feature/x&y=z #1+2") as [q|] eqn:U; [|discriminate].
    destruct (C69_redirect _ _ _ _ ex_args U) as [X Y]; [vm_compute; reflexivity|]. destruct X as [b B]; [unfold fits; split; [intros []; discriminate|]; repeat split; discriminate|].
    exists b. destruct (Y b B) as [S H]. split; [exact B|]. split; [now apply (hf_new _ _ _ H)|exact S].
  - split; [|split].
    + unfold fits. split; [intros []; discriminate|]. split; [discriminate|]. split; [discriminate|]. intros _. exists Base. cbn. auto.
    + intros (_ & _ & _ & M). destruct (M eq_refl) as [m I]. cbn in I. intuition discriminate.
    + unfold fits. split; [intros []; discriminate|]. repeat split; discriminate.
Qed.
(** A text that was entered cannot be taken back: nothing happens for the empty text. *)
Theorem C69_empty_refuted : exists q a b, read_query q = Ok a /\ same_but "pallet" a b /\ wa_pallet b = Some "" /\
  (exists q', read_query q' = Ok b) /\ forall k v q', url_redirect q k v = Some q' -> read_query q' <> Ok b.
Proof.
  exists ex_query, ex_args, (let a := ex_args in
    {| wa_old := wa_old a; wa_new := wa_new a; wa_repo := wa_repo a; wa_pattern := wa_pattern a; wa_extrinsic := wa_extrinsic a; wa_pallet := Some "";
       wa_ignore_errors := wa_ignore_errors a; wa_threshold := wa_threshold a; wa_unit := wa_unit a; wa_pull := wa_pull a; wa_method := wa_method a |}).
  split; [vm_compute; reflexivity|]. split; [constructor; cbn; congruence|]. split; [reflexivity|]. split.
  - exists "old=master&new=a%2Fb+c&repo=sdk&path_pattern=*.rs&ignore_errors=true&threshold=10&unit=weight&method=exact-worst&pallet=". vm_compute. reflexivity.
  - intros k v q' U R. assert (V : v <> "") by (intros ->; discriminate U).
    destruct (C69_redirect _ _ _ _ ex_args U) as [_ Y]; [vm_compute; reflexivity|]. destruct (Y _ R) as [S H].
    destruct (string_dec k "pallet") as [->|N]; [|now apply (sb_pallet _ _ _ S) in N].
    pose proof (hf_pallet _ _ _ H eq_refl) as E. cbn in E. injection E as <-. now apply V.
Qed.
Print Assumptions C69_empty_refuted.

(** ** C70: the links to comparisons. *)
(** The pages have links for one repository. *)
Theorem C70_offered : forall repo first second, ((exists q, root_link repo first second = Some q) <-> repo = "polkadot-sdk") /\
  ((exists q, mr_link repo first second = Some q) <-> repo = "polkadot-sdk").
Proof. intros. split; [apply SiteP.root_link_iff|apply SiteP.mr_link_iff]. Qed.
Print Assumptions C70_offered.
(** The choice of two versions on the root page asks for the comparison of these two, and so does a merge request. *)
Theorem C70_root : forall repo first second q, root_link repo first second = Some q ->
  only (fun c => ~ In c link_chars) first -> only (fun c => ~ In c link_chars) second ->
  repo = "polkadot-sdk" /\ exists l, query q l /\ describes l (root_args repo first second sdk_files).
Proof. exact SiteP.root_click. Qed.
Print Assumptions C70_root.
Theorem C70_mr : forall repo base head q, mr_link repo base head = Some q ->
  only (fun c => ~ In c link_chars) base -> only (fun c => ~ In c link_chars) head ->
  repo = "polkadot-sdk" /\ exists l, query q l /\ describes l (root_args repo base head sdk_files).
Proof. exact SiteP.mr_click. Qed.
Print Assumptions C70_mr.
Example C70_ex : exists q, root_link "polkadot-sdk" "master" "release/v1.0 ""x""" = Some q /\
  read_query q = Ok (root_args "polkadot-sdk" "master" "release/v1.0 ""x""" sdk_files) /\
  only (fun c => ~ In c link_chars) "release/v1.0 ""x""".
Proof.
  eexists. split; [reflexivity|]. split; [vm_compute; reflexivity|]. intros c I J. cbn in I, J.
  repeat (destruct I as [<-|I]; [intuition discriminate|]). exact I.
Qed.
(** The names of branches may have the other characters, too. Then another comparison is shown, without a warning. *)
Theorem C70_root_refuted : exists first second q a, root_link "polkadot-sdk" first second = Some q /\ read_query q = Ok a /\
  wa_new a = "fix" /\ second = "fix&pallet=none" /\ wa_pallet a = Some "none".
Proof. exists "master", "fix&pallet=none". eexists. eexists. split; [reflexivity|]. split; [vm_compute; reflexivity|]. auto. Qed.
Print Assumptions C70_root_refuted.
Theorem C70_mr_refuted : exists base head q a, mr_link "polkadot-sdk" base head = Some q /\ read_query q = Ok a /\ head = "c++" /\ wa_new a = "c  ".
Proof. exists "master", "c++". eexists. eexists. split; [reflexivity|]. split; [vm_compute; reflexivity|]. auto. Qed.
Print Assumptions C70_mr_refuted.

(** ** C71: the result page shows what was asked for. *)
Theorem C71_repos : forall version repos args c, (forall r, In r repos -> r <> "" /\ only (fun c => ~ blank c) r) ->
  exists opts, has_select (config_table version repos args c) "select_repo" opts /\
    Forall2 (fun o r => exists sel, is_option o r sel r /\ (sel = true <-> r = wa_repo args)) opts repos.
Proof. exact SiteP.repos_lemma. Qed.
Print Assumptions C71_repos.
Theorem C71_units : forall version repos args c,
  exists opts, has_select (config_table version repos args c) "select_unit" opts /\
    Forall2 (fun o d => exists v sel, is_option o v sel v /\ reads_unit v d /\ (sel = true <-> d = wa_unit args)) opts [Time; Proof_size].
Proof. exact SiteP.units_lemma. Qed.
Print Assumptions C71_units.
Theorem C71_methods : forall version repos args c,
  exists opts, has_select (config_table version repos args c) "select_method" opts /\
    Forall2 (fun o d => exists v sel, is_option o v sel v /\ reads_method v d /\ (sel = true <-> d = wa_method args)) opts
      [Base; GuessWorst; ExactWorst; ExactAsymptotic; Asymptotic].
Proof. exact SiteP.methods_lemma. Qed.
Print Assumptions C71_methods.
(** An option has one value, one text, and is selected or not. *)
Theorem C71_option : forall s v sel t v' sel' t', is_option s v sel t -> is_option s v' sel' t' -> v = v' /\ sel = sel' /\ t = t'.
Proof. exact SiteP.option_fun. Qed.
Print Assumptions C71_option.
Theorem C71_inputs : forall version repos args c,
  let page := config_table version repos args c in
  has_input page "input_old" (wa_old args) /\ has_input page "input_new" (wa_new args) /\ has_input page "input_path_pattern" (wa_pattern args) /\
  (forall p, wa_pallet args = Some p -> has_input page "input_pallet" p) /\ (forall e, wa_extrinsic args = Some e -> has_input page "input_extrinsic" e) /\
  (wa_pallet args = None -> has_input page "input_pallet" ".*") /\ (wa_extrinsic args = None -> has_input page "input_extrinsic" ".*") /\
  (exists r, read_dec r = Some (wa_threshold args) /\ occurs ("<input id=""input_threshold"" type=""number"" class=""form-control"" value=""" ++ r ++ """>") page) /\
  occurs ("<input id=""checkbox_ignore_errors"" type=""checkbox"" " ++ (if wa_ignore_errors args then "checked" else "") ++ ">") page /\
  occurs ("<input id=""checkbox_git_pull"" type=""checkbox"" " ++ (match wa_pull args with Some false => "" | _ => "checked" end) ++ ">") page /\
  occurs ("<td>" ++ (if c then "Yes" else "No") ++ "</td>") page.
Proof. exact SiteP.inputs_lemma. Qed.
Print Assumptions C71_inputs.
Example C71_ex : is_option (repo_option ex_args "sdk") "sdk" true "sdk" /\ is_option (repo_option ex_args "substrate") "substrate" false "substrate" /\
  contains "<input id=""input_new"" type=""text"" value=""a/b c"">" (config_table "0" ["sdk"] ex_args true) = true.
Proof.
  split; [|split]; [| |vm_compute; reflexivity].
  - apply (SiteP.option_unquoted "sdk" true "sdk" " selected"); [discriminate| |reflexivity].
    intros c I J. cbn in I, J. repeat (destruct I as [<-|I]; [intuition discriminate|]). exact I.
  - apply (SiteP.option_unquoted "substrate" false "substrate" " "); [discriminate| |auto].
    intros c I J. cbn in I, J. repeat (destruct I as [<-|I]; [intuition discriminate|]). exact I.
Qed.
(** The name of a directory may have blanks; then the page has no option for it. *)
Theorem C71_blank_refuted : exists args repo, ~ exists v sel t, is_option (repo_option args repo) v sel t.
Proof.
  exists ex_args, "my repo". intros (v & sel & t & raw & mark & body & A & B & _ & M & E). cbn in E.
  repeat (injection E as E). destruct A as [(r & -> & _)|(N & O & _)]; [discriminate E|].
  destruct raw as [|c1 raw]; [now apply N|]. injection E as <- E. destruct raw as [|c2 raw].
  { destruct sel; [|destruct M as [M|M]]; subst mark; discriminate E. }
  injection E as <- E. destruct raw as [|c3 raw].
  { destruct sel; [|destruct M as [M|M]]; subst mark; discriminate E. }
  injection E as <- E. destruct (O " "%char) as [K _]; [cbn; auto|]. apply K. now left.
Qed.
Print Assumptions C71_blank_refuted.

(** ** C72: the repositories on the other pages. *)
(** An option for every repository; its value is the name in lower case. *)
Theorem C72_root : forall repos, exists opts,
  occurs (" id=""repoSelect"" style=""width: 100%;"">" ++ String.concat "" opts ++ "</select>") (root_select repos) /\
  Forall2 (fun o r => is_option o (lower r) false r) opts repos.
Proof. exact SiteP.root_lemma. Qed.
Print Assumptions C72_root.
Theorem C72_mr : forall repos, (forall r, In r repos -> only (fun c => ~ blank c) (sr_org r) /\ only (fun c => ~ blank c) (sr_name r)) ->
  exists opts, has_select (mr_select repos) "select_repo" opts /\
    Forall2 (fun o r => let v := sr_org r ++ ":" ++ sr_name r in is_option o v false v) opts repos.
Proof. exact SiteP.mr_lemma. Qed.
Print Assumptions C72_mr.
Example C72_ex : contains "<option value=""polkadot-sdk"">polkadot-sdk</option>" (root_select ["polkadot-sdk"; "substrate"]) = true /\
  contains "<option value=paritytech:sdk>paritytech:sdk</option>" (mr_select (map snd ex_repos)) = true.
Proof. split; vm_compute; reflexivity. Qed.
(** A repository with a capital letter can be chosen, but the request for it is refused. *)
Theorem C72_capital_refuted : exists repos name first second q, In name (map fst repos) /\ root_link (lower name) first second = Some q /\
  forall ent version m run, exists page, compare_answer ent version m repos q run = Ok (500, page).
Proof.
  exists [("Polkadot-SDK", {| sr_name := "Polkadot-SDK"; sr_path := []; sr_org := "paritytech" |})], "Polkadot-SDK", "a", "b". eexists.
  split; [now left|]. split; [reflexivity|]. intros ent version m run. eexists.
  unfold compare_answer, prepare. match goal with |- context[read_query ?q] => let v := eval vm_compute in (read_query q) in change (read_query q) with v end.
  cbn [bind wa_repo wa_old wa_new wa_pattern]. cbn [mget]. reflexivity.
Qed.
Print Assumptions C72_capital_refuted.
