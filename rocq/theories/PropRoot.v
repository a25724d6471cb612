(** Property C87: the start page. *)
From Coq Require Import List String Bool Arith Lia.
From Verif Require Import Base SiteM RootM SpecFmt SpecWeb SpecSite SpecRoot.
From Verif Require SiteP RootP.
Import ListNotations.
Local Open Scope string_scope.

(** Once its branches have come, the boxes offer the branches of the chosen repository, by the newest list and in
    its order, whatever happened before; as long as no answer comes for another repository than the chosen one. *)
Theorem C87_offered : forall repos storage es p r bs d, visit repos storage es = Some p -> orderly es -> chosen es = Some r -> newest r es = Some bs ->
  bx_options (pg_box p d) = map (fun b => (fst b ++ " on " ++ snd b, fst b)) bs.
Proof. exact RootP.offered_lemma. Qed.
Print Assumptions C87_offered.
(** In general they offer the list that was filled in last; the value is what the user chose since then, and "master"
    if there was no choice; the last step of the form shows it. *)
Theorem C87_filled : forall repos storage es p l since d, visit repos storage es = Some p -> last_fill l since es ->
  bx_options (pg_box p d) = map (fun b => (fst b ++ " on " ++ snd b, fst b)) l /\
  (forall n, last_pick d n since -> bx_value (pg_box p d) = Some n /\ In n (map fst l) /\ (n <> "" -> pg_seen p d = n)) /\
  ((forall n, ~ In (Pick d n) since) ->
    In "master" (map fst l) /\ bx_value (pg_box p d) = Some "master" /\ pg_seen p d = "master" \/
    ~ In "master" (map fst l) /\ bx_value (pg_box p d) = None).
Proof. exact RootP.fill_lemma. Qed.
Print Assumptions C87_filled.
Theorem C87_unfilled : forall repos storage es p d, visit repos storage es = Some p -> (forall l since, ~ last_fill l since es) ->
  bx_options (pg_box p d) = [] /\ bx_value (pg_box p d) = None.
Proof. intros repos storage es p d V N. rewrite (RootP.unfilled _ _ _ _ d V N). split; reflexivity. Qed.
Print Assumptions C87_unfilled.
Theorem C87_repo : forall repos storage es p, visit repos storage es = Some p ->
  pg_repo p = chosen es /\ forall r, chosen es = Some r -> pg_seen_repo p = r.
Proof. intros repos storage es p V. split; [exact (RootP.repo_chosen _ _ _ _ V)|]. intros r. exact (RootP.seen_chosen _ _ _ _ r V). Qed.
Print Assumptions C87_repo.
(** Two choices of the user are compared: the server reads the request as one for these two branches of the chosen
    repository. *)
Theorem C87_compare : forall repos storage es p r bs l since a b q, visit repos storage es = Some p -> orderly es -> chosen es = Some r -> newest r es = Some bs ->
  last_fill l since es -> last_pick First a since -> last_pick Second b since ->
  only (fun c => ~ In c link_chars) a -> only (fun c => ~ In c link_chars) b -> press_compare p = Some q ->
  In a (map fst bs) /\ In b (map fst bs) /\ r = "polkadot-sdk" /\ exists fs, query q fs /\ describes fs (root_args r a b sdk_files).
Proof. exact RootP.compare_lemma. Qed.
Print Assumptions C87_compare.
(** Every request is under way until it is answered or fails. *)
Theorem C87_waiting : forall repos storage es p, visit repos storage es = Some p -> forall q, times q (pg_waiting p) + times q (over es) = times q (asked es).
Proof. exact RootP.waiting_lemma. Qed.
Print Assumptions C87_waiting.
(** With a user who waits for the answers, they come in order, the branches of a repository are asked for once (without
    the button, and but for failures), and the overlay is there while a request is under way. *)
Theorem C87_patient : forall repos storage es p, visit repos storage es = Some p -> patient es ->
  orderly es /\ (forall r, times (r, false) (asked es) <= 1 + times (r, false) (failed es)) /\
  (failed es = [] -> (pg_loading p = true <-> exists q, times q (over es) < times q (asked es))).
Proof.
  intros repos storage es p V P. split; [exact (RootP.patient_orderly _ _ _ _ V P)|]. split.
  - intros r. exact (RootP.once_lemma _ _ _ _ r V P).
  - exact (RootP.overlay_lemma _ _ _ _ V P).
Qed.
Print Assumptions C87_patient.

(** A visit: the repository is chosen, its branches come, two of them are chosen, the list is fetched again, and two
    are chosen again. *)
Definition ex_site : list string := ["polkadot-sdk"; "Substrate"].
Definition ex_list : list branch := [("dev", "0123456789ab"); ("master", "ba9876543210")].
Definition ex_visit : list event :=
  [Pick Second "release"; Pick First "dev"; Answer ("polkadot-sdk", true) (("release", "00112233aabb") :: ex_list); Fetch;
   Pick Second "dev"; Pick First "master"; Answer ("polkadot-sdk", false) ex_list; Choose "polkadot-sdk"].
Ltac page_of es := let v := eval vm_compute in (visit ex_site [] es) in match v with Some ?p => exists p end.
Ltac page_and_link es := let v := eval vm_compute in (visit ex_site [] es) in match v with Some ?p =>
  exists p; let w := eval vm_compute in (press_compare p) in match w with Some ?q => exists q end end.
Ltac computes := split; [vm_compute; reflexivity|].
Example C87_ex : exists p q since, visit ex_site [] ex_visit = Some p /\ patient ex_visit /\ failed ex_visit = [] /\ chosen ex_visit = Some "polkadot-sdk" /\
  newest "polkadot-sdk" ex_visit = Some (("release", "00112233aabb") :: ex_list) /\ last_fill (("release", "00112233aabb") :: ex_list) since ex_visit /\
  last_pick First "dev" since /\ last_pick Second "release" since /\ press_compare p = Some q /\
  read_query q = Ok (root_args "polkadot-sdk" "dev" "release" sdk_files) /\
  only (fun c => ~ In c link_chars) "dev" /\ only (fun c => ~ In c link_chars) "release".
Proof.
  page_and_link ex_visit. exists [Pick Second "release"; Pick First "dev"]. computes. split.
  { cbn. split; [intros q; reflexivity|]. split; [intros q; reflexivity|exact I]. }
  split; [reflexivity|]. split; [reflexivity|]. split; [reflexivity|]. split.
  { apply lf_later; [reflexivity|]. apply lf_later; [reflexivity|]. apply lf_now. reflexivity. }
  split; [apply lp_later; [discriminate|apply lp_now]|]. split; [apply lp_now|]. computes. computes.
  split; intros c J K; cbn in J, K; repeat (destruct J as [<-|J]; [intuition discriminate|]); exact J.
Qed.
Example C87_ex_unfilled : exists p, visit ex_site [("selected-repo", "polkadot-sdk"); ("selected-first", "dev")] [Fail ("polkadot-sdk", false); Choose "polkadot-sdk"] = Some p /\
  forall l since, ~ last_fill l since [Fail ("polkadot-sdk", false); Choose "polkadot-sdk"].
Proof.
  eexists. split; [vm_compute; reflexivity|]. intros l since L. inversion L as [? ? ? F|? ? ? ? F L']; [discriminate F|]. subst.
  inversion L' as [? ? ? F'|? ? ? ? F' L'']; [discriminate F'|]. inversion L''.
Qed.

(** Who does not wait is offered the branches of another repository, and compares with one of these. *)
Theorem C87_order_refuted : exists es p q, visit ex_site [] es = Some p /\ chosen es = Some "polkadot-sdk" /\ newest "polkadot-sdk" es = Some ex_list /\ pg_waiting p = [] /\
  map snd (bx_options (pg_box p First)) = ["polkadot-v0.9"; "master"] /\ press_compare p = Some q /\
  read_query q = Ok (root_args "polkadot-sdk" "polkadot-v0.9" "master" sdk_files).
Proof.
  pose (es := [Pick First "polkadot-v0.9"; Answer ("substrate", false) [("polkadot-v0.9", "ffffffffffff"); ("master", "eeeeeeeeeeee")];
    Answer ("polkadot-sdk", false) ex_list; Choose "polkadot-sdk"; Choose "substrate"]).
  exists es. page_and_link es. do 6 computes. vm_compute. reflexivity.
Qed.
Print Assumptions C87_order_refuted.
(** A repository without a branch "master": the comparison asks for a version "null", and the last step of the form
    shows another one. *)
Theorem C87_null_refuted : exists es p q, visit ex_site [] es = Some p /\ patient es /\ chosen es = Some "polkadot-sdk" /\
  newest "polkadot-sdk" es = Some [("main", "ba9876543210")] /\ pg_seen p First = "master" /\ press_compare p = Some q /\
  read_query q = Ok (root_args "polkadot-sdk" "null" "null" sdk_files).
Proof.
  pose (es := [Answer ("polkadot-sdk", true) [("main", "ba9876543210")]; Fetch; Answer ("polkadot-sdk", false) ex_list; Choose "polkadot-sdk"]).
  exists es. page_and_link es. computes. split.
  { cbn. split; [intros q; reflexivity|]. split; [intros q; reflexivity|exact I]. }
  do 4 computes. vm_compute. reflexivity.
Qed.
Print Assumptions C87_null_refuted.
(** The choice of a branch is stored, but it is never used again: when the list is fetched, "master" is chosen although
    the list still has the branch; and so it is at the next visit. *)
Theorem C87_remembered_refuted : exists es p p', visit ex_site [] (Pick First "dev" :: es) = Some p /\ entry (key First) (pg_storage p) = Some "dev" /\
  visit ex_site (pg_storage p) [Answer ("polkadot-sdk", false) ex_list; Choose "polkadot-sdk"] = Some p' /\ In "dev" (map fst ex_list) /\
  bx_value (pg_box p' First) = Some "master" /\ entry (key First) (pg_storage p') = Some "master".
Proof.
  pose (es := [Answer ("polkadot-sdk", false) ex_list; Choose "polkadot-sdk"]). exists es. page_of (Pick First "dev" :: es).
  let v := eval vm_compute in (visit ex_site [] (Pick First "dev" :: es)) in match v with Some ?p =>
    let w := eval vm_compute in (visit ex_site (pg_storage p) es) in match w with Some ?p' => exists p' end end.
  do 3 computes. split; [now left|]. split; vm_compute; reflexivity.
Qed.
Print Assumptions C87_remembered_refuted.
(** The repository of the last visit is not chosen again, either. *)
Theorem C87_last_repo : forall repos storage p, visit repos storage [] = Some p -> pg_repo p = None /\ pg_waiting p = [].
Proof. intros repos storage p V. injection V as <-. rewrite RootP.ready_eq. split; reflexivity. Qed.
Print Assumptions C87_last_repo.
(** After a failure the overlay stays, though nothing is under way. *)
Theorem C87_overlay_refuted : exists es p, visit ex_site [] es = Some p /\ patient es /\ pg_loading p = true /\ pg_waiting p = [].
Proof. exists [Fail ("polkadot-sdk", false); Choose "polkadot-sdk"]. page_of [Fail ("polkadot-sdk", false); Choose "polkadot-sdk"]. computes. split; [cbn; split; [reflexivity|exact I]|]. split; reflexivity. Qed.
Print Assumptions C87_overlay_refuted.
(** Who does not wait asks twice. *)
Theorem C87_once_refuted : exists es p, visit ex_site [] es = Some p /\ failed es = [] /\ times ("polkadot-sdk", false) (asked es) = 2.
Proof. exists [Choose "polkadot-sdk"; Choose "substrate"; Choose "polkadot-sdk"]. page_of [Choose "polkadot-sdk"; Choose "substrate"; Choose "polkadot-sdk"]. computes. split; reflexivity. Qed.
Print Assumptions C87_once_refuted.
