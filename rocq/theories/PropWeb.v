(** Properties C54, C55, C61 and C66: branches, versions, organisations and requests. *)
From Coq Require Import List String Ascii Arith NArith ZArith Bool Permutation Sorted.
From Verif Require Import Base ScopeM TermM F64 CompareM RowsM FmtM SynM ParseM StorageM FilesM GitM SpecGit CliM WebM.
From Verif Require Import SpecTerm SpecChrom SpecF64 SpecFiles SpecCompare SpecRows SpecWeb.
From Verif Require RowsP GitP WebP PageP PropGit PropServer.
Import ListNotations.
Local Open Scope string_scope.

(** ** C54: the list of branches. *)
Theorem C54_entries : forall refs, Forall good_ref refs ->
  (forall r, In r refs -> ~ occurs "refs/heads/" (ref_name r) /\ ~ occurs "refs/tags/" (ref_name r)) ->
  branch_list (String.concat "" (map ref_line refs)) =
    Ok (map (fun r => (ref_name r, substring 0 12 (ref_hash r))) (filter (fun r => negb (odd_ref r)) refs)).
Proof. exact WebP.entries_lemma. Qed.
Print Assumptions C54_entries.
(** The end of the last line can be missing. *)
Theorem C54_last_line : forall s c, c <> newline -> c <> "013"%char ->
  branch_list (s ++ String c "") = branch_list (s ++ String c (String newline "")).
Proof. exact WebP.last_line. Qed.
Print Assumptions C54_last_line.
(** A line with one field or a short hash makes the request panic, wherever it is. *)
Theorem C54_one_field : forall pre l post, before_line pre -> only (fun c => ~ blank c /\ c <> "{"%char /\ c <> "^"%char) l ->
  exists w, branch_list (pre ++ l ++ String newline post) = Panic w.
Proof. exact WebP.one_field_panic. Qed.
Print Assumptions C54_one_field.
Theorem C54_short_hash : forall pre h l post, before_line pre -> only hex h -> h <> "" -> String.length h < 12 ->
  only (fun c => c <> newline /\ c <> "{"%char /\ c <> "^"%char) l ->
  exists w, branch_list (pre ++ h ++ String "009" (l ++ String newline post)) = Panic w.
Proof. exact WebP.short_hash_panic. Qed.
Print Assumptions C54_short_hash.
Definition ex_hash : string := "0123456789abcdef0123456789abcdef01234567".
Definition ex_hash2 : string := "fedcba9876543210fedcba9876543210fedcba98".
Local Ltac good := split; [|split; [apply Nat.leb_le; vm_compute; reflexivity|split; [discriminate|]]];
  [intros c H; cbn in H; unfold hex; cbn; tauto
  |intros c H B; cbn in H, B; repeat (destruct H as [<-|H]; [repeat (destruct B as [B|B]; [discriminate|]); exact B|]); exact H].
Example C54_ex :
  let refs := [ {| ref_hash := ex_hash; ref_tag := false; ref_name := "feature/x" |};
                {| ref_hash := ex_hash2; ref_tag := true; ref_name := "v1" |};
                {| ref_hash := ex_hash; ref_tag := true; ref_name := "v1^{}" |} ] in
  Forall good_ref refs /\ (forall r, In r refs -> ~ occurs "refs/heads/" (ref_name r) /\ ~ occurs "refs/tags/" (ref_name r)) /\
  branch_list (String.concat "" (map ref_line refs)) = Ok [("feature/x", "0123456789ab"); ("v1", "fedcba987654")] /\
  branch_list ("x" ++ String newline (ex_hash ++ String newline "")) = Panic "index out of bounds" /\
  branch_list (String newline ("0123456789a" ++ String "009" ("refs/heads/x" ++ String newline ""))) = Panic "index out of bounds" /\
  branch_list ("0123456789a" ++ String "009" ("refs/heads/x" ++ String newline "")) = Panic "byte index 12 is out of bounds".
Proof.
  cbv zeta. split; [repeat (constructor; [good|]); constructor|]. split; [|vm_compute; auto]. intros r H.
  repeat (destruct H as [<-|H]; [split; intros O; apply GitP.contains_spec in O; discriminate|]). destruct H.
Qed.
(** One would expect the first theorem for every name git allows. *)
Theorem C54_mangled_refuted : exists refs, Forall good_ref refs /\ Forall (fun r => odd_ref r = false) refs /\
  branch_list (String.concat "" (map ref_line refs)) <> Ok (map (fun r => (ref_name r, substring 0 12 (ref_hash r))) refs).
Proof.
  exists [ {| ref_hash := ex_hash; ref_tag := false; ref_name := "old/refs/heads/x" |} ]. split; [|split; [constructor; [reflexivity|constructor]|vm_compute; discriminate]].
  constructor; [good|constructor].
Qed.
Print Assumptions C54_mangled_refuted.
(** One would expect that an entry tells which reference it is. A branch and a tag of one name cannot be told apart. *)
Theorem C54_collision_refuted : exists r r' l, ref_tag r <> ref_tag r' /\ ref_hash r <> ref_hash r' /\
  branch_list (String.concat "" (map ref_line [r; r'])) = Ok l /\ exists x h h', l = [(x, h); (x, h')] /\ h <> h'.
Proof.
  exists {| ref_hash := ex_hash; ref_tag := false; ref_name := "v1" |}, {| ref_hash := ex_hash2; ref_tag := true; ref_name := "v1" |}. eexists.
  split; [discriminate|]. split; [discriminate|]. split; [vm_compute; reflexivity|]. do 3 eexists. split; [reflexivity|discriminate].
Qed.
Print Assumptions C54_collision_refuted.

(** ** C55: the version check. *)
Theorem C55_version : forall current v,
  fst (version_check current (Some v)) = 200 /\ (v = current \/ plus_as_space v current) \/
  fst (version_check current (Some v)) = 500 /\ v <> current /\ ~ plus_as_space v current.
Proof. exact WebP.version_lemma. Qed.
Print Assumptions C55_version.
Theorem C55_none : forall current, version_check current None = (200, current).
Proof. reflexivity. Qed.
Print Assumptions C55_none.
Example C55_ex : fst (version_check "0.3.0+dev" (Some "0.3.0 dev")) = 200 /\ fst (version_check "0.3.0+dev" (Some "0.3.0")) = 500 /\
  fst (version_check "0.3.0 dev" (Some "0.3.0+dev")) = 500.
Proof. auto. Qed.

(** ** C61: the organisation of a repository, from the URL of its remote. *)
Theorem C61_org : forall url o, origin_org url = Some o <->
  o <> "" /\ without "/" o /\ exists c rest, c <> newline /\ url = "https://github" ++ String c ("com/" ++ o ++ String "/" rest).
Proof. exact WebP.org_lemma. Qed.
Print Assumptions C61_org.
Example C61_ex : origin_org "https://github.com/paritytech/substrate" = Some "paritytech" /\
  origin_org "git@github.com:paritytech/substrate" = None /\ origin_org "https://github.com/paritytech" = None /\
  origin_org "https://github.com//substrate" = None.
Proof. auto. Qed.
(** One would expect only URLs of GitHub to be accepted. *)
Theorem C61_host_refuted : exists url o, origin_org url = Some o /\ String.prefix "https://github.com/" url = false.
Proof. exists "https://github-com/paritytech/substrate", "paritytech". auto. Qed.
Print Assumptions C61_host_refuted.

(** ** C66: the answer to a request. *)
Theorem C66_trim : forall s t, trim s = t <-> trimmed s t.
Proof. exact WebP.trim_iff. Qed.
Print Assumptions C66_trim.
(** The rows are the relevant rows of the comparison of the versions without blanks around them, in order. *)
Theorem C66_answer : forall (W : Type) (git : W -> list string -> W * cmd_result) glob disk m ords rx path a w sorted,
  (forall k, is_order (ords k)) -> (wa_threshold a < 2 ^ 32)%N ->
  do_compare git glob disk m ords rx path a w (Ok sorted) ->
  exists old new pat t rows kept,
    let filt := {| f_threshold := t; f_change := None; f_extrinsic := wa_extrinsic a; f_pallet := wa_pallet a |} in
    trimmed (wa_old a) old /\ trimmed (wa_new a) new /\ trimmed (wa_pattern a) pat /\ is_double t /\ has_value t (RN (wa_threshold a)) /\
    fst (fst (compare_commits git glob disk m ords rx path old new {| p_method := wa_method a; p_unit := wa_unit a |}
      {| g_ignore_errors := wa_ignore_errors a; g_pull := negb (match wa_pull a with Some b => negb b | None => false end); g_force := true; g_offline := false |}
      filt pat (N.to_nat 6000) w)) = Ok rows /\
    selects (relevant filt) rows kept /\ Permutation kept sorted /\ StronglySorted row_le sorted.
Proof. exact @PageP.answer_lemma. Qed.
Print Assumptions C66_answer.
Example C66_ex : PropServer.ex_runs PropServer.ex_good (Ok PropServer.ex_rows) /\ PropServer.ex_rows <> [] /\
  wa_old PropServer.ex_good = " master" /\ trimmed " master" "master".
Proof. split; [exact PropServer.ex_runs_good|]. split; [discriminate|]. split; [reflexivity|]. now apply WebP.trim_iff. Qed.
