(** Properties C46, C47 and C48: comparing commits. *)
From Coq Require Import List String Ascii Arith NArith Bool.
From Coq Require Floats.SpecFloat.
From Verif Require Import Base ScopeM TermM F64 CompareM RowsM SynM ParseM SpecParse StorageM FilesM SpecFiles GitM SpecGit.
From Verif Require RowsP GitP GitP2.
Import ListNotations.
Local Open Scope string_scope.

(** ** C46: the commands that are run, for every behaviour of git and of the file system. *)
Theorem C46_commands : forall (W : Type) (git : W -> list string -> W * cmd_result) glob disk m ords rx repo old new cps ps filt pat mx w r w' t,
  compare_commits git glob disk m ords rx repo old new cps ps filt pat mx w = (r, w', t) ->
  (has_dots pat -> t = [] /\ w' = w /\ is_err r = true) /\
  (~ has_dots pat -> steps git w t w' /\
    exists t1 ok1 w1, visit (should_pull ps) (g_force ps) old t1 ok1 /\ steps git w t1 w1 /\
      if ok1 then
        (forall l, ~ loads glob disk repo (g_ignore_errors ps) pat mx w1 l) /\ t = t1 /\ w' = w1 /\ is_ok r = false \/
        exists olds t2 ok2, loads glob disk repo (g_ignore_errors ps) pat mx w1 olds /\
          visit (should_pull ps) (g_force ps) new t2 ok2 /\ steps git w1 t2 w' /\ t = (t1 ++ t2)%list /\
          if ok2 then
            (forall l, ~ loads glob disk repo (g_ignore_errors ps) pat mx w' l) /\ is_ok r = false \/
            exists news, loads glob disk repo (g_ignore_errors ps) pat mx w' news /\ r = compare_files m ords rx olds news cps filt
          else is_err r = true
      else t = t1 /\ w' = w1 /\ is_err r = true).
Proof. exact @GitP.commits_lemma. Qed.
Print Assumptions C46_commands.
(** Nothing is fetched unless git_pull is set and offline is not; a hard reset is used exactly with git_force. *)
Theorem C46_only : forall (W : Type) (git : W -> list string -> W * cmd_result) glob disk m ords rx repo old new cps ps filt pat mx w r w' t args b,
  compare_commits git glob disk m ords rx repo old new cps ps filt pat mx w = (r, w', t) -> In (args, b) t ->
  exists ref, (ref = old \/ ref = new) /\
    (args = ["fetch"; "origin"; ref] /\ g_pull ps = true /\ g_offline ps = false \/
     args = ["checkout"; ref] /\ g_force ps = false \/
     (args = ["reset"; "--hard"; "origin/" ++ ref] \/ args = ["reset"; "--hard"; ref]) /\ g_force ps = true).
Proof. exact @GitP.commits_commands. Qed.
Print Assumptions C46_only.
(** A visit, and so the whole run, is determined by the results of the commands. *)
Theorem C46_determined : forall (W : Type) (git : W -> list string -> W * cmd_result) fetch force ref t1 b1 t2 b2 w w1 w2,
  visit fetch force ref t1 b1 -> visit fetch force ref t2 b2 -> steps git w t1 w1 -> steps git w t2 w2 -> t1 = t2 /\ b1 = b2 /\ w1 = w2.
Proof. exact @GitP.visit_ok_fun. Qed.
Print Assumptions C46_determined.
Theorem C46_pull : forall ps, should_pull ps = true <-> g_pull ps = true /\ g_offline ps = false.
Proof. exact GitP.should_pull_spec. Qed.
Print Assumptions C46_pull.
(** Names of versions are not checked: one that looks like an option reaches git as an option. *)
Theorem C46_option_refuted : exists old,
  String.prefix "--" old = true /\
  forall (W : Type) (git : W -> list string -> W * cmd_result) glob disk m ords rx repo new cps filt mx w,
    exists r w' b t,
    compare_commits git glob disk m ords rx repo old new cps
      {| g_ignore_errors := true; g_pull := true; g_force := true; g_offline := false |} filt "*.rs" mx w =
      (r, w', (["fetch"; "origin"; old], b) :: t).
Proof.
  exists "--upload-pack=touch pwned". split; [reflexivity|]. intros W git glob disk m ords rx repo new cps filt mx w.
  destruct (compare_commits git glob disk m ords rx repo "--upload-pack=touch pwned" new cps
      {| g_ignore_errors := true; g_pull := true; g_force := true; g_offline := false |} filt "*.rs" mx w) as [[r w'] t] eqn:E.
  apply GitP.commits_lemma in E. destruct E as [_ E].
  assert (D : ~ has_dots "*.rs") by (intros D; apply GitP.contains_spec in D; discriminate).
  destruct (E D) as (_ & t1 & ok1 & w1 & V & _ & K).
  assert (A : exists b t', t1 = (["fetch"; "origin"; "--upload-pack=touch pwned"], b) :: t').
  { inversion V; subst; try discriminate; cbn; eauto. }
  destruct A as (b & t' & ->). exists r, w', b. destruct ok1.
  - destruct K as [(_ & -> & _)|(? & t2 & ? & _ & _ & _ & -> & _)]; [now exists t'|]. now exists (t' ++ t2)%list.
  - destruct K as [-> _]. now exists t'.
Qed.
Print Assumptions C46_option_refuted.

(** ** C47: old equations come from the old commit and new ones from the new commit. *)
(** For every git: the files are read in the states after the two visits. *)
Theorem C47_states : forall (W : Type) (git : W -> list string -> W * cmd_result) glob disk m ords rx repo old new cps ps filt pat mx w t1 w1 olds t2 w2 news,
  ~ has_dots pat -> visit (should_pull ps) (g_force ps) old t1 true -> steps git w t1 w1 ->
  loads glob disk repo (g_ignore_errors ps) pat mx w1 olds ->
  visit (should_pull ps) (g_force ps) new t2 true -> steps git w1 t2 w2 ->
  loads glob disk repo (g_ignore_errors ps) pat mx w2 news ->
  compare_commits git glob disk m ords rx repo old new cps ps filt pat mx w =
    (compare_files m ords rx olds news cps filt, w2, (t1 ++ t2)%list).
Proof. exact @GitP.commits_complete. Qed.
Print Assumptions C47_states.
(** With the model of git: the result is that of the trees of the two versions, and the second one stays checked out. *)
Theorem C47_checkout : forall tglob tdisk m ords rx repo old new cps ps filt pat mx s c_old c_new,
  ~ has_dots pat -> g_force ps = false -> (g_pull ps = false \/ g_offline ps = true) -> stands_for s old c_old -> stands_for s new c_new ->
  exists s' t, compare_commits run_git (fun s => tglob (r_work s)) (fun s => tdisk (r_work s)) m ords rx repo old new cps ps filt pat mx s =
    (compare_trees tglob tdisk m ords rx repo cps ps filt pat mx c_old c_new, s', t) /\
    (is_ok (load tglob tdisk repo ps pat mx c_old) = true -> r_work s' = c_new).
Proof. exact GitP.trees_checkout. Qed.
Print Assumptions C47_checkout.
Theorem C47_force : forall tglob tdisk m ords rx repo old new cps ps filt pat mx s c_old c_new,
  ~ has_dots pat -> g_force ps = true -> (g_pull ps = false \/ g_offline ps = true) ->
  stands_for_reset s old c_old -> stands_for_reset s new c_new -> undisturbed s new ->
  exists s' t, compare_commits run_git (fun s => tglob (r_work s)) (fun s => tdisk (r_work s)) m ords rx repo old new cps ps filt pat mx s =
    (compare_trees tglob tdisk m ords rx repo cps ps filt pat mx c_old c_new, s', t) /\
    (is_ok (load tglob tdisk repo ps pat mx c_old) = true -> r_work s' = c_new).
Proof. exact GitP.trees_force. Qed.
Print Assumptions C47_force.

(** The same if the versions are fetched first: then they stand for what they stand for after fetching. *)
Theorem C47_pull : forall tglob tdisk m ords rx repo old new cps ps filt pat mx s c_old c_new,
  ~ has_dots pat -> g_force ps = false -> g_pull ps = true -> g_offline ps = false ->
  fetchable s old -> fetchable s new -> new <> "origin/" ++ old ->
  stands_for (refreshed s old) old c_old -> stands_for (refreshed s new) new c_new ->
  exists s' t, compare_commits run_git (fun s => tglob (r_work s)) (fun s => tdisk (r_work s)) m ords rx repo old new cps ps filt pat mx s =
    (compare_trees tglob tdisk m ords rx repo cps ps filt pat mx c_old c_new, s', t) /\
    (is_ok (load tglob tdisk repo ps pat mx c_old) = true -> r_work s' = c_new).
Proof. exact GitP2.trees_pull. Qed.
Print Assumptions C47_pull.
Theorem C47_pull_force : forall tglob tdisk m ords rx repo old new cps ps filt pat mx s c_old c_new,
  ~ has_dots pat -> g_force ps = true -> g_pull ps = true -> g_offline ps = false ->
  fetchable s old -> fetchable s new -> new <> "origin/" ++ old ->
  stands_for_reset (refreshed s old) old c_old -> stands_for_reset (refreshed s new) new c_new -> undisturbed (refreshed s new) new ->
  exists s' t, compare_commits run_git (fun s => tglob (r_work s)) (fun s => tdisk (r_work s)) m ords rx repo old new cps ps filt pat mx s =
    (compare_trees tglob tdisk m ords rx repo cps ps filt pat mx c_old c_new, s', t) /\
    (is_ok (load tglob tdisk repo ps pat mx c_old) = true -> r_work s' = c_new).
Proof. exact GitP2.trees_pull_force. Qed.
Print Assumptions C47_pull_force.

(** Example: a repository on the local branch master, with the tag v1, and a remote repository
    that has the branches master and dev. *)
Definition ex_names (l : list (string * N)) (x : string) : option N :=
  match find (fun p => String.eqb (fst p) x) l with Some p => Some (snd p) | None => None end.
Definition ex_repo (tracked : list (string * N)) : grepo :=
  mk_repo (ex_names [("master", 5); ("dev", 6)]%N) (ex_names tracked) (ex_names [("master", 2)]%N) (ex_names [("v1", 1)]%N)
    (String.eqb "README.md") (OnBranch "master") 2%N.
Definition ex_s : grepo := ex_repo [("master", 3); ("dev", 4)]%N.
(** In the tree of the commit [c], the weight is [10 * c]. *)
Definition ex_tglob (c : N) (s : string) : option (list (option fpath)) :=
  if String.eqb s "./*.rs" then Some [Some [CCur; CName "x.rs"]] else None.
Definition ex_tdisk (c : N) (p : fpath) : string + file :=
  inr (Some [IImpl (TTuple 0) [IFn (mk_method [] "f" (RType (TPath (mk_path false ["Weight"])))
    [SExpr (ex_call ["Weight"; "from_parts"] [ex_int (10 * c); ex_int 0])])]]).
Definition ex_ps (pull force : bool) : gparams := {| g_ignore_errors := false; g_pull := pull; g_force := force; g_offline := false |}.
Definition ex_run (s : grepo) (ps : gparams) (old new : string) :=
  match compare_commits run_git (fun s => ex_tglob (r_work s)) (fun s => ex_tdisk (r_work s)) Checked (fun _ l => l) RowsP.rx_all
    [CCur] old new {| p_method := GuessWorst; p_unit := Time |} ps
    {| f_threshold := f64_of_N 5; f_change := None; f_extrinsic := None; f_pallet := None |} "*.rs" 100 s with
  | (Ok [mk_row "f" "x.rs" (DChanged c)], s', t) => Some (tc_old_v c, tc_new_v c, r_work s', t)
  | _ => None
  end.
Example C47_ex :
  stands_for ex_s "v1" 1 /\ stands_for ex_s "master" 2 /\ stands_for ex_s "dev" 4 /\
  ex_run ex_s (ex_ps false false) "v1" "dev" = Some (Some 10%N, Some 40%N, 4%N, [(["checkout"; "v1"], true); (["checkout"; "dev"], true)]) /\
  stands_for_reset ex_s "v1" 1 /\ stands_for_reset ex_s "master" 3 /\ undisturbed ex_s "master" /\
  ex_run ex_s (ex_ps false true) "v1" "master" = Some (Some 10%N, Some 30%N, 3%N,
    [(["reset"; "--hard"; "origin/v1"], false); (["reset"; "--hard"; "v1"], true); (["reset"; "--hard"; "origin/master"], true)]) /\
  ~ has_dots "*.rs".
Proof.
  split; [right; split; [reflexivity|left; reflexivity]|]. split; [left; reflexivity|].
  split; [right; split; [reflexivity|right; split; reflexivity]|]. split; [vm_compute; reflexivity|].
  split; [right; split; reflexivity|]. split; [left; reflexivity|].
  split; [split; [discriminate|intros _; discriminate]|]. split; [vm_compute; reflexivity|].
  intros D. apply GitP.contains_spec in D. discriminate.
Qed.
Example C47_ex_pull :
  fetchable ex_s "v1" /\ fetchable ex_s "dev" /\ "dev" <> "origin/" ++ "v1" /\ stands_for (refreshed ex_s "v1") "v1" 1 /\
  stands_for (refreshed ex_s "dev") "dev" 6 /\
  ex_run ex_s (ex_ps true false) "v1" "dev" = Some (Some 10%N, Some 60%N, 6%N,
    [(["fetch"; "origin"; "v1"], true); (["checkout"; "v1"], true); (["fetch"; "origin"; "dev"], true); (["checkout"; "dev"], true)]) /\
  stands_for_reset (refreshed ex_s "v1") "v1" 1 /\ stands_for_reset (refreshed ex_s "master") "master" 5 /\ undisturbed (refreshed ex_s "master") "master" /\
  ex_run ex_s (ex_ps true true) "v1" "master" = Some (Some 10%N, Some 50%N, 5%N,
    [(["fetch"; "origin"; "v1"], true); (["reset"; "--hard"; "origin/v1"], false); (["reset"; "--hard"; "v1"], true);
     (["fetch"; "origin"; "master"], true); (["reset"; "--hard"; "origin/master"], true)]).
Proof.
  split; [right; discriminate|]. split; [left; discriminate|]. split; [discriminate|].
  split; [right; split; [reflexivity|left; reflexivity]|]. split; [right; split; [reflexivity|right; split; reflexivity]|].
  split; [vm_compute; reflexivity|]. split; [right; split; reflexivity|]. split; [left; reflexivity|].
  split; [split; [discriminate|intros _; discriminate]|]. vm_compute. reflexivity.
Qed.
(** With git_force, the first reset moves the current branch. If the remote repository does not know
    that branch, then the version 10 (of v1) is compared with itself instead of with 20 (of master). *)
Theorem C47_force_refuted : exists s c, stands_for_reset s "v1" 1 /\ stands_for_reset s "master" c /\ c <> 1%N /\
  exists t, ex_run s (ex_ps false true) "v1" "master" = Some (Some 10%N, Some 10%N, 1%N, t).
Proof.
  exists (ex_repo []), 2%N. split; [right; split; reflexivity|]. split; [right; split; reflexivity|]. split; [discriminate|].
  eexists [(["reset"; "--hard"; "origin/v1"], false); (["reset"; "--hard"; "v1"], true);
           (["reset"; "--hard"; "origin/master"], false); (["reset"; "--hard"; "master"], true)]. vm_compute. reflexivity.
Qed.
Print Assumptions C47_force_refuted.
(** If a version is the name of a file, then git checkout succeeds and the tree stays what it was. *)
Theorem C47_path_refuted : exists s old, (forall c, ~ stands_for s old c) /\
  exists t, ex_run s (ex_ps false false) old "v1" = Some (Some 20%N, Some 10%N, 1%N, t).
Proof.
  exists ex_s, "README.md". split.
  - intros c [H|[_ [H|[_ H]]]]; discriminate.
  - exists [(["checkout"; "README.md"], true); (["checkout"; "v1"], true)]. vm_compute. reflexivity.
Qed.
Print Assumptions C47_path_refuted.

(** ** C48: with git_pull and git_force, the newest commits of the remote repository are compared. *)
Theorem C48_newest : forall tglob tdisk m ords rx repo old new cps ps filt pat mx s c_old c_new,
  ~ has_dots pat -> g_force ps = true -> g_pull ps = true -> g_offline ps = false ->
  r_remote s old = Some c_old -> r_remote s new = Some c_new -> unambiguous s old -> unambiguous s new ->
  exists s' t, compare_commits run_git (fun s => tglob (r_work s)) (fun s => tdisk (r_work s)) m ords rx repo old new cps ps filt pat mx s =
    (compare_trees tglob tdisk m ords rx repo cps ps filt pat mx c_old c_new, s', t) /\
    (is_ok (load tglob tdisk repo ps pat mx c_old) = true -> r_work s' = c_new).
Proof. exact GitP.trees_newest. Qed.
Print Assumptions C48_newest.
(** With git_pull only, a local branch of that name decides, whatever the remote repository says. *)
Theorem C48_stale : forall s ref c, r_local s ref = Some c -> (r_remote s ref <> None \/ r_other s ref <> None) ->
  exists s' t, git_checkout run_git ref true false s = (Ok tt, s', t) /\ r_work s' = c.
Proof. exact GitP.fetch_stale. Qed.
Print Assumptions C48_stale.
(** Only the first time, when there is no such local branch, is it the newest commit. *)
Theorem C48_first : forall s ref c, r_remote s ref = Some c -> r_local s ref = None -> resolve (set_tracking s ref c) ref = None ->
  exists s' t, git_checkout run_git ref true false s = (Ok tt, s', t) /\ r_work s' = c /\ r_local s' ref = Some c.
Proof. exact GitP.fetch_first. Qed.
Print Assumptions C48_first.
Theorem C48_pull_refuted : exists s c, r_remote s "master" = Some c /\ unambiguous s "master" /\
  exists t v, ex_run s (ex_ps true false) "v1" "master" = Some (Some 10%N, Some v, 2%N, t) /\ v <> (10 * c)%N.
Proof.
  exists ex_s, 5%N. split; [reflexivity|]. split; [split; [reflexivity|split; [reflexivity|discriminate]]|].
  exists [(["fetch"; "origin"; "v1"], true); (["checkout"; "v1"], true); (["fetch"; "origin"; "master"], true); (["checkout"; "master"], true)], 20%N.
  split; [vm_compute; reflexivity|discriminate].
Qed.
Print Assumptions C48_pull_refuted.
Example C48_ex :
  unambiguous ex_s "dev" /\ unambiguous ex_s "master" /\
  ex_run ex_s (ex_ps true true) "master" "dev" = Some (Some 50%N, Some 60%N, 6%N,
    [(["fetch"; "origin"; "master"], true); (["reset"; "--hard"; "origin/master"], true);
     (["fetch"; "origin"; "dev"], true); (["reset"; "--hard"; "origin/dev"], true)]) /\
  r_remote ex_s "dev" = Some 6%N /\ r_local ex_s "dev" = None /\ resolve (set_tracking ex_s "dev" 6) "dev" = None.
Proof. repeat split; discriminate. Qed.
