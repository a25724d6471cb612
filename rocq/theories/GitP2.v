(** Proofs about comparisons of commits that fetch first. *)
From Coq Require Import List String Ascii Arith NArith Bool Lia.
From Verif Require Import Base ScopeM TermM CompareM RowsM SynM ParseM StorageM FilesM SpecFiles GitM SpecGit.
From Verif Require Import GitP.
Import ListNotations.
Local Open Scope string_scope.

Lemma fetch_ok s ref : fetchable s ref -> git_fetch s ref = (refreshed s ref, good).
Proof.
  intros [H|H]; unfold git_fetch, refreshed; destruct (r_remote s ref); try reflexivity; try congruence.
  destruct (r_other s ref); [reflexivity|congruence].
Qed.
Lemma pull_bind {B} s ref (k : unit -> @act grepo B) r s' t : fetchable s ref ->
  abind (maybe_pull run_git false ref) k (refreshed s ref) = (r, s', t) ->
  exists t', abind (maybe_pull run_git true ref) k s = (r, s', t').
Proof.
  intros F E. unfold maybe_pull, git_pull, abind, ret, command in *. rewrite run_fetch, fetch_ok by exact F. unfold good. cbn [succeeded].
  cbn in E. destruct (k Datatypes.tt (refreshed s ref)) as [[o w] u]. injection E as <- <- <-. eexists. reflexivity.
Qed.
Lemma checkout_fetch s ref force : fetchable s ref -> forall r s' t,
  git_checkout run_git ref false force (refreshed s ref) = (r, s', t) ->
  exists t', git_checkout run_git ref true force s = (r, s', t').
Proof. intros F r s' t E. unfold git_checkout, git_reset in *. destruct force; revert E; now apply pull_bind. Qed.

Lemma refreshed_fields s ref : r_local (refreshed s ref) = r_local s /\ r_other (refreshed s ref) = r_other s /\
  r_remote (refreshed s ref) = r_remote s /\ r_head (refreshed s ref) = r_head s /\
  (forall x, x <> ref -> r_tracking (refreshed s ref) x = r_tracking s x).
Proof.
  unfold refreshed. destruct (r_remote s ref); cbn; repeat split; auto. intros x Hx. now apply put_other.
Qed.
Lemma refreshed_tracking s s' ref : r_remote s' ref = r_remote s ref -> r_tracking s' ref = r_tracking s ref \/ r_remote s ref <> None ->
  r_tracking (refreshed s' ref) ref = r_tracking (refreshed s ref) ref.
Proof.
  intros R T. unfold refreshed. rewrite R. destruct (r_remote s ref) as [c|]; cbn.
  - now rewrite !put_same.
  - destruct T as [T|T]; [exact T|now elim T].
Qed.
Lemma prefix_inv p s b : drop_prefix p s = Some b -> s = p ++ b.
Proof.
  revert s. induction p as [|a p IH]; intros s H; cbn in *; [congruence|].
  destruct s as [|c s]; [discriminate|]. destruct (Ascii.eqb_spec a c) as [->|]; [|discriminate]. cbn. f_equal. now apply IH.
Qed.
Lemma origin_longer x : x <> "origin/" ++ x.
Proof. intros H. apply (f_equal String.length) in H. cbn in H. lia. Qed.
Lemma origin_inj a b : "origin/" ++ a = "origin/" ++ b -> a = b.
Proof. cbn. congruence. Qed.

(** Fetching [ref] after other references were fetched and visited. *)
Lemma resolve_same s s' rev :
  r_other s' rev = r_other s rev -> r_local s' rev = r_local s rev ->
  (forall b, rev = "origin/" ++ b -> r_tracking s' b = r_tracking s b) -> resolve s' rev = resolve s rev.
Proof.
  intros O L T. unfold resolve. rewrite O, L. destruct (r_other s rev); [reflexivity|]. destruct (r_local s rev); [reflexivity|].
  destruct (drop_prefix "origin/" rev) as [b|] eqn:E; [|reflexivity]. apply T. now apply prefix_inv.
Qed.
Lemma switch_fields s ref c : stands_for s ref c -> exists s', git_switch s ref = (s', good) /\ r_work s' = c /\
  r_remote s' = r_remote s /\ r_other s' = r_other s /\ r_tracking s' = r_tracking s /\
  (forall x, x <> ref -> r_local s' x = r_local s x) /\ (r_local s' ref = r_local s ref \/ r_local s' ref = Some c).
Proof.
  unfold git_switch. intros [H|[H [H2|[H2 H3]]]].
  - rewrite H. eexists. split; [reflexivity|]. repeat split; auto.
  - rewrite H, H2. eexists. split; [reflexivity|]. repeat split; auto.
  - rewrite H, H2, H3. eexists. split; [reflexivity|]. cbn. repeat split; auto.
    + intros x Hx. now apply put_other.
    + right. apply put_same.
Qed.
Lemma stands_fun s ref c c' : stands_for s ref c -> stands_for s ref c' -> c = c'.
Proof. intros [A|[A [B|[B C]]]] [A'|[A' [B'|[B' C']]]]; congruence. Qed.

Lemma trees_pull tglob tdisk m ords rx repo old new cps ps filt pat mx s c_old c_new :
  ~ has_dots pat -> g_force ps = false -> g_pull ps = true -> g_offline ps = false ->
  fetchable s old -> fetchable s new -> new <> "origin/" ++ old ->
  stands_for (refreshed s old) old c_old -> stands_for (refreshed s new) new c_new ->
  exists s' t, compare_commits run_git (fun s => tglob (r_work s)) (fun s => tdisk (r_work s)) m ords rx repo old new cps ps filt pat mx s =
    (compare_trees tglob tdisk m ords rx repo cps ps filt pat mx c_old c_new, s', t) /\
    (is_ok (load tglob tdisk repo ps pat mx c_old) = true -> r_work s' = c_new).
Proof.
  intros D F P O Fo Fn N So Sn. assert (Hp : should_pull ps = true) by now apply should_pull_spec.
  destruct (switch_fields _ _ _ So) as (s1 & E1 & <- & R1 & O1 & T1 & L1 & L1').
  destruct (refreshed_fields s old) as (A1 & A2 & A3 & A4 & A5). destruct (refreshed_fields s new) as (B1 & B2 & B3 & B4 & B5).
  rewrite A3 in R1. rewrite A2 in O1.
  assert (Fn1 : fetchable s1 new) by (unfold fetchable; now rewrite R1, O1).
  destruct (refreshed_fields s1 new) as (C1 & C2 & C3 & C4 & C5).
  assert (Sn1 : stands_for (refreshed s1 new) new c_new).
  { destruct (string_dec new old) as [->|Ne].
    - pose proof (stands_fun _ _ _ _ So Sn) as Ec. rewrite Ec in *. destruct L1' as [L1'|L1']; [|left; now rewrite C1].
      assert (T : r_tracking (refreshed s1 old) old = r_tracking (refreshed s old) old).
      { rewrite (refreshed_tracking (refreshed s old) s1 old); [|now rewrite A3, R1|left; now rewrite T1].
        apply refreshed_tracking; [now rewrite A3|]. unfold refreshed. destruct (r_remote s old); cbn; [right; discriminate|now left]. }
      assert (Rr : resolve (refreshed s1 old) old = resolve (refreshed s old) old).
      { apply resolve_same; [now rewrite C2, O1, A2|now rewrite C1, L1'|].
        intros b Eb. assert (Hb : b <> old) by (intros ->; exact (origin_longer _ Eb)). now rewrite (C5 b Hb), T1. }
      destruct Sn as [H|[H [H2|[H2 H3]]]]; [left; now rewrite C1, L1'|right|right]; rewrite C1, L1'; (split; [exact H|]); rewrite Rr, T; auto.
    - assert (L : r_local (refreshed s1 new) new = r_local (refreshed s new) new) by (rewrite C1, B1, L1, A1; auto).
      assert (T : r_tracking (refreshed s1 new) new = r_tracking (refreshed s new) new).
      { apply refreshed_tracking; [now rewrite R1|]. left. rewrite T1. now apply A5. }
      assert (Rr : resolve (refreshed s1 new) new = resolve (refreshed s new) new).
      { apply resolve_same; [now rewrite C2, O1, B2|exact L|].
        intros b Eb. assert (Hb : b <> new) by (intros ->; exact (origin_longer _ Eb)).
        assert (Ho : b <> old) by (intros ->; auto). rewrite (C5 b Hb), (B5 b Hb), T1. now apply A5. }
      unfold stands_for. rewrite L, T, Rr. exact Sn. }
  destruct (checkout_ok _ _ _ Sn1) as (s2 & t2 & E2 & <- & _).
  destruct (checkout_fetch s old false Fo _ _ _ (checkout_steps _ _ _ E1)) as (t1 & E1').
  destruct (checkout_fetch s1 new false Fn1 _ _ _ E2) as (t2' & E2').
  destruct (trees_lemma tglob tdisk m ords rx repo old new cps ps filt pat mx s s1 t1 s2 t2' D) as (s' & t & E & R).
  { now rewrite Hp, F. } { now rewrite Hp, F. }
  exists s', t. split; [exact E|]. intros H. now rewrite (R H).
Qed.

Lemma trees_pull_force tglob tdisk m ords rx repo old new cps ps filt pat mx s c_old c_new :
  ~ has_dots pat -> g_force ps = true -> g_pull ps = true -> g_offline ps = false ->
  fetchable s old -> fetchable s new -> new <> "origin/" ++ old ->
  stands_for_reset (refreshed s old) old c_old -> stands_for_reset (refreshed s new) new c_new -> undisturbed (refreshed s new) new ->
  exists s' t, compare_commits run_git (fun s => tglob (r_work s)) (fun s => tdisk (r_work s)) m ords rx repo old new cps ps filt pat mx s =
    (compare_trees tglob tdisk m ords rx repo cps ps filt pat mx c_old c_new, s', t) /\
    (is_ok (load tglob tdisk repo ps pat mx c_old) = true -> r_work s' = c_new).
Proof.
  intros D F P O Fo Fn N So Sn U. assert (Hp : should_pull ps = true) by now apply should_pull_spec.
  destruct (reset_steps _ _ _ So) as (t1 & E1). set (s1 := moved (refreshed s old) c_old) in *.
  destruct (refreshed_fields s old) as (A1 & A2 & A3 & A4 & A5). destruct (refreshed_fields s new) as (B1 & B2 & B3 & B4 & B5).
  assert (R1 : r_remote s1 = r_remote s) by (subst s1; unfold moved; destruct (r_head (refreshed s old)); cbn; exact A3).
  assert (O1 : r_other s1 = r_other s) by (subst s1; unfold moved; destruct (r_head (refreshed s old)); cbn; exact A2).
  assert (T1 : r_tracking s1 = r_tracking (refreshed s old)) by (subst s1; unfold moved; destruct (r_head (refreshed s old)); reflexivity).
  assert (L1 : forall x, r_head s <> OnBranch x -> r_local s1 x = r_local s x).
  { intros x Hx. subst s1. unfold moved. rewrite A4. destruct (r_head s) as [b|]; cbn; [|now rewrite A1].
    rewrite put_other; [now rewrite A1|congruence]. }
  assert (Fn1 : fetchable s1 new) by (unfold fetchable; now rewrite R1, O1).
  destruct (refreshed_fields s1 new) as (C1 & C2 & C3 & C4 & C5).
  assert (T : r_tracking (refreshed s1 new) new = r_tracking (refreshed s new) new).
  { apply refreshed_tracking; [now rewrite R1|]. rewrite T1. destruct (string_dec new old) as [->|Ne]; [|left; now apply A5].
    unfold refreshed. destruct (r_remote s old); [right; discriminate|now left]. }
  destruct U as [U1 U2]. rewrite B4 in U1, U2.
  assert (Ro : resolve (refreshed s1 new) ("origin/" ++ new) = resolve (refreshed s new) ("origin/" ++ new)).
  { apply resolve_same; [now rewrite C2, O1, B2|rewrite C1, B1; now apply L1|]. intros b Eb. apply origin_inj in Eb. now subst b. }
  assert (Rn : r_head s <> OnBranch new -> resolve (refreshed s1 new) new = resolve (refreshed s new) new).
  { intros Hn. apply resolve_same; [now rewrite C2, O1, B2|rewrite C1, B1; now apply L1|].
    intros b Eb. assert (Hb : b <> new) by (intros ->; exact (origin_longer _ Eb)).
    assert (Ho : b <> old) by (intros ->; auto). rewrite (C5 b Hb), (B5 b Hb), T1. now apply A5. }
  assert (Sn1 : stands_for_reset (refreshed s1 new) new c_new).
  { unfold stands_for_reset. change (append "origin/" new) with ("origin/" ++ new). rewrite Ro.
    destruct Sn as [Sn|[Sn Sn2]]; [now left|]. right. split; [exact Sn|]. rewrite Rn; [exact Sn2|].
    intros K. exact (U2 K Sn). }
  destruct (reset_steps _ _ _ Sn1) as (t2 & E2).
  destruct (checkout_fetch s old true Fo _ _ _ E1) as (t1' & E1').
  destruct (checkout_fetch s1 new true Fn1 _ _ _ E2) as (t2' & E2').
  destruct (trees_lemma tglob tdisk m ords rx repo old new cps ps filt pat mx s s1 t1' (moved (refreshed s1 new) c_new) t2' D) as (s' & t & E & R).
  { now rewrite Hp, F. } { now rewrite Hp, F. }
  exists s', t. split; [exact E|]. intros H. now rewrite (R H).
Qed.
