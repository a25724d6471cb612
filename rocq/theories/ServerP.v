(** Lemmas about the concurrent behaviour of the server. *)
From Coq Require Import List String Arith NArith Bool Lia.
From Verif Require Import Base ScopeM TermM F64 CompareM RowsM FmtM WebM ServerM SpecServer.
Import ListNotations.

Fixpoint total (f : pc -> nat) (l : list pc) : nat := match l with [] => 0 | p :: l' => f p + total f l' end.
Lemma total_set f l : forall i p q, nth_error l i = Some p -> total f (set_nth l i q) + f p = total f l + f q.
Proof.
  induction l as [|x l IH]; intros [|i] p q H; cbn in *; try discriminate.
  - injection H as ->. lia.
  - specialize (IH i p q H). lia.
Qed.
Lemma total_ge f l i p : nth_error l i = Some p -> f p <= total f l.
Proof.
  revert i. induction l as [|x l IH]; intros [|i] H; cbn in *; try discriminate; cbn.
  - injection H as ->. lia.
  - specialize (IH i H). lia.
Qed.
Lemma total_two f l i j p q : i <> j -> nth_error l i = Some p -> nth_error l j = Some q -> f p + f q <= total f l.
Proof.
  revert i j. induction l as [|x l IH]; intros [|i] [|j] N Hi Hj; cbn in *; try discriminate; try congruence; cbn.
  - injection Hi as ->. pose proof (total_ge f l j q Hj). lia.
  - injection Hj as ->. pose proof (total_ge f l i p Hi). lia.
  - assert (i <> j) by congruence. specialize (IH i j H Hi Hj). lia.
Qed.
Lemma total_pos f l : 0 < total f l -> exists i p, nth_error l i = Some p /\ 0 < f p.
Proof.
  induction l as [|x l IH]; cbn; [lia|]. intros H. destruct (f x) eqn:E.
  - destruct IH as (i & p & Hi & Hp); [lia|]. exists (S i), p. auto.
  - exists 0, x. split; [reflexivity|lia].
Qed.
Lemma nth_set_same l : forall i p q, nth_error l i = Some p -> nth_error (set_nth l i q) i = Some q.
Proof. induction l as [|x l IH]; intros [|i] p q H; cbn in *; try discriminate; eauto. Qed.
Lemma nth_set_other l : forall i j q, i <> j -> nth_error (set_nth l i q) j = nth_error l j.
Proof. induction l as [|x l IH]; intros [|i] [|j] q H; cbn in *; try congruence; auto. Qed.
Lemma set_length l : forall i q, List.length (set_nth l i q) = List.length l.
Proof. induction l as [|x l IH]; intros [|i] q; cbn; auto. Qed.

Local Arguments Nat.eqb : simpl never.
Definition b2n (b : bool) : nat := if b then 1 else 0.

Section Server.
  Context (shards : nat) (shard : string -> nat) (known : string -> bool) (runs : web_args -> outcome (list row) -> Prop).
  Notation tstep := (tstep shards shard known runs).
  Notation step := (step shards shard known runs).
  Notation execution := (execution shards shard known runs).

  Definition rholds (k : nat) (p : pc) : nat :=
    match p with
    | Names _ i => b2n (k =? i)
    | Names2 _ i => b2n (k =? i) + b2n (k =? S i)
    | HasOrg a => b2n (k =? shard (wa_repo a))
    | HasRepo r | Listing r => b2n (k =? shard r)
    | _ => 0
    end.
  Definition wholds (k : nat) (p : pc) : nat := match p with Running a => b2n (k =? shard (wa_repo a)) | _ => 0 end.
  Definition mholds (p : pc) : nat := match p with Look _ | Miss _ | Running _ | Ran _ _ => 1 | _ => 0 end.

  Record locks (c : config) : Prop := {
    l_read : forall k, s_readers (fst c) k = total (rholds k) (snd c);
    l_write : forall k, total (wholds k) (snd c) = b2n (s_writer (fst c) k);
    l_mutex : total mholds (snd c) = b2n (s_mutex (fst c));
    l_excl : forall k, s_writer (fst c) k = true -> s_readers (fst c) k = 0;
    l_poison : s_poisoned (fst c) = true -> s_mutex (fst c) = false }.

  Ltac eqbs := repeat match goal with
    | |- context [?a =? ?b] => destruct (Nat.eqb_spec a b); try subst
    | H : context [?a =? ?b] |- _ => destruct (Nat.eqb_spec a b); try subst
    end.

  Lemma locks_step c l c' : locks c -> step c l c' -> locks c'.
  Proof.
    intros L H. destruct H as [s l i p s' p' N T|s l d].
    2: { destruct L as [R W M E P]. constructor; cbn in *; assumption. }
    destruct L as [R W M E P]; cbn [fst snd] in *.
    assert (TR := fun k => total_set (rholds k) l i p p' N). assert (TW := fun k => total_set (wholds k) l i p p' N).
    assert (TM := total_set mholds l i p p' N). assert (GR := fun k => total_ge (rholds k) l i p N).
    assert (GM := total_ge mholds l i p N). assert (GW := fun k => total_ge (wholds k) l i p N).
    constructor; cbn [fst snd].
    - intros k. specialize (R k). specialize (TR k). specialize (GR k). specialize (W k).
      destruct T; cbn in *; unfold b2n in *; eqbs; try congruence; try lia.
    - intros k. specialize (W k). specialize (TW k). specialize (GW k). specialize (E k).
      destruct T; cbn in *; unfold b2n in *; eqbs; try congruence; try lia;
        repeat match goal with H : s_writer _ _ = _ |- _ => rewrite H in * end; try lia;
        repeat match goal with H : context [if ?b then _ else _] |- _ => destruct b | |- context [if ?b then _ else _] => destruct b end; try lia.
    - destruct T; cbn in *; unfold b2n in *; repeat match goal with H : s_mutex _ = _ |- _ => rewrite H in * end; try lia;
        destruct (s_mutex s) eqn:Em; lia.
    - intros k. specialize (E k). specialize (R k). specialize (GR k). specialize (W k). specialize (GW k).
      destruct T; cbn in *; unfold b2n in *; eqbs; try congruence; try lia; intros K; try discriminate; try (rewrite (E K) in *; lia); auto.
    - destruct T; cbn in *; unfold b2n in *; auto; intros K; specialize (P K); try congruence; try reflexivity; try (rewrite P in *; lia).
  Qed.
  Lemma locks_start now rs : locks (start now rs).
  Proof.
    assert (Z : forall f, (forall r, f (Idle r) = 0) -> total f (map Idle rs) = 0).
    { intros f F. induction rs as [|r rs' IH]; cbn; [reflexivity|]. rewrite F. exact IH. }
    constructor; cbn; intros; try discriminate; try reflexivity; rewrite Z; reflexivity.
  Qed.
  Lemma locks_execution now rs n c : execution (start now rs) n c -> locks c.
  Proof.
    remember (start now rs) as c0 eqn:E0. induction 1; subst; eauto using locks_start, locks_step.
  Qed.

  (** ** Exclusion *)
  Lemma exclusive_lemma now rs n c i j a b : execution (start now rs) n c -> compares c i a -> compares c j b -> i = j.
  Proof.
    intros H A B. apply locks_execution in H. destruct H as [_ _ M _ _]. unfold compares in *.
    destruct (Nat.eq_dec i j) as [|N]; [assumption|]. pose proof (total_two mholds _ _ _ _ _ N A B) as T. cbn in T.
    destruct (s_mutex (fst c)); cbn in M; lia.
  Qed.
  Lemma branches_lemma now rs n c i j a repo : execution (start now rs) n c -> compares c i a -> lists c j repo -> shard repo <> shard (wa_repo a).
  Proof.
    intros H A B K. apply locks_execution in H. destruct H as [R W M E _]. unfold compares, lists in *.
    pose proof (total_ge (rholds (shard repo)) _ _ _ B) as G. cbn in G. rewrite Nat.eqb_refl in G. cbn in G.
    pose proof (total_ge (wholds (shard repo)) _ _ _ A) as G'. cbn in G'. rewrite K, Nat.eqb_refl in G'. cbn in G'.
    rewrite K in *. rewrite <- R in G. specialize (W (shard (wa_repo a))).
    destruct (s_writer (fst c) (shard (wa_repo a))) eqn:Ew; [rewrite (E _ Ew) in G|]; cbn in *; lia.
  Qed.

  (** ** Progress *)
  Context (shards_pos : 0 < shards) (shard_lt : forall r, shard r < shards) (ends : forall a, exists o, runs a o /\ o <> Diverge).

  Definition can_step (s : shared) (i : nat) (p : pc) : Prop := exists s' p', tstep i s p s' p'.
  (** The requests that are listed are not those for branches. *)
  Definition good_pc (p : pc) : Prop :=
    match p with
    | Names r i => i < shards /\ forall repo, r <> RBranches repo
    | Names2 r i => S i < shards /\ forall repo, r <> RBranches repo
    | Listed r => forall repo, r <> RBranches repo
    | Ran _ o => o <> Diverge
    | _ => True
    end.
  Lemma good_step c l c' : Forall good_pc (snd c) -> step c l c' -> Forall good_pc (snd c').
  Proof.
    intros F H. destruct H as [s l i p s' p' N T|]; [|exact F]. cbn in *.
    assert (G : good_pc p) by (rewrite Forall_forall in F; apply F; eapply nth_error_In; eassumption).
    assert (G' : good_pc p') by (destruct T; cbn in *; auto; try tauto; try discriminate; intuition).
    clear T N G. revert i. induction F as [|x l Hx F IH]; intros [|i]; cbn; constructor; auto.
  Qed.
  Lemma good_execution now rs n c : execution (start now rs) n c -> Forall good_pc (snd c).
  Proof.
    remember (start now rs) as c0 eqn:E0. induction 1; subst; eauto using good_step.
    cbn. apply Forall_forall. intros p I. apply in_map_iff in I. destruct I as (r & <- & _). exact I.
  Qed.

  Lemma free_step s i p : (forall k, s_writer s k = false) -> s_mutex s = false -> good_pc p -> p <> Done -> mholds p = 0 -> can_step s i p.
  Proof.
    intros W M G D H. unfold can_step. destruct p; cbn in *; try discriminate; try congruence.
    - destruct r; do 2 eexists; try (eapply t_start; [discriminate|apply W]). apply t_branches. apply W.
    - destruct G as [G _]. destruct (Nat.eq_dec (S i0) shards) as [E|E]; do 2 eexists; [now apply t_last|apply t_next; [lia|apply W]].
    - do 2 eexists. apply t_drop.
    - destruct r; [do 2 eexists; apply t_get_org; apply W|elim (G repo); reflexivity|do 2 eexists; apply t_listed].
    - destruct (known (wa_repo a)) eqn:K; do 2 eexists; [now apply t_org|now apply t_no_org].
    - destruct (s_poisoned s) eqn:K; do 2 eexists; [now apply t_poisoned|now apply t_lock].
    - destruct (known repo) eqn:K; do 2 eexists; [now apply t_repo|now apply t_repo_unknown].
    - do 2 eexists. apply t_list_end.
  Qed.
  Lemma reader_step s i p k : (forall k, s_writer s k = false) -> good_pc p -> 0 < rholds k p -> can_step s i p.
  Proof.
    intros W G H. unfold can_step. destruct p; cbn in *; try lia.
    - destruct G as [G _]. destruct (Nat.eq_dec (S i0) shards) as [E|E]; do 2 eexists; [now apply t_last|apply t_next; [lia|apply W]].
    - do 2 eexists. apply t_drop.
    - destruct (known (wa_repo a)) eqn:K; do 2 eexists; [now apply t_org|now apply t_no_org].
    - destruct (known repo) eqn:K; do 2 eexists; [now apply t_repo|now apply t_repo_unknown].
    - do 2 eexists. apply t_list_end.
  Qed.
  Lemma no_writer_but c j p : locks c -> nth_error (snd c) j = Some p -> mholds p = 1 -> (forall k, wholds k p = 0) -> forall k, s_writer (fst c) k = false.
  Proof.
    intros [_ W M _ _] N H Z k. destruct (s_writer (fst c) k) eqn:E; [|reflexivity]. exfalso. specialize (W k). rewrite E in W. cbn in W.
    destruct (total_pos (wholds k) (snd c)) as (i & q & Hi & Hq); [lia|]. destruct (Nat.eq_dec i j) as [->|D].
    - rewrite N in Hi. injection Hi as ->. rewrite Z in Hq. lia.
    - pose proof (total_two mholds _ _ _ _ _ D Hi N). assert (mholds q = 1) by (destruct q; cbn in *; try lia; reflexivity).
      destruct (s_mutex (fst c)); cbn in M; lia.
  Qed.
  Lemma no_writer_free c : locks c -> s_mutex (fst c) = false -> forall k, s_writer (fst c) k = false.
  Proof.
    intros [_ W M _ _] H k. destruct (s_writer (fst c) k) eqn:E; [|reflexivity]. exfalso. specialize (W k). rewrite E in W. cbn in W.
    destruct (total_pos (wholds k) (snd c)) as (i & q & Hi & Hq); [lia|]. pose proof (total_ge mholds _ _ _ Hi).
    rewrite H in M. cbn in M. assert (mholds q = 1) by (destruct q; cbn in *; try lia; reflexivity). lia.
  Qed.
  Lemma all_good (c : config) p i : Forall good_pc (snd c) -> nth_error (snd c) i = Some p -> good_pc p.
  Proof. intros F N. rewrite Forall_forall in F. apply F. eapply nth_error_In. eassumption. Qed.

  Lemma progress_pcs (c : config) i p : locks c -> Forall good_pc (snd c) -> nth_error (snd c) i = Some p -> p <> Done ->
    exists j q, nth_error (snd c) j = Some q /\ can_step (fst c) j q /\ (j = i \/ forall r, q <> Idle r).
  Proof.
    intros L F N D. destruct (s_mutex (fst c)) eqn:Em.
    - destruct (total_pos mholds (snd c)) as (j & q & Hj & Hq); [rewrite (l_mutex c L), Em; cbn; lia|].
      destruct q; cbn in Hq; try lia.
      + exists j, (Look a). split; [exact Hj|]. split; [|right; discriminate]. unfold can_step.
        destruct (look_up (fst c) a) eqn:E; do 2 eexists; [eapply t_hit; eassumption|apply t_miss; assumption].
      + assert (W := no_writer_but c j (Miss a) L Hj eq_refl (fun _ => eq_refl)).
        destruct (s_readers (fst c) (shard (wa_repo a))) eqn:Er.
        * exists j, (Miss a). split; [exact Hj|]. split; [|right; discriminate]. unfold can_step.
          destruct (known (wa_repo a)) eqn:K; do 2 eexists; [apply t_get_mut|apply (t_no_repo shards shard known runs j (fst c) a "")%string]; auto.
        * destruct (total_pos (rholds (shard (wa_repo a))) (snd c)) as (k & r & Hk & Hr); [rewrite <- (l_read c L); lia|].
          exists k, r. split; [exact Hk|]. split; [eapply reader_step; eauto using all_good|]. right. intros r0 ->. cbn in Hr. lia.
      + exists j, (Running a). split; [exact Hj|]. split; [|right; discriminate]. destruct (ends a) as (o & R & O). do 2 eexists. apply t_run; eassumption.
      + exists j, (Ran a o). split; [exact Hj|]. split; [|right; discriminate]. assert (G := all_good c _ j F Hj). cbn in G.
        unfold can_step. destruct o; [| | |congruence]; do 2 eexists; [apply t_store|apply t_error|apply t_panic].
    - exists i, p. split; [exact N|]. split; [|auto]. apply free_step; auto.
      + now apply no_writer_free.
      + eapply all_good; eassumption.
      + pose proof (total_ge mholds _ _ _ N). rewrite (l_mutex c L), Em in H. cbn in H. lia.
  Qed.
  Lemma progress_lemma now rs n c i : execution (start now rs) n c -> active c i -> exists j c', active c j /\ step c (Some j) c'.
  Proof.
    intros H (p & N & D & I). assert (L := locks_execution _ _ _ _ H). assert (F := good_execution _ _ _ _ H).
    destruct (progress_pcs c i p L F N D) as (j & q & Hj & (s' & q' & T) & K). destruct c as [s l]; cbn in *.
    exists j, (s', set_nth l j q'). split.
    - exists q. cbn. split; [exact Hj|]. split; [intros ->; inversion T|]. destruct K as [->|K]; [|exact K]. rewrite N in Hj. now injection Hj as ->.
    - econstructor; eassumption.
  Qed.

  (** ** Termination *)
  Definition rest (p : pc) : nat :=
    match p with
    | Idle _ => 2 * shards + 9
    | Names _ i => 2 * (shards - i) + 8
    | Names2 _ i => 2 * (shards - i) + 7
    | Listed _ => 8
    | HasOrg _ => 7
    | Enter _ => 6
    | Look _ => 5
    | Miss _ => 4
    | Running _ => 3
    | Ran _ _ => 2
    | HasRepo _ => 2
    | Listing _ => 1
    | Done => 0
    end.
  Lemma rest_step i s p s' p' : good_pc p -> tstep i s p s' p' -> S (rest p') <= rest p.
  Proof. intros G T. destruct T; cbn in *; try lia. Qed.
  Lemma rest_execution now rs n c : execution (start now rs) n c -> n + total rest (snd c) <= List.length rs * (2 * shards + 9).
  Proof.
    remember (start now rs) as c0 eqn:E0. intros H. induction H as [c0|c0 n c' i c'' H IH T|c0 n c' c'' H IH T]; subst.
    - cbn. clear. induction rs as [|r rs IH]; cbn in *; lia.
    - specialize (IH eq_refl). assert (F := good_execution _ _ _ _ H). inversion T as [s l i' p s' p' N S|]; subst; cbn in *.
      pose proof (total_set rest l i p p' N). pose proof (rest_step i s p s' p' (all_good (s, l) p i F N) S). lia.
    - specialize (IH eq_refl). inversion T; subst; cbn in *. exact IH.
  Qed.
  Lemma execution_trans c0 n c m c' : execution c0 n c -> execution c m c' -> execution c0 (m + n) c'.
  Proof. intros H H'. induction H'; cbn; [exact H|econstructor 2; eauto|econstructor 3; eauto]. Qed.
  Lemma completes_lemma now rs n c : execution (start now rs) n c -> exists m c', execution c m c' /\ all_done c'.
  Proof.
    remember (total rest (snd c)) as k eqn:Ek. revert n c Ek. induction k as [k IH] using lt_wf_ind. intros n c -> H.
    destruct (Exists_dec (fun p => p <> Done) (snd c)) as [E|E].
    { intros p. destruct p; (left; discriminate) || (right; tauto). }
    - apply Exists_exists in E. destruct E as (p & I & D). apply In_nth_error in I. destruct I as [i N].
      assert (L := locks_execution _ _ _ _ H). assert (F := good_execution _ _ _ _ H).
      destruct (progress_pcs c i p L F N D) as (j & q & Hj & (s' & q' & T) & _). destruct c as [s l]; cbn in *.
      assert (St : step (s, l) (Some j) (s', set_nth l j q')) by (econstructor; eassumption).
      pose proof (total_set rest l j q q' Hj). pose proof (rest_step j s q s' q' (all_good (s, l) q j F Hj) T).
      destruct (IH (total rest (set_nth l j q'))) with (n := S n) (c := (s', set_nth l j q')) as (m & c' & X & A); [lia|reflexivity|econstructor 2; eassumption|].
      exists (m + 1), c'. split; [|exact A]. eapply execution_trans; [|exact X]. econstructor 2; [constructor|exact St].
    - exists 0, c. split; [constructor|]. intros p I. destruct p; try reflexivity; elim E; apply Exists_exists; eexists; (split; [exact I|discriminate]).
  Qed.

  (** ** The log *)
  Context (rs : list request).
  Definition e_time (e : event) : N := match e with Computed _ _ _ t | Stored _ _ _ t | Answered _ _ _ t => t end.
  Definition e_id (e : event) : nat * web_args := match e with Computed i a _ _ | Stored i a _ _ | Answered i a _ _ => (i, a) end.
  Definition explained (pois : bool) (e : event) (l : list event) : Prop :=
    nth_error rs (fst (e_id e)) = Some (RCompare (snd (e_id e))) /\ (forall f, In f l -> (e_time f <= e_time e)%N) /\
    match e with
    | Computed i a o t => (runs a o \/ known (wa_repo a) = false /\ exists x, o = Err x)
    | Stored i a v t => (exists t', In (Computed i a (Ok v) t') l) /\ (forall j w t', In (Stored j a w t') l -> (t' + 600000 <= t)%N)
    | Answered i a r t =>
        (forall r' t' b, ~ In (Answered i b r' t') l) /\
        match r with
        | Cached v => exists j t0, In (Stored j a v t0) l /\ (t0 <= t < t0 + 600000)%N
        | Fresh v => (exists t', In (Computed i a (Ok v) t') l) /\ In (Stored i a v t) l
        | Failed => known (wa_repo a) = false \/ exists x t', In (Computed i a (Err x) t') l
        | Crashed => pois = true /\ exists j b w t', In (Computed j b (Panic w) t') l
        end
    end.
  Fixpoint ok_log (pois : bool) (l : list event) : Prop := match l with [] => True | e :: l' => explained pois e l' /\ ok_log pois l' end.
  Definition pc_ok (s : shared) (i : nat) (p : pc) : Prop :=
    match p with
    | Idle r | Names r _ | Names2 r _ | Listed r => nth_error rs i = Some r
    | HasOrg a | Enter a | Look a => nth_error rs i = Some (RCompare a)
    | Miss a => nth_error rs i = Some (RCompare a) /\ s_cache s a = None
    | Running a => nth_error rs i = Some (RCompare a) /\ s_cache s a = None
    | Ran a o => nth_error rs i = Some (RCompare a) /\ s_cache s a = None /\ exists t, In (Computed i a o t) (s_log s)
    | HasRepo r | Listing r => nth_error rs i = Some (RBranches r)
    | Done => True
    end.
  Definition answered (s : shared) (i : nat) (p : pc) : Prop :=
    (p <> Done -> forall a r t, ~ In (Answered i a r t) (s_log s)) /\
    (p = Done -> forall a, nth_error rs i = Some (RCompare a) -> exists r t, In (Answered i a r t) (s_log s)).
  Record history (c : config) : Prop := {
    h_log : ok_log (s_poisoned (fst c)) (s_log (fst c));
    h_now : forall e, In e (s_log (fst c)) -> (e_time e <= s_now (fst c))%N;
    h_pc : forall i p, nth_error (snd c) i = Some p -> pc_ok (fst c) i p /\ answered (fst c) i p;
    h_cache : forall a v t, s_cache (fst c) a = Some (v, t) -> exists i, In (Stored i a v t) (s_log (fst c));
    h_stored : forall i a v t, In (Stored i a v t) (s_log (fst c)) -> s_cache (fst c) a = Some (v, t) \/ (t + 600000 <= s_now (fst c))%N;
    h_poison : s_poisoned (fst c) = true -> exists j b w t', In (Computed j b (Panic w) t') (s_log (fst c)) }.

  Lemma fresh_spec now t : is_fresh now t = true <-> (now < t + 600000)%N.
  Proof.
    unfold is_fresh. rewrite N.ltb_lt. pose proof (N.div_mod (now - t) 1000 ltac:(discriminate)). pose proof (N.mod_lt (now - t) 1000 ltac:(discriminate)).
    generalize dependent ((now - t) mod 1000)%N. generalize dependent ((now - t) / 1000)%N. intros q r E R. split; intros K; lia.
  Qed.
  Lemma ok_log_poison b b' l : (b = true -> b' = true) -> ok_log b l -> ok_log b' l.
  Proof.
    intros B. induction l as [|e l IH]; cbn; [auto|]. intros [E L]. split; [|auto]. destruct E as (A & T & E). split; [exact A|]. split; [exact T|].
    destruct e as [i a o t|i a v t|i a r t]; auto. destruct E as [U E]. split; [exact U|]. destruct r; auto. destruct E as [-> E]. auto.
  Qed.

  Lemma history_start now : history (start now rs).
  Proof.
    constructor; cbn; try tauto; try discriminate. intros i p H. rewrite nth_error_map in H. destruct (nth_error rs i) eqn:E; [|discriminate].
    injection H as <-. split; [exact E|]. split; [intros _ a0 r0 t0 []|discriminate].
  Qed.
  Lemma history_time s l d : history (s, l) -> history (later s d, l).
  Proof.
    intros [A B C D E F]. constructor; cbn in *; auto.
    - intros e I. specialize (B e I). lia.
    - intros i a v t I. destruct (E i a v t I) as [K|K]; [auto|right; lia].
  Qed.
  (** Steps that leave the history alone. *)
  Lemma history_quiet s s' l i p p' : s_log s' = s_log s -> s_now s' = s_now s -> s_cache s' = s_cache s -> s_poisoned s' = s_poisoned s ->
    nth_error l i = Some p -> (pc_ok s i p -> pc_ok s' i p') -> p <> Done -> (p' = Done -> forall a, nth_error rs i <> Some (RCompare a)) ->
    history (s, l) -> history (s', set_nth l i p').
  Proof.
    intros El En Ec Ep N K D D' [A B C Dc E F]. constructor; cbn in *; rewrite ?El, ?En, ?Ec, ?Ep; auto.
    intros j q Hj. destruct (Nat.eq_dec i j) as [->|X].
    - rewrite (nth_set_same _ _ _ p' N) in Hj. injection Hj as <-. destruct (C _ _ N) as [C1 [C2 C3]]. split; [auto|]. unfold answered. rewrite El.
      split; [intros _; exact (C2 D)|]. intros Q a0 R. elim (D' Q a0 R).
    - rewrite (nth_set_other _ _ _ _ X) in Hj. destruct (C _ _ Hj) as [C1 C2]. split.
      + destruct q; cbn in *; rewrite ?Ec, ?El; auto.
      + unfold answered. rewrite El. exact C2.
  Qed.
  (** Others keep what they know when [i] changes the cache only at [a], while it holds the mutex. *)
  Lemma pc_ok_other s s' j q a : (forall b, b <> a -> s_cache s' b = s_cache s b) -> (forall e, In e (s_log s) -> In e (s_log s')) ->
    (mholds q = 0 \/ s_cache s' = s_cache s) -> pc_ok s j q -> pc_ok s' j q.
  Proof.
    intros Ec El [M|M]; destruct q; cbn in *; try lia; auto.
    all: rewrite ?M; intuition. all: match goal with H : exists _, _ |- _ => destruct H as [t0 H]; eauto end.
  Qed.
  (** [i] leaves with an answer. *)
  Lemma history_answer s s' l i p a r :
    s_log s' = Answered i a r (s_now s) :: s_log s -> s_now s' = s_now s -> s_cache s' = s_cache s ->
    (s_poisoned s = true -> s_poisoned s' = true) ->
    (s_poisoned s' = true -> exists j b w t', In (Computed j b (Panic w) t') (s_log s)) ->
    nth_error l i = Some p -> p <> Done -> nth_error rs i = Some (RCompare a) ->
    explained (s_poisoned s') (Answered i a r (s_now s)) (s_log s) ->
    history (s, l) -> history (s', set_nth l i Done).
  Proof.
    intros El En Ec Ep Ec' N D R X [A B C Dc E F]. constructor; cbn in *; rewrite ?El, ?En, ?Ec; cbn.
    - split; [exact X|]. eapply ok_log_poison; [|exact A]. exact Ep.
    - intros e [<-|I]; [cbn; lia|auto].
    - intros j q Hj. destruct (Nat.eq_dec i j) as [->|Y].
      + rewrite (nth_set_same _ _ _ Done N) in Hj. injection Hj as <-. split; [exact I|]. split; [congruence|]. intros _ b Rb. rewrite El.
        assert (b = a) as -> by congruence. do 2 eexists. left. reflexivity.
      + rewrite (nth_set_other _ _ _ _ Y) in Hj. destruct (C _ _ Hj) as [C1 [C2 C3]]. split.
        * eapply (pc_ok_other s s' j q a); [intros; now rewrite Ec|rewrite El; intros; now right|right; exact Ec|exact C1].
        * unfold answered. rewrite El. split.
          -- intros Q b r0 t0 [Z|Z]; [injection Z; intros; congruence|eapply C2; eauto].
          -- intros Q b Rb. destruct (C3 Q b Rb) as (r0 & t0 & Z). do 2 eexists. right. exact Z.
    - intros b v t Hb. destruct (Dc _ _ _ Hb) as [j Hj]. exists j. now right.
    - intros j b v t [Z|Z]; [discriminate|]. eauto.
    - intros Z. destruct (Ec' Z) as (j & b & w & t & J). do 4 eexists. right. exact J.
  Qed.

  Lemma history_step s l i p s' p' : locks (s, l) -> history (s, l) -> nth_error l i = Some p -> tstep i s p s' p' -> history (s', set_nth l i p').
  Proof.
    intros L H N T.
    assert (C := h_pc _ H i p N). cbn in C. destruct C as [C [C2 _]].
    assert (NowT : forall f, In f (s_log s) -> (e_time f <= s_now s)%N) by (intros f; exact (h_now _ H f)).
    destruct T; cbn in C.
    all: try (eapply history_quiet; try eassumption; try reflexivity; try (cbn; congruence); try discriminate; cbn; intros; auto; fail).
    - (* unknown *) eapply history_answer; try eassumption; try reflexivity; try discriminate; cbn; auto.
      + exact (h_poison _ H).
      + split; [exact C|]. split; [exact NowT|]. split; [intros r' t' b; apply C2; discriminate|left; assumption].
    - (* poisoned *) eapply history_answer; try eassumption; try reflexivity; try discriminate; cbn; auto.
      + exact (h_poison _ H).
      + split; [exact C|]. split; [exact NowT|]. split; [intros r' t' b; apply C2; discriminate|]. split; [assumption|]. apply (h_poison _ H). assumption.
    - (* hit *) eapply history_answer; try eassumption; try reflexivity; try discriminate; cbn; auto.
      + exact (h_poison _ H).
      + split; [exact C|]. split; [exact NowT|]. split; [intros r' t' b; apply C2; discriminate|].
        unfold look_up in H0. destruct (s_cache s a) as [[v' t]|] eqn:Ea; [|discriminate]. destruct (is_fresh (s_now s) t) eqn:Ef; [|discriminate].
        injection H0 as ->. destruct (h_cache _ H _ _ _ Ea) as [j Hj]. exists j, t. split; [exact Hj|]. apply fresh_spec in Ef. pose proof (NowT _ Hj) as X. cbn in X. lia.
    - (* miss *) destruct H as [A B Cp Dc E F]. constructor; cbn in *; auto.
      + intros j q Hj. destruct (Nat.eq_dec i j) as [->|X].
        * rewrite (nth_set_same _ _ _ _ N) in Hj. injection Hj as <-. cbn. destruct (web_args_dec a a); [|congruence]. split; [auto|].
          split; [intros _; apply C2; discriminate|discriminate].
        * rewrite (nth_set_other _ _ _ _ X) in Hj. destruct (Cp _ _ Hj) as [C3 C4]. split; [|exact C4].
          eapply (pc_ok_other s _ j q a); [cbn; intros b Nb; destruct (web_args_dec a b); [congruence|reflexivity]|auto| |exact C3].
          left. pose proof (total_two mholds _ _ _ _ _ X N Hj) as T2. cbn in T2. pose proof (l_mutex _ L) as M. cbn in M. destruct (s_mutex s); cbn in M; lia.
      + intros b v t. destruct (web_args_dec a b); [discriminate|auto].
      + intros j b v t I. destruct (E _ _ _ _ I) as [K|K]; [|auto]. destruct (web_args_dec a b) as [<-|]; [|auto]. right.
        unfold look_up in H0. rewrite K in H0. destruct (is_fresh (s_now s) t) eqn:Ef; [discriminate|].
        destruct (N.lt_ge_cases (s_now s) (t + 600000)) as [Q|Q]; [|exact Q]. apply fresh_spec in Q. congruence.
    - (* no repo *) destruct H as [A B Cp Dc E F]. constructor; cbn in *; auto.
      + split; [|exact A]. split; [apply C|]. split; [exact NowT|]. right. eauto.
      + intros f [<-|I]; [cbn; lia|auto].
      + intros j q Hj. destruct (Nat.eq_dec i j) as [->|X].
        * rewrite (nth_set_same _ _ _ _ N) in Hj. injection Hj as <-. cbn. destruct C as [Ca Cb]. split; [split; [exact Ca|]; split; [exact Cb|]; eexists; left; reflexivity|].
          split; [|discriminate]. intros _ b r t [Z|Z]; [discriminate|]. exact (C2 ltac:(discriminate) _ _ _ Z).
        * rewrite (nth_set_other _ _ _ _ X) in Hj. destruct (Cp _ _ Hj) as [C3 C4]. split.
          -- eapply (pc_ok_other s _ j q a); [reflexivity|cbn; auto|right; reflexivity|exact C3].
          -- unfold answered in *. cbn. destruct C4 as [C4 C5]. split; [intros Q b r t [Z|Z]; [discriminate|eapply C4; eauto]|].
             intros Q b Rb. destruct (C5 Q b Rb) as (r & t & Z). eauto.
      + intros b v t Hb. destruct (Dc _ _ _ Hb) as [j Hj]. eauto.
      + intros j b v t [Z|Z]; [discriminate|eauto].
      + intros Z. destruct (F Z) as (j & b & w & t & J). eauto 6.
    - (* run *) destruct H as [A B Cp Dc E F]. constructor; cbn in *; auto.
      + split; [|exact A]. split; [apply C|]. split; [exact NowT|]. left. assumption.
      + intros f [<-|I]; [cbn; lia|auto].
      + intros j q Hj. destruct (Nat.eq_dec i j) as [->|X].
        * rewrite (nth_set_same _ _ _ _ N) in Hj. injection Hj as <-. cbn. destruct C as [Ca Cb]. split; [split; [exact Ca|]; split; [exact Cb|]; eexists; left; reflexivity|].
          split; [|discriminate]. intros _ b r t [Z|Z]; [discriminate|]. exact (C2 ltac:(discriminate) _ _ _ Z).
        * rewrite (nth_set_other _ _ _ _ X) in Hj. destruct (Cp _ _ Hj) as [C3 C4]. split.
          -- eapply (pc_ok_other s _ j q a); [reflexivity|cbn; auto|right; reflexivity|exact C3].
          -- unfold answered in *. cbn. destruct C4 as [C4 C5]. split; [intros Q b r t [Z|Z]; [discriminate|eapply C4; eauto]|].
             intros Q b Rb. destruct (C5 Q b Rb) as (r & t & Z). eauto.
      + intros b v t Hb. destruct (Dc _ _ _ Hb) as [j Hj]. eauto.
      + intros j b v t [Z|Z]; [discriminate|eauto].
      + intros Z. destruct (F Z) as (j & b & w & t & J). eauto 6.
    - (* store *) destruct C as (Ca & Cb & t1 & Ct). destruct H as [A B Cp Dc E F]. constructor; cbn in *; auto.
      + split; [|split; [|exact A]].
        * split; [exact Ca|]. split; [intros f [<-|I]; [cbn; lia|apply (NowT _ I)]|]. split.
          -- intros r' t' b [Z|Z]; [discriminate|]. exact (C2 ltac:(discriminate) _ _ _ Z).
          -- split; [exists t1; right; exact Ct|left; reflexivity].
        * split; [exact Ca|]. split; [exact NowT|]. split; [exists t1; exact Ct|]. intros j w t' I. destruct (E _ _ _ _ I) as [K|K]; [congruence|exact K].
      + intros f [<-|[<-|I]]; [cbn; lia|cbn; lia|auto].
      + intros j q Hj. destruct (Nat.eq_dec i j) as [->|X].
        * rewrite (nth_set_same _ _ _ _ N) in Hj. injection Hj as <-. split; [exact I|]. split; [congruence|]. intros _ b Rb. assert (b = a) as -> by congruence.
          do 2 eexists. left. reflexivity.
        * rewrite (nth_set_other _ _ _ _ X) in Hj. destruct (Cp _ _ Hj) as [C3 C4]. split.
          -- eapply (pc_ok_other s _ j q a); [cbn; intros b Nb; destruct (web_args_dec a b); [congruence|reflexivity]|cbn; auto| |exact C3].
             left. pose proof (total_two mholds _ _ _ _ _ X N Hj) as T2. cbn in T2. pose proof (l_mutex _ L) as M. cbn in M. destruct (s_mutex s); cbn in M; lia.
          -- unfold answered in *. cbn. destruct C4 as [C4 C5]. split; [intros Q b r t [Z|[Z|Z]]; [injection Z; intros; congruence|discriminate|eapply C4; eauto]|].
             intros Q b Rb. destruct (C5 Q b Rb) as (r & t & Z). eauto 6.
      + intros b v' t. destruct (web_args_dec a b) as [<-|]; [intros [= <- <-]; exists i; auto|]. intros Hb. destruct (Dc _ _ _ Hb) as [j Hj]. eauto.
      + intros j b v' t [Z|[Z|Z]]; [discriminate| |].
        * injection Z as <- <- <- <-. destruct (web_args_dec a a); [auto|congruence].
        * destruct (web_args_dec a b) as [<-|]; [|eauto]. destruct (E _ _ _ _ Z) as [K|K]; [congruence|auto].
      + intros Z. destruct (F Z) as (j & b & w & t & J). eauto 7.
    - (* error *) destruct C as (Ca & Cb & t1 & Ct). eapply history_answer; try eassumption; try reflexivity; try discriminate; cbn; auto.
      + exact (h_poison _ H).
      + split; [exact Ca|]. split; [exact NowT|]. split; [intros r' t' b; apply C2; discriminate|]. right. eauto.
    - (* panic *) destruct C as (Ca & Cb & t1 & Ct). eapply history_answer; try eassumption; try reflexivity; try discriminate; cbn; auto.
      + intros _. eauto 6.
      + split; [exact Ca|]. split; [exact NowT|]. split; [intros r' t' b; apply C2; discriminate|]. split; [reflexivity|]. eauto 6.
  Qed.
  Lemma history_execution now n c : execution (start now rs) n c -> history c.
  Proof.
    remember (start now rs) as c0 eqn:E0. intros H. induction H as [c0|c0 n c' i c'' H IH T|c0 n c' c'' H IH T]; subst.
    - apply history_start.
    - inversion T; subst. eapply history_step; eauto using locks_execution.
    - inversion T; subst. apply history_time. auto.
  Qed.

  Lemma ok_log_at b l e : ok_log b l -> In e l -> exists l1 l2, l = l1 ++ e :: l2 /\ explained b e l2.
  Proof.
    induction l as [|x l IH]; cbn; [tauto|]. intros [X O] [->|I].
    - exists [], l. auto.
    - destruct (IH O I) as (l1 & l2 & -> & K). exists (x :: l1), l2. auto.
  Qed.
  Lemma happened_explained now n c e : execution (start now rs) n c -> happened c e ->
    exists l1 l2, s_log (fst c) = l1 ++ e :: l2 /\ explained (s_poisoned (fst c)) e l2.
  Proof. intros H I. apply (ok_log_at _ _ _ (h_log _ (history_execution _ _ _ H)) I). Qed.
  Lemma before_intro (c : config) e f l1 l2 : s_log (fst c) = l1 ++ f :: l2 -> In e l2 -> before c e f.
  Proof. intros E I. apply in_split in I. destruct I as (l3 & l4 & ->). exists l1, l3, l4. exact E. Qed.

  Lemma cached_lemma now n c i a v t : execution (start now rs) n c -> happened c (Answered i a (Cached v) t) ->
    exists j t0, before c (Stored j a v t0) (Answered i a (Cached v) t) /\ (t0 <= t < t0 + 600000)%N.
  Proof.
    intros H I. destruct (happened_explained _ _ _ _ H I) as (l1 & l2 & E & _ & _ & _ & j & t0 & J & T). exists j, t0.
    split; [eapply before_intro; eassumption|exact T].
  Qed.
  Lemma computed_lemma now n c i a o t : execution (start now rs) n c -> happened c (Computed i a o t) ->
    nth_error rs i = Some (RCompare a) /\ (runs a o \/ known (wa_repo a) = false /\ exists x, o = Err x).
  Proof. intros H I. destruct (happened_explained _ _ _ _ H I) as (l1 & l2 & E & R & _ & K). auto. Qed.
  Lemma stored_lemma now n c i a v t : execution (start now rs) n c -> happened c (Stored i a v t) ->
    nth_error rs i = Some (RCompare a) /\ runs a (Ok v) /\ exists t', before c (Computed i a (Ok v) t') (Stored i a v t) /\ (t' <= t)%N.
  Proof.
    intros H I. destruct (happened_explained _ _ _ _ H I) as (l1 & l2 & E & R & T & (t' & J) & _). split; [exact R|].
    assert (K : happened c (Computed i a (Ok v) t')) by (unfold happened; rewrite E; apply in_or_app; right; right; exact J).
    split; [destruct (computed_lemma _ _ _ _ _ _ _ H K) as [_ [Q|[_ [x Q]]]]; [exact Q|discriminate]|].
    exists t'. split; [eapply before_intro; eassumption|]. exact (T _ J).
  Qed.
  Lemma fresh_lemma now n c i a v t : execution (start now rs) n c -> happened c (Answered i a (Fresh v) t) ->
    nth_error rs i = Some (RCompare a) /\ runs a (Ok v) /\ exists t', before c (Computed i a (Ok v) t') (Answered i a (Fresh v) t) /\ (t' <= t)%N /\
      happened c (Stored i a v t).
  Proof.
    intros H I. destruct (happened_explained _ _ _ _ H I) as (l1 & l2 & E & R & T & _ & (t' & J) & J'). split; [exact R|].
    assert (K : forall e, In e l2 -> happened c e) by (intros e Q; unfold happened; rewrite E; apply in_or_app; right; right; exact Q).
    split; [destruct (computed_lemma _ _ _ _ _ _ _ H (K _ J)) as [_ [Q|[_ [x Q]]]]; [exact Q|discriminate]|].
    exists t'. split; [eapply before_intro; eassumption|]. split; [exact (T _ J)|auto].
  Qed.
  Lemma failed_lemma now n c i a t : execution (start now rs) n c -> happened c (Answered i a Failed t) ->
    nth_error rs i = Some (RCompare a) /\
    (known (wa_repo a) = false \/ exists x t', before c (Computed i a (Err x) t') (Answered i a Failed t) /\ (t' <= t)%N).
  Proof.
    intros H I. destruct (happened_explained _ _ _ _ H I) as (l1 & l2 & E & R & T & _ & J). split; [exact R|].
    destruct J as [J|(x & t' & J)]; [auto|]. right. exists x, t'. split; [eapply before_intro; eassumption|exact (T _ J)].
  Qed.
  Lemma once_lemma now n c i j a v w t t' : execution (start now rs) n c -> before c (Stored j a w t') (Stored i a v t) -> (t' + 600000 <= t)%N.
  Proof.
    intros H (l1 & l2 & l3 & E). assert (O := h_log _ (history_execution _ _ _ H)). rewrite E in O.
    assert (K : forall l, ok_log (s_poisoned (fst c)) (l ++ Stored i a v t :: l2 ++ Stored j a w t' :: l3) ->
      explained (s_poisoned (fst c)) (Stored i a v t) (l2 ++ Stored j a w t' :: l3)).
    { induction l as [|x l IH]; cbn; [intros [X _]; exact X|intros [_ X]; auto]. }
    apply K in O. destruct O as (_ & _ & _ & O). apply (O j w t'). apply in_or_app. right. left. reflexivity.
  Qed.
  Lemma hit_lemma now n c i j a v t c' : execution (start now rs) n c -> nth_error (snd c) i = Some (Look a) -> happened c (Stored j a v t) ->
    (s_now (fst c) < t + 600000)%N -> step c (Some i) c' ->
    s_log (fst c') = Answered i a (Cached v) (s_now (fst c)) :: s_log (fst c).
  Proof.
    intros H N I T S. assert (Hh := history_execution _ _ _ H). destruct (h_stored _ Hh _ _ _ _ I) as [E|E]; [|lia].
    inversion S as [s l i' p s' p' N' TS|]; subst; cbn in *. rewrite N in N'. injection N' as <-.
    assert (L : look_up s a = Some v) by (unfold look_up; rewrite E; apply fresh_spec in T; rewrite T; reflexivity).
    inversion TS; subst; try congruence. assert (v0 = v) as -> by congruence. reflexivity.
  Qed.
  Lemma answer_lemma now n c i a : execution (start now rs) n c -> all_done c -> nth_error rs i = Some (RCompare a) ->
    exists r t, happened c (Answered i a r t).
  Proof.
    intros H D R. assert (Len : List.length (snd c) = List.length rs).
    { clear D R. remember (start now rs) as c0 eqn:E0. induction H as [c0|c0 n c' j c'' H IH T|c0 n c' c'' H IH T]; subst.
      - cbn. apply map_length.
      - inversion T; subst; cbn in *. rewrite set_length. auto.
      - inversion T; subst; cbn in *. auto. }
    destruct (nth_error (snd c) i) as [p|] eqn:E.
    - destruct (h_pc _ (history_execution _ _ _ H) _ _ E) as [_ [_ A]]. apply A; [|exact R]. apply D. eapply nth_error_In. eassumption.
    - apply nth_error_None in E. assert (nth_error rs i <> None) by congruence. apply nth_error_Some in H0. lia.
  Qed.
  Lemma unique_lemma now n c i a b r r' t t' : execution (start now rs) n c ->
    happened c (Answered i a r t) -> happened c (Answered i b r' t') -> Answered i a r t = Answered i b r' t'.
  Proof.
    intros H. assert (O := h_log _ (history_execution _ _ _ H)). unfold happened. induction (s_log (fst c)) as [|e l IH]; cbn in *; [tauto|].
    destruct O as [X O]. intros [->|I] [J|J].
    - auto.
    - destruct X as (_ & _ & U & _). elim (U _ _ _ J).
    - subst e. destruct X as (_ & _ & U & _). elim (U _ _ _ I).
    - auto.
  Qed.

  (** ** After a panic *)
  Lemma crashed_poisoned now n c i a t : execution (start now rs) n c -> happened c (Answered i a Crashed t) ->
    s_poisoned (fst c) = true /\ exists j b w t', before c (Computed j b (Panic w) t') (Answered i a Crashed t).
  Proof.
    intros H I. destruct (happened_explained _ _ _ _ H I) as (l1 & l2 & E & R & T & _ & P & j & b & w & t' & J). split; [exact P|].
    exists j, b, w, t'. eapply before_intro; eassumption.
  Qed.
  Definition lost (e : event) : Prop := exists j b t, e = Answered j b Crashed t \/ e = Answered j b Failed t /\ known (wa_repo b) = false.
  Lemma poisoned_lemma c m c' : locks c -> s_poisoned (fst c) = true -> execution c m c' ->
    exists l, s_log (fst c') = l ++ s_log (fst c) /\ Forall lost l.
  Proof.
    intros L P H. assert (K : locks c' /\ s_poisoned (fst c') = true /\ exists l, s_log (fst c') = l ++ s_log (fst c) /\ Forall lost l); [|apply K].
    induction H as [c|c n c' i c'' H IH T|c n c' c'' H IH T].
    - split; [exact L|]. split; [exact P|]. exists []. auto.
    - destruct (IH L P) as (L' & P' & l & E & F). split; [eapply locks_step; eassumption|].
      inversion T as [s pcs i' p s' p' N TS|]; subst; cbn in *.
      assert (M : mholds p = 0).
      { pose proof (total_ge mholds _ _ _ N). pose proof (l_mutex _ L') as X. pose proof (l_poison _ L' P') as Y. cbn in X, Y. rewrite Y in X. cbn in X. lia. }
      destruct TS; cbn in *; try discriminate; try congruence; (split; [auto|]); try (exists l; split; [exact E|exact F]).
      + exists (Answered i a Failed (s_now s) :: l). rewrite E. split; [reflexivity|]. constructor; [|exact F]. do 3 eexists. right. auto.
      + exists (Answered i a Crashed (s_now s) :: l). rewrite E. split; [reflexivity|]. constructor; [|exact F]. do 3 eexists. left. reflexivity.
    - destruct (IH L P) as (L' & P' & l & E & F). split; [eapply locks_step; eassumption|]. inversion T; subst; cbn in *. split; [auto|].
      exists l. auto.
  Qed.
  Lemma after_crash now n c i a t m c' : execution (start now rs) n c -> happened c (Answered i a Crashed t) -> execution c m c' ->
    exists l, s_log (fst c') = l ++ s_log (fst c) /\
      forall e, In e l -> exists j b t', e = Answered j b Crashed t' \/ e = Answered j b Failed t' /\ known (wa_repo b) = false.
  Proof.
    intros H I X. destruct (crashed_poisoned _ _ _ _ _ _ H I) as [P _]. destruct (poisoned_lemma c m c' (locks_execution _ _ _ _ H) P X) as (l & E & F).
    exists l. split; [exact E|]. rewrite Forall_forall in F. exact F.
  Qed.
End Server.

(** From the first step on. *)
Lemma ex_cons shards shard known runs c i c' n c'' : step shards shard known runs c (Some i) c' ->
  execution shards shard known runs c' n c'' -> execution shards shard known runs c (S n) c''.
Proof.
  intros H E. replace (S n) with (n + 1) by lia. eapply execution_trans; [|exact E].
  econstructor; [constructor|exact H].
Qed.
Lemma ex_wait shards shard known runs s l d n c'' : execution shards shard known runs (later s d, l) n c'' ->
  execution shards shard known runs (s, l) n c''.
Proof.
  intros E. replace n with (n + 0) by lia. eapply execution_trans; [|exact E].
  eapply ex_time; [constructor|constructor].
Qed.
Lemma bounded_lemma shards shard known runs : 0 < shards -> forall now rs n c,
  execution shards shard known runs (start now rs) n c -> n <= List.length rs * (2 * shards + 9).
Proof. intros H now rs n c E. pose proof (rest_execution shards shard known runs H now rs n c E). lia. Qed.
