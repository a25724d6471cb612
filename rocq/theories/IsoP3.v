(** Lemmas about the directories of repositories, about answers, and for examples of executions. *)
From Coq Require Import List String Ascii Arith NArith Bool Lia.
From Verif Require Import Base ScopeM TermM F64 CompareM RowsM FmtM SynM ParseM StorageM FilesM SpecFiles GitM SpecGit WebM SiteM ServerM SpecServer IsoM SpecIso.
From Verif Require SiteP ServerP IsoP.
Import ListNotations.
Local Open Scope string_scope.

Lemma own_lemma remote exists_ is_dir root static names repos : SiteM.start remote exists_ is_dir root static names = Ok repos ->
  Forall (fun n => plain (CName n)) names -> own_directories (is_known repos) (dir_of repos).
Proof.
  intros S F. apply SiteP.start_lemma in S. destruct S as (_ & _ & _ & _ & H).
  assert (K : forall r, is_known repos r = true -> In r names /\ dir_of repos r = (root ++ [CName r])%list).
  { intros r Kr. unfold is_known in Kr. unfold dir_of. apply existsb_exists in Kr. destruct Kr as (p & I & E).
    destruct (find (fun p => String.eqb (fst p) r) repos) as [[n x]|] eqn:Fi.
    - apply find_some in Fi. destruct Fi as [I' E']. cbn in E'. apply String.eqb_eq in E'. subst n. apply H in I'. destruct I' as (N & _ & P & _).
      split; [exact N|]. cbn. rewrite P. rewrite Forall_forall in F. specialize (F r N).
      exact (SiteP.join_plain root [r] ltac:(discriminate) ltac:(constructor; [exact F|constructor])).
    - exfalso. pose proof (find_none _ _ Fi p I) as X. cbn in X. congruence. }
  intros r r' Kr Kr' E. apply K in Kr, Kr'. destruct Kr as (_ & A), Kr' as (_ & B). rewrite A, B in E. apply app_inv_head in E. congruence.
Qed.

Section Answered.
  Context {W : Type} (git : W -> list string -> W * cmd_result)
    (glob : W -> string -> option (list (option fpath))) (disk : W -> fpath -> string + file)
    (m : mode) (ords : string * string -> list string -> list string) (rx : regex_engine)
    (shards : nat) (shard : string -> nat) (known : string -> bool) (where_ : string -> fpath).
  Lemma computed_in l i a o t : In (Computed i a o t) l -> In (i, a, o) (computed l).
  Proof. intros H. unfold computed. apply in_flat_map. exists (Computed i a o t). split; [exact H|now left]. Qed.
  Lemma comparisons_in h i a o : In (i, a, o) (comparisons h) -> In (OCompare i a o) h.
  Proof.
    unfold comparisons. rewrite in_flat_map. intros (x & I & J). destruct x; cbn in J; [|destruct J]. destruct J as [J|[]].
    injection J as <- <- <-. exact I.
  Qed.
  Lemma answered_lemma ws0 now rs s ws l a v : own_directories known where_ -> 0 < shards ->
    irun git glob disk m ords rx shards shard known where_ (istart ws0 now rs) (s, ws, l) -> answered (s_log s) a v ->
    exists h ws', serial git glob disk m ords rx where_ ws0 h ws' /\ comparisons h = computed (s_log s) /\
      exists i, nth_error rs i = Some (RCompare a) /\ In (OCompare i a (Ok v)) h.
  Proof.
    intros Ow P R An. destruct (IsoP.server_lemma git glob disk m ords rx shards shard known where_ Ow ws0 now rs s ws l R) as (n & E).
    destruct (IsoP.serial_lemma git glob disk m ords rx shards shard known where_ Ow ws0 now rs s ws l R) as (h & wsS & S & C & _).
    exists h, wsS. split; [exact S|]. split; [exact C|].
    assert (X : forall i t, happened (s, map coarse l) (Stored i a v t) -> exists i, nth_error rs i = Some (RCompare a) /\ In (OCompare i a (Ok v)) h).
    { intros i t St. destruct (ServerP.stored_lemma shards shard known _ P rs now n _ i a v t E St) as (N & _ & t' & (l1 & l2 & l3 & B) & _).
      exists i. split; [exact N|]. apply comparisons_in. rewrite C. apply computed_in with t'. cbn in B. rewrite B. apply in_or_app. right. right.
      apply in_or_app. right. now left. }
    destruct An as (i & t & [H|H]).
    - destruct (ServerP.cached_lemma shards shard known _ P rs now n _ i a v t E H) as (j & t0 & (l1 & l2 & l3 & B) & _).
      apply (X j t0). unfold happened. cbn in *. rewrite B. apply in_or_app. right. right. apply in_or_app. right. now left.
    - destruct (ServerP.fresh_lemma shards shard known _ P rs now n _ i a v t E H) as (_ & _ & t' & _ & _ & St). exact (X i t St).
  Qed.
  (** ** Executions step by step, for examples *)
  Notation irun := (irun git glob disk m ords rx shards shard known where_).
  Notation istep := (istep git glob disk m ords rx shards shard known where_).
  (** [n] steps of a comparison. *)
  Fixpoint some_steps (n : nat) (d : fpath) (q : prog (list row)) (ws : worlds) : prog (list row) * worlds :=
    match n, q with
    | O, _ | _, PRet _ => (q, ws)
    | S n, PGit args k => let (w, r) := git (ws d) args in some_steps n d (k r) (put_world ws d w)
    | S n, PGlob pat k => some_steps n d (k (glob (ws d) pat)) ws
    | S n, PFile p k => some_steps n d (k (disk (ws d) p)) ws
    end.
  Lemma set_set l : forall i (p q : ipc), set_ith (set_ith l i p) i q = set_ith l i q.
  Proof. induction l as [|x l IH]; intros [|i] p q; cbn; try reflexivity. now rewrite IH. Qed.
  Lemma steps_lemma n : forall c s ws l i a q, irun c (s, ws, l) -> nth_error l i = Some (Exec a q) ->
    irun c (s, snd (some_steps n (where_ (wa_repo a)) q ws), set_ith l i (Exec a (fst (some_steps n (where_ (wa_repo a)) q ws)))).
  Proof.
    induction n as [|n IH]; intros c s ws l i a q R N.
    - cbn. rewrite (IsoP.set_same l i _ N). exact R.
    - destruct q as [o|args k|pat k|p k]; cbn [some_steps fst snd].
      + rewrite (IsoP.set_same l i _ N). exact R.
      + destruct (git (ws (where_ (wa_repo a))) args) as [w r] eqn:E.
        pose proof (irun_thread _ _ _ _ _ _ _ _ _ _ _ _ _ _ _ _ _ _ _ R N (i_git _ _ _ _ _ _ _ _ _ _ i s ws a args k w r E)) as R'.
        specialize (IH _ _ _ _ _ _ _ R' (IsoP.ith_same _ _ _ _ N)). rewrite set_set in IH. exact IH.
      + pose proof (irun_thread _ _ _ _ _ _ _ _ _ _ _ _ _ _ _ _ _ _ _ R N (i_glob _ _ _ _ _ _ _ _ _ _ i s ws a pat k)) as R'.
        specialize (IH _ _ _ _ _ _ _ R' (IsoP.ith_same _ _ _ _ N)). rewrite set_set in IH. exact IH.
      + pose proof (irun_thread _ _ _ _ _ _ _ _ _ _ _ _ _ _ _ _ _ _ _ R N (i_file _ _ _ _ _ _ _ _ _ _ i s ws a p k)) as R'.
        specialize (IH _ _ _ _ _ _ _ R' (IsoP.ith_same _ _ _ _ N)). rewrite set_set in IH. exact IH.
  Qed.
  Lemma trans_lemma a b c : irun a b -> irun b c -> irun a c.
  Proof. intros R. induction 1; [exact R| |]; [eapply irun_thread; eauto|eapply irun_time; eauto]. Qed.
  Lemma cons_step i s ws l p s' ws' p' c : nth_error l i = Some p -> istep i s ws p s' ws' p' -> irun (s', ws', set_ith l i p') c -> irun (s, ws, l) c.
  Proof. intros N S R. eapply trans_lemma; [|exact R]. eapply irun_thread; [apply irun_nil|exact N|exact S]. Qed.
  Lemma cons_other i s ws l p s' p' c : nth_error l i = Some (At p) -> tstep shards shard known (fun _ _ => False) i s p s' p' -> not_running p' ->
    irun (s', ws, set_ith l i (At p')) c -> irun (s, ws, l) c.
  Proof. intros N S D. apply cons_step with (1 := N). now apply i_other. Qed.
  Lemma cons_begin i s ws l a p s' c : nth_error l i = Some (At p) -> tstep shards shard known (fun _ _ => False) i s p s' (Running a) ->
    irun (s', ws, set_ith l i (Exec a (web_prog m ords rx where_ a))) c -> irun (s, ws, l) c.
  Proof. intros N S. apply cons_step with (1 := N). now apply i_begin. Qed.
  Lemma cons_exec n i s ws l a q c : nth_error l i = Some (Exec a q) ->
    irun (s, snd (some_steps n (where_ (wa_repo a)) q ws), set_ith l i (Exec a (fst (some_steps n (where_ (wa_repo a)) q ws)))) c -> irun (s, ws, l) c.
  Proof. intros N. apply trans_lemma. apply steps_lemma; [apply irun_nil|exact N]. Qed.
  Lemma cons_branches i s ws l repo args c : nth_error l i = Some (At (Listing repo)) -> In args branch_commands ->
    irun (s, put_world ws (where_ repo) (fst (git (ws (where_ repo)) args)), set_ith l i (At (Listing repo))) c -> irun (s, ws, l) c.
  Proof. intros N I. apply cons_step with (1 := N). now apply i_branches. Qed.
  Lemma cons_end i s ws l a q rows sorted c : nth_error l i = Some (Exec a q) -> q = PRet (Ok rows) ->
    sort_changes (filter_changes rows (web_filter a)) sorted ->
    irun (record (set_writer s (shard (wa_repo a)) false) (Computed i a (Ok sorted) (s_now s)), ws, set_ith l i (At (Ran a (Ok sorted)))) c -> irun (s, ws, l) c.
  Proof.
    intros N -> S. apply cons_step with (1 := N). assert (F : finish a (Ok rows) (Ok sorted)) by now constructor. apply i_end with (1 := F).
    apply t_run; [exact F|discriminate].
  Qed.
  Lemma cons_time s ws l d c : irun (later s d, ws, l) c -> irun (s, ws, l) c.
  Proof. apply trans_lemma. eapply irun_time, irun_nil. Qed.
End Answered.
