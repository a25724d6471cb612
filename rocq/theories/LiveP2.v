(** Regressions in answers while the remote repositories change, and lemmas for examples of executions. *)
From Coq Require Import List String Ascii Arith NArith ZArith Bool Reals Lia Permutation.
From Verif Require Import Base ScopeM TermM F64 SpecF64 CompareM SpecCompare RowsM SpecRows FmtM SynM ParseM SpecParse SpecAttr StorageM FilesM SpecFiles GitM SpecGit WebM SpecWeb
  ServerM SpecServer IsoM SpecIso SpecEnd SpecText SpecTmpl LiveM SpecLive.
From Verif Require RowsP EndP3 TmplP5 IsoP IsoP3 LiveP.
Import ListNotations.
Local Open Scope string_scope.

Section Answers.
  Context (tglob : N -> string -> option (list (option fpath)))
    (m : mode) (ords : string * string -> list string -> list string) (rx : regex_engine)
    (shards : nat) (shard : string -> nat) (known : string -> bool) (where_ : string -> fpath).
  Notation dir a := (where_ (wa_repo a)).
  Lemma live_regression tdisk ws0 now rs h s ws l i a rows t old new pat : (forall k, is_order (ords k)) -> own_directories known where_ -> 0 < shards ->
    lrun tglob tdisk m ords rx shards shard known where_ (istart ws0 now rs) h (s, ws, l) -> answered_at (s_log s) i a rows t ->
    wa_method a = ExactWorst \/ wa_method a = GuessWorst -> (wa_threshold a < 2 ^ 32)%N -> wa_pull a <> Some false ->
    trimmed (wa_old a) old -> trimmed (wa_new a) new -> trimmed (wa_pattern a) pat ->
    unambiguous (ws0 (dir a)) old -> unambiguous (ws0 (dir a)) new -> branch_name h (dir a) old -> branch_name h (dir a) new ->
    exists j t0 c_old c_new, In (Stored j a rows t0) (s_log s) /\ (t0 <= t < t0 + 600000)%N /\ looked_up h (dir a) j a old new c_old c_new t0 /\
      forall k mo mn eo en rho v w,
      source_of (tglob c_old) (tdisk c_old) (dir a) pat k mo eo -> source_of (tglob c_new) (tdisk c_new) (dir a) pat k mn en ->
      passes rx (wa_pallet a) (fst k) -> passes rx (wa_extrinsic a) (snd k) ->
      tame_source (wa_unit a) mo mn eo en -> in_source_box mo mn eo en rho -> weight_at (wa_unit a) rho eo v -> weight_at (wa_unit a) rho en w ->
      grown (RN (wa_threshold a)) v w ->
      exists r, In r rows /\ row_key r = k /\ shows r (RN (wa_threshold a)) v w.
  Proof.
    intros Or Ow P R An Me Th Pl To Tn Tp Uo Un Bo Bn.
    destruct (LiveP.live_lemma tglob tdisk m ords rx shards shard known where_ Ow ws0 now rs h s ws l i a rows t old new pat P R An Pl To Tn Tp Uo Un Bo Bn)
      as (j & t0 & c_old & c_new & rs0 & _ & St & T & L & C & So).
    exists j, t0, c_old, c_new. split; [exact St|]. split; [exact T|]. split; [exact L|]. intros k mo mn eo en rho v w S1 S2 Pp Pe Ta Hb Wv Ww G.
    destruct (EndP3.trees_regression tglob tdisk m ords rx (dir a) Or (wa_method a) (wa_unit a) (web_git a) (web_filter a) pat web_max_files c_old c_new rs0 k mo mn eo en rho
      (1000 * Z.of_N (wa_threshold a)) v w Me C (EndP3.int_threshold _ Th)) as (Ty & r & I & K & Sh); auto.
    { intros ks K. discriminate K. }
    { rewrite EndP3.thousand. exact G. }
    exists r. destruct (RowsP.sort_lemma _ _ So) as (Pe' & _). split; [eapply Permutation_in; eauto|]. split; auto. now rewrite EndP3.thousand in Sh.
  Qed.
  Lemma live_measured syn texts ws0 now rs h s ws l i a rows t old new pat : reads_grammar syn -> (forall k, is_order (ords k)) -> own_directories known where_ -> 0 < shards ->
    lrun tglob (fun c => disk_of syn (texts c)) m ords rx shards shard known where_ (istart ws0 now rs) h (s, ws, l) -> answered_at (s_log s) i a rows t ->
    wa_method a = ExactWorst \/ wa_method a = GuessWorst -> (wa_threshold a < 2 ^ 32)%N -> wa_pull a <> Some false ->
    trimmed (wa_old a) old -> trimmed (wa_new a) new -> trimmed (wa_pattern a) pat ->
    unambiguous (ws0 (dir a)) old -> unambiguous (ws0 (dir a)) new -> branch_name h (dir a) old -> branch_name h (dir a) new ->
    exists j t0 c_old c_new, In (Stored j a rows t0) (s_log s) /\ (t0 <= t < t0 + 600000)%N /\ looked_up h (dir a) j a old new c_old c_new t0 /\
      forall k bo bn rho,
      data_source_of syn (tglob c_old) (texts c_old) (dir a) pat k bo -> data_source_of syn (tglob c_new) (texts c_new) (dir a) pat k bn ->
      passes rx (wa_pallet a) (fst k) -> passes rx (wa_extrinsic a) (snd k) -> tame_data (wa_unit a) bo bn -> in_bench_box bo bn rho ->
      grown (RN (wa_threshold a)) (bench_weight (wa_unit a) rho bo) (bench_weight (wa_unit a) rho bn) ->
      exists r, In r rows /\ row_key r = k /\ shows r (RN (wa_threshold a)) (bench_weight (wa_unit a) rho bo) (bench_weight (wa_unit a) rho bn).
  Proof.
    intros Hs Or Ow P R An Me Th Pl To Tn Tp Uo Un Bo Bn.
    destruct (LiveP.live_lemma tglob _ m ords rx shards shard known where_ Ow ws0 now rs h s ws l i a rows t old new pat P R An Pl To Tn Tp Uo Un Bo Bn)
      as (j & t0 & c_old & c_new & rs0 & _ & St & T & L & C & So).
    exists j, t0, c_old, c_new. split; [exact St|]. split; [exact T|]. split; [exact L|]. intros k bo bn rho S1 S2 Pp Pe Ta Hb G.
    destruct (TmplP5.data_trees syn tglob texts m ords rx (dir a) Hs Or (wa_method a) (wa_unit a) (web_git a) (web_filter a) pat web_max_files c_old c_new rs0 k bo bn rho
      (1000 * Z.of_N (wa_threshold a)) Me C (EndP3.int_threshold _ Th)) as (Ty & r & I & K & Sh); auto.
    { intros ks K. discriminate K. }
    { rewrite EndP3.thousand. exact G. }
    exists r. destruct (RowsP.sort_lemma _ _ So) as (Pe' & _). split; [eapply Permutation_in; eauto|]. split; auto. now rewrite EndP3.thousand in Sh.
  Qed.
End Answers.

(** ** Executions for examples *)
Lemma remote_kept s args : r_remote (fst (run_git_all s args)) = r_remote s.
Proof.
  assert (X : r_remote (fst (run_git s args)) = r_remote s).
  { unfold run_git, git_fetch, git_reset_hard, git_switch.
    repeat match goal with |- context [match ?x with _ => _ end] => destruct x; try reflexivity end. }
  unfold run_git_all. repeat match goal with |- context [match ?x with _ => _ end] => destruct x; try exact X; try reflexivity end.
Qed.
Section Runs.
  Context (tglob : N -> string -> option (list (option fpath))) (tdisk : N -> fpath -> string + file)
    (m : mode) (ords : string * string -> list string -> list string) (rx : regex_engine)
    (shards : nat) (shard : string -> nat) (known : string -> bool) (where_ : string -> fpath).
  Notation lrun := (lrun tglob tdisk m ords rx shards shard known where_).
  Notation irun := (irun run_git_all (fun s => tglob (r_work s)) (fun s => tdisk (r_work s)) m ords rx shards shard known where_).
  Definition remotes (c : iconfig (W := grepo)) (d : fpath) : string -> option N := r_remote (snd (fst c) d).
  Lemma remotes_step i s ws p s' ws' p' l l' : istep run_git_all (fun s => tglob (r_work s)) (fun s => tdisk (r_work s)) m ords rx shards shard known where_ i s ws p s' ws' p' ->
    forall d, remotes (s', ws', l') d = remotes (s, ws, l) d.
  Proof.
    intros T d. unfold remotes. cbn. destruct T as [| |s ws a args k w r G| | | |s ws repo args G]; try reflexivity; unfold put_world.
    - destruct (fpath_dec _ d) as [<-|]; [|reflexivity]. change w with (fst (w, r)). rewrite <- G. apply remote_kept.
    - destruct (fpath_dec _ d) as [<-|]; [|reflexivity]. apply remote_kept.
  Qed.
  (** The moments [h] of an execution without changes of the remote repositories. *)
  Lemma irun_live a b : irun a b -> exists h, lrun a h b /\ Forall (fun c => forall d, remotes c d = remotes a d) h /\ forall d, remotes b d = remotes a d.
  Proof.
    induction 1 as [c|c s ws l i p s' ws' p' R (h & L & F & E) N T|c s ws l d R (h & L & F & E)].
    - exists []. split; [constructor|]. split; [constructor|reflexivity].
    - exists ((s, ws, l) :: h). split; [eapply lrun_thread; eassumption|]. split; [now constructor|]. intros d. rewrite (remotes_step _ _ _ _ _ _ _ l _ T d). apply E.
    - exists ((s, ws, l) :: h). split; [now apply lrun_time|]. split; [now constructor|]. intros e. exact (E e).
  Qed.
  Lemma live_trans a h1 b h2 c : lrun a h1 b -> lrun b h2 c -> lrun a (h2 ++ h1) c.
  Proof. intros L. induction 1; cbn; [exact L| | |]; [eapply lrun_thread|apply lrun_time|apply lrun_push]; eauto. Qed.
  Lemma one_push a s ws l dir r c : irun a (s, ws, l) -> irun (s, put_world ws dir (pushed (ws dir) r), l) c ->
    exists h, lrun a h c /\ Forall (fun x => (forall d, remotes x d = remotes a d) \/ forall d, remotes x d = if fpath_dec dir d then r else remotes a d) h.
  Proof.
    intros A B. apply irun_live in A, B. destruct A as (h1 & L1 & F1 & E1), B as (h2 & L2 & F2 & E2).
    exists (h2 ++ (s, ws, l) :: h1)%list. split.
    - eapply live_trans; [|exact L2]. now apply lrun_push.
    - apply Forall_app. split.
      + revert F2. apply Forall_impl. intros x H. right. intros d. rewrite H. unfold remotes, put_world. cbn. destruct (fpath_dec dir d) as [<-|]; [reflexivity|]. apply E1.
      + constructor; [left; exact E1|]. revert F1. apply Forall_impl. auto.
  Qed.
End Runs.
