(** Lemmas about answers of the server with the model of git. *)
From Coq Require Import List String Ascii Arith NArith ZArith Bool Reals Lia.
From Verif Require Import Base ScopeM TermM F64 SpecF64 CompareM SpecCompare RowsM SpecRows FmtM SynM ParseM SpecParse SpecAttr StorageM FilesM SpecFiles GitM SpecGit WebM SpecWeb
  ServerM SpecServer IsoM SpecIso SpecEnd.
From Verif Require GitP WebP PageP ServerP IsoP EndP3.
Import ListNotations.
Local Open Scope string_scope.

(** Two programs that agree on the commands of a comparison. *)
Section Agree.
  Context {W : Type} (git git' : W -> list string -> W * cmd_result)
    (glob : W -> string -> option (list (option fpath))) (disk : W -> fpath -> string + file).
  Context (agree : forall w x, git w ["fetch"; "origin"; x] = git' w ["fetch"; "origin"; x] /\ git w ["reset"; "--hard"; x] = git' w ["reset"; "--hard"; x] /\
    git w ["checkout"; x] = git' w ["checkout"; x]).
  Lemma abind_ext {A B} (x x' : act A) (k k' : A -> act B) (w : W) : x w = x' w -> (forall a w, k a w = k' a w) -> abind x k w = abind x' k' w.
  Proof. intros E K. unfold abind. rewrite E. destruct (x' w) as [[o w'] t]. destruct o; try reflexivity. now rewrite K. Qed.
  Lemma pull_agree pull x w : maybe_pull git pull x w = maybe_pull git' pull x w.
  Proof.
    unfold maybe_pull, git_pull. destruct pull; [|reflexivity]. apply abind_ext; [|reflexivity]. unfold command. now rewrite (proj1 (agree w x)).
  Qed.
  Lemma checkout_agree x pull force w : git_checkout git x pull force w = git_checkout git' x pull force w.
  Proof.
    unfold git_checkout, git_reset. destruct force; (apply abind_ext; [apply pull_agree|]); intros _ w1.
    - apply abind_ext; [unfold command; now rewrite (proj1 (proj2 (agree w1 (append "origin/" x))))|]. intros r w2.
      destruct r as [e|b e]; [|destruct b; [reflexivity|]]; (apply abind_ext; [unfold command; now rewrite (proj1 (proj2 (agree w2 x)))|reflexivity]).
    - apply abind_ext; [unfold command; now rewrite (proj2 (proj2 (agree w1 x)))|reflexivity].
  Qed.
  Lemma compare_agree m ords rx repo old new cps ps filt pat mx w :
    compare_commits git glob disk m ords rx repo old new cps ps filt pat mx w = compare_commits git' glob disk m ords rx repo old new cps ps filt pat mx w.
  Proof.
    unfold compare_commits. destruct (contains ".." pat); [reflexivity|].
    apply abind_ext; [apply checkout_agree|]. intros _ w1. apply abind_ext; [reflexivity|]. intros olds w2.
    apply abind_ext; [apply checkout_agree|]. intros _ w3. reflexivity.
  Qed.
  Lemma do_compare_agree m ords rx path a w o : do_compare git glob disk m ords rx path a w o -> do_compare git' glob disk m ords rx path a w o.
  Proof. rewrite !IsoP.finish_compare, compare_agree. auto. Qed.
End Agree.
Lemma all_agree w x : run_git_all w ["fetch"; "origin"; x] = run_git w ["fetch"; "origin"; x] /\
  run_git_all w ["reset"; "--hard"; x] = run_git w ["reset"; "--hard"; x] /\ run_git_all w ["checkout"; x] = run_git w ["checkout"; x].
Proof. repeat split. Qed.

(** What the commands of requests do not change. *)
Definition same_refs (l : list string) (s s' : grepo) : Prop :=
  r_remote s' = r_remote s /\ r_other s' = r_other s /\ r_head s' = r_head s /\
  forall b, In b l -> r_head s <> OnBranch b -> r_local s' b = r_local s b.
Lemma same_refl l s : same_refs l s s.
Proof. repeat split. Qed.
Lemma same_trans l a b c : same_refs l a b -> same_refs l b c -> same_refs l a c.
Proof.
  intros (A & B & C & D) (A' & B' & C' & D'). repeat split; try congruence. intros x I H. rewrite D' by congruence. now apply D.
Qed.
Lemma fetch_same l s x : same_refs l s (fst (run_git s ["fetch"; "origin"; x])).
Proof. rewrite GitP.run_fetch. unfold git_fetch. destruct (r_remote s x); [|destruct (r_other s x)]; repeat split. Qed.
Lemma reset_same l s x : same_refs l s (fst (run_git s ["reset"; "--hard"; x])).
Proof.
  rewrite GitP.run_reset. unfold git_reset_hard. destruct (resolve s x) as [c|]; [|apply same_refl]. destruct (r_head s) as [b|] eqn:E; cbn.
  - repeat split; cbn; auto. intros y _ H. apply GitP.put_other. rewrite E in H. congruence.
  - repeat split; cbn; auto.
Qed.
Lemma branch_same l s args : In args branch_commands -> same_refs l s (fst (run_git_all s args)).
Proof. intros [<-|[<-|[]]]; cbn; repeat split. Qed.
Lemma steps_same l t : forall s s', steps run_git s t s' ->
  (forall args b, In (args, b) t -> exists x, args = ["fetch"; "origin"; x] \/ args = ["reset"; "--hard"; x]) -> same_refs l s s'.
Proof.
  induction t as [|[args b] t IH]; intros s s' H C; inversion H; subst; [apply same_refl|].
  eapply same_trans; [|apply IH; [eassumption|intros; eapply C; right; eassumption]].
  match goal with G : run_git s args = (?w1, ?r) |- _ => change w1 with (fst (w1, r)); rewrite <- G end.
  destruct (C args _ (or_introl eq_refl)) as (x & [->| ->]); [apply fetch_same|apply reset_same].
Qed.

Section Answers.
  Context (tglob : N -> string -> option (list (option fpath))) (tdisk : N -> fpath -> string + file) (m : mode)
    (ords : string * string -> list string -> list string) (rx : regex_engine)
    (shards : nat) (shard : string -> nat) (known : string -> bool) (where_ : string -> fpath).
  Notation glob := (fun s => tglob (r_work s)).
  Notation disk := (fun s => tdisk (r_work s)).
  Notation irun := (irun run_git_all glob disk m ords rx shards shard known where_).
  Lemma leaves_same l a s : same_refs l s (leaves run_git_all glob disk m ords rx where_ a s).
  Proof.
    unfold leaves. rewrite (compare_agree run_git_all run_git glob disk all_agree).
    destruct (compare_commits run_git glob disk m ords rx (where_ (wa_repo a)) (trim (wa_old a)) (trim (wa_new a)) (web_params a) (web_git a)
      (web_filter a) (trim (wa_pattern a)) web_max_files s) as [[r s'] t] eqn:E. cbn.
    destruct (contains ".." (trim (wa_pattern a))) eqn:Dt.
    - apply GitP.commits_lemma in E. destruct E as [E _]. destruct (E (proj1 (GitP.contains_spec _ _) Dt)) as (_ & -> & _). apply same_refl.
    - destruct (GitP.commits_lemma _ _ _ _ _ _ _ _ _ _ _ _ _ _ _ _ _ _ E) as [_ K].
      destruct K as (St & _).
      { intros D. apply GitP.contains_spec in D. rewrite D in Dt. discriminate. }
      apply (steps_same l t s s' St). intros args b I.
      destruct (GitP.commits_commands _ _ _ _ _ _ _ _ _ _ _ _ _ _ _ _ _ _ _ _ E I) as (ref & _ & [(-> & _)|[(_ & F)|([->| ->] & _)]]); eauto. discriminate F.
  Qed.
  Lemma serial_same l ws0 h ws : serial run_git_all glob disk m ords rx where_ ws0 h ws -> forall d, same_refs l (ws0 d) (ws d).
  Proof.
    induction 1 as [|h ws1 ws2 i a o S IH C E O|h ws1 ws2 repo args S IH I E O]; intros d; [apply same_refl| |].
    - eapply same_trans; [apply IH|]. destruct (fpath_dec d (where_ (wa_repo a))) as [->|D]; [rewrite E; apply leaves_same|].
      rewrite (O d D). apply same_refl.
    - eapply same_trans; [apply IH|]. destruct (fpath_dec d (where_ repo)) as [->|D]; [rewrite E; apply branch_same; exact I|].
      rewrite (O d D). apply same_refl.
  Qed.
  Lemma same_unambiguous s s' ref : same_refs [append "origin/" ref] s s' -> unambiguous s ref -> unambiguous s' ref.
  Proof.
    intros (A & B & C & D) (U & V & X). unfold unambiguous. rewrite B, C. split; [exact U|]. split; [|exact X]. rewrite D; auto. now left.
  Qed.
  (** An answer is one for a repository with the same branches of the remote repository. *)
  Lemma answer_state ws0 now rs s ws l a v : own_directories known where_ -> 0 < shards ->
    irun (istart ws0 now rs) (s, ws, l) -> answered (s_log s) a v ->
    exists g, do_compare run_git glob disk m ords rx (where_ (wa_repo a)) a g (Ok v) /\ forall refs, same_refs refs (ws0 (where_ (wa_repo a))) g.
  Proof.
    intros Ow P R An. destruct (IsoP.answer_lemma run_git_all glob disk m ords rx shards shard known where_ Ow ws0 now rs s ws l a v P R An) as (h & ws' & S & C).
    exists (ws' (where_ (wa_repo a))). split.
    - exact (do_compare_agree run_git_all run_git glob disk all_agree m ords rx (where_ (wa_repo a)) a _ _ C).
    - intros refs. exact (serial_same refs ws0 h ws' S _).
  Qed.
  Lemma answer_newest ws0 now rs s ws l a v old new pat c_old c_new : own_directories known where_ -> 0 < shards ->
    irun (istart ws0 now rs) (s, ws, l) -> answered (s_log s) a v -> wa_pull a <> Some false ->
    trimmed (wa_old a) old -> trimmed (wa_new a) new -> trimmed (wa_pattern a) pat ->
    let g := ws0 (where_ (wa_repo a)) in
    r_remote g old = Some c_old -> r_remote g new = Some c_new -> unambiguous g old -> unambiguous g new ->
    exists rows, compare_trees tglob tdisk m ords rx (where_ (wa_repo a)) (web_params a) (web_git a) (web_filter a) pat web_max_files c_old c_new = Ok rows /\
      sort_changes (filter_changes rows (web_filter a)) v.
  Proof.
    intros Ow P R An Pl To Tn Tp g Ro Rn Uo Un.
    destruct (answer_state ws0 now rs s ws l a v Ow P R An) as (g' & C & Sm). fold g in Sm.
    apply WebP.trim_iff in To, Tn, Tp. subst old new pat.
    destruct (PageP.answer_inv _ _ _ _ _ _ _ _ _ _ C) as (rows & E & S).
    assert (ND : ~ has_dots (trim (wa_pattern a))).
    { intros D. apply GitP.contains_spec in D. unfold compare_commits in E. rewrite D in E. discriminate E. }
    destruct (GitP.trees_newest tglob tdisk m ords rx (where_ (wa_repo a)) (trim (wa_old a)) (trim (wa_new a)) (web_params a) (web_git a) (web_filter a)
      (trim (wa_pattern a)) web_max_files g' c_old c_new ND) as (s' & tr & Q & _); auto.
    { cbn. destruct (wa_pull a) as [[|]|]; try congruence; auto. }
    { rewrite (proj1 (Sm [])). exact Ro. }
    { rewrite (proj1 (Sm [])). exact Rn. }
    { exact (same_unambiguous _ _ _ (Sm _) Uo). }
    { exact (same_unambiguous _ _ _ (Sm _) Un). }
    rewrite Q in E. cbn [fst] in E. exists rows. split; assumption.
  Qed.
  Lemma answer_regression ws0 now rs s ws l a rows old new pat c_old c_new k mo mn eo en rho v w : (forall k, is_order (ords k)) ->
    own_directories known where_ -> 0 < shards ->
    irun (istart ws0 now rs) (s, ws, l) -> answered (s_log s) a rows ->
    wa_method a = ExactWorst \/ wa_method a = GuessWorst -> (wa_threshold a < 2 ^ 32)%N -> wa_pull a <> Some false ->
    trimmed (wa_old a) old -> trimmed (wa_new a) new -> trimmed (wa_pattern a) pat ->
    let g := ws0 (where_ (wa_repo a)) in let repo := where_ (wa_repo a) in
    r_remote g old = Some c_old -> r_remote g new = Some c_new -> unambiguous g old -> unambiguous g new ->
    source_of (tglob c_old) (tdisk c_old) repo pat k mo eo -> source_of (tglob c_new) (tdisk c_new) repo pat k mn en ->
    passes rx (wa_pallet a) (fst k) -> passes rx (wa_extrinsic a) (snd k) ->
    tame_source (wa_unit a) mo mn eo en -> in_source_box mo mn eo en rho -> weight_at (wa_unit a) rho eo v -> weight_at (wa_unit a) rho en w ->
    grown (RN (wa_threshold a)) v w ->
    exists r, In r rows /\ row_key r = k /\ shows r (RN (wa_threshold a)) v w.
  Proof.
    intros Or Ow P R An Me Th Pl To Tn Tp g repo Ro Rn Uo Un So Sn Pp Pe Ta Hb Wv Ww G.
    destruct (answer_state ws0 now rs s ws l a rows Ow P R An) as (g' & C & Sm). fold g in Sm.
    eapply (EndP3.web_regression tglob tdisk m ords rx repo Or a g' rows old new pat c_old c_new k mo mn eo en rho v w); eauto.
    - rewrite (proj1 (Sm [])). exact Ro.
    - rewrite (proj1 (Sm [])). exact Rn.
    - exact (same_unambiguous _ _ _ (Sm _) Uo).
    - exact (same_unambiguous _ _ _ (Sm _) Un).
  Qed.
End Answers.
