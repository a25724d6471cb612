(** Proofs about comparisons among other requests. *)
From Coq Require Import List String Ascii Arith NArith Bool Lia.
From Verif Require Import Base ScopeM TermM F64 CompareM RowsM FmtM SynM ParseM StorageM FilesM GitM SpecGit WebM ServerM SpecServer IsoM SpecIso.
From Verif Require ServerP.
Import ListNotations.
Local Open Scope string_scope.

Section Program.
  Context {W : Type} (git : W -> list string -> W * cmd_result)
    (glob : W -> string -> option (list (option fpath))) (disk : W -> fpath -> string + file).
  Notation perform := (perform git glob disk).
  Definition untraced {A} (x : outcome A * W * list (list string * bool)) : outcome A * W := fst x.
  Lemma perform_bind {A B} (p : prog A) (k : A -> prog B) : forall w, perform (pbind p k) w =
    let (o, w') := perform p w in
    match o with Ok a => perform (k a) w' | Err e => (Err e, w') | Panic x => (Panic x, w') | Diverge => (Diverge, w') end.
  Proof.
    induction p as [o|args f IH|pat f IH|q f IH]; intros w; cbn.
    - destruct o; reflexivity.
    - destruct (git w args) as [w' r]. apply IH.
    - apply IH.
    - apply IH.
  Qed.
  Lemma untraced_bind {A B} (x : act A) (k : A -> act B) w : untraced (abind (W := W) x k w) =
    let (o, w') := untraced (x w) in
    match o with Ok a => untraced (k a w') | Err e => (Err e, w') | Panic y => (Panic y, w') | Diverge => (Diverge, w') end.
  Proof.
    unfold abind, untraced. destruct (x w) as [[o w'] t]. cbn. destruct o; try reflexivity. destruct (k a w') as [[o w''] t']. reflexivity.
  Qed.
  Lemma perform_pull pull r w : perform (p_pull pull r) w = untraced (maybe_pull git pull r w).
  Proof.
    unfold p_pull, maybe_pull, git_pull, command. destruct pull; [|reflexivity]. cbn. rewrite untraced_bind. unfold untraced at 1. cbn.
    destruct (git w ["fetch"; "origin"; r]) as [w' x]. reflexivity.
  Qed.
  Lemma perform_checkout r pull force w : perform (p_checkout r pull force) w = untraced (git_checkout git r pull force w).
  Proof.
    unfold p_checkout, git_checkout, p_reset, git_reset. destruct force; rewrite perform_bind, untraced_bind, perform_pull;
      destruct (untraced (maybe_pull git pull r w)) as [o w1]; destruct o; try reflexivity.
    - rewrite untraced_bind. unfold command. cbn [perform]. unfold untraced at 1. cbn.
      destruct (git w1 _) as [w2 x]. cbn. destruct x as [e|b e]; [|destruct b]; try reflexivity; cbn; rewrite untraced_bind; unfold untraced at 1; cbn;
        destruct (git w2 _) as [w3 y]; reflexivity.
    - rewrite untraced_bind. unfold command. cbn [perform]. unfold untraced at 1. cbn. destruct (git w1 _) as [w2 x]. reflexivity.
  Qed.
  Lemma perform_list_loop base mx pats : forall paths w, perform (p_list_loop base mx paths pats) w = (list_loop (glob w) base mx paths pats, w).
  Proof.
    induction pats as [|r pats IH]; intros paths w; [reflexivity|]. cbn [p_list_loop perform list_loop].
    destruct (glob w _) as [files|]; [|reflexivity]. destruct (collect files) as [fs|]; [|reflexivity]. cbv zeta.
    destruct (Nat.ltb _ _); [reflexivity|]. apply IH.
  Qed.
  Lemma perform_list base pat mx w : perform (p_list_files base pat mx) w = (list_files (glob w) base pat mx, w).
  Proof. unfold p_list_files, list_files. rewrite perform_bind, perform_list_loop. destruct (list_loop _ _ _ _ _); reflexivity. Qed.
  Lemma perform_parse ignore repo paths : forall res w, perform (p_parse ignore repo res paths) w =
    ((if ignore then try_parse_all (parse_file_in_repo (disk w) repo) res paths else parse_all (parse_file_in_repo (disk w) repo) res paths), w).
  Proof.
    induction paths as [|p paths IH]; intros res w; [destruct ignore; reflexivity|]. cbn [p_parse perform try_parse_all parse_all].
    change (parse_file_in_repo (fun _ => disk w p) repo p) with (parse_file_in_repo (disk w) repo p).
    destruct (parse_file_in_repo (disk w) repo p); cbn; [rewrite IH; destruct ignore; reflexivity| |destruct ignore; reflexivity|destruct ignore; reflexivity].
    destruct ignore; [apply IH|reflexivity].
  Qed.
  Lemma perform_load repo ps pat mx w : perform (p_load repo ps pat mx) w = (load glob disk repo ps pat mx w, w).
  Proof.
    unfold p_load, load. rewrite perform_bind, perform_list. destruct (list_files _ _ _ _); cbn; try reflexivity. rewrite perform_parse.
    destruct (g_ignore_errors ps); reflexivity.
  Qed.
  Lemma program_lemma m ords rx repo old new cps ps filt pat mx w :
    perform (p_compare m ords rx repo old new cps ps filt pat mx) w = fst (compare_commits git glob disk m ords rx repo old new cps ps filt pat mx w).
  Proof.
    change (fst ?x) with (untraced x). unfold p_compare, compare_commits. destruct (contains ".." pat); [reflexivity|].
    rewrite perform_bind, untraced_bind, perform_checkout. destruct (untraced (git_checkout git old _ _ w)) as [o w1]. destruct o; try reflexivity.
    rewrite perform_bind, untraced_bind, perform_load. unfold read at 1. unfold untraced at 1. cbn.
    destruct (load _ _ _ _ _ _ w1) as [olds| | |]; try reflexivity.
    rewrite perform_bind, untraced_bind, perform_checkout. destruct (untraced (git_checkout git new _ _ w1)) as [o w2]. destruct o; try reflexivity.
    rewrite perform_bind, untraced_bind, perform_load. unfold read at 1. unfold untraced at 1. cbn.
    destruct (load _ _ _ _ _ _ w2) as [news| | |]; reflexivity.
  Qed.
  Lemma finish_compare m ords rx path a w o :
    do_compare git glob disk m ords rx path a w o <->
    finish a (fst (fst (compare_commits git glob disk m ords rx path (trim (wa_old a)) (trim (wa_new a)) (web_params a) (web_git a) (web_filter a)
      (trim (wa_pattern a)) web_max_files w))) o.
  Proof.
    split.
    - intros [rows sorted E S|e E|x E]; rewrite E; constructor. exact S.
    - intros H. inversion H as [rows sorted S E|e E|x E]; symmetry in E; [eapply dc_ok|eapply dc_err|eapply dc_panic]; eassumption.
  Qed.
End Program.

Section Sim.
  Context {W : Type} (git : W -> list string -> W * cmd_result)
    (glob : W -> string -> option (list (option fpath))) (disk : W -> fpath -> string + file)
    (m : mode) (ords : string * string -> list string -> list string) (rx : regex_engine)
    (shards : nat) (shard : string -> nat) (known : string -> bool) (where_ : string -> fpath).
  Context (own : own_directories known where_).
  Context (ws0 : fpath -> W) (now : N) (rs : list request).
  Notation perform := (perform git glob disk).
  Notation possible := (possible git glob disk m ords rx where_ ws0).
  Notation serial := (serial git glob disk m ords rx where_ ws0).
  Notation none := (fun (_ : web_args) (_ : outcome (list row)) => False).
  Notation web_prog := (web_prog m ords rx where_).
  Notation irun := (irun git glob disk m ords rx shards shard known where_).
  Notation leaves := (leaves git glob disk m ords rx where_).

  Definition kpc (p : ipc) : Prop :=
    match p with
    | At (Enter a) | At (Look a) | At (Miss a) | At (Ran a _) | Exec a _ => known (wa_repo a) = true
    | At (Listing r) => known r = true
    | At (Running a) => False
    | _ => True
    end.
  Lemma tstep_mono (r1 r2 : web_args -> outcome (list row) -> Prop) i s p s' p' :
    (forall a o, p = Running a -> p' = Ran a o -> r1 a o -> r2 a o) ->
    tstep shards shard known r1 i s p s' p' -> tstep shards shard known r2 i s p s' p'.
  Proof. intros M T. destruct T; try (econstructor; eassumption). apply t_run; [apply M; auto|assumption]. Qed.
  Lemma kpc_step i s p s' p' : tstep shards shard known none i s p s' p' -> not_running p' -> kpc (At p) -> kpc (At p').
  Proof. intros T N K. destruct T; cbn in *; auto; try discriminate; try contradiction. exact (N a eq_refl). Qed.
  Lemma computed_step i s p s' p' : tstep shards shard known none i s p s' p' -> kpc (At p) -> computed (s_log s') = computed (s_log s).
  Proof. intros T K. destruct T; cbn in *; try reflexivity; try contradiction. congruence. Qed.
  Lemma begin_step i s p s' a : tstep shards shard known none i s p s' (Running a) -> known (wa_repo a) = true /\ s_log s' = s_log s /\ p = Miss a.
  Proof. intros T. inversion T; subst; auto. Qed.

  Lemma set_map l : forall i p, map coarse (set_ith l i p) = set_nth (map coarse l) i (coarse p).
  Proof. induction l as [|x l IH]; intros [|i] p; cbn; try reflexivity. now rewrite IH. Qed.
  Lemma ith_same l : forall i p q, nth_error l i = Some p -> nth_error (set_ith l i q) i = Some q.
  Proof. induction l as [|x l IH]; intros [|i] p q H; cbn in *; try discriminate; eauto. Qed.
  Lemma ith_other l : forall i j q, i <> j -> nth_error (set_ith l i q) j = nth_error l j.
  Proof. induction l as [|x l IH]; intros [|i] [|j] q H; cbn in *; try congruence; auto. Qed.
  Lemma set_same l : forall i p, nth_error l i = Some p -> set_ith l i p = l.
  Proof. induction l as [|x l IH]; intros [|i] p H; cbn in *; try discriminate; [congruence|]. now rewrite (IH i p H). Qed.
  Lemma set_forall (P : ipc -> Prop) l : forall i p, Forall P l -> P p -> Forall P (set_ith l i p).
  Proof. intros i p F. revert i. induction F as [|x l Hx F IH]; intros [|i] Hp; cbn; auto. Qed.

  Notation execution := (execution shards shard known possible (start now rs)).
  (** The directories [ws] against those after whole operations, [wsS]. *)
  Definition tracks (l : list ipc) (ws wsS : fpath -> W) : Prop :=
    (forall i a q, nth_error l i = Some (Exec a q) -> perform q (ws (where_ (wa_repo a))) = perform (web_prog a) (wsS (where_ (wa_repo a)))) /\
    (forall d, (forall i a q, nth_error l i = Some (Exec a q) -> where_ (wa_repo a) <> d) -> ws d = wsS d).
  Definition inv (c : iconfig) : Prop :=
    let '(s, ws, l) := c in
    (exists n, execution n (s, map coarse l)) /\ Forall kpc l /\
    exists h wsS, serial h wsS /\ comparisons h = computed (s_log s) /\ tracks l ws wsS.
  Lemma only_exec n s l i j a b q q' : execution n (s, map coarse l) ->
    nth_error l i = Some (Exec a q) -> nth_error l j = Some (Exec b q') -> i = j.
  Proof.
    intros E A B. eapply (ServerP.exclusive_lemma shards shard known possible now rs n _ i j a b E); unfold compares; cbn.
    - exact (map_nth_error coarse i l A).
    - exact (map_nth_error coarse j l B).
  Qed.
  Lemma perform_web a w : perform (web_prog a) w = fst (compare_commits git glob disk m ords rx (where_ (wa_repo a)) (trim (wa_old a)) (trim (wa_new a))
    (web_params a) (web_git a) (web_filter a) (trim (wa_pattern a)) web_max_files w).
  Proof. apply program_lemma. Qed.
  Lemma put_same ws d (w : W) : put_world ws d w d = w.
  Proof. unfold put_world. destruct (fpath_dec d d); congruence. Qed.
  Lemma put_other ws d e (w : W) : d <> e -> put_world ws d w e = ws e.
  Proof. unfold put_world. destruct (fpath_dec d e); congruence. Qed.

  Lemma inv_step i s ws l p s' ws' p' : inv (s, ws, l) -> nth_error l i = Some p ->
    istep git glob disk m ords rx shards shard known where_ i s ws p s' ws' p' -> inv (s', ws', set_ith l i p').
  Proof.
    intros ((n & E) & K & h & wsS & Se & Cm & Ex & Un) N T.
    assert (Kp : kpc p) by (rewrite Forall_forall in K; apply K; eapply nth_error_In; exact N).
    assert (N' : nth_error (map coarse l) i = Some (coarse p)) by (apply map_nth_error; exact N).
    assert (Uniq : forall a q b q' j, p = Exec a q -> nth_error l j = Some (Exec b q') -> j = i).
    { intros a q b q' j -> Hj. exact (only_exec n s l j i b a q' q E Hj N). }
    destruct T as [s ws p s' p' T Nr|s ws p s' a T|s ws a args k w r G|s ws a pat k|s ws a f k|s ws a o o' s' F T|s ws repo args G].
    - split; [|split].
      + exists (S n). rewrite set_map. cbn [coarse]. eapply ex_thread; [exact E|]. eapply step_thread; [exact N'|].
        eapply tstep_mono; [|exact T]. intros a o _ _ [].
      + apply set_forall; [exact K|]. eapply kpc_step; eassumption.
      + exists h, wsS. split; [exact Se|]. split; [rewrite (computed_step _ _ _ _ _ T Kp); exact Cm|]. split.
        * intros j a q Hj. destruct (Nat.eq_dec i j) as [<-|D]; [rewrite (ith_same _ _ _ _ N) in Hj; discriminate Hj|].
          rewrite ith_other in Hj by exact D. exact (Ex j a q Hj).
        * intros d Hd. apply Un. intros j a q Hj. destruct (Nat.eq_dec i j) as [<-|D]; [congruence|].
          apply (Hd j a q). rewrite ith_other by exact D. exact Hj.
    - destruct (begin_step _ _ _ _ _ T) as (Ka & Lg & ->).
      assert (E' : execution (S n) (s', map coarse (set_ith l i (Exec a (web_prog a))))).
      { rewrite set_map. cbn [coarse]. eapply ex_thread; [exact E|]. eapply step_thread; [exact N'|].
        eapply tstep_mono; [|exact T]. intros b o _ _ []. }
      assert (No : forall j b q, nth_error l j = Some (Exec b q) -> False).
      { intros j b q Hj. destruct (Nat.eq_dec i j) as [<-|D]; [congruence|].
        assert (Hj' : nth_error (set_ith l i (Exec a (web_prog a))) j = Some (Exec b q)) by (rewrite ith_other by exact D; exact Hj).
        apply D. exact (only_exec _ _ _ _ _ _ _ _ _ E' (ith_same _ _ _ _ N) Hj'). }
      assert (Al : forall d, ws d = wsS d) by (intros d; apply Un; intros j b q Hj; destruct (No _ _ _ Hj)).
      split; [exists (S n); exact E'|]. split; [apply set_forall; [exact K|exact Ka]|].
      exists h, wsS. split; [exact Se|]. split; [rewrite Lg; exact Cm|]. split.
      + intros j b q Hj. destruct (Nat.eq_dec i j) as [<-|D].
        * rewrite (ith_same _ _ _ _ N) in Hj. injection Hj as <- <-. now rewrite Al.
        * rewrite ith_other in Hj by exact D. destruct (No _ _ _ Hj).
      + intros d _. apply Al.
    - split; [|split].
      + exists n. rewrite set_map. cbn [coarse]. change (Running a) with (coarse (Exec a (PGit args k))). rewrite <- set_map, (set_same _ _ _ N). exact E.
      + apply set_forall; [exact K|exact Kp].
      + exists h, wsS. split; [exact Se|]. split; [exact Cm|]. split.
        * intros j b q Hj. destruct (Nat.eq_dec i j) as [<-|D].
          -- rewrite (ith_same _ _ _ _ N) in Hj. injection Hj as <- <-. rewrite put_same, <- (Ex i a _ N). cbn. now rewrite G.
          -- rewrite ith_other in Hj by exact D. destruct D. symmetry. exact (Uniq _ _ _ _ _ eq_refl Hj).
        * intros d Hd. rewrite put_other by (apply (Hd i a (k r)); exact (ith_same _ _ _ _ N)). apply Un.
          intros j b q Hj. assert (j = i) by exact (Uniq _ _ _ _ _ eq_refl Hj). subst j. rewrite N in Hj. injection Hj as <- <-.
          exact (Hd i a (k r) (ith_same _ _ _ _ N)).
    - split; [|split].
      + exists n. rewrite set_map. cbn [coarse]. change (Running a) with (coarse (Exec a (PGlob pat k))). rewrite <- set_map, (set_same _ _ _ N). exact E.
      + apply set_forall; [exact K|exact Kp].
      + exists h, wsS. split; [exact Se|]. split; [exact Cm|]. split.
        * intros j b q Hj. destruct (Nat.eq_dec i j) as [<-|D].
          -- rewrite (ith_same _ _ _ _ N) in Hj. injection Hj as <- <-. rewrite <- (Ex i a _ N). reflexivity.
          -- rewrite ith_other in Hj by exact D. destruct D. symmetry. exact (Uniq _ _ _ _ _ eq_refl Hj).
        * intros d Hd. apply Un.
          intros j b q Hj. assert (j = i) by exact (Uniq _ _ _ _ _ eq_refl Hj). subst j. rewrite N in Hj. injection Hj as <- <-.
          exact (Hd i a _ (ith_same _ _ _ _ N)).
    - split; [|split].
      + exists n. rewrite set_map. cbn [coarse]. change (Running a) with (coarse (Exec a (PFile f k))). rewrite <- set_map, (set_same _ _ _ N). exact E.
      + apply set_forall; [exact K|exact Kp].
      + exists h, wsS. split; [exact Se|]. split; [exact Cm|]. split.
        * intros j b q Hj. destruct (Nat.eq_dec i j) as [<-|D].
          -- rewrite (ith_same _ _ _ _ N) in Hj. injection Hj as <- <-. rewrite <- (Ex i a _ N). reflexivity.
          -- rewrite ith_other in Hj by exact D. destruct D. symmetry. exact (Uniq _ _ _ _ _ eq_refl Hj).
        * intros d Hd. apply Un.
          intros j b q Hj. assert (j = i) by exact (Uniq _ _ _ _ _ eq_refl Hj). subst j. rewrite N in Hj. injection Hj as <- <-.
          exact (Hd i a _ (ith_same _ _ _ _ N)).
    - assert (P := Ex i a _ N). cbn [IsoM.perform] in P. rewrite perform_web in P.
      assert (Dc : do_compare git glob disk m ords rx (where_ (wa_repo a)) a (wsS (where_ (wa_repo a))) o').
      { apply finish_compare. rewrite <- P. exact F. }
      assert (Lv : leaves a (wsS (where_ (wa_repo a))) = ws (where_ (wa_repo a))) by (unfold SpecIso.leaves; rewrite <- P; reflexivity).
      assert (Lg : computed (s_log s') = (i, a, o') :: computed (s_log s)) by (inversion T; subst; reflexivity).
      split; [|split].
      + exists (S n). rewrite set_map. cbn [coarse]. eapply ex_thread; [exact E|]. eapply step_thread; [exact N'|].
        eapply tstep_mono; [|exact T]. intros b o1 [= <-] [= <-] _. exists h, wsS. split; assumption.
      + apply set_forall; [exact K|exact Kp].
      + exists (OCompare i a o' :: h), (put_world wsS (where_ (wa_repo a)) (leaves a (wsS (where_ (wa_repo a))))). split.
        { eapply serial_compare; [exact Se|exact Dc|apply put_same|]. intros d D. apply put_other. auto. }
        split; [change (comparisons (OCompare i a o' :: h)) with ((i, a, o') :: comparisons h); rewrite Cm, Lg; reflexivity|]. split.
        * intros j b q Hj. destruct (Nat.eq_dec i j) as [<-|D]; [rewrite (ith_same _ _ _ _ N) in Hj; discriminate Hj|].
          rewrite ith_other in Hj by exact D. destruct D. symmetry. exact (Uniq _ _ _ _ _ eq_refl Hj).
        * intros d _. destruct (fpath_dec (where_ (wa_repo a)) d) as [<-|D]; [rewrite put_same; symmetry; exact Lv|].
          rewrite put_other by exact D. apply Un. intros j b q Hj. assert (j = i) by exact (Uniq _ _ _ _ _ eq_refl Hj). subst j.
          rewrite N in Hj. injection Hj as <- <-. exact D.
    - cbn in Kp.
      assert (Far : forall j b q, nth_error l j = Some (Exec b q) -> where_ repo <> where_ (wa_repo b)).
      { intros j b q Hj D. assert (Kb : kpc (Exec b q)) by (rewrite Forall_forall in K; apply K; eapply nth_error_In; exact Hj). cbn in Kb.
        apply (ServerP.branches_lemma shards shard known possible now rs n _ j i b repo E).
        - exact (map_nth_error coarse j l Hj).
        - exact N'.
        - f_equal. exact (own _ _ Kp Kb D). }
      rewrite (set_same _ _ _ N). split; [exists n; exact E|]. split; [exact K|].
      exists (OCommand repo args :: h), (put_world wsS (where_ repo) (fst (git (wsS (where_ repo)) args))). split.
      { eapply serial_command; [exact Se|exact G|apply put_same|]. intros d D. apply put_other. auto. }
      split; [exact Cm|]. split.
      + intros j b q Hj. rewrite !put_other by exact (Far j b q Hj). exact (Ex j b q Hj).
      + intros d Hd. destruct (fpath_dec (where_ repo) d) as [<-|D]; [|rewrite !put_other by exact D; exact (Un d Hd)].
        rewrite !put_same. now rewrite (Un (where_ repo) Hd).
  Qed.
  Lemma inv_run c : irun (istart ws0 now rs) c -> inv c.
  Proof.
    remember (istart ws0 now rs) as c0 eqn:E0. induction 1 as [c|c s ws l i p s' ws' p' R IH N T|c s ws l d R IH].
    - subst c. unfold istart, inv. split; [|split].
      + exists 0. rewrite map_map. cbn [coarse]. rewrite map_id. destruct (start now rs). apply ex_nil.
      + cbn. induction rs as [|r rs' IH]; cbn; constructor; [exact I|exact IH].
      + exists [], ws0. split; [constructor|]. split; [reflexivity|]. split; [|reflexivity].
        intros i a q Hi. cbn in Hi. apply nth_error_In in Hi. apply in_map_iff in Hi. destruct Hi as (x & Hx & _). discriminate Hx.
    - exact (inv_step _ _ _ _ _ _ _ _ (IH E0) N T).
    - destruct (IH E0) as ((n & E) & K & h & wsS & Se & Cm & Tr). split; [|split; [exact K|]].
      + exists n. eapply ex_time; [exact E|]. constructor.
      + exists h, wsS. auto.
  Qed.
  Lemma server_lemma s ws l : irun (istart ws0 now rs) (s, ws, l) -> exists n, execution n (s, map coarse l).
  Proof. intros R. apply inv_run in R. apply R. Qed.
  Lemma serial_lemma s ws l : irun (istart ws0 now rs) (s, ws, l) ->
    exists h wsS, serial h wsS /\ comparisons h = computed (s_log s) /\ (quiet l -> forall d, ws d = wsS d).
  Proof.
    intros R. apply inv_run in R. destruct R as (_ & _ & h & wsS & Se & Cm & _ & Un). exists h, wsS. split; [exact Se|]. split; [exact Cm|].
    intros Q d. apply Un. intros i a q Hi _. exact (Q a q (nth_error_In _ _ Hi)).
  Qed.
  Lemma answer_lemma s ws l a v : 0 < shards -> irun (istart ws0 now rs) (s, ws, l) -> answered (s_log s) a v -> possible a (Ok v).
  Proof.
    intros P R (i & t & [H|H]); destruct (server_lemma s ws l R) as (n & E).
    - destruct (ServerP.cached_lemma shards shard known possible P rs now n _ i a v t E H) as (j & t0 & (l1 & l2 & l3 & B) & _).
      cbn in B. assert (St : happened (s, map coarse l) (Stored j a v t0)).
      { unfold happened. cbn. rewrite B. apply in_or_app. right. right. apply in_or_app. right. now left. }
      apply (ServerP.stored_lemma shards shard known possible P rs now n _ j a v t0 E St).
    - apply (ServerP.fresh_lemma shards shard known possible P rs now n _ i a v t E H).
  Qed.
End Sim.
