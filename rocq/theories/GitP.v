(** Lemmas about comparisons of commits. *)
From Coq Require Import List String Ascii Arith NArith Bool Lia.
From Verif Require Import Base ScopeM TermM F64 CompareM RowsM SynM ParseM StorageM FilesM SpecFiles GitM SpecGit.
From Verif Require FilesP.
Import ListNotations.
Local Open Scope list_scope.

Lemma prefix_spec p : forall s, String.prefix p s = true <-> exists b, s = append p b.
Proof.
  induction p as [|a p IH]; intros [|c s]; cbn; split; intros H; try discriminate; eauto.
  - destruct H as [b H]. discriminate.
  - destruct (ascii_dec a c) as [->|]; [|discriminate]. apply IH in H. destruct H as [b ->]. now exists b.
  - destruct H as [b H]. injection H as -> ->. destruct (ascii_dec a a); [|congruence]. apply IH. now exists b.
Qed.
Lemma contains_spec pat s : contains pat s = true <-> exists a b, s = append a (append pat b).
Proof.
  induction s as [|c s IH]; cbn [contains]; rewrite orb_true_iff.
  - split.
    + intros [H|H]; [|discriminate]. apply prefix_spec in H. destruct H as [b H]. exists ""%string, b. exact H.
    + intros (a & b & H). left. apply prefix_spec. destruct a; [|discriminate]. now exists b.
  - split.
    + intros [H|H].
      * apply prefix_spec in H. destruct H as [b H]. exists ""%string, b. exact H.
      * apply IH in H. destruct H as (a & b & ->). now exists (String c a), b.
    + intros (a & b & H). destruct a as [|x a].
      * left. apply prefix_spec. now exists b.
      * right. apply IH. injection H as -> ->. now exists a, b.
Qed.

Section Git.
  Context {W : Type} (git : W -> list string -> W * cmd_result)
    (glob : W -> string -> option (list (option fpath))) (disk : W -> fpath -> string + file).

  Lemma steps_app w t1 w1 t2 w2 : steps git w t1 w1 -> steps git w1 t2 w2 -> steps git w (t1 ++ t2) w2.
  Proof. induction 1; [auto|]. intros H2. cbn. econstructor; eauto. Qed.
  Lemma steps_split t1 : forall w t2 w2, steps git w (t1 ++ t2) w2 -> exists w1, steps git w t1 w1 /\ steps git w1 t2 w2.
  Proof.
    induction t1 as [|x t1 IH]; cbn; intros w t2 w2 H.
    - exists w. split; [constructor|exact H].
    - inversion H; subst. apply IH in H5. destruct H5 as (w3 & A & B). exists w3. split; [|exact B]. econstructor; eauto.
  Qed.
  Lemma steps_one w args w1 r : git w args = (w1, r) -> steps git w [(args, succeeded r)] w1.
  Proof. intros H. econstructor; [exact H|constructor]. Qed.
  Lemma steps_fun t : forall w w1 w2, steps git w t w1 -> steps git w t w2 -> w1 = w2.
  Proof.
    induction t as [|x t IH]; intros w w1 w2 A B; inversion A; subst; inversion B; subst; [reflexivity|].
    match goal with H : git w args = _, H' : git w args = _ |- _ => rewrite H in H'; injection H' as <- <- end. eauto.
  Qed.
  Lemma steps_cons_inv w args ok t w' : steps git w ((args, ok) :: t) w' ->
    exists w1 r, git w args = (w1, r) /\ succeeded r = ok /\ steps git w1 t w'.
  Proof. intros H. inversion H; subst. eauto. Qed.

  Lemma cmd_bind {B} args (k : cmd_result -> act B) w w1 r : git w args = (w1, r) ->
    abind (command git args) k w = let '(o, w2, t) := k r w1 in (o, w2, (args, succeeded r) :: t).
  Proof. intros H. unfold abind, command. rewrite H. reflexivity. Qed.
  Lemma pull_spec fetch ref w o w1 t : maybe_pull git fetch ref w = (o, w1, t) ->
    steps git w t w1 /\ (o = Ok tt /\ t = fetched fetch ref \/ fetch = true /\ is_err o = true /\ t = [(["fetch"; "origin"; ref]%string, false)]).
  Proof.
    unfold maybe_pull. destruct fetch.
    - unfold git_pull. destruct (git w ["fetch"; "origin"; ref]%string) as [w2 r] eqn:E. rewrite (cmd_bind _ _ _ _ _ E).
      pose proof (steps_one _ _ _ _ E) as S. destruct r as [e|[|] e]; intros H; injection H as <- <- <-; (split; [exact S|]); cbn; auto.
    - intros H. injection H as <- <- <-. split; [constructor|auto].
  Qed.
  Lemma finish_spec fetch ref w (k : unit -> act unit) o w' t : abind (maybe_pull git fetch ref) k w = (o, w', t) ->
    (forall w1 o2 w2 t2, k tt w1 = (o2, w2, t2) -> steps git w1 t2 w2) ->
    steps git w t w' /\
    (fetch = true /\ is_err o = true /\ t = [(["fetch"; "origin"; ref]%string, false)] \/
     exists w1 t2, k tt w1 = (o, w', t2) /\ t = fetched fetch ref ++ t2).
  Proof.
    unfold abind. destruct (maybe_pull git fetch ref w) as [[o1 w1] t1] eqn:E. intros H Hk.
    destruct (pull_spec _ _ _ _ _ _ E) as [S [[-> ->]|(F & Ho & ->)]].
    - destruct (k tt w1) as [[o2 w2] t2] eqn:E2. injection H as <- <- <-. split; [exact (steps_app _ _ _ _ _ S (Hk _ _ _ _ E2))|].
      right. eauto.
    - destruct o1; try discriminate. injection H as <- <- <-. split; [exact S|]. auto.
  Qed.

  (** What a visit does. *)
  Lemma checkout_visit ref fetch force w o w' t : git_checkout git ref fetch force w = (o, w', t) ->
    steps git w t w' /\
    (visit fetch force ref t true /\ o = Ok tt \/ visit fetch force ref t false /\ is_err o = true).
  Proof.
    unfold git_checkout, git_reset. destruct force; intros H.
    - assert (K : forall w1 o2 w2 t2,
        abind (command git ["reset"; "--hard"; append "origin/" ref]%string) (fun r =>
          match r with
          | Exited true _ => ret (Ok tt)
          | _ => abind (command git ["reset"; "--hard"; ref]%string) (fun r =>
              ret (match r with
                   | NotRun e => Err (append "Failed to reset branch: "%string e)
                   | Exited false e => Err (append "Failed to reset branch: "%string e)
                   | Exited true _ => Ok tt
                   end))
          end) w1 = (o2, w2, t2) -> steps git w1 t2 w2 /\
          (visit fetch true ref (fetched fetch ref ++ t2) true /\ o2 = Ok tt \/ visit fetch true ref (fetched fetch ref ++ t2) false /\ is_err o2 = true)).
      { intros w1 o2 w2 t2. destruct (git w1 ["reset"; "--hard"; append "origin/" ref]%string) as [w3 r] eqn:E1. rewrite (cmd_bind _ _ _ _ _ E1).
        pose proof (steps_one _ _ _ _ E1) as S1.
        assert (X : succeeded r = false -> abind (command git ["reset"; "--hard"; ref]%string) (fun r =>
              ret (match r with
                   | NotRun e => Err (append "Failed to reset branch: "%string e)
                   | Exited false e => Err (append "Failed to reset branch: "%string e)
                   | Exited true _ => Ok tt
                   end)) w3 = (o2, w2, tl t2) -> t2 = (["reset"; "--hard"; append "origin/" ref]%string, false) :: tl t2 -> steps git w1 t2 w2 /\
          (visit fetch true ref (fetched fetch ref ++ t2) true /\ o2 = Ok tt \/ visit fetch true ref (fetched fetch ref ++ t2) false /\ is_err o2 = true)).
        { intros Er H2 Ht. rewrite Er in S1. destruct (git w3 ["reset"; "--hard"; ref]%string) as [w4 r'] eqn:E2. rewrite (cmd_bind _ _ _ _ _ E2) in H2.
          pose proof (steps_app _ _ _ _ _ S1 (steps_one _ _ _ _ E2)) as S2. cbn in H2.
          destruct r' as [e'|[|] e']; injection H2 as <- <- H3; rewrite Ht, <- H3; (split; [exact S2|]); cbn [succeeded];
            [right|left|right]; (split; [apply visit_fallback; reflexivity|reflexivity]). }
        destruct r as [e|[|] e].
        - destruct (abind _ _ w3) as [[o3 w5] t3] eqn:E3. intros H3. injection H3 as <- <- <-. now apply X.
        - intros H3. injection H3 as <- <- <-. split; [exact S1|]. left. split; [now apply visit_reset|reflexivity].
        - destruct (abind _ _ w3) as [[o3 w5] t3] eqn:E3. intros H3. injection H3 as <- <- <-. now apply X. }
      destruct (finish_spec _ _ _ _ _ _ _ H (fun w1 o2 w2 t2 E => proj1 (K w1 o2 w2 t2 E))) as [S [(F & Ho & ->)|(w1 & t2 & E & ->)]].
      + split; [exact S|]. right. split; [now apply visit_fetch|exact Ho].
      + split; [exact S|]. exact (proj2 (K _ _ _ _ E)).
    - assert (K : forall w1 o2 w2 t2,
        abind (command git ["checkout"; ref]%string) (fun r =>
              ret (match r with
                   | NotRun e => Err (append "Failed to checkout branch: "%string e)
                   | Exited false e => Err (append "Failed to checkout branch: "%string e)
                   | Exited true _ => Ok tt
                   end)) w1 = (o2, w2, t2) -> steps git w1 t2 w2 /\
          (visit fetch false ref (fetched fetch ref ++ t2) true /\ o2 = Ok tt \/ visit fetch false ref (fetched fetch ref ++ t2) false /\ is_err o2 = true)).
      { intros w1 o2 w2 t2. destruct (git w1 ["checkout"; ref]%string) as [w3 r] eqn:E1. rewrite (cmd_bind _ _ _ _ _ E1).
        pose proof (steps_one _ _ _ _ E1) as S1. cbn.
        destruct r as [e|[|] e]; intros H3; injection H3 as <- <- <-; (split; [exact S1|]); cbn [succeeded];
          [right|left|right]; (split; [apply visit_checkout; reflexivity|reflexivity]). }
      destruct (finish_spec _ _ _ _ _ _ _ H (fun w1 o2 w2 t2 E => proj1 (K w1 o2 w2 t2 E))) as [S [(F & Ho & ->)|(w1 & t2 & E & ->)]].
      + split; [exact S|]. right. split; [now apply visit_fetch|exact Ho].
      + split; [exact S|]. exact (proj2 (K _ _ _ _ E)).
  Qed.

  Lemma visit_ok_fun fetch force ref : forall t1 b1 t2 b2 w w1 w2, visit fetch force ref t1 b1 -> visit fetch force ref t2 b2 ->
    steps git w t1 w1 -> steps git w t2 w2 -> t1 = t2 /\ b1 = b2 /\ w1 = w2.
  Proof.
    intros t1 b1 t2 b2 w w1 w2 V1 V2 S1 S2.
    assert (E : t1 = t2 /\ b1 = b2).
    { destruct fetch; unfold fetched in *; inversion V1; subst; inversion V2; subst; try discriminate; cbn in S1, S2;
        repeat match goal with
        | H : steps git _ (_ :: _) _ |- _ => apply steps_cons_inv in H; destruct H as (? & ? & ? & ? & ?)
        | H : git ?w ?a = _, H' : git ?w ?a = _ |- _ => rewrite H in H'; injection H' as <- <-
        | H : succeeded ?r = _, H' : succeeded ?r = _ |- _ => rewrite H in H'
        end; try discriminate; subst; try (split; reflexivity); try congruence;
        try (split; congruence). }
    destruct E as [-> ->]. split; [reflexivity|split; [reflexivity|]]. eapply steps_fun; eauto.
  Qed.

  Lemma load_spec repo ps pat mx w l : load glob disk repo ps pat mx w = Ok l <-> loads glob disk repo (g_ignore_errors ps) pat mx w l.
  Proof.
    unfold load, loads. destruct (list_files (glob w) repo pat mx) as [fs| | |]; cbn [bind];
      try (split; [discriminate|intros (? & H & _); discriminate]).
    split.
    - intros H. exists fs. split; [reflexivity|]. destruct (g_ignore_errors ps); [now apply FilesP.try_all_ok|now apply FilesP.parse_all_ok].
    - intros (fs' & E & H). injection E as <-. destruct (g_ignore_errors ps); [now apply FilesP.try_all_ok|now apply FilesP.parse_all_ok].
  Qed.

  Lemma commits_lemma m ords rx repo old new cps ps filt pat mx w r w' t :
    compare_commits git glob disk m ords rx repo old new cps ps filt pat mx w = (r, w', t) ->
    (has_dots pat -> t = [] /\ w' = w /\ is_err r = true) /\
    (~ has_dots pat -> steps git w t w' /\
      exists t1 ok1 w1, visit (should_pull ps) (g_force ps) old t1 ok1 /\ steps git w t1 w1 /\
        if ok1 then
          (forall l, ~ loads glob disk repo (g_ignore_errors ps) pat mx w1 l) /\ t = t1 /\ w' = w1 /\ is_ok r = false \/
          exists olds t2 ok2, loads glob disk repo (g_ignore_errors ps) pat mx w1 olds /\
            visit (should_pull ps) (g_force ps) new t2 ok2 /\ steps git w1 t2 w' /\ t = t1 ++ t2 /\
            if ok2 then
              (forall l, ~ loads glob disk repo (g_ignore_errors ps) pat mx w' l) /\ is_ok r = false \/
              exists news, loads glob disk repo (g_ignore_errors ps) pat mx w' news /\ r = compare_files m ords rx olds news cps filt
            else is_err r = true
        else t = t1 /\ w' = w1 /\ is_err r = true).
  Proof.
    unfold compare_commits. destruct (contains ".."%string pat) eqn:Ec.
    - apply contains_spec in Ec. intros H. injection H as <- <- <-. split; [auto|]. intros D. elim D. exact Ec.
    - assert (D : ~ has_dots pat) by (intros D; apply contains_spec in D; congruence).
      intros H. split; [tauto|]. intros _. clear D Ec. unfold abind at 1 in H.
      destruct (git_checkout git old (should_pull ps) (g_force ps) w) as [[o1 w1] t1] eqn:E1.
      destruct (checkout_visit _ _ _ _ _ _ _ E1) as [S1 [[V1 ->]|[V1 Ho]]].
      2:{ destruct o1; try discriminate. injection H as <- <- <-. split; [exact S1|]. exists t1, false, w1. tauto. }
      unfold abind at 1, read at 1 in H.
      destruct (load glob disk repo ps pat mx w1) as [olds|e|p|] eqn:L1.
      2,3,4: injection H as <- <- <-; rewrite app_nil_r; (split; [exact S1|]); exists t1, true, w1;
        (split; [exact V1|]); (split; [exact S1|]); left; (split; [|split; [reflexivity|split; reflexivity]]);
        intros l Hl; apply load_spec in Hl; congruence.
      apply load_spec in L1.
      unfold abind at 1 in H. destruct (git_checkout git new (should_pull ps) (g_force ps) w1) as [[o2 w2] t2] eqn:E2.
      destruct (checkout_visit _ _ _ _ _ _ _ E2) as [S2 [[V2 ->]|[V2 Ho]]].
      2:{ destruct o2; try discriminate. injection H as <- <- <-. split; [exact (steps_app _ _ _ _ _ S1 S2)|].
          exists t1, true, w1. split; [exact V1|]. split; [exact S1|]. right. exists olds, t2, false. tauto. }
      unfold abind, read, ret in H. cbn [app] in H.
      destruct (load glob disk repo ps pat mx w2) as [news|e|p|] eqn:L2;
        injection H as <- <- <-; cbn [app]; rewrite ?app_nil_r;
        (split; [exact (steps_app _ _ _ _ _ S1 S2)|]); exists t1, true, w1;
        (split; [exact V1|]); (split; [exact S1|]); right; exists olds, t2, true;
        (split; [exact L1|]); (split; [exact V2|]); (split; [exact S2|]); (split; [reflexivity|]).
      1:{ right. exists news. split; [now apply load_spec|reflexivity]. }
      all: left; (split; [|reflexivity]); intros l Hl; apply load_spec in Hl; congruence.
  Qed.

  (** A run is given by its parts. *)
  Lemma commits_complete m ords rx repo old new cps ps filt pat mx w t1 w1 olds t2 w2 news :
    ~ has_dots pat -> visit (should_pull ps) (g_force ps) old t1 true -> steps git w t1 w1 ->
    loads glob disk repo (g_ignore_errors ps) pat mx w1 olds ->
    visit (should_pull ps) (g_force ps) new t2 true -> steps git w1 t2 w2 ->
    loads glob disk repo (g_ignore_errors ps) pat mx w2 news ->
    compare_commits git glob disk m ords rx repo old new cps ps filt pat mx w =
      (compare_files m ords rx olds news cps filt, w2, t1 ++ t2).
  Proof.
    intros D V1 S1 L1 V2 S2 L2.
    destruct (compare_commits git glob disk m ords rx repo old new cps ps filt pat mx w) as [[r w'] t] eqn:E.
    apply commits_lemma in E. destruct E as [_ E]. destruct (E D) as (_ & t1' & ok1 & w1' & V1' & S1' & K). clear E.
    destruct (visit_ok_fun _ _ _ _ _ _ _ _ _ _ V1 V1' S1 S1') as (<- & <- & <-).
    destruct K as [(K & _)|(olds' & t2' & ok2 & L1' & V2' & S2' & -> & K)]; [now elim (K _ L1)|].
    destruct (visit_ok_fun _ _ _ _ _ _ _ _ _ _ V2 V2' S2 S2') as (<- & <- & <-).
    destruct K as [(K & _)|(news' & L2' & ->)]; [now elim (K _ L2)|].
    apply load_spec in L1, L1', L2, L2'. congruence.
  Qed.

  Lemma visit_commands fetch force ref t ok args b : visit fetch force ref t ok -> In (args, b) t ->
    args = ["fetch"; "origin"; ref]%string /\ fetch = true \/
    args = ["checkout"; ref]%string /\ force = false \/
    (args = ["reset"; "--hard"; append "origin/"%string ref]%string \/ args = ["reset"; "--hard"; ref]%string) /\ force = true.
  Proof.
    intros V I. destruct fetch; unfold fetched in V; inversion V; subst; cbn in I;
      repeat match goal with H : _ \/ _ |- _ => destruct H end; try contradiction;
      match goal with H : (_, _) = (_, _) |- _ => injection H as <- <- end; auto 10.
  Qed.
  (** Every command is one of the documented ones. *)
  Lemma commits_commands m ords rx repo old new cps ps filt pat mx w r w' t args b :
    compare_commits git glob disk m ords rx repo old new cps ps filt pat mx w = (r, w', t) -> In (args, b) t ->
    exists ref, (ref = old \/ ref = new) /\
      (args = ["fetch"; "origin"; ref]%string /\ g_pull ps = true /\ g_offline ps = false \/
       args = ["checkout"; ref]%string /\ g_force ps = false \/
       (args = ["reset"; "--hard"; append "origin/"%string ref]%string \/ args = ["reset"; "--hard"; ref]%string) /\ g_force ps = true).
  Proof.
    assert (P : should_pull ps = true -> g_pull ps = true /\ g_offline ps = false).
    { unfold should_pull. intros H. apply andb_true_iff in H. now rewrite negb_true_iff in H. }
    intros E I. apply commits_lemma in E. destruct E as [E1 E2].
    destruct (contains ".."%string pat) eqn:Ec.
    - apply contains_spec in Ec. destruct (E1 Ec) as [-> _]. contradiction.
    - assert (D : ~ has_dots pat) by (intros D; apply contains_spec in D; congruence).
      destruct (E2 D) as (_ & t1 & ok1 & w1 & V1 & _ & K).
      assert (A : t = t1 \/ exists t2 ok2, t = t1 ++ t2 /\ visit (should_pull ps) (g_force ps) new t2 ok2).
      { destruct ok1; [destruct K as [(_ & -> & _)|(o & t2 & ok2 & _ & V2 & _ & -> & _)]; [auto|right; eauto]|].
        destruct K as [-> _]. auto. }
      destruct A as [->|(t2 & ok2 & -> & V2)].
      + exists old. split; [auto|]. destruct (visit_commands _ _ _ _ _ _ _ V1 I) as [[? H]|[?|?]]; [apply P in H|..]; tauto.
      + apply in_app_or in I. destruct I as [I|I].
        * exists old. split; [auto|]. destruct (visit_commands _ _ _ _ _ _ _ V1 I) as [[? H]|[?|?]]; [apply P in H|..]; tauto.
        * exists new. split; [auto|]. destruct (visit_commands _ _ _ _ _ _ _ V2 I) as [[? H]|[?|?]]; [apply P in H|..]; tauto.
  Qed.
End Git.

(** ** git *)
Lemma drop_prefix_app p s : drop_prefix p (append p s) = Some s.
Proof. induction p; cbn; [reflexivity|]. now rewrite Ascii.eqb_refl. Qed.
Lemma put_same f k v : put f k v k = Some v.
Proof. unfold put. now rewrite String.eqb_refl. Qed.
Lemma put_other f k v x : x <> k -> put f k v x = f x.
Proof. intros H. unfold put. destruct (String.eqb_spec x k); [contradiction|reflexivity]. Qed.

Lemma run_fetch s ref : run_git s ["fetch"; "origin"; ref]%string = git_fetch s ref.
Proof. reflexivity. Qed.
Lemma run_reset s ref : run_git s ["reset"; "--hard"; ref]%string = git_reset_hard s ref.
Proof. reflexivity. Qed.
Lemma run_switch s ref : run_git s ["checkout"; ref]%string = git_switch s ref.
Proof. reflexivity. Qed.

Lemma checkout_steps ref s s' : git_switch s ref = (s', good) ->
  git_checkout run_git ref false false s = (Ok tt, s', [(["checkout"; ref]%string, true)]).
Proof.
  intros H. unfold git_checkout, maybe_pull, abind, ret, command. rewrite run_switch, H. reflexivity.
Qed.
Lemma switch_lemma s ref c : stands_for s ref c -> exists s', git_switch s ref = (s', good) /\ r_work s' = c /\
  forall ref' c', stands_for s ref' c' -> stands_for s' ref' c'.
Proof.
  unfold git_switch. intros [H|[H [H2|[H2 H3]]]].
  - rewrite H. eexists. split; [reflexivity|]. split; [reflexivity|]. auto.
  - rewrite H, H2. eexists. split; [reflexivity|]. split; [reflexivity|]. auto.
  - rewrite H, H2, H3. eexists. split; [reflexivity|]. split; [reflexivity|].
    intros ref' c' K. unfold stands_for, resolve in *. cbn. destruct (String.eqb_spec ref' ref) as [->|Hn].
    + rewrite put_same. left. rewrite H in K, H2.
      destruct (r_other s ref); [discriminate|]. destruct K as [K|[_ [K|[_ K]]]]; congruence.
    + rewrite (put_other _ _ _ _ Hn). exact K.
Qed.
Lemma checkout_ok s ref c : stands_for s ref c -> exists s' t, git_checkout run_git ref false false s = (Ok tt, s', t) /\
  r_work s' = c /\ forall ref' c', stands_for s ref' c' -> stands_for s' ref' c'.
Proof.
  intros H. destruct (switch_lemma _ _ _ H) as (s' & E & K). exists s'. eexists. split; [apply checkout_steps; exact E|exact K].
Qed.

Definition moved (s : grepo) (c : N) : grepo :=
  set_work (match r_head s with OnBranch b => set_local s b c | Detached => s end) c.
Lemma reset_steps ref s c : stands_for_reset s ref c ->
  exists t, git_checkout run_git ref false true s = (Ok tt, moved s c, t).
Proof.
  intros H. unfold git_checkout, git_reset, maybe_pull, abind, ret, command. rewrite run_reset. unfold git_reset_hard.
  destruct H as [->|[-> H]].
  - eexists. reflexivity.
  - unfold bad. cbv beta iota. rewrite run_reset. unfold git_reset_hard. rewrite H. eexists. reflexivity.
Qed.
Lemma moved_resolve s c rev : r_head s <> OnBranch rev -> resolve (moved s c) rev = resolve s rev.
Proof.
  intros H. unfold resolve, moved. destruct (r_head s) as [b|] eqn:E; cbn; [|reflexivity].
  rewrite put_other; [reflexivity|congruence].
Qed.
Lemma moved_stands s c ref c' : undisturbed s ref -> stands_for_reset s ref c' -> stands_for_reset (moved s c) ref c'.
Proof.
  intros [U1 U2] H. unfold stands_for_reset in *. rewrite moved_resolve by exact U1. destruct H as [H|[H H2]]; [auto|].
  right. split; [exact H|]. rewrite moved_resolve; [exact H2|]. intros K. now apply (U2 K).
Qed.
Lemma reset_ok s ref c : stands_for_reset s ref c -> exists s' t, git_checkout run_git ref false true s = (Ok tt, s', t) /\
  r_work s' = c /\ forall ref' c', undisturbed s ref' -> stands_for_reset s ref' c' -> stands_for_reset s' ref' c'.
Proof.
  intros H. destruct (reset_steps _ _ _ H) as [t E]. exists (moved s c), t. split; [exact E|]. split; [reflexivity|].
  intros. now apply moved_stands.
Qed.

Lemma fetch_reset s ref c : r_remote s ref = Some c -> unambiguous s ref ->
  exists s' t, git_checkout run_git ref true true s = (Ok tt, s', t) /\ r_work s' = c /\
    r_remote s' = r_remote s /\ forall ref', unambiguous s ref' -> unambiguous s' ref'.
Proof.
  intros H (U1 & U2 & U3). unfold git_checkout, git_reset, maybe_pull, git_pull, abind, ret, command.
  rewrite run_fetch. unfold git_fetch. rewrite H. unfold good; cbv beta iota; cbn [succeeded].
  rewrite run_reset. unfold git_reset_hard, resolve. cbn [r_other r_local r_tracking set_tracking]. rewrite U1, U2, drop_prefix_app, put_same.
  do 2 eexists. split; [reflexivity|]. cbn. destruct (r_head s) as [b|] eqn:E; cbn; (split; [reflexivity|]); (split; [reflexivity|]).
  - intros ref' (V1 & V2 & V3). unfold unambiguous. cbn [r_other r_local r_head set_work set_local set_tracking]. rewrite E in *. split; [exact V1|]. split; [|exact V3].
    rewrite put_other; [exact V2|congruence].
  - intros ref' (V1 & V2 & V3). unfold unambiguous. cbn [r_other r_local r_head set_work set_local set_tracking]. rewrite E in *. auto.
Qed.
Lemma fetch_stale s ref c : r_local s ref = Some c -> (r_remote s ref <> None \/ r_other s ref <> None) ->
  exists s' t, git_checkout run_git ref true false s = (Ok tt, s', t) /\ r_work s' = c.
Proof.
  intros H K. unfold git_checkout, maybe_pull, git_pull, abind, ret, command. rewrite run_fetch. unfold git_fetch.
  destruct (r_remote s ref) as [c'|]; [|destruct (r_other s ref) as [c'|]; [|tauto]]; unfold good; cbv beta iota; cbn [succeeded]; rewrite run_switch; unfold git_switch;
    cbn [r_local set_tracking]; rewrite H; do 2 eexists; (split; [reflexivity|reflexivity]).
Qed.
Lemma fetch_first s ref c : r_remote s ref = Some c -> r_local s ref = None -> resolve (set_tracking s ref c) ref = None ->
  exists s' t, git_checkout run_git ref true false s = (Ok tt, s', t) /\ r_work s' = c /\ r_local s' ref = Some c.
Proof.
  intros H K R. unfold git_checkout, maybe_pull, git_pull, abind, ret, command. rewrite run_fetch. unfold git_fetch. rewrite H. unfold good; cbv beta iota; cbn [succeeded].
  rewrite run_switch. unfold git_switch. cbn [r_local set_tracking]. rewrite K. change (mk_repo _ _ _ _ _ _ _) with (set_tracking s ref c).
  rewrite R. cbn. rewrite put_same. do 2 eexists. split; [reflexivity|]. cbn. now rewrite put_same.
Qed.
Lemma checkout_path s ref : r_local s ref = None -> resolve s ref = None -> r_tracking s ref = None -> r_path s ref = true ->
  exists t, git_checkout run_git ref false false s = (Ok tt, s, t).
Proof.
  intros A B C D. eexists. apply checkout_steps. unfold git_switch. now rewrite A, B, C, D.
Qed.

(** If both visits succeed, the result is that of their trees. *)
Lemma trees_lemma tglob tdisk m ords rx repo old new cps ps filt pat mx s s1 t1 s2 t2 : ~ has_dots pat ->
  git_checkout run_git old (should_pull ps) (g_force ps) s = (Ok tt, s1, t1) ->
  git_checkout run_git new (should_pull ps) (g_force ps) s1 = (Ok tt, s2, t2) ->
  exists s' t, compare_commits run_git (fun s => tglob (r_work s)) (fun s => tdisk (r_work s)) m ords rx repo old new cps ps filt pat mx s =
    (compare_trees tglob tdisk m ords rx repo cps ps filt pat mx (r_work s1) (r_work s2), s', t) /\
    (is_ok (load tglob tdisk repo ps pat mx (r_work s1)) = true -> s' = s2).
Proof.
  intros D E1 E2. unfold compare_commits. destruct (contains ".."%string pat) eqn:Ec.
  { apply contains_spec in Ec. now elim D. }
  unfold abind at 1. rewrite E1. unfold abind at 1, read at 1. unfold compare_trees.
  change (load (fun x => tglob (r_work x)) (fun y => tdisk (r_work y)) repo ps pat mx s1) with (load tglob tdisk repo ps pat mx (r_work s1)).
  destruct (load tglob tdisk repo ps pat mx (r_work s1)) as [olds|e|p|] eqn:L1; cbn [bind is_ok];
    try (do 2 eexists; split; [reflexivity|discriminate]).
  unfold abind at 1. rewrite E2. unfold abind, read, ret.
  change (load (fun x => tglob (r_work x)) (fun x => tdisk (r_work x)) repo ps pat mx s2) with (load tglob tdisk repo ps pat mx (r_work s2)).
  destruct (load tglob tdisk repo ps pat mx (r_work s2)) as [news|e|p|] eqn:L2; cbn [bind];
    do 2 eexists; (split; [reflexivity|reflexivity]).
Qed.

Lemma should_pull_spec ps : should_pull ps = true <-> g_pull ps = true /\ g_offline ps = false.
Proof. unfold should_pull. destruct (g_pull ps), (g_offline ps); cbn; intuition discriminate. Qed.

Lemma trees_checkout tglob tdisk m ords rx repo old new cps ps filt pat mx s c_old c_new :
  ~ has_dots pat -> g_force ps = false -> (g_pull ps = false \/ g_offline ps = true) -> stands_for s old c_old -> stands_for s new c_new ->
  exists s' t, compare_commits run_git (fun s => tglob (r_work s)) (fun s => tdisk (r_work s)) m ords rx repo old new cps ps filt pat mx s =
    (compare_trees tglob tdisk m ords rx repo cps ps filt pat mx c_old c_new, s', t) /\
    (is_ok (load tglob tdisk repo ps pat mx c_old) = true -> r_work s' = c_new).
Proof.
  intros D F P So Sn. assert (Hp : should_pull ps = false) by (unfold should_pull; destruct P as [->| ->]; [reflexivity|apply andb_false_r]).
  destruct (checkout_ok _ _ _ So) as (s1 & t1 & E1 & <- & K). destruct (checkout_ok _ _ _ (K _ _ Sn)) as (s2 & t2 & E2 & <- & _).
  destruct (trees_lemma tglob tdisk m ords rx repo old new cps ps filt pat mx s s1 t1 s2 t2 D) as (s' & t & E & R).
  { now rewrite Hp, F. } { now rewrite Hp, F. }
  exists s', t. split; [exact E|]. intros H. now rewrite (R H).
Qed.
Lemma trees_force tglob tdisk m ords rx repo old new cps ps filt pat mx s c_old c_new :
  ~ has_dots pat -> g_force ps = true -> (g_pull ps = false \/ g_offline ps = true) ->
  stands_for_reset s old c_old -> stands_for_reset s new c_new -> undisturbed s new ->
  exists s' t, compare_commits run_git (fun s => tglob (r_work s)) (fun s => tdisk (r_work s)) m ords rx repo old new cps ps filt pat mx s =
    (compare_trees tglob tdisk m ords rx repo cps ps filt pat mx c_old c_new, s', t) /\
    (is_ok (load tglob tdisk repo ps pat mx c_old) = true -> r_work s' = c_new).
Proof.
  intros D F P So Sn U. assert (Hp : should_pull ps = false) by (unfold should_pull; destruct P as [->| ->]; [reflexivity|apply andb_false_r]).
  destruct (reset_ok _ _ _ So) as (s1 & t1 & E1 & <- & K). destruct (reset_ok _ _ _ (K _ _ U Sn)) as (s2 & t2 & E2 & <- & _).
  destruct (trees_lemma tglob tdisk m ords rx repo old new cps ps filt pat mx s s1 t1 s2 t2 D) as (s' & t & E & R).
  { now rewrite Hp, F. } { now rewrite Hp, F. }
  exists s', t. split; [exact E|]. intros H. now rewrite (R H).
Qed.
Lemma trees_newest tglob tdisk m ords rx repo old new cps ps filt pat mx s c_old c_new :
  ~ has_dots pat -> g_force ps = true -> g_pull ps = true -> g_offline ps = false ->
  r_remote s old = Some c_old -> r_remote s new = Some c_new -> unambiguous s old -> unambiguous s new ->
  exists s' t, compare_commits run_git (fun s => tglob (r_work s)) (fun s => tdisk (r_work s)) m ords rx repo old new cps ps filt pat mx s =
    (compare_trees tglob tdisk m ords rx repo cps ps filt pat mx c_old c_new, s', t) /\
    (is_ok (load tglob tdisk repo ps pat mx c_old) = true -> r_work s' = c_new).
Proof.
  intros D F P O So Sn Uo Un. assert (Hp : should_pull ps = true) by now apply should_pull_spec.
  destruct (fetch_reset _ _ _ So Uo) as (s1 & t1 & E1 & <- & R1 & K).
  rewrite <- R1 in Sn. destruct (fetch_reset _ _ _ Sn (K _ Un)) as (s2 & t2 & E2 & <- & _).
  destruct (trees_lemma tglob tdisk m ords rx repo old new cps ps filt pat mx s s1 t1 s2 t2 D) as (s' & t & E & R).
  { now rewrite Hp, F. } { now rewrite Hp, F. }
  exists s', t. split; [exact E|]. intros H. now rewrite (R H).
Qed.
