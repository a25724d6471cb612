(** Proofs about answers while the remote repositories change. *)
From Coq Require Import List String Ascii Arith NArith ZArith Bool Reals Lia.
From Verif Require Import Base ScopeM TermM F64 SpecF64 CompareM SpecCompare RowsM SpecRows FmtM SynM ParseM SpecParse SpecAttr StorageM FilesM SpecFiles GitM SpecGit WebM SpecWeb
  ServerM SpecServer IsoM SpecIso LiveM SpecLive.
From Verif Require GitP WebP ServerP IsoP IsoP2.
Import ListNotations.
Local Open Scope string_scope.

Lemma pushed_same s : pushed s (r_remote s) = s.
Proof. now destruct s. Qed.
Lemma pushed_twice s r r' : pushed (pushed s r) r' = pushed s r'.
Proof. reflexivity. Qed.

(** ** One comparison with a changing remote repository *)
Section Seq.
  Context (tglob : N -> string -> option (list (option fpath))) (tdisk : N -> fpath -> string + file).
  Notation glob := (fun s => tglob (r_work s)).
  Notation disk := (fun s => tdisk (r_work s)).
  (** [rs] are the branches of the remote repository at each step. *)
  Inductive runs_to {A} : prog A -> grepo -> list (string -> option N) -> outcome A -> grepo -> Prop :=
  | rt_ret o w : runs_to (PRet o) w [] o w
  | rt_git args k w r w1 x rs o w' : run_git_all (pushed w r) args = (w1, x) -> runs_to (k x) w1 rs o w' -> runs_to (PGit args k) w (r :: rs) o w'
  | rt_glob pat k w r rs o w' : runs_to (k (tglob (r_work w) pat)) (pushed w r) rs o w' -> runs_to (PGlob pat k) w (r :: rs) o w'
  | rt_file p k w r rs o w' : runs_to (k (tdisk (r_work w) p)) (pushed w r) rs o w' -> runs_to (PFile p k) w (r :: rs) o w'.
  Definition ends {A} (q : prog A) w rs o : Prop := exists w', runs_to q w rs o w'.
  Lemma ends_pushed {A} (q : prog A) w r rs o : ends q (pushed w r) rs o -> ends q w rs o.
  Proof.
    intros (w' & H). inversion H; subst.
    - eexists. constructor.
    - eexists. econstructor; [|eassumption]. assumption.
    - eexists. econstructor. eassumption.
    - eexists. econstructor. eassumption.
  Qed.
  Lemma runs_bind {A B} (p : prog A) (k : A -> prog B) : forall w rs o w', runs_to (pbind p k) w rs o w' ->
    exists rs1 w1 o1, runs_to p w rs1 o1 w1 /\
      match o1 with
      | Ok a => exists rs2, rs = (rs1 ++ rs2)%list /\ runs_to (k a) w1 rs2 o w'
      | Err e => rs = rs1 /\ o = Err e | Panic x => rs = rs1 /\ o = Panic x | Diverge => rs = rs1 /\ o = Diverge
      end.
  Proof.
    induction p as [o0|args f IH|pat f IH|q f IH]; intros w rs o w' H; cbn in H.
    - exists [], w, o0. split; [constructor|]. destruct o0; [exists rs; auto| | |]; inversion H; subst; auto.
    - inversion H; subst. match goal with R : runs_to (pbind _ _) _ _ _ _ |- _ => apply IH in R; destruct R as (rs1 & w2 & o1 & R & K) end.
      exists (r :: rs1), w2, o1. split; [econstructor; eassumption|]. destruct o1; [destruct K as (rs2 & -> & K); exists rs2; auto| | |]; destruct K as [-> ->]; auto.
    - inversion H; subst. match goal with R : runs_to (pbind _ _) _ _ _ _ |- _ => apply IH in R; destruct R as (rs1 & w2 & o1 & R & K) end.
      exists (r :: rs1), w2, o1. split; [econstructor; eassumption|]. destruct o1; [destruct K as (rs2 & -> & K); exists rs2; auto| | |]; destruct K as [-> ->]; auto.
    - inversion H; subst. match goal with R : runs_to (pbind _ _) _ _ _ _ |- _ => apply IH in R; destruct R as (rs1 & w2 & o1 & R & K) end.
      exists (r :: rs1), w2, o1. split; [econstructor; eassumption|]. destruct o1; [destruct K as (rs2 & -> & K); exists rs2; auto| | |]; destruct K as [-> ->]; auto.
  Qed.
  (** Programs without commands. *)
  Inductive reads_only {A} : prog A -> Prop :=
  | ro_ret o : reads_only (PRet o)
  | ro_glob pat k : (forall x, reads_only (k x)) -> reads_only (PGlob pat k)
  | ro_file p k : (forall x, reads_only (k x)) -> reads_only (PFile p k).
  Definition same_dir (w w' : grepo) : Prop := exists r, w' = pushed w r.
  Lemma perform_pushed {A} (q : prog A) : reads_only q -> forall w r, fst (perform run_git_all glob disk q (pushed w r)) = fst (perform run_git_all glob disk q w).
  Proof. induction 1; intros; cbn; auto. Qed.
  Lemma reads_run {A} (q : prog A) : reads_only q -> forall w rs o w', runs_to q w rs o w' -> fst (perform run_git_all glob disk q w) = o /\ same_dir w w'.
  Proof.
    induction 1 as [o0|pat k Hk IH|p k Hk IH]; intros w rs o w' H; inversion H; subst; clear H.
    - split; [reflexivity|]. exists (r_remote w'). now rewrite pushed_same.
    - cbn. match goal with X : runs_to _ _ _ _ _ |- _ => apply IH in X; destruct X as (<- & r' & ->) end.
      split; [|now exists r']. symmetry. now apply perform_pushed.
    - cbn. match goal with X : runs_to _ _ _ _ _ |- _ => apply IH in X; destruct X as (<- & r' & ->) end.
      split; [|now exists r']. symmetry. now apply perform_pushed.
  Qed.
  Lemma reads_bind {A B} (p : prog A) (k : A -> prog B) : reads_only p -> (forall a, reads_only (k a)) -> reads_only (pbind p k).
  Proof. intros H K. induction H as [o| |]; cbn; [destruct o; auto; constructor| |]; constructor; auto. Qed.
  Lemma loop_reads base mx pats : forall paths, reads_only (p_list_loop base mx paths pats).
  Proof.
    induction pats as [|x pats IH]; intros paths; cbn; [constructor|]. constructor. intros [files|]; [|constructor]. destruct (collect files); [|constructor].
    match goal with |- context [if ?b then _ else _] => destruct b end; [constructor|apply IH].
  Qed.
  Lemma parse_reads ignore repo paths : forall res, reads_only (p_parse ignore repo res paths).
  Proof.
    induction paths as [|x paths IH]; intros res; cbn; [constructor|]. constructor. intros c.
    destruct (parse_file_in_repo _ _ _); [apply IH|destruct ignore; [apply IH|constructor]|constructor|constructor].
  Qed.
  Lemma load_reads repo ps pat mx : reads_only (p_load repo ps pat mx).
  Proof. apply reads_bind; [|intros; apply parse_reads]. apply reads_bind; [apply loop_reads|]. intros; constructor. Qed.
  Lemma load_run repo ps pat mx w rs o w' : runs_to (p_load repo ps pat mx) w rs o w' -> o = load tglob tdisk repo ps pat mx (r_work w) /\ same_dir w w'.
  Proof.
    intros H. destruct (reads_run _ (load_reads repo ps pat mx) _ _ _ _ H) as (E & D). split; [|exact D]. rewrite <- E.
    rewrite (IsoP.perform_load run_git_all glob disk repo ps pat mx w). reflexivity.
  Qed.

  (** A version is fetched and its commit checked out. *)
  Lemma reset_run ref w rs w' : runs_to (p_reset ref true) w rs (Ok tt) w' -> unambiguous w ref ->
    (forall r, In r rs -> r ref <> None \/ r_other w ref = None) ->
    exists r rs' c, rs = r :: rs' /\ r ref = Some c /\ r_work w' = c /\ r_other w' = r_other w /\ r_head w' = r_head w /\
      forall b, r_head w <> OnBranch b -> r_local w' b = r_local w b.
  Proof.
    intros H (U & V & X) B. unfold p_reset, p_pull in H. cbn [pbind] in H. inversion H as [|args k w0 r w1 x rs0 o w0' G R| |]; subst. clear H.
    specialize (B r (or_introl eq_refl)). cbn in G. unfold git_fetch in G. cbn [r_remote pushed r_other] in G.
    destruct (r ref) as [c|] eqn:E.
    2: { destruct B as [B|B]; [congruence|]. rewrite B in G. injection G as <- <-. cbn in R. inversion R. }
    injection G as <- <-. cbn [good pbind] in R. inversion R as [|args k w0 r1 w1 x rs1 o w0' G R1| |]; subst. clear R.
    match type of G with run_git_all ?s _ = _ => change (git_reset_hard s (append "origin/" ref) = (w1, x)) in G end.
    unfold git_reset_hard, resolve in G. cbn [r_other r_local r_tracking r_head pushed set_tracking] in G. rewrite U, V in G.
    change (drop_prefix "origin/" (append "origin/" ref)) with (Some ref) in G. unfold put at 1 in G. rewrite String.eqb_refl in G.
    exists r, (r1 :: rs1), c. split; [reflexivity|]. split; [exact E|]. injection G as <- <-. cbn in R1. inversion R1; subst.
    destruct (r_head w) as [b|] eqn:Hd; cbn; repeat split; auto; intros b' N; auto. apply GitP.put_other. congruence.
  Qed.
  Lemma same_dir_facts w w' : same_dir w w' -> r_work w' = r_work w /\ r_other w' = r_other w /\ r_head w' = r_head w /\ r_local w' = r_local w.
  Proof. intros (r & ->). auto. Qed.

  Lemma unit_out {o : outcome unit} {u} : o = Ok u -> o = Ok tt.
  Proof. destruct u. auto. Qed.
  Lemma compare_run m ords rx repo old new cps ps filt pat mx w rs rows :
    should_pull ps = true -> g_force ps = true -> ends (p_compare m ords rx repo old new cps ps filt pat mx) w rs (Ok rows) ->
    unambiguous w old -> unambiguous w new ->
    (forall r, In r rs -> r old <> None \/ r_other w old = None) -> (forall r, In r rs -> r new <> None \/ r_other w new = None) ->
    exists rs1 r1 rs2 r2 rs3 c_old c_new, rs = (rs1 ++ r1 :: rs2 ++ r2 :: rs3)%list /\ r1 old = Some c_old /\ r2 new = Some c_new /\
      compare_trees tglob tdisk m ords rx repo cps ps filt pat mx c_old c_new = Ok rows.
  Proof.
    intros Pl Fo (w' & H) Uo Un Bo Bn. unfold p_compare in H. rewrite Pl, Fo in H. cbn [p_checkout] in H.
    destruct (contains ".." pat); [inversion H|].
    apply runs_bind in H. destruct H as (ra & wa & oa & Ra & H). destruct oa as [[]| | |]; try (destruct H; congruence). destruct H as (rsa & -> & H).
    apply runs_bind in H. destruct H as (rb & wb & ob & Rb & H). destruct ob as [olds| | |]; try (destruct H; congruence). destruct H as (rsb & -> & H).
    apply runs_bind in H. destruct H as (rc & wc & oc & Rc & H). destruct oc as [[]| | |]; try (destruct H; congruence). destruct H as (rsc & -> & H).
    apply runs_bind in H. destruct H as (rd & wd & od & Rd & H). destruct od as [news| | |]; try (destruct H; congruence). destruct H as (rsd & -> & H).
    inversion H as [o w0 E1 E2 E3| | |]; subst. clear H.
    destruct (reset_run old w ra wa Ra Uo) as (r1 & ra' & c_old & -> & Ro & Wo & Oa & Ha & La).
    { intros r I. apply Bo. apply in_or_app. now left. }
    apply load_run in Rb. destruct Rb as (Lo & Db). destruct (same_dir_facts _ _ Db) as (Wb & Ob & Hb & Lb).
    destruct (reset_run new wb rc wc Rc) as (r2 & rc' & c_new & -> & Rn & Wn & Oc & Hc & Lc).
    { destruct Un as (A & B & C). unfold unambiguous. rewrite Ob, Hb, Lb, Oa, Ha, (La _ C). auto. }
    { intros r I. rewrite Ob, Oa. apply Bn. apply in_or_app. right. apply in_or_app. right. apply in_or_app. now left. }
    apply load_run in Rd. destruct Rd as (Ln & _).
    exists [], r1, (ra' ++ rb)%list, r2, (rc' ++ rd ++ [])%list, c_old, c_new. split; [cbn; rewrite <- !app_assoc; reflexivity|].
    split; [exact Ro|]. split; [exact Rn|]. unfold compare_trees. rewrite <- Wo, <- Lo, <- Wn. cbn [bind]. rewrite <- Ln. cbn. congruence.
  Qed.
End Seq.

(** ** All directories *)
(** What neither the commands nor the changes of the remote repository change. *)
Definition steady (s s' : grepo) : Prop :=
  r_other s' = r_other s /\ r_head s' = r_head s /\ forall b, r_head s <> OnBranch b -> r_local s' b = r_local s b.
Lemma steady_refl s : steady s s.
Proof. repeat split. Qed.
Lemma steady_trans a b c : steady a b -> steady b c -> steady a c.
Proof. intros (B & C & D) (B' & C' & D'). repeat split; try congruence. intros x H. rewrite D' by congruence. now apply D. Qed.
Lemma steady_pushed s r : steady s (pushed s r).
Proof. repeat split. Qed.
Lemma steady_unambiguous s s' ref : steady s s' -> unambiguous s ref -> unambiguous s' ref.
Proof. intros (B & C & D) (U & V & X). unfold unambiguous. rewrite B, C. split; [exact U|]. split; [|exact X]. rewrite D; auto. Qed.
(** The commands of a comparison that is forced. *)
Definition allowed (args : list string) : Prop := exists x, args = ["fetch"; "origin"; x] \/ args = ["reset"; "--hard"; x].
Lemma allowed_steady s args : allowed args -> steady s (fst (run_git_all s args)).
Proof.
  intros (x & [->| ->]); cbn.
  - unfold git_fetch. destruct (r_remote s x); [|destruct (r_other s x)]; repeat split.
  - unfold git_reset_hard. destruct (resolve s x) as [c|]; [|apply steady_refl]. destruct (r_head s) as [b|] eqn:E; cbn; repeat split; cbn; auto.
    intros y H. apply GitP.put_other. rewrite E in H. congruence.
Qed.
Lemma branch_steady s args : In args branch_commands -> steady s (fst (run_git_all s args)).
Proof. intros [<-|[<-|[]]]; cbn; repeat split. Qed.
Inductive careful {A} : prog A -> Prop :=
| ca_ret o : careful (PRet o)
| ca_git args k : allowed args -> (forall x, careful (k x)) -> careful (PGit args k)
| ca_glob pat k : (forall x, careful (k x)) -> careful (PGlob pat k)
| ca_file p k : (forall x, careful (k x)) -> careful (PFile p k).
Lemma careful_bind {A B} (p : prog A) (k : A -> prog B) : careful p -> (forall a, careful (k a)) -> careful (pbind p k).
Proof. intros H K. induction H as [o| | |]; cbn; [destruct o; auto; constructor| | |]; constructor; auto. Qed.
Lemma reads_careful {A} (p : prog A) : reads_only p -> careful p.
Proof. induction 1; constructor; auto. Qed.
Lemma reset_careful ref pull : careful (p_reset ref pull).
Proof.
  unfold p_reset. apply careful_bind.
  - unfold p_pull. destruct pull; [|constructor]. constructor; [exists ref; now left|]. intros [e|[] e]; constructor.
  - intros _. constructor; [eexists; right; reflexivity|]. intros [e|[] e]; try constructor; try (eexists; right; reflexivity); intros [e'|[] e']; constructor.
Qed.
Lemma web_careful m ords rx where_ a : careful (web_prog m ords rx where_ a).
Proof.
  unfold web_prog, p_compare. destruct (contains _ _); [constructor|]. cbn [g_force web_git p_checkout].
  apply careful_bind; [apply reset_careful|]. intros _. apply careful_bind; [apply reads_careful, load_reads|]. intros olds.
  apply careful_bind; [apply reset_careful|]. intros _. apply careful_bind; [apply reads_careful, load_reads|]. intros; constructor.
Qed.

(** Some of the configurations of a list, in its order. *)
Inductive picks {A} : list A -> list A -> Prop :=
| picks_nil : picks [] []
| picks_skip x cs h : picks cs h -> picks cs (x :: h)
| picks_take x cs h : picks cs h -> picks (x :: cs) (x :: h).
Lemma picks_none {A} (h : list A) : picks [] h.
Proof. induction h; constructor; auto. Qed.
Lemma picks_in {A} (cs h : list A) x : picks cs h -> In x cs -> In x h.
Proof. induction 1; cbn; intuition. Qed.
Lemma picks_split {A} (cs h : list A) : picks cs h -> forall a x b, cs = (a ++ x :: b)%list -> exists h1 h2, h = (h1 ++ x :: h2)%list /\ picks b h2.
Proof.
  induction 1 as [|y cs h P IH|y cs h P IH]; intros a x b E.
  - destruct a; discriminate.
  - destruct (IH a x b E) as (h1 & h2 & -> & Q). exists (y :: h1), h2. auto.
  - destruct a as [|z a]; injection E as -> ->.
    + exists [], h. auto.
    + destruct (IH a x b eq_refl) as (h1 & h2 & -> & Q). exists (z :: h1), h2. auto.
Qed.
Lemma picks_earlier {A} (cs h : list A) a x b y c : picks cs h -> cs = (a ++ x :: b ++ y :: c)%list -> earlier h y x.
Proof.
  intros P E. destruct (picks_split _ _ P _ _ _ E) as (h1 & h2 & -> & Q). destruct (picks_split _ _ Q _ _ _ eq_refl) as (h3 & h4 & -> & _).
  now exists h1, h3, h4.
Qed.

Section Server.
  Context (tglob : N -> string -> option (list (option fpath))) (tdisk : N -> fpath -> string + file)
    (m : mode) (ords : string * string -> list string -> list string) (rx : regex_engine)
    (shards : nat) (shard : string -> nat) (known : string -> bool) (where_ : string -> fpath).
  Context (own : own_directories known where_) (ws0 : worlds (W := grepo)) (now : N) (rs : list request).
  Notation anything := (fun (_ : web_args) (_ : outcome (list row)) => True).
  Notation execution := (execution shards shard known anything (start now rs)).
  Notation web_prog := (web_prog m ords rx where_).
  Notation ends := (ends tglob tdisk).
  Notation istep := (istep run_git_all (fun s => tglob (r_work s)) (fun s => tdisk (r_work s)) m ords rx shards shard known where_).
  Notation lrun := (lrun tglob tdisk m ords rx shards shard known where_).
  Notation dir a := (where_ (wa_repo a)).
  Notation seen a := (fun c : iconfig (W := grepo) => r_remote (snd (fst c) (dir a))).

  (** So far, at the moments [cs], the steps were made that lead to [q]. *)
  Definition partly (h : list (iconfig (W := grepo))) (i : nat) (a : web_args) (q : prog (list row)) (w : grepo) : Prop :=
    exists w0 cs, steady (ws0 (dir a)) w0 /\ picks cs h /\ Forall (during i a) cs /\
      forall r o, ends q w r o -> ends (web_prog a) w0 (map (seen a) (rev cs) ++ r)%list o.
  Definition wholly (h : list (iconfig (W := grepo))) (i : nat) (a : web_args) (o' : outcome (list row)) (t : N) : Prop :=
    exists w0 cs o, steady (ws0 (dir a)) w0 /\ picks cs h /\ Forall (during i a) cs /\ Forall (fun c => (clock c <= t)%N) cs /\ ends (web_prog a) w0 (map (seen a) (rev cs)) o /\ finish a o o'.
  Lemma partly_skip c h i a q w : partly h i a q w -> partly (c :: h) i a q w.
  Proof. intros (w0 & cs & S & P & F & K). exists w0, cs. repeat (split; auto). now constructor. Qed.
  Lemma wholly_skip c h i a o t : wholly h i a o t -> wholly (c :: h) i a o t.
  Proof. intros (w0 & cs & o' & S & P & F & K). exists w0, cs, o'. repeat (split; auto). now constructor. Qed.
  Lemma partly_push h i a q w r : partly h i a q w -> partly h i a q (pushed w r).
  Proof. intros (w0 & cs & S & P & F & K). exists w0, cs. repeat (split; auto). intros r' o E. apply K. exact (ends_pushed _ _ _ _ _ _ _ E). Qed.
  (** One step more. *)
  Lemma partly_step s ws l h i a q q' w : nth_error l i = Some (Exec a q) -> partly h i a q (ws (dir a)) ->
    (forall r o, ends q' w r o -> ends q (ws (dir a)) (r_remote (ws (dir a)) :: r) o) -> partly ((s, ws, l) :: h) i a q' w.
  Proof.
    intros N (w0 & cs & S & P & F & K) T. exists w0, ((s, ws, l) :: cs). split; [exact S|]. split; [now constructor|]. split.
    - constructor; [|exact F]. exists q. exact N.
    - intros r o E. apply T, K in E. cbn [rev]. rewrite map_app, <- app_assoc. exact E.
  Qed.

  Lemma now_step (r1 : web_args -> outcome (list row) -> Prop) i s p s' p' : tstep shards shard known r1 i s p s' p' -> s_now s' = s_now s.
  Proof. destruct 1; reflexivity. Qed.
  Lemma computed_time i s p s' p' : tstep shards shard known (fun _ _ => False) i s p s' p' -> IsoP.kpc known (At p) ->
    forall j a o t, In (Computed j a o t) (s_log s') -> In (Computed j a o t) (s_log s).
  Proof. intros T K. destruct T; cbn in *; intros; intuition congruence. Qed.
  Definition linv (h : list (iconfig (W := grepo))) (c : iconfig (W := grepo)) : Prop :=
    let '(s, ws, l) := c in
    (exists n, execution n (s, map coarse l)) /\ Forall (IsoP.kpc known) l /\ (forall d, steady (ws0 d) (ws d)) /\
    (forall i a q, nth_error l i = Some (Exec a q) -> careful q /\ partly h i a q (ws (dir a))) /\
    (forall i a o t, In (Computed i a o t) (s_log s) -> wholly h i a o t) /\ Forall (fun c => (clock c <= s_now s)%N) h.
  Lemma linv_step h i s ws l p s' ws' p' : linv h (s, ws, l) -> nth_error l i = Some p ->
    istep i s ws p s' ws' p' -> linv ((s, ws, l) :: h) (s', ws', set_ith l i p').
  Proof.
    intros ((n & E) & K & St & Ex & Co & Ti) N T.
    assert (Ti' : Forall (fun c => (clock c <= s_now s')%N) ((s, ws, l) :: h)).
    { assert (X : s_now s' = s_now s).
      { destruct T as [s ws p s' p' T Nr|s ws p s' a T| | | |s ws a o o' s' F T|]; try reflexivity; exact (now_step _ _ _ _ _ _ T). }
      rewrite X. constructor; [apply N.le_refl|exact Ti]. }
    assert (Kp : IsoP.kpc known p) by (rewrite Forall_forall in K; apply K; eapply nth_error_In; exact N).
    assert (N' : nth_error (map coarse l) i = Some (coarse p)) by (apply map_nth_error; exact N).
    assert (Only : forall n s l i j a b q q', execution n (s, map coarse l) -> nth_error l i = Some (Exec a q) -> nth_error l j = Some (Exec b q') -> i = j).
    { clear. intros n s l i j a b q q' E A B. eapply (ServerP.exclusive_lemma shards shard known anything now rs n _ i j a b E); unfold compares; cbn.
      - exact (map_nth_error coarse i l A).
      - exact (map_nth_error coarse j l B). }
    assert (Uniq : forall a q b q' j, p = Exec a q -> nth_error l j = Some (Exec b q') -> j = i).
    { intros a q b q' j -> Hj. exact (Only n s l j i b a q' q E Hj N). }
    destruct T as [s ws p s' p' T Nr|s ws p s' a T|s ws a args k w r G|s ws a pat k|s ws a f k|s ws a o o' s' F T|s ws repo args G].
    - split; [|split; [|split; [exact St|split]]].
      + exists (S n). rewrite IsoP.set_map. cbn [coarse]. eapply ex_thread; [exact E|]. eapply step_thread; [exact N'|].
        eapply IsoP.tstep_mono; [|exact T]. intros a o _ _ [].
      + apply IsoP.set_forall; [exact K|]. eapply IsoP.kpc_step; eassumption.
      + intros j a q Hj. destruct (Nat.eq_dec i j) as [<-|D]; [rewrite (IsoP.ith_same _ _ _ _ N) in Hj; discriminate Hj|].
        rewrite IsoP.ith_other in Hj by exact D. destruct (Ex j a q Hj). split; [assumption|now apply partly_skip].
      + split; [|exact Ti']. intros j a o t I. apply (computed_time _ _ _ _ _ T Kp) in I. apply wholly_skip. exact (Co j a o t I).
    - destruct (IsoP.begin_step _ _ _ _ _ _ _ _ T) as (Ka & Lg & ->).
      assert (E' : execution (S n) (s', map coarse (set_ith l i (Exec a (web_prog a))))).
      { rewrite IsoP.set_map. cbn [coarse]. eapply ex_thread; [exact E|]. eapply step_thread; [exact N'|].
        eapply IsoP.tstep_mono; [|exact T]. intros b o _ _ []. }
      split; [exists (S n); exact E'|]. split; [apply IsoP.set_forall; [exact K|exact Ka]|]. split; [exact St|]. split.
      + intros j b q Hj. destruct (Nat.eq_dec i j) as [<-|D].
        * rewrite (IsoP.ith_same _ _ _ _ N) in Hj. injection Hj as <- <-. split; [apply web_careful|].
          exists (ws (dir a)), []. split; [apply St|]. split; [apply picks_none|]. split; [constructor|]. intros r o H. exact H.
        * rewrite IsoP.ith_other in Hj by exact D. destruct (Ex j b q Hj). split; [assumption|now apply partly_skip].
      + split; [|exact Ti']. rewrite Lg. intros j b o t I. apply wholly_skip. exact (Co j b o t I).
    - destruct (Ex i a _ N) as (Ca & Pa). inversion Ca as [|args' k' Al Ck| |]; subst.
      split; [|split; [|split; [|split]]].
      + exists n. rewrite IsoP.set_map. cbn [coarse]. change (Running a) with (coarse (Exec a (PGit args k))). rewrite <- IsoP.set_map, (IsoP.set_same _ _ _ N). exact E.
      + apply IsoP.set_forall; [exact K|exact Kp].
      + intros d. destruct (fpath_dec (dir a) d) as [<-|D]; [|rewrite IsoP.put_other by exact D; apply St]. rewrite IsoP.put_same.
        eapply steady_trans; [apply St|]. change w with (fst (w, r)). rewrite <- G. now apply allowed_steady.
      + intros j b q Hj. destruct (Nat.eq_dec i j) as [<-|D].
        * rewrite (IsoP.ith_same _ _ _ _ N) in Hj. injection Hj as <- <-. split; [apply Ck|]. rewrite IsoP.put_same.
          eapply partly_step; [exact N|exact Pa|]. intros r' o (w' & R). exists w'. econstructor; [rewrite pushed_same; exact G|exact R].
        * rewrite IsoP.ith_other in Hj by exact D. destruct D. symmetry. exact (Uniq _ _ _ _ _ eq_refl Hj).
      + split; [|exact Ti']. intros j b o t I. apply wholly_skip. exact (Co j b o t I).
    - destruct (Ex i a _ N) as (Ca & Pa). inversion Ca as [| |pat' k' Ck|]; subst.
      split; [|split; [|split; [exact St|split]]].
      + exists n. rewrite IsoP.set_map. cbn [coarse]. change (Running a) with (coarse (Exec a (PGlob pat k))). rewrite <- IsoP.set_map, (IsoP.set_same _ _ _ N). exact E.
      + apply IsoP.set_forall; [exact K|exact Kp].
      + intros j b q Hj. destruct (Nat.eq_dec i j) as [<-|D].
        * rewrite (IsoP.ith_same _ _ _ _ N) in Hj. injection Hj as <- <-. split; [apply Ck|].
          eapply partly_step; [exact N|exact Pa|]. intros r' o (w' & R). exists w'. constructor. rewrite pushed_same. exact R.
        * rewrite IsoP.ith_other in Hj by exact D. destruct D. symmetry. exact (Uniq _ _ _ _ _ eq_refl Hj).
      + split; [|exact Ti']. intros j b o t I. apply wholly_skip. exact (Co j b o t I).
    - destruct (Ex i a _ N) as (Ca & Pa). inversion Ca as [| | |f' k' Ck]; subst.
      split; [|split; [|split; [exact St|split]]].
      + exists n. rewrite IsoP.set_map. cbn [coarse]. change (Running a) with (coarse (Exec a (PFile f k))). rewrite <- IsoP.set_map, (IsoP.set_same _ _ _ N). exact E.
      + apply IsoP.set_forall; [exact K|exact Kp].
      + intros j b q Hj. destruct (Nat.eq_dec i j) as [<-|D].
        * rewrite (IsoP.ith_same _ _ _ _ N) in Hj. injection Hj as <- <-. split; [apply Ck|].
          eapply partly_step; [exact N|exact Pa|]. intros r' o (w' & R). exists w'. constructor. rewrite pushed_same. exact R.
        * rewrite IsoP.ith_other in Hj by exact D. destruct D. symmetry. exact (Uniq _ _ _ _ _ eq_refl Hj).
      + split; [|exact Ti']. intros j b o t I. apply wholly_skip. exact (Co j b o t I).
    - destruct (Ex i a _ N) as (_ & Pa).
      assert (Lg : s_log s' = Computed i a o' (s_now s) :: s_log s) by (inversion T; subst; reflexivity).
      split; [|split; [|split; [exact St|split]]].
      + exists (S n). rewrite IsoP.set_map. cbn [coarse]. eapply ex_thread; [exact E|]. eapply step_thread; [exact N'|].
        eapply IsoP.tstep_mono; [|exact T]. auto.
      + apply IsoP.set_forall; [exact K|exact Kp].
      + intros j b q Hj. destruct (Nat.eq_dec i j) as [<-|D]; [rewrite (IsoP.ith_same _ _ _ _ N) in Hj; discriminate Hj|].
        rewrite IsoP.ith_other in Hj by exact D. destruct (Ex j b q Hj). split; [assumption|now apply partly_skip].
      + split; [|exact Ti']. rewrite Lg. intros j b o1 t [I|I]; [|apply wholly_skip; exact (Co j b o1 t I)]. injection I as <- <- <- <-. apply wholly_skip.
        destruct Pa as (w0 & cs & Sw & P & Fo & Q). exists w0, cs, o. repeat (split; [assumption|]). split; [|split; [|exact F]].
        { rewrite Forall_forall in Ti |- *. intros c I. apply Ti. exact (picks_in _ _ _ P I). }
        rewrite <- (app_nil_r (map _ _)). apply Q. eexists. constructor.
    - cbn in Kp.
      assert (Far : forall j b q, nth_error l j = Some (Exec b q) -> where_ repo <> dir b).
      { intros j b q Hj D. assert (Kb : IsoP.kpc known (Exec b q)) by (rewrite Forall_forall in K; apply K; eapply nth_error_In; exact Hj). cbn in Kb.
        apply (ServerP.branches_lemma shards shard known anything now rs n _ j i b repo E).
        - exact (map_nth_error coarse j l Hj).
        - exact N'.
        - f_equal. exact (own _ _ Kp Kb D). }
      rewrite (IsoP.set_same _ _ _ N). split; [exists n; exact E|]. split; [exact K|]. split; [|split].
      + intros d. destruct (fpath_dec (where_ repo) d) as [<-|D]; [|rewrite IsoP.put_other by exact D; apply St]. rewrite IsoP.put_same.
        eapply steady_trans; [apply St|]. now apply branch_steady.
      + intros j b q Hj. rewrite IsoP.put_other by exact (Far j b q Hj). destruct (Ex j b q Hj). split; [assumption|now apply partly_skip].
      + split; [|exact Ti']. intros j b o t I. apply wholly_skip. exact (Co j b o t I).
  Qed.
  Lemma linv_run h c : lrun (istart ws0 now rs) h c -> linv h c.
  Proof.
    remember (istart ws0 now rs) as c0 eqn:E0. induction 1 as [|h s ws l i p s' ws' p' R IH N T|h s ws l d R IH|h s ws l d r R IH].
    - subst c0. unfold istart, linv. split; [|split; [|split; [intros; apply steady_refl|split]]].
      + exists 0. rewrite map_map. cbn [coarse]. rewrite map_id. destruct (start now rs). apply ex_nil.
      + cbn. induction rs as [|r rs' IH]; cbn; constructor; [exact I|exact IH].
      + intros i a q Hi. cbn in Hi. apply nth_error_In in Hi. apply in_map_iff in Hi. destruct Hi as (x & Hx & _). discriminate Hx.
      + split; [|constructor]. intros i a o t [].
    - exact (linv_step _ _ _ _ _ _ _ _ _ IH N T).
    - destruct IH as ((n & E) & K & St & Ex & Co & Ti). split; [|split; [exact K|split; [exact St|split]]].
      + exists n. eapply ex_time; [exact E|]. constructor.
      + intros i a q Hi. destruct (Ex i a q Hi). split; [assumption|now apply partly_skip].
      + split; [|constructor; [unfold clock; cbn; lia|revert Ti; apply Forall_impl; intros; cbn; lia]]. intros i a o t I. apply wholly_skip. exact (Co i a o t I).
    - destruct IH as ((n & E) & K & St & Ex & Co & Ti). split; [exists n; exact E|]. split; [exact K|]. split; [|split].
      + intros e. destruct (fpath_dec d e) as [<-|D]; [|rewrite IsoP.put_other by exact D; apply St]. rewrite IsoP.put_same.
        eapply steady_trans; [apply St|apply steady_pushed].
      + intros i a q Hi. destruct (Ex i a q Hi) as (Ca & Pa). split; [exact Ca|]. apply partly_skip.
        destruct (fpath_dec d (dir a)) as [->|D]; [|rewrite IsoP.put_other by exact D; exact Pa]. rewrite IsoP.put_same. now apply partly_push.
      + split; [|constructor; [unfold clock; cbn; lia|revert Ti; apply Forall_impl; intros; cbn; lia]]. intros i a o t I. apply wholly_skip. exact (Co i a o t I).
  Qed.
  (** Time passes. *)
  Lemma clock_run c0 h c : lrun c0 h c -> Forall (fun x => (clock x <= clock c)%N) h /\
    forall h1 x h2, h = (h1 ++ x :: h2)%list -> Forall (fun y => (clock y <= clock x)%N) h2.
  Proof.
    induction 1 as [|h s ws l i p s' ws' p' R [F IH] N T|h s ws l d R [F IH]|h s ws l d r R [F IH]].
    1: split; [constructor|]; intros [|? h1] x h2 E; discriminate E.
    1: assert (X : s_now s' = s_now s).
    1: { destruct T as [s ws p s' p' T Nr|s ws p s' a T| | | |s ws a o o' s' Fi T|]; try reflexivity; exact (now_step _ _ _ _ _ _ T). }
    1: split; [unfold clock in *; cbn in *; rewrite X; constructor; [apply N.le_refl|exact F]|].
    2, 3: split; [unfold clock in *; cbn in *; constructor; [cbn; lia|revert F; apply Forall_impl; intros; lia]|].
    all: intros [|y h1] x h2 E; injection E as E1 E; [subst; exact F|exact (IH _ _ _ E)].
  Qed.

  Theorem live_lemma h s ws l i a v t old new pat : 0 < shards -> lrun (istart ws0 now rs) h (s, ws, l) -> answered_at (s_log s) i a v t -> wa_pull a <> Some false ->
    trimmed (wa_old a) old -> trimmed (wa_new a) new -> trimmed (wa_pattern a) pat ->
    unambiguous (ws0 (dir a)) old -> unambiguous (ws0 (dir a)) new -> branch_name h (dir a) old -> branch_name h (dir a) new ->
    exists j t0 c_old c_new rows, nth_error rs j = Some (RCompare a) /\ In (Stored j a v t0) (s_log s) /\ (t0 <= t < t0 + 600000)%N /\
      looked_up h (dir a) j a old new c_old c_new t0 /\
      compare_trees tglob tdisk m ords rx (dir a) (web_params a) (web_git a) (web_filter a) pat web_max_files c_old c_new = Ok rows /\
      sort_changes (filter_changes rows (web_filter a)) v.
  Proof.
    intros P Rn An Pl To Tn Tp Uo Un Bo Bn. destruct (linv_run _ _ Rn) as ((n & E) & _ & St & _ & Co & _).
    assert (X : exists j t0, happened (s, map coarse l) (Stored j a v t0) /\ (t0 <= t < t0 + 600000)%N).
    { destruct An as [H|H].
      - destruct (ServerP.cached_lemma shards shard known _ P rs now n _ i a v t E H) as (j & t0 & (l1 & l2 & l3 & B) & T).
        exists j, t0. split; [|exact T]. unfold happened. cbn in *. rewrite B. apply in_or_app. right. right. apply in_or_app. right. now left.
      - destruct (ServerP.fresh_lemma shards shard known _ P rs now n _ i a v t E H) as (_ & _ & t' & _ & _ & S). exists i, t. split; [exact S|lia]. }
    destruct X as (j & t0 & S & T). exists j, t0.
    destruct (ServerP.stored_lemma shards shard known _ P rs now n _ j a v t0 E S) as (Nj & _ & t' & (l1 & l2 & l3 & B) & Le).
    destruct (Co j a (Ok v) t') as (w0 & cs & o & Sw & Pk & Du & Cl & En & Fi).
    { cbn in B. rewrite B. apply in_or_app. right. right. apply in_or_app. right. now left. }
    inversion Fi as [rows sorted So| |]; subst. apply WebP.trim_iff in To, Tn, Tp. subst old new pat.
    assert (Bs : forall name, branch_name h (dir a) name -> forall r, In r (map (seen a) (rev cs)) -> r name <> None \/ r_other w0 name = None).
    { intros name Bm r I. apply in_map_iff in I. destruct I as (c & <- & I). apply in_rev in I.
      assert (Ic : In c h) by exact (picks_in _ _ _ Pk I). destruct (Bm c Ic) as [Q|Q]; [left; exact Q|right].
      assert (Sc : steady (ws0 (dir a)) (snd (fst c) (dir a))).
      { clear -own Rn Ic. assert (G : forall c0 h c, lrun c0 h c -> c0 = istart ws0 now rs -> forall c', In c' h -> exists h', lrun c0 h' c').
        { clear. induction 1; intros -> c' I; try (destruct I as [<-|I]; [eexists; eassumption|]); auto. destruct I. }
        destruct (G _ _ _ Rn eq_refl c Ic) as (h' & R'). destruct c as [[s1 ws1] l1]. apply linv_run in R'. apply R'. }
      rewrite (proj1 Sw), <- (proj1 Sc). exact Q. }
    destruct (compare_run tglob tdisk m ords rx (dir a) (trim (wa_old a)) (trim (wa_new a)) (web_params a) (web_git a) (web_filter a) (trim (wa_pattern a)) web_max_files
      w0 (map (seen a) (rev cs)) rows) as (rs1 & r1 & rs2 & r2 & rs3 & c_old & c_new & Eq & Ro & Rw & Ct).
    - unfold should_pull. cbn. destruct (wa_pull a) as [[|]|]; try reflexivity. now destruct Pl.
    - reflexivity.
    - exact En.
    - exact (steady_unambiguous _ _ _ Sw Uo).
    - exact (steady_unambiguous _ _ _ Sw Un).
    - exact (Bs _ Bo).
    - exact (Bs _ Bn).
    - assert (Sp : exists a1 c1 a2 c2 a3, rev cs = (a1 ++ c1 :: a2 ++ c2 :: a3)%list /\ seen a c1 = r1 /\ seen a c2 = r2).
      { apply map_eq_app in Eq. destruct Eq as (a1 & b1 & E1 & _ & E2). destruct b1 as [|c1 b1]; [discriminate|]. cbn in E2. injection E2 as E2 E3.
        apply map_eq_app in E3. destruct E3 as (a2 & b2 & -> & _ & E4). destruct b2 as [|c2 a3]; [discriminate|]. cbn in E4. injection E4 as E4 _.
        exists a1, c1, a2, c2, a3. auto. }
      destruct Sp as (a1 & c1 & a2 & c2 & a3 & Er & E1 & E2).
      assert (Ec : cs = (rev a3 ++ c2 :: rev a2 ++ c1 :: rev a1)%list).
      { rewrite <- (rev_involutive cs), Er. rewrite rev_app_distr. cbn. rewrite rev_app_distr. cbn. rewrite <- !app_assoc. reflexivity. }
      pose proof (picks_earlier _ _ _ _ _ _ _ Pk Ec) as Ea.
      assert (I1 : In c1 cs) by (rewrite Ec; apply in_or_app; right; right; apply in_or_app; right; now left).
      assert (I2 : In c2 cs) by (rewrite Ec; apply in_or_app; right; now left).
      rewrite Forall_forall in Du, Cl.
      exists c_old, c_new, rows. split; [exact Nj|]. split; [exact S|]. split; [exact T|]. split; [|split; [exact Ct|exact So]].
      exists c1, c2. split; [exact Ea|]. split; [exact (Du _ I1)|]. split; [exact (Du _ I2)|]. split.
      { split; [|specialize (Cl _ I2); cbn in Cl; lia]. destruct Ea as (h1 & h2 & h3 & Eh). destruct (clock_run _ _ _ Rn) as (_ & Q). specialize (Q _ _ _ Eh).
        rewrite Forall_forall in Q. apply Q. apply in_or_app. right. now left. }
      unfold newest. cbn beta in E1, E2. rewrite E1, E2. now split.
  Qed.
End Server.
