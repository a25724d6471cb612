(** Proofs about the reading of arguments: the scanner of clap, for any options. *)
From Coq Require Import List String Ascii Arith NArith Bool Lia.
From Verif Require Import Base ScopeM TermM F64 CompareM RowsM FmtM SynM ParseM StorageM FilesM GitM CliM ArgsM SpecArgs.
Import ListNotations.
Local Open Scope string_scope.

(** ** Words *)
Lemma split_none s n : split_eq s = (n, None) -> s = n.
Proof.
  revert n. induction s as [|c s IH]; intros n; cbn; [now intros [= <-]|]. destruct (Ascii.eqb c "="); [discriminate|].
  destruct (split_eq s) as [a [b|]]; [discriminate|]. intros [= <-]. f_equal. now apply IH.
Qed.
Lemma split_some s n v : split_eq s = (n, Some v) -> s = n ++ "=" ++ v /\ split_eq n = (n, None).
Proof.
  revert n. induction s as [|c s IH]; intros n; cbn; [discriminate|]. destruct (Ascii.eqb_spec c "=") as [->|N].
  - intros [= <- <-]. split; reflexivity.
  - destruct (split_eq s) as [a [b|]] eqn:E; [|discriminate]. intros [= <- <-]. destruct (IH a eq_refl) as [-> H]. split; [reflexivity|].
    cbn. rewrite H. destruct (Ascii.eqb_spec c "="); [now elim N|reflexivity].
Qed.
Lemma split_app n v : split_eq n = (n, None) -> split_eq (n ++ String "=" v) = (n, Some v).
Proof.
  induction n as [|c n IH]; cbn; [reflexivity|]. destruct (Ascii.eqb c "="); [discriminate|]. destruct (split_eq n) as [a [b|]]; [discriminate|].
  intros [= ->]. now rewrite IH.
Qed.

Definition plainname (n : string) : Prop := n <> "" /\ split_eq n = (n, None).
Lemma long_plain n : plainname n -> to_long ("--" ++ n) = Some (n, None).
Proof. intros [N E]. destruct n as [|c n]; [now elim N|]. cbn -[split_eq]. now rewrite E. Qed.
Lemma long_eq n v : split_eq n = (n, None) -> to_long ("--" ++ n ++ "=" ++ v) = Some (n, Some v).
Proof. intros E. destruct n as [|c n]; [reflexivity|]. cbn -[split_eq]. change (String c (n ++ String "=" v)) with (String c n ++ String "=" v). now rewrite split_app. Qed.
Lemma long_none s n : to_long s = Some (n, None) -> s = "--" ++ n /\ plainname n.
Proof.
  destruct s as [|a [|b [|c s]]]; try discriminate. cbn -[split_eq]. destruct (Ascii.eqb_spec a dash) as [->|]; [|discriminate].
  destruct (Ascii.eqb_spec b dash) as [->|]; [|discriminate]. cbn [andb]. intros E0. assert (E : split_eq (String c s) = (n, None)) by congruence. pose proof (split_none _ _ E) as <-. split; [reflexivity|].
  split; [discriminate|exact E].
Qed.
Lemma long_some s n v : to_long s = Some (n, Some v) -> s = "--" ++ n ++ "=" ++ v /\ split_eq n = (n, None).
Proof.
  destruct s as [|a [|b [|c s]]]; try discriminate. cbn -[split_eq]. destruct (Ascii.eqb_spec a dash) as [->|]; [|discriminate].
  destruct (Ascii.eqb_spec b dash) as [->|]; [|discriminate]. cbn [andb]. intros E0. assert (E : split_eq (String c s) = (n, Some v)) by congruence. destruct (split_some _ _ _ E) as [H H']. split; [|exact H'].
  change (String dash (String dash (String c s)) = "--" ++ n ++ "=" ++ v). now rewrite H.
Qed.
Lemma short_inv s c t : to_short s = Some (c, t) -> s = String "-" (String c t) /\ c <> dash.
Proof.
  destruct s as [|a [|b s]]; try discriminate. cbn. destruct (Ascii.eqb_spec a dash) as [->|]; [|discriminate].
  destruct (Ascii.eqb_spec b dash) as [->|N]; [discriminate|]. cbn. intros [= <- <-]. auto.
Qed.
Lemma short_make c t : c <> dash -> to_short (String "-" (String c t)) = Some (c, t) /\ to_long (String "-" (String c t)) = None /\ String "-" (String c t) <> "--".
Proof.
  intros N. cbn. destruct (Ascii.eqb_spec c dash) as [->|_]; [now elim N|]. split; [reflexivity|].
  split; [destruct t; [reflexivity|]; cbn; reflexivity|]. intros [= -> _]. now elim N.
Qed.
Lemma undashed s : s <> "--" -> to_long s = None -> to_short s = None -> ~ dashed s.
Proof.
  intros N L S (c & t & ->). destruct (Ascii.eqb_spec c dash) as [->|H].
  - destruct t as [|d t]; [now elim N|]. cbn in L. discriminate L.
  - destruct (short_make c t H) as (E & _). congruence.
Qed.
Lemma undashed_lex s : ~ dashed s -> String.eqb s escape_arg = false /\ to_long s = None /\ to_short s = None.
Proof.
  intros N. split; [|split].
  - destruct (String.eqb_spec s escape_arg) as [->|]; [|reflexivity]. elim N. do 2 eexists. reflexivity.
  - destruct (to_long s) as [[n [v|]]|] eqn:E; [| |reflexivity]; elim N.
    + apply long_some in E. destruct E as [-> _]. do 2 eexists. reflexivity.
    + apply long_none in E. destruct E as [-> _]. do 2 eexists. reflexivity.
  - destruct (to_short s) as [[c t]|] eqn:E; [|reflexivity]. elim N. apply short_inv in E. destruct E as [-> _]. do 2 eexists. reflexivity.
Qed.
Lemma dashed_dec s : {dashed s} + {~ dashed s}.
Proof.
  destruct s as [|a [|b s]]; try (right; intros (c & t & H); discriminate H).
  destruct (ascii_dec a "-") as [->|N]; [left; do 2 eexists; reflexivity|right; intros (c & t & [= H _]); contradiction].
Qed.

(** ** The scanner *)
Section Scan.
  Variables (decls : list arg) (max_pos : nat).
  Hypothesis help_flag : forall d, In d decls -> a_id d = "help" -> a_arity d = Flag.
  Notation find_long := (find_long decls).
  Notation find_short := (find_short decls).
  Notation scan := (scan decls max_pos).

  Inductive use := UOpt (d : arg) (vs : list string) | UPos (v : string).
  Inductive cpart : list string -> arg -> list string -> Prop :=
  | c_flag n d : plainname n -> find_long n = Some d -> a_arity d = Flag -> cpart ["--" ++ n] d []
  | c_flag_short c d : c <> dash -> find_short c = Some d -> a_arity d = Flag -> cpart [String "-" (String c "")] d []
  | c_next n d v : plainname n -> find_long n = Some d -> a_arity d = One -> ~ dashed v -> cpart ["--" ++ n; v] d [v]
  | c_eq n d v : split_eq n = (n, None) -> find_long n = Some d -> a_arity d <> Flag -> cpart ["--" ++ n ++ "=" ++ v] d [v]
  | c_next_short c d v : c <> dash -> find_short c = Some d -> a_arity d = One -> ~ dashed v -> cpart [String "-" (String c ""); v] d [v]
  | c_attached c d t v : c <> dash -> find_short c = Some d -> a_arity d <> Flag -> attached_short t = Some v -> cpart [String "-" (String c t)] d [v].
  Inductive opart : list string -> arg -> list string -> Prop :=
  | o_long n d vs : plainname n -> find_long n = Some d -> a_arity d = Many -> Forall (fun v => ~ dashed v) vs -> opart (("--" ++ n) :: vs) d vs
  | o_short c d vs : c <> dash -> find_short c = Some d -> a_arity d = Many -> Forall (fun v => ~ dashed v) vs -> opart (String "-" (String c "") :: vs) d vs.
  Inductive uline : bool -> list string -> list use -> Prop :=
  | ul_nil o : uline o [] []
  | ul_closed o a d vs rest us : cpart a d vs -> uline false rest us -> uline o (a ++ rest)%list (UOpt d vs :: us)
  | ul_open o a d vs rest us : opart a d vs -> uline true rest us -> uline o (a ++ rest)%list (UOpt d vs :: us)
  | ul_pos v rest us : ~ dashed v -> uline false rest us -> uline false (v :: rest) (UPos v :: us)
  | ul_end o vs : uline o ("--" :: vs) (map UPos vs).

  Fixpoint run (us : list use) (seen : seen_args) (pos : list string) : parsed (seen_args * list string) :=
    match us with
    | [] => Parsed (seen, pos)
    | UOpt d vs :: us' => pbind (react d vs seen) (fun seen => run us' seen pos)
    | UPos v :: us' => pbind (push_pos max_pos v pos) (fun pos => run us' seen pos)
    end.

  Lemma find_long_in n d : find_long n = Some d -> In d decls /\ In n (a_longs d).
  Proof. unfold ArgsM.find_long. intros H. apply find_some in H. destruct H as [H E]. split; [exact H|]. apply existsb_exists in E. destruct E as (x & I & E). apply String.eqb_eq in E. now subst. Qed.
  Lemma find_short_in c d : find_short c = Some d -> In d decls /\ a_short d = Some c.
  Proof. unfold ArgsM.find_short. intros H. apply find_some in H. destruct H as [H E]. split; [exact H|]. destruct (a_short d) as [c'|]; [|discriminate]. apply Ascii.eqb_eq in E. now subst. Qed.
  Lemma cpart_in a d vs : cpart a d vs -> In d decls.
  Proof. destruct 1 as [n d P F|c d N F|n d v P F|n d v E F|c d v N F|c d t v N F]; first [now apply find_long_in in F|now apply find_short_in in F]. Qed.
  Lemma opart_in a d vs : opart a d vs -> In d decls.
  Proof. destruct 1 as [n d vs P F|c d vs N F]; first [now apply find_long_in in F|now apply find_short_in in F]. Qed.

  Definition stops (argv : list string) : Prop := match argv with [] => True | a :: _ => dashed a end.
  Lemma cpart_stops a d vs : cpart a d vs -> stops a.
  Proof.
    destruct 1; cbn; try (do 2 eexists; reflexivity).
  Qed.
  Lemma opart_stops a d vs : opart a d vs -> stops a.
  Proof. destruct 1; cbn; do 2 eexists; reflexivity. Qed.
  Lemma part_nonempty a d vs : cpart a d vs \/ opart a d vs -> a <> [].
  Proof. intros [H|H]; destruct H; discriminate. Qed.
  Lemma uline_stops o argv us : uline o argv us -> o = true -> stops argv.
  Proof.
    destruct 1 as [o|o a d vs rest us C _|o a d vs rest us C _|v rest us N _|o vs]; intros E.
    - exact I.
    - pose proof (cpart_stops _ _ _ C). pose proof (part_nonempty a d vs (or_introl C)). destruct a; [congruence|assumption].
    - pose proof (opart_stops _ _ _ C). pose proof (part_nonempty a d vs (or_intror C)). destruct a; [congruence|assumption].
    - discriminate.
    - do 2 eexists. reflexivity.
  Qed.
  Lemma uline_open argv us : uline false argv us -> stops argv -> uline true argv us.
  Proof.
    intros H S. remember false as o. destruct H; try (econstructor; eassumption). cbn in S. contradiction.
  Qed.

  Lemma react_info d vs seen : a_arity d <> Flag -> In d decls -> react d vs seen <> Info.
  Proof.
    intros A I. unfold react. destruct (negb _); [discriminate|]. destruct (negb _); [discriminate|]. destruct (String.eqb_spec (a_id d) "help") as [E|_].
    - elim A. now apply help_flag.
    - destruct (match a_arity d with Many => _ | _ => _ end); discriminate.
  Qed.
  Lemma pend_resolve d vs argv seen pos : a_arity d <> Flag -> In d decls -> stops argv ->
    scan argv seen (Some (d, vs)) pos = pbind (react d vs seen) (fun seen => scan argv seen None pos).
  Proof.
    intros A I S. pose proof (react_info d vs seen A I) as R. assert (U : forall B, (Usage : parsed B) = pbind (react d vs seen) (fun _ => Usage)) by (intros B; destruct (react d vs seen); [reflexivity|congruence|reflexivity]).
    destruct argv as [|a argv]; cbn [ArgsM.scan resolve]; [reflexivity|]. cbn in S.
    destruct (String.eqb a escape_arg) eqn:E; [reflexivity|].
    destruct (to_long a) as [[n v]|] eqn:L.
    - destruct (find_long n) as [d'|]; [reflexivity|apply U].
    - destruct (to_short a) as [[c t]|] eqn:H.
      + destruct (find_short c) as [d'|]; [|apply U]. destruct (a_arity d'); reflexivity.
      + exfalso. apply (undashed a) in S; auto. apply String.eqb_neq in E. exact E.
  Qed.
  Lemma scan_many d more : Forall (fun v => ~ dashed v) more -> a_arity d = Many -> forall vs rest seen pos,
    scan (more ++ rest)%list seen (Some (d, vs)) pos = scan rest seen (Some (d, vs ++ more)%list) pos.
  Proof.
    intros F A. induction F as [|v more N _ IH]; intros vs rest seen pos; [now rewrite app_nil_r|].
    cbn [app ArgsM.scan]. destruct (undashed_lex v N) as (-> & -> & ->). rewrite A, IH. now rewrite <- app_assoc.
  Qed.
  Lemma push_run vs : forall seen pos, pbind (push_all max_pos vs pos) (fun pos => Parsed (seen, pos)) = run (map UPos vs) seen pos.
  Proof. induction vs as [|v vs IH]; intros seen pos; cbn; [reflexivity|]. destruct (push_pos max_pos v pos); cbn; auto. Qed.

  Lemma scan_long n d rest seen pos : plainname n -> find_long n = Some d ->
    scan (("--" ++ n) :: rest) seen None pos = match a_arity d with
      | Flag => pbind (react d [] seen) (fun seen => scan rest seen None pos)
      | _ => scan rest seen (Some (d, [])) pos end.
  Proof.
    intros P F. cbn [ArgsM.scan resolve pbind]. rewrite (long_plain n P), F.
    replace (String.eqb ("--" ++ n) escape_arg) with false; [destruct (a_arity d); reflexivity|].
    symmetry. apply String.eqb_neq. destruct P as [P _]. intros E. apply P. destruct n; [reflexivity|discriminate E].
  Qed.
  Lemma scan_long_eq n d v rest seen pos : split_eq n = (n, None) -> find_long n = Some d ->
    scan (("--" ++ n ++ "=" ++ v) :: rest) seen None pos = match a_arity d with
      | Flag => Usage
      | _ => pbind (react d [v] seen) (fun seen => scan rest seen None pos) end.
  Proof.
    intros P F. cbn [ArgsM.scan resolve pbind]. rewrite (long_eq n v P), F.
    replace (String.eqb ("--" ++ n ++ "=" ++ v) escape_arg) with false; [destruct (a_arity d); reflexivity|].
    symmetry. apply String.eqb_neq. intros E. destruct n; discriminate E.
  Qed.
  Lemma scan_short c t d rest seen pos : c <> dash -> find_short c = Some d ->
    scan (String "-" (String c t) :: rest) seen None pos = match a_arity d with
      | Flag => pbind (react d [] seen) (fun seen => if String.eqb t "" then scan rest seen None pos else Usage)
      | _ => match attached_short t with
             | Some v => pbind (react d [v] seen) (fun seen => scan rest seen None pos)
             | None => scan rest seen (Some (d, [])) pos
             end
      end.
  Proof.
    intros N F. destruct (short_make c t N) as (S & L & E). cbn [ArgsM.scan resolve pbind]. rewrite S, L, F.
    replace (String.eqb (String "-" (String c t)) escape_arg) with false by (symmetry; now apply String.eqb_neq).
    destruct (a_arity d); [reflexivity| |]; destruct (attached_short t); reflexivity.
  Qed.
  Lemma scan_value d v rest seen pos : ~ dashed v -> a_arity d = One ->
    scan (v :: rest) seen (Some (d, [])) pos = pbind (react d [v] seen) (fun seen => scan rest seen None pos).
  Proof. intros N A. cbn [ArgsM.scan]. destruct (undashed_lex v N) as (-> & -> & ->). now rewrite A. Qed.

  Lemma scan_complete o argv us : uline o argv us -> forall seen pos, scan argv seen None pos = run us seen pos.
  Proof.
    induction 1 as [o|o a d vs rest us C _ IH|o a d vs rest us C U IH|v rest us N _ IH|o vs]; intros seen pos; cbn [run].
    - reflexivity.
    - assert (K : forall X, pbind (react d vs seen) (fun seen => scan rest seen None pos) = X -> X = pbind (react d vs seen) (fun seen => run us seen pos)).
      { intros X <-. destruct (react d vs seen); cbn; auto. }
      apply K. clear K. destruct C as [n d P F A|c d N F A|n d v P F A N|n d v P F A|c d v N F A Nv|c d t v N F A T]; cbn [app].
      + now rewrite (scan_long n d), A.
      + rewrite (scan_short c "" d) by assumption. now rewrite A.
      + rewrite (scan_long n d), A by assumption. now rewrite scan_value.
      + rewrite (scan_long_eq n d) by assumption. destruct (a_arity d); [now elim A|reflexivity|reflexivity].
      + rewrite (scan_short c "" d), A by assumption. cbn [attached_short]. now rewrite scan_value.
      + rewrite (scan_short c t d) by assumption. rewrite T. destruct (a_arity d); [now elim A|reflexivity|reflexivity].
    - assert (S : stops rest) by (eapply uline_stops; [exact U|reflexivity]).
      pose proof (opart_in _ _ _ C) as I.
      assert (K : forall A : a_arity d = Many, Forall (fun v => ~ dashed v) vs -> scan (vs ++ rest)%list seen (Some (d, [])) pos = pbind (react d vs seen) (fun seen => run us seen pos)).
      { intros A Fv. rewrite scan_many by assumption. cbn [app]. rewrite pend_resolve; [|rewrite A; discriminate|exact I|exact S].
        destruct (react d vs seen); cbn; auto. }
      destruct C as [n d vs P F A Fv|c d vs N F A Fv]; cbn [app].
      + rewrite (scan_long n d), A by assumption. now apply K.
      + rewrite (scan_short c "" d), A by assumption. cbn [attached_short]. now apply K.
    - cbn [ArgsM.scan]. destruct (undashed_lex v N) as (-> & -> & ->). destruct (push_pos max_pos v pos); cbn; auto.
    - cbn [ArgsM.scan]. change (String.eqb "--" escape_arg) with true. cbn [resolve pbind]. apply push_run.
  Qed.

  Lemma span argv : exists vs rest, argv = (vs ++ rest)%list /\ Forall (fun v => ~ dashed v) vs /\ stops rest.
  Proof.
    induction argv as [|a argv (vs & rest & -> & F & S)]; [exists [], []; repeat constructor|].
    destruct (dashed_dec a) as [D|D]; [exists [], (a :: vs ++ rest)%list; repeat split; [constructor|exact D]|].
    exists (a :: vs), rest. repeat split; auto.
  Qed.
  Lemma scan_sound k : forall argv seen pos r, List.length argv < k -> scan argv seen None pos = Parsed r -> exists us, uline false argv us.
  Proof.
    induction k as [|k IH]; intros argv seen pos r Lk; [lia|]. destruct argv as [|a rest]; [intros _; exists []; constructor|]. cbn in Lk.
    assert (Step : forall d vs s rest', List.length rest' < k -> pbind (react d vs s) (fun seen => scan rest' seen None pos) = Parsed r -> exists us, uline false rest' us).
    { intros d vs s rest' L E. destruct (react d vs s) as [s'| |]; try discriminate E. eapply IH; [exact L|exact E]. }
    assert (Next : forall d w, In d decls -> a_arity d = One -> (forall v, ~ dashed v -> cpart [w; v] d [v]) -> scan rest seen (Some (d, [])) pos = Parsed r -> exists us, uline false (w :: rest) us).
    { intros d w I A C E. destruct rest as [|b rest]; [cbn in E; unfold react in E; rewrite A in E; discriminate E|].
      destruct (dashed_dec b) as [D|D].
      - rewrite pend_resolve in E; [|rewrite A; discriminate|exact I|exact D]. unfold react in E. rewrite A in E. discriminate E.
      - rewrite scan_value in E by assumption. destruct (Step _ _ _ rest ltac:(cbn in Lk; lia) E) as (us & U). eexists. exact (ul_closed false [w; b] d [b] rest us (C b D) U). }
    assert (More : forall d w, In d decls -> a_arity d = Many -> (forall vs, Forall (fun v => ~ dashed v) vs -> opart (w :: vs) d vs) -> scan rest seen (Some (d, [])) pos = Parsed r -> exists us, uline false (w :: rest) us).
    { intros d w I A C E. destruct (span rest) as (vs & rest' & -> & F & S). rewrite scan_many in E by assumption. cbn [app] in E.
      rewrite pend_resolve in E; [|rewrite A; discriminate|exact I|exact S]. destruct (Step _ _ _ rest' ltac:(rewrite app_length in Lk; lia) E) as (us & U).
      eexists. exact (ul_open false (w :: vs) d vs rest' us (C vs F) (uline_open _ _ U S)). }
    intros E. destruct (string_dec a "--") as [->|Na]; [eexists; apply ul_end|].
    destruct (to_long a) as [[n [v|]]|] eqn:L.
    - apply long_some in L. destruct L as [-> P]. destruct (find_long n) as [d|] eqn:F.
      + rewrite (scan_long_eq n d) in E by assumption. assert (A : a_arity d <> Flag) by (intros A; rewrite A in E; discriminate E).
        destruct (Step d [v] seen rest) as (us & U); [lia|destruct (a_arity d); [now elim A|exact E|exact E]|]. eexists.
        exact (ul_closed false ["--" ++ n ++ "=" ++ v] d [v] rest us (c_eq n d v P F A) U).
      + cbn [ArgsM.scan] in E. rewrite (long_eq n v P), F in E. destruct (String.eqb_spec ("--" ++ n ++ "=" ++ v) escape_arg); [contradiction|discriminate E].
    - apply long_none in L. destruct L as [-> P]. destruct (find_long n) as [d|] eqn:F.
      + rewrite (scan_long n d) in E by assumption. pose proof (find_long_in _ _ F) as [I _]. destruct (a_arity d) eqn:A.
        * destruct (Step d [] seen rest) as (us & U); [lia|exact E|]. eexists. exact (ul_closed false ["--" ++ n] d [] rest us (c_flag n d P F A) U).
        * apply (Next d); auto. intros v Nv. now apply c_next.
        * apply (More d); auto. intros vs Fv. now apply o_long.
      + cbn [ArgsM.scan] in E. rewrite (long_plain n P), F in E. destruct (String.eqb_spec ("--" ++ n) escape_arg); [contradiction|discriminate E].
    - destruct (to_short a) as [[c t]|] eqn:S.
      + apply short_inv in S. destruct S as [-> N]. destruct (find_short c) as [d|] eqn:F.
        * rewrite (scan_short c t d) in E by assumption. pose proof (find_short_in _ _ F) as [I _]. destruct (a_arity d) eqn:A.
          -- destruct (react d [] seen) as [s| |] eqn:R; try discriminate E. cbn [pbind] in E. destruct (String.eqb_spec t "") as [->|]; [|discriminate E].
             destruct (IH rest s pos r) as (us & U); [lia|exact E|]. eexists. exact (ul_closed false [String "-" (String c "")] d [] rest us (c_flag_short c d N F A) U).
          -- destruct (attached_short t) as [v|] eqn:T.
             ++ destruct (Step d [v] seen rest) as (us & U); [lia|exact E|]. eexists. refine (ul_closed false [String "-" (String c t)] d [v] rest us (c_attached c d t v N F _ T) U). rewrite A. discriminate.
             ++ destruct t as [|b t]; [|cbn in T; destruct (Ascii.eqb b "="); discriminate T]. apply (Next d); auto. intros v Nv. now apply c_next_short.
          -- destruct (attached_short t) as [v|] eqn:T.
             ++ destruct (Step d [v] seen rest) as (us & U); [lia|exact E|]. eexists. refine (ul_closed false [String "-" (String c t)] d [v] rest us (c_attached c d t v N F _ T) U). rewrite A. discriminate.
             ++ destruct t as [|b t]; [|cbn in T; destruct (Ascii.eqb b "="); discriminate T]. apply (More d); auto. intros vs Fv. now apply o_short.
        * destruct (short_make c t N) as (S' & L' & E'). cbn [ArgsM.scan] in E. rewrite S', L', F in E.
          destruct (String.eqb_spec (String "-" (String c t)) escape_arg); [contradiction|discriminate E].
      + pose proof (undashed a Na L S) as D. cbn [ArgsM.scan] in E. destruct (undashed_lex a D) as (E1 & E2 & E3). rewrite E1, E2, E3 in E.
        destruct (push_pos max_pos a pos) as [p| |]; try discriminate E. cbn [pbind] in E. destruct (IH rest seen p r) as (us & U); [lia|exact E|].
        eexists. exact (ul_pos a rest us D U).
  Qed.
End Scan.
