(** Proofs about the reading of arguments: the parts of a line. *)
From Coq Require Import List String Ascii Arith NArith Bool Lia.
From Verif Require Import Base ScopeM TermM F64 CompareM RowsM FmtM SynM ParseM StorageM FilesM GitM CliM ArgsM SpecArgs ArgsP ArgsP2.
Import ListNotations.
Local Open Scope string_scope.

(** ** Words *)
Lemma lower_capital n : (65 <= n <= 90)%N -> lower (ascii_of_N n) = ascii_of_N (n + 32).
Proof.
  intros H. unfold lower. rewrite N_ascii_embedding by lia. rewrite (proj2 (N.leb_le 65 n)), (proj2 (N.leb_le n 90)) by lia. reflexivity.
Qed.
Lemma lower_spells s : spells s (lower_string s).
Proof.
  induction s as [|c s IH]; cbn; [constructor|]. destruct (lower c) eqn:E. rewrite <- E. clear E. unfold lower.
  destruct (N.leb_spec 65 (N_of_ascii c)) as [A|]; [|now apply spells_same]. destruct (N.leb_spec (N_of_ascii c) 90) as [B|]; [|now apply spells_same].
  cbn [andb]. rewrite <- (ascii_N_embedding c) at 1. now apply spells_capital.
Qed.
Fixpoint small (w : string) : bool := match w with "" => true | String c w' => Ascii.eqb (lower c) c && small w' end.
Lemma spells_lower s w : spells s w -> small w = true -> lower_string s = w.
Proof.
  induction 1 as [|c s w _ IH|n s w H _ IH]; cbn; [reflexivity| |]; intros S; apply andb_true_iff in S; destruct S as [S1 S2]; rewrite (IH S2); f_equal.
  - now apply Ascii.eqb_eq in S1.
  - now apply lower_capital.
Qed.
Ltac look := unfold method_value, unit_value, change_value, format_value, lookup_name.
Lemma method_spells v m : method_value v = Some m <-> spells v (method_word m).
Proof.
  split.
  - look. repeat match goal with |- context [String.eqb (lower_string ?s) ?w] => destruct (String.eqb_spec (lower_string s) w) as [E|?] end;
    first [discriminate | intros [= <-]; cbn [method_word]; rewrite <- E; apply lower_spells].
  - intros H. apply spells_lower in H; [|destruct m; reflexivity]. look. rewrite H. destruct m; reflexivity.
Qed.
Lemma unit_spells v m : unit_value v = Some m <-> spells v (unit_word m).
Proof.
  split.
  - look. repeat match goal with |- context [String.eqb (lower_string ?s) ?w] => destruct (String.eqb_spec (lower_string s) w) as [E|?] end;
    first [discriminate | intros [= <-]; cbn [unit_word]; rewrite <- E; apply lower_spells].
  - intros H. apply spells_lower in H; [|destruct m; reflexivity]. look. rewrite H. destruct m; reflexivity.
Qed.
Lemma change_spells v m : change_value v = Some m <-> spells v (change_word m).
Proof.
  split.
  - look. repeat match goal with |- context [String.eqb (lower_string ?s) ?w] => destruct (String.eqb_spec (lower_string s) w) as [E|?] end;
    first [discriminate | intros [= <-]; cbn [change_word]; rewrite <- E; apply lower_spells].
  - intros H. apply spells_lower in H; [|destruct m; reflexivity]. look. rewrite H. destruct m; reflexivity.
Qed.
Lemma format_spells v m : format_value v = Some m <-> spells v (format_word m).
Proof.
  split.
  - look. repeat match goal with |- context [String.eqb (lower_string ?s) ?w] => destruct (String.eqb_spec (lower_string s) w) as [E|?] end;
    first [discriminate | intros [= <-]; cbn [format_word]; rewrite <- E; apply lower_spells].
  - intros H. apply spells_lower in H; [|destruct m; reflexivity]. look. rewrite H. destruct m; reflexivity.
Qed.

Local Arguments method_value : simpl never.
Local Arguments unit_value : simpl never.
Local Arguments change_value : simpl never.
Local Arguments format_value : simpl never.

Section Say.
  Variable parse_f64 : string -> option f64.
  Notation decls_of := (decls_of parse_f64).
  Notation closed_part := (closed_part parse_f64).
  Notation line := (line parse_f64).

  Definition one {A} (read : string -> option A) (mk : A -> saying) (vs : list string) : option saying :=
    match vs with [v] => option_map mk (read v) | _ => None end.
  Definition flg (s : saying) (vs : list string) : option saying := match vs with [] => Some s | _ => None end.
  Fixpoint reads {A} (read : string -> option A) (vs : list string) : option (list A) :=
    match vs with
    | [] => Some []
    | v :: vs' => match read v, reads read vs' with Some a, Some l => Some (a :: l) | _, _ => None end
    end.
  Definition many {A} (read : string -> option A) (mk : list A -> saying) (vs : list string) : option saying := option_map mk (reads read vs).
  Definition path (s : string) : option string := if String.eqb s "" then None else Some s.
  Definition table : list (string * (list string -> option saying)) :=
    [ ("method", one method_value SMethod); ("unit", one unit_value SUnit);
      ("ignore-errors", flg SIgnoreErrors); ("git-pull", flg SPull); ("git-force", flg SForce); ("offline", flg SOffline);
      ("threshold", one parse_f64 SThreshold); ("change", many change_value SChange);
      ("extrinsic", one Some SExtrinsic); ("pallet", one Some SPallet); ("format", one format_value SFormat);
      ("print-terms", flg STerms); ("no-color", flg SNoColor); ("strip-path-prefix", one Some SStrip); ("verbose", flg SVerbose);
      ("old", many path SOld); ("new", many path SNew); ("repo", one path SRepo); ("path-pattern", one Some SPattern) ].
  Definition say (id : string) (vs : list string) : option saying :=
    match find (fun p => String.eqb (fst p) id) table with Some p => snd p vs | None => None end.
  Definition says (u : use) (s : saying) : Prop :=
    match u with UOpt d vs => say (a_id d) vs = Some s | UPos v => s = SCommit v end.

  Lemma reads_all {A} (read : string -> option A) vs : forallb (fun s => is_some (read s)) vs = true -> exists l, reads read vs = Some l.
  Proof.
    induction vs as [|v vs IH]; cbn; [eauto|]. intros H. apply andb_true_iff in H. destruct H as [H1 H2]. destruct (read v); [|discriminate]. destruct (IH H2) as (l & ->). eauto.
  Qed.
  Lemma reads_paths vs : forallb path_text vs = true -> reads path vs = Some vs /\ Forall (fun v => v <> "") vs.
  Proof.
    induction vs as [|v vs IH]; cbn; [split; constructor|]. intros H. apply andb_true_iff in H. destruct H as [H1 H2]. destruct (IH H2) as [-> F].
    unfold path_text in H1. unfold path. destruct (String.eqb_spec v ""); [discriminate|]. auto.
  Qed.
  Lemma reads_forall {A} (read : string -> option A) vs l : reads read vs = Some l <-> Forall2 (fun v a => read v = Some a) vs l.
  Proof.
    revert l. induction vs as [|v vs IH]; intros l; cbn.
    - split; [intros [= <-]; constructor|now inversion 1].
    - destruct (read v) as [a|] eqn:E; [|split; [discriminate|inversion 1; congruence]].
      destruct (reads read vs) as [m|].
      + split; [intros [= <-]; constructor; [exact E|now apply IH]|]. inversion 1 as [|? b ? l' Hb Hl]; subst. apply IH in Hl. congruence.
      + split; [discriminate|]. inversion 1 as [|? b ? l' Hb Hl]; subst. apply IH in Hl. discriminate.
  Qed.
  Lemma reads_values {A} (read : string -> option A) vs l : reads read vs = Some l -> forallb (fun s => is_some (read s)) vs = true /\ all_values read vs = l.
  Proof.
    revert l. induction vs as [|v vs IH]; intros l; cbn; [intros [= <-]; auto|]. destruct (read v); [|discriminate]. destruct (reads read vs) as [m|]; [|discriminate].
    intros [= <-]. destruct (IH m eq_refl) as [-> <-]. auto.
  Qed.

  Ltac decls_tac I := cbn in I; repeat (destruct I as [<-|I]); [..|destruct I].
  Ltac ins I := repeat (destruct I as [<-|I]; [|try now destruct I]).

  Lemma closed_of k a d vs : cpart (decls_of k) a d vs -> okuse (UOpt d vs) -> exists s, say (a_id d) vs = Some s /\ closed_part k a s.
  Proof.
    intros C (_ & V & Nh).
    assert (K : In d (decls_of k)) by (eapply cpart_in; exact C).
    assert (Val : forall v, vs = [v] -> forallb (a_value d) vs = true -> a_value d v = true) by (intros v -> H; cbn in H; now rewrite andb_true_r in H).
    destruct C as [n d P F A|c d N F A|n d v P F A N|n d v P F A|c d v N F A Nv|c d t v N F A T];
      first [apply find_long_in in F | apply find_short_in in F]; destruct F as [_ F].
    - destruct k; decls_tac K; cbn in A, F; try discriminate A; destruct F as [<-|[]]; try (elim Nh; reflexivity); eexists; (split; [reflexivity|constructor]).
    - destruct k; decls_tac K; cbn in A, F; try discriminate A; try discriminate F; elim Nh; reflexivity.
    - specialize (Val v eq_refl V). clear V.
      destruct k; decls_tac K; cbn in A, F, Val; try discriminate A; repeat (destruct F as [<-|F]); try contradiction;
        try match type of Val with is_some ?x = true => destruct x eqn:R; [|discriminate Val] end; unfold path_text in Val;
        try (destruct (String.eqb v "") eqn:R; [discriminate Val|]);
        (eexists; split; [cbn; unfold many, reads, path; cbn; rewrite ?R; reflexivity|]); try (apply String.eqb_neq in R);
        econstructor; try reflexivity; try exact R; first [exact (lv_next _ _ N) | left; exact (lv_next _ _ N) | right; exact (lv_next _ _ N) | first [now apply method_spells | now apply unit_spells | now apply format_spells]].
    - specialize (Val v eq_refl V). clear V.
      destruct k; decls_tac K; cbn in A, F, Val; try (now elim A); repeat (destruct F as [<-|F]); try contradiction;
        try match type of Val with is_some ?x = true => destruct x eqn:R; [|discriminate Val] end; unfold path_text in Val;
        try (destruct (String.eqb v "") eqn:R; [discriminate Val|]);
        (eexists; split; [cbn; unfold many, reads, path; cbn; rewrite ?R; reflexivity|]); try (apply String.eqb_neq in R);
        try (apply cp_change; now apply change_spells); try (now apply cp_old); try (now apply cp_new);
        econstructor; try reflexivity; try exact R; first [exact (lv_eq _ _) | left; exact (lv_eq _ _) | right; exact (lv_eq _ _) | first [now apply method_spells | now apply unit_spells | now apply format_spells]].
    - specialize (Val v eq_refl V). clear V.
      destruct k; decls_tac K; cbn in A, F, Val; try discriminate A; try discriminate F; injection F as <-;
        match type of Val with is_some ?x = true => destruct x eqn:R; [|discriminate Val] end;
        (eexists; split; [cbn; rewrite ?R; reflexivity|]);
        econstructor; first [right; exact (sv_next _ _ Nv) | first [now apply method_spells | now apply unit_spells]].
    - specialize (Val v eq_refl V). clear V.
      assert (Sv : forall c, short_value c v [String "-" (String c t)]).
      { intros c'. destruct t as [|b t]; [discriminate T|]. cbn in T. destruct (Ascii.eqb_spec b "=") as [->|Nb]; injection T as <-; [apply sv_eq|now eapply sv_attached]. }
      destruct k; decls_tac K; cbn in A, F, Val; try (now elim A); try discriminate F; injection F as <-;
        match type of Val with is_some ?x = true => destruct x eqn:R; [|discriminate Val] end;
        (eexists; split; [cbn; rewrite ?R; reflexivity|]);
        econstructor; first [right; exact (Sv _) | first [now apply method_spells | now apply unit_spells]].
  Qed.
  Lemma open_of k a d vs : opart (decls_of k) a d vs -> okuse (UOpt d vs) -> exists s, say (a_id d) vs = Some s /\ open_part k a s.
  Proof.
    intros C (_ & V & _). assert (K : In d (decls_of k)) by (eapply opart_in; exact C).
    destruct C as [n d vs P F A Fv|c d vs N F A Fv]; first [apply find_long_in in F | apply find_short_in in F]; destruct F as [_ F].
    - destruct k; decls_tac K; cbn in A, F, V; try discriminate A; destruct F as [<-|[]].
      1,4: destruct (reads_all change_value vs V) as (l & E); exists (SChange l); split; [cbn; unfold many; now rewrite E|]; apply op_change; [exact Fv|];
        apply reads_forall in E; clear -E; induction E; constructor; auto; now apply change_spells.
      all: destruct (reads_paths vs V) as [E Fn].
      + exists (SOld vs). split; [cbn; unfold many; now rewrite E|]. apply op_old; [reflexivity|]. clear -Fv Fn. induction Fv; inversion Fn; subst; constructor; auto.
      + exists (SNew vs). split; [cbn; unfold many; now rewrite E|]. apply op_new; [reflexivity|]. clear -Fv Fn. induction Fv; inversion Fn; subst; constructor; auto.
    - destruct k; decls_tac K; cbn in A, F; try discriminate A; discriminate F.
  Qed.
End Say.
