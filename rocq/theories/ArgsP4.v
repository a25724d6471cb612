(** Proofs about the reading of arguments: lines and their uses of options. *)
From Coq Require Import List String Ascii Arith NArith Bool Lia.
From Verif Require Import Base ScopeM TermM F64 CompareM RowsM FmtM SynM ParseM StorageM FilesM GitM CliM ArgsM SpecArgs ArgsP ArgsP2 ArgsP3.
Import ListNotations.
Local Open Scope string_scope.
Local Arguments method_value : simpl never.
Local Arguments unit_value : simpl never.
Local Arguments change_value : simpl never.
Local Arguments format_value : simpl never.

Section Lines.
  Variable parse_f64 : string -> option f64.
  Notation decls_of := (decls_of parse_f64).
  Notation closed_part := (closed_part parse_f64).
  Notation line := (line parse_f64).
  Notation say := (say parse_f64).
  Notation says := (says parse_f64).

  Definition spoken (k : compare_kind) (d : arg) (vs : list string) (s : saying) : Prop := say (a_id d) vs = Some s /\ okuse (UOpt d vs).

  Lemma long_found k n d v args : plainname n -> find_long (decls_of k) n = Some d -> a_arity d = One -> long_value n v args -> cpart (decls_of k) args d [v].
  Proof. intros P F A L. destruct L as [N|]; [now apply c_next|]. apply c_eq; [apply P|exact F|rewrite A; discriminate]. Qed.
  Lemma short_found k c d v args : c <> dash -> find_short (decls_of k) c = Some d -> a_arity d = One -> short_value c v args -> cpart (decls_of k) args d [v].
  Proof.
    intros P F A L. destruct L as [N| |b v' -> N]; [now apply c_next_short| |].
    - apply c_attached; [exact P|exact F|rewrite A; discriminate|reflexivity].
    - apply c_attached; [exact P|exact F|rewrite A; discriminate|]. cbn. destruct (Ascii.eqb_spec b "="); [contradiction|reflexivity].
  Qed.
  Definition is_part (k : compare_kind) (part : list string -> arg -> list string -> Prop) (a : list string) (s : saying) : Prop :=
    exists d vs, part a d vs /\ spoken k d vs s.

  Ltac plain := split; [discriminate|reflexivity].
  Ltac okv := split; [eexists; reflexivity|split; [|discriminate]].
  Lemma of_closed k a s : closed_part k a s -> is_part k (cpart (decls_of k)) a s.
  Proof.
    intros C. destruct C as [v m args L H|v d args L H| | | | |v t args L H|v c H|v args L|v args L|v f args L H| | |v args L| |v K N|v K N|v args K L N|v args K L].
    - apply method_spells in H. eexists. exists [v]. split.
      + destruct L as [L|L]; [eapply (long_found k "method"); [plain|reflexivity|reflexivity|exact L]|eapply (short_found k "m"); [discriminate|reflexivity|reflexivity|exact L]].
      + split; [cbn; now rewrite H|]. okv. cbn. now rewrite H.
    - apply unit_spells in H. eexists. exists [v]. split.
      + destruct L as [L|L]; [eapply (long_found k "unit"); [plain|reflexivity|reflexivity|exact L]|eapply (short_found k "u"); [discriminate|reflexivity|reflexivity|exact L]].
      + split; [cbn; now rewrite H|]. okv. cbn. now rewrite H.
    - eexists. exists []. split; [apply (c_flag _ "ignore-errors"); [plain|reflexivity|reflexivity]|]. split; [reflexivity|]. now repeat split.
    - eexists. exists []. split; [apply (c_flag _ "git-pull"); [plain|reflexivity|reflexivity]|]. split; [reflexivity|]. now repeat split.
    - eexists. exists []. split; [apply (c_flag _ "git-force"); [plain|reflexivity|reflexivity]|]. split; [reflexivity|]. now repeat split.
    - eexists. exists []. split; [apply (c_flag _ "offline"); [plain|reflexivity|reflexivity]|]. split; [reflexivity|]. now repeat split.
    - eexists. exists [v]. split; [eapply (long_found k "threshold"); [plain|reflexivity|reflexivity|exact L]|]. split; [cbn; now rewrite H|]. okv. cbn. now rewrite H.
    - apply change_spells in H. eexists. exists [v]. split; [apply (c_eq _ "change"); [reflexivity|reflexivity|discriminate]|]. split; [cbn; unfold many; cbn; now rewrite H|]. repeat split; [|discriminate]. cbn. now rewrite H.
    - eexists. exists [v]. split; [eapply (long_found k "extrinsic"); [plain|reflexivity|reflexivity|exact L]|]. split; [reflexivity|]. now okv.
    - eexists. exists [v]. split; [destruct L as [L|L]; [eapply (long_found k "pallet")|eapply (long_found k "file")]; try exact L; try plain; reflexivity|]. split; [reflexivity|]. now okv.
    - apply format_spells in H. eexists. exists [v]. split; [eapply (long_found k "format"); [plain|reflexivity|reflexivity|exact L]|]. split; [cbn; now rewrite H|]. okv. cbn. now rewrite H.
    - eexists. exists []. split; [apply (c_flag _ "print-terms"); [plain|reflexivity|reflexivity]|]. split; [reflexivity|]. now repeat split.
    - eexists. exists []. split; [apply (c_flag _ "no-color"); [plain|reflexivity|reflexivity]|]. split; [reflexivity|]. now repeat split.
    - eexists. exists [v]. split; [eapply (long_found k "strip-path-prefix"); [plain|reflexivity|reflexivity|exact L]|]. split; [reflexivity|]. now okv.
    - eexists. exists []. split; [apply (c_flag _ "verbose"); [plain|reflexivity|reflexivity]|]. split; [reflexivity|]. now repeat split.
    - subst k. apply String.eqb_neq in N. eexists. exists [v]. split; [apply (c_eq _ "old"); [reflexivity|reflexivity|discriminate]|]. split; [cbn; unfold many, path; cbn; now rewrite N|]. repeat split; [|discriminate]. cbn. unfold path_text. now rewrite N.
    - subst k. apply String.eqb_neq in N. eexists. exists [v]. split; [apply (c_eq _ "new"); [reflexivity|reflexivity|discriminate]|]. split; [cbn; unfold many, path; cbn; now rewrite N|]. repeat split; [|discriminate]. cbn. unfold path_text. now rewrite N.
    - subst k. apply String.eqb_neq in N. eexists. exists [v]. split; [eapply (long_found Commits "repo"); [plain|reflexivity|reflexivity|exact L]|]. split; [cbn; unfold path; now rewrite N|]. okv. cbn. unfold path_text. now rewrite N.
    - subst k. eexists. exists [v]. split; [eapply (long_found Commits "path-pattern"); [plain|reflexivity|reflexivity|exact L]|]. split; [reflexivity|]. now okv.
  Qed.
  Lemma paths_all vs : Forall (fun v => ~ dashed v /\ v <> "") vs -> Forall (fun v => ~ dashed v) vs /\ forallb path_text vs = true /\ reads path vs = Some vs.
  Proof.
    induction 1 as [|v vs [D N] _ (IH1 & IH2 & IH3)]; [repeat constructor|]. apply String.eqb_neq in N. repeat split; [now constructor| |].
    - cbn. unfold path_text. now rewrite N.
    - cbn. unfold path at 1. now rewrite N, IH3.
  Qed.
  Lemma of_open k a s : open_part k a s -> is_part k (opart (decls_of k)) a s.
  Proof.
    destruct 1 as [vs cs Fv F|vs -> F|vs -> F].
    - assert (R : reads change_value vs = Some cs) by (apply reads_forall; clear -F; induction F; constructor; auto; now apply change_spells).
      eexists. exists vs. split; [apply (o_long _ "change"); [plain|reflexivity|reflexivity|exact Fv]|]. split; [cbn; unfold many; now rewrite R|].
      repeat split; [|discriminate]. now apply reads_values in R.
    - apply paths_all in F. destruct F as (F & P & R). eexists. exists vs. split; [apply (o_long _ "old"); [plain|reflexivity|reflexivity|exact F]|]. split; [cbn; unfold many; now rewrite R|].
      repeat split; [exact P|discriminate].
    - apply paths_all in F. destruct F as (F & P & R). eexists. exists vs. split; [apply (o_long _ "new"); [plain|reflexivity|reflexivity|exact F]|]. split; [cbn; unfold many; now rewrite R|].
      repeat split; [exact P|discriminate].
  Qed.

  Lemma poss_map vs : poss (map UPos vs) = vs.
  Proof. induction vs as [|v vs IH]; cbn; [reflexivity|]. f_equal. exact IH. Qed.
  Lemma line_of k o argv us : uline (decls_of k) o argv us -> Forall okuse us -> k = Commits \/ poss us = [] ->
    exists ss, Forall2 says us ss /\ line k o argv ss.
  Proof.
    induction 1 as [o|o a d vs rest us C _ IH|o a d vs rest us C U IH|v rest us N _ IH|o vs]; intros F P.
    - exists []. split; constructor.
    - inversion F as [|? ? O F']; subst. destruct (closed_of _ _ _ _ _ C O) as (s & S & Cp). destruct (IH F' P) as (ss & S2 & L). exists (s :: ss). split; [now constructor|now apply line_closed].
    - inversion F as [|? ? O F']; subst. destruct (open_of _ _ _ _ _ C O) as (s & S & Cp). destruct (IH F' P) as (ss & S2 & L). exists (s :: ss). split; [now constructor|now apply line_open].
    - destruct P as [->|P]; [|discriminate P]. inversion F as [|? ? O F']; subst. destruct (IH F' (or_introl eq_refl)) as (ss & S2 & L). exists (SCommit v :: ss). split; [now constructor|now apply line_commit].
    - exists (map SCommit vs). split; [clear; induction vs; constructor; auto; reflexivity|]. apply line_dashes. rewrite poss_map in P. exact P.
  Qed.
  Lemma of_line k o argv ss : line k o argv ss -> exists us, uline (decls_of k) o argv us /\ Forall2 says us ss /\ Forall okuse us /\ (k = Commits \/ poss us = []).
  Proof.
    induction 1 as [o|o a s rest ss C _ (us & U & S & F & P)|o a s rest ss C _ (us & U & S & F & P)|v rest ss -> N _ (us & U & S & F & P)|o vs K].
    - exists []. repeat split; [constructor|constructor|constructor|now right].
    - destruct (of_closed _ _ _ C) as (d & vs & Cp & Sd & O). exists (UOpt d vs :: us). repeat split; [now apply ul_closed|now constructor|now constructor|exact P].
    - destruct (of_open _ _ _ C) as (d & vs & Cp & Sd & O). exists (UOpt d vs :: us). repeat split; [now apply ul_open|now constructor|now constructor|exact P].
    - exists (UPos v :: us). repeat split; [now apply ul_pos|now constructor|now constructor|now left].
    - exists (map UPos vs). repeat split; [apply ul_end| | |rewrite poss_map; exact K].
      + clear. induction vs; constructor; auto. reflexivity.
      + clear. induction vs; constructor; auto. exact I.
  Qed.
  Lemma uline_in decls o argv us : uline decls o argv us -> Forall (inuse decls) us.
  Proof.
    induction 1 as [o|o a d vs rest us C _ IH|o a d vs rest us C U IH|v rest us N _ IH|o vs]; try constructor; auto.
    - cbn. eapply cpart_in. exact C.
    - cbn. eapply opart_in. exact C.
    - exact I.
    - induction vs; constructor; auto. exact I.
  Qed.
  Lemma decls_ids k d d' : In d (decls_of k) -> In d' (decls_of k) -> a_id d = a_id d' -> d = d'.
  Proof.
    intros H H' E. destruct k; cbn in H, H';
      repeat (destruct H as [<-|H]; [repeat (destruct H' as [<-|H']; [first [reflexivity|discriminate E]|]); destruct H'|]); destruct H.
  Qed.
  Lemma decls_help k d : In d (decls_of k) -> a_id d = "help" -> a_arity d = Flag.
  Proof. intros H E. destruct k; cbn in H; repeat (destruct H as [<-|H]; [first [reflexivity|discriminate E]|]); destruct H. Qed.

  (** The scanner succeeds on the lines without repetitions. *)
  Definition single (us : list use) : Prop := forall d vs, In (UOpt d vs) us -> a_arity d <> Many -> cnt (a_id d) (ents us) <= 1.
  Lemma scan_lines k argv seen pos :
    scan (decls_of k) (max_pos_of k) argv [] None [] = Parsed (seen, pos) <->
    exists us ss, uline (decls_of k) false argv us /\ line k false argv ss /\ Forall2 says us ss /\ Forall okuse us /\ seen = ents us /\ pos = poss us /\ single us /\ List.length pos <= max_pos_of k.
  Proof.
    split.
    - intros E. destruct (scan_sound (decls_of k) (max_pos_of k) (decls_help k) (S (List.length argv)) argv [] [] _ (Nat.lt_succ_diag_r _) E) as (us & U).
      rewrite (scan_complete _ _ (decls_help k) _ _ _ U) in E. apply (run_parsed (decls_of k)) in E; [|exact (decls_ids k)|eapply uline_in; exact U].
      destruct E as (-> & -> & F & Si & P). cbn [app] in *.
      destruct (line_of k false argv us U F) as (ss & S & L).
      { destruct k; [right|now left]. destruct P as [P|P]; [exact P|]. destruct (poss us); [reflexivity|cbn in P; lia]. }
      exists us, ss. repeat split; auto. destruct P as [->|P]; [cbn; lia|exact P].
    - intros (us & ss & U & L & S & F & -> & -> & Si & P). rewrite (scan_complete _ _ (decls_help k) _ _ _ U).
      apply (run_parsed (decls_of k)); [exact (decls_ids k)|eapply uline_in; exact U|]. repeat split; auto.
  Qed.
End Lines.
