(** Proofs about the reading of arguments: the commands. *)
From Coq Require Import List String Ascii Arith NArith Bool Lia.
From Verif Require Import Base ScopeM TermM F64 CompareM RowsM FmtM SynM ParseM StorageM FilesM GitM CliM ArgsM SpecArgs ArgsP ArgsP2 ArgsP3 ArgsP4 ArgsP5.
Import ListNotations.
Local Open Scope string_scope.

Section Whole.
  Variable parse_f64 : string -> option f64.
  Hypothesis five : parse_f64 "5" = Some (f64_of_N 5).
  Notation says := (says parse_f64).
  Notation decls_of := (decls_of parse_f64).

  Definition singles (seen : seen_args) : Prop :=
    cnt "method" seen <= 1 /\ cnt "unit" seen <= 1 /\ cnt "ignore-errors" seen <= 1 /\ cnt "git-pull" seen <= 1 /\ cnt "git-force" seen <= 1 /\ cnt "offline" seen <= 1 /\
    cnt "threshold" seen <= 1 /\ cnt "extrinsic" seen <= 1 /\ cnt "pallet" seen <= 1 /\ cnt "format" seen <= 1 /\ cnt "print-terms" seen <= 1 /\ cnt "no-color" seen <= 1 /\
    cnt "strip-path-prefix" seen <= 1 /\ cnt "verbose" seen <= 1.
  Lemma common_iff us ss before c : Forall2 says us ss ->
    compare_args_of parse_f64 (ents us) before = Some c /\ singles (ents us) <-> common ss before c.
  Proof.
    intros S. pose proof (f_method _ us ss S None) as F1. pose proof (f_unit _ us ss S (Some "time")) as F2. pose proof (f_thres _ us ss S (Some "5")) as F3.
    pose proof (f_form _ us ss S (Some "human")) as F4. cbn iota in F2, F3, F4. setoid_rewrite five in F3.
    change (unit_value "time") with (Some Time) in F2. change (format_value "human") with (Some Human) in F4.
    pose proof (f_ignore _ us ss S) as F5. pose proof (f_pull _ us ss S) as F6. pose proof (f_force _ us ss S) as F7. pose proof (f_off _ us ss S) as F8.
    pose proof (f_extr _ us ss S) as F9. pose proof (f_pall _ us ss S) as F10. pose proof (f_terms _ us ss S) as F11. pose proof (f_color _ us ss S) as F12.
    pose proof (f_str _ us ss S) as F13. pose proof (f_verb _ us ss S) as F14. pose proof (f_chg _ us ss S) as F15.
    unfold compare_args_of, common, singles. split.
    - intros [E (C1 & C2 & C3 & C4 & C5 & C6 & C7 & C8 & C9 & C10 & C11 & C12 & C13 & C14)].
      destruct (value_of method_value (ents us) "method" None) as [m|] eqn:E1; [|discriminate]. destruct (value_of unit_value _ _ _) as [u|] eqn:E2; [|discriminate].
      destruct (value_of parse_f64 _ _ _) as [t|] eqn:E3; [|discriminate]. destruct (value_of format_value _ _ _) as [f|] eqn:E4; [|discriminate].
      injection E as <-. cbn [ca_params ca_git ca_filter ca_format ca_verbose p_method p_unit g_ignore_errors g_pull g_force g_offline f_threshold f_change f_extrinsic f_pallet fp_format fp_print_terms fp_no_color fp_strip].
      repeat split; try (first [now apply F1|now apply F2|now apply F3|now apply F4|now apply F5|now apply F6|now apply F7|now apply F8|now apply F9|now apply F10|now apply F11|now apply F12|now apply F13]); [exact F15|].
      eexists. split; [now apply F14|reflexivity].
    - intros (H1 & H2 & H5 & H6 & H7 & H8 & H3 & H15 & H9 & H10 & H4 & H11 & H12 & H13 & v & H14 & Hv).
      apply F1 in H1. apply F2 in H2. apply F3 in H3. apply F4 in H4. apply F5 in H5. apply F6 in H6. apply F7 in H7. apply F8 in H8. apply F9 in H9. apply F10 in H10.
      apply F11 in H11. apply F12 in H12. apply F13 in H13. apply F14 in H14. rewrite <- F15 in H15. split; [|tauto].
      destruct H1 as [_ ->], H2 as [_ ->], H3 as [_ ->], H4 as [_ ->]. destruct c as [[pm pu] [g1 g2 g3 g4] [ft fc fe fp] [q1 q2 q3 q4] vb].
      cbn [ca_params ca_git ca_filter ca_format ca_verbose p_method p_unit g_ignore_errors g_pull g_force g_offline f_threshold f_change f_extrinsic f_pallet fp_format fp_print_terms fp_no_color fp_strip] in *.
      destruct H5 as [_ <-], H6 as [_ <-], H7 as [_ <-], H8 as [_ <-], H9 as [_ <-], H10 as [_ <-], H11 as [_ <-], H12 as [_ <-], H13 as [_ <-], H14 as [_ <-]. now rewrite H15, Hv.
  Qed.

  Lemma single_iff k us : Forall (inuse (decls_of k)) us -> Forall okuse us ->
    single us <-> singles (ents us) /\ (k = Commits -> cnt "repo" (ents us) <= 1 /\ cnt "path-pattern" (ents us) <= 1).
  Proof.
    intros D F. assert (K : single us <-> forall d, In d (decls_of k) -> a_arity d <> Many -> a_id d <> "help" -> cnt (a_id d) (ents us) <= 1).
    { split.
      - intros H d I A _. destruct (cnt_ents d us) as [Z|(d' & vs & I' & E)]; [rewrite Z; lia|].
        assert (d' = d) as -> by (apply (decls_ids parse_f64 k); [exact (proj1 (Forall_forall _ _) D _ I')|exact I|exact E]). exact (H d vs I' A).
      - intros H d vs I A. apply H; [exact (proj1 (Forall_forall _ _) D _ I)|exact A|]. pose proof (proj1 (Forall_forall _ _) F _ I) as O. apply O. }
    rewrite K. split.
    - intros H. split; [|intros ->; split].
      + unfold singles. repeat split; match goal with |- cnt ?s _ <= 1 => let d := eval cbn in (find (fun d => String.eqb (a_id d) s) (common_decls parse_f64)) in match d with Some ?x => apply (H x) end end;
          first [discriminate | apply in_or_app; left; cbn; intuition reflexivity].
      + apply (H (mk_arg "repo" ["repo"] None One path_text)); [cbn; tauto|discriminate|discriminate].
      + apply (H (mk_arg "path-pattern" ["path-pattern"] None One any_text)); [cbn; tauto|discriminate|discriminate].
    - intros [(C1 & C2 & C3 & C4 & C5 & C6 & C7 & C8 & C9 & C10 & C11 & C12 & C13 & C14) C] d I A N.
      destruct k; cbn in I; repeat (destruct I as [<-|I]; [first [assumption | now elim A | now elim N | now apply C]|]); destruct I.
  Qed.

  Lemma path_dot : path "." = Some ".". Proof. reflexivity. Qed.
  Lemma text_value us ss id mk dflt : Forall2 says us ss -> (forall vs, say parse_f64 id vs = one path mk vs) ->
    value_of path (ents us) id (Some dflt) = match text_of (ents us) id with Some v => Some v | None => path dflt end.
  Proof.
    intros S T. unfold value_of, text_of. rewrite values_filt. pose proof (one_entry parse_f64 us ss S path mk id T) as O. destruct (filt us id) as [|p l]; [reflexivity|].
    destruct (O p (or_introl eq_refl)) as (v & a & E & R). cbn. rewrite E. cbn. unfold path in *. destruct (String.eqb v ""); [discriminate|]. congruence.
  Qed.
  Lemma text_plain seen id : value_of Some seen id None = text_of seen id.
  Proof. unfold value_of, text_of. destruct (values seen id); reflexivity. Qed.

  Lemma command_iff k us ss before c : Forall (inuse (decls_of k)) us -> Forall okuse us -> Forall2 says us ss ->
    command_of parse_f64 k (ents us) (poss us) before = Some c /\ single us /\ List.length (poss us) <= max_pos_of k <-> settings k ss before c /\ List.length (poss us) <= max_pos_of k.
  Proof.
    intros D F S. rewrite (single_iff k us D F), (f_commit _ _ _ S). pose proof (common_iff us ss before) as Co. unfold command_of. destruct k.
    - pose proof (f_old _ us ss S) as [O1 O2]. pose proof (f_new _ us ss S) as [N1 N2]. rewrite O2, N2. split.
      + intros (E & (Si & _) & L). destruct (compare_args_of parse_f64 (ents us) before) as [ca|] eqn:Ec; [|discriminate].
        destruct (given (ents us) "old") eqn:G1; [|discriminate]. destruct (given (ents us) "new") eqn:G2; [|discriminate]. injection E as <-. split; [|exact L]. cbn.
        split; [apply Co; auto|]. split; [now apply O1|]. split; [now apply N1|]. now split.
      + intros [E L]. destruct c as [ca old new| |]; try contradiction. destruct E as (C & E1 & E2 & -> & ->). apply Co in C; [|exact S]. destruct C as [-> Si]. apply O1 in E1. apply N1 in E2. rewrite E1, E2.
        split; [reflexivity|]. split; [|exact L]. split; [exact Si|discriminate].
    - pose proof (f_repo _ us ss S (Some ".")) as R. cbn iota in R. setoid_rewrite path_dot in R. pose proof (f_pat _ us ss S None) as P.
      setoid_rewrite (text_value us ss "repo" SRepo "." S (fun _ => eq_refl)) in R. setoid_rewrite text_plain in P. change (path ".") with (Some ".") in R.
      destruct (text_of (ents us) "path-pattern") as [pat|].
      + split.
        * intros (E & (Si & C) & L). destruct (C eq_refl) as [C1 C2]. destruct (compare_args_of parse_f64 (ents us) before) as [ca|] eqn:Ec; [|discriminate].
          destruct (said s_commit ss) as [|old [|new [|x l]]] eqn:Es; try discriminate; try (cbn in L; lia); injection E as <-; (split; [|exact L]); cbn;
            (split; [apply Co; auto|]); (split; [rewrite Es; auto|]); (split; [apply R; split; [exact C1|]; destruct (text_of (ents us) "repo"); reflexivity|now apply P]).
        * intros [E L]. destruct c as [|ca old new repo pattern|]; try contradiction. destruct E as (C & Hc & Hr & Hp). apply Co in C; [|exact S]. destruct C as [-> Si]. apply R in Hr. apply P in Hp.
          destruct Hr as [R1 R2], Hp as [P1 [= ->]]. split; [|split; [split; [exact Si|]; auto|exact L]].
          assert (Rr : match text_of (ents us) "repo" with Some r => r | None => "." end = repo) by (destruct (text_of (ents us) "repo"); congruence). rewrite Rr.
          destruct Hc as [->|[-> ->]]; reflexivity.
      + split.
        * intros (E & _). destruct (compare_args_of parse_f64 (ents us) before); [|discriminate]. destruct (said s_commit ss); discriminate.
        * intros [E L]. destruct c as [|ca old new repo pattern|]; try contradiction. destruct E as (_ & _ & _ & Hp). apply P in Hp. destruct Hp; discriminate.
  Qed.

  Lemma leaf_iff k args before c : leaf_args parse_f64 k args before = Parsed c <-> exists ss, line parse_f64 k false args ss /\ settings k ss before c.
  Proof.
    unfold leaf_args. split.
    - destruct (scan _ _ _ _ _ _) as [[seen pos]| |] eqn:E; try discriminate. cbn [pbind]. apply scan_lines in E. destruct E as (us & ss & U & L & S & F & -> & -> & Si & P).
      destruct (command_of _ _ _ _ _) as [c'|] eqn:Ec; [|discriminate]. intros [= <-]. exists ss. split; [exact L|]. apply (command_iff k us ss before c'); auto. eapply uline_in. exact U.
    - intros (ss & L & St). destruct (of_line _ _ _ _ _ L) as (us & U & S & F & P).
      assert (Len : List.length (poss us) <= max_pos_of k).
      { destruct P as [-> | ->]; [|cbn; lia]. rewrite (f_commit _ _ _ S). destruct c as [|ca old new repo pattern|]; try contradiction. destruct St as (_ & [->|[-> _]] & _); cbn; lia. }
      assert (D : Forall (inuse (decls_of k)) us) by (eapply uline_in; exact U).
      destruct (proj2 (command_iff k us ss before c D F S) (conj St Len)) as (Ec & Si & _).
      assert (E : scan (decls_of k) (max_pos_of k) args [] None [] = Parsed (ents us, poss us)).
      { apply scan_lines. exists us, ss. repeat split; auto. }
      rewrite E. cbn [pbind]. now rewrite Ec.
  Qed.

  Lemma leaf_line k args ss before c : line parse_f64 k false args ss -> leaf_args parse_f64 k args before = Parsed c <-> settings k ss before c.
  Proof.
    intros L. split; [|intros H; apply leaf_iff; eauto]. destruct (of_line _ _ _ _ _ L) as (us & U & S & F & P).
    assert (D : Forall (inuse (decls_of k)) us) by (eapply uline_in; exact U).
    unfold leaf_args. rewrite (scan_complete _ _ (decls_help parse_f64 k) _ _ _ U).
    destruct (run (max_pos_of k) us [] []) as [[seen pos]| |] eqn:E; try discriminate. cbn [pbind]. apply (run_parsed (decls_of k)) in E; [|exact (decls_ids parse_f64 k)|exact D].
    cbn [app] in E. destruct E as (-> & -> & _ & Si & Len). destruct (command_of _ _ _ _ _) as [c'|] eqn:Ec; [|discriminate]. intros [= <-].
    apply (command_iff k us ss before c' D F S). repeat split; auto. destruct Len as [->|Len]; [cbn; lia|exact Len].
  Qed.

  Lemma compare_level rest before c :
    sub_args ["--help"; "-h"; "help"] rest false (fun name rest verbose' =>
          if String.eqb name "files" then leaf_args parse_f64 Files rest (before || verbose')
          else if String.eqb name "commits" then leaf_args parse_f64 Commits rest (before || verbose')
          else Usage) = Parsed c <->
    exists v2 k args ss, rest = ((if v2 : bool then ["--verbose"] else []) ++ kind_word k :: args)%list /\ line parse_f64 k false args ss /\ settings k ss (before || v2) c.
  Proof.
    assert (L : forall name args v, (if String.eqb name "files" then leaf_args parse_f64 Files args v else if String.eqb name "commits" then leaf_args parse_f64 Commits args v else Usage) = Parsed c <->
                exists k ss, name = kind_word k /\ line parse_f64 k false args ss /\ settings k ss v c).
    { intros name args v. destruct (String.eqb_spec name "files") as [->|N1].
      - rewrite leaf_iff. split; [intros (ss & H); exists Files, ss; auto|]. intros ([|] & ss & E & H); [eauto|discriminate E].
      - destruct (String.eqb_spec name "commits") as [->|N2].
        + rewrite leaf_iff. split; [intros (ss & H); exists Commits, ss; auto|]. intros ([|] & ss & E & H); [discriminate E|eauto].
        + split; [discriminate|]. intros ([|] & ss & E & _); contradiction. }
    assert (W : forall k, String.eqb (kind_word k) "--verbose" = false /\ existsb (String.eqb (kind_word k)) ["--help"; "-h"; "help"] = false) by (intros []; auto).
    split.
    - destruct rest as [|a rest]; [discriminate|]. cbn [sub_args]. destruct (String.eqb_spec a "--verbose") as [->|Na].
      + destruct rest as [|b rest]; [discriminate|]. cbn [sub_args]. destruct (String.eqb b "--verbose"); [discriminate|]. destruct (existsb _ _); [discriminate|].
        intros H. apply L in H. destruct H as (k & ss & -> & H). exists true, k, rest, ss. auto.
      + destruct (existsb _ _); [discriminate|]. intros H. apply L in H. destruct H as (k & ss & -> & H). exists false, k, rest, ss. auto.
    - intros (v2 & k & args & ss & -> & H). destruct (W k) as [W1 W2]. destruct v2; cbn [app].
      + cbn [sub_args]. change (String.eqb "--verbose" "--verbose") with true. cbn [sub_args]. rewrite W1, W2. apply L. eauto.
      + cbn [sub_args]. rewrite W1, W2. apply L. eauto.
  Qed.
  Lemma args_lemma argv c : compares c -> cli_args parse_f64 argv = Parsed c <-> means parse_f64 argv c.
  Proof.
    intros Hc. unfold cli_args, means.
    set (leaf := fun (name : string) (rest : list string) (verbose : bool) => _).
    assert (L : forall name rest v, leaf name rest v = Parsed c <-> name = "compare" /\ exists v2 k args ss, rest = ((if v2 : bool then ["--verbose"] else []) ++ kind_word k :: args)%list /\ line parse_f64 k false args ss /\ settings k ss (v || v2) c).
    { intros name rest v. unfold leaf. destruct (String.eqb_spec name "compare") as [->|N].
      - rewrite compare_level. split; [intros H; now split|now intros [_ H]].
      - split; [|now intros [-> _]]. destruct (String.eqb name "parse"); [|discriminate]. intros [= <-]. destruct Hc. }
    clearbody leaf. split.
    - destruct argv as [|a rest]; [discriminate|]. cbn [sub_args]. destruct (String.eqb_spec a "--verbose") as [->|Na].
      + destruct rest as [|b rest]; [discriminate|]. cbn [sub_args]. destruct (String.eqb b "--verbose"); [discriminate|]. destruct (existsb _ _); [discriminate|].
        intros H. apply L in H. destruct H as (-> & v2 & k & args & ss & -> & H). exists true, v2, k, args, ss. auto.
      + destruct (existsb _ _); [discriminate|]. intros H. apply L in H. destruct H as (-> & v2 & k & args & ss & -> & H). exists false, v2, k, args, ss. auto.
    - intros (v1 & v2 & k & args & ss & -> & H). destruct v1; cbn [app sub_args]; [change (String.eqb "--verbose" "--verbose") with true; cbn iota|];
        change (String.eqb "compare" "--verbose") with false; change (existsb (String.eqb "compare") ["--help"; "-h"; "help"; "--version"; "-V"]) with false; cbn iota;
        apply L; (split; [reflexivity|]); exists v2, k, args, ss; auto.
  Qed.
End Whole.
