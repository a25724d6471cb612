(** Proofs about the reading of arguments: from lines to settings. *)
From Coq Require Import List String Ascii Arith NArith Bool Lia.
From Verif Require Import Base ScopeM TermM F64 CompareM RowsM FmtM SynM ParseM StorageM FilesM GitM CliM ArgsM SpecArgs ArgsP ArgsP2 ArgsP3 ArgsP4.
Import ListNotations.
Local Open Scope string_scope.
Local Arguments method_value : simpl never.
Local Arguments unit_value : simpl never.
Local Arguments change_value : simpl never.
Local Arguments format_value : simpl never.

Section Fields.
  Variable parse_f64 : string -> option f64.
  Notation say := (say parse_f64).
  Notation says := (says parse_f64).
  Variables (us : list use) (ss : list saying).
  Hypothesis S : Forall2 says us ss.
  Notation seen := (ents us).

  Definition filt (id : string) : seen_args := filter (fun p => String.eqb (fst p) id) seen.
  Lemma say_table id vs s : say id vs = Some s -> exists f, In (id, f) (table parse_f64) /\ f vs = Some s.
  Proof.
    unfold ArgsP3.say. destruct (find _ _) as [[i f]|] eqn:E; [|discriminate]. apply find_some in E. destruct E as [I E]. cbn in E. apply String.eqb_eq in E. subst i. eauto.
  Qed.
  Lemma ents_say p : In p seen -> exists s, say (fst p) (snd p) = Some s.
  Proof.
    pose proof S as S'. clear -S'. induction S' as [|u s us ss H _ IH]; [now intros []|]. destruct u as [d vs|v]; [|exact IH]. intros [<-|I]; [now exists s|now apply IH].
  Qed.
  Lemma filt_say id p : In p (filt id) -> exists s, say id (snd p) = Some s.
  Proof. intros H. apply filter_In in H. destruct H as [H E]. apply String.eqb_eq in E. subst id. now apply ents_say. Qed.
  Lemma said_filt {A} (f : saying -> option A) (h : list string -> list A) id :
    (forall id' vs s, say id' vs = Some s -> match f s with Some a => [a] | None => [] end = if String.eqb id' id then h vs else []) -> (forall v, f (SCommit v) = None) ->
    said f ss = flat_map (fun p => h (snd p)) (filt id).
  Proof.
    intros H C. unfold filt. pose proof S as S'. clear -S' H C. induction S' as [|u s us ss Hu _ IH]; [reflexivity|]. cbn [said flat_map]. fold (said f ss). rewrite IH. destruct u as [d vs|v].
    - cbn in Hu. rewrite (H _ _ _ Hu). change (ents (UOpt d vs :: us)) with ((a_id d, vs) :: ents us). cbn [filter fst]. destruct (String.eqb (a_id d) id); reflexivity.
    - cbn in Hu. subst s. now rewrite C.
  Qed.
  Lemma values_filt id : values seen id = flat_map snd (filt id).
  Proof. unfold values, filt. induction seen as [|p l IH]; [reflexivity|]. cbn. rewrite IH. destruct (String.eqb (fst p) id); reflexivity. Qed.
  Lemma given_filt id : given seen id = match filt id with [] => false | _ => true end.
  Proof. unfold given, filt. induction seen as [|p l IH]; [reflexivity|]. cbn. destruct (String.eqb (fst p) id); [reflexivity|exact IH]. Qed.

  Definition h_one {A} (read : string -> option A) (vs : list string) : list A := match vs with [v] => match read v with Some a => [a] | None => [] end | _ => [] end.
  Definition h_many {A} (read : string -> option A) (vs : list string) : list (list A) := match reads read vs with Some l => [l] | None => [] end.
  Ltac table_tac := let i := fresh in let vs := fresh in let s := fresh in let H := fresh in let f := fresh in let I := fresh in let E := fresh in let R := fresh in
    intros i vs s H; apply say_table in H; destruct H as (f & I & E); cbn in I;
    repeat (destruct I as [I|I]; [injection I as <- <-|]); [..|destruct I];
    unfold one, flg, many in E; unfold h_one, h_many;
    first [ match type of E with option_map _ (reads _ _) = _ => idtac end; match type of E with option_map _ ?x = _ => destruct x eqn:R; [|discriminate E] end; injection E as <-; cbn; rewrite ?R; reflexivity
          | destruct vs as [|? [|? ?]]; try discriminate E; [];
            first [ cbn in E; injection E as <-; reflexivity
                  | match type of E with option_map _ ?x = _ => destruct x eqn:R; [|discriminate E] end; injection E as <-; cbn; rewrite ?R; reflexivity ] ].

  Section One.
    Context {A : Type} (read : string -> option A) (mk : A -> saying) (id : string) (f : saying -> option A).
    Hypothesis T : forall vs, say id vs = one read mk vs.
    Hypothesis Sd : said f ss = flat_map (fun p => h_one read (snd p)) (filt id).
    Lemma one_entry p : In p (filt id) -> exists v a, snd p = [v] /\ read v = Some a.
    Proof.
      intros H. destruct (filt_say _ _ H) as (s & E). rewrite T in E. unfold one in E. destruct (snd p) as [|v [|w vs]]; try discriminate E.
      destruct (read v) as [a|] eqn:R; [|discriminate E]. eauto.
    Qed.
    Lemma one_field dflt a : cnt id seen <= 1 /\ value_of read seen id dflt = Some a <-> once f ss (match dflt with Some v => read v | None => None end) a.
    Proof.
      unfold once, value_of, cnt. rewrite Sd, values_filt. fold (filt id). pose proof one_entry as O. destruct (filt id) as [|p [|q l]]; cbn.
      - split; [intros [_ H]; right; auto|]. intros [H|[_ H]]; [discriminate|]. split; [lia|exact H].
      - destruct (O p (or_introl eq_refl)) as (v & b & -> & R). cbn. rewrite R. cbn. split; [intros [_ [= ->]]; now left|]. intros [[= ->]|[H _]]; [auto|discriminate H].
      - destruct (O p (or_introl eq_refl)) as (v & b & -> & R). destruct (O q (or_intror (or_introl eq_refl))) as (v' & b' & -> & R'). cbn. rewrite R, R'. cbn.
        split; [intros [H _]; lia|]. intros [H|[H _]]; discriminate H.
    Qed.
    Lemma maybe_field o : (forall s a, read s = Some a -> True) -> cnt id seen <= 1 /\ (match values seen id with v :: _ => read v | [] => None end) = o <-> maybe f ss o.
    Proof.
      intros _. unfold maybe, cnt. rewrite Sd, values_filt. fold (filt id). pose proof one_entry as O. destruct (filt id) as [|p [|q l]]; cbn.
      - split; [intros [_ <-]; reflexivity|]. destruct o; [discriminate|]. auto.
      - destruct (O p (or_introl eq_refl)) as (v & b & -> & R). cbn. rewrite R. cbn. split; [intros [_ <-]; reflexivity|]. destruct o; intros [= ->]; auto.
      - destruct (O p (or_introl eq_refl)) as (v & b & -> & R). destruct (O q (or_intror (or_introl eq_refl))) as (v' & b' & -> & R'). cbn. rewrite R, R'. cbn.
        split; [intros [H _]; lia|]. destruct o; discriminate.
    Qed.
  End One.
  Section Flags.
    Variables (sy : saying) (id : string) (f : saying -> option unit).
    Definition h_flag (vs : list string) : list unit := match vs with [] => [tt] | _ => [] end.
    Hypothesis T : forall vs, say id vs = flg sy vs.
    Hypothesis Sd : said f ss = flat_map (fun p => h_flag (snd p)) (filt id).
    Lemma flag_entry p : In p (filt id) -> snd p = [].
    Proof. intros H. destruct (filt_say _ _ H) as (s & E). rewrite T in E. unfold flg in E. destruct (snd p); [reflexivity|discriminate E]. Qed.
    Lemma flag_field b : cnt id seen <= 1 /\ given seen id = b <-> switch f ss b.
    Proof.
      unfold switch, cnt. rewrite Sd, given_filt. fold (filt id). pose proof flag_entry as O. destruct (filt id) as [|p [|q l]]; cbn.
      - split; [intros [_ <-]; reflexivity|]. destruct b; [discriminate|]. auto.
      - rewrite (O p (or_introl eq_refl)). cbn. split; [intros [_ <-]; reflexivity|]. destruct b; [auto|discriminate].
      - rewrite (O p (or_introl eq_refl)), (O q (or_intror (or_introl eq_refl))). cbn. split; [intros [H _]; lia|]. destruct b; discriminate.
    Qed.
  End Flags.
  Section Manies.
    Context {A : Type} (read : string -> option A) (mk : list A -> saying) (id : string) (f : saying -> option (list A)).
    Hypothesis T : forall vs, say id vs = many read mk vs.
    Hypothesis Sd : said f ss = flat_map (fun p => h_many read (snd p)) (filt id).
    Lemma many_entry p : In p (filt id) -> exists l, reads read (snd p) = Some l.
    Proof. intros H. destruct (filt_say _ _ H) as (s & E). rewrite T in E. unfold many in E. destruct (reads read (snd p)); [eauto|discriminate E]. Qed.
    Lemma many_given : given seen id = true <-> said f ss <> [].
    Proof.
      rewrite Sd, given_filt. pose proof many_entry as O. destruct (filt id) as [|p l]; cbn; [split; [discriminate|now intros []]|].
      destruct (O p (or_introl eq_refl)) as (m & R). unfold h_many at 1. rewrite R. cbn. split; [discriminate|reflexivity].
    Qed.
    Lemma all_values_app a b : all_values read (a ++ b)%list = (all_values read a ++ all_values read b)%list.
    Proof. apply flat_map_app. Qed.
    Lemma many_values : all_values read (values seen id) = List.concat (said f ss).
    Proof.
      rewrite Sd, values_filt. pose proof many_entry as O. clear Sd. induction (filt id) as [|p l IH]; [reflexivity|]. cbn [flat_map]. rewrite all_values_app, concat_app, IH by (intros q Hq; apply O; now right).
      f_equal. destruct (O p (or_introl eq_refl)) as (m & R). unfold h_many. rewrite R. apply reads_values in R. cbn. now rewrite app_nil_r.
    Qed.
  End Manies.
  Lemma path_values l : (exists m, reads path l = Some m) -> all_values path l = l.
  Proof.
    induction l as [|v l IH]; cbn; [reflexivity|]. unfold path at 1 3. destruct (String.eqb v ""); [now intros (m & H)|]. destruct (reads path l); [|now intros (m & H)].
    intros _. cbn. f_equal. apply IH. eauto.
  Qed.
  Lemma paths_values id mk : (forall vs, say id vs = many path mk vs) -> all_values path (values seen id) = values seen id.
  Proof.
    intros T. rewrite values_filt. pose proof (many_entry path mk id T) as O. induction (filt id) as [|p l IH]; [reflexivity|]. cbn [flat_map].
    rewrite all_values_app, IH by (intros q Hq; apply O; now right). f_equal. apply path_values. apply O. now left.
  Qed.

  Lemma f_method dflt a : cnt "method" seen <= 1 /\ value_of method_value seen "method" dflt = Some a <-> once s_method ss (match dflt with Some v => method_value v | None => None end) a.
  Proof. apply (one_field method_value SMethod); [reflexivity|]. apply said_filt; [table_tac|reflexivity]. Qed.
  Lemma f_unit dflt a : cnt "unit" seen <= 1 /\ value_of unit_value seen "unit" dflt = Some a <-> once s_unit ss (match dflt with Some v => unit_value v | None => None end) a.
  Proof. apply (one_field unit_value SUnit); [reflexivity|]. apply said_filt; [table_tac|reflexivity]. Qed.
  Lemma f_thres dflt a : cnt "threshold" seen <= 1 /\ value_of parse_f64 seen "threshold" dflt = Some a <-> once s_threshold ss (match dflt with Some v => parse_f64 v | None => None end) a.
  Proof. apply (one_field parse_f64 SThreshold); [reflexivity|]. apply said_filt; [table_tac|reflexivity]. Qed.
  Lemma f_form dflt a : cnt "format" seen <= 1 /\ value_of format_value seen "format" dflt = Some a <-> once s_format ss (match dflt with Some v => format_value v | None => None end) a.
  Proof. apply (one_field format_value SFormat); [reflexivity|]. apply said_filt; [table_tac|reflexivity]. Qed.
  Lemma f_extr o : cnt "extrinsic" seen <= 1 /\ text_of seen "extrinsic" = o <-> maybe s_extrinsic ss o.
  Proof. apply (maybe_field Some SExtrinsic); [reflexivity| |trivial]. apply said_filt; [table_tac|reflexivity]. Qed.
  Lemma f_pall o : cnt "pallet" seen <= 1 /\ text_of seen "pallet" = o <-> maybe s_pallet ss o.
  Proof. apply (maybe_field Some SPallet); [reflexivity| |trivial]. apply said_filt; [table_tac|reflexivity]. Qed.
  Lemma f_str o : cnt "strip-path-prefix" seen <= 1 /\ text_of seen "strip-path-prefix" = o <-> maybe s_strip ss o.
  Proof. apply (maybe_field Some SStrip); [reflexivity| |trivial]. apply said_filt; [table_tac|reflexivity]. Qed.
  Lemma f_pat dflt a : cnt "path-pattern" seen <= 1 /\ value_of Some seen "path-pattern" dflt = Some a <-> once s_pattern ss dflt a.
  Proof.
    assert (E : dflt = match dflt with Some v => Some v | None => None end) by (destruct dflt; reflexivity). rewrite E at 2.
    apply (one_field Some SPattern); [reflexivity|]. apply said_filt; [table_tac|reflexivity].
  Qed.
  Lemma f_repo dflt a : cnt "repo" seen <= 1 /\ value_of path seen "repo" dflt = Some a <-> once s_repo ss (match dflt with Some v => path v | None => None end) a.
  Proof. apply (one_field path SRepo); [reflexivity|]. apply said_filt; [table_tac|reflexivity]. Qed.
  Lemma f_ignore b : cnt "ignore-errors" seen <= 1 /\ given seen "ignore-errors" = b <-> switch s_ignore ss b.
  Proof. apply (flag_field SIgnoreErrors); [reflexivity|]. apply said_filt; [table_tac|reflexivity]. Qed.
  Lemma f_pull b : cnt "git-pull" seen <= 1 /\ given seen "git-pull" = b <-> switch s_pull ss b.
  Proof. apply (flag_field SPull); [reflexivity|]. apply said_filt; [table_tac|reflexivity]. Qed.
  Lemma f_force b : cnt "git-force" seen <= 1 /\ given seen "git-force" = b <-> switch s_force ss b.
  Proof. apply (flag_field SForce); [reflexivity|]. apply said_filt; [table_tac|reflexivity]. Qed.
  Lemma f_off b : cnt "offline" seen <= 1 /\ given seen "offline" = b <-> switch s_offline ss b.
  Proof. apply (flag_field SOffline); [reflexivity|]. apply said_filt; [table_tac|reflexivity]. Qed.
  Lemma f_terms b : cnt "print-terms" seen <= 1 /\ given seen "print-terms" = b <-> switch s_terms ss b.
  Proof. apply (flag_field STerms); [reflexivity|]. apply said_filt; [table_tac|reflexivity]. Qed.
  Lemma f_color b : cnt "no-color" seen <= 1 /\ given seen "no-color" = b <-> switch s_color ss b.
  Proof. apply (flag_field SNoColor); [reflexivity|]. apply said_filt; [table_tac|reflexivity]. Qed.
  Lemma f_verb b : cnt "verbose" seen <= 1 /\ given seen "verbose" = b <-> switch s_verbose ss b.
  Proof. apply (flag_field SVerbose); [reflexivity|]. apply said_filt; [table_tac|reflexivity]. Qed.
  Lemma sd_change : said s_change ss = flat_map (fun p => h_many change_value (snd p)) (filt "change").
  Proof. apply said_filt; [|reflexivity]. table_tac. Qed.
  Lemma f_chg : (if given seen "change" then Some (all_values change_value (values seen "change")) else None) = match said s_change ss with [] => None | l => Some (List.concat l) end.
  Proof.
    pose proof (many_given change_value SChange "change" s_change (fun _ => eq_refl) sd_change) as G.
    pose proof (many_values change_value SChange "change" s_change (fun _ => eq_refl) sd_change) as V. rewrite V.
    destruct (given seen "change"), (said s_change ss) as [|l ll]; try reflexivity.
    - now elim (proj1 G eq_refl).
    - assert (false = true) by (apply G; discriminate). discriminate.
  Qed.
  Lemma sd_old : said s_old ss = flat_map (fun p => h_many path (snd p)) (filt "old").
  Proof. apply said_filt; [|reflexivity]. table_tac. Qed.
  Lemma sd_new : said s_new ss = flat_map (fun p => h_many path (snd p)) (filt "new").
  Proof. apply said_filt; [|reflexivity]. table_tac. Qed.
  Lemma f_old : (given seen "old" = true <-> said s_old ss <> []) /\ values seen "old" = List.concat (said s_old ss).
  Proof.
    split; [apply (many_given path SOld "old" s_old (fun _ => eq_refl) sd_old)|].
    rewrite <- (paths_values "old" SOld (fun _ => eq_refl)). apply (many_values path SOld "old" s_old (fun _ => eq_refl) sd_old).
  Qed.
  Lemma f_new : (given seen "new" = true <-> said s_new ss <> []) /\ values seen "new" = List.concat (said s_new ss).
  Proof.
    split; [apply (many_given path SNew "new" s_new (fun _ => eq_refl) sd_new)|].
    rewrite <- (paths_values "new" SNew (fun _ => eq_refl)). apply (many_values path SNew "new" s_new (fun _ => eq_refl) sd_new).
  Qed.
  Lemma f_commit : poss us = said s_commit ss.
  Proof.
    pose proof S as S'. clear -S'. induction S' as [|u s us ss H _ IH]; [reflexivity|]. cbn [said flat_map]. fold (said s_commit ss). rewrite <- IH. destruct u as [d vs|v]; [|cbn in H; subst s; reflexivity].
    cbn in H. apply say_table in H. destruct H as (f & I & E). cbn in I. assert (N : s_commit s = None); [|now rewrite N].
    repeat (destruct I as [I|I]; [injection I as _ <-|]); [..|destruct I]; unfold one, flg, many in E;
    first [ match type of E with option_map _ (reads _ _) = _ => idtac end; match type of E with option_map _ ?x = _ => destruct x; [|discriminate E] end; injection E as <-; reflexivity
          | destruct vs as [|? [|? ?]]; try discriminate E; [];
            first [ cbn in E; injection E as <-; reflexivity
                  | match type of E with option_map _ ?x = _ => destruct x; [|discriminate E] end; injection E as <-; reflexivity ] ].
  Qed.
End Fields.
