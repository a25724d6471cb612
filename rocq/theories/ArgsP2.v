(** Proofs about the reading of arguments: the options of the two compare commands. *)
From Coq Require Import List String Ascii Arith NArith Bool Lia.
From Verif Require Import Base ScopeM TermM F64 CompareM RowsM FmtM SynM ParseM StorageM FilesM GitM CliM ArgsM SpecArgs ArgsP.
Import ListNotations.
Local Open Scope string_scope.

(** ** Runs that succeed *)
Definition cnt (id : string) (seen : seen_args) : nat := List.length (filter (fun p => String.eqb (fst p) id) seen).
Definition ents (us : list use) : seen_args := flat_map (fun u => match u with UOpt d vs => [(a_id d, vs)] | UPos _ => [] end) us.
Definition poss (us : list use) : list string := flat_map (fun u => match u with UOpt _ _ => [] | UPos v => [v] end) us.
Definition count_ok (d : arg) (vs : list string) : Prop :=
  match a_arity d with Flag => vs = [] | One => exists v, vs = [v] | Many => True end.
Definition okuse (u : use) : Prop :=
  match u with UOpt d vs => count_ok d vs /\ forallb (a_value d) vs = true /\ a_id d <> "help" | UPos _ => True end.
Definition inuse (decls : list arg) (u : use) : Prop := match u with UOpt d _ => In d decls | UPos _ => True end.

Lemma cnt_app id a b : cnt id (a ++ b)%list = cnt id a + cnt id b.
Proof. unfold cnt. now rewrite filter_app, app_length. Qed.
Lemma cnt_given id seen : given seen id = false <-> cnt id seen = 0.
Proof.
  unfold given, cnt. induction seen as [|p seen IH]; cbn; [tauto|]. destruct (String.eqb (fst p) id); cbn; [split; discriminate|exact IH].
Qed.
Lemma cnt_one id vs : cnt id [(id, vs)] = 1.
Proof. unfold cnt. cbn. now rewrite String.eqb_refl. Qed.
Lemma cnt_ents d us : cnt (a_id d) (ents us) = 0 \/ exists d' vs, In (UOpt d' vs) us /\ a_id d' = a_id d.
Proof.
  induction us as [|[d' vs|v] us IH]; [now left| |].
  - cbn [ents flat_map]. change (flat_map _ us) with (ents us). rewrite cnt_app. destruct (string_dec (a_id d') (a_id d)) as [E|N].
    + right. exists d', vs. split; [now left|exact E].
    + unfold cnt at 1. cbn. rewrite (proj2 (String.eqb_neq _ _) N). cbn. destruct IH as [H|(d2 & v2 & H & E)]; [now left|]. right. exists d2, v2. split; [now right|exact E].
  - cbn [ents flat_map app]. change (flat_map _ us) with (ents us). destruct IH as [H|(d2 & v2 & H & E)]; [now left|]. right. exists d2, v2. split; [now right|exact E].
Qed.
Lemma cnt_in d vs us : In (UOpt d vs) us -> 1 <= cnt (a_id d) (ents us).
Proof.
  intros H. apply in_split in H. destruct H as (a & b & ->). unfold ents. rewrite flat_map_app. cbn [flat_map]. rewrite !cnt_app, cnt_one. lia.
Qed.

Section Run.
  Variables (decls : list arg) (max_pos : nat).
  Hypothesis ids : forall d d', In d decls -> In d' decls -> a_id d = a_id d' -> d = d'.

  Lemma react_ok d vs seen seen' :
    react d vs seen = Parsed seen' <-> seen' = (seen ++ [(a_id d, vs)])%list /\ okuse (UOpt d vs) /\ (a_arity d <> Many -> cnt (a_id d) seen = 0).
  Proof.
    unfold react, okuse, count_ok. destruct (String.eqb_spec (a_id d) "help") as [Eh|Nh].
    { split; [|now intros (_ & (_ & _ & N) & _)]. destruct (negb _); [discriminate|]. destruct (negb _); discriminate. }
    destruct (forallb (a_value d) vs); [|split; [destruct (negb _); discriminate|now intros (_ & (_ & N & _) & _)]].
    cbn [negb]. pose proof (cnt_given (a_id d) seen) as G. destruct (a_arity d).
    - destruct vs as [|v vs]; cbn; [|split; [discriminate|intros (_ & (N & _) & _); discriminate N]].
      destruct (given seen (a_id d)).
      + split; [discriminate|]. intros (_ & _ & N). assert (false = true) by (symmetry; apply G, N; discriminate). discriminate.
      + split; [intros [= <-]|intros (-> & _)]; [|reflexivity]. repeat split; auto. intros _. now apply G.
    - destruct vs as [|v [|w vs]]; cbn; [split; [discriminate|intros (_ & ((x & N) & _) & _); discriminate N]| |split; [discriminate|intros (_ & ((x & N) & _) & _); discriminate N]].
      destruct (given seen (a_id d)).
      + split; [discriminate|]. intros (_ & _ & N). assert (false = true) by (symmetry; apply G, N; discriminate). discriminate.
      + split; [intros [= <-]|intros (-> & _)]; [|reflexivity]. repeat split; eauto. intros _. now apply G.
    - cbn. split; [intros [= <-]|intros (-> & _)]; [|reflexivity]. repeat split; auto. now intros [].
  Qed.

  Lemma run_parsed us : Forall (inuse decls) us -> forall seen pos seen' pos',
    run max_pos us seen pos = Parsed (seen', pos') <->
    seen' = (seen ++ ents us)%list /\ pos' = (pos ++ poss us)%list /\ Forall okuse us /\
    (forall d vs, In (UOpt d vs) us -> a_arity d <> Many -> cnt (a_id d) (seen ++ ents us)%list <= 1) /\
    (poss us = [] \/ List.length pos + List.length (poss us) <= max_pos).
  Proof.
    induction 1 as [|u us D Ds IH]; intros seen pos seen' pos'.
    { cbn. rewrite !app_nil_r. split; [intros [= <- <-]; repeat split; auto; now intros d vs []|now intros (-> & -> & _)]. }
    destruct u as [d vs|v].
    - cbn [run]. change (ents (UOpt d vs :: us)) with ([(a_id d, vs)] ++ ents us)%list. change (poss (UOpt d vs :: us)) with (poss us). cbn in D.
      pose proof (react_ok d vs seen) as R. split.
      + destruct (react d vs seen) as [s| |] eqn:E; try discriminate. cbn [pbind]. intros H. apply IH in H. destruct H as (-> & -> & F & U & P).
        destruct (proj1 (R s) eq_refl) as (-> & O & C). rewrite <- app_assoc in *.
        repeat split; auto. intros d' vs' [H|H] A.
        * injection H as -> ->. destruct (cnt_ents d' us) as [Z|(d2 & v2 & I & E2)].
          -- rewrite !cnt_app, cnt_one, Z, C by exact A. lia.
          -- assert (d2 = d') as ->.
             { apply ids; [|exact D|exact E2]. exact (proj1 (Forall_forall _ _) Ds _ I). }
             exact (U d' v2 I A).
        * exact (U d' vs' H A).
      + intros (-> & -> & F & U & P). inversion F as [|? ? O F']; subst. specialize (R (seen ++ [(a_id d, vs)])%list).
        assert (E : react d vs seen = Parsed (seen ++ [(a_id d, vs)])%list).
        { apply R. repeat split; try apply O. intros A. specialize (U d vs (or_introl eq_refl) A). rewrite !cnt_app, cnt_one in U. lia. }
        rewrite E. cbn [pbind]. apply IH. rewrite <- app_assoc. repeat split; auto. intros d' vs' H A. exact (U d' vs' (or_intror H) A).
    - cbn [run]. change (ents (UPos v :: us)) with (ents us). change (poss (UPos v :: us)) with (v :: poss us).
      unfold push_pos. destruct (Nat.ltb_spec (List.length pos) max_pos) as [L|L]; cbn [pbind].
      + rewrite IH, <- app_assoc, app_length. cbn [app List.length]. split; intros (-> & -> & F & U & P); repeat split; auto.
        * intros d vs [H|H] A; [discriminate H|exact (U d vs H A)].
        * right. destruct P as [->|P]; [cbn|]; lia.
        * now inversion F.
        * intros d vs H A. exact (U d vs (or_intror H) A).
        * destruct P as [P|P]; [discriminate P|]. right. lia.
      + split; [discriminate|]. intros (_ & _ & _ & _ & [P|P]); [discriminate P|]. cbn in P. lia.
  Qed.
End Run.
