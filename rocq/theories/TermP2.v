(** Proofs about the depth of evaluation and about substitution in scopes of equations. *)
From Coq Require Import List String NArith Lia.
From Verif Require Import Base ScopeM TermM SpecTerm TermP.
Import ListNotations.

(** ** C03: the depth of look-ups *)
Lemma evals_within_sound m sc f t r : eval_fuel m sc f t = r -> r <> Diverge -> evals_within m sc f t r.
Proof.
  revert t r. induction f as [|f IHf];
    induction t as [v|n|x|l IHl r IHr|l IHl r IHr]; intros res; rewrite eval_fuel_unfold; intros E D; subst res; try (constructor; fail).
  - destruct (scope_get sc x) eqn:G; [congruence|]. now constructor.
  - destruct (eval_fuel m sc 0 l) eqn:El; simpl in *; try congruence;
      try (eapply ew_fail_l; [now left|apply IHl; congruence|reflexivity]).
    destruct (eval_fuel m sc 0 r) eqn:Er; simpl in *; try congruence;
      try (eapply ew_fail_r; [now left|apply IHl; [eauto|congruence]|apply IHr; congruence|reflexivity]).
    constructor; [apply IHl|apply IHr]; congruence.
  - destruct (eval_fuel m sc 0 l) eqn:El; simpl in *; try congruence;
      try (eapply ew_fail_l; [now right|apply IHl; congruence|reflexivity]).
    destruct (eval_fuel m sc 0 r) eqn:Er; simpl in *; try congruence;
      try (eapply ew_fail_r; [now right|apply IHl; [eauto|congruence]|apply IHr; congruence|reflexivity]).
    constructor; [apply IHl|apply IHr]; congruence.
  - destruct (scope_get sc x) eqn:G; [|now constructor]. eapply ew_var; eauto.
  - destruct (eval_fuel m sc (S f) l) eqn:El; simpl in *; try congruence;
      try (eapply ew_fail_l; [now left|apply IHl; congruence|reflexivity]).
    destruct (eval_fuel m sc (S f) r) eqn:Er; simpl in *; try congruence;
      try (eapply ew_fail_r; [now left|apply IHl; [eauto|congruence]|apply IHr; congruence|reflexivity]).
    constructor; [apply IHl|apply IHr]; congruence.
  - destruct (eval_fuel m sc (S f) l) eqn:El; simpl in *; try congruence;
      try (eapply ew_fail_l; [now right|apply IHl; congruence|reflexivity]).
    destruct (eval_fuel m sc (S f) r) eqn:Er; simpl in *; try congruence;
      try (eapply ew_fail_r; [now right|apply IHl; [eauto|congruence]|apply IHr; congruence|reflexivity]).
    constructor; [apply IHl|apply IHr]; congruence.
Qed.
Lemma depth_lemma m sc t r : evals m sc t r -> evals_within m sc (scope_len sc) t r.
Proof.
  intros E. destruct (evals_complete _ _ _ _ E) as (_ & _ & D). apply evals_within_sound; [|exact D].
  now apply (eval_iff_evals m sc t r D).
Qed.

(** ** C05: substitution *)
Lemma eval_unfold m sc t : eval m sc t =
  match t with
  | Value x | Scalar x => Ok x
  | Add x y => let* a := eval m sc x in let* b := eval m sc y in uadd m a b
  | Mul x y => let* a := eval m sc x in let* b := eval m sc y in umul m a b
  | Var x => match scope_get sc x with Some u => eval m sc u | None => Err (not_found x) end
  end.
Proof.
  destruct t as [v|n|x|l r|l r]; unfold eval at 1; rewrite eval_fuel_unfold; try reflexivity.
  destruct (scope_get sc x) as [u|] eqn:G; [|reflexivity].
  transitivity (eval_fuel m sc (S (scope_len sc)) (Var x)).
  - rewrite (eval_stable m sc (Var x) (S (scope_len sc))) by lia. unfold eval. now rewrite eval_fuel_unfold, G.
  - now rewrite eval_fuel_unfold, G.
Qed.

Lemma evals_agree m sc sc' v u r : (forall x, x <> v -> scope_get sc' x = scope_get sc x) -> unused sc v ->
  evals m sc u r -> ~ occurs v u -> evals m sc' u r.
Proof.
  intros A U. unfold occurs.
  induction 1 as [n|n|x G|x u r G E IH|l r a b E1 IH1 E2 IH2|l r a b E1 IH1 E2 IH2
                 |op l r e Hop E IH Hno|op l r a e Hop E1 IH1 E2 IH2 Hno]; intros N; cbn in N; try (constructor; fail).
  - apply ev_unbound. rewrite A; [exact G|tauto].
  - apply ev_var with u; [rewrite A; [exact G|tauto]|]. apply IH. intros O. apply (U x); [tauto|]. exists u. now split.
  - rewrite in_app_iff in N. constructor; tauto.
  - rewrite in_app_iff in N. constructor; tauto.
  - apply ev_fail_l; auto. apply IH. destruct Hop; subst op; cbn in N; rewrite in_app_iff in N; tauto.
  - apply ev_fail_r with a; auto; [apply IH1|apply IH2]; destruct Hop; subst op; cbn in N; rewrite in_app_iff in N; tauto.
Qed.
Lemma eval_agree m sc sc' v u : (forall x, x <> v -> scope_get sc' x = scope_get sc x) -> unused sc v -> ~ occurs v u ->
  eval m sc' u = eval m sc u.
Proof.
  intros A U N.
  assert (U' : unused sc' v). { intros x Hx (d & G & O). rewrite (A x Hx) in G. apply (U x Hx). now exists d. }
  assert (D : forall r : outcome BinNums.N, r = Diverge \/ r <> Diverge) by (intros [?|?|?|]; try (right; discriminate); now left).
  destruct (D (eval m sc u)) as [E|E].
  - destruct (D (eval m sc' u)) as [E'|E']; [congruence|]. pose proof (proj1 (eval_iff_evals m sc' u _ E') eq_refl) as V.
    apply (evals_agree m sc' sc v) in V; [|symmetry; auto|exact U'|exact N]. apply eval_iff_evals in V; congruence.
  - apply eval_iff_evals; [exact E|]. apply (evals_agree m sc sc' v); auto. now apply eval_iff_evals.
Qed.

Lemma subst_lemma m sc v s s' t : unused sc v ->
  eval m sc s = eval m (put_var sc v s') s' -> eval m sc (substitute v s t) = eval m (put_var sc v s') t.
Proof.
  intros U E. induction t as [w|k|x|l IHl r IHr|l IHl r IHr]; cbn [substitute].
  - now rewrite (eval_unfold _ (put_var _ _ _)), eval_unfold.
  - now rewrite (eval_unfold _ (put_var _ _ _)), eval_unfold.
  - destruct (String.eqb_spec x v) as [->|Hn].
    + rewrite (eval_unfold _ (put_var _ _ _)), get_put_eq. exact E.
    + symmetry. apply (eval_agree m sc _ v); auto.
      * intros y Hy. apply get_put_ne. congruence.
      * cbn. intros [O|[]]. congruence.
  - rewrite (eval_unfold _ (put_var _ _ _)), eval_unfold. now rewrite IHl, IHr.
  - rewrite (eval_unfold _ (put_var _ _ _)), eval_unfold. now rewrite IHl, IHr.
Qed.
Lemma subst_value_gen m sc v s n t : unused sc v -> eval m sc s = Ok n ->
  eval m sc (substitute v s t) = eval m (put_var sc v (Scalar n)) t.
Proof. intros U E. apply subst_lemma; [exact U|]. rewrite (eval_unfold _ (put_var _ _ _)). exact E. Qed.
Lemma subst_term_gen m sc v s t : unused sc v -> ~ occurs v s ->
  eval m sc (substitute v s t) = eval m (put_var sc v s) t.
Proof.
  intros U N. apply subst_lemma; [exact U|]. symmetry. apply (eval_agree m sc _ v); auto.
  intros y Hy. apply get_put_ne. congruence.
Qed.
Lemma number_unused sc v : number_scope sc -> unused sc v.
Proof. intros H x Hx (u & G & O). specialize (H x u G). destruct u; cbn in *; try congruence; contradiction. Qed.
