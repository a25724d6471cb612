(** Proofs about two-dimensional terms and the sanity check. *)
From Coq Require Import List String Arith NArith Bool Lia.
From Verif Require Import Base ScopeM TermM SpecTerm SpecChrom TermP.
Import ListNotations.

Lemma simplify_restrict d t : simplify d t = Ok (restrict d t).
Proof.
  unfold simplify. induction t as [w|n|x|l IHl r IHr|l IHl r IHr]; simpl; auto.
  - destruct d; reflexivity.
  - rewrite IHl, IHr. reflexivity.
  - rewrite IHl, IHr. reflexivity.
Qed.

Lemma get_restrict d sc x : scope_get (restrict_scope d sc) x = option_map (restrict d) (scope_get sc x).
Proof.
  unfold scope_get, restrict_scope. induction sc as [|[k u] sc IH]; simpl; auto.
  destruct (str_cmp x k); auto.
Qed.

Lemma ceval_fuel_unfold m ctx f t :
  ceval_fuel m ctx f t =
    match t with
    | Value x => Ok x
    | Scalar _ => Panic "Scalars cannot be evaluated; qed"
    | Add x y => let* a := ceval_fuel m ctx f x in let* b := ceval_fuel m ctx f y in wadd m a b
    | Mul x y =>
        match x, y with
        | Scalar k, y => let* w := ceval_fuel m ctx f y in wscale m k w
        | x, Scalar k => let* w := ceval_fuel m ctx f x in wscale m k w
        | Var v, y =>
            match scope_get ctx v with
            | Some (Scalar k) => let* w := ceval_fuel m ctx f y in mul_scalar m w k
            | Some _ => Err (not_scalar v)
            | None => Err (not_found v)
            end
        | x, Var v =>
            match scope_get ctx v with
            | Some (Scalar k) => let* w := ceval_fuel m ctx f x in mul_scalar m w k
            | Some _ => Err (not_scalar v)
            | None => Err (not_found v)
            end
        | _, _ => Panic "Cannot multiply two terms; qed"
        end
    | Var x => match scope_get ctx x with
               | Some var => match f with
                             | O => Diverge
                             | S f => ceval_fuel m ctx f var
                             end
               | None => Err (not_found x)
               end
    end.
Proof. destruct f, t; reflexivity. Qed.
Global Arguments ceval_fuel m ctx fuel _ : simpl never.

Lemma wadd_coord m v w s d : wadd m v w = Ok s -> uadd m (coord d v) (coord d w) = Ok (coord d s).
Proof.
  unfold wadd. destruct (uadd m (time v) (time w)) eqn:A; try discriminate.
  destruct (uadd m (proof v) (proof w)) eqn:B; try discriminate. simpl.
  inversion 1; subst. destruct d; simpl; auto.
Qed.
Lemma wscale_coord m k w s d : wscale m k w = Ok s -> umul m k (coord d w) = Ok (coord d s).
Proof.
  unfold wscale. destruct (umul m k (time w)) eqn:A; try discriminate.
  destruct (umul m k (proof w)) eqn:B; try discriminate. simpl.
  inversion 1; subst. destruct d; simpl; auto.
Qed.
Lemma mul_scalar_coord m k w s d : mul_scalar m w k = Ok s -> umul m (coord d w) k = Ok (coord d s).
Proof.
  unfold mul_scalar. destruct (umul m (time w) k) eqn:A; try discriminate.
  destruct (umul m (proof w) k) eqn:B; try discriminate. simpl.
  inversion 1; subst. destruct d; simpl; auto.
Qed.
Lemma umul_comm m a b : umul m a b = umul m b a.
Proof. unfold umul. now rewrite N.mul_comm. Qed.

Lemma bind_ok {A B} (x : outcome A) (k : A -> outcome B) b :
  bind x k = Ok b -> exists a, x = Ok a /\ k a = Ok b.
Proof. destruct x; simpl; try discriminate. eauto. Qed.

Lemma eval_fuel_scalar m sc f k : eval_fuel m sc f (Scalar k) = Ok k.
Proof. now rewrite eval_fuel_unfold. Qed.

Lemma ceval_restrict m d ctx f t w :
  ceval_fuel m ctx f t = Ok w ->
  eval_fuel m (restrict_scope d ctx) (S f) (restrict d t) = Ok (coord d w).
Proof.
  revert t w. induction f as [|f IHf].
  - induction t as [v|n|x|l IHl r IHr|l IHl r IHr]; intros w; rewrite ceval_fuel_unfold, eval_fuel_unfold; simpl.
    + now inversion 1.
    + discriminate.
    + destruct (scope_get ctx x); discriminate.
    + intros E. apply bind_ok in E as (a & Ea & E). apply bind_ok in E as (b & Eb & E).
      rewrite (IHl _ Ea), (IHr _ Eb). simpl. now apply wadd_coord.
    + intros E.
      assert (C1 : forall k, l = Scalar k -> exists y, ceval_fuel m ctx 0 r = Ok y /\ wscale m k y = Ok w).
      { intros k ->. apply bind_ok in E. exact E. }
      assert (HV : forall v k, scope_get ctx v = Some (Scalar k) ->
                 eval_fuel m (restrict_scope d ctx) 1 (Var v) = Ok k).
      { intros v k G. rewrite eval_fuel_unfold, get_restrict, G. reflexivity. }
      destruct l as [v|k|v|l1 l2|l1 l2].
      2: { destruct (C1 k eq_refl) as (y & Ey & Ew). rewrite (IHr _ Ey).
           cbn [restrict]. rewrite eval_fuel_scalar. cbn [bind]. now apply wscale_coord. }
      all: clear C1; destruct r as [u|j|u|r1 r2|r1 r2]; try discriminate E.
      all: try (apply bind_ok in E as (y & Ey & Ew); rewrite (IHl _ Ey); cbn [restrict]; rewrite eval_fuel_scalar; cbn [bind];
                rewrite umul_comm; now apply wscale_coord).
      all: try (destruct (scope_get ctx u) as [[|kk| | |]|] eqn:G; try discriminate E;
                apply bind_ok in E as (y & Ey & Ew); cbn [restrict] in *; rewrite (IHl _ Ey), (HV _ _ G); cbn [bind];
                now apply mul_scalar_coord).
      all: try (destruct (scope_get ctx v) as [[|kk| | |]|] eqn:G; try discriminate E;
                apply bind_ok in E as (y & Ey & Ew); cbn [restrict] in *; rewrite (HV _ _ G); cbn [bind]; rewrite (IHr _ Ey); cbn [bind];
                rewrite umul_comm; now apply mul_scalar_coord).
  - induction t as [v|n|x|l IHl r IHr|l IHl r IHr]; intros w; rewrite ceval_fuel_unfold, eval_fuel_unfold; simpl.
    + now inversion 1.
    + discriminate.
    + rewrite get_restrict. destruct (scope_get ctx x); simpl; [|discriminate]. apply IHf.
    + intros E. apply bind_ok in E as (a & Ea & E). apply bind_ok in E as (b & Eb & E).
      rewrite (IHl _ Ea), (IHr _ Eb). simpl. now apply wadd_coord.
    + intros E.
      assert (C1 : forall k, l = Scalar k -> exists y, ceval_fuel m ctx (S f) r = Ok y /\ wscale m k y = Ok w).
      { intros k ->. apply bind_ok in E. exact E. }
      assert (HV : forall v k, scope_get ctx v = Some (Scalar k) ->
                 eval_fuel m (restrict_scope d ctx) (S (S f)) (Var v) = Ok k).
      { intros v k G. rewrite eval_fuel_unfold, get_restrict, G. simpl. now rewrite eval_fuel_unfold. }
      destruct l as [v|k|v|l1 l2|l1 l2].
      2: { destruct (C1 k eq_refl) as (y & Ey & Ew). rewrite (IHr _ Ey).
           cbn [restrict]. rewrite eval_fuel_scalar. cbn [bind]. now apply wscale_coord. }
      all: clear C1; destruct r as [u|j|u|r1 r2|r1 r2]; try discriminate E.
      all: try (apply bind_ok in E as (y & Ey & Ew); rewrite (IHl _ Ey); cbn [restrict]; rewrite eval_fuel_scalar; cbn [bind];
                rewrite umul_comm; now apply wscale_coord).
      all: try (destruct (scope_get ctx u) as [[|kk| | |]|] eqn:G; try discriminate E;
                apply bind_ok in E as (y & Ey & Ew); cbn [restrict] in *; rewrite (IHl _ Ey), (HV _ _ G); cbn [bind];
                now apply mul_scalar_coord).
      all: try (destruct (scope_get ctx v) as [[|kk| | |]|] eqn:G; try discriminate E;
                apply bind_ok in E as (y & Ey & Ew); cbn [restrict] in *; rewrite (HV _ _ G); cbn [bind]; rewrite (IHr _ Ey); cbn [bind];
                rewrite umul_comm; now apply mul_scalar_coord).
Qed.

Lemma restrict_len d sc : scope_len (restrict_scope d sc) = scope_len sc.
Proof. unfold scope_len, restrict_scope. apply map_length. Qed.

Lemma chrom_simplify_lemma : forall m d ctx t,
  simplify d t = Ok (restrict d t) /\
  (forall w, ceval m ctx t = Ok w ->
     eval m (restrict_scope d ctx) (restrict d t) = Ok (coord d w)).
Proof.
  intros m d ctx t. split; [apply simplify_restrict|]. intros w E.
  rewrite <- (eval_stable m _ _ (S (scope_len ctx))) by (rewrite restrict_len; lia).
  now apply ceval_restrict.
Qed.

(** ** C08 *)
Lemma into_chromatic_same m d sc f t :
  eval_fuel m sc f (restrict d (into_chromatic d t)) = eval_fuel m sc f t.
Proof.
  induction t as [v|n|x|l IHl r IHr|l IHl r IHr]; simpl; auto.
  - destruct d; reflexivity.
  - rewrite !eval_fuel_unfold. destruct d; reflexivity.
  - rewrite (eval_fuel_unfold _ _ f (Add _ _)), (eval_fuel_unfold _ _ f (Add l r)). now rewrite IHl, IHr.
  - rewrite (eval_fuel_unfold _ _ f (Mul _ _)), (eval_fuel_unfold _ _ f (Mul l r)). now rewrite IHl, IHr.
Qed.

Fixpoint guardb {T} (t : term T) : bool :=
  match t with
  | Value _ | Scalar _ => true
  | Var _ => false
  | Add l r => guardb l && guardb r
  | Mul l r => guardb l || guardb r
  end.

Lemma lit_monomials_ne {T} (t : term T) : lit_monomials t <> [].
Proof.
  induction t as [v|n|x|l IHl r IHr|l IHl r IHr]; simpl; try discriminate.
  - destruct (lit_monomials l); [congruence|discriminate].
  - destruct (lit_monomials l); [congruence|]. simpl. destruct (lit_monomials r); [congruence|discriminate].
Qed.

Lemma guardb_spec {T} (t : term T) : guardb t = true <-> guarded t.
Proof.
  unfold guarded. induction t as [v|n|x|l IHl r IHr|l IHl r IHr]; simpl.
  - split; auto. intros _ p [<-|[]]; auto.
  - split; auto. intros _ p [<-|[]]; auto.
  - split; [discriminate|]. intros H. apply (H (false, [x])). now left.
  - rewrite andb_true_iff, IHl, IHr. split.
    + intros [A B] p Hp. apply in_app_or in Hp as [Hp|Hp]; auto.
    + intros H; split; intros p Hp; apply H, in_or_app; auto.
  - rewrite orb_true_iff, IHl, IHr. split.
    + intros H p Hp. apply in_flat_map in Hp as (a & Ha & Hp). apply in_map_iff in Hp as (b & <- & Hb).
      simpl. destruct H as [H|H]; [rewrite (H _ Ha)|rewrite (H _ Hb)]; auto using orb_true_r.
    + intros H. destruct (guardb l) eqn:Gl; [left; now apply IHl|].
      right. assert (exists a, In a (lit_monomials l) /\ fst a = false) as (a & Ha & Fa).
      { assert (NG : ~ forall p, In p (lit_monomials l) -> fst p = true) by (rewrite <- IHl; discriminate).
        destruct (forallb fst (lit_monomials l)) eqn:FA.
        - exfalso. apply NG. now apply forallb_forall.
        - clear -FA. induction (lit_monomials l) as [|p q IH]; simpl in *; [discriminate|].
          destruct (fst p) eqn:P; [|exists p; auto]. destruct (IH FA) as (a & Ha & Fa). exists a; auto. }
      intros b Hb. assert (E : (fst a || fst b)%bool = true).
      { change (fst (fst a || fst b, snd a ++ snd b)%bool = true). apply H.
        apply in_flat_map. exists a. split; auto. apply in_map_iff. exists b. auto. }
      rewrite Fa in E. exact E.
Qed.

Lemma uadd_0 m n : (n = 0)%N -> uadd m 0 n = Ok 0%N.
Proof. intros ->. unfold uadd. simpl. pose proof u128_bound_pos. apply N.ltb_lt in H. now rewrite H. Qed.
Lemma umul_0_l m n : umul m 0 n = Ok 0%N.
Proof. unfold umul. simpl. pose proof u128_bound_pos. apply N.ltb_lt in H. now rewrite H. Qed.
Lemma umul_0_r m n : umul m n 0 = Ok 0%N.
Proof. rewrite umul_comm. apply umul_0_l. Qed.

Lemma into_chromatic_other m d sc f t n :
  guardb t = true -> eval_fuel m sc f (restrict (other d) (into_chromatic d t)) = Ok n -> n = 0%N.
Proof.
  revert n. induction t as [v|k|x|l IHl r IHr|l IHl r IHr]; simpl; intros n G E.
  - rewrite eval_fuel_unfold in E. destruct d; inversion E; auto.
  - rewrite eval_fuel_unfold in E. destruct d; inversion E; auto.
  - discriminate.
  - rewrite eval_fuel_unfold in E. apply andb_true_iff in G as [Gl Gr].
    apply bind_ok in E as (a & Ea & E). apply bind_ok in E as (b & Eb & E).
    rewrite (IHl _ Gl Ea), (IHr _ Gr Eb) in E. rewrite uadd_0 in E by auto. congruence.
  - rewrite eval_fuel_unfold in E. apply bind_ok in E as (a & Ea & E). apply bind_ok in E as (b & Eb & E).
    apply orb_true_iff in G as [G|G].
    + rewrite (IHl _ G Ea), umul_0_l in E. congruence.
    + rewrite (IHr _ G Eb), umul_0_r in E. congruence.
Qed.

(** An unguarded term leaks: with every variable set to one the other dimension
    is not zero. *)
Lemma poly_other d t :
  guardb t = false -> (poly_val (fun _ => 1%N) (restrict (other d) (into_chromatic d t)) > 0)%N.
Proof.
  induction t as [v|k|x|l IHl r IHr|l IHl r IHr]; simpl; intros G; pv; try discriminate.
  - lia.
  - apply andb_false_iff in G as [G|G]; [specialize (IHl G)|specialize (IHr G)]; lia.
  - apply orb_false_iff in G as [Gl Gr]. specialize (IHl Gl). specialize (IHr Gr). nia.
Qed.

Lemma into_chromatic_lemma : forall d t,
  (forall m sc, eval m sc (restrict d (into_chromatic d t)) = eval m sc t) /\
  (guarded t -> forall m sc n, eval m sc (restrict (other d) (into_chromatic d t)) = Ok n -> n = 0%N) /\
  (~ guarded t -> (0 < poly_val (fun _ => 1%N) (restrict (other d) (into_chromatic d t)))%N).
Proof.
  intros d t. split; [|split].
  - intros m sc. apply into_chromatic_same.
  - intros G m sc n. apply into_chromatic_other. now apply guardb_spec.
  - intros G. apply N.gt_lt, poly_other. destruct (guardb t) eqn:E; auto. exfalso. now apply G, guardb_spec.
Qed.

(** ** C09 *)
Lemma uadd_assoc4 m a b c d ab cd s :
  uadd m a b = Ok ab -> uadd m c d = Ok cd -> uadd m ab cd = Ok s ->
  exists ac bd, uadd m a c = Ok ac /\ uadd m b d = Ok bd /\ uadd m ac bd = Ok s.
Proof.
  destruct m.
  - unfold uadd. intros H1 H2 H3.
    destruct (N.ltb_spec (a + b) u128_bound); inversion H1; subst.
    destruct (N.ltb_spec (c + d) u128_bound); inversion H2; subst.
    destruct (N.ltb_spec (a + b + (c + d)) u128_bound); inversion H3; subst.
    exists (a + c)%N, (b + d)%N. repeat split.
    + destruct (N.ltb_spec (a + c) u128_bound); auto. lia.
    + destruct (N.ltb_spec (b + d) u128_bound); auto. lia.
    + destruct (N.ltb_spec (a + c + (b + d)) u128_bound); [f_equal; lia|lia].
  - rewrite !uadd_wrapping. intros H1 H2 H3. inversion H1; inversion H2; inversion H3; subst.
    exists ((a + c) mod u128_bound)%N, ((b + d) mod u128_bound)%N.
    rewrite !uadd_wrapping. repeat split; auto. f_equal.
    assert (u128_bound <> 0)%N by (pose proof u128_bound_pos; lia).
    rewrite <- !N.add_mod by auto. f_equal. lia.
Qed.

Lemma wadd_assoc4 m a b c d ab cd s :
  wadd m a b = Ok ab -> wadd m c d = Ok cd -> wadd m ab cd = Ok s ->
  exists ac bd, wadd m a c = Ok ac /\ wadd m b d = Ok bd /\ wadd m ac bd = Ok s.
Proof.
  intros H1 H2 H3.
  destruct (uadd_assoc4 m _ _ _ _ _ _ _ (wadd_coord _ _ _ _ Time H1) (wadd_coord _ _ _ _ Time H2)
              (wadd_coord _ _ _ _ Time H3)) as (t1 & t2 & T1 & T2 & T3).
  destruct (uadd_assoc4 m _ _ _ _ _ _ _ (wadd_coord _ _ _ _ Proof_size H1) (wadd_coord _ _ _ _ Proof_size H2)
              (wadd_coord _ _ _ _ Proof_size H3)) as (p1 & p2 & P1 & P2 & P3).
  simpl in *.
  exists {| time := t1; proof := p1 |}, {| time := t2; proof := p2 |}. unfold wadd.
  rewrite T1, P1, T2, P2. simpl. rewrite T3, P3. simpl. destruct s; auto.
Qed.

(** Weights written in a program are pairs of [u128]. *)
Lemma uadd_0_l m a : (a < u128_bound)%N -> uadd m 0 a = Ok a.
Proof. intros H. unfold uadd. rewrite N.add_0_l. apply N.ltb_lt in H. now rewrite H. Qed.
Lemma uadd_0_r m a : (a < u128_bound)%N -> uadd m a 0 = Ok a.
Proof. intros H. unfold uadd. rewrite N.add_0_r. apply N.ltb_lt in H. now rewrite H. Qed.

Lemma splice_values m x y s :
  u128_weight x -> u128_weight y -> wadd m x y = Ok s ->
  forall f ctx, ceval_fuel m ctx f (splice_add (Value x) (Value y)) = Ok s.
Proof.
  intros [X1 X2] [Y1 Y2] Es f ctx. simpl.
  pose proof (wadd_coord _ _ _ _ Time Es) as A. pose proof (wadd_coord _ _ _ _ Proof_size Es) as B.
  simpl in A, B.
  assert (GEN : ceval_fuel m ctx f (Add (Value x) (Value y)) = Ok s)
    by (rewrite !ceval_fuel_unfold; exact Es).
  destruct (N.eqb_spec (time x) 0) as [Z1|]; destruct (N.eqb_spec (proof y) 0) as [Z2|]; simpl;
    try (rewrite ceval_fuel_unfold; rewrite ?Z1, ?Z2 in *; rewrite ?uadd_0_l in A by auto;
         rewrite ?uadd_0_r in B by auto; destruct s; simpl in *; congruence);
  destruct (N.eqb_spec (proof x) 0) as [Z3|]; destruct (N.eqb_spec (time y) 0) as [Z4|]; simpl; auto;
    rewrite ceval_fuel_unfold; rewrite ?Z3, ?Z4 in *; rewrite ?uadd_0_r in A by auto;
         rewrite ?uadd_0_l in B by auto; destruct s; simpl in *; congruence.
Qed.

Lemma splice_ceval m ctx f a b v w s :
  u128_cterm a -> u128_cterm b ->
  ceval_fuel m ctx f a = Ok v -> ceval_fuel m ctx f b = Ok w -> wadd m v w = Ok s ->
  ceval_fuel m ctx f (splice_add a b) = Ok s.
Proof.
  revert b v w s. induction a as [x|n|x|l IHl r IHr|l IHl r IHr]; intros b v w s Ua Ub Ea Eb Es.
  5: { simpl. destruct b; rewrite (ceval_fuel_unfold _ _ _ (Add _ _)), Ea, Eb; exact Es. }
  2, 3: simpl; destruct b; rewrite (ceval_fuel_unfold _ _ _ (Add _ _)), Ea, Eb; exact Es.
  - destruct b as [y|n|y|l r|l r]; try (simpl; rewrite (ceval_fuel_unfold _ _ _ (Add _ _)), Ea, Eb; exact Es).
    rewrite ceval_fuel_unfold in Ea, Eb. inversion Ea; inversion Eb; subst. now apply splice_values.
  - destruct b as [y|n|y|l' r'|l' r']; try (simpl; rewrite (ceval_fuel_unfold _ _ _ (Add _ _)), Ea, Eb; exact Es).
    simpl. simpl in Ua, Ub. rewrite ceval_fuel_unfold in Ea, Eb.
    apply bind_ok in Ea as (a1 & Ea1 & Ea). apply bind_ok in Ea as (a2 & Ea2 & Ea).
    apply bind_ok in Eb as (b1 & Eb1 & Eb). apply bind_ok in Eb as (b2 & Eb2 & Eb).
    destruct (wadd_assoc4 _ _ _ _ _ _ _ _ Ea Eb Es) as (ac & bd & H1 & H2 & H3).
    rewrite ceval_fuel_unfold, (IHl l' a1 b1 ac), (IHr r' a2 b2 bd) by tauto. exact H3.
Qed.

Lemma splice_restrict m d sc f a b v w s :
  u128_cterm a -> u128_cterm b ->
  eval_fuel m sc f (restrict d a) = Ok v -> eval_fuel m sc f (restrict d b) = Ok w -> uadd m v w = Ok s ->
  eval_fuel m sc f (restrict d (splice_add a b)) = Ok s.
Proof.
  revert b v w s. induction a as [x|n|x|l IHl r IHr|l IHl r IHr]; intros b v w s Ua Ub Ea Eb Es.
  5: { simpl. destruct b; cbn [restrict]; rewrite (eval_fuel_unfold _ _ _ (Add _ _)); cbn [restrict] in *;
       rewrite Ea, Eb; exact Es. }
  2, 3: simpl; destruct b; cbn [restrict]; rewrite (eval_fuel_unfold _ _ _ (Add _ _)); cbn [restrict] in *;
       rewrite Ea, Eb; exact Es.
  - assert (GEN : eval_fuel m sc f (restrict d (Add (Value x) b)) = Ok s).
    { cbn [restrict]. rewrite (eval_fuel_unfold _ _ _ (Add _ _)); cbn [restrict] in *. rewrite Ea, Eb. exact Es. }
    destruct b as [y|n|y|l r|l r]; try exact GEN.
    clear GEN. destruct Ua as [X1 X2], Ub as [Y1 Y2]. cbn [restrict] in Ea, Eb.
    rewrite eval_fuel_unfold in Ea, Eb. inversion Ea; inversion Eb; subst.
    simpl.
    destruct (N.eqb_spec (time x) 0) as [Z1|]; destruct (N.eqb_spec (proof y) 0) as [Z2|]; simpl.
    1: { rewrite eval_fuel_unfold. destruct d; simpl in *; [rewrite Z1, uadd_0_l in Es by auto|rewrite Z2, uadd_0_r in Es by auto]; auto. }
    all: destruct (N.eqb_spec (proof x) 0) as [Z3|]; destruct (N.eqb_spec (time y) 0) as [Z4|]; cbn [andb restrict];
      rewrite !eval_fuel_unfold; auto;
      destruct d; simpl in *; rewrite ?Z3, ?Z4 in *; rewrite ?uadd_0_r in Es by auto; rewrite ?uadd_0_l in Es by auto; auto.
  - assert (GEN : eval_fuel m sc f (restrict d (Add (Add l r) b)) = Ok s).
    { cbn [restrict]. rewrite (eval_fuel_unfold _ _ _ (Add _ _)); cbn [restrict] in *. rewrite Ea, Eb. exact Es. }
    destruct b as [y|n|y|l' r'|l' r']; try exact GEN.
    clear GEN. cbn [restrict splice_add] in *. rewrite eval_fuel_unfold in Ea, Eb. simpl in Ua, Ub.
    apply bind_ok in Ea as (a1 & Ea1 & Ea). apply bind_ok in Ea as (a2 & Ea2 & Ea).
    apply bind_ok in Eb as (b1 & Eb1 & Eb). apply bind_ok in Eb as (b2 & Eb2 & Eb).
    destruct (uadd_assoc4 _ _ _ _ _ _ _ _ Ea Eb Es) as (ac & bd & H1 & H2 & H3).
    rewrite eval_fuel_unfold, (IHl l' a1 b1 ac), (IHr r' a2 b2 bd) by tauto. exact H3.
Qed.

(** Without the wrap-around: the denoted polynomials add up. *)
Lemma splice_poly d rho a b :
  poly_val rho (restrict d (splice_add a b)) =
  (poly_val rho (restrict d a) + poly_val rho (restrict d b))%N.
Proof.
  revert b. induction a as [x|n|x|l IHl r IHr|l IHl r IHr]; intros b.
  - destruct b as [y| | | |]; simpl; pv; auto.
    destruct (N.eqb_spec (time x) 0) as [Z1|]; destruct (N.eqb_spec (proof y) 0) as [Z2|]; simpl;
    destruct (N.eqb_spec (proof x) 0) as [Z3|]; destruct (N.eqb_spec (time y) 0) as [Z4|]; simpl; pv; destruct d; simpl; lia.
  - destruct b; simpl; pv; auto.
  - destruct b; simpl; pv; auto.
  - destruct b as [y|n|y|l' r'|l' r']; cbn [restrict splice_add]; pv; auto. rewrite IHl, IHr. lia.
  - destruct b; simpl; pv; auto.
Qed.

Lemma splice_lemma : forall m a b, u128_cterm a -> u128_cterm b ->
  (forall ctx v w s, ceval m ctx a = Ok v -> ceval m ctx b = Ok w -> wadd m v w = Ok s ->
     ceval m ctx (splice_add a b) = Ok s) /\
  (forall d sc v w s, eval m sc (restrict d a) = Ok v -> eval m sc (restrict d b) = Ok w ->
     uadd m v w = Ok s -> eval m sc (restrict d (splice_add a b)) = Ok s) /\
  (forall d rho, poly_val rho (restrict d (splice_add a b)) =
     (poly_val rho (restrict d a) + poly_val rho (restrict d b))%N).
Proof.
  intros m a b Ua Ub. split; [|split].
  - intros ctx v w s. now apply splice_ceval.
  - intros d sc v w s. now apply splice_restrict.
  - intros. apply splice_poly.
Qed.

(** ** C10: the sanity check *)
Lemma factor_at_spec {T} x (t : term T) k :
  factor_at x t = Some k <-> t = Mul (Scalar k) (Var x) \/ t = Mul (Var x) (Scalar k).
Proof.
  destruct t as [v|n|y|l r|l r]; simpl; try (split; [discriminate|intros [|]; discriminate]).
  unfold is_var. destruct l as [vl|nl|yl|? ?|? ?]; destruct r as [vr|nr|yr|? ?|? ?]; simpl;
    rewrite ?andb_false_r; simpl; try (split; [discriminate|intros [H|H]; inversion H]).
  - rewrite andb_true_r. destruct (String.eqb_spec yr x).
    + subst. split; [now inversion 1; left|]. intros [H|H]; now inversion H.
    + split; [discriminate|]. intros [H|H]; inversion H. congruence.
  - rewrite andb_true_r. destruct (String.eqb_spec yl x).
    + subst. split; [now inversion 1; right|]. intros [H|H]; now inversion H.
    + split; [discriminate|]. intros [H|H]; inversion H. congruence.
Qed.

Lemma visit_in {T R} (f : term T -> R) t y : In y (visit f t) <-> exists s, subterm s t /\ f s = y.
Proof.
  induction t as [v|n|x|l IHl r IHr|l IHl r IHr]; simpl.
  - split; [intros [<-|[]]; exists (Value v); split; auto; constructor|].
    intros (s & Hs & <-). inversion Hs; auto.
  - split; [intros [<-|[]]; exists (Scalar n); split; auto; constructor|].
    intros (s & Hs & <-). inversion Hs; auto.
  - split; [intros [<-|[]]; exists (Var x); split; auto; constructor|].
    intros (s & Hs & <-). inversion Hs; auto.
  - rewrite in_app_iff, IHl, IHr. split.
    + intros [<-|[(s & Hs & <-)|(s & Hs & <-)]]; eexists; split; eauto;
        [apply sub_here|now apply sub_add_l|now apply sub_add_r].
    + intros (s & Hs & <-). inversion Hs; subst; eauto.
  - rewrite in_app_iff, IHl, IHr. split.
    + intros [<-|[(s & Hs & <-)|(s & Hs & <-)]]; eexists; split; eauto;
        [apply sub_here|now apply sub_mul_l|now apply sub_mul_r].
    + intros (s & Hs & <-). inversion Hs; subst; eauto.
Qed.

Lemma flat_max_spec l :
  match flat_max l with
  | Some k => In (Some k) l /\ forall j, In (Some j) l -> (j <= k)%N
  | None => forall j, ~ In (Some j) l
  end.
Proof.
  induction l as [|[x|] l IH]; simpl; auto.
  - destruct (flat_max l) as [y|].
    + destruct IH as [I M]. split.
      * destruct (N.max_spec x y) as [[_ ->]|[_ ->]]; auto.
      * intros j [E|H]; [inversion E; lia|]. specialize (M _ H). lia.
    + split; auto. intros j [E|H]; [inversion E; lia|]. now apply IH in H.
  - destruct (flat_max l) as [y|].
    + destruct IH as [I M]. split; auto. intros j [E|H]; [discriminate|auto].
    + intros j [E|H]; [discriminate|]. now apply IH in H.
Qed.

Lemma largest_spec {T} (t : term T) x :
  match find_largest_factor t x with
  | Some k => has_factor t x k /\ forall j, has_factor t x j -> (j <= k)%N
  | None => forall j, ~ has_factor t x j
  end.
Proof.
  unfold find_largest_factor, has_factor. pose proof (flat_max_spec (visit (factor_at x) t)) as H.
  assert (E : forall k, In (Some k) (visit (factor_at x) t) <->
    subterm (Mul (Scalar k) (Var x)) t \/ subterm (Mul (Var x) (Scalar k)) t).
  { intros k. rewrite visit_in. split.
    - intros (s & Hs & F). apply factor_at_spec in F as [->| ->]; auto.
    - intros [Hs|Hs]; eexists; split; eauto; apply factor_at_spec; auto. }
  destruct (flat_max (visit (factor_at x) t)) as [k|].
  - destruct H as [I M]. split; [now apply E|]. intros j Hj. apply M. now apply E.
  - intros j Hj. apply (H j). now apply E.
Qed.

Lemma sanity_lemma : forall t,
  (sanity_check_term t = Ok tt <->
     forall x k, (x = "READ"%string \/ x = "WRITE"%string) -> has_factor t x k -> (k <= 1000)%N) /\
  (forall msg, sanity_check_term t = Err msg <->
     exists k, (1000 < k)%N /\
       (forall x j, (x = "READ"%string \/ x = "WRITE"%string) -> has_factor t x j -> (j <= k)%N) /\
       ((has_factor t "WRITE" k /\ msg = ("Call has " ++ dec_of_N k ++ " WRITEs")%string) \/
        (has_factor t "READ" k /\ ~ has_factor t "WRITE" k /\
         msg = ("Call has " ++ dec_of_N k ++ " READs")%string))) /\
  returns (sanity_check_term t).
Proof.
  intros t. unfold sanity_check_term.
  pose proof (largest_spec t "READ") as HR. pose proof (largest_spec t "WRITE") as HW.
  set (R := match find_largest_factor t "READ" with Some x => x | None => 0%N end).
  set (W := match find_largest_factor t "WRITE" with Some x => x | None => 0%N end).
  assert (UR : forall j, has_factor t "READ" j -> (j <= R)%N).
  { unfold R. destruct (find_largest_factor t "READ"); intros j Hj; [now apply HR|now apply HR in Hj]. }
  assert (UW : forall j, has_factor t "WRITE" j -> (j <= W)%N).
  { unfold W. destruct (find_largest_factor t "WRITE"); intros j Hj; [now apply HW|now apply HW in Hj]. }
  assert (IR : (0 < R)%N -> has_factor t "READ" R).
  { unfold R. destruct (find_largest_factor t "READ"); [intros; apply HR|lia]. }
  assert (IW : (0 < W)%N -> has_factor t "WRITE" W).
  { unfold W. destruct (find_largest_factor t "WRITE"); [intros; apply HW|lia]. }
  clearbody R W. clear HR HW.
  destruct (N.ltb_spec 1000 (N.max R W)) as [B|B].
  - split; [|split].
    + split; [destruct (_ <? _)%N; discriminate|]. intros H. exfalso.
      destruct (N.max_spec R W) as [[_ E]|[_ E]]; rewrite E in B.
      * specialize (H "WRITE"%string W). specialize (H (or_intror eq_refl)). specialize (H (IW ltac:(lia))). lia.
      * specialize (H "READ"%string R). specialize (H (or_introl eq_refl)). specialize (H (IR ltac:(lia))). lia.
    + intros msg. destruct (N.ltb_spec W R) as [C|C].
      * split.
        -- inversion 1; subst. exists R. split; [lia|]. split.
           ++ intros x j [->| ->] Hj; [now apply UR|apply UW in Hj; lia].
           ++ right. split; [apply IR; lia|]. split; auto. intros Hj. apply UW in Hj. lia.
        -- intros (k & K & U & [[F ->]|(F & NF & ->)]).
           ++ exfalso. pose proof (UW _ F). pose proof (U "READ"%string R (or_introl eq_refl) (IR ltac:(lia))). lia.
           ++ pose proof (UR _ F). pose proof (U "READ"%string R (or_introl eq_refl) (IR ltac:(lia))).
              replace k with R by lia. reflexivity.
      * split.
        -- inversion 1; subst. exists W. split; [lia|]. split.
           ++ intros x j [->| ->] Hj; [apply UR in Hj; lia|now apply UW].
           ++ left. split; [apply IW; lia|auto].
        -- intros (k & K & U & [[F ->]|(F & NF & ->)]).
           ++ pose proof (UW _ F). pose proof (U "WRITE"%string W (or_intror eq_refl) (IW ltac:(lia))).
              replace k with W by lia. reflexivity.
           ++ exfalso. pose proof (UR _ F). pose proof (U "WRITE"%string W (or_intror eq_refl) (IW ltac:(lia))).
              apply NF. replace k with W by lia. apply IW. lia.
    + destruct (_ <? _)%N; exact I.
  - split; [|split; [|exact I]].
    + split; auto. intros _ x k [->| ->] Hk; [apply UR in Hk|apply UW in Hk]; lia.
    + intros msg. split; [discriminate|]. intros (k & K & U & [[F _]|(F & _)]).
      * apply UW in F. lia.
      * apply UR in F. lia.
Qed.
