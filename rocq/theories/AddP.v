(** Proofs about functions that exist in one version only. *)
From Coq Require Import List String Ascii NArith ZArith Lia Bool Sorted.
From Verif Require Import Base ScopeM TermM SpecTerm SpecChrom F64 CompareM SpecCompare CompareP CompareP2 CompareP3 CompareP4.
From Verif Require Import SpecAdd.
From Verif Require CompareP4.
Import ListNotations.
Local Open Scope string_scope.
Local Open Scope N_scope.

(** ** The first of the scopes *)
Lemma same_keys (s s' : sscope) : scope_wf s -> scope_wf s' -> (forall x, scope_get s x = None <-> scope_get s' x = None) -> keys s = keys s'.
Proof.
  intros W W' E. apply (sorted_set_ext _ str_cmp_strict); [exact W|exact W'|]. intros x. specialize (E x). unfold scope_get in E. rewrite !(mget_none _ str_cmp_strict) in E.
  destruct (in_dec string_dec x (keys s)), (in_dec string_dec x (keys s')); intuition.
Qed.
Lemma lower_first (s s' : sscope) : scope_wf s -> keys s = keys s' ->
  (forall x a b, scope_get s x = Some a -> scope_get s' x = Some b -> a = b \/ sterm_cmp a b = Lt) -> sscope_cmp s s' <> Gt.
Proof.
  unfold scope_wf, map_wf, sorted_set, sscope_cmp. revert s'. induction s as [|[k v] s IH]; intros [|[k' v'] s'] W K H; try discriminate.
  cbn [keys map fst] in W, K. injection K as <- K. apply StronglySorted_inv in W. destruct W as [W F]. rewrite Forall_forall in F.
  cbn [list_cmp]. unfold pair_cmp. cbn [fst snd]. rewrite (cmp_refl _ str_cmp_strict). cbn [lex].
  destruct (H k v v') as [<-|L]; try (unfold scope_get; cbn [mget]; now rewrite (cmp_refl _ str_cmp_strict)).
  - rewrite (cmp_refl _ sterm_cmp_strict). cbn [lex]. apply IH; auto. intros x a b Ha Hb. apply (H x).
    + unfold scope_get. cbn [mget]. destruct (str_cmp x k) eqn:C; auto. apply (cmp_eq _ str_cmp_strict) in C. subst x. exfalso.
      apply mget_some_in in Ha; [|exact str_cmp_strict]. apply (in_map fst) in Ha. apply F in Ha. change (str_cmp k k = Lt) in Ha. now rewrite (cmp_refl _ str_cmp_strict) in Ha.
    + unfold scope_get. cbn [mget]. destruct (str_cmp x k) eqn:C; auto. apply (cmp_eq _ str_cmp_strict) in C. subst x. exfalso.
      apply mget_some_in in Ha; [|exact str_cmp_strict]. apply (in_map fst) in Ha. apply F in Ha. change (str_cmp k k = Lt) in Ha. now rewrite (cmp_refl _ str_cmp_strict) in Ha.
  - rewrite L. discriminate.
Qed.
(** The corner with the lower instance of every component. *)
Lemma low_corner ord a b m sc : is_order ord -> scope_wf sc -> exists s, is_corner sc a b m s /\
  forall c, component (bound_in sc) a b c -> exists v, scope_get s c = Some (Scalar v) /\ inst (low_side m) (annotations a b c) v.
Proof.
  intros Ho Hw. destruct (order_frees ord a b sc Ho) as [Hn Hi].
  exists (put_all (map (fun x => (x, instv (low_side m) (annotations a b x))) (ord (frees_of a b sc))) sc).
  assert (K : forall c, component (bound_in sc) a b c -> exists v, scope_get (put_all (map (fun x => (x, instv (low_side m) (annotations a b x))) (ord (frees_of a b sc))) sc) c = Some (Scalar v) /\
    inst (low_side m) (annotations a b c) v).
  { intros c Hc. apply Hi in Hc. exists (instv (low_side m) (annotations a b c)). split.
    - apply put_all_in; [now rewrite map_map, map_id|apply in_map_iff; eauto].
    - now apply inst_instv. }
  split; [|exact K]. split; [now apply put_all_wf|]. split.
  - intros c Hc. destruct (K c Hc) as (v & G & I). exists v. split; [exact G|now left].
  - intros x Hx. apply put_all_out. rewrite map_map, map_id. now rewrite Hi.
Qed.
(** The ranges are not empty. *)

Lemma inst_proper A m lo hi : (forall r, In r A -> rmin r <= rmax r) -> inst (low_side m) A lo -> inst (high_side m) A hi -> lo <= hi.
Proof.
  intros H L G. assert (E : low_side m = high_side m \/ low_side m = Low /\ high_side m = High) by (destruct m; auto).
  destruct E as [E|[E1 E2]].
  - rewrite E in L. apply inst_instv in L, G. subst. lia.
  - rewrite E1 in L. rewrite E2 in G. destruct A as [|r A]; [cbn in L, G; subst; lia|].
    destruct L as [I L], G as [_ G]. apply in_map_iff in I. destruct I as (x & <- & I). specialize (H x I).
    assert (rmax x <= hi) by (apply G; now apply in_map). lia.
Qed.
Lemma first_corner ord a b m sc s l : is_order ord -> scope_wf sc -> proper a b ->
  StronglySorted (fun s s' => sscope_cmp s s' = Lt) (s :: l) -> (forall s', In s' (s :: l) <-> is_corner sc a b m s') ->
  forall c, component (bound_in sc) a b c -> exists v, scope_get s c = Some (Scalar v) /\ inst (low_side m) (annotations a b c) v.
Proof.
  intros Ho Hw P S C. destruct (low_corner ord a b m sc Ho Hw) as (s0 & C0 & L0).
  assert (Cs : is_corner sc a b m s) by (apply C; now left).
  enough (E : s = s0) by (subst; exact L0). apply C in C0 as I0. destruct I0 as [I0|I0]; [exact I0|]. exfalso.
  apply StronglySorted_inv in S. destruct S as [_ F]. rewrite Forall_forall in F. specialize (F s0 I0).
  destruct Cs as (W & B & O), C0 as (W0 & B0 & O0).
  assert (D : forall x, component (bound_in sc) a b x \/ ~ component (bound_in sc) a b x).
  { intros x. rewrite <- frees_of_component. destruct (in_dec string_dec x (frees_of a b sc)); auto. }
  apply (lower_first s0 s) in W0 as G.
  - apply G. now apply (cmp_gt_lt _ sscope_cmp_strict).
  - apply same_keys; auto. intros x. destruct (D x) as [Dx|Dx].
    + destruct (B x Dx) as (v & -> & _), (B0 x Dx) as (v0 & -> & _). split; discriminate.
    + now rewrite O, O0.
  - intros x p q Gp Gq. destruct (D x) as [Dx|Dx].
    + destruct (L0 x Dx) as (v & G1 & I1). destruct (B x Dx) as (w & G2 & I2). rewrite G1 in Gp. rewrite G2 in Gq. injection Gp as <-. injection Gq as <-.
      assert (Lw : v <= w).
      { destruct I2 as [I2|I2]; [apply inst_instv in I1, I2; subst; lia|]. exact (inst_proper _ m _ _ (fun r => P x r) I1 I2). }
      destruct (N.eq_dec v w) as [->|Nw]; [now left|right]. change (N.compare v w = Lt). apply N.compare_lt_iff. lia.
    + rewrite O0 in Gp by exact Dx. rewrite O in Gq by exact Dx. left. congruence.
Qed.

(** ** The value that is reported *)
Definition lone (o n : option sextrinsic) (e : sextrinsic) : Prop := o = None /\ n = Some e \/ o = Some e /\ n = None.
Lemma lone_first m ord o n e ps tc : is_order ord -> lone o n e -> proper o n -> compare_extrinsics m ord o n ps = Ok tc ->
  let d := p_unit ps in
  is_corner (storage_scope d) o n (p_method ps) (tc_scope tc) /\
  (forall c, component storage_var o n c -> exists v, scope_get (tc_scope tc) c = Some (Scalar v) /\ inst (low_side (p_method ps)) (annotations o n c) v).
Proof.
  intros Ho L P E d. destruct (compare_ok _ _ _ _ _ _ Ho E) as (l & S & Hi & He & _ & Hs). fold d in S, Hi, He, Hs.
  destruct l as [|s l]; [discriminate Hs|]. cbn [map sel] in Hs.
  assert (A : is_added_removed (tc_change (point_change m (eterms d o) (eterms d n) (p_method ps) s)) = true).
  { destruct L as [[-> ->]|[-> ->]]; reflexivity. }
  rewrite A in Hs. injection Hs as <-. cbn [point_change tc_scope]. split; [apply Hi; now left|].
  intros c Hc. apply (component_storage d) in Hc. exact (first_corner ord o n _ _ s l Ho (storage_scope_wf d) P S Hi c Hc).
Qed.
Definition change_of (o n : option sextrinsic) (v : N) (tc : term_change) : Prop :=
  match o, n with
  | None, Some _ => tc_change tc = Added /\ tc_old_v tc = None /\ tc_new_v tc = Some v
  | Some _, None => tc_change tc = Removed /\ tc_old_v tc = Some v /\ tc_new_v tc = None
  | _, _ => False
  end.
Lemma lone_value m ord o n e meth d tc : is_order ord -> low_side meth = Low -> lone o n e -> proper o n -> typed e ->
  (m = Checked \/ forall rho, in_box d o n rho -> poly_val rho (eterm e) < u128_bound) ->
  compare_extrinsics m ord o n {| p_method := meth; p_unit := d |} = Ok tc ->
  exists rho, in_box d o n rho /\ change_of o n (poly_val rho (eterm e)) tc /\
    forall rho', in_box d o n rho' -> poly_val rho (eterm e) <= poly_val rho' (eterm e).
Proof.
  intros Ho Ls L P T B E. destruct (lone_first _ _ _ _ _ _ _ Ho L P E) as [C F]. cbn [p_unit p_method] in *. rewrite Ls in F.
  destruct (corner_storage _ _ _ _ _ C) as [Rr Rw].
  assert (He : o = Some e \/ n = Some e) by (destruct L as [[_ ->]|[-> _]]; auto).
  assert (Te : forall e', o = Some e' \/ n = Some e' -> typed e') by (intros e' K; destruct L as [[-> ->]|[-> ->]]; destruct K as [K|K]; inversion K; subst; auto).
  assert (Bx : in_box d o n (rho_of (tc_scope tc))).
  { split; [now apply CompareP4.rho_get|]. split; [now apply CompareP4.rho_get|]. intros c Hc. destruct (F c Hc) as (v & G & I). exists v, (instv High (annotations o n c)).
    split; [exact I|]. assert (H : inst High (annotations o n c) (instv High (annotations o n c))) by now apply inst_instv. split; [exact H|].
    rewrite (CompareP4.rho_get _ _ _ G). split; [lia|]. apply (inst_proper _ ExactWorst _ _ (fun r => P c r) I H). }
  destruct (storage_lemma _ _ _ _ _ _ Ho E) as (_ & _ & _ & _ & So & Sn). cbn [p_unit] in *.
  assert (V : exists v, eval m (tc_scope tc) (eterm e) = Ok v /\ change_of o n v tc).
  { destruct (change_kind_lemma _ _ _ _ _ _ Ho E) as (Ka & Kr & _). destruct (compare_ok_point _ _ _ _ _ _ Ho E) as (s & _ & _ & _ & Er). cbn [p_unit p_method] in *.
    destruct L as [[-> ->]|[-> ->]].
    - destruct (Sn e eq_refl) as (v & V & Ev). exists v. split; [exact Ev|]. split; [|split; [now rewrite Er|exact V]]. apply Ka. split; [reflexivity|discriminate].
    - destruct (So e eq_refl) as (v & V & Ev). exists v. split; [exact Ev|]. split; [|split; [exact V|now rewrite Er]]. apply Kr. split; [discriminate|reflexivity]. }
  destruct V as (v & Ev & Cv). destruct (corner_value m d _ _ _ _ e v Te C He Ev) as [_ W].
  rewrite W in Cv by (destruct B as [B|B]; [now left|right; apply B; exact Bx]).
  exists (rho_of (tc_scope tc)). split; [exact Bx|]. split; [exact Cv|].
  intros rho' (R1 & R2 & R3). apply poly_mono. intros x Ox. destruct (storage_var_dec x) as [[->| ->]|Sx].
  - rewrite R1. now rewrite (CompareP4.rho_get _ _ _ Rr).
  - rewrite R2. now rewrite (CompareP4.rho_get _ _ _ Rw).
  - assert (Cx : component storage_var o n x) by (split; [exists e; auto|exact Sx]).
    destruct (F x Cx) as (w & G & I). destruct (R3 x Cx) as (lo & hi & Il & _ & K). rewrite (CompareP4.rho_get _ _ _ G).
    apply inst_instv in I, Il. subst. apply K.
Qed.
