(** Proofs about the row [compare_extrinsics] selects. *)
From Coq Require Import List String NArith ZArith Lia Bool Permutation Sorting.Sorted Arith Ascii.
From Verif Require Import Base ScopeM TermM SpecTerm TermP ScopeP F64 CompareM SpecCompare CompareP CompareP2 CompareP3.
Import ListNotations.
Local Open Scope list_scope.

(** ** The selected row *)
Definition eterms d (e : option sextrinsic) : option sterm := option_map eterm (eff d e).

Lemma eterms_eq d e : eterms d e = option_map (fun e : sextrinsic => effective d (eterm e)) e.
Proof. destruct e; reflexivity. Qed.

Lemma ok_present m ord old new ps r : compare_extrinsics m ord old new ps = Ok r -> old <> None \/ new <> None.
Proof.
  intros E. destruct (present_dec old new) as [H|[-> ->]]; auto. exfalso. destruct ps as [meth []]; discriminate.
Qed.

Lemma compare_ok m ord old new ps r : is_order ord -> compare_extrinsics m ord old new ps = Ok r ->
  let d := p_unit ps in
  exists l, StronglySorted (fun s s' => sscope_cmp s s' = Lt) l /\
    (forall s, In s l <-> is_corner (storage_scope d) old new (p_method ps) s) /\
    (forall s, In s l -> evok m s (eterms d old) /\ evok m s (eterms d new)) /\
    extend_scoped_components ord (eff d old) (eff d new) (p_method ps) (storage_scope d) = Ok l /\
    sel (map (point_change m (eterms d old) (eterms d new) (p_method ps)) l) = Some r.
Proof.
  intros Ho E d. pose proof (ok_present _ _ _ _ _ _ E) as Hp. pose proof (eff_present d old new Hp) as Hp'.
  destruct (extend_dec ord _ _ (p_method ps) (storage_scope d) Ho Hp') as [[l El]|El].
  - exists l.
    destruct (extend_corners_lemma _ _ _ _ _ _ Ho (storage_scope_wf d) ltac:(destruct d; discriminate) El) as (Hs & Hi & Hl).
    split; auto. split.
    { intros s. rewrite Hi. apply is_corner_eff. }
    destruct (compare_char m ord old new ps l Ho Hp El) as [(s & e & w & _ & _ & _ & _ & K)|(A & r' & B & C)].
    + rewrite E in K. discriminate.
    + rewrite E in C. inversion C; subst r'. auto.
  - apply (compare_err m) in El; auto. rewrite E in El. discriminate.
Qed.

Lemma sel_in l r : sel l = Some r -> In r l.
Proof.
  destruct l as [|x l]; simpl; [discriminate|]. destruct (is_added_removed (tc_change x)).
  - inversion 1. now left.
  - inversion 1 as [E]. clear.
    assert (H : forall l x, In (fold_left (fun x y => match change_cmp x y with Gt => x | _ => y end) l x) (x :: l)).
    { clear. induction l as [|y l IH]; intros x; [now left|]. cbn [fold_left].
      destruct (change_cmp x y); [destruct (IH y)|destruct (IH y)|destruct (IH x)]; simpl in *; auto. }
    apply H.
Qed.

Lemma compare_ok_point m ord old new ps r : is_order ord -> compare_extrinsics m ord old new ps = Ok r ->
  let d := p_unit ps in
  exists s, is_corner (storage_scope d) old new (p_method ps) s /\
    evok m s (eterms d old) /\ evok m s (eterms d new) /\
    r = point_change m (eterms d old) (eterms d new) (p_method ps) s.
Proof.
  intros Ho E d. destruct (compare_ok _ _ _ _ _ _ Ho E) as (l & _ & Hi & He & _ & Hs). fold d in Hi, He, Hs.
  apply sel_in in Hs. apply in_map_iff in Hs as (s & <- & Hs). exists s. split; [now apply Hi|].
  destruct (He s Hs). auto.
Qed.

(** ** C16 *)
Lemma rel_cmp_refl c : rel_cmp c c = Eq.
Proof. destruct c; reflexivity. Qed.

Lemma map_app_inv {A B} (f : A -> B) l pre y post : map f l = pre ++ y :: post ->
  exists pre' x post', l = pre' ++ x :: post' /\ map f pre' = pre /\ f x = y /\ map f post' = post.
Proof.
  revert pre. induction l as [|a l IH]; intros [|b pre] E; simpl in E; inversion E; subst.
  - exists [], a, l. auto.
  - destruct (IH pre H1) as (p & x & q & -> & <- & <- & <-). exists (a :: p), x, q. auto.
Qed.

Lemma worst_corner_lemma : forall m ord o n ps tc, is_order ord ->
  compare_extrinsics m ord (Some o) (Some n) ps = Ok tc ->
  let d := p_unit ps in
  let at_corner s v w := eval m s (effective d (eterm o)) = Ok v /\ eval m s (effective d (eterm n)) = Ok w in
  exists pre post vo vn,
    StronglySorted (fun s s' => sscope_cmp s s' = Lt) (pre ++ tc_scope tc :: post) /\
    (forall s, In s (pre ++ tc_scope tc :: post) <->
       is_corner (storage_scope d) (Some o) (Some n) (p_method ps) s) /\
    at_corner (tc_scope tc) vo vn /\
    tc_old_v tc = Some vo /\ tc_new_v tc = Some vn /\ tc_percent tc = percent vo vn /\
    tc_method tc = p_method ps /\
    (forall s, In s pre -> exists v w, at_corner s v w /\ (mils (percent v w) <= mils (tc_percent tc))%Z) /\
    (forall s, In s post -> exists v w, at_corner s v w /\ (mils (percent v w) < mils (tc_percent tc))%Z).
Proof.
  intros m ord o n ps tc Ho E d at_corner.
  destruct (compare_ok _ _ _ _ _ _ Ho E) as (l & Hs & Hi & He & _ & Hsel). fold d in Hi, He, Hsel.
  cbn [eterms option_map map_term eterm] in *.
  set (f := point_change m (Some (effective d (eterm o))) (Some (effective d (eterm n))) (p_method ps)) in *.
  assert (HF : forall s, In s l -> exists v w, at_corner s v w /\
     tc_old_v (f s) = Some v /\ tc_new_v (f s) = Some w /\ tc_percent (f s) = percent v w).
  { intros s H. destruct (He s H) as [[v Hv] [w Hw]]. exists v, w. simpl. rewrite Hv, Hw. unfold at_corner. auto. }
  assert (HK : forall s, is_added_removed (tc_change (f s)) = false).
  { intros s. simpl. unfold kind. destruct (opt_eqb _ _); reflexivity. }
  destruct l as [|s0 l]; [discriminate|]. cbn [map sel] in Hsel. rewrite HK in Hsel. cbn [max_by] in Hsel.
  destruct (max_fold change_cmp (fun r => mils (tc_percent r)) (map f l) (f s0)) as (pre & y & post & El & Ey & G1 & G2).
  { intros a b Ha Hb. change (f s0 :: map f l) with (map f (s0 :: l)) in *.
    apply in_map_iff in Ha as (sa & <- & _). apply in_map_iff in Hb as (sb & <- & _).
    unfold change_cmp. replace (rel_cmp (tc_change (f sa)) (tc_change (f sb))) with Eq; auto.
    unfold f. simpl. now rewrite rel_cmp_refl. }
  rewrite Ey in Hsel. injection Hsel as <-.
  change (f s0 :: map f l) with (map f (s0 :: l)) in El.
  destruct (map_app_inv _ _ _ _ _ El) as (pre' & s & post' & El' & <- & <- & <-).
  change (tc_scope (f s)) with s. rewrite El' in Hs, Hi, HF.
  destruct (HF s ltac:(apply in_or_app; right; now left)) as (vo & vn & A & B & C & D).
  exists pre', post', vo, vn. split; [exact Hs|]. split; [exact Hi|]. split; [exact A|]. split; [exact B|].
  split; [exact C|]. split; [exact D|]. split; [reflexivity|]. split; intros s' Hs'.
  - destruct (HF s' ltac:(apply in_or_app; now left)) as (v & w & A' & _ & _ & D').
    exists v, w. split; auto. rewrite <- D'. apply G1. now apply in_map.
  - destruct (HF s' ltac:(apply in_or_app; right; now right)) as (v & w & A' & _ & _ & D').
    exists v, w. split; auto. rewrite <- D'. apply G2. now apply in_map.
Qed.

(** ** C19 *)
Lemma strip_without s : strip_us s = without_us s.
Proof.
  unfold without_us. induction s as [|c s IH]; simpl; auto.
  destruct (Ascii.eqb c "_"); simpl; auto. now rewrite IH.
Qed.

Lemma sterm_eqb_spec a b : sterm_eqb a b = true <-> erase_us a = erase_us b.
Proof.
  unfold sterm_eqb. revert b. induction a as [v|k|x|l IHl r IHr|l IHl r IHr]; intros [v'|k'|x'|l' r'|l' r']; simpl;
    try (split; [discriminate|intros E; inversion E]).
  - rewrite N.eqb_eq. split; [now intros -> |inversion 1; auto].
  - rewrite N.eqb_eq. split; [now intros -> |inversion 1; auto].
  - unfold var_eqb. rewrite String.eqb_eq, !strip_without. split; [now intros -> |inversion 1; auto].
  - rewrite andb_true_iff, IHl, IHr. split; [now intros [-> ->]|inversion 1; auto].
  - rewrite andb_true_iff, IHl, IHr. split; [now intros [-> ->]|inversion 1; auto].
Qed.

Lemma sterm_eqb_sym a b : sterm_eqb a b = sterm_eqb b a.
Proof.
  destruct (sterm_eqb a b) eqn:E; destruct (sterm_eqb b a) eqn:E'; auto.
  - apply sterm_eqb_spec in E. symmetry in E. apply sterm_eqb_spec in E. congruence.
  - apply sterm_eqb_spec in E'. symmetry in E'. apply sterm_eqb_spec in E'. congruence.
Qed.

Lemma kind_swap a b : kind b a = swap_kind (kind a b).
Proof.
  unfold kind. destruct a, b; simpl; auto. rewrite sterm_eqb_sym. destruct (sterm_eqb _ _); reflexivity.
Qed.

Lemma change_kind_lemma : forall m ord old new ps tc, is_order ord ->
  compare_extrinsics m ord old new ps = Ok tc ->
  let d := p_unit ps in
  let same := exists o n, old = Some o /\ new = Some n /\
    erase_us (effective d (eterm o)) = erase_us (effective d (eterm n)) in
  (tc_change tc = Added <-> old = None /\ new <> None) /\
  (tc_change tc = Removed <-> old <> None /\ new = None) /\
  (tc_change tc = Unchanged <-> same) /\
  (tc_change tc = Changed <-> old <> None /\ new <> None /\ ~ same).
Proof.
  intros m ord old new ps tc Ho E d same. pose proof (ok_present _ _ _ _ _ _ E) as Hp.
  destruct (compare_ok_point _ _ _ _ _ _ Ho E) as (s & _ & _ & _ & ->). fold d.
  cbn [point_change tc_change]. unfold same, kind.
  destruct old as [o|], new as [n|]; cbn [eterms option_map map_term eterm opt_eqb].
  - destruct (sterm_eqb (effective d (eterm o)) (effective d (eterm n))) eqn:Q.
    + apply sterm_eqb_spec in Q. repeat split; try discriminate; intros; try (destruct H; discriminate); eauto 6.
      * destruct H as (_ & _ & K). exfalso. apply K. eauto 6.
    + assert (Q' : erase_us (effective d (eterm o)) <> erase_us (effective d (eterm n))).
      { intros K. apply sterm_eqb_spec in K. congruence. }
      repeat split; try discriminate; intros; try (destruct H; discriminate); try congruence.
      * destruct H as (o' & n' & H1 & H2 & K). congruence.
      * intros (o' & n' & H1 & H2 & K). congruence.
  - repeat split; try discriminate; try congruence; intros.
    + destruct H; discriminate.
    + destruct H as (o' & n' & _ & H & _). discriminate.
    + destruct H as (_ & H & _). congruence.
  - repeat split; try discriminate; try congruence; intros.
    + destruct H; congruence.
    + destruct H as (o' & n' & H & _). discriminate.
    + destruct H as (H & _). congruence.
  - destruct Hp; congruence.
Qed.

Lemma component_swap P a b c : component P a b c -> component P b a c.
Proof. intros [(e & He & Hc) H]. split; auto. exists e. split; tauto. Qed.

Lemma inst_swap s a b c v : inst s (annotations a b c) v -> inst s (annotations b a c) v.
Proof.
  unfold annotations. destruct (annotation a c) as [|r l] eqn:E1; simpl.
  { now rewrite app_nil_r. }
  assert (L : forall e, annotation e c = [] \/ exists r, annotation e c = [r]).
  { intros e. unfold annotation, annotated. destruct e as [e|]; auto. destruct (eranges e); auto.
    destruct (ranges_get _ _); eauto. }
  destruct (L b) as [Lb|[r' Lb]]; rewrite Lb; simpl; [now rewrite app_nil_r|].
  destruct (L a) as [La|[q La]]; rewrite La in E1; inversion E1; subst. simpl.
  destruct s; unfold least, greatest; simpl; intros [A B]; (split; [tauto|]); intros w Hw; apply B; tauto.
Qed.

Lemma is_corner_swap base a b m s : is_corner base a b m s -> is_corner base b a m s.
Proof.
  intros (A & B & C). split; auto. split.
  - intros c Hc. apply component_swap in Hc. destruct (B c Hc) as (v & G & [K|K]); exists v; (split; [auto|]);
      [left|right]; now apply inst_swap.
  - intros x Hx. apply C. intros K. apply Hx. now apply component_swap.
Qed.

Lemma unambiguous_swap a b c : unambiguous (annotations a b c) -> unambiguous (annotations b a c).
Proof.
  unfold unambiguous, annotations. intros [A B]. split.
  - intros E. apply A. apply app_eq_nil in E as [-> ->]. reflexivity.
  - intros r r' H H'. apply B; apply in_app_iff; apply in_app_iff in H, H'; tauto.
Qed.

Lemma extend_swap ord ord' a b m sc l : is_order ord -> is_order ord' ->
  extend_scoped_components ord a b m sc = Ok l ->
  exists l', extend_scoped_components ord' b a m sc = Ok l'.
Proof.
  intros Ho Ho' E.
  assert (Hp : a <> None \/ b <> None).
  { destruct (present_dec a b) as [H|[-> ->]]; auto. rewrite extend_unfold in E. discriminate. }
  destruct (extend_err_lemma ord a b m sc Ho Hp) as [_ K].
  destruct (extend_err_lemma ord' b a m sc Ho' ltac:(tauto)) as [R K'].
  destruct (extend_scoped_components ord' b a m sc) as [l'|e| |] eqn:E'; simpl in R; try contradiction; eauto.
  exfalso. assert (H : is_err (extend_scoped_components ord a b m sc) = true); [|rewrite E in H; discriminate].
  apply K. destruct (proj1 K' eq_refl) as [(n & (ll & H1 & H2 & H3) & H4)|(X & c & H1 & H2)].
  - left. exists n. split; auto. exists ll. split; auto. split; auto.
    intros c. rewrite H2. split; apply component_swap.
  - right. split; auto. exists c. split; [now apply component_swap|]. intros U. apply H2. now apply unambiguous_swap.
Qed.

Lemma swap_lemma : forall m ord ord' old new ps tc, is_order ord -> is_order ord' ->
  compare_extrinsics m ord old new ps = Ok tc ->
  exists tc', compare_extrinsics m ord' new old ps = Ok tc' /\ tc_change tc' = swap_kind (tc_change tc).
Proof.
  intros m ord ord' old new ps tc Ho Ho' E. pose proof (ok_present _ _ _ _ _ _ E) as Hp.
  destruct (compare_ok _ _ _ _ _ _ Ho E) as (l & _ & Hi & He & Ex & _).
  destruct (compare_ok_point _ _ _ _ _ _ Ho E) as (s & _ & _ & _ & ->).
  destruct (extend_swap ord ord' _ _ _ _ _ Ho Ho' Ex) as [l' El'].
  destruct (compare_char m ord' new old ps l' Ho' ltac:(tauto) El') as [(s' & e & w & H1 & H2 & H3 & H4 & H5)|(A & r & B & C)].
  - exfalso. apply is_corner_swap in H1. apply Hi in H1. destruct (He s' H1) as [K1 K2].
    rewrite !eterms_eq in *. destruct H2 as [-> | ->]; simpl in *; [destruct K2|destruct K1]; congruence.
  - exists r. split; auto. apply sel_in in B. apply in_map_iff in B as (s'' & <- & _). cbn [point_change tc_change].
    apply kind_swap.
Qed.

(** ** C21 *)
Lemma seval_no_storage m look t : look "READ"%string = Some 0%N -> look "WRITE"%string = Some 0%N ->
  seval m look (no_storage t) = seval m look t.
Proof.
  intros R W. induction t as [v|k|x|l IHl r IHr|l IHl r IHr]; simpl; auto.
  - destruct (String.eqb_spec x "READ") as [->|]; simpl; [now rewrite R|].
    destruct (String.eqb_spec x "WRITE") as [->|]; simpl; [now rewrite W|]. reflexivity.
  - now rewrite IHl, IHr.
  - now rewrite IHl, IHr.
Qed.

Lemma corner_storage d a b m s : is_corner (storage_scope d) a b m s ->
  scope_get s "READ"%string = Some (Scalar (read_cost d)) /\ scope_get s "WRITE"%string = Some (Scalar (write_cost d)).
Proof.
  intros (_ & _ & C). split; rewrite C.
  - now rewrite storage_get.
  - rewrite component_storage. intros [_ K]. apply K. now left.
  - now rewrite storage_get.
  - rewrite component_storage. intros [_ K]. apply K. now right.
Qed.

Lemma eval_effective d a b meth m s t : is_corner (storage_scope d) a b meth s ->
  eval m s (effective d t) = eval m s t.
Proof.
  intros H. pose proof (corner_number _ _ _ _ _ H) as Hn. destruct (corner_storage _ _ _ _ _ H) as [R W].
  rewrite !(eval_number m s _ Hn). destruct d; simpl in *; auto.
  apply seval_no_storage; unfold lookup_num; [now rewrite R|now rewrite W].
Qed.

Lemma storage_lemma : forall m ord old new ps tc, is_order ord ->
  compare_extrinsics m ord old new ps = Ok tc ->
  let d := p_unit ps in
  tc_old tc = option_map (fun e : sextrinsic => effective d (eterm e)) old /\
  tc_new tc = option_map (fun e : sextrinsic => effective d (eterm e)) new /\
  scope_get (tc_scope tc) "READ"%string = Some (Scalar (read_cost d)) /\
  scope_get (tc_scope tc) "WRITE"%string = Some (Scalar (write_cost d)) /\
  (forall e, old = Some e -> exists v, tc_old_v tc = Some v /\ eval m (tc_scope tc) (eterm e) = Ok v) /\
  (forall e, new = Some e -> exists v, tc_new_v tc = Some v /\ eval m (tc_scope tc) (eterm e) = Ok v).
Proof.
  intros m ord old new ps tc Ho E d.
  destruct (compare_ok_point _ _ _ _ _ _ Ho E) as (s & Hc & Eo & En & ->). fold d in Hc, Eo, En |- *.
  rewrite !eterms_eq in *. cbn [point_change tc_old tc_new tc_scope tc_old_v tc_new_v].
  destruct (corner_storage _ _ _ _ _ Hc) as [R W].
  repeat split; auto; intros e ->; cbn [option_map evok oeval] in *.
  - destruct Eo as [v Ev]. exists v. rewrite Ev. split; auto. now rewrite (eval_effective _ _ _ _ m _ (eterm e) Hc) in Ev.
  - destruct En as [v Ev]. exists v. rewrite Ev. split; auto. now rewrite (eval_effective _ _ _ _ m _ (eterm e) Hc) in Ev.
Qed.

(** ** C18 *)
Lemma poly_mono rho rho' t : (forall x, occurs x t -> (rho x <= rho' x)%N) -> (poly_val rho t <= poly_val rho' t)%N.
Proof.
  unfold occurs. induction t as [v|k|x|l IHl r IHr|l IHl r IHr]; simpl; intros H; pv; try lia.
  - apply H. now left.
  - apply N.add_le_mono; [apply IHl|apply IHr]; intros; apply H, in_or_app; auto.
  - apply N.mul_le_mono; [apply IHl|apply IHr]; intros; apply H, in_or_app; auto.
Qed.

Lemma u128_small n : (n < 2 ^ 32)%N -> (n < u128_bound)%N.
Proof. intros H. rewrite u128_bound_eq. eapply N.lt_trans; [exact H|reflexivity]. Qed.

Lemma inst_bound s l v : (forall r, In r l -> (rmin r < 2 ^ 32 /\ rmax r < 2 ^ 32)%N) -> inst s l v -> (v < u128_bound)%N.
Proof.
  intros H Hi. apply u128_small. destruct l as [|r l]; [destruct s; simpl in Hi; subst; reflexivity|].
  destruct s; destruct Hi as [Hi _]; apply in_map_iff in Hi as (q & <- & Hq); apply H in Hq; tauto.
Qed.

Lemma annotation_typed old new c r : (forall e, old = Some e \/ new = Some e -> typed e) ->
  In r (annotations old new c) -> (rmin r < 2 ^ 32 /\ rmax r < 2 ^ 32)%N.
Proof.
  intros H Hr. unfold annotations, annotation, annotated in Hr. apply in_app_iff in Hr as [Hr|Hr].
  - destruct old as [e|]; [|destruct Hr]. destruct (eranges e) as [rs|] eqn:Er; [|destruct Hr].
    destruct (ranges_get rs c) eqn:Eg; [|destruct Hr]. destruct Hr as [<-|[]].
    destruct (H e (or_introl eq_refl)) as [_ T]. eapply T; eauto.
  - destruct new as [e|]; [|destruct Hr]. destruct (eranges e) as [rs|] eqn:Er; [|destruct Hr].
    destruct (ranges_get rs c) eqn:Eg; [|destruct Hr]. destruct Hr as [<-|[]].
    destruct (H e (or_intror eq_refl)) as [_ T]. eapply T; eauto.
Qed.

Lemma corner_rho_small d old new meth s x : (forall e, old = Some e \/ new = Some e -> typed e) ->
  is_corner (storage_scope d) old new meth s -> (rho_of s x < u128_bound)%N.
Proof.
  intros T Hc. destruct Hc as (A & B & C).
  destruct (in_dec string_dec x (frees_of old new (storage_scope d))) as [I|I]; rewrite frees_of_component in I.
  - destruct (B x I) as (v & G & K). unfold rho_of, lookup_num. rewrite G. simpl.
    destruct K as [K|K]; apply inst_bound in K; auto; intros r Hr; eapply annotation_typed; eauto.
  - unfold rho_of, lookup_num. rewrite (C x I), storage_get.
    assert (0 < u128_bound)%N by apply u128_bound_pos.
    destruct (String.eqb x "READ"); [apply u128_small; destruct d; reflexivity|].
    destruct (String.eqb x "WRITE"); [apply u128_small; destruct d; reflexivity|]. exact H.
Qed.

Lemma corner_binds_raw d a b m s e : is_corner (storage_scope d) a b m s -> (a = Some e \/ b = Some e) ->
  binds s (rho_of s) (eterm e).
Proof.
  intros Hc He x Hx.
  destruct (corner_lookup d a b m s x Hc) as [n E].
  - destruct (storage_var_dec x) as [S|S]; auto. left. split; eauto.
  - exists (Scalar n). split; auto. unfold rho_of, lookup_num. now rewrite E.
Qed.

(** The number the tool computes at a corner against the polynomial there. *)
Lemma corner_value m d old new meth s e v : (forall e, old = Some e \/ new = Some e -> typed e) ->
  is_corner (storage_scope d) old new meth s -> (old = Some e \/ new = Some e) ->
  eval m s (eterm e) = Ok v ->
  (v <= poly_val (rho_of s) (eterm e))%N /\
  (m = Checked \/ (poly_val (rho_of s) (eterm e) < u128_bound)%N -> v = poly_val (rho_of s) (eterm e)).
Proof.
  intros T Hc He Ev. pose proof (corner_binds_raw _ _ _ _ _ _ Hc He) as Hb.
  destruct (T e He) as [U _]. pose proof (fun x => corner_rho_small _ _ _ _ _ x T Hc) as Hr.
  rewrite (eval_binds m s _ _ Hb) in Ev. destruct m.
  - pose proof (seval_checked_fits _ _ _ U (fun x _ => Hr x) Ev) as F. rewrite (seval_fits _ _ _ F) in Ev.
    inversion Ev; subst. split; [lia|auto].
  - rewrite (seval_wrapping _ _ U (fun x _ => Hr x)) in Ev. inversion Ev; subst. split.
    + apply N.mod_le. pose proof u128_bound_pos. lia.
    + intros [K|K]; [discriminate|]. now apply N.mod_small.
Qed.

Lemma rho_get (s : sscope) x n : scope_get s x = Some (Scalar n) -> rho_of s x = n.
Proof. unfold rho_of, lookup_num. now intros ->. Qed.

Lemma inst_fun s l v w : inst s l v -> inst s l w -> v = w.
Proof. rewrite !inst_instv. congruence. Qed.

Lemma box_cases d old new rho e x : in_box d old new rho -> (old = Some e \/ new = Some e) -> occurs x (eterm e) ->
  x = "READ"%string /\ rho x = read_cost d \/ x = "WRITE"%string /\ rho x = write_cost d \/
  component storage_var old new x.
Proof.
  intros (R & W & _) He Hx. destruct (string_dec x "READ") as [->|N1]; auto.
  destruct (string_dec x "WRITE") as [->|N2]; auto. right. right. split; eauto. intros [K|K]; congruence.
Qed.

Lemma corner_below d old new rho s e : in_box d old new rho -> is_corner (storage_scope d) old new Base s ->
  (old = Some e \/ new = Some e) -> (poly_val (rho_of s) (eterm e) <= poly_val rho (eterm e))%N.
Proof.
  intros Hb Hc He. apply poly_mono. intros x Hx. destruct (corner_storage _ _ _ _ _ Hc) as [R W].
  destruct (box_cases _ _ _ _ _ _ Hb He Hx) as [[-> ->]|[[-> ->]|K]].
  - rewrite (rho_get _ _ _ R). lia.
  - rewrite (rho_get _ _ _ W). lia.
  - destruct Hb as (_ & _ & Hb). destruct (Hb x K) as (lo & hi & L & _ & B).
    destruct Hc as (_ & Hc & _). apply component_storage with (d := d) in K. destruct (Hc x K) as (v & G & I).
    rewrite (rho_get _ _ _ G). simpl in I. assert (inst Low (annotations old new x) v) by tauto.
    rewrite (inst_fun _ _ _ _ H L). lia.
Qed.

Lemma corner_above d old new rho s e meth : high_side meth = High -> low_side meth = High ->
  in_box d old new rho -> is_corner (storage_scope d) old new meth s ->
  (old = Some e \/ new = Some e) -> (poly_val rho (eterm e) <= poly_val (rho_of s) (eterm e))%N.
Proof.
  intros M1 M2 Hb Hc He. apply poly_mono. intros x Hx. destruct (corner_storage _ _ _ _ _ Hc) as [R W].
  destruct (box_cases _ _ _ _ _ _ Hb He Hx) as [[-> ->]|[[-> ->]|K]].
  - rewrite (rho_get _ _ _ R). lia.
  - rewrite (rho_get _ _ _ W). lia.
  - destruct Hb as (_ & _ & Hb). destruct (Hb x K) as (lo & hi & _ & L & B).
    destruct Hc as (_ & Hc & _). apply component_storage with (d := d) in K. destruct (Hc x K) as (v & G & I).
    rewrite (rho_get _ _ _ G). rewrite M1, M2 in I. assert (inst High (annotations old new x) v) by tauto.
    rewrite (inst_fun _ _ _ _ H L). lia.
Qed.

(** The value reported for version [e]. *)
Lemma base_min_lemma : forall m ord old new d tc rho, is_order ord ->
  (forall e, old = Some e \/ new = Some e -> typed e) ->
  compare_extrinsics m ord old new {| p_method := Base; p_unit := d |} = Ok tc ->
  in_box d old new rho ->
  (forall e, old = Some e -> exists v, tc_old_v tc = Some v /\ (v <= poly_val rho (eterm e))%N) /\
  (forall e, new = Some e -> exists v, tc_new_v tc = Some v /\ (v <= poly_val rho (eterm e))%N).
Proof.
  intros m ord old new d tc rho Ho T E Hb.
  destruct (compare_ok_point _ _ _ _ _ _ Ho E) as (s & Hc & _ & _ & Etc). cbn [p_unit p_method] in *.
  destruct (storage_lemma _ _ _ _ _ _ Ho E) as (_ & _ & _ & _ & A & B).
  assert (Es : tc_scope tc = s) by (now rewrite Etc). rewrite Es in *.
  split; intros e He; [destruct (A e He) as (v & V & Ev)|destruct (B e He) as (v & V & Ev)]; exists v; (split; [exact V|]).
  - destruct (corner_value m d old new Base s e v T Hc (or_introl He) Ev) as [L _].
    pose proof (corner_below _ _ _ _ _ _ Hb Hc (or_introl He)). lia.
  - destruct (corner_value m d old new Base s e v T Hc (or_intror He) Ev) as [L _].
    pose proof (corner_below _ _ _ _ _ _ Hb Hc (or_intror He)). lia.
Qed.

Lemma asymptotic_max_lemma : forall ord old new meth d tc rho, is_order ord ->
  meth = Asymptotic \/ meth = ExactAsymptotic ->
  (forall e, old = Some e \/ new = Some e -> typed e) ->
  compare_extrinsics Checked ord old new {| p_method := meth; p_unit := d |} = Ok tc ->
  in_box d old new rho ->
  (forall e, old = Some e -> exists v, tc_old_v tc = Some v /\ (poly_val rho (eterm e) <= v)%N) /\
  (forall e, new = Some e -> exists v, tc_new_v tc = Some v /\ (poly_val rho (eterm e) <= v)%N).
Proof.
  intros ord old new meth d tc rho Ho M T E Hb.
  assert (M1 : high_side meth = High) by (destruct M; subst; auto).
  assert (M2 : low_side meth = High) by (destruct M; subst; auto).
  destruct (compare_ok_point _ _ _ _ _ _ Ho E) as (s & Hc & _ & _ & Etc). cbn [p_unit p_method] in *.
  destruct (storage_lemma _ _ _ _ _ _ Ho E) as (_ & _ & _ & _ & A & B).
  assert (Es : tc_scope tc = s) by (now rewrite Etc). rewrite Es in *.
  split; intros e He; [destruct (A e He) as (v & V & Ev)|destruct (B e He) as (v & V & Ev)]; exists v; (split; [exact V|]).
  - destruct (corner_value Checked d old new meth s e v T Hc (or_introl He) Ev) as [_ L]. rewrite L by auto.
    apply (corner_above _ _ _ _ _ _ _ M1 M2 Hb Hc (or_introl He)).
  - destruct (corner_value Checked d old new meth s e v T Hc (or_intror He) Ev) as [_ L]. rewrite L by auto.
    apply (corner_above _ _ _ _ _ _ _ M1 M2 Hb Hc (or_intror He)).
Qed.
