(** Proofs about scopes. *)
From Coq Require Import List String Arith Lia Sorting.Sorted.
From Verif Require Import Base ScopeM SpecScope.
Import ListNotations.

Fixpoint last_write {T} (l : list (string * T)) (x : string) : option T :=
  match l with
  | [] => None
  | (y, v) :: l' => match last_write l' x with
                    | Some w => Some w
                    | None => if String.eqb y x then Some v else None
                    end
  end.

Lemma last_write_app {T} (a b : list (string * T)) x :
  last_write (a ++ b) x = match last_write b x with Some w => Some w | None => last_write a x end.
Proof.
  induction a as [|[y v] a IH]; simpl; [destruct (last_write b x); auto|].
  rewrite IH. destruct (last_write b x); auto.
Qed.

Lemma last_write_none {T} (l : list (string * T)) x : last_write l x = None <-> ~ In x (map fst l).
Proof.
  induction l as [|[y v] l IH]; simpl; [tauto|].
  destruct (last_write l x) eqn:E.
  - split; [discriminate|]. intros H. exfalso. apply H. right.
    destruct (in_dec string_dec x (map fst l)); auto. apply IH in n. discriminate.
  - destruct (String.eqb_spec y x).
    + split; [discriminate|]. intuition congruence.
    + split; auto. intros _ [H|H]; [congruence|]. now apply IH in H.
Qed.

Lemma latest_last {T} (l : list (string * T)) x v : latest l x v <-> last_write l x = Some v.
Proof.
  split.
  - intros (pre & post & -> & H). rewrite last_write_app. simpl.
    apply last_write_none in H. rewrite H, String.eqb_refl. reflexivity.
  - induction l as [|[y w] l IH]; simpl; [discriminate|].
    destruct (last_write l x) as [u|] eqn:E.
    + intros H. inversion H; subst. destruct (IH eq_refl) as (pre & post & -> & P).
      exists ((y, w) :: pre), post. auto.
    + destruct (String.eqb_spec y x); [|discriminate]. inversion 1; subst.
      exists [], l. split; auto. now apply last_write_none.
Qed.

Lemma get_mextend {T} (l : list (string * T)) (s : scope T) x :
  scope_get (mextend str_cmp s l) x = match last_write l x with Some w => Some w | None => scope_get s x end.
Proof.
  unfold mextend. revert s. induction l as [|[y v] l IH]; intros s; simpl; auto.
  rewrite IH. destruct (last_write l x); auto.
  unfold scope_get. destruct (String.eqb_spec y x).
  - subst. apply mget_minsert_eq, str_cmp_strict.
  - apply mget_minsert_ne; auto. apply str_cmp_strict.
Qed.

Lemma last_write_wf {T} (s : scope T) x : scope_wf s -> last_write s x = scope_get s x.
Proof.
  intros H. destruct (scope_get s x) as [v|] eqn:E.
  - unfold scope_get in E. apply (mget_in _ str_cmp_strict) in E; auto.
    apply latest_last. apply in_split in E as (pre & post & ->). exists pre, post. split; auto.
    unfold scope_wf, map_wf, keys in H. rewrite map_app in H. simpl in H.
    apply (sorted_set_nodup _ str_cmp_strict) in H. apply NoDup_remove_2 in H.
    intros C. apply H, in_or_app. auto.
  - apply last_write_none. unfold scope_get in E. now apply (mget_none _ str_cmp_strict) in E.
Qed.

Lemma build_wf {T} (e : scope_exp T) : scope_wf (build e).
Proof.
  unfold scope_wf. induction e; simpl.
  - constructor.
  - now apply minsert_wf; [apply str_cmp_strict|].
  - now apply minsert_wf; [apply str_cmp_strict|].
  - apply mextend_wf; [apply str_cmp_strict|constructor].
  - now apply mextend_wf; [apply str_cmp_strict|].
Qed.

Lemma build_get {T} (e : scope_exp T) x : scope_get (build e) x = last_write (writes e) x.
Proof.
  induction e as [|e IH y v|e IH y v|a IHa b IHb|a IHa b IHb]; simpl; auto.
  - rewrite last_write_app. simpl. unfold scope_get, put_var.
    destruct (String.eqb_spec y x).
    + subst. apply mget_minsert_eq, str_cmp_strict.
    + rewrite mget_minsert_ne; auto. apply str_cmp_strict.
  - rewrite last_write_app. simpl. unfold scope_get, with_var.
    destruct (String.eqb_spec y x).
    + subst. apply mget_minsert_eq, str_cmp_strict.
    + rewrite mget_minsert_ne; auto. apply str_cmp_strict.
  - unfold scope_merge. rewrite get_mextend, !last_write_app.
    rewrite (last_write_wf _ _ (build_wf b)), (last_write_wf _ _ (build_wf a)), IHa, IHb. simpl.
    destruct (last_write (writes b) x); auto. destruct (last_write (writes a) x); auto.
  - unfold scope_extend. rewrite get_mextend, last_write_app.
    rewrite (last_write_wf _ _ (build_wf b)), IHa, IHb. reflexivity.
Qed.

Lemma scope_spec_lemma : forall (T : Type) (e : scope_exp T),
  (forall x v, scope_get (build e) x = Some v <-> latest (writes e) x v) /\
  (forall x, scope_get (build e) x = None <-> ~ In x (map fst (writes e))) /\
  (forall x v, In (x, v) (as_vec (build e)) <-> latest (writes e) x v) /\
  StronglySorted (fun a b => str_cmp (fst a) (fst b) = Lt) (as_vec (build e)) /\
  scope_len (build e) = List.length (nodup string_dec (map fst (writes e))) /\
  (scope_is_empty (build e) = true <-> writes e = []).
Proof.
  intros T e.
  assert (K : forall x, In x (keys (build e)) <-> In x (map fst (writes e))).
  { intros x. pose proof (build_get e x) as G.
    destruct (in_dec string_dec x (keys (build e))) as [I|I].
    - split; auto. intros _. destruct (in_dec string_dec x (map fst (writes e))); auto. exfalso.
      apply last_write_none in n. rewrite n in G. unfold scope_get in G.
      now apply (mget_none _ str_cmp_strict) in G.
    - split; [tauto|]. intros J. exfalso. apply (mget_none _ str_cmp_strict) in I.
      unfold scope_get in G. rewrite I in G. symmetry in G. now apply last_write_none in G. }
  split; [intros; now rewrite build_get, latest_last|].
  split; [intros; now rewrite build_get, last_write_none|].
  split.
  { intros x v. rewrite latest_last, <- build_get. unfold as_vec, scope_get.
    symmetry. apply mget_in; [apply str_cmp_strict|apply build_wf]. }
  split.
  { pose proof (build_wf e) as W. unfold scope_wf, map_wf, sorted_set, keys, as_vec in *.
    clear K. induction (build e) as [|p s IH]; simpl in *; constructor; inversion W; subst; auto.
    rewrite Forall_forall in *. intros q Hq. apply H2. now apply in_map. }
  split.
  { unfold scope_len. rewrite <- (map_length fst). apply Nat.le_antisymm.
    - apply NoDup_incl_length.
      + apply (sorted_set_nodup str_cmp str_cmp_strict). apply build_wf.
      + intros x Hx. apply nodup_In. now apply K.
    - apply NoDup_incl_length; [apply NoDup_nodup|]. intros x Hx.
      apply nodup_In in Hx. now apply K. }
  destruct (build e) as [|p s] eqn:B; simpl.
  - split; auto. intros _. destruct (writes e) as [|[x v] w]; auto.
    exfalso. apply (K x). now left.
  - split; [discriminate|]. intros W. exfalso. rewrite W in K. apply (K (fst p)). now left.
Qed.
