(** Basic vocabulary shared by the model: outcomes of Rust calls, bounded
    integers, comparison functions, and sorted collections. *)
From Coq Require Import List String Ascii NArith ZArith Lia Bool Sorting.Sorted Permutation.
Import ListNotations.
Local Open Scope list_scope.

(** ** Outcomes

    The result of a Rust call: normal return (the [Ok] side of a [Result], or a
    plain value), the [Err] side of a [Result<_, String>], a panic, or a call
    that never returns (unbounded recursion; in Rust this ends in a stack
    overflow). *)
Inductive outcome (A : Type) : Type :=
| Ok (a : A)
| Err (msg : string)
| Panic (why : string)
| Diverge.
Arguments Ok {A} a.
Arguments Err {A} msg.
Arguments Panic {A} why.
Arguments Diverge {A}.

(** The [?] operator: everything but [Ok] is propagated. *)
Definition bind {A B} (m : outcome A) (f : A -> outcome B) : outcome B :=
  match m with
  | Ok a => f a
  | Err e => Err e
  | Panic e => Panic e
  | Diverge => Diverge
  end.
Notation "'let*' x ':=' m 'in' k" := (bind m (fun x => k))
  (at level 200, x name, m at level 100, k at level 200).

(** [map_err]. *)
Definition map_err {A} (f : string -> string) (m : outcome A) : outcome A :=
  match m with Err e => Err (f e) | o => o end.

Definition is_ok {A} (m : outcome A) : bool :=
  match m with Ok _ => true | _ => false end.
Definition is_err {A} (m : outcome A) : bool :=
  match m with Err _ => true | _ => false end.
Definition returns {A} (m : outcome A) : Prop :=
  match m with Ok _ | Err _ => True | _ => False end.
(** The [.ok()] adapter; [None] also stands for the non-returning outcomes. *)
Definition ok_opt {A} (m : outcome A) : option A :=
  match m with Ok a => Some a | _ => None end.

(** [collect::<Result<Vec<_>, _>>] over fallible calls, left to right, stopping
    at the first one that is not [Ok]. *)
Fixpoint mapM {A B} (f : A -> outcome B) (l : list A) : outcome (list B) :=
  match l with
  | [] => Ok []
  | x :: xs => bind (f x) (fun y => bind (mapM f xs) (fun ys => Ok (y :: ys)))
  end.

(** ** Unsigned integers

    Rust compiles [+] and [*] on [u128] to overflow-checked operations in
    builds with debug assertions (panic) and to wrapping ones in release
    builds. *)
Inductive mode := Checked | Wrapping.

Definition u128_bound : N := (2 ^ 128)%N.
Definition u32_bound : N := (2 ^ 32)%N.

Lemma u128_bound_eq : u128_bound = (2 ^ 128)%N.
Proof. reflexivity. Qed.
Lemma u128_bound_pos : (0 < u128_bound)%N.
Proof. reflexivity. Qed.
Global Opaque u128_bound.

Definition uadd (m : mode) (a b : N) : outcome N :=
  let r := (a + b)%N in
  if (r <? u128_bound)%N then Ok r
  else match m with
       | Checked => Panic "attempt to add with overflow"
       | Wrapping => Ok (r mod u128_bound)%N
       end.

Definition umul (m : mode) (a b : N) : outcome N :=
  let r := (a * b)%N in
  if (r <? u128_bound)%N then Ok r
  else match m with
       | Checked => Panic "attempt to multiply with overflow"
       | Wrapping => Ok (r mod u128_bound)%N
       end.

(** ** Comparison functions *)

Record strict_cmp {A} (cmp : A -> A -> comparison) : Prop := {
  cmp_eq : forall x y, cmp x y = Eq <-> x = y;
  cmp_anti : forall x y, cmp y x = CompOpp (cmp x y);
  cmp_trans : forall x y z, cmp x y = Lt -> cmp y z = Lt -> cmp x z = Lt
}.

Section Cmp.
  Context {A : Type} (cmp : A -> A -> comparison) (H : strict_cmp cmp).

  Lemma cmp_refl x : cmp x x = Eq.
  Proof. now apply (cmp_eq cmp H). Qed.

  Lemma cmp_gt_lt x y : cmp x y = Gt <-> cmp y x = Lt.
  Proof.
    rewrite (cmp_anti cmp H x y). destruct (cmp x y); simpl; split; congruence.
  Qed.

  Lemma cmp_lt_irrefl x : cmp x x <> Lt.
  Proof. rewrite cmp_refl. discriminate. Qed.
End Cmp.

(** Lexicographic comparison: tuples and sequences (derived [Ord] on tuples,
    [Ord] on [Vec]/[BTreeMap] iterators). *)
Definition lex (c d : comparison) : comparison :=
  match c with Eq => d | _ => c end.

Definition pair_cmp {A B} (ca : A -> A -> comparison) (cb : B -> B -> comparison)
    (p q : A * B) : comparison :=
  lex (ca (fst p) (fst q)) (cb (snd p) (snd q)).

Fixpoint list_cmp {A} (c : A -> A -> comparison) (l r : list A) : comparison :=
  match l, r with
  | [], [] => Eq
  | [], _ :: _ => Lt
  | _ :: _, [] => Gt
  | x :: xs, y :: ys => lex (c x y) (list_cmp c xs ys)
  end.

Lemma pair_cmp_strict {A B} (ca : A -> A -> comparison) (cb : B -> B -> comparison) :
  strict_cmp ca -> strict_cmp cb -> strict_cmp (pair_cmp ca cb).
Proof.
  intros HA HB. split.
  - intros [a b] [a' b']. unfold pair_cmp, lex; simpl.
    destruct (ca a a') eqn:E.
    + apply (cmp_eq _ HA) in E. subst a'. rewrite (cmp_eq _ HB).
      split; [intros ->; reflexivity | now inversion 1].
    + split; [discriminate|]. inversion 1; subst.
      rewrite (cmp_refl _ HA) in E. discriminate.
    + split; [discriminate|]. inversion 1; subst.
      rewrite (cmp_refl _ HA) in E. discriminate.
  - intros [a b] [a' b']. unfold pair_cmp, lex; simpl.
    rewrite (cmp_anti _ HA a a'), (cmp_anti _ HB b b').
    destruct (ca a a'), (cb b b'); reflexivity.
  - intros [a b] [a' b'] [a'' b'']. unfold pair_cmp, lex; simpl.
    destruct (ca a a') eqn:E1; try discriminate.
    + apply (cmp_eq _ HA) in E1. subst a'. destruct (ca a a'') eqn:E2; intros; try easy.
      eapply (cmp_trans _ HB); eauto.
    + intros _. destruct (ca a' a'') eqn:E2; try discriminate.
      * apply (cmp_eq _ HA) in E2. subst a''. rewrite E1. reflexivity.
      * rewrite (cmp_trans _ HA _ _ _ E1 E2). reflexivity.
Qed.

Lemma list_cmp_strict {A} (c : A -> A -> comparison) :
  strict_cmp c -> strict_cmp (list_cmp c).
Proof.
  intros H. split.
  - induction x as [|a x IH]; destruct y as [|b y]; simpl; try (split; easy).
    unfold lex. destruct (c a b) eqn:E.
    + apply (cmp_eq _ H) in E. subst b. rewrite IH.
      split; [intros ->; reflexivity | now inversion 1].
    + split; [discriminate|]. inversion 1; subst. rewrite (cmp_refl _ H) in E. discriminate.
    + split; [discriminate|]. inversion 1; subst. rewrite (cmp_refl _ H) in E. discriminate.
  - induction x as [|a x IH]; destruct y as [|b y]; simpl; try easy.
    unfold lex. rewrite (cmp_anti _ H a b), (IH y). destruct (c a b); reflexivity.
  - induction x as [|a x IH]; destruct y as [|b y]; destruct z as [|d z]; simpl; try easy.
    unfold lex. destruct (c a b) eqn:E1; try discriminate.
    + apply (cmp_eq _ H) in E1. subst b. destruct (c a d); try easy. apply IH.
    + intros _. destruct (c b d) eqn:E2; try discriminate.
      * apply (cmp_eq _ H) in E2. subst d. rewrite E1. reflexivity.
      * rewrite (cmp_trans _ H _ _ _ E1 E2). reflexivity.
Qed.

Lemma N_cmp_strict : strict_cmp N.compare.
Proof.
  split.
  - intros; apply N.compare_eq_iff.
  - intros; apply N.compare_antisym.
  - intros x y z. rewrite !N.compare_lt_iff. apply N.lt_trans.
Qed.

Lemma Z_cmp_strict : strict_cmp Z.compare.
Proof.
  split.
  - intros; apply Z.compare_eq_iff.
  - intros; apply Z.compare_antisym.
  - intros x y z. rewrite !Z.compare_lt_iff. apply Z.lt_trans.
Qed.

(** Rust compares strings bytewise. *)
Definition ascii_cmp (a b : ascii) : comparison := N.compare (N_of_ascii a) (N_of_ascii b).
Fixpoint str_cmp (s t : string) : comparison :=
  match s, t with
  | EmptyString, EmptyString => Eq
  | EmptyString, String _ _ => Lt
  | String _ _, EmptyString => Gt
  | String a s', String b t' => lex (ascii_cmp a b) (str_cmp s' t')
  end.

Lemma ascii_cmp_strict : strict_cmp ascii_cmp.
Proof.
  unfold ascii_cmp. split.
  - intros x y. rewrite N.compare_eq_iff. split; [|now intros ->].
    intros E. rewrite <- (ascii_N_embedding x), <- (ascii_N_embedding y), E. reflexivity.
  - intros; apply N.compare_antisym.
  - intros x y z. rewrite !N.compare_lt_iff. apply N.lt_trans.
Qed.

Lemma str_cmp_list s t :
  str_cmp s t = list_cmp ascii_cmp (list_ascii_of_string s) (list_ascii_of_string t).
Proof.
  revert t. induction s as [|a s IH]; destruct t; simpl; try reflexivity.
  now rewrite IH.
Qed.

Lemma str_cmp_strict : strict_cmp str_cmp.
Proof.
  pose proof (list_cmp_strict _ ascii_cmp_strict) as H. split.
  - intros s t. rewrite str_cmp_list, (cmp_eq _ H). split; [|now intros ->].
    intros E. rewrite <- (string_of_list_ascii_of_string s),
      <- (string_of_list_ascii_of_string t), E. reflexivity.
  - intros s t. rewrite !str_cmp_list. apply (cmp_anti _ H).
  - intros s t u. rewrite !str_cmp_list. apply (cmp_trans _ H).
Qed.

Lemma str_cmp_eqb s t : str_cmp s t = Eq <-> String.eqb s t = true.
Proof. rewrite (cmp_eq _ str_cmp_strict). symmetry. apply String.eqb_eq. Qed.

(** ** Sorted sets: [BTreeSet] as a strictly ascending list *)
Section SortedSet.
  Context {A : Type} (cmp : A -> A -> comparison).

  Fixpoint sinsert (x : A) (l : list A) : list A :=
    match l with
    | [] => [x]
    | y :: ys => match cmp x y with
                 | Lt => x :: l
                 | Eq => l
                 | Gt => y :: sinsert x ys
                 end
    end.

  (** [collect::<BTreeSet<_>>()] / repeated [insert]. *)
  Definition sof_list (l : list A) : list A := fold_left (fun s x => sinsert x s) l [].

  Definition slt (x y : A) : Prop := cmp x y = Lt.
  Definition sorted_set (l : list A) : Prop := StronglySorted slt l.

  Context (H : strict_cmp cmp).

  Lemma sinsert_in x y l : In y (sinsert x l) <-> y = x \/ In y l.
  Proof.
    induction l as [|z l IH]; simpl; [intuition congruence|].
    destruct (cmp x z) eqn:E; simpl.
    - apply (cmp_eq _ H) in E. subst. intuition congruence.
    - intuition congruence.
    - rewrite IH. intuition congruence.
  Qed.

  Lemma sinsert_sorted x l : sorted_set l -> sorted_set (sinsert x l).
  Proof.
    unfold sorted_set. induction 1 as [|z l Hs IH Hf]; simpl.
    - constructor; constructor.
    - destruct (cmp x z) eqn:E.
      + now constructor.
      + constructor; [now constructor|]. constructor; [exact E|].
        eapply Forall_impl; [|exact Hf]. intros w Hw. eapply (cmp_trans _ H); eauto.
      + constructor; [exact IH|]. rewrite Forall_forall in *. intros w Hw.
        apply sinsert_in in Hw as [->|Hw]; [|now apply Hf].
        now apply (cmp_gt_lt _ H) in E.
  Qed.

  Lemma fold_sinsert_in l s y :
    In y (fold_left (fun s x => sinsert x s) l s) <-> In y l \/ In y s.
  Proof.
    revert s. induction l as [|x l IH]; simpl; intros s; [tauto|].
    rewrite IH, sinsert_in. intuition congruence.
  Qed.

  Lemma fold_sinsert_sorted l s :
    sorted_set s -> sorted_set (fold_left (fun s x => sinsert x s) l s).
  Proof.
    revert s. induction l as [|x l IH]; simpl; intros s Hs; auto.
    apply IH. now apply sinsert_sorted.
  Qed.

  Lemma sof_list_in l y : In y (sof_list l) <-> In y l.
  Proof. unfold sof_list. rewrite fold_sinsert_in. simpl. tauto. Qed.

  Lemma sof_list_sorted l : sorted_set (sof_list l).
  Proof. apply fold_sinsert_sorted. constructor. Qed.

  Lemma sorted_set_nodup l : sorted_set l -> NoDup l.
  Proof.
    induction 1 as [|x l Hs IH Hf]; constructor; auto.
    intros Hin. rewrite Forall_forall in Hf. apply Hf in Hin.
    now apply (cmp_lt_irrefl _ H) in Hin.
  Qed.

  (** A strictly ascending list is determined by its members. *)
  Lemma sorted_set_ext l r :
    sorted_set l -> sorted_set r -> (forall x, In x l <-> In x r) -> l = r.
  Proof.
    intros Hl. revert r. induction Hl as [|x l Hl IH Hf]; intros r Hr E.
    - destruct r as [|y r]; auto. exfalso. apply (E y). now left.
    - destruct Hr as [|y r Hr Hg]; [exfalso; apply (E x); now left|].
      rewrite Forall_forall in Hf, Hg.
      assert (x = y).
      { assert (Hx : In x (y :: r)) by (apply E; now left).
        assert (Hy : In y (x :: l)) by (apply E; now left).
        destruct Hx as [->|Hx]; auto. destruct Hy as [->|Hy]; auto.
        apply Hg in Hx. apply Hf in Hy.
        exfalso. apply (cmp_lt_irrefl _ H x). eapply (cmp_trans _ H); eauto. }
      subst y. f_equal. apply IH; auto.
      intros z. split; intros Hz.
      + assert (Hz' : In z (x :: r)) by (apply E; now right).
        destruct Hz' as [<-|]; auto. apply Hf in Hz. now apply (cmp_lt_irrefl _ H) in Hz.
      + assert (Hz' : In z (x :: l)) by (apply E; now right).
        destruct Hz' as [<-|]; auto. apply Hg in Hz. now apply (cmp_lt_irrefl _ H) in Hz.
  Qed.

  Lemma sof_list_ext l r : (forall x, In x l <-> In x r) -> sof_list l = sof_list r.
  Proof.
    intros E. apply sorted_set_ext; try apply sof_list_sorted.
    intros x. now rewrite !sof_list_in.
  Qed.

  Lemma sof_list_id l : sorted_set l -> sof_list l = l.
  Proof.
    intros Hl. apply sorted_set_ext; auto; [apply sof_list_sorted|]. apply sof_list_in.
  Qed.
End SortedSet.

(** ** Sorted maps: [BTreeMap] as an association list, strictly ascending keys *)
Section SortedMap.
  Context {K V : Type} (cmp : K -> K -> comparison).

  Fixpoint minsert (k : K) (v : V) (m : list (K * V)) : list (K * V) :=
    match m with
    | [] => [(k, v)]
    | (k', v') :: m' => match cmp k k' with
                        | Lt => (k, v) :: m
                        | Eq => (k, v) :: m'
                        | Gt => (k', v') :: minsert k v m'
                        end
    end.

  Fixpoint mget (k : K) (m : list (K * V)) : option V :=
    match m with
    | [] => None
    | (k', v') :: m' => match cmp k k' with Eq => Some v' | _ => mget k m' end
    end.

  (** [Extend]/[FromIterator]: insert in order, later entries win. *)
  Definition mextend (m : list (K * V)) (l : list (K * V)) : list (K * V) :=
    fold_left (fun m kv => minsert (fst kv) (snd kv) m) l m.

  Definition keys (m : list (K * V)) : list K := map fst m.
  Definition map_wf (m : list (K * V)) : Prop := sorted_set cmp (keys m).

  Context (H : strict_cmp cmp).

  Lemma minsert_keys_in k v m y : In y (keys (minsert k v m)) <-> y = k \/ In y (keys m).
  Proof.
    induction m as [|[k' v'] m IH]; simpl; [intuition congruence|].
    destruct (cmp k k') eqn:E; simpl.
    - apply (cmp_eq _ H) in E. subst. intuition congruence.
    - intuition congruence.
    - unfold keys in *. rewrite IH. intuition congruence.
  Qed.

  Lemma minsert_wf k v m : map_wf m -> map_wf (minsert k v m).
  Proof.
    unfold map_wf, sorted_set. induction m as [|[k' v'] m IH]; simpl; intros Hm.
    - constructor; constructor.
    - inversion Hm as [|? ? Hm' Hf]; subst. destruct (cmp k k') eqn:E; simpl.
      + apply (cmp_eq _ H) in E. subst. now constructor.
      + constructor; [exact Hm|]. constructor; [exact E|].
        eapply Forall_impl; [|exact Hf]. intros w Hw. eapply (cmp_trans _ H); eauto.
      + constructor; [now apply IH|]. rewrite Forall_forall in *. intros w Hw.
        apply minsert_keys_in in Hw as [->|Hw]; [|now apply Hf].
        now apply (cmp_gt_lt _ H) in E.
  Qed.

  Lemma mget_minsert_eq k v m : mget k (minsert k v m) = Some v.
  Proof.
    induction m as [|[k' v'] m IH]; simpl.
    - now rewrite (cmp_refl _ H).
    - destruct (cmp k k') eqn:E; simpl; try now rewrite (cmp_refl _ H).
      now rewrite E, IH.
  Qed.

  Lemma mget_minsert_ne k k' v m : k <> k' -> mget k' (minsert k v m) = mget k' m.
  Proof.
    intros Hne. assert (Hc : cmp k' k <> Eq) by (rewrite (cmp_eq _ H); congruence).
    induction m as [|[k1 v1] m IH]; simpl.
    - destruct (cmp k' k); congruence.
    - destruct (cmp k k1) eqn:E; simpl.
      + apply (cmp_eq _ H) in E. subst k1. destruct (cmp k' k); congruence.
      + destruct (cmp k' k); try congruence.
      + now rewrite IH.
  Qed.

  Lemma mget_some_in k v m : mget k m = Some v -> In (k, v) m.
  Proof.
    induction m as [|[k' v'] m IH]; simpl; [discriminate|].
    destruct (cmp k k') eqn:E; auto.
    apply (cmp_eq _ H) in E. subst. inversion 1. now left.
  Qed.

  Lemma mget_none k m : mget k m = None <-> ~ In k (keys m).
  Proof.
    induction m as [|[k' v'] m IH]; simpl; [tauto|].
    destruct (cmp k k') eqn:E.
    - apply (cmp_eq _ H) in E. subst. split; [discriminate|tauto].
    - rewrite IH. split; [|tauto]. intros Hn [->|Hi]; auto.
      now rewrite (cmp_refl _ H) in E.
    - rewrite IH. split; [|tauto]. intros Hn [->|Hi]; auto.
      now rewrite (cmp_refl _ H) in E.
  Qed.

  Lemma mget_in k v m : map_wf m -> (mget k m = Some v <-> In (k, v) m).
  Proof.
    intros Hm. split; [apply mget_some_in|].
    unfold map_wf, sorted_set in Hm. induction m as [|[k' v'] m IH]; simpl; [tauto|].
    inversion Hm as [|? ? Hm' Hf]; subst. intros [E|Hi].
    - inversion E; subst. now rewrite (cmp_refl _ H).
    - assert (Hlt : cmp k' k = Lt).
      { rewrite Forall_forall in Hf. apply Hf. change k with (fst (k, v)). now apply in_map. }
      rewrite (cmp_anti _ H k' k), Hlt. simpl. auto.
  Qed.

  Lemma mextend_wf l m : map_wf m -> map_wf (mextend m l).
  Proof.
    unfold mextend. revert m. induction l as [|[k v] l IH]; simpl; intros m Hm; auto.
    apply IH. now apply minsert_wf.
  Qed.

  (** Two well-formed maps with the same look-ups are equal. *)
  Lemma map_ext m n :
    map_wf m -> map_wf n -> (forall k, mget k m = mget k n) -> m = n.
  Proof.
    unfold map_wf, sorted_set. revert n.
    induction m as [|[k v] m IH]; intros [|[k' v'] n] Hm Hn E; auto.
    - specialize (E k'). simpl in E. now rewrite (cmp_refl _ H) in E.
    - specialize (E k). simpl in E. now rewrite (cmp_refl _ H) in E.
    - simpl in Hm, Hn.
      inversion Hm as [|? ? Hm' Hf]; subst. inversion Hn as [|? ? Hn' Hg]; subst.
      assert (Hk : k = k').
      { destruct (cmp k k') eqn:C.
        - now apply (cmp_eq _ H).
        - exfalso. specialize (E k). simpl in E. rewrite (cmp_refl _ H), C in E.
          symmetry in E. apply mget_some_in in E. apply (in_map fst) in E. simpl in E.
          rewrite Forall_forall in Hg. apply Hg in E.
          apply (cmp_lt_irrefl _ H k). eapply (cmp_trans _ H); eauto.
        - exfalso. apply (cmp_gt_lt _ H) in C.
          specialize (E k'). simpl in E. rewrite (cmp_refl _ H), C in E.
          apply mget_some_in in E. apply (in_map fst) in E. simpl in E.
          rewrite Forall_forall in Hf. apply Hf in E.
          apply (cmp_lt_irrefl _ H k'). eapply (cmp_trans _ H); eauto. }
      subst k'.
      assert (v = v').
      { specialize (E k). simpl in E. rewrite (cmp_refl _ H) in E. congruence. }
      subst v'. f_equal. apply IH; auto. intros x. specialize (E x). simpl in E.
      destruct (cmp x k) eqn:C; auto.
      apply (cmp_eq _ H) in C. subst x.
      transitivity (@None V); [|symmetry]; apply mget_none; intros Hi.
      + rewrite Forall_forall in Hf. apply Hf in Hi. now apply (cmp_lt_irrefl _ H) in Hi.
      + rewrite Forall_forall in Hg. apply Hg in Hi. now apply (cmp_lt_irrefl _ H) in Hi.
  Qed.
End SortedMap.

(** ** Decimal rendering of numbers ([to_string] on integers) *)
Definition digit (n : N) : ascii := ascii_of_N (48 + n).
Fixpoint dec_aux (fuel : nat) (n : N) (acc : string) : string :=
  match fuel with
  | O => acc
  | S f => let acc' := String (digit (n mod 10)) acc in
           if (n <? 10)%N then acc' else dec_aux f (n / 10) acc'
  end.
Definition dec_of_N (n : N) : string := dec_aux (S (N.to_nat (N.size n))) n "".

Example dec_of_N_ex : dec_of_N 1024000 = "1024000"%string /\ dec_of_N 0 = "0"%string.
Proof. split; reflexivity. Qed.
