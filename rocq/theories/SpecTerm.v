(** Specification vocabulary for weight equations, independent of the
    evaluator: occurrences of variables, sub-terms, the polynomial a term
    denotes, a fuel-free evaluation relation, and definition cycles. *)
From Coq Require Import List String NArith.
From Verif Require Import Base ScopeM TermM.
Import ListNotations.

(** Variables of a term in source order, with repetitions. *)
Fixpoint var_list {T} (t : term T) : list string :=
  match t with
  | Value _ | Scalar _ => []
  | Var x => [x]
  | Add l r | Mul l r => var_list l ++ var_list r
  end.
Definition occurs {T} (x : string) (t : term T) : Prop := In x (var_list t).

Inductive subterm {T} : term T -> term T -> Prop :=
| sub_here t : subterm t t
| sub_add_l s l r : subterm s l -> subterm s (Add l r)
| sub_add_r s l r : subterm s r -> subterm s (Add l r)
| sub_mul_l s l r : subterm s l -> subterm s (Mul l r)
| sub_mul_r s l r : subterm s r -> subterm s (Mul l r).

(** ** The polynomial of a term: a sum of monomials [coefficient * product of
    variables]. *)
Definition monomial : Type := N * list string.
Definition mono_mul (p q : monomial) : monomial := (fst p * fst q, snd p ++ snd q)%N.
Fixpoint monomials (t : sterm) : list monomial :=
  match t with
  | Value n | Scalar n => [(n, [])]
  | Var x => [(1%N, [x])]
  | Add l r => monomials l ++ monomials r
  | Mul l r => flat_map (fun p => map (mono_mul p) (monomials r)) (monomials l)
  end.
Definition mono_val (rho : string -> N) (p : monomial) : N :=
  fold_right (fun x acc => rho x * acc)%N (fst p) (snd p).
Definition poly_val (rho : string -> N) (t : sterm) : N :=
  fold_right (fun p acc => mono_val rho p + acc)%N 0%N (monomials t).

(** Numbers that fit into a [u128]. *)
Fixpoint u128_term (t : sterm) : Prop :=
  match t with
  | Value n | Scalar n => (n < u128_bound)%N
  | Var _ => True
  | Add l r | Mul l r => u128_term l /\ u128_term r
  end.

(** A scope that binds variables to numbers only. *)
Definition number (t : sterm) : option N :=
  match t with Value n | Scalar n => Some n | _ => None end.
Definition number_scope (sc : sscope) : Prop :=
  forall x u, scope_get sc x = Some u -> number u <> None.
(** [sc] gives every variable of [t] the number [rho] assigns to it. *)
Definition binds (sc : sscope) (rho : string -> N) (t : sterm) : Prop :=
  forall x, occurs x t -> exists u, scope_get sc x = Some u /\ number u = Some (rho x).
Definition bound_in {T} (sc : scope T) (x : string) : Prop := scope_get sc x <> None.

(** [x] is the leftmost variable of [t] that the scope does not define. *)
Definition leftmost_unbound {T} (sc : scope (term T)) (t : term T) (x : string) : Prop :=
  exists pre post, var_list t = pre ++ x :: post /\
    (forall y, In y pre -> bound_in sc y) /\ ~ bound_in sc x.

(** ** Evaluation without fuel: the recursion of the source, as a relation. *)
Inductive evals (m : mode) (sc : sscope) : sterm -> outcome N -> Prop :=
| ev_value n : evals m sc (Value n) (Ok n)
| ev_scalar n : evals m sc (Scalar n) (Ok n)
| ev_unbound x : scope_get sc x = None ->
    evals m sc (Var x) (Err ("Variable '" ++ x ++ "' not found"))
| ev_var x u r : scope_get sc x = Some u -> evals m sc u r -> evals m sc (Var x) r
| ev_add l r a b : evals m sc l (Ok a) -> evals m sc r (Ok b) ->
    evals m sc (Add l r) (uadd m a b)
| ev_mul l r a b : evals m sc l (Ok a) -> evals m sc r (Ok b) ->
    evals m sc (Mul l r) (umul m a b)
| ev_fail_l op l r e : op = Add \/ op = Mul ->
    evals m sc l e -> is_ok e = false -> evals m sc (op l r) e
| ev_fail_r op l r a e : op = Add \/ op = Mul ->
    evals m sc l (Ok a) -> evals m sc r e -> is_ok e = false -> evals m sc (op l r) e.

(** The same with at most [k] nested look-ups. *)
Inductive evals_within (m : mode) (sc : sscope) : nat -> sterm -> outcome N -> Prop :=
| ew_value k n : evals_within m sc k (Value n) (Ok n)
| ew_scalar k n : evals_within m sc k (Scalar n) (Ok n)
| ew_unbound k x : scope_get sc x = None ->
    evals_within m sc k (Var x) (Err ("Variable '" ++ x ++ "' not found"))
| ew_var k x u r : scope_get sc x = Some u -> evals_within m sc k u r -> evals_within m sc (S k) (Var x) r
| ew_add k l r a b : evals_within m sc k l (Ok a) -> evals_within m sc k r (Ok b) ->
    evals_within m sc k (Add l r) (uadd m a b)
| ew_mul k l r a b : evals_within m sc k l (Ok a) -> evals_within m sc k r (Ok b) ->
    evals_within m sc k (Mul l r) (umul m a b)
| ew_fail_l k op l r e : op = Add \/ op = Mul ->
    evals_within m sc k l e -> is_ok e = false -> evals_within m sc k (op l r) e
| ew_fail_r k op l r a e : op = Add \/ op = Mul ->
    evals_within m sc k l (Ok a) -> evals_within m sc k r e -> is_ok e = false -> evals_within m sc k (op l r) e.

(** [y] occurs in the definition of [x]. *)
Definition depends (sc : sscope) (x y : string) : Prop :=
  exists u, scope_get sc x = Some u /\ occurs y u.
Inductive depends_plus (sc : sscope) : string -> string -> Prop :=
| dp_one x y : depends sc x y -> depends_plus sc x y
| dp_more x y z : depends sc x y -> depends_plus sc y z -> depends_plus sc x z.
Definition reaches (sc : sscope) (t : sterm) (x : string) : Prop :=
  occurs x t \/ exists y, occurs y t /\ depends_plus sc y x.

(** No definition of the scope, other than its own, mentions [v]. *)
Definition unused (sc : sscope) (v : string) : Prop := forall x, x <> v -> ~ depends sc x v.
