(** Specification vocabulary for the methods that look at one corner of the ranges. *)
From Coq Require Import List String NArith Bool Reals.
From Verif Require Import Base ScopeM TermM SpecTerm CompareM SpecCompare RowsM SpecRows SpecEnd.
Import ListNotations.
Local Open Scope string_scope.
Local Open Scope R_scope.

(** [Base] looks at the smallest, the asymptotic methods look at the largest components. *)
Definition looks_at (meth : method) (s : side) : Prop :=
  match meth with Base => s = Low | ExactAsymptotic | Asymptotic => s = High | ExactWorst | GuessWorst => False end.
(** Every component has its lower (or upper) instance. *)
Definition at_corner (s : side) (d : dimension) (a b : option sextrinsic) (rho : string -> N) : Prop :=
  rho "READ" = read_cost d /\ rho "WRITE" = write_cost d /\
  forall c, component storage_var a b c -> inst s (annotations a b c) (rho c).
(** The values at the corner are in the range of the tool's integers; products of components are allowed. *)
Definition sane (d : dimension) (o n : sextrinsic) (s : side) : Prop :=
  typed o /\ typed n /\ distinct_names (eterm o) (eterm n) /\
  forall rho, at_corner s d (Some o) (Some n) rho -> (poly_val rho (eterm o) < u128_bound /\ poly_val rho (eterm n) < u128_bound)%N.
(** From [v] to [w] is a change of at least [t] percent, in either direction, beyond what rounding may lose. *)
Definition differs (t : R) (v w : N) : Prop :=
  (v = 0 /\ 0 < w)%N \/ (0 < v)%N /\ t + slack v w <= Rabs (rel_change_of v w).
