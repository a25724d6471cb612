(** Specification vocabulary for two-dimensional weight equations. *)
From Coq Require Import List String NArith Bool.
From Verif Require Import Base ScopeM TermM SpecTerm.
Import ListNotations.

(** One coordinate of a weight. *)
Definition coord (d : dimension) (w : weight) : N :=
  match d with Time => time w | Proof_size => proof w end.

(** The dimension a term of dimension [d] should not contribute to. *)
Definition other (d : dimension) : dimension :=
  match d with Time => Proof_size | Proof_size => Time end.

(** The equation in one dimension: every weight is replaced by its coordinate. *)
Fixpoint restrict (d : dimension) (t : cterm) : sterm :=
  match t with
  | Value w => Value (coord d w)
  | Scalar n => Scalar n
  | Var x => Var x
  | Add l r => Add (restrict d l) (restrict d r)
  | Mul l r => Mul (restrict d l) (restrict d r)
  end.
Definition restrict_scope (d : dimension) (sc : cscope) : sscope :=
  map (fun p => (fst p, restrict d (snd p))) sc.

(** Weights are pairs of [u128]. *)
Definition u128_weight (w : weight) : Prop := (time w < u128_bound)%N /\ (proof w < u128_bound)%N.
Fixpoint u128_cterm (t : cterm) : Prop :=
  match t with
  | Value w => u128_weight w
  | Scalar n => (n < u128_bound)%N
  | Var _ => True
  | Add l r | Mul l r => u128_cterm l /\ u128_cterm r
  end.

(** Every summand of the multiplied-out term contains a number written in the
    term. *)
Fixpoint lit_monomials {T} (t : term T) : list (bool * list string) :=
  match t with
  | Value _ | Scalar _ => [(true, [])]
  | Var x => [(false, [x])]
  | Add l r => lit_monomials l ++ lit_monomials r
  | Mul l r => flat_map (fun p => map (fun q => (fst p || fst q, snd p ++ snd q)) (lit_monomials r))
                 (lit_monomials l)
  end.
Definition guarded {T} (t : term T) : Prop :=
  forall p, In p (lit_monomials t) -> fst p = true.

(** The term multiplies variable [x] directly by the integer literal [k]. *)
Definition has_factor {T} (t : term T) (x : string) (k : N) : Prop :=
  subterm (Mul (Scalar k) (Var x)) t \/ subterm (Mul (Var x) (Scalar k)) t.
