(** Specification vocabulary for the constants of Substrate in the files of
    storage weights. *)
From Coq Require Import List String NArith Bool.
From Verif Require Import Base ScopeM TermM SpecTerm SynM ParseM SpecParse.
Import ListNotations.
Local Open Scope string_scope.
Local Open Scope N_scope.

(** The names of the number of weight units, picoseconds, in a nanosecond. *)
Definition nanosecond (x : string) : Prop :=
  exists s, (s = "WEIGHT_PER_NANOS" \/ s = "WEIGHT_REF_TIME_PER_NANOS") /\ (x = s \/ x = "constants::" ++ s).
(** The picoseconds an expression stands for, if no intermediate result exceeds 128 bits. *)
Inductive picos : expr -> N -> Prop :=
| pic_int n : n < 2 ^ 128 -> picos (ELit (LInt n)) n
| pic_name p : nanosecond (name_of p) -> picos (EPath p) 1000
| pic_mul l r a b : picos l a -> picos r b -> a * b < 2 ^ 128 -> picos (EBinary BMul l r) (a * b)
| pic_add l r a b : picos l a -> picos r b -> a + b < 2 ^ 128 -> picos (EBinary BAdd l r) (a + b).
(** The sum of a weight: times a constant, the reads, the writes, and components. *)
Definition env (comps : list (string * N)) (rd wr : N) (rho : string -> N) : Prop :=
  rho "READ" = rd /\ rho "WRITE" = wr /\ (forall x, nanosecond x -> rho x = 1000) /\
  forall x n, In (x, n) comps -> rho x = n.
