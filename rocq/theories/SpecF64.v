(** Meaning of a double as a real number, and IEEE comparison, stated without
    the arithmetic of the model. *)
From Coq Require Import ZArith NArith Reals Floats.SpecFloat.
From Verif Require Import F64.
Local Open Scope R_scope.

(** The double [x] is a finite number and that number is [r]. *)
Definition has_value (x : f64) (r : R) : Prop :=
  match x with
  | S754_zero _ => r = 0
  | S754_finite s m e => r = (if s then -1 else 1) * IZR (Zpos m) * powerRZ 2 e
  | _ => False
  end.

(** [x <= y] as doubles: never for NaN; infinities are the extremes. *)
Definition f64_leq (x y : f64) : Prop :=
  match x, y with
  | S754_nan, _ | _, S754_nan => False
  | S754_infinity true, _ => True
  | _, S754_infinity false => True
  | S754_infinity false, _ => False
  | _, S754_infinity true => False
  | _, _ => exists a b, has_value x a /\ has_value y b /\ a <= b
  end.

(** [x] is a canonical binary64 datum (every Rust [f64] is one). *)
Definition is_double (x : f64) : Prop := valid_binary f64_prec f64_emax x = true.

(** A [u128] as a real. *)
Definition RN (n : N) : R := IZR (Z.of_N n).

(** [x] is a double nearest to 0.000001 (their distance there is 2^-72). *)
Definition is_micro (x : f64) : Prop :=
  is_double x /\ exists r, has_value x r /\ Rabs (r - 1 / 1000000) <= powerRZ 2 (-73).
