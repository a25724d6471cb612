(** Rust's [f64]: IEEE-754 binary64 with round-to-nearest-even, as the standard
    library's executable specification ([Coq.Floats.SpecFloat]) defines it. *)
From Coq Require Import ZArith NArith Bool Floats.SpecFloat.

Definition f64 : Type := spec_float.
Definition f64_prec : Z := 53.
Definition f64_emax : Z := 1024.

(** [n as f64] for an unsigned integer. *)
Definition f64_of_N (n : N) : f64 := binary_normalize f64_prec f64_emax (Z.of_N n) 0 false.

Definition f64_mul : f64 -> f64 -> f64 := SFmul f64_prec f64_emax.
Definition f64_div : f64 -> f64 -> f64 := SFdiv f64_prec f64_emax.
Definition f64_sub : f64 -> f64 -> f64 := SFsub f64_prec f64_emax.
Definition f64_abs : f64 -> f64 := SFabs.

(** [<], [>] and [>=]; all false if an operand is NaN. *)
Definition f64_lt : f64 -> f64 -> bool := SFltb.
Definition f64_gt (x y : f64) : bool := SFltb y x.
Definition f64_ge (x y : f64) : bool := SFleb y x.

(** [x as i128]: truncation toward zero, saturating, NaN becomes 0. *)
Definition i128_min : Z := (- 2 ^ 127)%Z.
Definition i128_max : Z := (2 ^ 127 - 1)%Z.
Definition f64_to_i128 (x : f64) : Z :=
  match x with
  | S754_nan => 0
  | S754_zero _ => 0
  | S754_infinity s => if s then i128_min else i128_max
  | S754_finite s m e =>
      let a := (if (0 <=? e)%Z then Zpos m * 2 ^ e else Zpos m / 2 ^ (- e))%Z in
      Z.max i128_min (Z.min i128_max (if s then - a else a)%Z)
  end.

(** core/src/lib.rs:834-836 *)
Definition percent (old new : N) : f64 :=
  f64_sub (f64_mul (f64_of_N 100) (f64_div (f64_of_N new) (f64_of_N old))) (f64_of_N 100).

(** The literal [0.000001] (core/src/lib.rs:813): the nearest double, i.e. the
    correctly rounded quotient. *)
Definition f64_micro : f64 := f64_div (f64_of_N 1) (f64_of_N 1000000).

Example percent_ex : percent 200 250 = f64_of_N 25 /\ percent 0 0 = S754_nan /\
  percent 0 5 = S754_infinity false /\ f64_to_i128 (f64_mul (percent 3 4) (f64_of_N 1000)) = 33333%Z.
Proof. repeat split; vm_compute; reflexivity. Qed.
Example f64_micro_ex : f64_micro = S754_finite false 4722366482869645 (-72).
Proof. vm_compute. reflexivity. Qed.
