(** Properties C22-C24: the relative change of two weights. *)
From Coq Require Import ZArith NArith Reals Floats.SpecFloat.
From Verif Require Import Base F64 SpecF64.
From Verif Require PercentP.
Local Open Scope R_scope.

(** ** C22: special values. *)
Theorem C22_percent_special : forall old new, (old < u128_bound)%N -> (new < u128_bound)%N ->
  (percent old new = S754_nan <-> old = 0%N /\ new = 0%N) /\
  (percent old new = S754_infinity false <-> old = 0%N /\ (0 < new)%N) /\
  percent old new <> S754_infinity true /\
  ((0 < old)%N -> exists r, has_value (percent old new) r /\ -100 <= r) /\
  ((0 < old)%N -> old = new -> has_value (percent old new) 0) /\
  ((0 < old)%N -> new = 0%N -> has_value (percent old new) (-100)).
Proof. exact PercentP.percent_special_lemma. Qed.
Print Assumptions C22_percent_special.

Example C22_ex : (12345 < u128_bound)%N /\ percent 12345 12345 = S754_zero false /\
  percent 7 0 = f64_sub (f64_of_N 0) (f64_of_N 100).
Proof. rewrite u128_bound_eq. repeat split; vm_compute; reflexivity. Qed.

(** ** C23: monotonicity and sign. *)
Theorem C23_percent_mono_new : forall old new new',
  (old < u128_bound)%N -> (new' < u128_bound)%N -> (0 < old)%N -> (new <= new')%N ->
  f64_leq (percent old new) (percent old new').
Proof. exact PercentP.percent_mono_new. Qed.
Print Assumptions C23_percent_mono_new.

Theorem C23_percent_mono_old : forall old old' new,
  (old' < u128_bound)%N -> (new < u128_bound)%N -> (0 < new)%N -> (old <= old')%N ->
  f64_leq (percent old' new) (percent old new).
Proof. exact PercentP.percent_mono_old. Qed.
Print Assumptions C23_percent_mono_old.

Theorem C23_percent_mono_ratio : forall old new old' new',
  (0 < old <= 2 ^ 53)%N -> (0 < old' <= 2 ^ 53)%N -> (new <= 2 ^ 53)%N -> (new' <= 2 ^ 53)%N ->
  (new * old' <= new' * old)%N -> f64_leq (percent old new) (percent old' new').
Proof. exact PercentP.percent_mono_ratio. Qed.
Print Assumptions C23_percent_mono_ratio.

Theorem C23_percent_sign : forall old new,
  (old < u128_bound)%N -> (new < u128_bound)%N -> (0 < old)%N ->
  ((old <= new)%N -> exists r, has_value (percent old new) r /\ 0 <= r) /\
  ((new <= old)%N -> exists r, has_value (percent old new) r /\ r <= 0).
Proof. exact PercentP.percent_sign_lemma. Qed.
Print Assumptions C23_percent_sign.

(** Up to 2^50 a difference is never rounded away. *)
Theorem C23_percent_strict : forall old new, (0 < old <= 2 ^ 50)%N -> (new <= 2 ^ 50)%N ->
  ((old < new)%N -> exists r, has_value (percent old new) r /\ 0 < r) /\
  ((new < old)%N -> exists r, has_value (percent old new) r /\ r < 0).
Proof. exact PercentP.percent_strict_lemma. Qed.
Print Assumptions C23_percent_strict.

(** Above that it can be. *)
Theorem C23_percent_strict_everywhere_refuted : exists old new,
  (0 < old < u128_bound)%N /\ (new < u128_bound)%N /\ (old < new)%N /\ percent old new = S754_zero false.
Proof.
  exists (2 ^ 60)%N, (2 ^ 60 + 1)%N. rewrite u128_bound_eq.
  repeat split; vm_compute; reflexivity.
Qed.
Print Assumptions C23_percent_strict_everywhere_refuted.

Example C23_ex : (3 * 7 <= 5 * 5)%N /\ f64_lt (percent 5 3) (percent 7 5) = true /\
  f64_lt (percent 1000000 1000001) (percent 1000000 1000002) = true.
Proof. repeat split; vm_compute; congruence. Qed.

(** ** C24: accuracy. *)
Theorem C24_percent_accuracy : forall old new, (0 < old < u128_bound)%N -> (new < u128_bound)%N ->
  exists r, has_value (percent old new) r /\
    Rabs (r - 100 * (RN new - RN old) / RN old) <= powerRZ 2 (-48) * (100 * RN new / RN old + 100).
Proof. exact PercentP.percent_accuracy_lemma. Qed.
Print Assumptions C24_percent_accuracy.

Example C24_ex : percent 200 250 = f64_of_N 25 /\
  f64_to_i128 (f64_mul (percent 3 4) (f64_of_N 1000000)) = 33333333%Z.
Proof. split; vm_compute; reflexivity. Qed.
