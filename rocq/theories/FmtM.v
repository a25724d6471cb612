(** Model of the textual output of numbers and equations: core/src/lib.rs:838-889,
    core/src/term.rs:178-193, 225-238, 259-310, 455-462, core/src/traits.rs:23-30, 65-75 and
    the percentage of cli/src/main.rs:376. *)
From Coq Require Import List String Ascii NArith ZArith Bool Floats.SpecFloat.
From Verif Require Import Base ScopeM TermM F64.
Import ListNotations.
Local Open Scope string_scope.

(** ** Numbers *)

(** [num / den] rounded to the nearest integer, ties to even. *)
Definition div_round (num den : N) : N :=
  let q := (num / den)%N in
  let r := (num mod den)%N in
  match N.compare (2 * r) den with
  | Lt => q
  | Gt => (q + 1)%N
  | Eq => if N.even q then q else (q + 1)%N
  end.
(** The hundredths of [m * 2^e]: what the standard library rounds to for the
    precision 2 (exact decimal expansion, ties to even). *)
Definition hundredths (m : positive) (e : Z) : N :=
  match e with
  | Zneg p => div_round (Npos m * 100) (2 ^ Npos p)
  | _ => (Npos m * 100 * 2 ^ Z.to_N e)%N
  end.
(** A number of hundredths with two decimals. *)
Definition dec_2 (q : N) : string :=
  dec_of_N (q / 100) ++ "." ++ String (digit (q mod 100 / 10)) (String (digit (q mod 10)) "").

(** [format!("{:.2}", x)] *)
Definition fmt_2 (x : f64) : string :=
  match x with
  | S754_nan => "NaN"
  | S754_infinity s => if s then "-inf" else "inf"
  | S754_zero s => if s then "-0.00" else "0.00"
  | S754_finite s m e => (if s then "-" else "") ++ dec_2 (hundredths m e)
  end.
(** [format!("{:+5.2}", x)]: always with a sign, except NaN; filled up with blanks
    on the left to five characters. *)
Definition pad5 (s : string) : string :=
  match (5 - String.length s)%nat with
  | 0%nat => s | 1%nat => " " ++ s | 2%nat => "  " ++ s | 3%nat => "   " ++ s | 4%nat => "    " ++ s | _ => "     " ++ s
  end.
Definition fmt_plus5_2 (x : f64) : string :=
  pad5 match x with
       | S754_nan => "NaN"
       | S754_infinity s => if s then "-inf" else "+inf"
       | S754_zero s => if s then "-0.00" else "+0.00"
       | S754_finite s m e => (if s then "-" else "+") ++ dec_2 (hundredths m e)
       end.

(** [format!("{:.2}", w as f64 / d as f64)] *)
Definition fmt_quot (w d : N) : string := fmt_2 (f64_div (f64_of_N w) (f64_of_N d)).

(** core/src/lib.rs:846-858 *)
Definition fmt_scalar (w : N) : string :=
  if (1000000000000 <=? w)%N then fmt_quot w 1000000000000 ++ "T"
  else if (1000000000 <=? w)%N then fmt_quot w 1000000000 ++ "G"
  else if (1000000 <=? w)%N then fmt_quot w 1000000 ++ "M"
  else if (1000 <=? w)%N then fmt_quot w 1000 ++ "K"
  else dec_of_N w.
(** core/src/lib.rs:860-873 ([{:.2}] ignores the precision for an integer) *)
Definition fmt_time (t : N) : string :=
  if (1000000000000 <=? t)%N then fmt_quot t 1000000000000 ++ "s"
  else if (1000000000 <=? t)%N then fmt_quot t 1000000000 ++ "ms"
  else if (1000000 <=? t)%N then fmt_quot t 1000000 ++ "us"
  else if (1000 <=? t)%N then fmt_quot t 1000 ++ "ns"
  else dec_of_N t ++ "ps".
(** core/src/lib.rs:875-889 *)
Definition fmt_proof (b : N) : string :=
  let kib := 1024%N in
  let mib := (kib * 1024)%N in
  let gib := (mib * 1024)%N in
  if (gib <=? b)%N then fmt_quot b gib ++ "GiB"
  else if (mib <=? b)%N then fmt_quot b mib ++ "MiB"
  else if (kib <=? b)%N then fmt_quot b kib ++ "KiB"
  else dec_of_N b ++ "B".
(** core/src/lib.rs:838-844 *)
Definition fmt_value (unit : dimension) (v : N) : string :=
  match unit with Time => fmt_time v | Proof_size => fmt_proof v end.

(** ** Equations *)
Section Display.
  (** [ValueFormatter::format_scalar], [== T::zero()] and [== T::one()]. *)
  Context {T : Type} (vfmt : T -> string) (vzero vone : T -> bool).

  (** core/src/term.rs:179-185 *)
  Definition is_const_zero (t : term T) : bool :=
    match t with
    | Value x => vzero x
    | Scalar x => N.eqb x 0
    | _ => false
    end.
  (** core/src/term.rs:187-193 *)
  Definition is_const_one (t : term T) : bool :=
    match t with
    | Value x => vone x
    | Scalar x => N.eqb x 1
    | _ => false
    end.

  (** core/src/term.rs:263-310 *)
  Fixpoint maybe_fmt (t : term T) (has_bracket : bool) : option string :=
    match t with
    | Mul l r =>
        if is_const_one l then maybe_fmt r has_bracket
        else if is_const_one r then maybe_fmt l has_bracket
        else if is_const_zero r || is_const_zero l then None
        else match maybe_fmt l false, maybe_fmt r false with
             | Some l, Some r => Some (l ++ " * " ++ r)
             | Some l, None => Some l
             | None, Some r => Some r
             | None, None => None
             end
    | Add l r =>
        if is_const_zero l && is_const_zero r then None
        else if is_const_zero l then maybe_fmt r has_bracket
        else if is_const_zero r then maybe_fmt l has_bracket
        else match maybe_fmt l true, maybe_fmt r true with
             | Some l, Some r => Some (if has_bracket then l ++ " + " ++ r else "(" ++ l ++ " + " ++ r ++ ")")
             | Some l, None => Some l
             | None, Some r => Some r
             | None, None => None
             end
    | Value v => Some (vfmt v)
    | Scalar v => Some (fmt_scalar v)
    | Var x => Some x
    end.
  (** core/src/term.rs:259-261 and 455-462 *)
  Definition display (t : term T) : string :=
    match maybe_fmt t true with Some s => s | None => "0" end.

  (** core/src/term.rs:225-238; the [unwrap] is a panic. *)
  Definition fmt_equation (sc : scope (term T)) (t : term T) : outcome string :=
    let bounds := bound_vars sc t in
    let frees := free_vars sc t in
    let* equation := mapM (fun var =>
      match scope_get sc var with
      | Some v => Ok (var ++ "=" ++ display v)
      | None => Panic "called `Option::unwrap()` on a `None` value"
      end) bounds in
    Ok (String.concat ", " (equation ++ frees)).
End Display.

(** core/src/traits.rs:23-27 *)
Definition sdisplay : sterm -> string := display fmt_scalar (N.eqb 0) (N.eqb 1).
Definition sfmt_equation : sscope -> sterm -> outcome string := fmt_equation fmt_scalar (N.eqb 0) (N.eqb 1).
(** core/src/traits.rs:39-49, 65-69 *)
Definition wfmt (w : weight) : string := "(" ++ dec_of_N (time w) ++ ", " ++ dec_of_N (proof w) ++ ")".
Definition wis (n : N) (w : weight) : bool := N.eqb (time w) n && N.eqb (proof w) n.
Definition cdisplay : cterm -> string := display wfmt (wis 0) (wis 1).
Definition cfmt_equation : cscope -> cterm -> outcome string := fmt_equation wfmt (wis 0) (wis 1).

(** core/src/test/term.rs:41-53 *)
Example sdisplay_ex :
  sdisplay (Add (Scalar 12680000) (Add (Mul (Scalar 4410000) (Var "c")) (Add (Mul (Scalar 1) (Var "READ")) (Mul (Var "WRITE") (Scalar 1)))))
    = "12.68M + 4.41M * c + READ + WRITE" /\
  sdisplay (Add (Add (Add (Add (Scalar 9909) (Mul (Scalar 0) (Var "l"))) (Mul (Scalar 0) (Var "s"))) (Mul (Scalar 3) (Var "READ"))) (Mul (Scalar 3) (Var "WRITE")))
    = "9.91K + 3 * READ + 3 * WRITE" /\
  sdisplay (Mul (Add (Var "a") (Var "b")) (Var "c")) = "(a + b) * c" /\
  fmt_time 1234567 = "1.23us" /\ fmt_scalar 999999 = "1000.00K" /\ fmt_plus5_2 (percent 3 4) = "+33.33" /\ fmt_plus5_2 (percent 4 3) = "-25.00" /\
  fmt_plus5_2 (percent 0 0) = "  NaN" /\ fmt_plus5_2 (percent 0 1) = " +inf".
Proof. vm_compute. repeat split; reflexivity. Qed.
