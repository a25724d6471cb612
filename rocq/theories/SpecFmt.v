(** Specification vocabulary for textual output: reading numbers and equations. *)
From Coq Require Import List String Ascii NArith ZArith Reals Bool.
From Verif Require Import Base TermM SpecF64.
Import ListNotations.
Local Open Scope string_scope.

(** ** Reading numbers *)
Definition read_digit (c : ascii) : option N :=
  let n := N_of_ascii c in
  if ((48 <=? n) && (n <=? 57))%N then Some (n - 48)%N else None.
(** Digits, most significant first, after digits worth [acc]. *)
Fixpoint read_digits (acc : N) (s : string) : option N :=
  match s with
  | "" => Some acc
  | String c s' => match read_digit c with Some d => read_digits (acc * 10 + d) s' | None => None end
  end.
Definition read_dec (s : string) : option N :=
  match s with "" => None | _ => read_digits 0 s end.

Fixpoint split_dot (s : string) : option (string * string) :=
  match s with
  | "" => None
  | String c s' =>
      if Ascii.eqb c "." then Some ("", s')
      else match split_dot s' with Some (a, b) => Some (String c a, b) | None => None end
  end.
(** A number with exactly two decimals, in hundredths. *)
Definition read_2 (s : string) : option N :=
  match split_dot s with
  | Some (a, String d1 (String d2 "")) =>
      match read_dec a, read_digit d1, read_digit d2 with
      | Some i, Some x, Some y => Some (100 * i + 10 * x + y)%N
      | _, _, _ => None
      end
  | _ => None
  end.

(** ** Units *)
Definition units : Type := list (string * N).
Definition time_units : units :=
  [("s", 1000000000000%N); ("ms", 1000000000%N); ("us", 1000000%N); ("ns", 1000%N); ("ps", 1%N)].
Definition proof_units : units :=
  [("GiB", 1073741824%N); ("MiB", 1048576%N); ("KiB", 1024%N); ("B", 1%N)].
Definition scalar_units : units :=
  [("T", 1000000000000%N); ("G", 1000000000%N); ("M", 1000000%N); ("K", 1000%N); ("", 1%N)].
Definition units_of (d : dimension) : units :=
  match d with Time => time_units | Proof_size => proof_units end.
(** [scale] is the largest unit not above [v] (the smallest unit for 0). *)
Definition best_unit (u : units) (v : N) (suffix : string) (scale : N) : Prop :=
  In (suffix, scale) u /\ (scale = 1 \/ scale <= v)%N /\
  forall suffix' scale', In (suffix', scale') u -> (scale' <= v)%N -> (scale' <= scale)%N.
(** The text [s] shows [q] hundredths of the unit: an integer of the smallest
    unit, two decimals otherwise. *)
Definition shows (s suffix : string) (scale q : N) : Prop :=
  exists text, s = text ++ suffix /\
    (scale = 1%N -> exists i, read_dec text = Some i /\ q = (100 * i)%N) /\
    (scale <> 1%N -> read_2 text = Some q).

(** Every 128 bit number is shown in its best unit, with two decimals that are off by
    at most half a hundredth and the error of two roundings of floats; exactly in
    the smallest unit. *)
Definition fmt_correct (fmt : N -> string) (us : units) : Prop :=
  forall v, (v < u128_bound)%N -> exists suffix scale q,
    best_unit us v suffix scale /\ shows (fmt v) suffix scale q /\
    (Rabs (RN q / 100 - RN v / RN scale) <= / 200 + powerRZ 2 (-51) * (RN v / RN scale))%R /\
    (scale = 1%N -> q = (100 * v)%N).
(** In the same unit, a larger number is not shown as a smaller one. *)
Definition fmt_monotone (fmt : N -> string) (us : units) : Prop :=
  forall v v' suffix scale q q', (v <= v')%N -> (v' < u128_bound)%N ->
    best_unit us v suffix scale -> best_unit us v' suffix scale ->
    shows (fmt v) suffix scale q -> shows (fmt v') suffix scale q' -> (q <= q')%N.

(** ** Reading equations *)
Inductive expr := XNum (n : N) | XVar (x : string) | XAdd (a b : expr) | XMul (a b : expr).
Fixpoint xval (rho : string -> N) (e : expr) : N :=
  match e with
  | XNum n => n
  | XVar x => rho x
  | XAdd a b => xval rho a + xval rho b
  | XMul a b => xval rho a * xval rho b
  end.

(** Words are separated by blanks and brackets. *)
Inductive token := TOpen | TClose | TWord (w : string).
Definition flush (w : string) (l : list token) : list token :=
  match w with "" => l | _ => TWord w :: l end.
(** [w] is the word read so far. *)
Fixpoint tokens (w : string) (s : string) : list token :=
  match s with
  | "" => flush w []
  | String c s' =>
      if Ascii.eqb c " " then flush w (tokens "" s')
      else if Ascii.eqb c "(" then flush w (TOpen :: tokens "" s')
      else if Ascii.eqb c ")" then flush w (TClose :: tokens "" s')
      else tokens (w ++ String c "") s'
  end.

(** A word is a number if it consists of digits, and a variable otherwise. *)
Definition word (w : string) : expr :=
  match read_dec w with Some n => XNum n | None => XVar w end.

(** Recursive descent: [+] binds weaker than [*]. The first argument bounds the
    recursion; the number of tokens is enough. *)
Fixpoint read_sum (fuel : nat) (l : list token) : option (expr * list token) :=
  match fuel with
  | O => None
  | S f =>
      match read_product f l with
      | Some (a, TWord "+" :: l') =>
          match read_sum f l' with Some (b, l'') => Some (XAdd a b, l'') | None => None end
      | r => r
      end
  end
with read_product (fuel : nat) (l : list token) : option (expr * list token) :=
  match fuel with
  | O => None
  | S f =>
      match read_atom f l with
      | Some (a, TWord "*" :: l') =>
          match read_product f l' with Some (b, l'') => Some (XMul a b, l'') | None => None end
      | r => r
      end
  end
with read_atom (fuel : nat) (l : list token) : option (expr * list token) :=
  match fuel with
  | O => None
  | S f =>
      match l with
      | TOpen :: l' =>
          match read_sum f l' with Some (a, TClose :: l'') => Some (a, l'') | _ => None end
      | TWord w :: l' => if (String.eqb w "+" || String.eqb w "*")%bool then None else Some (word w, l')
      | _ => None
      end
  end.
Definition read_equation (s : string) : option expr :=
  let l := tokens "" s in
  match read_sum (3 * List.length l + 3) l with
  | Some (e, []) => Some e
  | _ => None
  end.

Example read_equation_ex :
  read_equation "12 + 3 * (a + b) * c + READ"
  = Some (XAdd (XNum 12) (XAdd (XMul (XNum 3) (XMul (XAdd (XVar "a") (XVar "b")) (XVar "c"))) (XVar "READ"))) /\
  read_equation "a + * b" = None /\ read_equation "(a + b" = None.
Proof. repeat split. Qed.

(** A letter or underscore followed by letters, digits and underscores. *)
Definition is_digit (c : ascii) : bool := match read_digit c with Some _ => true | None => false end.
Definition is_letter (c : ascii) : bool :=
  let n := N_of_ascii c in
  (((65 <=? n) && (n <=? 90)) || ((97 <=? n) && (n <=? 122)) || (n =? 95))%N.
Fixpoint all_chars (p : ascii -> bool) (s : string) : bool :=
  match s with "" => true | String c s' => p c && all_chars p s' end.
Definition is_ident (s : string) : Prop :=
  exists c s', s = String c s' /\ is_letter c = true /\ all_chars (fun c => is_letter c || is_digit c) s' = true.

(** Numbers below 1000 and identifiers only: these are shown exactly. *)
Fixpoint plain (t : sterm) : Prop :=
  match t with
  | Value n | Scalar n => (n < 1000)%N
  | Var x => is_ident x
  | Add l r | Mul l r => plain l /\ plain r
  end.
Definition is_zero (t : sterm) : Prop := t = Value 0%N \/ t = Scalar 0%N.
Definition is_one (t : sterm) : Prop := t = Value 1%N \/ t = Scalar 1%N.
(** There is no constant 0. *)
Fixpoint no_zero (t : sterm) : Prop :=
  match t with
  | Add l r | Mul l r => no_zero l /\ no_zero r
  | t => ~ is_zero t
  end.
(** Constants 0 only occur as summands or as a factor of a product, and not
    further inside the factors of a product (other than [1 * t] and [t * 1]). *)
Fixpoint zeros_outside (t : sterm) : Prop :=
  match t with
  | Add l r => zeros_outside l /\ zeros_outside r
  | Mul l r => (is_one l /\ zeros_outside r) \/ (is_one r /\ zeros_outside l) \/
               is_zero l \/ is_zero r \/ (no_zero l /\ no_zero r)
  | _ => True
  end.
