(** Model of core/src/term.rs (without text rendering, see [FmtM]) and of the
    arithmetic part of core/src/traits.rs. *)
From Coq Require Import List String Ascii NArith Bool.
From Verif Require Import Base ScopeM.
Import ListNotations.
Local Open Scope string_scope.

(** core/src/term.rs:14-22 [Term<T>]. [VarValue] (27-29) is its string. *)
Inductive term (T : Type) : Type :=
| Value (v : T)
| Scalar (n : N)
| Var (x : string)
| Add (l r : term T)
| Mul (l r : term T).
Arguments Value {T} v.
Arguments Scalar {T} n.
Arguments Var {T} x.
Arguments Add {T} l r.
Arguments Mul {T} l r.

(** core/src/traits.rs:33-37 *)
Record weight := mk_weight { time : N; proof : N }.

(** core/src/term.rs:24-25 *)
Definition sterm := term N.
Definition cterm := term weight.
Definition sscope := scope sterm.
Definition cscope := scope cterm.

(** core/src/lib.rs:409-416 *)
Inductive dimension := Time | Proof_size.

Definition dim_eqb (a b : dimension) : bool :=
  match a, b with Time, Time | Proof_size, Proof_size => true | _, _ => false end.

(** core/src/term.rs:57-61 [VarValue::eq]: [replace('_', "")] on both sides. *)
Fixpoint strip_us (s : string) : string :=
  match s with
  | EmptyString => EmptyString
  | String c s' => if Ascii.eqb c "_"%char then strip_us s' else String c (strip_us s')
  end.
Definition var_eqb (a b : string) : bool := String.eqb (strip_us a) (strip_us b).

(** core/src/term.rs:14 derived [PartialEq] (on variables: [VarValue::eq]). *)
Fixpoint term_eqb {T} (veqb : T -> T -> bool) (a b : term T) : bool :=
  match a, b with
  | Value x, Value y => veqb x y
  | Scalar x, Scalar y => N.eqb x y
  | Var x, Var y => var_eqb x y
  | Add l r, Add l' r' => term_eqb veqb l l' && term_eqb veqb r r'
  | Mul l r, Mul l' r' => term_eqb veqb l l' && term_eqb veqb r r'
  | _, _ => false
  end.
Definition sterm_eqb : sterm -> sterm -> bool := term_eqb N.eqb.

(** core/src/term.rs:14,27 derived [Ord]: by variant, then by fields; on
    variables the derived order of the inner string. *)
Fixpoint term_cmp {T} (vcmp : T -> T -> comparison) (a b : term T) : comparison :=
  match a, b with
  | Value x, Value y => vcmp x y
  | Value _, _ => Lt
  | _, Value _ => Gt
  | Scalar x, Scalar y => N.compare x y
  | Scalar _, _ => Lt
  | _, Scalar _ => Gt
  | Var x, Var y => str_cmp x y
  | Var _, _ => Lt
  | _, Var _ => Gt
  | Add l r, Add l' r' => lex (term_cmp vcmp l l') (term_cmp vcmp r r')
  | Add _ _, _ => Lt
  | _, Add _ _ => Gt
  | Mul l r, Mul l' r' => lex (term_cmp vcmp l l') (term_cmp vcmp r r')
  end.
Definition sterm_cmp : sterm -> sterm -> comparison := term_cmp N.compare.

(** core/src/scope.rs:14 derived [Ord] of the map: lexicographic on entries. *)
Definition sscope_cmp : sscope -> sscope -> comparison :=
  list_cmp (pair_cmp str_cmp sterm_cmp).

Definition not_found (x : string) : string := "Variable '" ++ x ++ "' not found".
Definition not_scalar (x : string) : string := "Variable '" ++ x ++ "' is not a scalar".

(** core/src/term.rs:136-149 [SimpleTerm::eval]. [fuel] bounds the number of
    nested variable look-ups; structural recursion needs no fuel. *)
Fixpoint eval_fuel (m : mode) (ctx : sscope) (fuel : nat) : sterm -> outcome N :=
  fix go (t : sterm) : outcome N :=
    match t with
    | Value x => Ok x
    | Scalar x => Ok x
    | Add x y => let* a := go x in let* b := go y in uadd m a b
    | Mul x y => let* a := go x in let* b := go y in umul m a b
    | Var x => match scope_get ctx x with
               | Some var => match fuel with
                             | O => Diverge
                             | S f => eval_fuel m ctx f var
                             end
               | None => Err (not_found x)
               end
    end.

(** A chain of more nested look-ups than the scope has variables repeats one
    and never ends (theorem [C03] shows that this amount of fuel is exact). *)
Definition eval (m : mode) (ctx : sscope) (t : sterm) : outcome N :=
  eval_fuel m ctx (scope_len ctx) t.

(** core/src/term.rs:167-172 *)
Definition scalar_into_term (s : N) (unit : dimension) : weight :=
  match unit with
  | Time => {| time := s; proof := 0 |}
  | Proof_size => {| time := 0; proof := s |}
  end.

(** core/src/term.rs:151-165 *)
Fixpoint into_chromatic (unit : dimension) (t : sterm) : cterm :=
  match t with
  | Value x | Scalar x => Value (scalar_into_term x unit)
  | Add x y => Add (into_chromatic unit x) (into_chromatic unit y)
  | Mul x y => Mul (into_chromatic unit x) (into_chromatic unit y)
  | Var x => Var x
  end.

Section Generic.
  Context {T : Type}.

  (** [BTreeSet::union] collected into a new set. *)
  Definition set_union (a b : list string) : list string := sof_list str_cmp (a ++ b).

  (** core/src/term.rs:199-208 *)
  Fixpoint free_vars (sc : scope (term T)) (t : term T) : list string :=
    match t with
    | Var x => match scope_get sc x with Some _ => [] | None => [x] end
    | Scalar _ => []
    | Value _ => []
    | Mul l r => set_union (free_vars sc l) (free_vars sc r)
    | Add l r => set_union (free_vars sc l) (free_vars sc r)
    end.

  (** core/src/term.rs:214-223 *)
  Fixpoint bound_vars (sc : scope (term T)) (t : term T) : list string :=
    match t with
    | Var x => match scope_get sc x with Some _ => [x] | None => [] end
    | Scalar _ => []
    | Value _ => []
    | Mul l r => set_union (bound_vars sc l) (bound_vars sc r)
    | Add l r => set_union (bound_vars sc l) (bound_vars sc r)
    end.

  (** core/src/term.rs:246-257 [substitute] and 240-244 [into_substituted]. *)
  Fixpoint substitute (var : string) (s : term T) (t : term T) : term T :=
    match t with
    | Var v => if String.eqb v var then s else t
    | Scalar _ => t
    | Value _ => t
    | Mul l r => Mul (substitute var s l) (substitute var s r)
    | Add l r => Add (substitute var s l) (substitute var s r)
    end.

  (** core/src/term.rs:312-329 [visit]; the closures used are pure and
      infallible, so the [Result] is dropped. *)
  Fixpoint visit {R} (f : term T -> R) (t : term T) : list R :=
    let res := [f t] in
    match t with
    | Value _ => [f t]
    | Scalar _ => [f t]
    | Var _ => [f t]
    | Add l r => (res ++ visit f l) ++ visit f r
    | Mul l r => (res ++ visit f l) ++ visit f r
    end%list.

  (** core/src/term.rs:350-355 *)
  Definition as_scalar (t : term T) : option N :=
    match t with Scalar v => Some v | _ => None end.

  (** core/src/term.rs:357-362 *)
  Definition as_var (t : term T) : option string :=
    match t with Var v => Some v | _ => None end.

  Definition is_var (t : term T) (x : string) : bool :=
    match as_var t with Some v => String.eqb v x | None => false end.

  (** core/src/term.rs:333-343: the closure of [find_largest_factor]. *)
  Definition factor_at (var : string) (t : term T) : option N :=
    match t with
    | Mul l r =>
        if is_var r var && match as_scalar l with Some _ => true | None => false end
        then as_scalar l
        else if is_var l var && match as_scalar r with Some _ => true | None => false end
        then as_scalar r
        else None
    | _ => None
    end.

  (** [Iterator::max] after [flatten]. *)
  Fixpoint flat_max (l : list (option N)) : option N :=
    match l with
    | [] => None
    | None :: l' => flat_max l'
    | Some x :: l' => Some (match flat_max l' with Some y => N.max x y | None => x end)
    end.

  (** core/src/term.rs:332-348 *)
  Definition find_largest_factor (t : term T) (var : string) : option N :=
    flat_max (visit (factor_at var) t).
End Generic.

(** core/src/traits.rs:81-85 *)
Definition mul_scalar (m : mode) (w : weight) (k : N) : outcome weight :=
  let* a := umul m (time w) k in
  let* b := umul m (proof w) k in
  Ok {| time := a; proof := b |}.

(** core/src/term.rs:374 *)
Definition wadd (m : mode) (v w : weight) : outcome weight :=
  let* a := uadd m (time v) (time w) in
  let* b := uadd m (proof v) (proof w) in
  Ok {| time := a; proof := b |}.

(** core/src/term.rs:379,383: [( *x * a, *x * b)]. *)
Definition wscale (m : mode) (k : N) (w : weight) : outcome weight :=
  let* a := umul m k (time w) in
  let* b := umul m k (proof w) in
  Ok {| time := a; proof := b |}.

(** core/src/term.rs:367-404 [ChromaticTerm::eval]; fuel as in [eval_fuel]. *)
Fixpoint ceval_fuel (m : mode) (ctx : cscope) (fuel : nat) : cterm -> outcome weight :=
  fix go (t : cterm) : outcome weight :=
    match t with
    | Value x => Ok x
    | Scalar _ => Panic "Scalars cannot be evaluated; qed"
    | Add x y => let* a := go x in let* b := go y in wadd m a b
    | Mul x y =>
        match x, y with
        | Scalar k, y => let* w := go y in wscale m k w
        | x, Scalar k => let* w := go x in wscale m k w
        | Var v, y =>
            match scope_get ctx v with
            | Some (Scalar k) => let* w := go y in mul_scalar m w k
            | Some _ => Err (not_scalar v)
            | None => Err (not_found v)
            end
        | x, Var v =>
            match scope_get ctx v with
            | Some (Scalar k) => let* w := go x in mul_scalar m w k
            | Some _ => Err (not_scalar v)
            | None => Err (not_found v)
            end
        | _, _ => Panic "Cannot multiply two terms; qed"
        end
    | Var x => match scope_get ctx x with
               | Some var => match fuel with
                             | O => Diverge
                             | S f => ceval_fuel m ctx f var
                             end
               | None => Err (not_found x)
               end
    end.
Definition ceval (m : mode) (ctx : cscope) (t : cterm) : outcome weight :=
  ceval_fuel m ctx (scope_len ctx) t.

(** core/src/term.rs:418-433 [for_values], for a closure that may fail. *)
Fixpoint for_values (f : cterm -> outcome sterm) (t : cterm) : outcome sterm :=
  match t with
  | Value _ | Scalar _ | Var _ => f t
  | Mul l r => let* a := for_values f l in let* b := for_values f r in Ok (Mul a b)
  | Add l r => let* a := for_values f l in let* b := for_values f r in Ok (Add a b)
  end.

(** core/src/term.rs:407-415: the closure of [simplify]; match arms in order. *)
Definition simplify_leaf (unit : dimension) (t : cterm) : outcome sterm :=
  match t with
  | Value w =>
      if dim_eqb unit Time then Ok (Value (time w))
      else if dim_eqb unit Proof_size then Ok (Value (proof w))
      else Panic "internal error: entered unreachable code"
  | Scalar v => Ok (Scalar v)
  | Var x => Ok (Var x)
  | _ => Panic "internal error: entered unreachable code"
  end.

(** core/src/term.rs:406-416 *)
Definition simplify (unit : dimension) (t : cterm) : outcome sterm :=
  for_values (simplify_leaf unit) t.

(** core/src/term.rs:436-452 *)
Fixpoint splice_add (s o : cterm) : cterm :=
  match s, o with
  | Add t1 p1, Add t2 p2 => Add (splice_add t1 t2) (splice_add p1 p2)
  | Value x, Value y =>
      if (N.eqb (time x) 0 && N.eqb (proof y) 0)%bool then
        Value {| time := time y; proof := proof x |}
      else if (N.eqb (proof x) 0 && N.eqb (time y) 0)%bool then
        Value {| time := time x; proof := proof y |}
      else Add (Value x) (Value y)
  | s, o => Add s o
  end.

(** core/src/scope.rs:24-30; core/src/lib.rs:48 *)
Definition WEIGHT_PER_NANOS : N := 1000.
Definition from_substrate : sscope :=
  with_var (with_var (with_var (with_var scope_empty
    "WEIGHT_PER_NANOS" (Scalar WEIGHT_PER_NANOS))
    "WEIGHT_REF_TIME_PER_NANOS" (Scalar WEIGHT_PER_NANOS))
    "constants::WEIGHT_PER_NANOS" (Scalar WEIGHT_PER_NANOS))
    "constants::WEIGHT_REF_TIME_PER_NANOS" (Scalar WEIGHT_PER_NANOS).

(** core/src/lib.rs:750-764 *)
Definition sanity_check_term (t : sterm) : outcome unit :=
  let dflt := fun o : option N => match o with Some x => x | None => 0%N end in
  let reads := dflt (find_largest_factor t "READ") in
  let writes := dflt (find_largest_factor t "WRITE") in
  let larger := N.max reads writes in
  if (1000 <? larger)%N then
    if (writes <? reads)%N
    then Err ("Call has " ++ dec_of_N reads ++ " READs")
    else Err ("Call has " ++ dec_of_N writes ++ " WRITEs")
  else Ok tt.
