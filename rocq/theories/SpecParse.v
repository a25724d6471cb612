(** Specification vocabulary for the parser of weight functions: what a Rust
    weight expression computes, independent of how it is parsed. *)
From Coq Require Import List String Ascii NArith Bool.
From Verif Require Import Base ScopeM TermM SpecTerm SpecChrom CompareM SynM.
Import ListNotations.
Local Open Scope string_scope.

(** ** The meaning of weight expressions *)

(** A number ([u32], [u64], ...) or a two-dimensional [Weight]. *)
Inductive value := VNum (n : N) | VWeight (ref_time proof_size : N).

Definition val_add (a b : value) : option value :=
  match a, b with
  | VNum a, VNum b => Some (VNum (a + b))
  | VWeight t p, VWeight t' p' => Some (VWeight (t + t') (p + p'))
  | _, _ => None
  end.
Definition val_mul (a b : value) : option value :=
  match a, b with
  | VNum a, VNum b => Some (VNum (a * b))
  | VWeight t p, VNum b => Some (VWeight (t * b) (p * b))
  | _, _ => None
  end.
Definition val2 (f : value -> value -> option value) (a b : option value) : option value :=
  match a, b with Some a, Some b => f a b | _, _ => None end.

(** The type of a constant or parameter, as it is written. *)
Definition name_of (p : path) : string := String.concat "::" (segments p).
(** [Weight::f], with any path in front of [Weight]. *)
Definition weight_fn (func : expr) (f : string) : Prop :=
  exists p pre, func = EPath p /\ segments p = (pre ++ ["Weight"; f])%list.
Definition weight_fn_of (func : expr) : option string :=
  match func with
  | EPath p => match rev (segments p) with f :: w :: _ => if String.eqb w "Weight" then Some f else None | _ => None end
  | _ => None
  end.

Section Val.
  (** [v1]: [Weight] is a number (first version of the weights) instead of a pair.
      [rho]: the values of parameters and constants. [rd], [wr]: the reference
      time of a storage read and write. *)
  Variables (v1 : bool) (rho : string -> N) (rd wr : N).

  (** [n] storage accesses that take time [c] each. *)
  Definition val_db (c : N) (n : option value) : option value :=
    match n with
    | Some (VNum n) => Some (if v1 then VNum (n * c) else VWeight (n * c) 0)
    | _ => None
    end.

  (** The value of an expression in unbounded arithmetic: as long as nothing
      saturates or is truncated by a cast. [None]: not an expression of this kind,
      or not well-typed. Parameters or constants called READ or WRITE are excluded. *)
  Fixpoint val (e : expr) : option value :=
    match e with
    | EParen e => val e
    | ECast e => val e
    | ELit (LInt n) => Some (VNum n)
    | EPath p =>
        let x := name_of p in
        if String.eqb x "READ" || String.eqb x "WRITE" then None else Some (VNum (rho x))
    | EMethodCall r m [] _ =>
        if String.eqb m "into" then val r
        else if String.eqb m "ref_time" then
          match val r with Some (VWeight t _) => Some (VNum t) | _ => None end
        else None
    | EMethodCall r m [a] _ =>
        if String.eqb m "saturating_add" then val2 val_add (val r) (val a)
        else if String.eqb m "saturating_mul" then val2 val_mul (val r) (val a)
        else if String.eqb m "reads" then val_db rd (val a)
        else if String.eqb m "writes" then val_db wr (val a)
        else None
    | ECall func args _ =>
        match weight_fn_of func, args with
        | Some f, [] => if String.eqb f "zero" then Some (if v1 then VNum 0 else VWeight 0 0) else None
        | Some f, [a] =>
            if v1 then None
            else match val a with
                 | Some (VNum n) =>
                     if String.eqb f "from_ref_time" then Some (VWeight n 0)
                     else if String.eqb f "from_proof_size" then Some (VWeight 0 n)
                     else None
                 | _ => None
                 end
        | Some f, [a; b] =>
            if v1 then None
            else match val a, val b with
                 | Some (VNum n), Some (VNum k) =>
                     if String.eqb f "from_parts" then Some (VWeight n k) else None
                 | _, _ => None
                 end
        | _, _ => None
        end
    | _ => None
    end.
End Val.

(** The values of all variables of an equation. *)
Definition with_rw (rho : string -> N) (rd wr : N) (x : string) : N :=
  if String.eqb x "READ" then rd else if String.eqb x "WRITE" then wr else rho x.

(** ** Numbers that depend on a literal *)

(** Every summand of the number [e] has a literal as a factor. [time]: storage
    accesses count as well (they have no proof size). *)
Fixpoint has_literal (time : bool) (e : expr) : Prop :=
  match e with
  | EParen e | ECast e => has_literal time e
  | ELit _ => True
  | EMethodCall r m args _ =>
      if String.eqb m "into" then has_literal time r
      else if String.eqb m "ref_time" then has_literal time r
      else match args with
           | [a] =>
               if String.eqb m "saturating_add" then has_literal time r /\ has_literal time a
               else if String.eqb m "saturating_mul" then has_literal time r \/ has_literal time a
               else if String.eqb m "reads" || String.eqb m "writes" then time = true \/ has_literal time a
               else False
           | _ => False
           end
  | ECall func args _ =>
      match args with
      | [] => weight_fn func "zero"
      | [a] => weight_fn func "from_ref_time" /\ has_literal time a
      | _ => False
      end
  | _ => False
  end.
(** No storage access within the expression. *)
Fixpoint no_access (e : expr) : Prop :=
  match e with
  | EParen e | ECast e => no_access e
  | EMethodCall r m args _ =>
      m <> "reads" /\ m <> "writes" /\ no_access r /\ match args with [a] => no_access a | _ => True end
  | ECall _ [a] _ => no_access a
  | ECall _ [a; b] _ => no_access a /\ no_access b
  | _ => True
  end.
(** All arguments of weight constructors have a literal in every summand, and those
    that are proof sizes are not made of storage accesses. *)
Fixpoint literal_args (e : expr) : Prop :=
  match e with
  | EParen e | ECast e => literal_args e
  | EMethodCall r m args _ =>
      if String.eqb m "reads" || String.eqb m "writes" then True
      else literal_args r /\ match args with [a] => literal_args a | _ => True end
  | ECall func [a] _ =>
      (weight_fn func "from_ref_time" -> has_literal true a) /\
      (weight_fn func "from_proof_size" -> has_literal false a /\ no_access a)
  | ECall func [a; b] _ => has_literal true a /\ has_literal false b /\ no_access b
  | _ => True
  end.

(** ** The functions of the benchmarking template *)

(** A component, converted or not. *)
Inductive component : expr -> Prop :=
| comp_path p : name_of p <> "READ" -> name_of p <> "WRITE" -> component (EPath p)
| comp_into e tr : component e -> component (EMethodCall e "into" [] tr)
| comp_paren e : component e -> component (EParen e)
| comp_cast e : component e -> component (ECast e).
(** A literal below 2^128, possibly in brackets and with a cast. *)
Inductive numeral : expr -> Prop :=
| num_lit n : (n < u128_bound)%N -> numeral (ELit (LInt n))
| num_paren e : numeral e -> numeral (EParen e)
| num_cast e : numeral e -> numeral (ECast e).
Inductive count : expr -> Prop :=
| count_num e : numeral e -> count e
| count_mul e c tr : numeral e -> component c -> count (EMethodCall e "saturating_mul" [c] tr).
Inductive db_call : expr -> Prop :=
| db_get p lead tr : p = ["T"; "DbWeight"; "get"] \/ p = ["RocksDbWeight"; "get"] \/ p = ["ParityDbWeight"; "get"] ->
    db_call (ECall (EPath (mk_path lead p)) [] tr).
(** One line of a weight function. *)
Inductive summand : expr -> Prop :=
| sum_parts a b p tr : numeral a -> numeral b -> segments p = ["Weight"; "from_parts"] -> summand (ECall (EPath p) [a; b] tr)
| sum_time a p tr : numeral a -> segments p = ["Weight"; "from_ref_time"] -> summand (ECall (EPath p) [a] tr)
| sum_proof a p tr : numeral a -> segments p = ["Weight"; "from_proof_size"] -> summand (ECall (EPath p) [a] tr)
| sum_zero p tr : segments p = ["Weight"; "zero"] -> summand (ECall (EPath p) [] tr)
| sum_mul e c tr : summand e -> component c -> summand (EMethodCall e "saturating_mul" [c] tr)
| sum_reads db n tr : db_call db -> count n -> summand (EMethodCall db "reads" [n] tr)
| sum_writes db n tr : db_call db -> count n -> summand (EMethodCall db "writes" [n] tr)
| sum_paren e : summand e -> summand (EParen e).
Inductive template : expr -> Prop :=
| tmpl_one e : summand e -> template e
| tmpl_add e s tr : template e -> summand s -> template (EMethodCall e "saturating_add" [s] tr).
(** The template for the first version of the weights: numbers, as in test_data/old. *)
Inductive old_summand : expr -> Prop :=
| old_count e : count e -> old_summand e
| old_reads db n tr : db_call db -> count n -> old_summand (EMethodCall db "reads" [n] tr)
| old_writes db n tr : db_call db -> count n -> old_summand (EMethodCall db "writes" [n] tr)
| old_paren e : old_summand e -> old_summand (EParen e).
Inductive old_template : expr -> Prop :=
| old_one e : old_summand e -> old_template e
| old_add e s tr : old_template e -> old_summand s -> old_template (EMethodCall e "saturating_add" [s] tr).

(** ** Parentheses, casts and conversions *)
Fixpoint erase (e : expr) : expr :=
  match e with
  | EParen e | ECast e => erase e
  | EMethodCall r m args tr =>
      if String.eqb m "into" then erase r
      else EMethodCall (if String.eqb m "reads" || String.eqb m "writes" then r else erase r) m (map erase args) tr
  | ECall func args tr => ECall func (map erase args) tr
  | e => e
  end.
(** Same result, or equations of the same value in both dimensions. *)
Definition same_equation (a b : outcome cterm) : Prop :=
  match a, b with
  | Ok s, Ok t =>
      (forall rho, poly_val rho (restrict Time s) = poly_val rho (restrict Time t)) /\
      (forall rho, rho "READ" = 0%N -> rho "WRITE" = 0%N ->
         poly_val rho (restrict Proof_size s) = poly_val rho (restrict Proof_size t))
  | a, b => a = b
  end.

(** Equal once every scalar is written as the value with no proof size. *)
Fixpoint valued (t : cterm) : cterm :=
  match t with
  | Scalar n => Value {| time := n; proof := 0%N |}
  | Value w => Value w
  | Var x => Var x
  | Add l r => Add (valued l) (valued r)
  | Mul l r => Mul (valued l) (valued r)
  end.
Definition same_shape (a b : outcome cterm) : Prop :=
  match a, b with
  | Ok s, Ok t => valued s = valued t
  | a, b => a = b
  end.

(** ** Literals *)
Fixpoint literals (e : expr) : list lit :=
  match e with
  | EParen e | ECast e => literals e
  | EMethodCall r _ args _ => literals r ++ flat_map literals args
  | ELit l => [l]
  | EPath _ => []
  | ECall f args _ => literals f ++ flat_map literals args
  | EBinary _ l r => literals l ++ literals r
  | EStruct _ fields => flat_map (fun p => literals (snd p)) fields
  | EOther => []
  end.
Definition int_literals (e : expr) : Prop := forall l, In l (literals e) -> exists n, l = LInt n /\ (n < u128_bound)%N.

Fixpoint methods (items : list impl_item) : list method :=
  match items with
  | [] => []
  | IFn m :: items' => m :: methods items'
  | INotFn :: items' => methods items'
  end.
(** The body is a single expression with integer literals, or not a single statement. *)
Definition harmless (m : method) : Prop :=
  forall s, m_stmts m = [s] -> exists e, s = SExpr e /\ int_literals e.
Definition harmless_item (i : item) : Prop :=
  forall t items m, i = IImpl t items -> In m (methods items) -> harmless m.

(** ** Weight implementations *)
Definition weight_impl (t : ty) : Prop :=
  t = TTuple 0 \/ exists name, (name = "WeightInfo" \/ name = "SubstrateWeight") /\ t = TPath (mk_path false [name]).

(** The block implements the weights, and all of its functions are accepted;
    [ws] lists their entries in the order of the source. *)
Definition usable {X} (accept : method -> X -> Prop) (i : item) (ws : list X) : Prop :=
  exists t items, i = IImpl t items /\ weight_impl t /\ ws <> [] /\ Forall2 accept (methods items) ws.
(** [ws] are the entries of the first usable block. *)
Definition first_usable {X} (accept : method -> X -> Prop) (items : list item) (ws : list X) : Prop :=
  exists pre i post, items = (pre ++ i :: post)%list /\ usable accept i ws /\
    forall j ws', In j pre -> ~ usable accept j ws'.
(** The declared return type is a path that ends in "Weight". *)
Definition declares_weight (m : method) : Prop :=
  exists p pre x, m_output m = RType (TPath p) /\ segments p = (pre ++ [append x "Weight"])%list.

(** ** Database handles *)
(** [T::DbWeight::get], or [...::XRocksDbWeight::get], or [...::XParityDbWeight::get]. *)
Definition db_path (p : path) : Prop :=
  segments p = ["T"; "DbWeight"; "get"] \/
  exists pre x, segments p = (pre ++ [append x "RocksDbWeight"; "get"])%list \/ segments p = (pre ++ [append x "ParityDbWeight"; "get"])%list.
Definition db_handle (e : expr) : Prop := exists p tr, e = ECall (EPath p) [] tr /\ db_path p.
(** Identifiers contain no colon. *)
Fixpoint no_colon (s : string) : Prop :=
  match s with "" => True | String c s' => c <> ":"%char /\ no_colon s' end.
Definition identifiers (p : path) : Prop := Forall no_colon (segments p).
(** The path of a called function consists of identifiers. *)
Definition proper_call (e : expr) : Prop := forall p args tr, e = ECall (EPath p) args tr -> identifiers p.
