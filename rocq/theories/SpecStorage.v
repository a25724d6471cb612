(** Specification vocabulary for the files of storage and overhead weights. *)
From Coq Require Import List String Ascii NArith Bool.
From Verif Require Import Base ScopeM TermM SpecTerm SpecChrom CompareM SynM ParseM StorageM SpecParse.
Import ListNotations.
Local Open Scope string_scope.

(** The constants within [parameter_types!], in the order of the source, also
    those within modules called [constants]. *)
Fixpoint consts (i : item) : list item_const :=
  match i with
  | IMod ident (Some items) => if String.eqb ident "constants" then flat_map consts items else []
  | IMacro p (Some c) => if String.eqb (last (segments p) "") "parameter_types" then [c] else []
  | _ => []
  end.
(** The path of a macro has a segment: what the parser of Rust guarantees. *)
Fixpoint proper_macros (i : item) : Prop :=
  match i with
  | IMod _ (Some items) => (fix all (l : list item) : Prop := match l with [] => True | i :: l' => proper_macros i /\ all l' end) items
  | IMacro p _ => segments p <> []
  | _ => True
  end.
(** All of these constants are made of integers of at most 128 bits. *)
Definition proper_file (items : list item) : Prop :=
  Forall proper_macros items /\ forall c, In c (flat_map consts items) -> int_literals (c_expr c).

(** [x] is [read c] for the first [c] for which there is a reading. *)
Definition first_reading {X} (read : item_const -> X -> Prop) (cs : list item_const) (x : X) : Prop :=
  exists pre c post, cs = (pre ++ c :: post)%list /\ read c x /\ forall c' x', In c' pre -> ~ read c' x'.

(** ** Storage weights *)
(** The value of an arithmetic expression. *)
Fixpoint arith (rho : string -> N) (e : expr) : option N :=
  match e with
  | ELit (LInt n) => Some n
  | EPath p => Some (rho (name_of p))
  | EBinary op l r =>
      match op, arith rho l, arith rho r with
      | BMul, Some a, Some b => Some (a * b)%N
      | BAdd, Some a, Some b => Some (a + b)%N
      | _, _, _ => None
      end
  | _ => None
  end.
Definition names_type (p : path) (s : string) : Prop := String.concat "" (segments p) = s.
(** [const XDbWeight: RuntimeDbWeight = RuntimeDbWeight { read: r, write: w }], or with exchanged fields. *)
Definition db_const (c : item_const) (d : db) (r w : expr) : Prop :=
  c_name c = (match d with Rocks => "RocksDbWeight" | Parity => "ParityDbWeight" end) /\
  (exists p, c_ty c = TPath p /\ names_type p "RuntimeDbWeight") /\
  exists p fields, c_expr c = EStruct p fields /\ names_type p "RuntimeDbWeight" /\
    (fields = [(Some "read", r); (Some "write", w)] \/ fields = [(Some "write", w); (Some "read", r)]).
(** The equations of the constant. *)
Definition db_reading (c : item_const) (x : db_weights) : Prop :=
  exists r w, db_const c (w_db x) r w /\
    (forall rho, arith rho r = Some (poly_val rho (rw_read (w_rws x)))) /\
    (forall rho, arith rho w = Some (poly_val rho (rw_write (w_rws x)))).

(** ** Overhead weights *)
Definition weight_const (c : item_const) : Prop := exists p, c_ty c = TPath p /\ names_type p "Weight".
Definition overhead_name (o : overhead) : string :=
  match o with BlockExecution _ => "BlockExecutionWeight" | ExtrinsicBase _ => "ExtrinsicBaseWeight" end.
Definition overhead_term (o : overhead) : cterm :=
  match o with BlockExecution t => t | ExtrinsicBase t => t end.
(** The reference time of a product, a sum, or another weight expression. *)
Definition ref_time_of (v1 : bool) (rho : string -> N) (rd wr : N) (e : expr) : option N :=
  let value :=
    match e with
    | EBinary BMul l r => val2 val_mul (val v1 rho rd wr l) (val v1 rho rd wr r)
    | EBinary BAdd l r => val2 val_add (val v1 rho rd wr l) (val v1 rho rd wr r)
    | e => val v1 rho rd wr e
    end in
  match value with Some (VNum n) => Some n | Some (VWeight t _) => Some t | None => None end.
(** What the parsers of terms accept as a constant weight. *)
Definition accepted (e : expr) (t : cterm) : Prop :=
  match e with
  | EBinary op l r => exists a b, parse_scalar_expression l = Ok a /\ parse_scalar_expression r = Ok b /\
      (op = BMul /\ t = into_chromatic Time (Mul a b) \/ op = BAdd /\ t = into_chromatic Time (Add a b))
  | e => parse_expression e = Ok t
  end.
Definition overhead_reading (c : item_const) (o : overhead) : Prop :=
  weight_const c /\ c_name c = overhead_name o /\ accepted (c_expr c) (overhead_term o).

(** The ways in which overhead weights are written: [WEIGHT_PER_NANOS * 5_000],
    [Weight::from_parts(NANOS.saturating_mul(5_000), 0)] and the like. *)
Inductive factor : expr -> Prop :=
| fac_num e : numeral e -> factor e
| fac_name e : component e -> factor e.
Inductive nanos : expr -> Prop :=
| nanos_num e : numeral e -> nanos e
| nanos_mul a b tr : factor a -> numeral b -> nanos (EMethodCall a "saturating_mul" [b] tr).
Inductive overhead_form : expr -> Prop :=
| of_mul a b : factor a -> factor b -> overhead_form (EBinary BMul a b)
| of_add a b : factor a -> factor b -> overhead_form (EBinary BAdd a b)
| of_parts a b p tr : nanos a -> numeral b -> segments p = ["Weight"; "from_parts"] -> overhead_form (ECall (EPath p) [a; b] tr)
| of_time a p tr : nanos a -> segments p = ["Weight"; "from_ref_time"] -> overhead_form (ECall (EPath p) [a] tr).
