(** Specification vocabulary for comparing two versions of an extrinsic:
    components, their annotations, the box they span and its corners. *)
From Coq Require Import List String NArith ZArith Permutation Ascii.
From Verif Require Import Base ScopeM TermM SpecTerm CompareM.
Import ListNotations.
Local Open Scope string_scope.

(** ** Annotations and instances *)

(** The annotated ranges (none, one or two) of component [c]. *)
Definition annotated (r : option comp_ranges) (c : string) : list comp_range :=
  match r with
  | Some r => match ranges_get r c with Some x => [x] | None => [] end
  | None => []
  end.
Definition annotation (e : option sextrinsic) (c : string) : list comp_range :=
  annotated (match e with Some e => eranges e | None => None end) c.
Definition annotations (a b : option sextrinsic) (c : string) : list comp_range :=
  annotation a c ++ annotation b c.

Inductive side := Low | High.

Definition least (l : list N) (v : N) : Prop := In v l /\ forall w, In w l -> (v <= w)%N.
Definition greatest (l : list N) (v : N) : Prop := In v l /\ forall w, In w l -> (w <= v)%N.

(** The lower (upper) instance of a component with annotations [l]: the smallest
    annotated minimum (largest annotated maximum), and 0 (100) without any. *)
Definition inst (s : side) (l : list comp_range) (v : N) : Prop :=
  match l, s with
  | [], Low => v = 0%N
  | [], High => v = 100%N
  | _, Low => least (map rmin l) v
  | _, High => greatest (map rmax l) v
  end.

(** There is an annotation and all agree. *)
Definition unambiguous (l : list comp_range) : Prop :=
  l <> [] /\ forall r r', In r l -> In r' l -> r = r'.

(** ** Methods *)
Definition is_exact (m : method) : Prop := m = ExactWorst \/ m = ExactAsymptotic.
Definition low_side (m : method) : side :=
  match m with Base | ExactWorst | GuessWorst => Low | ExactAsymptotic | Asymptotic => High end.
Definition high_side (m : method) : side :=
  match m with Base => Low | _ => High end.
(** The method that guesses where [m] fails. *)
Definition guessing (m : method) : method :=
  match m with ExactWorst => GuessWorst | ExactAsymptotic => Asymptotic | m => m end.

(** ** Components and corners *)

(** [c] is a variable of one of the two versions and not among the [bound] names. *)
Definition component (bound : string -> Prop) (a b : option sextrinsic) (c : string) : Prop :=
  (exists e, (a = Some e \/ b = Some e) /\ occurs c (eterm e)) /\ ~ bound c.
(** There are [n] components. *)
Definition component_count (bound : string -> Prop) (a b : option sextrinsic) (n : nat) : Prop :=
  exists l, NoDup l /\ (forall c, In c l <-> component bound a b c) /\ List.length l = n.

(** [sc] extends [base] by a lower or upper instance for every component. *)
Definition is_corner (base : sscope) (a b : option sextrinsic) (m : method) (sc : sscope) : Prop :=
  scope_wf sc /\
  (forall c, component (bound_in base) a b c -> exists v, scope_get sc c = Some (Scalar v) /\
     (inst (low_side m) (annotations a b c) v \/ inst (high_side m) (annotations a b c) v)) /\
  (forall x, ~ component (bound_in base) a b x -> scope_get sc x = scope_get base x).

(** Iteration orders of a hash set. *)
Definition is_order (ord : list string -> list string) : Prop := forall l, Permutation (ord l) l.

(** ** Dimensions *)
Definition storage_var (x : string) : Prop := x = "READ" \/ x = "WRITE".
Definition read_cost (d : dimension) : N := match d with Time => 25000000 | Proof_size => 0 end.
Definition write_cost (d : dimension) : N := match d with Time => 100000000 | Proof_size => 0 end.
Definition storage_scope (d : dimension) : sscope :=
  [("READ", Scalar (read_cost d)); ("WRITE", Scalar (write_cost d))].

(** The equation that is compared: in the proof dimension reads and writes are 0. *)
Fixpoint no_storage (t : sterm) : sterm :=
  match t with
  | Var x => if (String.eqb x "READ" || String.eqb x "WRITE")%bool then Scalar 0 else Var x
  | Add l r => Add (no_storage l) (no_storage r)
  | Mul l r => Mul (no_storage l) (no_storage r)
  | t => t
  end.
Definition effective (d : dimension) (t : sterm) : sterm :=
  match d with Time => t | Proof_size => no_storage t end.

(** ** Points of the box *)

(** An assignment of numbers: storage costs as the tool fixes them, every
    component between its lower and its upper instance. *)
Definition in_box (d : dimension) (a b : option sextrinsic) (rho : string -> N) : Prop :=
  rho "READ" = read_cost d /\ rho "WRITE" = write_cost d /\
  forall c, component storage_var a b c -> exists lo hi,
    inst Low (annotations a b c) lo /\ inst High (annotations a b c) hi /\ (lo <= rho c <= hi)%N.

(** No monomial contains a component twice. *)
Definition multi_affine (t : sterm) : Prop :=
  forall p x, In p (monomials t) -> ~ storage_var x -> (count_occ string_dec (snd p) x <= 1)%nat.

(** ** Equality up to underscores in variable names *)
Definition without_us (s : string) : string :=
  string_of_list_ascii (filter (fun c => negb (Ascii.eqb c "_")) (list_ascii_of_string s)).
Fixpoint erase_us (t : sterm) : sterm :=
  match t with
  | Var x => Var (without_us x)
  | Add l r => Add (erase_us l) (erase_us r)
  | Mul l r => Mul (erase_us l) (erase_us r)
  | t => t
  end.

Definition swap_kind (c : rel_change) : rel_change :=
  match c with Added => Removed | Removed => Added | c => c end.

(** What the Rust types guarantee: literals are [u128], range bounds [u32]. *)
Definition typed (e : sextrinsic) : Prop :=
  u128_term (eterm e) /\
  forall rs c r, eranges e = Some rs -> ranges_get rs c = Some r -> (rmin r < 2 ^ 32 /\ rmax r < 2 ^ 32)%N.

(** ** Ranks of rows: the kind first (unchanged, added, removed, changed), then
    the percentage in thousandths. *)
Definition kind_below (a b : rel_change) : Prop :=
  match a, b with
  | Unchanged, (Added | Removed | Changed) | Added, (Removed | Changed) | Removed, Changed => True
  | _, _ => False
  end.
Definition rank_lt (a b : term_change) : Prop :=
  kind_below (tc_change a) (tc_change b) \/
  (tc_change a = tc_change b /\ (mils (tc_percent a) < mils (tc_percent b))%Z).
