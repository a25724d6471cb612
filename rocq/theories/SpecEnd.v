(** Specification vocabulary for statements about the tool as a whole: relative
    changes as real numbers, and pairs of equations the worst case can be found for. *)
From Coq Require Import List String Ascii Arith NArith ZArith Bool Reals Floats.SpecFloat.
From Verif Require Import Base ScopeM TermM SpecTerm F64 SpecF64 CompareM SpecCompare RowsM SpecRows SynM ParseM SpecParse SpecAttr StorageM FilesM SpecFiles.
Import ListNotations.
Local Open Scope string_scope.
Local Open Scope R_scope.

(** The relative change from [v] to [w] in percent, as a real number. *)
Definition rel_change_of (v w : N) : R := 100 * (RN w - RN v) / RN v.
(** What the rounding of the computed percentage may lose: about 4e-15 of it. *)
Definition slack (v w : N) : R := powerRZ 2 (-48) * (100 * RN w / RN v + 100).

(** A threshold with at most three decimals: the double [x] is the number [z/1000] exactly. *)
Definition threshold_mils (x : f64) (z : Z) : Prop :=
  is_double x /\ (0 <= z <= 2 ^ 53)%Z /\ has_value x (IZR z / 1000).

(** From [v] to [w] is a growth of at least [t] percent, beyond what rounding may lose. Everything is more than nothing. *)
Definition grown (t : R) (v w : N) : Prop :=
  (v = 0 /\ 0 < w)%N \/ (0 < v)%N /\ t + slack v w <= rel_change_of v w.
(** What is shown of this growth at least: it up to rounding, at most 2^100 percent. *)
Definition about (v w : N) : R :=
  if N.eqb v 0 then powerRZ 2 100 else Rmin (rel_change_of v w) (powerRZ 2 100) - 2 * slack v w - 2 / 1000.
(** The percentage [x] is at least [t] and about the one from [v] to [w] or worse. *)
Definition at_least (x : f64) (t : R) (v w : N) : Prop :=
  x = S754_infinity false \/ exists p, has_value x p /\ t <= Rabs p /\ (0 < t -> t <= p) /\ about v w <= p.
(** The row shows a change of at least [t] percent, and one of about that from [v] to [w] or worse; or
    it says that the comparison failed. Without a threshold a change from 0 to 0 may stand for
    one of at most two thousandths of a percent. *)
Definition shows (r : row) (t : R) (v w : N) : Prop :=
  is_failed r \/ exists c, reports r c /\ tc_change c = Changed /\
    (at_least (tc_percent c) t v w \/ tc_percent c = S754_nan /\ t = 0 /\ about v w <= 0).

(** No two variables of the equations are the same up to underscores. *)
Definition distinct_names (s t : sterm) : Prop :=
  forall x y, occurs x s \/ occurs x t -> occurs y s \/ occurs y t -> without_us x = without_us y -> x = y.

(** Every component occurs at most once in every product, and all values on the
    box of the ranges are in the range of the tool's integers. *)
Definition tame (d : dimension) (o n : sextrinsic) : Prop :=
  typed o /\ typed n /\ multi_affine (eterm o) /\ multi_affine (eterm n) /\
  distinct_names (eterm o) (eterm n) /\
  forall rho, in_box d (Some o) (Some n) rho ->
    (poly_val rho (eterm o) < u128_bound /\ poly_val rho (eterm n) < u128_bound)%N.

(** ** Weight functions *)

(** The parameters and constants the value of an expression depends on. *)
Fixpoint names (e : expr) : list string :=
  match e with
  | EParen e | ECast e => names e
  | EPath p => [name_of p]
  | EMethodCall r m args _ =>
      app (if (String.eqb m "reads" || String.eqb m "writes")%bool then [] else names r)
          (match args with [a] => names a | _ => [] end)
  | ECall _ [a] _ => names a
  | ECall _ [a; b] _ => app (names a) (names b)
  | _ => []
  end.
(** How often [x] is at most a factor of the same product. *)
Fixpoint degree (x : string) (e : expr) : nat :=
  match e with
  | EParen e | ECast e => degree x e
  | EPath p => if String.eqb (name_of p) x then 1 else 0
  | EMethodCall r m args _ =>
      let da := match args with [a] => degree x a | _ => 0%nat end in
      if (String.eqb m "reads" || String.eqb m "writes")%bool then da
      else if String.eqb m "saturating_mul" then (degree x r + da)%nat
      else Nat.max (degree x r) da
  | ECall _ [a] _ => degree x a
  | ECall _ [a; b] _ => Nat.max (degree x a) (degree x b)
  | _ => 0%nat
  end.
(** The value of the body [e], with the storage costs of RocksDB: a weight or, in the first version of the weights, a time. *)
Definition computes (rho : string -> N) (e : expr) (a b : N) : Prop :=
  val false rho 25000000 100000000 e = Some (VWeight a b) \/ (val true rho 25000000 100000000 e = Some (VNum a) /\ b = 0%N).
(** In one dimension. *)
Definition weight_at (d : dimension) (rho : string -> N) (e : expr) (v : N) : Prop :=
  exists a b, computes rho e a b /\ v = match d with Time => a | Proof_size => b end.

(** The last annotation of component [c]. *)
Definition annotates (attrs : list attribute) (c : string) (r : comp_range) : Prop :=
  exists pre a post, attrs = app pre (a :: post) /\ declares a c r /\
    forall a' r', In a' post -> ~ declares a' c r'.
(** The annotated range, if there is one. *)
Definition source_range (attrs : list attribute) (c : string) (A : list comp_range) : Prop :=
  (exists r, A = [r] /\ annotates attrs c r) \/ (A = [] /\ forall r, ~ annotates attrs c r).
(** Parameters within their annotated ranges: from the smaller of the two minima to the larger
    of the two maxima, from 0 to 100 if there is no annotation. *)
Definition in_source_box (mo mn : SynM.method) (eo en : expr) (rho : string -> N) : Prop :=
  forall c, In c (names eo) \/ In c (names en) -> exists Ao An lo hi,
    source_range (m_attrs mo) c Ao /\ source_range (m_attrs mn) c An /\
    inst Low (app Ao An) lo /\ inst High (app Ao An) hi /\ (lo <= rho c <= hi)%N.

Definition plain_name (s : string) : Prop := ~ In "_"%char (list_ascii_of_string s).
(** With literals where the parser needs them (see C34), in one of the two versions. *)
Definition well_formed (e : expr) : Prop :=
  (literal_args e /\ forall rho, exists a b, val false rho 25000000 100000000 e = Some (VWeight a b)) \/
  (has_literal true e /\ forall rho, exists a, val true rho 25000000 100000000 e = Some (VNum a)).
Definition tame_body (e : expr) : Prop :=
  well_formed e /\ (forall x, (degree x e <= 1)%nat) /\ (forall x, In x (names e) -> plain_name x).
(** Two versions of a weight function: no component is multiplied by itself, no underscores in
    names, and all values on the box are in the range of the tool's integers. *)
Definition tame_source (d : dimension) (mo mn : SynM.method) (eo en : expr) : Prop :=
  tame_body eo /\ tame_body en /\
  (forall a c r, In a (m_attrs mo) \/ In a (m_attrs mn) -> declares a c r -> plain_name c) /\
  forall rho v w, in_source_box mo mn eo en rho -> weight_at d rho eo v -> weight_at d rho en w ->
    (v < u128_bound /\ w < u128_bound)%N.
(** The first entry of [l] with key [k] is that of the function [m] with the body [e]. *)
Definition entry_of (l : list cextrinsic) (k : string * string) (m : SynM.method) (e : expr) : Prop :=
  m_stmts m = [SExpr e] /\ exists t rs, handle_method m = Ok (snd k, t, rs) /\
    is_first l k (Some (mk_ext (snd k) (fst k) t rs)).

(** ** Files *)
(** A function as the benchmarking template writes it, with its annotations. *)
Definition template_fn (m : SynM.method) : Prop :=
  (exists e, m_stmts m = [SExpr e] /\ (template e \/ old_template e)) /\ declares_weight m /\ forall a, In a (m_attrs m) -> ~ malformed a.
(** [m] is a function of the first weight implementation of the file. *)
Definition weight_file (items : list item) (m : SynM.method) : Prop :=
  exists pre t its post, items = app pre (IImpl t its :: post) /\ weight_impl t /\
    (forall t' its', In (IImpl t' its') pre -> ~ weight_impl t') /\
    Forall template_fn (methods its) /\ NoDup (map m_name (methods its)) /\ In m (methods its).
(** The pattern matches the file. *)
Definition listed (glob : string -> option (list (option fpath))) (repo : fpath) (pat : string) (p : fpath) : Prop :=
  ~ named p "mod.rs" /\ exists parts part fs, parts_of pat parts /\ In part parts /\ lists glob repo part fs /\ In p fs.
(** The function [snd k] in the file [fst k], relative to the repository. All matches are within the repository. *)
Definition source_of (glob : string -> option (list (option fpath))) (disk : fpath -> string + file) (repo : fpath) (pat : string)
    (k : string * string) (m : SynM.method) (e : expr) : Prop :=
  (forall p, listed glob repo pat p -> exists rest, below repo p rest) /\
  exists p rest items, listed glob repo pat p /\ below repo p rest /\ path_text rest = fst k /\
    disk p = inr (Some items) /\ weight_file items m /\ m_name m = snd k /\ m_stmts m = [SExpr e].
