(** Specification vocabulary for the methods that look at one corner, for the source of weight functions. *)
From Coq Require Import List String NArith Bool Reals.
From Verif Require Import Base ScopeM TermM SpecTerm SpecChrom F64 CompareM SpecCompare RowsM SpecRows SynM AttrM ParseM SpecParse SpecAttr SpecEnd SpecCorner.
Import ListNotations.
Local Open Scope string_scope.

(** Every parameter has its smallest (or largest) annotated value in the two versions, 0 (or 100) if there is no annotation. *)
Definition at_source_corner (s : side) (mo mn : SynM.method) (eo en : expr) (rho : string -> N) : Prop :=
  forall c, In c (names eo) \/ In c (names en) -> exists Ao An,
    source_range (m_attrs mo) c Ao /\ source_range (m_attrs mn) c An /\ inst s (app Ao An) (rho c).
(** As [tame_body], but products of a component with itself are allowed. *)
Definition plain_body (e : expr) : Prop := well_formed e /\ forall x, In x (names e) -> plain_name x.
(** Two versions of a weight function with no underscores in names, and with values in the range of the tool's integers at the corner. *)
Definition sane_source (s : side) (d : dimension) (mo mn : SynM.method) (eo en : expr) : Prop :=
  plain_body eo /\ plain_body en /\
  (forall a c r, In a (m_attrs mo) \/ In a (m_attrs mn) -> declares a c r -> plain_name c) /\
  forall rho v w, at_source_corner s mo mn eo en rho -> weight_at d rho eo v -> weight_at d rho en w ->
    (v < u128_bound /\ w < u128_bound)%N.
(** The row says that the weight has changed from [v] to [w] and by how much; or that the comparison failed. *)
Definition shows_exactly (r : row) (v w : N) : Prop :=
  is_failed r \/ exists c, reports r c /\ tc_change c = Changed /\ tc_old_v c = Some v /\ tc_new_v c = Some w /\ tc_percent c = percent v w.
