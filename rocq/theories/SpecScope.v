(** Specification of scopes: a scope is its history of writes. *)
From Coq Require Import List String.
From Verif Require Import Base ScopeM.
Import ListNotations.

(** The ways a caller can build a scope. *)
Inductive scope_exp (T : Type) : Type :=
| SEmpty
| SPut (e : scope_exp T) (x : string) (v : T)
| SWith (e : scope_exp T) (x : string) (v : T)
| SMerge (e other : scope_exp T)
| SExtend (e other : scope_exp T).
Arguments SEmpty {T}.
Arguments SPut {T} e x v.
Arguments SWith {T} e x v.
Arguments SMerge {T} e other.
Arguments SExtend {T} e other.

(** Running the operations of the model. *)
Fixpoint build {T} (e : scope_exp T) : scope T :=
  match e with
  | SEmpty => scope_empty
  | SPut e x v => put_var (build e) x v
  | SWith e x v => with_var (build e) x v
  | SMerge a b => scope_merge (build a) (build b)
  | SExtend a b => scope_extend (build a) (build b)
  end.

(** All writes, oldest first; those of the argument of [merge]/[extend] come after
    those of the receiver. *)
Fixpoint writes {T} (e : scope_exp T) : list (string * T) :=
  match e with
  | SEmpty => []
  | SPut e x v | SWith e x v => writes e ++ [(x, v)]
  | SMerge a b | SExtend a b => writes a ++ writes b
  end.

(** [v] is what the latest write to [x] wrote. *)
Definition latest {T} (l : list (string * T)) (x : string) (v : T) : Prop :=
  exists pre post, l = pre ++ (x, v) :: post /\ ~ In x (map fst post).
