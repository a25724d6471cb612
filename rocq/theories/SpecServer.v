(** Specification vocabulary for the concurrent behaviour of the server. *)
From Coq Require Import List String Arith NArith Bool.
From Verif Require Import Base ScopeM TermM F64 CompareM RowsM FmtM WebM ServerM.
Import ListNotations.

(** Thread [i] compares, or lists branches of a repository. *)
Definition compares (c : config) (i : nat) (a : web_args) : Prop := nth_error (snd c) i = Some (Running a).
Definition lists (c : config) (i : nat) (repo : string) : Prop := nth_error (snd c) i = Some (Listing repo).
(** Thread [i] is between its first and its last step. *)
Definition active (c : config) (i : nat) : Prop :=
  exists p, nth_error (snd c) i = Some p /\ p <> Done /\ forall r, p <> Idle r.
Definition all_done (c : config) : Prop := forall p, In p (snd c) -> p = Done.
Definition happened (c : config) (e : event) : Prop := In e (s_log (fst c)).
(** [e] happened before [f]. *)
Definition before (c : config) (e f : event) : Prop := exists l1 l2 l3, s_log (fst c) = (l1 ++ f :: l2 ++ e :: l3)%list.
