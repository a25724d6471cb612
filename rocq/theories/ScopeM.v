(** Model of core/src/scope.rs: the variable scope in which terms are evaluated. *)
From Coq Require Import List String NArith.
From Verif Require Import Base.
Import ListNotations.

(** core/src/scope.rs:16-18 [Scope<T>]: a [BTreeMap<String, T>]; here its
    entries in iteration order. *)
Definition scope (T : Type) : Type := list (string * T).

Section Ops.
  Context {T : Type}.

  (** core/src/scope.rs:41-43 *)
  Definition scope_empty : scope T := [].

  (** core/src/scope.rs:45-47; [&mut self] becomes the returned scope. *)
  Definition put_var (s : scope T) (name : string) (value : T) : scope T :=
    minsert str_cmp name value s.

  (** core/src/scope.rs:49-53 *)
  Definition with_var (s : scope T) (name : string) (value : T) : scope T :=
    let ret := s in minsert str_cmp name value ret.

  (** core/src/scope.rs:55-57 *)
  Definition scope_get (s : scope T) (name : string) : option T := mget str_cmp name s.

  (** core/src/scope.rs:59-61; [chain] then [collect] into a [BTreeMap]. *)
  Definition scope_merge (s other : scope T) : scope T := mextend str_cmp [] (s ++ other).

  (** core/src/scope.rs:63-65 *)
  Definition scope_extend (s other : scope T) : scope T := mextend str_cmp s other.

  (** core/src/scope.rs:67-69 *)
  Definition scope_len (s : scope T) : nat := List.length s.

  (** core/src/scope.rs:71-73 *)
  Definition scope_is_empty (s : scope T) : bool :=
    match s with [] => true | _ => false end.

  (** core/src/scope.rs:75-77 *)
  Definition as_vec (s : scope T) : list (string * T) := s.

  (** Every value of the Rust type is a [BTreeMap], i.e. has strictly ascending
      keys. *)
  Definition scope_wf (s : scope T) : Prop := map_wf str_cmp s.
End Ops.

(** core/src/scope.rs:11-12 *)
Definition STORAGE_READ_VAR : string := "READ".
Definition STORAGE_WRITE_VAR : string := "WRITE".

(** core/src/scope.rs:32-34 (there for [SimpleScope], here for any value type). *)
Definition with_storage_weights {T} (s : scope T) (read write : T) : scope T :=
  with_var (with_var s STORAGE_READ_VAR read) STORAGE_WRITE_VAR write.
