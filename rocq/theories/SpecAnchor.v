(** Specification vocabulary for links to rows. *)
From Coq Require Import List String Ascii NArith Bool.
From Verif Require Import Base RowsM PageM SpecWeb.
Import ListNotations.
Local Open Scope string_scope.

(** Visible ASCII characters without those that a fragment or an attribute cannot have as they are. *)
Definition linkable (s : string) : Prop :=
  only (fun c => (33 <= N_of_ascii c <= 126)%N /\ ~ In c (list_ascii_of_string "<>`&") /\ N_of_ascii c <> 34%N) s.
(** The rows in the table of a page. *)
Definition table_rows (diff : list row) : list row := map fst (page_rows diff).
