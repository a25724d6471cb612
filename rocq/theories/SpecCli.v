(** Specification vocabulary for the output of the command line and the web page. *)
From Coq Require Import List String Ascii Arith NArith ZArith Bool Permutation Sorted Floats.SpecFloat.
From Verif Require Import Base ScopeM TermM F64 SpecF64 CompareM SpecCompare RowsM SpecRows FmtM SynM ParseM StorageM FilesM SpecFiles GitM CliM.
Import ListNotations.
Local Open Scope string_scope.

(** ** Tables *)

(** The titles of the columns, without and with the terms. *)
Definition titles (terms : bool) : list string :=
  if terms then ["File"; "Extrinsic"; "Old"; "New"; "Change [%]"; "Old Weight Term"; "New Weight Term"; "Used variables"]
  else ["File"; "Extrinsic"; "Old"; "New"; "Change [%]"].

(** [a] may be printed above [b]: it failed, or neither did and its rank is not lower. *)
Definition worst_first (a b : row) : Prop :=
  is_failed a \/ exists c d, reports a c /\ reports b d /\ ~ rank_lt c d.

Section Table.
  Variables (debug_scope : sscope -> string) (regex_remove : string -> option (string -> option string))
    (render : bool -> list string -> list (list string) -> string).

  (** The path as it is shown. *)
  Definition shown_path (fp : format_params) (path shown : string) : Prop :=
    match fp_strip fp with
    | None => shown = path
    | Some re => exists f, regex_remove re = Some f /\ f path = Some shown
    end.
  (** The quantity as it is shown; nothing for an absent one. *)
  Inductive shown_value (dim : dimension) : option N -> string -> Prop :=
  | shown_some v : shown_value dim (Some v) (fmt_value dim v)
  | shown_none : shown_value dim None "".
  Inductive shown_term : option sterm -> string -> Prop :=
  | term_some t : shown_term (Some t) (sdisplay t)
  | term_none : shown_term None "-".
  (** The cells of one row. *)
  Inductive cells_of (fp : format_params) (dim : dimension) (r : row) : list string -> Prop :=
  | cells_failed path : is_failed r -> shown_path fp (row_file r) path ->
      cells_of fp dim r [path; row_name r; "-"; "-"; "ERROR"]
  | cells_change c path old new : reports r c -> shown_path fp (row_file r) path ->
      shown_value dim (tc_old_v c) old -> shown_value dim (tc_new_v c) new -> fp_print_terms fp = false ->
      cells_of fp dim r [path; row_name r; old; new; color_percent (tc_percent c) (tc_change c) (fp_no_color fp)]
  | cells_terms c path old new told tnew : reports r c -> shown_path fp (row_file r) path ->
      shown_value dim (tc_old_v c) old -> shown_value dim (tc_new_v c) new -> fp_print_terms fp = true ->
      shown_term (tc_old c) told -> shown_term (tc_new c) tnew ->
      cells_of fp dim r [path; row_name r; old; new; color_percent (tc_percent c) (tc_change c) (fp_no_color fp);
                         told; tnew; debug_scope (tc_scope c)].
End Table.

(** ** Comma separated values *)

(** The parts of [s] between the separators. *)
Definition pieces (sep : ascii) (s : string) (l : list string) : Prop :=
  l <> [] /\ Forall (without sep) l /\ String.concat (String sep "") l = s.
(** [s] is made of lines, each with a line end, that are these records. *)
Definition csv_holds (s : string) (records : list (list string)) : Prop :=
  exists lines, pieces newline s (lines ++ [""])%list /\ Forall2 (pieces ",") lines records.
(** Text that can be a field. *)
Definition clean (s : string) : Prop := without "," s /\ without newline s.
Fixpoint clean_vars (t : sterm) : Prop :=
  match t with
  | Var x => clean x
  | Add a b | Mul a b => clean_vars a /\ clean_vars b
  | _ => True
  end.
Definition clean_terms (c : term_change) : Prop :=
  (forall t, tc_old c = Some t \/ tc_new c = Some t -> clean_vars t).
(** The fields of a row that reports [c]. *)
Inductive record_of (fp : format_params) (dim : dimension) (r : row) : list string -> Prop :=
| record_change c old new : reports r c -> shown_value dim (tc_old_v c) old -> shown_value dim (tc_new_v c) new ->
    record_of fp dim r [row_file r; row_name r; old; new; color_percent (tc_percent c) (tc_change c) (fp_no_color fp)].

(** ** Colours *)
Definition zero_f64 : f64 := S754_zero false.
Definition negative (p : f64) : Prop := f64_below p zero_f64.
Definition positive (p : f64) : Prop := f64_below zero_f64 p.
(** The escape sequences of terminals: 31 is red, 32 is green, 37 is white. *)
Definition painted (code body text : string) : Prop :=
  text = String "027" ("[" ++ code ++ "m" ++ body ++ String "027" "[0m").
Definition in_html (colour sign body text : string) : Prop :=
  text = "<p style='color:" ++ colour ++ "'>" ++ sign ++ body ++ "</p>".
(** [t] is [s] behind blanks. *)
Inductive after_blanks (s : string) : string -> Prop :=
| ab_here : after_blanks s s
| ab_blank t : after_blanks s t -> after_blanks s (String " " t).
