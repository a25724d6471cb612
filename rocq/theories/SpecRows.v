(** Specification vocabulary for tables of differences. *)
From Coq Require Import List String Ascii NArith ZArith.
From Verif Require Import Base ScopeM TermM SpecTerm SpecChrom F64 SpecF64 CompareM SpecCompare RowsM.
Import ListNotations.
Local Open Scope string_scope.

(** ** Order of strings (by bytes) and of (file, extrinsic) pairs *)
Inductive str_before : string -> string -> Prop :=
| sb_end c t : str_before "" (String c t)
| sb_less a b s t : (N_of_ascii a < N_of_ascii b)%N -> str_before (String a s) (String b t)
| sb_same c s t : str_before s t -> str_before (String c s) (String c t).
Definition key_before (a b : string * string) : Prop :=
  str_before (fst a) (fst b) \/ (fst a = fst b /\ str_before (snd a) (snd b)).
Definition row_key (r : row) : string * string := (row_file r, row_name r).

(** ** Filters on names *)
Definition valid_filters (rx : regex_engine) (f : fparams) : Prop :=
  forall p, f_extrinsic f = Some p \/ f_pallet f = Some p -> rx_new rx p = None.
(** A name passes an absent filter, and a filter that matches. *)
Definition passes (rx : regex_engine) (p : option string) (s : string) : Prop :=
  p = None \/ exists re, p = Some re /\ rx_match rx re s = Some true.

(** ** Entries *)

(** What is compared: the equation of one dimension. *)
Definition in_dim (d : dimension) (e : cextrinsic) : sextrinsic :=
  mk_ext (ename e) (epallet e) (restrict d (eterm e)) (eranges e).
(** [o] is the first entry of [l] with key [k], if there is one. *)
Definition is_first (l : list cextrinsic) (k : string * string) (o : option cextrinsic) : Prop :=
  match o with
  | None => forall e, In e l -> ext_key e <> k
  | Some e => exists l1 l2, l = (l1 ++ e :: l2)%list /\ ext_key e = k /\
                            forall e', In e' l1 -> ext_key e' <> k
  end.
(** The same entry is the first one in both lists, for every key. *)
Definition same_firsts (l l' : list cextrinsic) : Prop :=
  forall k o, is_first l k o <-> is_first l' k o.

(** What a row says about versions [o] and [n], not both absent. *)
Definition row_of (m : mode) (order : list string -> list string) (ps : cparams)
    (o n : option cextrinsic) (d : term_diff) : Prop :=
  match compare_extrinsics m order (option_map (in_dim (p_unit ps)) o) (option_map (in_dim (p_unit ps)) n) ps with
  | Err e => d = DFailed e
  | Ok tc =>
      exists e, (n = Some e \/ (n = None /\ o = Some e)) /\
      match sanity_check_term (restrict (p_unit ps) (eterm e)) with
      | Ok _ => d = DChanged tc
      | Err w => d = DWarning tc (w ++ ": " ++ epallet e ++ "::" ++ ename e)
      | _ => False
      end
  | _ => False
  end.

(** ** Kinds of rows *)
Definition is_failed (r : row) : Prop := exists e, row_diff r = DFailed e.
(** The row reports the change [c], possibly with a warning. *)
Definition reports (r : row) (c : term_change) : Prop :=
  row_diff r = DChanged c \/ exists w, row_diff r = DWarning c w.

(** ** Sub-lists *)
Inductive selects {A} (P : A -> Prop) : list A -> list A -> Prop :=
| sel_nil : selects P [] []
| sel_keep x l l' : P x -> selects P l l' -> selects P (x :: l) (x :: l')
| sel_drop x l l' : ~ P x -> selects P l l' -> selects P (x :: l) l'.

(** [x] is below [y], as doubles. *)
Definition f64_below (x y : f64) : Prop := f64_leq x y /\ ~ f64_leq y x.
Definition kind_selected (f : fparams) (c : rel_change) : Prop :=
  forall ks, f_change f = Some ks -> In c ks.
(** The rows [filter_changes] is meant to keep. *)
Definition relevant (f : fparams) (r : row) : Prop :=
  is_failed r \/
  exists c, reports r c /\ kind_selected f (tc_change c) /\
    (tc_change c = Unchanged -> ~ f64_leq f64_micro (f_threshold f)) /\
    (tc_change c = Changed -> ~ f64_below (f64_abs (tc_percent c)) (f_threshold f)).

(** Every percentage is an [f64]. *)
Definition typed_rows (l : list row) : Prop := forall r c, In r l -> reports r c -> is_double (tc_percent c).
Definition with_threshold (f : fparams) (t : f64) : fparams :=
  {| f_threshold := t; f_change := f_change f; f_extrinsic := f_extrinsic f; f_pallet := f_pallet f |}.

(** ** Sorted tables *)

(** [a] may stand before [b]: it failed, or neither failed and its rank is not higher. *)
Definition row_le (a b : row) : Prop :=
  is_failed a \/ exists c d, reports a c /\ reports b d /\ ~ rank_lt d c.
(** Neither failed and the ranks are equal. *)
Definition same_rank (a b : row) : Prop :=
  exists c d, reports a c /\ reports b d /\ ~ rank_lt c d /\ ~ rank_lt d c.
