(** Properties C26-C31: tables of differences. *)
From Coq Require Import List String NArith ZArith Permutation Sorted Reals Floats.SpecFloat.
From Verif Require Import Base ScopeM TermM F64 SpecF64 CompareM SpecCompare RowsM SpecRows.
From Verif Require RowsP.
Import ListNotations.
Local Open Scope string_scope.

(** *** Data for the examples *)
Definition ex_ce (name pallet : string) (t : cterm) : cextrinsic := mk_ext name pallet t None.
Definition ex_w (n : N) : cterm := Value {| time := n; proof := 0 |}.
Definition ex_rx : regex_engine := {| rx_new := fun _ => None; rx_match := fun re s => Some (String.prefix re s) |}.
Definition ex_ps : cparams := {| p_method := ExactWorst; p_unit := Time |}.
Definition ex_f (t : f64) : fparams := {| f_threshold := t; f_change := None; f_extrinsic := None; f_pallet := Some "pal" |}.
(** [b::g] is removed by the filter, the second [pallet::f] of the old list is ignored, [pallet::v] has a
    component without range, [pallet::w] has too many reads. *)
Definition ex_olds : list cextrinsic :=
  [ex_ce "g" "b" (ex_w 1); ex_ce "f" "pallet" (ex_w 10); ex_ce "f" "pallet" (ex_w 99); ex_ce "v" "pallet" (Var "s")].
Definition ex_news : list cextrinsic :=
  [ex_ce "w" "pallet" (Mul (Scalar 2000) (Var "READ")); ex_ce "f" "pallet" (ex_w 20); ex_ce "a" "pal" (ex_w 3)].
Definition ex_rows : outcome (list row) :=
  compare_files Checked (fun _ l => l) ex_rx ex_olds ex_news ex_ps (ex_f (f64_of_N 0)).

(** ** C26: every extrinsic has exactly one row. *)
Theorem C26_rows : forall m ords rx olds news ps f rows,
  compare_files m ords rx olds news ps f = Ok rows ->
  StronglySorted key_before (map row_key rows) /\
  forall k, In k (map row_key rows) <->
    (exists e, (In e olds \/ In e news) /\ ext_key e = k) /\
    passes rx (f_pallet f) (fst k) /\ passes rx (f_extrinsic f) (snd k).
Proof. exact RowsP.rows_lemma. Qed.
Print Assumptions C26_rows.

Example C26_ex : match ex_rows with
  | Ok rows => map row_key rows = [("pal", "a"); ("pallet", "f"); ("pallet", "v"); ("pallet", "w")]
  | _ => False
  end.
Proof. vm_compute. reflexivity. Qed.

(** ** C27: the row is the comparison of the first entries. *)
Theorem C27_first : forall m ords rx olds news ps f rows r o n,
  compare_files m ords rx olds news ps f = Ok rows -> In r rows ->
  is_first olds (row_key r) o -> is_first news (row_key r) n ->
  row_of m (ords (row_key r)) ps o n (row_diff r).
Proof. exact RowsP.first_lemma. Qed.
Print Assumptions C27_first.

(** The table is only missing if a filter is not a regular expression or the
    arithmetic of some row overflows in a checked build: failures of a row do not
    hide other rows. *)
Theorem C27_total : forall m ords rx olds news ps f, (forall k, is_order (ords k)) ->
  (valid_filters rx f ->
    (exists rows, compare_files m ords rx olds news ps f = Ok rows) \/
    (m = Checked /\ exists k o n why, is_first olds k o /\ is_first news k n /\
       compare_extrinsics Checked (ords k) (option_map (in_dim (p_unit ps)) o) (option_map (in_dim (p_unit ps)) n) ps = Panic why /\
       compare_files m ords rx olds news ps f = Panic why)) /\
  (~ valid_filters rx f -> exists e, compare_files m ords rx olds news ps f = Err e).
Proof. exact RowsP.total_lemma. Qed.
Print Assumptions C27_total.

Theorem C27_duplicates : forall m ords rx olds news olds' news' ps f,
  same_firsts olds olds' -> same_firsts news news' ->
  compare_files m ords rx olds news ps f = compare_files m ords rx olds' news' ps f.
Proof. exact RowsP.duplicates_lemma. Qed.
Print Assumptions C27_duplicates.

Theorem C27_permutation : forall m ords rx olds news olds' news' ps f,
  NoDup (map ext_key olds) -> NoDup (map ext_key news) -> Permutation olds olds' -> Permutation news news' ->
  compare_files m ords rx olds news ps f = compare_files m ords rx olds' news' ps f.
Proof. exact RowsP.permutation_lemma. Qed.
Print Assumptions C27_permutation.

Example C27_ex : match ex_rows with
  | Ok [ra; rf; rv; rw] =>
      (exists c, row_diff ra = DChanged c /\ tc_change c = Added /\ tc_new_v c = Some 3%N) /\
      (exists c, row_diff rf = DChanged c /\ tc_change c = Changed /\ tc_old_v c = Some 10%N /\ tc_new_v c = Some 20%N) /\
      row_diff rv = DFailed "No range for component s of call pallet::v - use Guess instead!" /\
      (exists c, row_diff rw = DWarning c "Call has 2000 READs: pallet::w" /\ tc_change c = Added)
  | _ => False
  end.
Proof. vm_compute. repeat split; eexists; repeat split; reflexivity. Qed.

(** ** C28: a version compared with itself. *)
Theorem C28_self : forall m ords rx l ps f rows, (forall k, is_order (ords k)) ->
  compare_files m ords rx l l ps f = Ok rows ->
  (forall r, In r rows -> is_failed r \/ exists c, reports r c /\ tc_change c = Unchanged) /\
  (is_double (f_threshold f) -> f64_leq f64_micro (f_threshold f) ->
     forall r, In r (filter_changes rows f) -> is_failed r).
Proof. exact RowsP.self_lemma. Qed.
Print Assumptions C28_self.

Example C28_ex :
  match compare_files Checked (fun _ l => l) ex_rx ex_olds ex_olds ex_ps (ex_f (f64_of_N 1)) with
  | Ok rows => (List.length rows, map row_key (filter_changes rows (ex_f (f64_of_N 1)))) = (2, [("pallet", "v")])
  | _ => False
  end.
Proof. vm_compute. reflexivity. Qed.

(** ** C29: filtering. *)
Theorem C29_filter : forall l f, is_double (f_threshold f) -> typed_rows l ->
  selects (relevant f) l (filter_changes l f).
Proof. exact RowsP.filter_lemma. Qed.
Print Assumptions C29_filter.

(** The tables of compare_files meet the hypothesis. *)
Theorem C29_typed : forall m ords rx olds news ps f rows, (forall k, is_order (ords k)) ->
  compare_files m ords rx olds news ps f = Ok rows -> typed_rows rows.
Proof. exact RowsP.typed_lemma. Qed.
Print Assumptions C29_typed.

(** The constant in [relevant]. *)
Theorem C29_micro : is_micro f64_micro.
Proof. exact RowsP.micro_lemma. Qed.
Print Assumptions C29_micro.

Theorem C29_idempotent : forall l f, filter_changes (filter_changes l f) f = filter_changes l f.
Proof. exact RowsP.filter_idem_lemma. Qed.
Print Assumptions C29_idempotent.

(** Raising the threshold of a filtered table gives what the higher threshold
    gives at once: it only removes rows. *)
Theorem C29_raise : forall l f t, is_double (f_threshold f) -> is_double t -> typed_rows l ->
  f64_leq (f_threshold f) t ->
  filter_changes (filter_changes l f) (with_threshold f t) = filter_changes l (with_threshold f t).
Proof. exact RowsP.filter_mono_lemma. Qed.
Print Assumptions C29_raise.

(** *** Rows for the examples *)
Definition ex_row (name : string) (k : rel_change) (p : f64) : row :=
  mk_row name "p" (DChanged (mk_change None None None None [] p k Base)).
Definition ex_bad (name : string) : row := mk_row name "p" (DFailed "?").
Definition ex_table : list row :=
  [ex_row "c" Changed (f64_of_N 4); ex_bad "x"; ex_row "u" Unchanged (f64_of_N 0); ex_bad "y";
   ex_row "a" Added (S754_infinity false); ex_row "d" Changed (f64_of_N 5); ex_row "e" Changed (f64_of_N 4)].

Example C29_ex :
  map row_name (filter_changes ex_table (ex_f (f64_of_N 5))) = ["x"; "y"; "a"; "d"] /\
  map row_name (filter_changes ex_table {| f_threshold := f64_of_N 0; f_change := Some [Unchanged; Changed];
     f_extrinsic := None; f_pallet := None |}) = ["c"; "x"; "u"; "y"; "d"; "e"].
Proof. split; vm_compute; reflexivity. Qed.

(** ** C30: kept rows reach the threshold. *)
Theorem C30_kept : forall l f r c, is_double (f_threshold f) -> typed_rows l ->
  In r (filter_changes l f) -> reports r c -> tc_change c = Changed ->
  f_threshold f <> S754_nan -> tc_percent c <> S754_nan -> f64_leq (f_threshold f) (f64_abs (tc_percent c)).
Proof. exact RowsP.kept_lemma. Qed.
Print Assumptions C30_kept.

(** Without the restriction to comparable percentages it is false: two different
    equations that are both 0 have percentage NaN. *)
Theorem C30_nan_refuted : exists olds news rows f r c,
  compare_files Checked (fun _ l => l) ex_rx olds news ex_ps f = Ok rows /\
  is_double (f_threshold f) /\ f_threshold f <> S754_nan /\
  In r (filter_changes rows f) /\ reports r c /\ tc_change c = Changed /\
  ~ f64_leq (f_threshold f) (f64_abs (tc_percent c)).
Proof. exact RowsP.nan_refuted_lemma. Qed.
Print Assumptions C30_nan_refuted.

(** ** C31: sorting. *)
Theorem C31_sort : forall l s, sort_changes l s ->
  Permutation l s /\ StronglySorted row_le s /\
  (forall r cls, selects (same_rank r) l cls <-> selects (same_rank r) s cls).
Proof. exact RowsP.sort_lemma. Qed.
Print Assumptions C31_sort.

(** Every table can be sorted; short ones are sorted by insertion. *)
Theorem C31_insertion : forall l, sort_changes l (sort_changes_insert l).
Proof. exact RowsP.sort_insert_lemma. Qed.
Print Assumptions C31_insertion.

(** The two failures are ranked below each other and change places; [c] and [e]
    have equal ranks and do not. *)
Example C31_ex : map row_name (sort_changes_insert ex_table) = ["y"; "x"; "u"; "a"; "c"; "e"; "d"].
Proof. vm_compute. reflexivity. Qed.
