(** Model of the tables of differences: core/src/lib.rs:50-89 (rows), 148-164 and
    465-469 (filter parameters), 684-746 (compare_files), 766-781 (sorting) and
    801-820 (filtering). *)
From Coq Require Import List String NArith ZArith Bool.
From Verif Require Import Base ScopeM TermM F64 CompareM.
Import ListNotations.
Local Open Scope string_scope.

(** core/src/lib.rs:58-64 *)
Inductive term_diff :=
| DChanged (c : term_change)
| DWarning (c : term_change) (w : string)
| DFailed (e : string).

(** core/src/lib.rs:50-57 [ExtrinsicDiff] *)
Record row := mk_row { row_name : string; row_file : string; row_diff : term_diff }.

(** core/src/lib.rs:66-74 [ExtrinsicDiff::term] *)
Definition row_term (r : row) : option term_change :=
  match row_diff r with
  | DChanged c => Some c
  | DWarning c _ => Some c
  | DFailed _ => None
  end.
(** core/src/lib.rs:76-81 [ExtrinsicDiff::error] *)
Definition row_error (r : row) : option string :=
  match row_diff r with DFailed e => Some e | _ => None end.

(** core/src/lib.rs:148-164 [FilterParams] *)
Record fparams := {
  f_threshold : f64; f_change : option (list rel_change);
  f_extrinsic : option string; f_pallet : option string }.

(** The [fancy_regex] engine is an oracle: does a pattern compile (the error
    message otherwise), and does it match (running out of its backtracking limit
    is [None]). *)
Record regex_engine := {
  rx_new : string -> option string;
  rx_match : string -> string -> option bool }.

(** core/src/lib.rs:690-691: [map(Regex::new).transpose()?]; the compiled value
    is the pattern itself. *)
Definition compile (rx : regex_engine) (p : option string) : outcome (option string) :=
  match p with
  | None => Ok None
  | Some s => match rx_new rx s with None => Ok (Some s) | Some e => Err e end
  end.
(** [map_or(true, |r| r.is_match(s).unwrap_or_default())] *)
Definition selected (rx : regex_engine) (p : option string) (s : string) : bool :=
  match p with
  | None => true
  | Some re => match rx_match rx re s with Some b => b | None => false end
  end.

(** core/src/lib.rs:693-700: [simplify] with [expect]. *)
Definition simplify_ext (unit : dimension) (e : cextrinsic) : outcome sextrinsic :=
  match simplify unit (eterm e) with
  | Ok t => Ok (map_term (fun _ => t) e)
  | Err _ => Panic "Must simplify term"
  | Panic w => Panic w
  | Diverge => Diverge
  end.

(** [news.iter().find(|&n| n.name == extrinsic && n.pallet == pallet)] *)
Definition find_ext (pallet name : string) (l : list sextrinsic) : option sextrinsic :=
  find (fun n => String.eqb (ename n) name && String.eqb (epallet n) pallet) l.

Definition key_cmp : string * string -> string * string -> comparison := pair_cmp str_cmp str_cmp.
Definition ext_key {T} (e : extrinsic T) : string * string := (epallet e, ename e).

(** core/src/lib.rs:717-742: one row. [order] is the iteration order of the hash
    set used for this row. *)
Definition compare_row (m : mode) (order : list string -> list string)
    (params : cparams) (olds news : list sextrinsic) (key : string * string) : outcome row :=
  let (pallet, extrinsic) := key in
  let new := find_ext pallet extrinsic news in
  let old := find_ext pallet extrinsic olds in
  let* change :=
    match compare_extrinsics m order old new params with
    | Err err => Ok (DFailed err)
    | Ok change =>
        match (match new with Some e => Some e | None => old end) with
        | Some ext =>
            match sanity_check_term (eterm ext) with
            | Err e => Ok (DWarning change (e ++ ": " ++ epallet ext ++ "::" ++ ename ext))
            | Ok _ => Ok (DChanged change)
            | Panic w => Panic w
            | Diverge => Diverge
            end
        | None => Panic "We already checked that the extrinsic exists in either old or new"
        end
    | Panic w => Panic w
    | Diverge => Diverge
    end in
  Ok {| row_name := extrinsic; row_file := pallet; row_diff := change |}.

(** core/src/lib.rs:684-746. Every row gets its own hash set order (they are
    seeded at random), chosen by [orders]. The logging is left out. *)
Definition compare_files (m : mode) (orders : string * string -> list string -> list string)
    (rx : regex_engine) (olds news : list cextrinsic) (params : cparams) (filt : fparams)
    : outcome (list row) :=
  let* ext_regex := compile rx (f_extrinsic filt) in
  let* pallet_regex := compile rx (f_pallet filt) in
  let* olds := mapM (simplify_ext (p_unit params)) olds in
  let* news := mapM (simplify_ext (p_unit params)) news in
  let names := sof_list key_cmp (map ext_key olds ++ map ext_key news)%list in
  let names := filter (fun k => selected rx pallet_regex (fst k) && selected rx ext_regex (snd k)) names in
  mapM (fun k => compare_row m (orders k) params olds news k) names.

(** core/src/lib.rs:770-781 [TermDiff::cmp] *)
Definition diff_cmp (a b : term_diff) : comparison :=
  match a, b with
  | DFailed _, _ => Lt
  | _, DFailed _ => Gt
  | DWarning a _, DChanged b => change_cmp a b
  | DChanged a, DWarning b _ => change_cmp a b
  | DWarning a _, DWarning b _ => change_cmp a b
  | DChanged a, DChanged b => change_cmp a b
  end.

(** ** [slice::sort_by] of Rust 1.80 (rust-toolchain.toml)

    [sort_by] is the merge sort of [core::slice::sort]: it splits the slice into
    consecutive runs, uses a run as it is if it does not descend, reverses it if
    it descends strictly, extends it to the right by insertion, and merges
    neighbouring runs from the front or from the back, whichever needs the smaller
    buffer. Which runs exist and in which order they are merged depends on the
    lengths and the comparisons. [msort] allows every choice. [less a b] is
    [compare(a, b) == Less]. *)
Section Sort.
  Context {A : Type} (less : A -> A -> bool).

  (** [insert_tail]: move [x] to the left past every element greater than it;
      [p] is the sorted prefix, last element first. *)
  Fixpoint insert_back (x : A) (p : list A) : list A :=
    match p with
    | y :: p' => if less x y then y :: insert_back x p' else x :: p
    | [] => [x]
    end.
  Definition insert_tail (p : list A) (x : A) : list A := rev (insert_back x (rev p)).

  (** [merge] with the left run in the buffer. *)
  Fixpoint merge_lo (l : list A) : list A -> list A :=
    match l with
    | [] => fun r => r
    | x :: l' =>
        fix go r :=
          match r with
          | [] => x :: l'
          | y :: r' => if less y x then y :: go r' else x :: merge_lo l' r
          end
    end.
  (** [merge] with the right run in the buffer; both runs last element first. *)
  Fixpoint merge_back (l : list A) : list A -> list A :=
    match l with
    | [] => fun r => r
    | x :: l' =>
        fix go r :=
          match r with
          | [] => x :: l'
          | y :: r' => if less y x then x :: merge_back l' r else y :: go r'
          end
    end.
  Definition merge_hi (l r : list A) : list A := rev (merge_back (rev l) (rev r)).

  (** Runs: [descending] compares each element with the one before it. *)
  Fixpoint descending (l : list A) : bool :=
    match l with
    | x :: ((y :: _) as l') => less y x && descending l'
    | _ => true
    end.
  Fixpoint not_descending (l : list A) : bool :=
    match l with
    | x :: ((y :: _) as l') => negb (less y x) && not_descending l'
    | _ => true
    end.

  Inductive msort : list A -> list A -> Prop :=
  | ms_asc l : not_descending l = true -> msort l l
  | ms_desc l : descending l = true -> msort l (rev l)
  | ms_insert l s x : msort l s -> msort (l ++ [x]) (insert_tail s x)
  | ms_merge_lo l s r t : msort l s -> msort r t -> msort (l ++ r) (merge_lo s t)
  | ms_merge_hi l s r t : msort l s -> msort r t -> msort (l ++ r) (merge_hi s t).
End Sort.

Definition diff_less (a b : row) : bool :=
  match diff_cmp (row_diff a) (row_diff b) with Lt => true | _ => false end.

(** core/src/lib.rs:766-768: the results [sort_changes] can have. *)
Definition sort_changes (l s : list row) : Prop := msort diff_less l s.
(** One of them: insertion sort, what the library does up to 20 elements. *)
Definition sort_changes_insert (l : list row) : list row :=
  fold_left (insert_tail diff_less) l [].

(** core/src/lib.rs:465-469 *)
Definition included (f : fparams) (c : rel_change) : bool :=
  match f_change f with
  | None => true
  | Some s => existsb (rel_eqb c) s
  end.

(** core/src/lib.rs:804-816: the predicate of [filter]. *)
Definition keep (f : fparams) (r : row) : bool :=
  match row_diff r with
  | DFailed _ => true
  | DWarning c _ | DChanged c =>
      if negb (included f (tc_change c)) then false
      else match tc_change c with
           | Changed => if f64_lt (f64_abs (tc_percent c)) (f_threshold f) then false else true
           | Unchanged => if f64_ge (f_threshold f) f64_micro then false else true
           | _ => true
           end
  end.
(** core/src/lib.rs:801-820 *)
Definition filter_changes (l : list row) (f : fparams) : list row := filter (keep f) l.
