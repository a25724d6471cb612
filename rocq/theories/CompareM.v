(** Model of the comparison of two extrinsics: core/src/lib.rs:332-416, 491-682,
    783-799, 822-832. *)
From Coq Require Import List String NArith ZArith Bool.
From Verif Require Import Base ScopeM TermM F64.
Import ListNotations.
Local Open Scope string_scope.

(** core/src/parse/pallet.rs:27-31 [ComponentRange]; fields are [u32]. *)
Record comp_range := mk_range { rmin : N; rmax : N }.
(** derived [PartialEq] *)
Definition range_eqb (a b : comp_range) : bool :=
  N.eqb (rmin a) (rmin b) && N.eqb (rmax a) (rmax b).

(** core/src/parse/pallet.rs:32 [ComponentRanges]: a [HashMap], only ever used
    through [insert] and [get]; here an association list. *)
Definition comp_ranges : Type := list (string * comp_range).
Definition ranges_get (r : comp_ranges) (c : string) : option comp_range := mget str_cmp c r.

(** core/src/parse/pallet.rs:34-43 *)
Record extrinsic (T : Type) := mk_ext {
  ename : string; epallet : string; eterm : T; eranges : option comp_ranges }.
Arguments mk_ext {T}.
Arguments ename {T}.
Arguments epallet {T}.
Arguments eterm {T}.
Arguments eranges {T}.
(** core/src/parse/pallet.rs:45-46 *)
Definition cextrinsic := extrinsic cterm.
Definition sextrinsic := extrinsic sterm.

(** core/src/parse/pallet.rs:48-59 *)
Definition map_term {T F} (f : T -> F) (e : extrinsic T) : extrinsic F :=
  {| ename := ename e; epallet := epallet e; eterm := f (eterm e); eranges := eranges e |}.

(** core/src/lib.rs:391-396 *)
Inductive min_or_max := MMin | MMax.
(** core/src/lib.rs:367-389 *)
Record strategy := { exact : bool; which : min_or_max }.
Definition exact_min := {| exact := true; which := MMin |}.
Definition exact_max := {| exact := true; which := MMax |}.
Definition guess_min := {| exact := false; which := MMin |}.
Definition guess_max := {| exact := false; which := MMax |}.

(** core/src/lib.rs:332-345 *)
Inductive method := Base | ExactWorst | GuessWorst | ExactAsymptotic | Asymptotic.
(** core/src/lib.rs:348-355 *)
Definition method_min (m : method) : strategy :=
  match m with
  | Base | GuessWorst => guess_min
  | ExactWorst => exact_min
  | ExactAsymptotic => exact_max
  | Asymptotic => guess_max
  end.
(** core/src/lib.rs:357-364 *)
Definition method_max (m : method) : strategy :=
  match m with
  | Base => guess_min
  | GuessWorst => guess_max
  | ExactWorst | ExactAsymptotic => exact_max
  | Asymptotic => guess_max
  end.

(** core/src/lib.rs:107-117, derived [Ord]: declaration order. *)
Inductive rel_change := Unchanged | Added | Removed | Changed.
Definition rel_rank (c : rel_change) : N :=
  match c with Unchanged => 0 | Added => 1 | Removed => 2 | Changed => 3 end.
Definition rel_cmp (a b : rel_change) : comparison := N.compare (rel_rank a) (rel_rank b).
Definition rel_eqb (a b : rel_change) : bool := N.eqb (rel_rank a) (rel_rank b).

(** core/src/lib.rs:92-105 *)
Record term_change := mk_change {
  tc_old : option sterm; tc_old_v : option N;
  tc_new : option sterm; tc_new_v : option N;
  tc_scope : sscope; tc_percent : f64; tc_change : rel_change; tc_method : method }.

(** core/src/lib.rs:119-146, the fields used by the comparison. *)
Record cparams := { p_method : method; p_unit : dimension }.

(** core/src/lib.rs:617-657; [ra]/[rb] are the maps of the two versions. The
    panic-free [match] is transcribed arm by arm. *)
Definition instance_component (component : string) (ra rb : option comp_ranges)
    (st : strategy) (pallet extrinsic : string) : outcome N :=
  let get := fun r : option comp_ranges =>
    match r with Some r => ranges_get r component | None => None end in
  match get ra, get rb with
  | Some r, None | None, Some r =>
      Ok (match which st with MMin => rmin r | MMax => rmax r end)
  | Some r, Some r' =>
      if range_eqb r r' then Ok (match which st with MMin => rmin r | MMax => rmax r end)
      else match exact st, which st with
           | true, _ => Err ("Component " ++ component ++ " of call " ++ pallet ++ "::" ++ extrinsic
               ++ " has different ranges in the old and new version - use Guess instead!")
           | false, MMin => Ok (N.min (rmin r) (rmin r'))
           | false, MMax => Ok (N.max (rmax r) (rmax r'))
           end
  | None, None =>
      match exact st, which st with
      | false, MMin => Ok 0%N
      | false, MMax => Ok 100%N
      | true, _ => Err ("No range for component " ++ component ++ " of call " ++ pallet ++ "::" ++ extrinsic
               ++ " - use Guess instead!")
      end
  end.

(** core/src/lib.rs:601-606: the inner loop over the enumerated components, for
    the corner number [i]. [c] is the index of the first component of the list. *)
Fixpoint put_corner (i : N) (c : N) (frees : list string) (lowest highest : list N)
    (sc : sscope) : sscope :=
  match frees, lowest, highest with
  | x :: frees', lo :: lowest', hi :: highest' =>
      let value := if N.eqb (N.land i (N.shiftl 1 c)) 0 then lo else hi in
      put_corner i (c + 1)%N frees' lowest' highest' (put_var sc x (Scalar value))
  | _, _, _ => sc
  end.

(** [0..(1 << n)] *)
Definition corner_ids (n : nat) : list N := map N.of_nat (seq 0 (2 ^ n)).

(** core/src/lib.rs:571-615. [order] is the iteration order of the [HashSet]
    [frees]: any function that permutes its argument. The two pushes per
    component (590-593) are one [mapM] over pairs, in the same order. *)
Definition extend_scoped_components (order : list string -> list string)
    (a b : option sextrinsic) (meth : method) (sc : sscope) : outcome (list sscope) :=
  let fv := fun e : option sextrinsic =>
    match e with Some e => free_vars sc (eterm e) | None => [] end in
  let frees := order (set_union (fv a) (fv b)) in
  let ranges := option_map (fun e : sextrinsic => match eranges e with Some r => r | None => [] end) in
  let ra := ranges a in
  let rb := ranges b in
  match (match a with Some e => Some e | None => b end) with
  | None => Panic "called `Option::unwrap()` on a `None` value"
  | Some e =>
      let pallet := epallet e in
      let extrinsic := ename e in
      if Nat.ltb 16 (List.length frees) then
        Err ("Too many components to compare: " ++ pallet ++ "::" ++ extrinsic ++ " has "
             ++ dec_of_N (N.of_nat (List.length frees)) ++ " components - limit is 16")
      else
        let* bounds := mapM (fun free =>
          let* lo := instance_component free ra rb (method_min meth) pallet extrinsic in
          let* hi := instance_component free ra rb (method_max meth) pallet extrinsic in
          Ok (lo, hi)) frees in
        let corner := fun i => put_corner i 0 frees (map fst bounds) (map snd bounds) sc in
        Ok (fold_left (fun scopes i =>
              if scope_is_empty (corner i) then scopes else sinsert sscope_cmp (corner i) scopes)
            (corner_ids (List.length frees)) [])
  end.

(** core/src/lib.rs:822-832 *)
Definition rel_change_new (old new : option N) : outcome rel_change :=
  match old, new with
  | Some _, Some _ => Ok Changed
  | None, Some _ => Ok Added
  | Some _, None => Ok Removed
  | None, None => Panic "Either old or new must be set"
  end.

(** [Option::transpose] of a fallible evaluation. *)
Definition eval_opt (m : mode) (sc : sscope) (t : option sterm) : outcome (option N) :=
  match t with
  | None => Ok None
  | Some t => let* v := eval m sc t in Ok (Some v)
  end.
Definition opt_eqb (a b : option sterm) : bool :=
  match a, b with
  | Some x, Some y => sterm_eqb x y
  | None, None => true
  | _, _ => false
  end.
Definition dflt (o : option N) : N := match o with Some x => x | None => 0%N end.

(** core/src/lib.rs:659-682 *)
Definition compare_terms (m : mode) (old new : option sterm) (meth : method) (sc : sscope)
    : outcome term_change :=
  let* old_v := eval_opt m sc old in
  let* new_v := eval_opt m sc new in
  let* change := if opt_eqb old new then Ok Unchanged else rel_change_new old_v new_v in
  let p := percent (dflt old_v) (dflt new_v) in
  Ok {| tc_old := old; tc_old_v := old_v; tc_new := new; tc_new_v := new_v;
        tc_scope := sc; tc_percent := p; tc_change := change; tc_method := meth |}.

(** [(percent * 1000.0) as i128] *)
Definition mils (p : f64) : Z := f64_to_i128 (f64_mul p (f64_of_N 1000)).

(** core/src/lib.rs:783-799 *)
Definition change_cmp (a b : term_change) : comparison :=
  let ord := rel_cmp (tc_change a) (tc_change b) in
  match ord with
  | Eq => Z.compare (mils (tc_percent a)) (mils (tc_percent b))
  | _ => ord
  end.

(** [Iterator::max_by]: folds keeping the later element unless the earlier one
    is greater. *)
Definition max_by {A} (cmp : A -> A -> comparison) (l : list A) : option A :=
  match l with
  | [] => None
  | x :: l' => Some (fold_left (fun x y => match cmp x y with Gt => x | _ => y end) l' x)
  end.

(** core/src/lib.rs:522-540: the loop over the scopes, up to the first error. *)
Definition compare_in_scope (m : mode) (old new : option sextrinsic) (meth : method) (sc : sscope)
    : outcome term_change :=
  let none_free := fun e : option sextrinsic =>
    match e with
    | Some e => match free_vars sc (eterm e) with [] => true | _ => false end
    | None => true
    end in
  if negb (none_free old) then Panic "Free variable where there should be none"
  else if negb (none_free new) then Panic "assertion failed: new.map_or(true, |e| e.term.free_vars(scope).is_empty())"
  else compare_terms m (option_map eterm old) (option_map eterm new) meth sc.

Definition is_added_removed (c : rel_change) : bool :=
  match c with Added | Removed => true | _ => false end.
Definition is_changed_unchanged (c : rel_change) : bool :=
  match c with Changed | Unchanged => true | _ => false end.

(** core/src/lib.rs:496-516: the base scope and the versions that are compared. *)
Definition base_scope (unit : dimension) : sscope :=
  match unit with
  | Time => with_storage_weights scope_empty (Scalar 25000000) (Scalar 100000000)
  | Proof_size => with_storage_weights scope_empty (Scalar 0) (Scalar 0)
  end.
Definition drop_storage (unit : dimension) (e : option sextrinsic) : option sextrinsic :=
  match unit with
  | Time => e
  | Proof_size =>
      option_map (map_term (substitute "WRITE" (Scalar 0)))
        (option_map (map_term (substitute "READ" (Scalar 0))) e)
  end.

(** core/src/lib.rs:491-569 *)
Definition compare_extrinsics (m : mode) (order : list string -> list string)
    (old new : option sextrinsic) (params : cparams) : outcome term_change :=
  let sc := base_scope (p_unit params) in
  let old := drop_storage (p_unit params) old in
  let new := drop_storage (p_unit params) new in
  let* scopes := extend_scoped_components order old new (p_method params) sc in
  match (match old with Some o => Some o | None => new end) with
  | None => Panic "called `Option::unwrap()` on a `None` value"
  | Some _ =>
      let* results := mapM (compare_in_scope m old new (p_method params)) scopes in
      let all_inc := forallb (fun r => is_changed_unchanged (tc_change r)) results in
      let all_add := forallb (fun r => is_added_removed (tc_change r)) results in
      if all_add then
        match results with
        | r :: _ => Ok r
        | [] => Panic "called `Option::unwrap()` on a `None` value"
        end
      else if all_inc then
        match max_by change_cmp results with
        | Some r => Ok r
        | None => Panic "called `Option::unwrap()` on a `None` value"
        end
      else Panic "Inconclusive"
  end.

(** [2n + 5] against [3n + 1], annotated [n] in [1, 10]. *)
Definition ex_old : sextrinsic :=
  mk_ext "transfer" "balances" (Add (Value 5%N) (Mul (Scalar 2) (Var "n"))) (Some [("n", mk_range 1 10)]).
Definition ex_new : sextrinsic :=
  mk_ext "transfer" "balances" (Add (Value 1%N) (Mul (Scalar 3) (Var "n"))) (Some [("n", mk_range 1 10)]).
Example compare_ex :
  match compare_extrinsics Checked (fun l => l) (Some ex_old) (Some ex_new)
          {| p_method := ExactWorst; p_unit := Time |} with
  | Ok tc => (tc_change tc, tc_old_v tc, tc_new_v tc, mils (tc_percent tc)) = (Changed, Some 25%N, Some 31%N, 24000%Z)
  | _ => False
  end.
Proof. vm_compute. reflexivity. Qed.
