(** Model of core/src/parse/pallet.rs: from syntax trees to weight equations. The texts
    of errors are shortened: no caller looks at them. *)
From Coq Require Import List String Ascii NArith Bool.
From Verif Require Import Base ScopeM TermM CompareM SynM AttrM.
Import ListNotations.
Local Open Scope string_scope.

(** core/src/parse/pallet.rs:526-531: [expect] and [unreachable!] panic. *)
Definition lit_to_value (l : lit) : outcome N :=
  match l with
  | LInt n => if (n <? u128_bound)%N then Ok n else Panic "Lit must be a valid int; qed"
  | LOther => Panic "internal error: entered unreachable code"
  end.

(** core/src/parse/pallet.rs:533-538 *)
Definition function_name (func : expr) : outcome string :=
  match func with
  | EPath p => Ok (path_to_string p "::")
  | _ => Err "Unexpected function"
  end.

(** core/src/parse/pallet.rs:336-358 *)
Definition validate_db_func (func : expr) : outcome unit :=
  match func with
  | EPath p =>
      let path := String.concat "::" (segments p) in
      if negb (String.eqb path "T::DbWeight::get") && negb (ends_with path "RocksDbWeight::get")
         && negb (ends_with path "ParityDbWeight::get")
      then Err "Unexpected DB path"
      else Ok tt
  | _ => Err "Unexpected DB func"
  end.
(** core/src/parse/pallet.rs:321-334 *)
Definition validate_db_call (call : expr) : outcome unit :=
  match call with
  | ECall func args _ =>
      let* _ := validate_db_func func in
      match args with [] => Ok tt | _ => Err "Unexpected arguments" end
  | _ => Err "Unexpected DB call expression"
  end.

(** core/src/parse/storage.rs:26-54: the macros [reads!], [creads!], [writes!] and [cwrites!]. *)
Definition reads {T} (a : term T) : term T := Mul a (Var STORAGE_READ_VAR).
Definition writes {T} (a : term T) : term T := Mul a (Var STORAGE_WRITE_VAR).

(** core/src/parse/pallet.rs:306-319, 378-393, 474-507 and 521-524
    ([parse_scalar_expression], [parse_scalar_call], [parse_scalar_method_call] and
    [parse_scalar_args] with [extract_arg], 509-514), inlined into one recursion. *)
Fixpoint parse_scalar_expression (e : expr) : outcome sterm :=
  let parse_scalar_args (args : list expr) : outcome sterm :=
    match args with
    | [a] => parse_scalar_expression a
    | _ => Err "Expected one argument"
    end in
  match e with
  | ECast e => parse_scalar_expression e
  | EParen e => parse_scalar_expression e
  | ELit l => let* n := lit_to_value l in Ok (Scalar n)
  | EMethodCall receiver name args trailing =>
      if String.eqb name "ref_time" then
        if negb (empty_or_trailing args trailing) then Err "Unexpected arguments on `ref_time`"
        else parse_scalar_expression receiver
      else if String.eqb name "reads" then
        let* _ := validate_db_call receiver in
        let* r := parse_scalar_args args in
        Ok (reads r)
      else if String.eqb name "writes" then
        let* _ := validate_db_call receiver in
        let* w := parse_scalar_args args in
        Ok (writes w)
      else if String.eqb name "saturating_add" then
        let* a := parse_scalar_expression receiver in
        let* b := parse_scalar_args args in
        Ok (Add a b)
      else if String.eqb name "saturating_mul" then
        let* a := parse_scalar_expression receiver in
        let* b := parse_scalar_args args in
        Ok (Mul a b)
      else if String.eqb name "into" then parse_scalar_expression receiver
      else Err "Unknown function"
  | EPath p => Ok (Var (path_to_string p "::"))
  | ECall func args trailing =>
      let* name := function_name func in
      if ends_with name "::from_ref_time" then parse_scalar_args args
      else if ends_with name "::zero" then
        if negb (empty_or_trailing args trailing) then Err "Unexpected arguments for `zero`"
        else Ok (Value 0%N)
      else Err "Unexpected call"
  | EBinary _ _ _ | EStruct _ _ | EOther => Err "Expected scalar"
  end.

(** core/src/parse/pallet.rs:509-514 *)
Definition extract_arg (args : list expr) : outcome expr :=
  match args with
  | [a] => Ok a
  | _ => Err "Expected one argument"
  end.

(** core/src/parse/pallet.rs:395-403 *)
Definition parse_parts_args (args : list expr) : outcome cterm :=
  match args with
  | [a; b] =>
      let* t := parse_scalar_expression a in
      let t := into_chromatic Time t in
      let* p := parse_scalar_expression b in
      let p := into_chromatic Proof_size p in
      Ok (splice_add t p)
  | _ => Err "Expected two arguments for `from_parts`"
  end.
(** core/src/parse/pallet.rs:405-412 *)
Definition parse_ref_time_args (args : list expr) : outcome cterm :=
  let* arg := extract_arg args in
  let* t := parse_scalar_expression arg in
  Ok (into_chromatic Time t).
(** core/src/parse/pallet.rs:414-421 *)
Definition parse_proof_size_args (args : list expr) : outcome cterm :=
  let* arg := extract_arg args in
  let* t := parse_scalar_expression arg in
  Ok (into_chromatic Proof_size t).
(** core/src/parse/pallet.rs:423-436 *)
Definition parse_rw_args (args : list expr) : outcome cterm :=
  let* arg := extract_arg args in
  match arg with
  | ELit l => let* n := lit_to_value l in Ok (Scalar n)
  | e => let* t := parse_scalar_expression e in Ok (into_chromatic Time t)
  end.
(** core/src/parse/pallet.rs:360-376 *)
Definition parse_call (func : expr) (args : list expr) (trailing : bool) : outcome cterm :=
  let* name := function_name func in
  if ends_with name "::from_ref_time" then parse_ref_time_args args
  else if ends_with name "::from_proof_size" then parse_proof_size_args args
  else if ends_with name "::from_parts" then parse_parts_args args
  else if ends_with name "::zero" then
    if negb (empty_or_trailing args trailing) then Err "Unexpected arguments for `zero`"
    else Ok (Value {| time := 0; proof := 0 |})
  else Err "Unexpected call".

(** core/src/parse/pallet.rs:290-304, 438-472 and 516-519 ([parse_expression],
    [parse_method_call] and [parse_args]), inlined into one recursion. *)
Fixpoint parse_expression (e : expr) : outcome cterm :=
  let parse_args (args : list expr) : outcome cterm :=
    match args with
    | [a] => parse_expression a
    | _ => Err "Expected one argument"
    end in
  match e with
  | EParen e => parse_expression e
  | ECast e => parse_expression e
  | EMethodCall receiver name args _ =>
      if String.eqb name "reads" then
        let* _ := validate_db_call receiver in
        let* r := parse_rw_args args in
        Ok (reads r)
      else if String.eqb name "writes" then
        let* _ := validate_db_call receiver in
        let* w := parse_rw_args args in
        Ok (writes w)
      else if String.eqb name "saturating_add" then
        let* a := parse_expression receiver in
        let* b := parse_args args in
        Ok (Add a b)
      else if String.eqb name "saturating_mul" then
        let* a := parse_expression receiver in
        let* b := parse_args args in
        Ok (Mul a b)
      else if String.eqb name "into" then parse_expression receiver
      else Err "Unknown function"
  | EPath p => Ok (Var (path_to_string p "::"))
  | ECall func args trailing => parse_call func args trailing
  | ELit _ | EBinary _ _ _ | EStruct _ _ | EOther => Err "Unexpected expression in pallet expr"
  end.

(** core/src/parse/pallet.rs:255-267: the check of the return type. *)
Definition returns_weight (m : method) : outcome unit :=
  match m_output m with
  | RType (TPath p) =>
      let n := match rev (segments p) with s :: _ => s | [] => "" end in
      if negb (ends_with n "Weight") then Err "Skipped fn: not a weight" else Ok tt
  | RType _ => Err "Skipped fn: not a weight"
  | RDefault => Err "Skipped fn: method return type"
  end.

(** core/src/parse/pallet.rs:251-288 *)
Definition handle_method (m : method) : outcome (string * cterm * option comp_ranges) :=
  let name := m_name m in
  let* _ := returns_weight m in
  match m_stmts m with
  | [stmt] =>
      let* e := match stmt with
                | SExpr e => Ok e
                | SOther => Panic "internal error: entered unreachable code: Expected expression"
                end in
      let* weight := match parse_expression e with
                     | Err _ => let* t := parse_scalar_expression e in Ok (into_chromatic Time t)
                     | r => r
                     end in
      let* ranges := parse_component_attrs (m_attrs m) in
      Ok (name, weight, ranges)
  | _ => Err "There must be only one statement per weight function"
  end.

(** core/src/parse/pallet.rs:124-150: the check of the implementing type. *)
Definition weight_type (self_ty : ty) : outcome unit :=
  match self_ty with
  | TTuple n => if negb (Nat.eqb n 0) then Err "Skipped ()" else Ok tt
  | TPath p =>
      if leading p then Err "Skipped fn: impl leading color"
      else if negb (Nat.eqb (List.length (segments p)) 1) then Err "Skipped fn: impl path segment len"
      else match rev (segments p) with
           | name :: _ =>
               if negb (String.eqb name "WeightInfo") && negb (String.eqb name "SubstrateWeight")
               then Err "Skipped fn: impl name last" else Ok tt
           | [] => Err "Skipped fn: impl name segments"
           end
  | TOther => Err "Skipped fn: impl type"
  end.

(** core/src/parse/pallet.rs:152-164 *)
Fixpoint handle_methods (pallet : string) (items : list impl_item) : outcome (list cextrinsic) :=
  match items with
  | [] => Ok []
  | IFn m :: items' =>
      let* r := handle_method m in
      let '(name, term, ranges) := r in
      let* rest := handle_methods pallet items' in
      Ok ({| ename := name; epallet := pallet; eterm := term; eranges := ranges |} :: rest)
  | INotFn :: items' => handle_methods pallet items'
  end.

(** core/src/parse/pallet.rs:121-173 *)
Definition handle_item (pallet : string) (i : item) : outcome (list cextrinsic) :=
  match i with
  | IImpl self_ty items =>
      let* _ := weight_type self_ty in
      let* weights := handle_methods pallet items in
      match weights with
      | [] => Err "No weight functions found in trait impl"
      | _ => Ok weights
      end
  | _ => Err "No weight trait impl found"
  end.

(** [for item in items { if let Ok(r) = f(item) { return Ok(r) } } Err(otherwise)] *)
Fixpoint first_ok {A B} (f : A -> outcome B) (otherwise : string) (l : list A) : outcome B :=
  match l with
  | [] => Err otherwise
  | a :: l' => match f a with
               | Err _ => first_ok f otherwise l'
               | r => r
               end
  end.

(** core/src/parse/pallet.rs:109-119 *)
Definition parse_content (pallet : string) (f : file) : outcome (list cextrinsic) :=
  match f with
  | None => Err "syn refused to parse content"
  | Some items => first_ok (handle_item pallet) "Could not find a weight implementation in the passed file" items
  end.

Definition ex_path (l : list string) : expr := EPath (mk_path false l).
Definition ex_call (l : list string) (args : list expr) : expr := ECall (ex_path l) args false.
Definition ex_int (n : N) : expr := ELit (LInt n).
Definition ex_meth (e : expr) (name : string) (args : list expr) : expr := EMethodCall e name args false.
Definition ex_db : expr := ex_call ["T"; "DbWeight"; "get"] [].
(** [Weight::from_parts(38_000_000, 3593)
       .saturating_add(Weight::from_parts(2_000, 0).saturating_mul(s.into()))
       .saturating_add(T::DbWeight::get().reads(1_u64))
       .saturating_add(T::DbWeight::get().writes((2_u64).saturating_mul(s.into())))
       .saturating_add(Weight::from_parts(0, 2603).saturating_mul(s.into()))] *)
Definition ex_body : expr :=
  let s := ex_meth (ex_path ["s"]) "into" [] in
  ex_meth (ex_meth (ex_meth (ex_meth (ex_call ["Weight"; "from_parts"] [ex_int 38000000; ex_int 3593])
    "saturating_add" [ex_meth (ex_call ["Weight"; "from_parts"] [ex_int 2000; ex_int 0]) "saturating_mul" [s]])
    "saturating_add" [ex_meth ex_db "reads" [ex_int 1]])
    "saturating_add" [ex_meth ex_db "writes" [ex_meth (EParen (ex_int 2)) "saturating_mul" [s]]])
    "saturating_add" [ex_meth (ex_call ["Weight"; "from_parts"] [ex_int 0; ex_int 2603]) "saturating_mul" [s]].
Definition ex_fn : method :=
  mk_method [doc "The range of component `s` is `[0, 1_000]`."] "transfer" (RType (TPath (mk_path false ["Weight"]))) [SExpr ex_body].
Definition wt (a b : N) : cterm := Value {| time := a; proof := b |}.
Example handle_method_ex : handle_method ex_fn = Ok ("transfer",
  Add (Add (Add (Add (wt 38000000 3593) (Mul (wt 2000 0) (Var "s"))) (Mul (Scalar 1) (Var "READ")))
       (Mul (Mul (wt 2 0) (Var "s")) (Var "WRITE"))) (Mul (wt 0 2603) (Var "s")), Some [("s", mk_range 0 1000)]).
Proof. vm_compute. reflexivity. Qed.
