(** Model of core/src/parse/storage.rs and core/src/parse/overhead.rs. The texts of
    errors are shortened: no caller looks at them. *)
From Coq Require Import List String Ascii NArith Bool.
From Verif Require Import Base ScopeM TermM CompareM SynM ParseM.
Import ListNotations.
Local Open Scope string_scope.

(** core/src/parse/storage.rs:6-22 *)
Inductive db := Parity | Rocks.
Record rws := mk_rws { rw_read : sterm; rw_write : sterm }.
Record db_weights := mk_db { w_db : db; w_rws : rws }.

(** core/src/parse/storage.rs:178-185 and core/src/parse/overhead.rs:80-87, without delimiter *)
Definition type_to_string (t : ty) : outcome string :=
  match t with
  | TPath p => Ok (path_to_string p "")
  | _ => Err "Unexpected type"
  end.
(** core/src/parse/storage.rs:187-192 *)
Definition member_to_string (m : option string) : string :=
  match m with Some ident => ident | None => "" end.

(** core/src/parse/storage.rs:159-176 *)
Fixpoint storage_expression (e : expr) : outcome sterm :=
  match e with
  | EBinary op l r =>
      let* left := storage_expression l in
      let* right := storage_expression r in
      match op with
      | BMul => Ok (Mul left right)
      | BAdd => Ok (Add left right)
      | BOther => Err "Unexpected operator"
      end
  | ELit l => let* n := lit_to_value l in Ok (Scalar n)
  | EPath p => Ok (Var (path_to_string p "::"))
  | _ => Err "Unexpected expression storage expr"
  end.

(** core/src/parse/storage.rs:135-157 *)
Definition find_field (name : string) (fields : list (option string * expr)) : option (option string * expr) :=
  find (fun f => String.eqb (member_to_string (fst f)) name) fields.
Definition parse_runtime_db_weight (p : path) (fields : list (option string * expr)) : outcome rws :=
  if negb (String.eqb (path_to_string p "") "RuntimeDbWeight") then Err "Unexpected struct name"
  else if negb (Nat.eqb (List.length fields) 2) then Err "Unexpected struct fields"
  else match find_field "read" fields with
       | None => Err "No read field found"
       | Some reads =>
           match find_field "write" fields with
           | None => Err "No write field found"
           | Some writes =>
               let* read := storage_expression (snd reads) in
               let* write := storage_expression (snd writes) in
               Ok (mk_rws read write)
           end
       end.

(** core/src/parse/storage.rs:104-133 *)
Definition storage_macro (tokens : option item_const) : outcome db_weights :=
  match tokens with
  | None => Err "not a constant"
  | Some def =>
      let* db := (if String.eqb (c_name def) "RocksDbWeight" then Ok Rocks
                  else if String.eqb (c_name def) "ParityDbWeight" then Ok Parity
                  else Err "Unexpected const name") in
      let* type_name := type_to_string (c_ty def) in
      if negb (String.eqb type_name "RuntimeDbWeight") then Err "Unexpected const type"
      else match c_expr def with
           | EStruct p fields =>
               let* weights := parse_runtime_db_weight p fields in
               Ok (mk_db db weights)
           | _ => Err "Unexpected const value"
           end
  end.

(** core/src/parse/storage.rs:74-102 and core/src/parse/overhead.rs:31-58, which differ only in
    the parser of the macro. The path of a macro has at least one segment: the
    [unwrap] on none of them is a panic. *)
Fixpoint handle_const_item {A} (parse_macro : option item_const -> outcome A) (i : item) : outcome A :=
  match i with
  | IMod ident content =>
      if String.eqb ident "constants" then
        match content with
        | Some items =>
            (fix loop (l : list item) : outcome A :=
               match l with
               | [] => Err "Did not find parameter_types!"
               | i :: l' => match handle_const_item parse_macro i with
                            | Err _ => loop l'
                            | r => r
                            end
               end) items
        | None => Err "Unexpected module"
        end
      else Err "Unexpected module"
  | IMacro p tokens =>
      match rev (segments p) with
      | [] => Panic "called `Option::unwrap()` on a `None` value"
      | name :: _ => if String.eqb name "parameter_types" then parse_macro tokens else Err "Unexpected macro def"
      end
  | _ => Err "Could not find weights in the file"
  end.

(** core/src/parse/storage.rs:59-72 *)
Definition storage_content (f : file) : outcome db_weights :=
  match f with
  | None => Err "syn refused to parse content"
  | Some items => first_ok (handle_const_item storage_macro) "No DB weights found" items
  end.

(** core/src/parse/overhead.rs:9-13 *)
Inductive overhead := BlockExecution (w : cterm) | ExtrinsicBase (w : cterm).

(** core/src/term.rs:464-478 *)
Definition binary_to_term (op : binop) (l r : expr) : outcome sterm :=
  let* left := parse_scalar_expression l in
  let* right := parse_scalar_expression r in
  match op with
  | BMul => Ok (Mul left right)
  | BAdd => Ok (Add left right)
  | BOther => Err "Unexpected operator"
  end.

(** core/src/parse/overhead.rs:60-87 *)
Definition overhead_macro (tokens : option item_const) : outcome overhead :=
  match tokens with
  | None => Err "not a constant"
  | Some def =>
      let* type_name := type_to_string (c_ty def) in
      if negb (String.eqb type_name "Weight") then Err "Unexpected const type"
      else
        let* weight := match c_expr def with
                       | EBinary op l r => let* simple := binary_to_term op l r in Ok (into_chromatic Time simple)
                       | e => parse_expression e
                       end in
        if String.eqb (c_name def) "BlockExecutionWeight" then Ok (BlockExecution weight)
        else if String.eqb (c_name def) "ExtrinsicBaseWeight" then Ok (ExtrinsicBase weight)
        else Err "Unexpected const name"
  end.
(** core/src/parse/overhead.rs:15-29 *)
Definition overhead_content (f : file) : outcome overhead :=
  match f with
  | None => Err "syn refused to parse content"
  | Some items => first_ok (handle_const_item overhead_macro) "No Overhead weights found" items
  end.

(** core/src/test/parse_storage.rs and core/src/test/parse_overhead.rs: the forms of the templates. *)
Definition ex_mac (c : item_const) : item := IMacro (mk_path false ["frame_support"; "parameter_types"]) (Some c).
Definition ex_rocks : item_const :=
  mk_const "RocksDbWeight" (TPath (mk_path false ["RuntimeDbWeight"]))
    (EStruct (mk_path false ["RuntimeDbWeight"])
       [(Some "read", EBinary BMul (ex_int 25000) (ex_path ["constants"; "WEIGHT_PER_NANOS"]));
        (Some "write", EBinary BMul (ex_int 100000) (ex_path ["constants"; "WEIGHT_PER_NANOS"]))]).
Definition ex_block : item_const :=
  mk_const "BlockExecutionWeight" (TPath (mk_path false ["Weight"]))
    (EBinary BMul (ex_int 5481991) (ex_path ["WEIGHT_PER_NANOS"])).
Example storage_content_ex :
  storage_content (Some [IOther; IMod "constants" (Some [IOther; ex_mac ex_block; ex_mac ex_rocks])]) =
    Ok (mk_db Rocks (mk_rws (Mul (Scalar 25000) (Var "constants::WEIGHT_PER_NANOS")) (Mul (Scalar 100000) (Var "constants::WEIGHT_PER_NANOS")))) /\
  overhead_content (Some [IOther; IMod "constants" (Some [ex_mac ex_rocks; ex_mac ex_block])]) =
    Ok (BlockExecution (Mul (wt 5481991 0) (Var "WEIGHT_PER_NANOS"))).
Proof. vm_compute. auto. Qed.
