(** From trees of tokens to the syntax trees of SynM, for the part of Rust that the weight files are
    written in. This stands for the parser of the [syn] crate (called in core/src/parse/pallet.rs:110,
    storage.rs:60 and 105, overhead.rs:16 and 61). [None]: outside of that part. The contents of [use],
    [trait], [struct] and [fn] items, of generics and of attributes are skipped without a check, so that [syn] may refuse what
    is accepted here. *)
From Coq Require Import List String Ascii NArith Bool.
From Verif Require Import Base TermM CompareM SynM AttrM LexM.
Import ListNotations.
Local Open Scope string_scope.

Definition keywords : list string :=
  ["as"; "break"; "const"; "continue"; "crate"; "else"; "enum"; "extern"; "false"; "fn"; "for"; "if"; "impl"; "in"; "let"; "loop";
   "match"; "mod"; "move"; "mut"; "pub"; "ref"; "return"; "self"; "Self"; "static"; "struct"; "super"; "trait"; "true"; "type";
   "unsafe"; "use"; "where"; "while"; "async"; "await"; "dyn"; "abstract"; "become"; "box"; "do"; "final"; "macro"; "override";
   "priv"; "typeof"; "unsized"; "virtual"; "yield"; "try"; "_"].
Definition is_name (x : string) : bool := negb (existsb (String.eqb x) keywords).

Definition is_leaf (t : tok -> bool) (x : tt) : bool := match x with Leaf k => t k | Group _ _ => false end.
Definition punct (c : ascii) (x : tt) : bool := is_leaf (fun k => match k with KPunct d => Ascii.eqb d c | _ => false end) x.
Definition word (w : string) (x : tt) : bool := is_leaf (fun k => match k with KIdent y => String.eqb y w | _ => false end) x.
Definition group (d : delim) (x : tt) : bool := match x with Group d' _ => delim_eqb d' d | _ => false end.

(** The list before and after the first element of the class. *)
Fixpoint cut (p : tt -> bool) (l : list tt) : option (list tt * tt * list tt) :=
  match l with
  | [] => None
  | x :: l => if p x then Some ([], x, l)
              else match cut p l with Some (a, y, b) => Some (x :: a, y, b) | None => None end
  end.
(** The same for the last one. *)
Definition cut_last (p : tt -> bool) (l : list tt) : option (list tt * tt * list tt) :=
  match cut p (rev l) with Some (a, y, b) => Some (rev b, y, rev a) | None => None end.

(** [a::b::c] *)
Fixpoint p_segments (l : list tt) : option (list string) :=
  match l with
  | [Leaf (KIdent x)] => if is_name x then Some [x] else None
  | Leaf (KIdent x) :: Leaf KColons :: l =>
      if is_name x then match p_segments l with Some xs => Some (x :: xs) | None => None end else None
  | _ => None
  end.
Definition p_path (l : list tt) : option path :=
  match l with
  | Leaf KColons :: l => match p_segments l with Some xs => Some (mk_path true xs) | None => None end
  | _ => match p_segments l with Some xs => Some (mk_path false xs) | None => None end
  end.

(** [()], a path, or a path with generic arguments, without further ones inside. *)
Definition p_type (l : list tt) : option ty :=
  match l with
  | [Group DParen []] => Some (TTuple 0)
  | _ =>
      match cut (punct "<") l with
      | None => match p_path l with Some p => Some (TPath p) | None => None end
      | Some (a, _, b) =>
          match rev b with
          | x :: b' =>
              if negb (punct ">" x) || existsb (fun x => punct "<" x || punct ">" x) b' then None
              else match p_path a with Some p => Some (TPath p) | None => None end
          | [] => None
          end
      end
  end.

(** The parts between commas, and whether there is a comma after the last of them. *)
Fixpoint commas (l : list tt) : list (list tt) * bool :=
  match l with
  | [] => ([], false)
  | x :: l =>
      if punct "," x then match l with [] => ([[]], true) | _ => let (ps, tr) := commas l in ([] :: ps, tr) end
      else match commas l with
           | ([], tr) => ([[x]], tr)
           | (p :: ps, tr) => ((x :: p) :: ps, tr)
           end
  end.

Fixpoint all_some {A} (l : list (option A)) : option (list A) :=
  match l with
  | [] => Some []
  | Some x :: l => match all_some l with Some xs => Some (x :: xs) | None => None end
  | None :: _ => None
  end.

(** Precedence: sums, products, casts, and calls. *)
Inductive level := LSum | LMul | LCast | LPost.
Definition bin (op : binop) (a b : option expr) : option expr :=
  match a, b with Some a, Some b => Some (EBinary op a b) | _, _ => None end.
Section Args.
  Variable p_expr : list tt -> option expr.
  Definition p_args (l : list tt) : option (list expr * bool) :=
    let (ps, tr) := commas l in
    match all_some (map p_expr ps) with Some es => Some (es, tr) | None => None end.
  (** [name: value] *)
  Definition p_field (l : list tt) : option (option string * expr) :=
    match l with
    | Leaf (KIdent x) :: c :: l =>
        if punct ":" c && is_name x then match p_expr l with Some e => Some (Some x, e) | None => None end else None
    | _ => None
    end.
  Definition p_fields (l : list tt) : option (list (option string * expr)) := all_some (map p_field (fst (commas l))).
End Args.
(** What precedes the arguments of a method call (reversed): the receiver and the name. *)
Definition receiver (r : list tt) : option (list tt * string) :=
  match r with
  | Leaf (KIdent m) :: x :: r => if punct "." x then Some (r, m) else None
  | _ => None
  end.
Fixpoint p_expr (fuel : nat) (lv : level) (l : list tt) : option expr :=
  match fuel with
  | O => None
  | S fuel =>
      match lv with
      | LSum =>
          match cut_last (punct "+") l with
          | Some (a, _, b) => bin BAdd (p_expr fuel LSum a) (p_expr fuel LMul b)
          | None => p_expr fuel LMul l
          end
      | LMul =>
          match cut_last (punct "*") l with
          | Some (a, _, b) => bin BMul (p_expr fuel LMul a) (p_expr fuel LCast b)
          | None => p_expr fuel LCast l
          end
      | LCast =>
          match cut_last (word "as") l with
          | Some (a, _, b) =>
              match p_expr fuel LCast a, p_path b with Some e, Some _ => Some (ECast e) | _, _ => None end
          | None => p_expr fuel LPost l
          end
      | LPost =>
          match rev l with
          | [] => None
          | [Group DParen us] => match p_expr fuel LSum us with Some e => Some (EParen e) | None => None end
          | Group DParen us :: r =>
              match receiver r with
              | Some (r, m) =>
                  match p_expr fuel LPost (rev r), p_args (p_expr fuel LSum) us with
                  | Some e, Some (args, tr) => if is_name m then Some (EMethodCall e m args tr) else None
                  | _, _ => None
                  end
              | None =>
                  match p_expr fuel LPost (rev r), p_args (p_expr fuel LSum) us with
                  | Some e, Some (args, tr) => Some (ECall e args tr)
                  | _, _ => None
                  end
              end
          | Group DBrace us :: r =>
              match p_path (rev r), p_fields (p_expr fuel LSum) us with
              | Some p, Some fields => Some (EStruct p fields)
              | _, _ => None
              end
          | [Leaf (KInt n)] => Some (ELit (LInt n))
          | _ => match p_path l with Some p => Some (EPath p) | None => None end
          end
      end
  end.

(** The number of tokens. *)
Fixpoint tsize (x : tt) : nat :=
  match x with
  | Leaf _ => 1
  | Group _ l => S (list_sum (map tsize l))
  end.
Definition lsize (l : list tt) : nat := list_sum (map tsize l).
Definition p_exp (l : list tt) : option expr := p_expr (4 * lsize l + 4) LSum l.

(** [#[...]] and [///]. An attribute with a value, such as [#[doc = "..."]], is not modelled. *)
Definition p_attr (l : list tt) : option attribute :=
  if existsb (punct "=") l then None else Some AOther.
Fixpoint p_attrs (l : list tt) : option (list attribute * list tt) :=
  match l with
  | Leaf (KDoc s) :: l =>
      match p_attrs l with Some (atts, r) => Some (ANameValue (mk_path false ["doc"]) s :: atts, r) | None => None end
  | x :: Group DBracket a :: r =>
      if punct "#" x then
        match p_attr a, p_attrs r with Some a, Some (atts, r) => Some (a :: atts, r) | _, _ => None end
      else Some ([], l)
  | _ => Some ([], l)
  end.
(** [#![...]] and [//!] *)
Fixpoint skip_inner (l : list tt) : list tt :=
  match l with
  | Leaf (KInner _) :: l => skip_inner l
  | x :: y :: Group DBracket _ :: r => if punct "#" x && punct "!" y then skip_inner r else l
  | _ => l
  end.
(** [pub] and [pub(...)] *)
Definition skip_vis (l : list tt) : list tt :=
  match l with
  | x :: r => if word "pub" x then match r with Group DParen _ :: r => r | _ => r end else l
  | [] => []
  end.

(** From after [fn]: the name, the parameters, the result and the body, a single expression. *)
Definition p_fn (atts : list attribute) (l : list tt) : option (impl_item * list tt) :=
  match l with
  | Leaf (KIdent f) :: Group DParen _ :: l =>
      match cut (group DBrace) l with
      | Some (sig, Group _ body, r) =>
          match (match sig with
                 | [] => Some RDefault
                 | Leaf KArrow :: t => match p_type t with Some t => Some (RType t) | None => None end
                 | _ => None
                 end), p_exp body with
          | Some out, Some e => if is_name f then Some (IFn (mk_method atts f out [SExpr e]), r) else None
          | _, _ => None
          end
      | _ => None
      end
  | _ => None
  end.
(** Up to the next semicolon. *)
Definition semi (l : list tt) : option (list tt) :=
  match cut (punct ";") l with Some (_, _, r) => Some r | None => None end.
Definition p_impl_item (l : list tt) : option (impl_item * list tt) :=
  match p_attrs l with
  | Some (atts, l) =>
      match skip_vis l with
      | Leaf (KIdent k) :: l =>
          if String.eqb k "fn" then p_fn atts l
          else if String.eqb k "type" || String.eqb k "const" then
            match l with
            | Leaf (KIdent x) :: _ => if is_name x then match semi l with Some r => Some (INotFn, r) | None => None end else None
            | _ => None
            end
          else None
      | _ => None
      end
  | None => None
  end.
(** Lists of items, each of which is not empty. *)
Section Many.
  Variable A : Type.
  Variable p : list tt -> option (A * list tt).
  Fixpoint many (fuel : nat) (l : list tt) : option (list A) :=
    match fuel with
    | O => None
    | S fuel =>
        match l with
        | [] => Some []
        | _ => match p l with
               | Some (x, r) => match many fuel r with Some xs => Some (x :: xs) | None => None end
               | None => None
               end
        end
    end.
End Many.
Arguments many {A}.
Definition p_impl_items (l : list tt) : option (list impl_item) :=
  let l := skip_inner l in many p_impl_item (S (List.length l)) l.

(** [const NAME: TYPE = VALUE;], nothing before or after it except attributes and visibility. *)
Definition p_const (l : list tt) : option item_const :=
  match p_attrs l with
  | Some (_, l) =>
      match skip_vis l with
      | k :: Leaf (KIdent x) :: c :: l =>
          if word "const" k && punct ":" c then
            match cut (punct "=") l with
            | Some (t, _, v) =>
                match rev v with
                | d :: v =>
                    if punct ";" d then
                      match p_type t, p_exp (rev v) with
                      | Some t, Some e => if is_name x then Some (mk_const x t e) else None
                      | _, _ => None
                      end
                    else None
                | [] => None
                end
            | None => None
            end
          else None
      | _ => None
      end
  | None => None
  end.

(** From after [impl]. The trait and the generics are skipped. *)
Definition p_impl (l : list tt) : option (item * list tt) :=
  match cut (group DBrace) l with
  | Some (header, Group _ b, r) =>
      match cut_last (word "for") header with
      | Some (_, _, t) =>
          match p_type t, p_impl_items b with
          | Some t, Some is => Some (IImpl t is, r)
          | _, _ => None
          end
      | None => None
      end
  | _ => None
  end.
(** [parameter_types! { ... }]; of other macros nothing is known. *)
Definition p_macro (l : list tt) : option (item * list tt) :=
  match cut (punct "!") l with
  | Some (p, _, Group DBrace b :: r) =>
      match p_path p, p_const b with
      | Some p, Some c => if String.eqb (List.last (segments p) "") "parameter_types" then Some (IMacro p (Some c), r) else None
      | _, _ => None
      end
  | _ => None
  end.
(** Items that start with a keyword and may be public. *)
Definition p_decl (p_items : list tt -> option (list item)) (l : list tt) : option (item * list tt) :=
  match l with
  | Leaf (KIdent k) :: l =>
      if String.eqb k "use" then match semi l with Some r => Some (IOther, r) | None => None end
      else if String.eqb k "trait" || String.eqb k "fn" then
        match cut (fun x => punct ";" x || group DBrace x) l with
        | Some (_, Group _ _, r) => Some (IOther, r)
        | _ => None
        end
      else if String.eqb k "struct" then
        match cut (fun x => punct ";" x || group DBrace x) l with
        | Some (_, _, r) => Some (IOther, r)
        | None => None
        end
      else if String.eqb k "mod" then
        match l with
        | Leaf (KIdent x) :: y :: r =>
            if negb (is_name x) then None
            else if punct ";" y then Some (IMod x None, r)
            else match y with
                 | Group DBrace b => match p_items b with Some is => Some (IMod x (Some is), r) | None => None end
                 | _ => None
                 end
        | _ => None
        end
      else None
  | _ => None
  end.
(** [fuel]: the depth of modules. *)
Fixpoint p_item (fuel : nat) (l : list tt) : option (item * list tt) :=
  match fuel with
  | O => None
  | S fuel =>
      match p_attrs l with
      | None => None
      | Some (_, l) =>
          match l with
          | Leaf (KIdent k) :: r =>
              if String.eqb k "impl" then p_impl r
              else if is_name k then p_macro l
              else p_decl (fun b => let b := skip_inner b in many (p_item fuel) (S (List.length b)) b) (skip_vis l)
          | _ => p_macro l
          end
      end
  end.
Definition p_file (l : list tt) : option (list item) :=
  let l := skip_inner l in many (p_item (S (lsize l))) (S (List.length l)) l.

(** The items of a text. *)
Definition read_items (s : string) : option (list item) :=
  match lex s with
  | Some ts => match trees ts with Some l => p_file l | None => None end
  | None => None
  end.
(** The expression of a text ([syn::parse_str], used by tests only). *)
Definition read_expr (s : string) : option expr :=
  match lex s with
  | Some ts => match trees ts with Some l => p_exp l | None => None end
  | None => None
  end.
