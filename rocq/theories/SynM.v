(** The part of the syntax trees of the [syn] crate that the parsers of core/src/parse
    look at. [syn] itself (text to tree) is a parameter of the model (a part of it is in LexM and GramM): the parsers below start
    from its result. Everything they never look at (spans, visibility, generics,
    the type of a cast, the trait of an [impl], ...) is left out. *)
From Coq Require Import List String Ascii NArith Bool.
From Verif Require Import Base.
Import ListNotations.
Local Open Scope string_scope.

(** [str::ends_with] *)
Definition ends_with (s suffix : string) : bool :=
  let n := String.length suffix in
  let k := String.length s in
  Nat.leb n k && String.eqb (String.substring (k - n) n s) suffix.

(** [syn::Path]: a leading [::] and the identifiers of its segments. *)
Record path := mk_path { leading : bool; segments : list string }.

(** core/src/parse/mod.rs:99-105 [path_to_string]; the delimiter [None] is "". *)
Definition path_to_string (p : path) (delimiter : string) : string :=
  String.concat delimiter (segments p).

(** [syn::Lit]: [LInt n] is an integer literal whose digits denote [n] (in any
    base, with underscores and with any suffix); [LOther] every other literal. *)
Inductive lit := LInt (n : N) | LOther.

(** [syn::BinOp] *)
Inductive binop := BMul | BAdd | BOther.

(** [syn::Expr]. Argument lists are [Punctuated<Expr, Token![,]>]: the expressions
    and whether there is a comma after the last of them. Fields of a struct
    literal are named, or not ([None], positions). *)
Inductive expr :=
| EParen (e : expr)
| ECast (e : expr)
| EMethodCall (receiver : expr) (method : string) (args : list expr) (trailing : bool)
| ELit (l : lit)
| EPath (p : path)
| ECall (func : expr) (args : list expr) (trailing : bool)
| EBinary (op : binop) (left right : expr)
| EStruct (p : path) (fields : list (option string * expr))
| EOther.

(** [Punctuated::empty_or_trailing] *)
Definition empty_or_trailing (args : list expr) (trailing : bool) : bool :=
  match args with [] => true | _ => trailing end.

(** [syn::Type] *)
Inductive ty := TTuple (elems : nat) | TPath (p : path) | TOther.

(** [syn::Attribute]: [#[path = value]] with the text of the value ([///] comments are
    [#[doc = "..."]]), or another form. *)
Inductive attribute := ANameValue (p : path) (value : string) | AOther.

(** [syn::Stmt]: an expression, with or without a semicolon, or something else
    ([let], items, macros). *)
Inductive stmt := SExpr (e : expr) | SOther.

(** [syn::ReturnType] *)
Inductive return_type := RDefault | RType (t : ty).

(** [syn::ImplItemFn] *)
Record method := mk_method {
  m_attrs : list attribute; m_name : string; m_output : return_type; m_stmts : list stmt }.

(** [syn::ImplItem] *)
Inductive impl_item := IFn (m : method) | INotFn.

(** [syn::ItemConst] *)
Record item_const := mk_const { c_name : string; c_ty : ty; c_expr : expr }.

(** [syn::Item]. The tokens of a macro are only ever parsed as one constant
    ([syn::parse2]): here the result of that, [None] if it fails. *)
Inductive item :=
| IImpl (self_ty : ty) (items : list impl_item)
| IMod (ident : string) (content : option (list item))
| IMacro (p : path) (tokens : option item_const)
| IOther.

(** A file: [None] if it cannot be read or [syn::parse_file] refuses its content. *)
Definition file : Type := option (list item).
