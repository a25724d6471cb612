(** Specification of the texts that denote syntax trees: a grammar, for the part of Rust that weight files are written in. *)
From Coq Require Import List String Ascii NArith Bool.
From Verif Require Import Base CompareM SpecCompare SpecFmt SynM SpecAttr LexM.
Import ListNotations.
Local Open Scope string_scope.

(** ** Tokens *)
Definition letters : string := "ABCDEFGHIJKLMNOPQRSTUVWXYZabcdefghijklmnopqrstuvwxyz_".
Definition digits : string := "0123456789".
Definition puncts : string := ";,:.<>=#!&*+-?|@$%^~".
Definition nl : string := String "010" "".
Definition nl_cr : string := String "010" (String "013" "").
Definition dquote : string := String "034" "".
Definition gaps : string := String " " (String "009" nl).
Definition in_class (alphabet : string) (c : ascii) : Prop := In c (list_ascii_of_string alphabet).
(** No character of [s] is one of these. *)
Definition lacks (bad s : string) : Prop := forall c, In c (list_ascii_of_string s) -> ~ in_class bad c.
(** [s] starts with one of these. *)
Definition begins (alphabet s : string) : Prop := exists c r, s = String c r /\ in_class alphabet c.
(** The suffixes of integers. *)
Definition suffix (s : string) : Prop :=
  s = "" \/ exists sign width, s = String sign width /\ (sign = "u"%char \/ sign = "i"%char) /\ In width ["8"; "16"; "32"; "64"; "128"; "size"].

(** The text [s] consists of these tokens. *)
Inductive lexes : list tok -> string -> Prop :=
| L_end : lexes [] ""
| L_gap c ts s : in_class gaps c -> lexes ts s -> lexes ts (String c s)
(** Comments end with the line; [///] and [//!] document, [////] does not. *)
| L_comment body ts s : lacks nl_cr body -> s = "" \/ begins nl s ->
    ~ begins "/!" body \/ (exists b, body = "//" ++ b) ->
    lexes ts s -> lexes ts ("//" ++ body ++ s)
| L_doc body ts s : lacks nl_cr body -> s = "" \/ begins nl s -> ~ begins "/" body ->
    lexes ts s -> lexes (KDoc body :: ts) ("///" ++ body ++ s)
| L_inner body ts s : lacks nl_cr body -> s = "" \/ begins nl s ->
    lexes ts s -> lexes (KInner body :: ts) ("//!" ++ body ++ s)
(** Identifiers and numbers do not end before they have to. *)
| L_ident x ts s : begins letters x -> over word_chars x -> ~ begins (word_chars ++ dquote ++ "#") s ->
    lexes ts s -> lexes (KIdent x :: ts) (x ++ s)
| L_int ds suf n ts s : begins digits ds -> over grouped_digits ds -> suffix suf -> read_dec (without_us ds) = Some n ->
    ~ begins word_chars s -> (forall s', s = "." ++ s' -> begins letters s') ->
    lexes ts s -> lexes (KInt n :: ts) (ds ++ suf ++ s)
| L_str body ts s : lacks (dquote ++ "\" ++ String "013" "") body -> lexes ts s -> lexes (KStr body :: ts) (dquote ++ body ++ dquote ++ s)
| L_colons ts s : lexes ts s -> lexes (KColons :: ts) ("::" ++ s)
| L_arrow ts s : lexes ts s -> lexes (KArrow :: ts) ("->" ++ s)
| L_punct c ts s : in_class puncts c -> (c = ":"%char -> ~ begins ":" s) -> (c = "-"%char -> ~ begins ">" s) ->
    lexes ts s -> lexes (KPunct c :: ts) (String c s)
| L_paren ts s : lexes ts s -> lexes (KOpen DParen :: ts) ("(" ++ s)
| L_bracket ts s : lexes ts s -> lexes (KOpen DBracket :: ts) ("[" ++ s)
| L_brace ts s : lexes ts s -> lexes (KOpen DBrace :: ts) ("{" ++ s)
| L_paren' ts s : lexes ts s -> lexes (KClose DParen :: ts) (")" ++ s)
| L_bracket' ts s : lexes ts s -> lexes (KClose DBracket :: ts) ("]" ++ s)
| L_brace' ts s : lexes ts s -> lexes (KClose DBrace :: ts) ("}" ++ s).

Local Open Scope list_scope.
(** The tokens are those of the trees: brackets match. *)
Inductive tokens_of : list tt -> list tok -> Prop :=
| T_nil : tokens_of [] []
| T_leaf t l ts : (forall d, t <> KOpen d /\ t <> KClose d) -> tokens_of l ts -> tokens_of (Leaf t :: l) (t :: ts)
| T_group d b us l ts : tokens_of b us -> tokens_of l ts -> tokens_of (Group d b :: l) (KOpen d :: us ++ KClose d :: ts).

(** ** Expressions *)
Notation W x := (Leaf (KIdent x)).
Notation P c := (Leaf (KPunct c)).
(** Not among the trees, at the top level. *)
Definition without (x : tt) (l : list tt) : Prop := ~ In x l.
Definition reserved : list string :=
  ["_"; "abstract"; "as"; "async"; "await"; "become"; "box"; "break"; "const"; "continue"; "crate"; "do"; "dyn"; "else"; "enum"; "extern";
   "false"; "final"; "fn"; "for"; "if"; "impl"; "in"; "let"; "loop"; "macro"; "match"; "mod"; "move"; "mut"; "override"; "priv"; "pub";
   "ref"; "return"; "Self"; "self"; "static"; "struct"; "super"; "trait"; "true"; "try"; "type"; "typeof"; "unsafe"; "unsized"; "use";
   "virtual"; "where"; "while"; "yield"].
Definition name (x : string) : Prop := ~ In x reserved.

Inductive g_segments : list string -> list tt -> Prop :=
| S_one x : name x -> g_segments [x] [W x]
| S_more x xs l : name x -> g_segments xs l -> g_segments (x :: xs) (W x :: Leaf KColons :: l).
Inductive g_path : path -> list tt -> Prop :=
| P_relative xs l : g_segments xs l -> g_path (mk_path false xs) l
| P_global xs l : g_segments xs l -> g_path (mk_path true xs) (Leaf KColons :: l).
Inductive g_type : ty -> list tt -> Prop :=
| T_unit : g_type (TTuple 0) [Group DParen []]
| T_path p l : g_path p l -> g_type (TPath p) l
| T_generic p l args : g_path p l -> without (P "<") args -> without (P ">") args -> g_type (TPath p) (l ++ [P "<"] ++ args ++ [P ">"]).

(** A sum of products of casts of calls. All are left-associative. *)
Inductive g_sum : expr -> list tt -> Prop :=
| G_add a x b y : g_sum a x -> g_product b y -> g_sum (EBinary BAdd a b) (x ++ [P "+"] ++ y)
| G_product e x : g_product e x -> g_sum e x
with g_product : expr -> list tt -> Prop :=
| G_mul a x b y : g_product a x -> g_cast b y -> g_product (EBinary BMul a b) (x ++ [P "*"] ++ y)
| G_cast e x : g_cast e x -> g_product e x
with g_cast : expr -> list tt -> Prop :=
| G_as e x t y : g_cast e x -> g_path t y -> g_cast (ECast e) (x ++ [W "as"] ++ y)
| G_call e x : g_call e x -> g_cast e x
with g_call : expr -> list tt -> Prop :=
| G_method e x m args tr y : g_call e x -> name m -> g_args args tr y -> g_call (EMethodCall e m args tr) (x ++ [P "."; W m; Group DParen y])
| G_apply e x args tr y : g_call e x -> g_args args tr y -> g_call (ECall e args tr) (x ++ [Group DParen y])
| G_paren e x : g_sum e x -> g_call (EParen e) [Group DParen x]
| G_struct p x fields y : g_path p x -> g_fields fields y -> g_call (EStruct p fields) (x ++ [Group DBrace y])
| G_int n : g_call (ELit (LInt n)) [Leaf (KInt n)]
| G_path p x : g_path p x -> g_call (EPath p) x
(** Arguments, separated by commas; the flag says whether there is one after the last of them. *)
with g_args : list expr -> bool -> list tt -> Prop :=
| A_nil : g_args [] false []
| A_last e x : g_sum e x -> g_args [e] false x
| A_comma e x : g_sum e x -> g_args [e] true (x ++ [P ","])
| A_more e x es tr y : g_sum e x -> es <> [] -> g_args es tr y -> g_args (e :: es) tr (x ++ [P ","] ++ y)
with g_fields : list (option string * expr) -> list tt -> Prop :=
| F_nil : g_fields [] []
| F_last x e y : name x -> g_sum e y -> g_fields [(Some x, e)] (W x :: P ":" :: y)
| F_comma x e y : name x -> g_sum e y -> g_fields [(Some x, e)] (W x :: P ":" :: y ++ [P ","])
| F_more x e y fs z : name x -> g_sum e y -> fs <> [] -> g_fields fs z -> g_fields ((Some x, e) :: fs) (W x :: P ":" :: y ++ [P ","] ++ z).

(** ** Items *)
(** [#[...]] without a value, and [///]. *)
Inductive g_attrs : list attribute -> list tt -> Prop :=
| At_nil : g_attrs [] []
| At_doc s atts l : g_attrs atts l -> g_attrs (ANameValue (mk_path false ["doc"]) s :: atts) (Leaf (KDoc s) :: l)
| At_other a atts l : without (P "=") a -> g_attrs atts l -> g_attrs (AOther :: atts) (P "#" :: Group DBracket a :: l).
(** [#![...]] and [//!] *)
Inductive g_inner : list tt -> Prop :=
| In_nil : g_inner []
| In_doc s l : g_inner l -> g_inner (Leaf (KInner s) :: l)
| In_attr a l : g_inner l -> g_inner (P "#" :: P "!" :: Group DBracket a :: l).
Inductive g_vis : list tt -> Prop :=
| V_private : g_vis []
| V_public : g_vis [W "pub"]
| V_limited l : g_vis [W "pub"; Group DParen l].
(** Neither a block nor a semicolon at the top level. *)
Definition header (l : list tt) : Prop := without (P ";") l /\ forall b, without (Group DBrace b) l.

Inductive g_output : return_type -> list tt -> Prop :=
| O_none : g_output RDefault []
| O_type t l : g_type t l -> (forall b, without (Group DBrace b) l) -> g_output (RType t) (Leaf KArrow :: l).
Inductive g_impl_item : impl_item -> list tt -> Prop :=
| II_fn atts a v f params out o e b : g_attrs atts a -> g_vis v -> name f -> g_output out o -> g_sum e b ->
    g_impl_item (IFn (mk_method atts f out [SExpr e])) (a ++ v ++ [W "fn"; W f; Group DParen params] ++ o ++ [Group DBrace b])
| II_other atts a v k x l : g_attrs atts a -> g_vis v -> k = "type" \/ k = "const" -> name x -> without (P ";") l ->
    g_impl_item INotFn (a ++ v ++ [W k; W x] ++ l ++ [P ";"]).
Inductive g_impl_items : list impl_item -> list tt -> Prop :=
| IIs_nil : g_impl_items [] []
| IIs_cons i x is y : g_impl_item i x -> g_impl_items is y -> g_impl_items (i :: is) (x ++ y).
Inductive g_const : item_const -> list tt -> Prop :=
| C_const atts a v x t y e z : g_attrs atts a -> g_vis v -> name x -> g_type t y -> without (P "=") y -> g_sum e z ->
    g_const (mk_const x t e) (a ++ v ++ [W "const"; W x; P ":"] ++ y ++ [P "="] ++ z ++ [P ";"]).

Inductive g_item : item -> list tt -> Prop :=
| I_use atts a v l : g_attrs atts a -> g_vis v -> without (P ";") l -> g_item IOther (a ++ v ++ [W "use"] ++ l ++ [P ";"])
| I_block atts a v k l b : g_attrs atts a -> g_vis v -> k = "trait" \/ k = "fn" \/ k = "struct" -> header l ->
    g_item IOther (a ++ v ++ [W k] ++ l ++ [Group DBrace b])
| I_struct atts a v l : g_attrs atts a -> g_vis v -> header l -> g_item IOther (a ++ v ++ [W "struct"] ++ l ++ [P ";"])
| I_file atts a v x : g_attrs atts a -> g_vis v -> name x -> g_item (IMod x None) (a ++ v ++ [W "mod"; W x; P ";"])
| I_mod atts a v x i is b : g_attrs atts a -> g_vis v -> name x -> g_inner i -> g_items is b ->
    g_item (IMod x (Some is)) (a ++ v ++ [W "mod"; W x; Group DBrace (i ++ b)])
(** [impl TRAIT for TYPE] *)
| I_impl atts a h t y i is b : g_attrs atts a -> (forall b, without (Group DBrace b) h) -> g_type t y ->
    (forall b, without (Group DBrace b) y) -> without (W "for") y -> g_inner i -> g_impl_items is b ->
    g_item (IImpl t is) (a ++ [W "impl"] ++ h ++ [W "for"] ++ y ++ [Group DBrace (i ++ b)])
| I_macro atts a p x c b : g_attrs atts a -> g_path p x -> List.last (segments p) "" = "parameter_types" -> g_const c b ->
    g_item (IMacro p (Some c)) (a ++ x ++ [P "!"; Group DBrace b])
with g_items : list item -> list tt -> Prop :=
| Is_nil : g_items [] []
| Is_cons i x is y : g_item i x -> g_items is y -> g_items (i :: is) (x ++ y).

(** The text denotes these items, or this expression. *)
Definition text_of (is : list item) (s : string) : Prop :=
  exists ts i l, lexes ts s /\ tokens_of (i ++ l) ts /\ g_inner i /\ g_items is l.
Definition expr_text (e : expr) (s : string) : Prop := exists ts l, lexes ts s /\ tokens_of l ts /\ g_sum e l.
