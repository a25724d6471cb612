(** From text to tokens, for a part of Rust that the weight files are written in. This stands
    for the lexer of the [syn] crate (called in core/src/parse/pallet.rs:110, storage.rs:60 and
    overhead.rs:16 as [syn::parse_file]). [None]: outside of that part, [syn] may accept it or not.
    Left out are block comments, characters and lifetimes, floats, integers in other bases, strings with
    escapes, raw strings and identifiers, carriage returns and text outside of ASCII except in comments. *)
From Coq Require Import List String Ascii NArith Bool.
From Verif Require Import Base TermM CompareM SynM AttrM.
Import ListNotations.
Local Open Scope string_scope.

Inductive delim := DParen | DBracket | DBrace.
(** Tokens. [KDoc] is the text of an outer documentation comment ([///]), [KInner] that of an inner one ([//!]). *)
Inductive tok :=
| KIdent (x : string)
| KInt (n : N)
| KStr (s : string)
| KDoc (s : string)
| KInner (s : string)
| KColons
| KArrow
| KPunct (c : ascii)
| KOpen (d : delim)
| KClose (d : delim).

Definition newline : ascii := "010".
Definition cr : ascii := "013".
Definition quote : ascii := "034".
Definition is_space (c : ascii) : bool := Ascii.eqb c " " || Ascii.eqb c "009" || Ascii.eqb c newline.
Definition ident_start (c : ascii) : bool := in_range 65 90 c || in_range 97 122 c || Ascii.eqb c "_".
Definition is_punct (c : ascii) : bool :=
  existsb (Ascii.eqb c) (list_ascii_of_string ";,:.<>=#!&*+-?|@$%^~").
Definition open_of (c : ascii) : option delim :=
  if Ascii.eqb c "(" then Some DParen else if Ascii.eqb c "[" then Some DBracket else if Ascii.eqb c "{" then Some DBrace else None.
Definition close_of (c : ascii) : option delim :=
  if Ascii.eqb c ")" then Some DParen else if Ascii.eqb c "]" then Some DBracket else if Ascii.eqb c "}" then Some DBrace else None.

(** The first character of [s] is in the class. *)
Definition starts (p : ascii -> bool) (s : string) : bool := match s with String c _ => p c | "" => false end.
Definition behind (s : string) : string := match s with String _ s' => s' | "" => "" end.
Fixpoint str_has (c : ascii) (s : string) : bool :=
  match s with "" => false | String d s' => Ascii.eqb d c || str_has c s' end.

Definition int_suffixes : list string :=
  [""; "u8"; "u16"; "u32"; "u64"; "u128"; "usize"; "i8"; "i16"; "i32"; "i64"; "i128"; "isize"].
(** The value of a decimal literal: digits and underscores, then a suffix. *)
Definition int_of (x : string) : option N :=
  let (ds, suffix) := span re_dus x in
  if existsb (String.eqb suffix) int_suffixes then Some (digits_val 0 (strip_us ds)) else None.
(** After an integer: [.] starts a method call, but neither a fraction nor a range. *)
Definition no_fraction (s : string) : bool :=
  match s with
  | String c s' => if Ascii.eqb c "." then starts ident_start s' else true
  | "" => true
  end.

(** A line comment, from after its [//]. *)
Definition comment (body : string) : list tok :=
  match body with
  | String c b =>
      if Ascii.eqb c "/" then (if starts (Ascii.eqb "/") b then [] else [KDoc b])
      else if Ascii.eqb c "!" then [KInner b]
      else []
  | "" => []
  end.

(** The first token of [s], which does not start with a space, and the rest. *)
Definition lex1 (c : ascii) (r : string) : option (list tok * string) :=
  let s := String c r in
  if Ascii.eqb c "/" then
    match r with
    | String c' r' =>
        if Ascii.eqb c' "/" then
          let (body, rest) := span (fun c => negb (Ascii.eqb c newline)) r' in
          if str_has cr body then None else Some (comment body, rest)
        else None
    | "" => None
    end
  else if ident_start c then
    let (x, rest) := span re_w s in
    if starts (fun c => Ascii.eqb c quote || Ascii.eqb c "#") rest then None else Some ([KIdent x], rest)
  else if re_d c then
    let (x, rest) := span re_w s in
    match int_of x with
    | Some n => if no_fraction rest then Some ([KInt n], rest) else None
    | None => None
    end
  else if Ascii.eqb c quote then
    let (body, rest) := span (fun c => negb (Ascii.eqb c quote)) r in
    match rest with
    | String _ rest => if str_has "\" body || str_has cr body then None else Some ([KStr body], rest)
    | "" => None
    end
  else if Ascii.eqb c ":" && starts (Ascii.eqb ":") r then Some ([KColons], behind r)
  else if Ascii.eqb c "-" && starts (Ascii.eqb ">") r then Some ([KArrow], behind r)
  else if is_punct c then Some ([KPunct c], r)
  else match open_of c, close_of c with
       | Some d, _ => Some ([KOpen d], r)
       | None, Some d => Some ([KClose d], r)
       | None, None => None
       end.

Fixpoint lex_fuel (fuel : nat) (s : string) : option (list tok) :=
  match fuel with
  | O => None
  | S fuel =>
      match s with
      | "" => Some []
      | String c r =>
          if is_space c then lex_fuel fuel r
          else match lex1 c r with
               | Some (ts, rest) => match lex_fuel fuel rest with Some us => Some (app ts us) | None => None end
               | None => None
               end
      end
  end.
(** Every step consumes something. *)
Definition lex (s : string) : option (list tok) := lex_fuel (S (String.length s)) s.

(** Trees of tokens: groups in brackets, as in [proc_macro2::TokenStream]. *)
Inductive tt := Leaf (t : tok) | Group (d : delim) (l : list tt).

Definition delim_eqb (a b : delim) : bool :=
  match a, b with DParen, DParen | DBracket, DBracket | DBrace, DBrace => true | _, _ => false end.
(** [stack]: the open groups, innermost first, each with what precedes it (reversed); [acc]: the current group (reversed). *)
Fixpoint build (ts : list tok) (stack : list (delim * list tt)) (acc : list tt) : option (list tt) :=
  match ts with
  | [] => match stack with [] => Some (rev acc) | _ => None end
  | KOpen d :: ts => build ts ((d, acc) :: stack) []
  | KClose d :: ts =>
      match stack with
      | (d', prev) :: stack => if delim_eqb d d' then build ts stack (Group d (rev acc) :: prev) else None
      | [] => None
      end
  | t :: ts => build ts stack (Leaf t :: acc)
  end.
Definition trees (ts : list tok) : option (list tt) := build ts [] [].
