(** Model of the links to rows of the table of results: web/templates/compare.stpl:155-168 and web/static/table.js:15-26, 48-62.
    The ids of the rows are taken as they are written, which is what a browser reads if they have neither quotes nor [&].
    Scrolling to the row is left out. *)
From Coq Require Import List String Ascii NArith Bool.
From Verif Require Import Base RowsM WebM SiteM PageM MrM.
Import ListNotations.
Local Open Scope string_scope.

(** The fragment of the address after a click on a link with the target [#s]: without tabs and line ends, and with some
    characters encoded (the fragment percent-encode set of the URL standard). *)
Definition fragment_char (c : ascii) : string :=
  let n := N_of_ascii c in
  if (n =? 9)%N || (n =? 10)%N || (n =? 13)%N then ""
  else if (n <=? 32)%N || (127 <=? n)%N || Ascii.eqb c """" || Ascii.eqb c "<" || Ascii.eqb c ">" || Ascii.eqb c "`" then percent c
  else String c "".
Fixpoint browser_fragment (s : string) : string :=
  match s with "" => "" | String c s' => fragment_char c ++ browser_fragment s' end.
(** A click on the link in row [r]: web/templates/compare.stpl:167. *)
Definition follow (u : url) (r : row) : url := {| u_base := u_base u; u_query := u_query u; u_fragment := browser_fragment (row_id r) |}.
(** [location.hash] *)
Definition hash (u : url) : string := if String.eqb (u_fragment u) "" then "" else "#" ++ u_fragment u.
(** [replace('#', '')]: the first one. *)
Fixpoint drop_hash (s : string) : string :=
  match s with "" => "" | String c s' => if Ascii.eqb c "#" then s' else String c (drop_hash s') end.
(** The table library keeps its rows by id; a later row replaces an earlier one with the same id. *)
Definition find_id (rows : list row) (id : string) : option row :=
  fold_left (fun o r => if String.eqb (row_id r) id then Some r else o) rows None.
(** web/static/table.js:48-62: the row that is selected when the page is loaded. If there is no row with the id, then the
    library takes it as a CSS selector, which can also raise an exception: [css] is what that gives. *)
Definition selected (css : list row -> string -> option row) (rows : list row) (u : url) : option row :=
  let anchor := drop_hash (hash u) in
  if String.eqb anchor "" then None
  else match find_id rows anchor with Some r => Some r | None => css rows anchor end.
(** web/static/table.js:16-26 with the whole address: [None] if the page stays. *)
Definition redirect (u : url) (arg value : string) : option url :=
  option_map (fun q => {| u_base := u_base u; u_query := q; u_fragment := u_fragment u |}) (url_redirect (u_query u) arg value).
