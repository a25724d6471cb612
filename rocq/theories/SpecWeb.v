(** Specification vocabulary for the pages of the web server. *)
From Coq Require Import List String Ascii NArith ZArith Bool.
From Verif Require Import Base ScopeM TermM F64 CompareM RowsM CliM WebM SpecFiles SpecRows.
From Verif Require Import SpecFmt.
Import ListNotations.
Local Open Scope string_scope.

(** White space of ASCII. *)
Definition blank (c : ascii) : Prop := In c [" "; "009"; "010"; "011"; "012"; "013"]%char.
Definition only (P : ascii -> Prop) (s : string) : Prop := forall c, In c (list_ascii_of_string s) -> P c.
Definition occurs (pat s : string) : Prop := exists a b, s = a ++ pat ++ b.

(** ** The output of [git ls-remote --tags --heads] *)
Record ref := { ref_hash : string; ref_tag : bool; ref_name : string }.
Definition ref_line (r : ref) : string :=
  ref_hash r ++ String "009" ((if ref_tag r then "refs/tags/" else "refs/heads/") ++ ref_name r ++ String "010" "").
Definition hex (c : ascii) : Prop := In c (list_ascii_of_string "0123456789abcdef").
(** A hash is at least 12 digits long; names are not empty and have no white space. *)
Definition good_ref (r : ref) : Prop :=
  only hex (ref_hash r) /\ 12 <= String.length (ref_hash r) /\ ref_name r <> "" /\ only (fun c => ~ blank c) (ref_name r).
(** The rows that are dropped. *)
Definition odd_ref (r : ref) : bool :=
  existsb (fun c => Ascii.eqb c "{" || Ascii.eqb c "^") (list_ascii_of_string (ref_name r)).

(** ** Blanks around a text *)
Definition trimmed (s t : string) : Prop :=
  (exists a b, s = a ++ t ++ b /\ only blank a /\ only blank b) /\
  (forall c t', t = String c t' -> ~ blank c) /\ (forall c t', t = t' ++ String c "" -> ~ blank c).

(** ** Text on a page *)
(** The characters that begin or end tags and attributes. *)
Definition markup : list ascii := ["<"; ">"; """"; "'"]%char.
Definition mild (s : string) : Prop := only (fun c => ~ In c markup) s.
Definition count (c : ascii) (s : string) : nat := count_occ ascii_dec (list_ascii_of_string s) c.
(** The character references that are used. *)
Definition references : list (string * ascii) :=
  [("&quot;", """"%char); ("&amp;", "&"%char); ("&#039;", "'"%char); ("&lt;", "<"%char); ("&gt;", ">"%char)].
(** How a browser reads text with character references. *)
Inductive decodes : string -> string -> Prop :=
| de_nil : decodes "" ""
| de_char c t s : c <> "&"%char -> decodes t s -> decodes (String c t) (String c s)
| de_ref t s name c : In (name, c) references ->
    decodes t s -> decodes (name ++ t) (String c s).
(** The names of the variables of a term. *)
Fixpoint mild_vars (t : sterm) : Prop :=
  match t with
  | Var x => mild x
  | Add a b | Mul a b => mild_vars a /\ mild_vars b
  | _ => True
  end.
(** The same row with all texts empty. *)
Definition no_text_diff (d : term_diff) : term_diff :=
  match d with DChanged c => DChanged c | DWarning c _ => DWarning c "" | DFailed _ => DFailed "" end.
Definition no_text_row (r : row) : row := mk_row "" "" (no_text_diff (row_diff r)).
Definition no_text_args (a : web_args) : web_args :=
  {| wa_old := ""; wa_new := ""; wa_repo := ""; wa_pattern := ""; wa_extrinsic := None; wa_pallet := None; wa_ignore_errors := wa_ignore_errors a;
     wa_threshold := wa_threshold a; wa_unit := wa_unit a; wa_pull := wa_pull a; wa_method := wa_method a |}.
Definition no_text_term (t : option sterm) : option sterm := match t with Some _ => Some (Var "") | None => None end.
Definition no_text_change (c : term_change) : term_change :=
  {| tc_old := no_text_term (tc_old c); tc_old_v := tc_old_v c; tc_new := no_text_term (tc_new c); tc_new_v := tc_new_v c;
     tc_scope := []; tc_percent := tc_percent c; tc_change := tc_change c; tc_method := tc_method c |}.
(** A cell of a table, with its attributes. *)
Definition cell (attr text : string) : string := "<td" ++ attr ++ ">" ++ text ++ "</td>".
Definition head_cell (text : string) : string := "<th>" ++ text ++ "</th>".
(** A cell with the number [z] by which the table is sorted. *)
Definition reads_int (t : string) (z : Z) : Prop :=
  (0 <= z)%Z /\ read_dec t = Some (Z.to_N z) \/ (z < 0)%Z /\ exists d, t = "-" ++ d /\ read_dec d = Some (Z.to_N (- z)).
Definition sort_key (attr : string) (z : Z) : Prop := exists t, attr = " data-order='" ++ t ++ "'" /\ reads_int t z.
(** [v] is [w] with a space for every plus. *)
Definition plus_as_space (v w : string) : Prop :=
  list_ascii_of_string v = map (fun c => if ascii_dec c "+" then " "%char else c) (list_ascii_of_string w).
(** What stands in front of a line. *)
Definition before_line (s : string) : Prop := s = "" \/ exists t, s = t ++ String newline "".
