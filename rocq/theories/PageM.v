(** Model of the page with the results: web/templates/compare.stpl:108-195. White space between the elements is left out. *)
From Coq Require Import List String Ascii Arith NArith ZArith Bool.
From Verif Require Import Base ScopeM TermM F64 CompareM RowsM FmtM CliM HtmlM WebM.
Import ListNotations.
Local Open Scope string_scope.

(** [<%= %>] of sailfish 0.8: [runtime::escape]. *)
Definition escape_char (c : ascii) : string :=
  if Ascii.eqb c """" then "&quot;"
  else if Ascii.eqb c "&" then "&amp;"
  else if Ascii.eqb c "'" then "&#039;"
  else if Ascii.eqb c "<" then "&lt;"
  else if Ascii.eqb c ">" then "&gt;"
  else String c "".
Fixpoint escape (s : string) : string :=
  match s with "" => "" | String c s' => escape_char c ++ escape s' end.

(** [Display] of [i128] *)
Definition show_Z (z : Z) : string := if (z <? 0)%Z then "-" ++ dec_of_N (Z.abs_N z) else dec_of_N (Z.abs_N z).
(** core/src/scope.rs:80-90 *)
Definition show_scope (s : sscope) : string := String.concat ", " (map (fun p => fst p ++ " = " ++ sdisplay (snd p)) s).

(** core/src/lib.rs:83-88 *)
Definition row_warning (r : row) : option string :=
  match row_diff r with DWarning _ w => Some w | _ => None end.
Fixpoint filter_map {A B} (f : A -> option B) (l : list A) : list B :=
  match l with
  | [] => []
  | x :: l' => match f x with Some y => y :: filter_map f l' | None => filter_map f l' end
  end.
(** Lines 108, 123 and 155 *)
Definition page_errors (diff : list row) : list string := filter_map row_error diff.
Definition page_warnings (diff : list row) : list string := filter_map row_warning diff.
Definition page_rows (diff : list row) : list (row * term_change) :=
  filter_map (fun r => match row_term r with Some c => Some (r, c) | None => None end) diff.

(** Line 156: the [id] of a row, and the target of its link. *)
Definition row_id (r : row) : string := row_file r ++ "." ++ row_name r.
Definition quoted (s : string) : string := quote ++ s ++ quote.
Definition value_or_0 (v : option N) : N := match v with Some v => v | None => 0%N end.
(** Lines 171-176 *)
Definition value_cell (dim : dimension) (v : option N) : string :=
  "<td data-order='" ++ dec_of_N (value_or_0 v) ++ "'>" ++ escape (match v with Some v => fmt_value dim v | None => "-" end) ++ "</td>".
(** Lines 184-189 *)
Definition equation_cell (repo org : string) (r : row) (rev : string) (t : option sterm) : string :=
  "<td>" ++ (match t with
             | Some t => code_link repo org (row_name r) (row_file r) rev ++ " " ++ sdisplay t
             | None => "-"
             end) ++ "</td>".
(** Lines 156-193 *)
Definition row_html (m : mode) (args : web_args) (org : string) (r : row) (change : term_change) : outcome string :=
  let* key := order_abs m change in
  let* colored := html_color_abs m change (wa_unit args) in
  Ok ("<tr id=" ++ quoted (row_id r) ++ ">"
    ++ "<td>" ++ escape (row_file r) ++ "</td>"
    ++ (match row_warning r with Some _ => "<td class=" ++ quoted "text-warning" ++ ">" | None => "<td>" end)
    ++ escape (row_name r) ++ "<sup><a href=" ++ quoted ("#" ++ row_id r) ++ ">🔗</a></sup></td>"
    ++ value_cell (wa_unit args) (tc_old_v change) ++ value_cell (wa_unit args) (tc_new_v change)
    ++ "<td data-order='" ++ show_Z (order_percent change) ++ "'>" ++ html_color_percent (tc_percent change) (tc_change change) ++ "</td>"
    ++ "<td data-order='" ++ show_Z key ++ "'>" ++ colored ++ "</td>"
    ++ equation_cell (wa_repo args) org r (wa_old args) (tc_old change)
    ++ equation_cell (wa_repo args) org r (wa_new args) (tc_new change)
    ++ "<td>" ++ escape (show_scope (tc_scope change)) ++ "</td>"
    ++ "</tr>").

(** Lines 108-121 and 123-136 *)
Definition message_box (class target text : string) (msgs : list string) : string :=
  match msgs with
  | [] => ""
  | _ =>
      "<p><button class=" ++ quoted ("btn " ++ class) ++ " type=" ++ quoted "button" ++ " data-bs-toggle=" ++ quoted "collapse"
        ++ " data-bs-target=" ++ quoted ("#" ++ target) ++ " aria-expanded=" ++ quoted "false" ++ " aria-controls=" ++ quoted target ++ ">"
        ++ dec_of_N (N.of_nat (List.length msgs)) ++ text ++ "</button></p>"
        ++ "<div class=" ++ quoted "collapse" ++ " id=" ++ quoted target ++ "><div class=" ++ quoted "card card-body text-dark bg-light" ++ ">"
        ++ String.concat "" (map (fun e => e ++ "<br>") msgs) ++ "</div></div>"
  end.
(** [format!("{:?}", args.unit)] *)
Definition unit_debug (d : dimension) : string := match d with Time => "Time" | Proof_size => "Proof" end.
(** Lines 138-154 *)
Definition table_head (d : dimension) : string :=
  "<table id=" ++ quoted "sort_me" ++ " class=" ++ quoted "display table" ++ "><thead><tr><th>File</th><th>Extrinsic</th><th>Old [" ++ unit_debug d
    ++ "]</th><th>New [" ++ unit_debug d ++ "]</th><th>Rel. Change</th><th>Abs. Change</th><th>Old Equation</th><th>New Equation</th>"
    ++ "<th>Used Variables</th></tr></thead><tbody>".
(** Lines 108-195 *)
Definition page_results (m : mode) (args : web_args) (org : string) (diff : list row) : outcome string :=
  let* trs := mapM (fun p => row_html m args org (fst p) (snd p)) (page_rows diff) in
  Ok (message_box "btn-danger" "collapseErrors" " errors generated" (page_errors diff)
    ++ message_box "btn-warning" "collapseWarns" " warnings generated" (page_warnings diff)
    ++ table_head (wa_unit args) ++ String.concat "" trs ++ "</tbody>").
