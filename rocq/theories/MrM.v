(** Model of the script of the page of merge requests: web/static/merge_requests.js. Texts are bytes.
    The table library sorts the rows once more by the shown date; only the rows and the order in which they are added
    are modelled. *)
From Coq Require Import List String Ascii Arith NArith ZArith Bool.
From Verif Require Import Base FilesM GitM CliM WebM SiteM.
Import ListNotations.
Local Open Scope string_scope.

(** ** The address of the page *)
Record url := { u_base : string; u_query : string; u_fragment : string }.
Definition href (u : url) : string :=
  u_base u ++ (if String.eqb (u_query u) "" then "" else "?" ++ u_query u) ++ (if String.eqb (u_fragment u) "" then "" else "#" ++ u_fragment u).

(** [decodeURI]: escapes are replaced, but not those of characters that separate the parts of an address. [None] is the
    exception [URIError]. That escapes of bytes which are not UTF-8 also raise it is left out. *)
Definition reserved (c : ascii) : bool := existsb (Ascii.eqb c) (list_ascii_of_string ";/?:@&=+$,#").
Fixpoint decode_uri (s : string) : option string :=
  match s with
  | "" => Some ""
  | String c r =>
      if Ascii.eqb c "%"
      then match r with
           | String a (String b r') =>
               match hex_val a, hex_val b with
               | Some x, Some y =>
                   let d := ascii_of_N (16 * x + y) in
                   option_map (if reserved d then fun t => String c (String a (String b t)) else String d) (decode_uri r')
               | _, _ => None
               end
           | _ => None
           end
      else option_map (String c) (decode_uri r)
  end.
(** web/static/merge_requests.js:18-28: the value, up to the next separator, behind the first [?name=] or [&name=] in the whole address; [None] is an exception. *)
Fixpoint until_end (s : string) : string :=
  match s with "" => "" | String c s' => if Ascii.eqb c "&" || Ascii.eqb c "#" then "" else String c (until_end s') end.
Fixpoint skip (n : nat) (s : string) : string :=
  match n, s with 0, _ => s | S n', String _ s' => skip n' s' | S _, "" => "" end.
Fixpoint param_raw (name s : string) : option string :=
  match s with
  | "" => None
  | String c s' => if (Ascii.eqb c "?" || Ascii.eqb c "&") && String.prefix (name ++ "=") s'
                   then Some (until_end (skip (String.length (name ++ "=")) s')) else param_raw name s'
  end.
Definition param (address name default : string) : option string :=
  match param_raw name address with
  | None => Some default
  | Some raw => match decode_uri raw with None => None | Some "" => Some default | Some v => Some v end
  end.
(** web/static/merge_requests.js:61-62 *)
Definition listed (u : url) : option (string * string) :=
  match param (href u) "owner" "paritytech" with
  | Some owner => match param (href u) "repo" "polkadot-sdk" with Some repo => Some (owner, repo) | None => None end
  | None => None
  end.
(** web/static/merge_requests.js:68 *)
Definition pulls_request (owner repo : string) : string :=
  "https://api.github.com/repos/" ++ owner ++ "/" ++ repo ++ "/pulls?state=open&per_page=100&sort=updated&direction=desc".
(** web/static/merge_requests.js:32-40: the page that follows a choice in the selection. *)
Definition choose_repo (u : url) (value : string) : url :=
  let splits := split_char ":" value in
  {| u_base := u_base u;
     u_query := form_query (set_param "repo" (nth 1 splits "undefined") (set_param "owner" (nth 0 splits "undefined") (query_pairs (u_query u))));
     u_fragment := u_fragment u |}.

(** ** The rows *)
(** What the script reads of an entry of GitHub's answer; the owner of the branch is missing if their repository was deleted.
    Dates are numbers of milliseconds. *)
Record pull := { pr_title : string; pr_user : string; pr_head : string; pr_base : string; pr_owner : option string; pr_updated : Z }.
(** web/static/merge_requests.js:3-12 *)
Definition should_highlight (mr : pull) : bool :=
  let text := contains "weight" (lower (pr_title mr)) in
  let branch := contains "weight" (lower (pr_head mr)) || contains "weight" (lower (pr_base mr)) in
  text || branch.
(** web/static/merge_requests.js:73-75; [Array.sort] is stable. *)
Fixpoint add_pull (x : pull) (l : list pull) : list pull :=
  match l with
  | [] => [x]
  | y :: l' => if (pr_updated x <? pr_updated y)%Z then y :: add_pull x l' else x :: l
  end.
Definition sort_pulls (l : list pull) : list pull := fold_right add_pull [] l.

(** A row: its cells, as HTML; its colour; its hint; and the branches that a double click compares, if it does anything. *)
Record mr_row := { row_cells : list string; row_color : option string; row_title : option string; row_opens : option (string * string) }.
Section Rows.
  (** [toLocaleDateString] *)
  Variable show_date : Z -> string.
  (** web/static/merge_requests.js:81-87 *)
  Definition cells_of (mr : pull) : list string :=
    [String.substring 0 100 (pr_title mr); pr_user mr; pr_head mr; pr_base mr; show_date (pr_updated mr)].
  (** web/static/merge_requests.js:77-121: the rows, and how many are highlighted; [None] if an exception ends the loop,
      when the current row has been added already. *)
  Fixpoint fill (owner : string) (l : list pull) : list mr_row * option N :=
    match l with
    | [] => ([], Some 0%N)
    | mr :: l' =>
        match pr_owner mr with
        | None => ([{| row_cells := cells_of mr; row_color := None; row_title := None; row_opens := None |}], None)
        | Some o =>
            let (rows, n) := fill owner l' in
            if negb (String.eqb o owner)
            then ({| row_cells := cells_of mr; row_color := Some "gray"; row_title := Some ("Forks are unsupported. Remote: " ++ o ++ " != " ++ owner);
                     row_opens := None |} :: rows, n)
            else ({| row_cells := cells_of mr; row_color := if should_highlight mr then Some "seagreen" else None; row_title := None;
                     row_opens := Some (pr_base mr, pr_head mr) |} :: rows,
                  option_map (if should_highlight mr then N.succ else fun k => k) n)
        end
    end.
  (** web/static/merge_requests.js:43-129: the table, the number of highlighted rows, and if the overlay covers the page,
      once GitHub has answered; [None] if it failed. *)
  Record mr_page := { mp_rows : list mr_row; mp_highlighted : N; mp_overlay : bool }.
  Definition mr_answered (owner : string) (answer : option (list pull)) : mr_page :=
    match answer with
    | None => {| mp_rows := []; mp_highlighted := 0; mp_overlay := true |}
    | Some data =>
        let (rows, n) := fill owner (sort_pulls data) in
        match n with
        | Some n => {| mp_rows := rows; mp_highlighted := n; mp_overlay := false |}
        | None => {| mp_rows := rows; mp_highlighted := 0; mp_overlay := true |}
        end
    end.
End Rows.
(** web/static/merge_requests.js:89-103: a double click on a row: the request to fetch the branches, the page that follows
    if it succeeds, and if the overlay covers the page at the end. An unknown repository raises an exception before the request;
    that [populate_branches] is not defined raises one after the page has been left. *)
Definition double_click (repo : string) (row : mr_row) (fetched : bool) : list string * option string * bool :=
  match row_opens row with
  | None => ([], None, false)
  | Some (base, head) =>
      match mr_link repo base head with
      | None => ([], None, true)
      | Some q => (["/branches?repo=" ++ repo ++ "&fetch=true"], if fetched then Some ("/compare?" ++ q) else None, negb fetched)
      end
  end.
