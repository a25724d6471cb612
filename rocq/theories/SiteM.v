(** Model of the start of the web server, of how requests for comparisons are read, of the pages around the
    results and of the links on them: web/src/main.rs:95-190, 289-334, web/src/html.rs:76-94,
    web/templates/root.stpl:43-48, web/templates/compare.stpl:24-105, web/templates/merge_requests.stpl:49-53,
    web/static/table.js, web/static/root.js, web/static/merge_requests.js, web/static/common.js. *)
From Coq Require Import List String Ascii Arith NArith Bool.
From Verif Require Import Base ScopeM TermM F64 CompareM RowsM FmtM FilesM GitM CliM HtmlM WebM PageM.
Import ListNotations.
Local Open Scope string_scope.

(** ** Start *)

(** [Path::new]: repeated separators and dots after the first component disappear. *)
Definition comp_of (s : string) : list comp :=
  if String.eqb s "" || String.eqb s "." then [] else if String.eqb s ".." then [CUp] else [CName s].
Definition path_of (s : string) : fpath :=
  match split_char "/" s with
  | [] => []
  | first :: rest =>
      let tail := flat_map comp_of rest in
      if String.eqb first "" then match s with "" => [] | _ => CRoot :: tail end
      else if String.eqb first "." then CCur :: tail
      else (comp_of first ++ tail)%list
  end.
(** [Path::join] *)
Definition join (root : fpath) (name : string) : fpath :=
  match path_of name with
  | CRoot :: p => CRoot :: p
  | CCur :: p => match root with [] => CCur :: p | _ => (root ++ p)%list end
  | p => (root ++ p)%list
  end.

(** web/src/main.rs:80-85 *)
Record site_repo := { sr_name : string; sr_path : fpath; sr_org : string }.

Section Start.
  (** [git remote get-url origin] in a directory, with its output, and what is on the disk. *)
  Context (remote : fpath -> cmd_result * string) (exists_ is_dir : fpath -> bool).

  (** web/src/git.rs:9-25 *)
  Definition get_origin_org (repo : fpath) : outcome string :=
    match remote repo with
    | (NotRun e, _) => Err ("Failed to get origin url: " ++ e)
    | (Exited false e, _) => Err ("Failed to get origin url: " ++ e)
    | (Exited true _, out) => match origin_org out with Some o => Ok o | None => Err "Failed to parse origin url" end
    end.
  (** web/src/main.rs:111-138; [REPOS] is a map, its order is that of the names here. *)
  Fixpoint register (root : fpath) (repos : list (string * site_repo)) (names : list string) : outcome (list (string * site_repo)) :=
    match names with
    | [] => Ok repos
    | n :: names' =>
        let path := join root n in
        let* org := map_err (fun e => "Failed to get origin of " ++ n ++ ": " ++ e) (get_origin_org path) in
        let repos' := minsert str_cmp n {| sr_name := n; sr_path := path; sr_org := org |} repos in
        if exists_ path then register root repos' names' else Err ("Repo directory '" ++ path_text path ++ "' does not exist")
    end.
  (** web/src/main.rs:95-146. In the message, the escapes of [{:?}] are left out. *)
  Definition start (root : fpath) (static : string) (names : list string) : outcome (list (string * site_repo)) :=
    match names with
    | [] => Err "Need at least one value to --repos"
    | _ =>
        let* repos := register root [] names in
        if is_dir (path_of static) then Ok repos else Err ("Web root path '" ++ quoted static ++ "' is not a directory")
    end.
End Start.

(** ** Queries *)

(** [form_urlencoded::parse] of the crate url, and [URLSearchParams] of a browser. Texts are bytes; that bytes
    which are not UTF-8 are replaced is left out. *)
Definition hex_val (c : ascii) : option N :=
  let n := N_of_ascii c in
  if ((48 <=? n) && (n <=? 57))%N then Some (n - 48)%N
  else if ((65 <=? n) && (n <=? 70))%N then Some (n - 55)%N
  else if ((97 <=? n) && (n <=? 102))%N then Some (n - 87)%N
  else None.
Fixpoint percent_decode (s : string) : string :=
  match s with
  | "" => ""
  | String c r =>
      match r with
      | String a (String b r') =>
          if Ascii.eqb c "%"
          then match hex_val a, hex_val b with
               | Some x, Some y => String (ascii_of_N (16 * x + y)) (percent_decode r')
               | _, _ => String c (percent_decode r)
               end
          else String c (percent_decode r)
      | _ => String c (percent_decode r)
      end
  end.
Definition url_decode (s : string) : string := percent_decode (replace_char "+" " " s).
Fixpoint split_eq (s : string) : string * string :=
  match s with
  | "" => ("", "")
  | String c s' => if Ascii.eqb c "=" then ("", s') else let (k, v) := split_eq s' in (String c k, v)
  end.
Definition query_pairs (q : string) : list (string * string) :=
  map (fun part => let (k, v) := split_eq part in (url_decode k, url_decode v))
    (filter (fun part => negb (String.eqb part "")) (split_char "&" q)).

(** [str::parse::<u32>] and [str::parse::<bool>] *)
Fixpoint all_digits (s : string) : bool :=
  match s with "" => true | String c s' => ((48 <=? N_of_ascii c) && (N_of_ascii c <=? 57))%N && all_digits s' end.
Fixpoint number (acc : N) (s : string) : N :=
  match s with "" => acc | String c s' => number (acc * 10 + (N_of_ascii c - 48)) s' end.
Definition u32_of_str (s : string) : option N :=
  let d := match s with String c s' => if Ascii.eqb c "+" then s' else s | "" => "" end in
  if negb (String.eqb d "") && all_digits d && (number 0 d <? u32_bound)%N then Some (number 0 d) else None.
Definition bool_of_str (s : string) : option bool :=
  if String.eqb s "true" then Some true else if String.eqb s "false" then Some false else None.
(** core/src/lib.rs:332-345, 409-418: the names for serde. *)
Definition serde_method (s : string) : option CompareM.method :=
  if String.eqb s "base" then Some Base
  else if String.eqb s "exact-worst" then Some ExactWorst
  else if String.eqb s "guess-worst" then Some GuessWorst
  else if String.eqb s "exact-asymptotic" then Some ExactAsymptotic
  else if String.eqb s "asymptotic" then Some Asymptotic
  else None.
Definition serde_dimension (s : string) : option dimension :=
  if String.eqb s "time" || String.eqb s "weight" then Some Time else if String.eqb s "proof" then Some Proof_size else None.

(** [#[derive(Deserialize)]] for [CompareArgs], web/src/main.rs:60-73, with serde_urlencoded: names that are not known
    are skipped, a name must not come twice, and only options may be missing. The texts of the errors are
    shortened. *)
Definition fields : list string :=
  ["old"; "new"; "repo"; "path_pattern"; "extrinsic"; "pallet"; "ignore_errors"; "threshold"; "unit"; "git_pull"; "method"].
Definition lookup (k : string) (l : list (string * string)) : option string :=
  match find (fun p => String.eqb (fst p) k) l with Some p => Some (snd p) | None => None end.
Definition required {A} (k : string) (o : option A) : outcome A :=
  match o with Some a => Ok a | None => Err ("missing field `" ++ k ++ "`") end.
(** The value of a field is read when it comes. *)
Definition value_ok (k v : string) : bool :=
  if String.eqb k "ignore_errors" || String.eqb k "git_pull" then match bool_of_str v with Some _ => true | None => false end
  else if String.eqb k "threshold" then match u32_of_str v with Some _ => true | None => false end
  else if String.eqb k "unit" then match serde_dimension v with Some _ => true | None => false end
  else if String.eqb k "method" then match serde_method v with Some _ => true | None => false end
  else true.
Fixpoint take_fields (seen l : list (string * string)) : outcome (list (string * string)) :=
  match l with
  | [] => Ok seen
  | (k, v) :: l' =>
      if negb (existsb (String.eqb k) fields) then take_fields seen l'
      else match lookup k seen with
           | Some _ => Err ("duplicate field `" ++ k ++ "`")
           | None => if value_ok k v then take_fields ((k, v) :: seen) l' else Err ("invalid value for `" ++ k ++ "`")
           end
  end.
Definition typed_field {A} (read : string -> option A) (k : string) (l : list (string * string)) : option A :=
  match lookup k l with Some v => read v | None => None end.
Definition read_args (l : list (string * string)) : outcome web_args :=
  let* f := take_fields [] l in
  let* old := required "old" (lookup "old" f) in
  let* new := required "new" (lookup "new" f) in
  let* repo := required "repo" (lookup "repo" f) in
  let* pattern := required "path_pattern" (lookup "path_pattern" f) in
  let* ignore := required "ignore_errors" (typed_field bool_of_str "ignore_errors" f) in
  let* threshold := required "threshold" (typed_field u32_of_str "threshold" f) in
  let* unit := required "unit" (typed_field serde_dimension "unit" f) in
  let* method := required "method" (typed_field serde_method "method" f) in
  Ok {| wa_old := old; wa_new := new; wa_repo := repo; wa_pattern := pattern; wa_extrinsic := lookup "extrinsic" f;
        wa_pallet := lookup "pallet" f; wa_ignore_errors := ignore; wa_threshold := threshold; wa_unit := unit;
        wa_pull := typed_field bool_of_str "git_pull" f; wa_method := method |}.
Definition read_query (q : string) : outcome web_args := read_args (query_pairs q).

(** web/src/main.rs:291-310: the arguments of a request and the organization of the repository.
    [entities] is [html_escape::decode_html_entities]. *)
Definition prepare (entities : string -> string) (repos : list (string * site_repo)) (q : string) : outcome (web_args * string) :=
  let* a := read_query q in
  let a' := {| wa_old := entities (wa_old a); wa_new := entities (wa_new a); wa_repo := wa_repo a; wa_pattern := entities (wa_pattern a);
               wa_extrinsic := wa_extrinsic a; wa_pallet := wa_pallet a; wa_ignore_errors := wa_ignore_errors a;
               wa_threshold := wa_threshold a; wa_unit := wa_unit a; wa_pull := wa_pull a; wa_method := wa_method a |} in
  match mget str_cmp (wa_repo a') repos with
  | Some r => Ok (a', sr_org r)
  | None => Err ("Unknown repo organization '" ++ wa_repo a' ++ "'")
  end.

(** ** Links *)

Definition hex_digit (n : N) : ascii := if (n <? 10)%N then ascii_of_N (48 + n) else ascii_of_N (55 + n).
Definition percent (c : ascii) : string :=
  let n := N_of_ascii c in String "%" (String (hex_digit (n / 16)) (String (hex_digit (n mod 16)) "")).
(** The serializer of [URLSearchParams]. *)
Definition form_char (c : ascii) : string :=
  let n := N_of_ascii c in
  if ((48 <=? n) && (n <=? 57) || (65 <=? n) && (n <=? 90) || (97 <=? n) && (n <=? 122))%N
     || Ascii.eqb c "*" || Ascii.eqb c "-" || Ascii.eqb c "." || Ascii.eqb c "_" then String c ""
  else if Ascii.eqb c " " then "+" else percent c.
Fixpoint form_text (s : string) : string :=
  match s with "" => "" | String c s' => form_char c ++ form_text s' end.
Definition form_query (l : list (string * string)) : string :=
  String.concat "&" (map (fun p => form_text (fst p) ++ "=" ++ form_text (snd p)) l).
(** [URLSearchParams.set]: the first pair of the name gets the value, the others of the name go. *)
Fixpoint drop_param (k : string) (l : list (string * string)) : list (string * string) :=
  match l with
  | [] => []
  | p :: l' => if String.eqb (fst p) k then drop_param k l' else p :: drop_param k l'
  end.
Fixpoint set_param (k v : string) (l : list (string * string)) : list (string * string) :=
  match l with
  | [] => [(k, v)]
  | p :: l' => if String.eqb (fst p) k then (k, v) :: drop_param k l' else p :: set_param k v l'
  end.
(** web/static/table.js:15-26: the query of the page that follows, if there is one. *)
Definition url_redirect (query arg value : string) : option string :=
  if String.eqb value "" then None else Some (form_query (set_param arg value (query_pairs query))).

(** The query that a browser sends for the text of a link behind the question mark: up to a fragment, without
    tabs and line ends, and with some characters encoded (the special-query percent-encode set of the URL standard).
    That blanks at the end of a link are dropped is left out. *)
Definition query_char (c : ascii) : string :=
  let n := N_of_ascii c in
  if (n =? 9)%N || (n =? 10)%N || (n =? 13)%N then ""
  else if (n <=? 32)%N || (127 <=? n)%N || Ascii.eqb c """" || Ascii.eqb c "<" || Ascii.eqb c ">" || Ascii.eqb c "'" then percent c
  else String c "".
Fixpoint browser_query (s : string) : string :=
  match s with
  | "" => ""
  | String c s' => if Ascii.eqb c "#" then "" else query_char c ++ browser_query s'
  end.
(** web/static/common.js:12-14 *)
Definition presets : list (string * string) :=
  [("polkadot-sdk", "substrate/frame/**/src/weights.rs,polkadot/runtime/*/src/weights/**/*.rs,polkadot/bridges/modules/*/src/weights.rs,cumulus/**/weights/*.rs,cumulus/**/weights/xcm/*.rs,cumulus/**/src/weights.rs")].
(** web/static/root.js:147-166: the request for a comparison from the root page; [None] is the alert. *)
Definition root_link (repo first second : string) : option string :=
  match lookup repo presets with
  | Some pattern =>
      Some (browser_query ("unit=weight&ignore_errors=true&threshold=10&method=asymptotic" ++ "&repo=" ++ repo ++ "&old=" ++ first
        ++ "&new=" ++ second ++ "&path_pattern=" ++ pattern))
  | None => None
  end.
(** web/static/common.js:16-30, web/static/merge_requests.js:92-93: the request for a merge request. *)
Definition mr_link (repo base head : string) : option string :=
  match lookup repo presets with
  | Some pattern =>
      Some (browser_query (form_query [("repo", repo); ("threshold", "10"); ("path_pattern", pattern); ("method", "asymptotic");
        ("ignore_errors", "true"); ("unit", "time")] ++ "&old=" ++ base ++ "&new=" ++ head))
  | None => None
  end.

(** ** Pages *)

(** [str::to_lowercase], for the letters of ASCII. *)
Definition lower_char (c : ascii) : ascii :=
  let n := N_of_ascii c in if ((65 <=? n) && (n <=? 90))%N then ascii_of_N (n + 32) else c.
Fixpoint lower (s : string) : string := match s with "" => "" | String c s' => String (lower_char c) (lower s') end.
(** web/src/html.rs:90-94 *)
Definition readme_link (name : string) : string :=
  name ++ " <a href=" ++ quoted ("https://github.com/ggwpez/substrate-weight-compare/#" ++ replace_char " " "-" (lower name)) ++ " target="
    ++ quoted "_blank" ++ "><sup><small>HELP</small></sup></a>".
Definition selected (b : bool) : string := if b then "selected" else "".
Definition dimension_eqb (a b : dimension) : bool := match a, b with Time, Time | Proof_size, Proof_size => true | _, _ => false end.
Definition method_eqb (a b : CompareM.method) : bool :=
  match a, b with
  | Base, Base | GuessWorst, GuessWorst | ExactWorst, ExactWorst | ExactAsymptotic, ExactAsymptotic | Asymptotic, Asymptotic => true
  | _, _ => false
  end.
(** compare.stpl:34-36 *)
Definition repo_option (args : web_args) (repo : string) : string :=
  "<option value=" ++ escape repo ++ " " ++ selected (String.eqb (wa_repo args) repo) ++ ">" ++ escape repo ++ "</option>".
(** compare.stpl:75-77 and 86-88 *)
Definition unit_option (args : web_args) (p : dimension * string) : string :=
  "<option value=" ++ quoted (escape (snd p)) ++ " " ++ selected (dimension_eqb (wa_unit args) (fst p)) ++ ">" ++ escape (snd p) ++ "</option>".
Definition method_option (args : web_args) (p : CompareM.method * string) : string :=
  "<option value=" ++ quoted (escape (snd p)) ++ " " ++ selected (method_eqb (wa_method args) (fst p)) ++ ">" ++ escape (snd p) ++ "</option>".
Definition select (id : string) (options : list string) : string :=
  "<select id=" ++ quoted id ++ ">" ++ String.concat "" options ++ "</select>".
Definition text_input (id value : string) : string := "<input id=" ++ quoted id ++ " type=" ++ quoted "text" ++ " value=" ++ quoted (escape value) ++ ">".
Definition checkbox (id : string) (b : bool) : string :=
  "<input id=" ++ quoted id ++ " type=" ++ quoted "checkbox" ++ " " ++ (if b then "checked" else "") ++ ">".
Definition config_row (label control : string) : string := "<tr><td>" ++ label ++ "</td><td>" ++ control ++ "</td></tr>".
(** compare.stpl:24-105. White space between the elements is left out. *)
Definition config_table (version : string) (repos : list string) (args : web_args) (was_cached : bool) : string :=
  "<table id=" ++ quoted "config_table" ++ "><tbody>"
    ++ config_row "Version" ("<a href=" ++ quoted "https://github.com/ggwpez/substrate-weight-compare" ++ " target=" ++ quoted "_blank" ++ ">" ++ escape version ++ "</a>")
    ++ config_row (readme_link "Repository") (select "select_repo" (map (repo_option args) repos))
    ++ config_row "Old Commit/Branch" (text_input "input_old" (wa_old args))
    ++ config_row "New Commit/Branch" (text_input "input_new" (wa_new args))
    ++ config_row (readme_link "Path Pattern") (text_input "input_path_pattern" (wa_pattern args))
    ++ config_row (readme_link "Pallet") (text_input "input_pallet" (match wa_pallet args with Some p => p | None => ".*" end))
    ++ config_row (readme_link "Extrinsic") (text_input "input_extrinsic" (match wa_extrinsic args with Some e => e | None => ".*" end))
    ++ config_row (readme_link "Rel Threshold") ("<div class=" ++ quoted "input-group" ++ "><input id=" ++ quoted "input_threshold" ++ " type=" ++ quoted "number"
         ++ " class=" ++ quoted "form-control" ++ " value=" ++ quoted (escape (dec_of_N (wa_threshold args))) ++ "><div class=" ++ quoted "input-group-append"
         ++ "><span class=" ++ quoted "input-group-text" ++ ">%</span></div></div>")
    ++ config_row (readme_link "Dimension") (select "select_unit" (map (unit_option args) dimension_reflect))
    ++ config_row (readme_link "Evaluation Method") (select "select_method" (map (method_option args) method_reflect))
    ++ config_row (readme_link "Ignore Errors") (checkbox "checkbox_ignore_errors" (wa_ignore_errors args))
    ++ config_row (readme_link "Git Pull") (checkbox "checkbox_git_pull" (match wa_pull args with Some b => b | None => true end))
    ++ config_row (readme_link "Cache" ++ " hit") (escape (if was_cached then "Yes" else "No"))
    ++ "</tbody></table>".

(** web/src/main.rs:176-182, root.stpl:43-48: the repositories on the root page *)
Definition root_select (repos : list string) : string :=
  "<p>Please select a repository. There are <var>" ++ escape (dec_of_N (N.of_nat (List.length repos))) ++ "</var> available.</p>"
    ++ "<select class=" ++ quoted "form-control js-example-basic-single" ++ " id=" ++ quoted "repoSelect" ++ " style=" ++ quoted "width: 100%;" ++ ">"
    ++ String.concat "" (map (fun r => "<option value=" ++ quoted (escape (lower r)) ++ ">" ++ escape r ++ "</option>") repos) ++ "</select>".
(** web/src/main.rs:330-334, merge_requests.stpl:49-53 *)
Definition mr_name (r : site_repo) : string := sr_org r ++ ":" ++ sr_name r.
Definition mr_select (repos : list site_repo) : string :=
  select "select_repo" (map (fun r => "<option value=" ++ escape (mr_name r) ++ ">" ++ escape (mr_name r) ++ "</option>") repos).
(** error.stpl:15-16, web/src/html.rs:76-80 *)
Definition error_page (msg : string) : nat * string := (500, "<h1>Error</h1><h2>" ++ escape msg ++ "</h2>").
(** web/src/main.rs:289-324: the answer to a request, given the result of [do_compare_cached]. *)
Definition compare_answer (entities : string -> string) (version : string) (m : mode) (repos : list (string * site_repo)) (q : string)
    (run : web_args -> outcome (list row * bool)) : outcome (nat * string) :=
  match prepare entities repos q with
  | Ok (a, org) =>
      match run a with
      | Ok (diff, was_cached) =>
          let* results := page_results m a org diff in
          Ok (200, config_table version (map fst repos) a was_cached ++ results)
      | Err e => Ok (error_page e)
      | Panic p => Panic p
      | Diverge => Diverge
      end
  | Err e => Ok (error_page e)
  | Panic p => Panic p
  | Diverge => Diverge
  end.
