(** Specification vocabulary for requests and for the pages around the results. *)
From Coq Require Import List String Ascii NArith Bool.
From Verif Require Import Base ScopeM TermM F64 CompareM RowsM FilesM CliM GitM WebM SpecFmt SpecFiles SpecRows SpecCli SpecWeb.
Import ListNotations.
Local Open Scope string_scope.

(** ** Queries *)

(** The value of a hexadecimal digit. *)
Definition hexes : list (ascii * N) :=
  (combine (list_ascii_of_string "0123456789ABCDEF") [0; 1; 2; 3; 4; 5; 6; 7; 8; 9; 10; 11; 12; 13; 14; 15] ++
   combine (list_ascii_of_string "abcdef") [10; 11; 12; 13; 14; 15])%list%N.
Definition two_hexes (s : string) : Prop := exists a b x y t, In (a, x) hexes /\ In (b, y) hexes /\ s = String a (String b t).
(** What a text in a query stands for. *)
Inductive url_text : string -> string -> Prop :=
| ut_nil : url_text "" ""
| ut_plus r s : url_text r s -> url_text (String "+" r) (String " " s)
| ut_hex a b x y r s : In (a, x) hexes -> In (b, y) hexes -> url_text r s ->
    url_text (String "%" (String a (String b r))) (String (ascii_of_N (16 * x + y)) s)
| ut_percent r s : ~ two_hexes r -> url_text r s -> url_text (String "%" r) (String "%" s)
| ut_plain c r s : c <> "+"%char -> c <> "%"%char -> url_text r s -> url_text (String c r) (String c s).
(** A part of a query: a name and a value. *)
Definition url_pair (part : string) (p : string * string) : Prop :=
  exists rk rv, without "=" rk /\ (part = rk ++ "=" ++ rv \/ part = rk /\ rv = "") /\ url_text rk (fst p) /\ url_text rv (snd p).
(** The parts are separated by [&]; empty ones do not count. *)
Definition query (q : string) (l : list (string * string)) : Prop :=
  exists parts kept, pieces "&" q parts /\ selects (fun s => s <> "") parts kept /\ Forall2 url_pair kept l.

(** ** Arguments *)
Definition values_of (k : string) (l : list (string * string)) : list string :=
  map snd (filter (fun p => String.eqb (fst p) k) l).
Definition reads_text (v : string) (s : string) : Prop := v = s.
Definition reads_u32 (v : string) (n : N) : Prop :=
  exists d, (v = d \/ v = "+" ++ d) /\ read_dec d = Some n /\ (n < 2 ^ 32)%N.
Definition reads_bool (v : string) (b : bool) : Prop := v = if b then "true" else "false".
Definition reads_unit (v : string) (d : dimension) : Prop := In (v, d) [("time", Time); ("weight", Time); ("proof", Proof_size)].
Definition reads_method (v : string) (m : CompareM.method) : Prop :=
  In (v, m) [("base", Base); ("guess-worst", GuessWorst); ("exact-worst", ExactWorst); ("exact-asymptotic", ExactAsymptotic); ("asymptotic", Asymptotic)].
Definition given {A} (reads : string -> A -> Prop) (k : string) (l : list (string * string)) (a : A) : Prop :=
  exists v, values_of k l = [v] /\ reads v a.
Definition optional {A} (reads : string -> A -> Prop) (k : string) (l : list (string * string)) (a : option A) : Prop :=
  match a with Some a => given reads k l a | None => values_of k l = [] end.
(** The pairs have every argument once, and may leave out three. *)
Record describes (l : list (string * string)) (a : web_args) : Prop := {
  d_old : given reads_text "old" l (wa_old a);
  d_new : given reads_text "new" l (wa_new a);
  d_repo : given reads_text "repo" l (wa_repo a);
  d_pattern : given reads_text "path_pattern" l (wa_pattern a);
  d_extrinsic : optional reads_text "extrinsic" l (wa_extrinsic a);
  d_pallet : optional reads_text "pallet" l (wa_pallet a);
  d_ignore : given reads_bool "ignore_errors" l (wa_ignore_errors a);
  d_threshold : given reads_u32 "threshold" l (wa_threshold a);
  d_unit : given reads_unit "unit" l (wa_unit a);
  d_pull : optional reads_bool "git_pull" l (wa_pull a);
  d_method : given reads_method "method" l (wa_method a) }.
(** The value [v] for the field [k] is in [a]. *)
Record has_field (k v : string) (a : web_args) : Prop := {
  hf_old : k = "old" -> wa_old a = v;
  hf_new : k = "new" -> wa_new a = v;
  hf_repo : k = "repo" -> wa_repo a = v;
  hf_pattern : k = "path_pattern" -> wa_pattern a = v;
  hf_extrinsic : k = "extrinsic" -> wa_extrinsic a = Some v;
  hf_pallet : k = "pallet" -> wa_pallet a = Some v;
  hf_ignore : k = "ignore_errors" -> reads_bool v (wa_ignore_errors a);
  hf_threshold : k = "threshold" -> reads_u32 v (wa_threshold a);
  hf_unit : k = "unit" -> reads_unit v (wa_unit a);
  hf_pull : k = "git_pull" -> exists b, wa_pull a = Some b /\ reads_bool v b;
  hf_method : k = "method" -> reads_method v (wa_method a) }.
(** The arguments are the same but for the field [k]. *)
Record same_but (k : string) (a b : web_args) : Prop := {
  sb_old : k <> "old" -> wa_old a = wa_old b;
  sb_new : k <> "new" -> wa_new a = wa_new b;
  sb_repo : k <> "repo" -> wa_repo a = wa_repo b;
  sb_pattern : k <> "path_pattern" -> wa_pattern a = wa_pattern b;
  sb_extrinsic : k <> "extrinsic" -> wa_extrinsic a = wa_extrinsic b;
  sb_pallet : k <> "pallet" -> wa_pallet a = wa_pallet b;
  sb_ignore : k <> "ignore_errors" -> wa_ignore_errors a = wa_ignore_errors b;
  sb_threshold : k <> "threshold" -> wa_threshold a = wa_threshold b;
  sb_unit : k <> "unit" -> wa_unit a = wa_unit b;
  sb_pull : k <> "git_pull" -> wa_pull a = wa_pull b;
  sb_method : k <> "method" -> wa_method a = wa_method b }.
(** The field [k] can have the value [v]. *)
Definition fits (k v : string) : Prop :=
  (k = "ignore_errors" \/ k = "git_pull" -> exists b, reads_bool v b) /\
  (k = "threshold" -> exists n, reads_u32 v n) /\ (k = "unit" -> exists d, reads_unit v d) /\ (k = "method" -> exists m, reads_method v m).

(** Characters that mean something in a link. *)
Definition link_chars : list ascii := ["&"; "#"; "+"; "%"; "009"; "010"; "013"]%char.

(** The arguments of a comparison that is started with a click. *)
Definition root_args (repo first second pattern : string) : web_args :=
  {| wa_old := first; wa_new := second; wa_repo := repo; wa_pattern := pattern; wa_extrinsic := None; wa_pallet := None; wa_ignore_errors := true;
     wa_threshold := 10; wa_unit := Time; wa_pull := None; wa_method := Asymptotic |}.

(** ** Options of a selection *)
(** How a browser reads the value of an attribute, with or without quotes. *)
Definition attr_value (raw v : string) : Prop :=
  (exists r, raw = """" ++ r ++ """" /\ only (fun c => c <> """"%char) r /\ decodes r v) \/
  (raw <> "" /\ only (fun c => ~ blank c /\ c <> ">"%char /\ c <> """"%char /\ c <> "'"%char) raw /\ decodes raw v).
(** [s] is an option with value [v] and text [t]; [sel] says if it is selected. *)
Definition is_option (s v : string) (sel : bool) (t : string) : Prop :=
  exists raw mark body, attr_value raw v /\ only (fun c => c <> "<"%char) body /\ decodes body t /\
    (if sel then mark = " selected" else mark = " " \/ mark = "") /\ s = "<option value=" ++ raw ++ mark ++ ">" ++ body ++ "</option>".
(** The page has this selection. *)
Definition has_select (page id : string) (options : list string) : Prop :=
  occurs ("<select id=""" ++ id ++ """>" ++ String.concat "" options ++ "</select>") page.
(** The page has this text field. *)
Definition has_input (page id v : string) : Prop :=
  exists r, mild r /\ decodes r v /\ occurs ("<input id=""" ++ id ++ """ type=""text"" value=""" ++ r ++ """>") page.

(** ** Start *)
(** The organization in the URL of a repository on GitHub; see C61. *)
Definition github_org (url o : string) : Prop :=
  o <> "" /\ without "/" o /\ exists c rest, c <> newline /\ url = "https://github" ++ String c ("com/" ++ o ++ String "/" rest).
(** git tells the organization of the repository in a directory. *)
Definition has_org (remote : fpath -> cmd_result * string) (p : fpath) (o : string) : Prop :=
  exists e url, remote p = (Exited true e, url) /\ github_org url o.

(** ** Answers *)
(** The files of the weights in the one repository that the pages know. *)
Definition sdk_files : string := String.concat ","
  ["substrate/frame/**/src/weights.rs"; "polkadot/runtime/*/src/weights/**/*.rs"; "polkadot/bridges/modules/*/src/weights.rs";
   "cumulus/**/weights/*.rs"; "cumulus/**/weights/xcm/*.rs"; "cumulus/**/src/weights.rs"].
(** Entities in the two versions and in the pattern are replaced. *)
Record decoded (entities : string -> string) (a b : web_args) : Prop := {
  dc_old : wa_old b = entities (wa_old a);
  dc_new : wa_new b = entities (wa_new a);
  dc_pattern : wa_pattern b = entities (wa_pattern a);
  dc_repo : wa_repo b = wa_repo a;
  dc_extrinsic : wa_extrinsic b = wa_extrinsic a;
  dc_pallet : wa_pallet b = wa_pallet a;
  dc_ignore : wa_ignore_errors b = wa_ignore_errors a;
  dc_threshold : wa_threshold b = wa_threshold a;
  dc_unit : wa_unit b = wa_unit a;
  dc_pull : wa_pull b = wa_pull a;
  dc_method : wa_method b = wa_method a }.
(** The query asks for the comparison [a] in a repository of the organization [org]. *)
Definition asks (entities : string -> string) (orgs : list (string * string)) (q : string) (a : web_args) (org : string) : Prop :=
  exists l b, query q l /\ describes l b /\ decoded entities b a /\ In (wa_repo a, org) orgs.
(** A page that shows [msg]. *)
Definition error_shown (msg page : string) : Prop :=
  exists r, mild r /\ decodes r msg /\ page = "<h1>Error</h1><h2>" ++ r ++ "</h2>".
