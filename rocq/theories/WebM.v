(** Model of the web server: web/src/main.rs:60-93, 211-324, 336-363, 386-420, web/src/git.rs:9-25. *)
From Coq Require Import List String Ascii Arith NArith ZArith Bool Floats.SpecFloat.
From Verif Require Import Base ScopeM TermM F64 CompareM RowsM FmtM SynM ParseM StorageM FilesM GitM CliM.
Import ListNotations.
Local Open Scope string_scope.

(** ** Text *)

Definition cr : ascii := "013".
(** Without a carriage return at the end. *)
Fixpoint strip_cr (s : string) : string :=
  match s with
  | "" => ""
  | String c s' => if Ascii.eqb c cr && String.eqb s' "" then "" else String c (strip_cr s')
  end.
(** [str::lines]: the parts in front of line ends, without one carriage return at the end, and the rest,
    if there is one. [cur] is the current line. *)
Fixpoint lines_from (cur s : string) : list string :=
  match s with
  | "" => if String.eqb cur "" then [] else [cur]
  | String c s' => if Ascii.eqb c newline then strip_cr cur :: lines_from "" s' else lines_from (cur ++ String c "") s'
  end.
Definition lines (s : string) : list string := lines_from "" s.

(** [str::contains] of a character. *)
Fixpoint has_char (c : ascii) (s : string) : bool :=
  match s with "" => false | String a s' => Ascii.eqb a c || has_char c s' end.

(** [str::replace(pat, "")]: the occurrences from left to right that do not overlap. [skip] characters
    of an occurrence are still to be dropped. *)
Fixpoint remove_from (pat : string) (skip : nat) (s : string) : string :=
  match s with
  | "" => ""
  | String c s' =>
      match skip with
      | S k => remove_from pat k s'
      | O => if String.prefix pat s then remove_from pat (String.length pat - 1) s' else String c (remove_from pat 0 s')
      end
  end.
Definition remove (pat s : string) : string := remove_from pat 0 s.

(** [str::split_whitespace], for the white space of ASCII. *)
Definition is_space (c : ascii) : bool := let n := nat_of_ascii c in (Nat.leb 9 n && Nat.leb n 13) || Nat.eqb n 32.
Fixpoint words_from (cur : string) (s : string) : list string :=
  let flush := if String.eqb cur "" then [] else [cur] in
  match s with
  | "" => flush
  | String c s' => if is_space c then (flush ++ words_from "" s')%list else words_from (cur ++ String c "") s'
  end.
Definition words (s : string) : list string := words_from "" s.

(** [s[..12]]: the end must not be inside of a character (a byte 10xxxxxx continues one). *)
Definition continues (c : ascii) : bool := let n := nat_of_ascii c in Nat.leb 128 n && Nat.ltb n 192.
Definition take12 (s : string) : outcome string :=
  if Nat.ltb (String.length s) 12 then Panic "byte index 12 is out of bounds"
  else match String.get 12 s with
       | Some c => if continues c then Panic "byte index 12 is not a char boundary" else Ok (substring 0 12 s)
       | None => Ok (substring 0 12 s)
       end.

(** web/src/main.rs:259-277. [from_utf8_lossy] is left out: the output is UTF-8. *)
Definition branch_entry (l : string) : outcome (string * string) :=
  match words l with
  | h :: n :: _ => let* h12 := take12 h in Ok (n, h12)
  | _ => Panic "index out of bounds"
  end.
Definition branch_list (stdout : string) : outcome (list (string * string)) :=
  mapM branch_entry
    (map (remove "refs/tags/") (map (remove "refs/heads/")
      (filter (fun l => negb (has_char "{" l) && negb (has_char "^" l)) (lines stdout)))).

(** web/src/main.rs:336-363: the status of the answer and its body. *)
Definition version_check (current : string) (is : option string) : nat * string :=
  match is with
  | Some version =>
      if String.eqb current version || String.eqb (replace_char "+" " " current) version
      then (200%nat, "Version check passed")
      else (500%nat, "Version check failed: '" ++ current ++ "' vs '" ++ version ++ "'")
  | None => (200%nat, current)
  end.

(** web/src/git.rs:9-25: [^https://github.com/([^/]+)/]; the dot matches every character but a line end, here
    one byte. *)
Fixpoint upto_slash (s : string) : option string :=
  match s with
  | "" => None
  | String c s' => if Ascii.eqb c "/" then Some "" else match upto_slash s' with Some t => Some (String c t) | None => None end
  end.
Definition origin_org (url : string) : option string :=
  match String.get 14 url with
  | Some c =>
      if negb (Ascii.eqb c newline) && String.prefix "https://github" url && String.prefix "com/" (substring 15 (String.length url) url)
      then match upto_slash (substring 19 (String.length url) url) with Some "" => None | o => o end
      else None
  | None => None
  end.

(** ** The comparison *)

(** web/src/main.rs:60-73 *)
Record web_args := {
  wa_old : string; wa_new : string; wa_repo : string; wa_pattern : string; wa_extrinsic : option string; wa_pallet : option string;
  wa_ignore_errors : bool; wa_threshold : N; wa_unit : dimension; wa_pull : option bool; wa_method : CompareM.method }.

(** [str::trim], for the white space of ASCII. *)
Fixpoint trim_start (s : string) : string :=
  match s with
  | "" => ""
  | String c s' => if is_space c then trim_start s' else s
  end.
Fixpoint trim_end (s : string) : string :=
  match s with
  | "" => ""
  | String c s' => match trim_end s' with
                   | "" => if is_space c then "" else String c ""
                   | t => String c t
                   end
  end.
Definition trim (s : string) : string := trim_end (trim_start s).

(** web/src/main.rs:396-411 *)
Definition web_params (a : web_args) : cparams := {| p_method := wa_method a; p_unit := wa_unit a |}.
Definition web_git (a : web_args) : gparams :=
  {| g_ignore_errors := wa_ignore_errors a; g_pull := match wa_pull a with Some b => b | None => true end; g_force := true; g_offline := false |}.
Definition web_filter (a : web_args) : fparams :=
  {| f_threshold := f64_of_N (wa_threshold a); f_change := None; f_extrinsic := wa_extrinsic a; f_pallet := wa_pallet a |}.

(** web/src/main.rs:414 *)
Definition web_max_files : nat := N.to_nat 6000.
(** web/src/main.rs:386-420 without the cache and the lock. [path] is the directory of the repository. *)
Inductive do_compare {W} (git : W -> list string -> W * cmd_result) (glob : W -> string -> option (list (option fpath)))
    (disk : W -> fpath -> string + file) (m : mode) (ords : string * string -> list string -> list string) (rx : regex_engine)
    (path : fpath) (a : web_args) (w : W) : outcome (list row) -> Prop :=
| dc_ok rows sorted :
    fst (fst (compare_commits git glob disk m ords rx path (trim (wa_old a)) (trim (wa_new a)) (web_params a) (web_git a) (web_filter a)
      (trim (wa_pattern a)) web_max_files w)) = Ok rows ->
    sort_changes (filter_changes rows (web_filter a)) sorted -> do_compare git glob disk m ords rx path a w (Ok sorted)
| dc_err e :
    fst (fst (compare_commits git glob disk m ords rx path (trim (wa_old a)) (trim (wa_new a)) (web_params a) (web_git a) (web_filter a)
      (trim (wa_pattern a)) web_max_files w)) = Err e -> do_compare git glob disk m ords rx path a w (Err e)
| dc_panic p :
    fst (fst (compare_commits git glob disk m ords rx path (trim (wa_old a)) (trim (wa_new a)) (web_params a) (web_git a) (web_filter a)
      (trim (wa_pattern a)) web_max_files w)) = Panic p -> do_compare git glob disk m ords rx path a w (Panic p).
