(** Model of the choice and reading of files: core/src/parse/mod.rs:44-97,
    core/src/parse/pallet.rs:61-107 and core/src/lib.rs:304-330. *)
From Coq Require Import List String Ascii Arith NArith Bool.
From Verif Require Import Base ScopeM TermM CompareM RowsM SynM ParseM StorageM.
Import ListNotations.
Local Open Scope string_scope.

(** ** Paths

    [std::path::Component] on Unix. A path is the list of its components, as
    [Path::components] yields them; the text of a path is that of its normal form
    (no repeated or trailing separators), which is what [glob] returns. Names that are
    not UTF-8 are left out. *)
Inductive comp := CRoot | CCur | CUp | CName (s : string).
Definition fpath := list comp.
Definition comp_rank (c : comp) : N :=
  match c with CRoot => 0 | CCur => 1 | CUp => 2 | CName _ => 3 end.
(** The derived [Ord] of [Component], and [Ord] of [Path]: by components. *)
Definition comp_cmp (a b : comp) : comparison :=
  match a, b with
  | CName s, CName t => str_cmp s t
  | _, _ => N.compare (comp_rank a) (comp_rank b)
  end.
Definition path_cmp : fpath -> fpath -> comparison := list_cmp comp_cmp.
Definition comp_eqb (a b : comp) : bool := match comp_cmp a b with Eq => true | _ => false end.
Definition path_eqb (a b : fpath) : bool := match path_cmp a b with Eq => true | _ => false end.

Definition comp_text (c : comp) : string :=
  match c with CRoot => "" | CCur => "." | CUp => ".." | CName s => s end.
(** [Path::display] and [to_string_lossy]. *)
Definition path_text (p : fpath) : string :=
  match p with
  | [CRoot] => "/"
  | _ => String.concat "/" (map comp_text p)
  end.
(** [Path::file_name] *)
Definition file_name (p : fpath) : option string :=
  match rev p with CName s :: _ => Some s | _ => None end.
(** [Path::strip_prefix] *)
Fixpoint strip_prefix (base p : fpath) : option fpath :=
  match base, p with
  | [], p => Some p
  | a :: base', b :: p' => if comp_eqb a b then strip_prefix base' p' else None
  | _ :: _, [] => None
  end.

(** core/src/parse/mod.rs:36-51 *)
Inductive stripping := FileName | RepoRelative.
Definition strip (s : stripping) (repo path : fpath) : outcome string :=
  match s with
  | FileName => match file_name path with
                | Some n => Ok n
                | None => Panic "called `Option::unwrap()` on a `None` value"
                end
  | RepoRelative => Ok (path_text (match strip_prefix repo path with Some p => p | None => path end))
  end.
(** core/src/parse/mod.rs:53-68 *)
Definition stripping_variants : list string := ["file_name"; "repo_relative"].
Definition stripping_of_str (s : string) : outcome stripping :=
  if String.eqb s "file_name" then Ok FileName
  else if String.eqb s "repo_relative" then Ok RepoRelative
  else Err ("Unknown stripping: " ++ s).

(** ** Reading files *)
Section Files.
  (** What is on the disk: the error of [read_file] (core/src/parse/mod.rs:87-97), or the
      file as parsed by [syn] ([None] if it is not Rust). *)
  Variable disk : fpath -> string + file.

  Definition read_file (p : fpath) : outcome file :=
    match disk p with
    | inl e => Err (path_text p ++ ": " ++ e)
    | inr f => Ok f
    end.
  (** core/src/parse/pallet.rs:61-65 *)
  Definition parse_file_in_repo (repo path : fpath) : outcome (list cextrinsic) :=
    let* content := read_file path in
    let* name := strip RepoRelative repo path in
    map_err (fun e => path_text path ++ ": " ++ e) (parse_content name content).
  (** core/src/parse/pallet.rs:67-71 *)
  Definition parse_file (path : fpath) : outcome (list cextrinsic) :=
    let* content := read_file path in
    let* name := strip FileName [CCur] path in
    map_err (fun e => path_text path ++ ": " ++ e) (parse_content name content).

  (** core/src/parse/pallet.rs:73-87: the loop shared by [parse_files] and [parse_files_in_repo]. *)
  Fixpoint parse_all (parse : fpath -> outcome (list cextrinsic)) (res : list cextrinsic) (paths : list fpath) : outcome (list cextrinsic) :=
    match paths with
    | [] => Ok res
    | p :: paths' => let* parsed := parse p in parse_all parse (res ++ parsed)%list paths'
    end.
  Definition parse_files_in_repo (repo : fpath) (paths : list fpath) := parse_all (parse_file_in_repo repo) [] paths.
  Definition parse_files (paths : list fpath) := parse_all parse_file [] paths.

  (** core/src/parse/pallet.rs:89-107: the loop shared by [try_parse_files] and [try_parse_files_in_repo]. *)
  Fixpoint try_parse_all (parse : fpath -> outcome (list cextrinsic)) (res : list cextrinsic) (paths : list fpath) : outcome (list cextrinsic) :=
    match paths with
    | [] => Ok res
    | p :: paths' =>
        match parse p with
        | Ok parsed => try_parse_all parse (res ++ parsed)%list paths'
        | Err _ => try_parse_all parse res paths'
        | r => r
        end
    end.
  Definition try_parse_files_in_repo (repo : fpath) (paths : list fpath) := try_parse_all (parse_file_in_repo repo) [] paths.
  Definition try_parse_files (paths : list fpath) := try_parse_all parse_file [] paths.

  (** core/src/parse/mod.rs:17-21 and 70-85 *)
  Inductive parsed_file := PPallet (l : list cextrinsic) | PStorage (w : db_weights) | POverhead (w : overhead).
  (** core/src/parse/storage.rs:59-62 and core/src/parse/overhead.rs:15-18 *)
  Definition storage_file (path : fpath) : outcome db_weights := let* content := read_file path in storage_content content.
  Definition overhead_file (path : fpath) : outcome overhead := let* content := read_file path in overhead_content content.
  Definition try_parse_file (repo path : fpath) : outcome (option parsed_file) :=
    match parse_file_in_repo repo path with
    | Ok parsed => Ok (Some (PPallet parsed))
    | Panic w => Panic w
    | Diverge => Diverge
    | Err _ =>
        match storage_file path with
        | Ok parsed => Ok (Some (PStorage parsed))
        | Panic w => Panic w
        | Diverge => Diverge
        | Err _ =>
            match overhead_file path with
            | Ok parsed => Ok (Some (POverhead parsed))
            | Panic w => Panic w
            | Diverge => Diverge
            | Err _ => Ok None
            end
        end
    end.
End Files.

(** ** Listing files *)

(** [str::split] by a character. *)
Fixpoint split_char (c : ascii) (s : string) : list string :=
  match s with
  | "" => [""]
  | String a s' =>
      if Ascii.eqb a c then "" :: split_char c s'
      else match split_char c s' with
           | p :: ps => String a p :: ps
           | [] => [String a ""]
           end
  end.
(** [Vec::dedup]: all but the first of consecutive equal elements are removed. *)
Fixpoint dedup (l : list fpath) : list fpath :=
  match l with
  | a :: ((b :: _) as l') => if path_eqb a b then dedup l' else a :: dedup l'
  | l => l
  end.
(** [Vec::sort]: insertion sort; every stable sort gives the same result, as the order is total. *)
Definition path_less (a b : fpath) : bool := match path_cmp a b with Lt => true | _ => false end.
Definition sort_paths (l : list fpath) : list fpath := fold_left (insert_tail path_less) l [].
(** [f.ends_with("mod.rs")] *)
Definition is_mod_rs (p : fpath) : bool :=
  match rev p with CName s :: _ => String.eqb s "mod.rs" | _ => false end.

Section List.
  (** [glob::glob]: [None] for an invalid pattern, otherwise the entries; [None]
      for one that could not be read. *)
  Variable glob : string -> option (list (option fpath)).

  (** [collect::<Result<Vec<_>, _>>()] *)
  Fixpoint collect (l : list (option fpath)) : option (list fpath) :=
    match l with
    | [] => Some []
    | Some p :: l' => option_map (cons p) (collect l')
    | None :: _ => None
    end.
  Fixpoint list_loop (base_path : fpath) (max_files : nat) (paths : list fpath) (patterns : list string) : outcome (list fpath) :=
    match patterns with
    | [] => Ok paths
    | regex :: patterns' =>
        match glob (path_text base_path ++ "/" ++ regex) with
        | None => Err "Invalid path pattern"
        | Some files =>
            match collect files with
            | None => Err "Path pattern error"
            | Some files =>
                let files := filter (fun f => negb (is_mod_rs f)) files in
                let paths := (paths ++ files)%list in
                if Nat.ltb max_files (List.length paths) then Err "Found too many files"
                else list_loop base_path max_files paths patterns'
            end
        end
    end.
  (** core/src/lib.rs:304-330. [max_files] is compared as a mathematical number. The texts of errors are shortened. *)
  Definition list_files (base_path : fpath) (regex : string) (max_files : nat) : outcome (list fpath) :=
    let* paths := list_loop base_path max_files [] (split_char "," regex) in
    Ok (dedup (sort_paths paths)).
End List.
