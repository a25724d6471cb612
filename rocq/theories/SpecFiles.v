(** Specification vocabulary for paths and files. *)
From Coq Require Import List String Ascii Arith NArith Bool Permutation.
From Verif Require Import Base ScopeM TermM CompareM RowsM SpecRows SynM ParseM StorageM FilesM.
Import ListNotations.
Local Open Scope string_scope.

(** ** Paths *)
(** [p] is called [n], in some directory. *)
Definition named (p : fpath) (n : string) : Prop := exists dir, p = (dir ++ [CName n])%list.
Fixpoint without (c : ascii) (s : string) : Prop :=
  match s with "" => True | String a s' => a <> c /\ without c s' end.
(** A step within a directory: a name as the system allows them, or upwards. *)
Definition plain (c : comp) : Prop :=
  match c with
  | CName s => s <> "" /\ s <> "." /\ s <> ".." /\ without "/" s
  | CUp => True
  | _ => False
  end.
(** [p] leads from [repo] to [rest]. *)
Definition below (repo p rest : fpath) : Prop := p = (repo ++ rest)%list /\ rest <> [] /\ Forall plain rest.

(** Order of paths: that of the first components that differ. *)
Definition comp_before (a b : comp) : Prop :=
  match a, b with
  | CName s, CName t => str_before s t
  | _, _ => (comp_rank a < comp_rank b)%N
  end.
Definition path_before (p q : fpath) : Prop :=
  (exists c r, q = (p ++ c :: r)%list) \/
  exists d a b p' q', p = (d ++ a :: p')%list /\ q = (d ++ b :: q')%list /\ comp_before a b.

(** ** Parsing several files *)
(** [l] is made of the entries of the files of [ps] that can be parsed. *)
Inductive gathers (parse : fpath -> outcome (list cextrinsic)) : list fpath -> list cextrinsic -> Prop :=
| gather_nil : gathers parse [] []
| gather_ok p ps xs l : parse p = Ok xs -> gathers parse ps l -> gathers parse (p :: ps) (xs ++ l)%list
| gather_err p ps e l : parse p = Err e -> gathers parse ps l -> gathers parse (p :: ps) l.
(** [l] is made of the entries of all files of [ps]. *)
Definition all_of (parse : fpath -> outcome (list cextrinsic)) (ps : list fpath) (l : list cextrinsic) : Prop :=
  exists xss, Forall2 (fun p xs => parse p = Ok xs) ps xss /\ l = List.concat xss.
(** [p] is the first file for which [P]. *)
Definition first_file (P : fpath -> Prop) (ps : list fpath) (p : fpath) : Prop :=
  exists pre post, ps = (pre ++ p :: post)%list /\ P p /\ forall q, In q pre -> ~ P q.

(** ** Listing files *)
(** The parts of [s] between commas. *)
Definition parts_of (s : string) (parts : list string) : Prop :=
  parts <> [] /\ Forall (without ",") parts /\ String.concat "," parts = s.
(** [part] is a valid pattern, and the files it matches can all be read. *)
Definition lists (glob : string -> option (list (option fpath))) (base : fpath) (part : string) (files : list fpath) : Prop :=
  glob (append (path_text base) (append "/" part)) = Some (map Some files).
(** The number of files that are not called mod.rs, with multiplicity. *)
Inductive counted : list fpath -> nat -> Prop :=
| counted_nil : counted [] 0
| counted_mod p l n : named p "mod.rs" -> counted l n -> counted (p :: l) n
| counted_file p l n : ~ named p "mod.rs" -> counted l n -> counted (p :: l) (S n).
(** Equal up to the text of an error. *)
Definition same_result {A} (a b : outcome A) : Prop :=
  a = b \/ is_err a = true /\ is_err b = true.
