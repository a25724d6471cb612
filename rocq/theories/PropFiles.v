(** Properties C39, C43, C44 and C45: choosing and reading files. *)
From Coq Require Import List String Ascii Arith NArith Bool Permutation Sorted.
From Coq Require Floats.SpecFloat.
From Verif Require Import Base ScopeM TermM F64 CompareM RowsM SpecRows SynM ParseM SpecParse StorageM SpecStorage FilesM SpecFiles.
From Verif Require ParseP3 FilesP RowsP.
Import ListNotations.
Local Open Scope string_scope.

(** ** C39: [ignore_errors] only drops the files that cannot be parsed. [parse] is
    the parser for one file: [parse_file disk] or [parse_file_in_repo disk repo]. *)
Theorem C39_all : forall parse ps l, parse_all parse [] ps = Ok l <-> all_of parse ps l.
Proof. exact FilesP.parse_all_ok. Qed.
Print Assumptions C39_all.
Theorem C39_first_error : forall parse ps, (forall l, parse_all parse [] ps <> Ok l) ->
  exists p, first_file (fun p => is_ok (parse p) = false) ps p /\
    match parse p with
    | Err e => parse_all parse [] ps = Err e
    | Panic w => parse_all parse [] ps = Panic w
    | Diverge => parse_all parse [] ps = Diverge
    | Ok _ => False
    end.
Proof. exact FilesP.parse_all_fail. Qed.
Print Assumptions C39_first_error.
Theorem C39_ignore : forall parse ps l, try_parse_all parse [] ps = Ok l <-> gathers parse ps l.
Proof. exact FilesP.try_all_ok. Qed.
Print Assumptions C39_ignore.
(** Only a panic stops it. *)
Theorem C39_ignore_stops : forall parse ps,
  (exists l, try_parse_all parse [] ps = Ok l) \/
  exists p, first_file (fun p => ~ returns (parse p)) ps p /\ try_parse_all parse [] ps = parse p.
Proof. exact FilesP.try_all_stops. Qed.
Print Assumptions C39_ignore_stops.
Theorem C39_agree : forall parse ps l, all_of parse ps l -> gathers parse ps l.
Proof. exact FilesP.all_gathers. Qed.
Print Assumptions C39_agree.
(** The file is found, it is Rust, and it is parsed under its name. *)
Theorem C39_file : forall disk p l, parse_file disk p = Ok l <->
  exists f n, disk p = inr f /\ named p n /\ parse_content n f = Ok l.
Proof. exact FilesP.file_ok. Qed.
Print Assumptions C39_file.
Theorem C39_file_in_repo : forall disk repo p l, parse_file_in_repo disk repo p = Ok l <->
  exists f n, disk p = inr f /\ strip RepoRelative repo p = Ok n /\ parse_content n f = Ok l.
Proof. exact FilesP.file_in_repo_ok. Qed.
Print Assumptions C39_file_in_repo.

Definition ex_src (d : N) : file := Some [IImpl (TTuple 0) [IFn (mk_method [] "f" (RType (TPath (mk_path false ["Weight"])))
  [SExpr (ex_call ["Weight"; "from_parts"] [ex_int d; ex_int 0])])]].
Definition ex_disk (p : fpath) : string + file :=
  match p with
  | [CName "a"; CName "x.rs"] => inr (ex_src 10)
  | [CName "b"; CName "x.rs"] => inr (ex_src 77)
  | [CName "bad.rs"] => inr None
  | _ => inl "No such file or directory"
  end.
Definition ex_a : fpath := [CName "a"; CName "x.rs"].
Definition ex_b : fpath := [CName "b"; CName "x.rs"].
Definition ex_e (pallet : string) (d : N) : cextrinsic := mk_ext "f" pallet (wt d 0) None.
Example C39_ex :
  parse_files ex_disk [ex_a; ex_b] = Ok [ex_e "x.rs" 10; ex_e "x.rs" 77] /\
  parse_files ex_disk [ex_a; [CName "bad.rs"]; ex_b; [CName "missing"]] = Err "bad.rs: syn refused to parse content" /\
  try_parse_files ex_disk [ex_a; [CName "bad.rs"]; ex_b; [CName "missing"]] = Ok [ex_e "x.rs" 10; ex_e "x.rs" 77] /\
  try_parse_files_in_repo ex_disk [CName "a"] [ex_a; [CName "bad.rs"]; ex_b] = Ok [ex_e "x.rs" 10; ex_e "b/x.rs" 77].
Proof. vm_compute. repeat split; reflexivity. Qed.

(** ** C43: the kind of a file. *)
Theorem C43_kind : forall disk repo p items,
  disk p = inr (Some items) -> Forall harmless_item items -> proper_file items ->
  exists r, try_parse_file disk repo p = Ok r /\ exists name, strip RepoRelative repo p = Ok name /\
  match r with
  | Some (PPallet l) => first_usable (ParseP3.entry name) items l
  | Some (PStorage w) => (forall i ws, In i items -> ~ usable (ParseP3.entry name) i ws) /\
      first_reading db_reading (flat_map consts items) w
  | Some (POverhead o) => (forall i ws, In i items -> ~ usable (ParseP3.entry name) i ws) /\
      (forall c x, In c (flat_map consts items) -> ~ db_reading c x) /\ first_reading overhead_reading (flat_map consts items) o
  | None => (forall i ws, In i items -> ~ usable (ParseP3.entry name) i ws) /\
      (forall c x, In c (flat_map consts items) -> ~ db_reading c x) /\ (forall c x, In c (flat_map consts items) -> ~ overhead_reading c x)
  end.
Proof. exact FilesP.kind_lemma. Qed.
Print Assumptions C43_kind.
(** For all files, also those on which a parser panics. *)
Theorem C43_priority : forall disk repo p r, try_parse_file disk repo p = Ok r <->
  match r with
  | Some (PPallet l) => parse_file_in_repo disk repo p = Ok l
  | Some (PStorage w) => is_err (parse_file_in_repo disk repo p) = true /\ storage_file disk p = Ok w
  | Some (POverhead o) => is_err (parse_file_in_repo disk repo p) = true /\ is_err (storage_file disk p) = true /\ overhead_file disk p = Ok o
  | None => is_err (parse_file_in_repo disk repo p) = true /\ is_err (storage_file disk p) = true /\ is_err (overhead_file disk p) = true
  end.
Proof. exact FilesP.priority_lemma. Qed.
Print Assumptions C43_priority.
Theorem C43_unreadable : forall disk repo p,
  (exists e, disk p = inl e) \/ disk p = inr None -> try_parse_file disk repo p = Ok None.
Proof. exact FilesP.unreadable_lemma. Qed.
Print Assumptions C43_unreadable.

(** A pallet before a storage file before an overhead file, regardless of the order in the file. *)
Example C43_ex :
  let impl := IImpl (TTuple 0) [IFn (mk_method [] "f" (RType (TPath (mk_path false ["Weight"]))) [SExpr (ex_call ["Weight"; "zero"] [])])] in
  let disk items (p : fpath) : string + file := inr (Some items) in
  try_parse_file (disk [ex_mac ex_block; ex_mac ex_rocks; impl]) [] [CName "x"] = Ok (Some (PPallet [mk_ext "f" "x" (wt 0 0) None])) /\
  (exists w, try_parse_file (disk [ex_mac ex_block; ex_mac ex_rocks]) [] [CName "x"] = Ok (Some (PStorage w))) /\
  (exists o, try_parse_file (disk [ex_mac ex_block]) [] [CName "x"] = Ok (Some (POverhead o))) /\
  try_parse_file (disk [IOther]) [] [CName "x"] = Ok None /\
  Forall harmless_item [ex_mac ex_block; ex_mac ex_rocks; impl] /\ proper_file [ex_mac ex_block; ex_mac ex_rocks; impl].
Proof.
  intros impl disk. split; [vm_compute; reflexivity|].
  split; [exists (mk_db Rocks (mk_rws (Mul (Scalar 25000) (Var "constants::WEIGHT_PER_NANOS")) (Mul (Scalar 100000) (Var "constants::WEIGHT_PER_NANOS")))); vm_compute; reflexivity|].
  split; [exists (BlockExecution (Mul (wt 5481991 0) (Var "WEIGHT_PER_NANOS"))); vm_compute; reflexivity|].
  split; [vm_compute; reflexivity|]. split; [|split].
  - repeat constructor; intros t items m E; try discriminate E. injection E as <- <-. cbn. intros [<-|[]] s [= <-]. eexists. split; [reflexivity|].
    intros l Hl. cbn in Hl. contradiction.
  - repeat constructor; cbn; discriminate.
  - intros k Hk l Hl. cbn in Hk. destruct Hk as [<-|[<-|[]]]; cbn in Hl; intuition (subst; eexists; split; [reflexivity|vm_compute; reflexivity]).
Qed.

(** ** C44: names of files. Within a repository, different files have different names. *)
Theorem C44_injective : forall repo p q rp rq, below repo p rp -> below repo q rq ->
  strip RepoRelative repo p = strip RepoRelative repo q -> p = q.
Proof. exact FilesP.relative_inj. Qed.
Print Assumptions C44_injective.
Theorem C44_restore : forall repo p rest s, below repo p rest -> repo <> [] -> strip RepoRelative repo p = Ok s ->
  path_text p = (match repo with [CRoot] => "" | _ => path_text repo end) ++ "/" ++ s.
Proof. exact FilesP.relative_restore. Qed.
Print Assumptions C44_restore.
Theorem C44_outside : forall repo p, (forall rest, p <> (repo ++ rest)%list) -> strip RepoRelative repo p = Ok (path_text p).
Proof. exact FilesP.relative_outside. Qed.
Print Assumptions C44_outside.
(** So no entry hides another one, if no file has two functions of the same name. *)
Theorem C44_distinct : forall disk repo ps l, NoDup ps -> (forall p, In p ps -> exists rest, below repo p rest) ->
  (forall p xs, In p ps -> parse_file_in_repo disk repo p = Ok xs -> NoDup (map ename xs)) ->
  parse_files_in_repo disk repo ps = Ok l -> NoDup (map ext_key l).
Proof. exact FilesP.distinct_lemma. Qed.
Print Assumptions C44_distinct.
(** [compare files] only looks at the last component. *)
Theorem C44_file_name : forall repo p n, named p n -> strip FileName repo p = Ok n.
Proof. exact FilesP.name_strip. Qed.
Print Assumptions C44_file_name.
(** So of two files of the same name and with the same functions, the later one has no effect. *)
Theorem C44_collision : forall disk ps1 p ps2 q ps3 n l xs ys, named p n -> named q n ->
  parse_file disk p = Ok xs -> parse_file disk q = Ok ys -> incl (map ename ys) (map ename xs) ->
  parse_files disk (ps1 ++ p :: ps2 ++ q :: ps3)%list = Ok l ->
  exists l', parse_files disk (ps1 ++ p :: ps2 ++ ps3)%list = Ok l' /\
    forall m ords rx other ps f,
      compare_files m ords rx l other ps f = compare_files m ords rx l' other ps f /\
      compare_files m ords rx other l ps f = compare_files m ords rx other l' ps f.
Proof.
  intros disk ps1 p ps2 q ps3 n l xs ys Np Nq Hp Hq I H.
  destruct (FilesP.collision_lemma disk ps1 p ps2 q ps3 n l xs ys Np Nq Hp Hq I H) as (l' & H' & S).
  exists l'. split; [exact H'|]. intros m ords rx other ps f. split; apply RowsP.duplicates_lemma; try exact S; intros k o; reflexivity.
Qed.
Print Assumptions C44_collision.
(** The weight of b/x.rs changed from 77 to 7700, but the table says that nothing changed. *)
Theorem C44_lost_refuted : exists disk disk' olds news c,
  parse_files disk [ex_a; ex_b] = Ok olds /\ parse_files disk' [ex_a; ex_b] = Ok news /\
  parse_file disk ex_b = Ok [ex_e "x.rs" 77] /\ parse_file disk' ex_b = Ok [ex_e "x.rs" 7700] /\
  compare_files Checked (fun _ l => l) RowsP.rx_all olds news {| p_method := GuessWorst; p_unit := Time |}
    {| f_threshold := f64_of_N 5; f_change := None; f_extrinsic := None; f_pallet := None |} =
    Ok [mk_row "f" "x.rs" (DChanged c)] /\ tc_change c = Unchanged.
Proof.
  exists ex_disk, (fun p => if path_eqb p ex_b then inr (ex_src 7700) else ex_disk p), [ex_e "x.rs" 10; ex_e "x.rs" 77],
    [ex_e "x.rs" 10; ex_e "x.rs" 7700],
    (mk_change (Some (Value 10%N)) (Some 10%N) (Some (Value 10%N)) (Some 10%N) [("READ", Scalar 25000000%N); ("WRITE", Scalar 100000000%N)]
       (SpecFloat.S754_zero false) Unchanged GuessWorst).
  repeat split; vm_compute; reflexivity.
Qed.
Print Assumptions C44_lost_refuted.

Example C44_ex :
  below [CRoot; CName "repo"] [CRoot; CName "repo"; CName "a"; CName "x.rs"] ex_a /\
  strip RepoRelative [CRoot; CName "repo"] [CRoot; CName "repo"; CName "a"; CName "x.rs"] = Ok "a/x.rs" /\
  strip FileName [CCur] [CRoot; CName "repo"; CName "a"; CName "x.rs"] = Ok "x.rs" /\ named ex_a "x.rs" /\ named ex_b "x.rs".
Proof.
  repeat split; try reflexivity; try (repeat constructor; cbn; try discriminate; repeat split; discriminate); try discriminate.
  - exists [CName "a"]. reflexivity.
  - exists [CName "b"]. reflexivity.
Qed.

(** ** C45: [list_files] returns the sorted set of all matching files. *)
Theorem C45_result : forall glob base s parts mx l, parts_of s parts -> list_files glob base s mx = Ok l ->
  exists found, Forall2 (lists glob base) parts found /\ StronglySorted path_before l /\
    (forall p, In p l <-> (exists fs, In fs found /\ In p fs) /\ ~ named p "mod.rs") /\ (List.length l <= mx)%nat.
Proof. exact FilesP.list_files_ok. Qed.
Print Assumptions C45_result.
(** It fails exactly if a part is no pattern, a directory cannot be read, or there are too many matches. *)
Theorem C45_fails : forall glob base s parts mx, parts_of s parts ->
  returns (list_files glob base s mx) /\
  (is_err (list_files glob base s mx) = true <->
   ~ exists found n, Forall2 (lists glob base) parts found /\ counted (List.concat found) n /\ (n <= mx)%nat).
Proof. exact FilesP.list_files_fails. Qed.
Print Assumptions C45_fails.
(** Every text has parts; their order does not matter. *)
Theorem C45_parts : forall s, exists parts, parts_of s parts /\ forall parts', parts_of s parts' -> parts' = parts.
Proof. intros s. exists (split_char "," s). split; [apply FilesP.split_parts|]. intros parts' H. exact (FilesP.parts_fun _ _ _ H (FilesP.split_parts s)). Qed.
Print Assumptions C45_parts.
Theorem C45_order : forall glob base s s' parts parts' mx, parts_of s parts -> parts_of s' parts' -> Permutation parts parts' ->
  same_result (list_files glob base s mx) (list_files glob base s' mx).
Proof. exact FilesP.list_files_order. Qed.
Print Assumptions C45_order.
(** The limit counts files matched twice, so it can reject a list of permitted length. *)
Theorem C45_limit_refuted : exists glob base s mx fs,
  list_files glob base s mx = Err "Found too many files" /\
  Forall2 (lists glob base) ["a/*"; "*/x.rs"] [fs; fs] /\ parts_of s ["a/*"; "*/x.rs"] /\ (List.length fs <= mx)%nat.
Proof.
  exists (fun _ => Some [Some ex_a]), [CName "r"], "a/*,*/x.rs", 1%nat, [ex_a].
  repeat split; try (repeat constructor; cbn; repeat split; discriminate); try (vm_compute; reflexivity).
Qed.
Print Assumptions C45_limit_refuted.

Example C45_ex :
  let glob s := if String.eqb s "r/*" then Some [Some ex_b; Some [CName "mod.rs"]; Some ex_a] else if String.eqb s "r/" then Some [] else Some [Some ex_b] in
  list_files glob [CName "r"] "b/*,*," 3 = Ok [ex_a; ex_b] /\ list_files glob [CName "r"] "b/*,*," 2 = Err "Found too many files" /\
  parts_of "b/*,*," ["b/*"; "*"; ""].
Proof. repeat split; try (vm_compute; reflexivity); try discriminate. repeat constructor; cbn; repeat split; discriminate. Qed.
