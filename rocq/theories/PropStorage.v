(** Properties C41, C42 and C85: files of storage weights and of overhead weights. *)
From Coq Require Import List String Ascii NArith Bool.
From Verif Require Import Base ScopeM TermM SpecTerm SpecChrom CompareM SynM ParseM StorageM SpecParse SpecStorage SpecNanos.
From Verif Require StorageP StorageP2 StorageP3.
Import ListNotations.
Local Open Scope string_scope.

(** ** C41: the storage parser returns the equations of the first constant that has some,
    it fails only if there is none or the text is not Rust, and it never panics on integer literals below 2^128. *)
Theorem C41_storage : forall f, (forall items, f = Some items -> proper_file items) ->
  (forall x, storage_content f = Ok x -> exists items, f = Some items /\ first_reading db_reading (flat_map consts items) x) /\
  (is_err (storage_content f) = true <-> forall items c x, f = Some items -> In c (flat_map consts items) -> ~ db_reading c x) /\
  returns (storage_content f).
Proof. exact StorageP3.storage_file_lemma. Qed.
Print Assumptions C41_storage.

(** The constants of both templates: nested in a module, fields exchanged, after unrelated items. *)
Example C41_ex :
  let c := mk_const "ParityDbWeight" (TPath (mk_path false ["RuntimeDbWeight"]))
    (EStruct (mk_path false ["RuntimeDbWeight"])
       [(Some "write", EBinary BAdd (ex_int 7) (EBinary BMul (ex_int 3) (ex_path ["NANOS"]))); (Some "read", ex_int 5)]) in
  let items := [IOther; IMod "other" (Some [ex_mac ex_rocks]); IMod "constants" (Some [ex_mac ex_block; ex_mac c]); ex_mac ex_rocks] in
  proper_file items /\ flat_map consts items = [ex_block; c; ex_rocks] /\
  storage_content (Some items) = Ok (mk_db Parity (mk_rws (Scalar 5) (Add (Scalar 7) (Mul (Scalar 3) (Var "NANOS"))))) /\
  arith (fun _ => 10%N) (EBinary BAdd (ex_int 7) (EBinary BMul (ex_int 3) (ex_path ["NANOS"]))) = Some 37%N.
Proof.
  intros c items. split; [|repeat split; vm_compute; reflexivity]. split.
  - repeat constructor; cbn; try discriminate; auto; repeat split; discriminate.
  - intros k Hk l Hl. vm_compute in Hk. destruct Hk as [<-|[<-|[<-|[]]]]; cbn in Hl; intuition (subst; eexists; split; [reflexivity|vm_compute; reflexivity]).
Qed.

(** ** C42: the overhead parser, likewise. *)
Theorem C42_overhead : forall f, (forall items, f = Some items -> proper_file items) ->
  (forall x, overhead_content f = Ok x -> exists items, f = Some items /\ first_reading overhead_reading (flat_map consts items) x) /\
  (is_err (overhead_content f) = true <-> forall items c x, f = Some items -> In c (flat_map consts items) -> ~ overhead_reading c x) /\
  returns (overhead_content f).
Proof. exact StorageP3.overhead_file_lemma. Qed.
Print Assumptions C42_overhead.
(** The equation has the reference time of the constant. *)
Theorem C42_time : forall c o v1 rho rd wr n,
  overhead_reading c o -> literal_args (c_expr c) -> ref_time_of v1 rho rd wr (c_expr c) = Some n ->
  poly_val (with_rw rho rd wr) (restrict Time (overhead_term o)) = n.
Proof. exact StorageP.overhead_time. Qed.
Print Assumptions C42_time.
(** The usual ways to write the constants all have a reading and a reference time. *)
Theorem C42_forms : forall c, weight_const c -> overhead_form (c_expr c) ->
  (c_name c = "BlockExecutionWeight" -> exists t, overhead_reading c (BlockExecution t)) /\
  (c_name c = "ExtrinsicBaseWeight" -> exists t, overhead_reading c (ExtrinsicBase t)) /\
  literal_args (c_expr c) /\ forall rho rd wr, exists n, ref_time_of false rho rd wr (c_expr c) = Some n.
Proof. exact StorageP.overhead_form_reading. Qed.
Print Assumptions C42_forms.

Example C42_ex :
  let c := mk_const "ExtrinsicBaseWeight" (TPath (mk_path false ["Weight"]))
    (ex_call ["Weight"; "from_parts"] [ex_meth (ex_path ["NANOS"]) "saturating_mul" [ex_int 98974]; ex_int 0]) in
  let items := [ex_mac ex_rocks; IMod "constants" (Some [ex_mac c])] in
  proper_file items /\ weight_const c /\ overhead_form (c_expr c) /\ weight_const ex_block /\ overhead_form (c_expr ex_block) /\
  overhead_content (Some items) = Ok (ExtrinsicBase (Add (Mul (Var "NANOS") (wt 98974 0)) (wt 0 0))) /\
  ref_time_of false (fun _ => 1000%N) 0 0 (c_expr c) = Some 98974000%N.
Proof.
  assert (L : forall n, (n <? u128_bound)%N = true -> numeral (ELit (LInt n))) by (intros; constructor; now apply N.ltb_lt).
  intros c items. split; [|repeat split; try (vm_compute; reflexivity)].
  - split.
    + repeat constructor; cbn; try discriminate; auto; repeat split; discriminate.
    + intros k Hk l Hl. vm_compute in Hk. destruct Hk as [<-|[<-|[]]]; cbn in Hl; intuition (subst; eexists; split; [reflexivity|vm_compute; reflexivity]).
  - eexists. split; reflexivity.
  - cbn. apply of_parts; [|apply L; vm_compute; reflexivity|reflexivity]. apply nanos_mul; [|apply L; vm_compute; reflexivity].
    apply fac_name. constructor; vm_compute; discriminate.
  - eexists. split; reflexivity.
  - cbn. apply of_mul; [apply fac_num, L; vm_compute; reflexivity|]. apply fac_name. constructor; vm_compute; discriminate.
Qed.

(** ** C85: with Substrate's constants in scope the storage equations of a file are the
    picoseconds of the file, and a weight that reads and writes evaluates to the sum with them. *)
Theorem C85_names : forall x, scope_get from_substrate x <> None <-> nanosecond x.
Proof. exact StorageP2.names_lemma. Qed.
Print Assumptions C85_names.
Theorem C85_picoseconds : forall items x, proper_file items -> storage_content (Some items) = Ok x ->
  exists c r w, In c (flat_map consts items) /\ db_const c (w_db x) r w /\
  forall nr nw, picos r nr -> picos w nw ->
    forall m, eval m from_substrate (rw_read (w_rws x)) = Ok nr /\ eval m from_substrate (rw_write (w_rws x)) = Ok nw /\
    forall comps rho t,
      (forall y, In y (map fst comps) -> ~ nanosecond y /\ y <> "READ" /\ y <> "WRITE") -> env comps nr nw rho ->
      (forall y, occurs y t -> nanosecond y \/ y = "READ" \/ y = "WRITE" \/ In y (map fst comps)) ->
      (forall s, subterm s t -> (poly_val rho s < 2 ^ 128)%N) ->
      eval m (fold_left (fun s p => put_var s (fst p) (Scalar (snd p))) comps
                (with_storage_weights from_substrate (rw_read (w_rws x)) (rw_write (w_rws x)))) t = Ok (poly_val rho t).
Proof. exact StorageP2.nanos_lemma. Qed.
Print Assumptions C85_picoseconds.

(** The file of RocksDB: 25 and 100 microseconds; a weight of 7 + 3 reads + 2 [s] writes at [s = 5]. *)
Example C85_ex :
  let items := [IOther; IMod "constants" (Some [IOther; ex_mac ex_block; ex_mac ex_rocks])] in
  let rho x := if String.eqb x "READ" then 25000000%N else if String.eqb x "WRITE" then 100000000%N else if String.eqb x "s" then 5%N else 1000%N in
  let t := Add (Value 7%N) (Add (Mul (Scalar 3%N) (Var "READ")) (Mul (Mul (Scalar 2%N) (Var "s")) (Var "WRITE"))) in
  proper_file items /\
  (let x := mk_db Rocks (mk_rws (Mul (Scalar 25000%N) (Var "constants::WEIGHT_PER_NANOS")) (Mul (Scalar 100000%N) (Var "constants::WEIGHT_PER_NANOS"))) in
     storage_content (Some items) = Ok x /\
     eval Checked (put_var (with_storage_weights from_substrate (rw_read (w_rws x)) (rw_write (w_rws x))) "s" (Scalar 5%N)) t = Ok 1075000007%N) /\
  picos (EBinary BMul (ex_int 25000) (ex_path ["constants"; "WEIGHT_PER_NANOS"])) 25000000 /\
  picos (EBinary BMul (ex_int 100000) (ex_path ["constants"; "WEIGHT_PER_NANOS"])) 100000000 /\
  env [("s", 5%N)] 25000000 100000000 rho /\ poly_val rho t = 1075000007%N /\
  (~ nanosecond "s" /\ "s" <> "READ" /\ "s" <> "WRITE").
Proof.
  assert (P : forall n, (n * 1000 <? 2 ^ 128)%N = true -> (n <? 2 ^ 128)%N = true ->
    picos (EBinary BMul (ex_int n) (ex_path ["constants"; "WEIGHT_PER_NANOS"])) (n * 1000)).
  { intros n A B. apply N.ltb_lt in A, B. constructor; [now constructor| |exact A]. constructor. exists "WEIGHT_PER_NANOS". auto. }
  intros items rho t. split; [|split; [|split; [|split; [|split; [|split]]]]].
  - split.
    + repeat constructor; cbn; try discriminate; auto; repeat split; discriminate.
    + intros k Hk l Hl. vm_compute in Hk. destruct Hk as [<-|[<-|[]]]; cbn in Hl; intuition (subst; eexists; split; [reflexivity|vm_compute; reflexivity]).
  - split; vm_compute; reflexivity.
  - apply (P 25000%N); vm_compute; reflexivity.
  - apply (P 100000%N); vm_compute; reflexivity.
  - split; [reflexivity|]. split; [reflexivity|]. split; [intros x (s & [-> | ->] & [-> | ->]); reflexivity|].
    intros x n [[= <- <-]|[]]. reflexivity.
  - vm_compute. reflexivity.
  - split; [|split; discriminate]. intros (s & [-> | ->] & [H|H]); discriminate H.
Qed.
