(** The tests of the repository, evaluated in the model. These are checks of the transcription, not properties. *)
From Coq Require Import List String Ascii NArith ZArith Bool Floats.SpecFloat.
From Verif Require Import Base ScopeM TermM FmtM F64 CompareM RowsM SynM AttrM ParseM StorageM FilesM WebM LexM GramM SpecTmpl TmplX TestData.
From Verif Require TmplP5 TmplP6 RowsP.
Import ListNotations.
Local Open Scope string_scope.
Local Open Scope N_scope.

(** ** test_data *)
(** All files are in the grammar. *)
Example reads_all :
  forallb (fun s => match read_items s with Some _ => true | None => false end)
    [old_staking; new_staking; chrom_staking; new_extrinsic; new_block; chrom_extrinsic; chrom_block; rocks; parity] = true.
Proof. vm_compute. reflexivity. Qed.
(** The texts that the templates give for the extracted data are those of the files, character by character. *)
Lemma staking_text : file_text grouped dec_of_N staking_data = new_staking.
Proof. apply String.eqb_eq. vm_compute. reflexivity. Qed.
Lemma chrom_text : file_text grouped dec_of_N chrom_staking_data = chrom_staking.
Proof. apply String.eqb_eq. vm_compute. reflexivity. Qed.
Lemma old_text : file_text grouped dec_of_N old_staking_data = old_staking.
Proof. apply String.eqb_eq. vm_compute. reflexivity. Qed.
Lemma staking_ok : weights_ok staking_data.
Proof. apply weights_okb_ok. vm_compute. reflexivity. Qed.
Lemma chrom_ok : weights_ok chrom_staking_data.
Proof. apply weights_okb_ok. vm_compute. reflexivity. Qed.
Lemma old_ok : weights_ok old_staking_data.
Proof. apply weights_okb_ok. vm_compute. reflexivity. Qed.
(** So, by C80, their equations are those of the data. *)
Lemma described d s : weights_ok d -> w_benches d <> nil -> file_text grouped dec_of_N d = s ->
  exists es, parse_content "pallet_staking" (read_items s) = Ok es /\ Forall2 (describes "pallet_staking") (w_benches d) es.
Proof.
  intros D N <-. destruct (TmplP6.file_in_grammar _ _ _ numerals_grouped numerals_dec D) as (is & T).
  pose proof (proj2 TmplP6.reader_ok is _ T) as A.
  exact (TmplP5.file_described read_items grouped dec_of_N d "pallet_staking" (proj1 TmplP6.reader_ok) numerals_grouped numerals_dec D N A).
Qed.
Example staking_described : exists es, parse_content "pallet_staking" (read_items new_staking) = Ok es /\
  Forall2 (describes "pallet_staking") (w_benches staking_data) es.
Proof. exact (described _ _ staking_ok ltac:(discriminate) staking_text). Qed.
Example chrom_described : exists es, parse_content "pallet_staking" (read_items chrom_staking) = Ok es /\
  Forall2 (describes "pallet_staking") (w_benches staking_data) es.
Proof. exact (described _ _ chrom_ok ltac:(discriminate) chrom_text). Qed.
Example old_described : exists es, parse_content "pallet_staking" (read_items old_staking) = Ok es /\
  Forall2 (describes "pallet_staking") (w_benches old_staking_data) es.
Proof. exact (described _ _ old_ok ltac:(discriminate) old_text). Qed.

(** ** core/src/test/parse/pallet.rs *)
Example pallet_parses_weight_files :
  map (fun s => match parse_content "" (read_items s) with Ok es => List.length es | _ => 0%nat end) [new_staking; old_staking; chrom_staking]
  = [30; 30; 30]%nat.
Proof. vm_compute. reflexivity. Qed.

Definition content (s : string) : outcome (list cextrinsic) := parse_content "" (read_items s).
Definition one_ext (t : cterm) (r : option comp_ranges) : outcome (list cextrinsic) := Ok [mk_ext "ext" "" t r].
Definition impl1 (body : string) : string := "impl WeightInfo for () { fn ext() -> Weight { " ++ body ++ " } }".
Definition impl2 (body : string) : string :=
  "impl<T: frame_system::Config> my_pallet::WeightInfo for WeightInfo<T> { fn ext() -> Weight { " ++ body ++ " } }".
Example parse_function_v1_works :
  content (impl1 "((5 as Weight))") = one_ext (wt 5 0) None /\ content (impl2 "5 as Weight") = one_ext (wt 5 0) None.
Proof. split; vm_compute; reflexivity. Qed.
Example parse_chromatic_function_works :
  content (impl1 "Weight::from_ref_time(5)") = one_ext (wt 5 0) None /\
  content (impl1 "Weight::from_proof_size(5)") = one_ext (wt 0 5) None /\
  content (impl2 "Weight::from_parts(5, 0)") = one_ext (wt 5 0) None /\
  content "impl<T: frame_system::Config> my_pallet::WeightInfo for WeightInfo<T> {
		/// Storage: Staking MinCommission (r:1 w:0)
		/// Proof: Staking MinCommission (max_values: Some(1), max_size: Some(4), added: 499, mode: MaxEncodedLen)
		/// Storage: Staking Validators (r:1 w:1)
		/// Proof: Staking Validators (max_values: None, max_size: Some(45), added: 2520, mode: MaxEncodedLen)
		fn ext() -> Weight {
			//  Measured:  `694`
			//  Estimated: `3019`
			// Minimum execution time: 14_703 nanoseconds.
			Weight::from_parts(15, 30)
		}
}" = one_ext (wt 15 30) None.
Proof. repeat split; vm_compute; reflexivity. Qed.
Example parse_component_range_works :
  content "impl<T: frame_system::Config> my_pallet::WeightInfo for WeightInfo<T> {
		/// The range of component `c` is `[1_337, 2000]`.
		/// The range of component `d` is `[42, 999999]`.
		fn ext(c: u32, d: u32, ) -> Weight {
			(5 as Weight)
		}
	}" = one_ext (wt 5 0) (Some [("c", mk_range 1337 2000); ("d", mk_range 42 999999)]).
Proof. vm_compute. reflexivity. Qed.

Definition scalar_of (s : string) : outcome sterm := match read_expr s with Some e => parse_scalar_expression e | None => Err "syn" end.
Definition chromatic_of (s : string) : outcome cterm := match read_expr s with Some e => parse_expression e | None => Err "syn" end.
Notation sc := (@Scalar N). Notation sv := (@Var N).
Definition rd (t : sterm) : sterm := Mul t (Var "READ").
Definition wrt (t : sterm) : sterm := Mul t (Var "WRITE").
Definition all_together : sterm :=
  Add (Add (Add (Add (sc 123) (Mul (sc 7) (sv "s"))) (rd (sc 12))) (wrt (sc 12))) (wrt (Mul (sc 1) (sv "s"))).
Example parse_expression_works :
  scalar_of "(123 as Weight)" = Ok (sc 123) /\
  scalar_of "(123 as Weight).saturating_add(6 as Weight)" = Ok (Add (sc 123) (sc 6)) /\
  scalar_of "(123 as Weight).saturating_mul(5 as Weight).saturating_add(6 as Weight)" = Ok (Add (Mul (sc 123) (sc 5)) (sc 6)) /\
  scalar_of "(123 as Weight).saturating_mul(5 as Weight).saturating_add(e as Weight).saturating_mul(7 as Weight)"
    = Ok (Mul (Add (Mul (sc 123) (sc 5)) (sv "e")) (sc 7)) /\
  scalar_of "(123 as Weight)
	.saturating_mul(WEIGHT_PER_NANOS)" = Ok (Mul (sc 123) (sv "WEIGHT_PER_NANOS")) /\
  scalar_of "(123 as Weight)
	.saturating_add(a as Weight)
	.saturating_mul(m)" = Ok (Mul (Add (sc 123) (sv "a")) (sv "m")) /\
  scalar_of "T::DbWeight::get().reads(2 as Weight)" = Ok (rd (sc 2)) /\
  scalar_of "T::DbWeight::get().writes(2 as Weight)" = Ok (wrt (sc 2)) /\
  scalar_of "T::DbWeight::get().reads(2 as Weight).saturating_add(3 as Weight)" = Ok (Add (rd (sc 2)) (sc 3)) /\
  scalar_of "T::DbWeight::get().writes(2 as Weight).saturating_mul(3 as Weight)" = Ok (Mul (wrt (sc 2)) (sc 3)) /\
  scalar_of "T::DbWeight::get().writes(2 as Weight).saturating_add(3 as Weight)" = Ok (Add (wrt (sc 2)) (sc 3)) /\
  scalar_of "(123 as Weight)
	// Random comment
	.saturating_add((7 as Weight).saturating_mul(s as Weight))
	.saturating_add(T::DbWeight::get().reads(12 as Weight))
	.saturating_add(T::DbWeight::get().writes(12))
	.saturating_add(T::DbWeight::get().writes((1 as Weight).saturating_mul(s as Weight)))" = Ok all_together.
Proof. repeat split; vm_compute; reflexivity. Qed.
Example parse_expression_works_v15 :
  scalar_of "Weight::zero()" = Ok (Value 0) /\
  scalar_of "Weight::zero().saturating_mul(Weight::from_ref_time(123))" = Ok (Mul (Value 0) (sc 123)) /\
  scalar_of "Weight::from_ref_time(123 as u64)" = Ok (sc 123) /\
  scalar_of "Weight::from_ref_time(123 as u64)
	// Standard Error: 1_000
	.saturating_add(Weight::from_ref_time(7 as u64).saturating_mul(s as u64))
	.saturating_add(T::DbWeight::get().reads(12 as u64))
	.saturating_add(T::DbWeight::get().writes(12 as u64))
	.saturating_add(T::DbWeight::get().writes((1 as u64).saturating_mul(s as u64)))" = Ok all_together.
Proof. repeat split; vm_compute; reflexivity. Qed.
Example chromatic_syntax :
  chromatic_of "Weight::from_ref_time(123)" = Ok (wt 123 0) /\
  chromatic_of "Weight::from_proof_size(123)" = Ok (wt 0 123) /\
  chromatic_of "Weight::from_parts(123, 321)" = Ok (wt 123 321) /\
  chromatic_of "Weight::from_parts(48_314_000, 2603)
	.saturating_add(RocksDbWeight::get().reads(1_u64))" = Ok (Add (wt 48314000 2603) (Mul (Scalar 1) (Var "READ"))) /\
  chromatic_of "Weight::from_parts(33_236_000, 3054)
	.saturating_add(T::DbWeight::get().reads(2_u64))
	.saturating_add(T::DbWeight::get().writes(5_u64))"
    = Ok (Add (Add (wt 33236000 3054) (Mul (Scalar 2) (Var "READ"))) (Mul (Scalar 5) (Var "WRITE"))) /\
  chromatic_of "Weight::from_parts(890_989_741, 69146)
// Standard Error: 58_282
.saturating_add(Weight::from_ref_time(4_920_413).saturating_mul(s.into()))
.saturating_add(RocksDbWeight::get().reads(1_u64))
.saturating_add(RocksDbWeight::get().writes(1_u64))"
    = Ok (Add (Add (Add (wt 890989741 69146) (Mul (wt 4920413 0) (Var "s"))) (Mul (Scalar 1) (Var "READ"))) (Mul (Scalar 1) (Var "WRITE"))) /\
  chromatic_of "Weight::from_parts(10, 20)
	.saturating_add(T::DbWeight::get().writes((1_u64).saturating_mul(s.into())))"
    = Ok (Add (wt 10 20) (Mul (Mul (wt 1 0) (Var "s")) (Var "WRITE"))) /\
  chromatic_of "Weight::from_parts(0 as u64, 0)
.saturating_add(Weight::from_parts(520 as u64, 0).saturating_mul(x as u64))" = Ok (Add (wt 0 0) (Mul (wt 520 0) (Var "x"))).
Proof. repeat split; vm_compute; reflexivity. Qed.

(** ** core/src/test/parse/overhead.rs and storage.rs *)
Definition nanos (t : string) (n : N) : cterm := Mul (wt n 0) (Var t).
Definition nanos' (t : string) (n : N) : cterm := Mul (Var t) (wt n 0).
Example overhead_parses_weight_files :
  overhead_content (read_items new_extrinsic) = Ok (ExtrinsicBase (nanos "WEIGHT_PER_NANOS" 85212)) /\
  overhead_content (read_items new_block) = Ok (BlockExecution (nanos "WEIGHT_PER_NANOS" 5481991)) /\
  overhead_content (read_items chrom_extrinsic) = Ok (ExtrinsicBase (nanos' "WEIGHT_REF_TIME_PER_NANOS" 99840)) /\
  overhead_content (read_items chrom_block) = Ok (BlockExecution (nanos' "WEIGHT_REF_TIME_PER_NANOS" 381015)).
Proof. repeat split; vm_compute; reflexivity. Qed.
Example parses_chromatic_expression :
  overhead_content (read_items "parameter_types! {
	/// Time to execute an empty block.
	///
	/// Stats nanoseconds:
	///   Min, Max: 6_708_387, 7_042_534
	pub const BlockExecutionWeight: Weight =
		Weight::from_parts(WEIGHT_REF_TIME_PER_NANOS.saturating_mul(6_818_965), 0);
	}") = Ok (BlockExecution (Add (nanos' "WEIGHT_REF_TIME_PER_NANOS" 6818965) (wt 0 0))).
Proof. vm_compute. reflexivity. Qed.
Definition per_nanos (n : N) : sterm := Mul (sc n) (sv "constants::WEIGHT_PER_NANOS").
Example storage_parses_weight_files :
  storage_content (read_items rocks) = Ok (mk_db Rocks (mk_rws (per_nanos 25) (per_nanos 100))) /\
  storage_content (read_items parity) = Ok (mk_db Parity (mk_rws (sc 8) (sc 50))).
Proof. repeat split; vm_compute; reflexivity. Qed.

(** ** core/src/test/parse/mod.rs *)
Example path_stripping_works : let p := [CName "repo"; CName "pallet.rs"] in
  strip FileName [CCur] p = Ok "pallet.rs" /\ strip FileName [CName "repo"] p = Ok "pallet.rs" /\
  strip RepoRelative [CCur] p = Ok "repo/pallet.rs" /\ strip RepoRelative [CName "repo"] p = Ok "pallet.rs".
Proof. repeat split. Qed.

(** ** core/src/test/core.rs *)
Definition comps (a b : option (string * option comp_ranges)) (m : CompareM.method) : option (list (list (string * sterm))) :=
  let e := option_map (fun p : string * option comp_ranges => mk_ext "" "" (Var (fst p)) (snd p)) in
  match extend_scoped_components (fun l => l) (e a) (e b) m scope_empty with Ok l => Some l | _ => None end.
Example extend_scoped_components_works :
  let a := Some ("a", None) in let b := Some ("b", None) in
  let r := [("a", mk_range 0 200)] in let ar := Some ("a", Some r) in let br := Some ("b", Some r) in
  let r2 := [("a", mk_range 0 200); ("b", mk_range 0 200)] in let a2 := Some ("a", Some r2) in let b2 := Some ("b", Some r2) in
  let one := fun x => [("a", sc x)] in let two := fun x y => [("a", sc x); ("b", sc y)] in
  let four := fun x y => [two 0 0; two 0 y; two x 0; two x y] in
  map (fun p => comps (fst p) (snd p) Base) [(a, None); (None, a); (a, a); (ar, None); (None, ar); (ar, ar)] = repeat (Some [one 0]) 6 /\
  map (fun p => comps (fst p) (snd p) GuessWorst) [(a, None); (None, a); (a, a)] = repeat (Some [one 0; one 100]) 3 /\
  map (fun p => comps (fst p) (snd p) ExactWorst) [(a, None); (None, a); (a, a)] = repeat None 3 /\
  map (fun p => comps (fst p) (snd p) GuessWorst) [(ar, None); (None, ar); (ar, ar)] = repeat (Some [one 0; one 200]) 3 /\
  map (fun p => comps (fst p) (snd p) ExactWorst) [(ar, None); (None, ar); (ar, ar)] = repeat (Some [one 0; one 200]) 3 /\
  map (comps a b) [Base; GuessWorst; ExactWorst] = [Some [two 0 0]; Some (four 100 100); None] /\
  map (comps ar br) [Base; GuessWorst; ExactWorst] = [Some [two 0 0]; Some (four 200 100); None] /\
  map (comps a2 b2) [Base; GuessWorst; ExactWorst] = [Some [two 0 0]; Some (four 200 200); Some (four 200 200)].
Proof. repeat split; vm_compute; reflexivity. Qed.

Definition mils_of (z : Z) : f64 :=
  let q := f64_div (f64_of_N (Z.abs_N z)) (f64_of_N 1000) in if (z <? 0)%Z then SFopp q else q.
Definition compares (old new : sterm) (want : list (CompareM.method * Z)) : bool :=
  let e := fun t => mk_ext "" "" t (Some [("l", mk_range 0 255); ("n", mk_range 0 100)]) in
  forallb (fun w : CompareM.method * Z =>
    match compare_extrinsics Checked (fun l => l) (Some (e old)) (Some (e new)) {| p_method := fst w; p_unit := Time |} with
    | Ok c => (rel_eqb (tc_change c) Changed && f64_lt (f64_abs (f64_sub (tc_percent c) (mils_of (snd w)))) (mils_of 1))%bool
    | _ => false
    end) want.
Definition line_of (a b : N) : sterm := Add (sc a) (Mul (sc b) (sv "n")).
Definition long_of (a b c : N) : sterm := Add (Add (Add (line_of a b) (Mul (sc c) (sv "l"))) (Mul (sc 2) (sv "READ"))) (Mul (sc 2) (sv "WRITE")).
Example compare_extrinsics_works :
  compares (long_of 7570000 13030000 485560) (long_of 8350000 16890000 402570)
    [(Asymptotic, 21706%Z); (ExactWorst, 24784%Z); (Base, 302%Z)] = true /\
  compares (line_of 1000 1000) (line_of 1000 500) [(Asymptotic, (-49504)%Z); (ExactWorst, 0%Z); (Base, 0%Z)] = true /\
  compares (line_of 1000 500) (line_of 1000 1000) [(Asymptotic, 98039%Z); (ExactWorst, 98039%Z); (Base, 0%Z)] = true /\
  compares (line_of 1000 500) (line_of 1001 1000) [(Asymptotic, 98041%Z); (ExactWorst, 98041%Z); (Base, 99%Z)] = true /\
  compares (line_of 1000 500) (line_of 999 1000) [(Asymptotic, 98037%Z); (ExactWorst, 98037%Z); (Base, (-100)%Z)] = true.
Proof. repeat split; vm_compute; reflexivity. Qed.

Example sanity_check_term_works :
  map sanity_check_term [sc 30; sv "READ"; Mul (sv "READ") (sc 1000); Add (sv "READ") (sc 1001); Add (sv "WRITE") (sc 1001);
    Mul (sv "SOMETHING") (sc 2001)] = repeat (Ok Datatypes.tt) 6 /\
  map sanity_check_term [Mul (sv "READ") (sc 1001); Mul (sv "WRITE") (sc 1001); Mul (sc 1001) (sv "WRITE"); Mul (sc 1001) (sv "READ");
    Mul (sv "READ") (sc 2001); Mul (sv "WRITE") (sc 2001); Mul (Mul (sv "READ") (sc 1234)) (sv "READ");
    Mul (Mul (sv "READ") (sc 1234)) (Mul (sv "WRITE") (sc 2222))] =
  map Err ["Call has 1001 READs"; "Call has 1001 WRITEs"; "Call has 1001 WRITEs"; "Call has 1001 READs"; "Call has 2001 READs";
    "Call has 2001 WRITEs"; "Call has 1234 READs"; "Call has 2222 WRITEs"].
Proof. split; vm_compute; reflexivity. Qed.

Definition kept (p : N * N * N) : bool :=
  let '(old, new, t) := p in
  match filter_changes [mk_row "" "" (DChanged {| tc_old := None; tc_old_v := Some old; tc_new := None; tc_new_v := Some new; tc_scope := [];
      tc_percent := percent old new; tc_change := Changed; tc_method := GuessWorst |})]
    {| f_threshold := f64_of_N t; f_change := None; f_extrinsic := None; f_pallet := None |} with [] => false | _ => true end.
Example filter_rel_threshold_works :
  map kept [(10, 11, 9); (10, 11, 11); (673, 673, 10); (100, 200, 10); (100, 200, 100); (100, 200, 101)] = [true; false; false; true; true; false].
Proof. vm_compute. reflexivity. Qed.

(** ** core/src/test/term.rs *)
Example term_free_vars_works :
  free_vars scope_empty (sc 123) = [] /\ free_vars scope_empty (Mul (sv "unbound") (sc 123)) = ["unbound"] /\
  free_vars (with_var scope_empty "b" (sc 0)) (Add (sv "a") (sv "b")) = ["a"].
Proof. repeat split. Qed.
Example term_find_largest_factor_works :
  map (fun t => find_largest_factor t "F") [sc 123; sv "F"; Add (sv "F") (sc 4); Mul (sc 4) (sv "F"); Mul (sv "F") (sc 4);
    Add (Mul (sc 5) (sv "F")) (Mul (sv "F") (sc 5))] = [None; None; None; Some 4; Some 4; Some 5].
Proof. reflexivity. Qed.
Example term_fmt_with_brackets_works :
  map sdisplay [sc 123; sv "x"; Add (sv "x") (sc 123); Add (sv "x") (sc 0); Mul (sv "x") (sc 123); Mul (sv "x") (sc 1);
    Add (Add (sc 0) (sc 0)) (sc 0); Add (Add (sc 0) (sc 0)) (Add (sc 0) (sc 0)); Mul (sv "m") (sv "READ"); Mul (Mul (sc 1) (sv "m")) (sv "READ")] =
  ["123"; "x"; "x + 123"; "x"; "x * 123"; "x"; "0"; "0"; "m * READ"; "m * READ"].
Proof. vm_compute. reflexivity. Qed.

(** ** cli/tests/swc_works.rs *)
(** Comparing the file with itself gives 30 unchanged rows; another file is an error. *)
Definition self_disk (p : fpath) : string + file :=
  inr (read_items (match p with [CName "main.rs"] => "fn main() { }" | _ => new_staking end)).
Definition self_compare (old new : fpath) : outcome (list row) :=
  let* olds := parse_files self_disk [old] in
  let* news := parse_files self_disk [new] in
  compare_files Checked (fun _ l => l) RowsP.rx_all olds news {| p_method := Base; p_unit := Time |}
    {| f_threshold := f64_of_N 0; f_change := None; f_extrinsic := None; f_pallet := None |}.
Example subweight_compare_files :
  match self_compare [CName "x.rs"] [CName "x.rs"] with
  | Ok rows => List.length rows = 30%nat /\
      forallb (fun r => match row_diff r with DChanged c => rel_eqb (tc_change c) Unchanged | _ => false end) rows = true
  | _ => False
  end /\
  match self_compare [CName "main.rs"] [CName "x.rs"] with Err e => e = "main.rs: Could not find a weight implementation in the passed file" | _ => False end.
Proof. vm_compute. repeat split. Qed.

(** ** web/src/git.rs *)
Example get_origin_org_works :
  map origin_org ["https://github.com/myorg/myrepo"; "https://github.com/myorg/myrepo.git"; "https://gitlab.com/myorg/myrepo"; "ssh://gitlab.com:myorg/myrepo"]
  = [Some "myorg"; Some "myorg"; None; None].
Proof. reflexivity. Qed.
