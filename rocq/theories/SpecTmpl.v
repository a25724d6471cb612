(** Specification of the weight files that Substrate's benchmarking tool writes from measured data,
    and what the data says about the weights. *)
From Coq Require Import List String Ascii NArith Bool.
From Verif Require Import Base TermM SpecTerm SpecChrom CompareM SpecCompare SpecFmt SynM SpecAttr SpecParse FilesM SpecFiles SpecText SpecEnd.
Import ListNotations.
Local Open Scope string_scope.

(** The measurements of one function: ranges of the components, the weight without components, what every component
    adds to time, reads, writes and proof size; and text for the comments. *)
Record bench := mk_bench {
  b_name : string;
  b_comments : list string;
  b_ranges : list (string * comp_range);
  b_params : list string;
  b_remarks : list string;
  b_time : N;
  b_proof : N;
  b_slopes : list (string * string * N);  (** standard error, component, slope *)
  b_reads : N;
  b_reads_by : list (string * N);
  b_writes : N;
  b_writes_by : list (string * N);
  b_proof_by : list (string * N) }.
(** The templates: for the pallets of Substrate, as in test_data/new/pallet_staking.rs.txt, and before that in
    test_data/new/staking_chromatic.rs.txt; for runtimes, and before that, for the first version of the weights, in
    test_data/old/pallet_staking.rs.txt. (The template for runtimes that is used today is template.hbs of Substrate's
    benchmarking tool; there is no file written with it in the repository.) *)
Inductive style := Pallet_parts | Pallet_time | Runtime_parts | Runtime_old.
(** The measurements of a pallet. *)
Record weights := mk_weights { w_style : style; w_preamble : list string; w_pallet : string; w_benches : list bench }.

(** ** The text *)
Section Text.
  (** How numbers are written: [u] for times, [v] for all others. *)
  Variables u v : N -> string.

  Definition tab : string := String "009" "".
  Fixpoint tabs (n : nat) : string := match n with O => "" | S n => tab ++ tabs n end.
  Definition line (n : nat) (s : string) : string := tabs n ++ s ++ nl.
  Definition lines {A} (f : A -> string) (l : list A) : string := String.concat "" (map f l).

  Definition params_text (ps : list string) : string := lines (fun p => p ++ ": u32, ") ps.
  Definition range_line (p : string * comp_range) : string :=
    line 1 ("/// The range of component `" ++ fst p ++ "` is `[" ++ v (rmin (snd p)) ++ ", " ++ v (rmax (snd p)) ++ "]`.").
  Definition remark_line (r : string) : string := line 2 ("// " ++ r).

  Section Style.
    Variable st : style.
    Definition comment_line (c : string) : string := line 1 (match st with Runtime_old => "// " | _ => "/// " end ++ c).
    (** A time, a proof size, a component, and the number of storage accesses. *)
    Definition time_text (n : N) : string :=
      match st with
      | Pallet_time => "Weight::from_ref_time(" ++ u n ++ ")"
      | Runtime_old => "(" ++ u n ++ " as Weight)"
      | _ => "Weight::from_parts(" ++ u n ++ ", 0)"
      end.
    Definition size_text (n : N) : string :=
      match st with
      | Pallet_time => "Weight::from_proof_size(" ++ v n ++ ")"
      | _ => "Weight::from_parts(0, " ++ v n ++ ")"
      end.
    Definition conv_text (c : string) : string := match st with Runtime_old => c ++ " as Weight" | _ => c ++ ".into()" end.
    Definition count_text (n : N) : string :=
      match st with Runtime_parts => v n | Runtime_old => v n ++ " as Weight" | _ => v n ++ "_u64" end.
    Definition factor_text (n : N) : string := match st with Runtime_old => v n ++ " as Weight" | _ => v n ++ "_u64" end.

    Definition parts_line (b : bench) : string := line 2 ("Weight::from_parts(" ++ u (b_time b) ++ ", " ++ v (b_proof b) ++ ")").
    Definition base_text (b : bench) : string :=
      match st with
      | Pallet_parts => parts_line b
      | Pallet_time => if N.eqb (b_proof b) 0 then line 2 (time_text (b_time b)) else parts_line b
      | Runtime_parts => line 2 (time_text (b_time b)) ++ line 3 (".saturating_add(" ++ size_text (b_proof b) ++ ")")
      | Runtime_old => line 2 (time_text (b_time b))
      end.
    Definition slope_line (p : string * string * N) : string :=
      line 3 ("// Standard Error: " ++ fst (fst p)) ++
      line 3 (".saturating_add(" ++ time_text (snd p) ++ ".saturating_mul(" ++ conv_text (snd (fst p)) ++ "))").
    Definition access_line (db what : string) (n : N) : string :=
      if N.eqb n 0 then "" else line 3 (".saturating_add(" ++ db ++ "::get()." ++ what ++ "(" ++ count_text n ++ "))").
    Definition access_by_line (db what : string) (p : string * N) : string :=
      line 3 (".saturating_add(" ++ db ++ "::get()." ++ what ++ "((" ++ factor_text (snd p) ++ ").saturating_mul(" ++ conv_text (fst p) ++ ")))").
    Definition proof_line (p : string * N) : string :=
      line 3 (".saturating_add(" ++ size_text (snd p) ++ ".saturating_mul(" ++ conv_text (fst p) ++ "))").

    Definition fn_text (db : string) (b : bench) : string :=
      lines comment_line (b_comments b) ++ lines range_line (b_ranges b) ++
      line 1 ("fn " ++ b_name b ++ "(" ++ params_text (b_params b) ++ ") -> Weight {") ++
      lines remark_line (b_remarks b) ++
      base_text b ++
      lines slope_line (b_slopes b) ++
      access_line db "reads" (b_reads b) ++ lines (access_by_line db "reads") (b_reads_by b) ++
      access_line db "writes" (b_writes b) ++ lines (access_by_line db "writes") (b_writes_by b) ++
      lines proof_line (b_proof_by b) ++
      line 1 "}".
  End Style.
  Definition decl_text (b : bench) : string := line 1 ("fn " ++ b_name b ++ "(" ++ params_text (b_params b) ++ ") -> Weight;").

  (** The weights of a pallet. *)
  Definition pallet_text (d : weights) : string :=
    lines (line 0) (w_preamble d) ++
    line 0 "#![cfg_attr(rustfmt, rustfmt_skip)]" ++
    line 0 "#![allow(unused_parens)]" ++
    line 0 "#![allow(unused_imports)]" ++
    line 0 "" ++
    line 0 "use frame_support::{traits::Get, weights::{Weight, constants::RocksDbWeight}};" ++
    line 0 "use sp_std::marker::PhantomData;" ++
    line 0 "" ++
    line 0 ("/// Weight functions needed for " ++ w_pallet d ++ ".") ++
    line 0 "pub trait WeightInfo {" ++
    lines decl_text (w_benches d) ++
    line 0 "}" ++
    line 0 "" ++
    line 0 ("/// Weights for " ++ w_pallet d ++ " using the Substrate node and recommended hardware.") ++
    line 0 "pub struct SubstrateWeight<T>(PhantomData<T>);" ++
    line 0 "impl<T: frame_system::Config> WeightInfo for SubstrateWeight<T> {" ++
    lines (fn_text (w_style d) "T::DbWeight") (w_benches d) ++
    line 0 "}" ++
    line 0 "" ++
    line 0 "// For backwards compatibility and tests" ++
    line 0 "impl WeightInfo for () {" ++
    lines (fn_text (w_style d) "RocksDbWeight") (w_benches d) ++
    line 0 "}".
  (** The weights of a pallet in a runtime. *)
  Definition runtime_text (d : weights) : string :=
    lines (line 0) (w_preamble d) ++
    line 0 "#![cfg_attr(rustfmt, rustfmt_skip)]" ++
    line 0 "#![allow(unused_parens)]" ++
    line 0 "#![allow(unused_imports)]" ++
    match w_style d with Runtime_old => "" | _ => line 0 "#![allow(missing_docs)]" end ++
    line 0 "" ++
    line 0 "use frame_support::{traits::Get, weights::Weight};" ++
    line 0 (match w_style d with Runtime_old => "use sp_std::marker::PhantomData;" | _ => "use core::marker::PhantomData;" end) ++
    line 0 "" ++
    line 0 ("/// Weight functions for `" ++ w_pallet d ++ "`.") ++
    line 0 "pub struct WeightInfo<T>(PhantomData<T>);" ++
    line 0 ("impl<T: frame_system::Config> " ++ w_pallet d ++ "::WeightInfo for WeightInfo<T> {") ++
    lines (fn_text (w_style d) "T::DbWeight") (w_benches d) ++
    line 0 "}".
  Definition file_text (d : weights) : string :=
    match w_style d with Pallet_parts | Pallet_time => pallet_text d | Runtime_parts | Runtime_old => runtime_text d end.
End Text.

(** Numbers in decimal, grouped by underscores in any way. *)
Definition numerals (u : N -> string) : Prop :=
  forall n, begins digits (u n) /\ over grouped_digits (u n) /\ read_dec (without_us (u n)) = Some n.

(** ** The data *)
Definition identifier (x : string) : Prop := begins letters x /\ over word_chars x /\ name x.
Definition one_line (s : string) : Prop := lacks nl_cr s.
(** The components the weight depends on. *)
Definition uses (b : bench) (c : string) : Prop :=
  In c (map (fun p => snd (fst p)) (b_slopes b)) \/ In c (map fst (b_reads_by b)) \/ In c (map fst (b_writes_by b)) \/
  In c (map fst (b_proof_by b)).
Definition numbers (b : bench) : list N :=
  (b_time b :: b_proof b :: b_reads b :: b_writes b :: map snd (b_slopes b) ++ map snd (b_reads_by b) ++
   map snd (b_writes_by b) ++ map snd (b_proof_by b))%list.
Record bench_ok (b : bench) : Prop := {
  ok_name : identifier (b_name b);
  ok_comments : forall c, In c (b_comments b) -> one_line c /\ silent (ANameValue (mk_path false ["doc"]) (" " ++ c));
  ok_ranges : forall c r, In (c, r) (b_ranges b) -> identifier c /\ (rmin r <= rmax r)%N /\ (rmax r < 2 ^ 32)%N;
  ok_once : NoDup (map fst (b_ranges b));
  ok_params : forall c, In c (b_params b) -> identifier c;
  ok_remarks : forall r, In r (b_remarks b) -> one_line r;
  ok_errors : forall p, In p (b_slopes b) -> one_line (fst (fst p));
  ok_uses : forall c, uses b c -> identifier c /\ c <> "READ" /\ c <> "WRITE";
  ok_numbers : forall n, In n (numbers b) -> (n < u128_bound)%N }.
(** Empty lines and comments, no [///]. *)
Definition preamble_line (s : string) : Prop :=
  s = "" \/ exists body, s = "//" ++ body /\ one_line body /\ (~ begins "/" body \/ exists b, body = "//" ++ b).
(** A module, as [pallet_staking] or [pallet_xcm_benchmarks::fungible]. *)
Definition module_path (s : string) : Prop :=
  exists l, l <> [] /\ (forall x, In x l -> identifier x) /\ s = String.concat "::" l.
Record weights_ok (d : weights) : Prop := {
  ok_preamble : forall l, In l (w_preamble d) -> preamble_line l;
  ok_pallet : one_line (w_pallet d);
  ok_module : w_style d = Runtime_parts \/ w_style d = Runtime_old -> module_path (w_pallet d);
  (** The first version of the weights has no proof sizes. *)
  ok_version : w_style d = Runtime_old -> forall b, In b (w_benches d) -> b_proof b = 0%N /\ b_proof_by b = [];
  ok_benches : forall b, In b (w_benches d) -> bench_ok b;
  ok_distinct : NoDup (map b_name (w_benches d)) }.

(** ** The weights *)
Local Open Scope N_scope.
Definition total (l : list N) : N := fold_right N.add 0 l.
Definition linear (rho : string -> N) (l : list (string * N)) : N := total (map (fun p => snd p * rho (fst p)) l).
(** With [rd] for every read and [wr] for every write. *)
Definition time_of (rho : string -> N) (rd wr : N) (b : bench) : N :=
  b_time b + total (map (fun p => snd p * rho (snd (fst p))) (b_slopes b)) +
  (b_reads b + linear rho (b_reads_by b)) * rd + (b_writes b + linear rho (b_writes_by b)) * wr.
Definition proof_of (rho : string -> N) (b : bench) : N := b_proof b + linear rho (b_proof_by b).
(** In one dimension, with the costs of RocksDB. *)
Definition bench_weight (d : dimension) (rho : string -> N) (b : bench) : N :=
  match d with Time => time_of rho 25000000 100000000 b | Proof_size => proof_of rho b end.

Definition range_in (b : bench) (c : string) (A : list comp_range) : Prop :=
  (exists r, A = [r] /\ In (c, r) (b_ranges b)) \/ (A = [] /\ forall r, ~ In (c, r) (b_ranges b)).
(** Components within their ranges: from the smaller of the two minima to the larger of the two maxima. *)
Definition in_bench_box (bo bn : bench) (rho : string -> N) : Prop :=
  forall c, uses bo c \/ uses bn c -> exists Ao An lo hi,
    range_in bo c Ao /\ range_in bn c An /\ inst Low (app Ao An) lo /\ inst High (app Ao An) hi /\ lo <= rho c <= hi.

(** ** Reading the texts *)
(** A reader of source files, as [syn]: what it accepts it reads as the grammar says, wherever that applies. (The grammar does not look
    into parameter lists, traits, etc., in which [syn] can find errors.) *)
Definition reads_grammar (syn : string -> option (list item)) : Prop :=
  forall is s, text_of is s -> syn s <> None -> syn s = Some is.
(** The files as the parsers see them: an error, or the result of the reader. *)
Definition disk_of (syn : string -> option (list item)) (texts : fpath -> string + string) (p : fpath) : string + file :=
  match texts p with inl e => inl e | inr s => inr (syn s) end.
(** As [source_of], with the texts of the files; the reader accepts this one. *)
Definition text_source_of (syn : string -> option (list item)) (glob : string -> option (list (option fpath))) (texts : fpath -> string + string) (repo : fpath) (pat : string)
    (k : string * string) (m : SynM.method) (e : expr) : Prop :=
  (forall p, listed glob repo pat p -> exists rest, below repo p rest) /\
  exists p rest s items, listed glob repo pat p /\ below repo p rest /\ path_text rest = fst k /\
    texts p = inr s /\ syn s <> None /\ text_of items s /\ weight_file items m /\ m_name m = snd k /\ m_stmts m = [SExpr e].
(** The measurements [b] of the function [snd k] are in the file [fst k], as the template writes it. *)
Definition data_source_of (syn : string -> option (list item)) (glob : string -> option (list (option fpath))) (texts : fpath -> string + string) (repo : fpath) (pat : string)
    (k : string * string) (b : bench) : Prop :=
  (forall p, listed glob repo pat p -> exists rest, below repo p rest) /\
  exists p rest u v d, listed glob repo pat p /\ below repo p rest /\ path_text rest = fst k /\
    texts p = inr (file_text u v d) /\ syn (file_text u v d) <> None /\ numerals u /\ numerals v /\ weights_ok d /\ In b (w_benches d) /\ b_name b = snd k.
(** The entry has the equations and ranges of the measurements. *)
Definition describes (pallet : string) (b : bench) (e : cextrinsic) : Prop :=
  epallet e = pallet /\ ename e = b_name b /\
  (forall rho rd wr, poly_val (with_rw rho rd wr) (restrict Time (eterm e)) = time_of rho rd wr b) /\
  (forall rho, poly_val (with_rw rho 0 0) (restrict Proof_size (eterm e)) = proof_of rho b) /\
  forall c, plain_name c -> (forall c' r, In (c', r) (b_ranges b) -> plain_name c') ->
    forall r, annotated (eranges e) c = [r] <-> In (c, r) (b_ranges b).
(** No underscores in the names of components, and all weights on the box are in the range of the tool's integers. *)
Definition tame_data (d : dimension) (bo bn : bench) : Prop :=
  (forall c, uses bo c \/ uses bn c \/ In c (map fst (b_ranges bo)) \/ In c (map fst (b_ranges bn)) -> plain_name c) /\
  forall rho, in_bench_box bo bn rho -> bench_weight d rho bo < u128_bound /\ bench_weight d rho bn < u128_bound.
