(** Specification of what the command line prints about the measurements in two sets of weight files. *)
From Coq Require Import List String Ascii NArith ZArith Bool Reals.
From Verif Require Import Base ScopeM TermM F64 CompareM SpecCompare RowsM SpecRows SpecF64 SynM SpecFmt FilesM SpecFiles GitM SpecGit CliM SpecCli SpecEnd SpecText SpecTmpl SpecShow.
Import ListNotations.
Local Open Scope string_scope.
Local Open Scope R_scope.

(** ** Files *)
(** The measurements [b] of the function [snd k] are in the first of the files with the name [fst k], as the template writes it. *)
Definition file_source_of (syn : string -> option (list item)) (texts : fpath -> string + string) (files : list fpath) (k : string * string) (b : bench) : Prop :=
  exists p u v d, first_file (fun p => named p (fst k)) files p /\
    texts p = inr (file_text u v d) /\ syn (file_text u v d) <> None /\ numerals u /\ numerals v /\ weights_ok d /\ In b (w_benches d) /\ b_name b = snd k.

(** ** Cells *)
Definition ink (no_color : bool) (code body text : string) : Prop := if no_color then text = body else painted code body text.
(** The change from [v] to [w] in percent with a sign and two decimals: red (31) is more, green (32) is less, white (37) neither. *)
Definition console_percent (no_color : bool) (v w : N) (t : string) : Prop :=
  (v = 0 /\ w = 0)%N /\ ink no_color "37" "  NaN" t \/ (v = 0 /\ 0 < w)%N /\ ink no_color "31" " +inf" t \/
  (0 < v)%N /\ (
    (exists x q, read_2 x = Some q /\
       ((v < w)%N /\ ink no_color "31" ("+" ++ x) t /\ Rabs (RN q / 100 - rel_change_of v w) <= / 200 + slack v w \/
        (w < v)%N /\ ink no_color "32" ("-" ++ x) t /\ Rabs (RN q / 100 + rel_change_of v w) <= / 200 + slack v w)) \/
    (ink no_color "37" "+0.00" t \/ ink no_color "37" "-0.00" t) /\ Rabs (rel_change_of v w) <= slack v w).

Section Out.
  Variables (regex_remove : string -> option (string -> option string)) (render : bool -> list string -> list (list string) -> string).
  Variables (fp : format_params) (verbose : bool).
  (** How a path is shown: comma separated values have the whole path. *)
  Definition path_cell (path shown : string) : Prop :=
    match fp_format fp with CSV => shown = path | _ => shown_path regex_remove fp path shown end.
  Definition csv_line (fields : list string) : string := String.concat "," fields ++ String newline "".
  (** The formats of tables. *)
  Definition printable : Prop := fp_format fp = Human \/ fp_format fp = Markdown \/ fp_format fp = CSV /\ fp_print_terms fp = false.
  Definition columns : list string :=
    app ["File"; "Extrinsic"; "Old"; "New"; match fp_format fp with CSV => "Change Percent" | _ => "Change [%]" end]
      (if fp_print_terms fp then ["Old Weight Term"; "New Weight Term"; "Used variables"] else []).
  (** [out] is a table with these records. *)
  Definition prints (out : list string) (records : list (list string)) : Prop :=
    records = [] /\ out = app (no_changes verbose) [""] \/
    match fp_format fp with
    | Human => out = [render false columns records]
    | Markdown => out = [render true columns records]
    | CSV => out = [String.concat "" (map csv_line (columns :: records))]
    | _ => False
    end.
  (** The record for the function [snd k] of the file [fst k], with the old value [v], the new value [w] and [change]. *)
  Definition record_shows (d : dimension) (k : string * string) (v w : N) (change : string) (record : list string) : Prop :=
    exists path so sn terms, record = path :: snd k :: so :: sn :: change :: terms /\ path_cell (fst k) path /\ value_text d so v /\ value_text d sn w /\
      List.length terms = if fp_print_terms fp then 3%nat else 0%nat.
  (** A failed comparison; there is no such record among comma separated values. *)
  Definition error_record (k : string * string) (record : list string) : Prop :=
    fp_format fp <> CSV /\ exists path, record = [path; snd k; "-"; "-"; "ERROR"] /\ path_cell (fst k) path.

  (** ** Tables *)
  (** The measurements of the old and the new version of a function; the records with their functions. *)
  Variables (old new : string * string -> bench -> Prop) (rx : regex_engine) (meth : CompareM.method) (d : dimension) (f : fparams) (t : R)
    (table : list ((string * string) * list string)).
  Definition not_compared (k : string * string) (bo bn : bench) : Prop :=
    bench_incomparable meth bo bn /\ (fp_format fp = CSV \/ exists record, In (k, record) table /\ error_record k record).
  (** If the weight has grown by the threshold, anywhere in the ranges, then there is a red record for it. It shows the weights at some
      point of the ranges, and the growth there is not less, up to rounding. *)
  Definition prints_regressions : Prop := forall k bo bn rho,
    old k bo -> new k bn -> passes rx (f_pallet f) (fst k) -> passes rx (f_extrinsic f) (snd k) -> kind_selected f Changed ->
    tame_data d bo bn -> in_bench_box bo bn rho ->
    let v := bench_weight d rho bo in let w := bench_weight d rho bn in
    0 < t -> grown t v w ->
    (exists record change rho', In (k, record) table /\ in_bench_box bo bn rho' /\
       record_shows d k (bench_weight d rho' bo) (bench_weight d rho' bn) change record /\
       console_percent (fp_no_color fp) (bench_weight d rho' bo) (bench_weight d rho' bn) change /\
       (ink (fp_no_color fp) "31" " +inf" change \/
        exists x q, ink (fp_no_color fp) "31" ("+" ++ x) change /\ read_2 x = Some q /\ (forall h, RN h / 100 <= t -> (h <= q)%N) /\
          about v w - / 200 <= RN q / 100)) \/
    not_compared k bo bn.
  (** If the weight is lower by the threshold everywhere in the ranges, then there is a green record for it. *)
  Definition prints_improvements : Prop := forall k bo bn,
    old k bo -> new k bn -> passes rx (f_pallet f) (fst k) -> passes rx (f_extrinsic f) (snd k) -> kind_selected f Changed ->
    tame_data d bo bn -> 0 < t ->
    (forall rho, in_bench_box bo bn rho ->
       let v := bench_weight d rho bo in let w := bench_weight d rho bn in (0 < v)%N /\ rel_change_of v w <= - (t + slack v w)) ->
    (exists record change x q rho', In (k, record) table /\ in_bench_box bo bn rho' /\
       record_shows d k (bench_weight d rho' bo) (bench_weight d rho' bn) change record /\
       console_percent (fp_no_color fp) (bench_weight d rho' bo) (bench_weight d rho' bn) change /\
       ink (fp_no_color fp) "32" ("-" ++ x) change /\ read_2 x = Some q /\ forall h, RN h / 100 <= t -> (h <= q)%N) \/
    not_compared k bo bn.
  (** Every record shows the weights at some point of the ranges and the change from the one to the other, which is not below the
      threshold, up to rounding. No function has two records. *)
  Definition prints_truth : Prop := NoDup (map fst table) /\
    Forall (fun '(k, record) => passes rx (f_pallet f) (fst k) /\ passes rx (f_extrinsic f) (snd k) /\
      forall bo bn, old k bo -> new k bn -> tame_data d bo bn ->
      error_record k record /\ bench_incomparable meth bo bn \/
      exists rho change, in_bench_box bo bn rho /\
        let v := bench_weight d rho bo in let w := bench_weight d rho bn in
        record_shows d k v w change record /\
        (console_percent (fp_no_color fp) v w change /\ kind_selected f Changed /\ ((0 < v)%N -> t - slack v w <= Rabs (rel_change_of v w)) \/
         change = "Unchanged" /\ kind_selected f Unchanged /\ t = 0 /\ forall rho, in_bench_box bo bn rho -> bench_weight d rho bo = bench_weight d rho bn)) table.
  Definition prints_all (out : list string) : Prop :=
    prints out (map snd table) /\ prints_regressions /\ prints_improvements /\ prints_truth.
End Out.

(** ** Commands *)
(** The entries of the files. Errors of single files are ignored if [ignore] says so. *)
Definition entries_of (parse : fpath -> outcome (list cextrinsic)) (ignore : bool) (files : list fpath) (l : list cextrinsic) : Prop :=
  if ignore then gathers parse files l else all_of parse files l.
(** The commits that the two versions stand for: what git calls so, after fetching if that is asked for. *)
Definition stand_for (s : grepo) (ps : gparams) (old new : string) (c_old c_new : N) : Prop :=
  let fetch := g_pull ps = true /\ g_offline ps = false in
  let seen ref := if (g_pull ps && negb (g_offline ps))%bool then refreshed s ref else s in
  (fetch -> fetchable s old /\ fetchable s new /\ new <> "origin/" ++ old) /\
  if g_force ps then stands_for_reset (seen old) old c_old /\ stands_for_reset (seen new) new c_new /\ undisturbed (seen new) new
  else stands_for (seen old) old c_old /\ stands_for (seen new) new c_new.
