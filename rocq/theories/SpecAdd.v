(** Specification of what the results say about functions that only one of the two versions has. *)
From Coq Require Import List String Ascii NArith ZArith Bool Reals.
From Verif Require Import Base ScopeM TermM CompareM SpecCompare RowsM SpecRows SynM SpecFmt FilesM SpecFiles WebM SpecWeb CliM SpecCli SpecEnd SpecText SpecTmpl SpecShow SpecPrint.
Import ListNotations.
Local Open Scope string_scope.

(** ** Measurements *)
(** Components within their ranges, or from 0 to 100. *)
Definition in_ranges (b : bench) (rho : string -> N) : Prop := forall c, uses b c ->
  exists A lo hi, range_in b c A /\ inst Low A lo /\ inst High A hi /\ (lo <= rho c <= hi)%N.
(** No underscores in the names of components, and all weights are in the range of the tool's integers. *)
Definition tame_alone (d : dimension) (b : bench) : Prop :=
  (forall c, uses b c \/ In c (map fst (b_ranges b)) -> plain_name c) /\ forall rho, in_ranges b rho -> (bench_weight d rho b < u128_bound)%N.
(** The least weight that the function can have. *)
Definition least_weight (d : dimension) (b : bench) (v : N) : Prop :=
  (exists rho, in_ranges b rho /\ bench_weight d rho b = v) /\ forall rho, in_ranges b rho -> (v <= bench_weight d rho b)%N.

(** ** Files without the function *)
(** The text cannot be read, or it is a weight file without this function. *)
Definition text_lacks (text : string + string) (name : string) : Prop :=
  (exists e, text = inl e) \/
  exists u v d, text = inr (file_text u v d) /\ numerals u /\ numerals v /\ weights_ok d /\ forall b, In b (w_benches d) -> b_name b <> name.
Definition files_lack (texts : fpath -> string + string) (files : list fpath) (k : string * string) : Prop :=
  forall p, In p files -> named p (fst k) -> text_lacks (texts p) (snd k).
Definition data_lacks (glob : string -> option (list (option fpath))) (texts : fpath -> string + string) (repo : fpath) (pat : string)
    (k : string * string) : Prop :=
  (forall p, listed glob repo pat p -> exists rest, below repo p rest) /\
  forall p rest, listed glob repo pat p -> below repo p rest -> path_text rest = fst k -> text_lacks (texts p) (snd k).

(** ** Which version has the function *)
Inductive only := In_new | In_old.
Definition old_value (o : only) (v : N) : option N := match o with In_new => None | In_old => Some v end.
Definition new_value (o : only) (v : N) : option N := match o with In_new => Some v | In_old => None end.
Definition word (o : only) : string := match o with In_new => "Added" | In_old => "Removed" end.
Definition kind (o : only) : rel_change := match o with In_new => Added | In_old => Removed end.
(** Red for functions that were added, green for the others. *)
Definition colour (o : only) : string := match o with In_new => "31" | In_old => "32" end.
(** [b] are the measurements of [k] in the one version; the other version does not have it. *)
Definition only_in (o : only) (old_has new_has : string * string -> bench -> Prop) (old_lacks new_lacks : string * string -> Prop) (k : string * string) (b : bench) : Prop :=
  match o with In_new => old_lacks k /\ new_has k b | In_old => old_has k b /\ new_lacks k end.

(** ** The page *)
Definition opt_cell (d : dimension) (v : option N) (c : string) : Prop :=
  match v with Some v => value_cell d v c | None => exists a, c = cell a "-" /\ sort_key a 0 end.
Definition orange (x : string) : string := "<p style='color:orange'>" ++ x ++ "</p>".
Definition tr_shows_alone (d : dimension) (k : string * string) (o : only) (v : N) (tr : string) : Prop :=
  exists t0 a1 t1 r1 c2 c3 a4 a5 t5 t6 t7 t8, text_for t0 (fst k) /\ text_for t1 (snd k) /\ opt_cell d (old_value o v) c2 /\ opt_cell d (new_value o v) c3 /\
    tr = "<tr id=""" ++ fst k ++ "." ++ snd k ++ """>" ++ cell "" t0 ++ cell a1 (t1 ++ "<sup>" ++ r1) ++ c2 ++ c3 ++ cell a4 (orange (word o)) ++
      cell a5 t5 ++ cell "" t6 ++ cell "" t7 ++ cell "" t8 ++ "</tr>".
(** Every function that only one version has is in the table, with its least weight; whatever the threshold is. *)
Definition tells_only (only_has : only -> string * string -> bench -> Prop) (rx : regex_engine) (a : web_args) (page : string) : Prop := exists top trs,
  page = top ++ "<tbody>" ++ String.concat "" trs ++ "</tbody>" /\
  (forall o k b, only_has o k b -> passes rx (wa_pallet a) (fst k) -> passes rx (wa_extrinsic a) (snd k) -> tame_alone (wa_unit a) b ->
     (exists tr v, In tr trs /\ least_weight (wa_unit a) b v /\ tr_shows_alone (wa_unit a) k o v tr) \/
     incomparable (wa_method a) (uses b) (range_in b) /\ complains page k) /\
  Forall (fun tr => exists k, (exists rest, tr = "<tr id=""" ++ fst k ++ "." ++ snd k ++ """>" ++ rest) /\
    forall o b, only_has o k b -> tame_alone (wa_unit a) b -> exists v, least_weight (wa_unit a) b v /\ tr_shows_alone (wa_unit a) k o v tr) trs.

(** ** The command line *)
Section Out.
  Variables (regex_remove : string -> option (string -> option string)) (fp : format_params).
  (** The other version's value is empty. *)
  Definition opt_text (d : dimension) (v : option N) (s : string) : Prop := match v with Some v => value_text d s v | None => s = "" end.
  Definition record_alone (d : dimension) (k : string * string) (o : only) (v : N) (record : list string) : Prop :=
    exists path so sn change terms, record = path :: snd k :: so :: sn :: change :: terms /\ path_cell regex_remove fp (fst k) path /\
      opt_text d (old_value o v) so /\ opt_text d (new_value o v) sn /\ ink (fp_no_color fp) (colour o) (word o) change /\
      List.length terms = if fp_print_terms fp then 3%nat else 0%nat.
  Definition prints_only (only_has : only -> string * string -> bench -> Prop) (rx : regex_engine) (meth : CompareM.method) (d : dimension) (f : fparams)
      (table : list ((string * string) * list string)) : Prop :=
    (forall o k b, only_has o k b -> passes rx (f_pallet f) (fst k) -> passes rx (f_extrinsic f) (snd k) -> kind_selected f (kind o) -> tame_alone d b ->
       (exists record v, In (k, record) table /\ least_weight d b v /\ record_alone d k o v record) \/
       incomparable meth (uses b) (range_in b) /\ (fp_format fp = CSV \/ exists record, In (k, record) table /\ error_record regex_remove fp k record)) /\
    NoDup (map fst table) /\
    Forall (fun '(k, record) => forall o b, only_has o k b -> tame_alone d b ->
      error_record regex_remove fp k record /\ incomparable meth (uses b) (range_in b) \/
      kind_selected f (kind o) /\ exists v, least_weight d b v /\ record_alone d k o v record) table.
End Out.

(** ** Single comparisons *)
(** No range is empty. *)
Definition proper (a b : option sextrinsic) : Prop := forall c r, In r (annotations a b c) -> (rmin r <= rmax r)%N.
