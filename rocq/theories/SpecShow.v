(** Specification of what the page with the results says about the measurements of two commits. *)
From Coq Require Import List String Ascii NArith ZArith Bool Reals.
From Verif Require Import Base ScopeM TermM CompareM SpecCompare RowsM SpecRows SpecF64 SynM SpecFmt FilesM SpecFiles WebM SpecWeb SpecEnd SpecText SpecTmpl.
Import ListNotations.
Local Open Scope string_scope.
Local Open Scope R_scope.

(** ** Cells *)
(** The browser shows [s]. *)
Definition text_for (t s : string) : Prop := mild t /\ decodes t s.
(** The number [v] in the best unit for it, with two decimals if this is not the smallest unit. *)
Definition value_text (d : dimension) (s : string) (v : N) : Prop := exists suffix scale q,
  best_unit (units_of d) v suffix scale /\ SpecFmt.shows s suffix scale q /\
  Rabs (RN q / 100 - RN v / RN scale) <= / 200 + powerRZ 2 (-51) * (RN v / RN scale) /\ (scale = 1%N -> q = (100 * v)%N).
(** The cell shows [v]; the table is sorted by the exact number. *)
Definition value_cell (d : dimension) (v : N) (c : string) : Prop :=
  exists a t s, c = cell a t /\ sort_key a (Z.of_N v) /\ text_for t s /\ value_text d s v.
Definition red (x : string) : string := "<p style='color:red'>+" ++ x ++ "%</p>".
Definition green (x : string) : string := "<p style='color:green'>-" ++ x ++ "%</p>".
Definition unchanged : string := "<p style='color:gray'>Unchanged</p>".
(** The change from [v] to [w] in percent, with two decimals: red is more, green is less. *)
Definition percent_text (v w : N) (t : string) : Prop :=
  (v = 0 /\ w = 0)%N /\ t = "NaN" \/ (v = 0 /\ 0 < w)%N /\ t = red "inf" \/
  (0 < v)%N /\ (
    (exists x q, read_2 x = Some q /\
       ((v < w)%N /\ t = red x /\ Rabs (RN q / 100 - rel_change_of v w) <= / 200 + slack v w \/
        (w < v)%N /\ t = green x /\ Rabs (RN q / 100 + rel_change_of v w) <= / 200 + slack v w)) \/
    (t = "0" \/ t = "-0") /\ Rabs (rel_change_of v w) <= slack v w).
(** The row for the function [snd k] of the file [fst k]: nine cells, with the old value [v], the new value [w] and [change]. *)
Definition tr_shows (d : dimension) (k : string * string) (v w : N) (change tr : string) : Prop :=
  exists t0 a1 t1 r1 c2 c3 a4 a5 t5 t6 t7 t8, text_for t0 (fst k) /\ text_for t1 (snd k) /\ value_cell d v c2 /\ value_cell d w c3 /\
    tr = "<tr id=""" ++ fst k ++ "." ++ snd k ++ """>" ++ cell "" t0 ++ cell a1 (t1 ++ "<sup>" ++ r1) ++ c2 ++ c3 ++ cell a4 change ++
      cell a5 t5 ++ cell "" t6 ++ cell "" t7 ++ cell "" t8 ++ "</tr>".

(** ** Measurements *)
(** What cannot be compared: more than 16 components; or the method does not guess, and a range is missing or different. *)
Definition incomparable (meth : CompareM.method) (used : string -> Prop) (ranges : string -> list comp_range -> Prop) : Prop :=
  (exists l, NoDup l /\ (16 < List.length l)%nat /\ forall c, In c l -> used c) \/
  meth = ExactWorst /\ exists c A, used c /\ ranges c A /\ ~ unambiguous A.
Definition bench_ranges (bo bn : bench) (c : string) (A : list comp_range) : Prop :=
  exists Ao An, A = app Ao An /\ range_in bo c Ao /\ range_in bn c An.
Definition bench_incomparable (meth : CompareM.method) (bo bn : bench) : Prop :=
  incomparable meth (fun c => uses bo c \/ uses bn c) (bench_ranges bo bn).
(** A message about the function. *)
Definition complains (page : string) (k : string * string) : Prop :=
  exists e, occurs (fst k ++ "::" ++ snd k) e /\ occurs (e ++ "<br>") page.

Section Pages.
  (** The measurements of the old and the new version of a function. *)
  Variables (old new : string * string -> bench -> Prop) (rx : regex_engine) (a : web_args) (page : string).
  Let d := wa_unit a.
  Let t := RN (wa_threshold a).
  (** If the weight has grown by the threshold, anywhere in the ranges, then the page has a red row for it. It shows the weights at
      some point of the ranges, and the growth there is not less, up to rounding. *)
  Definition tells_regressions : Prop := forall k bo bn rho,
    old k bo -> new k bn -> passes rx (wa_pallet a) (fst k) -> passes rx (wa_extrinsic a) (snd k) ->
    tame_data d bo bn -> in_bench_box bo bn rho ->
    let v := bench_weight d rho bo in let w := bench_weight d rho bn in
    (0 < wa_threshold a)%N -> grown t v w ->
    (exists tr x rho', occurs tr page /\ in_bench_box bo bn rho' /\
       tr_shows d k (bench_weight d rho' bo) (bench_weight d rho' bn) (red x) tr /\ percent_text (bench_weight d rho' bo) (bench_weight d rho' bn) (red x) /\
       (x = "inf" \/ exists q, read_2 x = Some q /\ t <= RN q / 100 /\ about v w - / 200 <= RN q / 100)) \/
    bench_incomparable (wa_method a) bo bn /\ complains page k.
  (** If the weight is lower by the threshold everywhere in the ranges, then the page has a green row for it. *)
  Definition tells_improvements : Prop := forall k bo bn,
    old k bo -> new k bn -> passes rx (wa_pallet a) (fst k) -> passes rx (wa_extrinsic a) (snd k) ->
    tame_data d bo bn -> (0 < wa_threshold a)%N ->
    (forall rho, in_bench_box bo bn rho ->
       let v := bench_weight d rho bo in let w := bench_weight d rho bn in (0 < v)%N /\ rel_change_of v w <= - (t + slack v w)) ->
    (exists tr x q rho', occurs tr page /\ in_bench_box bo bn rho' /\
       tr_shows d k (bench_weight d rho' bo) (bench_weight d rho' bn) (green x) tr /\
       percent_text (bench_weight d rho' bo) (bench_weight d rho' bn) (green x) /\ read_2 x = Some q /\ t <= RN q / 100) \/
    bench_incomparable (wa_method a) bo bn /\ complains page k.
  (** Every row of the table shows the weights at some point of the ranges and the change from the one to the other, which is not below
      the threshold, up to rounding. *)
  Definition tells_truth : Prop := exists top trs, page = top ++ "<tbody>" ++ String.concat "" trs ++ "</tbody>" /\
    Forall (fun tr => exists k, (exists rest, tr = "<tr id=""" ++ fst k ++ "." ++ snd k ++ """>" ++ rest) /\
      forall bo bn, old k bo -> new k bn -> tame_data d bo bn ->
      exists rho change, in_bench_box bo bn rho /\
        let v := bench_weight d rho bo in let w := bench_weight d rho bn in
        tr_shows d k v w change tr /\
        (percent_text v w change /\ ((0 < v)%N -> t - slack v w <= Rabs (rel_change_of v w)) \/
         change = unchanged /\ wa_threshold a = 0%N /\ forall rho, in_bench_box bo bn rho -> bench_weight d rho bo = bench_weight d rho bn)) trs.
End Pages.
