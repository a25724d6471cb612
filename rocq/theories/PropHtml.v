(** Properties of the cells of the web page (C52, C53). *)
From Coq Require Import List String Ascii NArith ZArith Bool Reals Floats.SpecFloat.
From Verif Require Import Base ScopeM TermM F64 SpecF64 CompareM SpecCompare RowsM SpecRows FmtM CliM SpecCli HtmlM.
From Verif Require HtmlP CliP.
Import ListNotations.
Local Open Scope string_scope.

(** ** C52: the keys by which the table is sorted. *)
Theorem C52_kinds : forall a b o n, (o < u128_bound)%N -> (n < u128_bound)%N ->
  (tc_change a = Changed -> tc_percent a = percent o n) ->
  (tc_change b = Removed -> tc_change a <> Removed -> (order_percent b < order_percent a)%Z) /\
  (tc_change b = Added -> tc_change a <> Added -> (order_percent a < order_percent b)%Z).
Proof. exact HtmlP.order_kinds. Qed.
Print Assumptions C52_kinds.
Theorem C52_monotone : forall a b, tc_change a = Changed -> tc_change b = Changed ->
  is_double (tc_percent a) -> is_double (tc_percent b) ->
  f64_leq (tc_percent a) (tc_percent b) -> (order_percent a <= order_percent b)%Z.
Proof. exact HtmlP.order_mono. Qed.
Print Assumptions C52_monotone.
(** Percentages that differ by three thousandths or more have different keys, up to four million percent. *)
Theorem C52_strict : forall a b x y, tc_change a = Changed -> tc_change b = Changed ->
  is_double (tc_percent a) -> is_double (tc_percent b) -> has_value (tc_percent a) x -> has_value (tc_percent b) y ->
  (Rabs x <= 4000000)%R -> (Rabs y <= 4000000)%R -> (x + 3 / 1000 <= y)%R -> (order_percent a < order_percent b)%Z.
Proof. exact HtmlP.order_strict. Qed.
Print Assumptions C52_strict.
Definition ex_change (k : rel_change) (o n : N) : term_change :=
  {| tc_old := Some (Scalar o); tc_old_v := Some o; tc_new := Some (Scalar n); tc_new_v := Some n; tc_scope := [];
     tc_percent := percent o n; tc_change := k; tc_method := Base |}.
(** Beyond that, very different changes are alike. *)
Theorem C52_large_refuted : exists a b, tc_change a = Changed /\ tc_change b = Changed /\
  f64_lt (tc_percent a) (tc_percent b) = true /\ order_percent a = order_percent b.
Proof. exists (ex_change Changed 1 100000), (ex_change Changed 1 900000). vm_compute. auto. Qed.
Print Assumptions C52_large_refuted.
Theorem C52_abs : forall m c o n, tc_change c = Changed -> tc_old_v c = Some o -> tc_new_v c = Some n ->
  (o < 2 ^ 127)%N -> (n < 2 ^ 127)%N -> order_abs m c = Ok (Z.of_N n - Z.of_N o)%Z.
Proof. exact HtmlP.order_abs_exact. Qed.
Print Assumptions C52_abs.
Theorem C52_abs_kinds : forall m a b o n,
  (tc_change a = Changed -> tc_old_v a = Some o /\ tc_new_v a = Some n /\ (o < 2 ^ 127)%N /\ (n < 2 ^ 127)%N) ->
  exists x y, order_abs m a = Ok x /\ (tc_change b <> Changed -> order_abs m b = Ok y) /\
  (tc_change b = Removed -> tc_change a <> Removed -> (y < x)%Z) /\
  (tc_change b = Added -> tc_change a <> Added -> (x < y \/ (n = 2 ^ 127 - 1)%N /\ o = 0%N)%Z).
Proof. exact HtmlP.order_abs_kinds. Qed.
Print Assumptions C52_abs_kinds.
(** From 2^127 on the key has the wrong sign, or the page cannot be rendered. *)
Theorem C52_abs_refuted : exists c c', tc_change c = Changed /\ tc_old_v c = Some 1%N /\ tc_new_v c = Some (2 ^ 127)%N /\
  order_abs Wrapping c = Ok (2 ^ 127 - 1)%Z /\ is_ok (order_abs Checked c) = false /\
  tc_change c' = Changed /\ tc_old_v c' = Some 0%N /\ tc_new_v c' = Some (2 ^ 127)%N /\ order_abs Checked c' = Ok (- 2 ^ 127)%Z.
Proof. exists (ex_change Changed 1 (2 ^ 127)), (ex_change Changed 0 (2 ^ 127)). vm_compute. repeat split. Qed.
Print Assumptions C52_abs_refuted.
Example C52_ex :
  map order_percent [ex_change Removed 3 0; ex_change Changed 4 3; ex_change Unchanged 3 3; ex_change Changed 3 4; ex_change Changed 0 5; ex_change Added 0 3] =
    [(- 2 ^ 127)%Z; (-25000)%Z; 0%Z; 33333%Z; (2 ^ 32 - 1)%Z; (2 ^ 127 - 1)%Z] /\
  order_abs Checked (ex_change Changed 4 3) = Ok (-1)%Z.
Proof. split; vm_compute; reflexivity. Qed.

(** ** C53: the colours on the page. *)
Theorem C53_html : forall p, is_double p ->
  (negative p <-> in_html "green" "-" (fmt_2 (f64_abs p) ++ "%") (html_color_percent p Changed)) /\
  (positive p <-> in_html "red" "+" (fmt_2 (f64_abs p) ++ "%") (html_color_percent p Changed)) /\
  (p = S754_nan <-> html_color_percent p Changed = "NaN") /\
  (has_value p 0%R <-> In (html_color_percent p Changed) ["0"; "-0"]).
Proof. exact HtmlP.html_colours. Qed.
Print Assumptions C53_html.
Theorem C53_html_abs : forall m c o n dim, tc_change c = Changed -> tc_old_v c = Some o -> tc_new_v c = Some n ->
  (o < 2 ^ 127)%N -> (n < 2 ^ 127)%N ->
  exists s, html_color_abs m c dim = Ok s /\
  ((n < o)%N <-> in_html "green" "-" (fmt_value dim (o - n)) s) /\
  ((o < n)%N <-> in_html "red" "+" (fmt_value dim (n - o)) s) /\
  (n = o <-> s = "0").
Proof. exact HtmlP.html_abs. Qed.
Print Assumptions C53_html_abs.
(** The two columns can disagree: red beside "0". *)
Theorem C53_agree_refuted : exists c, tc_change c = Changed /\
  html_color_percent (tc_percent c) (tc_change c) = "0" /\ html_color_abs Checked c Time = Ok "<p style='color:red'>+1ps</p>".
Proof. exists (ex_change Changed (2 ^ 60) (2 ^ 60 + 1)). vm_compute. repeat split. Qed.
Print Assumptions C53_agree_refuted.
Example C53_ex : is_double (percent 4 3) /\ negative (percent 4 3) /\ html_color_percent (percent 4 3) Changed = "<p style='color:green'>-25.00%</p>" /\
  html_color_abs Checked (ex_change Changed 4000 3000) Time = Ok "<p style='color:green'>-1.00ns</p>".
Proof.
  split; [vm_compute; reflexivity|]. split; [apply CliP.negative_spec; vm_compute; reflexivity|]. split; vm_compute; reflexivity.
Qed.
