(** Lemmas about the cells of the web page. *)
From Coq Require Import List String Ascii NArith ZArith Bool Lia Reals Lra Floats.SpecFloat.
From Verif Require Import Base ScopeM TermM F64 SpecF64 CompareM SpecCompare RowsM SpecRows FmtM CliM SpecCli HtmlM.
From Verif Require RowsP MilsP PercentP CliP F64P.
Import ListNotations.

(** ** Keys *)
Lemma order_changed c : tc_change c = Changed -> order_percent c = Z.min (mils (tc_percent c)) u32_max.
Proof. unfold order_percent. now intros ->. Qed.
Lemma order_mono a b : tc_change a = Changed -> tc_change b = Changed -> is_double (tc_percent a) -> is_double (tc_percent b) ->
  f64_leq (tc_percent a) (tc_percent b) -> (order_percent a <= order_percent b)%Z.
Proof.
  intros Ca Cb Da Db L. rewrite (order_changed a), (order_changed b) by assumption. pose proof (MilsP.mils_mono _ _ Da Db L). lia.
Qed.
Lemma mils_range_percent o n : (o < u128_bound)%N -> (n < u128_bound)%N -> (-100000 <= mils (percent o n))%Z.
Proof.
  intros Ho Hn. destruct (PercentP.percent_special_lemma o n Ho Hn) as (P1 & P2 & P3 & P4 & _).
  destruct (N.eq_0_gt_0_cases o) as [->|Po].
  - destruct (N.eq_0_gt_0_cases n) as [->|Pn].
    + rewrite (proj2 P1) by auto. vm_compute. discriminate.
    + rewrite (proj2 P2) by auto. vm_compute. discriminate.
  - assert (F := PercentP.percent_isF o n Ho Hn Po). destruct (P4 Po) as (r & V & L).
    assert (E : (100 < 2 ^ 53)%N) by reflexivity.
    assert (F0 : F64P.isF (f64_sub (f64_of_N 0) (f64_of_N 100)) (-100)).
    { apply MilsP.double_isF; [reflexivity|]. vm_compute. lra. }
    assert (K := MilsP.mils_mono_isF _ _ _ _ F0 F). assert (mils (f64_sub (f64_of_N 0) (f64_of_N 100)) = -100000)%Z by (vm_compute; reflexivity).
    rewrite H in K. apply K. rewrite (PercentP.has_value_fun _ _ _ (PercentP.isF_has_value _ _ F) V). exact L.
Qed.
Lemma order_kinds a b o n : (o < u128_bound)%N -> (n < u128_bound)%N ->
  (tc_change a = Changed -> tc_percent a = percent o n) ->
  (tc_change b = Removed -> tc_change a <> Removed -> (order_percent b < order_percent a)%Z) /\
  (tc_change b = Added -> tc_change a <> Added -> (order_percent a < order_percent b)%Z).
Proof.
  intros Ho Hn P. pose proof (mils_range_percent o n Ho Hn) as M. unfold order_percent.
  split; intros -> N; destruct (tc_change a); try congruence; try (rewrite P by reflexivity; fold (mils (percent o n))); unfold i128_min, i128_max, u32_max; lia.
Qed.
Lemma order_strict a b x y : tc_change a = Changed -> tc_change b = Changed -> is_double (tc_percent a) -> is_double (tc_percent b) ->
  has_value (tc_percent a) x -> has_value (tc_percent b) y ->
  (Rabs x <= 4000000)%R -> (Rabs y <= 4000000)%R -> (x + 3 / 1000 <= y)%R -> (order_percent a < order_percent b)%Z.
Proof.
  intros Ca Cb Da Db Vx Vy Bx By L. rewrite (order_changed a), (order_changed b) by assumption.
  assert (P110 : (4000000 <= powerRZ 2 110)%R).
  { rewrite <- PercentP.bpow_powerRZ. change (Raux.bpow Zaux.radix2 110) with (IZR (2 ^ 110)). apply IZR_le. vm_compute. discriminate. }
  destruct (MilsP.mils_accuracy _ _ Da Vx) as (Ax & _); [lra|]. destruct (MilsP.mils_accuracy _ _ Db Vy) as (Ay & _); [lra|].
  assert (E52 : (0 <= powerRZ 2 (-52) <= / 100000000000)%R).
  { rewrite <- PercentP.bpow_powerRZ. change (Raux.bpow Zaux.radix2 (-52)) with (/ IZR (2 ^ 52))%R. split.
    - apply Rlt_le, Rinv_0_lt_compat, IZR_lt. reflexivity.
    - apply Rinv_le_contravar; [lra|]. apply IZR_le. vm_compute. discriminate. }
  assert (Q : forall z, (Rabs z <= 4000000)%R -> (powerRZ 2 (-52) * (Rabs (1000 * z) + 1) <= 1 / 20)%R).
  { intros z Bz. rewrite Rabs_mult, (Rabs_pos_eq 1000) by lra. pose proof (Rabs_pos z). nra. }
  pose proof (Q _ Bx). pose proof (Q _ By). apply Raux.Rabs_lt_inv in Ax, Ay. apply Raux.Rabs_le_inv in Bx, By.
  assert (K1 : (IZR (mils (tc_percent a)) < IZR (mils (tc_percent b)))%R) by lra. apply lt_IZR in K1.
  assert (K2 : (IZR (mils (tc_percent a)) < IZR u32_max)%R) by (change (IZR u32_max) with 4294967295%R; lra). apply lt_IZR in K2. lia.
Qed.

(** ** Absolute changes *)
Lemma as_i128_small v : (v < 2 ^ 127)%N -> as_i128 v = Z.of_N v.
Proof.
  intros H. unfold as_i128. destruct (Z.leb_spec (Z.of_N v) i128_max) as [L|L]; [reflexivity|]. exfalso.
  unfold i128_max in L. apply N2Z.inj_lt in H. change (Z.of_N (2 ^ 127)) with (2 ^ 127)%Z in H. lia.
Qed.
Lemma abs_diff_small m c o n : tc_old_v c = Some o -> tc_new_v c = Some n -> (o < 2 ^ 127)%N -> (n < 2 ^ 127)%N ->
  abs_diff m c = Ok (Z.of_N n - Z.of_N o)%Z.
Proof.
  intros Eo En Ho Hn. unfold abs_diff. rewrite Eo, En, !as_i128_small by assumption. unfold i128_sub, i128_min, i128_max.
  apply N2Z.inj_lt in Ho, Hn. change (Z.of_N (2 ^ 127)) with (2 ^ 127)%Z in *.
  destruct (Z.leb_spec (- 2 ^ 127) (Z.of_N n - Z.of_N o)); [|lia]. destruct (Z.leb_spec (Z.of_N n - Z.of_N o) (2 ^ 127 - 1)); [reflexivity|lia].
Qed.
Lemma order_abs_exact m c o n : tc_change c = Changed -> tc_old_v c = Some o -> tc_new_v c = Some n -> (o < 2 ^ 127)%N -> (n < 2 ^ 127)%N ->
  order_abs m c = Ok (Z.of_N n - Z.of_N o)%Z.
Proof. intros C. unfold order_abs. rewrite C. apply abs_diff_small. Qed.
Lemma order_abs_kinds m a b o n : (tc_change a = Changed -> tc_old_v a = Some o /\ tc_new_v a = Some n /\ (o < 2 ^ 127)%N /\ (n < 2 ^ 127)%N) ->
  exists x y, order_abs m a = Ok x /\ (tc_change b <> Changed -> order_abs m b = Ok y) /\
  (tc_change b = Removed -> tc_change a <> Removed -> (y < x)%Z) /\ (tc_change b = Added -> tc_change a <> Added -> (x < y \/ (n = 2 ^ 127 - 1)%N /\ o = 0%N)%Z).
Proof.
  intros P. destruct (tc_change a) eqn:Ca.
  all: try (exists (match order_abs m a with Ok x => x | _ => 0%Z end), (match order_abs m b with Ok y => y | _ => 0%Z end)).
  1, 2, 3: unfold order_abs; rewrite Ca; (split; [reflexivity|]); destruct (tc_change b); repeat split; intros; try congruence; unfold i128_min, i128_max; try lia.
  destruct (P eq_refl) as (Eo & En & Ho & Hn). rewrite (order_abs_exact m a o n Ca Eo En Ho Hn). split; [reflexivity|].
  unfold order_abs. apply N2Z.inj_lt in Ho, Hn. change (Z.of_N (2 ^ 127)) with (2 ^ 127)%Z in *.
  destruct (tc_change b); repeat split; intros; try congruence; unfold i128_min, i128_max; try lia.
Qed.

(** ** Colours *)
Lemma after_sign s colour sign body : in_html colour sign body s -> exists t, s = append "<p style='color:" (append colour t).
Proof. intros ->. eexists. reflexivity. Qed.
Lemma html_colours0 p : is_double p ->
  (negative p <-> in_html "green" "-" (append (fmt_2 (f64_abs p)) "%") (html_color_percent p Changed)) /\
  (positive p <-> in_html "red" "+" (append (fmt_2 (f64_abs p)) "%") (html_color_percent p Changed)) /\
  ((p = S754_nan \/ has_value p 0) <-> In (html_color_percent p Changed) ["0"; "-0"; "NaN"]%string).
Proof.
  intros D. unfold html_color_percent.
  assert (Z : (p = S754_nan \/ has_value p 0) -> ~ negative p /\ ~ positive p).
  { intros [->|V]; [split; intros [A _]; exact A|]. split; intros [A B]; apply B.
    - destruct p as [s|[]| |s m e]; cbn in V; try contradiction; exists 0%R, 0%R; repeat split; auto; lra.
    - destruct p as [s|[]| |s m e]; cbn in V; try contradiction; exists 0%R, 0%R; repeat split; auto; lra. }
  assert (App : forall a b c : string, append (append a b) c = append a (append b c)).
  { induction a as [|x a IH]; intros; cbn; [reflexivity|now rewrite IH]. }
  pose proof (CliP.negative_spec p D) as N. pose proof (CliP.positive_spec p D) as P. pose proof (CliP.neutral_spec p D) as O. pose proof (CliP.not_both p D) as B.
  destruct (f64_lt p f64_zero) eqn:E1; [|destruct (f64_gt p f64_zero) eqn:E2].
  - assert (negative p) by now apply N. split; [split; [intros _; unfold in_html; rewrite App; reflexivity|auto]|]. split; (split; [intros K|]).
    + elim (B H K).
    + discriminate.
    + now destruct (Z K).
    + cbn. intros [K|[K|[K|[]]]]; discriminate.
  - assert (positive p) by now apply P. split; [split; [|discriminate]|].
    + intros K. elim (B K H).
    + split; [split; [intros _; unfold in_html; rewrite App; reflexivity|auto]|]. split; [intros K; now destruct (Z K)|].
      cbn. intros [K|[K|[K|[]]]]; discriminate.
  - assert (K1 : ~ negative p) by (intros K; apply N in K; discriminate).
    assert (K2 : ~ positive p) by (intros K; apply P in K; discriminate).
    split; [split; [intros K; now elim K1|]|].
    + unfold in_html, fmt_zero. destruct p as [[]|s| |s m e]; discriminate.
    + split; [split; [intros K; now elim K2|]|].
      * unfold in_html, fmt_zero. destruct p as [[]|s| |s m e]; discriminate.
      * split; [|intros _; auto]. unfold fmt_zero. intros _. destruct p as [[]|s| |s m e]; cbn; auto.
Qed.
Lemma html_colours p : is_double p ->
  (negative p <-> in_html "green" "-" (append (fmt_2 (f64_abs p)) "%") (html_color_percent p Changed)) /\
  (positive p <-> in_html "red" "+" (append (fmt_2 (f64_abs p)) "%") (html_color_percent p Changed)) /\
  (p = S754_nan <-> html_color_percent p Changed = "NaN"%string) /\
  (has_value p 0 <-> In (html_color_percent p Changed) ["0"; "-0"]%string).
Proof.
  intros D. destruct (html_colours0 p D) as (A & B & C). split; [exact A|]. split; [exact B|].
  destruct p as [s|s| |s m e].
  - assert (V : has_value (S754_zero s) 0) by (destruct (proj2 C) as [K|K]; [destruct s; cbn; auto|discriminate K|exact K]).
    split; [split; [discriminate|destruct s; discriminate]|]. split; [intros _; destruct s; cbn; auto|auto].
  - split; (split; [|intros K]); try discriminate.
    + exfalso. destruct s; vm_compute in K; discriminate.
    + intros K. cbn in K. contradiction.
    + exfalso. destruct s; cbn in K; destruct K as [K|[K|[]]]; vm_compute in K; discriminate.
  - split; [split; reflexivity|]. split; [intros K; cbn in K; contradiction|]. cbn. intros [K|[K|[]]]; discriminate.
  - split.
    + split; [discriminate|]. intros K. assert (X : In (html_color_percent (S754_finite s m e) Changed) ["0"; "-0"; "NaN"]%string) by (rewrite K; cbn; auto).
      apply C in X. destruct X as [X|X]; [discriminate|]. exfalso. destruct s; vm_compute in K; discriminate.
    + split.
      * intros V. assert (X : In (html_color_percent (S754_finite s m e) Changed) ["0"; "-0"; "NaN"]%string) by (apply C; auto).
        destruct X as [X|[X|[X|[]]]]; [left; exact X|right; left; exact X|]. exfalso. destruct s; vm_compute in X; discriminate.
      * intros K. assert (X : In (html_color_percent (S754_finite s m e) Changed) ["0"; "-0"; "NaN"]%string) by (destruct K as [K|[K|[]]]; rewrite <- K; cbn; auto).
        apply C in X. destruct X as [X|X]; [discriminate|exact X].
Qed.
Lemma html_abs m c o n dim : tc_change c = Changed -> tc_old_v c = Some o -> tc_new_v c = Some n -> (o < 2 ^ 127)%N -> (n < 2 ^ 127)%N ->
  exists s, html_color_abs m c dim = Ok s /\
  ((n < o)%N <-> in_html "green" "-" (fmt_value dim (o - n)) s) /\
  ((o < n)%N <-> in_html "red" "+" (fmt_value dim (n - o)) s) /\
  (n = o <-> s = "0"%string).
Proof.
  intros C Eo En Ho Hn. unfold html_color_abs. rewrite C, (abs_diff_small m c o n Eo En Ho Hn). cbn [bind]. eexists. split; [reflexivity|].
  destruct (Z.ltb_spec (Z.of_N n - Z.of_N o) 0); [|destruct (Z.ltb_spec 0 (Z.of_N n - Z.of_N o))].
  - replace (Z.abs_N (Z.of_N n - Z.of_N o)) with (o - n)%N by lia. split; [split; [reflexivity|lia]|].
    split; split; try discriminate; intros; lia.
  - replace (Z.abs_N (Z.of_N n - Z.of_N o)) with (n - o)%N by lia. split; [split; [lia|discriminate]|].
    split; [split; [reflexivity|lia]|]. split; [lia|discriminate].
  - split; [split; [lia|discriminate]|]. split; [split; [lia|discriminate]|]. split; [reflexivity|lia].
Qed.
