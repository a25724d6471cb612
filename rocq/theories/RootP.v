(** Proofs about the start page. *)
From Coq Require Import List String Bool Arith Lia.
From Verif Require Import SiteM RootM SpecFmt SpecWeb SpecSite SpecRoot.
From Verif Require SiteP.
Import ListNotations.
Local Open Scope string_scope.

Lemma react_visit repos st e es p : visit repos st (e :: es) = Some p -> exists p0, visit repos st es = Some p0 /\ react repos e p0 = Some p.
Proof. cbn [visit]. destruct (visit repos st es) as [p0|]; [eauto|discriminate]. Qed.
Lemma ready_eq st : ready st = {| pg_repo := None; pg_box := fun _ => empty_box; pg_seen_repo := ""; pg_seen := fun _ => ""; pg_known := [];
  pg_storage := st; pg_waiting := []; pg_loading := false |}.
Proof. unfold ready. destruct (entry key_repo st) as [[|c s]|]; reflexivity. Qed.

(** The parts of the page that the handlers leave alone. *)
Lemma changed_known d p : pg_known (changed d p) = pg_known p. Proof. unfold changed. destruct (bx_value (pg_box p d)) as [[|c s]|]; reflexivity. Qed.
Lemma changed_repo d p : pg_repo (changed d p) = pg_repo p. Proof. unfold changed. destruct (bx_value (pg_box p d)) as [[|c s]|]; reflexivity. Qed.
Lemma changed_seenr d p : pg_seen_repo (changed d p) = pg_seen_repo p. Proof. unfold changed. destruct (bx_value (pg_box p d)) as [[|c s]|]; reflexivity. Qed.
Lemma changed_waiting d p : pg_waiting (changed d p) = pg_waiting p. Proof. unfold changed. destruct (bx_value (pg_box p d)) as [[|c s]|]; reflexivity. Qed.
Lemma changed_loading d p : pg_loading (changed d p) = pg_loading p. Proof. unfold changed. destruct (bx_value (pg_box p d)) as [[|c s]|]; reflexivity. Qed.
Lemma changed_box d p : pg_box (changed d p) = pg_box p. Proof. unfold changed. destruct (bx_value (pg_box p d)) as [[|c s]|]; reflexivity. Qed.
Lemma changed_seen d p : pg_seen (changed d p) = match bx_value (pg_box p d) with None | Some "" => pg_seen p | Some v => on_side (pg_seen p) d v end.
Proof. unfold changed. destruct (bx_value (pg_box p d)) as [[|c s]|]; reflexivity. Qed.
Lemma populate_known l p : pg_known (populate l p) = pg_known p.
Proof. unfold populate, choose_last. now rewrite !changed_known; cbn [set_box pg_known]; rewrite !changed_known; cbn [set_box pg_known]; rewrite !changed_known. Qed.
Lemma populate_repo l p : pg_repo (populate l p) = pg_repo p.
Proof. unfold populate, choose_last. now rewrite !changed_repo; cbn [set_box pg_repo]; rewrite !changed_repo; cbn [set_box pg_repo]; rewrite !changed_repo. Qed.
Lemma populate_seenr l p : pg_seen_repo (populate l p) = pg_seen_repo p.
Proof. unfold populate, choose_last. now rewrite !changed_seenr; cbn [set_box pg_seen_repo]; rewrite !changed_seenr; cbn [set_box pg_seen_repo]; rewrite !changed_seenr. Qed.
Lemma populate_waiting l p : pg_waiting (populate l p) = pg_waiting p.
Proof. unfold populate, choose_last. now rewrite !changed_waiting; cbn [set_box pg_waiting]; rewrite !changed_waiting; cbn [set_box pg_waiting]; rewrite !changed_waiting. Qed.
Lemma populate_loading l p : pg_loading (populate l p) = pg_loading p.
Proof. unfold populate, choose_last. now rewrite !changed_loading; cbn [set_box pg_loading]; rewrite !changed_loading; cbn [set_box pg_loading]; rewrite !changed_loading. Qed.

Lemma includes_false l s : includes l s = false. Proof. unfold includes. induction l as [|b l IH]; [reflexivity|exact IH]. Qed.
Lemma on_same {A} (f : side -> A) d a : on_side f d a d = a. Proof. now destruct d. Qed.
Definition default (l : list branch) : option string := if existsb (fun b => String.eqb (fst b) "master") l then Some "master" else None.
Lemma existsb_map {A B} (f : A -> B) g l : existsb g (map f l) = existsb (fun a => g (f a)) l.
Proof. induction l as [|a l IH]; [reflexivity|]. cbn. now rewrite IH. Qed.
Lemma default_opt l : (if existsb (fun o : string * string => String.eqb (snd o) "master") (options_of l) then Some "master" else None) = default l.
Proof. unfold options_of, default. rewrite existsb_map. reflexivity. Qed.
Lemma choose_box l d p : pg_box (choose_last l d p) = on_side (pg_box p) d (set_value "master" (pg_box p d)).
Proof.
  unfold choose_last. destruct (entry (key d) (pg_storage p)); rewrite ?includes_false, changed_box; reflexivity.
Qed.
Lemma populate_box l p d : pg_box (populate l p) d = {| bx_options := options_of l; bx_value := default l |}.
Proof.
  unfold populate. cbv zeta. rewrite !choose_box. rewrite <- default_opt.
  destruct d; cbn [on_side set_box pg_box set_value bx_options]; reflexivity.
Qed.
Lemma choose_seen l d d' p : pg_seen (choose_last l d p) d' =
  match d, d', (bx_value (set_value "master" (pg_box p d))) with First, First, Some v | Second, Second, Some v => v | _, _, _ => pg_seen p d' end.
Proof.
  unfold choose_last. replace (match entry (key d) (pg_storage p) with Some s => if includes l s then s else "master" | None => "master" end) with "master"
    by (destruct (entry (key d) (pg_storage p)); now rewrite ?includes_false).
  unfold changed. cbn [set_box pg_box]. rewrite on_same. unfold set_value. cbn [bx_value].
  destruct d, d'; cbn [bx_value]; match goal with |- context[existsb ?f ?l] => destruct (existsb f l) end; reflexivity.
Qed.
Lemma clear_seen d p : pg_seen (changed d (set_box d empty_box p)) = pg_seen p.
Proof. unfold changed. cbn [set_box pg_box]. rewrite on_same. reflexivity. Qed.
Lemma populate_seen l p d : pg_seen (populate l p) d = match default l with Some v => v | None => pg_seen p d end.
Proof.
  unfold populate. cbv zeta. rewrite <- default_opt. rewrite !choose_seen. rewrite choose_box.
  set (p1 := changed First (set_box First empty_box p)). set (p2 := changed Second (set_box Second empty_box p1)).
  assert (S : pg_seen p2 = pg_seen p) by (unfold p2, p1; now rewrite !clear_seen).
  destruct d; cbn [on_side set_box pg_box set_value bx_options bx_value pg_seen]; rewrite S; destruct (existsb _ _); reflexivity.
Qed.

Opaque populate changed.
(** What is known are the newest lists. *)
Lemma known_newest repos st es p : visit repos st es = Some p -> forall r, entry r (pg_known p) = newest r es.
Proof.
  revert p. induction es as [|e es IH]; intros p V r; [injection V as <-; now rewrite ready_eq|].
  apply react_visit in V as (p0 & V & R). specialize (IH _ V r). destruct e as [r'| |d n|[r' f] l|q]; cbn [react newest] in *.
  - destruct (existsb _ _); [|discriminate]. apply SiteP.some_inj in R. subst p. rewrite <- IH. unfold choose, load. cbn [store set_repo pg_known].
    destruct (entry r' (pg_known p0)); [now rewrite populate_known|reflexivity].
  - apply SiteP.some_inj in R. subst p. rewrite <- IH. unfold press_fetch, load. destruct (pg_repo p0); [|reflexivity]. destruct (entry s (pg_known p0)); reflexivity.
  - destruct (existsb _ _); [|discriminate]. apply SiteP.some_inj in R. subst p. now rewrite changed_known.
  - destruct (drop_request _ _) as [w|]; [|discriminate]. apply SiteP.some_inj in R. subst p. unfold answered. cbn [set_loading pg_known fst].
    rewrite populate_known. cbn [set_known set_waiting pg_known entry]. now rewrite IH.
  - destruct (drop_request _ _) as [w|]; [|discriminate]. apply SiteP.some_inj in R. now subst p.
Qed.
Lemma repo_chosen repos st es p : visit repos st es = Some p -> pg_repo p = chosen es.
Proof.
  revert p. induction es as [|e es IH]; intros p V; [injection V as <-; now rewrite ready_eq|].
  apply react_visit in V as (p0 & V & R). specialize (IH _ V). destruct e as [r'| |d n|[r' f] l|q]; cbn [react chosen] in *.
  - destruct (existsb _ _); [|discriminate]. apply SiteP.some_inj in R. subst p. unfold choose, load. cbn [store set_repo pg_known].
    destruct (entry r' (pg_known p0)); [now rewrite populate_repo|reflexivity].
  - apply SiteP.some_inj in R. subst p. rewrite <- IH. unfold press_fetch, load. destruct (pg_repo p0) eqn:E; [|assumption]. destruct (entry s (pg_known p0)); cbn; assumption.
  - destruct (existsb _ _); [|discriminate]. apply SiteP.some_inj in R. subst p. now rewrite changed_repo.
  - destruct (drop_request _ _) as [w|]; [|discriminate]. apply SiteP.some_inj in R. subst p. unfold answered. cbn [set_loading pg_repo]. now rewrite populate_repo.
  - destruct (drop_request _ _) as [w|]; [|discriminate]. apply SiteP.some_inj in R. now subst p.
Qed.
Lemma seen_chosen repos st es p r : visit repos st es = Some p -> chosen es = Some r -> pg_seen_repo p = r.
Proof.
  revert p. induction es as [|e es IH]; intros p V C; [discriminate|].
  apply react_visit in V as (p0 & V & R). specialize (IH _ V). destruct e as [r'| |d n|[r' f] l|q]; cbn [react chosen] in *.
  - injection C as ->. destruct (existsb _ _); [|discriminate]. apply SiteP.some_inj in R. subst p. unfold choose, load. cbn [store set_repo pg_known].
    destruct (entry r (pg_known p0)); [now rewrite populate_seenr|reflexivity].
  - apply SiteP.some_inj in R. subst p. rewrite <- (IH C). unfold press_fetch, load. destruct (pg_repo p0) eqn:E; [|reflexivity]. destruct (entry s (pg_known p0)); reflexivity.
  - destruct (existsb _ _); [|discriminate]. apply SiteP.some_inj in R. subst p. rewrite changed_seenr. now apply IH.
  - destruct (drop_request _ _) as [w|]; [|discriminate]. apply SiteP.some_inj in R. subst p. unfold answered. cbn [set_loading pg_seen_repo]. rewrite populate_seenr. now apply IH.
  - destruct (drop_request _ _) as [w|]; [|discriminate]. apply SiteP.some_inj in R. subst p. now apply IH.
Qed.

(** An event that fills nothing keeps the options, and the values unless it is a choice in this box. *)
Lemma keep repos st e es p0 p d : visit repos st es = Some p0 -> react repos e p0 = Some p -> fills e es = None ->
  bx_options (pg_box p d) = bx_options (pg_box p0 d) /\
  ((forall n, e <> Pick d n) -> pg_box p d = pg_box p0 d /\ pg_seen p d = pg_seen p0 d).
Proof.
  intros V R F. destruct e as [r| |d' n|[r f] l|q]; cbn [react fills] in *; try discriminate.
  - destruct (existsb _ _); [|discriminate]. apply SiteP.some_inj in R. subst p. unfold choose, load. cbn [store set_repo pg_known].
    rewrite (known_newest _ _ _ _ V), F. split; [reflexivity|intros _; split; reflexivity].
  - apply SiteP.some_inj in R. subst p. unfold press_fetch, load. destruct (pg_repo p0); [|split; [reflexivity|intros _; split; reflexivity]].
    destruct (entry s (pg_known p0)); (split; [reflexivity|intros _; split; reflexivity]).
  - destruct (existsb _ _); [|discriminate]. apply SiteP.some_inj in R. subst p. rewrite changed_box. split; [destruct d, d'; reflexivity|].
    intros N. destruct d, d'; try (exfalso; eapply N; reflexivity); (split; [reflexivity|]); rewrite changed_seen; cbn [set_box pg_box on_side bx_value]; destruct n; reflexivity.
  - destruct (drop_request _ _) as [w|]; [|discriminate]. apply SiteP.some_inj in R. subst p. split; [reflexivity|intros _; split; reflexivity].
Qed.
(** An event that fills. *)
Lemma filled repos st e es p0 p l d : visit repos st es = Some p0 -> react repos e p0 = Some p -> fills e es = Some l ->
  pg_box p d = {| bx_options := options_of l; bx_value := default l |} /\ (default l = Some "master" -> pg_seen p d = "master").
Proof.
  intros V R F. destruct e as [r| |d' n|[r f] l'|q]; cbn [react fills] in *; try discriminate.
  - destruct (existsb _ _); [|discriminate]. apply SiteP.some_inj in R. subst p. unfold choose, load. cbn [store set_repo pg_known].
    rewrite (known_newest _ _ _ _ V), F. rewrite populate_box, populate_seen. split; [reflexivity|]. intros ->. reflexivity.
  - injection F as ->. destruct (drop_request _ _) as [w|]; [|discriminate]. apply SiteP.some_inj in R. subst p. unfold answered. cbn [set_loading pg_box pg_seen].
    rewrite populate_box, populate_seen. split; [reflexivity|]. intros ->. reflexivity.
Qed.
Lemma default_cases l : (In "master" (map fst l) /\ default l = Some "master") \/ (~ In "master" (map fst l) /\ default l = None).
Proof.
  unfold default. destruct (existsb (fun b => String.eqb (fst b) "master") l) eqn:E.
  - left. split; [|reflexivity]. apply existsb_exists in E as (b & I & Q). apply String.eqb_eq in Q. rewrite <- Q. now apply in_map.
  - right. split; [|reflexivity]. intros I. apply in_map_iff in I as (b & Q & I). assert (T : existsb (fun b => String.eqb (fst b) "master") l = true)
      by (apply existsb_exists; exists b; split; [assumption|now apply String.eqb_eq]). congruence.
Qed.

Lemma fill_lemma repos st es p l since d : visit repos st es = Some p -> last_fill l since es ->
  bx_options (pg_box p d) = map (fun b => (fst b ++ " on " ++ snd b, fst b)) l /\
  (forall n, last_pick d n since -> bx_value (pg_box p d) = Some n /\ In n (map fst l) /\ (n <> "" -> pg_seen p d = n)) /\
  ((forall n, ~ In (Pick d n) since) ->
    In "master" (map fst l) /\ bx_value (pg_box p d) = Some "master" /\ pg_seen p d = "master" \/
    ~ In "master" (map fst l) /\ bx_value (pg_box p d) = None).
Proof.
  intros V L. revert p V. induction L as [e es l F|e es l since F L IH]; intros p V.
  - apply react_visit in V as (p0 & V & R). destruct (filled _ _ _ _ _ _ _ d V R F) as [-> S]. cbn [bx_options bx_value].
    split; [reflexivity|]. split; [intros n P; inversion P|]. intros _. destruct (default_cases l) as [[I D]|[I D]]; [left|right]; auto.
  - apply react_visit in V as (p0 & V & R). destruct (IH _ V) as (O & P & N). destruct (keep _ _ _ _ _ _ d V R F) as [KO K].
    split; [congruence|]. split.
    + intros n LP. inversion LP as [n0 es0 E0|e0 n0 es0 NP LP' E0]; subst.
      * clear K. cbn [react] in R. destruct (existsb _ _) eqn:X; [|discriminate]. apply SiteP.some_inj in R. subst p. rewrite changed_box. cbn [set_box pg_box]. rewrite on_same. cbn [bx_value].
        split; [reflexivity|]. split.
        -- apply existsb_exists in X as (o & I & Q). apply String.eqb_eq in Q. subst n. rewrite O in I. apply in_map_iff in I as (b & <- & I). cbn [snd]. now apply in_map.
        -- intros NE. rewrite changed_seen. cbn [set_box pg_box]. rewrite on_same. cbn [bx_value]. destruct n as [|c n]; [congruence|]. apply on_same.
      * destruct (K NP) as [-> ->]. now apply P.
    + intros NP. assert (NP' : forall n, e <> Pick d n) by (intros n ->; apply (NP n); now left). destruct (K NP') as [-> ->].
      apply N. intros n I. apply (NP n). now right.
Qed.
(** A box that was never filled has no options. *)
Lemma unfilled repos st es p d : visit repos st es = Some p -> (forall l since, ~ last_fill l since es) -> pg_box p d = empty_box.
Proof.
  revert p. induction es as [|e es IH]; intros p V N; [injection V as <-; now rewrite ready_eq|].
  apply react_visit in V as (p0 & V & R). assert (N0 : forall l since, ~ last_fill l since es \/ exists l', fills e es = Some l').
  { intros l since. destruct (fills e es) as [l'|] eqn:F; [eauto|]. left. intros L. apply (N l (e :: since)). now constructor. }
  destruct (fills e es) as [l'|] eqn:F; [exfalso; apply (N l' []); now constructor|].
  assert (B : pg_box p0 d = empty_box). { apply IH; [assumption|]. intros l since L. apply (N l (e :: since)). now constructor. }
  destruct (keep _ _ _ _ _ _ d V R F) as [KO K]. destruct e as [r| |d' n|q l|q]; try (rewrite (proj1 (K ltac:(discriminate))); assumption).
  destruct d, d'; try (rewrite (proj1 (K ltac:(discriminate))); assumption); cbn [react] in R; rewrite B in R; discriminate.
Qed.

Lemma orderly_fill es r bs : orderly es -> chosen es = Some r -> newest r es = Some bs -> exists since, last_fill bs since es.
Proof.
  induction es as [|e es IH]; intros O C N; [discriminate|]. destruct e as [r'| |d n|[r' f] l|q]; cbn [orderly chosen newest] in *.
  - injection C as ->. exists []. constructor. exact N.
  - destruct (IH O C N) as [s S]. exists (Fetch :: s). now constructor.
  - destruct (IH O C N) as [s S]. exists (Pick d n :: s). now constructor.
  - destruct O as [C' O]. rewrite C in C'. injection C' as ->. rewrite String.eqb_refl in N. injection N as ->. exists []. now constructor.
  - destruct (IH O C N) as [s S]. exists (Fail q :: s). now constructor.
Qed.
Lemma last_fill_fun l since es : last_fill l since es -> forall l' since', last_fill l' since' es -> l = l' /\ since = since'.
Proof.
  intros L. induction L as [e es l F|e es l since F L IH]; intros l' since' L'; inversion L'; subst; try congruence.
  - split; [congruence|reflexivity].
  - match goal with H : last_fill l' _ es |- _ => destruct (IH _ _ H); subst end. auto.
Qed.
Lemma offered_lemma repos st es p r bs d : visit repos st es = Some p -> orderly es -> chosen es = Some r -> newest r es = Some bs ->
  bx_options (pg_box p d) = map (fun b => (fst b ++ " on " ++ snd b, fst b)) bs.
Proof. intros V O C N. destruct (orderly_fill _ _ _ O C N) as [s S]. now destruct (fill_lemma _ _ _ _ _ _ d V S) as [E _]. Qed.
Lemma compare_lemma repos st es p r bs l since a b q : visit repos st es = Some p -> orderly es -> chosen es = Some r -> newest r es = Some bs ->
  last_fill l since es -> last_pick First a since -> last_pick Second b since ->
  only (fun c => ~ In c link_chars) a -> only (fun c => ~ In c link_chars) b -> press_compare p = Some q ->
  In a (map fst bs) /\ In b (map fst bs) /\ r = "polkadot-sdk" /\ exists fs, query q fs /\ describes fs (root_args r a b sdk_files).
Proof.
  intros V O C N L PA PB OA OB Q. destruct (orderly_fill _ _ _ O C N) as [s S]. destruct (last_fill_fun _ _ _ S _ _ L) as [<- ->].
  destruct (fill_lemma _ _ _ _ _ _ First V L) as (_ & A & _). destruct (A _ PA) as (VA & IA & _).
  destruct (fill_lemma _ _ _ _ _ _ Second V L) as (_ & B & _). destruct (B _ PB) as (VB & IB & _).
  unfold press_compare in Q. rewrite (repo_chosen _ _ _ _ V), C, VA, VB in Q. cbn [value_text] in Q.
  split; [assumption|]. split; [assumption|]. now apply SiteP.root_click.
Qed.

(** ** Requests *)
Lemma request_eqb_refl q : request_eqb q q = true.
Proof. unfold request_eqb. now rewrite String.eqb_refl, Bool.eqb_reflx. Qed.
Lemma request_eqb_eq a b : request_eqb a b = true -> a = b.
Proof. unfold request_eqb. intros H. apply andb_prop in H as [A B]. apply String.eqb_eq in A. apply Bool.eqb_prop in B. destruct a, b. cbn in *. now subst. Qed.
Lemma times_cons q a l : times q (a :: l) = (if request_eqb q a then 1 else 0) + times q l.
Proof. unfold times. cbn [filter]. destruct (request_eqb q a); reflexivity. Qed.
Lemma times_app q l l' : times q (l ++ l') = times q l + times q l'.
Proof. unfold times. rewrite filter_app, app_length. reflexivity. Qed.
Lemma times_in q l : In q l <-> 0 < times q l.
Proof.
  induction l as [|a l IH]; [cbn; lia|]. rewrite times_cons. cbn [In]. destruct (request_eqb q a) eqn:E.
  - apply request_eqb_eq in E. subst. split; [lia|now left].
  - split; [intros [->|I]; [now rewrite request_eqb_refl in E|apply IH in I; lia]|intros H; right; apply IH; lia].
Qed.
Lemma drop_times q l w : drop_request q l = Some w -> forall q', times q' l = (if request_eqb q' q then 1 else 0) + times q' w.
Proof.
  revert w. induction l as [|a l IH]; intros w D q'; [discriminate|]. cbn [drop_request] in D. destruct (request_eqb a q) eqn:E.
  - apply SiteP.some_inj in D. subst. apply request_eqb_eq in E. subst. apply times_cons.
  - destruct (drop_request q l) as [w'|]; [|discriminate]. apply SiteP.some_inj in D. subst. rewrite !times_cons, (IH _ eq_refl q'). lia.
Qed.
Lemma waiting_lemma repos st es p : visit repos st es = Some p -> forall q, times q (pg_waiting p) + times q (over es) = times q (asked es).
Proof.
  revert p. induction es as [|e es IH]; intros p V q; [injection V as <-; now rewrite ready_eq|].
  apply react_visit in V as (p0 & V & R). specialize (IH _ V q). destruct e as [r'| |d n|q' l|q']; cbn [react over asked] in *.
  - destruct (existsb _ _); [|discriminate]. apply SiteP.some_inj in R. subst p. unfold choose, load. cbn [store set_repo pg_known].
    rewrite (known_newest _ _ _ _ V). destruct (newest r' es); [rewrite populate_waiting; exact IH|]. cbn [set_waiting pg_waiting store set_repo].
    rewrite times_app, !times_cons. change (times q []) with 0. lia.
  - apply SiteP.some_inj in R. subst p. unfold press_fetch, load. rewrite <- (repo_chosen _ _ _ _ V). destruct (pg_repo p0); [|exact IH].
    destruct (entry s (pg_known p0)); cbn [set_waiting pg_waiting]; rewrite times_app, !times_cons; change (times q []) with 0; lia.
  - destruct (existsb _ _); [|discriminate]. apply SiteP.some_inj in R. subst p. now rewrite changed_waiting.
  - destruct (drop_request _ _) as [w|] eqn:D; [|discriminate]. apply SiteP.some_inj in R. subst p. unfold answered. cbn [set_loading pg_waiting].
    rewrite populate_waiting. cbn [set_known set_waiting pg_waiting]. rewrite times_cons. pose proof (drop_times _ _ _ D q). lia.
  - destruct (drop_request _ _) as [w|] eqn:D; [|discriminate]. apply SiteP.some_inj in R. subst p. cbn [set_waiting pg_waiting]. rewrite times_cons. pose proof (drop_times _ _ _ D q). lia.
Qed.
Lemma none_waiting l : (forall q, times q l = 0) -> l = [].
Proof. intros H. destruct l as [|a l]; [reflexivity|]. specialize (H a). rewrite times_cons, request_eqb_refl in H. lia. Qed.
Lemma patient_waiting repos st es p : visit repos st es = Some p -> patient es ->
  pg_waiting p = [] \/ exists r f, chosen es = Some r /\ pg_waiting p = [(r, f)] /\ (f = false -> newest r es = None).
Proof.
  revert p. induction es as [|e es IH]; intros p V P; [injection V as <-; left; now rewrite ready_eq|].
  apply react_visit in V as (p0 & V & R). pose proof (waiting_lemma _ _ _ _ V) as W.
  assert (Z : (forall q, times q (over es) = times q (asked es)) -> pg_waiting p0 = []) by (intros H; apply none_waiting; intros q; specialize (W q); rewrite H in W; lia).
  destruct e as [r'| |d n|[r' f'] l|q']; cbn [react patient chosen newest] in *.
  - destruct P as [Q P]. specialize (Z Q). destruct (existsb _ _); [|discriminate]. apply SiteP.some_inj in R. subst p. unfold choose, load. cbn [store set_repo pg_known].
    rewrite (known_newest _ _ _ _ V). destruct (newest r' es) eqn:E; [left; rewrite populate_waiting; exact Z|]. right. exists r', false. cbn [set_waiting pg_waiting store set_repo set_loading].
    rewrite Z. auto.
  - destruct P as [Q P]. specialize (Z Q). apply SiteP.some_inj in R. subst p. unfold press_fetch, load. rewrite <- (repo_chosen _ _ _ _ V). destruct (pg_repo p0) eqn:E; [|now left].
    right. exists s, true. split; [reflexivity|]. destruct (entry s (pg_known p0)); cbn [set_waiting pg_waiting]; rewrite Z; (split; [reflexivity|discriminate]).
  - destruct (existsb _ _); [|discriminate]. apply SiteP.some_inj in R. subst p. rewrite changed_waiting. cbn [set_box pg_waiting]. now apply IH.
  - destruct (drop_request _ _) as [w|] eqn:D; [|discriminate]. apply SiteP.some_inj in R. subst p. unfold answered. cbn [set_loading pg_waiting].
    rewrite populate_waiting. cbn [set_known set_waiting pg_waiting]. left. destruct (IH _ V P) as [E|(r & f & _ & E & _)]; rewrite E in D; [discriminate|].
    cbn [drop_request] in D. destruct (request_eqb (r, f) (r', f')); [now injection D as <-|discriminate].
  - destruct (drop_request _ _) as [w|] eqn:D; [|discriminate]. apply SiteP.some_inj in R. subst p. cbn [set_waiting pg_waiting].
    left. destruct (IH _ V P) as [E|(r & f & _ & E & _)]; rewrite E in D; [discriminate|].
    cbn [drop_request] in D. destruct (request_eqb (r, f) q'); [now injection D as <-|discriminate].
Qed.
Lemma patient_orderly repos st es p : visit repos st es = Some p -> patient es -> orderly es.
Proof.
  revert p. induction es as [|e es IH]; intros p V P; [exact I|].
  apply react_visit in V as (p0 & V & R). destruct e as [r'| |d n|[r' f'] l|q']; cbn [react patient orderly] in *; try (eapply IH; [eassumption|tauto]).
  split; [|eapply IH; eassumption]. destruct (patient_waiting _ _ _ _ V P) as [E|(r & f & C & E & _)]; rewrite E in R; cbn [drop_request] in R; [discriminate|].
  destruct (request_eqb (r, f) (r', f')) eqn:Q; [|discriminate]. apply request_eqb_eq in Q. injection Q as -> ->. exact C.
Qed.
Lemma once_lemma repos st es p r : visit repos st es = Some p -> patient es -> times (r, false) (asked es) <= 1 + times (r, false) (failed es).
Proof.
  intros V P.
  (* without an answer, all that were asked have failed or are under way *)
  assert (G : match newest r es with Some _ => times (r, false) (asked es) <= 1 + times (r, false) (failed es)
              | None => times (r, false) (over es) = times (r, false) (failed es) end).
  { revert p V P. induction es as [|e es IH]; intros p V P; [reflexivity|].
    apply react_visit in V as (p0 & V & R). pose proof (waiting_lemma _ _ _ _ V (r, false)) as W.
    assert (P0 : patient es) by (destruct e; cbn [patient] in P; tauto). specialize (IH _ V P0).
    destruct e as [r'| |d n|[r' f'] l|q']; cbn [newest asked failed over] in *.
    - destruct P as [Q _]. destruct (newest r es) as [l|] eqn:N; destruct (newest r' es) eqn:N'; try exact IH.
      rewrite times_cons. destruct (request_eqb (r, false) (r', false)) eqn:E; [|exact IH]. apply request_eqb_eq in E. injection E as ->. congruence.
    - destruct (newest r es); destruct (chosen es); try exact IH. rewrite times_cons. unfold request_eqb. cbn [fst snd Bool.eqb]. rewrite andb_false_r. exact IH.
    - exact IH.
    - destruct (String.eqb_spec r' r) as [->|NE].
      + destruct (newest r es) as [l'|] eqn:N; [exact IH|]. destruct (patient_waiting _ _ _ _ V P0) as [E|(s & f & C & E & _)]; cbn [react] in R; rewrite E in R, W; cbn [drop_request] in R.
        * discriminate R.
        * rewrite times_cons in W. change (times (r, false) []) with 0 in W. destruct (request_eqb (r, false) (s, f)); lia.
      + destruct (newest r es) as [l'|]; [exact IH|]. rewrite times_cons. unfold request_eqb. cbn [fst]. replace (String.eqb r r') with false; [exact IH|].
        symmetry. apply String.eqb_neq. congruence.
    - destruct (newest r es) as [l'|]; rewrite ?times_cons; lia. }
  destruct (newest r es) eqn:N; [exact G|]. pose proof (waiting_lemma _ _ _ _ V (r, false)) as W.
  destruct (patient_waiting _ _ _ _ V P) as [E|(s & f & C & E & _)]; rewrite E in W.
  - change (times (r, false) []) with 0 in W. lia.
  - rewrite times_cons in W. change (times (r, false) []) with 0 in W. destruct (request_eqb (r, false) (s, f)); lia.
Qed.
Lemma overlay_lemma repos st es p : visit repos st es = Some p -> patient es -> failed es = [] ->
  (pg_loading p = true <-> exists q, times q (over es) < times q (asked es)).
Proof.
  intros V P F.
  assert (G : pg_loading p = true <-> pg_waiting p <> []).
  { revert p V P F. induction es as [|e es IH]; intros p V P F; [injection V as <-; rewrite ready_eq; cbn; split; congruence|].
    apply react_visit in V as (p0 & V & R). assert (P0 : patient es) by (destruct e; cbn [patient] in P; tauto). 
    destruct e as [r'| |d n|[r' f'] l|q']; cbn [react failed] in *; try discriminate.
    - specialize (IH _ V P0 F). destruct (existsb _ _); [|discriminate]. apply SiteP.some_inj in R. subst p. unfold choose, load. cbn [store set_repo pg_known].
      destruct (entry r' (pg_known p0)); [rewrite populate_loading, populate_waiting; exact IH|]. cbn. split; [|reflexivity]. intros _ E. now apply app_eq_nil in E as [_ E].
    - specialize (IH _ V P0 F). apply SiteP.some_inj in R. subst p. unfold press_fetch, load. destruct (pg_repo p0); [|exact IH].
      destruct (entry s (pg_known p0)); cbn; (split; [|reflexivity]); intros _ E; now apply app_eq_nil in E as [_ E].
    - specialize (IH _ V P0 F). destruct (existsb _ _); [|discriminate]. apply SiteP.some_inj in R. subst p. rewrite changed_loading, changed_waiting. exact IH.
    - destruct (drop_request _ _) as [w|] eqn:D; [|discriminate]. apply SiteP.some_inj in R. subst p. unfold answered. cbn [set_loading pg_waiting pg_loading].
      rewrite populate_waiting. cbn [set_known set_waiting pg_waiting]. destruct (patient_waiting _ _ _ _ V P) as [E|(r & f & _ & E & _)]; rewrite E in D; [discriminate|].
      cbn [drop_request] in D. destruct (request_eqb (r, f) (r', f')); [injection D as <-|discriminate]. split; [discriminate|intros N; now contradiction N]. }
  rewrite G. pose proof (waiting_lemma _ _ _ _ V) as W. split.
  - intros N. destruct (pg_waiting p) as [|q w]; [congruence|]. exists q. specialize (W q). rewrite times_cons, request_eqb_refl in W. lia.
  - intros [q Q] E. specialize (W q). rewrite E in W. change (times q []) with 0 in W. lia.
Qed.
