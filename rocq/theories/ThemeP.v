(** Proofs about light and dark pages. *)
From Coq Require Import List String Ascii Arith Bool Lia.
From Verif Require Import Base GitM SpecWeb ThemeM SpecTheme.
From Verif Require GitP MrP LexP TmplP.
Import ListNotations.
Local Open Scope string_scope.
Local Arguments String.prefix : simpl never.

(** ** Replacing *)
Definition free (w s : string) : Prop := contains w s = false.
Lemma free_iff w s : free w s <-> ~ occurs w s.
Proof. unfold free, occurs. rewrite <- not_true_iff_false, GitP.contains_spec. reflexivity. Qed.
Lemma occurs_self w : occurs w w.
Proof. exists "", "". cbn. now rewrite TmplP.app_nil_s. Qed.
Lemma occurs_inv pat c s : pat <> "" -> occurs pat (String c s) -> String.prefix pat (String c s) = true \/ occurs pat s.
Proof.
  intros N (a & b & H). destruct a as [|d a]; cbn in H.
  - left. rewrite H. apply MrP.prefix_app.
  - right. injection H as _ ->. now exists a, b.
Qed.
Lemma occurs_cons w c s : occurs w s -> occurs w (String c s).
Proof. intros (a & b & ->). now exists (String c a), b. Qed.
Lemma rep_none pat new s : ~ occurs pat s -> replace_from pat new 0 s = s.
Proof.
  induction s as [|c s IH]; intros H; [reflexivity|]. cbn [replace_from]. destruct (String.prefix pat (String c s)) eqn:P.
  - destruct H. apply MrP.prefix_inv in P as [r P]. exists "", r. exact P.
  - f_equal. apply IH. intros O. apply H. now apply occurs_cons.
Qed.
Lemma rep_some pat new s : pat <> "" -> occurs pat s -> occurs new (replace_from pat new 0 s).
Proof.
  intros N. induction s as [|c s IH]; intros H.
  - destruct H as (a & b & H). destruct a; [|discriminate]. destruct pat; [contradiction|discriminate].
  - cbn [replace_from]. destruct (String.prefix pat (String c s)) eqn:P; [eexists "", _; reflexivity|]. apply occurs_cons, IH.
    destruct (occurs_inv _ _ _ N H) as [K|K]; [congruence|exact K].
Qed.
(** ** Classes *)
Lemma has_iff c l : has_class c l = true <-> In c l.
Proof. unfold has_class. rewrite existsb_exists. split; [intros (d & I & E); apply String.eqb_eq in E; now subst|intros I; exists c; split; [exact I|apply String.eqb_refl]]. Qed.
Lemma in_add w c l : In w (add_class c l) <-> w = c \/ In w l.
Proof.
  unfold add_class. destruct (has_class c l) eqn:H.
  - apply has_iff in H. split; [auto|]. intros [-> |I]; assumption.
  - rewrite in_app_iff. cbn. intuition congruence.
Qed.
Lemma in_remove w c l : In w (remove_class c l) <-> w <> c /\ In w l.
Proof. unfold remove_class. rewrite filter_In. destruct (String.eqb_spec c w); cbn; intuition congruence. Qed.
Lemma swap_old old new l : old <> "" -> free new old -> ~ In old (swap_classes old new l).
Proof.
  intros N F. apply free_iff in F. unfold swap_classes. destruct (has_class old l) eqn:H; [|intros I; apply has_iff in I; congruence].
  intros I. apply in_map_iff in I as (c & E & _). destruct (contains old c) eqn:O.
  - apply GitP.contains_spec in O. apply (rep_some old new c N) in O. rewrite E in O. contradiction.
  - apply free_iff in O. rewrite (rep_none old new c O) in E. subst c. apply O, occurs_self.
Qed.
Lemma swap_other w old new l : old <> "" -> free old w -> free new w -> In w (swap_classes old new l) <-> In w l.
Proof.
  intros N A B. apply free_iff in A, B. unfold swap_classes. destruct (has_class old l); [|reflexivity]. rewrite in_map_iff. split.
  - intros (c & E & I). destruct (contains old c) eqn:O.
    + apply GitP.contains_spec in O. apply (rep_some old new c N) in O. rewrite E in O. contradiction.
    + apply free_iff in O. rewrite (rep_none old new c O) in E. now subst c.
  - intros I. exists w. split; [now apply rep_none|exact I].
Qed.
(** ** Neutral classes *)
Definition neutral_b (c : string) : bool := forallb (fun w => negb (contains w c)) theme_words.
Lemma neutral_iff c : neutral_b c = true <-> neutral c.
Proof.
  unfold neutral_b, neutral. rewrite forallb_forall. split; intros H w I; specialize (H w I).
  - apply negb_true_iff in H. now apply free_iff.
  - apply negb_true_iff. now apply free_iff.
Qed.
Lemma not_neutral c : neutral_b c = false <-> ~ neutral c.
Proof. rewrite <- neutral_iff. symmetry. apply not_true_iff_false. Qed.
Lemma same_iff l l' : same_neutral l l' <-> filter neutral_b l = filter neutral_b l'.
Proof.
  split.
  - induction 1 as [|c l l' _ IH|c l l' N _ IH|c l l' N _ IH]; cbn [filter]; [reflexivity|rewrite IH; reflexivity| |]; apply not_neutral in N; now rewrite N.
  - revert l'. induction l as [|c l IH]; intros l' H; cbn [filter] in H.
    + induction l' as [|d l' IH']; [constructor|]. cbn [filter] in H. destruct (neutral_b d) eqn:E; [discriminate|]. apply sn_right; [now apply not_neutral|now apply IH'].
    + destruct (neutral_b c) eqn:E; [|apply sn_left; [now apply not_neutral|now apply IH]].
      induction l' as [|d l' IH']; [discriminate H|]. cbn [filter] in H. destruct (neutral_b d) eqn:E'.
      * injection H as <- H. apply sn_both. now apply IH.
      * apply sn_right; [now apply not_neutral|now apply IH'].
Qed.
Definition kept (f : classes -> classes) : Prop := forall l, filter neutral_b (f l) = filter neutral_b l.
Lemma kept_add c : neutral_b c = false -> kept (add_class c).
Proof. intros N l. unfold add_class. destruct (has_class c l); [reflexivity|]. rewrite filter_app. cbn [filter]. rewrite N. apply app_nil_r. Qed.
Lemma kept_remove c : neutral_b c = false -> kept (remove_class c).
Proof.
  intros N l. unfold remove_class. induction l as [|d l IH]; [reflexivity|]. cbn [filter]. destruct (String.eqb_spec c d) as [<-|E]; cbn [negb filter]; rewrite IH; [now rewrite N|reflexivity].
Qed.
Lemma kept_swap old new : old <> "" -> In old theme_words -> In new theme_words -> kept (swap_classes old new).
Proof.
  intros N A B l. unfold swap_classes. destruct (has_class old l); [|reflexivity]. induction l as [|c l IH]; [reflexivity|]. cbn [map filter]. rewrite IH.
  destruct (contains old c) eqn:O.
  - apply GitP.contains_spec in O. pose proof (rep_some old new c N O) as O'.
    assert (E : neutral_b c = false) by (apply not_neutral; intros H; exact (H old A O)).
    assert (E' : neutral_b (replace_from old new 0 c) = false) by (apply not_neutral; intros H; exact (H new B O')). now rewrite E, E'.
  - apply free_iff in O. now rewrite (rep_none old new c O).
Qed.
(** ** Modes *)
Definition same_page (p p' : page) : Prop := same_neutral (pg_body p) (pg_body p') /\
  Forall2 (fun e e' => el_table e' = el_table e /\ same_neutral (el_classes e) (el_classes e')) (pg_rest p) (pg_rest p').
Lemma same_refl p : same_page p p.
Proof. split; [now apply same_iff|]. induction (pg_rest p); constructor; [split; [reflexivity|now apply same_iff]|assumption]. Qed.
Lemma same_trans p q r : same_page p q -> same_page q r -> same_page p r.
Proof.
  intros [A B] [C D]. split; [apply same_iff in A, C; apply same_iff; congruence|]. revert D. generalize (pg_rest r). induction B as [|e e' l l' [T S] _ IH]; intros k D; inversion D as [|? e'' ? k' [T' S'] D']; subst; constructor.
  - split; [congruence|]. apply same_iff in S, S'. apply same_iff. congruence.
  - now apply IH.
Qed.
Lemma same_build p body rest sw (fb : classes -> classes) (fe : element -> element) : body = fb (pg_body p) -> rest = map fe (pg_rest p) -> kept fb ->
  (forall e, el_table (fe e) = el_table e /\ filter neutral_b (el_classes (fe e)) = filter neutral_b (el_classes e)) ->
  same_page p {| pg_body := body; pg_rest := rest; pg_switch := sw |}.
Proof.
  intros -> -> K E. split; cbn; [apply same_iff; symmetry; apply K|]. induction (pg_rest p) as [|e l IH]; cbn; constructor; [|exact IH]. destruct (E e) as [T F]. split; [exact T|]. apply same_iff. now symmetry.
Qed.
Definition theme (d : bool) (p : page) : browser := if d then dark_mode p else light_mode p.
Lemma theme_same d p p' : br_page (theme d p) = Some p' -> same_page p p'.
Proof.
  destruct d; cbn [theme dark_mode light_mode br_page]; intros [= <-]; unfold set_switch, on_tables, on_body, on_all; cbn [pg_body pg_rest pg_switch].
  - apply (same_build p _ _ _ (fun l => add_class "text-light" (swap_classes "text-dark" "text-light" (add_class "bg-dark" (swap_classes "bg-light" "bg-dark" l))))
      (fun e => let f := fun l => swap_classes "text-dark" "text-light" (swap_classes "bg-light" "bg-dark" l) in
                if el_table e then {| el_table := true; el_classes := add_class "table-dark" (f (el_classes e)) |} else {| el_table := el_table e; el_classes := f (el_classes e) |}));
    [reflexivity|rewrite !map_map; reflexivity| |].
    + intros l. rewrite kept_add by reflexivity. rewrite kept_swap by (try discriminate; cbn; tauto). rewrite kept_add by reflexivity. now rewrite kept_swap by (try discriminate; cbn; tauto).
    + intros e. cbn zeta. destruct (el_table e); cbn [el_table el_classes]; (split; [reflexivity|]); try rewrite kept_add by reflexivity; now rewrite !kept_swap by (try discriminate; cbn; tauto).
  - apply (same_build p _ _ _ (fun l => add_class "text-dark" (swap_classes "text-light" "text-dark" (add_class "bg-light" (swap_classes "bg-dark" "bg-light" l))))
      (fun e => let f := fun l => swap_classes "text-light" "text-dark" (swap_classes "bg-dark" "bg-light" l) in
                if el_table e then {| el_table := true; el_classes := remove_class "table-dark" (f (el_classes e)) |} else {| el_table := el_table e; el_classes := f (el_classes e) |}));
    [reflexivity|rewrite !map_map; reflexivity| |].
    + intros l. rewrite kept_add by reflexivity. rewrite kept_swap by (try discriminate; cbn; tauto). rewrite kept_add by reflexivity. now rewrite kept_swap by (try discriminate; cbn; tauto).
    + intros e. cbn zeta. destruct (el_table e); cbn [el_table el_classes]; (split; [reflexivity|]); try rewrite kept_remove by reflexivity; now rewrite !kept_swap by (try discriminate; cbn; tauto).
Qed.
Local Arguments add_class : simpl never.
Local Arguments remove_class : simpl never.
Local Arguments swap_classes : simpl never.
Ltac cls := repeat (first [rewrite in_add | rewrite in_remove | rewrite swap_other by (first [discriminate | reflexivity])]).
Lemma theme_looks d p p' : br_page (theme d p) = Some p' -> looks d p'.
Proof.
  destruct d; cbn; intros [= <-]; split; cbn.
  - cls. auto.
  - cls. auto.
  - split; cbn; [|intros e; rewrite !map_map; intros I; apply in_map_iff in I as (e0 & <- & _); cbn; destruct (el_table e0); cbn]; cls; try (intros H; repeat destruct H as [H|H]; try discriminate H; revert H); apply swap_old; (discriminate || reflexivity).
  - split; cbn; [|intros e; rewrite !map_map; intros I; apply in_map_iff in I as (e0 & <- & _); cbn; destruct (el_table e0); cbn]; cls; try (intros H; repeat destruct H as [H|H]; try discriminate H; revert H); apply swap_old; (discriminate || reflexivity).
  - intros e. rewrite !map_map. intros I T. apply in_map_iff in I as (e0 & <- & _). cbn in *. destruct (el_table e0) eqn:E; cbn in *; [|discriminate T]. cls. tauto.
  - cls. auto.
  - cls. auto.
  - split; cbn; [|intros e; rewrite !map_map; intros I; apply in_map_iff in I as (e0 & <- & _); cbn; destruct (el_table e0); cbn]; cls; try (intros H; repeat destruct H as [H|H]; try discriminate H; revert H); try (intros [_ H]; revert H); apply swap_old; (discriminate || reflexivity).
  - split; cbn; [|intros e; rewrite !map_map; intros I; apply in_map_iff in I as (e0 & <- & _); cbn; destruct (el_table e0); cbn]; cls; try (intros H; repeat destruct H as [H|H]; try discriminate H; revert H); try (intros [_ H]; revert H); apply swap_old; (discriminate || reflexivity).
  - intros e. rewrite !map_map. intros I T. apply in_map_iff in I as (e0 & <- & _). cbn in *. destruct (el_table e0) eqn:E; cbn in *; [|discriminate T]. cls. intuition discriminate.
Qed.

(** ** Browsing *)
Definition text (d : bool) : string := if d then "dark" else "light".
Lemma theme_stored d p : br_stored (theme d p) = Some (text d).
Proof. now destruct d. Qed.
Lemma theme_page d p : exists p', br_page (theme d p) = Some p' /\ pg_switch p' = Some d.
Proof. destruct d; eexists; split; reflexivity. Qed.
Definition switched (p : page) : bool := match pg_switch p with Some _ => true | None => false end.
Definition seen (es : list event) : bool := existsb (fun e => match e with Open _ p => switched p | Click => false end) es.
Definition at_switch (es : list event) : bool := match last_page es with Some p => switched p | None => false end.
Lemma last_snoc es e : last_page (es ++ [e]) = match e with Open _ p => Some p | Click => last_page es end.
Proof. unfold last_page. rewrite fold_left_app. reflexivity. Qed.
Lemma first_snoc es e : seen es = true -> first_preference (es ++ [e]) = first_preference es.
Proof.
  induction es as [|x es IH]; [discriminate|]. destruct x as [d p|]; cbn; [|exact IH]. unfold switched. destruct (pg_switch p); [reflexivity|exact IH].
Qed.
Lemma first_unseen es d p : seen es = false -> switched p = true -> first_preference (es ++ [Open d p]) = d.
Proof.
  unfold switched. induction es as [|x es IH]; cbn; intros H S; [now destruct (pg_switch p)|]. destruct x as [d' p'|]; cbn in *; [|now apply IH].
  destruct (pg_switch p') eqn:E; [unfold switched in H; rewrite E in H; discriminate|]. apply IH; [|exact S]. unfold switched in H. rewrite E in H. exact H.
Qed.
Definition now_switch (b : bool) (es : list event) : bool :=
  fold_left (fun b e => match e with Open _ p => switched p | Click => b end) es b.
Lemma clicks_snoc es e b : clicks b (es ++ [e]) = clicks b es + match e with Open _ _ => 0 | Click => if now_switch b es then 1 else 0 end.
Proof.
  revert b. induction es as [|x es IH]; intros b; cbn.
  - destruct e as [d p|]; cbn; [reflexivity|]. lia.
  - destruct x as [d p|]; cbn; rewrite IH; [reflexivity|]. change (now_switch b (Click :: es)) with (now_switch b es). now rewrite Nat.add_assoc.
Qed.
Lemma now_at es : now_switch false es = at_switch es.
Proof.
  unfold at_switch. induction es as [|e es IH] using rev_ind; [reflexivity|]. rewrite last_snoc. unfold now_switch in *. rewrite fold_left_app. cbn. destruct e; [reflexivity|exact IH].
Qed.
Lemma at_seen es : at_switch es = true -> seen es = true.
Proof.
  unfold at_switch. induction es as [|e es IH] using rev_ind; [discriminate|]. rewrite last_snoc. unfold seen in *. rewrite existsb_app. cbn. destruct e as [d p|]; intros H.
  - rewrite H. apply orb_true_r.
  - now rewrite (IH H).
Qed.
Lemma unseen_clicks es : seen es = false -> clicks false es = 0.
Proof.
  induction es as [|x es IH]; [reflexivity|]. destruct x as [d p|]; cbn; [|exact IH]. unfold switched. destruct (pg_switch p); [discriminate|exact IH].
Qed.
Lemma odd_plus1 n : Nat.odd (n + 1) = negb (Nat.odd n).
Proof. rewrite Nat.add_1_r. rewrite Nat.odd_succ. now rewrite <- Nat.negb_odd. Qed.
Lemma after_open stored es d p : seen es = true -> dark_after stored (es ++ [Open d p]) = dark_after stored es.
Proof. intros S. unfold dark_after, starts_dark. rewrite clicks_snoc, first_snoc by exact S. now rewrite Nat.add_0_r. Qed.
Lemma after_first stored es d p : seen es = false -> switched p = true ->
  dark_after stored (es ++ [Open d p]) = match stored with Some s => String.eqb s "dark" | None => d end.
Proof. intros S W. unfold dark_after, starts_dark. rewrite clicks_snoc, (unseen_clicks es S), first_unseen by assumption. now rewrite xorb_false_r. Qed.
Lemma after_click stored es : dark_after stored (es ++ [Click]) = if at_switch es then negb (dark_after stored es) else dark_after stored es.
Proof.
  unfold dark_after, starts_dark. rewrite clicks_snoc, now_at. 
  assert (F : first_preference (es ++ [Click]) = first_preference es).
  { clear. induction es as [|x es IH]; [reflexivity|]. destruct x as [d p|]; cbn; [|exact IH]. destruct (pg_switch p); [reflexivity|exact IH]. }
  rewrite F. destruct (at_switch es); [rewrite odd_plus1; now rewrite negb_xorb_r|now rewrite Nat.add_0_r].
Qed.
Lemma text_dark d : String.eqb (text d) "dark" = d.
Proof. now destruct d. Qed.
Record state (stored : option string) (es : list event) (b : browser) : Prop := {
  st_stored : br_stored b = if seen es then Some (text (dark_after stored es)) else stored;
  st_page : match last_page es with
            | None => br_page b = None
            | Some p => if switched p then exists p', br_page b = Some p' /\ pg_switch p' = Some (dark_after stored es) /\ looks (dark_after stored es) p' /\ same_page p p'
                        else br_page b = Some p
            end }.
Lemma toggle_theme p d : on_toggle p d = theme d p.
Proof. now destruct d. Qed.
Lemma state_all stored es : fresh es -> state stored es (browse stored es).
Proof.
  induction es as [|e es IH] using rev_ind; intros F; [split; reflexivity|].
  assert (F' : fresh es) by (intros d p I; apply (F d p), in_or_app; now left). specialize (IH F'). destruct IH as [St Pg].
  unfold browse in *. rewrite fold_left_app. cbn [fold_left]. set (b := fold_left react es _) in *.
  destruct e as [d p|].
  - assert (Fp : pg_switch p <> Some true) by (apply (F d p), in_or_app; right; now left). cbn [react].
    destruct (pg_switch p) as [r|] eqn:R.
    + assert (W : switched p = true) by (unfold switched; now rewrite R). destruct r; [contradiction|].
      assert (D : String.eqb match br_stored b with Some s => s | None => if d then "dark" else "light" end "dark" = dark_after stored (es ++ [Open d p])).
      { rewrite St. destruct (seen es) eqn:S.
        - rewrite text_dark. now rewrite after_open.
        - rewrite after_first by assumption. destruct stored; [reflexivity|]. apply (text_dark d). }
      set (x := String.eqb _ "dark") in *. replace (if x then true else false) with x by now destruct x. rewrite D, toggle_theme.
      destruct (theme_page (dark_after stored (es ++ [Open d p])) p) as (p' & P' & S'). split.
      * rewrite theme_stored. unfold seen. rewrite existsb_app. cbn. rewrite W. now rewrite orb_true_r.
      * rewrite last_snoc. rewrite W. exists p'. repeat split; auto; try (now apply (theme_looks _ _ _ P')); now apply (theme_same _ _ _ P').
    + assert (W : switched p = false) by (unfold switched; now rewrite R). split; cbn.
      * rewrite St. unfold seen. rewrite existsb_app. cbn. rewrite W, !orb_false_r. change (existsb _ es) with (seen es). destruct (seen es) eqn:S; [now rewrite after_open|reflexivity].
      * rewrite last_snoc, W. reflexivity.
  - cbn [react]. split; rewrite ?last_snoc.
    + assert (E : seen (es ++ [Click]) = seen es) by (unfold seen; rewrite existsb_app; cbn; now rewrite !orb_false_r). rewrite E, after_click. unfold at_switch in *. destruct (last_page es) as [p|] eqn:L.
      * destruct (switched p) eqn:W.
        -- destruct Pg as (p' & -> & -> & _). rewrite toggle_theme, theme_stored. rewrite (at_seen es); [reflexivity|]. unfold at_switch. now rewrite L.
        -- rewrite Pg. unfold switched in W. destruct (pg_switch p); [discriminate|exact St].
      * rewrite Pg. exact St.
    + rewrite after_click. unfold at_switch in *. destruct (last_page es) as [p|] eqn:L.
      * destruct (switched p) eqn:W.
        -- destruct Pg as (p' & -> & -> & _ & Sm). rewrite toggle_theme. destruct (theme_page (negb (dark_after stored es)) p') as (q & Q & S'). exists q. split; [exact Q|]. split; [exact S'|].
           split; [now apply (theme_looks _ _ _ Q)|]. eapply same_trans; [exact Sm|]. now apply (theme_same _ _ _ Q).
        -- rewrite Pg. unfold switched in W. destruct (pg_switch p); [discriminate|exact Pg].
      * rewrite Pg. exact Pg.
Qed.

Lemma theme_shown stored es p : fresh es -> last_page es = Some p -> pg_switch p <> None ->
  exists p', browse stored es = {| br_stored := Some (if dark_after stored es then "dark" else "light"); br_page := Some p' |} /\
    pg_switch p' = Some (dark_after stored es) /\ looks (dark_after stored es) p'.
Proof.
  intros F L S. destruct (state_all stored es F) as [St Pg]. rewrite L in Pg. assert (W : switched p = true) by (unfold switched; now destruct (pg_switch p)). rewrite W in Pg.
  destruct Pg as (p' & P' & S' & Lk & _). exists p'. split; [|auto]. rewrite (at_seen es) in St by (unfold at_switch; now rewrite L). destruct (browse stored es) as [s q]. cbn in *. subst. reflexivity.
Qed.
Lemma theme_kept stored es p : fresh es -> last_page es = Some p ->
  exists p', br_page (browse stored es) = Some p' /\ same_neutral (pg_body p) (pg_body p') /\
    Forall2 (fun e e' => el_table e' = el_table e /\ same_neutral (el_classes e) (el_classes e')) (pg_rest p) (pg_rest p').
Proof.
  intros F L. destruct (state_all stored es F) as [_ Pg]. rewrite L in Pg. destruct (switched p).
  - destruct Pg as (p' & P' & _ & _ & Sm). exists p'. split; [exact P'|exact Sm].
  - exists p. split; [exact Pg|apply same_refl].
Qed.
Lemma theme_plain stored es p : fresh es -> last_page es = Some p -> pg_switch p = None -> br_page (browse stored es) = Some p.
Proof. intros F L S. destruct (state_all stored es F) as [_ Pg]. rewrite L in Pg. unfold switched in Pg. now rewrite S in Pg. Qed.
Lemma bare_dark : looks true {| pg_body := ["bg-dark"; "text-light"]; pg_rest := []; pg_switch := Some true |}.
Proof. split; [now left|right; now left|split; [|intros e []]; intros [H|[H|[]]]; discriminate H|split; [|intros e []]; intros [H|[H|[]]]; discriminate H|intros e []]. Qed.
Lemma system_not_followed : exists d p p', pg_switch p = Some false /\ br_page (browse None [Open d p; Open false p]) = Some p' /\ looks true p'.
Proof.
  exists true, {| pg_body := []; pg_rest := []; pg_switch := Some false |}, {| pg_body := ["bg-dark"; "text-light"]; pg_rest := []; pg_switch := Some true |}.
  split; [reflexivity|]. split; [reflexivity|exact bare_dark].
Qed.
Lemma restored_wins : exists p p', browse (Some "light") [Open false p] = {| br_stored := Some "dark"; br_page := Some p' |} /\ looks true p'.
Proof.
  exists {| pg_body := []; pg_rest := []; pg_switch := Some true |}, {| pg_body := ["bg-dark"; "text-light"]; pg_rest := []; pg_switch := Some true |}.
  split; [reflexivity|exact bare_dark].
Qed.
