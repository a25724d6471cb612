(** C90: light and dark pages. *)
From Coq Require Import List String Bool Arith.
From Verif Require Import Base SpecWeb ThemeM SpecTheme.
From Verif Require ThemeP.
Import ListNotations.
Local Open Scope string_scope.

(** A page with a switch shows the theme that was stored, or at the first such page that of the system, turned around by
    each click since, on whichever page; its switch and what is stored say the same. *)
Theorem C90_theme : forall stored es p, fresh es -> last_page es = Some p -> pg_switch p <> None ->
  exists p', browse stored es = {| br_stored := Some (if dark_after stored es then "dark" else "light"); br_page := Some p' |} /\
    pg_switch p' = Some (dark_after stored es) /\ looks (dark_after stored es) p'.
Proof. exact ThemeP.theme_shown. Qed.
Print Assumptions C90_theme.

(** Nothing else changes: the elements stay, with their other classes in their order. *)
Theorem C90_rest : forall stored es p, fresh es -> last_page es = Some p ->
  exists p', br_page (browse stored es) = Some p' /\ same_neutral (pg_body p) (pg_body p') /\
    Forall2 (fun e e' => el_table e' = el_table e /\ same_neutral (el_classes e) (el_classes e')) (pg_rest p) (pg_rest p').
Proof. exact ThemeP.theme_kept. Qed.
Print Assumptions C90_rest.

(** A page without a switch stays as it came. *)
Theorem C90_plain : forall stored es p, fresh es -> last_page es = Some p -> pg_switch p = None -> br_page (browse stored es) = Some p.
Proof. exact ThemeP.theme_plain. Qed.
Print Assumptions C90_plain.

(** The page does not follow the system: without any click, a page opened when the system prefers light is dark. *)
Theorem C90_system_refuted : exists d p p', pg_switch p = Some false /\
  br_page (browse None [Open d p; Open false p]) = Some p' /\ looks true p'.
Proof. exact ThemeP.system_not_followed. Qed.
Print Assumptions C90_system_refuted.

(** A switch that the browser restores as on wins over the stored light theme. *)
Theorem C90_restored_refuted : exists p p', browse (Some "light") [Open false p] = {| br_stored := Some "dark"; br_page := Some p' |} /\ looks true p'.
Proof. exact ThemeP.restored_wins. Qed.
Print Assumptions C90_restored_refuted.

(** ** Examples *)
Definition a_page : page :=
  {| pg_body := ["container"; "bg-light"]; pg_rest := [{| el_table := true; el_classes := ["table"; "text-dark"] |}; {| el_table := false; el_classes := ["navbar-light"; "bg-light"; "p-2"] |}];
     pg_switch := Some false |}.
Definition visit : list event := [Open true a_page; Click; Open true a_page; Click; Click].
Example ex_fresh : fresh visit /\ last_page visit = Some a_page /\ pg_switch a_page <> None.
Proof. repeat split; [|discriminate]. intros d p I. cbn in I. repeat destruct I as [I|I]; try discriminate I; try contradiction; injection I as _ <-; discriminate. Qed.
Example ex_visit : dark_after None visit = false /\ browse None (firstn 1 visit) =
  {| br_stored := Some "dark";
     br_page := Some {| pg_body := ["container"; "bg-dark"; "text-light"]; pg_rest := [{| el_table := true; el_classes := ["table"; "text-light"; "table-dark"] |};
       {| el_table := false; el_classes := ["navbar-light"; "bg-dark"; "p-2"] |}]; pg_switch := Some true |} |}.
Proof. split; reflexivity. Qed.
Example ex_light : browse None visit =
  {| br_stored := Some "light";
     br_page := Some {| pg_body := ["container"; "bg-light"; "text-dark"]; pg_rest := [{| el_table := true; el_classes := ["table"; "text-dark"] |};
       {| el_table := false; el_classes := ["navbar-light"; "bg-light"; "p-2"] |}]; pg_switch := Some false |} |}.
Proof. reflexivity. Qed.
Example ex_plain : last_page (visit ++ [Open true {| pg_body := ["bg-light"]; pg_rest := []; pg_switch := None |}]) = Some {| pg_body := ["bg-light"]; pg_rest := []; pg_switch := None |}.
Proof. reflexivity. Qed.
