(** Model of the switch between light and dark: web/static/darkmode.js, which all pages load (web/templates/header.stpl:20).
    A class attribute is its list of classes; as the texts that are replaced have no blanks, replacing in the attribute is
    replacing in each class. That [classList] also drops repeated classes is left out. *)
From Coq Require Import List String Ascii Arith Bool.
From Verif Require Import Base.
Import ListNotations.
Local Open Scope string_scope.

Definition classes : Type := list string.
Record element := { el_table : bool; el_classes : classes }.
(** The page: its body, all other elements, and the switch, which not every page has: [Some true] if it is on. *)
Record page := { pg_body : classes; pg_rest : list element; pg_switch : option bool }.
(** A browser: [localStorage.lightSwitch], and the open page. *)
Record browser := { br_stored : option string; br_page : option page }.

(** [s.replace(/pat/g, new)]; [skip] characters belong to the match before. *)
Fixpoint replace_from (pat new : string) (skip : nat) (s : string) : string :=
  match s with
  | "" => ""
  | String c s' =>
      match skip with
      | S k => replace_from pat new k s'
      | O => if String.prefix pat s then new ++ replace_from pat new (pred (String.length pat)) s'
             else String c (replace_from pat new 0 s')
      end
  end.
Definition has_class (c : string) (l : classes) : bool := existsb (String.eqb c) l.
(** [querySelectorAll('.old').forEach(className.replace(/old/g, 'new'))] *)
Definition swap_classes (old new : string) (l : classes) : classes :=
  if has_class old l then map (replace_from old new 0) l else l.
Definition on_all (f : classes -> classes) (p : page) : page :=
  {| pg_body := f (pg_body p); pg_rest := map (fun e => {| el_table := el_table e; el_classes := f (el_classes e) |}) (pg_rest p);
     pg_switch := pg_switch p |}.
(** [classList.add] and [classList.remove] *)
Definition add_class (c : string) (l : classes) : classes := if has_class c l then l else (l ++ [c])%list.
Definition remove_class (c : string) (l : classes) : classes := filter (fun d => negb (String.eqb c d)) l.
Definition on_body (f : classes -> classes) (p : page) : page :=
  {| pg_body := f (pg_body p); pg_rest := pg_rest p; pg_switch := pg_switch p |}.
Definition on_tables (f : classes -> classes) (p : page) : page :=
  {| pg_body := pg_body p;
     pg_rest := map (fun e => if el_table e then {| el_table := true; el_classes := f (el_classes e) |} else e) (pg_rest p);
     pg_switch := pg_switch p |}.
Definition set_switch (b : bool) (p : page) : page := {| pg_body := pg_body p; pg_rest := pg_rest p; pg_switch := Some b |}.

(** web/static/darkmode.js:17-39 *)
Definition dark_mode (p : page) : browser :=
  let p := on_body (add_class "bg-dark") (on_all (swap_classes "bg-light" "bg-dark") p) in
  let p := on_body (add_class "text-light") (on_all (swap_classes "text-dark" "text-light") p) in
  let p := on_tables (add_class "table-dark") p in
  {| br_stored := Some "dark"; br_page := Some (set_switch true p) |}.
(** web/static/darkmode.js:45-68 *)
Definition light_mode (p : page) : browser :=
  let p := on_body (add_class "bg-light") (on_all (swap_classes "bg-dark" "bg-light") p) in
  let p := on_body (add_class "text-dark") (on_all (swap_classes "text-light" "text-dark") p) in
  let p := on_tables (remove_class "table-dark") p in
  {| br_stored := Some "light"; br_page := Some (set_switch false p) |}.
(** web/static/darkmode.js:74-80 *)
Definition on_toggle (p : page) (checked : bool) : browser := if checked then dark_mode p else light_mode p.

(** A page is opened, in a browser whose system prefers dark pages or not; its switch is off unless the browser restores it
    from an earlier visit (some do). Or the user clicks on the switch. *)
Inductive event := Open (prefers_dark : bool) (p : page) | Click.
(** web/static/darkmode.js:6-10, 86-107 *)
Definition react (b : browser) (e : event) : browser :=
  match e with
  | Open prefers_dark p =>
      match pg_switch p with
      | None => {| br_stored := br_stored b; br_page := Some p |}
      | Some restored =>
          let settings := match br_stored b with Some s => s | None => if prefers_dark then "dark" else "light" end in
          on_toggle p (if String.eqb settings "dark" then true else restored)
      end
  | Click =>
      match br_page b with
      | Some p => match pg_switch p with Some checked => on_toggle p (negb checked) | None => b end
      | None => b
      end
  end.
Definition browse (stored : option string) (es : list event) : browser :=
  fold_left react es {| br_stored := stored; br_page := None |}.
