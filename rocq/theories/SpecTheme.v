(** Specification vocabulary for light and dark pages. *)
From Coq Require Import List String Bool Arith.
From Verif Require Import Base SpecWeb ThemeM.
Import ListNotations.
Local Open Scope string_scope.

(** The page is dark, or light: its body has the two classes of the theme, no element has one of the other theme,
    and exactly in a dark page all tables are dark. *)
Definition everywhere (P : classes -> Prop) (p : page) : Prop := P (pg_body p) /\ forall e, In e (pg_rest p) -> P (el_classes e).
Record looks (dark : bool) (p : page) : Prop := {
  lk_back : In (if dark then "bg-dark" else "bg-light") (pg_body p);
  lk_text : In (if dark then "text-light" else "text-dark") (pg_body p);
  lk_no_back : everywhere (fun l => ~ In (if dark then "bg-light" else "bg-dark") l) p;
  lk_no_text : everywhere (fun l => ~ In (if dark then "text-dark" else "text-light") l) p;
  lk_tables : forall e, In e (pg_rest p) -> el_table e = true -> (In "table-dark" (el_classes e) <-> dark = true) }.

(** Classes that have nothing to do with the theme. *)
Definition theme_words : list string := ["bg-light"; "bg-dark"; "text-light"; "text-dark"; "table-dark"].
Definition neutral (c : string) : Prop := forall w, In w theme_words -> ~ occurs w c.
(** [l'] has the neutral classes of [l], in the same order. *)
Inductive same_neutral : classes -> classes -> Prop :=
| sn_nil : same_neutral [] []
| sn_both c l l' : same_neutral l l' -> same_neutral (c :: l) (c :: l')
| sn_left c l l' : ~ neutral c -> same_neutral l l' -> same_neutral (c :: l) l'
| sn_right c l l' : ~ neutral c -> same_neutral l l' -> same_neutral l (c :: l').

(** ** What the events say *)
(** The page that is open. *)
Definition last_page (es : list event) : option page :=
  fold_left (fun o e => match e with Open _ p => Some p | Click => o end) es None.
(** All switches are off when their pages come. *)
Definition fresh (es : list event) : Prop := forall d p, In (Open d p) es -> pg_switch p <> Some true.
(** The first page with a switch decides if nothing is stored. *)
Fixpoint first_preference (es : list event) : bool :=
  match es with
  | [] => false
  | Open d p :: es' => match pg_switch p with Some _ => d | None => first_preference es' end
  | Click :: es' => first_preference es'
  end.
Definition starts_dark (stored : option string) (es : list event) : bool :=
  match stored with Some s => String.eqb s "dark" | None => first_preference es end.
(** The clicks on switches; there are none on a page without. *)
Fixpoint clicks (switch : bool) (es : list event) : nat :=
  match es with
  | [] => 0
  | Open _ p :: es' => clicks (match pg_switch p with Some _ => true | None => false end) es'
  | Click :: es' => (if switch then 1 else 0) + clicks switch es'
  end.
(** The theme after the events: that of the start, turned around by each click. *)
Definition dark_after (stored : option string) (es : list event) : bool := xorb (starts_dark stored es) (Nat.odd (clicks false es)).
