(** Specification vocabulary for the page of merge requests. *)
From Coq Require Import List String Ascii Arith NArith ZArith Bool Permutation Sorted.
From Verif Require Import Base SpecFiles SpecWeb SpecRows SpecSite SpecArgs SiteM MrM.
Import ListNotations.
Local Open Scope string_scope.

(** ** Addresses *)
(** Letters, digits, and the other characters of names on GitHub. *)
Definition name_chars : list ascii := list_ascii_of_string "abcdefghijklmnopqrstuvwxyzABCDEFGHIJKLMNOPQRSTUVWXYZ0123456789-_.".
Definition github_name (s : string) : Prop := s <> "" /\ only (fun c => In c name_chars) s.
(** No parameter can begin in this text. *)
Definition no_params (s : string) : Prop := only (fun c => c <> "?"%char /\ c <> "&"%char) s.
(** The first value of the name counts; the default counts if there is none, or an empty one. *)
Definition param_is (l : list (string * string)) (name default v : string) : Prop :=
  match values_of name l with
  | [] => v = default
  | x :: _ => x = "" /\ v = default \/ github_name x /\ v = x
  end.

(** ** Rows *)
(** Somewhere in the text is the word "weight", in any case. *)
Definition mentions_weight (s : string) : Prop := exists a w b, s = a ++ w ++ b /\ spells w "weight".
Definition about_weights (mr : pull) : Prop := mentions_weight (pr_title mr) \/ mentions_weight (pr_head mr) \/ mentions_weight (pr_base mr).
(** The same entries, the newest first; those of the same time in the order in which they came. *)
Definition newest_first (l l' : list pull) : Prop :=
  Permutation l l' /\ StronglySorted (fun a b => (pr_updated b <= pr_updated a)%Z) l' /\
  forall t, filter (fun mr => Z.eqb (pr_updated mr) t) l' = filter (fun mr => Z.eqb (pr_updated mr) t) l.
(** The first hundred characters. *)
Definition shortened (s t : string) : Prop := exists rest, s = t ++ rest /\ String.length t <= 100 /\ (rest = "" \/ String.length t = 100).
Definition shows_pull (show_date : Z -> string) (mr : pull) (cells : list string) : Prop :=
  exists title, shortened (pr_title mr) title /\ cells = [title; pr_user mr; pr_head mr; pr_base mr; show_date (pr_updated mr)].
(** The row of an entry: entries of forks are gray and do nothing; the others open the comparison of their branches, and
    they are green if they are about weights. *)
Definition row_for (show_date : Z -> string) (owner : string) (mr : pull) (row : mr_row) : Prop :=
  shows_pull show_date mr (row_cells row) /\ exists o, pr_owner mr = Some o /\
    (o = owner -> row_opens row = Some (pr_base mr, pr_head mr) /\ row_title row = None /\
      (row_color row = Some "seagreen" <-> about_weights mr) /\ (row_color row = None <-> ~ about_weights mr)) /\
    (o <> owner -> row_opens row = None /\ row_color row = Some "gray" /\ row_title row = Some ("Forks are unsupported. Remote: " ++ o ++ " != " ++ owner)).
