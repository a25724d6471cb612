(** Specification vocabulary for answers while the remote repositories change. *)
From Coq Require Import List String Arith NArith.
From Verif Require Import Base ScopeM TermM F64 CompareM RowsM FmtM FilesM GitM SpecGit WebM ServerM IsoM.
Import ListNotations.

(** A branch of the remote repository of the directory [d], at the moment of [c]. *)
Definition newest (c : iconfig (W := grepo)) (d : fpath) (branch : string) : option N := r_remote (snd (fst c) d) branch.
(** At that moment, thread [i] is in the middle of the comparison for [a]. *)
Definition during (i : nat) (a : web_args) (c : iconfig (W := grepo)) : Prop := exists q, nth_error (snd c) i = Some (Exec a q).
(** The moment [c1] is before [c2]; the latest is the first. *)
Definition earlier {A} (h : list A) (c1 c2 : A) : Prop := exists h1 h2 h3, h = app h1 (c2 :: app h2 (c1 :: h3)).
(** The name is that of a branch of the remote repository all the time, or at least not of a tag or commit. *)
Definition branch_name (h : list (iconfig (W := grepo))) (d : fpath) (name : string) : Prop :=
  forall c, In c h -> newest c d name <> None \/ r_other (snd (fst c) d) name = None.
(** A result that is answered at time [t]: in the cache or computed for this request. *)
Definition answered_at (l : list event) (i : nat) (a : web_args) (v : list row) (t : N) : Prop :=
  In (Answered i a (Cached v) t) l \/ In (Answered i a (Fresh v) t) l.
(** The time of a moment. *)
Definition clock (c : iconfig (W := grepo)) : N := s_now (fst (fst c)).
(** While thread [j] compared for [a], until the time [t], [c_old] was the newest commit of the branch [old] and later [c_new]
    that of [new]. *)
Definition looked_up (h : list (iconfig (W := grepo))) (d : fpath) (j : nat) (a : web_args) (old new : string) (c_old c_new : N) (t : N) : Prop :=
  exists c1 c2, earlier h c1 c2 /\ during j a c1 /\ during j a c2 /\ (clock c1 <= clock c2 <= t)%N /\
    newest c1 d old = Some c_old /\ newest c2 d new = Some c_new.
