(** What a visit of the start page is about, from the events alone (the newest first); nothing here looks at the page. *)
From Coq Require Import List String Bool.
From Verif Require Import RootM.
Import ListNotations.
Local Open Scope string_scope.

(** The repository that was chosen last. *)
Fixpoint chosen (es : list event) : option string :=
  match es with [] => None | Choose r :: _ => Some r | _ :: es' => chosen es' end.
(** The newest list of branches of a repository. *)
Fixpoint newest (r : string) (es : list event) : option (list branch) :=
  match es with
  | [] => None
  | Answer (r', _) l :: es' => if String.eqb r' r then Some l else newest r es'
  | _ :: es' => newest r es'
  end.
(** Every answer is about the repository that is chosen when it comes. *)
Fixpoint orderly (es : list event) : Prop :=
  match es with
  | [] => True
  | Answer (r, _) _ :: es' => chosen es' = Some r /\ orderly es'
  | _ :: es' => orderly es'
  end.
(** The lists that were filled in: at an answer, and when a repository is chosen whose branches are known. *)
Definition fills (e : event) (before : list event) : option (list branch) :=
  match e with Answer _ l => Some l | Choose r => newest r before | _ => None end.
(** [last_fill l since es]: the boxes were filled last with [l], and [since] happened after that. *)
Inductive last_fill : list branch -> list event -> list event -> Prop :=
| lf_now e es l : fills e es = Some l -> last_fill l [] (e :: es)
| lf_later e es l since : fills e es = None -> last_fill l since es -> last_fill l (e :: since) (e :: es).
(** The last choice of the user in a box. *)
Inductive last_pick (d : side) : string -> list event -> Prop :=
| lp_now n es : last_pick d n (Pick d n :: es)
| lp_later e n es : (forall n', e <> Pick d n') -> last_pick d n es -> last_pick d n (e :: es).

(** The requests, from the events: a choice asks if nothing is known, and the button always asks. *)
Fixpoint asked (es : list event) : list request :=
  match es with
  | [] => []
  | Choose r :: es' => match newest r es' with None => (r, false) :: asked es' | Some _ => asked es' end
  | Fetch :: es' => match chosen es' with Some r => (r, true) :: asked es' | None => asked es' end
  | _ :: es' => asked es'
  end.
(** The requests that are over. *)
Fixpoint over (es : list event) : list request :=
  match es with [] => [] | Answer q _ :: es' | Fail q :: es' => q :: over es' | _ :: es' => over es' end.
Definition times (q : request) (l : list request) : nat := List.length (filter (request_eqb q) l).
(** The user waits: nothing is chosen or fetched while a request is under way. *)
Fixpoint patient (es : list event) : Prop :=
  match es with
  | [] => True
  | (Choose _ | Fetch) :: es' => (forall q, times q (over es') = times q (asked es')) /\ patient es'
  | _ :: es' => patient es'
  end.
(** The requests that failed. *)
Fixpoint failed (es : list event) : list request :=
  match es with [] => [] | Fail q :: es' => q :: failed es' | _ :: es' => failed es' end.
