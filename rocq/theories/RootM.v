(** Model of the script of the start page: web/static/root.js, on the page web/templates/root.stpl.

    The script reacts to the user and to the answers of the server; an [event] is one such moment, and [react] runs
    the handler of it to its end, as a browser does. jQuery and the selection boxes are modelled as far as they are
    used: a box has options and at most one chosen value; [val] of a value that no option has leaves nothing chosen
    (jQuery's [valHooks.select.set] sets [selectedIndex] to -1); a failed [$.getJSON] calls nothing.

    Left out: the animation between the four steps, the messages on the console, and whether the overlay keeps the
    user from the boxes (it does for a mouse, it does not for the keyboard): here the user may act at any time. The
    names that every object of JavaScript has ("constructor" and the like) are taken to be no names of repositories. *)
From Coq Require Import List String Bool.
From Verif Require Import SiteM.
Import ListNotations.
Local Open Scope string_scope.

(** A branch and its last commit, as /branches lists them (web/src/main.rs:265-287). *)
Definition branch : Type := (string * string)%type.
(** A request for the branches: the repository, and whether the server shall fetch (root.js:66). *)
Definition request : Type := (string * bool)%type.
Inductive side := First | Second.

(** A selection box: texts and values of the options, and the chosen value. *)
Record box := { bx_options : list (string * string); bx_value : option string }.
Definition empty_box : box := {| bx_options := []; bx_value := None |}.
(** jQuery's [val] with an argument. *)
Definition set_value (v : string) (b : box) : box :=
  {| bx_options := bx_options b; bx_value := if existsb (fun o => String.eqb (snd o) v) (bx_options b) then Some v else None |}.

(** The page: the three boxes, the fields of the last step (root.stpl:81-86), the variable [branches] (root.js:9),
    the local storage, the requests that are under way and the overlay. *)
Record page := {
  pg_repo : option string;
  pg_box : side -> box;
  pg_seen_repo : string;
  pg_seen : side -> string;
  pg_known : list (string * list branch);
  pg_storage : list (string * string);
  pg_waiting : list request;
  pg_loading : bool }.
Definition set_repo r p := {| pg_repo := Some r; pg_box := pg_box p; pg_seen_repo := r; pg_seen := pg_seen p; pg_known := pg_known p;
  pg_storage := pg_storage p; pg_waiting := pg_waiting p; pg_loading := pg_loading p |}.
Definition on_side {A} (f : side -> A) (d : side) (a : A) : side -> A :=
  fun d' => match d, d' with First, First | Second, Second => a | _, _ => f d' end.
Definition set_box d b p := {| pg_repo := pg_repo p; pg_box := on_side (pg_box p) d b; pg_seen_repo := pg_seen_repo p; pg_seen := pg_seen p;
  pg_known := pg_known p; pg_storage := pg_storage p; pg_waiting := pg_waiting p; pg_loading := pg_loading p |}.
Definition set_seen d v p := {| pg_repo := pg_repo p; pg_box := pg_box p; pg_seen_repo := pg_seen_repo p; pg_seen := on_side (pg_seen p) d v;
  pg_known := pg_known p; pg_storage := pg_storage p; pg_waiting := pg_waiting p; pg_loading := pg_loading p |}.
Definition set_known r l p := {| pg_repo := pg_repo p; pg_box := pg_box p; pg_seen_repo := pg_seen_repo p; pg_seen := pg_seen p;
  pg_known := (r, l) :: pg_known p; pg_storage := pg_storage p; pg_waiting := pg_waiting p; pg_loading := pg_loading p |}.
Definition store k v p := {| pg_repo := pg_repo p; pg_box := pg_box p; pg_seen_repo := pg_seen_repo p; pg_seen := pg_seen p;
  pg_known := pg_known p; pg_storage := (k, v) :: pg_storage p; pg_waiting := pg_waiting p; pg_loading := pg_loading p |}.
Definition set_waiting w p := {| pg_repo := pg_repo p; pg_box := pg_box p; pg_seen_repo := pg_seen_repo p; pg_seen := pg_seen p;
  pg_known := pg_known p; pg_storage := pg_storage p; pg_waiting := w; pg_loading := pg_loading p |}.
(** root.js:11-20 *)
Definition set_loading y p := {| pg_repo := pg_repo p; pg_box := pg_box p; pg_seen_repo := pg_seen_repo p; pg_seen := pg_seen p;
  pg_known := pg_known p; pg_storage := pg_storage p; pg_waiting := pg_waiting p; pg_loading := y |}.

(** The newest entry for a key, of the local storage and of an object. *)
Fixpoint entry {A} (k : string) (l : list (string * A)) : option A :=
  match l with [] => None | (k', a) :: l' => if String.eqb k' k then Some a else entry k l' end.

(** root.js:4-6 *)
Definition key_repo : string := "selected-repo".
Definition key (d : side) : string := match d with First => "selected-second" | Second => "selected-first" end.

(** The handlers of changes of the two boxes (root.js:177-192). The empty text counts as nothing. *)
Definition changed (d : side) (p : page) : page :=
  match bx_value (pg_box p d) with
  | None | Some "" => p
  | Some v => store (key d) v (set_seen d v p)
  end.

(** [Array.prototype.includes], on a list of pairs and with a text: a pair is an object, and no object is the same
    value as a text. *)
Inductive js := Text (s : string) | Pair (b : branch).
Definition same_value (a b : js) : bool :=
  match a, b with Text s, Text t => String.eqb s t | _, _ => false end.
Definition includes (l : list branch) (s : string) : bool := existsb (fun b => same_value (Pair b) (Text s)) l.

(** root.js:28-39 *)
Definition options_of (l : list branch) : list (string * string) := map (fun b => (fst b ++ " on " ++ snd b, fst b)) l.
(** root.js:41-58: what is chosen in a box that was filled. *)
Definition choose_last (l : list branch) (d : side) (p : page) : page :=
  let wanted := match entry (key d) (pg_storage p) with
                | Some s => if includes l s then s else "master"
                | None => "master" end in
  changed d (set_box d (set_value wanted (pg_box p d)) p).
(** root.js:23-59 *)
Definition populate (l : list branch) (p : page) : page :=
  let p := changed First (set_box First empty_box p) in
  let p := changed Second (set_box Second empty_box p) in
  let full := {| bx_options := options_of l; bx_value := match l with [] => None | b :: _ => Some (fst b) end |} in
  let p := set_box Second full (set_box First full p) in
  choose_last l Second (choose_last l First p).

(** root.js:61-76 *)
Definition load (repo : string) (fetch : bool) (p : page) : page :=
  match entry repo (pg_known p), fetch with
  | Some l, false => populate l p
  | _, _ => set_waiting (pg_waiting p ++ [(repo, fetch)])%list (set_loading true p)
  end.
(** root.js:168-176 *)
Definition choose (repo : string) (p : page) : page := load repo false (store key_repo repo (set_repo repo p)).
(** root.js:194-199 *)
Definition press_fetch (p : page) : page := match pg_repo p with Some r => load r true p | None => p end.
(** The two functions at the answer (root.js:66-72). *)
Definition answered (repo : string) (l : list branch) (p : page) : page := set_loading false (populate l (set_known repo l p)).

(** The page when it is ready (root.js:78-80, 201-208), with what the local storage has from earlier visits. *)
Definition ready (storage : list (string * string)) : page :=
  let p := {| pg_repo := None; pg_box := fun _ => empty_box; pg_seen_repo := ""; pg_seen := fun _ => ""; pg_known := []; pg_storage := storage;
              pg_waiting := []; pg_loading := false |} in
  match entry key_repo storage with
  | None | Some "" => p
  | Some r => match entry r (pg_known p) with Some _ => choose r p | None => p end
  end.

(** What happens: the user chooses a repository, presses "fetch" (the one of the second step: the other button has
    the same id, root.stpl:56, 68, and [$('#fetch')] finds only the first) or chooses a branch; a request is answered,
    or fails. *)
Inductive event :=
| Choose (repo : string)
| Fetch
| Pick (d : side) (name : string)
| Answer (q : request) (l : list branch)
| Fail (q : request).

Definition request_eqb (a b : request) : bool := String.eqb (fst a) (fst b) && Bool.eqb (snd a) (snd b).
Fixpoint drop_request (q : request) (l : list request) : option (list request) :=
  match l with
  | [] => None
  | q' :: l' => if request_eqb q' q then Some l' else match drop_request q l' with Some l'' => Some (q' :: l'') | None => None end
  end.
(** One event on the page for [repos] (the options of the first box: root.stpl:45-47); [None] if it cannot happen now. *)
Definition react (repos : list string) (e : event) (p : page) : option page :=
  match e with
  | Choose r => if existsb (String.eqb r) (map lower repos) then Some (choose r p) else None
  | Fetch => Some (press_fetch p)
  | Pick d name =>
      if existsb (fun o => String.eqb (snd o) name) (bx_options (pg_box p d))
      then Some (changed d (set_box d {| bx_options := bx_options (pg_box p d); bx_value := Some name |} p)) else None
  | Answer q l => match drop_request q (pg_waiting p) with Some w => Some (answered (fst q) l (set_waiting w p)) | None => None end
  | Fail q => match drop_request q (pg_waiting p) with Some w => Some (set_waiting w p) | None => None end
  end.
(** The events of a visit, the newest first. *)
Fixpoint visit (repos : list string) (storage : list (string * string)) (es : list event) : option page :=
  match es with
  | [] => Some (ready storage)
  | e :: es' => match visit repos storage es' with Some p => react repos e p | None => None end
  end.

(** How a value is joined to a text. *)
Definition value_text (v : option string) : string := match v with Some s => s | None => "null" end.
(** The button "Compare" (root.js:147-166): the request that is sent, or [None] for the alert. *)
Definition press_compare (p : page) : option string :=
  root_link (value_text (pg_repo p)) (value_text (bx_value (pg_box p First))) (value_text (bx_value (pg_box p Second))).
