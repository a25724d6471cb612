(** Model of the component range comments: core/src/parse/pallet.rs:175-249. *)
From Coq Require Import List String Ascii NArith Bool.
From Verif Require Import Base TermM CompareM SynM.
Import ListNotations.
Local Open Scope string_scope.

(** Character classes of the regular expression, for ASCII text ([\w], [\s] and
    [\d] also have members outside of ASCII, which are not modelled). *)
Definition in_range (a b : N) (c : ascii) : bool := ((a <=? N_of_ascii c) && (N_of_ascii c <=? b))%N.
Definition re_d (c : ascii) : bool := in_range 48 57 c.
Definition re_w (c : ascii) : bool := re_d c || in_range 65 90 c || in_range 97 122 c || Ascii.eqb c "_".
Definition re_s (c : ascii) : bool := in_range 9 13 c || Ascii.eqb c " ".

(** A greedy repetition [[class]*]: the longest prefix, and the rest. *)
Fixpoint span (p : ascii -> bool) (s : string) : string * string :=
  match s with
  | String c s' => if p c then let (a, b) := span p s' in (String c a, b) else ("", s)
  | "" => ("", "")
  end.
(** A literal character. *)
Definition eat (c : ascii) (s : string) : option string :=
  match s with String d s' => if Ascii.eqb d c then Some s' else None | "" => None end.
Definition re_dus (c : ascii) : bool := re_d c || Ascii.eqb c "_".

(** The expression from its first backtick on. Each repetition is followed by a
    character outside of its class, so that the greedy choice is the only one and
    backtracking never helps. *)
Definition match_here (s : string) : option (string * string * string) :=
  match eat "`" s with None => None | Some s =>
  let (component, s) := span re_w s in
  if String.eqb component "" then None else
  match eat "`" s with None => None | Some s =>
  let (_, s) := span (fun c => re_w c || re_s c) s in
  match eat "`" s with None => None | Some s =>
  match eat "[" s with None => None | Some s =>
  let (min, s) := span re_dus s in
  if String.eqb min "" then None else
  match eat "," s with None => None | Some s =>
  let (_, s) := span re_s s in
  let (max, s) := span re_dus s in
  if String.eqb max "" then None else
  match eat "]" s with None => None | Some s =>
  match eat "`" s with None => None | Some s =>
  Some (component, min, max)
  end end end end end end end.

(** core/src/parse/pallet.rs:184-190, 201: the search for the expression. It may start anywhere;
    from a start that matches, its [[\w\s]*] reaches up to the next backtick, so
    the captures are those of the first backtick from where the rest matches. *)
Fixpoint captures (s : string) : option (string * string * string) :=
  match match_here s with
  | Some r => Some r
  | None => match s with String _ s' => captures s' | "" => None end
  end.

(** [str::parse::<u32>] on text of digits only (others do not occur here). *)
Fixpoint digits_val (acc : N) (s : string) : N :=
  match s with
  | "" => acc
  | String c s' => digits_val (acc * 10 + (N_of_ascii c - 48)) s'
  end.
Definition u32_max : N := 4294967295.
Definition parse_u32 (s : string) : option N :=
  if String.eqb s "" then None
  else let n := digits_val 0 s in if (n <=? u32_max)%N then Some n else None.

(** core/src/parse/pallet.rs:183-228; [replace('_', "")] is [strip_us]. *)
Definition parse_component_attr (attr : attribute) : outcome (option (string * comp_range)) :=
  match attr with
  | ANameValue p input =>
      if negb (String.eqb (path_to_string p "") "doc") then Ok None
      else match captures input with
           | None => Ok None
           | Some (component, min, max) =>
               match parse_u32 (strip_us min) with
               | None => Err "Could not parse min value"
               | Some min =>
                   match parse_u32 (strip_us max) with
                   | None => Err "Could not parse max value"
                   | Some max =>
                       if (max <? min)%N then Err "Min value is greater than max value"
                       else Ok (Some (component, {| rmin := min; rmax := max |}))
                   end
               end
           end
  | AOther => Ok None
  end.

(** core/src/parse/pallet.rs:230-249; the [HashMap] as a sorted map. *)
Fixpoint collect_attrs (attrs : list attribute) (res : comp_ranges) : outcome comp_ranges :=
  match attrs with
  | [] => Ok res
  | a :: attrs' =>
      let* r := parse_component_attr a in
      match r with
      | Some (name, range) => collect_attrs attrs' (minsert str_cmp (strip_us name) range res)
      | None => collect_attrs attrs' res
      end
  end.
Definition parse_component_attrs (attrs : list attribute) : outcome (option comp_ranges) :=
  let* res := collect_attrs attrs [] in
  Ok (match res with [] => None | _ => Some res end).

Definition doc (s : string) : attribute := ANameValue (mk_path false ["doc"]) s.
(** core/src/test/parse_pallet.rs and a comment with two candidates. *)
Example parse_component_attr_ex :
  parse_component_attr (doc " The range of component `c` is `[1_337, 2000]`.") = Ok (Some ("c", mk_range 1337 2000)) /\
  parse_component_attr (doc "`a` and `b` in `[0,5]` or `c` `[1,2]`") = Ok (Some ("b", mk_range 0 5)) /\
  parse_component_attr (doc "`c` is `[2, 1]`") = Err "Min value is greater than max value" /\
  parse_component_attr (doc "`c` is `[1, 5000000000]`") = Err "Could not parse max value" /\
  parse_component_attr (doc "`c` is `[_, 1]`") = Err "Could not parse min value" /\
  parse_component_attr (doc "Storage: `System::Account` (r:1 w:1)") = Ok None /\
  parse_component_attrs [doc "x"; AOther; doc "`b_2` `[1,2]`"; doc "`a` `[3,4]`"] = Ok (Some [("a", mk_range 3 4); ("b2", mk_range 1 2)]).
Proof. repeat split; vm_compute; reflexivity. Qed.
