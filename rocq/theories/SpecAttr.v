(** Specification vocabulary for the range annotations in doc comments. *)
From Coq Require Import List String Ascii NArith Bool.
From Verif Require Import Base CompareM SpecCompare SpecFmt SynM.
Import ListNotations.
Local Open Scope string_scope.

(** All characters of [s] are from the alphabet. *)
Definition over (alphabet s : string) : Prop :=
  forall c, In c (list_ascii_of_string s) -> In c (list_ascii_of_string alphabet).
Definition grouped_digits : string := "0123456789_".
Definition word_chars : string := "0123456789ABCDEFGHIJKLMNOPQRSTUVWXYZabcdefghijklmnopqrstuvwxyz_".
(** Tab, line feed, vertical tab, form feed, carriage return, space. *)
Definition blanks : string := string_of_list_ascii (map ascii_of_N [9; 10; 11; 12; 13; 32]%N).

(** After the prefix [pre] the text [s] continues with an annotation
    [`c` ... `[min, max]`]; only words are between name and bounds. *)
Definition note_at (s pre c min max : string) : Prop :=
  exists between blank post,
    s = pre ++ "`" ++ c ++ "`" ++ between ++ "`[" ++ min ++ "," ++ blank ++ max ++ "]`" ++ post /\
    c <> "" /\ over word_chars c /\ over (word_chars ++ blanks) between /\
    min <> "" /\ over grouped_digits min /\ over blanks blank /\ max <> "" /\ over grouped_digits max.
(** The first annotation of the text. *)
Definition first_note (s c min max : string) : Prop :=
  exists pre, note_at s pre c min max /\
    forall pre' c' min' max', note_at s pre' c' min' max' -> (String.length pre <= String.length pre')%nat.

(** A 32-bit number in decimal, grouped by underscores in any way. *)
Definition denotes (s : string) (n : N) : Prop := read_dec (without_us s) = Some n /\ (n < 2 ^ 32)%N.

(** The attribute is a doc comment with this text. *)
Definition doc_comment (a : attribute) (text : string) : Prop :=
  exists p, a = ANameValue p text /\ String.concat "" (segments p) = "doc".
(** The attribute annotates component [c] with the range [r]. *)
Definition declares (a : attribute) (c : string) (r : comp_range) : Prop :=
  exists text min max, doc_comment a text /\ first_note text c min max /\
    denotes min (rmin r) /\ denotes max (rmax r) /\ (rmin r <= rmax r)%N.
(** The annotation is not well-formed. *)
Definition malformed (a : attribute) : Prop :=
  exists text c min max, doc_comment a text /\ first_note text c min max /\
    ~ exists i j, denotes min i /\ denotes max j /\ (i <= j)%N.
(** The attribute annotates nothing. *)
Definition silent (a : attribute) : Prop :=
  forall text, doc_comment a text -> forall pre c min max, ~ note_at text pre c min max.

(** The last of the attributes that annotate [c] (up to underscores). *)
Definition last_declared (attrs : list attribute) (c : string) (r : comp_range) : Prop :=
  exists pre a post c', attrs = (pre ++ a :: post)%list /\ declares a c' r /\ without_us c' = c /\
    forall a' c'' r', In a' post -> declares a' c'' r' -> without_us c'' <> c.
