(** Texts with the same tokens; the reader. *)
From Coq Require Import List String Ascii NArith Bool.
From Verif Require Import Base SynM LexM SpecText LexP GramM GramP2 SpecTmpl TmplP3 TmplP5.
Import ListNotations.
Local Open Scope string_scope.

Lemma same_tokens ts s s' : lexes ts s -> lexes ts s' -> read_items s = read_items s' /\ read_expr s = read_expr s'.
Proof.
  intros L L'. apply lex_iff in L, L'. unfold read_items, read_expr. now rewrite L, L'.
Qed.
Lemma reader_ok : reads_grammar read_items /\ forall is s, text_of is s -> read_items s <> None.
Proof. split; [exact reader_reads|]. intros is s T. apply read_iff in T. now rewrite T. Qed.
Lemma file_in_grammar u v d : numerals u -> numerals v -> weights_ok d -> exists is, text_of is (file_text u v d).
Proof. intros U V D. exists (items_of v d). now apply file_items. Qed.
