(** Files that the parser of Rust refuses are errors. *)
From Coq Require Import List String Bool NArith.
From Verif Require Import Base ScopeM TermM CompareM SynM ParseM StorageM SpecParse SpecStorage.
From Verif Require StorageP ParseP3.
Import ListNotations.
Lemma storage_file_lemma : forall f, (forall items, f = Some items -> proper_file items) ->
  (forall x, storage_content f = Ok x -> exists items, f = Some items /\ first_reading db_reading (flat_map consts items) x) /\
  (is_err (storage_content f) = true <-> forall items c x, f = Some items -> In c (flat_map consts items) -> ~ db_reading c x) /\
  returns (storage_content f).
Proof.
  intros [items|] H.
  - destruct (StorageP.storage_lemma items (H items eq_refl)) as (A & B & C). split; [|split; [|exact C]].
    + intros x E. exists items. split; [reflexivity|now apply A].
    + rewrite B. split; [intros K items' c x [= <-]; apply K|intros K c x; now apply K].
  - split; [discriminate|]. split; [|constructor]. split; [discriminate|reflexivity].
Qed.
Lemma overhead_file_lemma : forall f, (forall items, f = Some items -> proper_file items) ->
  (forall x, overhead_content f = Ok x -> exists items, f = Some items /\ first_reading overhead_reading (flat_map consts items) x) /\
  (is_err (overhead_content f) = true <-> forall items c x, f = Some items -> In c (flat_map consts items) -> ~ overhead_reading c x) /\
  returns (overhead_content f).
Proof.
  intros [items|] H.
  - destruct (StorageP.overhead_lemma items (H items eq_refl)) as (A & B & C). split; [|split; [|exact C]].
    + intros x E. exists items. split; [reflexivity|now apply A].
    + rewrite B. split; [intros K items' c x [= <-]; apply K|intros K c x; now apply K].
  - split; [discriminate|]. split; [|constructor]. split; [discriminate|reflexivity].
Qed.
Lemma content_file pallet f ws : parse_content pallet f = Ok ws -> exists items, f = Some items /\ first_usable (ParseP3.entry pallet) items ws.
Proof. destruct f as [items|]; [|discriminate]. intros H. exists items. split; [reflexivity|now apply ParseP3.content_first]. Qed.
Lemma content_file_fails pallet f : (forall items, f = Some items -> Forall harmless_item items) ->
  (is_err (parse_content pallet f) = true <-> forall items i ws, f = Some items -> In i items -> ~ usable (ParseP3.entry pallet) i ws).
Proof.
  destruct f as [items|]; intros H.
  - rewrite (ParseP3.content_fails pallet items (H items eq_refl)). split; [intros K items' i ws [= <-]; apply K|intros K i ws; now apply K].
  - split; [discriminate|reflexivity].
Qed.
