(** Proofs about links to rows. *)
From Coq Require Import List String Ascii NArith Bool Lia.
From Verif Require Import Base FilesM GitM RowsM CliM WebM SiteM PageM MrM AnchorM SpecFiles SpecWeb SpecRows SpecSite SpecAnchor.
From Verif Require WebP PageP.
Import ListNotations.
Local Open Scope string_scope.

Lemma frag_id s : linkable s -> browser_fragment s = s.
Proof.
  induction s as [|c s IH]; [reflexivity|]. intros L. apply WebP.only_cons in L as [(R & M & Q) L]. cbn [browser_fragment]. rewrite (IH L). unfold fragment_char.
  replace (N_of_ascii c =? 9)%N with false by (symmetry; apply N.eqb_neq; lia). replace (N_of_ascii c =? 10)%N with false by (symmetry; apply N.eqb_neq; lia).
  replace (N_of_ascii c =? 13)%N with false by (symmetry; apply N.eqb_neq; lia). replace (N_of_ascii c <=? 32)%N with false by (symmetry; apply N.leb_gt; lia).
  replace (127 <=? N_of_ascii c)%N with false by (symmetry; apply N.leb_gt; lia). cbn [orb].
  destruct (Ascii.eqb_spec c """") as [->|_]; [destruct Q; reflexivity|]. 
  destruct (Ascii.eqb_spec c "<") as [->|_]; [destruct M; cbn; auto|].
  destruct (Ascii.eqb_spec c ">") as [->|_]; [destruct M; cbn; auto|].
  destruct (Ascii.eqb_spec c "`") as [->|_]; [destruct M; cbn; auto|]. reflexivity.
Qed.
Lemma linkable_app a b : linkable a -> linkable b -> linkable (a ++ b).
Proof. intros A B. apply WebP.only_app. now split. Qed.
Lemma id_linkable r : linkable (row_file r) -> linkable (row_name r) -> linkable (row_id r).
Proof.
  intros A B. apply linkable_app; [exact A|]. apply WebP.only_cons. split; [|exact B]. split; [cbn; lia|]. split; [|discriminate].
  cbn. intros H. repeat destruct H as [H|H]; try discriminate H; contradiction.
Qed.
Lemma id_nonempty r : row_id r <> "".
Proof. unfold row_id. destruct (row_file r); discriminate. Qed.
Lemma find_none rows id o : (forall r, In r rows -> row_id r <> id) -> fold_left (fun o r => if String.eqb (row_id r) id then Some r else o) rows o = o.
Proof.
  revert o. induction rows as [|x rows IH]; intros o H; [reflexivity|]. cbn. destruct (String.eqb_spec (row_id x) id) as [E|E]; [destruct (H x (or_introl eq_refl) E)|]. apply IH. intros r I. apply H. now right.
Qed.
Lemma find_one rows r : NoDup (map row_id rows) -> In r rows -> find_id rows (row_id r) = Some r.
Proof.
  unfold find_id. generalize (None (A := row)). induction rows as [|x rows IH]; intros o N I; [destruct I|]. inversion N as [|? ? X N']; subst. cbn [fold_left]. destruct I as [->|I].
  - rewrite String.eqb_refl. apply find_none. intros q Iq E. apply X. rewrite <- E. now apply in_map.
  - now apply IH.
Qed.
Lemma anchor_of u r : linkable (row_file r) -> linkable (row_name r) -> drop_hash (hash (follow u r)) = row_id r.
Proof.
  intros A B. unfold hash, follow. cbn [u_fragment]. rewrite (frag_id _ (id_linkable r A B)). destruct (String.eqb_spec (row_id r) "") as [E|_]; [destruct (id_nonempty r E)|reflexivity].
Qed.
Lemma rows_ids sorted : NoDup (map row_id sorted) -> NoDup (map row_id (table_rows sorted)).
Proof.
  unfold table_rows, page_rows. induction sorted as [|x l IH]; cbn; [auto|]. intros N. inversion N as [|? ? X N']; subst. destruct (row_term x) as [c|]; cbn; [|now apply IH].
  constructor; [|now apply IH]. intros I. apply X. apply in_map_iff in I as (y & E & I). apply in_map_iff in I as ((y' & c') & <- & I). cbn in E. rewrite <- E. apply in_map.
  clear - I. apply PageP.filter_map_in in I as (z & Iz & E). destruct (row_term z); [|discriminate]. now injection E as <- _.
Qed.
Lemma select_lemma css rows u r u0 q : linkable (row_file q) -> linkable (row_name q) -> u_fragment u = u_fragment (follow u0 q) -> row_key r = row_key q ->
  NoDup (map row_id rows) -> In r rows -> selected css rows u = Some r.
Proof.
  intros A B F K N I. pose proof (anchor_of u0 q A B) as An. unfold selected. assert (H : hash u = hash (follow u0 q)) by (unfold hash; now rewrite F). rewrite H, An.
  assert (E : row_id q = row_id r) by (unfold row_id; unfold row_key in K; injection K as -> ->; reflexivity).
  destruct (String.eqb_spec (row_id q) "") as [Z|_]; [destruct (id_nonempty q Z)|]. now rewrite E, (find_one rows r N I).
Qed.
Section Runs.
Context {W : Type} (git : W -> list string -> W * cmd_result) (glob : W -> string -> option (list (option fpath)))
  (disk : W -> fpath -> string + SynM.file) (m : mode) (ords : string * string -> list string -> list string) (rx : regex_engine) (path : fpath).
Lemma link_lemma css a w sorted u r : do_compare git glob disk m ords rx path a w (Ok sorted) -> (forall r, In r sorted -> without "." (row_name r)) ->
  In r (table_rows sorted) -> linkable (row_file r) -> linkable (row_name r) -> selected css (table_rows sorted) (follow u r) = Some r.
Proof.
  intros D Nd I A B. apply (select_lemma css _ _ r u r); [exact A|exact B|reflexivity|reflexivity| |exact I]. apply rows_ids. now apply (proj2 (PageP.ids_lemma git glob disk m ords rx path a w sorted D)).
Qed.
Lemma kept_lemma css a w sorted u r k v u' r' : do_compare git glob disk m ords rx path a w (Ok sorted) -> (forall r, In r sorted -> without "." (row_name r)) ->
  linkable (row_file r) -> linkable (row_name r) -> redirect (follow u r) k v = Some u' ->
  In r' (table_rows sorted) -> row_key r' = row_key r -> u_base u' = u_base u /\ selected css (table_rows sorted) u' = Some r'.
Proof.
  intros D Nd A B R I K. unfold redirect in R. destruct (url_redirect _ k v) as [q|]; [|discriminate R]. injection R as <-. split; [reflexivity|].
  apply (select_lemma css _ _ r' u r); [exact A|exact B|reflexivity|exact K| |exact I]. apply rows_ids. now apply (proj2 (PageP.ids_lemma git glob disk m ords rx path a w sorted D)).
Qed.
End Runs.
Lemma blank_lemma : forall d, ~ is_failed (mk_row "f" "my pallet/weights.rs" d) -> let r := mk_row "f" "my pallet/weights.rs" d in
  table_rows [r] = [r] /\ forall u, find_id [r] (drop_hash (hash (follow u r))) = None.
Proof. intros d N r. subst r. split; [|reflexivity]. destruct d; try reflexivity. destruct N. eexists. reflexivity. Qed.
