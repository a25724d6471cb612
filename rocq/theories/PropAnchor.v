(** Property C91: links to rows of the table of results. *)
From Coq Require Import List String Ascii NArith Bool.
From Verif Require Import Base FilesM SynM GitM RowsM CliM WebM SiteM PageM MrM AnchorM SpecFiles SpecWeb SpecRows SpecSite SpecAnchor.
From Verif Require AnchorP PropServer PropGit RowsP.
Import ListNotations.
Local Open Scope string_scope.

(** ** C91: the link in a row selects this row, also after another choice on the page. *)
Theorem C91_link : forall (W : Type) (git : W -> list string -> W * cmd_result) glob disk m ords rx path css a w sorted u r,
  do_compare git glob disk m ords rx path a w (Ok sorted) -> (forall r, In r sorted -> without "." (row_name r)) ->
  In r (table_rows sorted) -> linkable (row_file r) -> linkable (row_name r) -> selected css (table_rows sorted) (follow u r) = Some r.
Proof. exact @AnchorP.link_lemma. Qed.
Print Assumptions C91_link.
Theorem C91_kept : forall (W : Type) (git : W -> list string -> W * cmd_result) glob disk m ords rx path css a w sorted u r k v u' r',
  do_compare git glob disk m ords rx path a w (Ok sorted) -> (forall r, In r sorted -> without "." (row_name r)) ->
  linkable (row_file r) -> linkable (row_name r) -> redirect (follow u r) k v = Some u' ->
  In r' (table_rows sorted) -> row_key r' = row_key r -> u_base u' = u_base u /\ selected css (table_rows sorted) u' = Some r'.
Proof. exact @AnchorP.kept_lemma. Qed.
Print Assumptions C91_kept.
(** A file with a blank in its path: the address has [%20] instead, and the script does not look for the id of the row. *)
Theorem C91_blank_refuted : forall d, ~ is_failed (mk_row "f" "my pallet/weights.rs" d) -> let r := mk_row "f" "my pallet/weights.rs" d in
  table_rows [r] = [r] /\ forall u, find_id [r] (drop_hash (hash (follow u r))) = None.
Proof. exact AnchorP.blank_lemma. Qed.
Print Assumptions C91_blank_refuted.

(** ** Examples *)
Example C91_ex : PropServer.ex_runs PropServer.ex_good (Ok PropServer.ex_rows) /\ (forall r, In r PropServer.ex_rows -> without "." (row_name r)) /\
  exists r, table_rows PropServer.ex_rows = [r] /\ row_id r = "x.rs.f" /\ linkable (row_file r) /\ linkable (row_name r) /\
    forall u, exists u', redirect (follow u r) "threshold" "20" = Some u'.
Proof.
  split; [exact PropServer.ex_runs_good|]. split; [intros r [<-|[]]; cbn; repeat split; discriminate|]. eexists. split; [reflexivity|]. split; [reflexivity|].
  split; [|split; [|intros u; eexists; reflexivity]]; intros c I; cbn in I; repeat destruct I as [<-|I]; try contradiction; (split; [split; vm_compute; discriminate|split; [|discriminate]]);
    intros J; cbn in J; repeat destruct J as [J|J]; try discriminate J; contradiction.
Qed.
