(** Property C92: the methods that look at one corner of the ranges. *)
From Coq Require Import List String NArith ZArith Bool Reals Lra Lia Floats.SpecFloat.
From Verif Require Import Base ScopeM TermM SpecTerm SpecChrom F64 SpecF64 CompareM SpecCompare RowsM SpecRows SynM AttrM ParseM SpecParse SpecAttr
  StorageM FilesM SpecFiles GitM SpecGit WebM SpecWeb SpecEnd SpecCorner SpecCorner2.
From Verif Require CornerP CornerP2 EndP3 PropEnd PropGit RowsP WebP.
Import ListNotations.
Local Open Scope string_scope.
Local Open Scope R_scope.

(** Two weights that differ by the threshold (and the rounding error) at the corner are in the filtered table, which shows
    these two weights and their percentage. *)
Theorem C92_shown : forall m ords rx olds news meth s d f rows k o n rho z, (forall k, is_order (ords k)) ->
  looks_at meth s -> compare_files m ords rx olds news {| p_method := meth; p_unit := d |} f = Ok rows ->
  threshold_mils (f_threshold f) z -> kind_selected f Changed ->
  is_first olds k (Some o) -> is_first news k (Some n) ->
  passes rx (f_pallet f) (fst k) -> passes rx (f_extrinsic f) (snd k) ->
  sane d (in_dim d o) (in_dim d n) s -> at_corner s d (Some (in_dim d o)) (Some (in_dim d n)) rho ->
  let v := poly_val rho (restrict d (eterm o)) in let w := poly_val rho (restrict d (eterm n)) in
  differs (IZR z / 1000) v w ->
  exists r, In r (filter_changes rows f) /\ row_key r = k /\
    (is_failed r \/ exists c, reports r c /\ tc_change c = Changed /\ tc_old_v c = Some v /\ tc_new_v c = Some w /\ tc_percent c = percent v w).
Proof. exact CornerP.corner_shown. Qed.
Print Assumptions C92_shown.
(** Every change in the filtered table shows the weights at the corner, and they differ by the threshold (less the rounding error). *)
Theorem C92_real : forall m ords rx olds news meth s d f rows r c o n rho z, (forall k, is_order (ords k)) ->
  looks_at meth s -> compare_files m ords rx olds news {| p_method := meth; p_unit := d |} f = Ok rows ->
  threshold_mils (f_threshold f) z -> In r (filter_changes rows f) -> reports r c -> tc_change c = Changed ->
  is_first olds (row_key r) (Some o) -> is_first news (row_key r) (Some n) ->
  sane d (in_dim d o) (in_dim d n) s -> at_corner s d (Some (in_dim d o)) (Some (in_dim d n)) rho ->
  let v := poly_val rho (restrict d (eterm o)) in let w := poly_val rho (restrict d (eterm n)) in
  tc_old_v c = Some v /\ tc_new_v c = Some w /\ tc_percent c = percent v w /\
  ((0 < v)%N -> IZR z / 1000 - slack v w <= Rabs (rel_change_of v w)).
Proof. exact CornerP.corner_real. Qed.
Print Assumptions C92_real.
(** Both for the source of weight functions: the values of the two functions at the corner of their annotated ranges. *)
Theorem C92_source : forall m ords rx olds news meth s d f rows k mo mn eo en rho z v w, (forall k, is_order (ords k)) ->
  looks_at meth s ->
  compare_files m ords rx olds news {| p_method := meth; p_unit := d |} f = Ok rows ->
  threshold_mils (f_threshold f) z -> kind_selected f Changed ->
  entry_of olds k mo eo -> entry_of news k mn en ->
  passes rx (f_pallet f) (fst k) -> passes rx (f_extrinsic f) (snd k) ->
  sane_source s d mo mn eo en -> at_source_corner s mo mn eo en rho -> weight_at d rho eo v -> weight_at d rho en w ->
  differs (IZR z / 1000) v w ->
  exists r, In r (filter_changes rows f) /\ row_key r = k /\ shows_exactly r v w.
Proof. exact CornerP2.source_shown. Qed.
Print Assumptions C92_source.
Theorem C92_source_real : forall m ords rx olds news meth s d f rows r c mo mn eo en rho z v w, (forall k, is_order (ords k)) ->
  looks_at meth s ->
  compare_files m ords rx olds news {| p_method := meth; p_unit := d |} f = Ok rows ->
  threshold_mils (f_threshold f) z -> In r (filter_changes rows f) -> reports r c -> tc_change c = Changed ->
  entry_of olds (row_key r) mo eo -> entry_of news (row_key r) mn en ->
  sane_source s d mo mn eo en -> at_source_corner s mo mn eo en rho -> weight_at d rho eo v -> weight_at d rho en w ->
  tc_old_v c = Some v /\ tc_new_v c = Some w /\ tc_percent c = percent v w /\
  ((0 < v)%N -> IZR z / 1000 - slack v w <= Rabs (rel_change_of v w)).
Proof. exact CornerP2.source_real. Qed.
Print Assumptions C92_source_real.
(** And for the web server, with the newest commits of two branches of the remote repository. *)
Theorem C92_web : forall tglob tdisk m ords rx repo, (forall k, is_order (ords k)) ->
  forall a st sorted old new pat c_old c_new k s mo mn eo en rho v w,
  looks_at (wa_method a) s -> (wa_threshold a < 2 ^ 32)%N -> wa_pull a <> Some false ->
  do_compare run_git (fun s => tglob (r_work s)) (fun s => tdisk (r_work s)) m ords rx repo a st (Ok sorted) ->
  trimmed (wa_old a) old -> trimmed (wa_new a) new -> trimmed (wa_pattern a) pat ->
  r_remote st old = Some c_old -> r_remote st new = Some c_new -> unambiguous st old -> unambiguous st new ->
  source_of (tglob c_old) (tdisk c_old) repo pat k mo eo -> source_of (tglob c_new) (tdisk c_new) repo pat k mn en ->
  passes rx (wa_pallet a) (fst k) -> passes rx (wa_extrinsic a) (snd k) ->
  sane_source s (wa_unit a) mo mn eo en -> at_source_corner s mo mn eo en rho -> weight_at (wa_unit a) rho eo v -> weight_at (wa_unit a) rho en w ->
  differs (RN (wa_threshold a)) v w ->
  exists r, In r sorted /\ row_key r = k /\ shows_exactly r v w.
Proof. exact CornerP2.web_shown. Qed.
Print Assumptions C92_web.

(** A weight that shrinks from 7000 to 6000 at the largest component is shown by the default method. *)
Example C92_ex :
  let o := EndP3.ex_line 1000 6 "s" 1000 in let n := EndP3.ex_line 1000 5 "s" 1000 in
  (exists r, PropEnd.ex_compare Asymptotic o n (f64_of_N 10) = Ok [r] /\ row_key r = ("p", "f") /\
    exists c, reports r c /\ tc_change c = Changed /\ tc_old_v c = Some 7000%N /\ tc_new_v c = Some 6000%N) /\
  looks_at Asymptotic High /\ threshold_mils (f64_of_N 10) 10000 /\ is_first [o] ("p", "f") (Some o) /\ is_first [n] ("p", "f") (Some n) /\
  sane Time (in_dim Time o) (in_dim Time n) High /\
  at_corner High Time (Some (in_dim Time o)) (Some (in_dim Time n)) (PropEnd.ex_rho "s" 1000) /\ differs (10000 / 1000) 7000 6000.
Proof.
  intros o n.
  assert (Ce : forall c, SpecCompare.component storage_var (Some (in_dim Time o)) (Some (in_dim Time n)) c -> c = "s").
  { intros c [(e & [[= <-]|[= <-]] & Oc) _]; cbn in Oc; destruct Oc as [<-|[]]; reflexivity. }
  assert (Cs : SpecCompare.component storage_var (Some (in_dim Time o)) (Some (in_dim Time n)) "s").
  { split; [|intros [K|K]; discriminate K]. eexists. split; [left; reflexivity|]. cbn. auto. }
  split; [|split; [|split; [|split; [|split; [|split; [|split]]]]]].
  - eexists. split; [vm_compute; reflexivity|]. split; [reflexivity|]. eexists. split; [left; reflexivity|repeat split].
  - reflexivity.
  - exact (EndP3.int_threshold 10 ltac:(lia)).
  - exists [], []. repeat split. intros e [].
  - exists [], []. repeat split. intros e [].
  - assert (U : (2 ^ 40 < u128_bound)%N) by reflexivity.
    split; [apply EndP3.line_typed; lia|]. split; [apply EndP3.line_typed; lia|]. split.
    + intros y z Hy Hz _. cbn in Hy, Hz. intuition congruence.
    + intros rho (_ & _ & H). specialize (H _ Cs). vm_compute in H. destruct H as [H _].
      change (eterm (in_dim Time ?e)) with (restrict Time (eterm e)). unfold o, n. rewrite !EndP3.line_value.
      assert (rho "s" = 1000)%N by (destruct H as [H|[H|[]]]; now rewrite <- H). lia.
  - split; [reflexivity|]. split; [reflexivity|]. intros c K. apply Ce in K. subst c. vm_compute. split; [now left|].
    intros w [<-|[<-|[]]]; discriminate.
  - right. split; [reflexivity|]. unfold rel_change_of, slack, RN. rewrite EndP3.pow48. cbn. rewrite Rabs_left; lra.
Qed.
(** The functions of C75_ex, for the default method; [source_of], [trimmed] and the repository are those of C75_ex. *)
Definition ex_args : web_args :=
  {| wa_old := " master"; wa_new := "dev "; wa_repo := "polkadot"; wa_pattern := "*.rs"; wa_extrinsic := None; wa_pallet := None;
     wa_ignore_errors := true; wa_threshold := 10%N; wa_unit := Time; wa_pull := None; wa_method := Asymptotic |}.
Example C92_ex_web :
  (exists r c, do_compare run_git (fun s => PropGit.ex_tglob (r_work s)) (fun s => EndP3.ex_tree (r_work s)) Checked (fun _ l => l) RowsP.rx_all
    [CCur] ex_args PropGit.ex_s (Ok [r]) /\ row_key r = ("x.rs", "f") /\ reports r c /\ tc_old_v c = Some 6000%N /\ tc_new_v c = Some 7000%N) /\
  sane_source High Time (EndP3.ex_fn 1000 5) (EndP3.ex_fn 1000 6) (EndP3.ex_b 1000 5 "s") (EndP3.ex_b 1000 6 "s") /\
  at_source_corner High (EndP3.ex_fn 1000 5) (EndP3.ex_fn 1000 6) (EndP3.ex_b 1000 5 "s") (EndP3.ex_b 1000 6 "s") (PropEnd.ex_rho "s" 1000) /\
  weight_at Time (PropEnd.ex_rho "s" 1000) (EndP3.ex_b 1000 5 "s") 6000 /\ weight_at Time (PropEnd.ex_rho "s" 1000) (EndP3.ex_b 1000 6 "s") 7000 /\
  differs (RN 10) 6000 7000.
Proof.
  split; [|split; [|split; [|split; [|split]]]].
  - eexists. eexists. split; [eapply dc_ok; [vm_compute; reflexivity|]; constructor; vm_compute; reflexivity|].
    split; [reflexivity|]. split; [left; reflexivity|]. split; reflexivity.
  - destruct (EndP3.ex_tame 1000 5 1000 6) as (A & B & C & D); try lia.
    split; [split; apply A|]. split; [split; apply B|]. split; [exact C|].
    intros rho v w K. apply D. apply EndP3.ex_in_box. destruct (K "s") as (Ao & An & Ro & Rn & H); [left; vm_compute; auto|].
    assert (R : forall sl A, source_range (m_attrs (EndP3.ex_fn 1000 sl)) "s" A -> A = [mk_range 0 1000]).
    { intros sl A0 [(r & -> & (pre & a & post & E & Da & _))|[-> Na]].
      - destruct (EndP3.ex_declares 1000 sl a "s" r) as [_ ->]; [rewrite E; apply in_elt|exact Da|reflexivity].
      - destruct (EndP3.ex_range 1000 sl) as [(r & _ & X)|[E _]]; [destruct (Na r X)|discriminate E]. }
    apply R in Ro, Rn. subst. cbn in H. destruct H as [[<-|[<-|[]]] _]; lia.
  - intros c Hc. assert (c = "s") as -> by (vm_compute in Hc; intuition congruence).
    exists [mk_range 0 1000], [mk_range 0 1000]. split; [apply EndP3.ex_range|]. split; [apply EndP3.ex_range|].
    vm_compute. split; [now left|]. intros w [<-|[<-|[]]]; discriminate.
  - exact (EndP3.ex_weight_at (PropEnd.ex_rho "s" 1000) 1000 5).
  - exact (EndP3.ex_weight_at (PropEnd.ex_rho "s" 1000) 1000 6).
  - right. split; [reflexivity|]. unfold rel_change_of, slack, RN. rewrite EndP3.pow48. cbn. rewrite Rabs_right; lra.
Qed.
