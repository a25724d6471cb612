(** Proofs for the statements about the tool as a whole: from the files of two commits. *)
From Coq Require Import List String Ascii Arith NArith ZArith Bool Lia Permutation Sorted Reals Lra Floats.SpecFloat.
From Verif Require Import Base ScopeM TermM SpecTerm SpecChrom F64 SpecF64 CompareM SpecCompare RowsM SpecRows SynM AttrM ParseM SpecParse SpecAttr StorageM FilesM SpecFiles
  GitM SpecGit CliM SpecCli WebM SpecWeb SpecEnd.
From Verif Require Import ChromP AttrP ParseP2 ParseP3 RowsP FilesP GitP EndP EndP2.
From Verif Require CliP WebP PageP PercentP.
Import ListNotations.
Local Open Scope string_scope.

Lemma template_entry m : template_fn m -> exists t rs, handle_method m = Ok (m_name m, t, rs).
Proof.
  intros ((e & S & T) & D & A). destruct (parse_component_attrs (m_attrs m)) as [rs|msg|w|] eqn:P.
  - destruct T as [T|T]; [destruct (template_method m e rs T S D P) as (t & H & _)|destruct (old_method m e rs T S D P) as (t & H & _)]; eauto.
  - exfalso. assert (K : is_err (parse_component_attrs (m_attrs m)) = true) by now rewrite P.
    apply attrs_err in K. destruct K as (a & I & M). exact (A a I M).
  - pose proof (attrs_returns (m_attrs m)) as R. rewrite P in R. destruct R.
  - pose proof (attrs_returns (m_attrs m)) as R. rewrite P in R. destruct R.
Qed.
Lemma template_source m : template_fn m -> exists e t rs, m_stmts m = [SExpr e] /\ handle_method m = Ok (m_name m, t, rs) /\
  well_formed e.
Proof.
  intros T. destruct (template_entry m T) as (t & rs & H). destruct T as ((e & S & [T|T]) & _); exists e, t, rs; (split; [auto|split; [auto|]]).
  - left. split; [apply (template_accepted (fun _ => 0%N) 0%N 0%N e T)|]. intros rho. apply (template_accepted rho _ _ e T).
  - right. split; [apply (old_accepted (fun _ => 0%N) 0%N 0%N e T)|]. intros rho. apply (old_accepted rho _ _ e T).
Qed.
Lemma item_skipped name i : (forall t its, i = IImpl t its -> ~ weight_impl t) -> is_err (handle_item name i) = true.
Proof.
  intros N. destruct i as [t its| | |]; cbn; auto. assert (K : is_err (weight_type t) = true).
  { destruct (weight_type t) as [[]| | |] eqn:W; auto.
    - exfalso. apply (N t its); auto. now apply weight_type_spec.
    - revert W. destruct t as [[|n]|[[] [|s [|]]]|]; cbn; try discriminate. destruct (_ && _)%bool; discriminate.
    - revert W. destruct t as [[|n]|[[] [|s [|]]]|]; cbn; try discriminate. destruct (_ && _)%bool; discriminate. }
  destruct (weight_type t); try discriminate K. reflexivity.
Qed.
Lemma file_entries name items m : weight_file items m ->
  exists ws t rs, parse_content name (Some items) = Ok ws /\ handle_method m = Ok (m_name m, t, rs) /\
    In (mk_ext (m_name m) name t rs) ws /\ NoDup (map ename ws).
Proof.
  intros (pre & ty & its & post & -> & W & N & F & ND & I).
  assert (K : exists ws, Forall2 (entry name) (methods its) ws /\ map ename ws = map m_name (methods its)).
  { clear -F. induction F as [|m l M F IH].
    - exists []. split; constructor.
    - destruct IH as (ws & H & E). destruct (template_entry m M) as (t & rs & Hm). exists (mk_ext (m_name m) name t rs :: ws).
      split; [constructor; auto; split; auto|]. cbn. now rewrite E. }
  destruct K as (ws & H & E). exists ws. rewrite Forall_forall in F. destruct (template_entry m (F m I)) as (t & rs & Hm). exists t, rs.
  assert (Im : In (mk_ext (m_name m) name t rs) ws).
  { clear -H I Hm. induction H as [|x y l l' Hx H IH]; [destruct I|]. destruct I as [->|I]; [|right; auto].
    left. destruct Hx as [Hp Hx]. rewrite Hx in Hm. injection Hm as <- <- <-. rewrite <- Hp. destruct y. reflexivity. }
  split; [|split; [exact Hm|split; [exact Im|now rewrite E]]].
  cbn. clear F ND. induction pre as [|i pre IH]; cbn [app first_ok].
  - assert (U : usable (entry name) (IImpl ty its) ws) by (exists ty, its; repeat split; auto; intros ->; destruct Im).
    apply item_usable in U. now rewrite U.
  - assert (Hi : is_err (handle_item name i) = true) by (apply item_skipped; intros t' its' ->; apply (N t' its'); now left).
    destruct (handle_item name i); try discriminate Hi. apply IH. intros t' its' I'. apply (N t' its'). now right.
Qed.

Lemma gathers_first parse repo ps l p xs k e : StronglySorted path_before ps -> (forall q, In q ps -> exists rest, below repo q rest) ->
  (forall q ys, In q ps -> parse q = Ok ys -> Forall (fun e => strip RepoRelative repo q = Ok (epallet e)) ys) ->
  In p ps -> parse p = Ok xs -> NoDup (map ename xs) -> In e xs -> ext_key e = k -> gathers parse ps l -> is_first l k (Some e).
Proof.
  intros S B N I P ND Ie K G. assert (Dup : NoDup ps).
  { clear -S. induction S as [|p ps S IH F]; constructor; auto. intros I. rewrite Forall_forall in F. apply F in I. apply path_before_cmp in I. now rewrite (cmp_refl _ path_cmp_strict) in I. }
  assert (Kx : forall q ys e', In q ps -> parse q = Ok ys -> In e' ys -> ext_key e' = k -> q = p).
  { intros q ys e' Iq Pq Ie' K'. destruct (B q Iq) as (rq & Bq). destruct (B p I) as (rp & Bp). apply (relative_inj repo q p rq rp Bq Bp).
    pose proof (N q ys Iq Pq) as F1. pose proof (N p xs I P) as F2. rewrite Forall_forall in F1, F2. rewrite (F1 e' Ie'), (F2 e Ie).
    unfold ext_key in K, K'. congruence. }
  clear S B N. induction G as [|q ps ys l Hq G IH|q ps msg l Hq G IH]; [destruct I| |].
  - inversion Dup as [|? ? Nq Dup']; subst. destruct I as [->|I].
    + rewrite P in Hq. injection Hq as <-. apply in_split in Ie. destruct Ie as (l1 & l2 & ->). exists l1, (l2 ++ l)%list.
      split; [now rewrite <- app_assoc|]. split; [reflexivity|]. intros e' I' K'. rewrite map_app in ND. cbn in ND. apply NoDup_remove_2 in ND.
      apply ND. apply in_or_app. left. unfold ext_key in K'. injection K' as _ <-. now apply in_map.
    + destruct (IH I Dup') as (l1 & l2 & -> & Ke & Nl).
      { intros q' ys' e' Iq'. apply Kx. now right. }
      exists (ys ++ l1)%list, l2. split; [now rewrite app_assoc|]. split; auto. intros e' I' K'. apply in_app_or in I' as [I'|I'].
      * assert (q = p) by (eapply Kx; eauto; now left). subst q. contradiction.
      * exact (Nl e' I' K').
  - inversion Dup as [|? ? Nq Dup']; subst. destruct I as [->|I]; [congruence|]. apply IH; auto. intros q' ys' e' Iq'. apply Kx. now right.
Qed.
Lemma load_entry {W} (glob : W -> string -> option (list (option fpath))) disk repo ps pat mx w l k m e :
  load glob disk repo ps pat mx w = Ok l -> source_of (glob w) (disk w) repo pat k m e -> entry_of l k m e.
Proof.
  intros L (B & p & rest & items & Lp & Bp & Pt & D & Wf & Nm & S). split; [exact S|].
  destruct (file_entries (path_text rest) items m Wf) as (ws & t & rs & C & H & I & ND). exists t, rs. rewrite Pt, Nm in *.
  split; [exact H|].
  unfold load in L. apply bind_ok in L. destruct L as (paths & Lf & L).
  assert (G : gathers (parse_file_in_repo (disk w) repo) paths l).
  { destruct (g_ignore_errors ps); [now apply try_all_ok|]. apply all_gathers. now apply parse_all_ok. }
  assert (Q : parse_file_in_repo (disk w) repo p = Ok ws).
  { apply file_in_repo_ok. exists (Some items), (fst k). split; auto. split; [rewrite (strip_below _ _ _ Bp); congruence|exact C]. }
  pose proof (split_parts pat) as PP. destruct (list_files_ok _ _ _ _ _ _ PP Lf) as (found & F2 & So & Ip & _).
  assert (All : forall q, In q paths <-> listed (glob w) repo pat q).
  { intros q. rewrite Ip. unfold listed. split.
    - intros [(fs & If & Iq) Nq]. split; auto. exists (split_char "," pat).
      clear -F2 If Iq PP. assert (X : exists part, In part (split_char "," pat) /\ lists (glob w) repo part fs).
      { clear PP Iq. induction F2 as [|a b ll ll' Hab F2 IH]; [destruct If|]. destruct If as [->|If]; [exists a; split; [now left|auto]|].
        destruct (IH If) as (part & Hp1 & Hp2). exists part. split; [now right|auto]. }
      destruct X as (part & X1 & X2). exists part, fs. auto.
    - intros (Nq & parts & part & fs & P1 & P2 & P3 & P4). split; auto. exists fs. split; auto.
      rewrite (parts_fun _ _ _ P1 PP) in P2. clear -F2 P2 P3. induction F2 as [|a b ll ll' Hab F2 IH]; [destruct P2|].
      destruct P2 as [->|P2]; [left|right; auto]. unfold lists in Hab, P3. rewrite Hab in P3. injection P3 as P3.
      clear -P3. revert fs P3. induction b as [|x b IH]; intros [|y fs]; cbn; try discriminate; auto. intros [= -> E]. f_equal. auto. }
  apply (gathers_first (parse_file_in_repo (disk w) repo) repo paths l p ws k); auto.
  - intros q Iq. apply B. now apply All.
  - intros q ys Iq Pq. apply file_in_repo_ok in Pq. destruct Pq as (f & n & _ & Sq & Pc). apply content_pallet in Pc.
    eapply Forall_impl; [|exact Pc]. cbn. intros e' ->. exact Sq.
  - now apply All.
  - destruct k as [k1 k2]. cbn in *. reflexivity.
Qed.

(** ** Two commits *)
Section Trees.
  Variables (tglob : N -> string -> option (list (option fpath))) (tdisk : N -> fpath -> string + file).
  Variables (m : mode) (ords : string * string -> list string -> list string) (rx : regex_engine) (repo : fpath).
  Hypothesis Ho : forall k, is_order (ords k).

  Lemma trees_inv cps ps f pat mx c_old c_new rows :
    compare_trees tglob tdisk m ords rx repo cps ps f pat mx c_old c_new = Ok rows ->
    exists olds news, load tglob tdisk repo ps pat mx c_old = Ok olds /\ load tglob tdisk repo ps pat mx c_new = Ok news /\
      compare_files m ords rx olds news cps f = Ok rows.
  Proof. intros H. apply bind_ok in H. destruct H as (olds & Ho' & H). apply bind_ok in H. destruct H as (news & Hn & H). eauto. Qed.

  Lemma trees_regression meth d ps f pat mx c_old c_new rows k mo mn eo en rho z v w :
    meth = ExactWorst \/ meth = GuessWorst ->
    compare_trees tglob tdisk m ords rx repo {| p_method := meth; p_unit := d |} ps f pat mx c_old c_new = Ok rows ->
    threshold_mils (f_threshold f) z -> kind_selected f Changed ->
    source_of (tglob c_old) (tdisk c_old) repo pat k mo eo -> source_of (tglob c_new) (tdisk c_new) repo pat k mn en ->
    passes rx (f_pallet f) (fst k) -> passes rx (f_extrinsic f) (snd k) ->
    tame_source d mo mn eo en -> in_source_box mo mn eo en rho -> weight_at d rho eo v -> weight_at d rho en w ->
    grown (IZR z / 1000) v w ->
    typed_rows rows /\ exists r, In r (filter_changes rows f) /\ row_key r = k /\
      shows r (IZR z / 1000) v w.
  Proof.
    intros M H T Kc So Sn Pp Pe Ht Hb Wv Ww G. destruct (trees_inv _ _ _ _ _ _ _ _ H) as (olds & news & Lo & Ln & E).
    split; [eapply typed_lemma; eauto|].
    exact (source_regression m ords rx olds news meth d f rows k mo mn eo en rho z v w Ho M E T Kc (load_entry _ _ _ _ _ _ _ _ _ _ _ Lo So)
      (load_entry _ _ _ _ _ _ _ _ _ _ _ Ln Sn) Pp Pe Ht Hb Wv Ww G).
  Qed.

  Lemma thousand n : (IZR (1000 * Z.of_N n) / 1000)%R = RN n.
  Proof. unfold RN. rewrite mult_IZR. field. Qed.
  Lemma int_threshold n : (n < 2 ^ 32)%N -> threshold_mils (f64_of_N n) (1000 * Z.of_N n).
  Proof.
    intros H. split; [apply PageP.f64_of_N_double|]. split; [lia|].
    rewrite thousand. apply PageP.f64_of_N_value. lia.
  Qed.
  Lemma web_regression a s sorted old new pat c_old c_new k mo mn eo en rho v w :
    wa_method a = ExactWorst \/ wa_method a = GuessWorst -> (wa_threshold a < 2 ^ 32)%N -> wa_pull a <> Some false ->
    do_compare run_git (fun s => tglob (r_work s)) (fun s => tdisk (r_work s)) m ords rx repo a s (Ok sorted) ->
    trimmed (wa_old a) old -> trimmed (wa_new a) new -> trimmed (wa_pattern a) pat ->
    r_remote s old = Some c_old -> r_remote s new = Some c_new -> unambiguous s old -> unambiguous s new ->
    source_of (tglob c_old) (tdisk c_old) repo pat k mo eo -> source_of (tglob c_new) (tdisk c_new) repo pat k mn en ->
    passes rx (wa_pallet a) (fst k) -> passes rx (wa_extrinsic a) (snd k) ->
    tame_source (wa_unit a) mo mn eo en -> in_source_box mo mn eo en rho -> weight_at (wa_unit a) rho eo v -> weight_at (wa_unit a) rho en w ->
    grown (RN (wa_threshold a)) v w ->
    exists r, In r sorted /\ row_key r = k /\
      shows r (RN (wa_threshold a)) v w.
  Proof.
    intros M Ht Pl H To Tn Tp Ro Rn Uo Un So Sn Pp Pe Ta Hb Wv Ww G.
    apply WebP.trim_iff in To, Tn, Tp. subst old new pat.
    destruct (PageP.answer_inv _ _ _ _ _ _ _ _ _ _ H) as (rows & E & S).
    assert (ND : ~ has_dots (trim (wa_pattern a))).
    { intros D. apply GitP.contains_spec in D. unfold compare_commits in E. rewrite D in E. discriminate E. }
    destruct (GitP.trees_newest tglob tdisk m ords rx repo (trim (wa_old a)) (trim (wa_new a)) (web_params a) (web_git a) (web_filter a)
      (trim (wa_pattern a)) web_max_files s c_old c_new ND) as (s' & tr & Q & _); auto.
    { cbn. destruct (wa_pull a) as [[|]|]; try congruence; auto. }
    rewrite Q in E. cbn [fst] in E.
    destruct (trees_regression (wa_method a) (wa_unit a) (web_git a) (web_filter a) (trim (wa_pattern a)) web_max_files c_old c_new rows k mo mn eo en rho
      (1000 * Z.of_N (wa_threshold a)) v w M E (int_threshold _ Ht)) as (Ty & r & I & K & C); auto.
    { intros ks K. discriminate K. }
    { rewrite thousand. exact G. }
    exists r. destruct (RowsP.sort_lemma _ _ S) as (P & _). split; [eapply Permutation_in; eauto|]. split; auto.
    now rewrite thousand in C.
  Qed.
End Trees.

(** ** Printed tables *)
Lemma selects_sound {A} (P : A -> Prop) l l' x : selects P l l' -> In x l' -> In x l /\ P x.
Proof.
  induction 1 as [|y l l' Py S IH|y l l' Py S IH]; simpl; [tauto| |].
  - intros [->|I]; [auto|]. destruct (IH I). auto.
  - intros I. destruct (IH I). auto.
Qed.
Lemma forall2_in {A B} (P : A -> B -> Prop) l l' x : Forall2 P l l' -> In x l -> exists y, In y l' /\ P x y.
Proof. induction 1 as [|a b l l' H F IH]; intros [->|I] || intros []; [exists b; simpl; auto|]. destruct (IH I) as (y & ? & ?). exists y. simpl. auto. Qed.
Lemma table_row dbg rxr render f verbose fp dim out rows md r :
  is_double (f_threshold f) -> typed_rows rows -> In r (filter_changes rows f) ->
  (fp_format fp = Human /\ md = false \/ fp_format fp = Markdown /\ md = true) ->
  show dbg rxr render (Ok rows) f verbose fp dim (out, Ok tt) ->
  exists cells all, cells_of dbg rxr fp dim r cells /\ In cells all /\ out = [render md (titles (fp_print_terms fp)) all].
Proof.
  intros D Ty I F S. destruct (CliP.show_human dbg rxr render (Ok rows) f verbose fp dim out (Ok tt) md rows D Ty eq_refl F S)
    as (kept & shown & Sel & Pe & _ & _ & K).
  destruct (selects_sound _ _ _ _ (filter_lemma rows f D Ty) I) as [Ir Rr].
  assert (Ik : In r kept) by (eapply selects_in; eauto).
  destruct K as [(all & F2 & E & _)|(_ & _ & w & E)]; [intros ->; destruct Ik| |discriminate E].
  destruct (forall2_in _ _ _ r F2) as (cells & Ic & C); [eapply Permutation_in; eauto|]. exists cells, all. auto.
Qed.

(** ** Data for the examples *)
Lemma pow48 : powerRZ 2 (-48) = (/ 281474976710656)%R.
Proof. unfold powerRZ. f_equal. change (Pos.to_nat 48) with (24 + 24)%nat. rewrite pow_add. simpl. lra. Qed.
Lemma pow49 : powerRZ 2 (-49) = (/ 562949953421312)%R.
Proof. unfold powerRZ. f_equal. change (Pos.to_nat 49) with (24 + 25)%nat. rewrite pow_add. simpl. lra. Qed.
Definition ex_b (base slope : N) (x : string) : expr :=
  ex_meth (ex_call ["Weight"; "from_parts"] [ex_int base; ex_int 0]) "saturating_add"
    [ex_meth (ex_call ["Weight"; "from_parts"] [ex_int slope; ex_int 0]) "saturating_mul" [ex_meth (ex_path [x]) "into" []]].
Definition ex_fn (base slope : N) : SynM.method :=
  mk_method [doc "The range of component `s` is `[0, 1_000]`."] "f" (RType (TPath (mk_path false ["Weight"]))) [SExpr (ex_b base slope "s")].
Definition ex_tree (c : N) (p : fpath) : string + file := inr (Some [IOther; IImpl (TTuple 0) [IFn (ex_fn 1000 c)]]).

Lemma ex_declares base slope a c r : In a (m_attrs (ex_fn base slope)) -> declares a c r -> c = "s" /\ r = mk_range 0 1000.
Proof. intros [<-|[]] D. apply attr_spec in D. vm_compute in D. injection D as <- <-. auto. Qed.
Lemma ex_weight d rho base slope v : weight_at d rho (ex_b base slope "s") v ->
  v = match d with Time => (base + slope * rho "s")%N | Proof_size => (0 + 0 * rho "s")%N end.
Proof. intros (a & b & [V|[V _]] & ->); cbn in V; [|discriminate V]. injection V as <- <-. reflexivity. Qed.
Lemma ex_weight_at rho base slope : weight_at Time rho (ex_b base slope "s") (base + slope * rho "s")%N.
Proof. eexists. eexists. split; [left; cbn; reflexivity|]. reflexivity. Qed.
Lemma ex_range base slope : source_range (m_attrs (ex_fn base slope)) "s" [mk_range 0 1000].
Proof.
  left. eexists. split; [reflexivity|]. exists [], (doc "The range of component `s` is `[0, 1_000]`."), []. split; [reflexivity|].
  split; [apply attr_spec; vm_compute; reflexivity|intros a' r' []].
Qed.
Lemma ex_body_tame base slope : tame_body (ex_b base slope "s").
Proof.
  split; [left; split|split].
  - cbn. repeat split; auto; discriminate.
  - intros rho. eexists. eexists. cbn. reflexivity.
  - intros x. change (degree x (ex_b base slope "s")) with (Nat.max 0 (Nat.max 0 0 + Nat.max (if String.eqb "s" x then 1 else 0) 0)).
    destruct (String.eqb "s" x); cbn; lia.
  - intros x [<-|[]]. intros [K|[]]; discriminate K.
Qed.
Lemma ex_in_box b1 s1 b2 s2 rho : in_source_box (ex_fn b1 s1) (ex_fn b2 s2) (ex_b b1 s1 "s") (ex_b b2 s2 "s") rho <-> (rho "s" <= 1000)%N.
Proof.
  split.
  - intros H. destruct (H "s") as (Ao & An & lo & hi & So & Sn & Il & Ih & L & U); [left; now left|].
    assert (Q : forall b s A, source_range (m_attrs (ex_fn b s)) "s" A -> A = [mk_range 0 1000]).
    { intros b s A [(r & -> & pre & a & post & E & D & _)|[_ N]].
      - assert (In a (m_attrs (ex_fn b s))) as I by (rewrite E; apply in_elt). apply (ex_declares b s a _ _ I) in D. destruct D as [_ ->]. reflexivity.
      - exfalso. destruct (ex_range b s) as [(r & _ & K)|[K _]]; [exact (N r K)|discriminate K]. }
    apply Q in So, Sn. subst. cbn in Ih. destruct Ih as ([<-|[<-|[]]] & _); exact U.
  - intros H c Hc. assert (c = "s") by (destruct Hc as [[<-|[]]|[<-|[]]]; reflexivity). subst c. exists [mk_range 0 1000], [mk_range 0 1000], 0%N, 1000%N;
      (split; [apply ex_range|]; split; [apply ex_range|]; split; [|split; [|lia]]); cbn;
      (split; [now left|]); intros r' [<-|[<-|[]]]; lia.
Qed.
Lemma ex_tame b1 s1 b2 s2 : (b1 <= 2 ^ 40)%N -> (s1 <= 2 ^ 40)%N -> (b2 <= 2 ^ 40)%N -> (s2 <= 2 ^ 40)%N ->
  tame_source Time (ex_fn b1 s1) (ex_fn b2 s2) (ex_b b1 s1 "s") (ex_b b2 s2 "s").
Proof.
  intros B1 S1 B2 S2. split; [apply ex_body_tame|]. split; [apply ex_body_tame|]. split.
  - intros a c r [I|I] D; apply (ex_declares _ _ _ _ _ I) in D; destruct D as [-> _]; intros [K|[]]; discriminate K.
  - intros rho v w Hb Wv Ww. apply ex_in_box in Hb. apply ex_weight in Wv, Ww. subst. rewrite u128_bound_eq.
    assert ((s1 * rho "s" <= 2 ^ 50) /\ (s2 * rho "s" <= 2 ^ 50))%N by (split; nia). lia.
Qed.
Lemma ex_template base slope : (base < u128_bound)%N -> (slope < u128_bound)%N -> template_fn (ex_fn base slope).
Proof.
  intros B S. assert (Z : (0 < u128_bound)%N) by lia. split; [|split].
  - eexists. split; [reflexivity|]. left. apply tmpl_add; [apply tmpl_one; apply sum_parts; try reflexivity; now apply num_lit|].
    apply sum_mul; [apply sum_parts; try reflexivity; now apply num_lit|]. apply comp_into, comp_path; discriminate.
  - exists (mk_path false ["Weight"]), [], "". auto.
  - intros a [<-|[]] M. apply attr_spec in M. vm_compute in M. discriminate M.
Qed.

(** Equations with one component. *)
Definition ex_line (base slope : N) (x : string) (hi : N) : cextrinsic :=
  mk_ext "f" "p" (Add (wt base 0) (Mul (wt slope 0) (Var x))) (Some [(x, mk_range 0 hi)]).
Lemma line_value rho base slope x hi : poly_val rho (restrict Time (eterm (ex_line base slope x hi))) = (base + slope * rho x)%N.
Proof. cbn. rewrite TermP.poly_val_add, TermP.poly_val_mul, !TermP.poly_val_leaf_value, TermP.poly_val_var. reflexivity. Qed.
Lemma line_typed base slope x hi : (base < u128_bound)%N -> (slope < u128_bound)%N -> (hi < 2 ^ 32)%N -> typed (in_dim Time (ex_line base slope x hi)).
Proof.
  intros B S H. split; [cbn; auto|]. intros rs c r [= <-]. unfold ranges_get. cbn. destruct (str_cmp c x); try discriminate. intros K. injection K as <-. cbn. lia.
Qed.
Lemma line_affine base slope x hi : multi_affine (eterm (in_dim Time (ex_line base slope x hi))).
Proof.
  intros p y I _. cbn in I. destruct I as [<-|[<-|[]]]; cbn; [lia|]. destruct (string_dec x y); lia.
Qed.
Lemma line_box b1 s1 b2 s2 x h1 h2 rho : x <> "READ" -> x <> "WRITE" ->
  in_box Time (Some (in_dim Time (ex_line b1 s1 x h1))) (Some (in_dim Time (ex_line b2 s2 x h2))) rho <->
  rho "READ" = 25000000%N /\ rho "WRITE" = 100000000%N /\ (rho x <= N.max h1 h2)%N.
Proof.
  intros NR NW. assert (An : annotations (Some (in_dim Time (ex_line b1 s1 x h1))) (Some (in_dim Time (ex_line b2 s2 x h2))) x = [mk_range 0 h1; mk_range 0 h2]).
  { cbn. unfold ranges_get. cbn. rewrite (cmp_refl _ str_cmp_strict). reflexivity. }
  split.
  - intros (R & W & B). split; [exact R|]. split; [exact W|]. destruct (B x) as (lo & hi & _ & Hi & _ & U).
    { split; [|intros [K|K]; contradiction]. eexists. split; [left; reflexivity|]. cbn. auto. }
    rewrite An in Hi. destruct Hi as ([<-|[<-|[]]] & _); cbn in U; lia.
  - intros (R & W & U). split; [exact R|]. split; [exact W|]. intros c [(e & E & Oc) _].
    assert (c = x) by (destruct E as [[= <-]|[= <-]]; cbn in Oc; destruct Oc as [<-|[]]; reflexivity). subst c.
    rewrite An. exists 0%N, (N.max h1 h2). split; [|split; [|lia]]; split; cbn.
    + now left.
    + intros w [<-|[<-|[]]]; lia.
    + destruct (N.max_spec h1 h2) as [[_ ->]|[_ ->]]; auto.
    + intros w [<-|[<-|[]]]; lia.
Qed.
Lemma line_tame b1 s1 b2 s2 x h1 h2 : x <> "READ" -> x <> "WRITE" ->
  (b1 <= 2 ^ 40)%N -> (s1 <= 2 ^ 40)%N -> (b2 <= 2 ^ 40)%N -> (s2 <= 2 ^ 40)%N -> (h1 <= 1000)%N -> (h2 <= 1000)%N ->
  tame Time (in_dim Time (ex_line b1 s1 x h1)) (in_dim Time (ex_line b2 s2 x h2)).
Proof.
  intros NR NW B1 S1 B2 S2 H1 H2. assert (U : (2 ^ 40 < u128_bound)%N) by reflexivity.
  split; [apply line_typed; lia|]. split; [apply line_typed; lia|].
  split; [apply line_affine|]. split; [apply line_affine|]. split.
  - intros y z Hy Hz _. cbn in Hy, Hz. intuition congruence.
  - intros rho Hb. apply line_box in Hb; auto. destruct Hb as (_ & _ & Hx).
    change (eterm (in_dim Time ?e)) with (restrict Time (eterm e)). rewrite !line_value. rewrite u128_bound_eq.
    assert ((s1 * rho x <= 2 ^ 50) /\ (s2 * rho x <= 2 ^ 50))%N by (split; nia). lia.
Qed.
