(** Proofs about paths and files. *)
From Coq Require Import List String Ascii Arith NArith Bool Lia Permutation Sorted.
From Verif Require Import Base ScopeM TermM SpecChrom ChromP CompareM RowsM SpecRows RowsP SynM ParseM SpecParse StorageM SpecStorage
  ParseP ParseP2 ParseP3 StorageP StrP FilesM SpecFiles.
Import ListNotations.
Local Open Scope string_scope.
Local Open Scope list_scope.

(** ** C39: several files *)
Lemma parse_all_res parse ps : forall res, parse_all parse res ps =
  match parse_all parse [] ps with Ok l => Ok (res ++ l) | r => r end.
Proof.
  induction ps as [|p ps IH]; intros res; cbn; [now rewrite app_nil_r|].
  destruct (parse p) as [xs| | |]; cbn; try reflexivity. rewrite (IH (res ++ xs)), (IH xs).
  destruct (parse_all parse [] ps); auto. now rewrite app_assoc.
Qed.
Lemma try_all_res parse ps : forall res, try_parse_all parse res ps =
  match try_parse_all parse [] ps with Ok l => Ok (res ++ l) | r => r end.
Proof.
  induction ps as [|p ps IH]; intros res; cbn; [now rewrite app_nil_r|].
  destruct (parse p) as [xs| | |]; cbn; auto. rewrite (IH (res ++ xs)), (IH xs).
  destruct (try_parse_all parse [] ps); auto. now rewrite app_assoc.
Qed.
Lemma parse_all_ok parse ps l : parse_all parse [] ps = Ok l <-> all_of parse ps l.
Proof.
  revert l. induction ps as [|p ps IH]; intros l; cbn.
  - split; [intros [= <-]; exists []; auto|]. intros (xss & F & ->). now inversion F.
  - split.
    + destruct (parse p) as [xs| | |] eqn:E; cbn; try discriminate. rewrite parse_all_res.
      destruct (parse_all parse [] ps) as [l'| | |] eqn:E'; try discriminate. intros [= <-].
      destruct (proj1 (IH l') eq_refl) as (xss & F & ->). exists (xs :: xss). auto.
    + intros (xss & F & ->). inversion F as [|? xs ? xss' E F']; subst. rewrite E. cbn. rewrite parse_all_res.
      now rewrite (proj2 (IH (List.concat xss')) (ex_intro _ xss' (conj F' eq_refl))).
Qed.
Lemma parse_all_fail parse ps : (forall l, parse_all parse [] ps <> Ok l) ->
  exists p, first_file (fun p => is_ok (parse p) = false) ps p /\
    match parse p with Err e => parse_all parse [] ps = Err e | Panic w => parse_all parse [] ps = Panic w | Diverge => parse_all parse [] ps = Diverge | Ok _ => False end.
Proof.
  induction ps as [|p ps IH]; intros H; cbn in *; [now destruct (H [])|].
  destruct (parse p) as [xs|e|w|] eqn:E; cbn in *.
  - destruct IH as (q & (pre & post & -> & N & B) & R).
    { intros l Hl. apply (H (xs ++ l)). now rewrite parse_all_res, Hl. }
    exists q. split.
    + exists (p :: pre), post. repeat split; auto. intros k [<-|Hk]; [now rewrite E|now apply B].
    + rewrite parse_all_res. destruct (parse q); try contradiction; now rewrite R.
  - exists p. split; [|now rewrite E]. exists [], ps. rewrite E. repeat split; auto.
  - exists p. split; [|now rewrite E]. exists [], ps. rewrite E. repeat split; auto.
  - exists p. split; [|now rewrite E]. exists [], ps. rewrite E. repeat split; auto.
Qed.
Lemma try_all_ok parse ps l : try_parse_all parse [] ps = Ok l <-> gathers parse ps l.
Proof.
  revert l. induction ps as [|p ps IH]; intros l; cbn.
  - split; [intros [= <-]; constructor|]. inversion 1; reflexivity.
  - split.
    + destruct (parse p) as [xs|e| |] eqn:E; try discriminate.
      * rewrite try_all_res. destruct (try_parse_all parse [] ps) as [l'| | |] eqn:E'; try discriminate. intros [= <-]. apply gather_ok; auto. now apply IH.
      * intros H. apply (gather_err _ _ _ e); auto. now apply IH.
    + inversion 1 as [|? ? xs l' E G|? ? e l' E G]; subst; rewrite E.
      * rewrite try_all_res, (proj2 (IH l') G). reflexivity.
      * now apply IH.
Qed.
Lemma try_all_stops parse ps :
  (exists l, try_parse_all parse [] ps = Ok l) \/
  exists p, first_file (fun p => ~ returns (parse p)) ps p /\ try_parse_all parse [] ps = parse p.
Proof.
  induction ps as [|p ps IH]; cbn; [left; eauto|].
  destruct (parse p) as [xs|e|w|] eqn:E.
  1: rewrite (try_all_res parse ps xs).
  1,2: destruct IH as [(l & Hl)|(q & (pre & post & -> & N & B) & R)];
    [left; rewrite Hl; eauto|right; exists q; split;
      [exists (p :: pre), post; repeat split; auto; intros k [<-|Hk]; [rewrite E; cbn; tauto|now apply B]|]].
  - rewrite R. destruct (parse q); auto. now destruct N.
  - exact R.
  - right. exists p. split; [|now rewrite E]. exists [], ps. rewrite E. repeat split; auto.
  - right. exists p. split; [|now rewrite E]. exists [], ps. rewrite E. repeat split; auto.
Qed.
Lemma all_gathers parse ps l : all_of parse ps l -> gathers parse ps l.
Proof.
  intros (xss & F & ->). induction F as [|p xs ps xss E F IH]; [constructor|]. cbn. now apply gather_ok.
Qed.

(** ** Names of files *)
Lemma file_name_named p n : file_name p = Some n <-> named p n.
Proof.
  unfold file_name, named. split.
  - destruct (rev p) as [|[| | |s] l] eqn:E; try discriminate. intros [= <-]. exists (rev l).
    rewrite <- (rev_involutive p), E. reflexivity.
  - intros (d & ->). now rewrite rev_app_distr.
Qed.
Lemma mod_rs_named p : is_mod_rs p = true <-> named p "mod.rs".
Proof.
  rewrite <- file_name_named. unfold is_mod_rs, file_name. destruct (rev p) as [|[| | |s] l]; try (split; discriminate).
  rewrite String.eqb_eq. split; congruence.
Qed.
Lemma named_fun p a b : named p a -> named p b -> a = b.
Proof. rewrite <- !file_name_named. congruence. Qed.

Lemma comp_cmp_strict : strict_cmp comp_cmp.
Proof.
  split.
  - intros [| | |s] [| | |t]; cbn; try (split; discriminate); try (split; reflexivity).
    rewrite (cmp_eq _ str_cmp_strict). split; congruence.
  - intros [| | |s] [| | |t]; cbn; try reflexivity. apply (cmp_anti _ str_cmp_strict).
  - intros [| | |s] [| | |t] [| | |u]; cbn; try easy. apply (cmp_trans _ str_cmp_strict).
Qed.
Lemma path_cmp_strict : strict_cmp path_cmp.
Proof. apply list_cmp_strict, comp_cmp_strict. Qed.
Lemma comp_before_cmp a b : comp_before a b <-> comp_cmp a b = Lt.
Proof.
  destruct a, b; cbn; try (rewrite str_before_cmp; reflexivity); split; intros H; try discriminate H; try reflexivity; try (vm_compute in H; discriminate H).
Qed.
Lemma path_before_cmp p : forall q, path_before p q <-> path_cmp p q = Lt.
Proof.
  unfold path_cmp. induction p as [|a p IH]; intros [|b q]; cbn.
  - split; [|discriminate]. intros [(c & r & E)|(d & a & b & p' & q' & E & _)]; [discriminate|now destruct d].
  - split; [reflexivity|]. intros _. left. exists b, q. reflexivity.
  - split; [|discriminate]. intros [(c & r & E)|(d & a' & b & p' & q' & _ & E & _)]; [discriminate|now destruct d].
  - unfold lex. destruct (comp_cmp a b) eqn:E.
    + apply (cmp_eq _ comp_cmp_strict) in E. subst b. rewrite <- IH. split.
      * intros [(c & r & [= ->])|(d & x & y & p' & q' & E1 & E2 & L)]; [left; eauto|]. destruct d as [|z d].
        -- injection E1 as <- <-. injection E2 as <- <-. apply comp_before_cmp in L. now rewrite (cmp_refl _ comp_cmp_strict) in L.
        -- injection E1 as <- ->. injection E2 as ->. right. exists d, x, y, p', q'. auto.
      * intros [(c & r & ->)|(d & x & y & p' & q' & -> & -> & L)]; [left; exists c, r; reflexivity|].
        right. exists (a :: d), x, y, p', q'. auto.
    + split; [reflexivity|]. intros _. right. exists [], a, b, p, q. repeat split. now apply comp_before_cmp.
    + split; [|discriminate]. intros [(c & r & [= -> _])|(d & x & y & p' & q' & E1 & E2 & L)].
      { rewrite (cmp_refl _ comp_cmp_strict) in E. discriminate. }
      destruct d as [|z d].
      * injection E1 as <- <-. injection E2 as <- <-. apply comp_before_cmp in L. congruence.
      * injection E1 as <- _. injection E2 as <- _. rewrite (cmp_refl _ comp_cmp_strict) in E. discriminate.
Qed.

(** ** C44: stripping *)
Lemma strip_prefix_app base p : strip_prefix base (base ++ p) = Some p.
Proof.
  induction base as [|a base IH]; cbn; [reflexivity|]. unfold comp_eqb. now rewrite (cmp_refl _ comp_cmp_strict).
Qed.
Lemma strip_prefix_some base : forall p q, strip_prefix base p = Some q -> p = base ++ q.
Proof.
  induction base as [|a base IH]; intros [|b p] q; cbn; try congruence.
  unfold comp_eqb. destruct (comp_cmp a b) eqn:E; try discriminate. apply (cmp_eq _ comp_cmp_strict) in E. subst. intros H. now rewrite (IH _ _ H).
Qed.
Lemma strip_below repo p rest : below repo p rest -> strip RepoRelative repo p = Ok (path_text rest).
Proof. intros (-> & _). cbn. now rewrite strip_prefix_app. Qed.
Lemma plain_text rest : Forall plain rest -> path_text rest = String.concat "/" (map comp_text rest).
Proof. intros F. destruct rest as [|[| | |s] [|]]; try reflexivity. inversion F as [|? ? H]; subst. destruct H. Qed.

Lemma without_app c a b : without c (append a b) <-> without c a /\ without c b.
Proof. induction a as [|x a IH]; cbn; [tauto|]. rewrite IH. tauto. Qed.
Lemma cut_inj c a : forall b s t, without c a -> without c b -> append a (String c s) = append b (String c t) -> a = b /\ s = t.
Proof.
  induction a as [|x a IH]; intros [|y b] s t Wa Wb E; cbn in *.
  - injection E as ->. auto.
  - injection E as -> _. now destruct Wb.
  - injection E as <- _. now destruct Wa.
  - injection E as -> E. destruct (IH _ _ _ (proj2 Wa) (proj2 Wb) E) as [-> ->]. auto.
Qed.
Lemma without_cut c a s b : without c b -> append a (String c s) <> b.
Proof. intros W <-. rewrite without_app in W. cbn in W. tauto. Qed.
Lemma concat_inj c l : forall l', Forall (without c) l -> Forall (without c) l' -> l <> [] -> l' <> [] ->
  String.concat (String c "") l = String.concat (String c "") l' -> l = l'.
Proof.
  induction l as [|a l IH]; intros l' F F' N N' E; [congruence|]. destruct l' as [|b l']; [congruence|].
  inversion F as [|? ? Wa F1]; subst. inversion F' as [|? ? Wb F1']; subst.
  destruct l as [|a2 l]; destruct l' as [|b2 l'].
  - cbn in E. congruence.
  - rewrite (concat_cons _ b) in E by discriminate. cbn [String.concat] in E. exfalso. apply (without_cut c b (String.concat (String c "") (b2 :: l')) a Wa). now rewrite E.
  - rewrite (concat_cons _ a) in E by discriminate. cbn [String.concat] in E. exfalso. apply (without_cut c a (String.concat (String c "") (a2 :: l)) b Wb). now rewrite <- E.
  - rewrite (concat_cons _ a), (concat_cons _ b) in E by discriminate. change (append (String c "") ?x) with (String c x) in E.
    destruct (cut_inj _ _ _ _ _ Wa Wb E) as [-> E']. f_equal. apply IH; auto; discriminate.
Qed.
Lemma plain_inj a b : plain a -> plain b -> comp_text a = comp_text b -> a = b.
Proof. destruct a, b; cbn; intros; try tauto; try congruence; try (subst; tauto). Qed.
Lemma plain_without a : plain a -> without "/" (comp_text a).
Proof. destruct a; cbn; try tauto. intros _. repeat split; discriminate. Qed.
Lemma map_text_inj l : forall l', Forall plain l -> Forall plain l' -> map comp_text l = map comp_text l' -> l = l'.
Proof.
  induction l as [|a l IH]; intros [|b l'] F F' E; try discriminate; [reflexivity|]. injection E as E1 E2.
  inversion F; inversion F'; subst. f_equal; auto using plain_inj.
Qed.
Lemma path_text_inj l l' : Forall plain l -> Forall plain l' -> l <> [] -> l' <> [] -> path_text l = path_text l' -> l = l'.
Proof.
  intros F F' N N'. rewrite !plain_text by assumption. intros E. apply map_text_inj; auto.
  apply concat_inj in E; auto.
  - apply Forall_map. eapply Forall_impl; [|exact F]. apply plain_without.
  - apply Forall_map. eapply Forall_impl; [|exact F']. apply plain_without.
  - now destruct l.
  - now destruct l'.
Qed.
Lemma relative_inj repo p q rp rq : below repo p rp -> below repo q rq ->
  strip RepoRelative repo p = strip RepoRelative repo q -> p = q.
Proof.
  intros Bp Bq. rewrite (strip_below _ _ _ Bp), (strip_below _ _ _ Bq). intros [= E]. destruct Bp as (-> & Np & Fp), Bq as (-> & Nq & Fq).
  f_equal. now apply path_text_inj.
Qed.
Lemma append_assoc a b c : append (append a b) c = append a (append b c).
Proof. induction a as [|x a IH]; cbn; congruence. Qed.
Lemma concat_app_ne d a b : a <> [] -> b <> [] -> String.concat d (a ++ b) = append (String.concat d a) (append d (String.concat d b)).
Proof.
  intros Na Nb. induction a as [|x a IH]; [congruence|]. cbn [app]. destruct a as [|y a].
  - cbn [app]. rewrite concat_cons by assumption. reflexivity.
  - rewrite concat_cons by discriminate. rewrite IH by discriminate. rewrite (concat_cons d x) by discriminate.
    rewrite !append_assoc. reflexivity.
Qed.
Lemma relative_restore repo p rest s : below repo p rest -> repo <> [] -> strip RepoRelative repo p = Ok s ->
  path_text p = append (match repo with [CRoot] => "" | _ => path_text repo end) (append "/" s).
Proof.
  intros B N. rewrite (strip_below _ _ _ B). intros [= <-]. destruct B as (-> & Nr & F). rewrite (plain_text rest F).
  assert (Nm : map comp_text rest <> []) by now destruct rest.
  assert (E : path_text (repo ++ rest) = String.concat "/" (map comp_text (repo ++ rest))).
  { destruct repo as [|[| | |s] [|]]; try congruence; try reflexivity. destruct rest; [congruence|reflexivity]. }
  rewrite E, map_app, concat_app_ne; auto; [|now destruct repo].
  destruct repo as [|[| | |s] [|]]; try congruence; reflexivity.
Qed.
Lemma relative_outside repo p : (forall rest, p <> repo ++ rest) -> strip RepoRelative repo p = Ok (path_text p).
Proof.
  intros H. cbn. destruct (strip_prefix repo p) eqn:E; [|reflexivity]. apply strip_prefix_some in E. now destruct (H _ E).
Qed.
Lemma name_strip repo p n : named p n -> strip FileName repo p = Ok n.
Proof. intros H. apply file_name_named in H. cbn. now rewrite H. Qed.

(** Every entry of a file carries the name of the file. *)
Lemma methods_pallet n items l : handle_methods n items = Ok l -> Forall (fun e => epallet e = n) l.
Proof.
  revert l. induction items as [|[m|] items IH]; intros l; cbn; [intros [= <-]; constructor| |apply IH].
  intros H. apply bind_ok in H. destruct H as ([[name t] rs] & _ & H). apply bind_ok in H. destruct H as (rest & Hr & [= <-]).
  constructor; [reflexivity|now apply IH].
Qed.
Lemma content_pallet n f l : parse_content n f = Ok l -> Forall (fun e => epallet e = n) l.
Proof.
  destruct f as [items|]; [|discriminate]. cbn. induction items as [|i items IH]; cbn; [discriminate|].
  destruct (handle_item n i) as [l'| | |] eqn:E; try discriminate; [|exact IH]. intros [= <-].
  destruct i; try discriminate E. cbn in E. apply bind_ok in E. destruct E as (u & _ & E). apply bind_ok in E. destruct E as (ws & H & E).
  destruct ws; [discriminate|]. injection E as <-. now apply (methods_pallet n items0).
Qed.
Lemma map_err_ok {A} f (o : outcome A) x : map_err f o = Ok x <-> o = Ok x.
Proof. destruct o; cbn; split; congruence. Qed.
Lemma file_ok disk p l : parse_file disk p = Ok l <-> exists f n, disk p = inr f /\ named p n /\ parse_content n f = Ok l.
Proof.
  unfold parse_file, read_file. split.
  - destruct (disk p) as [e|f]; [discriminate|]. cbn. destruct (file_name p) as [n|] eqn:E; [|discriminate]. cbn. intros H.
    apply map_err_ok in H. apply file_name_named in E. eauto.
  - intros (f & n & -> & H & P). cbn. apply file_name_named in H. rewrite H. cbn. now apply map_err_ok.
Qed.
Lemma file_in_repo_ok disk repo p l : parse_file_in_repo disk repo p = Ok l <->
  exists f n, disk p = inr f /\ strip RepoRelative repo p = Ok n /\ parse_content n f = Ok l.
Proof.
  unfold parse_file_in_repo, read_file. split.
  - destruct (disk p) as [e|f]; [discriminate|]. intros H. cbn [bind] in H. apply bind_ok in H. destruct H as (n & Hn & H).
    apply map_err_ok in H. eauto.
  - intros (f & n & -> & H & P). cbn [bind]. rewrite H. cbn [bind]. now apply map_err_ok.
Qed.

(** Entries of files of the same name. *)
Lemma is_first_app_drop a b c k o : (forall e, In e b -> exists e', In e' a /\ ext_key e' = ext_key e) ->
  is_first (a ++ b ++ c) k o <-> is_first (a ++ c) k o.
Proof.
  intros D.
  assert (K : forall l, is_first (a ++ l) k o <-> (exists e, In e a /\ ext_key e = k) /\ is_first a k o \/ ~ (exists e, In e a /\ ext_key e = k) /\ is_first l k o).
  { intros l. destruct o as [e|]; cbn.
    - split.
      + intros (l1 & l2 & E & Ke & N). destruct (app_eq_app _ _ _ _ E) as (m & [[-> Em]|[-> Em]]).
        * destruct m as [|e' m].
          -- cbn in Em. rewrite app_nil_r in *. right. split.
             ++ intros (x & Hx & Kx). now apply (N x Hx).
             ++ exists [], l2. rewrite <- Em. repeat split; auto.
          -- injection Em as <- _. left. split; [exists e; split; [apply in_or_app; right; now left|assumption]|].
             exists l1, m. auto.
        * right. split.
          -- intros (x & Hx & Kx). apply (N x); [apply in_or_app; now left|assumption].
          -- exists m, l2. repeat split; auto. intros x Hx. apply N. apply in_or_app. now right.
      + intros [(_ & l1 & l2 & -> & Ke & N)|(Na & l1 & l2 & -> & Ke & N)].
        * exists l1, (l2 ++ l). rewrite <- app_assoc. auto.
        * exists (a ++ l1), l2. rewrite <- app_assoc. repeat split; auto. intros x Hx. apply in_app_or in Hx. destruct Hx as [Hx|Hx]; auto.
          intros Kx. apply Na. eauto.
    - split.
      + intros N. right. split.
        * intros (x & Hx & Kx). apply (N x); [apply in_or_app; now left|assumption].
        * intros x Hx. apply N. apply in_or_app. now right.
      + intros [((e & He & Ke) & N)|(Na & N)] x Hx.
        * now destruct (N e He).
        * apply in_app_or in Hx. destruct Hx as [Hx|Hx]; auto. intros Kx. apply Na. eauto. }
  rewrite !K. split.
  - intros [H|(Na & H)]; [now left|]. right. split; [assumption|].
    destruct o as [e|]; cbn in *.
    + destruct H as (l1 & l2 & E & Ke & N). destruct (app_eq_app _ _ _ _ E) as (m & [[-> Em]|[-> Em]]).
      * destruct m as [|e' m]; [cbn in Em; exists [], l2; rewrite <- Em; repeat split; auto|].
        injection Em as <- _. destruct (D e) as (x & Hx & Kx); [apply in_or_app; right; now left|]. destruct Na. exists x. split; congruence.
      * exists m, l2. repeat split; auto. intros x Hx. apply N. apply in_or_app. now right.
    + intros x Hx. apply H. apply in_or_app. now right.
  - intros [H|(Na & H)]; [now left|]. right. split; [assumption|].
    assert (Nb : forall x, In x b -> ext_key x <> k).
    { intros x Hx Kx. destruct (D x Hx) as (y & Hy & Ky). apply Na. exists y. split; congruence. }
    destruct o as [e|]; cbn in *.
    + destruct H as (l1 & l2 & -> & Ke & N). exists (b ++ l1), l2. rewrite <- app_assoc. repeat split; auto.
      intros x Hx. apply in_app_or in Hx. destruct Hx; auto.
    + intros x Hx. apply in_app_or in Hx. destruct Hx; auto.
Qed.

Lemma collision_lemma disk ps1 p ps2 q ps3 n l xs ys : named p n -> named q n ->
  parse_file disk p = Ok xs -> parse_file disk q = Ok ys -> incl (map ename ys) (map ename xs) ->
  parse_files disk (ps1 ++ p :: ps2 ++ q :: ps3) = Ok l ->
  exists l', parse_files disk (ps1 ++ p :: ps2 ++ ps3) = Ok l' /\ same_firsts l l'.
Proof.
  intros Np Nq Hp Hq I H. apply parse_all_ok in H. destruct H as (xss & F & ->).
  apply Forall2_app_inv_l in F. destruct F as (x1 & r1 & F1 & F & ->). inversion F as [|? xs' ? r1' E1 F']; subst.
  apply Forall2_app_inv_l in F'. destruct F' as (x2 & r2 & F2 & F'' & ->). inversion F'' as [|? ys' ? x3 E2 F3]; subst.
  rewrite Hp in E1. injection E1 as <-. rewrite Hq in E2. injection E2 as <-.
  exists (List.concat (x1 ++ xs :: x2 ++ x3)). split.
  - apply parse_all_ok. eexists. split; [|reflexivity]. apply Forall2_app; auto. constructor; auto. now apply Forall2_app.
  - intros k o. rewrite !concat_app. cbn [List.concat]. rewrite !concat_app. cbn [List.concat].
    rewrite !app_assoc. rewrite <- (app_assoc _ ys). apply is_first_app_drop.
    intros e He. apply file_ok in Hp, Hq. destruct Hp as (f & n1 & _ & N1 & P1). destruct Hq as (g & n2 & _ & N2 & P2).
    rewrite (named_fun _ _ _ N1 Np) in P1. rewrite (named_fun _ _ _ N2 Nq) in P2. apply content_pallet in P1, P2.
    assert (Hn : In (ename e) (map ename xs)) by (apply I, in_map, He). apply in_map_iff in Hn. destruct Hn as (e' & En & He').
    exists e'. split; [apply in_or_app; left; apply in_or_app; now right|]. rewrite Forall_forall in P1, P2.
    unfold ext_key. now rewrite (P1 _ He'), (P2 _ He), En.
Qed.

Lemma distinct_lemma disk repo ps l : NoDup ps -> (forall p, In p ps -> exists rest, below repo p rest) ->
  (forall p xs, In p ps -> parse_file_in_repo disk repo p = Ok xs -> NoDup (map ename xs)) ->
  parse_files_in_repo disk repo ps = Ok l -> NoDup (map ext_key l).
Proof.
  intros ND B U H. apply parse_all_ok in H. destruct H as (xss & F & ->).
  induction F as [|p xs ps xss E F IH]; cbn; [constructor|]. inversion ND as [|? ? Np ND']; subst. rewrite map_app.
  assert (S : Forall (fun e => strip RepoRelative repo p = Ok (epallet e)) xs).
  { apply file_in_repo_ok in E. destruct E as (f & n & _ & S & P). apply content_pallet in P. eapply Forall_impl; [|exact P]. cbn. intros e ->. exact S. }
  rewrite Forall_forall in S.
  assert (App : forall (a b : list (string * string)), NoDup a -> NoDup b -> (forall x, In x a -> ~ In x b) -> NoDup (a ++ b)).
  { intros a b Ha Hb D. induction Ha as [|x a Nx Ha IHa]; [exact Hb|]. cbn. constructor.
    - intros Hx. apply in_app_or in Hx. destruct Hx as [Hx|Hx]; [auto|]. apply (D x); [now left|assumption].
    - apply IHa. intros y Hy. apply D. now right. }
  assert (K' : forall e, In e (List.concat xss) -> exists q, In q ps /\ strip RepoRelative repo q = Ok (epallet e)).
  { clear -F. induction F as [|p xs ps xss E F IH]; cbn; [tauto|]. intros e He. apply in_app_or in He. destruct He as [He|He].
    - exists p. split; [now left|]. apply file_in_repo_ok in E. destruct E as (f & n & _ & S & P). apply content_pallet in P.
      rewrite Forall_forall in P. now rewrite (P e He).
    - destruct (IH e He) as (q & Hq & S). exists q. split; [now right|assumption]. }
  apply App.
  - pose proof (U p xs (or_introl eq_refl) E) as Hn. clear -Hn. induction xs as [|e xs IH]; cbn in *; [constructor|].
    inversion Hn as [|? ? H1 H2]; subst. constructor; [|auto]. intros H. apply H1. apply in_map_iff in H. destruct H as (e' & Ee & He).
    apply in_map_iff. exists e'. unfold ext_key in Ee. split; [congruence|assumption].
  - apply IH; auto.
    + intros q Hq. apply B. now right.
    + intros q ys Hq. apply U. now right.
  - intros k Hk Hk'. apply in_map_iff in Hk, Hk'. destruct Hk as (e & <- & He), Hk' as (e' & Ee & He').
    destruct (K' e' He') as (q & Hq & Sq). unfold ext_key in Ee. injection Ee as Ep _. rewrite Ep in Sq.
    destruct (B p (or_introl eq_refl)) as (rp & Bp). destruct (B q (or_intror Hq)) as (rq & Bq).
    assert (p = q) by (apply (relative_inj repo p q rp rq); auto; now rewrite (S e He)). now subst.
Qed.

(** ** C43: kinds of files *)
Lemma priority_lemma disk repo p r : try_parse_file disk repo p = Ok r <->
  match r with
  | Some (PPallet l) => parse_file_in_repo disk repo p = Ok l
  | Some (PStorage w) => is_err (parse_file_in_repo disk repo p) = true /\ storage_file disk p = Ok w
  | Some (POverhead o) => is_err (parse_file_in_repo disk repo p) = true /\ is_err (storage_file disk p) = true /\ overhead_file disk p = Ok o
  | None => is_err (parse_file_in_repo disk repo p) = true /\ is_err (storage_file disk p) = true /\ is_err (overhead_file disk p) = true
  end.
Proof.
  unfold try_parse_file. destruct (parse_file_in_repo disk repo p); [| | |]; try destruct (storage_file disk p); try destruct (overhead_file disk p);
    destruct r as [[| |]|]; cbn; intuition congruence.
Qed.
Lemma kind_lemma disk repo p items : disk p = inr (Some items) -> Forall harmless_item items -> proper_file items ->
  exists r, try_parse_file disk repo p = Ok r /\ exists name, strip RepoRelative repo p = Ok name /\
  match r with
  | Some (PPallet l) => first_usable (entry name) items l
  | Some (PStorage w) => (forall i ws, In i items -> ~ usable (entry name) i ws) /\ first_reading db_reading (flat_map consts items) w
  | Some (POverhead o) => (forall i ws, In i items -> ~ usable (entry name) i ws) /\
      (forall c x, In c (flat_map consts items) -> ~ db_reading c x) /\ first_reading overhead_reading (flat_map consts items) o
  | None => (forall i ws, In i items -> ~ usable (entry name) i ws) /\
      (forall c x, In c (flat_map consts items) -> ~ db_reading c x) /\ (forall c x, In c (flat_map consts items) -> ~ overhead_reading c x)
  end.
Proof.
  intros D G1 G2. destruct (storage_lemma items G2) as (S1 & S2 & S3). destruct (overhead_lemma items G2) as (O1 & O2 & O3).
  set (name := path_text (match strip_prefix repo p with Some p => p | None => p end)).
  pose proof (content_returns name items G1) as R. pose proof (content_fails name items G1) as C2. pose proof (content_first name items) as C1.
  unfold try_parse_file, parse_file_in_repo, storage_file, overhead_file, read_file. rewrite D. cbn [bind strip]. fold name.
  destruct (parse_content name (Some items)) as [l|e| |]; try (destruct R; fail); cbn [map_err].
  - eexists. split; [reflexivity|]. exists name. split; [reflexivity|]. now apply C1.
  - destruct (storage_content (Some items)) as [w|e'| |]; try (destruct S3; fail).
    + eexists. split; [reflexivity|]. exists name. split; [reflexivity|]. split; [now apply C2|now apply S1].
    + destruct (overhead_content (Some items)) as [o|e''| |]; try (destruct O3; fail);
        (eexists; split; [reflexivity|]; exists name; split; [reflexivity|]; split; [now apply C2|]; split; [now apply S2|]).
      * now apply O1.
      * now apply O2.
Qed.
Lemma unreadable_lemma disk repo p : (exists e, disk p = inl e) \/ disk p = inr None -> try_parse_file disk repo p = Ok None.
Proof.
  unfold try_parse_file, parse_file_in_repo, storage_file, overhead_file, read_file. intros [(e & ->)| ->]; reflexivity.
Qed.

(** ** C45: listing *)
Lemma split_parts s : parts_of s (split_char "," s).
Proof.
  unfold parts_of. induction s as [|a s (N & F & C)]; cbn [split_char].
  - repeat split; [discriminate|constructor; [exact I|constructor]].
  - destruct (Ascii.eqb_spec a ",").
    + subst a. repeat split; [discriminate|constructor; [exact I|assumption]|]. rewrite concat_cons by assumption. rewrite C. reflexivity.
    + destruct (split_char "," s) as [|p ps]; [congruence|]. inversion F; subst. repeat split; [discriminate|constructor; [cbn; auto|assumption]|].
      destruct ps; cbn in *; reflexivity.
Qed.
Lemma parts_fun s a b : parts_of s a -> parts_of s b -> a = b.
Proof. intros (N & F & E) (N' & F' & E'). apply (concat_inj ","); auto. now rewrite E, E'. Qed.

Lemma collect_spec l r : collect l = Some r <-> l = map Some r.
Proof.
  revert r. induction l as [|[p|] l IH]; intros r; cbn.
  - split; [intros [= <-]; reflexivity|]. destruct r; [reflexivity|discriminate].
  - destruct r as [|q r]; cbn.
    + split; [|discriminate]. destruct (collect l); discriminate.
    + destruct (collect l) as [l'|]; cbn; split.
      * intros [= <- <-]. now rewrite (proj1 (IH l') eq_refl).
      * intros [= <- E]. apply IH in E. congruence.
      * discriminate.
      * intros [= <- E]. apply IH in E. congruence.
  - split; [discriminate|]. destruct r; discriminate.
Qed.
Definition files_of (l : list fpath) : list fpath := filter (fun f => negb (is_mod_rs f)) l.
Lemma counted_files l : counted l (List.length (files_of l)).
Proof.
  induction l as [|p l IH]; cbn; [constructor|]. destruct (is_mod_rs p) eqn:E; cbn.
  - constructor; [now apply mod_rs_named|assumption].
  - constructor; [|assumption]. rewrite <- mod_rs_named. congruence.
Qed.
Lemma counted_fun l n : counted l n -> n = List.length (files_of l).
Proof.
  induction 1 as [|p l n H _ IH|p l n H _ IH]; cbn; [reflexivity| |].
  - apply mod_rs_named in H. now rewrite H.
  - rewrite <- mod_rs_named in H. destruct (is_mod_rs p); [congruence|]. cbn. now rewrite IH.
Qed.
Lemma files_app a b : files_of (a ++ b) = files_of a ++ files_of b.
Proof. apply filter_app. Qed.

Lemma loop_ok glob base mx ps : forall acc r, (List.length acc <= mx)%nat ->
  list_loop glob base mx acc ps = Ok r <->
  exists found, Forall2 (lists glob base) ps found /\ r = acc ++ files_of (List.concat found) /\ (List.length r <= mx)%nat.
Proof.
  induction ps as [|p ps IH]; intros acc r L; cbn [list_loop].
  - split.
    + intros [= <-]. exists []. cbn. rewrite app_nil_r. auto.
    + intros (found & F & -> & _). inversion F; subst. cbn. now rewrite app_nil_r.
  - split.
    + destruct (glob _) as [files|] eqn:G; [|discriminate]. destruct (collect files) as [fs|] eqn:C; [|discriminate]. apply collect_spec in C. subst files.
      destruct (Nat.ltb_spec mx (List.length (acc ++ filter (fun f => negb (is_mod_rs f)) fs))); [discriminate|]. intros H'. apply IH in H'; [|assumption].
      destruct H' as (found & F & -> & L'). exists (fs :: found). split; [constructor; assumption|]. cbn [List.concat]. rewrite files_app, app_assoc. auto.
    + intros (found & F & -> & L'). inversion F as [|? fs ? found' E F']; subst. unfold lists in E. rewrite E.
      rewrite (proj2 (collect_spec _ fs) eq_refl). cbn [List.concat] in *. rewrite files_app, app_assoc in *. fold (files_of fs).
      rewrite app_length in L'. destruct (Nat.ltb_spec mx (List.length (acc ++ files_of fs))); [lia|]. apply IH; [lia|]. exists found'. rewrite app_length. auto.
Qed.
Lemma loop_returns glob base mx ps : forall acc, returns (list_loop glob base mx acc ps).
Proof.
  induction ps as [|p ps IH]; intros acc; cbn [list_loop]; [exact I|]. destruct (glob _); [|exact I]. destruct (collect _); [|exact I].
  destruct (Nat.ltb _ _); [exact I|]. apply IH.
Qed.

(** Sorting. *)
Definition pge (a b : fpath) : Prop := path_cmp a b <> Lt.
Definition ple (a b : fpath) : Prop := path_cmp b a <> Lt.
Lemma pge_trans a b c : pge a b -> pge b c -> pge a c.
Proof.
  unfold pge. intros H1 H2 H3. apply H2. destruct (path_cmp b a) eqn:E.
  - apply (cmp_eq _ path_cmp_strict) in E. now subst.
  - apply (cmp_trans _ path_cmp_strict _ _ _ E H3).
  - apply (cmp_gt_lt _ path_cmp_strict) in E. congruence.
Qed.
Lemma insert_back_perm x p : Permutation (x :: p) (insert_back path_less x p).
Proof.
  induction p as [|y p IH]; cbn; [reflexivity|]. destruct (path_less x y); [|reflexivity]. rewrite <- IH. apply perm_swap.
Qed.
Lemma insert_back_sorted x p : StronglySorted pge p -> StronglySorted pge (insert_back path_less x p).
Proof.
  induction 1 as [|y p S IH F]; cbn; [constructor; constructor|]. unfold path_less. destruct (path_cmp x y) eqn:E.
  - constructor; [constructor; assumption|]. constructor; [unfold pge; congruence|]. eapply Forall_impl; [|exact F]. intros z. apply pge_trans. unfold pge. congruence.
  - constructor; [exact IH|]. apply (Permutation_Forall (insert_back_perm x p)). constructor; [|assumption].
    unfold pge. rewrite (cmp_anti _ path_cmp_strict x y), E. discriminate.
  - constructor; [constructor; assumption|]. constructor; [unfold pge; congruence|]. eapply Forall_impl; [|exact F]. intros z. apply pge_trans. unfold pge. congruence.
Qed.
Lemma sorted_snoc {A} (R : A -> A -> Prop) l x : StronglySorted R l -> Forall (fun y => R y x) l -> StronglySorted R (l ++ [x]).
Proof.
  induction 1 as [|y l S IH F]; intros G; cbn; [constructor; constructor|]. inversion G; subst. constructor; [now apply IH|].
  apply Forall_app. split; [assumption|]. constructor; [assumption|constructor].
Qed.
Lemma sorted_rev {A} (R : A -> A -> Prop) l : StronglySorted R l -> StronglySorted (fun a b => R b a) (rev l).
Proof.
  induction 1 as [|y l S IH F]; cbn; [constructor|]. apply sorted_snoc; [assumption|]. now apply Forall_rev.
Qed.
Lemma sort_paths_spec l : StronglySorted ple (sort_paths l) /\ Permutation l (sort_paths l).
Proof.
  unfold sort_paths. assert (K : forall l acc, StronglySorted ple acc -> StronglySorted ple (fold_left (insert_tail path_less) l acc) /\
     Permutation (acc ++ l) (fold_left (insert_tail path_less) l acc)).
  { clear l. induction l as [|x l IH]; intros acc S; cbn; [rewrite app_nil_r; auto|].
    destruct (IH (insert_tail path_less acc x)) as [S' P].
    - unfold insert_tail. apply (sorted_rev pge), insert_back_sorted, (sorted_rev ple). assumption.
    - split; [assumption|]. rewrite <- P. unfold insert_tail. rewrite <- Permutation_middle. change (x :: acc ++ l) with ((x :: acc) ++ l). apply Permutation_app_tail.
      rewrite <- Permutation_rev, <- insert_back_perm. constructor. apply Permutation_rev. }
  destruct (K l [] (SSorted_nil _)) as [S P]. auto.
Qed.
Lemma dedup_cons a b l : dedup (a :: b :: l) = if path_eqb a b then dedup (b :: l) else a :: dedup (b :: l).
Proof. reflexivity. Qed.
Lemma dedup_spec l : StronglySorted ple l -> StronglySorted path_before (dedup l) /\ (forall p, In p (dedup l) <-> In p l) /\ (List.length (dedup l) <= List.length l)%nat.
Proof.
  induction l as [|a l IH]; intros S; [repeat split; auto; constructor|]. inversion S as [|? ? S' F]; subst. destruct (IH S') as (S1 & I1 & L1). clear IH.
  destruct l as [|b l]; [repeat split; auto; constructor; constructor|]. rewrite dedup_cons. unfold path_eqb. destruct (path_cmp a b) eqn:E.
  - apply (cmp_eq _ path_cmp_strict) in E. subst b. repeat split; [assumption| | |cbn [List.length] in *; lia].
    + intros H. right. now apply I1.
    + intros [<-|H]; apply I1; [now left|assumption].
  - repeat split.
    + constructor; [assumption|]. apply Forall_forall. intros x Hx. apply I1 in Hx. apply path_before_cmp.
      inversion S' as [|? ? _ F']; subst. destruct Hx as [<-|Hx]; [assumption|]. rewrite Forall_forall in F'. specialize (F' x Hx). unfold ple in F'.
      destruct (path_cmp b x) eqn:Eb.
      * apply (cmp_eq _ path_cmp_strict) in Eb. now subst.
      * apply (cmp_trans _ path_cmp_strict _ _ _ E Eb).
      * apply (cmp_gt_lt _ path_cmp_strict) in Eb. congruence.
    + intros [<-|H]; [now left|]. right. now apply I1.
    + intros [<-|H]; [now left|]. right. now apply I1.
    + cbn [List.length] in *. lia.
  - inversion F as [|? ? H _]; subst. unfold ple in H. apply (cmp_gt_lt _ path_cmp_strict) in E. congruence.
Qed.

Lemma list_files_ok glob base s parts mx l : parts_of s parts -> list_files glob base s mx = Ok l ->
  exists found, Forall2 (lists glob base) parts found /\ StronglySorted path_before l /\
    (forall p, In p l <-> (exists fs, In fs found /\ In p fs) /\ ~ named p "mod.rs") /\ (List.length l <= mx)%nat.
Proof.
  intros P H. rewrite (parts_fun _ _ _ P (split_parts s)). unfold list_files in H. apply bind_ok in H. destruct H as (r & H & [= <-]).
  apply loop_ok in H; [|cbn; lia]. destruct H as (found & F & -> & L). exists found. cbn [app] in *.
  destruct (sort_paths_spec (files_of (List.concat found))) as [S Pm]. destruct (dedup_spec _ S) as (S1 & I1 & L1).
  split; [assumption|]. split; [assumption|]. split; [|apply Permutation_length in Pm; lia].
  intros p. rewrite I1. transitivity (In p (files_of (List.concat found))).
  - split; intros H; [apply (Permutation_in _ (Permutation_sym Pm) H)|apply (Permutation_in _ Pm H)].
  - unfold files_of. rewrite filter_In, in_concat, <- mod_rs_named. destruct (is_mod_rs p); cbn; intuition congruence.
Qed.
Lemma list_files_fails glob base s parts mx : parts_of s parts ->
  returns (list_files glob base s mx) /\
  (is_err (list_files glob base s mx) = true <->
   ~ exists found n, Forall2 (lists glob base) parts found /\ counted (List.concat found) n /\ (n <= mx)%nat).
Proof.
  intros P. rewrite (parts_fun _ _ _ P (split_parts s)). unfold list_files. pose proof (loop_returns glob base mx (split_char "," s) []) as R.
  pose proof (loop_ok glob base mx (split_char "," s) []) as K.
  destruct (list_loop glob base mx [] (split_char "," s)) as [r|e| |]; try (destruct R; fail); cbn; split; try exact I.
  - split; [discriminate|]. intros H. destruct H. destruct (proj1 (K r ltac:(cbn; lia)) eq_refl) as (found & F & -> & L).
    exists found, (List.length (files_of (List.concat found))). auto using counted_files.
  - split; [|reflexivity]. intros _ (found & n & F & C & L). apply counted_fun in C. subst n.
    assert (X : @Err (list fpath) e = Ok (files_of (List.concat found))); [|discriminate X].
    apply K; [cbn; lia|]. exists found. auto.
Qed.
Lemma Forall2_perm {A B} (R : A -> B -> Prop) l l' : Permutation l l' -> forall r, Forall2 R l r -> exists r', Forall2 R l' r' /\ Permutation r r'.
Proof.
  induction 1 as [|x l l' P IH|x y l|l l' l'' P IH P' IH']; intros r F.
  - exists r. split; [assumption|reflexivity].
  - inversion F as [|? b ? r1 H F1]; subst. destruct (IH r1 F1) as (r' & F' & Pr). exists (b :: r'). split; constructor; assumption.
  - inversion F as [|? b ? r1 H F1]; subst. inversion F1 as [|? c ? r2 H2 F2]; subst. exists (c :: b :: r2). split; [repeat constructor; assumption|apply perm_swap].
  - destruct (IH r F) as (r1 & F1 & P1). destruct (IH' r1 F1) as (r2 & F2 & P2). exists r2. split; [assumption|now transitivity r1].
Qed.
Lemma concat_perm {A} (l l' : list (list A)) : Permutation l l' -> Permutation (List.concat l) (List.concat l').
Proof.
  induction 1; cbn; auto.
  - now apply Permutation_app_head.
  - rewrite !app_assoc. apply Permutation_app_tail, Permutation_app_comm.
  - etransitivity; eassumption.
Qed.
Lemma filter_perm {A} (f : A -> bool) l l' : Permutation l l' -> Permutation (filter f l) (filter f l').
Proof.
  induction 1; cbn; auto.
  - destruct (f x); auto.
  - destruct (f x), (f y); auto. apply perm_swap.
  - etransitivity; eassumption.
Qed.
Lemma sorted_unique l l' : StronglySorted path_before l -> StronglySorted path_before l' -> (forall p, In p l <-> In p l') -> l = l'.
Proof.
  intros S. revert l'. induction S as [|a l S IH F]; intros l' S' I.
  - destruct l' as [|b l']; [reflexivity|]. destruct (proj2 (I b)). now left.
  - destruct S' as [|b l' S' F']; [destruct (proj1 (I a)); now left|]. rewrite Forall_forall in F, F'.
    assert (Irr : forall x, ~ path_before x x) by (intros x Hx; apply path_before_cmp in Hx; now rewrite (cmp_refl _ path_cmp_strict) in Hx).
    assert (Asy : forall x y, path_before x y -> ~ path_before y x).
    { intros x y Hx Hy. apply path_before_cmp in Hx, Hy. rewrite (cmp_anti _ path_cmp_strict x y), Hx in Hy. discriminate. }
    assert (a = b).
    { destruct (proj1 (I a) (or_introl eq_refl)) as [|Ha]; [auto|]. destruct (proj2 (I b) (or_introl eq_refl)) as [|Hb]; [auto|].
      destruct (Asy a b); auto. }
    subst b. f_equal. apply IH; [assumption|]. intros p. split; intros Hp.
    + destruct (proj1 (I p) (or_intror Hp)) as [<-|]; [|assumption]. destruct (Irr a); auto.
    + destruct (proj2 (I p) (or_intror Hp)) as [<-|]; [|assumption]. destruct (Irr a); auto.
Qed.
Lemma list_files_order glob base s s' parts parts' mx : parts_of s parts -> parts_of s' parts' -> Permutation parts parts' ->
  same_result (list_files glob base s mx) (list_files glob base s' mx).
Proof.
  assert (K : forall s s' parts parts' l, parts_of s parts -> parts_of s' parts' -> Permutation parts parts' ->
     list_files glob base s mx = Ok l -> list_files glob base s' mx = Ok l).
  { clear. intros s s' parts parts' l P P' Pm H. unfold list_files in *. rewrite (parts_fun _ _ _ (split_parts s) P) in H. rewrite (parts_fun _ _ _ (split_parts s') P').
    apply bind_ok in H. destruct H as (r & H & [= <-]). apply loop_ok in H; [|cbn; lia]. destruct H as (found & F & -> & L). cbn [app] in *.
    destruct (Forall2_perm _ _ _ Pm _ F) as (found' & F' & Pf). pose proof (filter_perm (fun f => negb (is_mod_rs f)) _ _ (concat_perm _ _ Pf)) as Pl.
    fold (files_of (List.concat found)) in Pl. fold (files_of (List.concat found')) in Pl.
    rewrite (proj2 (loop_ok glob base mx parts' [] (files_of (List.concat found')) ltac:(cbn; lia))).
    - cbn [bind]. f_equal. destruct (sort_paths_spec (files_of (List.concat found))) as [S1 P1]. destruct (sort_paths_spec (files_of (List.concat found'))) as [S2 P2].
      destruct (dedup_spec _ S1) as (S3 & I3 & _). destruct (dedup_spec _ S2) as (S4 & I4 & _). apply sorted_unique; auto.
      intros p. rewrite I3, I4. assert (Q : Permutation (sort_paths (files_of (List.concat found'))) (sort_paths (files_of (List.concat found)))) by (rewrite <- P1, <- P2; now symmetry).
      split; [apply Permutation_in; exact Q|apply Permutation_in; symmetry; exact Q].
    - exists found'. cbn [app]. split; [assumption|]. split; [reflexivity|]. apply Permutation_length in Pl. lia. }
  intros P P' Pm. pose proof (proj1 (list_files_fails glob base s parts mx P)) as R. pose proof (proj1 (list_files_fails glob base s' parts' mx P')) as R'.
  destruct (list_files glob base s mx) as [l|e| |] eqn:E; try (destruct R; fail).
  - left. symmetry. now apply (K s s' parts parts').
  - destruct (list_files glob base s' mx) as [l|e'| |] eqn:E'; try (destruct R'; fail).
    + apply (K s' s parts' parts) in E'; [congruence|assumption|assumption|now symmetry].
    + right. auto.
Qed.
