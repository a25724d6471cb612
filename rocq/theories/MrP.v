(** Proofs about the page of merge requests. *)
From Coq Require Import List String Ascii Arith NArith ZArith Bool Lia Permutation Sorted.
From Verif Require Import Base FilesM GitM CliM WebM SiteM MrM SpecFmt SpecFiles SpecRows SpecSite SpecArgs SpecWeb SpecMr.
From Verif Require ArgsP3 SiteP WebP CliP GitP LexP TmplP.
Import ListNotations.
Local Open Scope string_scope.

(** ** Order *)
Lemma add_perm x l : Permutation (x :: l) (add_pull x l).
Proof. induction l as [|y l IH]; cbn; [reflexivity|]. destruct (_ <? _)%Z; [|reflexivity]. rewrite perm_swap. now constructor. Qed.
Lemma add_sorted x l : StronglySorted (fun a b => (pr_updated b <= pr_updated a)%Z) l -> StronglySorted (fun a b => (pr_updated b <= pr_updated a)%Z) (add_pull x l).
Proof.
  induction 1 as [|y l S IH F]; cbn; [repeat constructor|]. destruct (Z.ltb_spec (pr_updated x) (pr_updated y)).
  - constructor; [exact IH|]. eapply Permutation_Forall; [apply add_perm|]. constructor; [lia|exact F].
  - constructor; [constructor; assumption|]. constructor; [lia|]. eapply Forall_impl; [|exact F]. cbn. intros. lia.
Qed.
Lemma add_filter t x l : filter (fun mr => Z.eqb (pr_updated mr) t) (add_pull x l) = filter (fun mr => Z.eqb (pr_updated mr) t) (x :: l).
Proof.
  induction l as [|y l IH]; [reflexivity|]. cbn [add_pull]. destruct (Z.ltb_spec (pr_updated x) (pr_updated y)); [|reflexivity]. cbn [filter] in *. rewrite IH.
  destruct (Z.eqb_spec (pr_updated y) t), (Z.eqb_spec (pr_updated x) t); try reflexivity. lia.
Qed.
Lemma sort_spec l : newest_first l (sort_pulls l).
Proof.
  unfold newest_first. induction l as [|x l (P & S & F)]; [repeat constructor|]. cbn [sort_pulls fold_right]. fold (sort_pulls l). split; [|split].
  - eapply perm_trans; [apply perm_skip, P|apply add_perm].
  - now apply add_sorted.
  - intros t. rewrite add_filter. cbn [filter]. now rewrite F.
Qed.
(** ** Words *)
Lemma lower_same s : SiteM.lower s = ArgsM.lower_string s.
Proof. induction s as [|c s IH]; [reflexivity|]. cbn. now rewrite IH. Qed.
Lemma lower_app a b : SiteM.lower (a ++ b) = SiteM.lower a ++ SiteM.lower b.
Proof. induction a as [|c a IH]; [reflexivity|]. cbn. now rewrite IH. Qed.
Lemma lower_split s : forall x y, SiteM.lower s = x ++ y -> exists a b, s = a ++ b /\ SiteM.lower a = x /\ SiteM.lower b = y.
Proof.
  induction s as [|c s IH]; intros x y H.
  - destruct x; [|discriminate]. exists "", "". auto.
  - destruct x as [|d x]; [exists "", (String c s); auto|]. cbn in H. injection H as <- H. apply IH in H as (a & b & -> & <- & <-). exists (String c a), b. auto.
Qed.
Lemma mentions_iff s : contains "weight" (SiteM.lower s) = true <-> mentions_weight s.
Proof.
  rewrite GitP.contains_spec. split.
  - intros (x & y & H). apply lower_split in H as (a & r & -> & _ & H). apply lower_split in H as (w & b & -> & H & _).
    exists a, w, b. split; [reflexivity|]. rewrite <- H, lower_same. apply ArgsP3.lower_spells.
  - intros (a & w & b & -> & H). apply ArgsP3.spells_lower in H; [|reflexivity]. exists (SiteM.lower a), (SiteM.lower b). now rewrite !lower_app, (lower_same w), H.
Qed.
Lemma highlight_iff mr : should_highlight mr = true <-> about_weights mr.
Proof. unfold should_highlight, about_weights. cbv zeta. rewrite !orb_true_iff, !mentions_iff. reflexivity. Qed.
(** ** Rows *)
Lemma substring_short s : shortened s (String.substring 0 100 s).
Proof.
  unfold shortened. generalize 100. intros n. revert s. induction n as [|n IH]; intros s.
  - exists s. destruct s; cbn; auto.
  - destruct s as [|c s]; [exists ""; cbn; repeat split; [lia|auto]|]. destruct (IH s) as (r & E & L & K). exists r. cbn. rewrite <- E.
    split; [reflexivity|]. split; [lia|]. destruct K; [auto|right; lia].
Qed.
Lemma shows_cells show mr : shows_pull show mr (cells_of show mr).
Proof. exists (String.substring 0 100 (pr_title mr)). split; [apply substring_short|reflexivity]. Qed.
Definition own_weights (owner : string) (mr : pull) : Prop := pr_owner mr = Some owner /\ about_weights mr.
Lemma own_row show owner mr : pr_owner mr = Some owner -> row_for show owner mr
  {| row_cells := cells_of show mr; row_color := if should_highlight mr then Some "seagreen" else None; row_title := None; row_opens := Some (pr_base mr, pr_head mr) |}.
Proof.
  intros O. split; [apply shows_cells|]. exists owner. split; [exact O|]. split; [|contradiction]. intros _. cbn. split; [reflexivity|]. split; [reflexivity|].
  rewrite <- highlight_iff. destruct (should_highlight mr); (split; split; congruence).
Qed.
Lemma fork_row show owner o mr : pr_owner mr = Some o -> o <> owner -> row_for show owner mr
  {| row_cells := cells_of show mr; row_color := Some "gray"; row_title := Some ("Forks are unsupported. Remote: " ++ o ++ " != " ++ owner); row_opens := None |}.
Proof. intros O N. split; [apply shows_cells|]. exists o. split; [exact O|]. split; [contradiction|]. auto. Qed.
Lemma fill_all show owner l : Forall (fun mr => pr_owner mr <> None) l ->
  exists rows n own, fill show owner l = (rows, Some n) /\ Forall2 (row_for show owner) l rows /\ selects (own_weights owner) l own /\ n = N.of_nat (List.length own).
Proof.
  induction 1 as [|mr l H _ (rows & n & own & E & F & S & ->)]; [exists [], 0%N, []; repeat split; constructor|].
  cbn [fill]. destruct (pr_owner mr) as [o|] eqn:O; [|congruence]. rewrite E. destruct (String.eqb_spec o owner) as [->|N]; cbn [negb option_map].
  - pose proof (own_row show owner mr O) as R. destruct (should_highlight mr) eqn:W.
    + do 2 eexists. exists (mr :: own). split; [reflexivity|]. split; [constructor; assumption|]. split; [constructor; [split; [exact O|now apply highlight_iff]|exact S]|]. cbn [List.length]. lia.
    + do 2 eexists. exists own. split; [reflexivity|]. split; [constructor; assumption|]. split; [|reflexivity]. constructor; [|exact S]. intros [_ A]. apply highlight_iff in A. congruence.
  - do 2 eexists. exists own. split; [reflexivity|]. split; [constructor; [now apply fork_row|exact F]|]. split; [|reflexivity]. constructor; [|exact S]. intros [A _]. congruence.
Qed.
Lemma fill_stop show owner before mr after : Forall (fun mr => pr_owner mr <> None) before -> pr_owner mr = None ->
  exists rows row, fill show owner (before ++ mr :: after) = ((rows ++ [row])%list, None) /\ Forall2 (row_for show owner) before rows /\
    shows_pull show mr (row_cells row) /\ row_color row = None /\ row_opens row = None.
Proof.
  intros H N. induction H as [|x l H _ (rows & row & E & F & R)].
  - cbn. rewrite N. exists []. eexists. split; [reflexivity|]. split; [constructor|]. split; [apply shows_cells|]. auto.
  - cbn [app fill]. destruct (pr_owner x) as [o|] eqn:O; [|congruence]. rewrite E. destruct (String.eqb_spec o owner) as [->|K]; cbn [negb option_map].
    + eexists (_ :: rows), row. split; [reflexivity|]. split; [|exact R]. constructor; [now apply own_row|exact F].
    + eexists (_ :: rows), row. split; [reflexivity|]. split; [|exact R]. constructor; [now apply fork_row|exact F].
Qed.
Lemma list_lemma show owner data : Forall (fun mr => pr_owner mr <> None) data ->
  exists order own, newest_first data order /\ selects (fun mr => pr_owner mr = Some owner /\ about_weights mr) order own /\
    let p := mr_answered show owner (Some data) in
    Forall2 (row_for show owner) order (mp_rows p) /\ mp_highlighted p = N.of_nat (List.length own) /\ mp_overlay p = false.
Proof.
  intros H. pose proof (sort_spec data) as S. destruct S as (P & S). assert (H' : Forall (fun mr => pr_owner mr <> None) (sort_pulls data)) by (eapply Permutation_Forall; [exact P|exact H]).
  destruct (fill_all show owner _ H') as (rows & n & own & E & F & Se & ->). exists (sort_pulls data), own. split; [split; assumption|]. split; [exact Se|].
  unfold mr_answered. rewrite E. cbn. auto.
Qed.
Lemma first_missing (l : list pull) : Forall (fun mr => pr_owner mr <> None) l \/
  exists before mr after, l = (before ++ mr :: after)%list /\ Forall (fun mr => pr_owner mr <> None) before /\ pr_owner mr = None.
Proof.
  induction l as [|x l IH]; [left; constructor|]. destruct (pr_owner x) eqn:O; [|right; exists [], x, l; repeat constructor; assumption].
  destruct IH as [IH|(b & mr & a & -> & F & N)]; [left; constructor; [congruence|assumption]|]. right. exists (x :: b), mr, a. split; [reflexivity|]. split; [constructor; [congruence|assumption]|exact N].
Qed.
Lemma deleted_lemma show owner data : (exists mr, In mr data /\ pr_owner mr = None) ->
  exists before mr after, newest_first data (before ++ mr :: after) /\ Forall (fun mr => pr_owner mr <> None) before /\ pr_owner mr = None /\
    let p := mr_answered show owner (Some data) in
    exists rows row, mp_rows p = (rows ++ [row])%list /\ Forall2 (row_for show owner) before rows /\ shows_pull show mr (row_cells row) /\ row_color row = None /\ row_opens row = None /\
    mp_highlighted p = 0%N /\ mp_overlay p = true.
Proof.
  intros (x & I & N). pose proof (sort_spec data) as S. destruct (first_missing (sort_pulls data)) as [F|(b & mr & a & E & F & N')].
  - rewrite Forall_forall in F. destruct (F x); [|exact N]. destruct S as [P _]. exact (Permutation_in x P I).
  - rewrite E in S. exists b, mr, a. split; [exact S|]. split; [exact F|]. split; [exact N'|]. destruct (fill_stop show owner b mr a F N') as (rows & row & Fi & R).
    exists rows, row. unfold mr_answered. rewrite E, Fi. cbn. tauto.
Qed.

(** ** Addresses *)
Local Arguments String.prefix : simpl never.
Lemma prefix_app p s : String.prefix p (p ++ s) = true.
Proof. induction p as [|c p IH]; [now destruct s|]. cbn. unfold String.prefix. fold String.prefix. destruct (ascii_dec c c); [exact IH|contradiction]. Qed.
Lemma prefix_inv p : forall s, String.prefix p s = true -> exists r, s = p ++ r.
Proof.
  induction p as [|c p IH]; intros s H; [now exists s|]. destruct s as [|d s]; [discriminate H|]. unfold String.prefix in H. fold String.prefix in H.
  destruct (ascii_dec c d) as [->|]; [|discriminate]. apply IH in H as [r ->]. now exists r.
Qed.
Lemma skip_app p s : skip (String.length p) (p ++ s) = s.
Proof. induction p as [|c p IH]; [reflexivity|exact IH]. Qed.
Lemma skip_params name s t : no_params s -> param_raw name (s ++ t) = param_raw name t.
Proof.
  induction s as [|c s IH]; intros H; [reflexivity|]. cbn [append param_raw]. destruct (H c) as [A B]; [now left|].
  apply Ascii.eqb_neq in A, B. rewrite A, B. cbn [orb andb]. apply IH. intros d I. apply H. now right.
Qed.
Lemma until_app v r : only (fun c => c <> "&"%char /\ c <> "#"%char) v -> (r = "" \/ (exists r', r = String "&" r') \/ exists r', r = String "#" r') -> until_end (v ++ r) = v.
Proof.
  intros H R. induction v as [|c v IH].
  - destruct R as [->|[(r' & ->)|(r' & ->)]]; reflexivity.
  - cbn [append until_end]. destruct (H c) as [A B]; [now left|]. apply Ascii.eqb_neq in A, B. rewrite A, B. cbn [orb]. f_equal. apply IH. intros d I. apply H. now right.
Qed.
Definition form_safe (c : ascii) : Prop := c <> "&"%char /\ c <> "#"%char /\ c <> "?"%char /\ c <> "="%char.
Lemma form_char_safe c : only form_safe (form_char c).
Proof. unfold form_safe. destruct c as [[] [] [] [] [] [] [] []]; intros d I; vm_compute in I; repeat (destruct I as [<- | I]; [repeat split; discriminate|]); destruct I. Qed.
Lemma form_safe_all s : only form_safe (form_text s).
Proof. induction s as [|c s IH]; [intros d []|]. cbn [form_text]. apply WebP.only_app. split; [apply form_char_safe|exact IH]. Qed.
Lemma only_impl (P Q : ascii -> Prop) s : (forall c, P c -> Q c) -> only P s -> only Q s.
Proof. intros H O c I. apply H, O, I. Qed.
Lemma form_inj a b : form_text a = form_text b -> a = b.
Proof. intros H. rewrite <- (SiteP.form_text_dec a), <- (SiteP.form_text_dec b). now rewrite H. Qed.
Lemma eq_split a : forall b x y, without "=" a -> without "=" b -> a ++ String "=" x = b ++ String "=" y -> a = b.
Proof.
  induction a as [|c a IH]; intros [|d b] x y A B H; cbn in H.
  - reflexivity.
  - injection H as H1 H2. subst d. destruct B as [B _]. contradiction.
  - injection H as H1 H2. subst c. destruct A as [A _]. contradiction.
  - injection H as H1 H2. subst d. f_equal. eapply IH; [apply A|apply B|exact H2].
Qed.
Definition pair_text (p : string * string) : string := form_text (fst p) ++ "=" ++ form_text (snd p).
Definition ends (r : string) : Prop := r = "" \/ (exists r', r = String "&" r') \/ exists r', r = String "#" r'.
Lemma at_part name c p r : form_text name = name -> c = "?"%char \/ c = "&"%char -> ends r ->
  param_raw name (String c (pair_text p ++ r)) = if String.eqb (fst p) name then Some (form_text (snd p)) else param_raw name r.
Proof.
  intros Nm C R. cbn [param_raw]. replace (Ascii.eqb c "?" || Ascii.eqb c "&")%bool with true by (destruct C as [-> | ->]; reflexivity). cbn [andb].
  destruct (String.eqb_spec (fst p) name) as [E|E].
  - unfold pair_text. rewrite E, Nm. rewrite !LexP.app_assoc_s. change (name ++ "=" ++ form_text (snd p) ++ r) with (name ++ ("=" ++ (form_text (snd p) ++ r))).
    rewrite <- (LexP.app_assoc_s name "="). rewrite prefix_app, skip_app. f_equal. apply until_app; [|exact R]. eapply only_impl; [|apply form_safe_all]. intros d (A & B & _). auto.
  - destruct (String.prefix (name ++ "=") (pair_text p ++ r)) eqn:P.
    + exfalso. apply prefix_inv in P as [t P]. unfold pair_text in P. rewrite !LexP.app_assoc_s in P. cbn [append] in P.
      apply eq_split in P; [|apply SiteP.form_text_without|rewrite <- Nm; apply SiteP.form_text_without]. apply E. apply form_inj. now rewrite Nm.
    + unfold pair_text. rewrite !LexP.app_assoc_s. rewrite skip_params; [|eapply only_impl; [|apply form_safe_all]; intros d (A & _ & B & _); auto]. cbn [append param_raw].
      rewrite skip_params; [|eapply only_impl; [|apply form_safe_all]; intros d (A & _ & B & _); auto]. reflexivity.
Qed.
Lemma at_query name l : forall c r, form_text name = name -> c = "?"%char \/ c = "&"%char -> (r = "" \/ exists r', r = String "#" r') -> l <> [] ->
  param_raw name (String c (form_query l ++ r)) = match values_of name l with v :: _ => Some (form_text v) | [] => param_raw name r end.
Proof.
  induction l as [|p l IH]; intros c r Nm C R Ne; [contradiction|]. unfold form_query. cbn [map String.concat]. fold (pair_text p).
  assert (V : values_of name (p :: l) = if String.eqb (fst p) name then snd p :: values_of name l else values_of name l) by (unfold values_of; cbn [filter]; now destruct (String.eqb _ _)).
  destruct l as [|p' l].
  - cbn [map]. rewrite at_part; [|exact Nm|exact C|unfold ends; tauto]. rewrite V. now destruct (String.eqb _ _).
  - change (map (fun q => form_text (fst q) ++ "=" ++ form_text (snd q)) (p' :: l)) with (map pair_text (p' :: l)) in *. set (q := map pair_text (p' :: l)). replace (match q with [] => pair_text p | _ :: _ => pair_text p ++ "&" ++ String.concat "&" q end) with (pair_text p ++ String "&" (String.concat "&" q)) by reflexivity.
    rewrite LexP.app_assoc_s. cbn [append]. rewrite at_part; [|exact Nm|exact C|right; left; eexists; reflexivity]. rewrite V. destruct (String.eqb _ _); [reflexivity|].
    apply (IH "&"%char r); auto. discriminate.
Qed.
Lemma no_param name s : no_params s -> param_raw name s = None.
Proof. intros H. rewrite <- (TmplP.app_nil_s s). now rewrite skip_params. Qed.
(** Names *)
Lemma name_char_form c : In c name_chars -> form_char c = String c "" /\ c <> "%"%char /\ c <> ":"%char.
Proof. intros I. vm_compute in I. repeat (destruct I as [<- | I]; [vm_compute; repeat split; discriminate|]). destruct I. Qed.
Lemma name_form s : only (fun c => In c name_chars) s -> form_text s = s.
Proof. induction s as [|c s IH]; intros H; [reflexivity|]. cbn [form_text]. destruct (name_char_form c) as [-> _]; [apply H; now left|]. cbn. now rewrite IH by (intros d I; apply H; now right). Qed.
Lemma name_decode s : only (fun c => In c name_chars) s -> decode_uri s = Some s.
Proof.
  induction s as [|c s IH]; intros H; [reflexivity|]. cbn [decode_uri]. destruct (name_char_form c) as (_ & N & _); [apply H; now left|]. apply Ascii.eqb_neq in N. rewrite N.
  now rewrite IH by (intros d I; apply H; now right).
Qed.
Lemma name_colon s : only (fun c => In c name_chars) s -> without ":" s.
Proof. induction s as [|c s IH]; intros H; [exact I|]. split; [apply name_char_form, H; now left|apply IH; intros d J; apply H; now right]. Qed.
Lemma query_nonempty l : l <> [] -> form_query l <> "".
Proof. destruct l as [|p [|p' l]]; intros H E; [contradiction| |]; unfold form_query in E; cbn in E; destruct (form_text (fst p)); discriminate E. Qed.
Lemma fragment_end f : no_params f -> exists r, (if String.eqb f "" then "" else "#" ++ f) = r /\ (r = "" \/ exists r', r = String "#" r') /\ no_params r.
Proof.
  intros H. destruct (String.eqb_spec f "") as [->|N]; eexists; (split; [reflexivity|]).
  - split; [auto|intros c []].
  - split; [right; eexists; reflexivity|]. intros c [<- |I]; [split; discriminate|now apply H].
Qed.
Lemma raw_lemma base l frag name : form_text name = name -> no_params base -> no_params frag ->
  param_raw name (href {| u_base := base; u_query := form_query l; u_fragment := frag |}) = match values_of name l with v :: _ => Some (form_text v) | [] => None end.
Proof.
  intros Nm B F. unfold href. cbn [u_base u_query u_fragment]. rewrite skip_params by exact B. destruct (fragment_end frag F) as (r & -> & R & P).
  destruct l as [|p l]; [cbn; now apply no_param|]. assert (Q : form_query (p :: l) <> "") by (now apply query_nonempty). apply String.eqb_neq in Q. rewrite Q.
  change (("?" ++ form_query (p :: l)) ++ r) with (String "?" (form_query (p :: l) ++ r)). rewrite at_query; [|exact Nm|now left|exact R|discriminate].
  destruct (values_of name (p :: l)); [now apply no_param|reflexivity].
Qed.
Lemma param_lemma base l frag name d v : form_text name = name -> no_params base -> no_params frag -> param_is l name d v ->
  param (href {| u_base := base; u_query := form_query l; u_fragment := frag |}) name d = Some v.
Proof.
  intros Nm B F P. unfold param. rewrite raw_lemma by assumption. unfold param_is in P. destruct (values_of name l) as [|x xs]; [now rewrite P|].
  destruct P as [[-> ->]|[[Ne O] ->]]; [reflexivity|]. rewrite (name_form x O), (name_decode x O). now destruct x.
Qed.
Lemma listed_lemma base l frag o r : no_params base -> no_params frag -> param_is l "owner" "paritytech" o -> param_is l "repo" "polkadot-sdk" r ->
  listed {| u_base := base; u_query := form_query l; u_fragment := frag |} = Some (o, r).
Proof. intros B F O R. unfold listed. now rewrite (param_lemma base l frag "owner" "paritytech" o eq_refl B F O), (param_lemma base l frag "repo" "polkadot-sdk" r eq_refl B F R). Qed.
Lemma choice_lemma u o r : no_params (u_base u) -> no_params (u_fragment u) -> github_name o -> github_name r ->
  let u' := choose_repo u (o ++ ":" ++ r) in
  listed u' = Some (o, r) /\ u_base u' = u_base u /\
  exists l l', query (u_query u) l /\ query (u_query u') l' /\ values_of "owner" l' = [o] /\ values_of "repo" l' = [r] /\
    forall k, k <> "owner" -> k <> "repo" -> values_of k l' = values_of k l.
Proof.
  intros B F O R. cbv zeta. unfold choose_repo. replace (split_char ":" (o ++ ":" ++ r)) with [o; r] by (symmetry; exact (SiteP.mr_split {| sr_name := r; sr_path := []; sr_org := o |} (name_colon _ (proj2 O)) (name_colon _ (proj2 R)))).
  cbn [nth]. set (l := query_pairs (u_query u)). set (l' := set_param "repo" r (set_param "owner" o l)).
  assert (VO : values_of "owner" l' = [o]) by (unfold l'; now rewrite !SiteP.values_set). assert (VR : values_of "repo" l' = [r]) by (unfold l'; now rewrite !SiteP.values_set).
  split; [|split; [reflexivity|]].
  - apply listed_lemma; [exact B|exact F| |]; unfold param_is; [rewrite VO|rewrite VR]; now right.
  - exists l, l'. split; [now apply SiteP.query_iff|]. split; [apply SiteP.form_query_spec|]. split; [exact VO|]. split; [exact VR|].
    intros k K1 K2. unfold l'. rewrite !SiteP.values_set. apply not_eq_sym, String.eqb_neq in K1, K2. now rewrite K1, K2.
Qed.
Lemma open_lemma repo row base head fetched : row_opens row = Some (base, head) -> 
  only (fun c => ~ In c link_chars) base -> only (fun c => ~ In c link_chars) head ->
  (repo = "polkadot-sdk" -> exists q l, double_click repo row fetched =
     (["/branches?repo=" ++ repo ++ "&fetch=true"], if fetched then Some ("/compare?" ++ q) else None, negb fetched) /\
     query q l /\ describes l (root_args repo base head sdk_files)) /\
  (repo <> "polkadot-sdk" -> double_click repo row fetched = ([], None, true)).
Proof.
  intros O B H. unfold double_click. rewrite O. split; intros R.
  - destruct (proj2 (SiteP.mr_link_iff repo base head) R) as [q Q]. rewrite Q. destruct (SiteP.mr_click _ _ _ _ Q B H) as (_ & l & Ql & D). exists q, l. auto.
  - destruct (mr_link repo base head) as [q|] eqn:Q; [|reflexivity]. destruct R. apply (SiteP.mr_link_iff repo base head). eauto.
Qed.
