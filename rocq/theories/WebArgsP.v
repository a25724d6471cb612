(** Proofs about the arguments of the web server. *)
From Coq Require Import List String Ascii Arith NArith Bool Lia Permutation Sorted.
From Verif Require Import Base ScopeM TermM F64 CompareM RowsM FmtM SynM ParseM StorageM FilesM GitM CliM WebM SiteM ArgsM WebArgsM.
From Verif Require Import SpecFmt SpecFiles SpecSite SpecArgs SpecWebArgs ArgsP ArgsP2.
From Verif Require ArgsP4 SiteP DecP.
Import ListNotations.
Local Open Scope string_scope.
Local Arguments port_value : simpl never.

(** ** Ports *)
Lemma read_iff d n : (negb (String.eqb d "") && all_digits d)%bool = true /\ number 0 d = n <-> read_dec d = Some n.
Proof.
  split.
  - intros [H <-]. apply andb_prop in H as [A B]. unfold read_dec. rewrite (SiteP.digits_read _ 0%N B). apply negb_true_iff, String.eqb_neq in A. now destruct d.
  - intros R. assert (R' : read_digits 0 d = Some n /\ d <> "") by (unfold read_dec in R; destruct d; [discriminate|split; [exact R|discriminate]]). destruct R' as [R' E].
    pose proof (SiteP.read_all_digits _ _ _ R') as A. rewrite (SiteP.digits_read _ _ A) in R'. injection R' as <-. apply String.eqb_neq in E. now rewrite E, A.
Qed.
Lemma read_head c d n : read_dec (String c d) = Some n -> c <> "+"%char /\ c <> "-"%char.
Proof. unfold read_dec. cbn [read_digits]. intros H. split; intros ->; discriminate H. Qed.
Lemma port_read v n : port_value v = Some n <-> port_text v n.
Proof.
  unfold port_value, port_text.
  assert (K : forall (b : bool) d, (if negb (String.eqb d "") && all_digits d && (if b then number 0 d =? 0 else number 0 d <=? 65535)%N then Some (number 0 d) else None) = Some n <->
    read_dec d = Some n /\ if b then n = 0%N else (n < 2 ^ 16)%N).
  { intros b d. rewrite <- read_iff. destruct (negb (String.eqb d "") && all_digits d)%bool; [|split; [discriminate|intros [[H _] _]; discriminate H]]. cbn [andb].
    change (2 ^ 16)%N with 65536%N. destruct b.
    - destruct (N.eqb_spec (number 0 d) 0) as [E|E]; split.
      + intros [= <-]. auto.
      + intros [[_ ->] ->]. reflexivity.
      + discriminate.
      + intros [[_ <-] E']. congruence.
    - destruct (N.leb_spec (number 0 d) 65535) as [E|E]; split.
      + intros [= <-]. repeat split. lia.
      + now intros [[_ ->] _].
      + discriminate.
      + intros [[_ <-] E']. lia. }
  destruct v as [|c s].
  - pose proof (K false "") as K0. cbn iota in K0. rewrite K0. clear K0. split; [intros [R _]; discriminate R|]. intros (d & R & [[[E|E] _]|[E _]]); [subst d; discriminate R|discriminate E|discriminate E].
  - destruct (Ascii.eqb_spec c "+") as [->|N1]; [|destruct (Ascii.eqb_spec c "-") as [->|N2]].
    all: cbv beta iota zeta; first [rewrite (K true s)|rewrite (K false s)|rewrite (K false (String c s))]; split.
    + intros [R L]. exists s. split; [exact R|]. left. split; [now right|exact L].
    + intros (d & R & [[[E|E] L]|[E _]]); [subst d; apply read_head in R as [[] _]; reflexivity|injection E as ->; auto|discriminate E].
    + intros [R L]. exists s. split; [exact R|]. right. auto.
    + intros (d & R & [[[E|E] L]|[E Z]]); [subst d; apply read_head in R as [_ []]; reflexivity|discriminate E|injection E as ->; auto].
    + intros [R L]. exists (String c s). split; [exact R|]. left. auto.
    + intros (d & R & [[[E|E] L]|[E Z]]); [subst d; auto|injection E as -> _; now elim N1|injection E as -> _; now elim N2].
Qed.

(** ** Parts *)
Definition one {A} (read : string -> option A) (mk : A -> remark) (vs : list string) : option remark :=
  match vs with [v] => option_map mk (read v) | _ => None end.
Definition filled (s : string) : option string := if String.eqb s "" then None else Some s.
Definition wtable : list (string * (list string -> option remark)) :=
  [ ("root", one filled RRoot); ("static", one filled RStatic); ("repos", fun vs => Some (RRepos vs)); ("endpoint", one Some REndpoint);
    ("port", one port_value RPort); ("cert", one Some RCert); ("key", one Some RKey) ].
Definition wsay (id : string) (vs : list string) : option remark :=
  match find (fun p => String.eqb (fst p) id) wtable with Some p => snd p vs | None => None end.
Definition wsays (u : use) (r : remark) : Prop := match u with UOpt d vs => wsay (a_id d) vs = Some r | UPos _ => False end.

Ltac decls_tac I := cbn in I; repeat (destruct I as [<-|I]); [..|destruct I].
Lemma part_of a d vs : cpart server_decls a d vs \/ opart server_decls a d vs -> okuse (UOpt d vs) -> exists r, wsay (a_id d) vs = Some r /\ remark_part a r.
Proof.
  intros C (_ & V & Nh).
  assert (K : In d server_decls) by (destruct C as [C|C]; [eapply cpart_in|eapply opart_in]; exact C).
  assert (Val : forall v, vs = [v] -> forallb (a_value d) vs = true -> a_value d v = true) by (intros v -> H; cbn in H; now rewrite andb_true_r in H).
  assert (Fin : forall v, vs = [v] -> a_arity d = One -> a_value d v = true ->
    (forall n, In n (a_longs d) -> long_value n v a) \/ (exists c, a_short d = Some c /\ short_value c v a) -> exists r, wsay (a_id d) vs = Some r /\ remark_part a r).
  { intros v -> A Vv W. clear C V Val. decls_tac K; cbn in A, Vv, W; try discriminate A.
    1-2: unfold ArgsM.path_text in Vv; destruct (String.eqb v "") eqn:E; [discriminate Vv|]; eexists; (split; [cbn; unfold filled; rewrite E; reflexivity|]);
      constructor; [|now apply String.eqb_neq]; destruct W as [W|(c & [= <-] & W)]; [left; apply W; auto|right; exact W].
    - eexists. split; [reflexivity|]. constructor. destruct W as [W|(c & [= <-] & W)]; [left; apply W; auto|right; exact W].
    - destruct (port_value v) as [n|] eqn:E; [|discriminate Vv]. exists (RPort n). split; [cbn; now rewrite E|]. apply (rp_port v); [|now apply port_read].
      destruct W as [W|(c & [= <-] & W)]; [left; apply W; auto|right; exact W].
    - eexists. split; [reflexivity|]. constructor. destruct W as [W|(c & [=] & W)]. apply W; auto.
    - eexists. split; [reflexivity|]. constructor. destruct W as [W|(c & [=] & W)]. apply W; auto. }
  destruct C as [C|C].
  - destruct C as [n d P F A|c d N F A|n d v P F A N|n d v P F A|c d v N F A Nv|c d t v N F A T];
      first [apply find_long_in in F | apply find_short_in in F]; destruct F as [_ F].
    + decls_tac K; cbn in A; try discriminate A. elim Nh. reflexivity.
    + decls_tac K; cbn in A; try discriminate A. elim Nh. reflexivity.
    + apply (Fin v eq_refl A (Val v eq_refl V)). left. intros n' I'. assert (n' = n) as ->; [|now apply lv_next].
      clear -K A F I'. decls_tac K; cbn in A, F, I'; try discriminate A; intuition congruence.
    + destruct (a_arity d) eqn:Ar; [now elim A| |].
      * apply (Fin v eq_refl eq_refl (Val v eq_refl V)). left. intros n' I'. assert (n' = n) as ->; [|apply lv_eq].
        clear -K Ar F I'. decls_tac K; cbn in Ar, F, I'; try discriminate Ar; intuition congruence.
      * exists (RRepos [v]). clear Fin Val. decls_tac K; cbn in Ar, F; try discriminate Ar. destruct F as [<-|[]]. split; [reflexivity|]. apply rp_repo.
    + apply (Fin v eq_refl A (Val v eq_refl V)). right. exists c. split; [exact F|now apply sv_next].
    + assert (Ar : a_arity d = One) by (clear -K A F; decls_tac K; cbn in *; try reflexivity; try discriminate F; now elim A).
      apply (Fin v eq_refl Ar (Val v eq_refl V)). right. exists c. split; [exact F|].
      destruct t as [|b t]; [discriminate T|]. cbn in T. destruct (Ascii.eqb_spec b "=") as [->|Nb]; injection T as <-; [apply sv_eq|now eapply sv_attached].
  - destruct C as [n d vs P F A Fv|c d vs N F A Fv]; first [apply find_long_in in F | apply find_short_in in F]; destruct F as [_ F].
    + exists (RRepos vs). clear Fin Val. decls_tac K; cbn in A, F; try discriminate A. destruct F as [<-|[]]. split; [reflexivity|]. now apply rp_repos.
    + decls_tac K; cbn in A, F; try discriminate A; discriminate F.
Qed.
Lemma wv_found n c d v args : plainname n -> find_long server_decls n = Some d -> c <> dash -> find_short server_decls c = Some d -> a_arity d = One ->
  with_value n c v args -> cpart server_decls args d [v].
Proof.
  intros P F Nc Fc A [L|L].
  - destruct L as [N|]; [now apply c_next|]. apply c_eq; [apply P|exact F|rewrite A; discriminate].
  - destruct L as [N| |b v' -> N]; [now apply c_next_short| |].
    + apply c_attached; [exact Nc|exact Fc|rewrite A; discriminate|reflexivity].
    + apply c_attached; [exact Nc|exact Fc|rewrite A; discriminate|]. cbn. destruct (Ascii.eqb_spec b "="); [contradiction|reflexivity].
Qed.
Lemma lv_found n d v args : plainname n -> find_long server_decls n = Some d -> a_arity d = One -> long_value n v args -> cpart server_decls args d [v].
Proof. intros P F A [N|]; [now apply c_next|]. apply c_eq; [apply P|exact F|rewrite A; discriminate]. Qed.
Ltac plain := split; [discriminate|reflexivity].
Lemma of_part a r : remark_part a r -> exists d vs, (cpart server_decls a d vs \/ opart server_decls a d vs) /\ wsay (a_id d) vs = Some r /\ okuse (UOpt d vs).
Proof.
  intros C. destruct C as [v args W N|v args W N|v|vs F|v args W|v n args W P|v args L|v args L].
  - apply String.eqb_neq in N. eexists. exists [v]. split; [left; eapply (wv_found "root" "r"); [plain|reflexivity|discriminate|reflexivity|reflexivity|exact W]|].
    split; [cbn; unfold filled; now rewrite N|]. split; [eexists; reflexivity|]. split; [cbn; unfold ArgsM.path_text; now rewrite N|discriminate].
  - apply String.eqb_neq in N. eexists. exists [v]. split; [left; eapply (wv_found "static" "s"); [plain|reflexivity|discriminate|reflexivity|reflexivity|exact W]|].
    split; [cbn; unfold filled; now rewrite N|]. split; [eexists; reflexivity|]. split; [cbn; unfold ArgsM.path_text; now rewrite N|discriminate].
  - eexists. exists [v]. split; [left; apply (c_eq _ "repos"); [reflexivity|reflexivity|discriminate]|]. split; [reflexivity|]. repeat split. discriminate.
  - eexists. exists vs. split; [right; apply (o_long _ "repos"); [plain|reflexivity|reflexivity|exact F]|]. split; [reflexivity|]. repeat split; [|discriminate].
    clear. cbn. induction vs; [reflexivity|assumption].
  - eexists. exists [v]. split; [left; eapply (wv_found "endpoint" "e"); [plain|reflexivity|discriminate|reflexivity|reflexivity|exact W]|].
    split; [reflexivity|]. split; [eexists; reflexivity|]. split; [reflexivity|discriminate].
  - apply port_read in P. eexists. exists [v]. split; [left; eapply (wv_found "port" "p"); [plain|reflexivity|discriminate|reflexivity|reflexivity|exact W]|].
    split; [cbn; now rewrite P|]. split; [eexists; reflexivity|]. split; [cbn; now rewrite P|discriminate].
  - eexists. exists [v]. split; [left; eapply (lv_found "cert"); [plain|reflexivity|reflexivity|exact L]|]. split; [reflexivity|]. split; [eexists; reflexivity|]. split; [reflexivity|discriminate].
  - eexists. exists [v]. split; [left; eapply (lv_found "key"); [plain|reflexivity|reflexivity|exact L]|]. split; [reflexivity|]. split; [eexists; reflexivity|]. split; [reflexivity|discriminate].
Qed.

(** ** Lines *)
Lemma line_of o argv us : uline server_decls o argv us -> Forall okuse us -> poss us = [] -> exists rs, Forall2 wsays us rs /\ remarks argv rs.
Proof.
  induction 1 as [o|o a d vs rest us C _ IH|o a d vs rest us C U IH|v rest us N _ IH|o vs]; intros F P.
  - exists []. split; constructor.
  - inversion F as [|? ? O F']; subst. destruct (part_of _ _ _ (or_introl C) O) as (s & S & Cp). destruct (IH F' P) as (ss & S2 & L). exists (s :: ss). split; [now constructor|now apply rs_part].
  - inversion F as [|? ? O F']; subst. destruct (part_of _ _ _ (or_intror C) O) as (s & S & Cp). destruct (IH F' P) as (ss & S2 & L). exists (s :: ss). split; [now constructor|now apply rs_part].
  - discriminate P.
  - rewrite ArgsP4.poss_map in P. subst vs. exists []. split; constructor.
Qed.
Lemma of_line argv rs : remarks argv rs -> forall o, exists us, uline server_decls o argv us /\ Forall2 wsays us rs /\ Forall okuse us /\ poss us = [].
Proof.
  induction 1 as [| |a r rest rs C _ IH]; intros o.
  - exists []. repeat split; constructor.
  - exists []. split; [apply (ul_end _ o [])|]. repeat split; constructor.
  - destruct (of_part _ _ C) as (d & vs & [Cp|Cp] & Sd & O).
    + destruct (IH false) as (us & U & S & F & P). exists (UOpt d vs :: us). repeat split; [now apply ul_closed|now constructor|now constructor|exact P].
    + destruct (IH true) as (us & U & S & F & P). exists (UOpt d vs :: us). repeat split; [now apply ul_open|now constructor|now constructor|exact P].
Qed.
Lemma server_ids d d' : In d server_decls -> In d' server_decls -> a_id d = a_id d' -> d = d'.
Proof.
  intros H H' E. cbn in H, H'. repeat (destruct H as [<-|H]; [repeat (destruct H' as [<-|H']; [first [reflexivity|discriminate E]|]); destruct H'|]); destruct H.
Qed.
Lemma server_help d : In d server_decls -> a_id d = "help" -> a_arity d = Flag.
Proof. intros H E. cbn in H. repeat (destruct H as [<-|H]; [first [reflexivity|discriminate E]|]); destruct H. Qed.
Lemma scan_server argv seen pos :
  scan server_decls 0 argv [] None [] = Parsed (seen, pos) <->
  exists us rs, uline server_decls false argv us /\ remarks argv rs /\ Forall2 wsays us rs /\ Forall okuse us /\ seen = ents us /\ pos = [] /\ poss us = [] /\ ArgsP4.single us.
Proof.
  split.
  - intros E. destruct (scan_sound server_decls 0 server_help (S (List.length argv)) argv [] [] _ (Nat.lt_succ_diag_r _) E) as (us & U).
    rewrite (scan_complete _ _ server_help _ _ _ U) in E. apply (run_parsed server_decls) in E; [|exact server_ids|eapply ArgsP4.uline_in; exact U].
    destruct E as (-> & -> & F & Si & P). cbn [app] in *.
    assert (Z : poss us = []) by (destruct P as [P|P]; [exact P|]; destruct (poss us); [reflexivity|cbn in P; lia]).
    destruct (line_of false argv us U F Z) as (rs & S & L). exists us, rs. repeat split; auto.
  - intros (us & rs & U & L & S & F & -> & -> & P & Si). rewrite (scan_complete _ _ server_help _ _ _ U).
    apply (run_parsed server_decls); [exact server_ids|eapply ArgsP4.uline_in; exact U|]. rewrite P. repeat split; auto.
Qed.

(** ** Fields *)
Definition ent (id : string) (seen : seen_args) : list (list string) := map snd (filter (fun p => String.eqb (fst p) id) seen).
Lemma ent_cons id d vs us : ent id (ents (UOpt d vs :: us)) = if String.eqb (a_id d) id then vs :: ent id (ents us) else ent id (ents us).
Proof. unfold ent, ents. cbn. destruct (String.eqb (a_id d) id); reflexivity. Qed.
Lemma ent_values id seen : values seen id = List.concat (ent id seen).
Proof. unfold values, ent. induction seen as [|[i vs] seen IH]; [reflexivity|]. cbn. destruct (String.eqb i id); cbn; now rewrite IH. Qed.
Lemma ent_given id seen : ArgsM.given seen id = match ent id seen with [] => false | _ => true end.
Proof. unfold ArgsM.given, ent. induction seen as [|[i vs] seen IH]; [reflexivity|]. cbn. destruct (String.eqb i id); [reflexivity|exact IH]. Qed.
Lemma ent_cnt id seen : cnt id seen = List.length (ent id seen).
Proof. unfold cnt, ent. now rewrite map_length. Qed.
Lemma wsay_inv id vs r : wsay id vs = Some r ->
  match r with
  | RRoot s => id = "root" /\ vs = [s] | RStatic s => id = "static" /\ vs = [s] | RRepos l => id = "repos" /\ vs = l | REndpoint s => id = "endpoint" /\ vs = [s]
  | RPort n => id = "port" /\ exists v, vs = [v] /\ port_value v = Some n | RCert s => id = "cert" /\ vs = [s] | RKey s => id = "key" /\ vs = [s]
  end.
Proof.
  unfold wsay, wtable. cbn [find fst].
  repeat match goal with |- context[String.eqb ?x id] => destruct (String.eqb_spec x id) as [<-|_]; [cbn [snd]; unfold one, filled; intros H|] end; [..|discriminate].
  1,2: destruct vs as [|v [|]]; try discriminate H; destruct (String.eqb v ""); try discriminate H; injection H as <-; auto.
  - injection H as <-. auto.
  - destruct vs as [|v [|]]; try discriminate H. injection H as <-. auto.
  - destruct vs as [|v [|]]; try discriminate H. destruct (port_value v) as [n|] eqn:E; [|discriminate H]. injection H as <-. eauto.
  - destruct vs as [|v [|]]; try discriminate H. injection H as <-. auto.
  - destruct vs as [|v [|]]; try discriminate H. injection H as <-. auto.
Qed.
Definition single_list (s : string) : list string := [s].
Lemma fields us rs : Forall2 wsays us rs ->
  ent "root" (ents us) = map single_list (remarked r_root rs) /\ ent "static" (ents us) = map single_list (remarked r_static rs) /\
  ent "repos" (ents us) = remarked r_repos rs /\ ent "endpoint" (ents us) = map single_list (remarked r_endpoint rs) /\
  Forall2 (fun vs n => exists v, vs = [v] /\ port_value v = Some n) (ent "port" (ents us)) (remarked r_port rs) /\
  ent "cert" (ents us) = map single_list (remarked r_cert rs) /\ ent "key" (ents us) = map single_list (remarked r_key rs).
Proof.
  induction 1 as [|u r us rs S _ IH]; [repeat split; constructor|]. destruct u as [d vs|v]; [|destruct S]. cbn in S. apply wsay_inv in S.
  destruct IH as (I1 & I2 & I3 & I4 & I5 & I6 & I7).
  rewrite !ent_cons. destruct r; destruct S as [-> S]; cbn [String.eqb Ascii.eqb Bool.eqb]; unfold remarked; cbn [flat_map r_root r_static r_repos r_endpoint r_port r_cert r_key app map];
    fold (remarked r_root rs); fold (remarked r_static rs); fold (remarked r_repos rs); fold (remarked r_endpoint rs); fold (remarked r_port rs); fold (remarked r_cert rs); fold (remarked r_key rs);
    rewrite ?I1, ?I2, ?I3, ?I4, ?I6, ?I7; try (rewrite S); repeat split; try assumption. now constructor.
Qed.
Lemma or_default_iff (l : list string) d a : or_default l d a <-> List.length l <= 1 /\ match List.concat (map single_list l) with v :: _ => v | [] => d end = a.
Proof.
  unfold or_default. destruct l as [|x [|y l]]; cbn.
  - split; [intros [H|[_ ->]]; [discriminate H|auto]|intros [_ <-]; auto].
  - split; [intros [[= <-]|[H _]]; [auto|discriminate H]|intros [_ <-]; auto].
  - split; [intros [H|[H _]]; discriminate H|intros [H _]; lia].
Qed.
Lemma at_most_iff (l : list string) o : at_most l o <-> List.length l <= 1 /\ match List.concat (map single_list l) with v :: _ => Some v | [] => None end = o.
Proof.
  unfold at_most. destruct l as [|x [|y l]]; cbn.
  - split; [destruct o; [discriminate|auto]|intros [_ <-]; reflexivity].
  - split; [destruct o; [intros [= <-]; auto|discriminate]|intros [_ <-]; reflexivity].
  - split; [destruct o; discriminate|intros [H _]; lia].
Qed.
Lemma single_ids us : Forall (inuse server_decls) us -> Forall okuse us ->
  ArgsP4.single us <-> cnt "root" (ents us) <= 1 /\ cnt "static" (ents us) <= 1 /\ cnt "endpoint" (ents us) <= 1 /\ cnt "port" (ents us) <= 1 /\ cnt "cert" (ents us) <= 1 /\ cnt "key" (ents us) <= 1.
Proof.
  intros D F. assert (K : ArgsP4.single us <-> forall d, In d server_decls -> a_arity d <> Many -> a_id d <> "help" -> cnt (a_id d) (ents us) <= 1).
  { split.
    - intros H d I A _. destruct (cnt_ents d us) as [Z|(d' & vs & I' & E)]; [rewrite Z; lia|].
      assert (d' = d) as -> by (apply server_ids; [exact (proj1 (Forall_forall _ _) D _ I')|exact I|exact E]). exact (H d vs I' A).
    - intros H d vs I A. apply H; [exact (proj1 (Forall_forall _ _) D _ I)|exact A|]. pose proof (proj1 (Forall_forall _ _) F _ I) as O. apply O. }
  rewrite K. split.
  - intros H. repeat split; match goal with |- cnt ?s _ <= 1 => let d := eval cbn in (find (fun d => String.eqb (a_id d) s) server_decls) in match d with Some ?x => apply (H x) end end;
      first [discriminate | cbn; intuition reflexivity].
  - intros (C1 & C2 & C3 & C4 & C5 & C6) d I A N. cbn in I. repeat (destruct I as [<-|I]; [first [assumption | now elim A | now elim N]|]); destruct I.
Qed.
Definition says_all (rs : list remark) (c : server_args) : Prop :=
     or_default (remarked r_root rs) "root/" (sa_root c) /\ or_default (remarked r_static rs) "web/static" (sa_static c) /\
     sa_repos c = (match remarked r_repos rs with [] => ["polkadot"] | l => List.concat l end) /\
     or_default (remarked r_endpoint rs) "127.0.0.1" (sa_endpoint c) /\ or_default (remarked r_port rs) 8080%N (sa_port c) /\
     at_most (remarked r_cert rs) (sa_cert c) /\ at_most (remarked r_key rs) (sa_key c) /\ (sa_cert c = None <-> sa_key c = None).
Lemma main_fields argv us rs c : uline server_decls false argv us -> Forall2 wsays us rs -> Forall okuse us ->
  server_args_of (ents us) = Some c /\ ArgsP4.single us <-> says_all rs c.
Proof.
    intros U S F. unfold says_all. rewrite (single_ids us (ArgsP4.uline_in _ _ _ _ U) F), !ent_cnt. destruct (fields _ _ S) as (I1 & I2 & I3 & I4 & I5 & I6 & I7).
    rewrite !or_default_iff, !at_most_iff. unfold server_args_of, text_or, text_of, value_of. rewrite !ent_given, !ent_values, I1, I2, I3, I4, I6, I7, !map_length.
    assert (P : List.length (ent "port" (ents us)) <= 1 /\ match List.concat (ent "port" (ents us)) with v :: _ => port_value v | [] => port_value "8080" end = Some (sa_port c) <->
      or_default (remarked r_port rs) 8080%N (sa_port c)).
    { clear -I5. unfold or_default. destruct I5 as [|vs n l l' (v & -> & E) [|vs' n' m m' (v' & -> & E') _]]; cbn.
      - split; [intros [_ [= <-]]; auto|intros [H|[_ ->]]; [discriminate H|auto]].
      - rewrite E. split; [intros [_ [= <-]]; auto|intros [[= <-]|[H _]]; [auto|discriminate H]].
      - split; [intros [H _]; lia|intros [H|[H _]]; discriminate H]. }
    rewrite <- P. clear P I1 I2 I3 I4 I5 I6 I7 F S U.
    destruct (remarked r_cert rs) as [|ce lc]; destruct (remarked r_key rs) as [|ke lk]; cbn [map Bool.eqb single_list List.concat app List.length];
      set (pv := match List.concat (ent "port" (ents us)) with v :: _ => port_value v | [] => port_value "8080" end); clearbody pv.
    2: { split; [intros [H _]; discriminate H|]. intros (_ & _ & _ & _ & _ & (_ & H1) & (_ & H2) & H). exfalso. rewrite <- H1, <- H2 in H. destruct H as [H _]. specialize (H eq_refl). discriminate H. }
    2: { split; [intros [H _]; discriminate H|]. intros (_ & _ & _ & _ & _ & (_ & H1) & (_ & H2) & H). exfalso. rewrite <- H1, <- H2 in H. destruct H as [_ H]. specialize (H eq_refl). discriminate H. }
    all: split; [intros [H (L1 & L2 & L3 & L4 & L5 & L6)]; destruct pv as [p|]; [|discriminate H]; apply SiteP.some_inj in H; subst c; cbn [sa_root sa_static sa_repos sa_endpoint sa_port sa_cert sa_key];
        repeat split; try assumption; try congruence;
          first [destruct (remarked r_repos rs); reflexivity|match goal with |- context[List.concat (map single_list ?l)] => destruct (List.concat (map single_list l)); reflexivity end]
      | intros ((L1 & E1) & (L2 & E2) & E3 & (L3 & E4) & (L4 & E5) & (L5 & E6) & (L6 & E7) & _); rewrite E5; destruct c as [c1 c2 c3 c4 c5 c6 c7];
        cbn [sa_root sa_static sa_repos sa_endpoint sa_port sa_cert sa_key] in *; subst; split; [|tauto];
        destruct (List.concat (map single_list (remarked r_root rs))), (List.concat (map single_list (remarked r_static rs))), (List.concat (map single_list (remarked r_endpoint rs))), (remarked r_repos rs); reflexivity ].
Qed.
Lemma given_line argv rs c : remarks argv rs -> read_server_args argv = Parsed c <-> says_all rs c.
Proof.
  intros L. destruct (of_line _ _ L false) as (us & U & S & F & P). rewrite <- (main_fields argv us rs c U S F). unfold read_server_args. split.
  - destruct (scan server_decls 0 argv [] None []) as [[seen pos]| |] eqn:E; try discriminate. cbn [pbind].
    rewrite (scan_complete _ _ server_help _ _ _ U) in E. apply (run_parsed server_decls) in E; [|exact server_ids|eapply ArgsP4.uline_in; exact U].
    destruct E as (-> & -> & _ & Si & _). cbn [app] in *. destruct (server_args_of (ents us)) as [c'|]; [|discriminate]. intros Q. injection Q as ->. auto.
  - intros [A Si]. assert (E : scan server_decls 0 argv [] None [] = Parsed (ents us, [])) by (apply scan_server; exists us, rs; auto 10).
    rewrite E. cbn [pbind]. now rewrite A.
Qed.
Lemma args_lemma argv c : read_server_args argv = Parsed c <-> server_means argv c.
Proof.
  split.
  - intros R. pose proof R as R'. unfold read_server_args in R. destruct (scan server_decls 0 argv [] None []) as [[seen pos]| |] eqn:E; try discriminate.
    apply scan_server in E as (us & rs & _ & L & _). exists rs. split; [exact L|]. now apply (given_line argv rs c L).
  - intros (rs & L & H). now apply (given_line argv rs).
Qed.
(** ** Order *)
Lemma remarked_perm {A} (f : remark -> option A) rs rs' : Permutation rs rs' -> Permutation (remarked f rs) (remarked f rs').
Proof. intros P. unfold remarked. now apply Permutation_flat_map. Qed.
Lemma perm_one {A} (l l' : list A) : Permutation l l' -> List.length l <= 1 -> l' = l.
Proof. intros P L. destruct l as [|x [|y l]]; [now apply Permutation_nil in P|now apply Permutation_length_1_inv in P|cbn in L; lia]. Qed.
Lemma or_default_perm {A} (l l' : list A) d a : Permutation l l' -> or_default l d a -> or_default l' d a.
Proof. intros P O. assert (L : List.length l <= 1) by (destruct O as [->|[-> _]]; cbn; lia). now rewrite (perm_one _ _ P L). Qed.
Lemma at_most_perm {A} (l l' : list A) o : Permutation l l' -> at_most l o -> at_most l' o.
Proof. intros P O. assert (L : List.length l <= 1) by (rewrite O; destruct o; cbn; lia). now rewrite (perm_one _ _ P L). Qed.
Lemma parts_remarks (parts : list (list string * remark)) : Forall (fun p => remark_part (fst p) (snd p)) parts -> remarks (List.concat (map fst parts)) (map snd parts).
Proof. induction 1 as [|p parts H _ IH]; [constructor|]. cbn. now apply rs_part. Qed.
Lemma order_lemma parts parts' c : Permutation parts parts' -> Forall (fun p => remark_part (fst p) (snd p)) parts ->
  remarked r_repos (map snd parts) = remarked r_repos (map snd parts') ->
  read_server_args (List.concat (map fst parts)) = Parsed c -> read_server_args (List.concat (map fst parts')) = Parsed c.
Proof.
  intros P F E R. assert (F' : Forall (fun p => remark_part (fst p) (snd p)) parts') by (now rewrite <- P).
  apply (given_line _ _ c (parts_remarks _ F)) in R. apply (given_line _ _ c (parts_remarks _ F')).
  pose proof (Permutation_map snd P) as Q. destruct R as (H1 & H2 & H3 & H4 & H5 & H6 & H7 & H8). unfold says_all. rewrite <- E.
  split; [now apply (or_default_perm _ _ _ _ (remarked_perm r_root _ _ Q))|]. split; [now apply (or_default_perm _ _ _ _ (remarked_perm r_static _ _ Q))|]. split; [exact H3|].
  split; [now apply (or_default_perm _ _ _ _ (remarked_perm r_endpoint _ _ Q))|]. split; [now apply (or_default_perm _ _ _ _ (remarked_perm r_port _ _ Q))|].
  split; [now apply (at_most_perm _ _ _ (remarked_perm r_cert _ _ Q))|]. split; [now apply (at_most_perm _ _ _ (remarked_perm r_key _ _ Q))|exact H8].
Qed.
(** ** The start *)
Lemma main_ok remote exists_ is_dir argv sv : web_main remote exists_ is_dir argv = Parsed (Ok sv) <->
  exists c, server_means argv c /\ sv_address sv = sa_endpoint c ++ ":" ++ dec_of_N (sa_port c) /\
    (forall ce ke, sv_tls sv = Some (ce, ke) <-> sa_cert c = Some ce /\ sa_key c = Some ke) /\
    start remote exists_ is_dir (path_of (sa_root c)) (sa_static c) (sa_repos c) = Ok (sv_repos sv).
Proof.
  unfold web_main. split.
  - destruct (read_server_args argv) as [c| |] eqn:R; cbn [pbind]; try discriminate. apply args_lemma in R. intros H. injection H as H.
    destruct (start _ _ _ _ _ _) as [repos| | |] eqn:St; cbn [bind] in H; try discriminate. exists c. split; [exact R|].
    destruct R as (rs & _ & _ & _ & _ & _ & _ & _ & _ & B). destruct (sa_cert c) as [ce|], (sa_key c) as [ke|]; try discriminate H; injection H as <-; cbn [sv_address sv_tls sv_repos];
      (split; [reflexivity|]); (split; [|exact St]).
    + intros ce' ke'. split; [intros [= <- <-]; auto|intros [[= <-] [= <-]]; reflexivity].
    + destruct B as [B _]. specialize (B eq_refl). discriminate B.
    + intros ce' ke'. split; [discriminate|intros [H _]; discriminate H].
  - intros (c & R & A & T & St). pose proof R as B. destruct B as (rs & _ & _ & _ & _ & _ & _ & _ & _ & B). apply args_lemma in R. rewrite R. cbn [pbind]. rewrite St. cbn [bind].
    do 2 f_equal. destruct sv as [repos addr tls]. cbn [sv_address sv_tls sv_repos] in *. subst addr. destruct (sa_cert c) as [ce|], (sa_key c) as [ke|].
    + do 2 f_equal. symmetry. now apply T.
    + destruct B as [_ B]. specialize (B eq_refl). discriminate B.
    + destruct B as [B _]. specialize (B eq_refl). discriminate B.
    + do 2 f_equal. destruct tls as [[ce ke]|]; [|reflexivity]. destruct (T ce ke) as [T' _]. destruct (T' eq_refl) as [H _]. discriminate H.
Qed.
Lemma main_panic remote exists_ is_dir argv w : web_main remote exists_ is_dir argv <> Parsed (Panic w).
Proof.
  unfold web_main. destruct (read_server_args argv) as [c| |] eqn:R; cbn [pbind]; try discriminate. apply args_lemma in R. intros H. injection H as H.
  destruct (SiteP.start_err remote exists_ is_dir (path_of (sa_root c)) (sa_static c) (sa_repos c)) as [[repos E]|(e & E & _)]; rewrite E in H; cbn [bind] in H; [|discriminate].
  destruct R as (rs & _ & _ & _ & _ & _ & _ & _ & _ & B). destruct (sa_cert c) as [ce|], (sa_key c) as [ke|]; try discriminate H. destruct B as [_ B]. specialize (B eq_refl). discriminate B.
Qed.
Lemma main_serves remote exists_ is_dir argv sv : web_main remote exists_ is_dir argv = Parsed (Ok sv) <->
  exists c, server_means argv c /\ sv_address sv = sa_endpoint c ++ ":" ++ dec_of_N (sa_port c) /\
    (forall ce ke, sv_tls sv = Some (ce, ke) <-> sa_cert c = Some ce /\ sa_key c = Some ke) /\
    sa_repos c <> [] /\ is_dir (path_of (sa_static c)) = true /\
    (forall n, In n (sa_repos c) -> exists_ (join (path_of (sa_root c)) n) = true /\ exists o, has_org remote (join (path_of (sa_root c)) n) o) /\
    StronglySorted (fun a b => str_cmp a b = Lt) (map fst (sv_repos sv)) /\
    forall n r, In (n, r) (sv_repos sv) <->
      In n (sa_repos c) /\ sr_name r = n /\ sr_path r = join (path_of (sa_root c)) n /\ has_org remote (join (path_of (sa_root c)) n) (sr_org r).
Proof.
  rewrite main_ok. split; intros (c & R & A & T & St); exists c; (split; [exact R|]; split; [exact A|]; split; [exact T|]); now apply SiteP.start_lemma.
Qed.
Lemma main_fails remote exists_ is_dir argv e : web_main remote exists_ is_dir argv = Parsed (Err e) <->
  exists c, server_means argv c /\ start remote exists_ is_dir (path_of (sa_root c)) (sa_static c) (sa_repos c) = Err e.
Proof.
  unfold web_main. split.
  - destruct (read_server_args argv) as [c| |] eqn:R; cbn [pbind]; try discriminate. apply args_lemma in R. intros H. injection H as H. exists c. split; [exact R|].
    destruct (start _ _ _ _ _ _) as [repos| | |] eqn:St; cbn [bind] in H; try discriminate; [|now injection H as ->]. destruct (sa_cert c), (sa_key c); discriminate H.
  - intros (c & R & St). apply args_lemma in R. rewrite R. cbn [pbind]. now rewrite St.
Qed.
Lemma none_lemma remote exists_ is_dir argv c : server_means argv c -> sa_repos c = [] ->
  web_main remote exists_ is_dir argv = Parsed (Err "Need at least one value to --repos").
Proof. intros M E. apply main_fails. exists c. split; [exact M|]. now rewrite E. Qed.
(** Where the value of [--repos] ends *)
Lemma names_lemma vs rest rs c : Forall (fun v => ~ dashed v) vs -> remarks rest rs -> remarked r_repos rs = [] ->
  read_server_args ("--repos" :: vs ++ rest)%list = Parsed c -> sa_repos c = vs.
Proof.
  intros F L N R. pose proof (rs_part _ _ _ _ (rp_repos vs F) L) as L'. cbn [app] in L'. apply (given_line _ _ c L') in R.
  destruct R as (_ & _ & R & _). cbn [remarked flat_map r_repos app] in R. unfold remarked in N. rewrite N in R. cbn in R. now rewrite app_nil_r in R.
Qed.
