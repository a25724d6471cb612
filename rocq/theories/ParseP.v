(** Proofs about the parser of weight functions. *)
From Coq Require Import List String Ascii NArith ZArith Bool Lia.
From Verif Require Import Base ScopeM TermM SpecTerm TermP SpecChrom ChromP CompareM SpecFmt DecP SynM AttrM ParseM SpecParse StrP.
Import ListNotations.
Local Open Scope string_scope.
Local Open Scope N_scope.

(** ** Induction on expressions *)
Section ExprInd.
  Variable P : expr -> Prop.
  Hypothesis HParen : forall e, P e -> P (EParen e).
  Hypothesis HCast : forall e, P e -> P (ECast e).
  Hypothesis HMethod : forall r m args tr, P r -> Forall P args -> P (EMethodCall r m args tr).
  Hypothesis HLit : forall l, P (ELit l).
  Hypothesis HPath : forall p, P (EPath p).
  Hypothesis HCall : forall f args tr, P f -> Forall P args -> P (ECall f args tr).
  Hypothesis HBinary : forall o l r, P l -> P r -> P (EBinary o l r).
  Hypothesis HStruct : forall p fs, Forall (fun f => P (snd f)) fs -> P (EStruct p fs).
  Hypothesis HOther : P EOther.
  Fixpoint expr_ind' (e : expr) : P e :=
    let all := fix all (l : list expr) : Forall P l :=
      match l with [] => Forall_nil P | a :: l' => Forall_cons a (expr_ind' a) (all l') end in
    match e with
    | EParen e => HParen e (expr_ind' e)
    | ECast e => HCast e (expr_ind' e)
    | EMethodCall r m args tr => HMethod r m args tr (expr_ind' r) (all args)
    | ELit l => HLit l
    | EPath p => HPath p
    | ECall f args tr => HCall f args tr (expr_ind' f) (all args)
    | EBinary o l r => HBinary o l r (expr_ind' l) (expr_ind' r)
    | EStruct p fs => HStruct p fs ((fix all2 (l : list (option string * expr)) : Forall (fun f => P (snd f)) l :=
        match l with [] => Forall_nil _ | a :: l' => Forall_cons a (expr_ind' (snd a)) (all2 l') end) fs)
    | EOther => HOther
    end.
End ExprInd.

(** Inversion of a successful computation. *)
Ltac inv_ok := repeat match goal with
  | H : bind _ _ = Ok _ |- _ => apply bind_ok in H; destruct H as (? & ? & H)
  | H : Ok _ = Ok _ |- _ => injection H as H
  | H : Err _ = Ok _ |- _ => discriminate H
  | H : Panic _ = Ok _ |- _ => discriminate H
  end.

(** ** Functions of [Weight] *)
Lemma weight_fn_of_spec func f : weight_fn_of func = Some f <-> weight_fn func f.
Proof.
  unfold weight_fn_of, weight_fn. split.
  - destruct func; try discriminate. destruct (rev (segments p)) as [|f' [|w l]] eqn:E; try discriminate.
    destruct (String.eqb_spec w "Weight"); [|discriminate]. intros [= ->]. subst.
    exists p, (rev l). split; [reflexivity|]. rewrite <- (rev_involutive (segments p)), E. cbn. now rewrite <- app_assoc.
  - intros (p & pre & -> & E). rewrite E, rev_app_distr. reflexivity.
Qed.
Lemma weight_fn_name func f : weight_fn func f -> exists x, function_name func = Ok (x ++ "::" ++ f).
Proof.
  intros (p & pre & -> & E). cbn. unfold path_to_string. rewrite E.
  destruct (concat_last2 "::" pre "Weight" f) as (x & ->). exists (x ++ "Weight"). now rewrite !app_str_assoc.
Qed.
Lemma weight_fn_unique func f g : weight_fn func f -> weight_fn func g -> f = g.
Proof. intros H K. apply weight_fn_of_spec in H, K. congruence. Qed.

(** The branches of [parse_call] and [parse_scalar_call]. *)
Lemma scalar_call func args tr t f : weight_fn func f -> parse_scalar_expression (ECall func args tr) = Ok t ->
  (f = "from_ref_time" -> exists a, args = [a] /\ parse_scalar_expression a = Ok t) /\
  (f = "zero" -> t = Value 0) /\
  (f = "from_proof_size" \/ f = "from_parts" -> False).
Proof.
  intros W E. destruct (weight_fn_name _ _ W) as (x & N). cbn [parse_scalar_expression] in E. rewrite N in E. cbn [bind] in E.
  repeat split.
  - intros ->. rewrite ends_with_app in E. destruct args as [|a [|]]; try discriminate E. eauto.
  - intros ->. rewrite (ends_with_other x ("::" ++ "zero")) in E by reflexivity. rewrite ends_with_app in E.
    destruct (negb _); inv_ok. congruence.
  - intros [-> | ->].
    + rewrite !(ends_with_other x ("::" ++ "from_proof_size")) in E by reflexivity. discriminate.
    + rewrite !(ends_with_other x ("::" ++ "from_parts")) in E by reflexivity. discriminate.
Qed.
Lemma chrom_call func args tr t f : weight_fn func f -> parse_call func args tr = Ok t ->
  (f = "from_ref_time" -> exists a s, args = [a] /\ parse_scalar_expression a = Ok s /\ t = into_chromatic Time s) /\
  (f = "from_proof_size" -> exists a s, args = [a] /\ parse_scalar_expression a = Ok s /\ t = into_chromatic Proof_size s) /\
  (f = "from_parts" -> exists a b s s', args = [a; b] /\ parse_scalar_expression a = Ok s /\ parse_scalar_expression b = Ok s' /\
      t = splice_add (into_chromatic Time s) (into_chromatic Proof_size s')) /\
  (f = "zero" -> t = Value {| time := 0; proof := 0 |}).
Proof.
  intros W E. destruct (weight_fn_name _ _ W) as (x & N). unfold parse_call in E. rewrite N in E. cbn [bind] in E.
  repeat split.
  - intros ->. rewrite ends_with_app in E. unfold parse_ref_time_args, extract_arg in E. destruct args as [|a [|]]; inv_ok. subst. eauto.
  - intros ->. rewrite !(ends_with_other x ("::" ++ "from_proof_size") "::from_ref_time") in E by reflexivity. rewrite ends_with_app in E.
    unfold parse_proof_size_args, extract_arg in E. destruct args as [|a [|]]; inv_ok. subst. eauto.
  - intros ->. rewrite !(ends_with_other x ("::" ++ "from_parts") "::from_ref_time") in E by reflexivity.
    rewrite !(ends_with_other x ("::" ++ "from_parts") "::from_proof_size") in E by reflexivity. rewrite ends_with_app in E.
    unfold parse_parts_args in E. destruct args as [|a [|b [|]]]; inv_ok. subst. eauto 10.
  - intros ->. rewrite !(ends_with_other x ("::" ++ "zero") "::from_ref_time") in E by reflexivity.
    rewrite !(ends_with_other x ("::" ++ "zero") "::from_proof_size") in E by reflexivity.
    rewrite !(ends_with_other x ("::" ++ "zero") "::from_parts") in E by reflexivity. rewrite ends_with_app in E.
    destruct (negb _); inv_ok. congruence.
Qed.

(** ** C33: values *)
Definition time_of (v : value) : N := match v with VNum n => n | VWeight t _ => t end.

Lemma with_rw_read rho rd wr : with_rw rho rd wr "READ" = rd.
Proof. reflexivity. Qed.
Lemma with_rw_write rho rd wr : with_rw rho rd wr "WRITE" = wr.
Proof. reflexivity. Qed.
Lemma with_rw_other rho rd wr x : (String.eqb x "READ" || String.eqb x "WRITE")%bool = false -> with_rw rho rd wr x = rho x.
Proof. intros H. apply orb_false_iff in H. unfold with_rw. destruct H as [-> ->]. reflexivity. Qed.

Lemma val2_some f a b v : val2 f a b = Some v -> exists x y, a = Some x /\ b = Some y /\ f x y = Some v.
Proof. destruct a, b; cbn; try discriminate. eauto. Qed.
Lemma val_add_time x y v : val_add x y = Some v -> time_of v = time_of x + time_of y.
Proof. destruct x, y; cbn; intros [= <-]; reflexivity. Qed.
Lemma val_mul_time x y v : val_mul x y = Some v -> time_of v = time_of x * time_of y.
Proof. destruct x, y; cbn; intros [= <-]; reflexivity. Qed.
Lemma val_db_some v1 c a v : val_db v1 c a = Some v -> exists n, a = Some (VNum n) /\ v = if v1 then VNum (n * c) else VWeight (n * c) 0.
Proof. unfold val_db. destruct a as [[n|]|]; try discriminate. intros [= <-]. eauto. Qed.

(** Case analysis on a method name. *)
Lemma eqb_subst (m s : string) : String.eqb m s = true -> m = s.
Proof. apply String.eqb_eq. Qed.

Lemma scalar_val v1 rho rd wr e : forall t v, parse_scalar_expression e = Ok t -> val v1 rho rd wr e = Some v ->
  poly_val (with_rw rho rd wr) t = time_of v.
Proof.
  induction e as [e IH|e IH|r m args tr IHr IHa|l|p|func args tr IHf IHa|o l r IHl IHr|p fs IH|] using expr_ind'; intros t v E V; try discriminate E.
  - eauto.
  - eauto.
  - cbn [val] in V. destruct args as [|a [|b args]]; [| |discriminate V].
    + destruct (String.eqb m "into") eqn:M1.
      { apply eqb_subst in M1. subst m. cbn in E. eauto. }
      destruct (String.eqb m "ref_time") eqn:M2; [|discriminate V].
      apply eqb_subst in M2. subst m. cbn in E. destruct (val v1 rho rd wr r) as [[n|ti pr]|] eqn:Vr; try discriminate V.
      injection V as <-. rewrite (IHr _ _ E eq_refl). reflexivity.
    + inversion IHa as [|? ? IHa' _]; subst.
      destruct (String.eqb m "saturating_add") eqn:M1.
      { apply eqb_subst in M1. subst m. cbn in E. inv_ok. subst t. apply val2_some in V. destruct V as (vx & vy & Vx & Vy & V).
        pv. rewrite (IHr _ _ H Vx), (IHa' _ _ H0 Vy). symmetry. now apply val_add_time. }
      destruct (String.eqb m "saturating_mul") eqn:M2.
      { apply eqb_subst in M2. subst m. cbn in E. inv_ok. subst t. apply val2_some in V. destruct V as (vx & vy & Vx & Vy & V).
        pv. rewrite (IHr _ _ H Vx), (IHa' _ _ H0 Vy). symmetry. now apply val_mul_time. }
      destruct (String.eqb m "reads") eqn:M3.
      { apply eqb_subst in M3. subst m. cbn in E. inv_ok. subst t. apply val_db_some in V. destruct V as (n & Va & ->).
        unfold reads. pv. rewrite (IHa' _ _ H0 Va). destruct v1; reflexivity. }
      destruct (String.eqb m "writes") eqn:M4; [|discriminate V].
      { apply eqb_subst in M4. subst m. cbn in E. inv_ok. subst t. apply val_db_some in V. destruct V as (n & Va & ->).
        unfold writes. pv. rewrite (IHa' _ _ H0 Va). destruct v1; reflexivity. }
  - destruct l as [n|]; [|discriminate V]. cbn in E, V. destruct (n <? u128_bound); inv_ok. subst. injection V as <-. pv. reflexivity.
  - cbn [val] in V. cbn in E. inv_ok. subst t. unfold path_to_string. fold (name_of p).
    destruct (String.eqb (name_of p) "READ" || String.eqb (name_of p) "WRITE")%bool eqn:B; [discriminate V|]. injection V as <-.
    pv. now rewrite with_rw_other.
  - cbn [val] in V. destruct (weight_fn_of func) as [f|] eqn:W; [|discriminate V]. apply weight_fn_of_spec in W.
    destruct (scalar_call _ _ _ _ _ W E) as (C1 & C2 & C3).
    destruct args as [|a [|b [|]]]; try discriminate V.
    + destruct (String.eqb_spec f "zero"); [|discriminate V]. rewrite (C2 e). pv. injection V as <-. destruct v1; reflexivity.
    + inversion IHa as [|? ? IHa' _]; subst. destruct v1; [discriminate V|].
      destruct (val false rho rd wr a) as [[n|]|] eqn:Va; try discriminate V.
      destruct (String.eqb_spec f "from_ref_time").
      * injection V as <-. destruct (C1 e) as (a' & [= <-] & Ea). now rewrite (IHa' _ _ Ea eq_refl).
      * destruct (String.eqb_spec f "from_proof_size"); [|discriminate V]. now destruct (C3 (or_introl e)).
    + destruct v1; [discriminate V|].
      destruct (val false rho rd wr a) as [[n|]|]; try discriminate V. destruct (val false rho rd wr b) as [[k|]|]; try discriminate V.
      destruct (String.eqb_spec f "from_parts"); [|discriminate V]. now destruct (C3 (or_intror e)).
Qed.

Lemma restrict_into d rho t : poly_val rho (restrict d (into_chromatic d t)) = poly_val rho t.
Proof. induction t; destruct d; cbn; pv; rewrite ?IHt1, ?IHt2; reflexivity. Qed.

(** ** The other dimension *)
Lemma literal_vanishes d rho e : (d = Time -> rho "READ" = 0 /\ rho "WRITE" = 0) -> forall t,
  parse_scalar_expression e = Ok t -> has_literal (dim_eqb d Time) e ->
  poly_val rho (restrict (other d) (into_chromatic d t)) = 0.
Proof.
  intros RW. set (tm := dim_eqb d Time).
  assert (leaf : forall n, poly_val rho (restrict (other d) (into_chromatic d (Scalar n))) = 0) by (intros n; destruct d; cbn; now pv).
  induction e as [e IH|e IH|r m args tr IHr IHa|l|p|func args tr IHf IHa|o l r IHl IHr|p fs IH|] using expr_ind'; intros t E L; try discriminate E.
  - eauto.
  - eauto.
  - cbn [has_literal] in L.
    destruct (String.eqb m "into") eqn:M1. { apply eqb_subst in M1. subst m. cbn in E. eauto. }
    destruct (String.eqb m "ref_time") eqn:M2.
    { apply eqb_subst in M2. subst m. cbn in E. destruct (negb _); inv_ok. eauto. }
    destruct args as [|a [|b args]]; [destruct L| |destruct L]. inversion IHa as [|? ? IHa' _]; subst.
    destruct (String.eqb m "saturating_add") eqn:M3.
    { apply eqb_subst in M3. subst m. cbn in E. inv_ok. subst t. destruct L as [L1 L2]. cbn [into_chromatic restrict]. pv.
      rewrite (IHr _ H L1), (IHa' _ H0 L2). reflexivity. }
    destruct (String.eqb m "saturating_mul") eqn:M4.
    { apply eqb_subst in M4. subst m. cbn in E. inv_ok. subst t. cbn [into_chromatic restrict]. pv.
      destruct L as [L|L]; [rewrite (IHr _ H L)|rewrite (IHa' _ H0 L)]; lia. }
    destruct (String.eqb m "reads") eqn:M5.
    { apply eqb_subst in M5. subst m. cbn in E. inv_ok. subst t. cbn [into_chromatic restrict reads]. unfold STORAGE_READ_VAR. pv.
      destruct L as [L|L].
      - destruct (RW ltac:(destruct d; [reflexivity|discriminate L])) as [-> _]. lia.
      - rewrite (IHa' _ H0 L). lia. }
    destruct (String.eqb m "writes") eqn:M6; [|destruct L].
    { apply eqb_subst in M6. subst m. cbn in E. inv_ok. subst t. cbn [into_chromatic restrict writes]. unfold STORAGE_WRITE_VAR. pv.
      destruct L as [L|L].
      - destruct (RW ltac:(destruct d; [reflexivity|discriminate L])) as [_ ->]. lia.
      - rewrite (IHa' _ H0 L). lia. }
  - cbn in E. destruct l; cbn in E; [|discriminate E]. destruct (n <? u128_bound); inv_ok. subst t. apply leaf.
  - destruct L.
  - cbn [has_literal] in L. destruct args as [|a [|b args]]; [| |destruct L].
    + destruct (scalar_call _ _ _ _ _ L E) as (_ & C & _). rewrite (C eq_refl). destruct d; cbn; now pv.
    + inversion IHa as [|? ? IHa' _]; subst. destruct L as [W L].
      destruct (scalar_call _ _ _ _ _ W E) as (C & _ & _). destruct (C eq_refl) as (a' & [= <-] & Ea). eauto.
Qed.

Lemma val_no_access v1 rho rd wr rd' wr' e : no_access e -> val v1 rho rd wr e = val v1 rho rd' wr' e.
Proof.
  induction e as [e IH|e IH|r m args tr IHr IHa|l|p|func args tr IHf IHa|o l r IHl IHr|p fs IH|] using expr_ind'; intros G; try reflexivity; cbn [val].
  - now apply IH.
  - now apply IH.
  - cbn [no_access] in G. destruct G as (N1 & N2 & Gr & Ga). destruct args as [|a [|]]; [|inversion IHa as [|? ? IHa' _]; subst|reflexivity].
    + now rewrite (IHr Gr).
    + rewrite (IHr Gr), (IHa' Ga). apply String.eqb_neq in N1, N2. now rewrite N1, N2.
  - destruct args as [|a [|b [|]]]; try reflexivity; inversion IHa as [|? ? IHa' IHb]; subst; cbn [no_access] in G.
    + now rewrite (IHa' G).
    + inversion IHb as [|? ? IHb' _]; subst. now rewrite (IHa' (proj1 G)), (IHb' (proj2 G)).
Qed.

(** ** Weights *)
Definition rw0 (rho : string -> N) := with_rw rho 0 0.

Lemma rw_arg args t : parse_rw_args args = Ok t ->
  exists a, args = [a] /\ ((exists n, a = ELit (LInt n) /\ n < u128_bound /\ t = Scalar n) \/
                           ((forall l, a <> ELit l) /\ exists s, parse_scalar_expression a = Ok s /\ t = into_chromatic Time s)).
Proof.
  unfold parse_rw_args, extract_arg. destruct args as [|a [|]]; cbn [bind]; try discriminate. intros E. exists a. split; [reflexivity|].
  destruct a; try (right; split; [discriminate|]; apply bind_ok in E; destruct E as (s & Es & [= <-]); eauto).
  left. destruct l as [n|]; cbn in E; [|discriminate]. destruct (N.ltb_spec n u128_bound); inv_ok. subst. eauto.
Qed.
Lemma rw_val v1 rho rd wr args t a n : parse_rw_args args = Ok t -> args = [a] -> val v1 rho rd wr a = Some (VNum n) ->
  poly_val (with_rw rho rd wr) (restrict Time t) = n.
Proof.
  intros E -> V. apply rw_arg in E. destruct E as (a' & [= <-] & [(k & -> & _ & ->)|(_ & s & Es & ->)]).
  - injection V as <-. cbn. now pv.
  - rewrite restrict_into. now apply (scalar_val v1 rho rd wr a s (VNum n)).
Qed.

(** Time: all well-typed expressions whose constructor arguments contain literals. *)
Lemma chrom_time v1 rho rd wr e : forall t v, parse_expression e = Ok t -> val v1 rho rd wr e = Some v -> literal_args e ->
  poly_val (with_rw rho rd wr) (restrict Time t) = time_of v.
Proof.
  induction e as [e IH|e IH|r m args tr IHr IHa|l|p|func args tr IHf IHa|o l r IHl IHr|p fs IH|] using expr_ind'; intros t v E V G; try discriminate E.
  - eauto.
  - eauto.
  - cbn [val] in V. cbn [literal_args] in G. destruct args as [|a [|b args]]; [| |discriminate V].
    + destruct (String.eqb m "into") eqn:M1.
      { apply eqb_subst in M1. subst m. cbn in E, G. apply (IHr _ _ E V), G. }
      destruct (String.eqb m "ref_time") eqn:M2; [|discriminate V].
      apply eqb_subst in M2. subst m. discriminate E.
    + inversion IHa as [|? ? IHa' _]; subst.
      destruct (String.eqb m "saturating_add") eqn:M1.
      { apply eqb_subst in M1. subst m. cbn in E, G. inv_ok. subst t. apply val2_some in V. destruct V as (vx & vy & Vx & Vy & V).
        cbn [restrict]. pv. rewrite (IHr _ _ H Vx), (IHa' _ _ H0 Vy) by apply G. symmetry. now apply val_add_time. }
      destruct (String.eqb m "saturating_mul") eqn:M2.
      { apply eqb_subst in M2. subst m. cbn in E, G. inv_ok. subst t. apply val2_some in V. destruct V as (vx & vy & Vx & Vy & V).
        cbn [restrict]. pv. rewrite (IHr _ _ H Vx), (IHa' _ _ H0 Vy) by apply G. symmetry. now apply val_mul_time. }
      destruct (String.eqb m "reads") eqn:M3.
      { apply eqb_subst in M3. subst m. cbn [parse_expression] in E. inv_ok. apply val_db_some in V. destruct V as (n & Va & ->).
        simpl in E. inv_ok. subst t. unfold reads. cbn [restrict]. pv. rewrite (rw_val v1 rho rd wr _ _ _ _ H0 eq_refl Va).
        destruct v1; reflexivity. }
      destruct (String.eqb m "writes") eqn:M4; [|discriminate V].
      { apply eqb_subst in M4. subst m. simpl in E. inv_ok. apply val_db_some in V. destruct V as (n & Va & ->).
        subst t. unfold writes. cbn [restrict]. pv. rewrite (rw_val v1 rho rd wr _ _ _ _ H0 eq_refl Va).
        destruct v1; reflexivity. }
  - cbn [val] in V. cbn in E. inv_ok. subst t. unfold path_to_string. fold (name_of p).
    destruct (String.eqb (name_of p) "READ" || String.eqb (name_of p) "WRITE")%bool eqn:B; [discriminate V|]. injection V as <-.
    cbn. pv. now rewrite with_rw_other.
  - cbn [val] in V. destruct (weight_fn_of func) as [f|] eqn:W; [|discriminate V]. apply weight_fn_of_spec in W.
    destruct (chrom_call _ _ _ _ _ W E) as (C1 & C2 & C3 & C4). cbn [literal_args] in G.
    destruct args as [|a [|b [|]]]; try discriminate V.
    + destruct (String.eqb_spec f "zero"); [|discriminate V]. rewrite (C4 e). cbn. pv. injection V as <-. destruct v1; reflexivity.
    + destruct v1; [discriminate V|].
      destruct (val false rho rd wr a) as [[n|]|] eqn:Va; try discriminate V.
      destruct (String.eqb_spec f "from_ref_time").
      * injection V as <-. destruct (C1 e) as (a' & s & [= <-] & Ea & ->). rewrite restrict_into. now apply (scalar_val _ _ _ _ _ _ _ Ea Va).
      * destruct (String.eqb_spec f "from_proof_size"); [|discriminate V]. injection V as <-. destruct (C2 e) as (a' & s & [= <-] & Ea & ->).
        apply (literal_vanishes Proof_size _ a); auto; [discriminate|]. apply G. now rewrite e in W.
    + destruct v1; [discriminate V|].
      destruct (val false rho rd wr a) as [[n|]|] eqn:Va; try discriminate V. destruct (val false rho rd wr b) as [[k|]|] eqn:Vb; try discriminate V.
      destruct (String.eqb_spec f "from_parts"); [|discriminate V]. injection V as <-.
      destruct (C3 e) as (a' & b' & s & s' & [= <- <-] & Ea & Eb & ->). rewrite splice_poly, restrict_into.
      rewrite (scalar_val _ _ _ _ _ _ _ Ea Va). cbn [time_of].
      change Time with (other Proof_size). rewrite (literal_vanishes Proof_size _ b); [lia|discriminate|exact Eb|apply G].
Qed.

(** Proof size. *)
Definition proof_of (v : value) : N := match v with VNum n => n | VWeight _ p => p end.
Lemma val_add_proof x y v : val_add x y = Some v -> proof_of v = proof_of x + proof_of y.
Proof. destruct x, y; cbn; intros [= <-]; reflexivity. Qed.
Lemma val_mul_proof x y v : val_mul x y = Some v -> proof_of v = proof_of x * proof_of y.
Proof. destruct x, y; cbn; intros [= <-]; reflexivity. Qed.

Lemma chrom_proof rho rd wr e : forall t v, parse_expression e = Ok t -> val false rho rd wr e = Some v -> literal_args e ->
  poly_val (rw0 rho) (restrict Proof_size t) = proof_of v.
Proof.
  assert (RW : Time = Time -> rw0 rho "READ" = 0 /\ rw0 rho "WRITE" = 0) by (intros _; split; reflexivity).
  induction e as [e IH|e IH|r m args tr IHr IHa|l|p|func args tr IHf IHa|o l r IHl IHr|p fs IH|] using expr_ind'; intros t v E V G; try discriminate E.
  - eauto.
  - eauto.
  - cbn [val] in V. cbn [literal_args] in G. destruct args as [|a [|b args]]; [| |discriminate V].
    + destruct (String.eqb m "into") eqn:M1.
      { apply eqb_subst in M1. subst m. cbn in E, G. apply (IHr _ _ E V), G. }
      destruct (String.eqb m "ref_time") eqn:M2; [|discriminate V].
      apply eqb_subst in M2. subst m. discriminate E.
    + inversion IHa as [|? ? IHa' _]; subst.
      destruct (String.eqb m "saturating_add") eqn:M1.
      { apply eqb_subst in M1. subst m. cbn in E, G. inv_ok. subst t. apply val2_some in V. destruct V as (vx & vy & Vx & Vy & V).
        cbn [restrict]. pv. rewrite (IHr _ _ H Vx), (IHa' _ _ H0 Vy) by apply G. symmetry. now apply val_add_proof. }
      destruct (String.eqb m "saturating_mul") eqn:M2.
      { apply eqb_subst in M2. subst m. cbn in E, G. inv_ok. subst t. apply val2_some in V. destruct V as (vx & vy & Vx & Vy & V).
        cbn [restrict]. pv. rewrite (IHr _ _ H Vx), (IHa' _ _ H0 Vy) by apply G. symmetry. now apply val_mul_proof. }
      destruct (String.eqb m "reads") eqn:M3.
      { apply eqb_subst in M3. subst m. simpl in E. inv_ok. apply val_db_some in V. destruct V as (n & Va & ->).
        subst t. unfold reads. cbn [restrict]. pv. unfold rw0, STORAGE_READ_VAR. rewrite with_rw_read. cbn. lia. }
      destruct (String.eqb m "writes") eqn:M4; [|discriminate V].
      { apply eqb_subst in M4. subst m. simpl in E. inv_ok. apply val_db_some in V. destruct V as (n & Va & ->).
        subst t. unfold writes. cbn [restrict]. pv. unfold rw0, STORAGE_WRITE_VAR. rewrite with_rw_write. cbn. lia. }
  - cbn [val] in V. cbn in E. inv_ok. subst t. unfold path_to_string. fold (name_of p).
    destruct (String.eqb (name_of p) "READ" || String.eqb (name_of p) "WRITE")%bool eqn:B; [discriminate V|]. injection V as <-.
    cbn. pv. unfold rw0. now rewrite with_rw_other.
  - cbn [val] in V. destruct (weight_fn_of func) as [f|] eqn:W; [|discriminate V]. apply weight_fn_of_spec in W.
    destruct (chrom_call _ _ _ _ _ W E) as (C1 & C2 & C3 & C4). cbn [literal_args] in G.
    assert (SV : forall a n s, parse_scalar_expression a = Ok s -> val false rho rd wr a = Some (VNum n) -> no_access a ->
       poly_val (rw0 rho) (restrict Proof_size (into_chromatic Proof_size s)) = n).
    { intros a n s Es Vs NA. rewrite restrict_into. rewrite (val_no_access _ _ _ _ 0 0) in Vs by assumption.
      exact (scalar_val _ _ _ _ _ _ _ Es Vs). }
    destruct args as [|a [|b [|]]]; try discriminate V.
    + destruct (String.eqb_spec f "zero"); [|discriminate V]. rewrite (C4 e). cbn. pv. injection V as <-. reflexivity.
    + destruct (val false rho rd wr a) as [[n|]|] eqn:Va; try discriminate V.
      destruct (String.eqb_spec f "from_ref_time").
      * injection V as <-. destruct (C1 e) as (a' & s & [= <-] & Ea & ->).
        apply (literal_vanishes Time _ a); auto. apply G. now rewrite e in W.
      * destruct (String.eqb_spec f "from_proof_size"); [|discriminate V]. injection V as <-. destruct (C2 e) as (a' & s & [= <-] & Ea & ->).
        apply (SV a); auto. apply G. now rewrite e in W.
    + destruct (val false rho rd wr a) as [[n|]|] eqn:Va; try discriminate V. destruct (val false rho rd wr b) as [[k|]|] eqn:Vb; try discriminate V.
      destruct (String.eqb_spec f "from_parts"); [|discriminate V]. injection V as <-.
      destruct (C3 e) as (a' & b' & s & s' & [= <- <-] & Ea & Eb & ->). rewrite splice_poly, (SV b k s' Eb Vb) by apply G.
      change Proof_size with (other Time) at 1. rewrite (literal_vanishes Time _ a RW s Ea (proj1 G)). cbn. lia.
Qed.

Definition method_parts (m : method) (e : expr) : Prop := m_stmts m = [SExpr e].

(** A weight that the scalar parser accepts has no proof size. *)
Lemma weight_scalar rho rd wr e : forall t a b, parse_scalar_expression e = Ok t -> val false rho rd wr e = Some (VWeight a b) ->
  literal_args e -> has_literal true e /\ b = 0.
Proof.
  induction e as [e IH|e IH|r m args tr IHr IHa|l|p|func args tr IHf IHa|o l r IHl IHr|p fs IH|] using expr_ind'; intros t a b E V G; try discriminate E.
  - eapply IH; eauto.
  - eapply IH; eauto.
  - cbn [val] in V. cbn [literal_args] in G. cbn [has_literal]. destruct args as [|c [|c' args]]; [| |discriminate V].
    + destruct (String.eqb m "into") eqn:M1.
      { apply eqb_subst in M1. subst m. cbn in E, G. eapply IHr; eauto. apply G. }
      destruct (String.eqb m "ref_time") eqn:M2; [|discriminate V].
      destruct (val false rho rd wr r) as [[|]|]; discriminate V.
    + inversion IHa as [|? ? IHa' _]; subst.
      destruct (String.eqb m "saturating_add") eqn:M1.
      { apply eqb_subst in M1. subst m. cbn in E, G |- *. inv_ok. subst t. apply val2_some in V. destruct V as (vx & vy & Vx & Vy & V).
        destruct vx as [|tx px], vy as [|ty py]; try discriminate V. injection V as <- <-.
        destruct (IHr _ _ _ H Vx (proj1 G)) as [? ->]. destruct (IHa' _ _ _ H0 Vy (proj2 G)) as [? ->]. auto. }
      destruct (String.eqb m "saturating_mul") eqn:M2.
      { apply eqb_subst in M2. subst m. cbn in E, G |- *. inv_ok. subst t. apply val2_some in V. destruct V as (vx & vy & Vx & Vy & V).
        destruct vx as [|tx px], vy as [|ty py]; try discriminate V. injection V as <- <-.
        destruct (IHr _ _ _ H Vx (proj1 G)) as [? ->]. auto. }
      destruct (String.eqb m "reads") eqn:M3.
      { apply eqb_subst in M3. subst m. apply val_db_some in V. destruct V as (n & _ & [= _ ->]). cbn. auto. }
      destruct (String.eqb m "writes") eqn:M4; [|discriminate V].
      { apply eqb_subst in M4. subst m. apply val_db_some in V. destruct V as (n & _ & [= _ ->]). cbn. auto. }
  - destruct l; discriminate V.
  - cbn [val] in V. destruct (_ || _)%bool; discriminate V.
  - cbn [val] in V. destruct (weight_fn_of func) as [f|] eqn:W; [|discriminate V]. apply weight_fn_of_spec in W.
    destruct (scalar_call _ _ _ _ _ W E) as (C1 & C2 & C3). cbn [literal_args] in G. cbn [has_literal].
    destruct args as [|x [|y [|]]]; try discriminate V.
    + destruct (String.eqb_spec f "zero"); [|discriminate V]. injection V as <- <-. subst f. auto.
    + destruct (val false rho rd wr x) as [[n|]|] eqn:Va; try discriminate V.
      destruct (String.eqb_spec f "from_ref_time").
      * injection V as <- <-. subst f. split; [split|]; auto. now apply G.
      * destruct (String.eqb_spec f "from_proof_size"); [|discriminate V]. destruct (C3 (or_introl e)).
    + destruct (val false rho rd wr x) as [[n|]|]; try discriminate V. destruct (val false rho rd wr y) as [[k|]|]; try discriminate V.
      destruct (String.eqb_spec f "from_parts"); [|discriminate V]. destruct (C3 (or_intror e)).
Qed.

Lemma handle_method_inv m name t rs : handle_method m = Ok (name, t, rs) ->
  exists e, m_stmts m = [SExpr e] /\ name = m_name m /\ returns_weight m = Ok tt /\ parse_component_attrs (m_attrs m) = Ok rs /\
    (parse_expression e = Ok t \/
     (exists msg, parse_expression e = Err msg) /\ exists s, parse_scalar_expression e = Ok s /\ t = into_chromatic Time s).
Proof.
  unfold handle_method. intros H. inv_ok. destruct x. destruct (m_stmts m) as [|[e|] [|]]; try discriminate H. cbn [bind] in H.
  apply bind_ok in H. destruct H as (w & H1 & H). apply bind_ok in H. destruct H as (rs' & H2 & [= <- <- <-]). exists e. repeat split; auto.
  destruct (parse_expression e); [left; congruence| |discriminate H1|discriminate H1].
  right. inv_ok. subst. split; eauto.
Qed.

Lemma method_meaning m name t rs e rho rd wr a b : handle_method m = Ok (name, t, rs) -> m_stmts m = [SExpr e] ->
  literal_args e -> val false rho rd wr e = Some (VWeight a b) ->
  poly_val (with_rw rho rd wr) (restrict Time t) = a /\ poly_val (with_rw rho 0 0) (restrict Proof_size t) = b.
Proof.
  intros H S G V. apply handle_method_inv in H. destruct H as (e' & S' & _ & _ & _ & H). assert (e' = e) by congruence. subst e'.
  destruct H as [H|(_ & s & Hs & ->)].
  - split.
    + now rewrite (chrom_time _ _ _ _ _ _ _ H V G).
    + exact (chrom_proof _ _ _ _ _ _ H V G).
  - destruct (weight_scalar _ _ _ _ _ _ _ Hs V G) as [L ->]. split.
    + rewrite restrict_into. now rewrite (scalar_val _ _ _ _ _ _ _ Hs V).
    + apply (literal_vanishes Time _ e); auto.
Qed.

(** ** The first version of the weights *)
Lemma val_v1_num rho rd wr e : forall v, val true rho rd wr e = Some v -> (exists n, v = VNum n) /\ literal_args e.
Proof.
  induction e as [e IH|e IH|r m args tr IHr IHa|l|p|func args tr IHf IHa|o l r IHl IHr|p fs IH|] using expr_ind'; intros v V; try discriminate V.
  - now apply IH.
  - now apply IH.
  - cbn [val] in V. cbn [literal_args]. destruct args as [|c [|c' args]]; [| |discriminate V].
    + destruct (String.eqb m "into") eqn:M1.
      { apply eqb_subst in M1. subst m. cbn. destruct (IHr _ V). auto. }
      destruct (String.eqb m "ref_time") eqn:M2; [|discriminate V].
      destruct (val true rho rd wr r) as [[|]|] eqn:Vr; try discriminate V. destruct (IHr _ eq_refl) as [[n ?] _]. discriminate.
    + inversion IHa as [|? ? IHa' _]; subst.
      destruct (String.eqb m "saturating_add") eqn:M1.
      { apply eqb_subst in M1. subst m. cbn. apply val2_some in V. destruct V as (vx & vy & Vx & Vy & V).
        destruct (IHr _ Vx) as [[n ->] ?]. destruct (IHa' _ Vy) as [[k ->] ?]. injection V as <-. eauto. }
      destruct (String.eqb m "saturating_mul") eqn:M2.
      { apply eqb_subst in M2. subst m. cbn. apply val2_some in V. destruct V as (vx & vy & Vx & Vy & V).
        destruct (IHr _ Vx) as [[n ->] ?]. destruct (IHa' _ Vy) as [[k ->] ?]. injection V as <-. eauto. }
      destruct (String.eqb m "reads") eqn:M3.
      { apply val_db_some in V. destruct V as (n & _ & ->). cbn. eauto. }
      destruct (String.eqb m "writes") eqn:M4; [|discriminate V].
      { apply val_db_some in V. destruct V as (n & _ & ->). cbn. eauto. }
  - destruct l; [|discriminate V]. injection V as <-. cbn. eauto.
  - cbn [val] in V. destruct (_ || _)%bool; [discriminate V|]. injection V as <-. cbn. eauto.
  - cbn [val] in V. destruct (weight_fn_of func) as [f|] eqn:W; [|discriminate V].
    destruct args as [|x [|y [|]]]; try discriminate V. destruct (String.eqb f "zero"); [|discriminate V]. injection V as <-. cbn. eauto.
Qed.

Lemma v1_vanishes rho rd wr e : forall t v, parse_expression e = Ok t -> val true rho rd wr e = Some v -> has_literal true e ->
  poly_val (rw0 rho) (restrict Proof_size t) = 0.
Proof.
  induction e as [e IH|e IH|r m args tr IHr IHa|l|p|func args tr IHf IHa|o l r IHl IHr|p fs IH|] using expr_ind'; intros t v E V G; try discriminate E.
  - eauto.
  - eauto.
  - cbn [val] in V. cbn [has_literal] in G. destruct args as [|a [|b args]]; [| |discriminate V].
    + destruct (String.eqb m "into") eqn:M1.
      { apply eqb_subst in M1. subst m. cbn in E, G. apply (IHr _ _ E V), G. }
      destruct (String.eqb m "ref_time") eqn:M2; [|discriminate V].
      apply eqb_subst in M2. subst m. discriminate E.
    + inversion IHa as [|? ? IHa' _]; subst.
      destruct (String.eqb m "saturating_add") eqn:M1.
      { apply eqb_subst in M1. subst m. cbn in E, G. inv_ok. subst t. apply val2_some in V. destruct V as (vx & vy & Vx & Vy & V).
        cbn [restrict]. pv. now rewrite (IHr _ _ H Vx (proj1 G)), (IHa' _ _ H0 Vy (proj2 G)). }
      destruct (String.eqb m "saturating_mul") eqn:M2.
      { apply eqb_subst in M2. subst m. cbn in E, G. inv_ok. subst t. apply val2_some in V. destruct V as (vx & vy & Vx & Vy & V).
        cbn [restrict]. pv. destruct G as [G|G]; [rewrite (IHr _ _ H Vx G)|rewrite (IHa' _ _ H0 Vy G)]; lia. }
      destruct (String.eqb m "reads") eqn:M3.
      { apply eqb_subst in M3. subst m. simpl in E. inv_ok. subst t. unfold reads. cbn [restrict]. pv.
        unfold rw0, STORAGE_READ_VAR. rewrite with_rw_read. lia. }
      destruct (String.eqb m "writes") eqn:M4; [|discriminate V].
      { apply eqb_subst in M4. subst m. simpl in E. inv_ok. subst t. unfold writes. cbn [restrict]. pv.
        unfold rw0, STORAGE_WRITE_VAR. rewrite with_rw_write. lia. }
  - destruct G.
  - cbn [val] in V. destruct (weight_fn_of func) as [f|] eqn:W; [|discriminate V]. apply weight_fn_of_spec in W.
    destruct (chrom_call _ _ _ _ _ W E) as (_ & _ & _ & C4).
    destruct args as [|a [|b [|]]]; try discriminate V.
    destruct (String.eqb_spec f "zero"); [|discriminate V]. rewrite (C4 e). cbn. now pv.
Qed.

Lemma method_meaning_v1 m name t rs e rho rd wr n : handle_method m = Ok (name, t, rs) -> m_stmts m = [SExpr e] ->
  val true rho rd wr e = Some (VNum n) ->
  poly_val (with_rw rho rd wr) (restrict Time t) = n /\
  (has_literal true e -> poly_val (with_rw rho 0 0) (restrict Proof_size t) = 0).
Proof.
  intros H S V. apply handle_method_inv in H. destruct H as (e' & S' & _ & _ & _ & H). assert (e' = e) by congruence. subst e'.
  destruct (val_v1_num _ _ _ _ _ V) as [_ G].
  destruct H as [H|(_ & s & Hs & ->)].
  - split.
    + now rewrite (chrom_time _ _ _ _ _ _ _ H V G).
    + exact (v1_vanishes _ _ _ _ _ _ H V).
  - split.
    + rewrite restrict_into. now rewrite (scalar_val _ _ _ _ _ _ _ Hs V).
    + intros L. apply (literal_vanishes Time _ e); auto.
Qed.
