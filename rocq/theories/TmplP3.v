(** The functions and the whole of the files of the benchmarking template. *)
From Coq Require Import List String Ascii NArith Bool Lia.
From Verif Require Import Base CompareM SpecCompare SpecFmt SynM SpecAttr LexM SpecText SpecTmpl AttrM AttrP LexP GramP GramP2 TmplP TmplP2.
Import ListNotations.
Local Open Scope string_scope.
Local Open Scope list_scope.

Definition adoc (s : string) : attribute := ANameValue (mk_path false ["doc"]) s.
Definition tdoc (s : string) : tt := Leaf (KDoc s).
Definition t_param (p : string) : list tt := [W p; P ":"; W "u32"; P ","].

(** ** One line *)
Lemma one_app a b : one_line a -> one_line b -> one_line (a ++ b).
Proof. intros A B c I. rewrite StrP.list_ascii_app in I. apply in_app_iff in I. destruct I; auto. Qed.
Lemma one_by s : (str_has "010" s || str_has "013" s)%bool = false -> one_line s.
Proof.
  intros H c I [<-|[<-|[]]]; apply orb_false_iff in H; destruct H as [H1 H2]; [apply has_not in H1|apply has_not in H2]; contradiction.
Qed.
Lemma one_over al s : (str_has "010" al || str_has "013" al)%bool = false -> over al s -> one_line s.
Proof. intros H O c I N. apply (one_by al H c); auto. Qed.
Lemma one_ident x : identifier x -> one_line x. Proof. intros (_ & O & _). now apply (one_over word_chars). Qed.

Section Text.
  Variables u v : N -> string.
  Hypotheses (Hu : numerals u) (Hv : numerals v).
  Lemma one_v n : one_line (v n). Proof. destruct (Hv n) as (_ & O & _). now apply (one_over grouped_digits). Qed.

  Definition range_doc (p : string * comp_range) : string :=
    (" The range of component `" ++ fst p ++ "` is `[" ++ v (rmin (snd p)) ++ ", " ++ v (rmax (snd p)) ++ "]`.")%string.
  Definition comment_docs (st : style) (b : bench) : list string :=
    match st with Runtime_old => [] | _ => map (fun c => " " ++ c)%string (b_comments b) end.
  Definition docs (st : style) (b : bench) : list string := comment_docs st b ++ map range_doc (b_ranges b).
  Definition fn_of (st : style) (rocks : bool) (b : bench) : SynM.method :=
    mk_method (map adoc (docs st b)) (b_name b) (RType (TPath (mk_path false ["Weight"]))) [SExpr (e_body st rocks b)].
  Definition t_fn (st : style) (rocks : bool) (b : bench) : list tt :=
    map tdoc (docs st b) ++ [W "fn"; W (b_name b); Group DParen (flat_map t_param (b_params b)); Leaf KArrow; W "Weight"; Group DBrace (t_body st rocks b)].

  (** ** Grammar *)
  Lemma gr_docs ds : g_attrs (map adoc ds) (map tdoc ds).
  Proof. induction ds; constructor; auto. Qed.
  Lemma gr_fn st rocks b : bench_ok b -> g_impl_item (IFn (fn_of st rocks b)) (t_fn st rocks b).
  Proof.
    intros B. apply (II_fn _ (map tdoc (docs st b)) [] (b_name b) (flat_map t_param (b_params b)) _ [Leaf KArrow; W "Weight"]).
    - apply gr_docs.
    - constructor.
    - apply (ok_name b B).
    - apply O_type; [apply T_path, P_relative, S_one; nm|]. intros x [K|[]]; discriminate K.
    - now apply gr_body.
  Qed.
  Lemma gr_fns st rocks bs : (forall b, In b bs -> bench_ok b) -> g_impl_items (map (fun b => IFn (fn_of st rocks b)) bs) (flat_map (t_fn st rocks) bs).
  Proof.
    induction bs as [|b bs IH]; intros H; [constructor|]. cbn. constructor; [apply gr_fn, H; now left|]. apply IH. intros x I. apply H. now right.
  Qed.

  (** ** Tokens *)
  Lemma k_range p : identifier (fst p) -> Tk [KDoc (range_doc p)] (range_line v p).
  Proof.
    intros I. unfold range_line, line. apply Tk_tabs. eapply Tk_eq; [apply (Tk_doc (range_doc p))|reflexivity|].
    - unfold range_doc. repeat first [apply one_ident, I|apply one_v|apply one_by; reflexivity|apply one_app].
    - now apply nb.
    - unfold range_doc. now rewrite !app_assoc_s.
  Qed.
  Lemma k_remark r : one_line r -> Tk [] (remark_line r).
  Proof.
    intros O. unfold remark_line, line. apply Tk_tabs. eapply Tk_eq; [apply (Tk_comment (" " ++ r))|reflexivity|now rewrite !app_assoc_s].
    - apply (one_app " "); auto. now apply one_by.
    - left. now apply nb.
  Qed.
  Lemma k_params ps : (forall p, In p ps -> identifier p) -> Tk (flat (flat_map t_param ps)) (params_text ps).
  Proof.
    intros H. rewrite flat_map_flat. apply Tk_lines. intros p I. eapply Tk_tok; [apply Tk_ident; [now apply H|side..|]; lit|reflexivity].
  Qed.
  Lemma flat_map_nil {A B} (l : list A) : flat_map (fun _ => @nil B) l = [].
  Proof. induction l; auto. Qed.
  Lemma flat_map_map {A B C} (f : A -> B) (g : B -> list C) l : flat_map g (map f l) = flat_map (fun x => g (f x)) l.
  Proof. induction l as [|x l IH]; [reflexivity|]. cbn. now rewrite IH. Qed.
  Lemma flat_docs ds : flat (map tdoc ds) = map KDoc ds.
  Proof. induction ds as [|d ds IH]; [reflexivity|]. cbn. f_equal. exact IH. Qed.
  Lemma lines_docs {A} (f : A -> string) (g : A -> string) l : (forall x, In x l -> Tk [KDoc (g x)] (f x)) -> Tk (map KDoc (map g l)) (lines f l).
  Proof. intros H. eapply Tk_tok; [apply (Tk_lines f (fun x => [KDoc (g x)]) l H)|]. induction l as [|x l IH]; [reflexivity|]. cbn. f_equal. apply IH. intros y I. apply H. now right. Qed.

  Lemma k_comments st b : bench_ok b -> Tk (map KDoc (comment_docs st b)) (lines (comment_line st) (b_comments b)).
  Proof.
    intros B. assert (O : forall c, In c (b_comments b) -> one_line (" " ++ c)).
    { intros c I. apply (one_app " "); [now apply one_by|]. now apply (ok_comments b B). }
    assert (X : st <> Runtime_old -> Tk (map KDoc (map (fun c => " " ++ c)%string (b_comments b))) (lines (comment_line st) (b_comments b))).
    { intros N. apply (lines_docs (comment_line st)). intros c I. unfold comment_line, line. apply Tk_tabs.
      eapply Tk_eq; [apply (Tk_doc (" " ++ c)); [now apply O|now apply nb]|reflexivity|]. destruct st; try congruence; now rewrite !app_assoc_s. }
    destruct st; try (now apply X). cbn [comment_docs map]. eapply Tk_tok; [apply (Tk_lines _ (fun _ => []))|now rewrite flat_map_nil].
    intros c I. unfold comment_line, line. apply Tk_tabs.
    eapply Tk_eq; [apply (Tk_comment (" " ++ c)); [now apply O|left; now apply nb]|reflexivity|now rewrite !app_assoc_s].
  Qed.
  Lemma k_fn st rocks b : bench_ok b -> Tk (flat (t_fn st rocks b)) (fn_text u v st (db_name rocks) b).
  Proof.
    intros B. assert (U : forall c, uses b c -> identifier c) by (intros c Hc; apply (ok_uses b B c Hc)).
    unfold fn_text. eapply Tk_tok.
    - apply Tk_app; [now apply k_comments|].
      apply Tk_app; [apply lines_docs; intros [c r] I; apply k_range; now apply (ok_ranges b B c r)|].
      apply Tk_app.
      { unfold line. rewrite !app_assoc_s. apply Tk_tabs. lit_app. apply Tk_ident; [apply (ok_name b B)|side..|]. lit_app.
        apply Tk_app; [apply k_params; apply (ok_params b B)|]. lit. }
      apply Tk_app; [apply (Tk_lines _ (fun _ => [])); intros r I; apply k_remark; now apply (ok_remarks b B)|].
      apply Tk_app; [apply (k_base u v Hu Hv st rocks)|].
      apply Tk_app; [apply (Tk_lines _ (fun p => flat (t_add (t_part st rocks (PSlope (snd (fst p)) (snd p)))))); intros [[e c] k] I; apply k_slope; auto|].
      { now apply (ok_errors b B (e, c, k)). }
      { apply U. left. apply in_map_iff. exists (e, c, k). auto. }
      apply Tk_app; [apply k_access; auto|].
      apply Tk_app; [apply (Tk_lines _ (fun p => flat (t_add (t_part st rocks (PAccessBy "reads" (fst p) (snd p)))))); intros [c k] I; apply k_access_by; auto|].
      { apply U. right. left. apply in_map_iff. exists (c, k). auto. }
      apply Tk_app; [apply k_access; auto|].
      apply Tk_app; [apply (Tk_lines _ (fun p => flat (t_add (t_part st rocks (PAccessBy "writes" (fst p) (snd p)))))); intros [c k] I; apply k_access_by; auto|].
      { apply U. right. right. left. apply in_map_iff. exists (c, k). auto. }
      apply Tk_app; [apply (Tk_lines _ (fun p => flat (t_add (t_part st rocks (PProof (fst p) (snd p)))))); intros [c k] I; apply k_proof; auto|].
      { apply U. right. right. right. apply in_map_iff. exists (c, k). auto. }
      lit.
    - unfold t_fn, docs. rewrite flat_app, flat_docs, map_app, flat_map_nil, <- !app_assoc. f_equal. f_equal.
      unfold flat at 1. cbn [flat_map flat1]. unfold t_body, parts, more_parts. rewrite !flat_map_app, !flat_map_map, <- !flat_map_flat.
      unfold flat. cbn [flat_map flat1 app]. repeat (progress (rewrite <- ?app_assoc, ?flat_map_app; cbn [app])). reflexivity.
  Qed.

  (** ** The file *)
  Definition t_decl (b : bench) : list tt :=
    [W "fn"; W (b_name b); Group DParen (flat_map t_param (b_params b)); Leaf KArrow; W "Weight"; P ";"].
  Definition t_inner (st : style) (ks : list string) : list tt :=
    map (fun k => Leaf (KInner k)) ks ++
    [P "#"; P "!"; Group DBracket [W "cfg_attr"; Group DParen [W "rustfmt"; P ","; W "rustfmt_skip"]];
     P "#"; P "!"; Group DBracket [W "allow"; Group DParen [W "unused_parens"]];
     P "#"; P "!"; Group DBracket [W "allow"; Group DParen [W "unused_imports"]]] ++
    match st with Runtime_parts => [P "#"; P "!"; Group DBracket [W "allow"; Group DParen [W "missing_docs"]]] | _ => [] end.
  Definition use1 : list tt :=
    [W "frame_support"; Leaf KColons; Group DBrace [W "traits"; Leaf KColons; W "Get"; P ","; W "weights"; Leaf KColons;
      Group DBrace [W "Weight"; P ","; W "constants"; Leaf KColons; W "RocksDbWeight"]]].
  Definition use2 : list tt := [W "sp_std"; Leaf KColons; W "marker"; Leaf KColons; W "PhantomData"].
  Definition struct_ (x : string) : list tt := [W x; P "<"; W "T"; P ">"; Group DParen [W "PhantomData"; P "<"; W "T"; P ">"]].
  Definition bound_ : list tt := [P "<"; W "T"; P ":"; W "frame_system"; Leaf KColons; W "Config"; P ">"].
  Definition impl_ : list tt := bound_ ++ [W "WeightInfo"].
  Definition t_pallet (d : weights) : list tt :=
    ([W "use"] ++ use1 ++ [P ";"]) ++ ([W "use"] ++ use2 ++ [P ";"]) ++
    ([tdoc (" Weight functions needed for " ++ w_pallet d ++ ".")] ++ [W "pub"] ++ [W "trait"] ++ [W "WeightInfo"] ++ [Group DBrace (flat_map t_decl (w_benches d))]) ++
    ([tdoc (" Weights for " ++ w_pallet d ++ " using the Substrate node and recommended hardware.")] ++ [W "pub"] ++ [W "struct"] ++ struct_ "SubstrateWeight" ++ [P ";"]) ++
    ([W "impl"] ++ impl_ ++ [W "for"] ++ ([W "SubstrateWeight"] ++ [P "<"] ++ [W "T"] ++ [P ">"]) ++ [Group DBrace (flat_map (t_fn (w_style d) false) (w_benches d))]) ++
    ([W "impl"] ++ [W "WeightInfo"] ++ [W "for"] ++ [Group DParen []] ++ [Group DBrace (flat_map (t_fn (w_style d) true) (w_benches d))]).
  Definition use3 : list tt := [W "frame_support"; Leaf KColons; Group DBrace [W "traits"; Leaf KColons; W "Get"; P ","; W "weights"; Leaf KColons; W "Weight"]].
  Definition use4 (st : style) : list tt := [W (match st with Runtime_old => "sp_std" | _ => "core" end); Leaf KColons; W "marker"; Leaf KColons; W "PhantomData"].
  Definition impl_at (l : list string) : list tt := bound_ ++ flat_map (fun x => [W x; Leaf KColons]) l ++ [W "WeightInfo"].
  Definition t_runtime (l : list string) (d : weights) : list tt :=
    ([W "use"] ++ use3 ++ [P ";"]) ++ ([W "use"] ++ use4 (w_style d) ++ [P ";"]) ++
    ([tdoc (" Weight functions for `" ++ w_pallet d ++ "`.")] ++ [W "pub"] ++ [W "struct"] ++ struct_ "WeightInfo" ++ [P ";"]) ++
    ([W "impl"] ++ impl_at l ++ [W "for"] ++ ([W "WeightInfo"] ++ [P "<"] ++ [W "T"] ++ [P ">"]) ++ [Group DBrace (flat_map (t_fn (w_style d) false) (w_benches d))]).
  Definition fns (rocks : bool) (d : weights) : list impl_item := map (fun b => IFn (fn_of (w_style d) rocks b)) (w_benches d).
  Definition runtime_style (d : weights) : bool := match w_style d with Runtime_parts | Runtime_old => true | _ => false end.
  Definition impl_name (d : weights) : string := if runtime_style d then "WeightInfo" else "SubstrateWeight".
  Definition items_of (d : weights) : list item :=
    (if runtime_style d then [IOther; IOther; IOther] else [IOther; IOther; IOther; IOther]) ++
    IImpl (TPath (mk_path false [impl_name d])) (fns false d) ::
    (if runtime_style d then [] else [IImpl (TTuple 0) (fns true d)]).

  Lemma without_by x l p : (forall y, y = x -> p y = true) -> existsb p l = false -> without x l.
  Proof. intros H E I. assert (existsb p l = true) by (apply existsb_exists; eauto). congruence. Qed.
  Lemma no_punct c l : existsb (GramM.punct c) l = false -> without (P c) l.
  Proof. apply without_by. intros y ->. now apply punct_iff. Qed.
  Lemma no_word c l : existsb (GramM.word c) l = false -> without (W c) l.
  Proof. apply without_by. intros y ->. now apply word_iff. Qed.
  Lemma no_brace l : existsb (GramM.group DBrace) l = false -> forall b, without (Group DBrace b) l.
  Proof. intros E b. revert E. apply without_by. intros y ->. apply group_iff. eauto. Qed.

  Lemma gr_pallet d : weights_ok d -> runtime_style d = false -> g_items (items_of d) (t_pallet d).
  Proof.
    intros D R.
    assert (E : items_of d = [IOther; IOther; IOther; IOther; IImpl (TPath (mk_path false ["SubstrateWeight"])) (fns false d); IImpl (TTuple 0) (fns true d)])
      by (unfold items_of, impl_name; now rewrite R).
    rewrite E. clear E. unfold t_pallet. rewrite <- (app_nil_r ([W "impl"] ++ [W "WeightInfo"] ++ _)).
    apply Is_cons; [apply (I_use [] [] []); [constructor|constructor|now apply no_punct]|].
    apply Is_cons; [apply (I_use [] [] []); [constructor|constructor|now apply no_punct]|].
    apply Is_cons.
    { apply (I_block [adoc (" Weight functions needed for " ++ w_pallet d ++ ".")]); [repeat constructor|constructor|now left|].
      split; [now apply no_punct|now apply no_brace]. }
    apply Is_cons.
    { apply (I_struct [adoc (" Weights for " ++ w_pallet d ++ " using the Substrate node and recommended hardware.")]); [repeat constructor|constructor|].
      split; [now apply no_punct|now apply no_brace]. }
    apply Is_cons.
    { apply (I_impl [] [] impl_ _ ([W "SubstrateWeight"] ++ [P "<"] ++ [W "T"] ++ [P ">"]) [] _ (flat_map (t_fn (w_style d) false) (w_benches d))).
      - constructor.
      - now apply no_brace.
      - apply T_generic; [apply P_relative, S_one; nm|now apply no_punct..].
      - now apply no_brace.
      - now apply no_word.
      - constructor.
      - apply gr_fns, (ok_benches d D). }
    apply Is_cons; [|constructor].
    apply (I_impl [] [] [W "WeightInfo"] _ [Group DParen []] [] _ (flat_map (t_fn (w_style d) true) (w_benches d))).
    - constructor.
    - now apply no_brace.
    - constructor.
    - now apply no_brace.
    - now apply no_word.
    - constructor.
    - apply gr_fns, (ok_benches d D).
  Qed.
  Lemma gr_runtime l d : weights_ok d -> runtime_style d = true -> g_items (items_of d) (t_runtime l d).
  Proof.
    intros D R. assert (E : items_of d = [IOther; IOther; IOther; IImpl (TPath (mk_path false ["WeightInfo"])) (fns false d)])
      by (unfold items_of, impl_name; now rewrite R).
    rewrite E. clear E. unfold t_runtime. rewrite <- (app_nil_r ([W "impl"] ++ _)).
    apply Is_cons; [apply (I_use [] [] []); [constructor|constructor|now apply no_punct]|].
    apply Is_cons; [apply (I_use [] [] []); [constructor|constructor|now apply no_punct]|].
    apply Is_cons.
    { apply (I_struct [adoc (" Weight functions for `" ++ w_pallet d ++ "`.")]); [repeat constructor|constructor|].
      split; [now apply no_punct|now apply no_brace]. }
    apply Is_cons; [|constructor].
    apply (I_impl [] [] (impl_at l) _ ([W "WeightInfo"] ++ [P "<"] ++ [W "T"] ++ [P ">"]) [] _ (flat_map (t_fn (w_style d) false) (w_benches d))).
    - constructor.
    - apply no_brace. unfold impl_at. rewrite !existsb_app. cbn [bound_ existsb GramM.group orb]. rewrite orb_false_r.
      induction l as [|x l IH]; [reflexivity|exact IH].
    - apply T_generic; [apply P_relative, S_one; nm|now apply no_punct..].
    - now apply no_brace.
    - now apply no_word.
    - constructor.
    - apply gr_fns, (ok_benches d D).
  Qed.
  Lemma gr_inner st ks : g_inner (t_inner st ks).
  Proof. induction ks as [|k ks IH]; [destruct st; repeat constructor|]. constructor. exact IH. Qed.

  Lemma k_preamble l : (forall x, In x l -> preamble_line x) -> exists ks, Tk (map KInner ks) (lines (line 0) l).
  Proof.
    induction l as [|x l IH]; intros H; [exists []; exact Tk_nil|]. destruct IH as (ks & T); [intros y I; apply H; now right|].
    assert (X : exists k, Tk (map KInner k) (line 0 x)).
    { destruct (H x (or_introl eq_refl)) as [->|(body & -> & O & N)]; unfold line, tabs.
      - exists []. lit.
      - destruct body as [|c body]; [exists []; apply (Tk_comment ""); [exact O|left; now apply nb]|].
        destruct (Ascii.eqb_spec c "!"); [subst c; exists [body]; apply (Tk_inner body); intros z I; apply O; now right|].
        exists []. apply (Tk_comment (String c body)); [exact O|].
        destruct N as [N|N]; [left|now right]. intros (z & r & E & I). injection E as <- <-. destruct I as [<-|[<-|[]]]; [|congruence].
        apply N. exists "/"%char, body. split; [reflexivity|now left]. }
    destruct X as (k & X). exists (k ++ ks). rewrite map_app.
    replace (lines (line 0) (x :: l)) with (line 0 x ++ lines (line 0) l)%string; [now apply Tk_app|].
    unfold lines. cbn [map String.concat]. destruct (map (line 0) l); [apply app_nil_s|reflexivity].
  Qed.
  Lemma k_decl b : bench_ok b -> Tk (flat (t_decl b)) (decl_text b).
  Proof.
    intros B. unfold decl_text, line. rewrite !app_assoc_s. apply Tk_tabs. eapply Tk_tok.
    - lit_app. apply Tk_ident; [apply (ok_name b B)|side..|]. lit_app. apply Tk_app; [apply k_params; apply (ok_params b B)|]. lit.
    - unfold t_decl. unfold flat. cbn [flat_map flat1 app]. rewrite <- !app_assoc. reflexivity.
  Qed.
  Lemma k_docline a p z : one_line a -> one_line p -> one_line z -> ~ begins "/" (a ++ p ++ z) ->
    Tk [KDoc (a ++ p ++ z)] (line 0 ("///" ++ a ++ p ++ z)).
  Proof.
    intros A Q Z N. unfold line, tabs. eapply Tk_eq; [apply (Tk_doc (a ++ p ++ z)); [|exact N]|reflexivity|cbn; now rewrite !app_assoc_s].
    apply one_app; auto. now apply one_app.
  Qed.

  Lemma inner_flat ks : flat (map (fun k => Leaf (KInner k)) ks) = map KInner ks.
  Proof. induction ks as [|k ks IH]; [reflexivity|cbn; f_equal; exact IH]. Qed.
  Lemma k_pallet d : weights_ok d -> runtime_style d = false -> exists ks, Tk (flat (t_inner (w_style d) ks ++ t_pallet d)) (pallet_text u v d).
  Proof.
    intros D R. destruct (k_preamble _ (ok_preamble d D)) as (ks & T). exists ks. unfold pallet_text. eapply Tk_tok.
    - apply Tk_app; [exact T|]. do 3 lit_app. lit_app. do 2 lit_app. lit_app.
      apply Tk_app; [apply (k_docline " Weight functions needed for " (w_pallet d) "."); [now apply one_by|apply (ok_pallet d D)|now apply one_by|now apply nb]|].
      lit_app. apply Tk_app; [apply (Tk_lines _ (fun b => flat (t_decl b))); intros b I; apply k_decl; now apply (ok_benches d D)|].
      lit_app. lit_app.
      apply Tk_app; [apply (k_docline " Weights for " (w_pallet d) " using the Substrate node and recommended hardware."); [now apply one_by|apply (ok_pallet d D)|now apply one_by|now apply nb]|].
      lit_app. lit_app. apply Tk_app; [apply (Tk_lines _ (fun b => flat (t_fn (w_style d) false b))); intros b I; apply (k_fn _ false); now apply (ok_benches d D)|].
      lit_app. lit_app. lit_app. lit_app.
      apply Tk_app; [apply (Tk_lines _ (fun b => flat (t_fn (w_style d) true b))); intros b I; apply (k_fn _ true); now apply (ok_benches d D)|]. lit.
    - rewrite <- !flat_map_flat. replace (t_inner (w_style d) ks) with (t_inner Pallet_parts ks).
      2:{ unfold runtime_style in R. unfold t_inner. now destruct (w_style d). }
      unfold t_pallet, t_inner, use1, use2, struct_, impl_, bound_. rewrite <- inner_flat, !flat_app.
      unfold flat. cbn [flat_map flat1 app]. rewrite <- !app_assoc. cbn [app]. rewrite <- ?app_assoc. reflexivity.
  Qed.
  Lemma concat_colons l s : l <> [] -> (String.concat "::" l ++ "::" ++ s)%string = (lines (fun x => x ++ "::")%string l ++ s)%string.
  Proof.
    induction l as [|x [|y l] IH]; intros N; [congruence|cbn [String.concat lines map]; unfold lines; cbn [map String.concat]; now rewrite app_assoc_s|].
    unfold lines in *. cbn [map String.concat] in *. rewrite !app_assoc_s, IH by discriminate. now rewrite !app_assoc_s.
  Qed.
  Lemma k_module l : (forall x, In x l -> identifier x) -> Tk (flat_map (fun x => [KIdent x; KColons]) l) (lines (fun x => x ++ "::")%string l).
  Proof.
    intros H. apply (Tk_lines _ (fun x => [KIdent x; KColons])). intros x I. apply Tk_ident; [now apply H|side..|].
    intros us r Q. cbn [app]. now apply (L_colons us r).
  Qed.
  Lemma k_runtime d : weights_ok d -> runtime_style d = true -> exists l ks, Tk (flat (t_inner (w_style d) ks ++ t_runtime l d)) (runtime_text u v d).
  Proof.
    intros D R. destruct (k_preamble _ (ok_preamble d D)) as (ks & T).
    destruct (ok_module d D) as (l & Nl & Il & El); [unfold runtime_style in R; destruct (w_style d); auto; discriminate R|].
    exists l, ks. unfold runtime_text.
    assert (A : Tk (flat (match w_style d with Runtime_parts => [P "#"; P "!"; Group DBracket [W "allow"; Group DParen [W "missing_docs"]]] | _ => [] end))
        (match w_style d with Runtime_old => "" | _ => line 0 "#![allow(missing_docs)]" end)).
    { unfold runtime_style in R. destruct (w_style d); try discriminate R; [lit|exact Tk_nil]. }
    assert (U : Tk (flat ([W "use"] ++ use4 (w_style d) ++ [P ";"])) (line 0 (match w_style d with Runtime_old => "use sp_std::marker::PhantomData;" | _ => "use core::marker::PhantomData;" end))).
    { destruct (w_style d); lit. }
    eapply Tk_tok.
    - apply Tk_app; [exact T|]. do 3 lit_app. apply Tk_app; [exact A|]. lit_app. lit_app. apply Tk_app; [exact U|]. lit_app.
      apply Tk_app; [apply (k_docline " Weight functions for `" (w_pallet d) "`."); [now apply one_by|apply (ok_pallet d D)|now apply one_by|now apply nb]|].
      lit_app. apply Tk_app.
      { unfold line. change (tabs 0 ++ ?s)%string with s. rewrite El. rewrite !app_assoc_s. change ("::WeightInfo for WeightInfo<T> {" ++ nl)%string with ("::" ++ "WeightInfo for WeightInfo<T> {" ++ nl)%string.
        rewrite concat_colons by exact Nl. lit_app. apply Tk_app; [now apply k_module|]. lit. }
      apply Tk_app; [apply (Tk_lines _ (fun b => flat (t_fn (w_style d) false b))); intros b I; apply (k_fn _ false); now apply (ok_benches d D)|]. lit.
    - rewrite <- !flat_map_flat. unfold t_runtime, t_inner, use3, struct_, impl_at, bound_. rewrite <- inner_flat, !flat_app, flat_map_flat.
      unfold flat. cbn [flat_map flat1 app]. rewrite <- !app_assoc. cbn [app]. rewrite <- ?app_assoc. cbn [app]. rewrite <- ?app_assoc. reflexivity.
  Qed.

  Lemma good_docs ds : forallb good (map tdoc ds) = true. Proof. induction ds; auto. Qed.
  Lemma good_flat {A} (f : A -> list tt) l : (forall x, In x l -> forallb good (f x) = true) -> forallb good (flat_map f l) = true.
  Proof. induction l as [|x l IH]; intros H; [reflexivity|]. cbn. rewrite forallb_app, (H x) by now left. apply IH. intros y I. apply H. now right. Qed.
  Lemma good_conv st c : forallb good (t_conv st c) = true. Proof. now destruct st. Qed.
  Lemma good_part st r p : forallb good (t_part st r p) = true. Proof. destruct st, p, r; reflexivity. Qed.
  Lemma good_fn st r b : forallb good (t_fn st r b) = true.
  Proof.
    unfold t_fn. rewrite forallb_app, good_docs. cbn [forallb good andb]. rewrite (good_flat t_param) by reflexivity. cbn [andb].
    unfold t_body. rewrite forallb_app. rewrite good_flat.
    - destruct st; cbn [t_base]; try destruct (N.eqb _ _); reflexivity.
    - intros p _. unfold t_add. cbn [forallb good]. now rewrite good_part.
  Qed.
  Lemma good_inner st ks : forallb good (t_inner st ks) = true.
  Proof.
    unfold t_inner. rewrite !forallb_app. assert (E : forallb good (map (fun k => Leaf (KInner k)) ks) = true) by (induction ks; auto).
    rewrite E. now destruct st.
  Qed.
  Lemma good_pallet d : forallb good (t_pallet d) = true.
  Proof.
    unfold t_pallet. rewrite !forallb_app. cbn [forallb good andb].
    rewrite !good_flat; [reflexivity|intros; apply good_fn..|].
    intros b _. unfold t_decl. cbn [forallb good andb]. now rewrite (good_flat t_param).
  Qed.
  Lemma good_runtime l d : forallb good (t_runtime l d) = true.
  Proof.
    unfold t_runtime, impl_at. rewrite !forallb_app. cbn [forallb good andb]. rewrite !good_flat; [reflexivity|intros; apply good_fn|reflexivity].
  Qed.

  (** The file denotes these items. *)
  Lemma file_items d : weights_ok d -> text_of (items_of d) (file_text u v d).
  Proof.
    intros D. destruct (runtime_style d) eqn:R.
    - destruct (k_runtime d D R) as (l & ks & T). exists (flat (t_inner (w_style d) ks ++ t_runtime l d)), (t_inner (w_style d) ks), (t_runtime l d).
      split; [|split; [|split; [apply gr_inner|now apply gr_runtime]]].
      + replace (file_text u v d) with (runtime_text u v d); [now apply Tk_all|]. unfold runtime_style in R. unfold file_text. now destruct (w_style d).
      + apply flat_tokens. now rewrite forallb_app, good_inner, good_runtime.
    - destruct (k_pallet d D R) as (ks & T). exists (flat (t_inner (w_style d) ks ++ t_pallet d)), (t_inner (w_style d) ks), (t_pallet d).
      split; [|split; [|split; [apply gr_inner|now apply gr_pallet]]].
      + replace (file_text u v d) with (pallet_text u v d); [now apply Tk_all|]. unfold runtime_style in R. unfold file_text. now destruct (w_style d).
      + apply flat_tokens. now rewrite forallb_app, good_inner, good_pallet.
  Qed.
End Text.
