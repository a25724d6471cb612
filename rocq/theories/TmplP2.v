(** The files of the benchmarking template are texts of the grammar. *)
From Coq Require Import List String Ascii NArith Bool Lia.
From Verif Require Import Base CompareM SpecCompare SpecFmt SynM SpecAttr LexM SpecText SpecTmpl AttrM AttrP LexP TmplP.
Import ListNotations.
Local Open Scope string_scope.
Local Open Scope list_scope.

(** ** Trees *)
Fixpoint flat1 (t : tt) : list tok :=
  match t with Leaf t => [t] | Group d l => KOpen d :: flat_map flat1 l ++ [KClose d] end.
Definition flat (l : list tt) : list tok := flat_map flat1 l.
Fixpoint good (t : tt) : bool :=
  match t with Leaf (KOpen _) | Leaf (KClose _) => false | Leaf _ => true | Group _ l => forallb good l end.
Lemma flat_app a b : flat (a ++ b) = flat a ++ flat b. Proof. apply flat_map_app. Qed.
Lemma flat_tokens l : forallb good l = true -> tokens_of l (flat l).
Proof.
  revert l. assert (X : forall t, good t = true -> forall l ts, tokens_of l ts -> tokens_of (t :: l) (flat1 t ++ ts)).
  2:{ induction l as [|t l IH]; intros G; [constructor|]. cbn in G. apply andb_true_iff in G. now apply X, IH. }
  fix F 1. intros [t|d b] G l ts T.
  - cbn. constructor; auto. destruct t; split; discriminate.
  - cbn [flat1 app]. rewrite <- app_assoc. cbn [app]. constructor; auto. cbn in G. revert b G.
    fix H 1. intros [|x b] G; [constructor|]. cbn in G. apply andb_true_iff in G. cbn. apply F; [apply G|apply H, G].
Qed.
Lemma flat_map_flat {A} (f : A -> list tt) l : flat (flat_map f l) = flat_map (fun x => flat (f x)) l.
Proof. induction l as [|x l IH]; [reflexivity|]. cbn. now rewrite flat_app, IH. Qed.

(** What is added to the base weight. *)
Inductive part := PSize (n : N) | PSlope (c : string) (k : N) | PAccess (what : string) (n : N) | PAccessBy (what c : string) (n : N) | PProof (c : string) (n : N).
Definition base_parts (st : style) (b : bench) : list part := match st with Runtime_parts => [PSize (b_proof b)] | _ => [] end.
Definition more_parts (b : bench) : list part :=
  map (fun p => PSlope (snd (fst p)) (snd p)) (b_slopes b) ++
  (if N.eqb (b_reads b) 0 then [] else [PAccess "reads" (b_reads b)]) ++ map (fun p => PAccessBy "reads" (fst p) (snd p)) (b_reads_by b) ++
  (if N.eqb (b_writes b) 0 then [] else [PAccess "writes" (b_writes b)]) ++ map (fun p => PAccessBy "writes" (fst p) (snd p)) (b_writes_by b) ++
  map (fun p => PProof (fst p) (snd p)) (b_proof_by b).
Definition parts (st : style) (b : bench) : list part := base_parts st b ++ more_parts b.

Definition db_name (rocks : bool) : string := if rocks then "RocksDbWeight" else "T::DbWeight".
Definition db_segments (rocks : bool) : list string := if rocks then ["RocksDbWeight"; "get"] else ["T"; "DbWeight"; "get"].
Definition num (n : N) : tt := Leaf (KInt n).
Definition t_weight (a b : N) : list tt := [W "Weight"; Leaf KColons; W "from_parts"; Group DParen [num a; P ","; num b]].
Definition t_weight1 (f : string) (a : N) : list tt := [W "Weight"; Leaf KColons; W f; Group DParen [num a]].
Definition t_into (c : string) : list tt := [W c; P "."; W "into"; Group DParen []].
Definition t_get (rocks : bool) : list tt :=
  (if rocks then [W "RocksDbWeight"] else [W "T"; Leaf KColons; W "DbWeight"]) ++ [Leaf KColons; W "get"; Group DParen []].
Definition t_as (l : list tt) : list tt := l ++ [W "as"] ++ [W "Weight"].
Definition t_time (st : style) (n : N) : list tt :=
  match st with Pallet_time => t_weight1 "from_ref_time" n | Runtime_old => [Group DParen (t_as [num n])] | _ => t_weight n 0 end.
Definition t_size (st : style) (n : N) : list tt := match st with Pallet_time => t_weight1 "from_proof_size" n | _ => t_weight 0 n end.
Definition t_conv (st : style) (c : string) : list tt := match st with Runtime_old => t_as [W c] | _ => t_into c end.
Definition t_count (st : style) (n : N) : list tt := match st with Runtime_old => t_as [num n] | _ => [num n] end.
Definition t_mul (l : list tt) (st : style) (c : string) : list tt := l ++ [P "."; W "saturating_mul"; Group DParen (t_conv st c)].
Definition t_part (st : style) (rocks : bool) (p : part) : list tt :=
  match p with
  | PSize n => t_size st n
  | PSlope c k => t_mul (t_time st k) st c
  | PAccess what n => t_get rocks ++ [P "."; W what; Group DParen (t_count st n)]
  | PAccessBy what c n => t_get rocks ++ [P "."; W what; Group DParen (t_mul [Group DParen (t_count st n)] st c)]
  | PProof c n => t_mul (t_size st n) st c
  end.
Definition t_add (l : list tt) : list tt := [P "."; W "saturating_add"; Group DParen l].
Definition t_base (st : style) (b : bench) : list tt :=
  match st with
  | Pallet_parts => t_weight (b_time b) (b_proof b)
  | Pallet_time => if N.eqb (b_proof b) 0 then t_time st (b_time b) else t_weight (b_time b) (b_proof b)
  | _ => t_time st (b_time b)
  end.
Definition t_body (st : style) (rocks : bool) (b : bench) : list tt :=
  t_base st b ++ flat_map (fun p => t_add (t_part st rocks p)) (parts st b).

Definition e_path (l : list string) : expr := EPath (mk_path false l).
Definition e_int (n : N) : expr := ELit (LInt n).
Definition e_meth (e : expr) (m : string) (args : list expr) : expr := EMethodCall e m args false.
Definition e_weight (a b : N) : expr := ECall (e_path ["Weight"; "from_parts"]) [e_int a; e_int b] false.
Definition e_weight1 (f : string) (a : N) : expr := ECall (e_path ["Weight"; f]) [e_int a] false.
Definition e_into (c : string) : expr := e_meth (e_path [c]) "into" [].
Definition e_get (rocks : bool) : expr := ECall (e_path (db_segments rocks)) [] false.
Definition e_time (st : style) (n : N) : expr :=
  match st with Pallet_time => e_weight1 "from_ref_time" n | Runtime_old => EParen (ECast (e_int n)) | _ => e_weight n 0 end.
Definition e_size (st : style) (n : N) : expr := match st with Pallet_time => e_weight1 "from_proof_size" n | _ => e_weight 0 n end.
Definition e_conv (st : style) (c : string) : expr := match st with Runtime_old => ECast (e_path [c]) | _ => e_into c end.
Definition e_count (st : style) (n : N) : expr := match st with Runtime_old => ECast (e_int n) | _ => e_int n end.
Definition e_mul (e : expr) (st : style) (c : string) : expr := e_meth e "saturating_mul" [e_conv st c].
Definition e_part (st : style) (rocks : bool) (p : part) : expr :=
  match p with
  | PSize n => e_size st n
  | PSlope c k => e_mul (e_time st k) st c
  | PAccess what n => e_meth (e_get rocks) what [e_count st n]
  | PAccessBy what c n => e_meth (e_get rocks) what [e_mul (EParen (e_count st n)) st c]
  | PProof c n => e_mul (e_size st n) st c
  end.
Definition e_base (st : style) (b : bench) : expr :=
  match st with
  | Pallet_parts => e_weight (b_time b) (b_proof b)
  | Pallet_time => if N.eqb (b_proof b) 0 then e_time st (b_time b) else e_weight (b_time b) (b_proof b)
  | _ => e_time st (b_time b)
  end.
Definition e_body (st : style) (rocks : bool) (b : bench) : expr :=
  fold_left (fun e p => e_meth e "saturating_add" [e_part st rocks p]) (parts st b) (e_base st b).

Definition part_ok (p : part) : Prop :=
  match p with
  | PSize _ => True
  | PSlope c _ | PProof c _ => identifier c
  | PAccess what _ => what = "reads" \/ what = "writes"
  | PAccessBy what c _ => identifier c /\ (what = "reads" \/ what = "writes")
  end.
Lemma base_part st b p : In p (base_parts st b) -> st = Runtime_parts /\ p = PSize (b_proof b).
Proof. destruct st; cbn; intuition. Qed.
Lemma parts_ok st b : bench_ok b -> forall p, In p (parts st b) -> part_ok p.
Proof.
  intros B p I. assert (U : forall c, uses b c -> identifier c) by (intros c Hc; apply (ok_uses b B c Hc)).
  unfold parts in I. apply in_app_iff in I as [I|I]; [apply base_part in I as [_ ->]; exact Logic.I|].
  unfold more_parts in I. rewrite !in_app_iff in I. destruct I as [I|[I|[I|[I|[I|I]]]]].
  - apply in_map_iff in I. destruct I as (q & <- & I). apply U. left. apply in_map_iff. eauto.
  - destruct (N.eqb _ _); [destruct I|]. destruct I as [<-|[]]. now left.
  - apply in_map_iff in I. destruct I as (q & <- & I). split; [|now left]. apply U. right. left. apply in_map_iff. eauto.
  - destruct (N.eqb _ _); [destruct I|]. destruct I as [<-|[]]. now right.
  - apply in_map_iff in I. destruct I as (q & <- & I). split; [|now right]. apply U. right. right. left. apply in_map_iff. eauto.
  - apply in_map_iff in I. destruct I as (q & <- & I). apply U. right. right. right. apply in_map_iff. eauto.
Qed.

(** ** Grammar *)
Lemma name_by x : existsb (String.eqb x) reserved = false -> name x.
Proof. intros E I. assert (existsb (String.eqb x) reserved = true) by (apply existsb_exists; exists x; split; [auto|apply String.eqb_refl]). congruence. Qed.
Ltac nm := apply name_by; reflexivity.
Lemma g_up e l : g_call e l -> g_sum e l. Proof. intros. now apply G_product, G_cast, G_call. Qed.
Lemma gr_int n : g_sum (e_int n) [num n]. Proof. apply g_up. constructor. Qed.
Lemma gr_weight a b : g_call (e_weight a b) (t_weight a b).
Proof.
  apply (G_apply (e_path ["Weight"; "from_parts"]) [W "Weight"; Leaf KColons; W "from_parts"]).
  - apply G_path, P_relative, S_more; [nm|]. apply S_one. nm.
  - apply (A_more (e_int a) [num a] [e_int b] false [num b]); [apply gr_int|discriminate|]. apply A_last, gr_int.
Qed.
Lemma gr_weight1 f a : name f -> g_call (e_weight1 f a) (t_weight1 f a).
Proof.
  intros N. apply (G_apply (e_path ["Weight"; f]) [W "Weight"; Leaf KColons; W f]).
  - apply G_path, P_relative, S_more; [nm|]. now apply S_one.
  - apply A_last, gr_int.
Qed.
Lemma gr_into c : identifier c -> g_sum (e_into c) (t_into c).
Proof. intros (_ & _ & N). apply g_up. apply (G_method (e_path [c]) [W c] "into" [] false []); [|nm|constructor]. now apply G_path, P_relative, S_one. Qed.
Lemma gr_get r : g_call (e_get r) (t_get r).
Proof.
  destruct r.
  - apply (G_apply (e_path ["RocksDbWeight"; "get"]) [W "RocksDbWeight"; Leaf KColons; W "get"] [] false []); [|constructor].
    apply G_path, P_relative, S_more; [nm|]. apply S_one. nm.
  - apply (G_apply (e_path ["T"; "DbWeight"; "get"]) [W "T"; Leaf KColons; W "DbWeight"; Leaf KColons; W "get"] [] false []); [|constructor].
    apply G_path, P_relative, S_more; [nm|]. apply S_more; [nm|]. apply S_one. nm.
Qed.
Lemma gr_as e l : g_cast e l -> g_sum (ECast e) (t_as l).
Proof. intros G. apply G_product, G_cast, (G_as e l (mk_path false ["Weight"])); [exact G|]. apply P_relative, S_one. nm. Qed.
Lemma gr_num n : g_cast (e_int n) [num n]. Proof. apply G_call. constructor. Qed.
Lemma gr_time st n : g_call (e_time st n) (t_time st n).
Proof. destruct st; cbn [e_time t_time]; auto using gr_weight; [apply gr_weight1; nm|]. apply G_paren, gr_as, gr_num. Qed.
Lemma gr_size st n : g_call (e_size st n) (t_size st n).
Proof. destruct st; cbn [e_size t_size]; auto using gr_weight. apply gr_weight1. nm. Qed.
Lemma gr_conv st c : identifier c -> g_sum (e_conv st c) (t_conv st c).
Proof. intros I. destruct st; cbn [e_conv t_conv]; auto using gr_into. apply gr_as, G_call, G_path, P_relative, S_one, I. Qed.
Lemma gr_count st n : g_sum (e_count st n) (t_count st n).
Proof. destruct st; cbn [e_count t_count]; auto using gr_int. apply gr_as, gr_num. Qed.
Lemma gr_mul st e l c : g_call e l -> identifier c -> g_call (e_mul e st c) (t_mul l st c).
Proof. intros G I. apply G_method; [exact G|nm|]. apply A_last. now apply gr_conv. Qed.
Lemma gr_part st r p : part_ok p -> g_sum (e_part st r p) (t_part st r p).
Proof.
  destruct p; cbn [part_ok]; intros O.
  - apply g_up, gr_size.
  - apply g_up, gr_mul; [apply gr_time|exact O].
  - apply g_up. apply G_method; [apply gr_get|destruct O as [->| ->]; nm|]. apply A_last, gr_count.
  - apply g_up. destruct O as [I O]. apply G_method; [apply gr_get|destruct O as [->| ->]; nm|]. apply A_last. apply g_up, gr_mul; auto.
    apply G_paren, gr_count.
  - apply g_up, gr_mul; [apply gr_size|exact O].
Qed.
Lemma gr_sum st r ps : (forall p, In p ps -> part_ok p) -> forall e l, g_call e l ->
  g_call (fold_left (fun e p => e_meth e "saturating_add" [e_part st r p]) ps e) (l ++ flat_map (fun p => t_add (t_part st r p)) ps).
Proof.
  induction ps as [|p ps IH]; intros O e l G; [now rewrite app_nil_r|]. cbn [fold_left flat_map]. rewrite app_assoc. apply IH.
  - intros q I. apply O. now right.
  - apply G_method; [exact G|nm|]. apply A_last, gr_part, O. now left.
Qed.
Lemma gr_base st b : g_call (e_base st b) (t_base st b).
Proof. destruct st; cbn [e_base t_base]; try destruct (N.eqb _ _); auto using gr_weight; apply gr_time. Qed.
Lemma gr_body st r b : bench_ok b -> g_sum (e_body st r b) (t_body st r b).
Proof. intros B. apply g_up, gr_sum; [now apply (parts_ok st b)|apply gr_base]. Qed.

(** ** Lines *)
Lemma nb al s : starts (class al) s = false -> ~ begins al s.
Proof. apply (begins_not (class al)). reflexivity. Qed.
Lemma Tk_eq ts ts' s s' : Tk ts' s' -> ts = ts' -> s = s' -> Tk ts s. Proof. intros T -> ->. exact T. Qed.
Lemma Tk_tok ts ts' s : Tk ts' s -> ts = ts' -> Tk ts s. Proof. now intros T ->. Qed.
Lemma Tk_int0 d n ts s : is_numeral d n -> ~ begins word_chars s -> ~ begins "." s -> s <> ""%string -> Tk ts s -> Tk (KInt n :: ts) (d ++ s)%string.
Proof. intros D. apply (Tk_int d ""); auto. now left. Qed.
Lemma u64 : suffix "u64". Proof. right. exists "u"%char, "64"%string. repeat split; [now left|]. do 3 right. now left. Qed.
Lemma Tk_u64 d n ts s : is_numeral d n -> ~ begins word_chars s -> ~ begins "." s -> s <> ""%string -> Tk ts s -> Tk (KInt n :: ts) (d ++ "_u64" ++ s)%string.
Proof.
  intros (B & O & R) A D N T. eapply Tk_eq; [apply (Tk_int (d ++ "_") "u64" n ts s); auto using u64|reflexivity|].
  - split; [|split].
    + destruct B as (c & t & -> & I). exists c, (t ++ "_")%string. auto.
    + intros c I. rewrite StrP.list_ascii_app in I. apply in_app_iff in I. destruct I as [I|[<-|[]]]; [now apply O|]. apply class_in'. reflexivity.
    + rewrite <- R. f_equal. rewrite <- !CompareP4.strip_without. clear. induction d as [|c d IH]; [reflexivity|]. cbn. destruct (Ascii.eqb c "_"); [exact IH|now rewrite IH].
  - now rewrite app_assoc_s.
Qed.

Ltac lit := eapply Tk_lit; [vm_compute; reflexivity|reflexivity].
Ltac lit_app := eapply Tk_app; [lit|].
Ltac side := solve [apply nb; reflexivity|discriminate|assumption].
Section Lines.
  Variables u v : N -> string.
  Hypotheses (Hu : numerals u) (Hv : numerals v).

  Lemma k_time st n : Tk (flat (t_time st n)) (time_text u st n).
  Proof. destruct st; cbn [time_text t_time]; (eapply Tk_tok; [lit_app; apply Tk_int0; [apply Hu|side..|]; lit|reflexivity]). Qed.
  Lemma k_size st n : Tk (flat (t_size st n)) (size_text v st n).
  Proof. destruct st; cbn [size_text t_size]; (eapply Tk_tok; [lit_app; apply Tk_int0; [apply Hv|side..|]; lit|reflexivity]). Qed.
  (** What stands between the brackets, with what closes them. *)
  Ltac conv := intros I; match goal with st : style |- _ => destruct st end; cbn [t_conv conv_text]; rewrite !app_assoc_s;
    (eapply Tk_tok; [apply Tk_ident; [exact I|side..|]; lit|reflexivity]).
  Lemma k_conv2 st c : identifier c -> Tk (flat (t_conv st c) ++ [KClose DParen; KClose DParen]) (conv_text st c ++ "))" ++ nl).
  Proof. conv. Qed.
  Lemma k_conv3 st c : identifier c -> Tk (flat (t_conv st c) ++ [KClose DParen; KClose DParen; KClose DParen]) (conv_text st c ++ ")))" ++ nl).
  Proof. conv. Qed.
  Lemma k_count st n : Tk (flat (t_count st n) ++ [KClose DParen; KClose DParen]) (count_text v st n ++ "))" ++ nl).
  Proof.
    destruct st; cbn [t_count count_text]; rewrite ?app_assoc_s;
      (eapply Tk_tok; [first [apply Tk_u64; [apply Hv|side..|]; lit|apply Tk_int0; [apply Hv|side..|]; lit]|reflexivity]).
  Qed.
  Lemma k_factor st n : Tk (flat (t_count st n) ++ [KClose DParen; KPunct "."; KIdent "saturating_mul"; KOpen DParen]) (factor_text v st n ++ ").saturating_mul(").
  Proof.
    destruct st; cbn [t_count factor_text]; rewrite ?app_assoc_s;
      (eapply Tk_tok; [first [apply Tk_u64; [apply Hv|side..|]; lit|apply Tk_int0; [apply Hv|side..|]; lit]|reflexivity]).
  Qed.

  Lemma k_size_line st n : Tk (flat (t_add (t_size st n))) (line 3 (".saturating_add(" ++ size_text v st n ++ ")")).
  Proof.
    unfold line. rewrite !app_assoc_s. apply Tk_tabs. eapply Tk_tok; [lit_app; apply Tk_app; [apply k_size|]; lit|].
    unfold t_add, flat. cbn [flat_map flat1 app]. now rewrite <- ?app_assoc.
  Qed.
  Lemma k_base st r b : Tk (flat (t_base st b ++ flat_map (fun p => t_add (t_part st r p)) (base_parts st b))) (base_text u v st b).
  Proof.
    assert (A : Tk (flat (t_weight (b_time b) (b_proof b))) (parts_line u v b)).
    { unfold parts_line, line. rewrite !app_assoc_s. apply Tk_tabs.
      eapply Tk_tok; [lit_app; apply Tk_int0; [apply Hu|side..|]; lit_app; apply Tk_int0; [apply Hv|side..|]; lit|reflexivity]. }
    assert (B : Tk (flat (t_time st (b_time b))) (line 2 (time_text u st (b_time b)))).
    { unfold line. apply Tk_tabs. eapply Tk_tok; [apply Tk_app; [apply k_time|]; lit|]. now rewrite app_nil_r. }
    destruct st; cbn [t_base base_parts base_text flat_map t_part]; rewrite ?app_nil_r; auto.
    - destruct (N.eqb _ _); auto.
    - rewrite flat_app. apply Tk_app; [exact B|]. apply (k_size_line Runtime_parts).
  Qed.
  Lemma k_slope st e c k r : one_line e -> identifier c -> Tk (flat (t_add (t_part st r (PSlope c k)))) (slope_line u st (e, c, k)).
  Proof.
    intros E I. unfold slope_line, line. cbn [fst snd]. apply (Tk_app []).
    - apply Tk_tabs. eapply Tk_eq; [apply (Tk_comment (" Standard Error: " ++ e))|reflexivity|].
      + intros x J. cbn in J. repeat (destruct J as [<-|J]; [intros [K|[K|[]]]; discriminate K|]). now apply E.
      + left. now apply nb.
      + now rewrite !app_assoc_s.
    - rewrite !app_assoc_s. apply Tk_tabs. eapply Tk_tok; [lit_app; apply Tk_app; [apply k_time|]; lit_app; apply k_conv2; exact I|].
      unfold t_add, t_part, t_mul, flat. cbn [flat_map flat1 app].
      rewrite flat_map_app, <- !app_assoc. cbn [flat_map flat1 app]. now rewrite <- ?app_assoc.
  Qed.
  Lemma k_proof st c n r : identifier c -> Tk (flat (t_add (t_part st r (PProof c n)))) (proof_line v st (c, n)).
  Proof.
    intros I. unfold proof_line, line. cbn [fst snd]. rewrite !app_assoc_s. apply Tk_tabs.
    eapply Tk_tok; [lit_app; apply Tk_app; [apply k_size|]; lit_app; apply k_conv2; exact I|].
    unfold t_add, t_part, t_mul, flat. cbn [flat_map flat1 app].
      rewrite flat_map_app, <- !app_assoc. cbn [flat_map flat1 app]. now rewrite <- ?app_assoc.
  Qed.
  Lemma k_access st what n r : what = "reads" \/ what = "writes" ->
    Tk (flat (flat_map (fun p => t_add (t_part st r p)) (if N.eqb n 0 then [] else [PAccess what n]))) (access_line v st (db_name r) what n).
  Proof.
    intros O. unfold access_line, line. destruct (N.eqb n 0); [exact Tk_nil|]. rewrite !app_assoc_s. apply Tk_tabs.
    eapply Tk_eq; [eapply (Tk_app (KPunct "." :: KIdent "saturating_add" :: KOpen DParen :: flat (t_get r) ++ [KPunct "."; KIdent what; KOpen DParen]) _ (".saturating_add(" ++ db_name r ++ "::get()." ++ what ++ "(") (count_text v st n ++ "))" ++ nl))|..].
    - destruct r, O as [->| ->]; lit.
    - apply k_count.
    - unfold t_add. cbn [flat flat_map flat1 t_part app]. rewrite flat_map_app. cbn. repeat (rewrite <- !app_assoc; cbn [app]); reflexivity.
    - now rewrite !app_assoc_s.
  Qed.
  Lemma k_access_by st what c n r : identifier c -> what = "reads" \/ what = "writes" ->
    Tk (flat (t_add (t_part st r (PAccessBy what c n)))) (access_by_line v st (db_name r) what (c, n)).
  Proof.
    intros I O. unfold access_by_line, line. cbn [fst snd]. rewrite !app_assoc_s. apply Tk_tabs.
    eapply Tk_eq; [eapply (Tk_app (KPunct "." :: KIdent "saturating_add" :: KOpen DParen :: flat (t_get r) ++ [KPunct "."; KIdent what; KOpen DParen; KOpen DParen]) _ (".saturating_add(" ++ db_name r ++ "::get()." ++ what ++ "((") ((factor_text v st n ++ ").saturating_mul(") ++ (conv_text st c ++ ")))" ++ nl)))|..].
    - destruct r, O as [->| ->]; lit.
    - apply Tk_app; [apply k_factor|]. apply k_conv3, I.
    - unfold t_add, t_mul. cbn [flat flat_map flat1 t_part app]. rewrite flat_map_app. unfold t_mul. cbn [flat flat_map flat1 app]. unfold flat. repeat (progress (rewrite <- ?app_assoc; cbn [app])); reflexivity.
    - now rewrite !app_assoc_s.
  Qed.
End Lines.
