(** Properties C01-C10: weight equations and scopes. *)
From Coq Require Import List String NArith Sorting.Sorted.
From Verif Require Import Base ScopeM TermM SpecTerm SpecScope SpecChrom.
From Verif Require TermP TermP2 ScopeP ChromP.
Import ListNotations.
Local Open Scope string_scope.
Local Open Scope N_scope.

(** ** C01: evaluating a weight equation is exact integer arithmetic. *)
Theorem C01_eval_exact : forall sc rho t,
  binds sc rho t ->
  (forall m, (forall s, subterm s t -> poly_val rho s < u128_bound) ->
     eval m sc t = Ok (poly_val rho t)) /\
  (u128_term t -> (forall x, occurs x t -> rho x < u128_bound) ->
     ((exists s, subterm s t /\ u128_bound <= poly_val rho s) ->
        exists why, eval Checked sc t = Panic why) /\
     eval Wrapping sc t = Ok (poly_val rho t mod u128_bound)).
Proof. exact TermP.eval_exact_lemma. Qed.
Print Assumptions C01_eval_exact.

(** [3 * n + 5] at [n = 7]; and [n * n] at [n = 2^127], which overflows. *)
Example C01_ex_value :
  let sc := [("n", Scalar 7)] in let t := Add (Mul (Scalar 3) (Var "n")) (Value 5) in
  binds sc (fun _ => 7) t /\ eval Checked sc t = Ok 26.
Proof.
  split; [|reflexivity]. intros x [<-|[]]. exists (Scalar 7). split; reflexivity.
Qed.
Example C01_ex_overflow :
  let sc := [("n", Scalar (2 ^ 127))] in let t := Mul (Var "n") (Var "n") in
  (exists why, eval Checked sc t = Panic why) /\ eval Wrapping sc t = Ok 0.
Proof. split; [eexists|]; vm_compute; reflexivity. Qed.

(** ** C02: evaluation fails exactly on an unbound variable, and names one. *)
Theorem C02_eval_err : forall m sc t,
  number_scope sc ->
  (forall msg, eval m sc t = Err msg ->
     exists x, leftmost_unbound sc t x /\ msg = "Variable '" ++ x ++ "' not found") /\
  (forall x, occurs x t -> ~ bound_in sc x ->
     (exists msg, eval m sc t = Err msg) \/ (m = Checked /\ exists why, eval m sc t = Panic why)) /\
  eval m sc t <> Diverge.
Proof. exact TermP.eval_err_lemma. Qed.
Print Assumptions C02_eval_err.

Example C02_ex :
  let sc := [("a", Scalar 2)] in let t := Add (Var "a") (Mul (Var "c") (Var "b")) in
  number_scope sc /\ eval Checked sc t = Err "Variable 'c' not found".
Proof.
  split; [|reflexivity]. intros x u. simpl. unfold scope_get; simpl.
  destruct (str_cmp x "a"); try discriminate. inversion 1; discriminate.
Qed.

(** ** C03: evaluation terminates unless the scope is cyclic. *)
Theorem C03_eval_terminates : forall m sc t,
  (forall r, r <> Diverge -> (eval m sc t = r <-> evals m sc t r)) /\
  (eval m sc t = Diverge ->
     (forall r, ~ evals m sc t r) /\ exists x, reaches sc t x /\ depends_plus sc x x).
Proof. exact TermP.eval_cycle_lemma. Qed.
Print Assumptions C03_eval_terminates.

(** An evaluation that ends does so with at most as many nested look-ups as the scope has variables. *)
Theorem C03_depth : forall m sc t r, evals m sc t r -> evals_within m sc (scope_len sc) t r.
Proof. exact TermP2.depth_lemma. Qed.
Print Assumptions C03_depth.

(** A chain of definitions that terminates, and a cycle that does not. *)
Example C03_ex_chain :
  eval Checked [("a", Add (Var "b") (Var "c")); ("b", Mul (Var "c") (Scalar 2)); ("c", Scalar 4)] (Var "a")
  = Ok 12.
Proof. reflexivity. Qed.
Example C03_ex_cycle : eval Checked [("a", Var "b"); ("b", Add (Scalar 1) (Var "a"))] (Var "a") = Diverge.
Proof. reflexivity. Qed.

(** ** C04: free and bound variables (the rendering part is in [PropFmt]). *)
Theorem C04_vars_split : forall (T : Type) (sc : scope (term T)) (t : term T),
  (forall x, In x (free_vars sc t) <-> occurs x t /\ ~ bound_in sc x) /\
  (forall x, In x (bound_vars sc t) <-> occurs x t /\ bound_in sc x) /\
  (forall x, ~ (In x (free_vars sc t) /\ In x (bound_vars sc t))) /\
  (forall x, occurs x t <-> In x (free_vars sc t) \/ In x (bound_vars sc t)) /\
  StronglySorted (fun a b => str_cmp a b = Lt) (free_vars sc t) /\
  StronglySorted (fun a b => str_cmp a b = Lt) (bound_vars sc t).
Proof. exact TermP.vars_split_lemma. Qed.
Print Assumptions C04_vars_split.

Example C04_ex :
  let sc := [("READ", @Scalar N 1)] in
  let t := Add (Mul (Var "s") (Var "READ")) (Mul (Var "n") (Var "s")) in
  free_vars sc t = ["n"; "s"] /\ bound_vars sc t = ["READ"].
Proof. split; reflexivity. Qed.

(** ** C05: substitution is evaluation in an extended scope. *)
Theorem C05_substitute_value : forall m sc v s n t,
  unused sc v -> eval m sc s = Ok n ->
  eval m sc (substitute v s t) = eval m (put_var sc v (Scalar n)) t.
Proof. exact TermP2.subst_value_gen. Qed.
Print Assumptions C05_substitute_value.

Theorem C05_substitute_term : forall m sc v s t,
  unused sc v -> ~ occurs v s ->
  eval m sc (substitute v s t) = eval m (put_var sc v s) t.
Proof. exact TermP2.subst_term_gen. Qed.
Print Assumptions C05_substitute_term.

(** The scopes that the tool builds bind variables to numbers, so they mention no variable. *)
Theorem C05_numbers : forall sc v, number_scope sc -> unused sc v.
Proof. exact TermP2.number_unused. Qed.
Print Assumptions C05_numbers.

Theorem C05_substitute_vars : forall (T : Type) v (s t : term T) x,
  occurs x (substitute v s t) <-> (occurs x t /\ x <> v) \/ (occurs v t /\ occurs x s).
Proof. exact @TermP.subst_occurs_lemma. Qed.
Print Assumptions C05_substitute_vars.

Example C05_ex :
  let sc := [("n", Scalar 5)] in let s := Mul (Scalar 2) (Var "n") in
  let t := Add (Var "READ") (Var "n") in
  eval Checked sc s = Ok 10 /\ eval Checked sc (substitute "READ" s t) = Ok 15 /\
  eval Checked (put_var sc "READ" (Scalar 10)) t = Ok 15.
Proof. repeat split; reflexivity. Qed.

(** Definitions: [READ] is used by the definition of [n], but not [v]. *)
Example C05_ex_defs :
  let sc := [("READ", Scalar 3); ("n", Mul (Scalar 5) (Var "READ"))] in
  unused sc "v" /\ eval Checked sc (substitute "v" (Var "n") (Add (Var "v") (Var "n"))) = Ok 30 /\
  eval Checked (put_var sc "v" (Var "n")) (Add (Var "v") (Var "n")) = Ok 30.
Proof.
  split; [|split; reflexivity]. intros x Hx (u & G & O). unfold scope_get in G. cbn [mget] in G.
  destruct (str_cmp x "READ"); [injection G as <-; contradiction| |];
    (destruct (str_cmp x "n"); [injection G as <-; destruct O as [O|[]]; discriminate O|discriminate G|discriminate G]).
Qed.
(** In a scope with a definition that uses the variable the claim is false: substitution does not look into definitions. *)
Theorem C05_definitions_refuted : exists sc v s n t, eval Checked sc s = Ok n /\
  eval Checked sc (substitute v s t) <> eval Checked (put_var sc v (Scalar n)) t.
Proof.
  exists [("n", Var "v"); ("v", Scalar 1)], "v", (Scalar 2), 2, (Var "n"). split; [reflexivity|]. vm_compute. discriminate.
Qed.
Print Assumptions C05_definitions_refuted.

(** ** C06: a scope is a last-write-wins map. *)
Theorem C06_scope_map : forall (T : Type) (e : scope_exp T),
  (forall x v, scope_get (build e) x = Some v <-> latest (writes e) x v) /\
  (forall x, scope_get (build e) x = None <-> ~ In x (map fst (writes e))) /\
  (forall x v, In (x, v) (as_vec (build e)) <-> latest (writes e) x v) /\
  StronglySorted (fun a b => str_cmp (fst a) (fst b) = Lt) (as_vec (build e)) /\
  scope_len (build e) = List.length (nodup string_dec (map fst (writes e))) /\
  (scope_is_empty (build e) = true <-> writes e = []).
Proof. exact ScopeP.scope_spec_lemma. Qed.
Print Assumptions C06_scope_map.

Example C06_ex :
  as_vec (build (SExtend (SPut (SPut SEmpty "b" 1) "a" 2) (SMerge (SWith SEmpty "b" 3) (SPut SEmpty "c" 4))))
  = [("a", 2); ("b", 3); ("c", 4)].
Proof. reflexivity. Qed.

(** ** C07: splitting a two-dimensional equation commutes with evaluating it. *)
Theorem C07_simplify_eval : forall m d ctx t,
  simplify d t = Ok (restrict d t) /\
  (forall w, ceval m ctx t = Ok w ->
     eval m (restrict_scope d ctx) (restrict d t) = Ok (coord d w)).
Proof. exact ChromP.chrom_simplify_lemma. Qed.
Print Assumptions C07_simplify_eval.

Example C07_ex :
  let ctx := [("READ", Scalar 25); ("n", Value {| time := 3; proof := 4 |})] in
  let t := Add (Value {| time := 7; proof := 9 |})
               (Add (Var "n") (Mul (Var "READ") (Value {| time := 2; proof := 0 |}))) in
  ceval Checked ctx t = Ok {| time := 60; proof := 13 |}.
Proof. reflexivity. Qed.

(** ** C08: lifting a one-dimensional equation. *)
Theorem C08_into_chromatic : forall d t,
  (forall m sc, eval m sc (restrict d (into_chromatic d t)) = eval m sc t) /\
  (guarded t -> forall m sc n,
     eval m sc (restrict (other d) (into_chromatic d t)) = Ok n -> n = 0) /\
  (~ guarded t -> 0 < poly_val (fun _ => 1) (restrict (other d) (into_chromatic d t))).
Proof. exact ChromP.into_chromatic_lemma. Qed.
Print Assumptions C08_into_chromatic.

Example C08_ex_guarded :
  guarded (Add (Value 5) (Mul (Scalar 3) (Var "n"))) /\ ~ guarded (Add (Value 5) (Var "n")).
Proof.
  split.
  - intros p [<-|[<-|[]]]; reflexivity.
  - intros H. assert (F : false = true) by (apply (H (false, ["n"])); simpl; auto). discriminate F.
Qed.

(** ** C09: [splice_add] is addition. *)
Theorem C09_splice_add : forall m a b, u128_cterm a -> u128_cterm b ->
  (forall ctx v w s, ceval m ctx a = Ok v -> ceval m ctx b = Ok w -> wadd m v w = Ok s ->
     ceval m ctx (splice_add a b) = Ok s) /\
  (forall d sc v w s, eval m sc (restrict d a) = Ok v -> eval m sc (restrict d b) = Ok w ->
     uadd m v w = Ok s -> eval m sc (restrict d (splice_add a b)) = Ok s) /\
  (forall d rho, poly_val rho (restrict d (splice_add a b)) =
     poly_val rho (restrict d a) + poly_val rho (restrict d b)).
Proof. exact ChromP.splice_lemma. Qed.
Print Assumptions C09_splice_add.

Example C09_ex :
  splice_add (Add (Value {| time := 7; proof := 0 |}) (Var "n"))
             (Add (Value {| time := 0; proof := 9 |}) (Value {| time := 1; proof := 1 |}))
  = Add (Value {| time := 7; proof := 9 |}) (Add (Var "n") (Value {| time := 1; proof := 1 |})).
Proof. reflexivity. Qed.

(** ** C10: the read/write sanity warning. *)
Theorem C10_sanity_check : forall t,
  (sanity_check_term t = Ok tt <->
     forall x k, (x = "READ" \/ x = "WRITE") -> has_factor t x k -> k <= 1000) /\
  (forall msg, sanity_check_term t = Err msg <->
     exists k, 1000 < k /\
       (forall x j, (x = "READ" \/ x = "WRITE") -> has_factor t x j -> j <= k) /\
       ((has_factor t "WRITE" k /\ msg = "Call has " ++ dec_of_N k ++ " WRITEs") \/
        (has_factor t "READ" k /\ ~ has_factor t "WRITE" k /\
         msg = "Call has " ++ dec_of_N k ++ " READs"))) /\
  returns (sanity_check_term t).
Proof. exact ChromP.sanity_lemma. Qed.
Print Assumptions C10_sanity_check.

Example C10_ex :
  sanity_check_term (Add (Value 5) (Add (Mul (Var "READ") (Scalar 2000)) (Mul (Scalar 1001) (Var "WRITE"))))
  = Err "Call has 2000 READs".
Proof. reflexivity. Qed.

(** A factor that is a value instead of a scalar is not seen: "more than 1000
    reads give a warning" does not hold for every equation. *)
Theorem C10_every_large_factor_warned_refuted :
  exists t, eval Checked [("READ", Scalar 1); ("WRITE", Scalar 0)] t = Ok 5000 /\
            sanity_check_term t = Ok tt.
Proof. exists (Mul (Value 5000) (Var "READ")). split; reflexivity. Qed.
Print Assumptions C10_every_large_factor_warned_refuted.
