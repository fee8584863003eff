(** * Theorems about effects: scopes, history, symbols, short circuit, builtins, rule methods
      (C06, C07, C10, C11, C15, C16, C40, C41, C42, C44) *)
From Verif Require Import Base Dec Value DType Types Ops ParseUtil Attr Prog Ast Eval Build Engine ProgFacts StateFacts Demo Truth.
Open Scope Z_scope.

(** ** Specification vocabulary *)

(** earlier use of the context on the same thread: evaluations and constructions, in order, each successful or not *)
Inductive past := PEval (e : expr) (thing : value) | PNew (n : dnode).
Fixpoint history {Orc : Oracle} (C : ctx) (h : list past) : prog unit :=
  match h with
  | [] => ok tt
  | PEval e t :: r => pthen (rule_evaluate C e t) (fun _ => history C r)
  | PNew n :: r => pthen (rule_new C n) (fun _ => history C r)
  end.

Definition is_ok {A} (r : result A) : bool := match r with Ok _ => true | Err _ => false end.
Fixpoint take_while {A} (f : A -> bool) (l : list A) : list A :=
  match l with [] => [] | x :: r => if f x then x :: take_while f r else [] end.
Fixpoint first_error {A} (f : A -> result value) (l : list A) : option exn :=
  match l with [] => None | x :: r => match f x with Err e => Some e | Ok _ => first_error f r end end.

(** ** C06 *)

(** Evaluating an expression (any expression, any thing, any callbacks, any outcome) leaves the scope stack as it was. *)
Theorem C06_expression_restores_scopes : forall (Orc : Oracle) C thing e w q r q',
  run w (eval C thing e) q = (r, q') -> s_scopes q' = s_scopes q.
Proof. intros. assert (E := eval_scopes C thing e w q). rewrite H in E. exact E. Qed.
Print Assumptions C06_expression_restores_scopes.

(** So does constructing a rule. *)
Theorem C06_construction_restores_scopes : forall (Orc : Oracle) C n w q r q',
  run w (rule_new C n) q = (r, q') -> s_scopes q' = s_scopes q.
Proof. intros. assert (E := build_scopes C n w q). unfold rule_new in H. rewrite H in E. exact E. Qed.
Print Assumptions C06_construction_restores_scopes.

(** Rule.evaluate leaves no scope behind, whatever was there before (it resets first). *)
Theorem C06_evaluate_leaves_no_scope : forall (Orc : Oracle) C e thing w q r q',
  run w (rule_evaluate C e thing) q = (r, q') -> s_scopes q' = [].
Proof. intros. assert (E := rule_evaluate_scopes C e thing w q). rewrite H in E. exact E. Qed.
Print Assumptions C06_evaluate_leaves_no_scope.

(** a comprehension whose body fails on the second element: the outcome is the error and no scope is left *)
Definition failing_comp : expr := EComp (EBin (BArith Mul) (ELit (num 2)) (sym "x")) (s "x") (sym "xs") None.
Example C06_example : exists q', run demo_world (rule_evaluate untyped_ctx failing_comp demo_thing) demo_st = (Err XEval, q') /\ s_scopes q' = [].
Proof. eexists. vm_compute. split; reflexivity. Qed.

(** ** C07 *)

(** Two executions of rule.evaluate(thing), on threads in arbitrary states, with callbacks that give the same answers to
    the same sequences of calls: same outcome, same calls made, same regex groups afterwards. *)
Theorem C07_outcome_independent_of_state : forall (Orc : Oracle) C e thing w1 w2 q1 q2,
  agree w1 (s_log q1) w2 (s_log q2) ->
  exists calls, let '(r1, q1') := run w1 (rule_evaluate C e thing) q1 in let '(r2, q2') := run w2 (rule_evaluate C e thing) q2 in
    r1 = r2 /\ s_log q1' = calls ++ s_log q1 /\ s_log q2' = calls ++ s_log q2 /\ s_groups q1' = s_groups q2'.
Proof. intros. apply rule_evaluate_agree. assumption. Qed.
Print Assumptions C07_outcome_independent_of_state.

(** With callbacks that have no memory of their own, any history of evaluations and constructions on the thread,
    successful or not, has no influence on the outcome. *)
Theorem C07_history_irrelevant : forall (Orc : Oracle) C e thing w h q0 dc,
  memoryless w ->
  let '(_, q1) := run w (history C h) q0 in
  fst (run w (rule_evaluate C e thing) q1) = fst (run w (rule_evaluate C e thing) (st_init dc)).
Proof.
  intros Orc C e thing w h q0 dc M. destruct (run w (history C h) q0) as [r q1].
  destruct (rule_evaluate_agree C e thing w w q1 (st_init dc)) as [l H]; [apply M|].
  destruct (run w (rule_evaluate C e thing) q1). destruct (run w (rule_evaluate C e thing) (st_init dc)). apply H.
Qed.
Print Assumptions C07_history_irrelevant.

(** $re_groups starts as null in every evaluation, whatever earlier evaluations matched. *)
Theorem C07_groups_start_null : forall (Orc : Oracle) C thing w q,
  assoc (s "re_groups") (c_bvals C) = Some BVgroups ->
  forall t, fst (run w (rule_evaluate C (ESym (s "re_groups") true t) thing) q) = Ok VNull.
Proof.
  intros Orc C thing w q H t. rewrite run_rule_evaluate. cbn [eval]. rewrite run_pthen. unfold resolve. rewrite H.
  cbn. unfold sym_check. destruct t; reflexivity.
Qed.
Print Assumptions C07_groups_start_null.

Example C07_memoryless_world : memoryless demo_world.
Proof. intros l1 l2 l. repeat split; reflexivity. Qed.
Definition regex_rule : expr := EBin (BFuzzy false false) (sym "name") (ELit (VStr (s "Lu"))).
Definition groups_expr : expr := ESym (s "re_groups") true (TArray TString true).
Example C07_example :
  let h := [PEval regex_rule demo_thing; PEval failing_comp demo_thing] in
  let '(_, q) := run demo_world (history untyped_ctx h) demo_st in
  fst (run demo_world (rule_evaluate untyped_ctx groups_expr demo_thing) q) = Ok VNull /\
  fst (run demo_world (rule_evaluate untyped_ctx (EBin BAndL regex_rule (EBin BEq groups_expr (EArr [ELit (VStr (s "ke"))]))) demo_thing) q)
    = Ok (VBool true).
Proof. vm_compute. split; reflexivity. Qed.

(** ** C10 *)

(** After constructing a rule, context.symbols is the earlier content plus exactly the symbol names of the rule. *)
Theorem C10_symbols_exact : forall (Orc : Oracle) C n w q e q',
  run w (rule_new C n) q = (Ok e, q') ->
  forall x, In x (s_syms q') <-> In x (s_syms q) \/ In x (dsyms n).
Proof.
  intros Orc C n w q e q' H x. destruct (build_syms_only C n w q) as [l [E F]]. unfold rule_new in H. rewrite H in E. cbn in E.
  rewrite E, in_app_iff. split.
  - intros [Hx|Hx]; [right|left; exact Hx]. rewrite Forall_forall in F. auto.
  - intros [Hx|Hx]; [right; exact Hx|]. assert (Hc := build_complete C n w q e q' H x Hx). rewrite E, in_app_iff in Hc. tauto.
Qed.
Print Assumptions C10_symbols_exact.

(** A failed construction still only adds names that occur in the text. *)
Theorem C10_symbols_nothing_else : forall (Orc : Oracle) C n w q,
  exists l, s_syms (snd (run w (rule_new C n) q)) = l ++ s_syms q /\ Forall (fun x => In x (dsyms n)) l.
Proof. intros. apply build_syms_only. Qed.
Print Assumptions C10_symbols_nothing_else.

(** Evaluation asks the resolver only for names in context.symbols or following an attribute operator. *)
Theorem C10_evaluation_asks_known_names : forall (Orc : Oracle) C n w q e q',
  run w (rule_new C n) q = (Ok e, q') ->
  forall thing w2 q2 r q2', run w2 (rule_evaluate C e thing) q2 = (r, q2') ->
  exists calls, s_log q2' = calls ++ s_log q2 /\
    forall t x a, In (EvResolve t x a) calls -> In x (s_syms q') \/ In x (dattrs n).
Proof.
  intros Orc C n w q e q' H thing w2 q2 r q2' H2. rewrite run_rule_evaluate in H2.
  destruct (eval_log C thing e w2 (set_dc (c_dec C) (set_groups VNull (set_scopes [] q2)))) as [l [E F]].
  destruct (run w2 (eval C thing e) _) as [r0 q0]. inversion H2; subst. cbn in E. exists l. split; [exact E|].
  intros t x a Hx. rewrite Forall_forall in F. specialize (F _ Hx). cbn in F.
  destruct (build_log C n w q) as [_ B]. unfold rule_new in H. rewrite H in B. specialize (B e eq_refl x F).
  destruct B as [B|B]; [left|right; exact B]. eapply build_complete; eassumption.
Qed.
Print Assumptions C10_evaluation_asks_known_names.

(** [ [x.size for x in xs if on] ] *)
Definition comp_text : dnode := DComp (DAttr (DSym (s "x") false) (s "size") false) (s "x") (DSym (s "xs") false) (Some (DSym (s "on") false)).
Example C10_example : exists e q', run demo_world (rule_new untyped_ctx comp_text) demo_st = (Ok e, q') /\
   s_syms q' = [s "x"; s "on"; s "xs"] /\ dattrs comp_text = [s "size"].
Proof. eexists. eexists. vm_compute. repeat split. Qed.

(** ** C11 *)

(** If construction succeeds, every name that is not $-prefixed and not bound by an enclosing comprehension is in the
    dictionary. *)
Theorem C11_free_names_in_dictionary : forall (Orc : Oracle) C m n w q e q',
  c_types C = type_resolver_of m -> s_scopes q = [] ->
  run w (rule_new C n) q = (Ok e, q') ->
  forall x, In x (dfree [] n) -> In x (map fst m).
Proof.
  intros Orc C m n w q e q' Ht Hs H x Hx. destruct (build_free C n w q e q' H x) as [t E].
  - unfold bnd. rewrite Hs. exact Hx.
  - rewrite Ht in E. unfold type_resolver_of in E. destruct (assoc x m) eqn:A; [|discriminate]. apply assoc_In in A.
    apply in_map_iff. exists (x, d). auto.
Qed.
Print Assumptions C11_free_names_in_dictionary.

(** Contrapositive: an unknown free name makes construction raise. *)
Theorem C11_unknown_name_rejected : forall (Orc : Oracle) C m n w q,
  c_types C = type_resolver_of m -> s_scopes q = [] ->
  (exists x, In x (dfree [] n) /\ ~ In x (map fst m)) ->
  exists err, fst (run w (rule_new C n) q) = Err err.
Proof.
  intros Orc C m n w q Ht Hs [x [Hx Hm]]. destruct (run w (rule_new C n) q) as [[e|err] q'] eqn:E; [|eexists; reflexivity].
  exfalso. apply Hm. exact (C11_free_names_in_dictionary Orc C m n w q e q' Ht Hs E x Hx).
Qed.
Print Assumptions C11_unknown_name_rejected.

Definition typed_demo : ctx := demo_ctx (type_resolver_of [(s "xs", TArray TFloat true); (s "n", TFloat)]).
Example C11_example :
  (exists e q', run demo_world (rule_new typed_demo (DComp (DBin BAdd (DSym (s "x") false) (DSym (s "n") false)) (s "x") (DSym (s "xs") false) None)) demo_st = (Ok e, q')) /\
  fst (run demo_world (rule_new typed_demo (DBin BAdd (DSym (s "x") false) (DSym (s "n") false))) demo_st) = Err (XSymRes (s "x") (Some (s "xs"))).
Proof. split; [eexists; eexists|]; vm_compute; reflexivity. Qed.

(** ** C15 *)

(** [l and r]: evaluate [l]; an error is the outcome; if falsy the result is false and nothing else happens; otherwise the
    truth of [r]. *)
Theorem C15_and : forall (Orc : Oracle) C thing l r w q,
  run w (eval C thing (EBin BAndL l r)) q =
  match run w (eval C thing l) q with
  | (Ok v, q1) => if truthy v then
        match run w (eval C thing r) q1 with (Ok u, q2) => (Ok (VBool (truthy u)), q2) | (Err x, q2) => (Err x, q2) end
      else (Ok (VBool false), q1)
  | (Err x, q1) => (Err x, q1)
  end.
Proof.
  intros. cbn [eval]. rewrite run_pbind. destruct (run w (eval C thing l) q) as [[v|x] q1]; [|reflexivity].
  destruct (truthy v); [|reflexivity]. rewrite run_pbind. destruct (run w (eval C thing r) q1) as [[u|x] q2]; reflexivity.
Qed.
Print Assumptions C15_and.
Theorem C15_or : forall (Orc : Oracle) C thing l r w q,
  run w (eval C thing (EBin BOrL l r)) q =
  match run w (eval C thing l) q with
  | (Ok v, q1) => if truthy v then (Ok (VBool true), q1)
      else match run w (eval C thing r) q1 with (Ok u, q2) => (Ok (VBool (truthy u)), q2) | (Err x, q2) => (Err x, q2) end
  | (Err x, q1) => (Err x, q1)
  end.
Proof.
  intros. cbn [eval]. rewrite run_pbind. destruct (run w (eval C thing l) q) as [[v|x] q1]; [|reflexivity].
  destruct (truthy v); [reflexivity|]. rewrite run_pbind. destruct (run w (eval C thing r) q1) as [[u|x] q2]; reflexivity.
Qed.
Print Assumptions C15_or.
Theorem C15_not : forall (Orc : Oracle) C thing e w q,
  run w (eval C thing (EUn UNot e)) q =
  match run w (eval C thing e) q with (Ok v, q1) => (Ok (VBool (negb (truthy v))), q1) | (Err x, q1) => (Err x, q1) end.
Proof. intros. cbn [eval]. rewrite run_pbind. destruct (run w (eval C thing e) q) as [[v|x] q1]; reflexivity. Qed.
Print Assumptions C15_not.

(** which operands count as false, without reference to the model: [falsy] in Truth.v *)
Theorem C15_truth : forall (Orc : Oracle) C thing l w q v q1, run w (eval C thing l) q = (Ok v, q1) ->
  (falsy v -> run w (eval C thing (EUn UNot l)) q = (Ok (VBool true), q1) /\
     (forall r, run w (eval C thing (EBin BAndL l r)) q = (Ok (VBool false), q1)) /\
     (forall r u q2, run w (eval C thing r) q1 = (Ok u, q2) -> exists b, run w (eval C thing (EBin BOrL l r)) q = (Ok (VBool b), q2) /\ (b = false <-> falsy u)) /\
     (forall r x q2, run w (eval C thing r) q1 = (Err x, q2) -> run w (eval C thing (EBin BOrL l r)) q = (Err x, q2))) /\
  (~ falsy v -> run w (eval C thing (EUn UNot l)) q = (Ok (VBool false), q1) /\
     (forall r, run w (eval C thing (EBin BOrL l r)) q = (Ok (VBool true), q1)) /\
     (forall r u q2, run w (eval C thing r) q1 = (Ok u, q2) -> exists b, run w (eval C thing (EBin BAndL l r)) q = (Ok (VBool b), q2) /\ (b = false <-> falsy u)) /\
     (forall r x q2, run w (eval C thing r) q1 = (Err x, q2) -> run w (eval C thing (EBin BAndL l r)) q = (Err x, q2))).
Proof.
  intros Orc C thing l w q v q1 H. split; intro F; [apply truthy_false in F|apply truthy_true in F]; (split; [rewrite C15_not, H, F; reflexivity|]); (split; [intro r; rewrite ?C15_and, ?C15_or, H, F; reflexivity|]);
    (split; [intros r u q2 R; exists (truthy u); split; [rewrite ?C15_and, ?C15_or, H, F, R; reflexivity|apply truthy_false]|intros r x q2 R; rewrite ?C15_and, ?C15_or, H, F, R; reflexivity]).
Qed.
Print Assumptions C15_truth.

(** the results are booleans *)
Theorem C15_boolean : forall (Orc : Oracle) C thing e w q v q',
  (exists l r, e = EBin BAndL l r) \/ (exists l r, e = EBin BOrL l r) \/ (exists x, e = EUn UNot x) ->
  run w (eval C thing e) q = (Ok v, q') -> exists b, v = VBool b.
Proof.
  intros Orc C thing e w q v q' [[l [r ->]]|[[l [r ->]]|[x ->]]] H.
  - rewrite C15_and in H. destruct (run w (eval C thing l) q) as [[u|y] q1]; [|discriminate]. destruct (truthy u); [|inversion H; eauto].
    destruct (run w (eval C thing r) q1) as [[u'|y] q2]; [|discriminate]. inversion H; eauto.
  - rewrite C15_or in H. destruct (run w (eval C thing l) q) as [[u|y] q1]; [|discriminate]. destruct (truthy u); [inversion H; eauto|].
    destruct (run w (eval C thing r) q1) as [[u'|y] q2]; [|discriminate]. inversion H; eauto.
  - rewrite C15_not in H. destruct (run w (eval C thing x) q) as [[u|y] q1]; [|discriminate]. inversion H; eauto.
Qed.
Print Assumptions C15_boolean.

(** De Morgan: same outcome, same callbacks, same state, also when operands raise *)
Theorem C15_de_morgan_and : forall (Orc : Oracle) C thing l r w q,
  run w (eval C thing (EUn UNot (EBin BAndL l r))) q = run w (eval C thing (EBin BOrL (EUn UNot l) (EUn UNot r))) q.
Proof.
  intros. rewrite C15_not, C15_and, C15_or, !C15_not. destruct (run w (eval C thing l) q) as [[v|x] q1]; [|reflexivity].
  cbn [truthy]. destruct (truthy v); cbn [negb]; [|reflexivity]. rewrite C15_not.
  destruct (run w (eval C thing r) q1) as [[u|x] q2]; reflexivity.
Qed.
Print Assumptions C15_de_morgan_and.
Theorem C15_de_morgan_or : forall (Orc : Oracle) C thing l r w q,
  run w (eval C thing (EUn UNot (EBin BOrL l r))) q = run w (eval C thing (EBin BAndL (EUn UNot l) (EUn UNot r))) q.
Proof.
  intros. rewrite C15_not, C15_or, C15_and, !C15_not. destruct (run w (eval C thing l) q) as [[v|x] q1]; [|reflexivity].
  cbn [truthy]. destruct (truthy v); cbn [negb]; [reflexivity|]. rewrite C15_not.
  destruct (run w (eval C thing r) q1) as [[u|x] q2]; reflexivity.
Qed.
Print Assumptions C15_de_morgan_or.

(** The skipped operand is still folded at construction: the text [false and 1 / 0] does not construct. *)
Theorem C15_skipped_constant_refuted : 
  fst (run demo_world (rule_new untyped_ctx (DBin BAndL (DLit (VBool false)) (DBin (BArith TDiv) (DFloat (s "1")) (DFloat (s "0"))))) demo_st) = Err XEval.
Proof. vm_compute. reflexivity. Qed.
Print Assumptions C15_skipped_constant_refuted.

Definition div0 : expr := EBin (BArith TDiv) (sym "n") (ELit (num 0)).
Example C15_example :
  fst (run demo_world (rule_evaluate untyped_ctx (EBin BAndL (sym "on") div0) demo_thing) demo_st) = Err XEval /\
  fst (run demo_world (rule_evaluate untyped_ctx (EBin BOrL (sym "on") div0) demo_thing) demo_st) = Ok (VBool true).
Proof. vm_compute. split; reflexivity. Qed.

(** ** C16 *)
Theorem C16_ternary : forall (Orc : Oracle) C thing c a b w q,
  run w (eval C thing (ETern c a b)) q =
  match run w (eval C thing c) q with
  | (Ok v, q1) => run w (eval C thing (if truthy v then a else b)) q1
  | (Err x, q1) => (Err x, q1)
  end.
Proof. intros. cbn [eval]. rewrite run_pbind. destruct (run w (eval C thing c) q) as [[v|x] q1]; [|reflexivity]. destruct (truthy v); reflexivity. Qed.
Print Assumptions C16_ternary.

(** the second branch is taken exactly for a condition that counts as false *)
Theorem C16_truth : forall (Orc : Oracle) C thing c a b w q v q1, run w (eval C thing c) q = (Ok v, q1) ->
  (falsy v -> run w (eval C thing (ETern c a b)) q = run w (eval C thing b) q1) /\ (~ falsy v -> run w (eval C thing (ETern c a b)) q = run w (eval C thing a) q1).
Proof. intros Orc C thing c a b w q v q1 H. split; intro F; [apply truthy_false in F|apply truthy_true in F]; rewrite C16_ternary, H, F; reflexivity. Qed.
Print Assumptions C16_truth.

(** in particular the other branch can be replaced by anything *)
Theorem C16_other_branch_irrelevant : forall (Orc : Oracle) C thing c a b a' b' w q v q1,
  run w (eval C thing c) q = (Ok v, q1) ->
  (truthy v = true -> run w (eval C thing (ETern c a b)) q = run w (eval C thing (ETern c a b')) q) /\
  (truthy v = false -> run w (eval C thing (ETern c a b)) q = run w (eval C thing (ETern c a' b)) q).
Proof. intros. rewrite !C16_ternary, H. split; intros ->; reflexivity. Qed.
Print Assumptions C16_other_branch_irrelevant.
Example C16_example :
  fst (run demo_world (rule_evaluate untyped_ctx (ETern (sym "on") (sym "n") div0) demo_thing) demo_st) = Ok (num 3).
Proof. vm_compute. reflexivity. Qed.

(** ** C40 *)

(** A $name bound to a constant evaluates to that constant (converted like every symbol) whatever the thing, the callbacks,
    the comprehension variables and the type resolver; no callback is made. *)
Theorem C40_builtin_constant : forall (Orc : Oracle) C C' thing thing' n t v w w' q q',
  assoc n (c_bvals C) = Some (BVconst v) -> c_bvals C' = c_bvals C -> c_tz C' = c_tz C ->
  fst (run w (eval C thing (ESym n true t)) q) = fst (run w' (eval C' thing' (ESym n true t)) q') /\
  fst (run w (eval C thing (ESym n true t)) q) = rbind (new_value (c_tz C) false v) (sym_check n t) /\
  snd (run w (eval C thing (ESym n true t)) q) = q.
Proof.
  assert (G : forall (Orc : Oracle) C thing n t v w q, assoc n (c_bvals C) = Some (BVconst v) ->
     run w (eval C thing (ESym n true t)) q = (rbind (new_value (c_tz C) false v) (sym_check n t), q)).
  { intros Orc C thing n t v w q H. cbn [eval]. rewrite run_pthen. unfold resolve. rewrite H, run_ok, run_pbind, run_ok, run_pbind.
    unfold nval. rewrite run_ret. destruct (new_value (c_tz C) false v) as [v'|x]; reflexivity. }
  intros Orc C C' thing thing' n t v w w' q q' H E T. rewrite (G _ C thing n t v w q H).
  assert (H' : assoc n (c_bvals C') = Some (BVconst v)) by congruence. rewrite (G _ C' thing' n t v w' q' H'), T. auto.
Qed.
Print Assumptions C40_builtin_constant.

(** For every builtin (also $now, $today, $re_groups and unknown ones): the thing and the scopes have no influence and the
    resolver is not asked. *)
Theorem C40_builtin_ignores_thing_and_scopes : forall (Orc : Oracle) C thing thing' n t w q scopes,
  fst (run w (eval C thing (ESym n true t)) q) = fst (run w (eval C thing' (ESym n true t)) (set_scopes scopes q)) /\
  exists calls, s_log (snd (run w (eval C thing (ESym n true t)) q)) = calls ++ s_log q /\
    forall th x r, ~ In (EvResolve th x r) calls.
Proof.
  intros Orc C thing thing' n t w q scopes. split.
  - cbn [eval]. rewrite !run_pthen. unfold resolve. destruct (assoc n (c_bvals C)) as [[v| | | |g]|].
    + rewrite !run_ok, !run_pbind, !run_ok, !run_pbind. unfold nval. rewrite !run_ret. destruct (new_value _ _ _); reflexivity.
    + rewrite !run_pbind, !run_act. cbn [step_op]. reflexivity.
    + rewrite !run_pbind, !run_act. cbn [step_op]. reflexivity.
    + cbn [run act step_op s_groups set_scopes ans]. rewrite !run_pbind, !run_ok, !run_pbind. unfold nval. rewrite !run_ret.
      destruct (new_value _ _ _); reflexivity.
    + unfold actr. cbn [pthen run step_op log set_scopes s_log]. destruct (w_user w (s_log q) g []) as [a|x]; [|destruct x; cbn [run raise]; try reflexivity; (destruct (c_default C); [|reflexivity]); cbn [run ok]; rewrite ?run_pbind; cbn [run ok]; rewrite ?run_pbind; unfold nval; rewrite ?run_ret; destruct (new_value _ _ _); reflexivity].
      cbn [run step_op log set_scopes s_log]. destruct (w_user w _ g []) as [a'|x]; [|destruct x; cbn [run raise]; try reflexivity; (destruct (c_default C); [|reflexivity])]; cbn [run ok]; rewrite ?run_pbind; cbn [run ok]; rewrite ?run_pbind; unfold nval; rewrite ?run_ret; destruct (new_value _ _ _); reflexivity.
    + rewrite !run_raise, !run_pbind. destruct (c_default C); [|reflexivity]. rewrite !run_ok, !run_pbind. unfold nval. rewrite !run_ret.
      destruct (new_value _ _ _); reflexivity.
  - destruct (eval_log C thing (ESym n true t) w q) as [l [E F]]. exists l. split; [exact E|]. intros th x r Hi.
    rewrite Forall_forall in F. apply (F _ Hi).
Qed.
Print Assumptions C40_builtin_ignores_thing_and_scopes.

(** The type of a $name comes from the builtin types only. *)
Theorem C40_builtin_type : forall (Orc : Oracle) C n w q,
  fst (run w (rule_new C (DSym n true)) q) = Ok (ESym n true (match assoc n (c_btypes C) with Some t => t | None => TUndef end)).
Proof. reflexivity. Qed.
Print Assumptions C40_builtin_type.

(** A name without $ never resolves to a builtin: the builtins of the context are irrelevant to it. *)
Theorem C40_plain_name_ignores_builtins : forall (Orc : Oracle) C C' thing n t w q,
  c_tz C' = c_tz C -> c_default C' = c_default C -> c_types C' = c_types C ->
  run w (eval C' thing (ESym n false t)) q = run w (eval C thing (ESym n false t)) q /\
  run w (rule_new C' (DSym n false)) q = run w (rule_new C (DSym n false)) q.
Proof.
  intros Orc C C' thing n t w q Ht Hd Hy. split.
  - cbn [eval]. unfold nval. rewrite Ht, Hd. reflexivity.
  - unfold rule_new. cbn [build]. unfold resolve_type. rewrite Hy. reflexivity.
Qed.
Print Assumptions C40_plain_name_ignores_builtins.
(** $pi inside a comprehension over a variable called pi, on a thing with a member pi *)
Example C40_example :
  let thing := VDict [(VStr (s "pi"), VInt 3)] in
  fst (run demo_world (rule_evaluate untyped_ctx (EComp (EArr [ESym (s "pi") true TFloat; ESym (s "pi") false TUndef]) (s "pi") (EArr [ELit (num 7)]) None) thing) demo_st)
  = Ok (VArr [VArr [VDec (DFin false 3141592653589793 (-15)); num 7]]) /\
  assoc (s "pi") (c_bvals untyped_ctx) = Some (BVconst (VDec (DFin false 3141592653589793 (-15)))).
Proof. vm_compute. split; reflexivity. Qed.

(** ** C41 *)

(** matches is the truth value of evaluate, with the same effects, and raises iff it raises. *)
Theorem C41_matches_is_truth_of_evaluate : forall (Orc : Oracle) C e thing w q,
  run w (rule_matches C e thing) q =
  match run w (rule_evaluate C e thing) q with (Ok v, q') => (Ok (truthy v), q') | (Err x, q') => (Err x, q') end.
Proof. intros. apply run_rule_matches. Qed.
Print Assumptions C41_matches_is_truth_of_evaluate.
(** so matches answers False exactly for a result that counts as false *)
Theorem C41_truth : forall (Orc : Oracle) C e thing w q v q1, run w (rule_evaluate C e thing) q = (Ok v, q1) ->
  exists b, run w (rule_matches C e thing) q = (Ok b, q1) /\ (b = false <-> falsy v).
Proof. intros Orc C e thing w q v q1 H. exists (truthy v). split; [rewrite run_rule_matches, H; reflexivity|apply truthy_false]. Qed.
Print Assumptions C41_truth.
Example C41_truth_example : falsy (VDec (DFin true 0 5)) /\ ~ falsy (VDec DNaN) /\ falsy (VTd 0) /\ ~ falsy (VArr [VNull]) /\ ~ falsy (VStr (s "0")).
Proof. repeat split; try (intro H; inversion H; fail); try (intro H; discriminate (proj2 (truthy_false _) H)); apply truthy_false; reflexivity. Qed.

(** filter yields exactly the matching members, in order and with multiplicity, up to the first member on which
    evaluate raises, and then raises that exception. *)
Theorem C41_filter_exact : forall (Orc : Oracle) C e xs w q dc,
  memoryless w ->
  let outcome x := fst (run w (rule_evaluate C e x) (st_init dc)) in
  fst (run w (rule_filter C e xs) q) =
  Ok (filter (fun x => match outcome x with Ok v => truthy v | Err _ => false end) (take_while (fun x => is_ok (outcome x)) xs),
      first_error outcome xs).
Proof.
  intros Orc C e xs w q dc M outcome. revert q. induction xs as [|x xs IH]; intro q; [reflexivity|].
  cbn [rule_filter]. rewrite run_pthen, run_rule_matches.
  assert (E : fst (run w (rule_evaluate C e x) q) = outcome x).
  { unfold outcome. destruct (rule_evaluate_agree C e x w w q (st_init dc)) as [l H]; [apply M|].
    destruct (run w (rule_evaluate C e x) q). destruct (run w (rule_evaluate C e x) (st_init dc)). apply H. }
  cbn [take_while first_error]. rewrite <- E. destruct (run w (rule_evaluate C e x) q) as [[v|err] q1]; cbn [fst is_ok] in *; [|reflexivity].
  rewrite run_pbind. specialize (IH q1). destruct (run w (rule_filter C e xs) q1) as [[p|y] q2]; cbn [fst] in IH; [|discriminate].
  cbn [run ok fst]. inversion IH; subst. cbn [filter fst snd]. rewrite <- E. reflexivity.
Qed.
Print Assumptions C41_filter_exact.

(** Laziness: once a member failed nothing more happens: no further member is evaluated, whatever follows. *)
Theorem C41_filter_stops_at_first_failure : forall (Orc : Oracle) C e xs ys w q l x q',
  run w (rule_filter C e xs) q = (Ok (l, Some x), q') -> run w (rule_filter C e (xs ++ ys)) q = (Ok (l, Some x), q').
Proof. intros. apply rule_filter_stops. assumption. Qed.
Print Assumptions C41_filter_stops_at_first_failure.

Example C41_example :
  let th z := VDict [(VStr (s "n"), z)] in
  let e := EBin (BCmp Cgt) (sym "n") (ELit (num 2)) in
  fst (run demo_world (rule_filter untyped_ctx e [th (VInt 3); th (VInt 1); th (VInt 5); th (VInt 3); th VNull; th (VInt 9)]) demo_st)
  = Ok ([th (VInt 3); th (VInt 5); th (VInt 3)], Some XEval).
Proof. vm_compute. reflexivity. Qed.

(** ** C42 *)
Theorem C42_is_valid_iff_constructs : forall (Orc : Oracle) C n w q,
  (fst (run w (rule_is_valid C n) q) = Ok true <-> exists e, fst (run w (rule_new C n) q) = Ok e) /\
  (fst (run w (rule_is_valid C n) q) = Ok false <-> exists x, fst (run w (rule_new C n) q) = Err x /\ is_engine x = true) /\
  (forall x, fst (run w (rule_is_valid C n) q) = Err x <-> fst (run w (rule_new C n) q) = Err x /\ is_engine x = false) /\
  snd (run w (rule_is_valid C n) q) = snd (run w (rule_new C n) q).
Proof.
  intros. unfold rule_is_valid. rewrite run_pthen. destruct (run w (rule_new C n) q) as [[e|x] q']; cbn.
  - split; [split; [eauto|reflexivity]|]. split; [split; [discriminate|intros [y [H _]]; discriminate]|].
    split; [|reflexivity]. intro y. split; [discriminate|intros [H _]; discriminate].
  - destruct (is_engine x) eqn:E; cbn.
    + split; [split; [discriminate|intros [e H]; discriminate]|]. split; [split; [intros _; eauto|reflexivity]|]. split; [|reflexivity].
      intro y. split; [discriminate|]. intros [H H']. inversion H; subst. congruence.
    + split; [split; [discriminate|intros [e H]; discriminate]|]. split; [split; [discriminate|intros [y [H H']]; inversion H; subst; congruence]|].
      split; [|reflexivity]. intro y. split; [intro H; inversion H; subst; auto|intros [H _]; inversion H; reflexivity].
Qed.
Print Assumptions C42_is_valid_iff_constructs.
Example C42_example :
  fst (run demo_world (rule_is_valid untyped_ctx comp_text) demo_st) = Ok true /\
  fst (run demo_world (rule_is_valid untyped_ctx (DBin (BArith Mul) (DLit VNull) (DFloat (s "1")))) demo_st) = Ok false.
Proof. vm_compute. split; reflexivity. Qed.

(** ** C44 *)

(** For a constructed rule the decimal context of the calling thread is irrelevant and is restored, whatever the outcome. *)
Theorem C44_evaluate_ignores_ambient_context : forall (Orc : Oracle) C e thing w q dc,
  fst (run w (rule_evaluate C e thing) (set_dc dc q)) = fst (run w (rule_evaluate C e thing) q) /\
  s_dc (snd (run w (rule_evaluate C e thing) (set_dc dc q))) = dc.
Proof.
  intros. split; [|apply rule_evaluate_dc].
  destruct (rule_evaluate_agree C e thing w w (set_dc dc q) q) as [l H]; [apply agree_refl|].
  destruct (run w (rule_evaluate C e thing) (set_dc dc q)). destruct (run w (rule_evaluate C e thing) q). apply H.
Qed.
Print Assumptions C44_evaluate_ignores_ambient_context.
(** construction does not change the calling thread's context either *)
Theorem C44_construction_keeps_ambient_context : forall (Orc : Oracle) C n w q, s_dc (snd (run w (rule_new C n) q)) = s_dc q.
Proof. intros. apply build_dc. Qed.
Print Assumptions C44_construction_keeps_ambient_context.

(** But constants are folded at construction under the calling thread's context: the same text in the same Context gives
    rules with different values. *)
Definition text_and_value (dc : dctx) : result value :=
  match run demo_world (rule_new untyped_ctx (DBin (BArith TDiv) (DFloat (s "1")) (DFloat (s "3")))) (st_init dc) with
  | (Ok e, q) => fst (run demo_world (rule_evaluate untyped_ctx e VNull) q)
  | (Err x, _) => Err x
  end.
Theorem C44_folding_refuted : exists dc1 dc2, dctx_ok dc1 /\ dctx_ok dc2 /\ exists v1 v2,
  text_and_value dc1 = Ok v1 /\ text_and_value dc2 = Ok v2 /\ v1 <> v2.
Proof.
  exists dctx_default, {| prec := 3; rmode := RHalfEven; emin := -999; emax := 999 |}.
  split; [unfold dctx_ok; cbn; lia|]. split; [unfold dctx_ok; cbn; lia|]. eexists. eexists. split; [vm_compute; reflexivity|].
  split; [vm_compute; reflexivity|]. discriminate.
Qed.
Print Assumptions C44_folding_refuted.
(** not folded, the same division is governed by the Context *)
Example C44_example :
  let e := EBin (BArith TDiv) (ELit (num 1)) (sym "n") in
  fst (run demo_world (rule_evaluate untyped_ctx e demo_thing) (st_init {| prec := 3; rmode := RHalfEven; emin := -999; emax := 999 |}))
  = Ok (VDec (DFin false 3333333333333333333333333333 (-28))).
Proof. vm_compute. reflexivity. Qed.
