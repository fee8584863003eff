(** * Theorems about constructing rules again and again, and about the interactive loop (C79, C80) *)
From Coq Require Import String Lia.
From Verif Require Import Base Dec Value DType Types Ops EqFacts ParseUtil Attr Prog Ast Eval Build Engine ProgFacts StateFacts GrammarSem Lexer RuleText P_State P_Lexer Repl Demo.
Open Scope list_scope.

(** ** Construction never looks at the regular expression groups *)
Definition no_groups (o : op) : Prop := match o with OGetG => False | _ => True end.
Section NoGroups.
Context {Orc : Oracle} (C : ctx).
Notation em := (emits no_groups).
Lemma em_ret : forall A (r : result A), em (Ret r).
Proof. constructor. Qed.
Lemma em_bind : forall A B (p : prog A) (f : A -> prog B), em p -> (forall a, em (f a)) -> em (pbind p f).
Proof. intros. apply emits_pbind; assumption. Qed.
Lemma em_act : forall o, no_groups o -> em (act o).
Proof. intros o H. apply emits_act. exact H. Qed.
Lemma em_dc : em (act OGetDc).
Proof. apply (em_act OGetDc). exact I. Qed.
Lemma em_random : forall args, em (b_random args).
Proof.
  intros [|b [|c args]]; unfold b_random; [apply (em_act (ORandom None)); exact I| |apply em_ret].
  destruct (truthy b); [|apply (em_act (ORandom None)); exact I].
  apply em_bind; [apply em_ret|]. intros []; [apply (em_act (ORandom (Some (to_int b)))); exact I|apply em_ret].
Qed.
Lemma em_first_order : forall f args, em (apply_first_order C f args).
Proof.
  intros f args. destruct f; cbn [apply_first_order]; try apply em_random; try apply em_ret;
    destruct args as [|v [|v2 args]]; try apply em_ret; try (destruct v; try apply em_ret).
  all: try (apply em_bind; [apply em_dc|]; intro; apply em_ret).
Qed.
Lemma em_flat : forall f args, em (apply_flat C f args).
Proof.
  intros f args. destruct f; cbn [apply_flat]; try apply em_ret.
  - apply (emits_actr _ (OUser n args)). exact I.
  - apply em_first_order.
  - destruct args as [|a [|b args]]; apply em_ret.
Qed.
Lemma em_apply : forall f args, em (apply_fun C f args).
Proof.
  intros f args. unfold apply_fun. destruct f; try apply em_flat. destruct f; try apply em_flat; destruct args as [|g [|it [|x args]]]; try apply em_flat.
  - apply em_bind; [apply em_ret|]. intro l. apply em_bind; [|intro; apply em_ret]. apply emits_pmapM. intros. apply em_flat.
  - apply em_bind; [apply em_ret|]. intro l. apply em_bind; [|intro; apply em_ret]. apply emits_pmapM. intros. apply em_bind; [|intro; apply em_ret].
    destruct g; try apply em_flat. apply em_ret.
Qed.
Lemma em_resolve : forall t n, em (resolve C t n false).
Proof.
  intros t n. unfold resolve. apply em_bind; [apply (em_act OScopes); exact I|]. intro l. destruct (find_scope l n); [apply em_ret|]. apply (emits_actr _ (OResolve t n)). exact I.
Qed.
Lemma em_fuzzy : forall sr ng pre u v, em (fuzzy_match C sr ng pre u v).
Proof.
  intros sr ng pre u v. unfold fuzzy_match. destruct u; try apply em_ret; destruct v; try apply em_ret.
  - apply em_bind; [apply em_ret|]. intro. apply em_ret.
  - apply em_bind; [apply em_ret|]. intro. destruct (o_re (c_flags C) sr t0 t) as [gs|]; [|apply em_ret]. apply em_bind; [|intro; apply em_ret]. apply (em_act (OSetG (VArr (map group_val gs)))). exact I.
Qed.
(** with a statement about the result *)
Inductive emq {A} (Q : A -> Prop) : prog A -> Prop :=
| Emq_ret : forall r, (forall a, r = Ok a -> Q a) -> emq Q (Ret r)
| Emq_step : forall o k, no_groups o -> (forall a, emq Q (k a)) -> emq Q (Step o k).
Lemma emq_bind : forall A B (p : prog A) Q (f : A -> prog B), emq Q p -> (forall a, Q a -> em (f a)) -> em (pbind p f).
Proof.
  intros A B p Q f H K. unfold pbind. induction H as [r Hr|o k Ho Hk IH]; cbn; [|constructor; assumption]. destruct r as [a|x]; [apply K, Hr; reflexivity|constructor].
Qed.
Lemma emq_of : forall A B (p : prog A) (f : A -> prog B) Q, em p -> (forall a, emq Q (f a)) -> emq Q (pbind p f).
Proof.
  intros A B p f Q H K. unfold pbind. induction H as [r|o k Ho Hk IH]; cbn; [|constructor; assumption]. destruct r as [a|x]; [apply K|constructor; intros a E; discriminate E].
Qed.
Lemma emq_then : forall A B (p : prog A) Q (f : A -> prog B) R, emq Q p -> (forall a, Q a -> emq R (f a)) -> emq R (pbind p f).
Proof.
  intros A B p Q f R H K. unfold pbind. induction H as [r Hr|o k Ho Hk IH]; cbn; [|constructor; assumption]. destruct r as [a|x]; [apply K, Hr; reflexivity|constructor; intros a E; discriminate E].
Qed.
Lemma emq_pmapM : forall A B (f : A -> prog B) Q l, (forall a, In a l -> emq Q (f a)) -> emq (Forall Q) (pmapM f l).
Proof.
  intros A B f Q l. induction l as [|a l IH]; intro H; [constructor; intros b E; injection E as <-; constructor|]. cbn [pmapM].
  eapply emq_then; [apply H; left; reflexivity|]. intros b Hb. eapply emq_then; [apply IH; intros; apply H; right; assumption|]. intros bs Hbs. constructor. intros c E. injection E as <-. constructor; assumption.
Qed.
Lemma em_reduced : forall thing e, is_reduced e = true -> em (eval C thing e).
Proof.
  intro thing. induction e using expr_ind'; cbn [is_reduced eval]; intro R; try discriminate R; try apply em_ret.
  - apply em_bind; [|intro; apply em_ret]. rewrite Forall_forall in H. rewrite forallb_forall in R. apply emits_pmapM. intros a Ha. apply H; auto.
  - apply em_bind; [|intro; apply em_ret]. rewrite Forall_forall in H. rewrite forallb_forall in R. apply emits_pmapM. intros a Ha. apply em_bind; [apply H; auto|]. intro v. destruct (hashable v); apply em_ret.
  - rewrite Forall_forall in H. rewrite forallb_forall in R. assert (K : forall kv, In kv l -> em (eval C thing (fst kv)) /\ em (eval C thing (snd kv))).
    { intros kv Hk. specialize (R kv Hk). apply Bool.andb_true_iff in R as [R1 R2]. destruct (H kv Hk). auto. }
    apply (emq_bind _ _ _ (Forall (fun kp : value * prog value => em (snd kp)))).
    + apply emq_pmapM. intros kv Hk. apply emq_of; [apply K; exact Hk|]. intro. apply emq_of; [apply em_ret|]. intro. constructor. intros c E. injection E as <-. apply K. exact Hk.
    + intros ks Hks. apply em_bind; [|intro; apply em_ret]. apply emits_pmapM. intros kp Hkp. apply em_bind; [|intro; apply em_ret].
      rewrite Forall_forall in Hks. apply (mk_dict_vals _ (fun p => em p) ks Hks kp Hkp).
Qed.
Lemma em_attr : forall thing o n sf, is_reduced o = true -> em (eval C thing (EAttr o n sf)).
Proof.
  intros thing o n sf R. cbn [eval]. apply em_bind; [apply em_reduced; exact R|]. intro v. destruct (is_null v && sf); [apply em_ret|]. destruct (resolve_attr v n) as [r|[]]; try apply em_ret.
  apply emits_pthen; [apply em_resolve|]. intros [u|[]]; try apply em_ret. destruct (c_default C); apply em_ret.
Qed.
Lemma em_bin : forall thing o a b, is_reduced a = true -> is_reduced b = true -> em (eval C thing (EBin o a b)).
Proof.
  intros thing o a b Ra Rb. assert (Ha := em_reduced thing a Ra). assert (Hb := em_reduced thing b Rb). cbn [eval]. destruct o; (apply em_bind; [exact Ha|]; intro u).
  - apply em_bind; [exact Hb|]. intro. apply em_bind; [apply em_dc|]. intro. apply em_ret.
  - apply em_bind; [exact Hb|]. intro. apply em_bind; [apply em_dc|]. intro. apply em_ret.
  - destruct (is_numeric u); [|apply em_ret]. apply em_bind; [exact Hb|]. intro v. destruct (is_numeric v); [|apply em_ret]. apply em_bind; [apply em_dc|]. intro. apply em_ret.
  - apply em_bind; [apply em_ret|]. intro. destruct (dt_eqb _ _); [apply em_bind; [apply em_ret|]; intro; apply em_bind; [exact Hb|]; intro; apply em_ret|].
    destruct (is_set_t _); [|apply em_ret]. apply em_bind; [exact Hb|]. intro. apply em_ret.
  - destruct (truthy u); [|apply em_ret]. apply em_bind; [exact Hb|]. intro. apply em_ret.
  - destruct (truthy u); [apply em_ret|]. apply em_bind; [exact Hb|]. intro. apply em_ret.
  - apply em_bind; [exact Hb|]. intro. apply em_ret.
  - apply em_bind; [exact Hb|]. intro. apply em_ret.
  - apply em_bind; [exact Hb|]. intro. apply em_ret.
  - destruct u; try apply em_ret; (apply em_bind; [exact Hb|]; intro; apply em_fuzzy).
Qed.
Lemma em_fold : forall e, em (eval C VNull e) -> em (fold C e).
Proof. intros e H. apply em_bind; [exact H|]. intro. apply em_ret. Qed.
Lemma em_reduce : forall e, em (reduce C e).
Proof.
  induction e as [v|v t|l IH|l IH|l IH|o a c IHa IHb|r n i c IHr IHi IHc|c m IHc IHm|o n sf IHo|c i sf IHc IHi|c a d sf IHc IHa IHb|n bi t|f l IHf IHl|c a d IHc IHa IHb|o e IHe] using expr_ind';
    cbn [reduce]; try apply em_ret.
  - destruct (is_reduced a) eqn:Ra; [|apply em_ret]. destruct (is_reduced c) eqn:Rc; [|apply em_ret]. apply em_fold, em_bin; assumption.
  - destruct (is_reduced c) eqn:Ra; [|apply em_ret]. destruct (is_reduced m) eqn:Rc; [|apply em_ret]. apply em_bind; [|intro; apply em_ret]. apply em_bind; [apply em_reduced; exact Ra|]. intro. apply em_bind; [apply em_ret|]. intro. apply em_bind; [apply em_reduced; exact Rc|]. intro. apply em_ret.
  - destruct (is_reduced o) eqn:Ro; [|apply em_ret]. apply em_bind; [apply em_fold, em_attr; exact Ro|]. intro. apply em_ret.
  - destruct (match rtype c with TMap _ _ _ => _ | _ => false end); [apply em_ret|]. destruct (is_reduced c) eqn:Ra; [|apply em_ret]. destruct (is_reduced i) eqn:Rc; [|apply em_ret]. apply em_fold. cbn [eval].
    apply em_bind; [apply em_reduced; exact Ra|]. intro u. destruct (is_null u); [destruct sf; apply em_ret|]. apply em_bind; [apply em_reduced; exact Rc|]. intro k. apply em_bind; [apply em_ret|]. intro. destruct (py_getitem u k) as [v|[]]; try apply em_ret. destruct sf; apply em_ret.
  - destruct (is_reduced c) eqn:Rc; [|apply em_ret]. destruct (is_reduced a) eqn:Ra; [|apply em_ret]. destruct (is_reduced d) eqn:Rd; [|apply em_ret]. apply em_fold. cbn [eval].
    apply em_bind; [apply em_reduced; exact Rc|]. intro u. destruct (is_null u); [destruct sf; apply em_ret|]. apply em_bind; [apply em_reduced; exact Ra|]. intro. apply em_bind; [apply em_ret|]. intro. apply em_bind; [apply em_reduced; exact Rd|]. intro.
    apply em_bind; [apply em_ret|]. intro. apply em_bind; [apply em_ret|]. intro. apply em_ret.
  - destruct (is_reduced f) eqn:Rf; [|apply em_ret]. destruct (forallb is_reduced l) eqn:Rl; [|apply em_ret]. apply em_fold. cbn [eval]. apply em_bind; [apply em_reduced; exact Rf|]. intro fv. destruct (callable fv); [|apply em_ret].
    apply em_bind; [apply emits_pmapM; intros a Ha; apply em_reduced; rewrite forallb_forall in Rl; apply Rl; exact Ha|]. intro vs. apply em_bind; [apply em_ret|]. intro.
    apply em_bind; [apply emits_pthen; [apply em_apply|]; intros []; apply em_ret|]. intro. apply em_bind; [apply em_ret|]. intro. apply em_bind; [apply em_ret|]. intro. destruct (is_compat _ _); apply em_ret.
  - destruct (is_reduced c); [|apply em_ret]. destruct (lit_truthy c); [exact IHa|exact IHb].
  - destruct o; (destruct (is_reduced e) eqn:R; [|apply em_ret]).
    + apply em_bind; [|intro; apply em_ret]. cbn [eval]. apply em_bind; [apply em_reduced; exact R|]. intro. apply em_ret.
    + assert (X : em (do! v := eval C VNull (EUn UMinus e) in ok (ELit v))).
      { apply em_bind; [|intro; apply em_ret]. cbn [eval]. apply em_bind; [apply em_reduced; exact R|]. intro. apply em_bind; [apply em_dc|]. intro. apply em_ret. }
      destruct e as [v| | | | | | | | | | | | | | ]; try apply em_ret. destruct v; try apply em_ret; exact X.
Qed.
Lemma em_build : forall n, em (build C n).
Proof.
  assert (O : forall o, opt_D (fun n => em (build C n)) o -> em (match o with Some n => do! e := build C n in ok (Some e) | None => ok None end)).
  { intros [n|] H; [apply em_bind; [exact H|intro; apply em_ret]|apply em_ret]. }
  induction n as [v|t|t|t|l IH|l IH|l IH|o a c IHa IHb|r v i c IHr IHi IHc|c m IHc IHm|o nm sf IHo|c i sf IHc IHi|c a d sf IHc IHa IHb|nm bi|f l IHf IHl|c a d IHc IHa IHb|o a IHx] using dnode_ind'; cbn [build]; try apply em_ret.
  - rewrite Forall_forall in IH. apply em_bind; [apply emits_pmapM; exact IH|]. intro. apply em_ret.
  - rewrite Forall_forall in IH. apply em_bind; [apply emits_pmapM; exact IH|]. intro. apply em_ret.
  - rewrite Forall_forall in IH. apply em_bind; [apply emits_pmapM; intros kv K; destruct (IH kv K); apply em_bind; [assumption|]; intro; apply em_bind; [assumption|]; intro; apply em_ret|]. intro. apply em_bind; [apply em_ret|]. intro. apply em_ret.
  - apply em_bind; [exact IHa|]. intro. apply em_bind; [exact IHb|]. intro. apply em_bind; [apply em_ret|]. intro. apply em_reduce.
  - apply em_bind; [exact IHi|]. intro e. destruct (_ && _); [apply em_ret|]. apply em_bind; [|intro; apply em_ret]. apply emits_with_scope; [exact I|exact I|]. apply em_bind; [apply O; exact IHc|]. intro. apply em_bind; [exact IHr|]. intro. apply em_ret.
  - apply em_bind; [exact IHc|]. intro. apply em_bind; [exact IHm|]. intro. apply em_bind; [apply em_ret|]. intro. apply em_reduce.
  - apply em_bind; [exact IHo|]. intro. apply em_bind; [apply em_ret|]. intro. apply em_reduce.
  - apply em_bind; [exact IHc|]. intro. apply em_bind; [exact IHi|]. intro. apply em_bind; [apply em_ret|]. intro. apply em_reduce.
  - apply em_bind; [apply O; exact IHa|]. intro. apply em_bind; [apply O; exact IHb|]. intro. apply em_bind; [exact IHc|]. intro. apply em_bind; [apply em_ret|]. intro. apply em_reduce.
  - apply em_bind; [apply (em_act (OSym nm)); exact I|]. intro. apply em_bind; [|intro; apply em_ret]. unfold resolve_type. destruct bi; [apply em_ret|]. apply em_bind; [apply (em_act OScopes); exact I|]. intro l. match goal with |- context [find_scope ?l nm] => destruct (find_scope l nm) as [a0|] end; [|apply em_ret]. destruct (a_type a0); apply em_ret.
  - rewrite Forall_forall in IHl. apply em_bind; [exact IHf|]. intro. apply em_bind; [apply emits_pmapM; exact IHl|]. intro. apply em_bind; [apply em_ret|]. intro. apply em_reduce.
  - apply em_bind; [exact IHc|]. intro. apply em_bind; [exact IHa|]. intro. apply em_bind; [exact IHb|]. intro. apply em_reduce.
  - apply em_bind; [exact IHx|]. intro. apply em_reduce.
Qed.

(** two runs that receive the same answers, whatever the groups *)
Lemma bisim_groups : forall A (p : prog A) w1 w2, em p -> forall q1 q2, agree w1 (s_log q1) w2 (s_log q2) -> s_scopes q1 = s_scopes q2 -> s_dc q1 = s_dc q2 ->
  exists l sy, let '(r1, q1') := run w1 p q1 in let '(r2, q2') := run w2 p q2 in
    r1 = r2 /\ s_scopes q1' = s_scopes q2' /\ s_dc q1' = s_dc q2' /\ s_log q1' = l ++ s_log q1 /\ s_log q2' = l ++ s_log q2 /\
    s_syms q1' = sy ++ s_syms q1 /\ s_syms q2' = sy ++ s_syms q2.
Proof.
  intros A p w1 w2 H. induction H as [r|o k Ho Hk IH]; intros q1 q2 Ha E1 E3.
  - exists [], []. cbn. repeat split; assumption.
  - assert (G : exists l sy, let '(a1, p1) := step_op w1 o q1 in let '(a2, p2) := step_op w2 o q2 in
      a1 = a2 /\ s_scopes p1 = s_scopes p2 /\ s_dc p1 = s_dc p2 /\ s_log p1 = l ++ s_log q1 /\ s_log p2 = l ++ s_log q2 /\
      s_syms p1 = sy ++ s_syms q1 /\ s_syms p2 = sy ++ s_syms q2).
    { destruct (Ha []) as [A1 [A2 [A3 A4]]]. cbn in A1, A2, A3, A4.
      destruct o; try contradiction; cbn; rewrite ?E1, ?E3, ?A1, ?A2, ?A3, ?A4.
      all: try (exists [], []; cbn; repeat split; congruence).
      - destruct (s_scopes q2) eqn:E; exists [], []; cbn; repeat split; congruence.
      - exists [], [name]; cbn; repeat split; congruence.
      - eexists [_], []; cbn; repeat split; congruence.
      - eexists [_], []; cbn; repeat split; congruence.
      - eexists [_], []; cbn; repeat split; congruence.
      - eexists [_], []; cbn; repeat split; congruence. }
    destruct G as [l [sy G]]. cbn [run]. destruct (step_op w1 o q1) as [a1 p1]. destruct (step_op w2 o q2) as [a2 p2].
    destruct G as [<- [T1 [T2 [L1 [L2 [S1 S2]]]]]].
    destruct (IH a1 p1 p2) as [l' [sy' G']]; [rewrite L1, L2; apply agree_app; exact Ha|exact T1|exact T2|].
    exists (l' ++ l), (sy' ++ sy). destruct (run w1 (k a1) p1) as [r1 q1']. destruct (run w2 (k a1) p2) as [r2 q2'].
    destruct G' as [-> [T1' [T2' [L1' [L2' [S1' S2']]]]]]. rewrite L1', L2', L1, L2, S1', S2', S1, S2, !app_assoc. auto 12.
Qed.
End NoGroups.

(** ** C79: constructing a rule does not depend on what happened before

    Two constructions of the same text (or parsed rule), on threads in arbitrary states with the same decimal context, outside
    comprehensions, with callbacks that give the same answers: the same rule or the same exception, the same callbacks, the same names
    added to context.symbols. *)
Theorem C79_same_text_same_rule : forall (Orc : Oracle) space uname C t w1 w2 q1 q2,
  agree w1 (s_log q1) w2 (s_log q2) -> s_scopes q1 = s_scopes q2 -> s_dc q1 = s_dc q2 ->
  exists calls names, let '(r1, q1') := run w1 (rule_of_text space uname C t) q1 in let '(r2, q2') := run w2 (rule_of_text space uname C t) q2 in
    r1 = r2 /\ s_log q1' = calls ++ s_log q1 /\ s_log q2' = calls ++ s_log q2 /\ s_syms q1' = names ++ s_syms q1 /\ s_syms q2' = names ++ s_syms q2.
Proof.
  intros Orc space uname C t w1 w2 q1 q2 Ha E1 E2. unfold rule_of_text. destruct (parse_text space uname t) as [n|x].
  - destruct (bisim_groups expr (rule_new C n) w1 w2 (em_build C n) q1 q2 Ha E1 E2) as [l [sy H]]. exists l, sy. destruct (run w1 _ q1), (run w2 _ q2). destruct H as [H1 [_ [_ H]]]. split; [exact H1|exact H].
  - exists [], []. cbn. repeat split.
Qed.

Lemma history_keeps : forall (Orc : Oracle) C h w q, s_scopes q = [] -> s_scopes (snd (run w (history C h) q)) = [] /\ s_dc (snd (run w (history C h) q)) = s_dc q.
Proof.
  intros Orc C h w. induction h as [|[e t|n] h IH]; intros q E; cbn [history]; [split; [exact E|reflexivity]| |].
  - rewrite run_pthen. assert (H1 := rule_evaluate_scopes C e t w q). assert (H2 := rule_evaluate_dc C e t w q). destruct (run w (rule_evaluate C e t) q) as [r q1]. cbn [snd] in *. destruct (IH q1 H1) as [K1 K2]. split; [exact K1|]. rewrite K2. exact H2.
  - rewrite run_pthen. assert (H1 := build_scopes C n w q). assert (H2 := build_dc C n w q). unfold rule_new. destruct (run w (build C n) q) as [r q1]. cbn [snd] in *. destruct (IH q1) as [K1 K2]; [congruence|]. split; [exact K1|]. rewrite K2. exact H2.
Qed.
(** With callbacks that have no memory of their own, any history of evaluations and constructions, successful or not, has no influence. *)
Theorem C79_history_irrelevant : forall (Orc : Oracle) space uname C t w h q0, memoryless w -> s_scopes q0 = [] ->
  let '(_, q1) := run w (history C h) q0 in
  fst (run w (rule_of_text space uname C t) q1) = fst (run w (rule_of_text space uname C t) (st_init (s_dc q0))).
Proof.
  intros Orc space uname C t w h q0 M E. destruct (history_keeps Orc C h w q0 E) as [K1 K2]. destruct (run w (history C h) q0) as [r q1]. cbn [snd] in *.
  destruct (C79_same_text_same_rule Orc space uname C t w w q1 (st_init (s_dc q0)) (M _ _) K1 K2) as [l [sy H]]. destruct (run w _ q1), (run w _ (st_init (s_dc q0))). apply H.
Qed.
Print Assumptions C79_same_text_same_rule.
Print Assumptions C79_history_irrelevant.

(** a thread on which a regular expression has matched, and a comprehension has failed, constructs the same rule as a new thread: the
    regular expression and the function call of this text are folded during construction *)
Definition c79_text : str := s "name =~ 'Lu' and ('Luke' =~ 'Lu' ? $abs(-3) : 0) == n and [x for x in xs if x != null].length == 2".
Definition c79_past : list past := [PEval regex_rule demo_thing; PEval failing_comp demo_thing; PNew (DAttr (DLit (VStr (s "x"))) (s "nope") false)].
Example C79_example :
  let '(_, q) := run demo_world (history untyped_ctx c79_past) demo_st in
  s_groups q = VNull /\
  fst (run demo_world (rule_of_text ascii_space (fun _ => None) untyped_ctx c79_text) q) = fst (run demo_world (rule_of_text ascii_space (fun _ => None) untyped_ctx c79_text) demo_st) /\
  is_ok (fst (run demo_world (rule_of_text ascii_space (fun _ => None) untyped_ctx c79_text) demo_st)) = true /\
  s_groups (snd (run demo_world (rule_of_text ascii_space (fun _ => None) untyped_ctx c79_text) q)) <> VNull.
Proof. vm_compute. repeat split. discriminate. Qed.

(** ** C80: the interactive loop

    [setting d before]: the debugging setting after the lines [before], if it was [d] at the start: that of the most recent directive. *)
Definition setting (space word : N -> bool) {Orc : Oracle} (d : bool) (before : list str) : bool :=
  match filter (fun o => match o with Some _ => true | None => false end) (rev (map (directive space word) before)) with
  | Some b :: _ => b
  | _ => d
  end.
(** what the line [t] should print, on its own: a new thread with the decimal context [dc], a new rule, one evaluation *)
Inductive prints (space word : N -> bool) uname {Orc : Oracle} (C : ctx) (thing : value) (w : world) (dc : dctx) (debugging : bool) (t : str) : answer -> Prop :=
| Prints_directive : forall b, directive space word t = Some b -> prints space word uname C thing w dc debugging t (Debugging b)
| Prints_result : forall v e q q', directive space word t = None ->
    run w (rule_of_text space uname C t) (st_init dc) = (Ok e, q) -> run w (rule_evaluate C e thing) q = (Ok v, q') ->
    prints space word uname C thing w dc debugging t (Result v)
| Prints_invalid : forall x q, directive space word t = None -> run w (rule_of_text space uname C t) (st_init dc) = (Err x, q) -> is_engine x = true ->
    prints space word uname C thing w dc debugging t (Failed x (hint_of x) debugging)
| Prints_failed : forall x e q q', directive space word t = None ->
    run w (rule_of_text space uname C t) (st_init dc) = (Ok e, q) -> run w (rule_evaluate C e thing) q = (Err x, q') -> is_engine x = true ->
    prints space word uname C thing w dc debugging t (Failed x (hint_of x) debugging)
| Prints_crash_new : forall x q, directive space word t = None -> run w (rule_of_text space uname C t) (st_init dc) = (Err x, q) -> is_engine x = false ->
    prints space word uname C thing w dc debugging t (Crashed x)
| Prints_crash : forall x e q q', directive space word t = None ->
    run w (rule_of_text space uname C t) (st_init dc) = (Ok e, q) -> run w (rule_evaluate C e thing) q = (Err x, q') -> is_engine x = false ->
    prints space word uname C thing w dc debugging t (Crashed x).

Section Loop.
Context {Orc : Oracle} (space word : N -> bool) (uname : str -> option N) (C : ctx) (thing : value).
Notation eval_text := (evaluate_text space uname C thing).
Notation loop := (repl space word uname C thing).

Lemma evaluate_text_keeps : forall t w q, s_scopes q = [] -> s_scopes (snd (run w (eval_text t) q)) = [] /\ s_dc (snd (run w (eval_text t) q)) = s_dc q.
Proof.
  intros t w q E. unfold evaluate_text. rewrite run_pbind. unfold rule_of_text. destruct (parse_text space uname t) as [n|x]; [|split; [exact E|reflexivity]].
  assert (H1 := build_scopes C n w q). assert (H2 := build_dc C n w q). unfold rule_new. destruct (run w (build C n) q) as [[e|x] q1]; cbn [snd] in *; [|split; congruence].
  rewrite rule_evaluate_scopes, rule_evaluate_dc. split; congruence.
Qed.
Lemma evaluate_text_same : forall t w q dc, memoryless w -> s_scopes q = [] -> s_dc q = dc -> fst (run w (eval_text t) q) = fst (run w (eval_text t) (st_init dc)).
Proof.
  intros t w q dc M E1 E2. unfold evaluate_text. rewrite !run_pbind.
  destruct (C79_same_text_same_rule Orc space uname C t w w q (st_init dc) (M _ _) E1 E2) as [l [sy H]].
  destruct (run w (rule_of_text space uname C t) q) as [r1 q1], (run w (rule_of_text space uname C t) (st_init dc)) as [r2 q2]. destruct H as [-> _]. destruct r2 as [e|x]; [|reflexivity].
  destruct (rule_evaluate_agree C e thing w w q1 q2 (M _ _)) as [l' H]. destruct (run w (rule_evaluate C e thing) q1), (run w (rule_evaluate C e thing) q2). apply H.
Qed.
Lemma setting_cons : forall d t r, setting space word d (t :: r) = setting space word (match directive space word t with Some b => b | None => d end) r.
Proof.
  intros. unfold setting. cbn [map rev]. rewrite filter_app. cbn [filter].
  assert (G : forall o, In o (filter (fun o : option bool => match o with Some _ => true | None => false end) (rev (map (directive space word) r))) -> o <> None) by (intros o Ho; apply filter_In in Ho as [_ Ho]; destruct o; [discriminate|discriminate Ho]).
  destruct (filter _ (rev (map (directive space word) r))) as [|[b|] l]; cbn; [destruct (directive space word t); reflexivity|reflexivity|exfalso; apply (G None); [left; reflexivity|reflexivity]].
Qed.
Lemma prints_answer : forall w dc d t, directive space word t = None -> prints space word uname C thing w dc d t (answer_to d (fst (run w (eval_text t) (st_init dc)))).
Proof.
  intros w dc d t D. unfold evaluate_text. rewrite run_pbind. destruct (run w (rule_of_text space uname C t) (st_init dc)) as [[e|x] q] eqn:R1.
  - destruct (run w (rule_evaluate C e thing) q) as [[v|x] q'] eqn:R2; cbn [fst answer_to]; [eapply Prints_result; eassumption|]. destruct (is_engine x) eqn:B; [eapply Prints_failed|eapply Prints_crash]; eassumption.
  - cbn [fst answer_to]. destruct (is_engine x) eqn:B; [eapply Prints_invalid|eapply Prints_crash_new]; eassumption.
Qed.
End Loop.

(** The loop never ends because of a rule: one answer for every line typed, for all callbacks. *)
Theorem C80_one_answer_per_line : forall (Orc : Oracle) space word uname C thing w lines d q,
  exists answers, fst (run w (repl space word uname C thing d lines) q) = Ok answers /\ length answers = length lines.
Proof.
  intros Orc space word uname C thing w lines. induction lines as [|t r IH]; intros d q; cbn [repl]; [exists []; split; reflexivity|].
  destruct (directive space word t) as [b|].
  - rewrite run_pbind. destruct (IH b q) as [l [H L]]. destruct (run w (repl space word uname C thing b r) q) as [o q1]. cbn [fst] in H. subst o. eexists. split; [reflexivity|cbn; rewrite L; reflexivity].
  - rewrite run_pthen. destruct (run w (evaluate_text space uname C thing t) q) as [o q1]. rewrite run_pbind. destruct (IH d q1) as [l [H L]]. destruct (run w (repl space word uname C thing d r) q1) as [o2 q2]. cbn [fst] in H. subst o2. eexists. split; [reflexivity|cbn; rewrite L; reflexivity].
Qed.
(** Each answer is what its line gives on its own, on a new thread: nothing typed before has an influence, except the last directive. *)
Theorem C80_lines_independent : forall (Orc : Oracle) space word uname C thing w lines d q, memoryless w -> s_scopes q = [] ->
  exists answers, fst (run w (repl space word uname C thing d lines) q) = Ok answers /\ length answers = length lines /\
    forall before t later, lines = before ++ t :: later ->
      exists a, nth_error answers (length before) = Some a /\ prints space word uname C thing w (s_dc q) (setting space word d before) t a.
Proof.
  intros Orc space word uname C thing w lines d q M. revert d q. induction lines as [|t r IH]; intros d q E; cbn [repl].
  - exists []. split; [reflexivity|]. split; [reflexivity|]. intros [|x b] t l H; discriminate H.
  - destruct (directive space word t) as [b|] eqn:D.
    + rewrite run_pbind. destruct (IH b q E) as [l [H [L K]]]. destruct (run w (repl space word uname C thing b r) q) as [o q1]. cbn [fst] in H. subst o. eexists. split; [reflexivity|]. split; [cbn; rewrite L; reflexivity|].
      intros [|x bf] u lt H; cbn in H; injection H as <- H; [exists (Debugging b); split; [reflexivity|apply Prints_directive; exact D]|].
      destruct (K bf u lt H) as [a [K1 K2]]. exists a. split; [exact K1|]. rewrite setting_cons, D. exact K2.
    + rewrite run_pthen. destruct (evaluate_text_keeps space uname C thing t w q E) as [E1 E2]. assert (S := evaluate_text_same space uname C thing t w q (s_dc q) M E eq_refl).
      destruct (run w (evaluate_text space uname C thing t) q) as [o q1]. cbn [fst snd] in *. rewrite run_pbind. destruct (IH d q1 E1) as [l [H [L K]]]. destruct (run w (repl space word uname C thing d r) q1) as [o2 q2]. cbn [fst] in H. subst o2.
      eexists. split; [reflexivity|]. split; [cbn; rewrite L; reflexivity|].
      intros [|x bf] u lt H; cbn in H; injection H as <- H; [eexists; split; [reflexivity|]; cbn [setting map rev filter]; subst o; apply prints_answer; exact D|].
      destruct (K bf u lt H) as [a [K1 K2]]. exists a. split; [exact K1|]. rewrite setting_cons, D, <- E2. exact K2.
Qed.
(** The hint: exactly for an attribute or symbol resolution error that carries a non-empty suggestion. *)
Theorem C80_hint : forall x h, hint_of x = Some h <-> h <> [] /\ exists n, x = XAttrRes n (Some h) \/ x = XSymRes n (Some h).
Proof.
  intros x h. split.
  - destruct x; cbn; try discriminate; destruct sug as [[|c r]|]; try discriminate; intro H; injection H as <-; (split; [discriminate|eexists; auto]).
  - intros [Hn [n [->| ->]]]; destruct h as [|c r]; try contradiction; reflexivity.
Qed.

(** The directive: white space, "#!", white space, "debug", white space, "=", white space, and a longest word; off exactly for "false" in
    any case.  What follows is ignored.  [space], [word]: the character classes of the library's regular expressions. *)
Lemma skip_app : forall space a r, Forall (fun c => space c = true) a -> skip_space space (a ++ r) = skip_space space r.
Proof. intros space a r H. induction H as [|c a Hc Ha IH]; [reflexivity|]. cbn [skip_space app]. rewrite Hc. exact IH. Qed.
Lemma skip_stop : forall space c r, space c = false -> skip_space space (c :: r) = c :: r.
Proof. intros space c r H. cbn [skip_space]. rewrite H. reflexivity. Qed.
Lemma skip_split : forall space t, exists a, t = a ++ skip_space space t /\ Forall (fun c => space c = true) a.
Proof.
  intros space t. induction t as [|c t [a [IH1 IH2]]]; [exists []; split; [reflexivity|constructor]|]. cbn [skip_space]. destruct (space c) eqn:E; [|exists []; split; [reflexivity|constructor]].
  exists (c :: a). split; [cbn; f_equal; exact IH1|constructor; assumption].
Qed.
Lemma after_iff : forall p t r, after p t = Some r <-> t = p ++ r.
Proof.
  intro p. induction p as [|a p IH]; intros t r; cbn; [split; intro H; [injection H as <-; reflexivity|subst; reflexivity]|].
  destruct t as [|c t]; [split; intro H; discriminate H|]. destruct (N.eqb_spec a c) as [->|Hn].
  - rewrite IH. split; intro H; [subst; reflexivity|injection H as ->; reflexivity].
  - split; intro H; [discriminate H|injection H as -> _; contradiction].
Qed.
Lemma take_app : forall word a r, Forall (fun c => word c = true) a -> (forall c u, r = c :: u -> word c = false) -> take_word word (a ++ r) = a.
Proof.
  intros word a r H Hr. induction H as [|c a Hc Ha IH]; [|cbn [take_word app]; rewrite Hc, IH; reflexivity]. destruct r as [|c r]; [reflexivity|]. cbn. rewrite (Hr c r eq_refl). reflexivity.
Qed.
Lemma take_split : forall word t, exists r, t = take_word word t ++ r /\ Forall (fun c => word c = true) (take_word word t) /\ (forall c u, r = c :: u -> word c = false).
Proof.
  intros word t. induction t as [|c t [r [IH1 [IH2 IH3]]]]; [exists []; cbn; repeat split; [constructor|intros c u H; discriminate H]|]. cbn [take_word]. destruct (word c) eqn:E.
  - exists r. split; [cbn; f_equal; exact IH1|]. split; [constructor; assumption|exact IH3].
  - exists (c :: t). split; [reflexivity|]. split; [constructor|]. intros c' u H. injection H as <- _. exact E.
Qed.
Theorem C80_directive : forall (Orc : Oracle) space word t b,
  (forall c, word c = true -> space c = false) -> (forall c, In c (s "#d=") -> space c = false) ->
  directive space word t = Some b <->
  exists s1 s2 s3 s4 value rest,
    t = s1 ++ s "#!" ++ s2 ++ s "debug" ++ s3 ++ s "=" ++ s4 ++ value ++ rest /\
    Forall (fun c => space c = true) (s1 ++ s2 ++ s3 ++ s4) /\ value <> [] /\ Forall (fun c => word c = true) value /\
    (forall c r, rest = c :: r -> word c = false) /\
    (b = false <-> py_lower value = s "false").
Proof.
  intros Orc space word t b Hw Hs. unfold directive. split.
  - destruct (after (s "#!") (skip_space space t)) as [r1|] eqn:A1; [|discriminate]. destruct (after (s "debug") (skip_space space r1)) as [r2|] eqn:A2; [|discriminate].
    destruct (after (s "=") (skip_space space r2)) as [r3|] eqn:A3; [|discriminate]. destruct (take_word word (skip_space space r3)) as [|c g] eqn:T; [discriminate|]. intro H. injection H as Hb.
    apply after_iff in A1, A2, A3. destruct (skip_split space t) as [a1 [B1 F1]], (skip_split space r1) as [a2 [B2 F2]], (skip_split space r2) as [a3 [B3 F3]], (skip_split space r3) as [a4 [B4 F4]].
    destruct (take_split word (skip_space space r3)) as [rest [B5 [F5 F6]]]. rewrite T in B5, F5. exists a1, a2, a3, a4, (c :: g), rest.
    split; [rewrite <- B5, <- B4, <- A3, <- B3, <- A2, <- B2, <- A1; exact B1|]. split; [rewrite !Forall_app; auto|]. split; [discriminate|]. split; [exact F5|]. split; [exact F6|].
    rewrite <- Hb, Bool.negb_false_iff. apply str_eqb_eq.
  - intros [s1 [s2 [s3 [s4 [v [rest [-> [F [V [W [R B]]]]]]]]]]]. rewrite !Forall_app in F. destruct F as [F1 [F2 [F3 F4]]].
    rewrite skip_app by exact F1. change (s "#!" ++ s2 ++ s "debug" ++ s3 ++ s "=" ++ s4 ++ v ++ rest) with (35%N :: (33%N :: s2 ++ s "debug" ++ s3 ++ s "=" ++ s4 ++ v ++ rest)).
    rewrite skip_stop by (apply Hs; cbn; auto). replace (after (s "#!") _) with (Some (s2 ++ s "debug" ++ s3 ++ s "=" ++ s4 ++ v ++ rest)) by (symmetry; apply after_iff; reflexivity).
    rewrite skip_app by exact F2. change (s "debug" ++ s3 ++ s "=" ++ s4 ++ v ++ rest) with (100%N :: (s "ebug" ++ s3 ++ s "=" ++ s4 ++ v ++ rest)).
    rewrite skip_stop by (apply Hs; cbn; auto). replace (after (s "debug") _) with (Some (s3 ++ s "=" ++ s4 ++ v ++ rest)) by (symmetry; apply after_iff; reflexivity).
    rewrite skip_app by exact F3. change (s "=" ++ s4 ++ v ++ rest) with (61%N :: (s4 ++ v ++ rest)).
    rewrite skip_stop by (apply Hs; cbn; auto). replace (after (s "=") _) with (Some (s4 ++ v ++ rest)) by (symmetry; apply after_iff; reflexivity).
    rewrite skip_app by exact F4. assert (K : skip_space space (v ++ rest) = v ++ rest) by (destruct v as [|c v]; [contradiction|]; cbn [app]; apply skip_stop, Hw; inversion W; assumption).
    rewrite K, take_app by assumption. destruct v as [|c v]; [contradiction|]. f_equal. destruct b, (str_eqb (py_lower (c :: v)) (s "false")) eqn:E; try reflexivity.
    + apply str_eqb_eq in E. apply B in E. discriminate E.
    + assert (X : py_lower (c :: v) = s "false") by (apply B; reflexivity). apply str_eqb_eq in X. rewrite X in E. discriminate E.
Qed.

Definition ascii_word (c : N) : bool := ((48 <=? c) && (c <=? 57) || (65 <=? c) && (c <=? 90) || (97 <=? c) && (c <=? 122) || (c =? 95))%N.
(** nine lines on one thread: a misspelled name with a hint, the same while debugging, a regular expression and its groups, which are gone
    on the next line, and a failure that is not an engine error *)
Example C80_example :
  fst (run demo_world (repl ascii_space ascii_word (fun _ => None) untyped_ctx demo_thing false
    [s "nam == 'Luke'"; s " #! debug = True, please"; s "nam == 'Luke'"; s "name =~ 'Lu' and $re_groups[0] == 'ke'"; s "$re_groups"; s "#!debug=FALSE"; s "[1].nope"; s "n +"; s "t'P1000000000D'"]) demo_st)
  = Ok [Failed (XSymRes (s "nam") (Some (s "n"))) (Some (s "n")) false; Debugging true; Failed (XSymRes (s "nam") (Some (s "n"))) (Some (s "n")) true; Result (VBool true); Result VNull; Debugging false;
        Failed (XAttrRes (s "nope") (Some (s "ends_with"))) (Some (s "ends_with")) false; Failed XSynRule None false; Crashed POverflow].
Proof. vm_compute. reflexivity. Qed.
Example C80_classes : (forall c, ascii_word c = true -> ascii_space c = false) /\ (forall c, In c (s "#d=") -> ascii_space c = false).
Proof.
  split; [|intros c [<-|[<-|[<-|[]]]]; reflexivity]. intros c H. destruct (ascii_space c) eqn:E; [|reflexivity]. unfold ascii_space in E. cbn [existsb] in E. rewrite !Bool.orb_true_iff, !N.eqb_eq in E.
  assert (K : (c <= 32)%N) by (destruct E as [E|[E|[E|[E|[E|[E|[E|[E|[E|[E|E]]]]]]]]]]; [..|discriminate E]; subst c; discriminate).
  unfold ascii_word in H. rewrite !Bool.orb_true_iff, !Bool.andb_true_iff, !N.leb_le, N.eqb_eq in H. lia.
Qed.
Print Assumptions C80_one_answer_per_line.
Print Assumptions C80_lines_independent.
Print Assumptions C80_hint.
Print Assumptions C80_directive.
