(** * ProgFacts: generic facts about programs: which operations they perform, what they preserve, what they depend on *)
From Verif Require Import Base Dec Value DType Types Ops ParseUtil Attr Prog Ast Eval Build.
Open Scope Z_scope.

(** ** Operations a program may perform *)
Inductive emits (P : op -> Prop) {A} : prog A -> Prop :=
| Em_ret : forall r, emits P (Ret r)
| Em_step : forall o k, P o -> (forall a, emits P (k a)) -> emits P (Step o k).

Lemma emits_pthen : forall P A B (p : prog A) (f : result A -> prog B),
  emits P p -> (forall r, emits P (f r)) -> emits P (pthen p f).
Proof.
  intros P A B p f Hp Hf. induction Hp as [r|o k Ho Hk IH]; cbn; [apply Hf|]. constructor; [exact Ho|exact IH].
Qed.
Lemma emits_pbind : forall P A B (p : prog A) (f : A -> prog B),
  emits P p -> (forall a, emits P (f a)) -> emits P (pbind p f).
Proof. intros. apply emits_pthen; [assumption|]. intros [a|x]; [auto|constructor]. Qed.
Lemma emits_act : forall (P : op -> Prop) o, P o -> emits P (act o).
Proof. intros. constructor; [assumption|]. intros; constructor. Qed.
Lemma emits_actr : forall (P : op -> Prop) o f, P o -> emits P (actr o f).
Proof. intros. constructor; [assumption|]. intros; constructor. Qed.
Lemma emits_pmapM : forall P A B (f : A -> prog B) l, (forall a, In a l -> emits P (f a)) -> emits P (pmapM f l).
Proof.
  intros P A B f. induction l as [|a l IH]; cbn; intro H; [constructor|].
  apply emits_pbind; [apply H; left; reflexivity|]. intro b. apply emits_pbind; [apply IH; intros; apply H; right; assumption|].
  intro; constructor.
Qed.
Lemma emits_with_scope : forall (P : op -> Prop) A a (p : prog A), P (OPush a) -> P OPop -> emits P p -> emits P (with_scope a p).
Proof.
  intros. unfold with_scope. apply emits_pbind; [apply emits_act; assumption|]. intros _. apply emits_pthen; [assumption|].
  intro r. apply emits_pbind; [apply emits_act; assumption|]. intros [u|x]; constructor.
Qed.
Lemma emits_impl : forall (P Q : op -> Prop) A (p : prog A), (forall o, P o -> Q o) -> emits P p -> emits Q p.
Proof. intros P Q A p H Hp. induction Hp; constructor; auto. Qed.

(** ** Invariants of the thread state *)
Definition keeps {X} (f : st -> X) {A} (p : prog A) : Prop := forall w q, f (snd (run w p q)) = f q.

Lemma keeps_ret : forall X (f : st -> X) A (r : result A), keeps f (Ret r).
Proof. intros X f A r w q. reflexivity. Qed.
Lemma keeps_pthen : forall X (f : st -> X) A B (p : prog A) (g : result A -> prog B),
  keeps f p -> (forall r, keeps f (g r)) -> keeps f (pthen p g).
Proof.
  intros X f A B p g Hp Hg w q. rewrite run_pthen. specialize (Hp w q). destruct (run w p q) as [r q'].
  cbn in Hp. rewrite <- Hp. apply Hg.
Qed.
Lemma keeps_pbind : forall X (f : st -> X) A B (p : prog A) (g : A -> prog B),
  keeps f p -> (forall r, keeps f (g r)) -> keeps f (pbind p g).
Proof. intros. apply keeps_pthen; [assumption|]. intros [a|x]; [auto|apply keeps_ret]. Qed.
Lemma keeps_act : forall X (f : st -> X) o, (forall w q, f (snd (step_op w o q)) = f q) -> keeps f (act o).
Proof. intros X f o H w q. rewrite run_act. specialize (H w q). destruct (step_op w o q). exact H. Qed.
Lemma keeps_actr : forall X (f : st -> X) o g, (forall w q, f (snd (step_op w o q)) = f q) -> keeps f (actr o g).
Proof. intros X f o g H w q. cbn. specialize (H w q). destruct (step_op w o q). exact H. Qed.
Lemma keeps_pmapM : forall X (f : st -> X) A B (g : A -> prog B) l, (forall a, In a l -> keeps f (g a)) -> keeps f (pmapM g l).
Proof.
  intros X f A B g. induction l as [|a l IH]; cbn; intro H; [apply keeps_ret|].
  apply keeps_pbind; [apply H; left; reflexivity|]. intro b. apply keeps_pbind; [apply IH; intros; apply H; right; assumption|].
  intro; apply keeps_ret.
Qed.
(** every operation allowed by [P] keeps [f] *)
Lemma keeps_emits : forall X (f : st -> X) (P : op -> Prop) A (p : prog A),
  (forall o, P o -> forall w q, f (snd (step_op w o q)) = f q) -> emits P p -> keeps f p.
Proof.
  intros X f P A p H Hp. induction Hp as [r|o k Ho Hk IH]; intros w q; [reflexivity|]. cbn.
  specialize (H o Ho w q). destruct (step_op w o q) as [a q']. cbn in H. rewrite <- H. apply IH.
Qed.

Lemma removelast_snoc : forall A (l : list A) x, removelast (l ++ [x]) = l.
Proof. intros. rewrite removelast_app; [|discriminate]. cbn. apply app_nil_r. Qed.

Lemma keeps_scope : forall A a (p : prog A), keeps s_scopes p -> keeps s_scopes (with_scope a p).
Proof.
  intros A a p H w q. rewrite run_with_scope. specialize (H w (set_scopes (s_scopes q ++ [a]) q)).
  destruct (run w p _) as [r q']. cbn in H. rewrite H. destruct (s_scopes q ++ [a]) eqn:E.
  - destruct (s_scopes q); discriminate.
  - rewrite <- E. cbn. apply removelast_snoc.
Qed.

(** when the body keeps the scopes, the result of [with_scope] is the body's *)
Lemma run_scope_bal : forall A a (p : prog A) w q, keeps s_scopes p ->
  run w (with_scope a p) q =
  let '(r, q') := run w p (set_scopes (s_scopes q ++ [a]) q) in (r, set_scopes (s_scopes q) q').
Proof.
  intros A a p w q H. rewrite run_with_scope. specialize (H w (set_scopes (s_scopes q ++ [a]) q)).
  destruct (run w p _) as [r q']. cbn in H. rewrite H. destruct (s_scopes q ++ [a]) eqn:E.
  - destruct (s_scopes q); discriminate.
  - rewrite <- E, removelast_snoc. reflexivity.
Qed.

(** ** A closure principle: what holds of basic operations and is kept by sequencing and scoping holds of evaluation *)

(** the names evaluation of a node may ask the resolver for *)
Fixpoint asked (e : expr) : list str :=
  match e with
  | ELit _ | EFun _ _ => []
  | EArr l | ESet l => flat_map asked l
  | EMap l => flat_map (fun kv => asked (fst kv) ++ asked (snd kv)) l
  | EBin _ a b => asked a ++ asked b
  | EComp r _ it c => asked r ++ asked it ++ match c with Some c => asked c | None => [] end
  | EIn c m => asked c ++ asked m
  | EAttr o n _ => n :: asked o
  | EItem c i _ => asked c ++ asked i
  | ESlice c a b _ => asked c ++ asked a ++ asked b
  | ESym n bi _ => if bi then [] else [n]
  | ECall f l => asked f ++ flat_map asked l
  | ETern c a b => asked c ++ asked a ++ asked b
  | EUn _ e => asked e
  end.

(** operations evaluation performs besides resolving names and opening scopes *)
Definition base_op (o : op) : Prop :=
  match o with OScopes | OGetG | OSetG _ | OGetDc | ONow _ | ORandom _ | OUser _ _ => True | _ => False end.

Definition tt_post {A} : A -> Prop := fun _ => True.

Section Closure.
Context {Orc : Oracle} (C : ctx).
Variable G : forall A, prog A -> (A -> Prop) -> Prop.
Hypothesis G_ret : forall A (r : result A) (Q : A -> Prop), (forall a, r = Ok a -> Q a) -> G A (Ret r) Q.
Hypothesis G_then : forall A B (p : prog A) Q (f : result A -> prog B) R,
  G A p Q -> (forall a, Q a -> G B (f (Ok a)) R) -> (forall x, G B (f (Err x)) R) -> G B (pthen p f) R.
Hypothesis G_scope : forall A a (p : prog A) Q, G A p Q -> G A (with_scope a p) Q.
Hypothesis G_op : forall o, base_op o -> G (ans o) (act o) tt_post.
Variable Nm : str -> Prop.
Hypothesis G_resolve : forall t n, Nm n -> G (result value) (act (OResolve t n)) tt_post.

Lemma G_bind : forall A B (p : prog A) Q (f : A -> prog B) R,
  G A p Q -> (forall a, Q a -> G B (f a) R) -> G B (pbind p f) R.
Proof. intros. eapply G_then; [eassumption|cbn; auto|]. intro x. apply G_ret. discriminate. Qed.
Lemma G_ok : forall A (a : A) (Q : A -> Prop), Q a -> G A (ok a) Q.
Proof. intros. apply G_ret. intros a' E. inversion E; subst. assumption. Qed.
Lemma G_raise : forall A x (Q : A -> Prop), G A (raise x) Q.
Proof. intros. apply G_ret. discriminate. Qed.
Lemma G_lift : forall A (r : result A), G A (Ret r) tt_post.
Proof. intros. apply G_ret. intros; exact I. Qed.

Lemma G_pmapM : forall A B (f : A -> prog B) Q l, (forall a, In a l -> G B (f a) Q) ->
  G (list B) (pmapM f l) (fun bs => forall b, In b bs -> Q b).
Proof.
  intros A B f Q. induction l as [|a l IH]; cbn [pmapM]; intro H; [apply G_ok; intros ? []|].
  eapply G_bind; [apply H; left; reflexivity|]. intros b Hb. eapply G_bind; [apply IH; intros; apply H; right; assumption|].
  intros bs Hbs. apply G_ok. intros b' [<-|Hin]; auto.
Qed.
Lemma G_pmapM_tt : forall A B (f : A -> prog B) l, (forall a, In a l -> G B (f a) tt_post) -> G (list B) (pmapM f l) tt_post.
Proof.
  intros A B f. induction l as [|a l IH]; cbn [pmapM]; intro H; [apply G_ok; exact I|].
  eapply G_bind; [apply H; left; reflexivity|]. intros b _. eapply G_bind; [apply IH; intros; apply H; right; assumption|].
  intros bs _. apply G_ok. exact I.
Qed.
Lemma G_actr : forall o (f : ans o -> result value), G (ans o) (act o) tt_post -> G value (actr o f) tt_post.
Proof.
  intros o f H. change (actr o f) with (pthen (act o) (fun r => match r with Ok a => Ret (f a) | Err x => Ret (Err x) end)).
  eapply G_then; [exact H| |]; intros; apply G_lift.
Qed.

Lemma G_random : forall args, G value (b_random args) tt_post.
Proof.
  intros [|b [|c args]]; unfold b_random; [apply (G_op (ORandom None)); exact I| |apply G_raise].
  destruct (truthy b); [|apply (G_op (ORandom None)); exact I].
  eapply G_bind; [apply G_lift|]. intros [] _; [apply (G_op (ORandom (Some (to_int b)))); exact I|apply G_raise].
Qed.
Lemma G_first_order : forall f args, G value (apply_first_order C f args) tt_post.
Proof.
  intros f args. destruct f; cbn [apply_first_order]; try apply G_random; try apply G_lift;
    destruct args as [|v [|v2 args]]; try apply G_raise; try apply G_lift; try (destruct v; try apply G_raise; apply G_lift).
  - eapply G_bind; [apply (G_op OGetDc); exact I|]. intros dc _. apply G_lift.
  - eapply G_bind; [apply (G_op OGetDc); exact I|]. intros dc _. apply G_lift.
Qed.
Lemma G_flat : forall f args, G value (apply_flat C f args) tt_post.
Proof.
  intros f args. destruct f; cbn [apply_flat]; try apply G_raise.
  - apply (G_actr (OUser n args)). apply G_op. exact I.
  - apply G_first_order.
  - destruct args as [|a [|b args]]; try apply G_raise. apply G_lift.
Qed.
Lemma G_apply : forall f args, G value (apply_fun C f args) tt_post.
Proof.
  intros f args. unfold apply_fun.
  destruct f; try apply G_flat. destruct f; try apply G_flat;
    destruct args as [|g [|it [|x args]]]; try apply G_flat.
  - eapply G_bind; [apply G_lift|]. intros l _. eapply G_bind; [|intros; apply G_ok; exact I].
    apply G_pmapM_tt. intros. apply G_flat.
  - eapply G_bind; [apply G_lift|]. intros l _. eapply G_bind; [|intros; apply G_ok; exact I].
    apply G_pmapM_tt. intros. eapply G_bind; [|intros; apply G_ok; exact I]. instantiate (1 := tt_post).
    destruct g; try apply G_flat. apply G_ok; exact I.
Qed.

Lemma G_sym : forall thing name b, (b = false -> Nm name) -> G value (resolve C thing name b) tt_post.
Proof.
  intros thing name b H. unfold resolve. destruct b.
  - destruct (assoc name (c_bvals C)) as [[v| | | |g]|]; try apply G_raise; try (apply G_ok; exact I).
    + eapply G_bind; [apply (G_op (ONow (c_btz C))); exact I|]. intros. eapply G_bind; [apply (G_op (ONow (c_btz C))); exact I|]. intros; apply G_ok; exact I.
    + eapply G_bind; [apply (G_op (ONow (c_btz C))); exact I|]. intros. eapply G_bind; [apply (G_op (ONow (c_btz C))); exact I|]. intros; apply G_ok; exact I.
    + apply (G_op OGetG). exact I.
    + assert (A : G value (actr (OUser g []) (fun r => r)) tt_post) by (apply (G_actr (OUser g [])); apply G_op; exact I).
      eapply G_then; [exact A|intros; exact A|]. intros []; apply G_raise.
  - eapply G_bind; [apply (G_op OScopes); exact I|]. intros l _. destruct (find_scope l name); [apply G_ok; exact I|].
    apply (G_actr (OResolve thing name)). apply G_resolve. auto.
Qed.

Lemma G_fuzzy : forall sr ng pre x y, G value (fuzzy_match C sr ng pre x y) tt_post.
Proof.
  intros sr ng pre x y. unfold fuzzy_match.
  destruct x; try apply G_raise; destruct y; try apply G_raise; try (apply G_ok; exact I).
  - eapply G_bind; [apply G_lift|]. intros _ _. apply G_ok. exact I.
  - eapply G_bind; [apply G_lift|]. intros _ _. destruct (o_re (c_flags C) sr t0 t) as [gs|]; [|apply G_ok; exact I].
    eapply G_bind; [apply (G_op (OSetG (VArr (map group_val gs)))); exact I|]. intros _ _. apply G_ok. exact I.
Qed.

Lemma G_comp : forall var cond body l,
  match cond with Some c => G value c tt_post | None => True end -> G value body tt_post ->
  G (list value) (comp_loop var cond body l) tt_post.
Proof.
  intros var cond body l Hc Hb. induction l as [|x l IH]; cbn [comp_loop]; [apply G_ok; exact I|].
  eapply G_bind.
  - apply G_scope. eapply G_bind.
    + instantiate (1 := tt_post). destruct cond; [eapply G_bind; [exact Hc|intros; apply G_ok; exact I]|apply G_ok; exact I].
    + instantiate (1 := tt_post). intros [] _; [eapply G_bind; [exact Hb|intros; apply G_ok; exact I]|apply G_ok; exact I].
  - intros o _. eapply G_bind; [exact IH|]. intros; apply G_ok; exact I.
Qed.

Lemma mk_dict_vals : forall A (P : A -> Prop) (l : list (value * A)),
  (forall kv, In kv l -> P (snd kv)) -> forall kv, In kv (mk_dict l) -> P (snd kv).
Proof.
  intros A P l. unfold mk_dict.
  assert (Gen : forall (m : list (value * A)), (forall kv, In kv m -> P (snd kv)) -> (forall kv, In kv l -> P (snd kv)) ->
    forall kv, In kv (fold_left (fun m kv => dict_put m (fst kv) (snd kv)) l m) -> P (snd kv)).
  { induction l as [|[k p] l IHk]; intros m Hm Hks kv Hin; [apply Hm; exact Hin|]. cbn in Hin.
    eapply IHk; [|intros; apply Hks; right; assumption|exact Hin].
    intros kv' Hin'. clear - Hm Hks Hin'. induction m as [|[k0 p0] m IHm]; cbn in Hin'.
    - destruct Hin' as [<-|[]]. apply (Hks (k, p)). left. reflexivity.
    - destruct (py_eq k0 k).
      + destruct Hin' as [<-|Hin']; [apply (Hks (k, p)); left; reflexivity|apply Hm; right; exact Hin'].
      + destruct Hin' as [<-|Hin']; [apply (Hm (k0, p0)); left; reflexivity|]. apply IHm; [|exact Hin'].
        intros; apply Hm; right; assumption. }
  intros Hks. apply Gen; [intros kv []|exact Hks].
Qed.

Ltac gstep :=
  match goal with
  | |- G _ (pbind _ _) _ => eapply G_bind; [|intros ? ?]
  | |- G _ (ok _) _ => apply G_ok; exact I
  | |- G _ (raise _) _ => apply G_raise
  | |- G _ (act ?o) _ => apply (G_op o); exact I
  | |- G _ (nval _ _ _) _ => apply G_lift
  | |- G _ (vbool _) _ => apply G_lift
  | |- G _ (Ret _) _ => apply G_lift
  | |- G _ (if ?b then _ else _) _ => destruct b
  | |- _ => eassumption
  end.

Theorem closure_eval : forall thing e, (forall n, In n (asked e) -> Nm n) -> G value (eval C thing e) tt_post.
Proof.
  intros thing. induction e using expr_ind'; cbn [eval asked]; intro HN.
  - apply G_ok; exact I.
  - apply G_ok; exact I.
  - eapply G_bind; [|intros; apply G_ok; exact I]. apply G_pmapM_tt. intros a Ha. rewrite Forall_forall in H.
    apply H; [exact Ha|]. intros n Hn. apply HN. apply in_flat_map. eauto.
  - eapply G_bind; [|intros; apply G_ok; exact I]. apply G_pmapM_tt. intros a Ha. rewrite Forall_forall in H.
    eapply G_bind; [|intros x _; destruct (hashable x); [apply G_ok; exact I|apply G_raise]].
    apply H; [exact Ha|]. intros n Hn. apply HN. apply in_flat_map. eauto.
  - rewrite Forall_forall in H.
    eapply G_bind.
    + apply (G_pmapM _ _ _ (fun kp : value * prog value => G value (snd kp) tt_post)). intros kv Hkv.
      destruct (H kv Hkv) as [Hk Hv].
      eapply G_bind; [apply Hk; intros n Hn; apply HN; apply in_flat_map; exists kv; split; [exact Hkv|apply in_app_iff; auto]|].
      intros k _. eapply G_bind; [apply G_lift|]. intros k' _. apply G_ok. cbn.
      apply Hv; intros n Hn; apply HN; apply in_flat_map; exists kv; split; [exact Hkv|apply in_app_iff; auto].
    + intros ks Hks. eapply G_bind; [|intros; apply G_ok; exact I]. apply G_pmapM_tt. intros kp Hkp.
      eapply G_bind; [|intros; apply G_ok; exact I].
      apply (mk_dict_vals _ (fun p => G value p tt_post) ks Hks kp Hkp).
  - assert (H1 := IHe1 (fun n Hn => HN n (proj2 (in_app_iff _ _ _) (or_introl Hn)))).
    assert (H2 := IHe2 (fun n Hn => HN n (proj2 (in_app_iff _ _ _) (or_intror Hn)))).
    destruct o; try (repeat gstep; fail).
    eapply G_bind; [exact H1|]. intros x _. destruct x; try apply G_raise; (eapply G_bind; [exact H2|]; intros y _; apply G_fuzzy).
  - assert (H1 : G value (eval C thing e1) tt_post) by (apply IHe1; intros n Hn; apply HN; rewrite !in_app_iff; auto).
    assert (H2 : G value (eval C thing e2) tt_post) by (apply IHe2; intros n Hn; apply HN; rewrite !in_app_iff; auto).
    eapply G_bind; [exact H2|]. intros x _. eapply G_bind; [apply G_lift|]. intros t _.
    destruct (is_iterable t); [|apply G_raise]. eapply G_bind; [|intros; apply G_ok; exact I].
    apply G_comp; [|exact H1]. destruct c; [|exact I]. apply H. intros n Hn. apply HN. rewrite !in_app_iff; auto.
  - assert (H1 := IHe1 (fun n Hn => HN n (proj2 (in_app_iff _ _ _) (or_introl Hn)))).
    assert (H2 := IHe2 (fun n Hn => HN n (proj2 (in_app_iff _ _ _) (or_intror Hn)))).
    repeat gstep.
  - assert (H1 := IHe (fun m Hm => HN m (or_intror Hm))).
    eapply G_bind; [exact H1|]. intros x _. destruct (is_null x && sf); [apply G_ok; exact I|].
    destruct (resolve_attr x n) as [r|y]; [apply G_lift|]. destruct y; try apply G_raise.
    eapply G_then; [apply G_sym; intros _; apply HN; left; reflexivity| |].
    + intros v _. apply G_lift.
    + intros y. destruct y; try apply G_raise. destruct (c_default C); [apply G_lift|apply G_raise].
  - assert (H1 := IHe1 (fun n Hn => HN n (proj2 (in_app_iff _ _ _) (or_introl Hn)))).
    assert (H2 := IHe2 (fun n Hn => HN n (proj2 (in_app_iff _ _ _) (or_intror Hn)))).
    repeat gstep. destruct (py_getitem _ _) as [v|y]; [apply G_lift|]. destruct y; try apply G_raise.
    destruct sf; [apply G_ok; exact I|apply G_raise].
  - assert (H1 : G value (eval C thing e1) tt_post) by (apply IHe1; intros n Hn; apply HN; rewrite !in_app_iff; auto).
    assert (H2 : G value (eval C thing e2) tt_post) by (apply IHe2; intros n Hn; apply HN; rewrite !in_app_iff; auto).
    assert (H3 : G value (eval C thing e3) tt_post) by (apply IHe3; intros n Hn; apply HN; rewrite !in_app_iff; auto).
    repeat gstep.
  - eapply G_then; [apply G_sym; intros ->; apply HN; left; reflexivity| |].
    + intros v _. repeat gstep.
    + intro y. eapply G_bind; [|intros; repeat gstep]. instantiate (1 := tt_post). destruct y; try apply G_raise.
      destruct (c_default C); [apply G_ok; exact I|apply G_raise].
  - assert (H1 := IHe (fun n Hn => HN n (proj2 (in_app_iff _ _ _) (or_introl Hn)))).
    eapply G_bind; [exact H1|]. intros fv _. destruct (callable fv); [|apply G_raise].
    eapply G_bind.
    + apply G_pmapM_tt. intros a Ha. rewrite Forall_forall in H. apply H; [exact Ha|]. intros n Hn. apply HN.
      apply in_app_iff. right. apply in_flat_map. eauto.
    + intros vs _. eapply G_bind; [apply G_lift|]. intros _ _. eapply G_bind.
      * eapply G_then; [apply G_apply| |]; [intros v _; apply G_ok|intro x; apply G_raise]. instantiate (1 := tt_post). exact I.
      * intros r _. repeat gstep.
  - assert (H1 : G value (eval C thing e1) tt_post) by (apply IHe1; intros n Hn; apply HN; rewrite !in_app_iff; auto).
    assert (H2 : G value (eval C thing e2) tt_post) by (apply IHe2; intros n Hn; apply HN; rewrite !in_app_iff; auto).
    assert (H3 : G value (eval C thing e3) tt_post) by (apply IHe3; intros n Hn; apply HN; rewrite !in_app_iff; auto).
    repeat gstep.
  - assert (H1 := IHe HN). destruct o; repeat gstep.
Qed.

(** *** Construction *)
Variable Sm : str -> Prop.
Hypothesis G_symop : forall n, Sm n -> G unit (act (OSym n)) tt_post.

Definition asks_ok (e : expr) : Prop := forall n, In n (asked e) -> Nm n.

Lemma lit_of_asked : forall v e, lit_of v = Ok e -> asked e = [].
Proof.
  assert (AuxL : forall l es, Forall (fun v => forall e, lit_of v = Ok e -> asked e = []) l -> rmapM lit_of l = Ok es -> flat_map asked es = []).
  { intros l es Hl H. apply rmapM_ok_iff in H. induction H as [|a b l es Hab H IH]; [reflexivity|]. inversion Hl; subst. cbn.
    rewrite IH by assumption. match goal with Hx : forall e, lit_of a = Ok e -> _ |- _ => rewrite (Hx b Hab) end. reflexivity. }
  assert (AuxM : forall l es, Forall (fun kv => (forall e, lit_of (fst kv) = Ok e -> asked e = []) /\ (forall e, lit_of (snd kv) = Ok e -> asked e = [])) l ->
    rmapM (fun kv => rbind (lit_of (fst kv)) (fun k => rbind (lit_of (snd kv)) (fun w => Ok (k, w)))) l = Ok es ->
    flat_map (fun kv => asked (fst kv) ++ asked (snd kv)) es = []).
  { intros l es Hl H. apply rmapM_ok_iff in H. induction H as [|a b l es Hab H IH]; [reflexivity|]. inversion Hl as [|? ? [Hk Hv] Hr]; subst. cbn.
    rewrite IH by assumption. destruct (lit_of (fst a)) as [k|] eqn:E1; [|discriminate]. cbn in Hab.
    destruct (lit_of (snd a)) as [w|] eqn:E2; [|discriminate]. inversion Hab; subst. cbn. rewrite (Hk k eq_refl), (Hv w eq_refl). reflexivity. }
  induction v using value_ind'; intros e E; cbn [lit_of] in E;
    (match type of E with rbind (from_value ?x) _ = _ => destruct (from_value x) as [ty|]; [|discriminate E] end); cbn [rbind] in E;
    try (destruct (coerce true _); inversion E; reflexivity).
  - destruct (rmapM lit_of l) as [es|] eqn:El; [|discriminate]. inversion E; subst. cbn. eapply AuxL; eassumption.
  - destruct (rmapM lit_of l) as [es|] eqn:El; [|discriminate]. inversion E; subst. cbn. eapply AuxL; eassumption.
  - inversion E; subst. cbn. clear. induction l; [reflexivity|assumption].
  - destruct (rmapM lit_of l) as [es|] eqn:El; [|discriminate]. inversion E; subst. cbn. eapply AuxL; eassumption.
  - destruct (rmapM _ l) as [es|] eqn:El; [|discriminate]. inversion E; subst. cbn. eapply AuxM; eassumption.
  - destruct (rmapM _ l) as [es|] eqn:El; [|discriminate]. inversion E; subst. cbn. eapply AuxM; eassumption.
Qed.

Lemma closure_fold : forall e, asks_ok e -> G expr (fold C e) asks_ok.
Proof.
  intros e H. unfold fold. eapply G_bind; [apply closure_eval; exact H|]. intros v _. apply G_ret. intros l E n Hn.
  rewrite (lit_of_asked _ _ E) in Hn. contradiction.
Qed.

Lemma asks_lit : forall v, asks_ok (ELit v).
Proof. intros v n []. Qed.

Lemma asks_app_l : forall (l1 l2 : list str), (forall n, In n (l1 ++ l2) -> Nm n) -> forall n, In n l1 -> Nm n.
Proof. intros l1 l2 H n Hn. apply H. apply in_app_iff. auto. Qed.
Lemma asks_app_r : forall (l1 l2 : list str), (forall n, In n (l1 ++ l2) -> Nm n) -> forall n, In n l2 -> Nm n.
Proof. intros l1 l2 H n Hn. apply H. apply in_app_iff. auto. Qed.

Theorem closure_reduce : forall e, asks_ok e -> G expr (reduce C e) asks_ok.
Proof.
  induction e using expr_ind'; intro Ha; cbn [reduce]; try (apply G_ok; exact Ha).
  - destruct (_ && _); [apply closure_fold; exact Ha|apply G_ok; exact Ha].
  - destruct (_ && _); [|apply G_ok; exact Ha]. eapply G_bind; [apply closure_eval; exact Ha|]. intros v _. apply G_ok. apply asks_lit.
  - destruct (is_reduced e); [|apply G_ok; exact Ha]. eapply G_bind; [apply closure_fold; exact Ha|]. intros l Hl. apply G_ok.
    destruct l; try exact Hl. destruct (_ && _); [intros m []|exact Hl].
  - destruct (match rtype e1 with TMap k _ _ => _ | _ => false end); [apply G_ok; apply asks_lit|].
    destruct (_ && _); [apply closure_fold; exact Ha|apply G_ok; exact Ha].
  - destruct (_ && _); [apply closure_fold; exact Ha|apply G_ok; exact Ha].
  - destruct (_ && _); [apply closure_fold; exact Ha|apply G_ok; exact Ha].
  - destruct (is_reduced e1); [|apply G_ok; exact Ha]. destruct (lit_truthy e1); [apply IHe2|apply IHe3]; intros n Hn; apply Ha; cbn;
      rewrite !in_app_iff; auto.
  - destruct o; (destruct (is_reduced e); [|apply G_ok; exact Ha]).
    + eapply G_bind; [apply closure_eval; exact Ha|]. intros v _. apply G_ok. apply asks_lit.
    + destruct e; try apply G_raise. destruct v; try apply G_raise;
        (eapply G_bind; [apply closure_eval; exact Ha|]; intros v _; apply G_ok; apply asks_lit).
Qed.

(** every symbol name in the text, and the names (unprefixed symbols, attributes) a resolver may be asked for *)
Fixpoint dsyms (n : dnode) : list str :=
  match n with
  | DLit _ | DFloat _ | DDatetime _ | DTimedelta _ => []
  | DArr l | DSet l => flat_map dsyms l
  | DMap l => flat_map (fun kv => dsyms (fst kv) ++ dsyms (snd kv)) l
  | DBin _ a b => dsyms a ++ dsyms b
  | DComp r _ it c => dsyms r ++ dsyms it ++ match c with Some c => dsyms c | None => [] end
  | DIn c m => dsyms c ++ dsyms m
  | DAttr o _ _ => dsyms o
  | DItem c i _ => dsyms c ++ dsyms i
  | DSlice c a b _ => dsyms c ++ match a with Some x => dsyms x | None => [] end ++ match b with Some x => dsyms x | None => [] end
  | DSym n _ => [n]
  | DCall f l => dsyms f ++ flat_map dsyms l
  | DTern c a b => dsyms c ++ dsyms a ++ dsyms b
  | DUn _ e => dsyms e
  end.
Fixpoint dattrs (n : dnode) : list str :=
  match n with
  | DLit _ | DFloat _ | DDatetime _ | DTimedelta _ | DSym _ _ => []
  | DArr l | DSet l => flat_map dattrs l
  | DMap l => flat_map (fun kv => dattrs (fst kv) ++ dattrs (snd kv)) l
  | DBin _ a b => dattrs a ++ dattrs b
  | DComp r _ it c => dattrs r ++ dattrs it ++ match c with Some c => dattrs c | None => [] end
  | DIn c m => dattrs c ++ dattrs m
  | DAttr o n _ => n :: dattrs o
  | DItem c i _ => dattrs c ++ dattrs i
  | DSlice c a b _ => dattrs c ++ match a with Some x => dattrs x | None => [] end ++ match b with Some x => dattrs x | None => [] end
  | DCall f l => dattrs f ++ flat_map dattrs l
  | DTern c a b => dattrs c ++ dattrs a ++ dattrs b
  | DUn _ e => dattrs e
  end.

Hypothesis Sm_Nm : forall n, Sm n -> Nm n.

Definition names_ok (n : dnode) : Prop := (forall x, In x (dsyms n) -> Sm x) /\ (forall x, In x (dattrs n) -> Nm x).

Lemma asks_list : forall es, (forall e, In e es -> asks_ok e) -> forall n, In n (flat_map asked es) -> Nm n.
Proof. intros es H n Hn. apply in_flat_map in Hn. destruct Hn as [e [He Hn]]. eapply H; eassumption. Qed.

Lemma asks_app : forall l1 l2, (forall n, In n l1 -> Nm n) -> (forall n, In n l2 -> Nm n) -> forall n, In n (l1 ++ l2) -> Nm n.
Proof. intros l1 l2 H1 H2 n Hn. apply in_app_iff in Hn. destruct Hn; auto. Qed.

Ltac nm := split; cbn; intros; match goal with H : names_ok _ |- _ => destruct H as [H ?]; cbn in * end;
  match goal with H : forall x, In x _ -> ?P x |- ?P _ => apply H end; cbn; rewrite ?in_app_iff; auto.

Lemma names_sub : forall n n', (forall x, In x (dsyms n') -> In x (dsyms n)) -> (forall x, In x (dattrs n') -> In x (dattrs n)) ->
  names_ok n -> names_ok n'.
Proof. intros n n' H1 H2 [A B]. split; auto. Qed.

Theorem closure_build : forall nd, names_ok nd -> G expr (build C nd) asks_ok.
Proof.
  induction nd using dnode_ind'; intro HN; cbn [build].
  - apply G_ok. apply asks_lit.
  - apply G_ret. intros e E. destruct (parse_float t); inversion E; subst. apply asks_lit.
  - apply G_ret. intros e E. destruct (parse_datetime t (c_tz C)); inversion E; subst. apply asks_lit.
  - apply G_ret. intros e E. destruct (parse_timedelta t); inversion E; subst. apply asks_lit.
  - rewrite Forall_forall in H. eapply G_bind.
    + apply (G_pmapM _ _ _ asks_ok). intros a Ha. apply H; [exact Ha|]. revert HN. apply names_sub; intros; apply in_flat_map; eauto.
    + intros es He. apply G_ok. intros n Hn. exact (asks_list es He n Hn).
  - rewrite Forall_forall in H. eapply G_bind.
    + apply (G_pmapM _ _ _ asks_ok). intros a Ha. apply H; [exact Ha|]. revert HN. apply names_sub; intros; apply in_flat_map; eauto.
    + intros es He. apply G_ok. intros n Hn. exact (asks_list es He n Hn).
  - rewrite Forall_forall in H. eapply G_bind.
    + apply (G_pmapM _ _ _ (fun kv => asks_ok (fst kv) /\ asks_ok (snd kv))). intros kv Hkv. destruct (H kv Hkv) as [Hk Hv].
      eapply G_bind; [apply Hk; revert HN; apply names_sub; intros; apply in_flat_map; exists kv; (split; [exact Hkv|apply in_app_iff; auto])|].
      intros k Hk'. eapply G_bind; [apply Hv; revert HN; apply names_sub; intros; apply in_flat_map; exists kv; (split; [exact Hkv|apply in_app_iff; auto])|].
      intros v Hv'. apply G_ok. auto.
    + intros es He. eapply G_bind; [apply G_lift|]. intros _ _. apply G_ok. intros n Hn. cbn in Hn. apply in_flat_map in Hn.
      destruct Hn as [kv [Hkv Hn]]. destruct (He kv Hkv) as [H1 H2]. revert Hn. apply asks_app; assumption.
  - eapply G_bind; [apply IHnd1; revert HN; apply names_sub; intros; apply in_app_iff; auto|]. intros x Hx.
    eapply G_bind; [apply IHnd2; revert HN; apply names_sub; intros; apply in_app_iff; auto|]. intros y Hy.
    eapply G_bind; [apply G_lift|]. intros _ _. apply closure_reduce. intros n. apply asks_app; assumption.
  - eapply G_bind; [apply IHnd2; revert HN; apply names_sub; intros; cbn; rewrite !in_app_iff; auto|]. intros i Hi.
    destruct (_ && _); [apply G_raise|]. eapply G_bind.
    + apply G_scope. eapply G_bind.
      * instantiate (1 := fun o => match o with Some e => asks_ok e | None => True end).
        destruct c as [c|]; [|apply G_ok; exact I]. eapply G_bind; [apply H; revert HN; apply names_sub; intros; cbn; rewrite !in_app_iff; auto|].
        intros e He. apply G_ok. exact He.
      * intros c' Hc'. eapply G_bind; [apply IHnd1; revert HN; apply names_sub; intros; cbn; rewrite !in_app_iff; auto|].
        intros e He. apply G_ok. instantiate (1 := fun p => match fst p with Some e => asks_ok e | None => True end /\ asks_ok (snd p)). cbn. auto.
    + intros [c' e] [H1 H2]. apply G_ok. cbn in *. intros n. cbn. apply asks_app; [exact H2|]. apply asks_app; [exact Hi|].
      destruct c'; [exact H1|intros ? []].
  - eapply G_bind; [apply IHnd1; revert HN; apply names_sub; intros; apply in_app_iff; auto|]. intros x Hx.
    eapply G_bind; [apply IHnd2; revert HN; apply names_sub; intros; apply in_app_iff; auto|]. intros y Hy.
    eapply G_bind; [apply G_lift|]. intros _ _. apply closure_reduce. intros n'. apply asks_app; assumption.
  - eapply G_bind; [apply IHnd; revert HN; apply names_sub; cbn; auto|]. intros x Hx.
    eapply G_bind; [apply G_lift|]. intros _ _. apply closure_reduce. intros m [<-|Hm]; [apply (proj2 HN); left; reflexivity|apply Hx; exact Hm].
  - eapply G_bind; [apply IHnd1; revert HN; apply names_sub; intros; apply in_app_iff; auto|]. intros x Hx.
    eapply G_bind; [apply IHnd2; revert HN; apply names_sub; intros; apply in_app_iff; auto|]. intros y Hy.
    eapply G_bind; [apply G_lift|]. intros _ _. apply closure_reduce. intros n. apply asks_app; assumption.
  - assert (O : forall o, opt_D (fun n => names_ok n -> G expr (build C n) asks_ok) o -> match o with Some n => names_ok n | None => True end ->
       G (option expr) (match o with Some n => do! e := build C n in ok (Some e) | None => ok None end)
         (fun o => match o with Some e => asks_ok e | None => True end)).
    { intros [n|] Ho Hn; [|apply G_ok; exact I]. eapply G_bind; [apply Ho; exact Hn|]. intros e He. apply G_ok. exact He. }
    eapply G_bind; [apply O; [eassumption|]; destruct a; [|exact I]; revert HN; apply names_sub; intros; cbn; rewrite !in_app_iff; auto|]. intros x Hx.
    eapply G_bind; [apply O; [eassumption|]; destruct b; [|exact I]; revert HN; apply names_sub; intros; cbn; rewrite !in_app_iff; auto|]. intros y Hy.
    eapply G_bind; [apply IHnd; revert HN; apply names_sub; intros; cbn; rewrite !in_app_iff; auto|]. intros z Hz.
    eapply G_bind; [apply G_lift|]. intros _ _. apply closure_reduce. intros n. cbn. apply asks_app; [exact Hz|].
    apply asks_app; [destruct x; [exact Hx|intros ? []]|destruct y; [exact Hy|intros ? []]].
  - eapply G_bind; [apply G_symop; apply (proj1 HN); left; reflexivity|]. intros _ _.
    unfold resolve_type. eapply G_bind.
    + instantiate (1 := tt_post). destruct b; [apply G_ok; exact I|]. eapply G_bind; [apply (G_op OScopes); exact I|]. intros l _.
      destruct (find_scope l n) as [a|]; [destruct (a_type a); [apply G_ok; exact I|apply G_raise]|apply G_lift].
    + intros t _. apply G_ok. intros m Hm. cbn in Hm. destruct b; [contradiction|]. destruct Hm as [<-|[]].
      apply Sm_Nm. apply (proj1 HN). left. reflexivity.
  - eapply G_bind; [apply IHnd; revert HN; apply names_sub; intros; apply in_app_iff; auto|]. intros x Hx.
    rewrite Forall_forall in H. eapply G_bind.
    + apply (G_pmapM _ _ _ asks_ok). intros a Ha. apply H; [exact Ha|]. revert HN. apply names_sub; intros; cbn; apply in_app_iff; right; apply in_flat_map; eauto.
    + intros es He. eapply G_bind; [apply G_lift|]. intros _ _. apply closure_reduce. intros n. cbn. apply asks_app; [exact Hx|].
      apply asks_list. exact He.
  - eapply G_bind; [apply IHnd1; revert HN; apply names_sub; intros; cbn; rewrite !in_app_iff; auto|]. intros x Hx.
    eapply G_bind; [apply IHnd2; revert HN; apply names_sub; intros; cbn; rewrite !in_app_iff; auto|]. intros y Hy.
    eapply G_bind; [apply IHnd3; revert HN; apply names_sub; intros; cbn; rewrite !in_app_iff; auto|]. intros z Hz.
    apply closure_reduce. intros n. cbn. apply asks_app; [exact Hx|]. apply asks_app; assumption.
  - eapply G_bind; [apply IHnd; exact HN|]. intros x Hx. apply closure_reduce. exact Hx.
Qed.
End Closure.
