(** * StateFacts: effects of evaluation and construction on the thread state *)
From Verif Require Import Base Dec Value DType Types Ops ParseUtil Attr Prog Ast Eval Build Engine ProgFacts.
Open Scope Z_scope.

(** ** Instances of the closure principle *)

(** [p] leaves [f] of the state alone and its value satisfies [Q] *)
Definition keepsQ {X} (f : st -> X) A (p : prog A) (Q : A -> Prop) : Prop :=
  forall w q, f (snd (run w p q)) = f q /\ forall a, fst (run w p q) = Ok a -> Q a.

Lemma keepsQ_ret : forall X (f : st -> X) A (r : result A) (Q : A -> Prop), (forall a, r = Ok a -> Q a) -> keepsQ f A (Ret r) Q.
Proof. intros X f A r Q H w q. cbn. auto. Qed.
Lemma keepsQ_then : forall X (f : st -> X) A B (p : prog A) Q (g : result A -> prog B) R,
  keepsQ f A p Q -> (forall a, Q a -> keepsQ f B (g (Ok a)) R) -> (forall x, keepsQ f B (g (Err x)) R) -> keepsQ f B (pthen p g) R.
Proof.
  intros X f A B p Q g R Hp Hg He w q. rewrite run_pthen. destruct (Hp w q) as [H1 H2].
  destruct (run w p q) as [[a|x] q']; cbn in H1, H2.
  - destruct (Hg a (H2 a eq_refl) w q') as [H3 H4]. split; [congruence|exact H4].
  - destruct (He x w q') as [H3 H4]. split; [congruence|exact H4].
Qed.
Lemma keepsQ_scope : forall A a (p : prog A) Q, keepsQ s_scopes A p Q -> keepsQ s_scopes A (with_scope a p) Q.
Proof.
  intros A a p Q H w q. rewrite run_with_scope. destruct (H w (set_scopes (s_scopes q ++ [a]) q)) as [H1 H2].
  destruct (run w p _) as [r q']. cbn in H1, H2. rewrite H1. destruct (s_scopes q ++ [a]) eqn:E.
  - destruct (s_scopes q); discriminate.
  - rewrite <- E. cbn. split; [apply removelast_snoc|exact H2].
Qed.
Lemma keepsQ_act : forall X (f : st -> X) o, (forall w q, f (snd (step_op w o q)) = f q) -> keepsQ f (ans o) (act o) tt_post.
Proof. intros X f o H w q. rewrite run_act. specialize (H w q). destruct (step_op w o q). split; [exact H|intros; exact I]. Qed.
Lemma keepsQ_scope_other : forall X (f : st -> X) A a (p : prog A) Q,
  (forall l q, f (set_scopes l q) = f q) -> keepsQ f A p Q -> keepsQ f A (with_scope a p) Q.
Proof.
  intros X f A a p Q Hf H w q. rewrite run_with_scope. destruct (H w (set_scopes (s_scopes q ++ [a]) q)) as [H1 H2].
  destruct (run w p _) as [r q']. cbn in H1, H2. rewrite Hf in H1. destruct (s_scopes q'); cbn; [split; [exact H1|discriminate]|].
  rewrite Hf. auto.
Qed.

Section Facts.
Context {Orc : Oracle} (C : ctx).

Theorem eval_scopes : forall thing e w q, s_scopes (snd (run w (eval C thing e) q)) = s_scopes q.
Proof.
  intros thing e w q.
  apply (closure_eval C (keepsQ s_scopes) (keepsQ_ret _ _) (keepsQ_then _ _) keepsQ_scope) with (Nm := fun _ => True); try (intros; exact I).
  - intros o Ho. apply keepsQ_act. intros w0 q0. destruct o; try contradiction; reflexivity.
  - intros t n _. apply (keepsQ_act _ _ (OResolve t n)). reflexivity.
Qed.

Theorem build_scopes : forall nd w q, s_scopes (snd (run w (build C nd) q)) = s_scopes q.
Proof.
  intros nd w q.
  apply (closure_build C (keepsQ s_scopes) (keepsQ_ret _ _) (keepsQ_then _ _) keepsQ_scope) with (Nm := fun _ => True) (Sm := fun _ => True);
    try (intros; exact I).
  - intros o Ho. apply keepsQ_act. intros w0 q0. destruct o; try contradiction; reflexivity.
  - intros t n _. apply (keepsQ_act _ _ (OResolve t n)). reflexivity.
  - intros n _. apply (keepsQ_act _ _ (OSym n)). reflexivity.
  - split; intros; exact I.
Qed.

Theorem eval_dc : forall thing e w q, s_dc (snd (run w (eval C thing e) q)) = s_dc q.
Proof.
  intros thing e w q.
  apply (closure_eval C (keepsQ s_dc) (keepsQ_ret _ _) (keepsQ_then _ _)) with (Nm := fun _ => True); try (intros; exact I).
  - intros. apply keepsQ_scope_other; [reflexivity|assumption].
  - intros o Ho. apply keepsQ_act. intros w0 q0. destruct o; try contradiction; reflexivity.
  - intros t n _. apply (keepsQ_act _ _ (OResolve t n)). reflexivity.
Qed.
Theorem build_dc : forall nd w q, s_dc (snd (run w (build C nd) q)) = s_dc q.
Proof.
  intros nd w q.
  apply (closure_build C (keepsQ s_dc) (keepsQ_ret _ _) (keepsQ_then _ _)) with (Nm := fun _ => True) (Sm := fun _ => True);
    try (intros; exact I).
  - intros. apply keepsQ_scope_other; [reflexivity|assumption].
  - intros o Ho. apply keepsQ_act. intros w0 q0. destruct o; try contradiction; reflexivity.
  - intros t n _. apply (keepsQ_act _ _ (OResolve t n)). reflexivity.
  - intros n _. apply (keepsQ_act _ _ (OSym n)). reflexivity.
  - split; intros; exact I.
Qed.
Theorem eval_syms : forall thing e w q, s_syms (snd (run w (eval C thing e) q)) = s_syms q.
Proof.
  intros thing e w q.
  apply (closure_eval C (keepsQ s_syms) (keepsQ_ret _ _) (keepsQ_then _ _)) with (Nm := fun _ => True); try (intros; exact I).
  - intros. apply keepsQ_scope_other; [reflexivity|assumption].
  - intros o Ho. apply keepsQ_act. intros w0 q0. destruct o; try contradiction; reflexivity.
  - intros t n _. apply (keepsQ_act _ _ (OResolve t n)). reflexivity.
Qed.
End Facts.

(** *** Lists that only grow, by elements satisfying [P] *)
Definition grows {X} (f : st -> list X) (P : X -> Prop) A (p : prog A) (Q : A -> Prop) : Prop :=
  forall w q, (exists l, f (snd (run w p q)) = l ++ f q /\ Forall P l) /\ forall a, fst (run w p q) = Ok a -> Q a.

Section Grow.
Context {X : Type} (f : st -> list X) (P : X -> Prop).
Lemma grows_ret : forall A (r : result A) (Q : A -> Prop), (forall a, r = Ok a -> Q a) -> grows f P A (Ret r) Q.
Proof. intros A r Q H w q. cbn. split; [exists []; split; [reflexivity|constructor]|auto]. Qed.
Lemma grows_then : forall A B (p : prog A) Q (g : result A -> prog B) R,
  grows f P A p Q -> (forall a, Q a -> grows f P B (g (Ok a)) R) -> (forall x, grows f P B (g (Err x)) R) -> grows f P B (pthen p g) R.
Proof.
  intros A B p Q g R Hp Hg He w q. rewrite run_pthen. destruct (Hp w q) as [[l [H1 F1]] H2].
  destruct (run w p q) as [[a|x] q']; cbn in H1, H2.
  - destruct (Hg a (H2 a eq_refl) w q') as [[l2 [H3 F3]] H4]. split; [|exact H4]. exists (l2 ++ l). rewrite H3, H1, app_assoc.
    split; [reflexivity|apply Forall_app; auto].
  - destruct (He x w q') as [[l2 [H3 F3]] H4]. split; [|exact H4]. exists (l2 ++ l). rewrite H3, H1, app_assoc.
    split; [reflexivity|apply Forall_app; auto].
Qed.
Lemma grows_scope : forall A a (p : prog A) Q, (forall l q, f (set_scopes l q) = f q) -> grows f P A p Q -> grows f P A (with_scope a p) Q.
Proof.
  intros A a p Q Hf H w q. rewrite run_with_scope. destruct (H w (set_scopes (s_scopes q ++ [a]) q)) as [[l [H1 F1]] H2].
  destruct (run w p _) as [r q']. cbn in H1, H2. rewrite Hf in H1. destruct (s_scopes q'); cbn; [split; [eauto|discriminate]|].
  rewrite Hf. eauto.
Qed.
Lemma grows_act : forall o, (forall w q, exists l, f (snd (step_op w o q)) = l ++ f q /\ Forall P l) -> grows f P (ans o) (act o) tt_post.
Proof. intros o H w q. rewrite run_act. specialize (H w q). destruct (step_op w o q). split; [exact H|intros; exact I]. Qed.
End Grow.

(** the resolver is asked only for names satisfying [Nm] *)
Definition ev_ok (Nm : str -> Prop) (e : event) : Prop := match e with EvResolve _ n _ => Nm n | _ => True end.

Section Facts2.
Context {Orc : Oracle} (C : ctx).

Lemma same_list : forall X (P : X -> Prop) (l : list X), exists l', l = l' ++ l /\ Forall P l'.
Proof. intros. exists []. split; [reflexivity|constructor]. Qed.

Theorem eval_log : forall thing e w q,
  exists l, s_log (snd (run w (eval C thing e) q)) = l ++ s_log q /\ Forall (ev_ok (fun n => In n (asked e))) l.
Proof.
  intros thing e w q.
  apply (closure_eval C (grows s_log (ev_ok (fun n => In n (asked e)))) (grows_ret _ _) (grows_then _ _)) with (Nm := fun n => In n (asked e)).
  - intros. apply grows_scope; [reflexivity|assumption].
  - intros o Ho. apply grows_act. intros w0 q0. destruct o; try contradiction; try apply same_list; cbn; eexists [_]; (split; [reflexivity|constructor; [exact I|constructor]]).
  - intros t n Hn. apply (grows_act _ _ (OResolve t n)). intros w0 q0. cbn. eexists [_]. split; [reflexivity|constructor; [exact Hn|constructor]].
  - auto.
Qed.

Theorem build_log : forall nd w q,
  (exists l, s_log (snd (run w (build C nd) q)) = l ++ s_log q /\ Forall (ev_ok (fun n => In n (dsyms nd) \/ In n (dattrs nd))) l) /\
  forall e, fst (run w (build C nd) q) = Ok e -> forall n, In n (asked e) -> In n (dsyms nd) \/ In n (dattrs nd).
Proof.
  intros nd w q.
  apply (closure_build C (grows s_log (ev_ok (fun n => In n (dsyms nd) \/ In n (dattrs nd)))) (grows_ret _ _) (grows_then _ _))
    with (Nm := fun n => In n (dsyms nd) \/ In n (dattrs nd)) (Sm := fun n => In n (dsyms nd)).
  - intros. apply grows_scope; [reflexivity|assumption].
  - intros o Ho. apply grows_act. intros w0 q0. destruct o; try contradiction; try apply same_list; cbn; eexists [_]; (split; [reflexivity|constructor; [exact I|constructor]]).
  - intros t n Hn. apply (grows_act _ _ (OResolve t n)). intros w0 q0. cbn. eexists [_]. split; [reflexivity|constructor; [exact Hn|constructor]].
  - intros n _. apply (grows_act _ _ (OSym n)). intros. apply same_list.
  - auto.
  - split; auto.
Qed.

Theorem build_syms_only : forall nd w q,
  exists l, s_syms (snd (run w (build C nd) q)) = l ++ s_syms q /\ Forall (fun n => In n (dsyms nd)) l.
Proof.
  intros nd w q.
  apply (closure_build C (grows s_syms (fun n => In n (dsyms nd))) (grows_ret _ _) (grows_then _ _))
    with (Nm := fun n => True) (Sm := fun n => In n (dsyms nd)); try (intros; exact I).
  - intros. apply grows_scope; [reflexivity|assumption].
  - intros o Ho. apply grows_act. intros w0 q0. destruct o; try contradiction; apply same_list.
  - intros t n Hn. apply (grows_act _ _ (OResolve t n)). intros. apply same_list.
  - intros n Hn. apply (grows_act _ _ (OSym n)). intros. cbn. exists [n]. split; [reflexivity|constructor; [exact Hn|constructor]].
  - split; auto.
Qed.

Lemma reduce_syms : forall e w q, s_syms (snd (run w (reduce C e) q)) = s_syms q.
Proof.
  intros e w q.
  apply (closure_reduce C (keepsQ s_syms) (keepsQ_ret _ _) (keepsQ_then _ _)) with (Nm := fun n => True); try (intros n Hn; exact I).
  - intros. apply keepsQ_scope_other; [reflexivity|assumption].
  - intros o Ho. apply keepsQ_act. intros w0 q0. destruct o; try contradiction; reflexivity.
  - intros t n _. apply (keepsQ_act _ _ (OResolve t n)). reflexivity.
Qed.
Lemma reduce_scopes : forall e w q, s_scopes (snd (run w (reduce C e) q)) = s_scopes q.
Proof.
  intros e w q.
  apply (closure_reduce C (keepsQ s_scopes) (keepsQ_ret _ _) (keepsQ_then _ _) keepsQ_scope) with (Nm := fun n => True); try (intros n Hn; exact I).
  - intros o Ho. apply keepsQ_act. intros w0 q0. destruct o; try contradiction; reflexivity.
  - intros t n _. apply (keepsQ_act _ _ (OResolve t n)). reflexivity.
Qed.
End Facts2.

(** ** Inversion of successful runs *)
Lemma run_pbind_ok : forall A B w (p : prog A) (f : A -> prog B) q b q',
  run w (pbind p f) q = (Ok b, q') -> exists a q1, run w p q = (Ok a, q1) /\ run w (f a) q1 = (Ok b, q').
Proof.
  intros A B w p f q b q' H. rewrite run_pbind in H. destruct (run w p q) as [[a|x] q1]; [eauto|discriminate].
Qed.
Lemma run_scope_ok : forall A w a (p : prog A) q b q',
  run w (with_scope a p) q = (Ok b, q') -> exists q1, run w p (set_scopes (s_scopes q ++ [a]) q) = (Ok b, q1) /\ s_syms q' = s_syms q1.
Proof.
  intros A w a p q b q' H. rewrite run_with_scope in H. destruct (run w p _) as [r q1]. destruct (s_scopes q1); [discriminate|].
  inversion H; subst. exists q1. split; reflexivity.
Qed.

Section Complete.
Context {Orc : Oracle} (C : ctx).

Lemma build_mono : forall nd w q r q', run w (build C nd) q = (r, q') -> forall n, In n (s_syms q) -> In n (s_syms q').
Proof.
  intros nd w q r q' H n Hn. destruct (build_syms_only C nd w q) as [l [E _]]. rewrite H in E. cbn in E. rewrite E.
  apply in_app_iff. auto.
Qed.

Definition complete (nd : dnode) : Prop := forall w q e q', run w (build C nd) q = (Ok e, q') -> forall n, In n (dsyms nd) -> In n (s_syms q').

Lemma complete_list : forall l, Forall complete l -> forall w q es q', run w (pmapM (build C) l) q = (Ok es, q') ->
  (forall n, In n (s_syms q) -> In n (s_syms q')) /\ forall n, In n (flat_map dsyms l) -> In n (s_syms q').
Proof.
  induction l as [|a l IH]; intros F w q es q' H; [inversion H; subst; split; [auto|intros n []]|].
  inversion F as [|? ? Ha Hl]; subst. cbn [pmapM] in H. apply run_pbind_ok in H. destruct H as [e [q1 [H1 H]]].
  apply run_pbind_ok in H. destruct H as [es' [q2 [H2 H]]]. inversion H; subst. clear H.
  destruct (IH Hl _ _ _ _ H2) as [M2 C2]. split.
  - intros n Hn. apply M2. eapply build_mono; eassumption.
  - intros n Hn. cbn in Hn. apply in_app_iff in Hn. destruct Hn as [Hn|Hn]; [apply M2; eapply Ha; eassumption|auto].
Qed.

Lemma run_reduce_syms : forall e w q r q', run w (reduce C e) q = (r, q') -> s_syms q' = s_syms q.
Proof. intros e w q r q' H. assert (E := reduce_syms C e w q). rewrite H in E. exact E. Qed.

Lemma run_ret_ok : forall A w (r : result A) q b q', run w (Ret r) q = (Ok b, q') -> r = Ok b /\ q' = q.
Proof. intros. inversion H; auto. Qed.

Ltac inv_bind H x q1 H1 := apply run_pbind_ok in H; destruct H as [x [q1 [H1 H]]].

Theorem build_complete : forall nd, complete nd.
Proof.
  induction nd using dnode_ind'; intros w q e q' HR m Hm; cbn [dsyms] in Hm; try contradiction; cbn [build] in HR.
  - inv_bind HR es q1 H1. inversion HR; subst. eapply (proj2 (complete_list l H _ _ _ _ H1)). exact Hm.
  - inv_bind HR es q1 H1. inversion HR; subst. eapply (proj2 (complete_list l H _ _ _ _ H1)). exact Hm.
  - inv_bind HR es q1 H1. inv_bind HR u q2 H2. apply run_ret_ok in H2. destruct H2 as [_ ->]. inversion HR; subst. clear HR.
    assert (G : forall l, Forall (fun kv => complete (fst kv) /\ complete (snd kv)) l -> forall q es q1,
       run w (pmapM (fun kv => do! k := build C (fst kv) in do! v := build C (snd kv) in ok (k, v)) l) q = (Ok es, q1) ->
       (forall n, In n (s_syms q) -> In n (s_syms q1)) /\ forall n, In n (flat_map (fun kv => dsyms (fst kv) ++ dsyms (snd kv)) l) -> In n (s_syms q1)).
    { clear. induction l as [|kv l IH]; intros F q es q1 H; [inversion H; subst; split; [auto|intros n []]|].
      inversion F as [|? ? [Hk Hv] Hl]; subst. cbn [pmapM] in H. inv_bind H e0 q2 H1. inv_bind H es' q3 H2. inversion H; subst. clear H.
      inv_bind H1 k q4 H4. inv_bind H1 v q5 H5. inversion H1; subst. clear H1.
      destruct (IH Hl _ _ _ H2) as [M2 C2].
      assert (M4 := build_mono _ _ _ _ _ H4). assert (M5 := build_mono _ _ _ _ _ H5).
      split; [auto|]. intros n Hn. cbn in Hn. rewrite !in_app_iff in Hn. destruct Hn as [[Hn|Hn]|Hn]; [apply M2, M5|apply M2|auto].
      - eapply Hk; eassumption.
      - eapply Hv; eassumption. }
    eapply (proj2 (G l H _ _ _ H1)). exact Hm.
  - inv_bind HR x q1 H1. inv_bind HR y q2 H2. inv_bind HR u q3 H3. apply run_ret_ok in H3. destruct H3 as [_ ->].
    rewrite (run_reduce_syms _ _ _ _ _ HR). apply in_app_iff in Hm. destruct Hm as [Hm|Hm].
    + eapply build_mono; [exact H2|]. eapply IHnd1; eassumption.
    + eapply IHnd2; eassumption.
  - inv_bind HR i q1 H1. destruct (_ && _) in HR; [discriminate HR|]. inv_bind HR cr q2 H2. inversion HR; subst. clear HR.
    apply run_scope_ok in H2. destruct H2 as [q3 [H2 ->]].
    inv_bind H2 c' q4 H4. inv_bind H2 e q5 H5. inversion H2; subst. clear H2.
    rewrite !in_app_iff in Hm. destruct Hm as [Hm|[Hm|Hm]].
    + eapply IHnd1; eassumption.
    + eapply build_mono; [exact H5|]. destruct c as [c|].
      * inv_bind H4 e1 q6 H6. inversion H4; subst. eapply build_mono; [exact H6|]. cbn. eapply IHnd2; eassumption.
      * inversion H4; subst. cbn. eapply IHnd2; eassumption.
    + destruct c as [c|]; [|contradiction]. inv_bind H4 e1 q6 H6. inversion H4; subst. eapply build_mono; [exact H5|]. eapply H; eassumption.
  - inv_bind HR x q1 H1. inv_bind HR y q2 H2. inv_bind HR u q3 H3. apply run_ret_ok in H3. destruct H3 as [_ ->].
    rewrite (run_reduce_syms _ _ _ _ _ HR). apply in_app_iff in Hm. destruct Hm as [Hm|Hm].
    + eapply build_mono; [exact H2|]. eapply IHnd1; eassumption.
    + eapply IHnd2; eassumption.
  - inv_bind HR x q1 H1. inv_bind HR u q3 H3. apply run_ret_ok in H3. destruct H3 as [_ ->].
    rewrite (run_reduce_syms _ _ _ _ _ HR). eapply IHnd; eassumption.
  - inv_bind HR x q1 H1. inv_bind HR y q2 H2. inv_bind HR u q3 H3. apply run_ret_ok in H3. destruct H3 as [_ ->].
    rewrite (run_reduce_syms _ _ _ _ _ HR). apply in_app_iff in Hm. destruct Hm as [Hm|Hm].
    + eapply build_mono; [exact H2|]. eapply IHnd1; eassumption.
    + eapply IHnd2; eassumption.
  - inv_bind HR x q1 H1. inv_bind HR y q2 H2. inv_bind HR z q3 H3. inv_bind HR u q4 H4. apply run_ret_ok in H4. destruct H4 as [_ ->].
    rewrite (run_reduce_syms _ _ _ _ _ HR). rewrite !in_app_iff in Hm.
    assert (My : forall n, In n (s_syms q1) -> In n (s_syms q2)).
    { destruct b as [b|]; [|inversion H2; subst; auto]. inv_bind H2 e0 q5 H5. inversion H2; subst. intros n Hn. eapply build_mono; eassumption. }
    destruct Hm as [Hm|[Hm|Hm]].
    + eapply IHnd; eassumption.
    + eapply build_mono; [exact H3|]. apply My. destruct a as [a|]; [|contradiction]. inv_bind H1 e0 q5 H5. inversion H1; subst. eapply H; eassumption.
    + eapply build_mono; [exact H3|]. destruct b as [b|]; [|contradiction]. inv_bind H2 e0 q5 H5. inversion H2; subst. eapply H0; eassumption.
  - inv_bind HR u q1 H1. destruct Hm as [<-|[]]. inversion H1; subst. inv_bind HR t q2 H2. inversion HR; subst.
    unfold resolve_type in H2. destruct b; [inversion H2; subst; left; reflexivity|].
    inv_bind H2 l q3 H3. inversion H3; subst. destruct (find_scope _ n) as [a|] in H2; [destruct (a_type a)|]; inversion H2; subst; left; reflexivity.
  - inv_bind HR x q1 H1. inv_bind HR es q2 H2. inv_bind HR u q3 H3. apply run_ret_ok in H3. destruct H3 as [_ ->].
    rewrite (run_reduce_syms _ _ _ _ _ HR). destruct (complete_list l H _ _ _ _ H2) as [M2 C2]. apply in_app_iff in Hm.
    destruct Hm as [Hm|Hm]; [apply M2; eapply IHnd; eassumption|auto].
  - inv_bind HR x q1 H1. inv_bind HR y q2 H2. inv_bind HR z q3 H3. rewrite (run_reduce_syms _ _ _ _ _ HR).
    rewrite !in_app_iff in Hm. destruct Hm as [Hm|[Hm|Hm]].
    + eapply build_mono; [exact H3|]. eapply build_mono; [exact H2|]. eapply IHnd1; eassumption.
    + eapply build_mono; [exact H3|]. eapply IHnd2; eassumption.
    + eapply IHnd3; eassumption.
  - inv_bind HR x q1 H1. rewrite (run_reduce_syms _ _ _ _ _ HR). eapply IHnd; eassumption.
Qed.
End Complete.

(** ** Two executions that receive the same answers *)

(** the callbacks give the same answers after the events [l1] in the first world and [l2] in the second, and go on
    doing so whatever (equal) events follow *)
Definition agree (w1 : world) (l1 : list event) (w2 : world) (l2 : list event) : Prop :=
  forall l,
    (forall t n, w_resolve w1 (l ++ l1) t n = w_resolve w2 (l ++ l2) t n) /\
    (forall f a, w_user w1 (l ++ l1) f a = w_user w2 (l ++ l2) f a) /\
    (forall z, w_now w1 (l ++ l1) z = w_now w2 (l ++ l2) z) /\
    (forall b, w_random w1 (l ++ l1) b = w_random w2 (l ++ l2) b).

Lemma agree_cons : forall w1 l1 w2 l2 e, agree w1 l1 w2 l2 -> agree w1 (e :: l1) w2 (e :: l2).
Proof. intros w1 l1 w2 l2 e H l. specialize (H (l ++ [e])). rewrite <- !app_assoc in H. exact H. Qed.
Lemma agree_app : forall w1 l1 w2 l2 l, agree w1 l1 w2 l2 -> agree w1 (l ++ l1) w2 (l ++ l2).
Proof. induction l as [|e l IH]; intro H; [exact H|]. cbn. apply agree_cons, IH, H. Qed.
Lemma agree_refl : forall w l, agree w l w l.
Proof. intros w l l'. auto. Qed.

(** same visible thread state *)
Definition same_tls (q1 q2 : st) : Prop := s_scopes q1 = s_scopes q2 /\ s_groups q1 = s_groups q2 /\ s_dc q1 = s_dc q2.

Lemma bisim : forall A (p : prog A) w1 w2 q1 q2, agree w1 (s_log q1) w2 (s_log q2) -> same_tls q1 q2 ->
  exists l sy, let '(r1, q1') := run w1 p q1 in let '(r2, q2') := run w2 p q2 in
    r1 = r2 /\ same_tls q1' q2' /\ s_log q1' = l ++ s_log q1 /\ s_log q2' = l ++ s_log q2 /\
    s_syms q1' = sy ++ s_syms q1 /\ s_syms q2' = sy ++ s_syms q2.
Proof.
  intros A p w1 w2. induction p as [r|o k IH]; intros q1 q2 Ha [E1 [E2 E3]].
  - exists [], []. cbn. unfold same_tls. repeat split; assumption.
  - assert (G : exists l sy, let '(a1, p1) := step_op w1 o q1 in let '(a2, p2) := step_op w2 o q2 in
      a1 = a2 /\ same_tls p1 p2 /\ s_log p1 = l ++ s_log q1 /\ s_log p2 = l ++ s_log q2 /\
      s_syms p1 = sy ++ s_syms q1 /\ s_syms p2 = sy ++ s_syms q2).
    { destruct (Ha []) as [A1 [A2 [A3 A4]]]. cbn in A1, A2, A3, A4. unfold same_tls.
      destruct o; cbn; rewrite ?E1, ?E2, ?E3, ?A1, ?A2, ?A3, ?A4.
      all: try (exists [], []; cbn; repeat split; congruence).
      - destruct (s_scopes q2) eqn:E; exists [], []; cbn; repeat split; congruence.
      - exists [], [name]; cbn; repeat split; congruence.
      - eexists [_], []; cbn; repeat split; congruence.
      - eexists [_], []; cbn; repeat split; congruence.
      - eexists [_], []; cbn; repeat split; congruence.
      - eexists [_], []; cbn; repeat split; congruence. }
    destruct G as [l [sy G]]. cbn [run]. destruct (step_op w1 o q1) as [a1 p1]. destruct (step_op w2 o q2) as [a2 p2].
    destruct G as [<- [Ht [L1 [L2 [S1 S2]]]]].
    destruct (IH a1 p1 p2) as [l' [sy' G']]; [rewrite L1, L2; apply agree_app; exact Ha|exact Ht|].
    exists (l' ++ l), (sy' ++ sy). destruct (run w1 (k a1) p1) as [r1 q1']. destruct (run w2 (k a1) p2) as [r2 q2'].
    destruct G' as [-> [Ht' [L1' [L2' [S1' S2']]]]]. rewrite L1', L2', L1, L2, S1', S2', S1, S2, !app_assoc. auto 10.
Qed.

(** callbacks without memory *)
Definition memoryless (w : world) : Prop := forall l1 l2, agree w l1 w l2.

Section RuleFacts.
Context {Orc : Oracle} (C : ctx).

Lemma run_rule_evaluate : forall e thing w q,
  run w (rule_evaluate C e thing) q =
  let '(r, q') := run w (eval C thing e) (set_dc (c_dec C) (set_groups VNull (set_scopes [] q))) in (r, set_dc (s_dc q) q').
Proof.
  intros. unfold rule_evaluate. rewrite run_pbind, run_act. cbn [step_op]. rewrite run_pbind, run_act. cbn [step_op].
  rewrite run_pbind, run_act. cbn [step_op]. rewrite run_pthen. destruct (run w (eval C thing e) _) as [r q']. reflexivity.
Qed.

Lemma rule_evaluate_agree : forall e thing w1 w2 q1 q2, agree w1 (s_log q1) w2 (s_log q2) ->
  exists l, let '(r1, q1') := run w1 (rule_evaluate C e thing) q1 in let '(r2, q2') := run w2 (rule_evaluate C e thing) q2 in
    r1 = r2 /\ s_log q1' = l ++ s_log q1 /\ s_log q2' = l ++ s_log q2 /\ s_groups q1' = s_groups q2'.
Proof.
  intros e thing w1 w2 q1 q2 H. rewrite !run_rule_evaluate.
  destruct (bisim _ (eval C thing e) w1 w2 (set_dc (c_dec C) (set_groups VNull (set_scopes [] q1)))
     (set_dc (c_dec C) (set_groups VNull (set_scopes [] q2))) H) as [l [sy G]]; [repeat split|].
  exists l. destruct (run w1 _ _) as [r1 q1']. destruct (run w2 _ _) as [r2 q2']. destruct G as [G1 [[_ [G2 _]] [G3 [G4 _]]]]. auto.
Qed.

Lemma rule_evaluate_scopes : forall e thing w q, s_scopes (snd (run w (rule_evaluate C e thing) q)) = [].
Proof.
  intros. rewrite run_rule_evaluate. assert (E := eval_scopes C thing e w (set_dc (c_dec C) (set_groups VNull (set_scopes [] q)))).
  destruct (run w _ _) as [r q']. exact E.
Qed.
Lemma rule_evaluate_dc : forall e thing w q, s_dc (snd (run w (rule_evaluate C e thing) q)) = s_dc q.
Proof. intros. rewrite run_rule_evaluate. destruct (run w _ _) as [r q']. reflexivity. Qed.

Lemma run_rule_matches : forall e thing w q,
  run w (rule_matches C e thing) q =
  match run w (rule_evaluate C e thing) q with (Ok v, q') => (Ok (truthy v), q') | (Err x, q') => (Err x, q') end.
Proof. intros. unfold rule_matches. rewrite run_pbind. destruct (run w _ q) as [[v|x] q']; reflexivity. Qed.

Lemma rule_filter_not_err : forall e xs w q x q', run w (rule_filter C e xs) q <> (Err x, q').
Proof.
  induction xs as [|a xs IH]; intros w q x q' H; [discriminate|]. cbn [rule_filter] in H. rewrite run_pthen in H.
  destruct (run w (rule_matches C e a) q) as [[b|y] q1]; [|discriminate]. rewrite run_pbind in H.
  destruct (run w (rule_filter C e xs) q1) as [[p|z] q2] eqn:E; [discriminate|]. exact (IH _ _ _ _ E).
Qed.

(** after a failing member nothing else happens *)
Lemma rule_filter_stops : forall e xs ys w q l x q',
  run w (rule_filter C e xs) q = (Ok (l, Some x), q') -> run w (rule_filter C e (xs ++ ys)) q = (Ok (l, Some x), q').
Proof.
  induction xs as [|a xs IH]; intros ys w q l x q' H; [discriminate|]. cbn [rule_filter app] in *. rewrite run_pthen in *.
  destruct (run w (rule_matches C e a) q) as [[b|y] q1]; [|exact H]. rewrite run_pbind in *.
  destruct (run w (rule_filter C e xs) q1) as [[p|z] q2] eqn:E; [|discriminate]. destruct p as [l' o].
  inversion H; subst. cbn in *. subst. rewrite (IH ys _ _ _ _ _ E). reflexivity.
Qed.
End RuleFacts.

(** ** Names not bound by an enclosing comprehension *)
Fixpoint dfree (bound : list str) (n : dnode) : list str :=
  match n with
  | DLit _ | DFloat _ | DDatetime _ | DTimedelta _ => []
  | DArr l | DSet l => flat_map (dfree bound) l
  | DMap l => flat_map (fun kv => dfree bound (fst kv) ++ dfree bound (snd kv)) l
  | DBin _ a b => dfree bound a ++ dfree bound b
  | DComp r v i c => dfree bound i ++ dfree (v :: bound) r ++ match c with Some c => dfree (v :: bound) c | None => [] end
  | DIn c m => dfree bound c ++ dfree bound m
  | DAttr o _ _ => dfree bound o
  | DItem c i _ => dfree bound c ++ dfree bound i
  | DSlice c a b _ => dfree bound c ++ match a with Some a => dfree bound a | None => [] end
                       ++ match b with Some b => dfree bound b | None => [] end
  | DSym n bi => if bi then [] else if str_mem n bound then [] else [n]
  | DCall f l => dfree bound f ++ flat_map (dfree bound) l
  | DTern c a b => dfree bound c ++ dfree bound a ++ dfree bound b
  | DUn _ e => dfree bound e
  end.

Section Free.
Context {Orc : Oracle} (C : ctx).
Definition bnd (q : st) : list str := map a_name (s_scopes q).
Definition typed (n : str) : Prop := exists t, c_types C n = Ok t.
Definition free_ok (nd : dnode) : Prop :=
  forall w q e q', run w (build C nd) q = (Ok e, q') -> forall n, In n (dfree (bnd q) nd) -> typed n.

Lemma build_bnd : forall nd w q r q', run w (build C nd) q = (r, q') -> bnd q' = bnd q.
Proof. intros nd w q r q' H. assert (E := build_scopes C nd w q). rewrite H in E. cbn in E. unfold bnd. rewrite E. reflexivity. Qed.

Lemma pmapM_bnd : forall A B (f : A -> prog B), (forall a, keeps s_scopes (f a)) -> forall l w q r q', run w (pmapM f l) q = (r, q') -> bnd q' = bnd q.
Proof.
  intros A B f H l w q r q' E. assert (K : keeps s_scopes (pmapM f l)) by (apply keeps_pmapM; intros; apply H).
  specialize (K w q). rewrite E in K. cbn in K. unfold bnd. rewrite K. reflexivity.
Qed.

Lemma free_list : forall l, Forall free_ok l -> forall w q es q', run w (pmapM (build C) l) q = (Ok es, q') ->
  forall n, In n (flat_map (dfree (bnd q)) l) -> typed n.
Proof.
  induction l as [|a l IH]; intros F w q es q' H n Hn; [destruct Hn|].
  inversion F as [|? ? Ha Hl]; subst. cbn [pmapM] in H. apply run_pbind_ok in H. destruct H as [e [q1 [H1 H]]].
  apply run_pbind_ok in H. destruct H as [es' [q2 [H2 H]]]. cbn in Hn. apply in_app_iff in Hn.
  destruct Hn as [Hn|Hn]; [eapply Ha; eassumption|]. rewrite <- (build_bnd _ _ _ _ _ H1) in Hn. eapply IH; eassumption.
Qed.

Ltac inv_bind H x q1 H1 := apply run_pbind_ok in H; destruct H as [x [q1 [H1 H]]].

Lemma find_scope_None : forall l n, find_scope l n = None <-> str_mem n (map a_name l) = false.
Proof.
  induction l as [|a l IH]; intro n; cbn; [tauto|]. destruct (str_eqb n (a_name a)); cbn; [split; discriminate|apply IH].
Qed.

Theorem build_free : forall nd, free_ok nd.
Proof.
  induction nd using dnode_ind'; intros w q e q' HR m Hm; cbn [dfree] in Hm; try contradiction; cbn [build] in HR.
  - inv_bind HR es q1 H1. eapply free_list; eassumption.
  - inv_bind HR es q1 H1. eapply free_list; eassumption.
  - inv_bind HR es q1 H1. clear HR.
    revert q es q1 H1 Hm. induction l as [|kv l IH]; intros q es q1 H0 Hm; [destruct Hm|].
    inversion H as [|? ? [Hk Hv] Hl]; subst. cbn [pmapM] in H0. inv_bind H0 e0 q2 H1. inv_bind H0 es' q3 H2. 
    inv_bind H1 k q4 H4. inv_bind H1 v q5 H5. inversion H1; subst. clear H1.
    cbn in Hm. rewrite !in_app_iff in Hm. destruct Hm as [[Hm|Hm]|Hm].
    + eapply Hk; eassumption.
    + rewrite <- (build_bnd _ _ _ _ _ H4) in Hm. eapply Hv; eassumption.
    + rewrite <- (build_bnd _ _ _ _ _ H4), <- (build_bnd _ _ _ _ _ H5) in Hm. eapply IH; eassumption.
  - inv_bind HR x q1 H1. inv_bind HR y q2 H2. apply in_app_iff in Hm. destruct Hm as [Hm|Hm]; [eapply IHnd1; eassumption|].
    rewrite <- (build_bnd _ _ _ _ _ H1) in Hm. eapply IHnd2; eassumption.
  - inv_bind HR i q1 H1. destruct (_ && _) in HR; [discriminate HR|]. inv_bind HR cr q2 H2. inversion HR; subst. clear HR.
    apply run_scope_ok in H2. destruct H2 as [q3 [H2 _]].
    inv_bind H2 c' q4 H4. inv_bind H2 e q5 H5. inversion H2; subst. clear H2.
    match type of H4 with run w _ ?s = _ => set (qs := s) in * end.
    assert (Eb : forall x, In x (bnd qs) <-> In x (v :: bnd q)).
    { intro x. unfold qs, bnd. cbn. rewrite map_app, in_app_iff. fold (bnd q1). rewrite (build_bnd _ _ _ _ _ H1). cbn. tauto. }
    assert (Ed : forall nd0 n, In n (dfree (v :: bnd q) nd0) -> In n (dfree (bnd qs) nd0)).
    { clear - Eb. intro nd0. revert Eb. generalize (bnd qs) (v :: bnd q). clear.
      induction nd0 using dnode_ind'; intros b1 b2 Eb m Hm; cbn [dfree] in *; try contradiction;
        repeat match goal with Hx : In _ (_ ++ _) |- _ => apply in_app_iff in Hx; destruct Hx as [Hx|Hx] end; rewrite ?in_app_iff; eauto.
      - rewrite in_flat_map in *. destruct Hm as [y [Hy Hm]]. exists y. rewrite Forall_forall in H. eauto.
      - rewrite in_flat_map in *. destruct Hm as [y [Hy Hm]]. exists y. rewrite Forall_forall in H. eauto.
      - rewrite in_flat_map in *. destruct Hm as [y [Hy Hm]]. exists y. rewrite Forall_forall in H. destruct (H y Hy) as [Hk Hv].
        rewrite in_app_iff in *. destruct Hm; eauto.
      - right. left. eapply IHnd0_1; [|exact Hm]. intro x. cbn. rewrite Eb. tauto.
      - right. right. destruct c; [|contradiction]. eapply H; [|exact Hm]. intro x. cbn. rewrite Eb. tauto.
      - right. left. destruct a; [|contradiction]. eapply H; eassumption.
      - right. right. destruct b; [|contradiction]. eapply H0; eassumption.
      - destruct b; [contradiction|]. destruct (str_mem n b2) eqn:E; [contradiction|]. destruct (str_mem n b1) eqn:E1; [|exact Hm].
        apply str_mem_In in E1. apply Eb, str_mem_In in E1. congruence.
      - right. rewrite in_flat_map in *. destruct Hm as [y [Hy Hm]]. exists y. rewrite Forall_forall in H. eauto. }
    rewrite !in_app_iff in Hm. destruct Hm as [Hm|[Hm|Hm]].
    + eapply IHnd2; eassumption.
    + apply Ed in Hm. assert (Eq : bnd q4 = bnd qs).
      { destruct c as [c|]; [|inversion H4; subst; reflexivity]. inv_bind H4 e1 q6 H6. inversion H4; subst. eapply build_bnd; eassumption. }
      rewrite <- Eq in Hm. eapply IHnd1; eassumption.
    + destruct c as [c|]; [|contradiction]. apply Ed in Hm. inv_bind H4 e1 q6 H6. eapply H; eassumption.
  - inv_bind HR x q1 H1. inv_bind HR y q2 H2. apply in_app_iff in Hm. destruct Hm as [Hm|Hm]; [eapply IHnd1; eassumption|].
    rewrite <- (build_bnd _ _ _ _ _ H1) in Hm. eapply IHnd2; eassumption.
  - inv_bind HR x q1 H1. eapply IHnd; eassumption.
  - inv_bind HR x q1 H1. inv_bind HR y q2 H2. apply in_app_iff in Hm. destruct Hm as [Hm|Hm]; [eapply IHnd1; eassumption|].
    rewrite <- (build_bnd _ _ _ _ _ H1) in Hm. eapply IHnd2; eassumption.
  - inv_bind HR x q1 H1. inv_bind HR y q2 H2. inv_bind HR z q3 H3. clear HR.
    assert (B1 : bnd q1 = bnd q).
    { destruct a as [a|]; [|inversion H1; subst; reflexivity]. inv_bind H1 e0 q5 H5. inversion H1; subst. eapply build_bnd; eassumption. }
    assert (B2 : bnd q2 = bnd q1).
    { destruct b as [b|]; [|inversion H2; subst; reflexivity]. inv_bind H2 e0 q5 H5. inversion H2; subst. eapply build_bnd; eassumption. }
    rewrite !in_app_iff in Hm. destruct Hm as [Hm|[Hm|Hm]].
    + rewrite <- B1, <- B2 in Hm. eapply IHnd; eassumption.
    + destruct a as [a|]; [|contradiction]. inv_bind H1 e0 q5 H5. eapply H; eassumption.
    + destruct b as [b|]; [|contradiction]. rewrite <- B1 in Hm. inv_bind H2 e0 q5 H5. eapply H0; eassumption.
  - destruct b; [contradiction|]. inv_bind HR u q1 H1. inversion H1; subst. clear H1. inv_bind HR t q2 H2. clear HR.
    unfold resolve_type in H2. inv_bind H2 l q3 H3. inversion H3; subst. clear H3.
    change (s_scopes (add_sym n q)) with (s_scopes q) in *.
    destruct (str_mem n (bnd q)) eqn:E; [contradiction|]. destruct Hm as [<-|[]]. apply find_scope_None in E.
    cbn in H2. rewrite E in H2. cbn in H2. exists t. congruence.
  - inv_bind HR x q1 H1. inv_bind HR es q2 H2. apply in_app_iff in Hm. destruct Hm as [Hm|Hm]; [eapply IHnd; eassumption|].
    rewrite <- (build_bnd _ _ _ _ _ H1) in Hm. eapply free_list; eassumption.
  - inv_bind HR x q1 H1. inv_bind HR y q2 H2. inv_bind HR z q3 H3. rewrite !in_app_iff in Hm. destruct Hm as [Hm|[Hm|Hm]].
    + eapply IHnd1; eassumption.
    + rewrite <- (build_bnd _ _ _ _ _ H1) in Hm. eapply IHnd2; eassumption.
    + rewrite <- (build_bnd _ _ _ _ _ H1), <- (build_bnd _ _ _ _ _ H2) in Hm. eapply IHnd3; eassumption.
  - inv_bind HR x q1 H1. eapply IHnd; eassumption.
Qed.
End Free.
