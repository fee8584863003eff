(** * C08, C09: any number of threads *)
From Verif Require Import Base Dec Value DType Types Ops ParseUtil Attr Prog Ast Eval Build Engine ProgFacts StateFacts Demo Threads.

(** ** C08 *)
(** the callbacks made by one thread *)
Definition own (t : tid) (l : list (tid * event)) : list event := map snd (filter (fun x => Nat.eqb (fst x) t) l).
(** the callbacks do not carry information from one thread to another: towards thread [t] they behave like [w t] *)
Definition isolated (cb : callbacks) (w : tid -> world) : Prop :=
  (forall l t x n, cb_resolve cb l t x n = w_resolve (w t) (own t l) x n) /\
  (forall l t f a, cb_user cb l t f a = w_user (w t) (own t l) f a) /\
  (forall l t z, cb_now cb l t z = w_now (w t) (own t l) z) /\
  (forall l t b, cb_random cb l t b = w_random (w t) (own t l) b).
(** what thread [t] starts from *)
Definition view (t : tid) (m : mem) : st :=
  {| s_scopes := fst (storage t m); s_groups := snd (storage t m); s_dc := m_dc m t; s_syms := []; s_log := own t (m_log m) |}.
(** running alone from memory [m] *)
Definition alone {A} (w : tid -> world) (m : mem) (ps : tid -> prog A) (t : tid) : result A * st := run (w t) (ps t) (view t m).

Lemma upd_same : forall A (f : tid -> A) t a, upd f t a t = a.
Proof. intros. unfold upd. rewrite Nat.eqb_refl. reflexivity. Qed.
Lemma upd_other : forall A (f : tid -> A) t t' a, t' <> t -> upd f t a t' = f t'.
Proof. intros A f t t' a H. unfold upd. apply Nat.eqb_neq in H. rewrite H. reflexivity. Qed.
Lemma own_same : forall t e l, own t ((t, e) :: l) = e :: own t l.
Proof. intros. unfold own. cbn. rewrite Nat.eqb_refl. reflexivity. Qed.
Lemma own_other : forall t t' e l, t' <> t -> own t' ((t, e) :: l) = own t' l.
Proof. intros t t' e l H. unfold own. cbn. destruct (Nat.eqb t t') eqn:E; [apply Nat.eqb_eq in E; congruence|reflexivity]. Qed.

Definition with_syms (l : list str) (q : st) : st := {| s_scopes := s_scopes q; s_groups := s_groups q; s_dc := s_dc q; s_syms := l; s_log := s_log q |}.

(** a step changes only the view of the stepping thread, in the way it would alone, and the shared symbols *)
Lemma mem_step_view : forall cb w t o m a m', isolated cb w -> mem_step cb t o m = (a, m') ->
  exists sy, step_op (w t) o (view t m) = (a, with_syms sy (view t m')) /\ m_syms m' = sy ++ m_syms m /\ forall t', t' <> t -> view t' m' = view t' m.
Proof.
  intros cb w t o m a m' [I1 [I2 [I3 I4]]] H. assert (ST : forall x, storage t (put t x m) = x) by (intro x; unfold storage, put; cbn; rewrite upd_same; reflexivity).
  assert (OT : forall x t', t' <> t -> view t' (put t x m) = view t' m) by (intros x t' N; unfold view, storage, put; cbn; rewrite upd_other by exact N; reflexivity).
  assert (LO : forall e t', t' <> t -> view t' (mlog t e m) = view t' m) by (intros e t' N; unfold view, storage, mlog; cbn [m_tls m_dc m_syms m_log]; rewrite own_other by exact N; reflexivity).
  destruct o; cbn [mem_step ans] in H.
  - injection H as <- <-. exists []. split; [|split; [reflexivity|apply OT]]. unfold view. rewrite ST. reflexivity.
  - destruct (fst (storage t m)) as [|x l] eqn:E; injection H as <- <-; exists []; (split; [|split; [reflexivity|apply OT]]); unfold view; rewrite ST; cbn [step_op s_scopes]; rewrite E; reflexivity.
  - injection H as <- <-. exists []. split; [|split; [reflexivity|apply OT]]. unfold view. rewrite ST. reflexivity.
  - injection H as <- <-. exists []. split; [reflexivity|split; reflexivity].
  - injection H as <- <-. exists []. split; [|split; [reflexivity|apply OT]]. unfold view. rewrite ST. reflexivity.
  - injection H as <- <-. exists []. split; [|split; [reflexivity|apply OT]]. unfold view. rewrite ST. reflexivity.
  - injection H as <- <-. exists []. split; [reflexivity|split; reflexivity].
  - injection H as <- <-. exists []. split; [|split; [reflexivity|]]; unfold view, storage; cbn; [rewrite upd_same; reflexivity|]. intros t' N. rewrite upd_other by exact N. reflexivity.
  - injection H as <- <-. exists [name]. split; [reflexivity|split; reflexivity].
  - injection H as <- <-. exists []. split; [|split; [reflexivity|apply LO]]. unfold view. cbn [step_op s_log mlog m_log]. rewrite own_same, I1. reflexivity.
  - injection H as <- <-. exists []. split; [|split; [reflexivity|apply LO]]. unfold view. cbn [step_op s_log mlog m_log]. rewrite own_same, I2. reflexivity.
  - injection H as <- <-. exists []. split; [|split; [reflexivity|apply LO]]. unfold view. cbn [step_op s_log mlog m_log]. rewrite own_same, I3. reflexivity.
  - injection H as <- <-. exists []. split; [|split; [reflexivity|apply LO]]. unfold view. cbn [step_op s_log mlog m_log]. rewrite own_same, I4. reflexivity.
Qed.
Lemma run_with_syms : forall A (p : prog A) w q sy, run w p (with_syms sy q) = (fst (run w p q), with_syms (s_syms (snd (run w p (with_syms sy q)))) (snd (run w p q))).
Proof.
  intros A p w. induction p as [r|o k IH]; intros q sy; [reflexivity|]. cbn [run].
  assert (H : exists sy', step_op w o (with_syms sy q) = (fst (step_op w o q), with_syms sy' (snd (step_op w o q)))).
  { destruct o; try (eexists; reflexivity). cbn. destruct (s_scopes q); eexists; reflexivity. }
  destruct H as [sy' H]. rewrite H. destruct (step_op w o q) as [a q']. cbn [fst snd]. apply IH.
Qed.
Lemma run_syms : forall A (p : prog A) w q, exists l, s_syms (snd (run w p q)) = l ++ s_syms q /\ forall sy, s_syms (snd (run w p (with_syms sy q))) = l ++ sy.
Proof.
  intros A p w. induction p as [r|o k IH]; intros q; [exists []; split; reflexivity|]. cbn [run].
  assert (H : exists l, s_syms (snd (step_op w o q)) = l ++ s_syms q /\ forall sy, step_op w o (with_syms sy q) = (fst (step_op w o q), with_syms (l ++ sy) (snd (step_op w o q)))).
  { destruct o; try (exists []; split; reflexivity); [|exists [name]; split; reflexivity]. cbn. destruct (s_scopes q); exists []; split; reflexivity. }
  destruct H as [l [H1 H2]]. destruct (step_op w o q) as [a q'] eqn:E. cbn [fst snd] in *. destruct (IH a q') as [l' [G1 G2]]. exists (l' ++ l). split; [rewrite G1, H1, app_assoc; reflexivity|].
  intro sy. rewrite H2. rewrite G2, app_assoc. reflexivity.
Qed.

(** what alone and interleaved have in common: outcome, storage, callbacks made *)
Definition same_end {A} (x y : result A * st) : Prop := fst x = fst y /\ same_tls (snd x) (snd y) /\ s_log (snd x) = s_log (snd y).
Lemma same_end_trans : forall A (x y z : result A * st), same_end x y -> same_end y z -> same_end x z.
Proof. intros A x y z [A1 [[A2 [A3 A4]] A5]] [B1 [[B2 [B3 B4]] B5]]. unfold same_end, same_tls. repeat split; congruence. Qed.
Lemma same_end_refl : forall A (x : result A * st), same_end x x.
Proof. intros. unfold same_end, same_tls. auto. Qed.

Lemma step_invariant : forall A cb w (c1 c2 : @conf A), isolated cb w -> tstep cb c1 c2 ->
  (forall t, same_end (alone w (fst c1) (snd c1) t) (alone w (fst c2) (snd c2) t)) /\
  (forall n, In n (m_syms (fst c1)) \/ (exists t, In n (s_syms (snd (alone w (fst c1) (snd c1) t)))) <-> In n (m_syms (fst c2)) \/ (exists t, In n (s_syms (snd (alone w (fst c2) (snd c2) t))))).
Proof.
  intros A cb w c1 c2 I H. destruct H as [m ps t o k a m' P M|m ps t o k P N].
  - cbn [fst snd]. destruct (mem_step_view cb w t o m a m' I M) as [sy [E [S V]]].
    assert (T : alone w m ps t = run (w t) (k a) (with_syms sy (view t m'))) by (unfold alone; rewrite P; cbn [run]; rewrite E; reflexivity).
    assert (T2 : alone w m' (upd ps t (k a)) t = run (w t) (k a) (view t m')) by (unfold alone; rewrite upd_same; reflexivity).
    assert (O : forall t', t' <> t -> alone w m' (upd ps t (k a)) t' = alone w m ps t') by (intros t' N; unfold alone; rewrite upd_other, V by exact N; reflexivity).
    split.
    + intro t'. destruct (Nat.eq_dec t' t) as [->|N]; [|rewrite O by exact N; apply same_end_refl]. rewrite T, T2, run_with_syms. unfold same_end, same_tls. cbn. auto.
    + destruct (run_syms A (k a) (w t) (view t m')) as [l [L1 L2]]. specialize (L2 sy). rewrite <- T in L2. rewrite <- T2 in L1. cbn [view s_syms] in L1. rewrite app_nil_r in L1.
      intro n. split.
      * intros [H|[t' H]]; [left; rewrite S; apply in_or_app; right; exact H|]. destruct (Nat.eq_dec t' t) as [->|N]; [|right; exists t'; rewrite O by exact N; exact H].
        rewrite L2 in H. apply in_app_or in H as [H|H]; [right; exists t; rewrite L1; exact H|left; rewrite S; apply in_or_app; left; exact H].
      * intros [H|[t' H]].
        -- rewrite S in H. apply in_app_or in H as [H|H]; [|left; exact H]. right. exists t. rewrite L2. apply in_or_app. right. exact H.
        -- right. exists t'. destruct (Nat.eq_dec t' t) as [->|N]; [|rewrite <- O by exact N; exact H]. rewrite L2. rewrite L1 in H. apply in_or_app. left. exact H.
  - cbn [fst snd]. assert (V : forall t', view t' (put t ([], VNull) m) = view t' m). { intro t'. destruct (Nat.eq_dec t' t) as [->|X]; unfold view, storage, put; cbn; [rewrite upd_same, N; reflexivity|rewrite upd_other by exact X; reflexivity]. }
    assert (AL : forall t', alone w (put t ([], VNull) m) ps t' = alone w m ps t') by (intro t'; unfold alone; rewrite V; reflexivity).
    split; [intro t'; rewrite AL; apply same_end_refl|]. intro n. cbn [put m_syms]. split; (intros [X|[t' X]]; [left; exact X|right; exists t'; rewrite ?AL in *; exact X]).
Qed.
Lemma reach_invariant : forall A cb w (c1 c2 : @conf A), isolated cb w -> reach cb c1 c2 ->
  (forall t, same_end (alone w (fst c1) (snd c1) t) (alone w (fst c2) (snd c2) t)) /\
  (forall n, In n (m_syms (fst c1)) \/ (exists t, In n (s_syms (snd (alone w (fst c1) (snd c1) t)))) <-> In n (m_syms (fst c2)) \/ (exists t, In n (s_syms (snd (alone w (fst c2) (snd c2) t))))).
Proof.
  intros A cb w c1 c2 I H. induction H as [c|c1 c2 c3 H [IH1 IH2] S]; [split; [intro; apply same_end_refl|tauto]|]. destruct (step_invariant A cb w c2 c3 I S) as [S1 S2]. split.
  - intro t. exact (same_end_trans _ _ _ _ (IH1 t) (S1 t)).
  - intro n. rewrite IH2. apply S2.
Qed.

(** Any threads, any programs of the library on one shared context (evaluations, constructions, sequences of them), any
    interleaving: when a thread has finished, its outcome, its regex groups, scopes and decimal context, and the
    callbacks it made are those of running alone from the same start. *)
Theorem C08_threads_isolated : forall A cb w m ps m' ps' t r, isolated cb w -> @reach A cb (m, ps) (m', ps') -> ps' t = Ret r ->
  r = fst (alone w m ps t) /\ same_tls (view t m') (snd (alone w m ps t)) /\ own t (m_log m') = s_log (snd (alone w m ps t)).
Proof.
  intros A cb w m ps m' ps' t r I R P. destruct (reach_invariant A cb w _ _ I R) as [H _]. specialize (H t). cbn [fst snd] in H. unfold alone in H at 2. rewrite P in H. cbn [run] in H.
  destruct H as [H1 [[H2 [H3 H4]] H5]]. cbn [fst snd] in H1, H2, H3, H4, H5. split; [symmetry; exact H1|]. split; [split; [symmetry; exact H2|split; symmetry; assumption]|symmetry; exact H5].
Qed.
(** context.symbols in the end: what was there, and what every thread adds on its own *)
Theorem C08_symbols : forall A cb w m ps m' ps', isolated cb w -> @reach A cb (m, ps) (m', ps') -> (forall t, exists r, ps' t = Ret r) ->
  forall n, In n (m_syms m') <-> In n (m_syms m) \/ exists t, In n (s_syms (snd (alone w m ps t))).
Proof.
  intros A cb w m ps m' ps' I R D n. destruct (reach_invariant A cb w _ _ I R) as [_ H]. specialize (H n). cbn [fst snd] in H. rewrite H. split; [intro X; left; exact X|]. intros [X|[t X]]; [exact X|]. destruct (D t) as [r E]. unfold alone in X. rewrite E in X. destruct X.
Qed.
(** no thread ever waits for another *)
Theorem C08_no_blocking : forall A cb m ps t o k, ps t = Step o k -> exists m' a, @tstep A cb (m, ps) (m', upd ps t (k a)).
Proof. intros A cb m ps t o k P. destruct (mem_step cb t o m) as [a m'] eqn:E. exists m', a. econstructor; eassumption. Qed.

(** Rule.evaluate on every thread, at any start state (threads new or used before), with callbacks without memory:
    every thread obtains what a single evaluation on a fresh thread obtains *)
Theorem C08_evaluate : forall (Orc : Oracle) cb w C (rule : tid -> expr) (thing : tid -> value) m m' ps' t r dc,
  isolated cb w -> (forall t, memoryless (w t)) -> @reach value cb (m, fun t => rule_evaluate C (rule t) (thing t)) (m', ps') -> ps' t = Ret r ->
  r = fst (run (w t) (rule_evaluate C (rule t) (thing t)) (st_init dc)).
Proof.
  intros Orc cb w C rule thing m m' ps' t r dc I M R P. destruct (C08_threads_isolated value cb w m _ m' ps' t r I R P) as [-> _]. unfold alone.
  destruct (rule_evaluate_agree C (rule t) (thing t) (w t) (w t) (view t m) (st_init dc) (M t _ _)) as [l H]. destruct (run (w t) _ (view t m)). destruct (run (w t) _ (st_init dc)). apply H.
Qed.
(** the same at any moment of a longer life: a thread with any past of evaluations and constructions *)
Theorem C08_evaluate_history : forall (Orc : Oracle) A cb w C e thing m (ps : tid -> prog A) m' ps' t (finish : result value -> prog A) dc,
  isolated cb w -> (forall t, memoryless (w t)) -> reach cb (m, ps) (m', ps') -> ps' t = pthen (rule_evaluate C e thing) finish ->
  fst (alone w m ps t) = fst (run (w t) (finish (fst (run (w t) (rule_evaluate C e thing) (st_init dc)))) (snd (run (w t) (rule_evaluate C e thing) (view t m')))).
Proof.
  intros Orc A cb w C e thing m ps m' ps' t finish dc I M R P. destruct (reach_invariant A cb w _ _ I R) as [H _]. destruct (H t) as [E _]. cbn [fst snd] in E. rewrite E. unfold alone. rewrite P, run_pthen.
  destruct (rule_evaluate_agree C e thing (w t) (w t) (view t m') (st_init dc) (M t _ _)) as [l G]. destruct (run (w t) (rule_evaluate C e thing) (view t m')) as [r1 q1]. destruct (run (w t) _ (st_init dc)) as [r2 q2]. destruct G as [-> _]. reflexivity.
Qed.

(** ** C09 *)
(** the outcome of a parse call made alone: every node bound to the context of the call, or the failure *)
Fixpoint alone_parse (c : nat) (acts : list (option nat)) : option (list pnode) :=
  match acts with
  | [] => Some []
  | Some n :: r => match alone_parse c r with Some l => Some ((n, Some c) :: l) | None => None end
  | None :: _ => None
  end.
Definition expected (j : job) : outcome := match alone_parse (j_ctx j) (j_acts j) with Some l => Parsed l | None => Raised end.

Definition fresh (jobs : tid -> list job) (ths : tid -> pthread) : Prop := forall t, ths t = {| t_todo := jobs t; t_pc := Away; t_outs := [] |}.

(** inside the with block: how the position relates to shared state *)
Definition inside (sh : pshared) (c : pc) (j : job) : Prop :=
  match c with
  | Away => False
  | Locked j' => j' = j
  | Bound j' => j' = j /\ p_ctx sh = Some (j_ctx j)
  | Running j' acts => j' = j /\ p_ctx sh = Some (j_ctx j) /\ alone_parse (j_ctx j) (j_acts j) = match alone_parse (j_ctx j) acts with Some l => Some (p_stack sh ++ l) | None => None end
  | Parsed_ ns => expected j = Parsed ns
  | Leaving o => expected j = o
  end.
Definition pinv (jobs : tid -> list job) (c : pconf) : Prop :=
  let '(sh, ths) := c in
  forall t, match t_pc (ths t) with
            | Away => p_lock sh <> Some t /\ exists done, jobs t = done ++ t_todo (ths t) /\ t_outs (ths t) = map expected done
            | x => p_lock sh = Some t /\ exists done j, jobs t = done ++ j :: t_todo (ths t) /\ t_outs (ths t) = map expected done /\ inside sh x j
            end.
Lemma pinv_step : forall jobs c1 c2, pinv jobs c1 -> pstep c1 c2 -> pinv jobs c2.
Proof.
  intros jobs c1 c2 I H.
  destruct H as [sh ths t j r P T L|sh ths t j P|sh ths t j P|sh ths t j n l P|sh ths t j l P|sh ths t j P|sh ths t ns P|sh ths t o P]; intro t'; assert (It := I t); rewrite P in It; assert (It' := I t').
  - destruct (Nat.eq_dec t' t) as [->|N]; [rewrite upd_same|rewrite upd_other by exact N].
    + cbn. destruct It as [_ [done [J O]]]. split; [reflexivity|]. rewrite T in J. exists done, j. auto.
    + cbn. destruct (t_pc (ths t')) eqn:E; rewrite ?L in It'; [split; [congruence|apply It']|destruct It' as [X _]; discriminate..].
  - destruct It as [L [done [j0 [J [O IN]]]]]. destruct (Nat.eq_dec t' t) as [->|N]; [rewrite upd_same|rewrite upd_other by exact N].
    + cbn. split; [exact L|]. exists done, j0. cbn in IN. subst j0. auto.
    + cbn. destruct (t_pc (ths t')) eqn:E; [exact It'|destruct It' as [X _]; congruence..].
  - destruct It as [L [done [j0 [J [O IN]]]]]. destruct (Nat.eq_dec t' t) as [->|N]; [rewrite upd_same|rewrite upd_other by exact N].
    + cbn. split; [exact L|]. exists done, j0. cbn in IN. destruct IN as [-> IN]. split; [exact J|]. split; [exact O|]. split; [reflexivity|]. split; [exact IN|]. destruct (alone_parse (j_ctx j0) (j_acts j0)); reflexivity.
    + cbn. destruct (t_pc (ths t')) eqn:E; [exact It'|destruct It' as [X _]; congruence..].
  - destruct It as [L [done [j0 [J [O IN]]]]]. destruct (Nat.eq_dec t' t) as [->|N]; [rewrite upd_same|rewrite upd_other by exact N].
    + cbn. split; [exact L|]. exists done, j0. cbn in IN. destruct IN as [-> [IC IN]]. split; [exact J|]. split; [exact O|]. split; [reflexivity|]. split; [exact IC|]. rewrite IN. destruct (alone_parse (j_ctx j0) l); [|reflexivity]. rewrite IC, <- app_assoc. reflexivity.
    + cbn. destruct (t_pc (ths t')) eqn:E; [exact It'|destruct It' as [X _]; congruence..].
  - destruct It as [L [done [j0 [J [O IN]]]]]. destruct (Nat.eq_dec t' t) as [->|N]; [rewrite upd_same|rewrite upd_other by exact N].
    + cbn. split; [exact L|]. exists done, j0. cbn in IN. destruct IN as [-> [IC IN]]. split; [exact J|]. split; [exact O|]. unfold expected. rewrite IN. reflexivity.
    + cbn. destruct (t_pc (ths t')) eqn:E; [exact It'|destruct It' as [X _]; congruence..].
  - destruct It as [L [done [j0 [J [O IN]]]]]. destruct (Nat.eq_dec t' t) as [->|N]; [rewrite upd_same|rewrite upd_other by exact N].
    + cbn. split; [exact L|]. exists done, j0. cbn in IN. destruct IN as [-> [IC IN]]. split; [exact J|]. split; [exact O|]. unfold expected. rewrite IN, app_nil_r. reflexivity.
    + cbn. destruct (t_pc (ths t')) eqn:E; [exact It'|destruct It' as [X _]; congruence..].
  - destruct It as [L [done [j0 [J [O IN]]]]]. destruct (Nat.eq_dec t' t) as [->|N]; [rewrite upd_same|rewrite upd_other by exact N].
    + cbn. split; [exact L|]. exists done, j0. auto.
    + cbn. destruct (t_pc (ths t')) eqn:E; [exact It'|destruct It' as [X _]; congruence..].
  - destruct It as [L [done [j0 [J [O IN]]]]]. destruct (Nat.eq_dec t' t) as [->|N]; [rewrite upd_same|rewrite upd_other by exact N].
    + cbn. split; [discriminate|]. exists (done ++ [j0]). cbn in IN. rewrite map_app, O, <- IN, <- app_assoc. auto.
    + cbn. destruct (t_pc (ths t')) eqn:E; [split; [discriminate|apply It']|destruct It' as [X _]; congruence..].
Qed.
Lemma pinv_reach : forall jobs c1 c2, pinv jobs c1 -> preach c1 c2 -> pinv jobs c2.
Proof. intros jobs c1 c2 I H. induction H as [|c1 c2 c3 H IH S]; [exact I|]. apply (pinv_step _ _ _ (IH I) S). Qed.
Lemma pinv_fresh : forall jobs sh ths, p_lock sh = None -> fresh jobs ths -> pinv jobs (sh, ths).
Proof. intros jobs sh ths L Fr t. rewrite (Fr t). cbn. split; [congruence|]. exists []. auto. Qed.

(** Under every schedule, every finished call has exactly the outcome it has alone: its nodes, in order, each bound to
    the context of that call; failures of other calls change nothing, also when they leave a stale context behind. *)
Theorem C09_calls_isolated : forall jobs sh ths sh' ths' t, p_lock sh = None -> fresh jobs ths -> preach (sh, ths) (sh', ths') ->
  exists done rest, jobs t = done ++ rest /\ t_outs (ths' t) = map expected done.
Proof.
  intros jobs sh ths sh' ths' t L Fr R. assert (I := pinv_reach _ _ _ (pinv_fresh jobs sh ths L Fr) R t). cbn in I. destruct (t_pc (ths' t)); [destruct I as [_ [d [A B]]]; eauto|destruct I as [_ [d [jj [A [B _]]]]]; eauto..].
Qed.
Lemma alone_parse_ctx : forall c acts l, alone_parse c acts = Some l -> map fst l = map (fun x => match x with Some n => n | None => O end) acts /\ forall n, In n l -> snd n = Some c.
Proof.
  induction acts as [|[n|] acts IH]; intros l H; cbn in H; [injection H as <-; split; [reflexivity|intros n []]| |discriminate]. destruct (alone_parse c acts) as [l'|]; [|discriminate]. injection H as <-. destruct (IH l' eq_refl) as [A B]. split; [cbn; rewrite A; reflexivity|]. intros x [<-|X]; [reflexivity|apply B; exact X].
Qed.
Theorem C09_own_context : forall jobs sh ths sh' ths' t k j ns, p_lock sh = None -> fresh jobs ths -> preach (sh, ths) (sh', ths') ->
  nth_error (jobs t) k = Some j -> nth_error (t_outs (ths' t)) k = Some (Parsed ns) -> map (fun n => Some (fst n)) ns = j_acts j /\ forall n, In n ns -> snd n = Some (j_ctx j).
Proof.
  intros jobs sh ths sh' ths' t k j ns L Fr R J O. destruct (C09_calls_isolated jobs sh ths sh' ths' t L Fr R) as [done [rest [A B]]]. rewrite B, nth_error_map in O. destruct (nth_error done k) as [j'|] eqn:D; [|discriminate].
  assert (E : nth_error (jobs t) k = Some j') by (rewrite A; rewrite nth_error_app1; [exact D|apply nth_error_Some; congruence]). assert (j' = j) as -> by congruence. cbn in O. injection O as O. unfold expected in O. destruct (alone_parse (j_ctx j) (j_acts j)) as [l|] eqn:P; [|discriminate]. injection O as <-.
  split; [|apply (alone_parse_ctx _ _ _ P)]. clear - P. revert l P. induction (j_acts j) as [|[n|] acts IH]; intros l P; cbn in P; [injection P as <-; reflexivity| |discriminate]. destruct (alone_parse (j_ctx j) acts) as [l'|] eqn:E; [|discriminate]. injection P as <-. cbn. rewrite (IH l' eq_refl). reflexivity.
Qed.
(** at most one thread is inside, and the parser is never blocked for good: while any call is left some step is possible *)
Theorem C09_exclusive : forall jobs sh ths sh' ths' t1 t2, p_lock sh = None -> fresh jobs ths -> preach (sh, ths) (sh', ths') ->
  t_pc (ths' t1) <> Away -> t_pc (ths' t2) <> Away -> t1 = t2.
Proof.
  intros jobs sh ths sh' ths' t1 t2 L Fr R N1 N2. assert (I := pinv_reach _ _ _ (pinv_fresh jobs sh ths L Fr) R). assert (I1 := I t1). assert (I2 := I t2). cbn in I1, I2.
  destruct (t_pc (ths' t1)); [congruence|..]; destruct (t_pc (ths' t2)); try congruence; destruct I1 as [X1 _]; destruct I2 as [X2 _]; congruence.
Qed.
Theorem C09_progress : forall jobs sh ths sh' ths' t, p_lock sh = None -> fresh jobs ths -> preach (sh, ths) (sh', ths') ->
  (t_todo (ths' t) <> [] \/ t_pc (ths' t) <> Away) -> exists c, pstep (sh', ths') c.
Proof.
  intros jobs sh ths sh' ths' t L Fr R H. assert (I := pinv_reach _ _ _ (pinv_fresh jobs sh ths L Fr) R).
  assert (LK : p_lock sh' = None \/ exists t', p_lock sh' = Some t' /\ t_pc (ths' t') <> Away).
  { destruct (p_lock sh') as [t'|] eqn:E; [|left; reflexivity]. right. exists t'. split; [reflexivity|]. intro X. assert (It := I t'). cbn in It. rewrite X in It. destruct It as [It _]. congruence. }
  assert (ST : forall t', t_pc (ths' t') <> Away -> exists c, pstep (sh', ths') c).
  { intros t' N. destruct (t_pc (ths' t')) as [|j0|j0|j0 [|[n|] l]|ns|o] eqn:E; [congruence|eexists; eapply P_bind; exact E|eexists; eapply P_begin; exact E|eexists; eapply P_result; exact E|eexists; eapply P_node; exact E|eexists; eapply P_raise; exact E|eexists; eapply P_clear; exact E|eexists; eapply P_release; exact E]. }
  destruct LK as [LK|[t' [_ N]]]; [|apply (ST t' N)]. destruct (t_pc (ths' t)) eqn:E; [|apply (ST t); rewrite E; discriminate..]. destruct H as [H|H]; [|congruence]. destruct (t_todo (ths' t)) as [|j1 r1] eqn:T; [congruence|]. eexists. eapply P_acquire; eassumption.
Qed.

(** ** The hypotheses can be met *)
Definition cb_of (w : tid -> world) : callbacks :=
  {| cb_resolve := fun l t => w_resolve (w t) (own t l); cb_user := fun l t => w_user (w t) (own t l); cb_now := fun l t => w_now (w t) (own t l); cb_random := fun l t => w_random (w t) (own t l) |}.
Lemma cb_of_isolated : forall w, isolated (cb_of w) w.
Proof. intro w. unfold isolated, cb_of. cbn. auto. Qed.
(** follow a schedule *)
Fixpoint follow {A} (cb : callbacks) (l : list tid) (c : @conf A) : @conf A :=
  match l with
  | [] => c
  | t :: r => match snd c t with
              | Ret _ => follow cb r c
              | Step o k => let '(a, m') := mem_step cb t o (fst c) in follow cb r (m', upd (snd c) t (k a))
              end
  end.
Lemma follow_reach : forall A cb l (c : @conf A), reach cb c (follow cb l c).
Proof.
  intros A cb. assert (TR : forall (a b c : @conf A), reach cb a b -> reach cb b c -> reach cb a c). { intros a b c H G. induction G as [|x y z G IH S]; [exact H|]. eapply R_step; [apply IH; exact H|exact S]. }
  induction l as [|t l IH]; intros [m ps]; [constructor|]. cbn [follow snd fst]. destruct (ps t) as [r|o k] eqn:P; [apply IH|]. destruct (mem_step cb t o m) as [a m'] eqn:M. eapply TR; [|apply IH]. eapply R_step; [constructor|]. econstructor; eassumption.
Qed.
(** two threads run comprehensions over the same variable name, in lock step; both get their own result *)
Definition two_rules (t : tid) : expr := EComp (sym "x") (s "x") (EArr (if Nat.eqb t 0 then [ELit (num 1); ELit (num 2)] else [ELit (num 3); ELit (num 4)])) None.
Definition mem0 : mem := {| m_tls := fun _ => None; m_dc := fun _ => s_dc demo_st; m_syms := []; m_log := [] |}.
Fixpoint alternate (n : nat) : list tid := match n with O => [] | Datatypes.S n' => 0%nat :: 1%nat :: alternate n' end.
Example C08_example :
  let c := follow (cb_of (fun _ => demo_world)) (alternate 30) (mem0, fun t => rule_evaluate untyped_ctx (two_rules t) VNull) in
  reach (cb_of (fun _ => demo_world)) (mem0, fun t => rule_evaluate untyped_ctx (two_rules t) VNull) c /\
  snd c 0%nat = Ret (Ok (VArr [num 1; num 2])) /\ snd c 1%nat = Ret (Ok (VArr [num 3; num 4])).
Proof. intro c. split; [apply follow_reach|]. split; vm_compute; reflexivity. Qed.

(** a call of thread 0 that fails after its first node leaves its context behind; thread 1 parses afterwards *)
Definition two_jobs (t : tid) : list job := match t with O => [{| j_ctx := 1; j_acts := [Some 0; None] |}] | Datatypes.S O => [{| j_ctx := 2; j_acts := [Some 5; Some 6] |}] | _ => [] end%nat.
Example C09_example : exists sh ths sh' ths', p_lock sh = None /\ fresh two_jobs ths /\ preach (sh, ths) (sh', ths') /\ p_ctx sh' = None /\
  t_outs (ths' 0%nat) = [Raised] /\ t_outs (ths' 1%nat) = [Parsed [(5%nat, Some 2%nat); (6%nat, Some 2%nat)]].
Proof.
  exists {| p_lock := None; p_ctx := None; p_stack := [] |}, (fun t => {| t_todo := two_jobs t; t_pc := Away; t_outs := [] |}). eexists _, _. split; [reflexivity|]. split; [intro t; reflexivity|]. split.
  - eapply PR_step. eapply PR_step. eapply PR_step. eapply PR_step. eapply PR_step. eapply PR_step. eapply PR_step. eapply PR_step. eapply PR_step. eapply PR_step. eapply PR_step. eapply PR_step. eapply PR_step. eapply PR_step.
    apply PR_refl.
    + apply (P_acquire _ _ 0%nat) with (r := []); reflexivity.
    + eapply (P_bind _ _ 0%nat); reflexivity.
    + eapply (P_begin _ _ 0%nat); reflexivity.
    + eapply (P_node _ _ 0%nat); reflexivity.
    + eapply (P_raise _ _ 0%nat); reflexivity.
    + eapply (P_release _ _ 0%nat); reflexivity.
    + apply (P_acquire _ _ 1%nat) with (r := []); reflexivity.
    + eapply (P_bind _ _ 1%nat); reflexivity.
    + eapply (P_begin _ _ 1%nat); reflexivity.
    + eapply (P_node _ _ 1%nat); reflexivity.
    + eapply (P_node _ _ 1%nat); reflexivity.
    + eapply (P_result _ _ 1%nat); reflexivity.
    + eapply (P_clear _ _ 1%nat); reflexivity.
    + eapply (P_release _ _ 1%nat); reflexivity.
  - cbn. auto.
Qed.
