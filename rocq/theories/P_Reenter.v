(** * C64: rules evaluated by the callbacks of rules *)
From Coq Require Import Lia String.
From Verif Require Import Base Dec Value DType Types Ops ParseUtil Attr Prog Ast Eval Build Engine ProgFacts StateFacts Demo P_State Reenter.
Open Scope list_scope.

(** ** Specification *)
(** the callbacks made for Context [c] *)
Definition calls (c : nat) (l : list (nat * event)) : list event := map snd (filter (fun x => Nat.eqb (fst x) c) l).
(** Context [c], as its own evaluation sees it *)
Definition rview (c : nat) (g : gst) : st :=
  {| s_scopes := r_scopes (g_store g c); s_groups := r_groups (g_store g c); s_dc := g_dc g; s_syms := r_syms (g_store g c); s_log := calls c (g_log g) |}.
(** plain callbacks, which evaluate nothing and repeat the recorded answers: the i-th call gets the answer of the i-th event *)
Definition recorded (L l : list event) : option event := nth_error (rev L) (length l).
Definition replay (L : list event) : world :=
  {| w_resolve := fun l _ _ => match recorded L l with Some (EvResolve _ _ r) => r | _ => Err PKey end;
     w_user := fun l _ _ => match recorded L l with Some (EvUser _ _ r) => r | _ => Err PKey end;
     w_now := fun l _ => match recorded L l with Some (EvNow _ t) => t | _ => 0%Z end;
     w_random := fun l _ => match recorded L l with Some (EvRandom _ v) => v | _ => VNull end |}.

Lemma recorded_next : forall l2 e l, recorded (l2 ++ e :: l) l = Some e.
Proof.
  intros l2 e l. unfold recorded. rewrite rev_app_distr. cbn [rev]. rewrite <- app_assoc. rewrite nth_error_app2 by (rewrite rev_length; lia). rewrite rev_length, Nat.sub_diag. reflexivity.
Qed.
Lemma calls_same : forall c e l, calls c ((c, e) :: l) = e :: calls c l.
Proof. intros. unfold calls. cbn. rewrite Nat.eqb_refl. reflexivity. Qed.
Lemma calls_other : forall c d e l, d <> c -> calls d ((c, e) :: l) = calls d l.
Proof. intros c d e l H. unfold calls. cbn. destruct (Nat.eqb c d) eqn:E; [apply Nat.eqb_eq in E; congruence|reflexivity]. Qed.
Lemma store_same : forall c x g, g_store (set_store c x g) c = x.
Proof. intros. cbn. rewrite Nat.eqb_refl. reflexivity. Qed.
Lemma store_other : forall c d x g, d <> c -> g_store (set_store c x g) d = g_store g d.
Proof. intros c d x g H. cbn. apply Nat.eqb_neq in H. rewrite H. reflexivity. Qed.

Section Nested.
Context {Orc : Oracle} (Cs : nat -> ctx) (nw : nworld).

Definition keeps_busy (b : list nat) (g g' : gst) : Prop := forall d, In d b -> g_store g' d = g_store g d /\ calls d (g_log g') = calls d (g_log g).

(** an operation without callback: what the flat run does, on the own Context only *)
Lemma own_step_view : forall c o g a g', own_step nw c o g = Some (a, g') ->
  g_again g' = g_again g /\ (forall d, d <> c -> g_store g' d = g_store g d /\ calls d (g_log g') = calls d (g_log g)) /\
  (exists l, calls c (g_log g') = l ++ calls c (g_log g)) /\
  forall L l2, L = l2 ++ calls c (g_log g') -> step_op (replay L) o (rview c g) = (a, rview c g').
Proof.
  intros c o g a g' H. assert (ST : forall x, calls c (g_log (set_store c x g)) = calls c (g_log g)) by reflexivity.
  assert (SO : forall x d, d <> c -> g_store (set_store c x g) d = g_store g d /\ calls d (g_log (set_store c x g)) = calls d (g_log g)) by (intros x d N; split; [apply store_other; exact N|reflexivity]).
  assert (LO : forall e d, d <> c -> g_store (glog c e g) d = g_store g d /\ calls d (g_log (glog c e g)) = calls d (g_log g)) by (intros e d N; split; [reflexivity|apply calls_other; exact N]).
  assert (NIL : forall g1 : gst, calls c (g_log g1) = calls c (g_log g) -> exists l, calls c (g_log g1) = l ++ calls c (g_log g)) by (intros g1 E; exists []; exact E).
  assert (ON : forall e, exists l, calls c (g_log (glog c e g)) = l ++ calls c (g_log g)) by (intro e; exists [e]; apply calls_same).
  destruct o; cbn [own_step ans] in H; try discriminate H.
  - injection H as <- <-. split; [reflexivity|]. split; [apply SO|]. split; [apply NIL; reflexivity|]. intros L l2 E. cbn [step_op]. unfold rview. rewrite store_same. reflexivity.
  - destruct (r_scopes (g_store g c)) as [|x0 l0] eqn:E0; injection H as <- <-; (split; [reflexivity|]).
    + split; [intros; split; reflexivity|]. split; [apply NIL; reflexivity|]. intros L l2 E. cbn [step_op rview s_scopes]. rewrite E0. reflexivity.
    + split; [apply SO|]. split; [apply NIL; reflexivity|]. intros L l2 E. cbn [step_op rview s_scopes]. rewrite E0. unfold rview. rewrite store_same. reflexivity.
  - injection H as <- <-. split; [reflexivity|]. split; [intros; split; reflexivity|]. split; [apply NIL; reflexivity|]. reflexivity.
  - injection H as <- <-. split; [reflexivity|]. split; [intros; split; reflexivity|]. split; [apply NIL; reflexivity|]. reflexivity.
  - injection H as <- <-. split; [reflexivity|]. split; [apply SO|]. split; [apply NIL; reflexivity|]. intros L l2 E. cbn [step_op]. unfold rview. rewrite store_same. reflexivity.
  - injection H as <- <-. split; [reflexivity|]. split; [apply SO|]. split; [apply NIL; reflexivity|]. intros L l2 E. cbn [step_op]. unfold rview. rewrite store_same. reflexivity.
  - injection H as <- <-. split; [reflexivity|]. split; [intros; split; reflexivity|]. split; [apply NIL; reflexivity|]. reflexivity.
  - injection H as <- <-. split; [reflexivity|]. split; [intros; split; reflexivity|]. split; [apply NIL; reflexivity|]. reflexivity.
  - injection H as <- <-. split; [reflexivity|]. split; [apply SO|]. split; [apply NIL; reflexivity|]. intros L l2 E. cbn [step_op]. unfold rview. rewrite store_same. reflexivity.
  - injection H as <- <-. split; [reflexivity|]. split; [apply LO|]. split; [apply ON|]. intros L l2 E. cbn [step_op rview s_log replay w_now]. cbn [glog g_log] in E. rewrite calls_same in E. rewrite E, recorded_next.
    unfold rview. cbn [glog g_log g_store g_dc]. rewrite calls_same. reflexivity.
  - injection H as <- <-. split; [reflexivity|]. split; [apply LO|]. split; [apply ON|]. intros L l2 E. cbn [step_op rview s_log replay w_random]. cbn [glog g_log] in E. rewrite calls_same in E. rewrite E, recorded_next.
    unfold rview. cbn [glog g_log g_store g_dc]. rewrite calls_same. reflexivity.
Qed.

Definition run_spec {A} (b : list nat) (c : nat) (p : prog A) (g : gst) (r : result A) (g' : gst) : Prop :=
  (g_again g' = false -> g_again g = false) /\
  (In c b -> g_again g' = false ->
    (forall d, In d b -> d <> c -> g_store g' d = g_store g d /\ calls d (g_log g') = calls d (g_log g)) /\
    (exists l, calls c (g_log g') = l ++ calls c (g_log g)) /\
    forall L l2, L = l2 ++ calls c (g_log g') -> run (replay L) p (rview c g) = (r, rview c g')).
Definition cb_spec (b : list nat) (g g' : gst) : Prop :=
  (g_again g' = false -> g_again g = false) /\ (g_again g' = false -> keeps_busy b g g' /\ g_dc g' = g_dc g).

Lemma run_spec_step : forall A b c (o : op) (k : ans o -> prog A) g a g1 r g',
  (g_again g1 = false -> g_again g = false) ->
  (g_again g1 = false -> In c b -> (forall d, In d b -> d <> c -> g_store g1 d = g_store g d /\ calls d (g_log g1) = calls d (g_log g)) /\
    (exists l, calls c (g_log g1) = l ++ calls c (g_log g)) /\ forall L l2, L = l2 ++ calls c (g_log g1) -> step_op (replay L) o (rview c g) = (a, rview c g1)) ->
  run_spec b c (k a) g1 r g' -> run_spec b c (Step o k) g r g'.
Proof.
  intros A b c o k g a g1 r g' M H [M2 R]. split; [auto|]. intros I Z. destruct (R I Z) as [R1 [[l R2] R3]]. destruct (H (M2 Z) I) as [H1 [[l' H2] H3]]. split; [|split].
  - intros d J N. destruct (R1 d J N) as [A1 A2], (H1 d J N) as [B1 B2]. split; congruence.
  - exists (l ++ l'). rewrite R2, H2, app_assoc. reflexivity.
  - intros L l2 E. cbn [run]. rewrite (H3 L (l2 ++ l)) by (rewrite E, R2, app_assoc; reflexivity). apply (R3 L l2 E).
Qed.
Lemma in_busy : forall c b, existsb (Nat.eqb c) b = true <-> In c b.
Proof. intros c b. rewrite existsb_exists. split; [intros [x [I E]]; apply Nat.eqb_eq in E; subst; exact I|intro I; exists c; split; [exact I|apply Nat.eqb_refl]]. Qed.
(** a nested run *)
Lemma nested_spec : forall A b c (p : prog A) g r g1, run_spec (c :: b) c p (enter b c g) r g1 ->
  (forall w q, s_dc (snd (run w p q)) = s_dc q) -> cb_spec b g g1.
Proof.
  intros A b c p g r g1 [M R] D. assert (MM : g_again g1 = false -> g_again g = false /\ ~ In c b).
  { intro Z. apply M in Z. cbn [enter g_again] in Z. apply orb_false_iff in Z as [Z1 Z2]. split; [exact Z1|]. intro I. apply in_busy in I. congruence. }
  split; [intro Z; apply MM; exact Z|]. intro Z. destruct (MM Z) as [_ NI]. destruct (R (or_introl eq_refl) Z) as [R1 [_ R3]]. split.
  - intros d I. apply (R1 d); [right; exact I|]. intros ->. contradiction.
  - assert (E := D (replay (calls c (g_log g1))) (rview c (enter b c g))). rewrite (R3 (calls c (g_log g1)) [] eq_refl) in E. exact E.
Qed.
Lemma cb_spec_trans : forall b g1 g2 g3, cb_spec b g1 g2 -> cb_spec b g2 g3 -> cb_spec b g1 g3.
Proof.
  intros b g1 g2 g3 [A1 A2] [B1 B2]. split; [auto|]. intro Z. destruct (B2 Z) as [B3 B4]. destruct (A2 (B1 Z)) as [A3 A4]. split; [|congruence].
  intros d I. destruct (A3 d I), (B3 d I). split; congruence.
Qed.

Definition own_op (o : op) : bool := match o with OResolve _ _ | OUser _ _ => false | _ => true end.
Lemma nrun_ret : forall A n b c (r : result A) g, nrun Cs nw (S n) b c (Ret r) g = Some (r, g).
Proof. reflexivity. Qed.
Lemma nrun_own : forall A n b c o (k : ans o -> prog A) g, own_op o = true ->
  nrun Cs nw (S n) b c (Step o k) g = match own_step nw c o g with Some (a, g') => nrun Cs nw n b c (k a) g' | None => None end.
Proof. intros A n b c o k g H. destruct o; try reflexivity; discriminate H. Qed.
Lemma nrun_resolve : forall A n b c t nm (k : result value -> prog A) g,
  nrun Cs nw (S n) b c (Step (OResolve t nm) k) g =
  match cbrun Cs nw n b (n_resolve nw (g_log g) c t nm) g with Some (r, g') => nrun Cs nw n b c (k r) (glog c (EvResolve t nm r) g') | None => None end.
Proof. reflexivity. Qed.
Lemma nrun_user : forall A n b c f l (k : result value -> prog A) g,
  nrun Cs nw (S n) b c (Step (OUser f l) k) g =
  match cbrun Cs nw n b (n_user nw (g_log g) c f l) g with Some (r, g') => nrun Cs nw n b c (k r) (glog c (EvUser f l r) g') | None => None end.
Proof. reflexivity. Qed.
Lemma cbrun_evaluate : forall n b c e t k g,
  cbrun Cs nw (S n) b (Cb_evaluate c e t k) g =
  match nrun Cs nw n (c :: b) c (rule_evaluate (Cs c) e t) (enter b c g) with Some (r, g') => cbrun Cs nw n b (k r) g' | None => None end.
Proof. reflexivity. Qed.
Lemma cbrun_construct : forall n b c d k g,
  cbrun Cs nw (S n) b (Cb_construct c d k) g =
  match nrun Cs nw n (c :: b) c (rule_new (Cs c) d) (enter b c g) with Some (r, g') => cbrun Cs nw n b (k r) g' | None => None end.
Proof. reflexivity. Qed.

Theorem nested_runs : forall n, (forall A b c (p : prog A) g r g', nrun Cs nw n b c p g = Some (r, g') -> run_spec b c p g r g') /\
  (forall b cb g r g', cbrun Cs nw n b cb g = Some (r, g') -> cb_spec b g g').
Proof.
  induction n as [|n [IH1 IH2]]; [split; discriminate|]. split.
  - intros A b c p g r g' H. destruct p as [r0|o k].
    + rewrite nrun_ret in H. injection H as <- <-. split; [auto|]. intros I Z. split; [intros; split; reflexivity|]. split; [exists []; reflexivity|]. reflexivity.
    + assert (CB : forall (cb : callback) (mk : result value -> event) r0 g1, cbrun Cs nw n b cb g = Some (r0, g1) ->
        forall (a : ans o), (forall L l2 l, L = l2 ++ mk r0 :: l -> forall q, s_log q = l -> step_op (replay L) o q = (a, log (mk r0) q)) ->
        nrun Cs nw n b c (k a) (glog c (mk r0) g1) = Some (r, g') -> run_spec b c (Step o k) g r g').
      { intros cb mk r0 g1 E1 a ST E2. destruct (IH2 _ _ _ _ _ E1) as [Q1 Q2]. eapply run_spec_step with (g1 := glog c (mk r0) g1) (a := a); [exact Q1| |apply IH1; exact E2].
        intros Z I. cbn [glog g_again] in Z. destruct (Q2 Z) as [Q3 Q4]. split; [|split].
        - intros d J N. cbn [glog g_store g_log]. rewrite calls_other by exact N. apply Q3. exact J.
        - exists [mk r0]. cbn [glog g_log]. rewrite calls_same. destruct (Q3 c I) as [_ ->]. reflexivity.
        - intros L l2 E. cbn [glog g_log] in E. rewrite calls_same in E. destruct (Q3 c I) as [K1 K2]. rewrite (ST L l2 (calls c (g_log g1)) E) by (cbn [rview s_log]; rewrite K2; reflexivity).
          unfold rview, log. cbn [glog g_log g_store g_dc s_scopes s_groups s_dc s_syms s_log]. rewrite K1, Q4, calls_same, K2. reflexivity. }
      destruct (own_op o) eqn:OO.
      * clear CB. rewrite nrun_own in H by exact OO. destruct (own_step nw c o g) as [[a g1]|] eqn:E1; [|discriminate H].
        destruct (own_step_view c o g a g1 E1) as [S1 [S2 [S3 S4]]]. eapply run_spec_step; [rewrite S1; auto| |apply IH1; exact H]. intros _ _. auto.
      * destruct o; try discriminate OO.
        -- rewrite nrun_resolve in H. destruct (cbrun Cs nw n b (n_resolve nw (g_log g) c thing name) g) as [[r0 g1]|] eqn:E1; [|discriminate H]. refine (CB _ (EvResolve thing name) r0 g1 E1 r0 _ H).
           intros L l2 l E q Q. cbn [step_op replay w_resolve]. rewrite Q, E, recorded_next. reflexivity.
        -- rewrite nrun_user in H. destruct (cbrun Cs nw n b (n_user nw (g_log g) c f args) g) as [[r0 g1]|] eqn:E1; [|discriminate H]. refine (CB _ (EvUser f args) r0 g1 E1 r0 _ H).
           intros L l2 l E q Q. cbn [step_op replay w_user]. rewrite Q, E, recorded_next. reflexivity.
  - intros b cb g r g' H. destruct cb as [r0|c e thing k|c d k].
    + injection H as <- <-. split; [auto|]. intros _. split; [intros d I; split; reflexivity|reflexivity].
    + rewrite cbrun_evaluate in H. destruct (nrun Cs nw n (c :: b) c _ _) as [[r0 g1]|] eqn:E in H; [|discriminate H]. eapply cb_spec_trans; [|eapply IH2; exact H]. eapply nested_spec; [eapply IH1; exact E|]. intros w q. apply rule_evaluate_dc.
    + rewrite cbrun_construct in H. destruct (nrun Cs nw n (c :: b) c _ _) as [[r0 g1]|] eqn:E in H; [|discriminate H]. eapply cb_spec_trans; [|eapply IH2; exact H]. eapply nested_spec; [eapply IH1; exact E|]. intros w q. unfold rule_new. apply build_dc.
Qed.

(** more steps do not change what happened *)
Lemma more_steps : forall n, (forall A b c (p : prog A) g x, nrun Cs nw n b c p g = Some x -> nrun Cs nw (S n) b c p g = Some x) /\
  (forall b cb g x, cbrun Cs nw n b cb g = Some x -> cbrun Cs nw (S n) b cb g = Some x).
Proof.
  induction n as [|n [IH1 IH2]]; [split; discriminate|]. split.
  - intros A b c p g x H. destruct p as [r0|o k]; [exact H|]. destruct (own_op o) eqn:OO.
    + rewrite nrun_own in H by exact OO. rewrite nrun_own by exact OO. destruct (own_step nw c o g) as [[a g1]|]; [|discriminate H]. apply IH1. exact H.
    + destruct o; try discriminate OO.
      * rewrite nrun_resolve in H. rewrite nrun_resolve. destruct (cbrun Cs nw n b _ g) as [[r0 g1]|] eqn:E1 in H; [|discriminate H]. rewrite (IH2 _ _ _ _ E1). apply IH1. exact H.
      * rewrite nrun_user in H. rewrite nrun_user. destruct (cbrun Cs nw n b _ g) as [[r0 g1]|] eqn:E1 in H; [|discriminate H]. rewrite (IH2 _ _ _ _ E1). apply IH1. exact H.
  - intros b cb g x H. destruct cb as [r0|c e thing k|c d k]; [exact H| |].
    + rewrite cbrun_evaluate in H. rewrite cbrun_evaluate. destruct (nrun Cs nw n (c :: b) c _ _) as [[r0 g1]|] eqn:E in H; [|discriminate H]. rewrite (IH1 _ _ _ _ _ _ E). apply IH2. exact H.
    + rewrite cbrun_construct in H. rewrite cbrun_construct. destruct (nrun Cs nw n (c :: b) c _ _) as [[r0 g1]|] eqn:E in H; [|discriminate H]. rewrite (IH1 _ _ _ _ _ _ E). apply IH2. exact H.
Qed.

(** no scope is left open on a Context that is not being evaluated *)
Definition idle (b : list nat) (g : gst) : Prop := forall d, ~ In d b -> r_scopes (g_store g d) = [].

Lemma idle_after : forall A b c (p : prog A) g r g1, ~ In c b -> idle b g -> run_spec (c :: b) c p (enter b c g) r g1 -> g_again g1 = false ->
  (forall w q, s_scopes q = [] -> s_scopes (snd (run w p q)) = []) -> idle (c :: b) g1 -> idle b g1.
Proof.
  intros A b c p g r g1 NI ID [_ R] Z D I1 d Nd. destruct (Nat.eq_dec d c) as [->|Ne]; [|apply I1; intros [E|E]; [congruence|exact (Nd E)]].
  destruct (R (or_introl eq_refl) Z) as [_ [_ R3]]. assert (E := D (replay (calls c (g_log g1))) (rview c (enter b c g))). rewrite (R3 (calls c (g_log g1)) [] eq_refl) in E. apply E. apply ID. exact NI.
Qed.
Theorem idle_kept : forall n, (forall A b c (p : prog A) g r g', nrun Cs nw n b c p g = Some (r, g') -> In c b -> g_again g' = false -> idle b g -> idle b g') /\
  (forall b cb g r g', cbrun Cs nw n b cb g = Some (r, g') -> g_again g' = false -> idle b g -> idle b g').
Proof.
  induction n as [|n [IH1 IH2]]; [split; discriminate|]. destruct (nested_runs n) as [SP1 SP2]. split.
  - intros A b c p g r g' H I Z ID. destruct p as [r0|o k]; [rewrite nrun_ret in H; injection H as <- <-; exact ID|]. destruct (own_op o) eqn:OO.
    + rewrite nrun_own in H by exact OO. destruct (own_step nw c o g) as [[a g1]|] eqn:E1; [|discriminate H]. eapply IH1; [exact H|exact I|exact Z|].
      destruct (own_step_view c o g a g1 E1) as [_ [S2 _]]. intros d Nd. destruct (S2 d) as [-> _]; [intros ->; contradiction|]. apply ID. exact Nd.
    + destruct o; try discriminate OO.
      * rewrite nrun_resolve in H. destruct (cbrun Cs nw n b _ g) as [[r0 g1]|] eqn:E1 in H; [|discriminate H]. eapply IH1; [exact H|exact I|exact Z|]. apply (IH2 _ _ _ _ _ E1); [|exact ID]. exact (proj1 (SP1 _ _ _ _ _ _ _ H) Z).
      * rewrite nrun_user in H. destruct (cbrun Cs nw n b _ g) as [[r0 g1]|] eqn:E1 in H; [|discriminate H]. eapply IH1; [exact H|exact I|exact Z|]. apply (IH2 _ _ _ _ _ E1); [|exact ID]. exact (proj1 (SP1 _ _ _ _ _ _ _ H) Z).
  - assert (NEW : forall A b c (p : prog A) g r0 g1, nrun Cs nw n (c :: b) c p (enter b c g) = Some (r0, g1) -> g_again g1 = false -> idle b g ->
      (forall w q, s_scopes q = [] -> s_scopes (snd (run w p q)) = []) -> idle b g1).
    { intros A b c p g r0 g1 E Z ID D. assert (S := SP1 _ _ _ _ _ _ _ E). assert (Z0 := proj1 S Z). cbn [enter g_again] in Z0. apply orb_false_iff in Z0 as [_ Z2].
      assert (NI : ~ In c b) by (intro I; apply in_busy in I; congruence). eapply idle_after; [exact NI|exact ID|exact S|exact Z|exact D|].
      eapply IH1; [exact E|left; reflexivity|exact Z|]. intros d Nd. apply ID. intro I. apply Nd. right. exact I. }
    intros b cb g r g' H Z ID. destruct cb as [r0|c e thing k|c d k].
    + injection H as <- <-. exact ID.
    + rewrite cbrun_evaluate in H. destruct (nrun Cs nw n (c :: b) c _ _) as [[r0 g1]|] eqn:E in H; [|discriminate H]. eapply IH2; [exact H|exact Z|]. eapply NEW; [exact E|exact (proj1 (SP2 _ _ _ _ _ H) Z)|exact ID|]. intros w q _. apply rule_evaluate_scopes.
    + rewrite cbrun_construct in H. destruct (nrun Cs nw n (c :: b) c _ _) as [[r0 g1]|] eqn:E in H; [|discriminate H]. eapply IH2; [exact H|exact Z|]. eapply NEW; [exact E|exact (proj1 (SP2 _ _ _ _ _ H) Z)|exact ID|]. intros w q Q. unfold rule_new. rewrite <- Q. apply build_scopes.
Qed.

Lemma recorded_old : forall l old l', recorded (l ++ old) (l' ++ old) = recorded l l'.
Proof. intros l old l'. unfold recorded. rewrite rev_app_distr, app_length, nth_error_app2 by (rewrite rev_length; lia). rewrite rev_length. f_equal. lia. Qed.
Lemma replay_agree : forall l old, agree (replay (l ++ old)) old (replay l) [].
Proof. intros l old l'. cbn [replay w_resolve w_user w_now w_random]. rewrite recorded_old, app_nil_r. auto. Qed.

(** callbacks that use only Contexts with a higher number *)
Inductive above (m : nat) : callback -> Prop :=
| Ab_answer : forall r, above m (Cb_answer r)
| Ab_evaluate : forall c e t k, (m < c)%nat -> (forall r, above m (k r)) -> above m (Cb_evaluate c e t k)
| Ab_construct : forall c d k, (m < c)%nat -> (forall r, above m (k r)) -> above m (Cb_construct c d k).
Definition layered : Prop := (forall l c t n, above c (n_resolve nw l c t n)) /\ (forall l c f a, above c (n_user nw l c f a)).

Lemma layered_runs : layered -> forall n, (forall A b c (p : prog A) g r g', nrun Cs nw n b c p g = Some (r, g') -> (forall d, In d b -> (d <= c)%nat) -> g_again g' = g_again g) /\
  (forall b cb c g r g', cbrun Cs nw n b cb g = Some (r, g') -> above c cb -> (forall d, In d b -> (d <= c)%nat) -> g_again g' = g_again g).
Proof.
  intros [L1 L2]. induction n as [|n [IH1 IH2]]; [split; discriminate|]. split.
  - intros A b c p g r g' H B. destruct p as [r0|o k]; [rewrite nrun_ret in H; injection H as <- <-; reflexivity|]. destruct (own_op o) eqn:OO.
    + rewrite nrun_own in H by exact OO. destruct (own_step nw c o g) as [[a g1]|] eqn:E1; [|discriminate H]. rewrite (IH1 _ _ _ _ _ _ _ H B). exact (proj1 (own_step_view c o g a g1 E1)).
    + destruct o; try discriminate OO.
      * rewrite nrun_resolve in H. destruct (cbrun Cs nw n b _ g) as [[r0 g1]|] eqn:E1 in H; [|discriminate H]. rewrite (IH1 _ _ _ _ _ _ _ H B). exact (IH2 _ _ c _ _ _ E1 (L1 _ _ _ _) B).
      * rewrite nrun_user in H. destruct (cbrun Cs nw n b _ g) as [[r0 g1]|] eqn:E1 in H; [|discriminate H]. rewrite (IH1 _ _ _ _ _ _ _ H B). exact (IH2 _ _ c _ _ _ E1 (L2 _ _ _ _) B).
  - intros b cb c g r g' H AB B.
    assert (EN : forall c', (c < c')%nat -> g_again (enter b c' g) = g_again g).
    { intros c' Lt. cbn [enter g_again]. destruct (existsb (Nat.eqb c') b) eqn:X; [|apply orb_false_r]. apply in_busy, B in X. lia. }
    assert (B' : forall c', (c < c')%nat -> forall d, In d (c' :: b) -> (d <= c')%nat) by (intros c' Lt d [->|I]; [lia|apply B in I; lia]).
    destruct AB as [r0|c' e t k Lt K|c' d k Lt K].
    + injection H as <- <-. reflexivity.
    + rewrite cbrun_evaluate in H. destruct (nrun Cs nw n (c' :: b) c' _ _) as [[r0 g1]|] eqn:E in H; [|discriminate H]. rewrite (IH2 _ _ _ _ _ _ H (K r0) B), (IH1 _ _ _ _ _ _ _ E (B' c' Lt)). exact (EN c' Lt).
    + rewrite cbrun_construct in H. destruct (nrun Cs nw n (c' :: b) c' _ _) as [[r0 g1]|] eqn:E in H; [|discriminate H]. rewrite (IH2 _ _ _ _ _ _ H (K r0) B), (IH1 _ _ _ _ _ _ _ E (B' c' Lt)). exact (EN c' Lt).
Qed.

Lemma more : forall n m, (n <= m)%nat -> (forall A b c (p : prog A) g x, nrun Cs nw n b c p g = Some x -> nrun Cs nw m b c p g = Some x) /\
  (forall b cb g x, cbrun Cs nw n b cb g = Some x -> cbrun Cs nw m b cb g = Some x).
Proof.
  intros n m H. induction H as [|m _ [IH1 IH2]]; [auto|]. split; intros; [apply (proj1 (more_steps m)), IH1; assumption|apply (proj2 (more_steps m)), IH2; assumption].
Qed.
(** callbacks of Context [m] that use only Contexts with a number between [m] and [M] *)
Inductive within (m M : nat) : callback -> Prop :=
| Wi_answer : forall r, within m M (Cb_answer r)
| Wi_evaluate : forall c e t k, (m < c < M)%nat -> (forall r, within m M (k r)) -> within m M (Cb_evaluate c e t k)
| Wi_construct : forall c d k, (m < c < M)%nat -> (forall r, within m M (k r)) -> within m M (Cb_construct c d k).
Definition finite_layers (M : nat) : Prop := (forall l c t n, within c M (n_resolve nw l c t n)) /\ (forall l c f a, within c M (n_user nw l c f a)).
Lemma within_above : forall m M cb, within m M cb -> above m cb.
Proof. induction 1; constructor; auto; lia. Qed.

Lemma nrun_ends : forall M, finite_layers M -> forall z c, (M - c <= z)%nat -> forall A b (p : prog A) g, exists n x, nrun Cs nw n b c p g = Some x.
Proof.
  intros M [F1 F2]. induction z as [|z IHz]; intros c Hz.
  all: assert (CB : forall cb, within c M cb -> forall b g, exists n x, cbrun Cs nw n b cb g = Some x) by
   (induction 1 as [r|c' e t k Lt K IHk|c' d k Lt K IHk]; intros b g;
    [ exists 1%nat, (r, g); reflexivity
    | try (exfalso; lia); destruct (IHz c' ltac:(lia) _ (c' :: b) (rule_evaluate (Cs c') e t) (enter b c' g)) as [n1 [[r1 g1] E1]];
      destruct (IHk r1 b g1) as [n2 [x E2]]; exists (S (n1 + n2)), x; rewrite cbrun_evaluate;
      rewrite (proj1 (more n1 (n1 + n2) ltac:(lia)) _ _ _ _ _ _ E1); apply (proj2 (more n2 (n1 + n2) ltac:(lia))); exact E2
    | try (exfalso; lia); destruct (IHz c' ltac:(lia) _ (c' :: b) (rule_new (Cs c') d) (enter b c' g)) as [n1 [[r1 g1] E1]];
      destruct (IHk r1 b g1) as [n2 [x E2]]; exists (S (n1 + n2)), x; rewrite cbrun_construct;
      rewrite (proj1 (more n1 (n1 + n2) ltac:(lia)) _ _ _ _ _ _ E1); apply (proj2 (more n2 (n1 + n2) ltac:(lia))); exact E2 ]).
  all: intros A b p; induction p as [r|o k IHp]; intro g; [exists 1%nat, (r, g); reflexivity|].
  all: destruct (own_op o) eqn:OO; [destruct (own_step nw c o g) as [[a g1]|] eqn:E1; [|destruct o; cbn in E1; discriminate]; destruct (IHp a g1) as [n [x E]]; exists (S n), x; rewrite nrun_own by exact OO; rewrite E1; exact E|].
  all: destruct o; try discriminate OO.
  all: match goal with
    | k : ans (OResolve ?t ?nm) -> _ |- _ => destruct (CB _ (F1 (g_log g) c t nm) b g) as [n1 [[r1 g1] E1]]; destruct (IHp r1 (glog c (EvResolve t nm r1) g1)) as [n2 [x E2]]; exists (S (n1 + n2)), x; rewrite nrun_resolve
    | k : ans (OUser ?f ?l) -> _ |- _ => destruct (CB _ (F2 (g_log g) c f l) b g) as [n1 [[r1 g1] E1]]; destruct (IHp r1 (glog c (EvUser f l r1) g1)) as [n2 [x E2]]; exists (S (n1 + n2)), x; rewrite nrun_user
    end; rewrite (proj2 (more n1 (n1 + n2) ltac:(lia)) _ _ _ _ E1); apply (proj1 (more n2 (n1 + n2) ltac:(lia))); exact E2.
Qed.
End Nested.

(** ** C64 *)
(** Whatever rules the callbacks of an evaluation evaluate or construct on other Contexts: its outcome, and the callbacks it makes, are those of
    the same evaluation by itself on a fresh thread, with callbacks that only give the answers.  This holds at every depth: [b] are the Contexts
    whose evaluations are under way outside. *)
Theorem C64_outcome_as_alone : forall (Orc : Oracle) Cs nw n b c e thing g r g', ~ In c b ->
  nrun Cs nw n (c :: b) c (rule_evaluate (Cs c) e thing) g = Some (r, g') -> g_again g' = false ->
  forall dc, exists l q', calls c (g_log g') = l ++ calls c (g_log g) /\
    run (replay l) (rule_evaluate (Cs c) e thing) (st_init dc) = (r, q') /\ s_log q' = l.
Proof.
  intros Orc Cs nw n b c e thing g r g' NI H Z dc. destruct (proj1 (nested_runs Cs nw n) _ _ _ _ _ _ _ H) as [_ R]. destruct (R (or_introl eq_refl) Z) as [_ [[l R2] R3]].
  assert (E := R3 _ [] eq_refl). cbn [app] in E. rewrite R2 in E. exists l.
  destruct (rule_evaluate_agree (Cs c) e thing (replay (l ++ calls c (g_log g))) (replay l) (rview c g) (st_init dc) (replay_agree l _)) as [l1 A].
  rewrite E in A. destruct (run (replay l) _ (st_init dc)) as [r2 q2] eqn:E2. destruct A as [<- [A1 [A2 _]]]. exists q2. split; [exact R2|]. split; [reflexivity|].
  rewrite A2. cbn [rview s_log] in A1. rewrite R2 in A1. apply app_inv_tail in A1. rewrite A1. apply app_nil_r.
Qed.
Print Assumptions C64_outcome_as_alone.

(** What the evaluations under way outside rely on is as before: their scopes, regular expression groups, symbols and pending answers, and the
    decimal context of the thread; and no scope is left open *)
Theorem C64_outside_untouched : forall (Orc : Oracle) Cs nw n b c e thing g r g', ~ In c b ->
  nrun Cs nw n (c :: b) c (rule_evaluate (Cs c) e thing) g = Some (r, g') -> g_again g' = false ->
  (forall d, In d b -> g_store g' d = g_store g d /\ calls d (g_log g') = calls d (g_log g)) /\ g_dc g' = g_dc g /\ r_scopes (g_store g' c) = [] /\
  (idle b g -> idle b g').
Proof.
  intros Orc Cs nw n b c e thing g r g' NI H Z. destruct (proj1 (nested_runs Cs nw n) _ _ _ _ _ _ _ H) as [_ R]. destruct (R (or_introl eq_refl) Z) as [R1 [_ R3]].
  assert (E := R3 _ [] eq_refl). assert (S := rule_evaluate_scopes (Cs c) e thing (replay (calls c (g_log g'))) (rview c g)). assert (D := rule_evaluate_dc (Cs c) e thing (replay (calls c (g_log g'))) (rview c g)).
  cbn [app] in E. rewrite E in S, D. cbn [snd rview s_scopes s_dc] in S, D. split; [|split; [exact D|split; [exact S|]]].
  - intros d I. apply R1; [right; exact I|]. intros ->. contradiction.
  - intros ID d Nd. destruct (Nat.eq_dec d c) as [->|Ne]; [exact S|]. apply (proj1 (idle_kept Cs nw n) _ _ _ _ _ _ _ H (or_introl eq_refl) Z); [intros x Nx; apply ID; intro I; apply Nx; right; exact I|]. intros [X|X]; [congruence|contradiction].
Qed.
Print Assumptions C64_outside_untouched.

(** a callback, whatever it evaluates and constructs before it answers *)
Theorem C64_callback_untouched : forall (Orc : Oracle) Cs nw n b cb g r g', cbrun Cs nw n b cb g = Some (r, g') -> g_again g' = false ->
  (forall d, In d b -> g_store g' d = g_store g d /\ calls d (g_log g') = calls d (g_log g)) /\ g_dc g' = g_dc g /\ (idle b g -> idle b g').
Proof.
  intros Orc Cs nw n b cb g r g' H Z. destruct (proj2 (nested_runs Cs nw n) _ _ _ _ _ H) as [_ R]. destruct (R Z) as [R1 R2]. split; [exact R1|]. split; [exact R2|]. apply (proj2 (idle_kept Cs nw n) _ _ _ _ _ H Z).
Qed.
Print Assumptions C64_callback_untouched.

(** Constructing a rule on a Context that is not being evaluated has the outcome it has by itself under the same decimal context *)
Theorem C64_construction_as_alone : forall (Orc : Oracle) Cs nw n b c d g r g', ~ In c b -> idle b g ->
  nrun Cs nw n (c :: b) c (rule_new (Cs c) d) g = Some (r, g') -> g_again g' = false ->
  exists l q', calls c (g_log g') = l ++ calls c (g_log g) /\
    run (replay l) (rule_new (Cs c) d) {| s_scopes := []; s_groups := r_groups (g_store g c); s_dc := g_dc g; s_syms := []; s_log := [] |} = (r, q') /\ s_log q' = l.
Proof.
  intros Orc Cs nw n b c d g r g' NI ID H Z. destruct (proj1 (nested_runs Cs nw n) _ _ _ _ _ _ _ H) as [_ R]. destruct (R (or_introl eq_refl) Z) as [_ [[l R2] R3]].
  assert (E := R3 _ [] eq_refl). cbn [app] in E. rewrite R2 in E. exists l.
  destruct (bisim _ (rule_new (Cs c) d) (replay (l ++ calls c (g_log g))) (replay l) (rview c g) {| s_scopes := []; s_groups := r_groups (g_store g c); s_dc := g_dc g; s_syms := []; s_log := [] |} (replay_agree l _)) as [l1 [sy A]].
  { split; [exact (ID c NI)|]. split; reflexivity. }
  rewrite E in A. destruct (run (replay l) _ _) as [r2 q2] eqn:E2. destruct A as [<- [_ [A1 [A2 _]]]]. exists q2. split; [exact R2|]. split; [reflexivity|].
  rewrite A2. cbn [rview s_log] in *. rewrite R2 in A1. apply app_inv_tail in A1. rewrite A1. apply app_nil_r.
Qed.
Print Assumptions C64_construction_as_alone.

(** When the callbacks of every Context use only Contexts with higher numbers, no Context is entered twice; and when there is a highest number, every evaluation ends *)
Theorem C64_layers_never_reenter : forall (Orc : Oracle) Cs nw n b c e thing g r g', layered nw -> (forall d, In d b -> (d < c)%nat) ->
  nrun Cs nw n (c :: b) c (rule_evaluate (Cs c) e thing) g = Some (r, g') -> g_again g' = g_again g.
Proof.
  intros Orc Cs nw n b c e thing g r g' L B H. apply (proj1 (layered_runs Cs nw L n) _ _ _ _ _ _ _ H). intros d [->|I]; [lia|apply B in I; lia].
Qed.
Print Assumptions C64_layers_never_reenter.
Theorem C64_layers_end : forall (Orc : Oracle) Cs nw M b c e thing g, finite_layers nw M ->
  exists r g', (exists n, nrun Cs nw n (c :: b) c (rule_evaluate (Cs c) e thing) g = Some (r, g')) /\
    forall n x, nrun Cs nw n (c :: b) c (rule_evaluate (Cs c) e thing) g = Some x -> x = (r, g').
Proof.
  intros Orc Cs nw M b c e thing g F. destruct (nrun_ends Cs nw M F (M - c) c (le_n _) _ (c :: b) (rule_evaluate (Cs c) e thing) g) as [n [[r g'] E]].
  exists r, g'. split; [exists n; exact E|]. intros m x X.
  assert (E1 := proj1 (more Cs nw n (n + m) ltac:(lia)) _ _ _ _ _ _ E). assert (X1 := proj1 (more Cs nw m (n + m) ltac:(lia)) _ _ _ _ _ _ X). congruence.
Qed.
Print Assumptions C64_layers_end.

(** *** A concrete case *)
(** Context 0 has three digits of precision, Context 1 the default; the resolver of Context 0 answers [y] with the value of the rule [1 / n] of
    Context 1, of which the resolver answers [3] *)
Definition three_digits : dctx := {| prec := 3; rmode := RHalfEven; emin := -999999; emax := 999999 |}.
Definition two_contexts (c : nat) : ctx :=
  match c with
  | O => {| c_flags := 0; c_tz := 1%N; c_default := None; c_dec := three_digits; c_types := fun _ => Ok TUndef; c_bvals := default_values; c_btypes := default_types; c_btz := 1%N |}
  | S _ => untyped_ctx
  end.
Definition one_over_n : expr := EBin (BArith TDiv) (ELit (num 1)) (sym "n").
Definition outer_rule : expr := EComp (EBin (BAdd) (sym "x") (sym "y")) (s "x") (EArr [ELit (num 1)]) None.
Definition layered_world : nworld :=
  {| n_resolve := fun _ c _ _ => match c with
                                 | O => Cb_evaluate 1 one_over_n VNull (fun r => Cb_answer r)
                                 | S _ => Cb_answer (Ok (VInt 3)) end;
     n_user := fun _ _ _ _ => Cb_answer (Err PType); n_now := fun _ _ _ => 0%Z; n_random := fun _ _ _ => VNull |}.
Definition g0 : gst := {| g_store := fun _ => {| r_scopes := []; r_groups := VNull; r_syms := [] |}; g_dc := demo_dc; g_log := []; g_again := false |}.
Lemma ran : forall A (o : option (result A * gst)) r0 (P : gst -> Prop), match o with Some (r, g') => r = r0 /\ P g' | None => False end -> exists g', o = Some (r0, g') /\ P g'.
Proof. intros A [[r g']|] r0 P H; [|destruct H]. destruct H as [-> H]. exists g'. auto. Qed.
Example C64_example : layered layered_world /\ finite_layers layered_world 2 /\ idle [] g0 /\
  exists g', nrun two_contexts layered_world 100 [0%nat] 0 (rule_evaluate (two_contexts 0) outer_rule VNull) g0 = Some (Ok (VArr [VDec (DFin false 133 (-2))]), g') /\
    g_again g' = false /\ calls 0 (g_log g') = [EvResolve VNull (s "y") (Ok (VDec (DFin false 3333333333333333333333333333 (-28))))] /\
    calls 1 (g_log g') = [EvResolve VNull (s "n") (Ok (VInt 3))].
Proof.
  split; [split; [intros l c t n; destruct c; repeat constructor; lia|intros; constructor]|]. split; [split; [intros l c t n; destruct c; repeat constructor; lia|intros; constructor]|].
  split; [intros d _; reflexivity|]. apply ran. vm_compute. auto.
Qed.

(** *** What the property excludes is real *)
(** a resolver that evaluates a rule on the Context that is asking: the comprehension loses its scope and raises IndexError (engine.py:415-417, 509),
    although the resolver only answers 1 *)
Definition reentrant_world : nworld :=
  {| n_resolve := fun _ c _ _ => Cb_evaluate c (ELit (num 1)) VNull (fun _ => Cb_answer (Ok (VInt 1)));
     n_user := fun _ _ _ _ => Cb_answer (Err PType); n_now := fun _ _ _ => 0%Z; n_random := fun _ _ _ => VNull |}.
Theorem C64_same_context_refuted : exists (g' : gst),
  nrun two_contexts reentrant_world 100 [1%nat] 1 (rule_evaluate (two_contexts 1) outer_rule VNull) g0 = Some (Err PIndex, g') /\
  fst (run (replay (calls 1 (g_log g'))) (rule_evaluate (two_contexts 1) outer_rule VNull) (st_init demo_dc)) = Ok (VArr [num 2]).
Proof. apply ran. vm_compute. auto. Qed.
Print Assumptions C64_same_context_refuted.
(** a rule constructed by a resolver is folded with the precision of the asking Context, not with that of the thread outside or of its own Context *)
Definition third_text : dnode := DBin (BArith TDiv) (DFloat (s "1")) (DFloat (s "3")).
Definition constructing_world (c1 : nat) (d : dnode) : nworld :=
  {| n_resolve := fun _ _ _ _ => Cb_construct c1 d (fun r => match r with Ok e => Cb_evaluate 2 e VNull (fun v => Cb_answer v) | Err x => Cb_answer (Err x) end);
     n_user := fun _ _ _ _ => Cb_answer (Err PType); n_now := fun _ _ _ => 0%Z; n_random := fun _ _ _ => VNull |}.
Theorem C64_construction_precision_refuted : exists (g' : gst),
  nrun two_contexts (constructing_world 1 third_text) 100 [0%nat] 0 (rule_evaluate (two_contexts 0) (sym "y") VNull) g0 = Some (Ok (VDec (DFin false 333 (-3))), g') /\ g_again g' = false /\
  exists e, fst (run demo_world (rule_new (two_contexts 1) third_text) demo_st) = Ok e /\
    fst (run demo_world (rule_evaluate (two_contexts 1) e VNull) demo_st) = Ok (VDec (DFin false 3333333333333333333333333333 (-28))).
Proof.
  assert (H : exists g', nrun two_contexts (constructing_world 1 third_text) 100 [0%nat] 0 (rule_evaluate (two_contexts 0) (sym "y") VNull) g0 = Some (Ok (VDec (DFin false 333 (-3))), g') /\ g_again g' = false) by (apply ran; vm_compute; auto).
  destruct H as [g' [H Z]]. exists g'. split; [exact H|]. split; [exact Z|]. eexists. split; [vm_compute; reflexivity|]. vm_compute. reflexivity.
Qed.
Print Assumptions C64_construction_precision_refuted.
(** a rule constructed by a resolver on the Context that is asking takes a name for the loop variable of the asking comprehension, which has no
    type (ast.py:91, 708), so that the symbol has none either (ast.py:1018-1020): [x - 1] raises AttributeError though it is a rule of that Context *)
Definition x_minus_1 : dnode := DBin (BSub) (DSym (s "x") false) (DFloat (s "1")).
Definition outer_strings : expr := EComp (sym "y") (s "x") (EArr [ELit (VStr (s "a"))]) None.
Theorem C64_construction_scope_refuted : exists (g' : gst),
  nrun two_contexts (constructing_world 1 x_minus_1) 100 [1%nat] 1 (rule_evaluate (two_contexts 1) outer_strings VNull) g0 = Some (Err PAttribute, g') /\
  exists e, fst (run demo_world (rule_new (two_contexts 1) x_minus_1) demo_st) = Ok e.
Proof.
  assert (H : exists g', nrun two_contexts (constructing_world 1 x_minus_1) 100 [1%nat] 1 (rule_evaluate (two_contexts 1) outer_strings VNull) g0 = Some (Err PAttribute, g') /\ True) by (apply ran; vm_compute; auto).
  destruct H as [g' [H _]]. exists g'. split; [exact H|]. eexists. vm_compute. reflexivity.
Qed.
Print Assumptions C64_construction_scope_refuted.
