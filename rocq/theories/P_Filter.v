(** * P_Filter: C72, Rule.filter is lazy, and what happens between two of its results does not matter *)
From Verif Require Import Base Dec Value DType Types Ops Attr Prog Ast Eval Build Engine ProgFacts StateFacts Truth Generator Demo P_State.
From Coq Require Import Lia.
Local Open Scope nat_scope.

(** ** Specification *)
(** [verdict x]: what rule.evaluate(x) says by itself, in a fresh thread: true, false, or the exception. *)
Section C72.
Context {Orc : Oracle} (C : ctx) (e : expr) (w : world) (src : source).
Definition verdict (x : value) : result value := fst (run w (rule_evaluate C e x) (st_init dctx_default)).
Definition accepts (x : value) : Prop := exists v, verdict x = Ok v /\ ~ falsy v.
Definition refuses (x : value) : Prop := exists v, verdict x = Ok v /\ falsy v.

(** [found i l]: of the first i items of the source, none of which fails, exactly those in l are accepted, in this order. *)
Inductive found : nat -> list value -> Prop :=
| Fo_none : found 0 []
| Fo_accepts : forall i l x, found i l -> src i = Item x -> accepts x -> found (S i) (l ++ [x])
| Fo_refuses : forall i l x, found i l -> src i = Item x -> refuses x -> found (S i) l.

Hypothesis M : memoryless w.

Lemma outcome_any : forall x q, fst (run w (rule_evaluate C e x) q) = verdict x.
Proof.
  intros x q. unfold verdict. destruct (rule_evaluate_agree C e x w w q (st_init dctx_default)) as [l H]; [apply M|].
  destruct (run w (rule_evaluate C e x) q). destruct (run w (rule_evaluate C e x) (st_init dctx_default)). apply H.
Qed.
Lemma matches_true : forall x q q', run w (rule_matches C e x) q = (Ok true, q') -> accepts x.
Proof.
  intros x q q' H. rewrite run_rule_matches in H. assert (E := outcome_any x q). destruct (run w (rule_evaluate C e x) q) as [[v|y] q1]; [|discriminate H]. injection H as H _.
  exists v. split; [symmetry; exact E|]. apply truthy_true. exact H.
Qed.
Lemma matches_false : forall x q q', run w (rule_matches C e x) q = (Ok false, q') -> refuses x.
Proof.
  intros x q q' H. rewrite run_rule_matches in H. assert (E := outcome_any x q). destruct (run w (rule_evaluate C e x) q) as [[v|y] q1]; [|discriminate H]. injection H as H _.
  exists v. split; [symmetry; exact E|]. apply truthy_false. exact H.
Qed.
Lemma matches_err : forall x q y q', run w (rule_matches C e x) q = (Err y, q') -> verdict x = Err y.
Proof. intros x q y q' H. rewrite run_rule_matches in H. assert (E := outcome_any x q). destruct (run w (rule_evaluate C e x) q) as [[v|z] q1]; [discriminate H|]. injection H as -> _. symmetry. exact E. Qed.

(** the values among answers *)
Definition yielded (l : list answer) : list value := flat_map (fun a => match a with Yields v => [v] | _ => [] end) l.
(** the generator [g] has handed out [ys] so far, and nothing ended it yet *)
Definition going (g : gen) (ys : list value) : Prop := g_done g = false /\ found (g_pos g) ys.
(** it ended with exception x (None: by itself) *)
Definition ended (g : gen) (ys : list value) (end_ : option exn) : Prop :=
  g_done g = true /\
  match end_ with
  | None => found (g_pos g) ys /\ src (g_pos g) = End
  | Some x => (found (g_pos g) ys /\ src (g_pos g) = Broken x) \/ (exists i v, g_pos g = S i /\ found i ys /\ src i = Item v /\ verdict v = Err x)
  end.

(** ** One call *)
Theorem C72_next : forall g q a g' q' ys, going g ys -> next C e w src g q a g' q' ->
  match a with
  | Yields v => going g' (ys ++ [v]) /\ (exists i, g_pos g' = S i /\ src i = Item v /\ accepts v /\ g_pos g <= i /\ forall j, g_pos g <= j < i -> exists x, src j = Item x /\ refuses x)
  | Stops => ended g' ys None
  | Raises x => ended g' ys (Some x)
  end.
Proof.
  intros g q a g' q' ys G H. revert ys G. induction H as [g q D|g q D S|g q x D S|g q v q' D S R|g q v q1 a g' q' D S R H IH|g q v x q' D S R]; intros ys [G1 G2].
  - congruence.
  - split; [reflexivity|]. cbn. auto.
  - split; [reflexivity|]. cbn. auto.
  - split; [split; [reflexivity|]|].
    + cbn [g_pos]. eapply Fo_accepts; [exact G2|exact S|eapply matches_true; exact R].
    + exists (g_pos g). cbn [g_pos]. split; [reflexivity|]. split; [exact S|]. split; [eapply matches_true; exact R|]. split; [lia|]. intros j J. lia.
  - assert (K : going {| g_pos := Datatypes.S (g_pos g); g_done := false |} ys).
    { split; [reflexivity|]. cbn [g_pos]. eapply Fo_refuses; [exact G2|exact S|eapply matches_false; exact R]. }
    specialize (IH ys K). destruct a as [u| |x]; try exact IH. destruct IH as [IH1 [i [I1 [I2 [IA [I3 I4]]]]]]. split; [exact IH1|]. exists i. cbn [g_pos] in I3, I4. split; [exact I1|]. split; [exact I2|]. split; [exact IA|]. split; [lia|].
    intros j J. destruct (Nat.eq_dec j (g_pos g)) as [-> |NE]; [exists v; split; [exact S|eapply matches_false; exact R]|apply I4; lia].
  - split; [reflexivity|]. right. exists (g_pos g), v. cbn [g_pos]. split; [reflexivity|]. split; [exact G2|]. split; [exact S|]. eapply matches_err. exact R.
Qed.
(** after its end a generator only stops *)
Theorem C72_next_done : forall g q a g' q', g_done g = true -> next C e w src g q a g' q' -> a = Stops /\ g' = g /\ q' = q.
Proof. intros g q a g' q' D H. inversion H; subst; try congruence. auto. Qed.

(** ** Any consumer *)
Lemma consumes_done : forall g q l g', g_done g = true -> consumes C e w src g q l g' -> g' = g /\ Forall (fun a => a = Stops) l.
Proof.
  intros g q l g' D H. induction H as [g q|g q a g1 q1 q2 l g' N H IH]; [auto|]. destruct (C72_next_done _ _ _ _ _ D N) as [-> [-> ->]]. destruct (IH D) as [-> F]. auto.
Qed.
Lemma yielded_stops : forall l, Forall (fun a => a = Stops) l -> yielded l = [].
Proof. intros l F. induction F as [|a l E F IH]; [reflexivity|]. subst a. exact IH. Qed.
Lemma consumes_going : forall g q l g', consumes C e w src g q l g' -> forall ys, going g ys ->
  (going g' (ys ++ yielded l) /\ (length (yielded l) = length l)) \/
  (exists x l1 l2 a, l = l1 ++ a :: l2 /\ ended g' (ys ++ yielded l) x /\ length (yielded l1) = length l1 /\ a = match x with Some x => Raises x | None => Stops end /\ Forall (fun a => a = Stops) l2).
Proof.
  intros g q l g' H. induction H as [g q|g q a g1 q1 q2 l g' N H IH]; intros ys G; [left; rewrite app_nil_r; auto|].
  assert (K := C72_next _ _ _ _ _ _ G N). destruct a as [v| |x].
  - destruct K as [K _]. destruct (IH _ K) as [[I1 I2]|[x [l1 [l2 [a [-> [I1 [I2 [I3 I4]]]]]]]]].
    + left. cbn [yielded flat_map]. rewrite <- app_assoc in I1. split; [exact I1|]. cbn. f_equal. exact I2.
    + right. exists x, (Yields v :: l1), l2, a. split; [reflexivity|]. split; [cbn [yielded flat_map]; rewrite <- app_assoc in I1; exact I1|]. split; [cbn; f_equal; exact I2|]. auto.
  - destruct (consumes_done _ _ _ _ (proj1 K) H) as [-> F]. right. exists None, [], l, Stops. split; [reflexivity|]. cbn [yielded flat_map app]. change (flat_map _ l) with (yielded l). rewrite (yielded_stops l F), app_nil_r. auto.
  - destruct (consumes_done _ _ _ _ (proj1 K) H) as [-> F]. right. exists (Some x), [], l, (Raises x). split; [reflexivity|]. cbn [yielded flat_map app]. change (flat_map _ l) with (yielded l). rewrite (yielded_stops l F), app_nil_r. auto.
Qed.

(** Whatever else happens between the calls: the results handed out are the accepted items of the prefix of the source examined so far,
    in order; the prefix ends with the last result (no item after it has been looked at) while the generator goes on; it ends only at
    the end of the source or at the first failure, raising that exception once and stopping ever after. *)
Theorem C72_consumer : forall q l g', consumes C e w src filter_new q l g' ->
  (going g' (yielded l) /\ l = map Yields (yielded l) /\ forall i, g_pos g' = S i -> exists x, src i = Item x /\ accepts x) \/
  (exists x l2, l = map Yields (yielded l) ++ match x with Some x => Raises x | None => Stops end :: l2 /\ ended g' (yielded l) x /\ Forall (fun a => a = Stops) l2).
Proof.
  assert (ALL : forall l, length (yielded l) = length l -> l = map Yields (yielded l)).
  { assert (LE : forall l, length (yielded l) <= length l) by (induction l as [|[v| |x] l IH]; cbn; [auto| | |]; fold (yielded l); lia).
    induction l as [|[v| |x] l IH]; intro E; [reflexivity| | |]; cbn in E; fold (yielded l) in E.
    - cbn. fold (yielded l). f_equal. apply IH. injection E as E. exact E.
    - specialize (LE l). lia.
    - specialize (LE l). lia. }
  intros q l g' H. assert (G : going filter_new []) by (split; [reflexivity|constructor]).
  destruct (consumes_going _ _ _ _ H [] G) as [[I1 I2]|[x [l1 [l2 [a [-> [I1 [I2 [-> I4]]]]]]]]].
  - left. split; [exact I1|]. split; [apply ALL; exact I2|].
    assert (P : forall g q l g', consumes C e w src g q l g' -> forall ys, going g ys -> g_done g' = false -> (forall i, g_pos g = S i -> exists x, src i = Item x /\ accepts x) -> forall i, g_pos g' = S i -> exists x, src i = Item x /\ accepts x).
    { clear -M. intros g q l g' H. induction H as [g q|g q a g1 q1 q2 l g' N H IH]; intros ys G D A i E; [apply A; exact E|].
      assert (K := C72_next _ _ _ _ _ _ G N). destruct a as [v| |x].
      - destruct K as [K [i' [K1 [K2 [KA _]]]]]. eapply IH; [exact K|exact D| |exact E]. intros i0 E0. rewrite K1 in E0. injection E0 as <-. exists v. split; [exact K2|exact KA].
      - destruct (consumes_done _ _ _ _ (proj1 K) H) as [-> _]. destruct K as [K _]. congruence.
      - destruct (consumes_done _ _ _ _ (proj1 K) H) as [-> _]. destruct K as [K _]. congruence. }
    eapply P; [exact H|exact G|exact (proj1 I1)|]. intros i E. discriminate E.
  - right. exists x, l2. assert (Y : yielded (l1 ++ match x with Some x => Raises x | None => Stops end :: l2) = yielded l1).
    { unfold yielded. rewrite flat_map_app. cbn [flat_map]. change (flat_map _ l2) with (yielded l2). rewrite (yielded_stops l2 I4). destruct x; cbn; rewrite app_nil_r; reflexivity. }
    rewrite Y in *. split; [f_equal; apply ALL; exact I2|]. split; [exact I1|exact I4].
Qed.

(** Two consumers of equal generators see the same answers, one possibly more of them, whatever each does in between. *)
Lemma next_det : forall g q a g1 q1, next C e w src g q a g1 q1 -> forall q' a' g1' q1', next C e w src g q' a' g1' q1' -> a = a' /\ g1 = g1'.
Proof.
  assert (AR : forall x, accepts x -> refuses x -> False) by (intros x [v [A1 A2]] [u [B1 B2]]; rewrite A1 in B1; injection B1 as ->; contradiction).
  assert (AE : forall x y, accepts x -> verdict x = Err y -> False) by (intros x y [v [A1 A2]] B; congruence).
  assert (RE : forall x y, refuses x -> verdict x = Err y -> False) by (intros x y [v [A1 A2]] B; congruence).
  intros g q a g1 q1 H. induction H as [g q D|g q D S|g q x D S|g q v q' D S R|g q v q1 a g' q' D S R H IH|g q v x q' D S R]; intros p a' g1' p' H';
    destruct H' as [g p D'|g p D' S'|g p x' D' S'|g p v' p' D' S' R'|g p v' p1 a' h' p' D' S' R' H'|g p v' x' p' D' S' R']; try congruence; try (split; congruence); try (rewrite S in S'; injection S' as <-);
    try (split; congruence); try (exfalso; eauto using matches_true, matches_false, matches_err; fail).
  - eapply IH. exact H'.
  - apply matches_err in R. apply matches_err in R'. split; congruence.
Qed.
Theorem C72_same_answers : forall g q l g1 q' l' g1', consumes C e w src g q l g1 -> consumes C e w src g q' l' g1' -> exists r, l' = l ++ r \/ l = l' ++ r.
Proof.
  intros g q l g1 q' l' g1' H. revert q' l' g1'. induction H as [g q|g q a g1 q1 q2 l g' N H IH]; intros q' l' g1' H'; [exists l'; left; reflexivity|].
  destruct H' as [g p|g p a' h1 p1 p2 l' h' N' H']; [exists (a :: l); right; reflexivity|]. destruct (next_det _ _ _ _ _ N _ _ _ _ N') as [<- <-]. destruct (IH _ _ _ H') as [r [-> | ->]]; exists r; [left|right]; reflexivity.
Qed.
End C72.

Section C72_any_callbacks.
Context {Orc : Oracle} (C : ctx) (e : expr) (w : world).

(** A call depends on the source only as far as it has looked: two sources that agree there give the same call, whatever follows.
    No assumption on the callbacks here. *)
Theorem C72_lazy : forall src src' g q a g' q', next C e w src g q a g' q' ->
  (forall j, j < g_pos g' -> src j = src' j) -> (g_done g' = true -> src (g_pos g') = src' (g_pos g')) -> next C e w src' g q a g' q'.
Proof.
  intros src src' g q a g' q' H. assert (LE : forall g q a g' q', next C e w src g q a g' q' -> g_pos g <= g_pos g') by (clear; intros g q a g' q' H; induction H; cbn [g_pos] in *; lia).
  induction H as [g q D|g q D S|g q x D S|g q v q' D S R|g q v q1 a g' q' D S R H IH|g q v x q' D S R]; intros A B; cbn [g_pos g_done] in A, B.
  - apply N_done. exact D.
  - apply N_end; [exact D|]. rewrite <- B; [exact S|reflexivity].
  - apply N_broken; [exact D|]. rewrite <- B; [exact S|reflexivity].
  - apply N_match; [exact D| |exact R]. rewrite <- A; [exact S|lia].
  - eapply N_skip; [exact D| |exact R|apply IH; assumption]. apply LE in H. cbn [g_pos] in H. rewrite <- A; [exact S|lia].
  - eapply N_error; [exact D| |exact R]. rewrite <- A; [exact S|lia].
Qed.
(** The consumer's decimal context is its own between the results. *)
Theorem C72_decimal_context : forall src g q a g' q', next C e w src g q a g' q' -> s_dc q' = s_dc q.
Proof.
  assert (K : forall v q r q', run w (rule_matches C e v) q = (r, q') -> s_dc q' = s_dc q).
  { intros v q r q' H. rewrite run_rule_matches in H. assert (E := rule_evaluate_dc C e v w q). destruct (run w (rule_evaluate C e v) q) as [[u|x] q1]; injection H as _ <-; exact E. }
  intros src g q a g' q' H. induction H; try reflexivity; try (eapply K; eassumption). rewrite IHnext. eapply K. eassumption.
Qed.
(** Consuming the generator to its end, with nothing in between, is C41's filter. *)
Definition of_list (xs : list value) : source := fun i => match nth_error xs i with Some v => Item v | None => End end.
Theorem C72_drain : forall xs q l x q', run w (rule_filter C e xs) q = (Ok (l, x), q') ->
  exists g', consumes C e w (of_list xs) filter_new q (map Yields l ++ [match x with Some x => Raises x | None => Stops end]) g' /\ g_done g' = true.
Proof.
  assert (G : forall xs src k, (forall j, src (k + j) = of_list xs j) -> forall q l x q', run w (rule_filter C e xs) q = (Ok (l, x), q') ->
     exists g', consumes C e w src {| g_pos := k; g_done := false |} q (map Yields l ++ [match x with Some x => Raises x | None => Stops end]) g' /\ g_done g' = true).
  { induction xs as [|y xs IH]; intros src k S q l x q' H; cbn [rule_filter] in H; assert (S0 := S 0); rewrite Nat.add_0_r in S0; cbn in S0.
    - injection H as <- <- <-. eexists. split; [eapply Co_next; [apply N_end; [reflexivity|exact S0]|apply (Co_nil _ _ _ _ _ q)]|reflexivity].
    - assert (S1 : forall j, src (Datatypes.S k + j) = of_list xs j) by (intro j; specialize (S (Datatypes.S j)); rewrite Nat.add_succ_r in S; exact S).
      rewrite run_pthen in H. destruct (run w (rule_matches C e y) q) as [[b|z] q1] eqn:R.
      + rewrite run_pbind in H. destruct (run w (rule_filter C e xs) q1) as [[[l' x'] |z] q2] eqn:R2; [|discriminate H]. cbn in H. injection H as <- <- <-. destruct (IH src (Datatypes.S k) S1 _ _ _ _ R2) as [g' [H D]]. exists g'. split; [|exact D]. destruct b.
        * cbn [map app]. eapply Co_next; [eapply N_match; [reflexivity|exact S0|exact R]|exact H].
        * remember (map Yields l' ++ _) as L eqn:EL. inversion H as [g p E1 E2 E3|g p a g1 p1 p2 l2 g2 N H2 E1 E2 E3]; [exfalso; match goal with K : [] = L |- _ => rewrite <- K in EL end; destruct l'; discriminate EL|]. eapply Co_next; [eapply N_skip; [reflexivity|exact S0|exact R|exact N]|exact H2].
      + cbn in H. injection H as <- <- <-. eexists. split; [eapply Co_next; [eapply N_error; [reflexivity|exact S0|exact R]|apply (Co_nil _ _ _ _ _ q)]|reflexivity]. }
  intros xs. apply (G xs (of_list xs) 0). reflexivity.
Qed.
(** A result that exists is found: if the item at i is the first from the position on that does not get refused, and it matches, the call
    returns it (so an endless source is no obstacle). *)
Theorem C72_finds : memoryless w -> forall src i v g, g_done g = false -> g_pos g <= i -> (forall j, g_pos g <= j < i -> exists x, src j = Item x /\ refuses C e w x) -> src i = Item v -> accepts C e w v ->
  forall q, exists q', next C e w src g q (Yields v) {| g_pos := S i; g_done := false |} q'.
Proof.
  intros M src i v g D L A S B q. remember (i - g_pos g) as n eqn:En. revert g q D L A En. induction n as [|n IH]; intros g q D L A En.
  - assert (E : g_pos g = i) by lia. destruct B as [u [B1 B2]]. assert (K := outcome_any C e w M v q). rewrite B1 in K.
    assert (R := run_rule_matches C e v w q). destruct (run w (rule_evaluate C e v) q) as [r q1]. cbn in K. subst r. apply truthy_true in B2. rewrite B2 in R. exists q1. rewrite <- E in *. apply N_match; assumption.
  - destruct (A (g_pos g)) as [x [X1 [u [X2 X3]]]]; [lia|]. assert (K := outcome_any C e w M x q). rewrite X2 in K. assert (R := run_rule_matches C e x w q). destruct (run w (rule_evaluate C e x) q) as [r q1]. cbn in K. subst r. apply truthy_false in X3. rewrite X3 in R.
    destruct (IH {| g_pos := Datatypes.S (g_pos g); g_done := false |} q1) as [q' H]; [reflexivity|cbn; lia|cbn; intros j J; apply A; lia|cbn; lia|]. exists q'. eapply N_skip; eassumption.
Qed.
End C72_any_callbacks.
Print Assumptions C72_next.
Print Assumptions C72_next_done.
Print Assumptions C72_consumer.
Print Assumptions C72_same_answers.
Print Assumptions C72_lazy.
Print Assumptions C72_decimal_context.
Print Assumptions C72_drain.
Print Assumptions C72_finds.

(** n > 2 over the endless source 0, 1, 2, 3, ...: three calls, with another evaluation state forced in between *)
Definition c72_src : source := fun i => Item (VDict [(VStr (s "n"), VInt (Z.of_nat i))]).
Definition c72_rule : expr := EBin (BCmp Cgt) (sym "n") (ELit (num 2)).
Example C72_example : memoryless demo_world /\
  consumes untyped_ctx c72_rule demo_world c72_src filter_new demo_st [Yields (VDict [(VStr (s "n"), VInt 3)]); Yields (VDict [(VStr (s "n"), VInt 4)])] {| g_pos := 5; g_done := false |}.
Proof.
  split; [exact C07_memoryless_world|].
  eapply Co_next; [|eapply (Co_next _ _ _ _ _ (set_groups (VStr (s "other")) (set_dc {| prec := 2; rmode := RHalfEven; emin := -99; emax := 99 |} demo_st))); [|apply (Co_nil _ _ _ _ _ demo_st)]].
  - do 3 (eapply N_skip; [reflexivity|reflexivity|vm_compute; reflexivity|]). eapply N_match; [reflexivity|reflexivity|vm_compute; reflexivity].
  - eapply N_match; [reflexivity|reflexivity|vm_compute; reflexivity].
Qed.
