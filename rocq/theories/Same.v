(** * Same: when two programs cannot be told apart, except by the regex groups and the symbol set they leave behind *)
From Coq Require Import List ZArith Lia Bool.
From Verif Require Import Base Dec Value DType Types Ops ParseUtil Attr Prog Ast Eval Build ProgFacts StateFacts CoerceFacts.
Import ListNotations.
Open Scope list_scope.
Open Scope Z_scope.

(** the same scopes, decimal context and callbacks so far *)
Definition sim (q q' : st) : Prop := s_scopes q = s_scopes q' /\ s_dc q = s_dc q' /\ s_log q = s_log q'.
Lemma sim_refl : forall q, sim q q.
Proof. intro q. repeat split. Qed.
Lemma sim_sym : forall q q', sim q q' -> sim q' q.
Proof. intros q q' [A [B C]]. repeat split; congruence. Qed.
Lemma sim_trans : forall a b c, sim a b -> sim b c -> sim a c.
Proof. intros a b c [A [B C]] [A' [B' C']]. repeat split; congruence. Qed.

Section Eqv.
Variable D : dctx.

(** [eqv p p']: started in similar states with decimal context [D], both end with the same outcome in similar states *)
Definition eqv {A} (p p' : prog A) : Prop :=
  forall w q q', sim q q' -> s_dc q = D -> fst (run w p q) = fst (run w p' q') /\ sim (snd (run w p q)) (snd (run w p' q')) /\ s_dc (snd (run w p q)) = D.

Lemma eqv_ret : forall A (r : result A), eqv (Ret r) (Ret r).
Proof. intros A r w q q' H E. cbn. auto. Qed.
Lemma eqv_sym : forall A (p p' : prog A), eqv p p' -> eqv p' p.
Proof.
  intros A p p' H w q q' S E. assert (S' := sim_sym _ _ S). destruct S as [_ [S2 _]]. destruct (H w q' q S' (eq_trans (eq_sym S2) E)) as [A1 [A2 A3]]. split; [congruence|]. split; [apply sim_sym; exact A2|].
  destruct A2 as [_ [A2 _]]. congruence.
Qed.
Lemma eqv_trans : forall A (p p' p'' : prog A), eqv p p' -> eqv p' p'' -> eqv p p''.
Proof.
  intros A p p' p'' H H' w q q' S E. destruct (H w q q (sim_refl q) E) as [A1 [A2 A3]]. destruct (H' w q q' S E) as [B1 [B2 B3]]. split; [congruence|]. split; [|exact A3]. eapply sim_trans; eauto.
Qed.
Lemma eqv_then : forall A B (p p' : prog A) (f f' : result A -> prog B), eqv p p' -> (forall r, eqv (f r) (f' r)) -> eqv (pthen p f) (pthen p' f').
Proof.
  intros A B p p' f f' H Hf w q q' S E. rewrite !run_pthen. destruct (H w q q' S E) as [A1 [A2 A3]]. destruct (run w p q) as [r q1]. destruct (run w p' q') as [r' q1']. cbn in *. subst r'. apply Hf; assumption.
Qed.
Lemma eqv_bind : forall A B (p p' : prog A) (f f' : A -> prog B), eqv p p' -> (forall a, eqv (f a) (f' a)) -> eqv (pbind p f) (pbind p' f').
Proof. intros. apply eqv_then; [assumption|]. intros [a|x]; [auto|apply eqv_ret]. Qed.
Lemma eqv_act : forall o, o <> OGetG -> o <> OReset -> (forall d, o <> OSetDc d) -> eqv (act o) (act o).
Proof.
  intros o N1 N2 N3 w q q' [S1 [S2 S3]] E. rewrite !run_act.
  destruct o; cbn [step_op fst snd]; try congruence; try (split; [reflexivity|split; [repeat split; cbn; congruence|exact E]]).
  - rewrite <- S1. destruct (s_scopes q) eqn:Eq; cbn [fst snd]; (split; [reflexivity|]); (split; [|exact E]); repeat split; cbn; congruence.
  - rewrite S1. repeat split; cbn; congruence.
  - rewrite S2. repeat split; cbn; congruence.
  - rewrite S3. repeat split; cbn; congruence.
  - rewrite S3. repeat split; cbn; congruence.
  - rewrite S3. repeat split; cbn; congruence.
  - rewrite S3. repeat split; cbn; congruence.
Qed.
(** setting the groups cannot be seen *)
Lemma eqv_setg : forall A v (k : unit -> prog A) p, eqv (k tt) p -> eqv (pbind (act (OSetG v)) k) p.
Proof. intros A v k p H w q q' S E. rewrite run_pbind, run_act. cbn [step_op]. apply H; [|exact E]. destruct S as [A1 [A2 A3]]. repeat split; assumption. Qed.
Lemma eqv_setg2 : forall A v (k k' : unit -> prog A), eqv (k tt) (k' tt) -> eqv (pbind (act (OSetG v)) k) (pbind (act (OSetG v)) k').
Proof. intros. apply eqv_setg. apply eqv_sym. apply eqv_setg. apply eqv_sym. assumption. Qed.
(** the decimal context is known *)
Lemma eqv_getdc : forall A (k : dctx -> prog A) p, eqv (k D) p -> eqv (pbind (act OGetDc) k) p.
Proof. intros A k p H w q q' S E. rewrite run_pbind, run_act. cbn [step_op]. rewrite E. apply H; assumption. Qed.
Lemma eqv_actr : forall o f, o <> OGetG -> o <> OReset -> (forall d, o <> OSetDc d) -> eqv (actr o f) (actr o f).
Proof.
  intros o f N1 N2 N3. assert (Q : forall w q, run w (actr o f) q = run w (pbind (act o) (fun a => Ret (f a))) q).
  { intros w q. unfold actr. rewrite run_pbind, run_act. cbn [run]. destruct (step_op w o q) as [a q1]. reflexivity. }
  intros w q q' S E. rewrite !Q. apply (eqv_bind _ _ (act o) (act o)); try assumption; [apply eqv_act; assumption|]. intro a. apply eqv_ret.
Qed.
Lemma eqv_pmapM2 : forall A A' B (f : A -> prog B) (f' : A' -> prog B) l l', Forall2 (fun a a' => eqv (f a) (f' a')) l l' -> eqv (pmapM f l) (pmapM f' l').
Proof.
  intros A A' B f f' l l' H. induction H as [|a a' l l' Ha H IH]; [apply eqv_ret|]. cbn [pmapM]. apply eqv_bind; [exact Ha|]. intro b. apply eqv_bind; [exact IH|]. intro bs. apply eqv_ret.
Qed.
Lemma eqv_pmapM : forall A B (f f' : A -> prog B) l, (forall a, In a l -> eqv (f a) (f' a)) -> eqv (pmapM f l) (pmapM f' l).
Proof. intros A B f f' l H. apply eqv_pmapM2. induction l as [|a l IH]; constructor; [apply H; left; reflexivity|apply IH; intros; apply H; right; assumption]. Qed.
Lemma eqv_scope : forall A a (p p' : prog A), eqv p p' -> eqv (with_scope a p) (with_scope a p').
Proof.
  intros A a p p' H. unfold with_scope. apply eqv_bind; [apply eqv_act; discriminate|]. intro u. apply eqv_then; [exact H|]. intro r.
  apply eqv_bind; [apply eqv_act; discriminate|]. intros [e|x]; apply eqv_ret.
Qed.
Lemma eqv_comp_loop : forall var cond cond' body body',
  match cond, cond' with Some c, Some c' => eqv c c' | None, None => True | _, _ => False end ->
  eqv body body' -> forall l, eqv (comp_loop var cond body l) (comp_loop var cond' body' l).
Proof.
  intros var cond cond' body body' Hc Hb. induction l as [|x l IH]; [apply eqv_ret|]. cbn [comp_loop]. apply eqv_bind.
  - apply eqv_scope. apply eqv_bind; [destruct cond as [c|], cond' as [c'|]; try contradiction; [apply eqv_bind; [exact Hc|intro; apply eqv_ret]|apply eqv_ret]|].
    intros []; [apply eqv_bind; [exact Hb|intro; apply eqv_ret]|apply eqv_ret].
  - intro o. apply eqv_bind; [exact IH|]. intro vs. apply eqv_ret.
Qed.

(** mapping literals: keys first, then the value programs chosen by the resulting dictionary *)
Definition eentries {tz : TzDb} (m m' : list (value * prog value)) : Prop := Forall2 (fun e e' => fst e = fst e' /\ eqv (snd e) (snd e')) m m'.
Lemma eentries_put : forall (tz : TzDb) m m' k p p', eentries m m' -> eqv p p' -> eentries (dict_put m k p) (dict_put m' k p').
Proof.
  intros tz m m' k p p' H Hp. induction H as [|[a b] [a' b'] m m' [E Hb] H IH]; cbn.
  - constructor; [split; [reflexivity|exact Hp]|constructor].
  - cbn in E, Hb. subst a'. destruct (py_eq a k); constructor; try assumption; split; try reflexivity; assumption.
Qed.
Lemma eentries_mk : forall (tz : TzDb) l l', eentries l l' -> eentries (mk_dict l) (mk_dict l').
Proof.
  intros tz l l' H. unfold mk_dict. assert (Gen : forall m m', eentries m m' -> eentries (fold_left (fun m kv => dict_put m (fst kv) (snd kv)) l m) (fold_left (fun m kv => dict_put m (fst kv) (snd kv)) l' m')).
  { induction H as [|[a b] [a' b'] l l' [E Hb] H IH]; intros m m' Hm; [exact Hm|]. cbn in *. subst a'. apply IH. apply eentries_put; assumption. }
  apply Gen. constructor.
Qed.

(** the keys of a mapping literal with the programs of its values *)
Definition map_keys {Orc : Oracle} {A} (kp vp : A -> prog value) (l : list A) : prog (list (value * prog value)) :=
  pmapM (fun a => do! k := kp a in do! k' := Ret (map_key k) in ok (k', vp a)) l.
Definition map_vals (m : list (value * prog value)) : prog (list (value * value)) :=
  pmapM (fun e : value * prog value => do! v := snd e in ok (fst e, v)) m.
Lemma eqv_map_vals : forall (tz : TzDb) m m', eentries m m' -> eqv (map_vals m) (map_vals m').
Proof.
  intros tz m m' H. apply eqv_pmapM2. induction H as [|[a b] [a' b'] m m' [E Hb] H IH]; constructor; [|exact IH]. cbn in *. subst a'. apply eqv_bind; [exact Hb|intro; apply eqv_ret].
Qed.
Lemma eqv_map_literal : forall (Orc : Oracle) A A' (l : list A) (l' : list A') (kp vp : A -> prog value) (kp' vp' : A' -> prog value),
  Forall2 (fun a a' => eqv (kp a) (kp' a') /\ eqv (vp a) (vp' a')) l l' ->
  eqv (do! ks := map_keys kp vp l in do! m := map_vals (mk_dict ks) in ok (VMap m))
      (do! ks := map_keys kp' vp' l' in do! m := map_vals (mk_dict ks) in ok (VMap m)).
Proof.
  intros Orc A A' l l' kp vp kp' vp' H w q q' S E. rewrite !run_pbind.
  assert (K : forall q q', sim q q' -> s_dc q = D ->
     match run w (map_keys kp vp l) q, run w (map_keys kp' vp' l') q' with
     | (Ok ks, q1), (Ok ks', q1') => eentries ks ks' /\ sim q1 q1' /\ s_dc q1 = D
     | (Err x, q1), (Err x', q1') => x = x' /\ sim q1 q1' /\ s_dc q1 = D
     | _, _ => False
     end).
  { clear q q' S E. induction H as [|a a' l l' [Ha Hv] H IH]; intros q q' S E; [split; [constructor|split; assumption]|].
    unfold map_keys in *. cbn [pmapM]. rewrite !run_pbind. destruct (Ha w q q' S E) as [A1 [A2 A3]]. destruct (run w (kp a) q) as [r q1]. destruct (run w (kp' a') q') as [r' q1']. cbn [fst snd] in *. subst r'.
    destruct r as [k|x]; [|auto]. rewrite !run_pbind. cbn [run]. destruct (map_key k) as [k'|x]; [|auto]. cbn [run ok]. rewrite !run_pbind.
    specialize (IH q1 q1' A2 A3). destruct (run w _ q1) as [[ks|x] q2]; destruct (run w _ q1') as [[ks'|x'] q2']; try contradiction; [|exact IH].
    destruct IH as [I1 I2]. cbn [run ok]. split; [|exact I2]. constructor; [split; [reflexivity|exact Hv]|exact I1]. }
  specialize (K q q' S E). destruct (run w (map_keys kp vp l) q) as [[ks|x] q1]; destruct (run w (map_keys kp' vp' l') q') as [[ks'|x'] q1']; try contradiction.
  - destruct K as [K1 [K2 K3]]. apply (eqv_bind _ _ (map_vals (mk_dict ks)) (map_vals (mk_dict ks'))); try assumption; [|intro; apply eqv_ret]. apply (eqv_map_vals o_tz). apply eentries_mk. exact K1.
  - destruct K as [K1 K2]. subst. cbn. split; [reflexivity|exact K2].
Qed.

(** programs that are mere values *)
Lemma pmapM_pure : forall A B (f : A -> prog B) (g : A -> result B) l, (forall a, In a l -> f a = Ret (g a)) -> pmapM f l = Ret (rmapM g l).
Proof.
  intros A B f g l H. induction l as [|a l IH]; [reflexivity|]. cbn [pmapM rmapM]. rewrite (H a (or_introl eq_refl)), IH by (intros; apply H; right; assumption).
  destruct (g a); [|reflexivity]. cbn. destruct (rmapM g l); reflexivity.
Qed.
Lemma eqv_val : forall A (p : prog A) r w q r1 q1, eqv p (Ret r) -> s_dc q = D -> run w p q = (r1, q1) -> r1 = r /\ sim q q1.
Proof. intros A p r w q r1 q1 H E R. destruct (H w q q (sim_refl q) E) as [A1 [A2 _]]. rewrite R in *. cbn in *. split; [exact A1|apply sim_sym; exact A2]. Qed.
End Eqv.
