(** * Refine: when two programs have the same outcome, except where the first raises an exception of a given class *)
From Verif Require Import Base Dec Value DType Types Ops ParseUtil Attr Prog Ast Eval Build ProgFacts StateFacts CoerceFacts.

(** [ref bad p p']: whatever the world and state, either [p] raises an exception satisfying [bad], or [p'] does exactly the same *)
Definition ref {A} (bad : exn -> bool) (p p' : prog A) : Prop :=
  forall w q, run w p' q = run w p q \/ exists x q', run w p q = (Err x, q') /\ bad x = true.

Section Ref.
Context {Orc : Oracle} (bad : exn -> bool).

Lemma ref_refl : forall A (p : prog A), ref bad p p.
Proof. intros A p w q. left. reflexivity. Qed.
Lemma ref_bad : forall A x (p' : prog A), bad x = true -> ref bad (raise x) p'.
Proof. intros A x p' H w q. right. exists x, q. split; [reflexivity|exact H]. Qed.
Lemma ref_bind : forall A B (p p' : prog A) (f f' : A -> prog B), ref bad p p' -> (forall a, ref bad (f a) (f' a)) -> ref bad (pbind p f) (pbind p' f').
Proof.
  intros A B p p' f f' Hp Hf w q. rewrite !run_pbind. destruct (Hp w q) as [E|[x [q' [E Bx]]]].
  - rewrite E. destruct (run w p q) as [[a|x] q1]; [|left; reflexivity]. apply Hf.
  - rewrite E. right. exists x, q'. split; [reflexivity|exact Bx].
Qed.
Lemma ref_then : forall A B (p p' : prog A) (f f' : result A -> prog B), ref bad p p' -> (forall r, ref bad (f r) (f' r)) ->
  (forall x, bad x = true -> f (Err x) = raise x) -> ref bad (pthen p f) (pthen p' f').
Proof.
  intros A B p p' f f' Hp Hf Hx w q. rewrite !run_pthen. destruct (Hp w q) as [E|[x [q' [E Bx]]]].
  - rewrite E. destruct (run w p q) as [r q1]. apply Hf.
  - rewrite E. right. exists x, q'. rewrite (Hx x Bx). split; [reflexivity|exact Bx].
Qed.
Lemma ref_then_same : forall A B (p : prog A) (f f' : result A -> prog B), (forall r, ref bad (f r) (f' r)) -> ref bad (pthen p f) (pthen p f').
Proof. intros A B p f f' Hf w q. rewrite !run_pthen. destruct (run w p q) as [r q1]. apply Hf. Qed.
Lemma ref_pmapM2 : forall A A' B (f : A -> prog B) (f' : A' -> prog B) l l', Forall2 (fun a a' => ref bad (f a) (f' a')) l l' -> ref bad (pmapM f l) (pmapM f' l').
Proof.
  intros A A' B f f' l l' H. induction H as [|a a' l l' Ha H IH]; [apply ref_refl|]. cbn [pmapM]. apply ref_bind; [exact Ha|]. intro b. apply ref_bind; [exact IH|]. intro bs. apply ref_refl.
Qed.
Lemma ref_pmapM : forall A B (f f' : A -> prog B) l, (forall a, In a l -> ref bad (f a) (f' a)) -> ref bad (pmapM f l) (pmapM f' l).
Proof.
  intros A B f f' l H. apply ref_pmapM2. induction l as [|a l IH]; constructor; [apply H; left; reflexivity|apply IH; intros; apply H; right; assumption].
Qed.
Lemma ref_scope : forall A a (p p' : prog A), keeps s_scopes p -> keeps s_scopes p' -> ref bad p p' -> ref bad (with_scope a p) (with_scope a p').
Proof.
  intros A a p p' K K' H w q. rewrite (run_scope_bal A a p w q K), (run_scope_bal A a p' w q K'). destruct (H w (set_scopes (s_scopes q ++ [a]) q)) as [E|[x [q' [E Bx]]]].
  - rewrite E. left. reflexivity.
  - right. rewrite E. exists x, (set_scopes (s_scopes q) q'). split; [reflexivity|exact Bx].
Qed.
Lemma ref_comp_loop : forall var cond cond' body body',
  match cond, cond' with Some c, Some c' => ref bad c c' /\ keeps s_scopes c /\ keeps s_scopes c' | None, None => True | _, _ => False end ->
  ref bad body body' -> keeps s_scopes body -> keeps s_scopes body' -> forall l, ref bad (comp_loop var cond body l) (comp_loop var cond' body' l).
Proof.
  intros var cond cond' body body' Hc Hb Kb Kb'. induction l as [|x l IH]; [apply ref_refl|]. cbn [comp_loop].
  assert (KK : forall (cond : option (prog value)) (body : prog value), match cond with Some c => keeps s_scopes c | None => True end -> keeps s_scopes body ->
    keeps s_scopes (do! b := (match cond with None => ok true | Some c => do! v := c in ok (truthy v) end) in if b then (do! v := body in ok (Some v)) else @ok (option value) None)).
  { clear. intros cond body Kc Kb. apply keeps_pbind.
    - destruct cond as [c|]; [apply keeps_pbind; [exact Kc|intro; apply keeps_ret]|apply keeps_ret].
    - intros []; [apply keeps_pbind; [exact Kb|intro; apply keeps_ret]|apply keeps_ret]. }
  apply ref_bind.
  - apply ref_scope.
    + apply KK; [destruct cond, cond'; tauto|assumption].
    + apply KK; [destruct cond, cond'; tauto|assumption].
    + apply ref_bind; [destruct cond as [c|], cond' as [c'|]; try contradiction; [apply ref_bind; [tauto|intro; apply ref_refl]|apply ref_refl]|].
      intros []; [apply ref_bind; [exact Hb|intro; apply ref_refl]|apply ref_refl].
  - intro o. apply ref_bind; [exact IH|]. intro vs. apply ref_refl.
Qed.

(** the same keys with related programs *)
Definition entries (m m' : list (value * prog value)) : Prop := Forall2 (fun e e' => fst e = fst e' /\ ref bad (snd e) (snd e')) m m'.
Lemma entries_put : forall m m' k p p', entries m m' -> ref bad p p' -> entries (dict_put m k p) (dict_put m' k p').
Proof.
  intros m m' k p p' H Hp. induction H as [|[a b] [a' b'] m m' [E Hb] H IH]; cbn.
  - constructor; [split; [reflexivity|exact Hp]|constructor].
  - cbn in E, Hb. subst a'. destruct (py_eq a k); constructor; try assumption; split; try reflexivity; assumption.
Qed.
Lemma entries_mk : forall l l', entries l l' -> entries (mk_dict l) (mk_dict l').
Proof.
  intros l l' H. unfold mk_dict. assert (Gen : forall m m', entries m m' -> entries (fold_left (fun m kv => dict_put m (fst kv) (snd kv)) l m) (fold_left (fun m kv => dict_put m (fst kv) (snd kv)) l' m')).
  { induction H as [|[a b] [a' b'] l l' [E Hb] H IH]; intros m m' Hm; [exact Hm|]. cbn in *. subst a'. apply IH. apply entries_put; assumption. }
  apply Gen. constructor.
Qed.

(** keys first, then the value programs chosen by the resulting dictionary: sound because the programs are related *)
Lemma ref_map_literal : forall A (l : list A) (kp kp' : A -> prog value) (vp vp' : A -> prog value),
  (forall a, In a l -> ref bad (kp a) (kp' a)) -> (forall a, In a l -> ref bad (vp a) (vp' a)) ->
  ref bad
    (do! ks := pmapM (fun a => do! k := kp a in do! k' := Ret (map_key k) in ok (k', vp a)) l in
     do! m := pmapM (fun e : value * prog value => do! v := snd e in ok (fst e, v)) (mk_dict ks) in ok (VMap m))
    (do! ks := pmapM (fun a => do! k := kp' a in do! k' := Ret (map_key k) in ok (k', vp' a)) l in
     do! m := pmapM (fun e : value * prog value => do! v := snd e in ok (fst e, v)) (mk_dict ks) in ok (VMap m)).
Proof.
  intros A l kp kp' vp vp' Hk Hv w q. rewrite !run_pbind.
  assert (K : forall q, (exists ks ks' q1, run w (pmapM (fun a => do! k := kp a in do! k' := Ret (map_key k) in ok (k', vp a)) l) q = (Ok ks, q1) /\
                        run w (pmapM (fun a => do! k := kp' a in do! k' := Ret (map_key k) in ok (k', vp' a)) l) q = (Ok ks', q1) /\ entries ks ks') \/
                    (exists x q1, run w (pmapM (fun a => do! k := kp a in do! k' := Ret (map_key k) in ok (k', vp a)) l) q = (Err x, q1) /\
                        (run w (pmapM (fun a => do! k := kp' a in do! k' := Ret (map_key k) in ok (k', vp' a)) l) q = (Err x, q1) \/ bad x = true))).
  { clear q. induction l as [|a l IH]; intro q.
    - left. exists [], [], q. repeat split. constructor.
    - assert (Ha := Hk a (or_introl eq_refl)). assert (Hva := Hv a (or_introl eq_refl)). cbn [pmapM]. rewrite !run_pbind. destruct (Ha w q) as [E|[x [q1 [E Bx]]]].
      + rewrite E. destruct (run w (kp a) q) as [[k|x] q1]; [|right; exists x, q1; auto]. rewrite !run_pbind. cbn [run]. destruct (map_key k) as [k'|x]; [|right; exists x, q1; auto].
        cbn [run ok]. rewrite !run_pbind. destruct (IH (fun a Ha => Hk a (or_intror Ha)) (fun a Ha => Hv a (or_intror Ha)) q1) as [[ks [ks' [q2 [R1 [R2 R3]]]]]|[x [q2 [R1 R2]]]].
        * left. rewrite R1, R2. exists ((k', vp a) :: ks), ((k', vp' a) :: ks'), q2. repeat split. constructor; [split; [reflexivity|exact Hva]|exact R3].
        * right. rewrite R1. exists x, q2. split; [reflexivity|]. destruct R2 as [R2|R2]; [left; rewrite R2; reflexivity|right; exact R2].
      + right. rewrite E. exists x, q1. auto. }
  destruct (K q) as [[ks [ks' [q1 [R1 [R2 R3]]]]]|[x [q1 [R1 R2]]]].
  - rewrite R1, R2. apply entries_mk in R3.
    assert (Z : ref bad (pmapM (fun e : value * prog value => do! v := snd e in ok (fst e, v)) (mk_dict ks)) (pmapM (fun e : value * prog value => do! v := snd e in ok (fst e, v)) (mk_dict ks'))).
    { apply ref_pmapM2. induction R3 as [|[a b] [a' b'] m m' [E Hb] H IH]; constructor; [|exact IH]. cbn in *. subst a'. apply ref_bind; [exact Hb|intro; apply ref_refl]. }
    exact (ref_bind _ _ _ _ (fun m => ok (VMap m)) (fun m => ok (VMap m)) Z (fun m => ref_refl _ _) w q1).
  - rewrite R1. destruct R2 as [R2|R2]; [left; rewrite R2; reflexivity|right; exists x, q1; split; [reflexivity|exact R2]].
Qed.
End Ref.
