(** * Theorems about default values (C88) *)
From Coq Require Import Lia String.
From Verif Require Import Base Dec Value DType DTypeFacts Types TypesFacts EqFacts CoerceFacts Ops ParseUtil Attr Prog Ast Eval Build Engine ProgFacts StateFacts Post P_Ops P_Sound P_Aware P_Names P_Construct Demo.
Open Scope list_scope.
Open Scope Z_scope.

Section Default.
Context {Orc : Oracle} (C : ctx) (dv : value) (thing : value).
(** ** Specification *)
(** the answer of a resolver that gives d for what is unknown *)
Definition fill (r : result value) : result value := match r with Err (XSymRes _ _) => Ok dv | _ => r end.
Definition filled (ev : event) : event := match ev with EvResolve t n r => EvResolve t n (fill r) | _ => ev end.
(** w' differs from w only in giving d for unknown names *)
Definition fills (w w' : world) : Prop := forall l,
  (forall t n, w_resolve w' (map filled l) t n = fill (w_resolve w l t n)) /\ (forall f a, w_user w' (map filled l) f a = w_user w l f a) /\
  (forall tz, w_now w' (map filled l) tz = w_now w l tz) /\ (forall b, w_random w' (map filled l) b = w_random w l b).
(** the builtin symbols in use exist and are not made by generators of the user *)
Definition known_of (z : expr) : Prop := match z with ESym n true _ => exists b, assoc n (c_bvals C) = Some b /\ match b with BVgen _ => False | _ => True end | _ => True end.
Definition known (e : expr) : Prop := forall z, part z e -> known_of z.
Notation DD := (with_default C (Some dv)).
Notation NN := (with_default C None).

(** ** Simulation *)
Definition related (q q' : st) : Prop :=
  s_scopes q' = s_scopes q /\ s_groups q' = s_groups q /\ s_dc q' = s_dc q /\ s_syms q' = s_syms q /\ s_log q' = map filled (s_log q).
Section W.
Context (w w' : world).
Definition alk {A} (p p' : prog A) : Prop := forall q q', related q q' -> fst (run w p q) = fst (run w' p' q') /\ related (snd (run w p q)) (snd (run w' p' q')).
Lemma alk_ret : forall A (r : result A), alk (Ret r) (Ret r).
Proof. intros A r q q' S. split; [reflexivity|exact S]. Qed.
Lemma alk_then : forall A B (p p' : prog A) (f f' : result A -> prog B), alk p p' -> (forall r, alk (f r) (f' r)) -> alk (pthen p f) (pthen p' f').
Proof.
  intros A B p p' f f' H K q q' S. rewrite !run_pthen. destruct (H q q' S) as [E T]. destruct (run w p q) as [r q1], (run w' p' q') as [r' q1']. cbn [fst snd] in *. subst r'. apply K. exact T.
Qed.
Lemma alk_bind : forall A B (p p' : prog A) (f f' : A -> prog B), alk p p' -> (forall r, alk (f r) (f' r)) -> alk (pbind p f) (pbind p' f').
Proof. intros. apply alk_then; [assumption|]. intros [a|e]; [auto|apply alk_ret]. Qed.
Lemma alk_check : forall A T (r : result T) (p p' : prog A), alk p p' -> alk (do! _ := Ret r in p) (do! _ := Ret r in p').
Proof. intros. apply alk_bind; [apply alk_ret|]. intro. assumption. Qed.
(** related programs whose outcomes are related *)
Definition rel {A B} (R : A -> B -> Prop) (p : prog A) (p' : prog B) : Prop := forall q q', related q q' ->
  match run w p q, run w' p' q' with
  | (Ok a, q1), (Ok a', q1') => R a a' /\ related q1 q1'
  | (Err e, q1), (Err e', q1') => e = e' /\ related q1 q1'
  | _, _ => False
  end.
Lemma rel_bind : forall A A' B (R : A -> A' -> Prop) p p' (f : A -> prog B) f', rel R p p' -> (forall a a', R a a' -> alk (f a) (f' a')) -> alk (pbind p f) (pbind p' f').
Proof.
  intros A A' B R p p' f f' H K q q' S. rewrite !run_pbind. specialize (H q q' S). destruct (run w p q) as [[a|e] q1], (run w' p' q') as [[a'|e'] q1']; try contradiction; cbn.
  - destruct H as [Ha T]. apply (K a a' Ha q1 q1' T).
  - destruct H as [-> T]. auto.
Qed.
Lemma rel_same : forall A B B' (R : B -> B' -> Prop) (p p' : prog A) f f', alk p p' -> (forall a, rel R (f a) (f' a)) -> rel R (pbind p f) (pbind p' f').
Proof.
  intros A B B' R p p' f f' H K q q' S. rewrite !run_pbind. destruct (H q q' S) as [E T]. destruct (run w p q) as [r q1], (run w' p' q') as [r' q1']. cbn [fst snd] in *. subst r'. destruct r as [a|x]; [apply K; exact T|auto].
Qed.
Lemma rel_ret : forall A B (R : A -> B -> Prop) a a', R a a' -> rel R (ok a) (ok a').
Proof. intros A B R a a' H q q' S. cbn. auto. Qed.
Lemma rel_pmapM : forall A A' B B' (R : B -> B' -> Prop) (f : A -> prog B) (f' : A' -> prog B') (g : A -> A') l, (forall a, In a l -> rel R (f a) (f' (g a))) -> rel (Forall2 R) (pmapM f l) (pmapM f' (map g l)).
Proof.
  intros A A' B B' R f f' g l. induction l as [|a l IH]; intro H; [apply rel_ret; constructor|]. cbn [map pmapM]. intros q q' S. rewrite !run_pbind. assert (K := H a (or_introl eq_refl) q q' S).
  destruct (run w (f a) q) as [[b|e] q1], (run w' (f' (g a)) q') as [[b'|e'] q1']; try contradiction; [|exact K]. destruct K as [K T]. rewrite !run_pbind. assert (J := IH (fun z Z => H z (or_intror Z)) q1 q1' T).
  destruct (run w (pmapM f l) q1) as [[bs|e] q2], (run w' (pmapM f' (map g l)) q1') as [[bs'|e'] q2']; try contradiction; [|exact J]. destruct J as [J V]. cbn. auto.
Qed.
Lemma alk_map : forall A A' B (f : A -> prog B) (f' : A' -> prog B) (g : A -> A') l, (forall a, In a l -> alk (f a) (f' (g a))) -> alk (pmapM f l) (pmapM f' (map g l)).
Proof.
  intros A A' B f f' g l. induction l as [|a l IH]; intro H; [apply alk_ret|]. cbn [map pmapM]. apply alk_bind; [apply H; left; reflexivity|]. intro. apply alk_bind; [apply IH; intros; apply H; right; assumption|]. intro. apply alk_ret.
Qed.
Context (U : fills w w').
Lemma alk_step : forall o, match o with OPush _ | OPop | OReset | OResolve _ _ => False | _ => True end -> forall A (k k' : ans o -> prog A), (forall a, alk (k a) (k' a)) -> alk (Step o k) (Step o k').
Proof.
  intros o H A k k' K q q' S. cbn [run]. destruct S as [S1 [S3 [S4 [S5 S6]]]]. destruct (U (s_log q)) as [U1 [U2 [U3 U4]]].
  destruct o; try contradiction; cbn [step_op]; rewrite ?S1, ?S3, ?S4, ?S5, ?S6, ?U2, ?U3, ?U4; apply K; unfold related; cbn [s_scopes s_groups s_dc s_syms s_log log set_groups set_dc add_sym map filled]; repeat split; congruence.
Qed.
Lemma alk_act : forall o, match o with OPush _ | OPop | OReset | OResolve _ _ => False | _ => True end -> alk (act o) (act o).
Proof. intros o H. apply alk_step; [exact H|]. intro. apply alk_ret. Qed.
Lemma quiet_alk : forall A (p : prog A), quiet p -> alk p p.
Proof. intros A p H. induction H as [r|o k Ho _ IH]; [apply alk_ret|]. apply alk_step; [destruct o; try exact I; contradiction|exact IH]. Qed.
Lemma alk_builtin : forall t n, known_of (ESym n true TUndef) -> alk (resolve DD t n true) (resolve NN t n true).
Proof.
  intros t n [b [E G]]. unfold resolve. cbn [c_bvals c_btz with_default]. rewrite E. destruct b; [apply alk_ret| | | |destruct G].
  - apply alk_bind; [apply alk_act; exact I|]. intro. apply alk_bind; [apply alk_act; exact I|]. intro. apply alk_ret.
  - apply alk_bind; [apply alk_act; exact I|]. intro. apply alk_bind; [apply alk_act; exact I|]. intro. apply alk_ret.
  - exact (alk_act OGetG I).
Qed.
(** what is not known is d, sooner or later *)
Lemma alk_resolve : forall t n A (f f' : result value -> prog A), (forall r, alk (f r) (f' (fill r))) -> alk (pthen (resolve DD t n false) f) (pthen (resolve NN t n false) f').
Proof.
  intros t n A f f' H q q' S. unfold resolve. rewrite !run_pthen, !run_pbind, !run_act. cbn [step_op]. destruct S as [S1 [S3 [S4 [S5 S6]]]]. rewrite S1. destruct (find_scope (s_scopes q) n) as [a|].
  - cbn [run ok]. apply (H (Ok (a_val a))). unfold related. auto.
  - cbn [actr run step_op]. rewrite S6. destruct (U (s_log q)) as [U1 _]. rewrite U1. apply H. unfold related. cbn [s_scopes s_groups s_dc s_syms s_log log map filled]. rewrite S6. auto 10.
Qed.
Lemma builtin_known : forall w t n q r q1, known_of (ESym n true TUndef) -> run w (resolve DD t n true) q = (r, q1) -> match r with Err _ => False | _ => True end.
Proof.
  intros w0 t n q r q1 [b [E G]] R. unfold resolve in R. cbn [c_bvals c_btz with_default] in R. rewrite E in R. destruct b; cbn in R; try (inversion R; exact I). destruct G.
Qed.
Lemma alk_scope : forall A a (p p' : prog A), keeps s_scopes p -> keeps s_scopes p' -> alk p p' -> alk (with_scope a p) (with_scope a p').
Proof.
  intros A a p p' K K' H q q' S. rewrite !run_with_scope. destruct S as [S1 S].
  assert (S' : related (set_scopes (s_scopes q ++ [a]) q) (set_scopes (s_scopes q' ++ [a]) q')) by (unfold related; cbn; rewrite S1; split; [reflexivity|exact S]).
  assert (Z := K w (set_scopes (s_scopes q ++ [a]) q)). assert (Z' := K' w' (set_scopes (s_scopes q' ++ [a]) q')). destruct (H _ _ S') as [E T].
  assert (X : forall l (z : asg), exists u v, l ++ [z] = u :: v) by (intros [|u l] z; cbn; eauto).
  destruct (X (s_scopes q) a) as [u [v M]], (X (s_scopes q') a) as [u' [v' M']].
  destruct (run w p _) as [r q1], (run w' p' _) as [r' q1']; cbn [fst snd set_scopes s_scopes] in *. rewrite Z, Z', M, M', <- M, <- M', !removelast_last. cbn [fst snd]. split; [exact E|].
  destruct T as [_ T]. unfold related. cbn. auto.
Qed.
Lemma alk_comp_loop : forall var c c' p p', match c, c' with Some c, Some c' => keeps s_scopes c /\ keeps s_scopes c' /\ alk c c' | None, None => True | _, _ => False end ->
  keeps s_scopes p -> keeps s_scopes p' -> alk p p' -> forall l, alk (comp_loop var c p l) (comp_loop var c' p' l).
Proof.
  intros var c c' p p' Hc Kb Kb' Hb. induction l as [|z l IH]; [apply alk_ret|]. cbn [comp_loop]. apply alk_bind.
  - apply alk_scope.
    + apply keeps_pbind; [destruct c as [c|]; [apply keeps_pbind; [destruct c'; [apply Hc|destruct Hc]|]; intro; apply keeps_ret|apply keeps_ret]|]. intros []; [apply keeps_pbind; [exact Kb|]; intro; apply keeps_ret|apply keeps_ret].
    + apply keeps_pbind; [destruct c' as [c'|]; [apply keeps_pbind; [destruct c; [apply Hc|destruct Hc]|]; intro; apply keeps_ret|apply keeps_ret]|]. intros []; [apply keeps_pbind; [exact Kb'|]; intro; apply keeps_ret|apply keeps_ret].
    + apply alk_bind; [destruct c, c'; try (exact (False_ind _ Hc)); [apply alk_bind; [apply Hc|intro; apply alk_ret]|apply alk_ret]|]. intros []; [apply alk_bind; [exact Hb|intro; apply alk_ret]|apply alk_ret].
  - intro o. apply alk_bind; [exact IH|]. intro. apply alk_ret.
Qed.
Definition rentries : list (value * prog value) -> list (value * prog value) -> Prop := Forall2 (fun e e' => fst e = fst e' /\ alk (snd e) (snd e')).
Lemma rentries_put : forall m m' k p p', rentries m m' -> alk p p' -> rentries (dict_put m k p) (dict_put m' k p').
Proof.
  intros m m' k p p' H Hp. induction H as [|[a u] [a' u'] m m' [E Hb] H IH]; cbn.
  - constructor; [split; [reflexivity|exact Hp]|constructor].
  - cbn in E, Hb. subst a'. destruct (py_eq a k); constructor; try assumption; split; try reflexivity; assumption.
Qed.
Lemma rentries_mk : forall l l', rentries l l' -> rentries (mk_dict l) (mk_dict l').
Proof.
  intros l l' H. unfold mk_dict. assert (Gen : forall m m', rentries m m' -> rentries (fold_left (fun m kv => dict_put m (fst kv) (snd kv)) l m) (fold_left (fun m kv => dict_put m (fst kv) (snd kv)) l' m')).
  { induction H as [|[a u] [a' u'] l l' [E Hb] H IH]; intros m m' Hm; [exact Hm|]. cbn in *. subst a'. apply IH. apply rentries_put; assumption. }
  apply Gen. constructor.
Qed.
Lemma alk_fuzzy : forall sr ng pre u v, alk (fuzzy_match DD sr ng pre u v) (fuzzy_match NN sr ng pre u v).
Proof.
  intros sr ng pre u v. unfold fuzzy_match. destruct u; try apply alk_ret; destruct v; try apply alk_ret.
  - apply alk_check. apply alk_ret.
  - apply alk_check. cbn [c_flags with_default]. match goal with |- context [o_re ?a ?b ?c ?d] => destruct (o_re a b c d) as [gs|] end; [|apply alk_ret]. apply alk_bind; [apply alk_act; exact I|intro; apply alk_ret].
Qed.
Lemma alk_each : forall A B (f : A -> prog B) (f' : A -> prog B) l, (forall a, In a l -> alk (f a) (f' a)) -> alk (pmapM f l) (pmapM f' l).
Proof. intros A B f f' l H. rewrite <- (map_id l) at 2. apply alk_map. exact H. Qed.
Lemma rel_each : forall A B B' (R : B -> B' -> Prop) (f : A -> prog B) (f' : A -> prog B') l, (forall a, In a l -> rel R (f a) (f' a)) -> rel (Forall2 R) (pmapM f l) (pmapM f' l).
Proof. intros A B B' R f f' l H. rewrite <- (map_id l) at 2. apply rel_pmapM. exact H. Qed.
Theorem eval_default : forall e, known e -> alk (eval DD thing e) (eval NN thing e).
Proof.
  assert (Ke : forall e, keeps s_scopes (eval DD thing e)) by (intros e w0 q; apply eval_scopes). assert (Ke' : forall e, keeps s_scopes (eval NN thing e)) by (intros e w0 q; apply eval_scopes).
  assert (Sub : forall z e, part z e -> known e -> known z) by (intros z e P F u Pu; apply F; eapply part_trans; eassumption).
  induction e as [v|v t|l IH|l IH|l IH|o a c IHa IHb|r v i c IHr IHi IHc|c m IHc IHm|o n sf IHo|c i sf IHc IHi|c a d sf IHc IHa IHb|n bi t|f l IHf IHl|c a d IHc IHa IHb|o e IHe] using expr_ind'; intros F; try apply alk_ret.
  - rewrite Forall_forall in IH. cbn [eval]. apply alk_bind; [|intro; apply alk_ret]. apply alk_each. intros e He. apply IH; [exact He|]. eapply Sub; [|exact F]. eapply Pa_arr; [exact He|constructor].
  - rewrite Forall_forall in IH. cbn [eval]. apply alk_bind; [|intro; apply alk_ret]. apply alk_each. intros e He. apply alk_bind; [apply IH; [exact He|]; eapply Sub; [|exact F]; eapply Pa_set; [exact He|constructor]|]. intro v. destruct (hashable v); apply alk_ret.
  - rewrite Forall_forall in IH. cbn [eval]. apply (rel_bind _ _ _ rentries).
    + apply (rel_each _ _ _ (fun a a' => fst a = fst a' /\ alk (snd a) (snd a'))). intros [k v] Hn. destruct (IH _ Hn) as [I1 I2]. cbn [fst snd] in *.
      apply rel_same; [apply I1; eapply Sub; [|exact F]; eapply Pa_key; [exact Hn|constructor]|]. intro u. apply rel_same; [apply alk_ret|]. intro u'. apply rel_ret. split; [reflexivity|]. apply I2. eapply Sub; [|exact F]. eapply Pa_val; [exact Hn|constructor].
    + intros ks ks' E. apply alk_bind; [|intro; apply alk_ret]. apply rentries_mk in E. clear - E. induction E as [|[a p] [a' p'] l l' [E1 E2] E IH]; [apply alk_ret|]. cbn [fst snd] in *. subst a'. cbn [pmapM fst snd].
      apply alk_bind; [apply alk_bind; [exact E2|]; intro; apply alk_ret|]. intro. apply alk_bind; [exact IH|]. intro. apply alk_ret.
  - assert (Ha : alk (eval DD thing a) (eval NN thing a)) by (apply IHa; eapply Sub; [|exact F]; apply Pa_left; constructor). assert (Hb : alk (eval DD thing c) (eval NN thing c)) by (apply IHb; eapply Sub; [|exact F]; apply Pa_right; constructor).
    destruct o; cbn [eval]; (apply alk_bind; [exact Ha|]; intro u).
    + apply alk_bind; [exact Hb|]. intro. apply alk_bind; [apply alk_act; exact I|intro; apply alk_ret].
    + apply alk_bind; [exact Hb|]. intro. apply alk_bind; [apply alk_act; exact I|intro; apply alk_ret].
    + destruct (is_numeric u); [|apply alk_ret]. apply alk_bind; [exact Hb|]. intro v. destruct (is_numeric v); [|apply alk_ret]. apply alk_bind; [apply alk_act; exact I|intro; apply alk_ret].
    + apply alk_bind; [apply alk_ret|]. intro. destruct (dt_eqb _ _); [apply alk_check; apply alk_bind; [exact Hb|]; intro; apply alk_ret|].
      destruct (is_set_t _); [|apply alk_ret]. apply alk_bind; [exact Hb|]. intro. apply alk_ret.
    + destruct (truthy u); [|apply alk_ret]. apply alk_bind; [exact Hb|]. intro. apply alk_ret.
    + destruct (truthy u); [apply alk_ret|]. apply alk_bind; [exact Hb|]. intro. apply alk_ret.
    + apply alk_bind; [exact Hb|]. intro. apply alk_ret.
    + apply alk_bind; [exact Hb|]. intro. apply alk_ret.
    + apply alk_bind; [exact Hb|]. intro. apply alk_ret.
    + destruct u; try apply alk_ret; (apply alk_bind; [exact Hb|]; intro; apply alk_fuzzy).
  - cbn [eval]. apply alk_bind; [apply IHi; eapply Sub; [|exact F]; apply Pa_cit; constructor|]. intro u. apply alk_bind; [apply alk_ret|]. intro t. destruct (is_iterable t); [|apply alk_ret].
    apply alk_bind; [|intro; apply alk_ret]. apply alk_comp_loop; [|apply Ke|apply Ke'|apply IHr; eapply Sub; [|exact F]; apply Pa_cres; constructor].
    destruct c as [c|]; [|exact I]. split; [apply Ke|]. split; [apply Ke'|]. apply IHc. eapply Sub; [|exact F]. apply Pa_ccond; constructor.
  - cbn [eval]. apply alk_bind; [apply IHc; eapply Sub; [|exact F]; apply Pa_inc; constructor|]. intro u. apply alk_check. apply alk_bind; [apply IHm; eapply Sub; [|exact F]; apply Pa_inm; constructor|]. intro. apply alk_ret.
  - cbn [eval]. apply alk_bind; [apply IHo; eapply Sub; [|exact F]; apply Pa_attr; constructor|]. intro v. destruct (is_null v && sf); [apply alk_ret|]. destruct (resolve_attr v n) as [r|[]]; try apply alk_ret.
    apply alk_resolve. intros [z|[]]; apply alk_ret.
  - cbn [eval]. apply alk_bind; [apply IHc; eapply Sub; [|exact F]; apply Pa_itc; constructor|]. intro u. destruct (is_null u); [destruct sf; apply alk_ret|]. apply alk_bind; [apply IHi; eapply Sub; [|exact F]; apply Pa_iti; constructor|]. intro k. apply alk_bind; [apply alk_ret|]. intro. destruct (py_getitem _ _) as [v|[]]; try apply alk_ret. destruct sf; apply alk_ret.
  - cbn [eval]. apply alk_bind; [apply IHc; eapply Sub; [|exact F]; apply Pa_slc; constructor|]. intro u. destruct (is_null u); [destruct sf; apply alk_ret|]. apply alk_bind; [apply IHa; eapply Sub; [|exact F]; apply Pa_sla; constructor|]. intro.
    apply alk_bind; [apply alk_ret|]. intro. apply alk_bind; [apply IHb; eapply Sub; [|exact F]; apply Pa_slb; constructor|]. intro. apply alk_bind; [apply alk_ret|]. intro. apply alk_bind; [apply alk_ret|]. intro. apply alk_ret.
  - destruct bi; cbn [eval].
    + assert (A := F _ (Pa_self _)). intros q q' S. rewrite !run_pthen. destruct (alk_builtin thing n A q q' S) as [E T]. destruct (run w (resolve DD thing n true) q) as [r0 q1] eqn:R, (run w' (resolve NN thing n true) q') as [r0' q1']. cbn [fst snd] in *. subst r0'.
      apply builtin_known in R; [|exact A]. destruct r0 as [z|]; [|destruct R]. apply (alk_bind _ _ (ok z) (ok z)); [apply alk_ret| |exact T]. intro. apply alk_bind; [apply alk_ret|]. intro. apply alk_ret.
    + apply alk_resolve. intro r0. apply alk_bind; [destruct r0 as [z|[]]; apply alk_ret|]. intro. apply alk_bind; [apply alk_ret|]. intro. apply alk_ret.
  - rewrite Forall_forall in IHl. cbn [eval]. apply alk_bind; [apply IHf; eapply Sub; [|exact F]; apply Pa_callf; constructor|]. intro fv. destruct (callable fv); [|apply alk_ret].
    apply alk_bind; [apply alk_each; intros e He; apply IHl; [exact He|]; eapply Sub; [|exact F]; eapply Pa_callx; [exact He|constructor]|]. intro vs. apply alk_check.
    apply alk_bind; [apply alk_then; [exact (quiet_alk _ (apply_fun DD fv vs) (apply_quiet DD fv vs))|]; intros [z|z]; apply alk_ret|]. intro r0. apply alk_bind; [apply alk_ret|]. intro v. apply alk_bind; [apply alk_ret|]. intro t. cbn [rtype]. destruct (is_compat t _); apply alk_ret.
  - cbn [eval]. apply alk_bind; [apply IHc; eapply Sub; [|exact F]; apply Pa_tc; constructor|]. intro u. destruct (truthy u); [apply IHa; eapply Sub; [|exact F]; apply Pa_ta; constructor|apply IHb; eapply Sub; [|exact F]; apply Pa_tb; constructor].
  - assert (He : alk (eval DD thing e) (eval NN thing e)) by (apply IHe; eapply Sub; [|exact F]; apply Pa_un; constructor). destruct o; cbn [eval]; (apply alk_bind; [exact He|]; intro u); [apply alk_ret|]. apply alk_bind; [apply alk_act; exact I|intro; apply alk_ret].
Qed.
End W.
End Default.


(** ** A default value acts as a resolver that never fails

    With a default_value every rule gives, on every thing, what the rule gives without one when the resolver answers with the default for all
    names that are unknown: same outcome, same state, same calls. *)
Theorem C88_default_resolver : forall (Orc : Oracle) (C : ctx) d thing e w w' q q',
  fills d w w' -> known C e -> s_log q' = map (filled d) (s_log q) -> s_syms q' = s_syms q -> s_dc q' = s_dc q ->
  let '(r, q1) := run w (rule_evaluate (with_default C (Some d)) e thing) q in let '(r', q1') := run w' (rule_evaluate (with_default C None) e thing) q' in
  r' = r /\ s_scopes q1' = s_scopes q1 /\ s_groups q1' = s_groups q1 /\ s_dc q1' = s_dc q1 /\ s_syms q1' = s_syms q1 /\ s_log q1' = map (filled d) (s_log q1).
Proof.
  intros Orc C d thing e w w' q q' U F L Y Dc. rewrite !run_rule_evaluate. cbn [c_dec with_default]. set (q5 := set_dc (c_dec C) (set_groups VNull (set_scopes [] q))). set (q5' := set_dc (c_dec C) (set_groups VNull (set_scopes [] q'))).
  assert (S : related d q5 q5') by (unfold related; cbn; auto).
  destruct (eval_default C d thing w w' U e F q5 q5' S) as [E T]. destruct (run w (eval _ thing e) q5) as [r q1], (run w' (eval _ thing e) q5') as [r' q1']. cbn [fst snd] in *. destruct T as [T1 [T3 [T4 [T5 T6]]]]. unfold set_dc. cbn [s_scopes s_groups s_dc s_syms s_log]. auto 10.
Qed.
(** such a resolver exists for every resolver that does not look at the past *)
Definition with_answers (d : value) (w : world) : world := {| w_resolve := fun l t n => fill d (w_resolve w l t n); w_user := w_user w; w_now := w_now w; w_random := w_random w |}.
Definition stateless (w : world) : Prop := forall l l', (forall t n, w_resolve w l t n = w_resolve w l' t n) /\ (forall f a, w_user w l f a = w_user w l' f a) /\ (forall tz, w_now w l tz = w_now w l' tz) /\ (forall b, w_random w l b = w_random w l' b).
Theorem C88_stateless : forall d w, stateless w -> fills d w (with_answers d w).
Proof.
  intros d w H l. destruct (H (map (filled d) l) l) as [H1 [H2 [H3 H4]]]. cbn. repeat split; auto. intros t n. rewrite H1. reflexivity.
Qed.

(** ** Instances *)
Local Open Scope string_scope.
Local Open Scope list_scope.
Definition some_unknown : expr := EArr [sym "missing"; sym "n"; EAttr (sym "name") (s "missing") false; ETern (sym "absent") (EComp (EBin BAdd (sym "v") (sym "other")) (s "v") (EArr [sym "n"; sym "n"]) None) (sym "n")].
Example C88_example :
  let w := demo_world in let w' := with_answers (VInt 7) demo_world in
  fills (VInt 7) w w' /\ known untyped_ctx some_unknown /\
  fst (run w (rule_evaluate (with_default untyped_ctx (Some (VInt 7))) some_unknown demo_thing) demo_st) = Ok (VArr [num 7; num 3; num 7; VArr [num 10; num 10]]) /\
  fst (run w' (rule_evaluate (with_default untyped_ctx None) some_unknown demo_thing) demo_st) = Ok (VArr [num 7; num 3; num 7; VArr [num 10; num 10]]) /\
  exists x, fst (run w (rule_evaluate (with_default untyped_ctx None) some_unknown demo_thing) demo_st) = Err x.
Proof.
  cbv zeta. split; [apply C88_stateless; intros l l'; repeat split; reflexivity|]. split.
  { intros z P. unfold some_unknown, sym in P.
    repeat match goal with H : In _ [] |- _ => destruct H | H : In _ (_ :: _) |- _ => destruct H as [<-|H] | H : part _ _ |- _ => inversion H; subst; clear H end; exact I. }
  split; [vm_compute; reflexivity|]. split; [vm_compute; reflexivity|]. eexists. vm_compute. reflexivity.
Qed.
(** builtin symbols are not asked of the resolver: an unknown one is the default, which no resolver can give *)
Theorem C88_builtin_refuted :
  let e := ESym (s "missing") true TUndef in let w := demo_world in let w' := with_answers (VInt 7) demo_world in
  fst (run w (rule_evaluate (with_default untyped_ctx (Some (VInt 7))) e demo_thing) demo_st) = Ok (num 7) /\
  exists x, fst (run w' (rule_evaluate (with_default untyped_ctx None) e demo_thing) demo_st) = Err x.
Proof. cbv zeta. split; [vm_compute; reflexivity|]. eexists. vm_compute. reflexivity. Qed.
Print Assumptions C88_default_resolver.
Print Assumptions C88_stateless.
