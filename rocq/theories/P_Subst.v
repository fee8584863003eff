(** * Theorems about replacing names by their values (C87) *)
From Coq Require Import Lia String.
From Verif Require Import Base Dec Value DType DTypeFacts Types TypesFacts EqFacts CoerceFacts Ops ParseUtil Attr Prog Ast Eval Build Engine ProgFacts StateFacts Post P_Ops P_Sound P_Aware P_Construct Demo.
Open Scope list_scope.
Open Scope Z_scope.

Section Subst.
Context {Orc : Oracle} (C : ctx) (thing : value) (sg : str -> option value).
(** ** Specification *)
(** the expression with names replaced by literals of the values they are given *)
Fixpoint sub (e : expr) : expr :=
  match e with
  | ESym n false t => match sg n with Some v => ELit v | None => e end
  | ELit _ | EFun _ _ | ESym _ _ _ => e
  | EArr l => EArr (map sub l)
  | ESet l => ESet (map sub l)
  | EMap l => EMap (map (fun kv => (sub (fst kv), sub (snd kv))) l)
  | EBin o a b => EBin o (sub a) (sub b)
  | EComp r v i c => EComp (sub r) v (sub i) (match c with Some z => Some (sub z) | None => None end)
  | EIn c m => EIn (sub c) (sub m)
  | EAttr o n sf => EAttr (sub o) n sf
  | EItem c i sf => EItem (sub c) (sub i) sf
  | ESlice c a b sf => ESlice (sub c) (sub a) (sub b) sf
  | ECall f l => ECall (sub f) (map sub l)
  | ETern c a b => ETern (sub c) (sub a) (sub b)
  | EUn o z => EUn o (sub z)
  end.
(** the resolver has these values for these names of the thing (as the engine represents them) *)
Definition has_values (w : world) : Prop := forall l n v, sg n = Some v -> exists u, w_resolve w l thing n = Ok u /\ new_value (c_tz C) false u = Ok v.
(** the calls made, but for those that ask for the replaced names *)
Definition other (ev : event) : bool := match ev with EvResolve _ n _ => match sg n with Some _ => false | None => true end | _ => true end.
Definition others (l : list event) : list event := filter other l.
(** nobody outside notices whether the replaced names are asked for *)
Definition unnoticed (w : world) : Prop := forall l l', others l = others l' ->
  (forall t n, w_resolve w l t n = w_resolve w l' t n) /\ (forall f a, w_user w l f a = w_user w l' f a) /\ (forall tz, w_now w l tz = w_now w l' tz) /\ (forall b, w_random w l b = w_random w l' b).
(** the values have the declared types; a pattern is a valid one; the names are no comprehension variables; known types of called functions stay *)
Definition fine_of (z : expr) : Prop :=
  match z with
  | ESym n false t => match sg n with Some v => sym_check n t v = Ok v | None => True end
  | EComp _ v _ _ => sg v = None
  | EBin (BFuzzy _ _) _ (ESym n false _) => match sg n with Some (VStr p) => o_re_ok (c_flags C) p = true | _ => True end
  | ECall g _ => rtype (sub g) = rtype g
  | _ => True
  end.
Definition fine (e : expr) : Prop := forall z, part z e -> fine_of z.

(** ** Simulation *)
Definition related (q q' : st) : Prop :=
  s_scopes q = s_scopes q' /\ (forall a, In a (s_scopes q) -> sg (a_name a) = None) /\ s_groups q = s_groups q' /\ s_dc q = s_dc q' /\ s_syms q = s_syms q' /\ others (s_log q) = others (s_log q').
Section W.
Context (w : world).
Definition alk {A} (p p' : prog A) : Prop := forall q q', related q q' -> fst (run w p q) = fst (run w p' q') /\ related (snd (run w p q)) (snd (run w p' q')).
Lemma alk_ret : forall A (r : result A), alk (Ret r) (Ret r).
Proof. intros A r q q' S. split; [reflexivity|exact S]. Qed.
Lemma alk_then : forall A B (p p' : prog A) (f f' : result A -> prog B), alk p p' -> (forall r, alk (f r) (f' r)) -> alk (pthen p f) (pthen p' f').
Proof.
  intros A B p p' f f' H K q q' S. rewrite !run_pthen. destruct (H q q' S) as [E T]. destruct (run w p q) as [r q1], (run w p' q') as [r' q1']. cbn [fst snd] in *. subst r'. apply K. exact T.
Qed.
Lemma alk_bind : forall A B (p p' : prog A) (f f' : A -> prog B), alk p p' -> (forall r, alk (f r) (f' r)) -> alk (pbind p f) (pbind p' f').
Proof. intros. apply alk_then; [assumption|]. intros [a|e]; [auto|apply alk_ret]. Qed.
Lemma alk_check : forall A T (r : result T) (p p' : prog A), alk p p' -> alk (do! _ := Ret r in p) (do! _ := Ret r in p').
Proof. intros. apply alk_bind; [apply alk_ret|]. intro. assumption. Qed.
(** related programs whose outcomes are related *)
Definition rel {A B} (R : A -> B -> Prop) (p : prog A) (p' : prog B) : Prop := forall q q', related q q' ->
  match run w p q, run w p' q' with
  | (Ok a, q1), (Ok a', q1') => R a a' /\ related q1 q1'
  | (Err e, q1), (Err e', q1') => e = e' /\ related q1 q1'
  | _, _ => False
  end.
Lemma rel_bind : forall A A' B (R : A -> A' -> Prop) p p' (f : A -> prog B) f', rel R p p' -> (forall a a', R a a' -> alk (f a) (f' a')) -> alk (pbind p f) (pbind p' f').
Proof.
  intros A A' B R p p' f f' H K q q' S. rewrite !run_pbind. specialize (H q q' S). destruct (run w p q) as [[a|e] q1], (run w p' q') as [[a'|e'] q1']; try contradiction; cbn.
  - destruct H as [Ha T]. apply (K a a' Ha q1 q1' T).
  - destruct H as [-> T]. auto.
Qed.
Lemma rel_same : forall A B B' (R : B -> B' -> Prop) (p p' : prog A) f f', alk p p' -> (forall a, rel R (f a) (f' a)) -> rel R (pbind p f) (pbind p' f').
Proof.
  intros A B B' R p p' f f' H K q q' S. rewrite !run_pbind. destruct (H q q' S) as [E T]. destruct (run w p q) as [r q1], (run w p' q') as [r' q1']. cbn [fst snd] in *. subst r'. destruct r as [a|x]; [apply K; exact T|auto].
Qed.
Lemma rel_ret : forall A B (R : A -> B -> Prop) a a', R a a' -> rel R (ok a) (ok a').
Proof. intros A B R a a' H q q' S. cbn. auto. Qed.
Lemma rel_pmapM : forall A A' B B' (R : B -> B' -> Prop) (f : A -> prog B) (f' : A' -> prog B') (g : A -> A') l, (forall a, In a l -> rel R (f a) (f' (g a))) -> rel (Forall2 R) (pmapM f l) (pmapM f' (map g l)).
Proof.
  intros A A' B B' R f f' g l. induction l as [|a l IH]; intro H; [apply rel_ret; constructor|]. cbn [map pmapM]. intros q q' S. rewrite !run_pbind. assert (K := H a (or_introl eq_refl) q q' S).
  destruct (run w (f a) q) as [[b|e] q1], (run w (f' (g a)) q') as [[b'|e'] q1']; try contradiction; [|exact K]. destruct K as [K T]. rewrite !run_pbind. assert (J := IH (fun z Z => H z (or_intror Z)) q1 q1' T).
  destruct (run w (pmapM f l) q1) as [[bs|e] q2], (run w (pmapM f' (map g l)) q1') as [[bs'|e'] q2']; try contradiction; [|exact J]. destruct J as [J V]. cbn. auto.
Qed.
Lemma alk_map : forall A A' B (f : A -> prog B) (f' : A' -> prog B) (g : A -> A') l, (forall a, In a l -> alk (f a) (f' (g a))) -> alk (pmapM f l) (pmapM f' (map g l)).
Proof.
  intros A A' B f f' g l. induction l as [|a l IH]; intro H; [apply alk_ret|]. cbn [map pmapM]. apply alk_bind; [apply H; left; reflexivity|]. intro. apply alk_bind; [apply IH; intros; apply H; right; assumption|]. intro. apply alk_ret.
Qed.
Context (U : unnoticed w) (V : has_values w).
Lemma others_cons : forall ev l l', others l = others l' -> others (ev :: l) = others (ev :: l').
Proof. intros ev l l' E. unfold others in *. cbn. destruct (other ev); congruence. Qed.
Lemma alk_step : forall o, match o with OPush _ | OPop | OReset => False | _ => True end -> forall A (k : ans o -> prog A), (forall a, alk (k a) (k a)) -> alk (Step o k) (Step o k).
Proof.
  intros o H A k K q q' S. cbn [run]. destruct S as [S1 [S2 [S3 [S4 [S5 S6]]]]]. destruct (U _ _ S6) as [U1 [U2 [U3 U4]]].
  destruct o; try contradiction; cbn [step_op]; rewrite <- ?S1, <- ?S3, <- ?S4, <- ?S5, <- ?U1, <- ?U2, <- ?U3, <- ?U4; apply K; unfold related; cbn [s_scopes s_groups s_dc s_syms s_log log set_groups set_dc add_sym]; repeat split; auto; try (apply others_cons; exact S6); congruence.
Qed.
Lemma alk_act : forall o, match o with OPush _ | OPop | OReset => False | _ => True end -> alk (act o) (act o).
Proof. intros o H. apply alk_step; [exact H|]. intro. apply alk_ret. Qed.
Lemma quiet_alk : forall A (p : prog A), quiet p -> alk p p.
Proof. intros A p H. induction H as [r|o k Ho _ IH]; [apply alk_ret|]. apply alk_step; [destruct o; try exact I; contradiction|exact IH]. Qed.
Lemma alk_resolve : forall t n b, alk (resolve C t n b) (resolve C t n b).
Proof.
  intros t n []; unfold resolve.
  - destruct (assoc n (c_bvals C)) as [[v| | | |g]|]; try apply alk_ret.
    + apply alk_bind; [apply alk_act; exact I|]. intro. apply alk_bind; [apply alk_act; exact I|]. intro. apply alk_ret.
    + apply alk_bind; [apply alk_act; exact I|]. intro. apply alk_bind; [apply alk_act; exact I|]. intro. apply alk_ret.
    + exact (alk_act OGetG I).
    + assert (G : alk (actr (OUser g []) (fun r => r)) (actr (OUser g []) (fun r => r))) by (apply alk_step; [exact I|intro; apply alk_ret]). apply alk_then; [exact G|]. intros [a|[]]; try apply alk_ret. exact G.
  - apply alk_bind; [apply alk_act; exact I|]. intro l. destruct (find_scope l n); [apply alk_ret|]. apply alk_step; [exact I|intro; apply alk_ret].
Qed.
Lemma alk_scope : forall A a (p p' : prog A), sg (a_name a) = None -> keeps s_scopes p -> keeps s_scopes p' -> alk p p' -> alk (with_scope a p) (with_scope a p').
Proof.
  intros A a p p' Na K K' H q q' S. rewrite !run_with_scope. destruct S as [S1 [S2 S]].
  assert (S' : related (set_scopes (s_scopes q ++ [a]) q) (set_scopes (s_scopes q' ++ [a]) q')).
  { unfold related. cbn. rewrite S1. split; [reflexivity|]. split; [|exact S]. rewrite <- S1. intros z Z. apply in_app_or in Z as [Z|[<-|[]]]; [apply S2; exact Z|exact Na]. }
  assert (Z := K w (set_scopes (s_scopes q ++ [a]) q)). assert (Z' := K' w (set_scopes (s_scopes q' ++ [a]) q')). destruct (H _ _ S') as [E T].
  assert (N : forall l (z : asg), exists u v, l ++ [z] = u :: v) by (intros [|u l] z; cbn; eauto).
  destruct (N (s_scopes q) a) as [u [v M]], (N (s_scopes q') a) as [u' [v' M']].
  destruct (run w p _) as [r q1], (run w p' _) as [r' q1']; cbn [fst snd set_scopes s_scopes] in *. rewrite Z, Z', M, M', <- M, <- M', !removelast_last. cbn [fst snd]. split; [exact E|].
  destruct T as [_ [_ T]]. unfold related. cbn. auto.
Qed.
Lemma alk_comp_loop : forall var c c' p p', sg var = None -> match c, c' with Some c, Some c' => keeps s_scopes c /\ keeps s_scopes c' /\ alk c c' | None, None => True | _, _ => False end ->
  keeps s_scopes p -> keeps s_scopes p' -> alk p p' -> forall l, alk (comp_loop var c p l) (comp_loop var c' p' l).
Proof.
  intros var c c' p p' Nv Hc Kb Kb' Hb. induction l as [|z l IH]; [apply alk_ret|]. cbn [comp_loop]. apply alk_bind.
  - apply alk_scope; [exact Nv| | |].
    + apply keeps_pbind; [destruct c as [c|]; [apply keeps_pbind; [destruct c'; [apply Hc|destruct Hc]|]; intro; apply keeps_ret|apply keeps_ret]|]. intros []; [apply keeps_pbind; [exact Kb|]; intro; apply keeps_ret|apply keeps_ret].
    + apply keeps_pbind; [destruct c' as [c'|]; [apply keeps_pbind; [destruct c; [apply Hc|destruct Hc]|]; intro; apply keeps_ret|apply keeps_ret]|]. intros []; [apply keeps_pbind; [exact Kb'|]; intro; apply keeps_ret|apply keeps_ret].
    + apply alk_bind; [destruct c, c'; try (exact (False_ind _ Hc)); [apply alk_bind; [apply Hc|intro; apply alk_ret]|apply alk_ret]|]. intros []; [apply alk_bind; [exact Hb|intro; apply alk_ret]|apply alk_ret].
  - intro o. apply alk_bind; [exact IH|]. intro. apply alk_ret.
Qed.
Definition rentries : list (value * prog value) -> list (value * prog value) -> Prop := Forall2 (fun e e' => fst e = fst e' /\ alk (snd e) (snd e')).
Lemma rentries_put : forall m m' k p p', rentries m m' -> alk p p' -> rentries (dict_put m k p) (dict_put m' k p').
Proof.
  intros m m' k p p' H Hp. induction H as [|[a u] [a' u'] m m' [E Hb] H IH]; cbn.
  - constructor; [split; [reflexivity|exact Hp]|constructor].
  - cbn in E, Hb. subst a'. destruct (py_eq a k); constructor; try assumption; split; try reflexivity; assumption.
Qed.
Lemma rentries_mk : forall l l', rentries l l' -> rentries (mk_dict l) (mk_dict l').
Proof.
  intros l l' H. unfold mk_dict. assert (Gen : forall m m', rentries m m' -> rentries (fold_left (fun m kv => dict_put m (fst kv) (snd kv)) l m) (fold_left (fun m kv => dict_put m (fst kv) (snd kv)) l' m')).
  { induction H as [|[a u] [a' u'] l l' [E Hb] H IH]; intros m m' Hm; [exact Hm|]. cbn in *. subst a'. apply IH. apply rentries_put; assumption. }
  apply Gen. constructor.
Qed.
(** a replaced name, asked for, gives its value, and only that is seen of it *)
Lemma alk_value : forall n t v, sg n = Some v -> sym_check n t v = Ok v -> alk (eval C thing (ESym n false t)) (eval C thing (ELit v)).
Proof.
  intros n t v E T q q' S. cbn [eval]. rewrite run_pthen. unfold resolve. rewrite run_pbind, run_act. cbn [step_op].
  assert (N : find_scope (s_scopes q) n = None).
  { destruct S as [_ [S _]]. induction (s_scopes q) as [|a l IH]; [reflexivity|]. cbn [find_scope]. destruct (str_eqb n (a_name a)) eqn:K; [|apply IH; intros; apply S; right; assumption]. apply str_eqb_eq in K. rewrite K, (S a (or_introl eq_refl)) in E. discriminate E. }
  rewrite N. cbn [actr run step_op]. destruct (V (s_log q) n v E) as [u [R P]]. rewrite R. unfold nval. cbn [pbind pthen ok run]. rewrite P. cbn [pthen run pbind]. rewrite T. cbn [fst snd]. split; [reflexivity|].
  destruct S as [S1 [S2 [S3 [S4 [S5 S6]]]]]. unfold related. cbn. rewrite E. auto 10.
Qed.
Lemma alk_fuzzy : forall sr ng pre u v, alk (fuzzy_match C sr ng pre u v) (fuzzy_match C sr ng pre u v).
Proof.
  intros sr ng pre u v. unfold fuzzy_match. destruct u; try apply alk_ret; destruct v; try apply alk_ret.
  - apply alk_check. apply alk_ret.
  - apply alk_check. destruct (o_re (c_flags C) sr _ _) as [gs|]; [|apply alk_ret]. apply alk_bind; [apply alk_act; exact I|intro; apply alk_ret].
Qed.
(** the pattern of a match *)
Lemma fuzzy_known : forall sr ng u p, o_re_ok (c_flags C) p = true -> fuzzy_match C sr ng false u (VStr p) = fuzzy_match C sr ng true u (VStr p).
Proof. intros sr ng u p E. unfold fuzzy_match, compile_ok. rewrite E. reflexivity. Qed.
Lemma fuzzy_other : forall sr ng u v, match v with VStr _ => False | _ => True end -> fuzzy_match C sr ng false u v = fuzzy_match C sr ng true u v.
Proof. intros sr ng u v H. unfold fuzzy_match. destruct u; try reflexivity; destruct v; try reflexivity; contradiction. Qed.
Lemma sub_str_lit : forall e, is_str_lit (sub e) = is_str_lit e \/ exists n t p, e = ESym n false t /\ sg n = Some (VStr p).
Proof. intros []; try (left; reflexivity). destruct builtin; [left; reflexivity|]. cbn [sub]. destruct (sg name) as [v|] eqn:E; [|left; reflexivity]. destruct v; try (left; reflexivity). right. eauto. Qed.
Theorem eval_sub : forall e, fine e -> alk (eval C thing e) (eval C thing (sub e)).
Proof.
  assert (Ke : forall e, keeps s_scopes (eval C thing e)) by (intros e w0 q; apply eval_scopes).
  assert (Sub : forall z e, part z e -> fine e -> fine z) by (intros z e P F u Pu; apply F; eapply part_trans; eassumption).
  induction e as [v|v t|l IH|l IH|l IH|o a c IHa IHb|r v i c IHr IHi IHc|c m IHc IHm|o n sf IHo|c i sf IHc IHi|c a d sf IHc IHa IHb|n bi t|f l IHf IHl|c a d IHc IHa IHb|o e IHe] using expr_ind'; intros F; cbn [sub]; try apply alk_ret.
  - rewrite Forall_forall in IH. cbn [eval]. apply alk_bind; [|intro; apply alk_ret]. apply alk_map. intros e He. apply IH; [exact He|]. eapply Sub; [|exact F]. eapply Pa_arr; [exact He|constructor].
  - rewrite Forall_forall in IH. cbn [eval]. apply alk_bind; [|intro; apply alk_ret]. apply alk_map. intros e He. apply alk_bind; [apply IH; [exact He|]; eapply Sub; [|exact F]; eapply Pa_set; [exact He|constructor]|]. intro v. destruct (hashable v); apply alk_ret.
  - rewrite Forall_forall in IH. cbn [eval]. apply (rel_bind _ _ _ rentries).
    + apply (rel_pmapM _ _ _ _ (fun a a' => fst a = fst a' /\ alk (snd a) (snd a'))). intros [k v] Hn. destruct (IH _ Hn) as [I1 I2]. cbn [fst snd] in *.
      apply rel_same; [apply I1; eapply Sub; [|exact F]; eapply Pa_key; [exact Hn|constructor]|]. intro u. apply rel_same; [apply alk_ret|]. intro u'. apply rel_ret. split; [reflexivity|]. apply I2. eapply Sub; [|exact F]. eapply Pa_val; [exact Hn|constructor].
    + intros ks ks' E. apply alk_bind; [|intro; apply alk_ret]. apply rentries_mk in E. clear - E. induction E as [|[a p] [a' p'] l l' [E1 E2] E IH]; [apply alk_ret|]. cbn [fst snd] in *. subst a'. cbn [pmapM fst snd].
      apply alk_bind; [apply alk_bind; [exact E2|]; intro; apply alk_ret|]. intro. apply alk_bind; [exact IH|]. intro. apply alk_ret.
  - assert (Ha : alk (eval C thing a) (eval C thing (sub a))) by (apply IHa; eapply Sub; [|exact F]; apply Pa_left; constructor). assert (Hb : alk (eval C thing c) (eval C thing (sub c))) by (apply IHb; eapply Sub; [|exact F]; apply Pa_right; constructor).
    destruct o; cbn [eval]; (apply alk_bind; [exact Ha|]; intro u).
    + apply alk_bind; [exact Hb|]. intro. apply alk_bind; [apply alk_act; exact I|intro; apply alk_ret].
    + apply alk_bind; [exact Hb|]. intro. apply alk_bind; [apply alk_act; exact I|intro; apply alk_ret].
    + destruct (is_numeric u); [|apply alk_ret]. apply alk_bind; [exact Hb|]. intro v. destruct (is_numeric v); [|apply alk_ret]. apply alk_bind; [apply alk_act; exact I|intro; apply alk_ret].
    + apply alk_bind; [apply alk_ret|]. intro. destruct (dt_eqb _ _); [apply alk_check; apply alk_bind; [exact Hb|]; intro; apply alk_ret|].
      destruct (is_set_t _); [|apply alk_ret]. apply alk_bind; [exact Hb|]. intro. apply alk_ret.
    + destruct (truthy u); [|apply alk_ret]. apply alk_bind; [exact Hb|]. intro. apply alk_ret.
    + destruct (truthy u); [apply alk_ret|]. apply alk_bind; [exact Hb|]. intro. apply alk_ret.
    + apply alk_bind; [exact Hb|]. intro. apply alk_ret.
    + apply alk_bind; [exact Hb|]. intro. apply alk_ret.
    + apply alk_bind; [exact Hb|]. intro. apply alk_ret.
    + match goal with |- context [fuzzy_match C ?sr ?ng _ _ _] => assert (G : alk (do! y := eval C thing c in fuzzy_match C sr ng (is_str_lit c) u y) (do! y := eval C thing (sub c) in fuzzy_match C sr ng (is_str_lit (sub c)) u y)) end.
      { destruct (sub_str_lit c) as [E|[n [t [p [-> E]]]]]; [rewrite E; apply alk_bind; [exact Hb|]; intro; apply alk_fuzzy|].
        assert (A := F _ (Pa_self _)). cbn [fine_of] in A. rewrite E in A. assert (T := F _ (Pa_right _ _ _ _ (Pa_self _))). cbn [fine_of] in T. rewrite E in T. cbn [sub]. rewrite E. cbn [is_str_lit].
        intros q q' S. destruct (alk_value n t _ E T q q' S) as [W X]. rewrite !run_pbind. destruct (run w (eval C thing (ESym n false t)) q) as [r1 q1]. cbn [eval run ok fst snd] in *. subst r1. rewrite fuzzy_known by exact A. apply alk_fuzzy. exact X. }
      destruct u; try apply alk_ret; exact G.
  - cbn [eval]. apply alk_bind; [apply IHi; eapply Sub; [|exact F]; apply Pa_cit; constructor|]. intro u. apply alk_bind; [apply alk_ret|]. intro t. destruct (is_iterable t); [|apply alk_ret].
    apply alk_bind; [|intro; apply alk_ret]. apply alk_comp_loop; [exact (F _ (Pa_self _))| |apply Ke|apply Ke|apply IHr; eapply Sub; [|exact F]; apply Pa_cres; constructor].
    destruct c as [c|]; [|exact I]. split; [apply Ke|]. split; [apply Ke|]. apply IHc. eapply Sub; [|exact F]. apply Pa_ccond; constructor.
  - cbn [eval]. apply alk_bind; [apply IHc; eapply Sub; [|exact F]; apply Pa_inc; constructor|]. intro u. apply alk_check. apply alk_bind; [apply IHm; eapply Sub; [|exact F]; apply Pa_inm; constructor|]. intro. apply alk_ret.
  - cbn [eval]. apply alk_bind; [apply IHo; eapply Sub; [|exact F]; apply Pa_attr; constructor|]. intro v. destruct (is_null v && sf); [apply alk_ret|]. destruct (resolve_attr v n) as [r|[]]; try apply alk_ret.
    apply alk_then; [apply alk_resolve|]. intros [z|[]]; try apply alk_ret. destruct (c_default C); apply alk_ret.
  - cbn [eval]. apply alk_bind; [apply IHc; eapply Sub; [|exact F]; apply Pa_itc; constructor|]. intro u. destruct (is_null u); [destruct sf; apply alk_ret|]. apply alk_bind; [apply IHi; eapply Sub; [|exact F]; apply Pa_iti; constructor|]. intro k. apply alk_bind; [apply alk_ret|]. intro. destruct (py_getitem _ _) as [v|[]]; try apply alk_ret. destruct sf; apply alk_ret.
  - cbn [eval]. apply alk_bind; [apply IHc; eapply Sub; [|exact F]; apply Pa_slc; constructor|]. intro u. destruct (is_null u); [destruct sf; apply alk_ret|]. apply alk_bind; [apply IHa; eapply Sub; [|exact F]; apply Pa_sla; constructor|]. intro.
    apply alk_bind; [apply alk_ret|]. intro. apply alk_bind; [apply IHb; eapply Sub; [|exact F]; apply Pa_slb; constructor|]. intro. apply alk_bind; [apply alk_ret|]. intro. apply alk_bind; [apply alk_ret|]. intro. apply alk_ret.
  - assert (G : alk (eval C thing (ESym n bi t)) (eval C thing (ESym n bi t))).
    { cbn [eval]. apply alk_then; [apply alk_resolve|]. intro r0. apply alk_bind; [destruct r0 as [z|[]]; try apply alk_ret; destruct (c_default C); apply alk_ret|]. intro. apply alk_bind; [apply alk_ret|]. intro. apply alk_ret. }
    destruct bi; [exact G|]. destruct (sg n) as [v|] eqn:E; [|exact G]. apply alk_value; [exact E|]. assert (A := F _ (Pa_self _)). cbn [fine_of] in A. rewrite E in A. exact A.
  - assert (A := F _ (Pa_self _)). cbn [fine_of] in A. rewrite Forall_forall in IHl. cbn [eval]. apply alk_bind; [apply IHf; eapply Sub; [|exact F]; apply Pa_callf; constructor|]. intro fv. destruct (callable fv); [|apply alk_ret].
    apply alk_bind; [apply alk_map; intros e He; apply IHl; [exact He|]; eapply Sub; [|exact F]; eapply Pa_callx; [exact He|constructor]|]. intro vs. cbn [rtype]. rewrite A. apply alk_check.
    apply alk_bind; [apply alk_then; [apply quiet_alk, apply_quiet|]; intros [z|z]; apply alk_ret|]. intro r0. apply alk_bind; [apply alk_ret|]. intro v. apply alk_bind; [apply alk_ret|]. intro t. destruct (is_compat t _); apply alk_ret.
  - cbn [eval]. apply alk_bind; [apply IHc; eapply Sub; [|exact F]; apply Pa_tc; constructor|]. intro u. destruct (truthy u); [apply IHa; eapply Sub; [|exact F]; apply Pa_ta; constructor|apply IHb; eapply Sub; [|exact F]; apply Pa_tb; constructor].
  - assert (He : alk (eval C thing e) (eval C thing (sub e))) by (apply IHe; eapply Sub; [|exact F]; apply Pa_un; constructor). destruct o; cbn [eval]; (apply alk_bind; [exact He|]; intro u); [apply alk_ret|]. apply alk_bind; [apply alk_act; exact I|intro; apply alk_ret].
Qed.
End W.
End Subst.

(** ** A name can be replaced by its value

    In any rule a name can be replaced by a literal of the value that the object has for it: the rule then has the same outcome, value or
    error, leaves the same state, and makes the same calls but for those asking for the name. *)
Theorem C87_replaced : forall (Orc : Oracle) (C : ctx) sg thing e w q,
  has_values C thing sg w -> unnoticed sg w -> fine C sg e ->
  let '(r, q1) := run w (rule_evaluate C e thing) q in let '(r', q1') := run w (rule_evaluate C (sub sg e) thing) q in
  r' = r /\ s_scopes q1' = s_scopes q1 /\ s_groups q1' = s_groups q1 /\ s_dc q1' = s_dc q1 /\ s_syms q1' = s_syms q1 /\ others sg (s_log q1') = others sg (s_log q1).
Proof.
  intros Orc C sg thing e w q V U F. rewrite !run_rule_evaluate. set (q5 := set_dc (c_dec C) (set_groups VNull (set_scopes [] q))).
  assert (S : related sg q5 q5) by (unfold related; repeat split; intros a []).
  destruct (eval_sub C thing sg w U V e F q5 q5 S) as [E T]. destruct (run w (eval C thing e) q5) as [r q1], (run w (eval C thing (sub sg e)) q5) as [r' q1']. cbn [fst snd] in *. destruct T as [T1 [_ [T3 [T4 [T5 T6]]]]]. unfold set_dc. cbn [s_scopes s_groups s_dc s_syms s_log]. auto 10.
Qed.
(** names declared with the very types of their values keep the types of all expressions, and so of all functions called *)
Definition declared (sg : str -> option value) (z : expr) : Prop := match z with ESym n false t => match sg n with Some v => t = lit_type v | None => True end | _ => True end.
Theorem C87_types_kept : forall (Orc : Oracle) sg e, (forall z, part z e -> declared sg z) -> rtype (sub sg e) = rtype e.
Proof.
  intros Orc sg. assert (Sub : forall z e, part z e -> (forall u, part u e -> declared sg u) -> forall u, part u z -> declared sg u) by (intros z e P F u Pu; apply F; eapply part_trans; eassumption).
  induction e as [v|v t|l IH|l IH|l IH|o a c IHa IHb|r v i c IHr IHi IHc|c m IHc IHm|o n sf IHo|c i sf IHc IHi|c a d sf IHc IHa IHb|n bi t|f l IHf IHl|c a d IHc IHa IHb|o e IHe] using expr_ind'; intro F; cbn [sub rtype]; try reflexivity.
  - do 2 f_equal. rewrite map_map. apply map_ext_in. intros a Ha. rewrite Forall_forall in IH. apply IH; [exact Ha|]. eapply Sub; [|exact F]. eapply Pa_arr; [exact Ha|constructor].
  - do 2 f_equal. rewrite map_map. apply map_ext_in. intros a Ha. rewrite Forall_forall in IH. apply IH; [exact Ha|]. eapply Sub; [|exact F]. eapply Pa_set; [exact Ha|constructor].
  - rewrite Forall_forall in IH. f_equal; f_equal; rewrite map_map; apply map_ext_in; intros [k v] Ha; apply (IH _ Ha); (eapply Sub; [|exact F]); [eapply Pa_key|eapply Pa_val]; try exact Ha; constructor.
  - rewrite IHa, IHb; [reflexivity| |]; (eapply Sub; [|exact F]); [apply Pa_right|apply Pa_left]; constructor.
  - rewrite IHr; [reflexivity|]. eapply Sub; [|exact F]. apply Pa_cres; constructor.
  - rewrite IHo; [reflexivity|]. eapply Sub; [|exact F]. apply Pa_attr; constructor.
  - rewrite IHc; [reflexivity|]. eapply Sub; [|exact F]. apply Pa_itc; constructor.
  - rewrite IHc; [reflexivity|]. eapply Sub; [|exact F]. apply Pa_slc; constructor.
  - destruct bi; [reflexivity|]. assert (A := F _ (Pa_self _)). cbn [declared] in A. destruct (sg n); [|reflexivity]. cbn [rtype]. symmetry. exact A.
  - rewrite IHf; [reflexivity|]. eapply Sub; [|exact F]. apply Pa_callf; constructor.
  - rewrite IHa, IHb; [reflexivity| |]; (eapply Sub; [|exact F]); [apply Pa_tb|apply Pa_ta]; constructor.
  - destruct o; [reflexivity|]. apply IHe. eapply Sub; [|exact F]. apply Pa_un; constructor.
Qed.
(** so rules of typed names only need valid patterns and distinct variables *)
Definition fine_typed (C : ctx) {Orc : Oracle} (sg : str -> option value) (z : expr) : Prop :=
  match z with
  | ESym n false t => match sg n with Some v => t = lit_type v /\ sym_check n t v = Ok v | None => True end
  | EComp _ v _ _ => sg v = None
  | EBin (BFuzzy _ _) _ (ESym n false _) => match sg n with Some (VStr p) => o_re_ok (c_flags C) p = true | _ => True end
  | _ => True
  end.
Theorem C87_replaced_typed : forall (Orc : Oracle) (C : ctx) sg thing e w q,
  has_values C thing sg w -> unnoticed sg w -> (forall z, part z e -> fine_typed C sg z) ->
  fst (run w (rule_evaluate C (sub sg e) thing) q) = fst (run w (rule_evaluate C e thing) q).
Proof.
  intros Orc C sg thing e w q V U F. assert (G : fine C sg e).
  { intros z P. assert (A := F z P). destruct z; try exact I; try exact A.
    - destruct builtin; [exact I|]. cbn in A |- *. destruct (sg name); [apply A|exact I].
    - cbn [fine_of]. apply C87_types_kept. intros u Pu. assert (B : fine_typed C sg u) by (apply F; eapply part_trans; [|exact P]; apply Pa_callf; exact Pu). destruct u; try exact I. destruct builtin; [exact I|]. cbn in B |- *. destruct (sg name); [apply B|exact I]. }
  assert (K := C87_replaced Orc C sg thing e w q V U G). destruct (run w (rule_evaluate C e thing) q), (run w (rule_evaluate C (sub sg e) thing) q). apply K.
Qed.
(** every world whose answers do not depend on the past is one in which nobody notices *)
Theorem C87_stateless : forall sg w, (forall l l', (forall t n, w_resolve w l t n = w_resolve w l' t n) /\ (forall f a, w_user w l f a = w_user w l' f a) /\ (forall tz, w_now w l tz = w_now w l' tz) /\ (forall b, w_random w l b = w_random w l' b)) -> unnoticed sg w.
Proof. intros sg w H l l' _. apply H. Qed.

(** ** Instances *)
Local Open Scope string_scope.
Local Open Scope list_scope.
Definition sg_demo (n : str) : option value := if str_eqb n (s "n") then Some (num 3) else if str_eqb n (s "name") then Some (VStr (s "Luke")) else None.
Lemma demo_unnoticed : unnoticed sg_demo demo_world.
Proof. apply C87_stateless. intros l l'. repeat split; reflexivity. Qed.
Lemma demo_values : has_values untyped_ctx demo_thing sg_demo demo_world.
Proof.
  intros l n v E. unfold sg_demo in E. destruct (str_eqb n (s "n")) eqn:E1; [apply str_eqb_eq in E1; subst n; inversion E; subst v; exists (VInt 3); split; vm_compute; reflexivity|].
  destruct (str_eqb n (s "name")) eqn:E2; [apply str_eqb_eq in E2; subst n; inversion E; subst v; exists (VStr (s "Luke")); split; vm_compute; reflexivity|discriminate E].
Qed.
(** [x + n for x in xs if x] and name, which are [[4, 5]] and true *)
Definition with_names : expr := EArr [EComp (EBin BAdd (sym "x") (sym "n")) (s "x") (sym "xs") (Some (sym "x")); EBin BEq (sym "name") (ELit (VStr (s "Luke")))].
Definition without_names : expr := EArr [EComp (EBin BAdd (sym "x") (ELit (num 3))) (s "x") (sym "xs") (Some (sym "x")); EBin BEq (ELit (VStr (s "Luke"))) (ELit (VStr (s "Luke")))].
Ltac pieces := repeat match goal with H : In _ [] |- _ => destruct H | H : In _ (_ :: _) |- _ => destruct H as [<-|H] | H : part _ _ |- _ => inversion H; subst; clear H end.
Example C87_example :
  sub sg_demo with_names = without_names /\ fine untyped_ctx sg_demo with_names /\
  fst (run demo_world (rule_evaluate untyped_ctx with_names demo_thing) demo_st) = Ok (VArr [VArr [num 4; num 5]; VBool true]) /\
  fst (run demo_world (rule_evaluate untyped_ctx without_names demo_thing) demo_st) = Ok (VArr [VArr [num 4; num 5]; VBool true]).
Proof.
  split; [vm_compute; reflexivity|]. split; [intros z P; unfold with_names, sym in P; pieces; cbn [fine_of]; try exact I; reflexivity|]. split; vm_compute; reflexivity.
Qed.
(** the variable of a comprehension is not the name outside of it *)
Theorem C87_variable_refuted :
  let e := EComp (sym "n") (s "n") (sym "xs") None in
  fst (run demo_world (rule_evaluate untyped_ctx e demo_thing) demo_st) = Ok (VArr [num 1; num 2; VNull]) /\
  fst (run demo_world (rule_evaluate untyped_ctx (sub sg_demo e) demo_thing) demo_st) = Ok (VArr [num 3; num 3; num 3]).
Proof. split; vm_compute; reflexivity. Qed.
(** a pattern that is no regular expression is an error when it is read, but a literal is expected to be checked before *)
Theorem C87_pattern_refuted :
  let e := EBin (BFuzzy false false) (ELit VNull) (sym "p") in let sg := fun n => if str_eqb n (s "p") then Some (VStr (s "[")) else None in
  fst (run demo_world (rule_evaluate untyped_ctx e (VDict [(VStr (s "p"), VStr (s "["))])) demo_st) = Err XSynRegex /\
  fst (run demo_world (rule_evaluate untyped_ctx (sub sg e) (VDict [(VStr (s "p"), VStr (s "["))])) demo_st) = Ok (VBool false).
Proof. split; vm_compute; reflexivity. Qed.
Print Assumptions C87_replaced.
Print Assumptions C87_types_kept.
Print Assumptions C87_replaced_typed.
