(** * Local: two evaluations of the same rule, of different things with different resolvers, that are told the same about every
    name the rule asks for *)
From Verif Require Import Base Dec Value DType Types Ops ParseUtil Attr Prog Ast Eval Build Engine ProgFacts StateFacts Post.

(** ** Specification *)

(** the same exception, up to the suggestion ("did you mean") of a resolution error *)
Definition same_error (x y : exn) : Prop :=
  match x, y with
  | XSymRes n _, XSymRes m _ => n = m
  | XAttrRes n _, XAttrRes m _ => n = m
  | _, _ => x = y
  end.
(** the same outcome, up to the suggestion *)
Definition alike {A B} (R : A -> B -> Prop) (r : result A) (r' : result B) : Prop :=
  match r, r' with Ok a, Ok b => R a b | Err x, Err y => same_error x y | _, _ => False end.
Notation same_outcome := (alike eq).

(** the same history of callbacks: the resolver may have been asked about different objects, but for the same names and with the
    same answers *)
Definition same_event (e e' : event) : Prop :=
  match e, e' with
  | EvResolve _ n r, EvResolve _ n' r' => n = n' /\ same_outcome r r'
  | EvResolve _ _ _, _ | _, EvResolve _ _ _ => False
  | _, _ => e = e'
  end.
Notation same_history := (Forall2 same_event).

(** functions, clock and random numbers answer alike after the same history *)
Definition same_functions (w w' : world) : Prop := forall l l', same_history l l' ->
  (forall f a, w_user w l f a = w_user w' l' f a) /\ (forall z, w_now w l z = w_now w' l' z) /\ (forall b, w_random w l b = w_random w' l' b).
(** the two resolvers answer alike when asked for [n] in [t] and [t'] *)
Definition same_answer (w w' : world) (t t' : value) (n : str) : Prop :=
  forall l l', same_history l l' -> same_outcome (w_resolve w l t n) (w_resolve w' l' t' n).

(** ** Facts *)
Lemma same_error_refl : forall x, same_error x x. Proof. intros []; cbn; reflexivity. Qed.
Lemma alike_refl : forall A (r : result A), same_outcome r r. Proof. intros A [a|x]; cbn; [reflexivity|apply same_error_refl]. Qed.
Lemma same_event_refl : forall e, same_event e e. Proof. intros []; cbn; auto. split; [reflexivity|apply alike_refl]. Qed.
Lemma same_history_refl : forall l, same_history l l. Proof. induction l; constructor; [apply same_event_refl|assumption]. Qed.
Lemma alike_eq : forall A (r r' : result A), same_outcome r r' -> forall a, r = Ok a <-> r' = Ok a.
Proof. intros A [b|x] [b'|y] H a; cbn in H; try contradiction; [subst; reflexivity|split; discriminate]. Qed.

Definition covers (b : list str) (q : st) : Prop := forall n, In n b -> find_scope (s_scopes q) n <> None.
Definition sim (q q' : st) : Prop := same_tls q q' /\ same_history (s_log q) (s_log q').

Section Loc.
Context {Orc : Oracle} (w w' : world).
Hypothesis SF : same_functions w w'.

Definition loc {A B} (R : A -> B -> Prop) (b : list str) (p : prog A) (p' : prog B) : Prop :=
  forall q q', sim q q' -> covers b q ->
  let '(r, q1) := run w p q in let '(r', q1') := run w' p' q' in alike R r r' /\ sim q1 q1' /\ s_scopes q1 = s_scopes q.

Lemma loc_ret : forall A B (R : A -> B -> Prop) b r r', alike R r r' -> loc R b (Ret r) (Ret r').
Proof. intros A B R b r r' H q q' S0 K. cbn. auto. Qed.
Lemma loc_ret_eq : forall A b (r : result A), loc eq b (Ret r) (Ret r).
Proof. intros A b r. apply loc_ret, alike_refl. Qed.
Lemma loc_then : forall A A' B B' (R : A -> A' -> Prop) (Q : B -> B' -> Prop) b p p' f f', loc R b p p' ->
  (forall r r', alike R r r' -> loc Q b (f r) (f' r')) -> loc Q b (pthen p f) (pthen p' f').
Proof.
  intros A A' B B' R Q b p p' f f' Hp Hf q q' S0 K. rewrite !run_pthen. specialize (Hp q q' S0 K).
  destruct (run w p q) as [r q1], (run w' p' q') as [r' q1']. destruct Hp as [Hr [S1 E]].
  assert (K1 : covers b q1) by (unfold covers; rewrite E; exact K). specialize (Hf r r' Hr q1 q1' S1 K1).
  destruct (run w (f r) q1) as [x q2], (run w' (f' r') q1') as [x' q2']. destruct Hf as [H1 [H2 H3]]. split; [exact H1|]. split; [exact H2|congruence].
Qed.
Lemma loc_bind : forall A A' B B' (R : A -> A' -> Prop) (Q : B -> B' -> Prop) b p p' f f', loc R b p p' ->
  (forall a a', R a a' -> loc Q b (f a) (f' a')) -> loc Q b (pbind p f) (pbind p' f').
Proof.
  intros A A' B B' R Q b p p' f f' Hp Hf. eapply loc_then; [exact Hp|]. intros [a|x] [a'|x'] H; cbn in H; try contradiction; [apply Hf; exact H|].
  apply loc_ret. exact H.
Qed.
Lemma loc_bind_eq : forall A B (b : list str) (p p' : prog A) (f f' : A -> prog B), loc eq b p p' -> (forall a, loc eq b (f a) (f' a)) -> loc eq b (pbind p f) (pbind p' f').
Proof. intros. eapply loc_bind; [eassumption|]. intros a a' <-. auto. Qed.
Lemma loc_pmapM : forall A A' B B' (R : B -> B' -> Prop) b (f : A -> prog B) (f' : A' -> prog B') l l', Forall2 (fun a a' => loc R b (f a) (f' a')) l l' ->
  loc (Forall2 R) b (pmapM f l) (pmapM f' l').
Proof.
  intros A A' B B' R b f f' l l' H. induction H as [|a a' l l' Ha H IH]; [apply loc_ret; constructor|]. cbn [pmapM]. eapply loc_bind; [exact Ha|]. intros x x' Hx.
  eapply loc_bind; [exact IH|]. intros xs xs' Hxs. apply loc_ret. constructor; assumption.
Qed.
Lemma Forall2_same : forall A (R : A -> A -> Prop) l, (forall a, In a l -> R a a) -> Forall2 R l l.
Proof. intros A R l. induction l as [|a l IH]; intro H; constructor; [apply H; left; reflexivity|apply IH; intros; apply H; right; assumption]. Qed.
Lemma Forall2_eq : forall A (l l' : list A), Forall2 eq l l' -> l = l'.
Proof. intros A l l' H. induction H; congruence. Qed.
Lemma loc_impl : forall A B (R Q : A -> B -> Prop) b p p', (forall a a', R a a' -> Q a a') -> loc R b p p' -> loc Q b p p'.
Proof.
  intros A B R Q b p p' H Hp q q' S0 K. specialize (Hp q q' S0 K). destruct (run w p q) as [[a|x] q1], (run w' p' q') as [[a'|x'] q1']; destruct Hp as [H1 H2]; split; try exact H2; cbn in *; auto.
Qed.
Lemma loc_pmapM_eq : forall A B b (f f' : A -> prog B) l, (forall a, In a l -> loc eq b (f a) (f' a)) -> loc eq b (pmapM f l) (pmapM f' l).
Proof. intros A B b f f' l H. eapply loc_impl; [apply Forall2_eq|]. apply loc_pmapM. apply Forall2_same. exact H. Qed.

Lemma loc_act : forall o b, (match o with OPush _ | OPop | OReset | OResolve _ _ => False | _ => True end) -> loc eq b (act o) (act o).
Proof.
  intros o b H q q' [[E1 [E2 E3]] L] K. rewrite !run_act. destruct (SF _ _ L) as [U [N0 Rn]].
  destruct o; try contradiction; cbn [step_op]; rewrite ?E1, ?E2, ?E3, ?U, ?N0, ?Rn; cbn; unfold sim, same_tls; cbn; repeat split; auto; constructor; auto; reflexivity.
Qed.
Lemma loc_actr : forall o b c, (match o with OPush _ | OPop | OReset | OResolve _ _ => False | _ => True end) -> loc eq b (actr o c) (actr o c).
Proof.
  intros o b c H q q' S0 K. assert (X := loc_act o b H q q' S0 K). rewrite !run_act in X. unfold actr. cbn [run]. destruct (step_op w o q) as [a q1], (step_op w' o q') as [a' q1'].
  cbn in X. destruct X as [-> X]. cbn. split; [apply alike_refl|exact X].
Qed.
Lemma loc_scope : forall A B (R : A -> B -> Prop) b a p p', loc R (a_name a :: b) p p' -> loc R b (with_scope a p) (with_scope a p').
Proof.
  intros A B R b a p p' H q q' [[E1 [E2 E3]] L] K. rewrite !run_with_scope.
  assert (S1 : sim (set_scopes (s_scopes q ++ [a]) q) (set_scopes (s_scopes q' ++ [a]) q')) by (unfold sim, same_tls; cbn; rewrite E1; auto).
  assert (K1 : covers (a_name a :: b) (set_scopes (s_scopes q ++ [a]) q)).
  { intros n Hn. cbn. assert (F : forall l m, find_scope (l ++ m) n = match find_scope l n with Some x => Some x | None => find_scope m n end).
    { induction l as [|x l IH]; intro m; [reflexivity|]. cbn. destruct (str_eqb n (a_name x)); [reflexivity|apply IH]. }
    rewrite F. destruct (find_scope (s_scopes q) n) eqn:Z0; [discriminate|]. destruct Hn as [<-|Hn]; [cbn; rewrite str_eqb_refl; discriminate|]. exfalso. exact (K n Hn Z0). }
  specialize (H _ _ S1 K1). destruct (run w p _) as [r q1], (run w' p' _) as [r' q1']. destruct H as [Hr [[[F1 [F2 F3]] L1] E]]. cbn in E.
  rewrite <- F1, E. destruct (s_scopes q ++ [a]) eqn:Z0; [destruct (s_scopes q); discriminate|]. rewrite <- Z0. unfold sim, same_tls. cbn.
  rewrite removelast_snoc. auto 10.
Qed.
Lemma loc_comp_loop : forall b var cond cond' body body',
  match cond, cond' with Some c, Some c' => loc eq (var :: b) c c' | None, None => True | _, _ => False end -> loc eq (var :: b) body body' ->
  forall l, loc eq b (comp_loop var cond body l) (comp_loop var cond' body' l).
Proof.
  intros b var cond cond' body body' Hc Hb. induction l as [|x l IH]; [apply loc_ret_eq|]. cbn [comp_loop]. apply loc_bind_eq.
  - apply loc_scope. cbn [a_name]. apply loc_bind_eq.
    + destruct cond as [c|], cond' as [c'|]; try contradiction; [apply loc_bind_eq; [exact Hc|intro; apply loc_ret_eq]|apply loc_ret_eq].
    + intros []; [apply loc_bind_eq; [exact Hb|intro; apply loc_ret_eq]|apply loc_ret_eq].
  - intro o. apply loc_bind_eq; [exact IH|]. intro vs. apply loc_ret_eq.
Qed.

Definition lentries (b : list str) : list (value * prog value) -> list (value * prog value) -> Prop := Forall2 (fun e e' => fst e = fst e' /\ loc eq b (snd e) (snd e')).
Lemma lentries_put : forall b m m' k p p', lentries b m m' -> loc eq b p p' -> lentries b (dict_put m k p) (dict_put m' k p').
Proof.
  intros b m m' k p p' H Hp. induction H as [|[a x] [a' x'] m m' [E Hb] H IH]; cbn.
  - constructor; [split; [reflexivity|exact Hp]|constructor].
  - cbn in E, Hb. subst a'. destruct (py_eq a k); constructor; try assumption; split; try reflexivity; assumption.
Qed.
Lemma lentries_mk : forall b l l', lentries b l l' -> lentries b (mk_dict l) (mk_dict l').
Proof.
  intros b l l' H. unfold mk_dict. assert (Gen : forall m m', lentries b m m' -> lentries b (fold_left (fun m kv => dict_put m (fst kv) (snd kv)) l m) (fold_left (fun m kv => dict_put m (fst kv) (snd kv)) l' m')).
  { induction H as [|[a x] [a' x'] l l' [E Hb] H IH]; intros m m' Hm; [exact Hm|]. cbn in *. subst a'. apply IH. apply lentries_put; assumption. }
  apply Gen. constructor.
Qed.
End Loc.

Section Eval.
Context {Orc : Oracle} (C : ctx) (w w' : world) (thing thing' : value) (F A : str -> Prop).
Hypothesis SF : same_functions w w'.
Hypothesis SS : forall n, F n -> same_answer w w' thing thing' n.
Hypothesis SA : forall n v m sg, A n -> resolve_attr v n = Err (XAttrRes m sg) -> same_answer w w' v v n.

(** the names a compiled rule asks for: plain symbols outside the variables [b] satisfy [F], attributes satisfy [A] *)
Fixpoint within (b : list str) (e : expr) : Prop :=
  match e with
  | ELit _ | EFun _ _ => True
  | EArr l | ESet l => fold_right (fun x P => within b x /\ P) True l
  | EMap l => fold_right (fun kv P => (within b (fst kv) /\ within b (snd kv)) /\ P) True l
  | EBin _ x y => within b x /\ within b y
  | EComp r v i c => within b i /\ within (v :: b) r /\ match c with Some c => within (v :: b) c | None => True end
  | EIn c m => within b c /\ within b m
  | EAttr o n _ => A n /\ within b o
  | EItem c i _ => within b c /\ within b i
  | ESlice c x y _ => within b c /\ within b x /\ within b y
  | ESym n bi t => if bi then True else In n b \/ F n
  | ECall f l => within b f /\ fold_right (fun x P => within b x /\ P) True l
  | ETern c x y => within b c /\ within b x /\ within b y
  | EUn _ x => within b x
  end.

Notation loc := (loc w w').
Ltac ldc := match goal with |- Local.loc _ _ _ ?b ?p _ => match p with act ?o => exact (loc_act w w' SF o b I) end end.

Lemma loc_ask : forall b t t' n, (In n b \/ same_answer w w' t t' n) -> loc eq b (resolve C t n false) (resolve C t' n false).
Proof.
  intros b t t' n H q q' S0 K. unfold resolve. rewrite !run_pbind, !run_act. cbn [step_op].
  destruct S0 as [[E1 [E2 E3]] L]. rewrite <- E1. destruct (find_scope (s_scopes q) n) as [a|] eqn:Z0.
  - cbn. unfold sim, same_tls. auto 10.
  - destruct H as [H|H]; [destruct (K n H Z0)|]. cbn. specialize (H _ _ L). split; [exact H|]. split; [|reflexivity]. unfold sim, same_tls. cbn. split; [auto|]. constructor; [|exact L]. cbn. auto.
Qed.
Lemma loc_dollar : forall b t t' n, loc eq b (resolve C t n true) (resolve C t' n true).
Proof.
  intros b t t' n. unfold resolve. destruct (assoc n (c_bvals C)) as [[v| | | |g]|]; try apply loc_ret_eq.
  - apply loc_bind_eq; [ldc|intro]. apply loc_bind_eq; [ldc|intro; apply loc_ret_eq].
  - apply loc_bind_eq; [ldc|intro]. apply loc_bind_eq; [ldc|intro; apply loc_ret_eq].
  - ldc.
  - eapply loc_then; [exact (loc_actr w w' SF (OUser g []) b _ I)|]. intros [a|x] [a'|x'] H; cbn in H; try contradiction; [exact (loc_actr w w' SF (OUser g []) b _ I)|].
    destruct x, x'; cbn in H; try discriminate H; try contradiction; apply loc_ret; cbn; auto.
Qed.

Lemma loc_random : forall b args, loc eq b (b_random args) (b_random args).
Proof.
  intros b args. unfold b_random. destruct args as [|v [|v' args]]; [exact (loc_act w w' SF (ORandom None) b I)| |apply loc_ret_eq].
  destruct (truthy v); [|exact (loc_act w w' SF (ORandom None) b I)]. apply loc_bind_eq; [apply loc_ret_eq|]. intros []; [exact (loc_act w w' SF (ORandom _) b I)|apply loc_ret_eq].
Qed.
Lemma loc_flat : forall b f args, loc eq b (apply_flat C f args) (apply_flat C f args).
Proof.
  intros b f args. unfold apply_flat. destruct f; try apply loc_ret_eq.
  - apply loc_actr; [exact SF|exact I].
  - unfold apply_first_order. destruct f; try apply loc_random; try apply loc_ret_eq;
      (destruct args as [|v [|v' args]]; try apply loc_ret_eq); try (destruct v; apply loc_ret_eq);
      (apply loc_bind_eq; [exact (loc_act w w' SF OGetDc b I)|intro; apply loc_ret_eq]).
  - destruct args as [|a [|]]; apply loc_ret_eq.
Qed.
Lemma loc_apply : forall b f args, loc eq b (apply_fun C f args) (apply_fun C f args).
Proof.
  intros b f args. unfold apply_fun. destruct f; try apply loc_flat. destruct f; try apply loc_flat; destruct args as [|g [|it [|]]]; try apply loc_flat.
  - apply loc_bind_eq; [apply loc_ret_eq|]. intro l. apply loc_bind_eq; [|intro; apply loc_ret_eq]. apply loc_pmapM_eq. intros. apply loc_flat.
  - apply loc_bind_eq; [apply loc_ret_eq|]. intro l. apply loc_bind_eq; [|intro; apply loc_ret_eq]. apply loc_pmapM_eq. intros x _. apply loc_bind_eq; [|intro; apply loc_ret_eq].
    destruct g; try apply loc_ret_eq; apply loc_flat.
Qed.

Lemma loc_fuzzy : forall b se ng pre x y, loc eq b (fuzzy_match C se ng pre x y) (fuzzy_match C se ng pre x y).
Proof.
  intros b se ng pre x y. unfold fuzzy_match. destruct x; try apply loc_ret_eq; destruct y; try apply loc_ret_eq; (apply loc_bind_eq; [apply loc_ret_eq|intro]); try apply loc_ret_eq.
  destruct (o_re _ _ _ _); [|apply loc_ret_eq]. apply loc_bind_eq; [ldc|intro; apply loc_ret_eq].
Qed.

Ltac lb := apply loc_bind_eq; [|intro].
Ltac ls := apply loc_ret_eq.
Lemma fold_all : forall T (P : T -> Prop) l, fold_right (fun x Q => P x /\ Q) True l <-> Forall P l.
Proof. intros T P l. induction l as [|a l IH]; cbn; [split; auto|]. rewrite IH. split; [intros [H K]; constructor; assumption|intro H; inversion H; auto]. Qed.
Theorem eval_loc : forall e b, within b e -> loc eq b (eval C thing e) (eval C thing' e).
Proof.
  induction e as [v|v t|l IH|l IH|l IH|o x y IHa IHb|r n i c IHr IHi IHc|c m IHc IHm|o n sf IHo|c i sf IHc IHi|c x y sf IHc IHa IHb|n bi t|f l IHf IHl|c x y IHc IHa IHb|o e IHe] using expr_ind';
    intros b W; cbn [within] in W; cbn [eval]; try ls.
  - apply fold_all in W. rewrite Forall_forall in *. lb; [|ls]. apply loc_pmapM_eq. auto.
  - apply fold_all in W. rewrite Forall_forall in *. lb; [|ls]. apply loc_pmapM_eq. intros e He. lb; [auto|]. destruct (hashable _); ls.
  - apply (fold_all _ (fun kv => within b (fst kv) /\ within b (snd kv))) in W. rewrite Forall_forall in *.
    eapply (loc_bind _ _ _ _ _ _ (lentries w w' b)).
    + apply loc_pmapM. apply Forall2_same. intros kv Hkv. destruct (IH kv Hkv) as [K1 K2]. destruct (W kv Hkv) as [W1 W2]. eapply loc_bind; [apply K1; exact W1|]. intros k k' <-.
      eapply loc_bind; [apply loc_ret_eq|]. intros k1 k1' <-. apply loc_ret. cbn. split; [reflexivity|apply K2; exact W2].
    + intros ks ks' H. apply lentries_mk in H. lb; [|ls]. eapply loc_impl; [apply Forall2_eq|]. apply loc_pmapM. induction H as [|[a p] [a' p'] m m' [E Hb] H IH0]; constructor; [|exact IH0].
      cbn in *. subst a'. lb; [exact Hb|ls].
  - destruct W as [Wx Wy]. specialize (IHa b Wx). specialize (IHb b Wy). destruct o.
    + lb; [exact IHa|]. lb; [exact IHb|]. lb; [ldc|ls].
    + lb; [exact IHa|]. lb; [exact IHb|]. lb; [ldc|ls].
    + lb; [exact IHa|]. destruct (is_numeric _); [|ls]. lb; [exact IHb|]. destruct (is_numeric _); [|ls]. lb; [ldc|ls].
    + lb; [exact IHa|]. lb; [ls|]. destruct (dt_eqb _ _); [|destruct (is_set_t _); [|ls]].
      * lb; [ls|]. lb; [exact IHb|ls].
      * lb; [exact IHb|ls].
    + lb; [exact IHa|]. destruct (truthy _); [|ls]. lb; [exact IHb|ls].
    + lb; [exact IHa|]. destruct (truthy _); [ls|]. lb; [exact IHb|ls].
    + lb; [exact IHa|]. lb; [exact IHb|ls].
    + lb; [exact IHa|]. lb; [exact IHb|ls].
    + lb; [exact IHa|]. lb; [exact IHb|ls].
    + lb; [exact IHa|]. destruct a; try ls; (lb; [exact IHb|apply loc_fuzzy]).
  - destruct W as [Wi [Wr Wc]]. lb; [apply IHi; exact Wi|]. lb; [ls|]. destruct (is_iterable _); [|ls]. lb; [|ls]. apply loc_comp_loop; [|apply IHr; exact Wr].
    destruct c as [c|]; [|exact I]. apply IHc. exact Wc.
  - destruct W as [Wc Wm]. lb; [apply IHc; exact Wc|]. lb; [ls|]. lb; [apply IHm; exact Wm|ls].
  - destruct W as [Wn Wo]. lb; [apply IHo; exact Wo|]. destruct (is_null _ && sf); [ls|]. destruct (resolve_attr _ _) as [r|x] eqn:ER; [ls|]. destruct x; try ls.
    eapply loc_then; [apply loc_ask; right; eapply SA; [exact Wn|exact ER]|]. intros [v|x] [v'|x'] H; cbn in H; try contradiction; [subst; ls|].
    destruct x, x'; cbn in H; try discriminate H; try contradiction; try (injection H as <-); try (injection H as <- <-); subst; try ls; try (apply loc_ret; cbn; reflexivity). destruct (c_default C); [ls|]. apply loc_ret. reflexivity.
  - destruct W as [Wc Wi]. lb; [apply IHc; exact Wc|]. destruct (is_null _); [destruct sf; ls|]. lb; [apply IHi; exact Wi|]. lb; [ls|]. destruct (py_getitem _ _) as [|x]; [ls|]. destruct x; try ls. destruct sf; ls.
  - destruct W as [Wc [Wx Wy]]. lb; [apply IHc; exact Wc|]. destruct (is_null _); [destruct sf; ls|]. lb; [apply IHa; exact Wx|]. lb; [ls|]. lb; [apply IHb; exact Wy|]. lb; [ls|]. lb; ls.
  - eapply (loc_then _ _ _ _ _ _ eq).
    + destruct bi; [apply loc_dollar|]. apply loc_ask. destruct W as [W|W]; [left; exact W|right; apply SS; exact W].
    + intros r r' H. lb; [|lb; ls]. destruct r as [v|x], r' as [v'|x']; cbn in H; try contradiction; [subst; ls|].
      destruct x, x'; cbn in H; try discriminate H; try contradiction; try (injection H as <-); try (injection H as <- <-); subst; try ls; try (apply loc_ret; cbn; reflexivity). destruct (c_default C); [ls|]. apply loc_ret. reflexivity.
  - destruct W as [Wf Wl]. apply fold_all in Wl. rewrite Forall_forall in *. lb; [apply IHf; exact Wf|]. destruct (callable _); [|ls]. lb; [apply loc_pmapM_eq; auto|]. lb; [ls|].
    lb; [|lb; [ls|]; lb; [ls|]; destruct (is_compat _ _); ls]. eapply loc_then; [apply loc_apply|]. intros [v|x] [v'|x'] H; cbn in H; try contradiction; [subst; ls|ls].
  - destruct W as [Wc [Wx Wy]]. lb; [apply IHc; exact Wc|]. destruct (truthy _); auto.
  - destruct o; (lb; [apply IHe; exact W|]); [ls|]. lb; [ldc|ls].
Qed.

(** ** What construction leaves in the tree *)
Lemma lit_within : forall b v e, lit_of v = Ok e -> within b e.
Proof.
  intro b. assert (M : forall l, Forall (fun v => forall e, lit_of v = Ok e -> within b e) l -> forall es, rmapM lit_of l = Ok es -> fold_right (fun x P => within b x /\ P) True es).
  { intros l H. induction H as [|v l H G IH]; intros es E; cbn [rmapM] in E; [injection E as <-; exact I|]. apply rbind_ok in E as [e [E1 E]]. apply rbind_ok in E as [es' [E2 E]]. injection E as <-. split; [apply H; exact E1|apply IH; exact E2]. }
  assert (M2 : forall l, Forall (fun kv => (forall e, lit_of (fst kv) = Ok e -> within b e) /\ (forall e, lit_of (snd kv) = Ok e -> within b e)) l -> forall es,
     rmapM (fun kv => rbind (lit_of (fst kv)) (fun k => rbind (lit_of (snd kv)) (fun w => Ok (k, w)))) l = Ok es -> fold_right (fun kv P => (within b (fst kv) /\ within b (snd kv)) /\ P) True es).
  { intros l H. induction H as [|[k v] l [H1 H2] G IH]; intros es E; cbn [rmapM] in E; [injection E as <-; exact I|]. apply rbind_ok in E as [kv [E1 E]]. apply rbind_ok in E as [es' [E2 E]]. injection E as <-.
    apply rbind_ok in E1 as [k' [K1 E1]]. apply rbind_ok in E1 as [v' [K2 E1]]. injection E1 as <-. split; [split; [apply H1; exact K1|apply H2; exact K2]|apply IH; exact E2]. }
  intro v. induction v as [|x|d|z|f|t|x|w0 tz|d|u|l IH|l IH|l|l IH|l IH|l IH|n0|f|m v IH|n0] using value_ind'; intros e E; cbn [lit_of] in E; apply rbind_ok in E as [ty [_ E]]; try (apply rmap_ok in E as [u' [_ ->]]; exact I).
  - apply rmap_ok in E as [es [E ->]]. exact (M l IH es E).
  - apply rmap_ok in E as [es [E ->]]. exact (M l IH es E).
  - injection E as <-. cbn [within]. induction l; cbn; [exact I|split; [exact I|assumption]].
  - apply rmap_ok in E as [es [E ->]]. exact (M l IH es E).
  - apply rmap_ok in E as [es [E ->]]. exact (M2 l IH es E).
  - apply rmap_ok in E as [es [E ->]]. exact (M2 l IH es E).
Qed.
Lemma fold_within : forall b e, post (fold C e) (within b).
Proof. intros b e. apply post_bind_any. intro v. apply post_ret. intros x H. eapply lit_within; exact H. Qed.
Lemma reduce_within : forall b e, within b e -> post (reduce C e) (within b).
Proof.
  intros b e. induction e as [v|v t|l IH|l IH|l IH|o x y IHa IHb|r n i c IHr IHi IHc|c m IHc IHm|o n sf IHo|c i sf IHc IHi|c x y sf IHc IHa IHb|n bi t|f l IHf IHl|c x y IHc IHa IHb|o e IHe] using expr_ind';
    intro L; cbn [reduce]; try (apply post_ok; exact L).
  - destruct (_ && _); [apply fold_within|apply post_ok; exact L].
  - destruct (_ && _); [|apply post_ok; exact L]. apply post_bind_any. intro v. apply post_ok. exact I.
  - destruct (is_reduced o); [|apply post_ok; exact L]. eapply post_bind; [apply fold_within|]. intros l Hl. apply post_ok. destruct l; try exact Hl. destruct (_ && _); exact I.
  - destruct (match rtype c with TMap k _ _ => sf && negb (is_compat (rtype i) k) | _ => false end); [apply post_ok; exact I|]. destruct (_ && _); [apply fold_within|apply post_ok; exact L].
  - destruct (_ && _); [apply fold_within|apply post_ok; exact L].
  - destruct (_ && _); [apply fold_within|apply post_ok; exact L].
  - destruct (is_reduced c); [|apply post_ok; exact L]. destruct L as [_ [L1 L2]]. destruct (lit_truthy c); [apply IHa; exact L1|apply IHb; exact L2].
  - destruct o; (destruct (is_reduced e); [|apply post_ok; exact L]).
    + apply post_bind_any. intro v. apply post_ok. exact I.
    + destruct e as [v| | | | | | | | | | | | | | ]; try apply post_raise. destruct v; try apply post_raise; (apply post_bind_any; intro; apply post_ok; exact I).
Qed.
Definition names (b : list str) (n : dnode) : Prop := (forall x, In x (dfree b n) -> F x) /\ (forall x, In x (dattrs n) -> A x).
Lemma names_app : forall (l1 l2 m1 m2 : list str), (forall x, In x (l1 ++ l2) -> F x) /\ (forall x, In x (m1 ++ m2) -> A x) ->
  ((forall x, In x l1 -> F x) /\ (forall x, In x m1 -> A x)) /\ ((forall x, In x l2 -> F x) /\ (forall x, In x m2 -> A x)).
Proof. intros l1 l2 m1 m2 [H K]. split; split; intros x X; (apply H || apply K); apply in_or_app; auto. Qed.
Lemma made_list : forall b l, Forall (fun n => forall b, names b n -> post (build C n) (within b)) l ->
  (forall x, In x (flat_map (dfree b) l) -> F x) /\ (forall x, In x (flat_map dattrs l) -> A x) -> post (pmapM (build C) l) (fun es => fold_right (fun x P => within b x /\ P) True es).
Proof.
  intros b l H. induction H as [|n l Hn H IH]; intro N0; [apply post_ok; exact I|]. cbn [flat_map] in N0. apply names_app in N0 as [N1 N2]. cbn [pmapM]. eapply post_bind; [apply Hn; exact N1|]. intros e He.
  eapply post_bind; [apply IH; exact N2|]. intros es Hes. apply post_ok. split; assumption.
Qed.
Theorem build_within : forall n b, names b n -> post (build C n) (within b).
Proof.
  induction n as [v|t|t|t|l IH|l IH|l IH|o x y IHa IHb|r v i c IHr IHi IHc|c m IHc IHm|o nm sf IHo|c i sf IHc IHi|c x y sf IHc IHa IHb|nm bi|f l IHf IHl|c x y IHc IHa IHb|o x IHx] using dnode_ind'; intros b N0; unfold names in N0; cbn [dfree dattrs] in N0; cbn [build].
  - apply post_ok. exact I.
  - apply post_ret. intros a H. apply rmap_ok in H as [d [_ ->]]. exact I.
  - apply post_ret. intros a H. apply rmap_ok in H as [d [_ ->]]. exact I.
  - apply post_ret. intros a H. apply rmap_ok in H as [d [_ ->]]. exact I.
  - eapply post_bind; [apply made_list; eassumption|]. intros es H. apply post_ok. exact H.
  - eapply post_bind; [apply made_list; eassumption|]. intros es H. apply post_ok. exact H.
  - apply (post_bind _ _ _ _ (fun es => fold_right (fun kv P => (within b (fst kv) /\ within b (snd kv)) /\ P) True es)).
    + induction IH as [|kv l [Hk Hv] H IH]; [apply post_ok; exact I|]. cbn [flat_map] in N0. apply names_app in N0 as [N1 N2]. apply names_app in N1 as [N1 N3]. cbn [pmapM]. eapply post_bind.
      * eapply post_bind; [apply Hk; exact N1|]. intros k K1. eapply post_bind; [apply Hv; exact N3|]. intros v V1. apply (post_ok _ _ (fun kv => within b (fst kv) /\ within b (snd kv))). split; assumption.
      * intros e He. eapply post_bind; [apply IH; exact N2|]. intros es Hes. apply post_ok. split; assumption.
    + intros es H. apply post_bind_any. intro u. apply post_ok. exact H.
  - apply names_app in N0 as [N1 N2]. eapply post_bind; [apply IHa; exact N1|]. intros a Ha. eapply post_bind; [apply IHb; exact N2|]. intros a' Ha'. apply post_bind_any. intro u. apply reduce_within. split; assumption.
  - assert (N1 : names b i /\ names (v :: b) r /\ match c with Some c => names (v :: b) c | None => True end).
    { destruct N0 as [N1 N2]. split; [|split; [|destruct c as [c|]; [|exact I]]]; split; intros x X; (apply N1 || apply N2); rewrite !in_app_iff; auto. }
    destruct N1 as [N1 [N2 N3]]. eapply post_bind; [apply IHi; exact N1|]. intros a Ha. destruct (_ && _); [apply post_raise|].
    eapply post_bind.
    + apply post_scope. apply (post_bind _ _ _ _ (fun c => match c with Some c => within (v :: b) c | None => True end)).
      * destruct c as [c|]; [|apply post_ok; exact I]. eapply post_bind; [apply IHc; exact N3|]. intros e He. apply post_ok. exact He.
      * intros c' Hc'. eapply post_bind; [apply IHr; exact N2|]. intros e He.
        apply (post_ok _ (c', e) (fun ce => match fst ce with Some c => within (v :: b) c | None => True end /\ within (v :: b) (snd ce))). split; assumption.
    + intros [c' e] [H1 H2]. cbn in H1, H2. apply post_ok. cbn. auto.
  - apply names_app in N0 as [N1 N2]. eapply post_bind; [apply IHc; exact N1|]. intros a Ha. eapply post_bind; [apply IHm; exact N2|]. intros a' Ha'. apply post_bind_any. intro u. apply reduce_within. split; assumption.
  - destruct N0 as [N1 N2]. eapply post_bind; [apply IHo; split; [exact N1|intros x X; apply N2; right; exact X]|]. intros a Ha. apply post_bind_any. intro u. apply reduce_within. split; [apply N2; left; reflexivity|exact Ha].
  - apply names_app in N0 as [N1 N2]. eapply post_bind; [apply IHc; exact N1|]. intros a Ha. eapply post_bind; [apply IHi; exact N2|]. intros a' Ha'. apply post_bind_any. intro u. apply reduce_within. split; assumption.
  - apply names_app in N0 as [N1 N2]. apply names_app in N2 as [N2 N3].
    apply (post_bind _ _ _ _ (fun c => match c with Some c => within b c | None => True end)).
    { destruct x as [x|]; [|apply post_ok; exact I]. eapply post_bind; [apply IHa; exact N2|]. intros e He. apply post_ok. exact He. }
    intros ex Hx. apply (post_bind _ _ _ _ (fun c => match c with Some c => within b c | None => True end)).
    { destruct y as [y|]; [|apply post_ok; exact I]. eapply post_bind; [apply IHb; exact N3|]. intros e He. apply post_ok. exact He. }
    intros ey Hy. eapply post_bind; [apply IHc; exact N1|]. intros a Ha. apply post_bind_any. intro u. apply reduce_within. split; [exact Ha|]. split; [destruct ex; [exact Hx|exact I]|destruct ey; [exact Hy|exact I]].
  - apply post_bind_any. intro u. apply post_bind_any. intro t. apply post_ok. cbn. destruct bi; [exact I|]. destruct N0 as [N1 _]. destruct (str_mem nm b) eqn:E; [left; apply str_mem_In; exact E|right; apply N1; left; reflexivity].
  - apply names_app in N0 as [N1 N2]. eapply post_bind; [apply IHf; exact N1|]. intros a Ha. eapply post_bind; [apply made_list; [exact IHl|exact N2]|]. intros es Hes. apply post_bind_any. intro u. apply reduce_within. split; assumption.
  - apply names_app in N0 as [N1 N2]. apply names_app in N2 as [N2 N3]. eapply post_bind; [apply IHc; exact N1|]. intros a Ha. eapply post_bind; [apply IHa; exact N2|]. intros a' Ha'. eapply post_bind; [apply IHb; exact N3|]. intros a2 Ha2.
    apply reduce_within. split; [exact Ha|split; assumption].
  - eapply post_bind; [apply IHx; exact N0|]. intros a Ha. apply reduce_within. exact Ha.
Qed.
End Eval.
