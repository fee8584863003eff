(** * C43 at construction: which exceptions constructing a rule can raise *)
From Coq Require Import List ZArith Lia Bool String.
From Verif Require Import Base Dec Value EqFacts DType DTypeFacts Types TypesFacts CoerceFacts Ops ParseUtil Attr Prog Ast Eval Build Engine
  ProgFacts StateFacts Post Fits DecFacts Demo P_Ops P_Aware P_Names P_Sound P_Errors P_Static P_Numbers.
Import ListNotations.
Open Scope list_scope.
Open Scope Z_scope.

(** ** Programs that neither look at the scopes and groups nor call the resolver *)
Definition quiet_op (o : op) : Prop := match o with OSetG _ | OGetDc | OUser _ _ | ONow _ | ORandom _ => True | _ => False end.
Inductive quietq {A} (Q : A -> Prop) : prog A -> Prop :=
| Q_ret : forall r, (forall a, r = Ok a -> Q a) -> quietq Q (Ret r)
| Q_step : forall o k, quiet_op o -> (forall a, quietq Q (k a)) -> quietq Q (Step o k).
Definition quiet {A} (p : prog A) : Prop := quietq (fun _ => True) p.

Lemma quiet_ret : forall A (r : result A), quiet (Ret r).
Proof. intros. constructor. auto. Qed.
Lemma quietq_bind : forall A B (p : prog A) (f : A -> prog B) (P : A -> Prop) (Q : B -> Prop), quietq P p -> (forall a, P a -> quietq Q (f a)) -> quietq Q (pbind p f).
Proof.
  intros A B p f P Q H Hf. unfold pbind. induction H as [[a|x] Hr|o k Ho _ IH]; cbn [pthen]; [apply Hf; auto|constructor; discriminate|]. constructor; [exact Ho|exact IH].
Qed.
Lemma quiet_then : forall A B (p : prog A) (f : result A -> prog B), quiet p -> (forall r, quiet (f r)) -> quiet (pthen p f).
Proof. intros A B p f H Hf. induction H as [r|o k Ho _ IH]; cbn [pthen]; [apply Hf|]. constructor; [exact Ho|exact IH]. Qed.
Lemma quiet_bind : forall A B (p : prog A) (f : A -> prog B), quiet p -> (forall a, quiet (f a)) -> quiet (pbind p f).
Proof. intros. apply quiet_then; [assumption|]. intros [a|x]; [auto|apply quiet_ret]. Qed.
Lemma quiet_act : forall o, quiet_op o -> quiet (act o).
Proof. intros. constructor; [assumption|]. intro. apply quiet_ret. Qed.
Lemma quietq_pmapM : forall A B (f : A -> prog B) (Q : B -> Prop) l, (forall a, In a l -> quietq Q (f a)) -> quietq (fun bs => forall b, In b bs -> Q b) (pmapM f l).
Proof.
  intros A B f Q l. induction l as [|a l IH]; intro H; [constructor; intros bs E; injection E as <-; intros b []|]. cbn [pmapM]. eapply quietq_bind; [apply H; left; reflexivity|]. intros b Hb.
  eapply quietq_bind; [apply IH; intros; apply H; right; assumption|]. intros bs Hbs. constructor. intros r E. injection E as <-. intros b0 [<-|K]; auto.
Qed.
Lemma quiet_impl : forall A (p : prog A) Q, quietq Q p -> quiet p.
Proof. intros A p Q H. induction H; constructor; auto. Qed.
Lemma quiet_pmapM : forall A B (f : A -> prog B) l, (forall a, In a l -> quiet (f a)) -> quiet (pmapM f l).
Proof. intros. eapply quiet_impl. apply quietq_pmapM. exact H. Qed.

(** the same world with another resolver *)
Definition with_resolver (w : world) (f : list event -> value -> str -> result value) : world :=
  {| w_resolve := f; w_user := w_user w; w_now := w_now w; w_random := w_random w |}.
Lemma quiet_run : forall A (p : prog A), quiet p -> forall w f q q', s_dc q = s_dc q' -> s_log q = s_log q' ->
  fst (run w p q) = fst (run (with_resolver w f) p q').
Proof.
  intros A p H. induction H as [r|o k Ho _ IH]; intros w f q q' D L; [reflexivity|].
  destruct o; try contradiction; cbn [run step_op with_resolver w_user w_now w_random]; try (apply IH; cbn; congruence); rewrite ?D, ?L; apply IH; cbn; congruence.
Qed.

Section Quiet.
Context {Orc : Oracle} (C : ctx) (thing : value).

Lemma apply_first_quiet : forall f args, quiet (apply_first_order C f args).
Proof.
  intros f args. unfold apply_first_order.
  assert (R : quiet (b_random args)).
  { unfold b_random. assert (Q : forall b, quiet (act (ORandom b) : prog value)) by (intro; exact (quiet_act (ORandom b) I)).
    destruct args as [|b [|? ?]]; [apply Q| |apply quiet_ret]. destruct (truthy b); [|apply Q].
    apply quiet_bind; [apply quiet_ret|]. intros [|]; [apply Q|apply quiet_ret]. }
  destruct f; try exact R; try apply quiet_ret; destruct args as [|a [|? ?]]; try apply quiet_ret; try (apply quiet_bind; [exact (quiet_act OGetDc I)|intro; apply quiet_ret]); destruct a; apply quiet_ret.
Qed.
Lemma apply_flat_quiet : forall f args, quiet (apply_flat C f args).
Proof.
  intros f args. destruct f; cbn [apply_flat]; try apply quiet_ret.
  - constructor; [exact I|]. intro. apply quiet_ret.
  - apply apply_first_quiet.
  - destruct args as [|a [|? ?]]; apply quiet_ret.
Qed.
Lemma apply_quiet : forall f args, quiet (apply_fun C f args).
Proof.
  intros f args. assert (A := apply_flat_quiet). destruct f; try exact (A _ _); try (destruct f; try exact (A _ _)). 
  all: destruct args as [|g [|it [|? ?]]]; try exact (A _ _); cbn [apply_fun]; (apply quiet_bind; [apply quiet_ret|]); intro l; (apply quiet_bind; [apply quiet_pmapM; intros x _|intro; apply quiet_ret]); try apply A.
  apply quiet_bind; [destruct g; try apply A; apply quiet_ret|intro; apply quiet_ret].
Qed.

Lemma reduced_quiet : forall e, is_reduced e = true -> quiet (eval C thing e).
Proof.
  induction e as [v|v t|l IH|l IH|l IH|o a b IHa IHb|r n i c IHr IHi IHc|c m IHc IHm|o n sf IHo|c i sf IHc IHi|c a b sf IHc IHa IHb|n bi t|f l IHf IHl|c a b IHc IHa IHb|o e IHe] using expr_ind';
    intro R; try discriminate R; cbn [eval]; try apply quiet_ret; cbn [is_reduced] in R; rewrite forallb_forall in R; rewrite Forall_forall in IH.
  - apply quiet_bind; [apply quiet_pmapM; intros e He; apply IH; auto|intro; apply quiet_ret].
  - apply quiet_bind; [apply quiet_pmapM; intros e He; apply quiet_bind; [apply IH; auto|intro v; destruct (hashable v); apply quiet_ret]|intro; apply quiet_ret].
  - eapply quietq_bind; [apply (quietq_pmapM _ _ _ (fun kp : value * prog value => quiet (snd kp)))|].
    + intros [k v] H. specialize (IH _ H). specialize (R _ H). cbn [fst snd] in IH, R |- *. apply andb_true_iff in R as [R1 R2]. destruct IH as [I1 I2].
      eapply quietq_bind; [apply I1; exact R1|]. intros k0 _. eapply quietq_bind; [apply quiet_ret|]. intros k1 _. constructor. intros kp E. injection E as <-. apply I2. exact R2.
    + intros ks Hk. apply quiet_bind; [|intro; apply quiet_ret]. apply quiet_pmapM. intros [k p] Hp. apply quiet_bind; [|intro; apply quiet_ret]. cbn [snd].
      destruct (mk_dict_In _ _ _ _ Hp) as [_ K]. apply in_map_iff in K as [[k' p'] [E K]]. cbn [snd] in E. subst p'. exact (Hk _ K).
Qed.
End Quiet.

(** ** The return types of literal functions do not constrain members *)
Definition flat_fun (t : dtype) : Prop := match t with TFun _ r _ _ => flat r | _ => True end.
Definition ff (e : expr) : Prop := forall v t, part (EFun v t) e -> flat_fun t.
Section FF.
Context {Orc : Oracle} (C : ctx).
Lemma ff_lit : forall v, ff (ELit v).
Proof. intros v x t H. inversion H. Qed.
Lemma ff_fun : forall v t, flat_fun t -> ff (EFun v t).
Proof. intros v t K x t' H. inversion H; subst. exact K. Qed.
Lemma ff_parts : forall e, (forall v t, e <> EFun v t) -> (forall x, part x e -> x = e \/ exists y, part x y /\ ff y) -> ff e.
Proof. intros e N H v t P. destruct (H _ P) as [E|[y [Py F]]]; [exfalso; symmetry in E; exact (N _ _ E)|eapply F; exact Py]. Qed.
Ltac lo := apply ff_parts; [discriminate|]; let x := fresh "x" in let P := fresh "P" in intros x P; inversion P; subst; try (left; reflexivity); right.
Lemma attr_flat : forall t n ty, resolve_attr_type t n = Ok ty -> flat_fun ty.
Proof.
  intros t n ty H. unfold resolve_attr_type in H. apply rbind_ok in H as [a [_ H]].
  destruct a; cbn [attr_type] in H; try (injection H as <-; exact I);
    (destruct (dt_eqb t TBytes); [injection H as <-; exact I|]; destruct (dt_eqb t TString); [injection H as <-; exact I|]; apply rmap_ok in H as [m [_ ->]]; exact I).
Qed.
Lemma lit_of_ff : forall v e, lit_of v = Ok e -> ff e.
Proof.
  assert (A : forall v e, rmap ELit (coerce true v) = Ok e -> match v with VArr _ | VList _ | VSet _ | VMap _ | VDict _ | VRange _ => False | _ => True end -> ff e).
  { intros v e H N. apply rmap_ok in H as [u [E ->]]. apply ff_lit. }
  induction v as [|b|d|z|f|c|b|w0 z|d|u|l IH|l IH|l|l IH|l IH|l IH|n|f|me v IH|n] using value_ind'; intros e H; cbn [lit_of] in H; apply rbind_ok in H as [t0 [_ H]]; try (eapply A; [exact H|exact I]).
  - apply rmap_ok in H as [es [E ->]]. apply rmapM_ok_iff in E. rewrite Forall_forall in IH. lo. match goal with K : In ?e es |- _ => destruct (Forall2_In_r _ _ _ _ _ _ E K) as [v [Hv Ev]]; exists e; split; [assumption|eapply IH; eauto] end.
  - apply rmap_ok in H as [es [E ->]]. apply rmapM_ok_iff in E. rewrite Forall_forall in IH. lo. match goal with K : In ?e es |- _ => destruct (Forall2_In_r _ _ _ _ _ _ E K) as [v [Hv Ev]]; exists e; split; [assumption|eapply IH; eauto] end.
  - injection H as <-. lo. match goal with K : In ?e (map _ l) |- _ => apply in_map_iff in K as [z [<- _]] end. eexists. split; [eassumption|]. apply ff_lit.
  - apply rmap_ok in H as [es [E ->]]. apply rmapM_ok_iff in E. rewrite Forall_forall in IH. lo. match goal with K : In ?e es |- _ => destruct (Forall2_In_r _ _ _ _ _ _ E K) as [v [Hv Ev]]; exists e; split; [assumption|eapply IH; eauto] end.
  - apply rmap_ok in H as [es [E ->]]. apply rmapM_ok_iff in E. rewrite Forall_forall in IH. lo; match goal with K : In (?k, ?e) es |- _ => destruct (Forall2_In_r _ _ _ _ _ _ E K) as [kv [Hv Ev]] end;
      apply rbind_ok in Ev as [k1 [E1 Ev]]; apply rbind_ok in Ev as [v1 [E2 Ev]]; injection Ev as <- <-; destruct (IH _ Hv) as [I1 I2]; eexists; (split; [eassumption|]); eauto.
  - apply rmap_ok in H as [es [E ->]]. apply rmapM_ok_iff in E. rewrite Forall_forall in IH. lo; match goal with K : In (?k, ?e) es |- _ => destruct (Forall2_In_r _ _ _ _ _ _ E K) as [kv [Hv Ev]] end;
      apply rbind_ok in Ev as [k1 [E1 Ev]]; apply rbind_ok in Ev as [v1 [E2 Ev]]; injection Ev as <- <-; destruct (IH _ Hv) as [I1 I2]; eexists; (split; [eassumption|]); eauto.
Qed.
Lemma fold_ff : forall e, post (fold C e) ff.
Proof. intro e. unfold fold. apply post_bind_any. intro v. apply post_ret. intros l E. eapply lit_of_ff. exact E. Qed.
Lemma ff_sub : forall x e, part x e -> ff e -> ff x.
Proof. intros x e H F v t K. eapply F. eapply part_trans; eauto. Qed.
Lemma bool_ff : forall p : prog value, post p (fun v => exists b, v = VBool b) -> post (do! v := p in ok (ELit v)) ff.
Proof. intros p H. eapply post_bind; [exact H|]. intros v [b ->]. apply post_ok. apply ff_lit. Qed.
Lemma reduce_ff : forall e, ff e -> post (reduce C e) ff.
Proof.
  induction e as [v|v t|l IH|l IH|l IH|o a b IHa IHb|r n i c IHr IHi IHc|c m IHc IHm|o n sf IHo|c i sf IHc IHi|c a b sf IHc IHa IHb|n bi t|f l IHf IHl|c a b IHc IHa IHb|o e IHe] using expr_ind';
    intro L; cbn [reduce]; try (apply post_ok; exact L).
  - destruct (_ && _); [apply fold_ff|apply post_ok; exact L].
  - destruct (_ && _); [|apply post_ok; exact L]. apply bool_ff. cbn [eval]. apply post_bind_any. intro x. apply post_bind_any. intro u. apply post_bind_any. intro y.
    apply post_ret. intros v H. apply rmap_ok in H as [b [_ ->]]. eauto.
  - destruct (is_reduced o); [|apply post_ok; exact L]. eapply post_bind; [apply fold_ff|]. intros l Hl. apply post_ok.
    destruct l; try exact Hl. destruct (dt_eqb (rtype (ELit v)) t_function && is_compat (rtype (EAttr o n sf)) t_function) eqn:K; [|exact Hl]. apply ff_fun. cbn [rtype]. unfold attr_rtype. destruct (_ || _); [exact I|]. destruct (resolve_attr_type (rtype o) n) as [ty|] eqn:T; [|exact I].
    exact (attr_flat _ _ _ T).
  - destruct (match rtype c with TMap k _ _ => sf && negb (is_compat (rtype i) k) | _ => false end); [apply post_ok; apply ff_lit|].
    destruct (_ && _); [apply fold_ff|apply post_ok; exact L].
  - destruct (_ && _); [apply fold_ff|apply post_ok; exact L].
  - destruct (_ && _); [apply fold_ff|apply post_ok; exact L].
  - destruct (is_reduced c); [|apply post_ok; exact L]. destruct (lit_truthy c).
    + apply IHa. eapply ff_sub; [|exact L]. apply Pa_ta. constructor.
    + apply IHb. eapply ff_sub; [|exact L]. apply Pa_tb. constructor.
  - destruct o.
    + destruct (is_reduced e); [|apply post_ok; exact L]. apply bool_ff. cbn [eval]. apply post_bind_any. intro x. apply post_ok. eauto.
    + destruct (is_reduced e); [|apply post_ok; exact L].
      destruct e as [[]| | | | | | | | | | | | | |]; try apply post_raise; cbn [eval]; (eapply (post_bind _ _ _ _ (fun v => match v with VDec _ | VTd _ => True | _ => False end));
        [apply (post_bind _ _ _ _ (fun x => match x with VDec _ | VTd _ => True | _ => False end)); [apply post_ok; exact I|]; intros x Hx; apply post_bind_any; intro dc; apply post_ret; intros v H;
         destruct x; try contradiction; cbn [op_neg is_numeric] in H; [apply rdec_dec in H as [? ->]; exact I|apply mk_td_td in H as [? ->]; exact I]
        |intros v Hv; apply post_ok; apply ff_lit]).
Qed.
Lemma build_list_ff : forall l, (forall n, In n l -> post (build C n) ff) -> post (pmapM (build C) l) (fun es => forall e, In e es -> ff e).
Proof.
  intros l H. eapply post_impl; [|apply (post_pmapM _ _ _ (fun _ e => ff e)); exact H]. intros es F e He. destruct (Forall2_In_r _ _ _ _ _ _ F He) as [n [_ K]]. exact K.
Qed.
Lemma opt_ff : forall o, opt_D (fun n => written n -> post (build C n) ff) o -> opt_D written o ->
  post (match o with Some n => do! e := build C n in ok (Some e) | None => ok None end) (fun oc => match oc with Some c => ff c | None => True end).
Proof. intros [n|] H W; [|apply post_ok; exact I]. eapply post_bind; [apply H; exact W|]. intros e He. apply post_ok. exact He. Qed.
Theorem build_ff : forall n, written n -> post (build C n) ff.
Proof.
  induction n as [v|t|t|t|l IH|l IH|l IH|o a b IHa IHb|r v i c IHr IHi IHc|c m IHc IHm|o nm sf IHo|c i sf IHc IHi|c a b sf IHc IHa IHb|nm bi|f l IHf IHl|c a b IHc IHa IHb|o e IHe] using dnode_ind';
    intro W; cbn [build].
  - apply post_ok. apply ff_lit.
  - apply post_ret. intros e E. apply rmap_ok in E as [d [_ ->]]. apply ff_lit.
  - apply post_ret. intros e E. apply rmap_ok in E as [d [E ->]]. apply ff_lit.
  - apply post_ret. intros e E. apply rmap_ok in E as [d [E ->]]. apply ff_lit.
  - rewrite Forall_forall in IH. eapply post_bind; [apply build_list_ff; intros n Hn; apply IH; [exact Hn|eapply written_sub; [|exact W]; eapply Dp_arr; [exact Hn|constructor]]|].
    intros es H. apply post_ok. lo. eauto.
  - rewrite Forall_forall in IH. eapply post_bind; [apply build_list_ff; intros n Hn; apply IH; [exact Hn|eapply written_sub; [|exact W]; eapply Dp_set; [exact Hn|constructor]]|].
    intros es H. apply post_ok. lo. eauto.
  - rewrite Forall_forall in IH. eapply post_bind; [apply (post_pmapM _ _ _ (fun _ e => ff (fst e) /\ ff (snd e)))|].
    + intros [k v] Hn. destruct (IH _ Hn) as [IH1 IH2]. eapply post_bind; [apply IH1; eapply written_sub; [|exact W]; eapply Dp_key; [exact Hn|constructor]|]. intros e1 H1.
      eapply post_bind; [apply IH2; eapply written_sub; [|exact W]; eapply Dp_val; [exact Hn|constructor]|]. intros e2 H2. apply post_ok. split; assumption.
    + intros es F. apply post_bind_any. intro u. apply post_ok. lo; match goal with K : In _ es |- _ => destruct (Forall2_In_r _ _ _ _ _ _ F K) as [x0 [_ [K1 K2]]] end; eauto.
  - eapply post_bind; [apply IHa; eapply written_sub; [|exact W]; apply Dp_l; constructor|]. intros x Hx.
    eapply post_bind; [apply IHb; eapply written_sub; [|exact W]; apply Dp_r; constructor|]. intros y Hy. apply post_bind_any. intro u. apply reduce_ff. lo; eauto.
  - eapply post_bind; [apply IHi; eapply written_sub; [|exact W]; apply Dp_ci; constructor|]. intros x Hx. destruct (_ && _); [apply post_raise|].
    apply (post_bind _ _ _ _ (fun cr => ff (snd cr) /\ match fst cr with Some c => ff c | None => True end)).
    + apply post_scope. eapply post_bind; [apply opt_ff; [destruct c; exact IHc|destruct c; [eapply written_sub; [|exact W]; apply Dp_cc; constructor|exact I]]|].
      intros oc Hc. eapply post_bind; [apply IHr; eapply written_sub; [|exact W]; apply Dp_cr; constructor|]. intros e He. apply post_ok. split; assumption.
    + intros [oc e] [He Hc]. apply post_ok. cbn [fst snd] in *. lo; eauto.
  - eapply post_bind; [apply IHc; eapply written_sub; [|exact W]; apply Dp_inc; constructor|]. intros x Hx.
    eapply post_bind; [apply IHm; eapply written_sub; [|exact W]; apply Dp_inm; constructor|]. intros y Hy. apply post_bind_any. intro u. apply reduce_ff. lo; eauto.
  - eapply post_bind; [apply IHo; eapply written_sub; [|exact W]; apply Dp_attr; constructor|]. intros x Hx. apply post_bind_any. intro u. apply reduce_ff. lo; eauto.
  - eapply post_bind; [apply IHc; eapply written_sub; [|exact W]; apply Dp_itc; constructor|]. intros x Hx.
    eapply post_bind; [apply IHi; eapply written_sub; [|exact W]; apply Dp_iti; constructor|]. intros y Hy. apply post_bind_any. intro u. apply reduce_ff. lo; eauto.
  - eapply post_bind; [apply opt_ff; [destruct a; exact IHa|destruct a; [eapply written_sub; [|exact W]; apply Dp_sla; constructor|exact I]]|].
    intros oa Ha. eapply post_bind; [apply opt_ff; [destruct b; exact IHb|destruct b; [eapply written_sub; [|exact W]; apply Dp_slb; constructor|exact I]]|].
    intros ob Hb. eapply post_bind; [apply IHc; eapply written_sub; [|exact W]; apply Dp_slc; constructor|]. intros z Hz. apply post_bind_any. intro u. apply reduce_ff.
    assert (Ka : ff (mk_lit_slice oa (VDec (dec_of_Z 0)))) by (destruct oa; cbn; [exact Ha|apply ff_lit]).
    assert (Kb : ff (mk_lit_slice ob VNull)) by (destruct ob; cbn; [exact Hb|apply ff_lit]).
    lo; eauto.
  - apply post_bind_any. intro u. apply post_bind_any. intro t. apply post_ok. lo.
  - eapply post_bind; [apply IHf; eapply written_sub; [|exact W]; apply Dp_callf; constructor|]. intros x Hx. rewrite Forall_forall in IHl.
    eapply post_bind; [apply build_list_ff; intros n Hn; apply IHl; [exact Hn|eapply written_sub; [|exact W]; eapply Dp_callx; [exact Hn|constructor]]|].
    intros es Hes. apply post_bind_any. intro u. apply reduce_ff. lo; eauto.
  - eapply post_bind; [apply IHc; eapply written_sub; [|exact W]; apply Dp_tc; constructor|]. intros x Hx.
    eapply post_bind; [apply IHa; eapply written_sub; [|exact W]; apply Dp_ta; constructor|]. intros y Hy.
    eapply post_bind; [apply IHb; eapply written_sub; [|exact W]; apply Dp_tb; constructor|]. intros z Hz. apply reduce_ff. lo; eauto.
  - eapply post_bind; [apply IHe; eapply written_sub; [|exact W]; apply Dp_un; constructor|]. intros x Hx. apply reduce_ff. lo; eauto.
Qed.
End FF.

(** ** Reducing twice changes nothing *)
Section Stable.
Context {Orc : Oracle} (C : ctx).
Definition stable (e : expr) : Prop := reduce C e = ok e.
Lemma lit_of_stable : forall v e, lit_of v = Ok e -> stable e.
Proof.
  intros v e H. destruct v; cbn [lit_of] in H; apply rbind_ok in H as [t0 [_ H]]; try (apply rmap_ok in H as [es [E ->]]; reflexivity). injection H as <-. reflexivity.
Qed.
Lemma fold_stable : forall e, post (fold C e) stable.
Proof. intro e. unfold fold. apply post_bind_any. intro v. apply post_ret. intros l E. eapply lit_of_stable. exact E. Qed.
Lemma reduce_stable : forall e, (forall c a b, e = ETern c a b -> stable a /\ stable b) -> post (reduce C e) stable.
Proof.
  intros e T. destruct e as [v|v t|l|l|l|o a b|r n i c|c m|o n sf|c i sf|c a b sf|n bi t|f l|c a b|o e]; cbn [reduce]; try (apply post_ok; reflexivity).
  - destruct (is_reduced a && is_reduced b) eqn:R; [apply fold_stable|apply post_ok; unfold stable; cbn [reduce]; rewrite R; reflexivity].
  - destruct (is_reduced c && is_reduced m) eqn:R; [apply post_bind_any; intro; apply post_ok; reflexivity|apply post_ok; unfold stable; cbn [reduce]; rewrite R; reflexivity].
  - destruct (is_reduced o) eqn:R; [|apply post_ok; unfold stable; cbn [reduce]; rewrite R; reflexivity].
    eapply post_bind; [apply fold_stable|]. intros l Hl. apply post_ok. destruct l; try exact Hl. destruct (_ && _); [reflexivity|exact Hl].
  - destruct (match rtype c with TMap k _ _ => sf && negb (is_compat (rtype i) k) | _ => false end) eqn:M; [apply post_ok; reflexivity|].
    destruct (is_reduced c && is_reduced i) eqn:R; [apply fold_stable|apply post_ok; unfold stable; cbn [reduce]; rewrite M, R; reflexivity].
  - destruct (is_reduced c && is_reduced a && is_reduced b) eqn:R; [apply fold_stable|apply post_ok; unfold stable; cbn [reduce]; rewrite R; reflexivity].
  - destruct (is_reduced f && forallb is_reduced l) eqn:R; [apply fold_stable|apply post_ok; unfold stable; cbn [reduce]; rewrite R; reflexivity].
  - destruct (T _ _ _ eq_refl) as [Sa Sb]. destruct (is_reduced c) eqn:R; [|apply post_ok; unfold stable; cbn [reduce]; rewrite R; reflexivity].
    destruct (lit_truthy c); [rewrite Sa|rewrite Sb]; apply post_ok; assumption.
  - destruct o; destruct (is_reduced e) eqn:R; try (apply post_ok; unfold stable; cbn [reduce]; rewrite R; reflexivity).
    + apply post_bind_any. intro. apply post_ok. reflexivity.
    + destruct e as [[]| | | | | | | | | | | | | |]; try apply post_raise; (apply post_bind_any; intro; apply post_ok; reflexivity).
Qed.
Lemma build_stable : forall n, post (build C n) stable.
Proof.
  induction n as [v|t|t|t|l IH|l IH|l IH|o a b IHa IHb|r v i c IHr IHi IHc|c m IHc IHm|o nm sf IHo|c i sf IHc IHi|c a b sf IHc IHa IHb|nm bi|f l IHf IHl|c a b IHc IHa IHb|o e IHe] using dnode_ind'; cbn [build];
    try (apply post_ok; reflexivity); try (apply post_ret; intros e E; apply rmap_ok in E as [d [_ ->]]; reflexivity);
    try (repeat (apply post_bind_any; intro); first [apply post_ok; reflexivity|apply reduce_stable; intros ? ? ? K; discriminate K]).
  - apply post_bind_any. intro x. destruct (_ && _); [apply post_raise|]. apply post_bind_any. intro y. apply post_ok. reflexivity.
  - apply post_bind_any. intro x. eapply post_bind; [exact IHa|]. intros y Hy. eapply post_bind; [exact IHb|]. intros z Hz. apply reduce_stable. intros c0 a0 b0 K. injection K as <- <- <-. split; assumption.
Qed.
End Stable.

(** ** Specification *)

(** an operation all operands of which are literals: it is evaluated while the rule is constructed *)
Definition constant (e : expr) : bool :=
  match e with
  | EBin _ a b | EIn a b | EItem a b _ => is_reduced a && is_reduced b
  | EAttr a _ _ | EUn _ a => is_reduced a
  | ESlice c a b _ => is_reduced c && is_reduced a && is_reduced b
  | ECall f l => is_reduced f && forallb is_reduced l
  | _ => false
  end.
(** constructing the node [n] gives the expression [e] *)
Definition becomes {Orc : Oracle} (C : ctx) (w : world) (n : dnode) (e : expr) : Prop := exists q q', run w (build C n) q = (Ok e, q').
(** a bound of a slice: 0 and null if it is left out *)
Definition bound {Orc : Oracle} (C : ctx) (w : world) (o : option dnode) (d : value) (e : expr) : Prop :=
  match o with Some n => becomes C w n e | None => e = ELit d end.
(** [e] is the operation written as [n], applied to what its operands became *)
Definition operation {Orc : Oracle} (C : ctx) (w : world) (n : dnode) (e : expr) : Prop :=
  match n, e with
  | DBin o a b, EBin o' a' b' => o = o' /\ becomes C w a a' /\ becomes C w b b'
  | DIn c m, EIn c' m' => becomes C w c c' /\ becomes C w m m'
  | DAttr o nm sf, EAttr o' nm' sf' => nm = nm' /\ sf = sf' /\ becomes C w o o'
  | DItem c i sf, EItem c' i' sf' => sf = sf' /\ becomes C w c c' /\ becomes C w i i'
  | DSlice c a b sf, ESlice c' a' b' sf' => sf = sf' /\ becomes C w c c' /\ bound C w a (VDec (dec_of_Z 0)) a' /\ bound C w b VNull b'
  | DCall f l, ECall f' l' => becomes C w f f' /\ Forall2 (becomes C w) l l'
  | DUn o a, EUn o' a' => o = o' /\ becomes C w a a'
  | _, _ => False
  end.

(** What constructing a rule can raise, with [L] the names bound by enclosing comprehensions. *)
Inductive raises_in {Orc : Oracle} (C : ctx) (w : world) (L : list str) (n : dnode) (x : exn) : Prop :=
| Cr_engine : is_engine x = true -> raises_in C w L n x
| Cr_types : forall name, dpart (DSym name false) n -> c_types C name = Err x -> raises_in C w L n x       (* the type resolver raised it *)
| Cr_timedelta : forall t, dpart (DTimedelta t) n -> parse_timedelta t = Err x -> raises_in C w L n x      (* OverflowError *)
| Cr_folded : forall n' e e', dpart n' n -> operation C w n' e -> constant e = true -> part e' e -> leaks C e' x -> raises_in C w L n x
| Cr_resolver : forall o nm sf l v, dpart (DAttr o nm sf) n -> w_resolve w l v nm = Err x -> raises_in C w L n x   (* a key of a mapping literal *)
| Cr_variable : forall r var i c o sf, dpart (DComp r var i c) n -> dpart (DAttr o var sf) r \/ (exists c', c = Some c' /\ dpart (DAttr o var sf) c') ->
    x = PType -> raises_in C w L n x
| Cr_outer : forall o nm sf, dpart (DAttr o nm sf) n -> In nm L -> x = PType -> raises_in C w L n x.

(** ** Operations on literals *)
Lemma reduced_part : forall x e, part x e -> is_reduced e = true -> is_reduced x = true.
Proof.
  intros x e P. induction P; intro R; try exact R; try discriminate R; apply IHP; cbn [is_reduced] in R; rewrite forallb_forall in R.
  - apply R. assumption.
  - apply R. assumption.
  - specialize (R _ H). apply andb_true_iff in R. apply R.
  - specialize (R _ H). apply andb_true_iff in R. apply R.
Qed.

Section Constants.
Context {Orc : Oracle} (C : ctx) (w : world).
Hypothesis NoDefault : c_default C = None.
Hypothesis Builtins : supplied C w.
Hypothesis B : behaved w VNull.

Lemma constant_part : forall x e, part x e -> constant e = true -> x = e \/ is_reduced x = true.
Proof.
  intros x e P K. inversion P; subst; try (left; reflexivity); try discriminate K; right; (eapply reduced_part; [eassumption|]); cbn [constant] in K;
    repeat match goal with H : _ && _ = true |- _ => apply andb_true_iff in H as [? ?] end; try assumption.
  match goal with H : forallb _ _ = true |- _ => rewrite forallb_forall in H; apply H; assumption end.
Qed.
Lemma reduced_fair : forall e, is_reduced e = true -> fair C e.
Proof. intros e R. split; intros; match goal with H : part _ e |- _ => apply reduced_part in H; [discriminate H|exact R] end. Qed.
Lemma constant_fair : forall e, constant e = true -> ff e -> fair C e.
Proof.
  intros e K F. split.
  - intros r n i c P. destruct (constant_part _ _ P K) as [<-|R]; [discriminate K|discriminate R].
  - intros f args P. destruct (constant_part _ _ P K) as [<-|R]; [|discriminate R]. left. intros nm r a mn T. cbn [constant] in K. apply andb_true_iff in K as [K _].
    destruct f; try discriminate K; cbn [rtype] in T; try discriminate T.
    + unfold lit_type in T. destruct (from_value v) as [t|] eqn:E; [|discriminate T]. subst t. destruct v; cbn in E; try discriminate E; try (injection E as <- <- <- <-; exact I);
        try (apply rmap_ok in E as [? [_ E]]; discriminate E); try (apply rbind_ok in E as [? [_ E]]; apply rbind_ok in E as [? [_ E]]; unfold mk_mapping in E; destruct (_ && _) in E; discriminate E).
    + subst t. apply (F v (TFun nm r a mn)). apply Pa_callf. constructor.
Qed.

Definition wq : world := with_resolver w (fun _ _ _ => Err XEngine).
Definition qq (q : st) : st := {| s_scopes := []; s_groups := VNull; s_dc := s_dc q; s_syms := []; s_log := s_log q |}.
Lemma wq_behaved : behaved wq VNull.
Proof. destruct B as [B1 B2 B3 B4]. split; cbn; try discriminate; assumption. Qed.
Lemma qq_inv : forall q, inv (qq q).
Proof. intro q. split; [intros a []|]. split; [apply Po_scalar; exact I|constructor]. Qed.

Lemma quiet_result : forall e q r q', (forall nm t, ~ part (ESym nm true t) e) -> quiet (eval C VNull e) -> lits_ok e -> bins_aware e -> fair C e -> run w (eval C VNull e) q = (r, q') ->
  match r with Ok v => good (rtype e) v | Err x => is_engine x = true \/ exists e', part e' e /\ leaks C e' x end.
Proof.
  intros e q r q' NS Q L A F R. assert (E := quiet_run _ _ Q w (fun _ _ _ => Err XEngine) q (qq q) eq_refl eq_refl). rewrite R in E. cbn [fst] in E.
  destruct (run (with_resolver w (fun _ _ _ => Err XEngine)) (eval C VNull e) (qq q)) as [r1 q1] eqn:R1. cbn [fst] in E. subst r1. destruct r as [v|x].
  - exact (proj1 (eval_sound C wq VNull NoDefault Builtins wq_behaved e L F _ _ _ (qq_inv q) R1)).
  - destruct (eval_errors C wq VNull NoDefault Builtins wq_behaved e L A F _ _ _ (qq_inv q) R1) as [K|[[[l [n K]]|[[l [v [o [n [sf [_ [_ K]]]]]]]|[l [n [t [g [P _]]]]]]]|K]]; auto; try (cbn in K; injection K as <-; left; reflexivity). destruct (NS _ _ P).
Qed.

Lemma constant_quiet : forall e, constant e = true -> (forall o n sf, e <> EAttr o n sf) -> quiet (eval C VNull e).
Proof.
  intros e K N. assert (Q := reduced_quiet C VNull). assert (R : forall A (r : result A), quiet (Ret r)) by (intros; apply quiet_ret).
  assert (D : forall (f : dctx -> result value), quiet (do! dc := act OGetDc in Ret (f dc))) by (intro; apply quiet_bind; [exact (quiet_act OGetDc I)|intro; apply quiet_ret]).
  destruct e as [v|v t|l|l|l|o a b|r n i c|c m|o n sf|c i sf|c a b sf|n bi t|f l|c a b|o e]; try discriminate K; cbn [constant] in K;
    repeat match goal with H : _ && _ = true |- _ => apply andb_true_iff in H as [? ?] end; try (exfalso; eapply N; reflexivity).
  - assert (Qa : quiet (eval C VNull a)) by auto. assert (Qb : quiet (eval C VNull b)) by auto. cbn [eval]. destruct o; (apply quiet_bind; [exact Qa|]); intro x.
    + apply quiet_bind; [exact Qb|]. intro. apply D.
    + apply quiet_bind; [exact Qb|]. intro. apply D.
    + destruct (is_numeric x); [|apply R]. apply quiet_bind; [exact Qb|]. intro y. destruct (is_numeric y); [apply D|apply R].
    + apply quiet_bind; [apply R|]. intro t. destruct (dt_eqb t TFloat); [apply quiet_bind; [apply R|]; intros _; apply quiet_bind; [exact Qb|intro; apply R]|].
      destruct (is_set_t t); [apply quiet_bind; [exact Qb|intro; apply R]|apply R].
    + destruct (truthy x); [apply quiet_bind; [exact Qb|intro; apply R]|apply R].
    + destruct (truthy x); [apply R|apply quiet_bind; [exact Qb|intro; apply R]].
    + apply quiet_bind; [exact Qb|intro; apply R].
    + apply quiet_bind; [exact Qb|intro; apply R].
    + apply quiet_bind; [exact Qb|intro; apply R].
    + assert (Fz : forall p y, quiet (fuzzy_match C search neg p x y)).
      { intros p y. unfold fuzzy_match. destruct x; try apply R; destruct y; try apply R; (apply quiet_bind; [apply R|]); intros _; try apply R.
        destruct (o_re _ _ _ _); [|apply R]. apply quiet_bind; [exact (quiet_act (OSetG _) I)|intro; apply R]. }
      destruct x; try apply R; (apply quiet_bind; [exact Qb|intro; apply Fz]).
  - cbn [eval]. apply quiet_bind; [auto|]. intro x. apply quiet_bind; [apply R|]. intros _. apply quiet_bind; [auto|]. intro. apply R.
  - cbn [eval]. apply quiet_bind; [auto|]. intro x. destruct (is_null x); [destruct sf; apply R|]. apply quiet_bind; [auto|]. intro k. apply quiet_bind; [apply R|]. intros _.
    destruct (py_getitem x k) as [v|y]; [apply R|]. destruct y; try apply R. destruct sf; apply R.
  - cbn [eval]. apply quiet_bind; [auto|]. intro x. destruct (is_null x); [destruct sf; apply R|]. apply quiet_bind; [auto|]. intro va. apply quiet_bind; [apply R|]. intro i. apply quiet_bind; [auto|]. intro vb.
    apply quiet_bind; [apply R|]. intro j. apply quiet_bind; [apply R|]. intro. apply R.
  - cbn [eval]. apply quiet_bind; [auto|]. intro fv. destruct (callable fv); [|apply R]. apply quiet_bind; [apply quiet_pmapM; intros y Hy; apply Q; match goal with H : forallb _ _ = true |- _ => rewrite forallb_forall in H; auto end|].
    intro vs. apply quiet_bind; [apply R|]. intros _. apply quiet_bind; [apply quiet_then; [apply apply_quiet|intros [v|y]; apply R]|]. intro r. apply quiet_bind; [apply R|]. intro v. apply quiet_bind; [apply R|]. intro t.
    destruct (is_compat _ _); apply R.
  - destruct o; cbn [eval]; (apply quiet_bind; [auto|]); intro x; [apply R|apply D].
Qed.

Lemma lit_of_total : forall v, py_ok v -> supported v -> exists l, lit_of v = Ok l.
Proof.
  assert (A : forall v, py_ok v -> supported v -> exists l, rmap ELit (coerce true v) = Ok l).
  { intros v P S. destruct (proj2 (coerce_true_supported v P) S) as [u ->]. eexists. reflexivity. }
  induction v as [|b|d|z|f|c|b|w0 z|d|u|l IH|l IH|l|l IH|l IH|l IH|n|f|me v IH|n] using value_ind'; intros P S; destruct (proj2 (from_value_supported _ P) S) as [t0 T]; cbn [lit_of]; rewrite T; cbn [rbind]; try (apply A; assumption).
  - rewrite Forall_forall in IH. inversion P; subst; [contradiction|]. inversion S; subst. assert (K : exists es, rmapM lit_of l = Ok es) by (apply rmapM_total; intros x Hx; apply IH; auto). destruct K as [es ->]. eexists. reflexivity.
  - rewrite Forall_forall in IH. inversion P; subst; [contradiction|]. inversion S; subst. assert (K : exists es, rmapM lit_of l = Ok es) by (apply rmapM_total; intros x Hx; apply IH; auto). destruct K as [es ->]. eexists. reflexivity.
  - eexists. reflexivity.
  - rewrite Forall_forall in IH. inversion P as [|? |? |? HP|?|?]; subst; [contradiction|]. inversion S; subst. assert (K : exists es, rmapM lit_of l = Ok es) by (apply rmapM_total; intros x Hx; apply IH; auto; apply HP; exact Hx). destruct K as [es ->]. eexists. reflexivity.
  - rewrite Forall_forall in IH. inversion P as [|? |? |? |? HP|?]; subst; [contradiction|]. inversion S as [| | | | | | | | | | | | | |? HS|? HS| | | ]; subst.
    assert (K : exists es, rmapM (fun kv => rbind (lit_of (fst kv)) (fun k => rbind (lit_of (snd kv)) (fun w => Ok (k, w)))) l = Ok es).
    { apply rmapM_total. intros [k x] Hx. destruct (IH _ Hx) as [I1 I2]. destruct (HP _ _ Hx) as [P1 [_ P2]]. destruct (HS _ _ Hx) as [S1 S2]. cbn [fst snd] in *.
      destruct (I1 P1 S1) as [lk ->]. destruct (I2 P2 S2) as [lx ->]. eexists. reflexivity. }
    destruct K as [es ->]. eexists. reflexivity.
  - rewrite Forall_forall in IH. inversion P as [|? |? |? |?|? HP]; subst; [contradiction|]. inversion S as [| | | | | | | | | | | | | |? HS|? HS| | | ]; subst.
    assert (K : exists es, rmapM (fun kv => rbind (lit_of (fst kv)) (fun k => rbind (lit_of (snd kv)) (fun w => Ok (k, w)))) l = Ok es).
    { apply rmapM_total. intros [k x] Hx. destruct (IH _ Hx) as [I1 I2]. destruct (HP _ _ Hx) as [P1 [_ P2]]. destruct (HS _ _ Hx) as [S1 S2]. cbn [fst snd] in *.
      destruct (I1 P1 S1) as [lk ->]. destruct (I2 P2 S2) as [lx ->]. eexists. reflexivity. }
    destruct K as [es ->]. eexists. reflexivity.
Qed.
Lemma settled_lit : forall v, settled v -> exists l, lit_of v = Ok l.
Proof. intros v S. apply lit_of_total; [apply settled_py_ok; exact S|apply settled_supported; exact S]. Qed.

Definition ok3 (e : expr) : Prop := lits_ok e /\ bins_aware e /\ ff e.
Lemma ok3_part : forall x e, part x e -> ok3 e -> ok3 x.
Proof. intros x e P [L [A F]]. split; [eapply lits_part; eauto|]. split; [eapply bins_part; eauto|]. eapply ff_sub; eauto. Qed.

Lemma constant_result : forall e q r q', constant e = true -> (forall o n sf, e <> EAttr o n sf) -> ok3 e -> run w (eval C VNull e) q = (r, q') ->
  match r with Ok v => settled v | Err x => is_engine x = true \/ exists e', part e' e /\ leaks C e' x end.
Proof.
  intros e q r q' K N [L [A F]] R. assert (H := quiet_result e q r q' ltac:(intros nm t P; destruct (constant_part _ _ P K) as [<-|X]; [discriminate K|discriminate X]) (constant_quiet e K N) L A (constant_fair e K F) R). destruct r; [apply H|exact H].
Qed.

Lemma find_scope_In : forall l n a, find_scope l n = Some a -> In a l /\ a_name a = n.
Proof.
  induction l as [|b l IH]; intros n a H; [discriminate H|]. cbn [find_scope] in H. destruct (str_eqb n (a_name b)) eqn:E.
  - injection H as <-. split; [left; reflexivity|]. symmetry. apply str_eqb_eq. exact E.
  - destruct (IH _ _ H). split; [right|]; assumption.
Qed.
(** the attribute of a literal: the lookup may reach the scopes and the resolver *)
Lemma attr_result : forall o n sf q r q', is_reduced o = true -> ok3 (EAttr o n sf) -> (forall a, In a (s_scopes q) -> a_val a = v_undefined) ->
  run w (eval C VNull (EAttr o n sf)) q = (r, q') ->
  match r with
  | Ok v => settled v \/ (In n (map a_name (s_scopes q)) /\ v = v_undefined)
  | Err x => is_engine x = true \/ (exists e', part e' (EAttr o n sf) /\ leaks C e' x) \/ (exists l v, w_resolve w l v n = Err x)
  end.
Proof.
  intros o n sf q r q' Ro K Hs R. assert (Po : part o (EAttr o n sf)) by (apply Pa_attr; constructor). destruct (ok3_part _ _ Po K) as [Lo [Ao Fo]].
  cbn [eval] in R. rewrite run_pbind in R. destruct (run w (eval C VNull o) q) as [ro q1] eqn:R1.
  assert (Sq : s_scopes q1 = s_scopes q) by (assert (Z := eval_scopes C VNull o w q); rewrite R1 in Z; exact Z).
  assert (H := quiet_result o q ro q1 ltac:(intros nm t P; apply reduced_part in P; [discriminate P|exact Ro]) (reduced_quiet C VNull o Ro) Lo Ao (reduced_fair o Ro) R1). destruct ro as [v|x].
  2:{ injection R as <- <-. destruct H as [H|[e' [P H]]]; [left; exact H|right; left; exists e'; split; [eapply part_trans; eassumption|exact H]]. }
  destruct H as [Sv Fv]. destruct (is_null v && sf) eqn:Nv; [injection R as <- <-; left; apply Se_atom; exact I|].
  destruct (resolve_attr v n) as [u|x] eqn:Ra.
  { assert (Su : settled u) by (eapply resolve_attr_settled; eauto). assert (X := nval_settled C w false u (settled_py_ok _ Su) (or_intror (settled_supported _ Su))).
    destruct r as [v'|x]; [left; exact (proj1 (X (qq q1) v' (qq q1) (qq_inv q1) ltac:(cbn in R |- *; injection R as -> _; reflexivity)))|].
    cbn in R. injection R as R _. unfold new_value in R. rewrite (settled_coerce u Su) in R. discriminate R. }
  assert (X : is_engine x = true \/ exists e', part e' (EAttr o n sf) /\ leaks C e' x).
  { destruct (attr_err _ _ _ _ Sv Fv Ra) as [Q|[[K1 [K2 K3]]|[[K1 [K2 ->]]|[-> [-> Q]]]]]; [left; exact Q| | |]; right; eexists; (split; [constructor|]).
    - apply lk_attr_number; assumption.
    - apply lk_attr_int; assumption.
    - apply lk_attr_set; assumption. }
  destruct x; try (injection R as <- <-; destruct X as [X|X]; [left; exact X|right; left; exact X]).
  clear X. rewrite run_pthen in R. unfold resolve in R. rewrite run_pbind in R. cbn [act run step_op] in R. rewrite Sq in R.
  assert (Nv' : forall z y, py_ok z -> new_value (c_tz C) false z <> Err y).
  { intros z y Pz E. unfold new_value in E. destruct (coerce_total z Pz) as [u Eu]. rewrite Eu in E. discriminate E. }
  destruct (find_scope (s_scopes q) n) as [a|] eqn:Fs.
  - cbn [run] in R. destruct (find_scope_In _ _ _ Fs) as [Ia Na]. assert (Va := Hs a Ia). rewrite Va in R. destruct r as [v'|x].
    { right. split; [rewrite <- Na; apply in_map; exact Ia|]. unfold nval in R. cbn in R. injection R as <- _. reflexivity. }
    exfalso. unfold nval in R. cbn [run] in R. injection R as R _. eapply (Nv' v_undefined); [apply Po_scalar; exact I|exact R].
  - cbn [actr run step_op] in R. destruct (w_resolve w (s_log q1) v n) as [z|y] eqn:W.
    + assert (Nz : nice z) by (eapply (be_resolve w VNull B); [right; apply settled_nice; exact Sv|exact W]). destruct Nz as [Pz Sz]. unfold nval in R. cbn [run] in R. injection R as R _. destruct r as [v'|x].
      * left. destruct (nval_settled C w false z Pz (or_intror Sz) (qq q1) v' (qq q1) (qq_inv q1)) as [Q _]; [unfold nval; cbn [run]; rewrite R; reflexivity|exact Q].
      * exfalso. eapply Nv'; eassumption.
    + rewrite NoDefault in R. assert (Y : r = Err y \/ exists x, r = Err x /\ is_engine x = true) by (destruct y; cbn [run raise] in R; injection R as <- _; first [left; reflexivity|right; eexists; split; [reflexivity|reflexivity]]).
      destruct Y as [->|[x [-> Q]]]; [right; right; eauto|left; exact Q].
Qed.
End Constants.

(** ** Construction *)
Section Construct.
Context {Orc : Oracle} (C : ctx) (w : world).
Hypothesis NoDefault : c_default C = None.
Hypothesis Builtins : supplied C w.
Hypothesis B : behaved w VNull.

(** [p], started with the scopes [L], gives them back; its value satisfies [P], its exception [E] *)
Definition be {A} (L : list asg) (p : prog A) (P : A -> Prop) (E : exn -> Prop) : Prop :=
  forall q r q', s_scopes q = L -> run w p q = (r, q') -> s_scopes q' = L /\ match r with Ok a => P a | Err x => E x end.

Lemma be_ret : forall A L (r : result A) (P : A -> Prop) (E : exn -> Prop), (forall a, r = Ok a -> P a) -> (forall x, r = Err x -> E x) -> be L (Ret r) P E.
Proof. intros A L r P E HP HE q r' q' S R. cbn in R. injection R as <- <-. split; [exact S|]. destruct r; auto. Qed.
Lemma be_ok : forall A L (a : A) (P : A -> Prop) (E : exn -> Prop), P a -> be L (ok a) P E.
Proof. intros. apply be_ret; congruence. Qed.
Lemma be_raise : forall A L x (P : A -> Prop) (E : exn -> Prop), E x -> be L (raise x) P E.
Proof. intros. apply be_ret; congruence. Qed.
Lemma be_bind : forall A X L (p : prog A) (f : A -> prog X) (P : A -> Prop) (Q : X -> Prop) (E : exn -> Prop), be L p P E -> (forall a, P a -> be L (f a) Q E) -> be L (pbind p f) Q E.
Proof.
  intros A X L p f P Q E Hp Hf q r q' S R. rewrite run_pbind in R. destruct (run w p q) as [[a|x] q1] eqn:R1; destruct (Hp _ _ _ S R1) as [S1 H1].
  - exact (Hf a H1 _ _ _ S1 R).
  - injection R as <- <-. split; assumption.
Qed.
Lemma be_impl : forall A L (p : prog A) (P P' : A -> Prop) (E E' : exn -> Prop), (forall a, P a -> P' a) -> (forall x, E x -> E' x) -> be L p P E -> be L p P' E'.
Proof. intros A L p P P' E E' HP HE H q r q' S R. destruct (H _ _ _ S R) as [S1 K]. split; [exact S1|]. destruct r; auto. Qed.
Lemma be_post : forall A L (p : prog A) (P Q : A -> Prop) (E : exn -> Prop), post p Q -> be L p P E -> be L p (fun a => P a /\ Q a) E.
Proof. intros A L p P Q E HQ H q r q' S R. destruct (H _ _ _ S R) as [S1 K]. split; [exact S1|]. destruct r; [|exact K]. split; [exact K|exact (HQ _ _ _ _ R)]. Qed.
Lemma be_pmapM : forall A X L (f : A -> prog X) (P : X -> Prop) (E : exn -> Prop) l, (forall a, In a l -> be L (f a) P E) -> be L (pmapM f l) (fun bs => forall b, In b bs -> P b) E.
Proof.
  intros A X L f P E l. induction l as [|a l IH]; intro H; [apply be_ok; intros b []|]. cbn [pmapM]. eapply be_bind; [apply H; left; reflexivity|]. intros b Hb.
  eapply be_bind; [apply IH; intros; apply H; right; assumption|]. intros bs Hbs. apply be_ok. intros y [<-|Hy]; auto.
Qed.
Lemma be_scope : forall A L a (p : prog A) (P : A -> Prop) (E : exn -> Prop), keeps s_scopes p -> be (L ++ [a]) p P E -> be L (with_scope a p) P E.
Proof.
  intros A L a p P E K H q r q' S R. rewrite (run_scope_bal A a p w q K) in R. destruct (run w p _) as [r1 q1] eqn:R1.
  destruct (H _ _ _ (f_equal (fun l => l ++ [a]) S : s_scopes (set_scopes (s_scopes q ++ [a]) q) = L ++ [a]) R1) as [S1 H1]. injection R as <- <-. split; [|exact H1]. exact S.
Qed.

Lemma dpart_trans : forall x y z, dpart x y -> dpart y z -> dpart x z.
Proof.
  intros x y z H K. induction K; try exact H.
  - eapply Dp_arr; eauto.
  - eapply Dp_set; eauto.
  - eapply Dp_key; eauto.
  - eapply Dp_val; eauto.
  - apply Dp_l; auto.
  - apply Dp_r; auto.
  - apply Dp_cr; auto.
  - apply Dp_ci; auto.
  - apply Dp_cc; auto.
  - apply Dp_inc; auto.
  - apply Dp_inm; auto.
  - apply Dp_attr; auto.
  - apply Dp_itc; auto.
  - apply Dp_iti; auto.
  - apply Dp_slc; auto.
  - apply Dp_sla; auto.
  - apply Dp_slb; auto.
  - apply Dp_callf; auto.
  - eapply Dp_callx; eauto.
  - apply Dp_tc; auto.
  - apply Dp_ta; auto.
  - apply Dp_tb; auto.
  - apply Dp_un; auto.
Qed.
Notation raises := (raises_in C w).
Lemma raises_part : forall L n n' x, dpart n' n -> raises L n' x -> raises L n x.
Proof.
  intros L n n' x P H. destruct H as [H|name H1 H2|t H1 H2|m e e' H1 H2 H3 H4 H5|o nm sf l v H1 H2|r var i c o sf H1 H2 H3|o nm sf H1 H2 H3].
  - apply Cr_engine. exact H.
  - eapply Cr_types; [eapply dpart_trans; eassumption|exact H2].
  - eapply Cr_timedelta; [eapply dpart_trans; eassumption|exact H2].
  - eapply (Cr_folded _ _ _ _ _ m e e'); try assumption. eapply dpart_trans; eassumption.
  - eapply Cr_resolver; [eapply dpart_trans; eassumption|exact H2].
  - eapply Cr_variable; [eapply dpart_trans; eassumption|exact H2|exact H3].
  - eapply Cr_outer; [eapply dpart_trans; eassumption|exact H2|exact H3].
Qed.
(** errors inside the comprehension *)
Lemma raises_inner : forall L r var i c n' x, n' = r \/ c = Some n' -> raises (L ++ [var]) n' x -> raises L (DComp r var i c) x.
Proof.
  intros L r var i c n' x Hn H. assert (P : dpart n' (DComp r var i c)) by (destruct Hn as [->| ->]; [apply Dp_cr|apply Dp_cc]; constructor).
  destruct H as [H|name H1 H2|t H1 H2|m e e' H1 H2 H3 H4 H5|o nm sf l v H1 H2|r0 var0 i0 c0 o sf H1 H2 H3|o nm sf H1 H2 H3].
  - apply Cr_engine. exact H.
  - eapply Cr_types; [eapply dpart_trans; eassumption|exact H2].
  - eapply Cr_timedelta; [eapply dpart_trans; eassumption|exact H2].
  - eapply (Cr_folded _ _ _ _ _ m e e'); try assumption. eapply dpart_trans; eassumption.
  - eapply Cr_resolver; [eapply dpart_trans; eassumption|exact H2].
  - eapply Cr_variable; [eapply dpart_trans; eassumption|exact H2|exact H3].
  - apply in_app_or in H2 as [H2|[<-|[]]].
    + eapply Cr_outer; [eapply dpart_trans; eassumption|exact H2|exact H3].
    + eapply Cr_variable; [constructor| |exact H3]. destruct Hn as [->|Hc]; [left; exact H1|right; eauto].
Qed.

(** what is known about constructed operands *)
Definition built (e : expr) : Prop := ok3 e /\ lits_aware e /\ stable C e.
Lemma build_built : forall n, written n -> post (build C n) built.
Proof.
  intros n W w0 q e q' R. split; [split; [exact (build_lits C n W w0 q e q' R)|split; [exact (built_bins C n W w0 q e q' R)|exact (build_ff C n W w0 q e q' R)]]|].
  split; [exact (build_aware Orc C n W w0 q e q' R)|exact (build_stable C n w0 q e q' R)].
Qed.
Lemma lit_built : forall v, settled v -> aware v -> built (ELit v).
Proof.
  intros v S A. split; [split; [|split]|split].
  - split; [intros u P; inversion P; subst; exact S|intros u t P; inversion P].
  - intros o a b P. inversion P.
  - apply ff_lit.
  - apply la_lit. exact A.
  - reflexivity.
Qed.
Lemma ok3_op : forall e, (forall v, e <> ELit v) -> (forall v t, e <> EFun v t) -> (forall o a b, e = EBin o a b -> lits_aware a /\ lits_aware b) ->
  (forall x, part x e -> x = e \/ exists y, part x y /\ ok3 y) -> ok3 e.
Proof.
  intros e N1 N2 N3 H. split; [|split].
  - split; [intros v P|intros v t P]; destruct (H _ P) as [E|[y [Py [[L1 L2] _]]]]; try (exfalso; symmetry in E; first [exact (N1 _ E)|exact (N2 _ _ E)]); eauto.
  - intros o a b P. destruct (H _ P) as [E|[y [Py [_ [K _]]]]]; [eapply N3; symmetry; exact E|eapply K; exact Py].
  - intros v t P. destruct (H _ P) as [E|[y [Py [_ [_ K]]]]]; [exfalso; symmetry in E; exact (N2 _ _ E)|eapply K; exact Py].
Qed.
Ltac op3 := apply ok3_op; [discriminate|discriminate|try (intros ? ? ? K; discriminate K)|let x := fresh "x" in let P := fresh "P" in intros x P; inversion P; subst; try (left; reflexivity); right; eauto].

Definition shadowing (L : list asg) : Prop := forall a, In a L -> a_val a = v_undefined.

(** reducing an operation that is not an attribute *)
Lemma be_eval : forall L n e, constant e = true -> (forall o m sf, e <> EAttr o m sf) -> ok3 e -> operation C w n e -> be L (eval C VNull e) settled (raises (map a_name L) n).
Proof.
  intros L n e K N O Op q r q' S R. split; [assert (Z := eval_scopes C VNull e w q); rewrite R in Z; cbn in Z; congruence|].
  assert (H := constant_result C w NoDefault Builtins B e q r q' K N O R). destruct r as [v|x]; [exact H|]. destruct H as [H|[e' [P H]]]; [apply Cr_engine; exact H|].
  eapply (Cr_folded _ _ _ _ _ n e e'); try assumption. constructor.
Qed.
Lemma be_fold : forall L n e, constant e = true -> (forall o m sf, e <> EAttr o m sf) -> ok3 e -> operation C w n e -> be L (fold C e) (fun _ => True) (raises (map a_name L) n).
Proof.
  intros L n e K N O Op. unfold fold. eapply be_bind; [apply be_eval; eassumption|]. intros v Sv. destruct (settled_lit v Sv) as [l E]. apply be_ret; [auto|]. intros x Hx. congruence.
Qed.
Lemma be_reduce : forall L n e, shadowing L -> ok3 e -> operation C w n e -> be L (reduce C e) (fun _ => True) (raises (map a_name L) n).
Proof.
  intros L n e HL O Op. assert (G := be_fold L n e). assert (Ev := be_eval L n e). destruct n; try contradiction; destruct e; try contradiction; cbn [reduce].
  - destruct (is_reduced e1 && is_reduced e2) eqn:R; [apply G; auto; discriminate|apply be_ok; exact I].
  - destruct (is_reduced e1 && is_reduced e2) eqn:R; [|apply be_ok; exact I]. eapply be_bind; [apply Ev; auto; discriminate|]. intros. apply be_ok. exact I.
  - destruct (is_reduced e) eqn:R; [|apply be_ok; exact I]. destruct Op as [-> [-> Op]].
    assert (F : be L (fold C (EAttr e name0 safe0)) (fun _ => True) (raises (map a_name L) (DAttr n name0 safe0))).
    { intros q r q' S Rn. split; [assert (Z := eval_scopes C VNull (EAttr e name0 safe0) w q); unfold fold in Rn; rewrite run_pbind in Rn; destruct (run w (eval C VNull (EAttr e name0 safe0)) q) as [[?|?] ?]; cbn in Z, Rn; congruence|]. destruct r as [l|x]; [exact I|].
      unfold fold in Rn. rewrite run_pbind in Rn. destruct (run w (eval C VNull (EAttr e name0 safe0)) q) as [r1 q1] eqn:R1.
      assert (H := attr_result C w NoDefault Builtins B e name0 safe0 q r1 q1 R O ltac:(rewrite S; exact HL) R1). destruct r1 as [v|y].
      - cbn [run] in Rn. injection Rn as Rn _. destruct H as [H|[H ->]]; [destruct (settled_lit v H) as [l E]; congruence|]. rewrite S in H.
        eapply Cr_outer; [constructor|exact H|]. cbn in Rn. congruence.
      - injection Rn as -> _. destruct H as [H|[[e' [P H]]|[l [v H]]]]; [apply Cr_engine; exact H| |eapply Cr_resolver; [constructor|exact H]].
        eapply (Cr_folded _ _ _ _ _ _ (EAttr e name0 safe0) e'); try eassumption; [constructor|split; [reflexivity|split; [reflexivity|exact Op]]]. }
    eapply be_bind; [exact F|]. intros. apply be_ok. exact I.
  - destruct (match rtype e1 with TMap k _ _ => safe0 && negb (is_compat (rtype e2) k) | _ => false end); [apply be_ok; exact I|].
    destruct (is_reduced e1 && is_reduced e2) eqn:R; [apply G; auto; discriminate|apply be_ok; exact I].
  - destruct (is_reduced e1 && is_reduced e2 && is_reduced e3) eqn:R; [apply G; auto; discriminate|apply be_ok; exact I].
  - destruct (is_reduced e && forallb is_reduced args0) eqn:R; [apply G; auto; discriminate|apply be_ok; exact I].
  - destruct o0; destruct (is_reduced e) eqn:R; try (apply be_ok; exact I).
    + eapply be_bind; [apply Ev; auto; discriminate|]. intros. apply be_ok. exact I.
    + destruct e as [[]| | | | | | | | | | | | | |]; try (apply be_raise; apply Cr_engine; reflexivity); (eapply be_bind; [apply Ev; auto; discriminate|]; intros; apply be_ok; exact I).
Qed.

Definition typed (L : list asg) : Prop := forall a, In a L -> a_type a <> None.
Lemma check_bin_errs : forall o a b x, lits_ok a -> lits_ok b -> check_bin C o a b = Err x -> is_engine x = true.
Proof.
  intros o a b x La Lb H. unfold check_bin in H. destruct (_ && _) in H; [|injection H as <-; reflexivity].
  assert (Nt : forall e y, lits_ok e -> nat_operand e = Err y -> is_engine y = true).
  { intros e y Le E. unfold nat_operand in E. destruct e; try discriminate E. destruct (dt_eqb _ _) in E; [|discriminate E].
    assert (Sv : settled v) by (apply (proj1 Le); constructor). unfold assert_natural, is_natural_number in E. destruct (is_integer_number v) as [b0|z] eqn:Ni; cbn [rbind] in E.
    - destruct (_ && _) in E; [discriminate E|injection E as <-; reflexivity].
    - injection E as <-. assert (K : assert_integer v = Err z) by (unfold assert_integer; rewrite Ni; reflexivity). rewrite (assert_integer_err _ _ Sv K). reflexivity. }
  destruct o; try discriminate H.
  - unfold rmap in H. destruct (add_type _ _) as [t|y] eqn:E; [discriminate H|]. injection H as <-. unfold add_type in E.
    repeat match type of E with (if ?c then _ else _) = _ => destruct c end; try discriminate E; injection E as <-; reflexivity.
  - unfold rmap in H. destruct (sub_type _ _) as [t|y] eqn:E; [discriminate H|]. injection H as <-. unfold sub_type in E.
    repeat match type of E with (if ?c then _ else _) = _ => destruct c end; try discriminate E; injection E as <-; reflexivity.
  - destruct (_ && _) in H; [injection H as <-; reflexivity|]. destruct (nat_operand a) as [u|y] eqn:E; cbn [rbind] in H; [eapply Nt; [exact Lb|exact H]|]. injection H as <-. eapply Nt; [exact La|exact E].
  - destruct (_ && _) in H; [injection H as <-; reflexivity|discriminate H].
  - destruct b; try discriminate H. destruct v; try discriminate H. unfold compile_ok in H. destruct (o_re_ok _ _) in H; [discriminate H|injection H as <-; reflexivity].
Qed.
Lemma check_in_errs : forall c m x, check_in c m = Err x -> is_engine x = true.
Proof. intros c m x H. unfold check_in in H. repeat match type of H with (if ?c then _ else _) = _ => destruct c end; try discriminate H; injection H as <-; reflexivity. Qed.
Lemma check_attr_errs : forall t n sf x, check_attr t n sf = Err x -> is_engine x = true.
Proof. intros t n sf x H. destruct (check_attr_spec Orc t n sf) as [[_ A]|[_ [sg A]]]; rewrite A in H; [discriminate H|injection H as <-; reflexivity]. Qed.
Lemma check_item_errs : forall c i sf x, check_item c i sf = Err x -> is_engine x = true.
Proof. intros c i sf x H. unfold check_item in H. destruct c; try (destruct sf); cbn [orb] in H; repeat match type of H with (if ?c then _ else _) = _ => destruct c end; try discriminate H; injection H as <-; reflexivity. Qed.
Lemma check_slice_errs : forall c sf x, check_slice c sf = Err x -> is_engine x = true.
Proof. intros c sf x H. unfold check_slice in H. destruct c; try (destruct sf); try discriminate H; injection H as <-; reflexivity. Qed.
Lemma check_types_errs : forall ts ps x, check_args (map (fun t => Ok t) ts) ps = Err x -> is_engine x = true.
Proof.
  induction ts as [|t ts IH]; intros ps x H; destruct ps as [|p ps]; cbn in H; try discriminate H; try (injection H as <-; reflexivity). destruct (is_compat _ _); [|injection H as <-; reflexivity]. eapply IH. exact H.
Qed.
Lemma validate_types_errs : forall t ts x, validate t (map (fun t => Ok t) ts) = Err x -> is_engine x = true.
Proof.
  intros t ts x H. unfold validate in H. destruct t; try (injection H as <-; reflexivity). cbv zeta in H. destruct (match minargs with Some m => _ | None => _ end) in H; [injection H as <-; reflexivity|].
  destruct args; [|discriminate H]. destruct (_ <? _) in H; [injection H as <-; reflexivity|]. eapply check_types_errs. exact H.
Qed.

Lemma be_made : forall A L (p : prog A) (P : A -> Prop) (E : exn -> Prop), be L p P E -> be L p (fun a => P a /\ exists q q', run w p q = (Ok a, q')) E.
Proof. intros A L p P E H q r q' S R. destruct (H q r q' S R) as [H1 H2]. split; [exact H1|]. destruct r as [a|x]; [|exact H2]. split; [exact H2|]. exists q, q'. exact R. Qed.
Lemma be_pmapM2 : forall A X L (f : A -> prog X) (R : A -> X -> Prop) (E : exn -> Prop) l, (forall a, In a l -> be L (f a) (R a) E) -> be L (pmapM f l) (fun bs => Forall2 R l bs) E.
Proof.
  intros A X L f R E l. induction l as [|a l IH]; intro H; [apply be_ok; constructor|]. cbn [pmapM]. eapply be_bind; [apply H; left; reflexivity|]. intros b Hb.
  eapply be_bind; [apply IH; intros; apply H; right; assumption|]. intros bs Hbs. apply be_ok. constructor; assumption.
Qed.
Definition fine (n : dnode) (e : expr) : Prop := built e /\ becomes C w n e.
Lemma be_sub : forall n n' L, dpart n' n -> written n -> shadowing L -> typed L ->
  (forall L, written n' -> shadowing L -> typed L -> be L (build C n') (fun _ => True) (raises (map a_name L) n')) -> be L (build C n') (fine n') (raises (map a_name L) n).
Proof.
  intros n n' L P W HL HT IH. assert (W' : written n') by (intros v Q; apply W; eapply dpart_trans; eassumption).
  apply (be_impl _ L _ (fun e => (True /\ built e) /\ becomes C w n' e) (fine n') (raises (map a_name L) n')); [intros a0 [[_ Ha] Hb]; exact (conj Ha Hb)|intros x Hx; eapply raises_part; eassumption|].
  apply be_made. apply be_post; [exact (build_built n' W')|]. apply IH; assumption.
Qed.
Lemma be_err : forall A L (r : result A) n, (forall x, r = Err x -> is_engine x = true) -> be L (Ret r) (fun a => r = Ok a) (raises (map a_name L) n).
Proof. intros A L r n H. apply be_ret; [auto|]. intros x E. apply Cr_engine. auto. Qed.

Lemma build_raises_aux : forall n L, written n -> shadowing L -> typed L -> be L (build C n) (fun _ => True) (raises (map a_name L) n).
Proof.
  assert (Ok' : forall A L (a : A) E, be L (ok a) (fun _ => True) E) by (intros; apply be_ok; exact I).
  induction n as [v|t|t|t|l IH|l IH|l IH|o a b IHa IHb|r v i c IHr IHi IHc|c m IHc IHm|o nm sf IHo|c i sf IHc IHi|c a b sf IHc IHa IHb|nm bi|f l IHf IHl|c a b IHc IHa IHb|o e IHe] using dnode_ind';
    intros L W HL HT; cbn [build].
  - apply Ok'.
  - eapply be_impl; [| |apply (be_err _ L _ (DFloat t))]; [auto|auto|]. intros x H. unfold rmap in H. destruct (parse_float t) eqn:E; [discriminate H|]. injection H as <-. assert (Hx := C47_error _ _ _ E). subst. reflexivity.
  - eapply be_impl; [| |apply (be_err _ L _ (DDatetime t))]; [auto|auto|]. intros x H. unfold rmap, parse_datetime in H. destruct (o_isoparse t) as [[? [?|]]|]; try discriminate H. injection H as <-. reflexivity.
  - apply be_ret; [auto|]. intros x H. unfold rmap in H. destruct (parse_timedelta t) eqn:E; [discriminate H|]. injection H as <-. eapply Cr_timedelta; [constructor|exact E].
  - rewrite Forall_forall in IH. eapply be_bind; [apply be_pmapM2; intros n Hn; apply be_sub; [eapply Dp_arr; [exact Hn|constructor]|exact W|exact HL|exact HT|apply IH; exact Hn]|]. intros. apply Ok'.
  - rewrite Forall_forall in IH. eapply be_bind; [apply be_pmapM2; intros n Hn; apply be_sub; [eapply Dp_set; [exact Hn|constructor]|exact W|exact HL|exact HT|apply IH; exact Hn]|]. intros. apply Ok'.
  - rewrite Forall_forall in IH. eapply be_bind; [apply (be_pmapM _ _ L _ (fun _ => True)); intros [k v] Hn; destruct (IH _ Hn) as [I1 I2]|].
    + eapply be_bind; [apply be_sub; [eapply Dp_key; [exact Hn|constructor]|exact W|exact HL|exact HT|exact I1]|]. intros k' _. eapply be_bind; [apply be_sub; [eapply Dp_val; [exact Hn|constructor]|exact W|exact HL|exact HT|exact I2]|]. intros. apply Ok'.
    + intros es _. eapply be_bind; [apply be_err; intros x H; unfold mk_mapping in H; destruct (_ && _) in H; [injection H as <-; reflexivity|discriminate H]|]. intros. apply Ok'.
  - eapply be_bind; [apply be_sub; [apply Dp_l; constructor|exact W|exact HL|exact HT|exact IHa]|]. intros x [[Ox [Ax _]] Mx]. eapply be_bind; [apply be_sub; [apply Dp_r; constructor|exact W|exact HL|exact HT|exact IHb]|]. intros y [[Oy [Ay _]] My].
    eapply be_bind; [apply be_err; intros z H; eapply check_bin_errs; [apply Ox|apply Oy|exact H]|]. intros _ _. apply be_reduce; [exact HL| |split; [reflexivity|split; assumption]].
    op3. intros o0 a0 b0 K. injection K as <- <- <-. split; assumption.
  - eapply be_bind; [apply be_sub; [apply Dp_ci; constructor|exact W|exact HL|exact HT|exact IHi]|]. intros x _. destruct (_ && _); [apply be_raise; apply Cr_engine; reflexivity|]. cbv zeta.
    match goal with |- context [with_scope ?a _] => set (a0 := a) end. set (L' := L ++ [a0]). assert (HL' : shadowing L') by (intros a Ha; apply in_app_or in Ha as [Ha|[<-|[]]]; [apply HL; exact Ha|reflexivity]).
    assert (HT' : typed L') by (intros a Ha; apply in_app_or in Ha as [Ha|[<-|[]]]; [apply HT; exact Ha|discriminate]).
    assert (W1 : forall n', dpart n' (DComp r v i c) -> written n') by (intros n' P u Q; apply W; eapply dpart_trans; eassumption).
    assert (EL : map a_name L' = map a_name L ++ [v]) by (unfold L'; rewrite map_app; reflexivity).
    eapply (be_bind _ _ _ _ _ (fun _ => True)); [|intros; apply Ok']. apply be_scope.
    + apply keeps_pbind; [destruct c as [c|]; [apply keeps_pbind; [intros w0 q0; apply build_scopes|intro; apply keeps_ret]|apply keeps_ret]|]. intro. apply keeps_pbind; [intros w0 q0; apply build_scopes|intro; apply keeps_ret].
    + fold L'. eapply (be_bind _ _ _ _ _ (fun _ => True)).
      * destruct c as [c|]; [|apply Ok']. eapply (be_bind _ _ _ _ _ (fun _ => True)); [|intros; apply Ok']. eapply be_impl; [auto| |apply IHc; [apply W1; apply Dp_cc; constructor|exact HL'|exact HT']].
        intros z Hz. rewrite EL in Hz. eapply raises_inner; [right; reflexivity|exact Hz].
      * intros oc _. eapply (be_bind _ _ _ _ _ (fun _ => True)); [|intros; apply Ok']. eapply be_impl; [auto| |apply IHr; [apply W1; apply Dp_cr; constructor|exact HL'|exact HT']].
        intros z Hz. rewrite EL in Hz. eapply raises_inner; [left; reflexivity|exact Hz].
  - eapply be_bind; [apply be_sub; [apply Dp_inc; constructor|exact W|exact HL|exact HT|exact IHc]|]. intros x [[Ox _] Mx]. eapply be_bind; [apply be_sub; [apply Dp_inm; constructor|exact W|exact HL|exact HT|exact IHm]|]. intros y [[Oy _] My].
    eapply be_bind; [apply be_err; intros z H; eapply check_in_errs; exact H|]. intros _ _. apply be_reduce; [exact HL| |split; assumption]. op3.
  - eapply be_bind; [apply be_sub; [apply Dp_attr; constructor|exact W|exact HL|exact HT|exact IHo]|]. intros x [[Ox _] Mx].
    eapply be_bind; [apply be_err; intros z H; eapply check_attr_errs; exact H|]. intros _ _. apply be_reduce; [exact HL| |split; [reflexivity|split; [reflexivity|assumption]]]. op3.
  - eapply be_bind; [apply be_sub; [apply Dp_itc; constructor|exact W|exact HL|exact HT|exact IHc]|]. intros x [[Ox _] Mx]. eapply be_bind; [apply be_sub; [apply Dp_iti; constructor|exact W|exact HL|exact HT|exact IHi]|]. intros y [[Oy _] My].
    eapply be_bind; [apply be_err; intros z H; eapply check_item_errs; exact H|]. intros _ _. apply be_reduce; [exact HL| |split; [reflexivity|split; assumption]]. op3.
  - apply (be_bind _ _ _ _ _ (fun o => match o, a with Some e, Some n => fine n e | None, None => True | _, _ => False end)).
    { destruct a as [a|]; [|apply be_ok; exact I]. eapply be_bind; [apply be_sub; [apply Dp_sla; constructor|exact W|exact HL|exact HT|exact IHa]|]. intros x Hx. apply be_ok. exact Hx. }
    intros x Hx. apply (be_bind _ _ _ _ _ (fun o => match o, b with Some e, Some n => fine n e | None, None => True | _, _ => False end)).
    { destruct b as [b|]; [|apply be_ok; exact I]. eapply be_bind; [apply be_sub; [apply Dp_slb; constructor|exact W|exact HL|exact HT|exact IHb]|]. intros y Hy. apply be_ok. exact Hy. }
    intros y Hy. eapply be_bind; [apply be_sub; [apply Dp_slc; constructor|exact W|exact HL|exact HT|exact IHc]|]. intros z [[Oz _] Mz].
    eapply be_bind; [apply be_err; intros z0 H; eapply check_slice_errs; exact H|]. intros _ _. apply be_reduce; [exact HL| |split; [reflexivity|split; [exact Mz|split; [destruct x, a|destruct y, b]; try contradiction; first [apply Hx|apply Hy|reflexivity]]]].
    assert (Kx : ok3 (mk_lit_slice x (VDec (dec_of_Z 0)))) by (destruct x; [destruct a; [apply Hx|contradiction]|apply lit_built; [apply Se_atom; exact I|intro K; inversion K]]).
    assert (Ky : ok3 (mk_lit_slice y VNull)) by (destruct y; [destruct b; [apply Hy|contradiction]|apply lit_built; [apply Se_atom; exact I|intro K; inversion K]]).
    op3.
  - intros q r q' S R. assert (Z := build_scopes C (DSym nm bi) w q). cbn [build] in Z. rewrite R in Z. cbn [snd] in Z. split; [congruence|]. destruct r as [e|x]; [exact I|].
    rewrite run_pbind in R. cbn [act run step_op] in R. rewrite run_pbind in R. unfold resolve_type in R. destruct bi; [cbn in R; discriminate R|].
    rewrite run_pbind in R. cbn [act run step_op add_sym s_scopes] in R. rewrite S in R. destruct (find_scope L nm) as [a|] eqn:Fs.
    + destruct (a_type a) eqn:T; [cbn in R; discriminate R|]. exfalso. destruct (find_scope_In _ _ _ Fs) as [Ia _]. exact (HT a Ia T).
    + cbn [run] in R. destruct (c_types C nm) as [t|y] eqn:T; cbn in R; [discriminate R|]. injection R as <- _. eapply Cr_types; [constructor|exact T].
  - eapply be_bind; [apply be_sub; [apply Dp_callf; constructor|exact W|exact HL|exact HT|exact IHf]|]. intros x [[Ox _] Mx]. rewrite Forall_forall in IHl.
    eapply be_bind; [apply be_pmapM2; intros n Hn; apply be_sub; [eapply Dp_callx; [exact Hn|constructor]|exact W|exact HL|exact HT|apply IHl; exact Hn]|]. intros es Hes'.
    assert (Hes : forall e, In e es -> built e) by (clear - Hes'; induction Hes' as [|? ? ? ? K]; intros e []; subst; [apply K|auto]).
    eapply be_bind; [apply be_err|].
    { intros z H. destruct (is_undef (rtype x)); [discriminate H|]. eapply (validate_types_errs _ (map rtype es)). rewrite map_map. exact H. }
    intros _ _. apply be_reduce; [exact HL| |split; [exact Mx|clear - Hes'; induction Hes' as [|? ? ? ? K]; constructor; [apply K|assumption]]]. op3. eexists. split; [eassumption|]. apply Hes. assumption.
  - eapply be_bind; [apply be_sub; [apply Dp_tc; constructor|exact W|exact HL|exact HT|exact IHc]|]. intros x _. eapply be_bind; [apply be_sub; [apply Dp_ta; constructor|exact W|exact HL|exact HT|exact IHa]|]. intros y [[_ [_ Sy]] _].
    eapply be_bind; [apply be_sub; [apply Dp_tb; constructor|exact W|exact HL|exact HT|exact IHb]|]. intros z [[_ [_ Sz]] _]. cbn [reduce]. destruct (is_reduced x); [|apply Ok']. unfold stable in Sy, Sz. rewrite Sy, Sz. destruct (lit_truthy x); apply Ok'.
  - eapply be_bind; [apply be_sub; [apply Dp_un; constructor|exact W|exact HL|exact HT|exact IHe]|]. intros x [[Ox _] Mx]. apply be_reduce; [exact HL| |split; [reflexivity|assumption]]. op3.
Qed.
End Construct.

From Verif Require Import Grammar GrammarSem P_Grammar P_Print Lexer P_Lexer P_Text RuleText.
Local Open Scope Z_scope.

(** ** The theorems *)

(** Every exception the construction of a rule raises is an EngineError, or was raised by a resolver, or is the OverflowError of a
    duration literal, or comes from an operation on literals listed in [leaks], or is the TypeError of a member access named like a
    variable of an enclosing comprehension. *)
Theorem C43_construction_partial : forall (Orc : Oracle) C w n q x q',
  P_Aware.written n -> c_default C = None -> supplied C w -> behaved w VNull -> s_scopes q = [] ->
  run w (rule_new C n) q = (Err x, q') ->
  is_engine x = true \/
  (exists name, dpart (DSym name false) n /\ c_types C name = Err x) \/
  (exists t, dpart (DTimedelta t) n /\ parse_timedelta t = Err x) \/
  (exists n' e e', dpart n' n /\ operation C w n' e /\ constant e = true /\ part e' e /\ leaks C e' x) \/
  (exists o nm sf l v, dpart (DAttr o nm sf) n /\ w_resolve w l v nm = Err x) \/
  (x = PType /\ exists r var i c o sf, dpart (DComp r var i c) n /\ (dpart (DAttr o var sf) r \/ exists c', c = Some c' /\ dpart (DAttr o var sf) c')).
Proof.
  intros Orc C w n q x q' W D Bn B S R. unfold rule_new in R.
  destruct (build_raises_aux C w D Bn B n [] W ltac:(intros a []) ltac:(intros a []) q _ _ S R) as [_ H]. cbn [map] in H.
  destruct H as [K|name K1 K2|t K1 K2|n' e e' K1 K2 K3 K4 K5|o nm sf l v K1 K2|r var i c o sf K1 K2 K3|o nm sf _ [] _].
  - left; exact K.
  - right; left; eauto.
  - right; right; left; eauto.
  - right; right; right; left. exists n', e, e'. auto.
  - right; right; right; right; left. exists o, nm, sf, l, v. auto.
  - right; right; right; right; right. split; [exact K3|]. exists r, var, i, c, o, sf. auto.
Qed.
Print Assumptions C43_construction_partial.

(** the trees parsed from texts satisfy the hypothesis [written] *)
Lemma writable_written : forall n, writable n -> P_Aware.written n.
Proof.
  assert (H : forall y n, dpart y n -> forall v, y = DLit v -> writable n -> plain_lit v).
  { intros y n P v. induction P; intros E W; try (subst; inversion W; subst; auto; fail).
    - subst. inversion W; subst. destruct v; cbn in *; try contradiction; exact I.
    - inversion W as [| | | |l' F| | | | | | | | | | | |]; subst. rewrite Forall_forall in F. apply IHP; auto.
    - inversion W; subst. match goal with F : Forall writable _ |- _ => rewrite Forall_forall in F end. apply IHP; auto.
    - inversion W; subst. match goal with F : Forall _ l |- _ => rewrite Forall_forall in F; specialize (F _ H) end. apply IHP; [reflexivity|]. match goal with F : _ /\ _ |- _ => exact (proj1 F) end.
    - inversion W; subst. match goal with F : Forall _ l |- _ => rewrite Forall_forall in F; specialize (F _ H) end. apply IHP; [reflexivity|]. match goal with F : _ /\ _ |- _ => exact (proj2 F) end.
    - inversion W; subst. match goal with F : Forall _ l |- _ => rewrite Forall_forall in F end. apply IHP; auto. }
  intros n W v P. eapply H; [exact P|reflexivity|exact W].
Qed.
Lemma text_written : forall space uname, (forall n c, uname n = Some c -> (c < 1114112)%N) -> forall t n, parse_text space uname t = Ok n -> P_Aware.written n.
Proof.
  intros space uname U t n H. apply writable_written. apply (C52_expression_trees uname U). unfold parse_text in H. destruct (tokenize space t) as [l|] eqn:E; [|discriminate H].
  cbn [rbind] in H. exists l. split; [exact (proj1 (C59_tokens space t l E))|exact H].
Qed.

(** The same for texts: the parser itself raises EngineErrors only. *)
Theorem C43_text_partial : forall (Orc : Oracle) space uname C w t q x q',
  (forall n c, uname n = Some c -> (c < 1114112)%N) ->
  c_default C = None -> supplied C w -> behaved w VNull -> s_scopes q = [] ->
  run w (rule_of_text space uname C t) q = (Err x, q') ->
  is_engine x = true \/
  exists n, parse_text space uname t = Ok n /\
  ((exists name, dpart (DSym name false) n /\ c_types C name = Err x) \/
   (exists d, dpart (DTimedelta d) n /\ parse_timedelta d = Err x) \/
   (exists n' e e', dpart n' n /\ operation C w n' e /\ constant e = true /\ part e' e /\ leaks C e' x) \/
   (exists o nm sf l v, dpart (DAttr o nm sf) n /\ w_resolve w l v nm = Err x) \/
   (x = PType /\ exists r var i c o sf, dpart (DComp r var i c) n /\ (dpart (DAttr o var sf) r \/ exists c', c = Some c' /\ dpart (DAttr o var sf) c'))).
Proof.
  intros Orc space uname C w t q x q' U D Bn B S R. unfold rule_of_text in R. destruct (parse_text space uname t) as [n|y] eqn:P.
  - destruct (C43_construction_partial Orc C w n q x q' (text_written _ _ U _ _ P) D Bn B S R) as [K|K]; [left; exact K|right; eauto].
  - left. injection R as <- _. pose proof (C59_parse space uname t) as H. rewrite P in H. destruct H as [->|[->| ->]]; reflexivity.
Qed.
Print Assumptions C43_text_partial.

(** So a text without member accesses, without durations that overflow and without operations on literals listed in [leaks] is either
    a rule or raises an EngineError, if the type resolver raises EngineErrors only; then Rule.is_valid raises nothing. *)
Theorem C43_construction_engine_partial : forall (Orc : Oracle) space uname C w t q,
  (forall n c, uname n = Some c -> (c < 1114112)%N) ->
  c_default C = None -> supplied C w -> behaved w VNull -> s_scopes q = [] ->
  (forall name x, c_types C name = Err x -> is_engine x = true) ->
  (forall n, parse_text space uname t = Ok n ->
     (forall o nm sf, ~ dpart (DAttr o nm sf) n) /\ (forall d, dpart (DTimedelta d) n -> forall x, parse_timedelta d = Err x -> is_engine x = true) /\
     (forall n' e e' x, dpart n' n -> operation C w n' e -> constant e = true -> part e' e -> ~ leaks C e' x)) ->
  match fst (run w (rule_of_text space uname C t) q) with Ok _ => True | Err x => is_engine x = true end /\
  exists b, fst (run w (text_is_valid space uname C t) q) = Ok b.
Proof.
  intros Orc space uname C w t q U D Bn B S T H.
  assert (K : match fst (run w (rule_of_text space uname C t) q) with Ok _ => True | Err x => is_engine x = true end).
  { destruct (run w (rule_of_text space uname C t) q) as [[e|x] q'] eqn:R; [exact I|]. cbn [fst].
    destruct (C43_text_partial Orc space uname C w t q x q' U D Bn B S R) as [K|[n [P K]]]; [exact K|]. destruct (H n P) as [H1 [H2 H3]].
    destruct K as [[name [_ K]]|[[d [K1 K2]]|[[n' [e [e' [K1 [K2 [K3 [K4 K5]]]]]]]|[[o [nm [sf [l [v [K _]]]]]]|[_ [r [var [i [c [o [sf [K1 K2]]]]]]]]]]]].
    - exact (T _ _ K).
    - exact (H2 d K1 x K2).
    - exfalso. exact (H3 n' e e' x K1 K2 K3 K4 K5).
    - exfalso. exact (H1 _ _ _ K).
    - exfalso. destruct K2 as [K2|[c' [-> K2]]]; eapply H1; (eapply dpart_trans; [exact K2|]); (eapply dpart_trans; [|exact K1]); [apply Dp_cr|apply Dp_cc]; constructor. }
  split; [exact K|]. unfold text_is_valid. rewrite run_pthen. destruct (run w (rule_of_text space uname C t) q) as [[e|x] q']; cbn [fst] in *; [eexists; reflexivity|]. rewrite K. eexists. reflexivity.
Qed.
Print Assumptions C43_construction_engine_partial.

(** *** A text that meets all hypotheses *)
Definition mk_rule (t : string) : prog expr := rule_of_text ascii_space (fun _ => None) untyped_ctx (s t).
Lemma default_behaved : behaved c13_world VNull.
Proof. apply C13_default_resolver; [split; [apply Po_scalar; exact I|constructor]|discriminate|intros; apply Po_scalar; exact I]. Qed.
Lemma default_values_nice : supplied untyped_ctx c13_world.
Proof. apply C13_default_values. reflexivity. Qed.
(** an operand that is not known before the rule is evaluated *)
Inductive open : dnode -> Prop :=
| Op_sym nm bi : open (DSym nm bi)
| Op_bin o a b : open a -> open (DBin o a b)
| Op_in c m : open c -> open (DIn c m)
| Op_item c i : open c -> open (DItem c i false)
| Op_comp r v i c : open (DComp r v i c)
| Op_call f l : open f -> open (DCall f l).
Lemma open_becomes : forall n, open n -> forall (Orc : Oracle) C w e, becomes C w n e -> is_reduced e = false.
Proof.
  intros n H Orc C w. induction H as [nm bi|o a b H IH|c m H IH|c i H IH|r v i c|f l H IH]; intros e [q [q1 R]]; cbn [build] in R; rewrite run_pbind in R.
  - cbn [act run step_op] in R. rewrite run_pbind in R. unfold resolve_type in R. destruct bi; [cbn in R; injection R as <- _; reflexivity|].
    rewrite run_pbind in R. cbn [act run step_op add_sym s_scopes] in R. destruct (find_scope _ _) as [a|]; [destruct (a_type a)|]; [| |destruct (c_types C nm)]; cbn in R; try discriminate R; injection R as <- _; reflexivity.
  - destruct (run w (build C a) q) as [[x|x] q2] eqn:E; [|discriminate R]. assert (K := IH x (ex_intro _ q (ex_intro _ q2 E))). rewrite run_pbind in R. destruct (run w (build C b) q2) as [[y|y] q3]; [|discriminate R].
    rewrite run_pbind in R. destruct (check_bin C o x y); [|discriminate R]. cbn [run reduce] in R. rewrite K in R. cbn in R. injection R as <- _. reflexivity.
  - destruct (run w (build C c) q) as [[x|x] q2] eqn:E; [|discriminate R]. assert (K := IH x (ex_intro _ q (ex_intro _ q2 E))). rewrite run_pbind in R. destruct (run w (build C m) q2) as [[y|y] q3]; [|discriminate R].
    rewrite run_pbind in R. destruct (check_in (rtype x) (rtype y)); [|discriminate R]. cbn [run reduce] in R. rewrite K in R. cbn in R. injection R as <- _. reflexivity.
  - destruct (run w (build C c) q) as [[x|x] q2] eqn:E; [|discriminate R]. assert (K := IH x (ex_intro _ q (ex_intro _ q2 E))). rewrite run_pbind in R. destruct (run w (build C i) q2) as [[y|y] q3]; [|discriminate R].
    rewrite run_pbind in R. destruct (check_item (rtype x) (rtype y) false); [|discriminate R]. cbn [run reduce] in R. rewrite K in R.
    destruct (rtype x) in R; cbn in R; injection R as <- _; reflexivity.
  - destruct (run w (build C i) q) as [[x|x] q2] eqn:E; [|discriminate R]. destruct (_ && _) in R; [discriminate R|]. cbv zeta in R.
    rewrite run_pbind in R. destruct (run w (with_scope _ _) q2) as [[[y z]|y] q3]; cbn in R; [injection R as <- _; reflexivity|discriminate R].
  - destruct (run w (build C f) q) as [[x|x] q2] eqn:E; [|discriminate R]. assert (K := IH x (ex_intro _ q (ex_intro _ q2 E))). rewrite run_pbind in R. destruct (run w (pmapM _ l) q2) as [[y|y] q3]; [|discriminate R].
    rewrite run_pbind in R. destruct (run w (Ret _) q3) as [[u|u] q4]; [|discriminate R]. cbn [run reduce] in R. rewrite K in R. cbn in R. injection R as <- _. reflexivity.
Qed.

Definition c43_text : string := "x + 1 > 3 and [y * 2 for y in xs if y in ys][0] == 3 or $sum(zs) == t'P1D'".
Definition c43_text_tree : dnode :=
  Eval vm_compute in match parse_text ascii_space (fun _ => None) (s c43_text) with Ok n => n | Err _ => DLit VNull end.
Theorem C43_construction_example :
  (exists e, fst (run c13_world (mk_rule c43_text) demo_st) = Ok e) /\ c_default untyped_ctx = None /\
  supplied untyped_ctx c13_world /\ behaved c13_world VNull /\ s_scopes demo_st = [] /\
  (forall name x, c_types untyped_ctx name = Err x -> is_engine x = true) /\
  (forall n, parse_text ascii_space (fun _ => None) (s c43_text) = Ok n ->
     (forall o nm sf, ~ dpart (DAttr o nm sf) n) /\ (forall d, dpart (DTimedelta d) n -> forall x, parse_timedelta d = Err x -> is_engine x = true) /\
     (forall n' e e' x, dpart n' n -> operation untyped_ctx c13_world n' e -> constant e = true -> part e' e -> ~ leaks untyped_ctx e' x)).
Proof.
  split; [eexists; vm_compute; reflexivity|]. split; [reflexivity|]. split; [exact default_values_nice|]. split; [exact default_behaved|]. split; [reflexivity|]. split; [discriminate|].
  intros n E. assert (n = c43_text_tree) as -> by (vm_compute in E; injection E as <-; reflexivity). split; [|split].
  - intros o nm sf H. unfold c43_text_tree in H. parts2.
  - intros d H x E1. unfold c43_text_tree in H. parts2. vm_compute in E1. discriminate E1.
  - intros n' e e' x H Op K P L. unfold c43_text_tree in H.
    assert (Z : forall a o0, open a -> becomes untyped_ctx c13_world a o0 -> is_reduced o0 = false) by (intros; eapply open_becomes; eassumption).
    parts2; destruct e; try contradiction; cbn [operation] in Op; cbn [constant] in K;
      repeat match goal with H : _ /\ _ |- _ => destruct H | H : _ && _ = true |- _ => apply andb_true_iff in H end;
      match goal with H : becomes _ _ ?n0 ?e, R : is_reduced ?e = true |- _ => assert (On : open n0) by (repeat constructor); rewrite (Z _ _ On H) in R; discriminate R end.
Qed.

(** *** Each of the other cases occurs: these texts raise no EngineError (finding 33: a member of a mapping literal named like a
    comprehension variable) *)
Theorem C43_construction_refuted :
  fst (run c13_world (mk_rule "[{'a': 1}.a for a in [1, 2]]") demo_st) = Err PType /\
  fst (run c13_world (mk_rule "t'P1000000000D'") demo_st) = Err POverflow /\
  fst (run c13_world (mk_rule "t'P999999999D' + t'P999999999D'") demo_st) = Err POverflow /\
  fst (run c13_world (mk_rule "[{1}].to_set") demo_st) = Err PType /\
  fst (run c13_world (rule_of_text ascii_space (fun _ => None) (demo_ctx (fun _ => Err PKey)) (s "x + 1")) demo_st) = Err PKey /\
  (* the same member access outside a comprehension is a rule *)
  (exists e, fst (run c13_world (mk_rule "[{'a': 1}.a for b in [1, 2]]") demo_st) = Ok e).
Proof. repeat (split; [vm_compute; reflexivity|]). eexists. vm_compute. reflexivity. Qed.
Print Assumptions C43_construction_refuted.

(** ** C42 for texts *)
Theorem C42_text : forall (Orc : Oracle) space uname C t w q,
  (fst (run w (text_is_valid space uname C t) q) = Ok true <-> exists e, fst (run w (rule_of_text space uname C t) q) = Ok e) /\
  (fst (run w (text_is_valid space uname C t) q) = Ok false <-> exists x, fst (run w (rule_of_text space uname C t) q) = Err x /\ is_engine x = true) /\
  (forall x, fst (run w (text_is_valid space uname C t) q) = Err x <-> fst (run w (rule_of_text space uname C t) q) = Err x /\ is_engine x = false) /\
  snd (run w (text_is_valid space uname C t) q) = snd (run w (rule_of_text space uname C t) q).
Proof.
  intros. unfold text_is_valid. rewrite run_pthen. destruct (run w (rule_of_text space uname C t) q) as [[e|x] q']; cbn.
  - split; [split; [eauto|reflexivity]|]. split; [split; [discriminate|intros [y [H _]]; discriminate]|].
    split; [|reflexivity]. intro y. split; [discriminate|intros [H _]; discriminate].
  - destruct (is_engine x) eqn:E; cbn.
    + split; [split; [discriminate|intros [e H]; discriminate]|]. split; [split; [intros _; eauto|reflexivity]|]. split; [|reflexivity].
      intro y. split; [discriminate|]. intros [H H']. inversion H; subst. congruence.
    + split; [split; [discriminate|intros [e H]; discriminate]|]. split; [split; [discriminate|intros [y [H H']]; inversion H; subst; congruence]|].
      split; [|reflexivity]. intro y. split; [intro H; inversion H; subst; auto|intros [H _]; inversion H; reflexivity].
Qed.
Print Assumptions C42_text.
(** A text that is no sentence of the grammar, or contains a malformed bytes or string literal, is never a valid rule, whatever the
    context; C59_parse and C50 say which texts these are. *)
Theorem C42_syntax : forall (Orc : Oracle) space uname C t w q, (forall n, parse_text space uname t <> Ok n) ->
  run w (text_is_valid space uname C t) q = (Ok false, q) /\
  exists x, run w (rule_of_text space uname C t) q = (Err x, q) /\ (x = XSynRule \/ x = XSynBytes \/ x = XSynString).
Proof.
  intros Orc space uname C t w q H. unfold text_is_valid, rule_of_text. pose proof (C59_parse space uname t) as P. destruct (parse_text space uname t) as [n|x]; [exfalso; exact (H n eq_refl)|].
  split; [|exists x; split; [reflexivity|exact P]]. destruct P as [->|[->| ->]]; reflexivity.
Qed.
Print Assumptions C42_syntax.
Example C42_text_example :
  fst (run c13_world (text_is_valid ascii_space (fun _ => None) untyped_ctx (s "x + 1 > 3")) demo_st) = Ok true /\
  fst (run c13_world (text_is_valid ascii_space (fun _ => None) untyped_ctx (s "1 + 'a'")) demo_st) = Ok false /\
  fst (run c13_world (text_is_valid ascii_space (fun _ => None) untyped_ctx (s "1 +")) demo_st) = Ok false /\
  fst (run c13_world (text_is_valid ascii_space (fun _ => None) untyped_ctx (s "t'P1000000000D'")) demo_st) = Err POverflow.
Proof. vm_compute. repeat split; reflexivity. Qed.
