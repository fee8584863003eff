(** * C24: every datetime a rule reads is time zone aware *)
From Coq Require Import QArith Lia String.
From Verif Require Import Base Dec Value DType DTypeFacts Types Ops EqFacts CoerceFacts TypesFacts ParseUtil Attr Prog Ast Eval Build Engine
  ProgFacts StateFacts Post Demo P_Compare P_Ops.
Open Scope list_scope.
Open Scope Z_scope.

(** a datetime without time zone (a native date becomes one) *)
Definition naive (v : value) : Prop := match v with VDt _ None | VDate _ => True | _ => False end.
Notation aware v := (~ naive v).

(** The operands of an expression: the subexpressions whose value an operator, attribute, condition, ... gets to see.  Constant
    members of array, set and mapping literals are not operands themselves; they are read through item access or a variable. *)
Definition is_const (e : expr) : Prop := match e with ELit _ => True | _ => False end.
Inductive operand : expr -> expr -> Prop :=
| Op_self : forall e, operand e e
| Op_arr : forall x e l, In e l -> ~ is_const e -> operand x e -> operand x (EArr l)
| Op_set : forall x e l, In e l -> ~ is_const e -> operand x e -> operand x (ESet l)
| Op_key : forall x k v l, In (k, v) l -> ~ is_const k -> operand x k -> operand x (EMap l)
| Op_val : forall x k v l, In (k, v) l -> ~ is_const v -> operand x v -> operand x (EMap l)
| Op_left : forall x o a b, operand x a -> operand x (EBin o a b)
| Op_right : forall x o a b, operand x b -> operand x (EBin o a b)
| Op_cres : forall x r n i c, operand x r -> operand x (EComp r n i c)
| Op_cit : forall x r n i c, operand x i -> operand x (EComp r n i c)
| Op_ccond : forall x r n i c, operand x c -> operand x (EComp r n i (Some c))
| Op_inc : forall x c m, operand x c -> operand x (EIn c m)
| Op_inm : forall x c m, operand x m -> operand x (EIn c m)
| Op_attr : forall x o n sf, operand x o -> operand x (EAttr o n sf)
| Op_itc : forall x c i sf, operand x c -> operand x (EItem c i sf)
| Op_iti : forall x c i sf, operand x i -> operand x (EItem c i sf)
| Op_slc : forall x c a b sf, operand x c -> operand x (ESlice c a b sf)
| Op_sla : forall x c a b sf, operand x a -> operand x (ESlice c a b sf)
| Op_slb : forall x c a b sf, operand x b -> operand x (ESlice c a b sf)
| Op_callf : forall x f l, operand x f -> operand x (ECall f l)
| Op_callx : forall x f l e, In e l -> operand x e -> operand x (ECall f l)
| Op_tc : forall x c a b, operand x c -> operand x (ETern c a b)
| Op_ta : forall x c a b, operand x a -> operand x (ETern c a b)
| Op_tb : forall x c a b, operand x b -> operand x (ETern c a b)
| Op_un : forall x o e, operand x e -> operand x (EUn o e).

(** what the grammar puts into literal nodes: TRUE, FALSE, NULL, BYTES, STRING (dates are parsed from text) *)
Definition plain_lit (v : value) : Prop := match v with VNull | VBool _ | VStr _ | VBytes _ | VDec _ | VTd _ => True | _ => False end.
Inductive dpart : dnode -> dnode -> Prop :=
| Dp_self : forall n, dpart n n
| Dp_arr : forall x n l, In n l -> dpart x n -> dpart x (DArr l)
| Dp_set : forall x n l, In n l -> dpart x n -> dpart x (DSet l)
| Dp_key : forall x k v l, In (k, v) l -> dpart x k -> dpart x (DMap l)
| Dp_val : forall x k v l, In (k, v) l -> dpart x v -> dpart x (DMap l)
| Dp_l : forall x o a b, dpart x a -> dpart x (DBin o a b)
| Dp_r : forall x o a b, dpart x b -> dpart x (DBin o a b)
| Dp_cr : forall x r n i c, dpart x r -> dpart x (DComp r n i c)
| Dp_ci : forall x r n i c, dpart x i -> dpart x (DComp r n i c)
| Dp_cc : forall x r n i c, dpart x c -> dpart x (DComp r n i (Some c))
| Dp_inc : forall x c m, dpart x c -> dpart x (DIn c m)
| Dp_inm : forall x c m, dpart x m -> dpart x (DIn c m)
| Dp_attr : forall x o n sf, dpart x o -> dpart x (DAttr o n sf)
| Dp_itc : forall x c i sf, dpart x c -> dpart x (DItem c i sf)
| Dp_iti : forall x c i sf, dpart x i -> dpart x (DItem c i sf)
| Dp_slc : forall x c a b sf, dpart x c -> dpart x (DSlice c a b sf)
| Dp_sla : forall x c a b sf, dpart x a -> dpart x (DSlice c (Some a) b sf)
| Dp_slb : forall x c a b sf, dpart x b -> dpart x (DSlice c a (Some b) sf)
| Dp_callf : forall x f l, dpart x f -> dpart x (DCall f l)
| Dp_callx : forall x f l e, In e l -> dpart x e -> dpart x (DCall f l)
| Dp_tc : forall x c a b, dpart x c -> dpart x (DTern c a b)
| Dp_ta : forall x c a b, dpart x a -> dpart x (DTern c a b)
| Dp_tb : forall x c a b, dpart x b -> dpart x (DTern c a b)
| Dp_un : forall x o e, dpart x e -> dpart x (DUn o e).
Definition written (n : dnode) : Prop := forall v, dpart (DLit v) n -> plain_lit v.

Section C24.
Context (Orc : Oracle) (C : ctx).

(** ** Values read: the default time zone is attached, aware datetimes are untouched *)
Theorem C24_values_read : forall ver v v', new_value (c_tz C) ver v = Ok v' ->
  aware v' /\
  match v with
  | VDt w None => v' = VDt w (Some (c_tz C))
  | VDt w (Some z) => v' = v
  | VDate d => v' = VDt (d * us_per_day) (Some (c_tz C))
  | _ => match v' with VDt _ _ => False | _ => True end
  end.
Proof.
  intros ver v v' H. unfold new_value in H. apply rmap_ok in H as [u [E ->]].
  assert (K : normal u) by (eapply coerce_normal; exact E).
  split.
  - intro N. destruct u as [| | | | | | |w [z|]|d| | | | | | | | | | |]; cbn in N; try contradiction; inversion K.
  - apply coerce_cases in E. destruct v as [| | | | | | |w [z|]|d| | | | | | | | | | |]; (match type of E with ex _ => destruct E as [l' [_ ->]] | _ => subst u end); cbn; reflexivity || exact I.
Qed.

Lemma nval_aware : forall ver v, post (nval C ver v) (fun v => aware v).
Proof. intros ver v. apply post_ret. intros a H. eapply C24_values_read. exact H. Qed.

(** ** Every operand of a constructed rule evaluates to an aware value *)
Definition lits_aware (e : expr) : Prop := forall e' v, operand e' e -> (e' = ELit v \/ exists t, e' = EFun v t) -> aware v.
Definition const_or_ok (e : expr) : Prop := is_const e \/ lits_aware e.

Lemma la_sub : forall e' e, operand e' e -> lits_aware e -> lits_aware e'.
Proof.
  intros e' e H L e2 v O E. apply (L e2 v); [|exact E]. clear L E. induction H; try assumption; solve [econstructor; eauto | eapply Op_key; eauto | eapply Op_val; eauto].
Qed.

Lemma mk_td_td : forall z v, mk_td z = Ok v -> exists u, v = VTd u.
Proof. intros z v H. unfold mk_td in H. destruct (td_ok z); inversion H. eauto. Qed.
Lemma mk_dt_dt : forall w z v, mk_dt w z = Ok v -> exists w', v = VDt w' z.
Proof. intros w z v H. unfold mk_dt in H. destruct (_ && _); inversion H. eauto. Qed.
Lemma rdec_dec : forall r v, rdec r = Ok v -> exists d, v = VDec d.
Proof. intros r v H. unfold rdec in H. apply rmap_ok in H as [d [_ ->]]. eauto. Qed.
Ltac shape H := 
  match type of H with
  | Err _ = Ok _ => discriminate
  | Ok _ = Ok _ => inversion H; subst
  | mk_td _ = _ => apply mk_td_td in H as [? ->]
  | mk_dt _ _ = _ => apply mk_dt_dt in H as [? ->]
  | rdec _ = _ => apply rdec_dec in H as [? ->]
  | _ => idtac
  end.
Lemma op_add_aware : forall dc x y v, op_add dc x y = Ok v -> aware x -> aware y -> aware v.
Proof.
  intros dc x y v H Ax Ay.
  destruct x as [| | | | | | |w [z|]|d|u| | | | | | | | | |]; try (exfalso; apply Ax; exact I);
  destruct y as [| | | | | | |w' [z'|]|d'|u'| | | | | | | | | |]; try (exfalso; apply Ay; exact I); cbn [op_add is_bytes is_str is_numeric andb orb] in H; shape H; intros [].
Qed.
Lemma op_sub_aware : forall dc x y v, op_sub dc x y = Ok v -> aware x -> aware y -> aware v.
Proof.
  intros dc x y v H Ax Ay.
  destruct x as [| | | | | | |w [z|]|d|u| | | | | | | | | |]; try (exfalso; apply Ax; exact I);
  destruct y as [| | | | | | |w' [z'|]|d'|u'| | | | | | | | | |]; try (exfalso; apply Ay; exact I); cbn [op_sub is_numeric andb] in H; shape H; intros [].
Qed.

Definition not_dt (v : value) : Prop := match v with VDt _ _ | VDate _ => False | _ => True end.
Lemma not_dt_aware : forall v, not_dt v -> aware v.
Proof. intros v H N. destruct v as [| | | | | | |w [z|]|d| | | | | | | | | | |]; cbn in *; contradiction. Qed.

Lemma post_bool : forall r, post (vbool r) (fun v => aware v).
Proof. intro r. apply post_ret. intros a H. apply rmap_ok in H as [b [_ ->]]. intros []. Qed.

Lemma fuzzy_aware : forall sr ng pre x y, post (fuzzy_match C sr ng pre x y) (fun v => aware v).
Proof.
  intros sr ng pre x y. unfold fuzzy_match.
  destruct x; try apply post_raise; destruct y; try apply post_raise; try (apply post_ok; intros []).
  - apply post_bind_any. intro u. apply post_ok. intros [].
  - apply post_bind_any. intro u. destruct (o_re _ _ _ _); [apply post_bind_any; intro; apply post_ok; intros []|apply post_ok; intros []].
Qed.

Theorem eval_aware : forall thing e, lits_aware e -> post (eval C thing e) (fun v => aware v).
Proof.
  intros thing. induction e as [v|v t|l IH|l IH|l IH|o a b IHa IHb|r n i c IHr IHi IHc|c m IHc IHm|o n sf IHo|c i sf IHc IHi|c a b sf IHc IHa IHb|n bi t|f l IHf IHl|c a b IHc IHa IHb|o e IHe] using expr_ind';
    intro L; cbn [eval].
  - apply post_ok. apply (L (ELit v)); [constructor|auto].
  - apply post_ok. apply (L (EFun v t)); [constructor|eauto].
  - apply post_bind_any. intros vs. apply post_ok. intros [].
  - apply post_bind_any. intros vs. apply post_ok. intros [].
  - apply post_bind_any. intros ks. apply post_bind_any. intros m. apply post_ok. intros [].
  - assert (La : lits_aware a) by (eapply la_sub; [|exact L]; apply Op_left; constructor).
    assert (Lb : lits_aware b) by (eapply la_sub; [|exact L]; apply Op_right; constructor).
    specialize (IHa La). specialize (IHb Lb). destruct o.
    + eapply post_bind; [exact IHa|]. intros x Hx. eapply post_bind; [exact IHb|]. intros y Hy. apply post_bind_any. intro dc. apply post_ret. intros v E. eapply op_add_aware; eassumption.
    + eapply post_bind; [exact IHa|]. intros x Hx. eapply post_bind; [exact IHb|]. intros y Hy. apply post_bind_any. intro dc. apply post_ret. intros v E. eapply op_sub_aware; eassumption.
    + apply post_bind_any. intro x. destruct (is_numeric x); [|apply post_raise]. apply post_bind_any. intro y. destruct (is_numeric y); [|apply post_raise].
      apply post_bind_any. intro dc. apply post_ret. intros v E. unfold op_arith in E. destruct (dec_arith _ _ _ _) as [d|e]; [inversion E; intros []|destruct (is_arithmetic e); discriminate].
    + apply post_bind_any. intro x. apply post_bind_any. intro t. destruct (dt_eqb t TFloat); [|destruct (is_set_t t); [|apply post_raise]].
      * apply post_bind_any. intro u. apply post_bind_any. intro y. apply post_ret. intros v E. unfold op_bit_float in E. apply rbind_ok in E as [z [_ E]]. inversion E. intros [].
      * apply post_bind_any. intro y. apply post_ret. intros v E. unfold op_bit_set in E. apply rbind_ok in E as [z [_ E]]. destruct (is_compat z t_set); [|discriminate].
        destruct x; try discriminate; destruct y; try discriminate. apply rmap_ok in E as [s0 [_ ->]]. intros [].
    + apply post_bind_any. intro x. destruct (truthy x); [apply post_bind_any; intro y|]; apply post_ok; intros [].
    + apply post_bind_any. intro x. destruct (truthy x); [|apply post_bind_any; intro y]; apply post_ok; intros [].
    + apply post_bind_any. intro x. apply post_bind_any; intro y. apply post_ok; intros [].
    + apply post_bind_any. intro x. apply post_bind_any; intro y. apply post_ok; intros [].
    + apply post_bind_any. intro x. apply post_bind_any; intro y. apply post_bool.
    + apply post_bind_any. intro x. destruct x; try apply post_raise; apply post_bind_any; intro y; apply fuzzy_aware.
  - apply post_bind_any. intro v. apply post_bind_any. intro t. destruct (is_iterable t); [|apply post_raise]. apply post_bind_any. intro vs. apply post_ok. intros [].
  - apply post_bind_any. intro x. apply post_bind_any. intro t. apply post_bind_any. intro y. apply post_bool.
  - apply post_bind_any. intro v. destruct (is_null v && sf); [apply post_ok; intros []|]. destruct (resolve_attr v n) as [r|x]; [apply nval_aware|].
    destruct x; try apply post_raise. eapply post_then; [apply post_any| |].
    + intros x _. apply nval_aware.
    + intro x. destruct x; try apply post_raise. destruct (c_default C); [apply nval_aware|apply post_raise].
  - apply post_bind_any. intro x. destruct (is_null x); [destruct sf; [apply post_ok; intros []|apply post_raise]|]. apply post_bind_any. intro k. apply post_bind_any. intro u.
    destruct (py_getitem x k) as [v|e]; [apply nval_aware|]. destruct e; try apply post_raise. destruct sf; [apply post_ok; intros []|apply post_raise].
  - apply post_bind_any. intro x. destruct (is_null x); [destruct sf; [apply post_ok; intros []|apply post_raise]|]. 
    apply post_bind_any. intro va. apply post_bind_any. intro ii. apply post_bind_any. intro vb. apply post_bind_any. intro jj.
    eapply post_bind; [apply (post_ret _ _ (fun v => match v with VBytes _ | VStr _ | VArr _ | VList _ | VRange _ => True | _ => False end))|].
    + intros v E. destruct x; cbn in E; inversion E; exact I.
    + intros v Hv. apply post_ret. intros u E. apply coerce_cases in E. destruct v; try contradiction; (match type of E with ex _ => destruct E as [l' [_ ->]] | _ => subst u end); intros [].
  - eapply post_then; [apply post_any| |].
    + intros v _. apply (post_bind _ _ _ _ (fun _ => True)); [apply post_any|]. intros v1 _. eapply post_bind; [apply nval_aware|]. intros v2 H2. apply post_ret. intros v3 E.
      assert (v3 = v2) by (unfold sym_check in E; destruct (is_undef t); [congruence|]; apply rbind_ok in E as [vt [_ E]]; repeat match type of E with (if ?b then _ else _) = _ => destruct b end; congruence).
      subst. exact H2.
    + intros x. apply (post_bind _ _ _ _ (fun _ => True)); [apply post_any|]. intros v1 _. eapply post_bind; [apply nval_aware|]. intros v2 H2. apply post_ret. intros v3 E.
      assert (v3 = v2) by (unfold sym_check in E; destruct (is_undef t); [congruence|]; apply rbind_ok in E as [vt [_ E]]; repeat match type of E with (if ?b then _ else _) = _ => destruct b end; congruence).
      subst. exact H2.
  - apply post_bind_any. intro fv. destruct (callable fv); [|apply post_raise]. apply post_bind_any. intro vs. apply post_bind_any. intro u.
    apply post_bind_any. intro rv. eapply post_bind; [apply nval_aware|]. intros v Hv. apply post_bind_any. intro t. destruct (is_compat _ _); [apply post_ok; exact Hv|apply post_raise].
  - apply post_bind_any. intro x. destruct (truthy x).
    + apply IHa. eapply la_sub; [|exact L]. apply Op_ta. constructor.
    + apply IHb. eapply la_sub; [|exact L]. apply Op_tb. constructor.
  - destruct o.
    + apply post_bind_any. intro x. apply post_ok. intros [].
    + apply post_bind_any. intro x. apply post_bind_any. intro dc. apply post_ret. intros v E. unfold op_neg in E. destruct x; cbn [is_numeric] in E; shape E; intros [].
Qed.

(** ** Construction keeps the literals aware *)
Lemma la_lit : forall v, aware v -> lits_aware (ELit v).
Proof. intros v H e' u O [E|[t E]]; subst; inversion O; subst; exact H. Qed.
Lemma la_fun : forall v t, aware v -> lits_aware (EFun v t).
Proof. intros v t0 H e' u O [E|[t E]]; subst; inversion O; subst; exact H. Qed.

Ltac la_intro := let x := fresh "x" in let u := fresh "u" in let O := fresh "O" in let E := fresh "E" in
  intros x u O E; inversion O; subst; [destruct E as [E|[? E]]; discriminate|..].

Lemma la_arr : forall l, (forall e, In e l -> const_or_ok e) -> lits_aware (EArr l).
Proof. intros l H. la_intro. destruct (H e) as [K|K]; [assumption|contradiction|]. eapply K; eassumption. Qed.
Lemma la_set : forall l, (forall e, In e l -> const_or_ok e) -> lits_aware (ESet l).
Proof. intros l H. la_intro. destruct (H e) as [K|K]; [assumption|contradiction|]. eapply K; eassumption. Qed.
Lemma la_map : forall l, (forall k v, In (k, v) l -> const_or_ok k /\ const_or_ok v) -> lits_aware (EMap l).
Proof.
  intros l H. la_intro.
  - destruct (H k v) as [[K|K] _]; [assumption|contradiction|]. eapply K; eassumption.
  - destruct (H k v) as [_ [K|K]]; [assumption|contradiction|]. eapply K; eassumption.
Qed.

Lemma lit_of_members : forall v e, lit_of v = Ok e -> const_or_ok e.
Proof.
  induction v as [|b|d|z|f|t|b|w tz|d|u|l IH|l IH|l|l IH|l IH|l IH|n|f|m v IH|n] using value_ind'; intros e H;
    cbn [lit_of] in H; apply rbind_ok in H as [t0 [_ H]]; apply rmap_ok in H as [r [E ->]] || inversion H; subst; try (left; exact I); right.
  - apply la_arr. intros e He. apply rmapM_ok_iff in E. destruct (Forall2_In_r _ _ _ _ _ _ E He) as [x [Hx Ex]]. rewrite Forall_forall in IH. eapply IH; eassumption.
  - apply la_arr. intros e He. apply rmapM_ok_iff in E. destruct (Forall2_In_r _ _ _ _ _ _ E He) as [x [Hx Ex]]. rewrite Forall_forall in IH. eapply IH; eassumption.
  - apply la_arr. intros e He. apply in_map_iff in He as [z [<- _]]. left. exact I.
  - apply la_set. intros e He. apply rmapM_ok_iff in E. destruct (Forall2_In_r _ _ _ _ _ _ E He) as [x [Hx Ex]]. rewrite Forall_forall in IH. eapply IH; eassumption.
  - apply la_map. intros k v He. apply rmapM_ok_iff in E. destruct (Forall2_In_r _ _ _ _ _ _ E He) as [x [Hx Ex]]. rewrite Forall_forall in IH. destruct (IH _ Hx) as [IH1 IH2].
    apply rbind_ok in Ex as [k1 [E1 Ex]]. apply rbind_ok in Ex as [v1 [E2 Ex]]. inversion Ex; subst. split; auto.
  - apply la_map. intros k v He. apply rmapM_ok_iff in E. destruct (Forall2_In_r _ _ _ _ _ _ E He) as [x [Hx Ex]]. rewrite Forall_forall in IH. destruct (IH _ Hx) as [IH1 IH2].
    apply rbind_ok in Ex as [k1 [E1 Ex]]. apply rbind_ok in Ex as [v1 [E2 Ex]]. inversion Ex; subst. split; auto.
Qed.

Lemma lit_of_aware : forall v e, aware v -> lit_of v = Ok e -> lits_aware e.
Proof.
  intros v e A H. destruct (lit_of_members v e H) as [K|K]; [|exact K]. destruct e as [u| | | | | | | | | | | | | |]; try contradiction. apply la_lit.
  assert (X : coerce true v = Ok u).
  { destruct v; cbn [lit_of] in H; apply rbind_ok in H as [t0 [_ H]]; try (apply rmap_ok in H as [r [E H]]; inversion H; subst; exact E); inversion H. }
  apply coerce_cases in X. intro N. destruct v as [| | | | | | |w [z|]|d| | | | | | | | | | |]; (match type of X with ex _ => destruct X as [l' [_ ->]] | _ => subst u end); cbn in N; try contradiction; apply A; exact I.
Qed.

Lemma fold_aware : forall e, lits_aware e -> post (fold C e) lits_aware.
Proof. intros e H. unfold fold. eapply post_bind; [apply eval_aware; exact H|]. intros v Hv. apply post_ret. intros l E. exact (lit_of_aware v l Hv E). Qed.

Lemma reduce_aware : forall e, lits_aware e -> post (reduce C e) lits_aware.
Proof.
  induction e as [v|v t|l IH|l IH|l IH|o a b IHa IHb|r n i c IHr IHi IHc|c m IHc IHm|o n sf IHo|c i sf IHc IHi|c a b sf IHc IHa IHb|n bi t|f l IHf IHl|c a b IHc IHa IHb|o e IHe] using expr_ind';
    intro L; cbn [reduce]; try (apply post_ok; exact L).
  - destruct (_ && _); [apply fold_aware; exact L|apply post_ok; exact L].
  - destruct (_ && _); [|apply post_ok; exact L]. eapply post_bind; [apply eval_aware; exact L|]. intros v Hv. apply post_ok. apply la_lit. exact Hv.
  - destruct (is_reduced o); [|apply post_ok; exact L]. eapply post_bind; [apply fold_aware; exact L|]. intros l Hl. apply post_ok.
    destruct l; try exact Hl. destruct (_ && _); [|exact Hl]. apply la_fun. apply (Hl (ELit v)); [constructor|auto].
  - destruct (match rtype c with TMap k _ _ => sf && negb (is_compat (rtype i) k) | _ => false end); [apply post_ok; apply la_lit; intros []|].
    destruct (_ && _); [apply fold_aware; exact L|apply post_ok; exact L].
  - destruct (_ && _); [apply fold_aware; exact L|apply post_ok; exact L].
  - destruct (_ && _); [apply fold_aware; exact L|apply post_ok; exact L].
  - destruct (is_reduced c); [|apply post_ok; exact L]. destruct (lit_truthy c).
    + apply IHa. eapply la_sub; [|exact L]. apply Op_ta. constructor.
    + apply IHb. eapply la_sub; [|exact L]. apply Op_tb. constructor.
  - destruct o.
    + destruct (is_reduced e); [|apply post_ok; exact L]. eapply post_bind; [apply (eval_aware VNull (EUn UNot e)); exact L|]. intros v Hv. apply post_ok. apply la_lit. exact Hv.
    + destruct (is_reduced e); [|apply post_ok; exact L]. assert (K := eval_aware VNull (EUn UMinus e) L).
      destruct e as [[]| | | | | | | | | | | | | |]; try apply post_raise; (eapply post_bind; [exact K|]; intros v Hv; apply post_ok; apply la_lit; exact Hv).
Qed.

Lemma la_bin : forall o a b, lits_aware a -> lits_aware b -> lits_aware (EBin o a b).
Proof. intros o a b A B. la_intro; [eapply A|eapply B]; eassumption. Qed.

Lemma written_sub : forall m n, dpart m n -> written n -> written m.
Proof.
  intros m n H W v O. apply W. clear W. induction H; try assumption; solve [econstructor; eauto | eapply Dp_key; eauto | eapply Dp_val; eauto].
Qed.

Lemma build_list_aware : forall l, (forall n, In n l -> post (build C n) lits_aware) -> post (pmapM (build C) l) (fun es => forall e, In e es -> lits_aware e).
Proof.
  intros l H. eapply post_impl; [|apply (post_pmapM _ _ _ (fun _ e => lits_aware e)); exact H]. intros es F e He. destruct (Forall2_In_r _ _ _ _ _ _ F He) as [n [_ K]]. exact K.
Qed.

Lemma parse_timedelta_td : forall t v, parse_timedelta t = Ok v -> exists u, v = VTd u.
Proof.
  intros t v H. unfold parse_timedelta in H. destruct t as [|c r0]; [discriminate|]. destruct (_ && _); [|discriminate].
  destruct (scan_comp 87 r0) as [w r1]. destruct (scan_comp 68 r1) as [d r2].
  match type of H with (match ?x with pair _ _ => _ end) = _ => destruct x as [[[h m] sc] r] end. destruct (at_end r); [|discriminate].
  destruct (Flt.timedelta_us _); [eapply mk_td_td; exact H|discriminate H].
Qed.

Theorem build_aware : forall n, written n -> post (build C n) lits_aware.
Proof.
  induction n as [v|t|t|t|l IH|l IH|l IH|o a b IHa IHb|r v i c IHr IHi IHc|c m IHc IHm|o nm sf IHo|c i sf IHc IHi|c a b sf IHc IHa IHb|nm bi|f l IHf IHl|c a b IHc IHa IHb|o e IHe] using dnode_ind';
    intro W; cbn [build].
  - apply post_ok. apply la_lit. specialize (W v (Dp_self _)). destruct v; cbn in *; tauto.
  - apply post_ret. intros e E. apply rmap_ok in E as [d [_ ->]]. apply la_lit. intros [].
  - apply post_ret. intros e E. apply rmap_ok in E as [d [E ->]]. apply la_lit. unfold parse_datetime in E. destruct (o_isoparse t) as [[w [z|]]|]; inversion E; intros [].
  - apply post_ret. intros e E. apply rmap_ok in E as [d [E ->]]. apply la_lit. apply parse_timedelta_td in E as [us ->]. intros [].
  - rewrite Forall_forall in IH. eapply post_bind; [apply build_list_aware; intros n Hn; apply IH; [exact Hn|eapply written_sub; [|exact W]; eapply Dp_arr; [exact Hn|constructor]]|].
    intros es H. apply post_ok. apply la_arr. intros e He. right. auto.
  - rewrite Forall_forall in IH. eapply post_bind; [apply build_list_aware; intros n Hn; apply IH; [exact Hn|eapply written_sub; [|exact W]; eapply Dp_set; [exact Hn|constructor]]|].
    intros es H. apply post_ok. apply la_set. intros e He. right. auto.
  - rewrite Forall_forall in IH. eapply post_bind; [apply (post_pmapM _ _ _ (fun _ e => lits_aware (fst e) /\ lits_aware (snd e)))|].
    + intros [k v] Hn. destruct (IH _ Hn) as [IH1 IH2]. eapply post_bind; [apply IH1; eapply written_sub; [|exact W]; eapply Dp_key; [exact Hn|constructor]|]. intros e1 H1.
      eapply post_bind; [apply IH2; eapply written_sub; [|exact W]; eapply Dp_val; [exact Hn|constructor]|]. intros e2 H2. apply post_ok. split; assumption.
    + intros es F. apply post_bind_any. intro u. apply post_ok. apply la_map. intros k v He. destruct (Forall2_In_r _ _ _ _ _ _ F He) as [x [_ [K1 K2]]]. split; right; assumption.
  - eapply post_bind; [apply IHa; eapply written_sub; [|exact W]; apply Dp_l; constructor|]. intros x Hx.
    eapply post_bind; [apply IHb; eapply written_sub; [|exact W]; apply Dp_r; constructor|]. intros y Hy. apply post_bind_any. intro u. apply reduce_aware. apply la_bin; assumption.
  - eapply post_bind; [apply IHi; eapply written_sub; [|exact W]; apply Dp_ci; constructor|]. intros x Hx. destruct (_ && _); [apply post_raise|].
    apply (post_bind _ _ _ _ (fun cr => lits_aware (snd cr) /\ match fst cr with Some c => lits_aware c | None => True end)).
    + apply post_scope. apply (post_bind _ _ _ _ (fun oc => match oc with Some c => lits_aware c | None => True end)).
      * destruct c as [c|]; [|apply post_ok; exact I]. eapply post_bind; [apply IHc; eapply written_sub; [|exact W]; apply Dp_cc; constructor|]. intros e He. apply post_ok. exact He.
      * intros oc Hc. eapply post_bind; [apply IHr; eapply written_sub; [|exact W]; apply Dp_cr; constructor|]. intros e He. apply post_ok. split; assumption.
    + intros [oc e] [He Hc]. apply post_ok. cbn in *. la_intro; [eapply He|eapply Hx|eapply Hc]; eassumption.
  - eapply post_bind; [apply IHc; eapply written_sub; [|exact W]; apply Dp_inc; constructor|]. intros x Hx.
    eapply post_bind; [apply IHm; eapply written_sub; [|exact W]; apply Dp_inm; constructor|]. intros y Hy. apply post_bind_any. intro u. apply reduce_aware. la_intro; [eapply Hx|eapply Hy]; eassumption.
  - eapply post_bind; [apply IHo; eapply written_sub; [|exact W]; apply Dp_attr; constructor|]. intros x Hx. apply post_bind_any. intro u. apply reduce_aware. la_intro. eapply Hx; eassumption.
  - eapply post_bind; [apply IHc; eapply written_sub; [|exact W]; apply Dp_itc; constructor|]. intros x Hx.
    eapply post_bind; [apply IHi; eapply written_sub; [|exact W]; apply Dp_iti; constructor|]. intros y Hy. apply post_bind_any. intro u. apply reduce_aware. la_intro; [eapply Hx|eapply Hy]; eassumption.
  - apply (post_bind _ _ _ _ (fun oc => match oc with Some c => lits_aware c | None => True end)).
    { destruct a as [a|]; [|apply post_ok; exact I]. eapply post_bind; [apply IHa; eapply written_sub; [|exact W]; apply Dp_sla; constructor|]. intros e He. apply post_ok. exact He. }
    intros oa Ha. apply (post_bind _ _ _ _ (fun oc => match oc with Some c => lits_aware c | None => True end)).
    { destruct b as [b|]; [|apply post_ok; exact I]. eapply post_bind; [apply IHb; eapply written_sub; [|exact W]; apply Dp_slb; constructor|]. intros e He. apply post_ok. exact He. }
    intros ob Hb. eapply post_bind; [apply IHc; eapply written_sub; [|exact W]; apply Dp_slc; constructor|]. intros z Hz. apply post_bind_any. intro u. apply reduce_aware.
    assert (Ka : lits_aware (mk_lit_slice oa (VDec (dec_of_Z 0)))) by (destruct oa; cbn; [exact Ha|apply la_lit; intros []]).
    assert (Kb : lits_aware (mk_lit_slice ob VNull)) by (destruct ob; cbn; [exact Hb|apply la_lit; intros []]).
    la_intro; [eapply Hz|eapply Ka|eapply Kb]; eassumption.
  - apply post_bind_any. intro u. apply post_bind_any. intro t. apply post_ok. la_intro.
  - eapply post_bind; [apply IHf; eapply written_sub; [|exact W]; apply Dp_callf; constructor|]. intros x Hx. rewrite Forall_forall in IHl.
    eapply post_bind; [apply build_list_aware; intros n Hn; apply IHl; [exact Hn|eapply written_sub; [|exact W]; eapply Dp_callx; [exact Hn|constructor]]|].
    intros es Hes. apply post_bind_any. intro u. apply reduce_aware. la_intro; [eapply Hx|eapply Hes]; eassumption.
  - eapply post_bind; [apply IHc; eapply written_sub; [|exact W]; apply Dp_tc; constructor|]. intros x Hx.
    eapply post_bind; [apply IHa; eapply written_sub; [|exact W]; apply Dp_ta; constructor|]. intros y Hy.
    eapply post_bind; [apply IHb; eapply written_sub; [|exact W]; apply Dp_tb; constructor|]. intros z Hz. apply reduce_aware. la_intro; [eapply Hx|eapply Hy|eapply Hz]; eassumption.
  - eapply post_bind; [apply IHe; eapply written_sub; [|exact W]; apply Dp_un; constructor|]. intros x Hx. apply reduce_aware. la_intro. eapply Hx; eassumption.
Qed.

(** ** The property *)
Theorem C24_operands_aware : forall n w q e q' thing w' q1 x v q2, written n -> run w (build C n) q = (Ok e, q') ->
  operand x e -> yields C thing w' q1 x v q2 -> aware v.
Proof.
  intros n w q e q' thing w' q1 x v q2 W B O Y. unfold P_Ops.yields in Y. eapply eval_aware; [|exact Y]. eapply la_sub; [exact O|]. eapply build_aware; eassumption.
Qed.

(** so ordering or subtracting two datetimes in a rule never fails for lack of a time zone, and needs no common zone *)
Theorem C24_datetimes_compare : forall n w q e q' thing w' q0 q1 q2 o a b x y, written n -> run w (build C n) q = (Ok e, q') ->
  operand (EBin o a b) e -> yields C thing w' q0 a x q1 -> yields C thing w' q1 b y q2 -> from_value x = Ok TDatetime -> from_value y = Ok TDatetime ->
  match o with
  | BCmp c => exists r, yields C thing w' q0 (EBin o a b) (VBool r) q2
  | BSub => forall err, run w' (eval C thing (EBin o a b)) q0 = (Err err, q2) -> err = POverflow
  | _ => True
  end.
Proof.
  intros n w q e q' thing w' q0 q1 q2 o a b x y W B O Ya Yb Tx Ty.
  assert (OT : forall u v, operand u v -> forall z, operand z u -> operand z v).
  { clear. intros u v H. induction H; intros z Hz; try assumption; solve [econstructor; eauto | eapply Op_key; eauto | eapply Op_val; eauto]. }
  assert (Ax : aware x) by (eapply C24_operands_aware; [exact W|exact B| |exact Ya]; apply (OT _ _ O); apply Op_left; constructor).
  assert (Ay : aware y) by (eapply C24_operands_aware; [exact W|exact B| |exact Yb]; apply (OT _ _ O); apply Op_right; constructor).
  assert (X : exists t z, x = VDt t (Some z)).
  { destruct x as [| | | | | | |t [z|]|d| | | | | | | | | | |]; try discriminate; try (exfalso; apply Ax; exact I); eauto;
      cbn in Tx; repeat match type of Tx with rbind ?r _ = _ => destruct r; cbn in Tx; try discriminate | rmap _ ?r = _ => destruct r; cbn in Tx; try discriminate end;
      unfold mk_mapping in Tx; destruct (_ && _) in Tx; discriminate. }
  assert (Y : exists t z, y = VDt t (Some z)).
  { destruct y as [| | | | | | |t [z|]|d| | | | | | | | | | |]; try discriminate; try (exfalso; apply Ay; exact I); eauto;
      cbn in Ty; repeat match type of Ty with rbind ?r _ = _ => destruct r; cbn in Ty; try discriminate | rmap _ ?r = _ => destruct r; cbn in Ty; try discriminate end;
      unfold mk_mapping in Ty; destruct (_ && _) in Ty; discriminate. }
  destruct X as [t [z ->]]. destruct Y as [t' [z' ->]]. unfold P_Ops.yields in *. destruct o; try exact I; cbn [eval].
  - intros err. rewrite run_pbind, Ya, run_pbind, Yb, run_pbind, run_act. cbn [run step_op op_sub]. unfold mk_td. destruct (td_ok _); intro H; inversion H. reflexivity.
  - rewrite run_pbind, Ya, run_pbind, Yb. cbn. eexists. reflexivity.
Qed.
End C24.
Print Assumptions C24_values_read.
Print Assumptions C24_operands_aware.
Print Assumptions C24_datetimes_compare.

(** a naive datetime of the thing compared with a datetime literal *)
Definition naive_thing : value := VDict [(VStr (s "t"), VDt 5 None); (VStr (s "ts"), VList [VDt 5 None])].
Example C24_example : 
  let n := DBin (BCmp Clt) (DSym (s "t") false) (DSym (s "t") false) in
  written n /\ fst (run demo_world (build untyped_ctx n) demo_st) = Ok (EBin (BCmp Clt) (sym "t") (sym "t")) /\
  fst (run demo_world (eval untyped_ctx naive_thing (sym "t")) demo_st) = Ok (VDt 5 (Some 1%N)).
Proof.
  split; [|split; reflexivity]. intros v H. inversion H; subst; match goal with K : dpart _ (DSym _ _) |- _ => inversion K end.
Qed.

(** The time zone is attached to values, not to members of containers: an array of naive datetimes from the thing compared with
    an array of aware ones (read as symbols) raises TypeError. *)
Theorem C24_members_refuted : fails untyped_ctx naive_thing demo_world demo_st
  (EBin (BCmp Clt) (sym "ts") (EArr [sym "t"])) PType
  (log (EvResolve naive_thing (s "t") (Ok (VDt 5 None))) (log (EvResolve naive_thing (s "ts") (Ok (VList [VDt 5 None]))) demo_st)).
Proof. vm_compute. reflexivity. Qed.
Print Assumptions C24_members_refuted.
