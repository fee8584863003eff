(** * C12: constant folding does not change results *)
From Coq Require Import List ZArith Lia Bool Permutation String.
From Verif Require Import Base Dec Value EqFacts DType DTypeFacts Types TypesFacts CoerceFacts Ops ParseUtil Attr Prog Ast Eval Build Engine
  ProgFacts StateFacts Post Same Fits Demo P_Ops P_Aware P_Names P_Sound.
From Verif Require P_Items.
Import ListNotations.
Open Scope list_scope.
Open Scope Z_scope.

(** ** Evaluation is a congruence *)
Section Cong.
Context {Orc : Oracle} (C : ctx).
Notation D := (c_dec C).
Notation "p ~ p'" := (eqv D p p') (at level 70).

Lemma ev_ret : forall A (r : result A), Ret r ~ Ret r.
Proof. intros. apply eqv_ret. Qed.
Lemma ev_bind_ret : forall A B (r : result A) (f f' : A -> prog B), (forall a, f a ~ f' a) -> pbind (Ret r) f ~ pbind (Ret r) f'.
Proof. intros. apply eqv_bind; [apply eqv_ret|assumption]. Qed.
Lemma ev_getdc : forall A (f f' : dctx -> prog A), (forall d, f d ~ f' d) -> pbind (act OGetDc) f ~ pbind (act OGetDc) f'.
Proof. intros. apply eqv_bind; [apply eqv_act; discriminate|assumption]. Qed.

Lemma ev_random : forall b, act (ORandom b) ~ act (ORandom b).
Proof. intro b. exact (eqv_act D (ORandom b) ltac:(discriminate) ltac:(discriminate) ltac:(discriminate)). Qed.
Lemma random_self : forall args, b_random args ~ b_random args.
Proof.
  intro args. unfold b_random. destruct args as [|b [|]]; try apply ev_ret; [apply ev_random|]. destruct (truthy b); [|apply ev_random]. apply ev_bind_ret. intros []; [apply ev_random|apply ev_ret].
Qed.
Lemma first_order_self : forall f args, apply_first_order C f args ~ apply_first_order C f args.
Proof.
  intros f args. unfold apply_first_order.
  destruct f; try apply random_self; try apply ev_ret; destruct args as [|a [|b r]]; try apply ev_ret;
    try (apply ev_getdc; intro; apply ev_ret); destruct a; apply ev_ret.
Qed.
Lemma flat_self : forall f args, apply_flat C f args ~ apply_flat C f args.
Proof.
  intros f args. unfold apply_flat. destruct f; try apply ev_ret; [apply eqv_actr; discriminate|apply first_order_self|]. destruct args as [|a [|]]; apply ev_ret.
Qed.
Lemma apply_self : forall f args, apply_fun C f args ~ apply_fun C f args.
Proof.
  intros f args. assert (F := flat_self f args). unfold apply_fun. destruct f; try exact F. destruct f; try exact F; destruct args as [|g [|it [|]]]; try exact F.
  - apply ev_bind_ret. intro l. apply eqv_bind; [|intro; apply ev_ret]. apply eqv_pmapM. intros x _. apply flat_self.
  - apply ev_bind_ret. intro l. apply eqv_bind; [|intro; apply ev_ret]. apply eqv_pmapM. intros x _. apply eqv_bind; [destruct g; try apply flat_self; apply ev_ret|intro; apply ev_ret].
Qed.
Lemma resolve_self : forall thing n b, (b = true -> assoc n (c_bvals C) <> Some BVgroups) -> resolve C thing n b ~ resolve C thing n b.
Proof.
  intros thing n b H. unfold resolve. destruct b.
  - specialize (H eq_refl). destruct (assoc n (c_bvals C)) as [[v| | | |g]|]; try apply ev_ret; try congruence; try (apply eqv_bind; [apply eqv_act; discriminate|intro]; apply eqv_bind; [apply eqv_act; discriminate|intro; apply ev_ret]).
    apply eqv_then; [apply eqv_actr; discriminate|]. intros [a|[]]; try apply ev_ret. apply eqv_actr; discriminate.
  - apply eqv_bind; [apply eqv_act; discriminate|]. intro l. destruct (find_scope l n); [apply ev_ret|apply eqv_actr; discriminate].
Qed.
Lemma fuzzy_self : forall sr ng pre pre' x y, (forall p, y = VStr p -> pre <> pre' -> compile_ok C p = Ok tt) -> fuzzy_match C sr ng pre x y ~ fuzzy_match C sr ng pre' x y.
Proof.
  intros sr ng pre pre' x y H. unfold fuzzy_match. destruct x; try apply ev_ret; (destruct y; try apply ev_ret).
  - assert (Q : (if pre then Ok tt else compile_ok C t) = (if pre' then Ok tt else compile_ok C t)) by (destruct pre, pre'; try reflexivity; rewrite (H _ eq_refl); congruence).
    rewrite Q. apply ev_bind_ret. intro u. apply ev_ret.
  - assert (Q : (if pre then Ok tt else compile_ok C t0) = (if pre' then Ok tt else compile_ok C t0)) by (destruct pre, pre'; try reflexivity; rewrite (H _ eq_refl); congruence).
    rewrite Q. apply ev_bind_ret. intro u. destruct (o_re _ _ _ _); [|apply ev_ret]. apply eqv_setg2. apply ev_ret.
Qed.

Variable thing : value.
Notation ev := (eval C thing).

Lemma cong_list : forall l l', Forall2 (fun e u => ev e ~ ev u) l l' -> pmapM ev l ~ pmapM ev l'.
Proof. intros. apply eqv_pmapM2. assumption. Qed.
Lemma cong_arr : forall l l', Forall2 (fun e u => ev e ~ ev u) l l' -> ev (EArr l) ~ ev (EArr l').
Proof. intros l l' H. cbn [eval]. apply eqv_bind; [apply cong_list; exact H|intro; apply ev_ret]. Qed.
Lemma cong_set : forall l l', Forall2 (fun e u => ev e ~ ev u) l l' -> ev (ESet l) ~ ev (ESet l').
Proof.
  intros l l' H. cbn [eval]. apply eqv_bind; [|intro; apply ev_ret]. apply eqv_pmapM2. induction H; constructor; [|assumption]. apply eqv_bind; [assumption|]. intro v. destruct (hashable v); apply ev_ret.
Qed.
Lemma cong_map : forall l l', Forall2 (fun e u => ev (fst e) ~ ev (fst u) /\ ev (snd e) ~ ev (snd u)) l l' -> ev (EMap l) ~ ev (EMap l').
Proof. intros l l' H. exact (eqv_map_literal D Orc _ _ l l' (fun kv => ev (fst kv)) (fun kv => ev (snd kv)) (fun kv => ev (fst kv)) (fun kv => ev (snd kv)) H). Qed.
Lemma cong_bin : forall o a b a' b', ev a ~ ev a' -> ev b ~ ev b' ->
  (forall sr ng, o = BFuzzy sr ng -> (is_str_lit b = is_str_lit b') \/ (exists p, ev b ~ ok (VStr p) /\ compile_ok C p = Ok tt)) ->
  ev (EBin o a b) ~ ev (EBin o a' b').
Proof.
  intros o a b a' b' Ha Hb Hp. cbn [eval]. destruct o as [| |o|o| | | | |o|sr ng].
  - apply eqv_bind; [exact Ha|]. intro x. apply eqv_bind; [exact Hb|]. intro y. apply ev_getdc. intro. apply ev_ret.
  - apply eqv_bind; [exact Ha|]. intro x. apply eqv_bind; [exact Hb|]. intro y. apply ev_getdc. intro. apply ev_ret.
  - apply eqv_bind; [exact Ha|]. intro x. destruct (is_numeric x); [|apply ev_ret]. apply eqv_bind; [exact Hb|]. intro y. destruct (is_numeric y); [|apply ev_ret]. apply ev_getdc. intro. apply ev_ret.
  - apply eqv_bind; [exact Ha|]. intro x. apply ev_bind_ret. intro t. destruct (dt_eqb t TFloat); [apply ev_bind_ret; intros _; apply eqv_bind; [exact Hb|intro; apply ev_ret]|].
    destruct (is_set_t t); [|apply ev_ret]. apply eqv_bind; [exact Hb|intro; apply ev_ret].
  - apply eqv_bind; [exact Ha|]. intro x. destruct (truthy x); [|apply ev_ret]. apply eqv_bind; [exact Hb|intro; apply ev_ret].
  - apply eqv_bind; [exact Ha|]. intro x. destruct (truthy x); [apply ev_ret|]. apply eqv_bind; [exact Hb|intro; apply ev_ret].
  - apply eqv_bind; [exact Ha|]. intro x. apply eqv_bind; [exact Hb|intro; apply ev_ret].
  - apply eqv_bind; [exact Ha|]. intro x. apply eqv_bind; [exact Hb|intro; apply ev_ret].
  - apply eqv_bind; [exact Ha|]. intro x. apply eqv_bind; [exact Hb|intro; apply ev_ret].
  - specialize (Hp sr ng eq_refl). apply eqv_bind; [exact Ha|]. intro x.
    assert (K : (do! y := ev b in fuzzy_match C sr ng (is_str_lit b) x y) ~ (do! y := ev b' in fuzzy_match C sr ng (is_str_lit b') x y)).
    { destruct Hp as [E|[p [Hv Hc]]].
      - rewrite E. apply eqv_bind; [exact Hb|]. intro y. apply fuzzy_self. congruence.
      - assert (Hv' : ev b' ~ ok (VStr p)) by (eapply eqv_trans; [apply eqv_sym; exact Hb|exact Hv]).
        assert (Z : forall pre, fuzzy_match C sr ng pre x (VStr p) ~ fuzzy_match C sr ng true x (VStr p)) by (intro pre; apply fuzzy_self; intros p' E' _; congruence).
        assert (One : forall e pre, ev e ~ ok (VStr p) -> (do! y := ev e in fuzzy_match C sr ng pre x y) ~ fuzzy_match C sr ng true x (VStr p)).
        { intros e pre He. eapply eqv_trans; [apply (eqv_bind D _ _ (ev e) (ok (VStr p)) _ (fun y => fuzzy_match C sr ng pre x y)); [exact He|intro; apply fuzzy_self; congruence]|]. exact (Z pre). }
        eapply eqv_trans; [apply One; exact Hv|]. apply eqv_sym. apply One. exact Hv'. }
    destruct x; try apply ev_ret; exact K.
Qed.
Lemma cong_comp : forall r var it cond r' it' cond', ev r ~ ev r' -> ev it ~ ev it' ->
  match cond, cond' with Some c, Some c' => ev c ~ ev c' | None, None => True | _, _ => False end -> ev (EComp r var it cond) ~ ev (EComp r' var it' cond').
Proof.
  intros r var it cond r' it' cond' Hr Hi Hc. cbn [eval]. apply eqv_bind; [exact Hi|]. intro v. apply ev_bind_ret. intro t. destruct (is_iterable t); [|apply ev_ret].
  apply eqv_bind; [|intro; apply ev_ret]. apply eqv_comp_loop; [|exact Hr]. destruct cond, cond'; try contradiction; assumption.
Qed.
Lemma cong_in : forall c m c' m', ev c ~ ev c' -> ev m ~ ev m' -> ev (EIn c m) ~ ev (EIn c' m').
Proof. intros. cbn [eval]. apply eqv_bind; [assumption|]. intro x. apply ev_bind_ret. intro t. apply eqv_bind; [assumption|]. intro y. apply ev_ret. Qed.
Lemma attr_tail : forall v name safe,
  (if is_null v && safe then ok VNull
   else match resolve_attr v name with
        | Ok r => nval C false r
        | Err (XAttrRes _ sug) =>
            pthen (resolve C v name false) (fun r =>
            match r with
            | Ok x => nval C false x
            | Err (XSymRes _ sug') => match c_default C with Some d => nval C false d | None => raise (XAttrRes name (merge_sug name sug sug')) end
            | Err x => raise x
            end)
        | Err x => raise x
        end) ~
  (if is_null v && safe then ok VNull
   else match resolve_attr v name with
        | Ok r => nval C false r
        | Err (XAttrRes _ sug) =>
            pthen (resolve C v name false) (fun r =>
            match r with
            | Ok x => nval C false x
            | Err (XSymRes _ sug') => match c_default C with Some d => nval C false d | None => raise (XAttrRes name (merge_sug name sug sug')) end
            | Err x => raise x
            end)
        | Err x => raise x
        end).
Proof.
  intros v name safe. destruct (is_null v && safe); [apply ev_ret|]. destruct (resolve_attr v name) as [r|x]; [apply ev_ret|]. destruct x; try apply ev_ret.
  apply eqv_then; [apply resolve_self; discriminate|]. intros [x|x]; [apply ev_ret|]. destruct x; try apply ev_ret. destruct (c_default C); apply ev_ret.
Qed.
Lemma cong_attr : forall o n safe o', ev o ~ ev o' -> ev (EAttr o n safe) ~ ev (EAttr o' n safe).
Proof. intros o n safe o' H. cbn [eval]. apply eqv_bind; [exact H|]. intro v. apply attr_tail. Qed.
Lemma cong_item : forall c i safe c' i', ev c ~ ev c' -> ev i ~ ev i' -> ev (EItem c i safe) ~ ev (EItem c' i' safe).
Proof.
  intros. cbn [eval]. apply eqv_bind; [assumption|]. intro x. destruct (is_null x); [destruct safe; apply ev_ret|]. apply eqv_bind; [assumption|]. intro k. apply ev_bind_ret. intro u.
  destruct (py_getitem x k) as [v|y]; [apply ev_ret|]. destruct y; try apply ev_ret. destruct safe; apply ev_ret.
Qed.
Lemma cong_slice : forall c a b safe c' a' b', ev c ~ ev c' -> ev a ~ ev a' -> ev b ~ ev b' -> ev (ESlice c a b safe) ~ ev (ESlice c' a' b' safe).
Proof.
  intros. cbn [eval]. apply eqv_bind; [assumption|]. intro x. destruct (is_null x); [destruct safe; apply ev_ret|]. apply eqv_bind; [assumption|]. intro va. apply ev_bind_ret. intro i.
  apply eqv_bind; [assumption|]. intro vb. apply ev_bind_ret. intro j. apply ev_bind_ret. intro v. apply ev_ret.
Qed.
Lemma cong_sym : forall n b t, (b = true -> assoc n (c_bvals C) <> Some BVgroups) -> ev (ESym n b t) ~ ev (ESym n b t).
Proof.
  intros n b t H. cbn [eval]. apply eqv_then; [apply resolve_self; exact H|]. intro r. apply eqv_bind; [|intro; apply ev_bind_ret; intro; apply ev_ret].
  destruct r as [v|x]; [apply ev_ret|]. destruct x; try apply ev_ret. destruct (c_default C); apply ev_ret.
Qed.
Lemma cong_call : forall f l f' l', ev f ~ ev f' -> Forall2 (fun e u => ev e ~ ev u) l l' -> rtype f = rtype f' -> ev (ECall f l) ~ ev (ECall f' l').
Proof.
  intros f l f' l' Hf Hl Ht. cbn [eval]. cbn [rtype]. rewrite Ht. apply eqv_bind; [exact Hf|]. intro fv. destruct (callable fv); [|apply ev_ret].
  apply eqv_bind; [apply cong_list; exact Hl|]. intro vs. apply ev_bind_ret. intro u. apply eqv_bind; [apply eqv_then; [apply apply_self|intros [v|x]; apply ev_ret]|].
  intro r. apply ev_bind_ret. intro v. apply ev_bind_ret. intro t. destruct (is_compat _ _); apply ev_ret.
Qed.
Lemma cong_tern : forall c a b c' a' b', ev c ~ ev c' -> ev a ~ ev a' -> ev b ~ ev b' -> ev (ETern c a b) ~ ev (ETern c' a' b').
Proof. intros. cbn [eval]. apply eqv_bind; [assumption|]. intro x. destruct (truthy x); assumption. Qed.
Lemma cong_un : forall o e e', ev e ~ ev e' -> ev (EUn o e) ~ ev (EUn o e').
Proof. intros o e e' H. destruct o; cbn [eval]; (apply eqv_bind; [exact H|]); intro x; [apply ev_ret|]. apply ev_getdc. intro. apply ev_ret. Qed.
End Cong.

(** ** Constants *)
Definition latom (v : value) : Prop := match v with VNull | VBool _ | VDec _ | VStr _ | VBytes _ | VDt _ _ | VTd _ | VMeth _ _ => True | _ => False end.
(** values made of literals: what constant expressions evaluate to *)
Inductive canonical {Orc : Oracle} : value -> Prop :=
| Ca_atom : forall v, latom v -> canonical v
| Ca_arr : forall l, (forall x, In x l -> canonical x) -> canonical (VArr l)
| Ca_set : forall l, (forall x, In x l -> canonical x /\ hashable x = true) -> apart l -> o_set_order l = l -> canonical (VSet l)
| Ca_map : forall l, (forall k x, In (k, x) l -> canonical k /\ hashable k = true /\ canonical x) -> apart (map fst l) -> canonical (VMap l).
(** constant expressions holding literals *)
Inductive red : expr -> Prop :=
| Re_lit : forall v, latom v -> red (ELit v)
| Re_fun : forall m x t, red (EFun (VMeth m x) t)
| Re_arr : forall l, (forall e, In e l -> red e) -> red (EArr l)
| Re_set : forall l, (forall e, In e l -> red e) -> red (ESet l)
| Re_map : forall l, (forall k e, In (k, e) l -> red k /\ red e) -> red (EMap l).
Definition clit (e : expr) : Prop := is_reduced e = true -> red e.

(** ** Which expressions are covered *)

(** a name, or attributes of a name *)
Fixpoint path (n : dnode) : bool := match n with DSym _ _ => true | DAttr o _ _ => path o | _ => false end.
(** what may be called: a path, or a method of a literal *)
Definition callee (n : dnode) : bool := path n || match n with DAttr (DLit _) _ _ => true | _ => false end.
(** no set or mapping display among the values a ternary condition may take *)
Fixpoint cond_ok (n : dnode) : bool :=
  match n with
  | DSet _ | DMap _ => false
  | DArr l => forallb cond_ok l
  | DTern _ a b => cond_ok a && cond_ok b
  | _ => true
  end.
Definition n_to_set : str := s "to_set".
Record foldable {Orc : Oracle} (C : ctx) (n : dnode) : Prop := {
  fo_lit : written n;                                                             (* literals as the parser makes them *)
  fo_groups : forall nm, dpart (DSym nm true) n -> assoc nm (c_bvals C) <> Some BVgroups;   (* no $re_groups *)
  fo_to_set : forall o sf, ~ dpart (DAttr o n_to_set sf) n;                        (* no .to_set *)
  fo_item : forall c i, dpart (DItem c i true) n ->                                (* no c&[i] where c is known to be a mapping *)
    forall w q x q', run w (build C c) q = (Ok x, q') -> is_map_t (rtype x) = false;
  fo_call : forall f l, dpart (DCall f l) n -> callee f = true;
  fo_cond : forall c a b, dpart (DTern c a b) n -> cond_ok c = true
}.
Lemma foldable_sub : forall (Orc : Oracle) C m n, dpart m n -> foldable C n -> foldable C m.
Proof.
  intros Orc C m n H F. assert (W := written_sub m n H (fo_lit C n F)).
  assert (Tr : forall x, dpart x m -> dpart x n).
  { intros x Hx. clear W F. induction H; try assumption; solve [econstructor; eauto | eapply Dp_key; eauto | eapply Dp_val; eauto]. }
  constructor.
  - exact W.
  - intros nm Hn. apply (fo_groups C n F). auto.
  - intros o sf Hn. apply (fo_to_set C n F o sf). auto.
  - intros c i Hn. apply (fo_item C n F c i). auto.
  - intros f l Hn. apply (fo_call C n F f l). auto.
  - intros c a b Hn. apply (fo_cond C n F c a b). auto.
Qed.

Section Const.
Context {Orc : Oracle} (C : ctx).
Notation D := (c_dec C).
Notation "p ~ p'" := (eqv D p p') (at level 70).
Hypothesis Lawful : tz_lawful o_tz.
Hypothesis Stable : forall l, o_set_order (o_set_order l) = o_set_order l.

Lemma canonical_settled : forall v, canonical v -> settled v.
Proof.
  induction v as [|b|d|z|f|c|b|w0 z|d|u|l IH|l IH|l|l IH|l IH|l IH|n|f|me v IH|n] using value_ind'; intro H; inversion H as [? K|? K|? K K2 K3|? K K2]; subst; try contradiction; try (apply Se_atom; exact I).
  - rewrite Forall_forall in IH. apply Se_arr. auto.
  - rewrite Forall_forall in IH. apply Se_set. intros x Hx. destruct (K x Hx) as [A B]. assert (S := IH x Hx A). split; [exact B|split; [apply settled_py_ok; exact S|apply settled_supported; exact S]].
  - rewrite Forall_forall in IH. apply Se_map; [|exact K2]. intros k x Hx. destruct (K k x Hx) as [A [B E]]. destruct (IH _ Hx). auto.
Qed.
Lemma canonical_coerce : forall ver v v', canonical v -> coerce ver v = Ok v' -> v' = v.
Proof. intros. eapply settled_coerce_any; eauto. apply canonical_settled. assumption. Qed.
Lemma canonical_nval : forall ver v v', canonical v -> new_value (c_tz C) ver v = Ok v' -> canonical v'.
Proof.
  intros ver v v' H E. unfold new_value in E. apply rmap_ok in E as [x [E ->]]. apply canonical_coerce in E; [|exact H]. subst x.
  destruct v; try exact H. cbn. destruct tz; [exact H|]. apply Ca_atom. exact I.
Qed.

Lemma apart_perm : forall l l', Permutation l l' -> (forall x, In x l -> hashable x = true) -> apart l -> apart l'.
Proof.
  intros l l' P. induction P as [|x l l' P IH|x y l|l l' l'' P IH P' IH']; intros H A.
  - exact A.
  - inversion A as [|? ? A1 A2]; subst. constructor; [|apply IH; [intros; apply H; right; assumption|exact A2]]. rewrite Forall_forall in *. intros y Hy. apply A1. apply Permutation_in with l'; [apply Permutation_sym; exact P|exact Hy].
  - inversion A as [|? ? A1 A2]; subst. inversion A2 as [|? ? A3 A4]; subst. inversion A1 as [|? ? A5 A6]; subst. constructor; [|constructor; assumption]. constructor; [|exact A3].
    rewrite py_eq_sym; [exact A5|exact Lawful| |]; apply hashable_wfv; apply H; cbn; auto.
  - apply IH'; [|apply IH; assumption]. intros x Hx. apply H. apply Permutation_in with l'; [apply Permutation_sym; exact P|exact Hx].
Qed.
Lemma new_set_canonical : forall l, (forall x, In x l -> canonical x /\ hashable x = true) -> apart l -> canonical (new_set l).
Proof.
  intros l H A. unfold new_set. assert (P := o_set_order_perm l). apply Ca_set.
  - intros x Hx. apply H. apply Permutation_in with (o_set_order l); assumption.
  - apply (apart_perm l); [apply Permutation_sym; exact P|intros; apply H; assumption|exact A].
  - apply Stable.
Qed.

(** *** A constant expression evaluates to the same canonical value (or error) whatever the thing, the world and the state *)
Definition const (e : expr) (r : result value) : Prop := forall thing, eval C thing e ~ Ret r.
Definition good_result (r : result value) : Prop := forall v, r = Ok v -> canonical v.

Lemma const_fun : forall e r r', const e r -> const e r' -> r = r'.
Proof.
  intros e r r' H H'. assert (E : Ret r ~ Ret r') by (eapply eqv_trans; [apply eqv_sym; apply (H VNull)|apply H']).
  destruct (E (Build_world (fun _ _ _ => Err PType) (fun _ _ _ => Err PType) (fun _ _ => 0) (fun _ _ => VNull)) (st_init D) (st_init D) (sim_refl _) eq_refl) as [K _]. exact K.
Qed.
Lemma const_list : forall l, (forall e, In e l -> exists r, const e r /\ good_result r) ->
  exists rs, Forall2 const l rs /\ forall r, In r rs -> good_result r.
Proof.
  induction l as [|e l IH]; intro H; [exists []; split; [constructor|contradiction]|]. destruct (H e (or_introl eq_refl)) as [r [A B]]. destruct IH as [rs [F G]]; [intros; apply H; right; assumption|].
  exists (r :: rs). split; [constructor; assumption|]. intros r' [<-|Hr]; auto.
Qed.
Lemma rmapM_id_good : forall rs vs, rmapM (fun r => r) rs = Ok vs -> (forall r, In r rs -> good_result r) -> forall v, In v vs -> canonical v.
Proof.
  intros rs vs H G v Hv. apply rmapM_ok_iff in H. destruct (Forall2_In_r _ _ _ _ _ _ H Hv) as [r [Hr E]]. exact (G r Hr v E).
Qed.
Lemma const_pmap : forall thing l rs, Forall2 const l rs -> pmapM (eval C thing) l ~ Ret (rmapM (fun r => r) rs).
Proof.
  intros thing l rs H. rewrite <- (pmapM_pure _ _ (fun r : result value => Ret r) (fun r => r)) by reflexivity. apply eqv_pmapM2.
  induction H as [|e r l rs He H IH]; constructor; [apply He|exact IH].
Qed.

Lemma red_const : forall e, red e -> exists r, const e r /\ good_result r.
Proof.
  induction e as [v|v t|l IH|l IH|l IH| | | | | | | | | | ] using expr_ind'; intro R; inversion R as [? K|m x ?|? K|? K|? K]; subst.
  - exists (Ok v). split; [intro; apply eqv_ret|]. intros v' E. injection E as <-. apply Ca_atom. exact K.
  - eexists. split; [intro; apply eqv_ret|]. intros v' E. injection E as <-. apply Ca_atom. exact I.
  - rewrite Forall_forall in IH. destruct (const_list l) as [rs [F G]]; [intros e He; apply IH; auto|]. exists (rmap VArr (rmapM (fun r => r) rs)). split.
    + intro thing. cbn [eval]. eapply eqv_trans; [apply (eqv_bind D _ _ _ _ _ (fun vs => ok (VArr vs)) (const_pmap thing l rs F)); intro; apply eqv_ret|]. destruct (rmapM (fun r => r) rs); apply eqv_ret.
    + intros v E. apply rmap_ok in E as [vs [E ->]]. apply Ca_arr. intros x Hx. eapply rmapM_id_good; eauto.
  - rewrite Forall_forall in IH. destruct (const_list l) as [rs [F G]]; [intros e He; apply IH; auto|].
    exists (rmap (fun vs => new_set (mk_set vs)) (rmapM (fun r => rbind r (fun v => if hashable v then Ok v else Err PType)) rs)). split.
    + intro thing. cbn [eval]. eapply eqv_trans with (p' := do! vs := pmapM (fun r => Ret (rbind r (fun v => if hashable v then Ok v else Err PType))) rs in ok (new_set (mk_set vs))).
      * apply eqv_bind; [|intro; apply eqv_ret]. apply eqv_pmapM2. clear G R K IH. induction F as [|e r l rs He F IHF]; constructor; [|exact IHF].
        eapply eqv_trans; [apply (eqv_bind D _ _ _ _ _ (fun v => if hashable v then ok v else raise PType) (He thing)); intro v; destruct (hashable v); apply eqv_ret|].
        destruct r as [v|x]; [|apply eqv_ret]. cbn. destruct (hashable v); apply eqv_ret.
      * rewrite (pmapM_pure _ _ _ (fun r => rbind r (fun v => if hashable v then Ok v else Err PType))) by reflexivity. destruct (rmapM _ rs); apply eqv_ret.
    + intros v E. apply rmap_ok in E as [vs [E ->]]. apply rmapM_ok_iff in E. assert (V : forall x, In x vs -> canonical x /\ hashable x = true).
      { intros x Hx. destruct (Forall2_In_r _ _ _ _ _ _ E Hx) as [r [Hr Er]]. apply rbind_ok in Er as [v [-> Ev]]. destruct (hashable v) eqn:Hh; [|discriminate]. injection Ev as <-. split; [exact (G _ Hr v eq_refl)|exact Hh]. }
      apply new_set_canonical; [|apply mk_set_apart]. intros x Hx. apply V. apply mk_set_In. exact Hx.
  - rewrite Forall_forall in IH.
    assert (Q : exists rs : list (result value * result value), Forall2 (fun kv r => const (fst kv) (fst r) /\ const (snd kv) (snd r)) l rs /\ forall r, In r rs -> good_result (fst r) /\ good_result (snd r)).
    { clear R. induction l as [|[k x] l IHl]; [exists []; split; [constructor|contradiction]|]. destruct IHl as [rs [F G]]; [intros; apply IH; right; assumption|intros; apply K; right; assumption|].
      destruct (IH _ (or_introl eq_refl)) as [I1 I2]. destruct (K k x (or_introl eq_refl)) as [R1 R2]. destruct (I1 R1) as [r1 [A1 A2]]. destruct (I2 R2) as [r2 [B1 B2]]. exists ((r1, r2) :: rs).
      split; [constructor; [split; assumption|exact F]|]. intros r [<-|Hr]; auto. }
    destruct Q as [rs [F G]].
    set (kf := fun r : result value * result value => rbind (fst r) (fun k => rbind (map_key k) (fun k' => Ok (k', Ret (snd r) : prog value)))).
    exists (rbind (rmapM kf rs) (fun ks => rmap VMap (rmapM (fun e : value * prog value => rmap (pair (fst e)) (match snd e with Ret r => r | _ => Err PType end)) (mk_dict ks)))).
    assert (Pure : forall ks, rmapM kf rs = Ok ks -> forall e, In e ks -> exists r, In r rs /\ snd e = Ret (snd r) /\ hashable (fst e) = true /\ fst r = Ok (fst e)).
    { intros ks E e He. apply rmapM_ok_iff in E. destruct (Forall2_In_r _ _ _ _ _ _ E He) as [r [Hr Er]]. unfold kf in Er. apply rbind_ok in Er as [k [Ek Er]]. apply rbind_ok in Er as [k' [Ek' Er]]. injection Er as <-.
      exists r. cbn. unfold map_key in Ek'. apply rbind_ok in Ek' as [t [_ Ek']]. destruct (_ && _) in Ek'; [discriminate|]. destruct (hashable k) eqn:Hh; [|discriminate]. injection Ek' as <-. auto. }
    assert (DP : forall ks, rmapM kf rs = Ok ks -> forall k p, In (k, p) (mk_dict ks) -> (exists r, In r rs /\ hashable k = true /\ fst r = Ok k) /\ (exists r, In r rs /\ p = Ret (snd r))).
    { intros ks E k p Hkp. apply mk_dict_In in Hkp as [Hk Hp]. split.
      - apply in_map_iff in Hk as [e [<- He]]. destruct (Pure ks E e He) as [r [A1 [A2 [A3 A4]]]]. eauto.
      - apply in_map_iff in Hp as [e [<- He]]. destruct (Pure ks E e He) as [r [A1 [A2 [A3 A4]]]]. eauto. }
    split.
    + intro thing. change (eval C thing (EMap l)) with (do! ks := map_keys (fun kv => eval C thing (fst kv)) (fun kv => eval C thing (snd kv)) l in do! m := map_vals (mk_dict ks) in ok (VMap m)).
      eapply eqv_trans; [apply (eqv_map_literal D Orc _ _ l rs (fun kv => eval C thing (fst kv)) (fun kv => eval C thing (snd kv)) (fun r => Ret (fst r)) (fun r => Ret (snd r)))|].
      * clear DP Pure G R K IH. clear kf. induction F as [|e r l rs [H1 H2] F IHF]; [constructor|]. constructor; [split; [apply H1|apply H2]|exact IHF].
      * unfold map_keys. rewrite (pmapM_pure _ _ _ kf) by (intros r _; unfold kf; destruct (fst r) as [k|x]; [|reflexivity]; cbn; destruct (map_key k); reflexivity).
        destruct (rmapM kf rs) as [ks|x] eqn:E; [|apply eqv_ret]. cbn [pbind pthen rbind]. unfold map_vals.
        rewrite (pmapM_pure _ _ _ (fun e : value * prog value => rmap (pair (fst e)) (match snd e with Ret r => r | _ => Err PType end))).
        -- destruct (rmapM _ (mk_dict ks)); apply eqv_ret.
        -- intros [k p] Hkp. destruct (DP ks eq_refl k p Hkp) as [_ [r [_ ->]]]. cbn. destruct (snd r); reflexivity.
    + intros v E. apply rbind_ok in E as [ks [Ek E]]. apply rmap_ok in E as [m [E ->]]. apply rmapM_ok_iff in E.
      assert (Keys : map fst m = map fst (mk_dict ks)). { clear - E. induction E as [|a b x y H E IH]; [reflexivity|]. cbn. f_equal; [|exact IH]. apply rmap_ok in H as [v [_ ->]]. reflexivity. }
      apply Ca_map; [|rewrite Keys; apply mk_dict_apart]. intros k x Hx. destruct (Forall2_In_r _ _ _ _ _ _ E Hx) as [[k' p] [He Ee]]. cbn in Ee. destruct (DP ks Ek k' p He) as [[r [A1 [A2 A3]]] [r' [B1 ->]]].
      apply rmap_ok in Ee as [y [Ey Ep]]. injection Ep as -> ->. split; [exact (proj1 (G r A1) _ A3)|split; [exact A2|exact (proj2 (G r' B1) _ Ey)]].
Qed.

(** *** The literal made of a canonical value evaluates to it *)
Lemma map_key_ok : forall k t, hashable k = true -> from_value k = Ok t -> map_key k = Ok k.
Proof.
  intros k t Hh Ek. unfold map_key. rewrite Ek. cbn [rbind]. rewrite Hh. destruct k; try discriminate; cbn [from_value] in Ek;
    repeat match type of Ek with rmap _ ?r = _ => destruct r; cbn [rmap] in Ek; try discriminate end; inversion Ek; reflexivity.
Qed.
Lemma const_map : forall es l, Forall2 (fun kv kx => const (fst kv) (Ok (fst kx)) /\ const (snd kv) (Ok (snd kx))) es l ->
  (forall k x, In (k, x) l -> map_key k = Ok k) -> apart (map fst l) -> const (EMap es) (Ok (VMap l)).
Proof.
  intros es l F MK A thing. change (eval C thing (EMap es)) with (do! ks := map_keys (fun kv => eval C thing (fst kv)) (fun kv => eval C thing (snd kv)) es in do! m := map_vals (mk_dict ks) in ok (VMap m)).
  eapply eqv_trans; [apply (eqv_map_literal D Orc _ _ es l (fun kv => eval C thing (fst kv)) (fun kv => eval C thing (snd kv)) (fun r => Ret (Ok (fst r))) (fun r => Ret (Ok (snd r))))|].
  - clear MK A. induction F as [|e r es l [H1 H2] F IHF]; [constructor|]. constructor; [split; [apply H1|apply H2]|exact IHF].
  - unfold map_keys. rewrite (pmapM_pure _ _ _ (fun r => Ok (fst r, Ret (Ok (snd r))))) by (intros [k x] Hr; cbn; rewrite (MK k x Hr); reflexivity).
    assert (E : rmapM (fun r : value * value => Ok (fst r, Ret (Ok (snd r)) : prog value)) l = Ok (map (fun r => (fst r, Ret (Ok (snd r)))) l)) by (clear; induction l as [|a l IH]; [reflexivity|cbn; rewrite IH; reflexivity]).
    rewrite E. cbn [pbind pthen]. rewrite mk_dict_id by (rewrite map_map; exact A). unfold map_vals.
    rewrite (pmapM_pure _ _ _ (fun e : value * prog value => rmap (pair (fst e)) (match snd e with Ret r => r | _ => Err PType end))) by (intros e He; apply in_map_iff in He as [r [<- _]]; reflexivity).
    assert (E2 : rmapM (fun e : value * prog value => rmap (pair (fst e)) (match snd e with Ret r => r | _ => Err PType end)) (map (fun r => (fst r, Ret (Ok (snd r)))) l) = Ok l)
      by (clear; induction l as [|[a b] l IH]; [reflexivity|cbn in *; rewrite IH; reflexivity]).
    rewrite E2. apply eqv_ret.
Qed.
Lemma const_arr : forall es l, Forall2 (fun e v => const e (Ok v)) es l -> const (EArr es) (Ok (VArr l)).
Proof.
  intros es l F thing. cbn [eval]. eapply eqv_trans with (p' := do! vs := pmapM (fun v => Ret (Ok v)) l in ok (VArr vs)).
  - apply eqv_bind; [|intro; apply eqv_ret]. apply eqv_pmapM2. induction F as [|e v es l He F IH]; [constructor|constructor; [apply He|exact IH]].
  - rewrite (pmapM_pure _ _ _ (fun v => Ok v)) by reflexivity. assert (E : rmapM (fun v : value => Ok v) l = Ok l) by (clear; induction l as [|a l IH]; [reflexivity|cbn; rewrite IH; reflexivity]). rewrite E. apply eqv_ret.
Qed.
Lemma const_set : forall es l, Forall2 (fun e v => const e (Ok v) /\ hashable v = true) es l -> const (ESet es) (Ok (new_set (mk_set l))).
Proof.
  intros es l F thing. cbn [eval]. eapply eqv_trans with (p' := do! vs := pmapM (fun v => Ret (Ok v)) l in ok (new_set (mk_set vs))).
  - apply eqv_bind; [|intro; apply eqv_ret]. apply eqv_pmapM2. induction F as [|e v es l [He Hv] F IH]; [constructor|constructor; [|exact IH]].
    eapply eqv_trans; [apply (eqv_bind D _ _ _ _ _ (fun v => if hashable v then ok v else raise PType) (He thing)); intro x; destruct (hashable x); apply eqv_ret|]. cbn. rewrite Hv. apply eqv_ret.
  - rewrite (pmapM_pure _ _ _ (fun v => Ok v)) by reflexivity. assert (E : rmapM (fun v : value => Ok v) l = Ok l) by (clear; induction l as [|a l IH]; [reflexivity|cbn; rewrite IH; reflexivity]). rewrite E. apply eqv_ret.
Qed.

Definition solid (e : expr) (v : value) : Prop := const e (Ok v) /\ truthy v = lit_truthy e.
Lemma Forall2_nonempty : forall A B (R : A -> B -> Prop) l l', Forall2 R l l' -> nonempty l = nonempty l'.
Proof. intros A B R l l' H. destruct H; reflexivity. Qed.
Lemma lit_from : forall v l, lit_of v = Ok l -> exists t, from_value v = Ok t.
Proof. intros v l H. destruct v; cbn [lit_of] in H; apply rbind_ok in H as [ty [H _]]; eauto. Qed.

Lemma canon_round : forall v l, canonical v -> lit_of v = Ok l -> solid l v /\ red l /\ is_reduced l = true.
Proof.
  induction v as [|b|d|z|f|c|b|w0 z|d|u|l IH|l IH|l|l IH|l IH|l IH|n|f|me v IH|n] using value_ind'; intros e H L; inversion H as [? K|? K|? K K2 K3|? K K2]; subst; try contradiction;
    try (cbn in L; injection L as <-; split; [split; [intro; apply eqv_ret|reflexivity]|split; [apply Re_lit; exact I|reflexivity]]).
  - rewrite Forall_forall in IH. cbn [lit_of] in L. apply rbind_ok in L as [t [_ L]]. apply rmap_ok in L as [es [L ->]]. apply rmapM_ok_iff in L.
    assert (Q : Forall2 (fun v e => solid e v /\ red e /\ is_reduced e = true) l es).
    { clear H. revert IH K. induction L as [|v e l es He L IHL]; intros IH K; constructor; [apply IH; [left; reflexivity|apply K; left; reflexivity|exact He]|]. apply IHL; intros; [apply IH|apply K]; try right; assumption. }
    split; [split|split].
    + apply const_arr. clear - Q. induction Q as [|v e l es [[A _] _] Q IH]; constructor; assumption.
    + cbn. apply (Forall2_nonempty _ _ _ _ _ L).
    + apply Re_arr. intros e He. destruct (Forall2_In_r _ _ _ _ _ _ Q He) as [v [_ [_ [A _]]]]. exact A.
    + cbn. apply forallb_forall. intros e He. destruct (Forall2_In_r _ _ _ _ _ _ Q He) as [v [_ [_ [_ A]]]]. exact A.
  - rewrite Forall_forall in IH. cbn [lit_of] in L. apply rbind_ok in L as [t [_ L]]. apply rmap_ok in L as [es [L ->]]. apply rmapM_ok_iff in L.
    assert (Q : Forall2 (fun v e => (solid e v /\ hashable v = true) /\ red e /\ is_reduced e = true) l es).
    { clear H K2 K3. revert IH K. induction L as [|v e l es He L IHL]; intros IH K; constructor.
      - destruct (K v (or_introl eq_refl)) as [A1 A2]. destruct (IH v (or_introl eq_refl) e A1 He) as [B1 B2]. auto.
      - apply IHL; intros; [apply IH|apply K]; try right; assumption. }
    split; [split|split].
    + assert (E : VSet l = new_set (mk_set l)) by (rewrite (mk_set_id l K2); unfold new_set; rewrite K3; reflexivity). rewrite E. apply const_set. clear - Q. induction Q as [|v e l es [[[A _] B] _] Q IH]; constructor; auto.
    + cbn. apply (Forall2_nonempty _ _ _ _ _ L).
    + apply Re_set. intros e He. destruct (Forall2_In_r _ _ _ _ _ _ Q He) as [v [_ [_ [A _]]]]. exact A.
    + cbn. apply forallb_forall. intros e He. destruct (Forall2_In_r _ _ _ _ _ _ Q He) as [v [_ [_ [_ A]]]]. exact A.
  - rewrite Forall_forall in IH. cbn [lit_of] in L. apply rbind_ok in L as [t [_ L]]. apply rmap_ok in L as [es [L ->]]. apply rmapM_ok_iff in L.
    assert (Q : Forall2 (fun kx e => (solid (fst e) (fst kx) /\ solid (snd e) (snd kx) /\ map_key (fst kx) = Ok (fst kx)) /\ (red (fst e) /\ red (snd e)) /\ is_reduced (fst e) && is_reduced (snd e) = true) l es).
    { clear H K2. revert IH K. induction L as [|[k x] e l es He L IHL]; intros IH K; constructor.
      - apply rbind_ok in He as [e1 [He1 He]]. apply rbind_ok in He as [e2 [He2 He]]. injection He as <-. cbn [fst snd] in *. destruct (K k x (or_introl eq_refl)) as [A1 [A2 A3]]. destruct (IH _ (or_introl eq_refl)) as [I1 I2]. cbn [fst snd] in I1, I2.
        destruct (I1 e1 A1 He1) as [B1 [B2 B3]]. destruct (I2 e2 A3 He2) as [B4 [B5 B6]]. rewrite B3, B6. destruct (lit_from _ _ He1) as [tk Tk]. rewrite (map_key_ok k tk A2 Tk). auto 8.
      - apply IHL; intros; [apply IH|apply K]; try right; assumption. }
    split; [split|split].
    + apply const_map; [| |exact K2].
      * clear - Q. induction Q as [|v e l es [[[A _] [[B _] _]] _] Q IH]; constructor; auto.
      * intros k x Hx. destruct (Forall2_In_l _ _ _ _ _ _ Q Hx) as [e [_ [[_ [_ A]] _]]]. exact A.
    + cbn. apply (Forall2_nonempty _ _ _ _ _ L).
    + apply Re_map. intros k e He. destruct (Forall2_In_r _ _ _ _ _ _ Q He) as [v [_ [_ [A _]]]]. exact A.
    + cbn. apply forallb_forall. intros e He. destruct (Forall2_In_r _ _ _ _ _ _ Q He) as [v [_ [_ [_ A]]]]. exact A.
Qed.

(** *** Operations on constants *)
Lemma ev_ok : forall A B (p : prog A) a (f : A -> prog B) k, p ~ Ret (Ok a) -> f a ~ k -> pbind p f ~ k.
Proof.
  intros A B p a f k Hp Hf w q q' S E. rewrite run_pbind. destruct (Hp w q q (sim_refl q) E) as [A1 [A2 A3]]. destruct (run w p q) as [r q1]. cbn in A1, A2, A3. subst r.
  apply Hf; [|exact A3]. eapply sim_trans; eauto.
Qed.
Lemma ev_err : forall A B (p : prog A) x (f : A -> prog B), p ~ Ret (Err x) -> pbind p f ~ Ret (Err x).
Proof.
  intros A B p x f Hp w q q' S E. rewrite run_pbind. destruct (Hp w q q' S E) as [A1 [A2 A3]]. destruct (run w p q) as [r q1]. cbn in A1, A2, A3 |- *. subst r. auto.
Qed.
Lemma good_err : forall x, good_result (Err x).
Proof. intros x v H. discriminate H. Qed.
Lemma good_atom : forall v, latom v -> good_result (Ok v).
Proof. intros v H v' E. injection E as <-. apply Ca_atom. exact H. Qed.
Lemma good_canonical : forall v, canonical v -> good_result (Ok v).
Proof. intros v H v' E. injection E as <-. exact H. Qed.
Lemma good_if : forall r : result value, (forall v, r = Ok v -> latom v) -> good_result r.
Proof. intros r H v E. apply Ca_atom. auto. Qed.

Lemma rdec_atom : forall r v, rdec r = Ok v -> latom v.
Proof. intros r v H. unfold rdec in H. apply rmap_ok in H as [d [_ ->]]. exact I. Qed.
Lemma mk_dt_atom : forall w z v, mk_dt w z = Ok v -> latom v.
Proof. intros w z v H. unfold mk_dt in H. destruct (_ && _); [|discriminate H]. injection H as <-. exact I. Qed.
Lemma mk_td_atom : forall u v, mk_td u = Ok v -> latom v.
Proof. intros u v H. unfold mk_td in H. destruct (td_ok u); [|discriminate H]. injection H as <-. exact I. Qed.
Lemma add_atom : forall dc x y v, op_add dc x y = Ok v -> latom v.
Proof.
  intros dc x y v H. unfold op_add in H.
  destruct x; try (destruct (is_bytes y || is_str y); [discriminate H|]; destruct (is_numeric _ && _); [eapply rdec_atom; exact H|discriminate H]);
    try (destruct (is_bytes y); [discriminate H|]); destruct y; try discriminate H; try (injection H as <-; exact I); first [eapply mk_dt_atom; exact H | eapply mk_td_atom; exact H].
Qed.
Lemma sub_atom : forall dc x y v, op_sub dc x y = Ok v -> latom v.
Proof.
  intros dc x y v H. unfold op_sub in H.
  destruct x; try (destruct (is_numeric _ && _); [eapply rdec_atom; exact H|discriminate H]); destruct y; try discriminate H; try (eapply mk_dt_atom; exact H); try (eapply mk_td_atom; exact H).
  destruct tz, tz0; try discriminate H; eapply mk_td_atom; exact H.
Qed.
Lemma neg_atom : forall dc x v, op_neg dc x = Ok v -> latom v.
Proof. intros dc x v H. unfold op_neg in H. destruct x; try (destruct (is_numeric _); [eapply rdec_atom; exact H|discriminate H]). eapply mk_td_atom; exact H. Qed.
Lemma arith_atom : forall o dc x y v, op_arith o dc x y = Ok v -> latom v.
Proof. intros o dc x y v H. unfold op_arith in H. destruct (dec_arith o dc _ _) as [d|e]; [injection H as <-; exact I|]. destruct (is_arithmetic e); discriminate H. Qed.
Lemma bit_float_atom : forall o x y v, op_bit_float o x y = Ok v -> latom v.
Proof. intros o x y v H. unfold op_bit_float in H. apply rbind_ok in H as [u [_ H]]. injection H as <-. exact I. Qed.
Lemma set_bitop_canonical : forall o a b l, canonical (VSet a) -> canonical (VSet b) -> set_bitop o a b = Ok l ->
  (forall x, In x l -> canonical x /\ hashable x = true) /\ apart l.
Proof.
  intros o a b l Ha Hb H. inversion Ha as [? K|? K|? K K2 K3|]; subst; [contradiction|]. inversion Hb as [? J|? J|? J J2 J3|]; subst; [contradiction|].
  assert (Fl : forall f (l : list value), apart l -> apart (filter f l)).
  { clear. intros f l A. induction A as [|x l Fx A IH]; cbn; [constructor|]. destruct (f x); [|exact IH]. constructor; [|exact IH]. rewrite Forall_forall in *. intros y Hy. apply filter_In in Hy as [Hy _]. auto. }
  assert (Ap : forall l1 l2, apart l1 -> apart l2 -> (forall x y, In x l1 -> In y l2 -> py_eq x y = false) -> apart (l1 ++ l2)).
  { clear. intros l1 l2 A B X. induction A as [|x l Fx A IH]; [exact B|]. cbn. constructor; [|apply IH; intros; apply X; [right|]; assumption]. rewrite Forall_forall in *. intros y Hy. apply in_app_or in Hy as [Hy|Hy]; [auto|]. apply X; [left; reflexivity|exact Hy]. }
  assert (Nm : forall x y, py_mem y a = false -> In x a -> py_eq x y = false).
  { intros x y N Hx. unfold py_mem in N. destruct (py_eq x y) eqn:E; [|reflexivity]. rewrite <- N. symmetry. apply existsb_exists. eauto. }
  destruct o; cbn [set_bitop] in H; try discriminate H; injection H as <-.
  - destruct (_ <? _)%nat; (split; [intros x Hx; apply filter_In in Hx as [Hx _]; auto|apply Fl; assumption]).
  - split; [intros x Hx; apply in_app_or in Hx as [Hx|Hx]; [auto|apply filter_In in Hx as [Hx _]; auto]|]. apply Ap; [exact K2|apply Fl; exact J2|]. intros x y Hx Hy. apply filter_In in Hy as [_ Hy]. apply negb_true_iff in Hy. auto.
  - split; [intros x Hx; apply in_app_or in Hx as [Hx|Hx]; apply filter_In in Hx as [Hx _]; auto|]. apply Ap; [apply Fl; exact K2|apply Fl; exact J2|]. intros x y Hx Hy. apply filter_In in Hy as [_ Hy]. apply negb_true_iff in Hy. apply filter_In in Hx as [Hx _]. auto.
Qed.
Lemma bit_set_canonical : forall o x y, canonical x -> canonical y -> good_result (op_bit_set o x y).
Proof.
  intros o x y Hx Hy v H. unfold op_bit_set in H. apply rbind_ok in H as [t [_ H]]. destruct (is_compat t t_set); [|discriminate H]. destruct x; try discriminate H. destruct y; try discriminate H.
  apply rmap_ok in H as [l' [H ->]]. destruct (set_bitop_canonical _ _ _ _ Hx Hy H) as [A B]. apply new_set_canonical; assumption.
Qed.
Lemma vbool_good : forall r, good_result (rmap VBool r).
Proof. intros r. apply good_if. intros v H. apply rmap_ok in H as [b [_ ->]]. exact I. Qed.
Lemma fuzzy_const : forall sr ng pre x y, exists r, fuzzy_match C sr ng pre x y ~ Ret r /\ good_result r.
Proof.
  intros sr ng pre x y. unfold fuzzy_match.
  destruct x; try (eexists; split; [apply eqv_ret|apply good_err]); (destruct y; try (eexists; split; [apply eqv_ret|apply good_err || (apply good_atom; exact I)]));
  (destruct (if pre then Ok tt else compile_ok C _) as [u|e]; [|eexists; split; [apply eqv_ret|apply good_err]]).
  - eexists; split; [apply eqv_ret|apply good_atom; exact I].
  - cbn [pbind pthen]. destruct (o_re _ _ _ _); [|eexists; split; [apply eqv_ret|apply good_atom; exact I]]. eexists. split; [apply (eqv_setg D); apply eqv_ret|apply good_atom; exact I].
Qed.

Ltac child H thing k := match type of H with const _ (Ok _) => eapply ev_ok; [exact (H thing)|k] | const _ (Err _) => apply ev_err; exact (H thing) end.

Lemma step_bin : forall o a b ra rb, const a ra -> good_result ra -> const b rb -> good_result rb -> exists r, const (EBin o a b) r /\ good_result r.
Proof.
  intros o a b ra rb Ha Ga Hb Gb. destruct ra as [x|er]; [|exists (Err er); split; [intro thing; cbn [eval]; destruct o; apply ev_err; exact (Ha thing)|apply good_err]].
  assert (Cx := Ga x eq_refl). destruct o as [| |o|o| | | | |o|sr ng].
  - destruct rb as [y|er]; [|exists (Err er); split; [intro thing; cbn [eval]; eapply ev_ok; [exact (Ha thing)|]; apply ev_err; exact (Hb thing)|apply good_err]].
    exists (op_add D x y). split; [intro thing; cbn [eval]; eapply ev_ok; [exact (Ha thing)|]; eapply ev_ok; [exact (Hb thing)|]; apply eqv_getdc; apply eqv_ret|]. apply good_if. apply add_atom.
  - destruct rb as [y|er]; [|exists (Err er); split; [intro thing; cbn [eval]; eapply ev_ok; [exact (Ha thing)|]; apply ev_err; exact (Hb thing)|apply good_err]].
    exists (op_sub D x y). split; [intro thing; cbn [eval]; eapply ev_ok; [exact (Ha thing)|]; eapply ev_ok; [exact (Hb thing)|]; apply eqv_getdc; apply eqv_ret|]. apply good_if. apply sub_atom.
  - destruct (is_numeric x) eqn:Nx; [|exists (Err XEval); split; [intro thing; cbn [eval]; eapply ev_ok; [exact (Ha thing)|]; rewrite Nx; apply eqv_ret|apply good_err]].
    destruct rb as [y|er]; [|exists (Err er); split; [intro thing; cbn [eval]; eapply ev_ok; [exact (Ha thing)|]; rewrite Nx; apply ev_err; exact (Hb thing)|apply good_err]].
    destruct (is_numeric y) eqn:Ny; [|exists (Err XEval); split; [intro thing; cbn [eval]; eapply ev_ok; [exact (Ha thing)|]; rewrite Nx; eapply ev_ok; [exact (Hb thing)|]; rewrite Ny; apply eqv_ret|apply good_err]].
    exists (op_arith o D x y). split; [intro thing; cbn [eval]; eapply ev_ok; [exact (Ha thing)|]; rewrite Nx; eapply ev_ok; [exact (Hb thing)|]; rewrite Ny; apply eqv_getdc; apply eqv_ret|]. apply good_if. apply arith_atom.
  - destruct (from_value x) as [t|e] eqn:T; [|exists (Err e); split; [intro thing; cbn [eval]; eapply ev_ok; [exact (Ha thing)|]; rewrite T; apply eqv_ret|apply good_err]].
    destruct (dt_eqb t TFloat) eqn:TF.
    + destruct (assert_natural x) as [u|e] eqn:AN; [|exists (Err e); split; [intro thing; cbn [eval]; eapply ev_ok; [exact (Ha thing)|]; rewrite T; cbn [pbind pthen]; rewrite TF, AN; apply eqv_ret|apply good_err]].
      destruct rb as [y|er]; [|exists (Err er); split; [intro thing; cbn [eval]; eapply ev_ok; [exact (Ha thing)|]; rewrite T; cbn [pbind pthen]; rewrite TF, AN; apply ev_err; exact (Hb thing)|apply good_err]].
      exists (op_bit_float o x y). split; [intro thing; cbn [eval]; eapply ev_ok; [exact (Ha thing)|]; rewrite T; cbn [pbind pthen]; rewrite TF, AN; eapply ev_ok; [exact (Hb thing)|]; apply eqv_ret|apply good_if; apply bit_float_atom].
    + destruct (is_set_t t) eqn:TS; [|exists (Err XEval); split; [intro thing; cbn [eval]; eapply ev_ok; [exact (Ha thing)|]; rewrite T; cbn [pbind pthen]; rewrite TF, TS; apply eqv_ret|apply good_err]].
      destruct rb as [y|er]; [|exists (Err er); split; [intro thing; cbn [eval]; eapply ev_ok; [exact (Ha thing)|]; rewrite T; cbn [pbind pthen]; rewrite TF, TS; apply ev_err; exact (Hb thing)|apply good_err]].
      exists (op_bit_set o x y). split; [intro thing; cbn [eval]; eapply ev_ok; [exact (Ha thing)|]; rewrite T; cbn [pbind pthen]; rewrite TF, TS; eapply ev_ok; [exact (Hb thing)|]; apply eqv_ret|].
      apply bit_set_canonical; [exact Cx|apply Gb; reflexivity].
  - destruct (truthy x) eqn:Tx; [|exists (Ok (VBool false)); split; [intro thing; cbn [eval]; eapply ev_ok; [exact (Ha thing)|]; rewrite Tx; apply eqv_ret|apply good_atom; exact I]].
    destruct rb as [y|er]; [|exists (Err er); split; [intro thing; cbn [eval]; eapply ev_ok; [exact (Ha thing)|]; rewrite Tx; apply ev_err; exact (Hb thing)|apply good_err]].
    exists (Ok (VBool (truthy y))). split; [intro thing; cbn [eval]; eapply ev_ok; [exact (Ha thing)|]; rewrite Tx; eapply ev_ok; [exact (Hb thing)|]; apply eqv_ret|apply good_atom; exact I].
  - destruct (truthy x) eqn:Tx; [exists (Ok (VBool true)); split; [intro thing; cbn [eval]; eapply ev_ok; [exact (Ha thing)|]; rewrite Tx; apply eqv_ret|apply good_atom; exact I]|].
    destruct rb as [y|er]; [|exists (Err er); split; [intro thing; cbn [eval]; eapply ev_ok; [exact (Ha thing)|]; rewrite Tx; apply ev_err; exact (Hb thing)|apply good_err]].
    exists (Ok (VBool (truthy y))). split; [intro thing; cbn [eval]; eapply ev_ok; [exact (Ha thing)|]; rewrite Tx; eapply ev_ok; [exact (Hb thing)|]; apply eqv_ret|apply good_atom; exact I].
  - destruct rb as [y|er]; [|exists (Err er); split; [intro thing; cbn [eval]; eapply ev_ok; [exact (Ha thing)|]; apply ev_err; exact (Hb thing)|apply good_err]].
    exists (Ok (VBool (op_eq x y))). split; [intro thing; cbn [eval]; eapply ev_ok; [exact (Ha thing)|]; eapply ev_ok; [exact (Hb thing)|]; apply eqv_ret|apply good_atom; exact I].
  - destruct rb as [y|er]; [|exists (Err er); split; [intro thing; cbn [eval]; eapply ev_ok; [exact (Ha thing)|]; apply ev_err; exact (Hb thing)|apply good_err]].
    exists (Ok (VBool (op_ne x y))). split; [intro thing; cbn [eval]; eapply ev_ok; [exact (Ha thing)|]; eapply ev_ok; [exact (Hb thing)|]; apply eqv_ret|apply good_atom; exact I].
  - destruct rb as [y|er]; [|exists (Err er); split; [intro thing; cbn [eval]; eapply ev_ok; [exact (Ha thing)|]; apply ev_err; exact (Hb thing)|apply good_err]].
    exists (rmap VBool (op_ord o x y)). split; [intro thing; cbn [eval]; eapply ev_ok; [exact (Ha thing)|]; eapply ev_ok; [exact (Hb thing)|]; apply eqv_ret|apply vbool_good].
  - destruct (match x with VStr _ | VNull => true | _ => false end) eqn:Sx.
    + destruct rb as [y|er].
      * destruct (fuzzy_const sr ng (is_str_lit b) x y) as [r [Hr Gr]]. exists r. split; [|exact Gr]. intro thing. cbn [eval]. eapply ev_ok; [exact (Ha thing)|].
        destruct x; try discriminate Sx; (eapply ev_ok; [exact (Hb thing)|exact Hr]).
      * exists (Err er). split; [|apply good_err]. intro thing. cbn [eval]. eapply ev_ok; [exact (Ha thing)|]. destruct x; try discriminate Sx; (apply ev_err; exact (Hb thing)).
    + exists (Err XEval). split; [|apply good_err]. intro thing. cbn [eval]. eapply ev_ok; [exact (Ha thing)|]. destruct x; try discriminate Sx; apply eqv_ret.
Qed.

Lemma step_in : forall c m rc rm, const c rc -> const m rm -> exists r, const (EIn c m) r /\ forall v, r = Ok v -> exists b, v = VBool b.
Proof.
  intros c m rc rm Hc Hm. destruct rc as [x|er]; [|exists (Err er); split; [intro thing; cbn [eval]; apply ev_err; exact (Hc thing)|discriminate]].
  destruct (from_value x) as [t|e] eqn:T; [|exists (Err e); split; [intro thing; cbn [eval]; eapply ev_ok; [exact (Hc thing)|]; rewrite T; apply eqv_ret|discriminate]].
  destruct rm as [y|er]; [|exists (Err er); split; [intro thing; cbn [eval]; eapply ev_ok; [exact (Hc thing)|]; rewrite T; cbn [pbind pthen]; apply ev_err; exact (Hm thing)|discriminate]].
  exists (rmap VBool (op_in x y)). split; [intro thing; cbn [eval]; eapply ev_ok; [exact (Hc thing)|]; rewrite T; cbn [pbind pthen]; eapply ev_ok; [exact (Hm thing)|]; apply eqv_ret|].
  intros v H. apply rmap_ok in H as [b [_ ->]]. eauto.
Qed.
Lemma step_not : forall a ra, const a ra -> exists r, const (EUn UNot a) r /\ forall v, r = Ok v -> exists b, v = VBool b.
Proof.
  intros a ra Ha. destruct ra as [x|er]; [|exists (Err er); split; [intro thing; cbn [eval]; apply ev_err; exact (Ha thing)|discriminate]].
  exists (Ok (VBool (negb (truthy x)))). split; [intro thing; cbn [eval]; eapply ev_ok; [exact (Ha thing)|]; apply eqv_ret|]. intros v H. injection H as <-. eauto.
Qed.
Lemma step_neg : forall a ra, const a ra -> exists r, const (EUn Ast.UMinus a) r /\ forall v, r = Ok v -> latom v.
Proof.
  intros a ra Ha. destruct ra as [x|er]; [|exists (Err er); split; [intro thing; cbn [eval]; apply ev_err; exact (Ha thing)|discriminate]].
  exists (op_neg D x). split; [intro thing; cbn [eval]; eapply ev_ok; [exact (Ha thing)|]; apply eqv_getdc; apply eqv_ret|]. apply neg_atom.
Qed.

(** what attributes return before coercion: canonical values, native numbers, and arrays of these *)
Definition semi (x : value) : Prop := canonical x \/ numlike x.
Definition semi2 (x : value) : Prop := semi x \/ exists l, x = VArr l /\ forall y, In y l -> semi y.
Lemma semi_coerce : forall ver x v, semi x -> coerce ver x = Ok v -> canonical v.
Proof.
  intros ver x v [H|H] E; [rewrite (canonical_coerce _ _ _ H E); exact H|]. apply coerce_cases in E. destruct x; try contradiction; subst; apply Ca_atom; exact I.
Qed.
Lemma semi2_coerce : forall ver x v, semi2 x -> coerce ver x = Ok v -> canonical v.
Proof.
  intros ver x v [H|[l [-> H]]] E; [eapply semi_coerce; eauto|]. apply coerce_cases in E. cbn in E. destruct E as [l' [F ->]]. apply Ca_arr. intros y Hy. destruct (Forall2_In_r _ _ _ _ _ _ F Hy) as [x [Hx Ex]]. eapply semi_coerce; eauto.
Qed.
Lemma semi_atom : forall v, latom v -> semi2 v.
Proof. intros v H. left. left. apply Ca_atom. exact H. Qed.
Lemma semi_num : forall v, numlike v -> semi2 v.
Proof. intros v H. left. right. exact H. Qed.
Lemma iter_semi : forall v l, canonical v -> py_iter v = Ok l -> forall x, In x l -> semi x.
Proof.
  intros v l H E x Hx. inversion H as [? K|? K|? K K2 K3|? K K2]; subst.
  - destruct v; try contradiction; try discriminate E; cbn in E; injection E as <-; apply in_map_iff in Hx as [c [<- _]]; [left; apply Ca_atom; exact I|right; exact I].
  - injection E as <-. left. auto.
  - injection E as <-. left. apply K. exact Hx.
  - injection E as <-. left. apply in_map_iff in Hx as [[k y] [<- Hk]]. apply (K k y Hk).
Qed.
Lemma attr_fun_semi : forall a v x, a <> a_to_set -> canonical v -> attr_fun a v = Ok x -> semi2 x.
Proof.
  intros a v x Na S H.
  destruct a; cbn [attr_fun] in H; try congruence; try (injection H as <-; apply semi_atom; exact I);
    try (destruct v; try discriminate H; injection H as <-; first [apply semi_atom; exact I | apply semi_num; exact I]).
  - destruct v; try discriminate H. destruct tz; injection H as <-; apply semi_num; exact I.
  - destruct v; try discriminate H; injection H as <-. apply semi_atom. destruct (o_tzname _ _); exact I.
  - destruct v; try discriminate H; injection H as <-. destruct d; first [apply semi_atom; exact I | apply semi_num; exact I].
  - destruct v; try discriminate H; injection H as <-. destruct d; first [apply semi_atom; exact I | apply semi_num; exact I].
  - destruct v; try discriminate H. apply rbind_ok in H as [b [_ H]]. destruct b; [|discriminate H]. injection H as <-. apply semi_atom; exact I.
  - destruct v; try discriminate H; injection H as <-; inversion S as [? K|? K|? K K2 K3|? K K2]; subst; try contradiction. right. eexists. split; [reflexivity|]. intros y Hy. left. apply in_map_iff in Hy as [[k z] [<- Hk]]. apply (K k z Hk).
  - destruct v; try discriminate H; injection H as <-; inversion S as [? K|? K|? K K2 K3|? K K2]; subst; try contradiction. right. eexists. split; [reflexivity|]. intros y Hy. left. apply in_map_iff in Hy as [[k z] [<- Hk]]. apply (K k z Hk).
  - destruct v; try discriminate H. apply string_to_flt_num in H. apply semi_num. exact H.
  - destruct v; try discriminate H. apply rbind_ok in H as [r [E H]]. apply string_to_flt_num in E. apply rbind_ok in H as [b [_ H]]. destruct b; [|discriminate H]. injection H as <-. apply semi_num. exact E.
  all: try (apply rmap_ok in H as [n [_ ->]]; first [apply semi_atom; exact I | apply semi_num; exact I]).
  - apply rmap_ok in H as [l [E ->]]. right. exists l. split; [reflexivity|]. apply (iter_semi _ _ S E).
Qed.
Lemma get_attr_to_set : forall t n, get_attr t n = Ok a_to_set -> n = n_to_set.
Proof.
  intros t n H. unfold get_attr in H. destruct (attr_table attr_map t) as [tab|] eqn:E; [|discriminate H]. destruct (assoc n tab) as [a|] eqn:E2; [|discriminate H]. injection H as ->.
  assert (T : forall m, (forall k tb, In (k, tb) m -> forall n, assoc n tb = Some a_to_set -> n = n_to_set) -> attr_table m t = Some tab -> n = n_to_set).
  { induction m as [|[k tb] m IH]; cbn; intros X Y; [discriminate Y|]. destruct (is_compat k t); [injection Y as ->; eapply X; [left; reflexivity|exact E2]|]. apply IH; [intros; eapply X; [right|]; eassumption|exact Y]. }
  apply (T attr_map); [|exact E]. clear. intros k tb Hk n H. apply Base.assoc_In in H.
  assert (A : forallb (fun kt => forallb (fun e => match snd e with a_to_set => str_eqb (fst e) n_to_set | _ => true end) (snd kt)) attr_map = true) by (vm_compute; reflexivity).
  rewrite forallb_forall in A. specialize (A _ Hk). cbn [snd] in A. rewrite forallb_forall in A. specialize (A _ H). cbn [snd fst] in A. apply str_eqb_eq in A. exact A.
Qed.
Lemma resolve_attr_canonical : forall v n r, canonical v -> n <> n_to_set -> resolve_attr v n = Ok r -> canonical r.
Proof.
  intros v n r S N H. apply resolve_attr_cases in H as [t [a [x [vt [et [E [E1 [E2 [E3 _]]]]]]]]]. eapply semi2_coerce; [|exact E3]. eapply attr_fun_semi; eauto. intros ->. apply N. eapply get_attr_to_set. exact E1.
Qed.
Lemma step_attr : forall o n safe v, const o (Ok v) -> canonical v -> n <> n_to_set ->
  (exists nm sg, resolve_attr v n = Err (XAttrRes nm sg) /\ is_null v && safe = false) \/ exists r, const (EAttr o n safe) r /\ good_result r.
Proof.
  intros o n safe v Ho Cv N. destruct (is_null v && safe) eqn:Nu; [right; exists (Ok VNull); split; [intro thing; cbn [eval]; eapply ev_ok; [exact (Ho thing)|]; rewrite Nu; apply eqv_ret|apply good_atom; exact I]|].
  destruct (resolve_attr v n) as [r|x] eqn:R.
  - right. exists (new_value (c_tz C) false r). split; [intro thing; cbn [eval]; eapply ev_ok; [exact (Ho thing)|]; rewrite Nu, R; apply eqv_ret|]. intros v' E. eapply canonical_nval; [|exact E]. eapply resolve_attr_canonical; eauto.
  - destruct x; try (right; eexists; split; [intro thing; cbn [eval]; eapply ev_ok; [exact (Ho thing)|]; rewrite Nu, R; apply eqv_ret|apply good_err]). left. eauto.
Qed.
Lemma step_attr_err : forall o n safe er, const o (Err er) -> const (EAttr o n safe) (Err er).
Proof. intros o n safe er H thing. cbn [eval]. apply ev_err. exact (H thing). Qed.

Lemma getitem_semi : forall x k v, canonical x -> py_getitem x k = Ok v -> semi v.
Proof.
  intros x k v S H. inversion S as [? K|? K|? K K2 K3|? K K2]; subst.
  - destruct x; try contradiction; try discriminate H; cbn [py_getitem] in H; destruct (seq_get _ _); try discriminate H; injection H as <-; [left; apply Ca_atom; exact I|right; exact I].
  - cbn [py_getitem] in H. destruct (seq_get _ _) eqn:E; [|discriminate H]. injection H as <-. apply seq_get_In in E. left. auto.
  - discriminate H.
  - cbn [py_getitem] in H. destruct (hashable k); [|discriminate H]. destruct (dict_get _ _) eqn:E; [|discriminate H]. injection H as <-. apply dict_get_In' in E as [k' E]. left. apply (K _ _ E).
Qed.
Lemma semi_nval : forall ver x v, semi x -> new_value (c_tz C) ver x = Ok v -> canonical v.
Proof.
  intros ver x v H E. unfold new_value in E. apply rmap_ok in E as [y [E ->]]. assert (Cy := semi_coerce _ _ _ H E). destruct y; try exact Cy. cbn. destruct tz; [exact Cy|]. apply Ca_atom. exact I.
Qed.
Lemma step_item : forall c i safe rc ri, const c rc -> good_result rc -> const i ri -> exists r, const (EItem c i safe) r /\ good_result r.
Proof.
  intros c i safe rc ri Hc Gc Hi. destruct rc as [x|er]; [|exists (Err er); split; [intro thing; cbn [eval]; apply ev_err; exact (Hc thing)|apply good_err]].
  destruct (is_null x) eqn:Nx.
  { exists (if safe then Ok VNull else Err XEval). split; [intro thing; cbn [eval]; eapply ev_ok; [exact (Hc thing)|]; rewrite Nx; destruct safe; apply eqv_ret|destruct safe; [apply good_atom; exact I|apply good_err]]. }
  destruct ri as [k|er]; [|exists (Err er); split; [intro thing; cbn [eval]; eapply ev_ok; [exact (Hc thing)|]; rewrite Nx; apply ev_err; exact (Hi thing)|apply good_err]].
  destruct (if is_sequence x then assert_integer k else Ok tt) as [u|e] eqn:Q; [|exists (Err e); split; [intro thing; cbn [eval]; eapply ev_ok; [exact (Hc thing)|]; rewrite Nx; eapply ev_ok; [exact (Hi thing)|]; rewrite Q; apply eqv_ret|apply good_err]].
  destruct (py_getitem x k) as [v|e] eqn:G.
  - exists (new_value (c_tz C) false v). split; [intro thing; cbn [eval]; eapply ev_ok; [exact (Hc thing)|]; rewrite Nx; eapply ev_ok; [exact (Hi thing)|]; rewrite Q; cbn [pbind pthen]; rewrite G; apply eqv_ret|].
    intros v' E. eapply semi_nval; [|exact E]. eapply getitem_semi; [apply Gc; reflexivity|exact G].
  - exists (match e with XLookup => if safe then Ok VNull else Err XLookup | _ => Err e end).
    split; [intro thing; cbn [eval]; eapply ev_ok; [exact (Hc thing)|]; rewrite Nx; eapply ev_ok; [exact (Hi thing)|]; rewrite Q; cbn [pbind pthen]; rewrite G; destruct e; try apply eqv_ret; destruct safe; apply eqv_ret|].
    destruct e; try apply good_err. destruct safe; [apply good_atom; exact I|apply good_err].
Qed.
Lemma getslice_canonical : forall x i j v, canonical x -> py_getslice x i j = Ok v -> canonical v.
Proof.
  intros x i j v S H. inversion S as [? K|? K|? K K2 K3|? K K2]; subst; try discriminate H.
  - destruct x; try contradiction; try discriminate H; cbn in H; injection H as <-; apply Ca_atom; exact I.
  - cbn in H. injection H as <-. apply Ca_arr. intros y Hy. apply slice_In in Hy. auto.
Qed.
Lemma step_slice : forall c a b safe rc ra rb, const c rc -> good_result rc -> const a ra -> const b rb -> exists r, const (ESlice c a b safe) r /\ good_result r.
Proof.
  intros c a b safe rc ra rb Hc Gc Ha Hb. destruct rc as [x|er]; [|exists (Err er); split; [intro thing; cbn [eval]; apply ev_err; exact (Hc thing)|apply good_err]].
  destruct (is_null x) eqn:Nx.
  { exists (if safe then Ok VNull else Err XEval). split; [intro thing; cbn [eval]; eapply ev_ok; [exact (Hc thing)|]; rewrite Nx; destruct safe; apply eqv_ret|destruct safe; [apply good_atom; exact I|apply good_err]]. }
  destruct ra as [va|er]; [|exists (Err er); split; [intro thing; cbn [eval]; eapply ev_ok; [exact (Hc thing)|]; rewrite Nx; apply ev_err; exact (Ha thing)|apply good_err]].
  destruct (opt_index va) as [i|e] eqn:I1; [|exists (Err e); split; [intro thing; cbn [eval]; eapply ev_ok; [exact (Hc thing)|]; rewrite Nx; eapply ev_ok; [exact (Ha thing)|]; rewrite I1; apply eqv_ret|apply good_err]].
  destruct rb as [vb|er]; [|exists (Err er); split; [intro thing; cbn [eval]; eapply ev_ok; [exact (Hc thing)|]; rewrite Nx; eapply ev_ok; [exact (Ha thing)|]; rewrite I1; cbn [pbind pthen]; apply ev_err; exact (Hb thing)|apply good_err]].
  exists (rbind (opt_index vb) (fun j => rbind (py_getslice x i j) (coerce false))). split.
  - intro thing. cbn [eval]. eapply ev_ok; [exact (Hc thing)|]. rewrite Nx. eapply ev_ok; [exact (Ha thing)|]. rewrite I1. cbn [pbind pthen]. eapply ev_ok; [exact (Hb thing)|].
    destruct (opt_index vb) as [j|e]; [|apply eqv_ret]. cbn [pbind pthen rbind]. destruct (py_getslice x i j); apply eqv_ret.
  - intros v E. apply rbind_ok in E as [j [_ E]]. apply rbind_ok in E as [y [Ey E]]. assert (Cy : canonical y) by (eapply getslice_canonical; [apply Gc; reflexivity|exact Ey]). rewrite (canonical_coerce _ _ _ Cy E). exact Cy.
Qed.
Lemma meth_semi : forall m self arg v, meth_call m self arg = Ok v -> latom v.
Proof.
  intros m self arg v H. destruct m; cbn [meth_call] in H.
  - destruct self; try discriminate H. destruct arg; try discriminate H. cbv zeta in H. destruct (_ || _); [injection H as <-; exact I|]. destruct (str_eqb _ _); [injection H as <-; exact I|]. destruct (py_decode _ _) as [t'|e]; [injection H as <-; exact I|destruct e; discriminate H].
  - destruct self; try discriminate H. destruct arg; try discriminate H. cbv zeta in H. destruct (_ || _); [destruct (rbind _ _) as [t'|e]; [injection H as <-; exact I|destruct e; discriminate H]|].
    destruct (str_eqb _ _); [destruct (rbind _ _) as [t'|e]; [injection H as <-; exact I|destruct e; discriminate H]|]. destruct (py_encode _ _) as [t'|e]; [injection H as <-; exact I|destruct e; discriminate H].
  - apply rbind_ok in H as [n [_ H]]. apply rbind_ok in H as [y [_ H]]. injection H as <-. exact I.
  - apply rbind_ok in H as [n [_ H]]. apply rbind_ok in H as [y [_ H]]. injection H as <-. exact I.
Qed.
Lemma step_call : forall f args rf rs, const f rf -> good_result rf -> Forall2 const args rs -> exists r, const (ECall f args) r /\ good_result r.
Proof.
  intros f args rf rs Hf Gf Ha. destruct rf as [fv|er]; [|exists (Err er); split; [intro thing; cbn [eval]; apply ev_err; exact (Hf thing)|apply good_err]].
  destruct (callable fv) eqn:Cf; [|exists (Err XEval); split; [intro thing; cbn [eval]; eapply ev_ok; [exact (Hf thing)|]; rewrite Cf; apply eqv_ret|apply good_err]].
  assert (M : exists m self, fv = VMeth m self). { specialize (Gf fv eq_refl). inversion Gf as [? K|? K|? K K2 K3|? K K2]; subst; try discriminate Cf. destruct fv; try contradiction; try discriminate Cf. eauto. }
  destruct M as [m [self ->]].
  destruct (rmapM (fun r => r) rs) as [vs|er] eqn:R; [|exists (Err er); split; [intro thing; cbn [eval]; eapply ev_ok; [exact (Hf thing)|]; cbn [callable]; apply ev_err; rewrite <- R; apply const_pmap; exact Ha|apply good_err]].
  destruct (if is_undef (rtype f) then Ok tt else validate (rtype f) (map from_value vs)) as [u|e] eqn:V;
    [|exists (Err e); split; [intro thing; cbn [eval]; eapply ev_ok; [exact (Hf thing)|]; cbn [callable]; eapply ev_ok; [rewrite <- R; apply const_pmap; exact Ha|]; rewrite V; apply eqv_ret|apply good_err]].
  set (ar := match vs with [a] => meth_call m self a | _ => Err PType end).
  assert (Q : pthen (apply_fun C (VMeth m self) vs) (fun r => match r with Ok v => ok v | Err _ => raise XFunCall end) = Ret (match ar with Ok v => Ok v | Err _ => Err XFunCall end)).
  { unfold ar. destruct vs as [|a [|]]; try reflexivity. cbn. destruct (meth_call m self a); reflexivity. }
  exists (match ar with Ok v => rbind (new_value (c_tz C) true v) (fun v' => rbind (from_value v') (fun t => if is_compat t (rtype (ECall f args)) then Ok v' else Err XFunCall)) | Err _ => Err XFunCall end). split.
  - intro thing. cbn [eval]. eapply ev_ok; [exact (Hf thing)|]. cbn [callable]. eapply ev_ok; [rewrite <- R; apply const_pmap; exact Ha|]. rewrite V. eapply ev_ok; [apply eqv_ret|]. rewrite Q.
    destruct ar as [v|e]; [|apply eqv_ret]. eapply ev_ok; [apply eqv_ret|]. unfold nval. destruct (new_value (c_tz C) true v) as [v'|e]; [|apply eqv_ret]. eapply ev_ok; [apply eqv_ret|].
    cbn [rbind]. destruct (from_value v') as [t|e]; [|apply eqv_ret]. eapply ev_ok; [apply eqv_ret|]. cbn [rbind]. destruct (is_compat t _); apply eqv_ret.
  - intros v E. destruct ar as [v0|e] eqn:Ar; [|discriminate E]. apply rbind_ok in E as [v' [E1 E]]. apply rbind_ok in E as [t [_ E]]. destruct (is_compat t _); [|discriminate E]. injection E as <-.
    eapply canonical_nval; [|exact E1]. apply Ca_atom. unfold ar in Ar. destruct vs as [|a [|]]; try discriminate Ar. eapply meth_semi. exact Ar.
Qed.

(** ** Building *)

(** construction happens in the decimal context of the rule; comprehension variables have no value yet *)
Definition okst (q : st) : Prop := s_dc q = D /\ forall a, In a (s_scopes q) -> a_val a = v_undefined.
Definition grow {A} (p : prog A) : Prop := forall w q, exists l, s_log (snd (run w p q)) = l ++ s_log q.
Lemma grow_ret : forall A (r : result A), grow (Ret r).
Proof. intros A r w q. exists []. reflexivity. Qed.
Lemma grow_ok : forall A (a : A), grow (ok a).
Proof. intros. apply grow_ret. Qed.
Lemma grow_bind : forall A B (p : prog A) (f : A -> prog B), grow p -> (forall a, grow (f a)) -> grow (pbind p f).
Proof.
  intros A B p f H Hf w q. rewrite run_pbind. destruct (H w q) as [l E]. destruct (run w p q) as [[a|x] q1]; cbn in E; [|exists l; exact E].
  destruct (Hf a w q1) as [l2 E2]. exists (l2 ++ l). rewrite E2, E. apply app_assoc.
Qed.
Lemma grow_pmapM : forall A B (f : A -> prog B) l, (forall a, grow (f a)) -> grow (pmapM f l).
Proof. intros A B f l H. induction l as [|a l IH]; [apply grow_ret|]. cbn [pmapM]. apply grow_bind; [apply H|]. intro. apply grow_bind; [exact IH|]. intro. apply grow_ret. Qed.
Lemma grow_scope : forall A a (p : prog A), grow p -> grow (with_scope a p).
Proof.
  intros A a p H w q. rewrite run_with_scope. destruct (H w (set_scopes (s_scopes q ++ [a]) q)) as [l E]. destruct (run w p _) as [r q1]. cbn in E. destruct (s_scopes q1); cbn; eauto.
Qed.
Lemma grow_build : forall n, grow (build C n).
Proof. intros n w q. destruct (build_log C n w q) as [[l [E _]] _]. eauto. Qed.
Lemma grow_reduce : forall e, grow (reduce C e).
Proof.
  intros e w q.
  assert (H : grows s_log (fun _ => True) expr (reduce C e) (asks_ok (fun _ => True))).
  { apply (closure_reduce C (grows s_log (fun _ => True)) (grows_ret _ _) (grows_then _ _)) with (Nm := fun n : str => True); try (intros n Hn; exact I).
    - intros. apply grows_scope; [reflexivity|assumption].
    - intros o Ho. apply grows_act. intros w0 q0. destruct o; try contradiction; try apply same_list; cbn; eexists [_]; (split; [reflexivity|constructor; [exact I|constructor]]).
    - intros t n Hn. apply (grows_act _ _ (OResolve t n)). intros w0 q0. cbn. eexists [_]. split; [reflexivity|constructor; [exact I|constructor]]. }
  destruct (H w q) as [[l [E _]] _]. eauto.
Qed.

(** [tri p pp R]: if [p] succeeds without callbacks, it gives the same answer again and [pp] gives a related one, both without visible effects *)
Definition tri {A B} (p : prog A) (pp : prog B) (R : A -> B -> Prop) : Prop :=
  forall w q a q', run w p q = (Ok a, q') -> okst q -> s_log q' = s_log q -> forall qp, sim q qp ->
   (exists qb, run w p qp = (Ok a, qb) /\ sim q qb) /\ exists u qc, run w pp qp = (Ok u, qc) /\ sim q qc /\ R a u.
Lemma tri_sim : forall A B (p : prog A) (pp : prog B) (R : A -> B -> Prop) w q a q', tri p pp R -> run w p q = (Ok a, q') -> okst q -> s_log q' = s_log q -> sim q q'.
Proof. intros A B p pp R w q a q' T E O L. destruct (T w q a q' E O L q (sim_refl q)) as [[qb [Eb Sb]] _]. rewrite E in Eb. injection Eb as <-. exact Sb. Qed.
Lemma okst_sim : forall q q', sim q q' -> okst q -> okst q'.
Proof. intros q q' [A [B E]] [H1 H2]. split; [congruence|]. rewrite <- A. exact H2. Qed.
Lemma log_mid : forall (l1 l2 l : list event), l2 ++ l1 ++ l = l -> l1 = [].
Proof. intros l1 l2 l H. rewrite app_assoc in H. assert (N : length (l2 ++ l1) = 0%nat) by (apply (f_equal (@length event)) in H; rewrite app_length in H; lia). rewrite app_length in N. destruct l1; [reflexivity|cbn in N; lia]. Qed.
Lemma tri_split : forall A B (p : prog A) (f : A -> prog B) w q b q', grow p -> (forall a, grow (f a)) -> run w (pbind p f) q = (Ok b, q') -> s_log q' = s_log q ->
  exists a q1, run w p q = (Ok a, q1) /\ s_log q1 = s_log q /\ run w (f a) q1 = (Ok b, q') /\ s_log q' = s_log q1.
Proof.
  intros A B p f w q b q' Gp Gf E L. apply run_pbind_ok in E as [a [q1 [E1 E2]]]. exists a, q1. destruct (Gp w q) as [l1 L1]. rewrite E1 in L1. cbn in L1. destruct (Gf a w q1) as [l2 L2]. rewrite E2 in L2. cbn in L2.
  assert (l1 = []) by (rewrite L1 in L2; rewrite L in L2; symmetry in L2; apply log_mid in L2; exact L2). subst l1. cbn in L1. repeat split; congruence.
Qed.
Lemma tri_bind : forall A A' B B' (p : prog A) (pp : prog A') (f : A -> prog B) (g : A' -> prog B') (R : A -> A' -> Prop) (R' : B -> B' -> Prop),
  tri p pp R -> grow p -> (forall a, grow (f a)) -> (forall a u, R a u -> tri (f a) (g u) R') -> tri (pbind p f) (pbind pp g) R'.
Proof.
  intros A A' B B' p pp f g R R' T Gp Gf Tf w q b q' E O L qp S. destruct (tri_split _ _ _ _ _ _ _ _ Gp Gf E L) as [a [q1 [E1 [L1 [E2 L2]]]]].
  assert (S1 := tri_sim _ _ _ _ _ _ _ _ _ T E1 O L1). destruct (T w q a q1 E1 O L1 qp S) as [[qb [Eb Sb]] [u [qc [Ec [Sc Ru]]]]].
  assert (T2 := Tf a u Ru). assert (O1 := okst_sim _ _ S1 O). split.
  - destruct (T2 w q1 b q' E2 O1 L2 qb) as [[qd [Ed Sd]] _]; [eapply sim_trans; [apply sim_sym; exact S1|exact Sb]|]. exists qd. rewrite run_pbind, Eb. split; [exact Ed|]. exact (sim_trans _ _ _ S1 Sd).
  - destruct (T2 w q1 b q' E2 O1 L2 qc) as [_ [v [qd [Ed [Sd Rv]]]]]; [eapply sim_trans; [apply sim_sym; exact S1|exact Sc]|]. exists v, qd. rewrite run_pbind, Ec. split; [exact Ed|]. split; [exact (sim_trans _ _ _ S1 Sd)|exact Rv].
Qed.
Lemma tri_dup : forall A A' B B' (p : prog A) (pp : prog A') (f : A -> prog B) (g : A -> A' -> prog B') (R : A -> A' -> Prop) (R' : B -> B' -> Prop),
  tri p pp R -> grow p -> (forall a, grow (f a)) -> (forall a u, R a u -> tri (f a) (g a u) R') -> tri (pbind p f) (pbind p (fun b => pbind pp (g b))) R'.
Proof.
  intros A A' B B' p pp f g R R' T Gp Gf Tf w q b q' E O L qp S. destruct (tri_split _ _ _ _ _ _ _ _ Gp Gf E L) as [a [q1 [E1 [L1 [E2 L2]]]]].
  assert (S1 := tri_sim _ _ _ _ _ _ _ _ _ T E1 O L1). destruct (T w q a q1 E1 O L1 qp S) as [[qb [Eb Sb]] _]. destruct (T w q a q1 E1 O L1 qb Sb) as [_ [u [qc [Ec [Sc Ru]]]]].
  assert (T2 := Tf a u Ru). assert (O1 := okst_sim _ _ S1 O). split.
  - destruct (T2 w q1 b q' E2 O1 L2 qb) as [[qd [Ed Sd]] _]; [eapply sim_trans; [apply sim_sym; exact S1|exact Sb]|]. exists qd. rewrite run_pbind, Eb. split; [exact Ed|]. exact (sim_trans _ _ _ S1 Sd).
  - destruct (T2 w q1 b q' E2 O1 L2 qc) as [_ [v [qd [Ed [Sd Rv]]]]]; [eapply sim_trans; [apply sim_sym; exact S1|exact Sc]|]. exists v, qd. rewrite run_pbind, Eb, run_pbind, Ec. split; [exact Ed|]. split; [exact (sim_trans _ _ _ S1 Sd)|exact Rv].
Qed.
Lemma tri_ret : forall A B (r : result A) (r' : result B) (R : A -> B -> Prop), (forall a, r = Ok a -> exists u, r' = Ok u /\ R a u) -> tri (Ret r) (Ret r') R.
Proof. intros A B r r' R H w q a q' E O L qp S. cbn in E. injection E as -> <-. destruct (H a eq_refl) as [u [-> Ru]]. split; [exists qp; split; [reflexivity|exact S]|]. exists u, qp. split; [reflexivity|split; assumption]. Qed.
Lemma tri_ok : forall A B (a : A) (u : B) (R : A -> B -> Prop), R a u -> tri (ok a) (ok u) R.
Proof. intros. apply tri_ret. intros a' E. injection E as <-. eauto. Qed.
Lemma tri_raise : forall A B x (pp : prog B) (R : A -> B -> Prop), tri (raise x) pp R.
Proof. intros A B x pp R w q a q' E. discriminate E. Qed.
(** a check made only by the real construction *)
Lemma tri_check : forall A B X (c : result X) (f : X -> prog A) (pp : prog B) (R : A -> B -> Prop), (forall x, c = Ok x -> tri (f x) pp R) -> tri (pbind (Ret c) f) pp R.
Proof.
  intros A B X c f pp R H. destruct c as [x|e]; [|intros w q a q' E; discriminate E]. intros w q a q' E O L qp S. rewrite run_pbind in E. cbn [run] in E. destruct (H x eq_refl w q a q' E O L qp S) as [[qb [Eb Sb]] K]. split; [|exact K].
  exists qb. rewrite run_pbind. cbn [run]. auto.
Qed.
Lemma tri_pmapM : forall A B B' (f : A -> prog B) (g : A -> prog B') (R : A -> B -> B' -> Prop) l, (forall a, grow (f a)) -> (forall a, In a l -> tri (f a) (g a) (R a)) ->
  tri (pmapM f l) (pmapM g l) (fun bs us => Forall2 (fun b u => exists a, In a l /\ R a b u) bs us).
Proof.
  intros A B B' f g R l Gf H. induction l as [|a l IH]; [apply tri_ok; constructor|]. cbn [pmapM]. eapply tri_bind; [apply H; left; reflexivity|apply Gf| |].
  - intro. apply grow_bind; [apply grow_pmapM; exact Gf|]. intro. apply grow_ret.
  - intros b u Rb. eapply tri_bind; [apply IH; intros; apply H; right; assumption|apply grow_pmapM; exact Gf|intro; apply grow_ret|].
    intros bs us F. apply tri_ok. constructor; [exists a; split; [left; reflexivity|exact Rb]|]. clear - F. induction F as [|x y xs ys [z [Hz Rz]] F IH]; constructor; [exists z; split; [right; exact Hz|exact Rz]|exact IH].
Qed.
Lemma tri_scope : forall A B a (p : prog A) (pp : prog B) (R : A -> B -> Prop), a_val a = v_undefined -> tri p pp R -> tri (with_scope a p) (with_scope a pp) R.
Proof.
  intros A B a p pp R Ha T w q x q' E O L qp S. rewrite run_with_scope in E. destruct (run w p _) as [r q1] eqn:E1.
  destruct (s_scopes q1) as [|s0 ss] eqn:Sc; [discriminate E|]. injection E as -> <-. cbn in L.
  assert (O1 : okst (set_scopes (s_scopes q ++ [a]) q)). { destruct O as [O1 O2]. split; [exact O1|]. intros b Hb. apply in_app_or in Hb as [Hb|[<-|[]]]; auto. }
  assert (S1 : sim (set_scopes (s_scopes q ++ [a]) q) (set_scopes (s_scopes qp ++ [a]) qp)). { destruct S as [A1 [A2 A3]]. repeat split; cbn; congruence. }
  assert (K : forall qz, sim (set_scopes (s_scopes q ++ [a]) q) qz -> exists s1 sr, s_scopes qz = s1 :: sr /\ sim q (set_scopes (removelast (s1 :: sr)) qz)).
  { intros qz [Z1 [Z2 Z3]]. cbn in Z1, Z2, Z3. destruct (s_scopes qz) as [|s1 sr] eqn:Z; [destruct (s_scopes q); discriminate Z1|]. exists s1, sr. split; [reflexivity|]. repeat split; cbn [s_scopes set_scopes s_dc s_log]; try assumption. rewrite <- Z1. symmetry. apply removelast_snoc. }
  destruct (T w _ x q1 E1 O1 L _ S1) as [[qb [Eb Sb]] [u [qc [Ec [Sc' Ru]]]]]. split.
  - destruct (K qb Sb) as [s1 [sr [Z1 Z2]]]. eexists. rewrite run_with_scope, Eb, Z1. split; [reflexivity|exact Z2].
  - destruct (K qc Sc') as [s1 [sr [Z1 Z2]]]. exists u. eexists. rewrite run_with_scope, Ec, Z1. split; [reflexivity|]. split; [exact Z2|exact Ru].
Qed.
Lemma tri_impl : forall A B (p : prog A) (pp : prog B) (R R' : A -> B -> Prop), (forall a u, R a u -> R' a u) -> tri p pp R -> tri p pp R'.
Proof. intros A B p pp R R' H T w q a q' E O L qp S. destruct (T w q a q' E O L qp S) as [X [u [qc [Y1 [Y2 Y3]]]]]. split; [exact X|]. exists u, qc. auto. Qed.
(** evaluating a constant *)
Lemma tri_const : forall B e r (f : value -> prog expr) (pp : prog B) (R : expr -> B -> Prop), const e r -> (forall v, r = Ok v -> tri (f v) pp R) -> tri (do! v := eval C VNull e in f v) pp R.
Proof.
  intros B e r f pp R Hc H w q a q' E O L qp S. apply run_pbind_ok in E as [v [q1 [E1 E2]]]. destruct O as [O1 O2].
  destruct (eqv_val D _ _ _ _ _ _ _ (Hc VNull) O1 E1) as [Er S1]. symmetry in Er.
  assert (O' : okst q1) by (eapply okst_sim; [exact S1|split; assumption]). assert (L' : s_log q' = s_log q1) by (destruct S1 as [_ [_ S1]]; congruence).
  assert (T := H v Er). destruct (run w (eval C VNull e) qp) as [rp qp1] eqn:Ep. assert (Dp : s_dc qp = D) by (destruct S as [_ [S _]]; congruence).
  destruct (eqv_val D _ _ _ _ _ _ _ (Hc VNull) Dp Ep) as [Erp Sp]. split.
  - destruct (T w q1 a q' E2 O' L' qp1) as [[qb [Eb Sb]] _]; [exact (sim_trans _ _ _ (sim_sym _ _ S1) (sim_trans _ _ _ S Sp))|]. exists qb. rewrite run_pbind, Ep, Erp, Er. split; [exact Eb|exact (sim_trans _ _ _ S1 Sb)].
  - destruct (T w q1 a q' E2 O' L' qp) as [_ [u [qc [Ec [Sc Ru]]]]]; [eapply sim_trans; [apply sim_sym; exact S1|exact S]|]. exists u, qc. split; [exact Ec|]. split; [exact (sim_trans _ _ _ S1 Sc)|exact Ru].
Qed.

Lemma tri_from : forall A B (p : prog A) (pp : prog B) (R : A -> B -> Prop), tri p pp R -> tri p pp (fun a u => R a u /\ exists w q q', run w p q = (Ok a, q')).
Proof. intros A B p pp R T w q a q' E O L qp S. destruct (T w q a q' E O L qp S) as [X [u [qc [Y1 [Y2 Y3]]]]]. split; [exact X|]. exists u, qc. eauto 9. Qed.
Lemma tri_same : forall A (p : prog A), p ~ p -> (forall w q, sim q (snd (run w p q))) -> tri p p eq.
Proof.
  intros A p Hp Hs w q a q' E [O1 O2] L qp S. destruct (Hp w q qp S O1) as [A1 [A2 A3]]. rewrite E in A1, A2. cbn in A1, A2. assert (Sp := Hs w qp). destruct (run w p qp) as [r qb]. cbn in *. subst r.
  split; [exists qb; split; [reflexivity|exact (sim_trans _ _ _ S Sp)]|]. exists a, qb. split; [reflexivity|]. split; [exact (sim_trans _ _ _ S Sp)|reflexivity].
Qed.

(** the built expression against the expression as written *)
Definition uncallable (e : expr) : Prop := is_undef (rtype e) = false /\ forall ts, exists x, validate (rtype e) ts = Err x.
Record rel (n : dnode) (e u : expr) : Prop := {
  r_ev : forall thing, eval C thing e ~ eval C thing u;
  r_lit : clit e;
  r_solid : cond_ok n = true -> is_reduced e = true -> exists v, solid e v;
  r_fix : reduce C e = ok e;
  r_str : is_str_lit u = true -> e = u;
  r_path : path n = true -> e = u;
  r_call : callee n = true -> rtype e = rtype u \/ uncallable e
}.
Lemma red_fix : forall e, red e -> reduce C e = ok e.
Proof. intros e H. destruct H; reflexivity. Qed.
Lemma rel_open : forall n E U, (forall thing, eval C thing E ~ eval C thing U) -> is_reduced E = false -> reduce C E = ok E -> is_str_lit U = false -> (path n = true -> E = U) -> (callee n = true -> rtype E = rtype U) -> rel n E U.
Proof. intros n E U H1 H2 H3 H4 H5 H6. constructor; try assumption; try congruence; try (intro K; congruence). intro K. left. auto. Qed.
Lemma rel_folded : forall n E U v e, (forall thing, eval C thing E ~ eval C thing U) -> const E (Ok v) -> solid e v -> red e -> is_str_lit U = false -> path n = false -> (callee n = true -> rtype e = rtype U \/ uncallable e) -> rel n e U.
Proof.
  intros n E U v e H1 H2 H3 H4 H5 H6 H7. constructor; try congruence; try assumption.
  - intro thing. eapply eqv_trans; [apply H3|]. eapply eqv_trans; [apply eqv_sym; apply H2|apply H1].
  - intros _ _. eauto.
  - apply red_fix. exact H4.
Qed.
Lemma rel_atom : forall n v, latom v -> path n = false -> rel n (ELit v) (ELit v).
Proof.
  intros n v H Hp. constructor; try reflexivity; try congruence.
  - intro thing. apply eqv_ret.
  - intro. apply Re_lit. exact H.
  - intros _ _. exists v. split; [intro; apply eqv_ret|reflexivity].
  - left. reflexivity.
Qed.
Lemma lit_atom : forall v, latom v -> lit_of v = Ok (ELit v).
Proof. intros v H. destruct v; try contradiction; reflexivity. Qed.
Lemma tri_fold0 : forall E (U : expr) r, const E r -> good_result r -> tri (fold C E) (ok U) (fun e u => u = U /\ exists v, const E (Ok v) /\ canonical v /\ lit_of v = Ok e).
Proof.
  intros E U r Hc Hg. unfold fold. eapply tri_const; [exact Hc|]. intros v ->. apply tri_ret. intros e He. exists U. split; [reflexivity|]. split; [reflexivity|]. exists v. split; [exact Hc|]. split; [apply Hg; reflexivity|exact He].
Qed.
Lemma tri_fold : forall n E U r, (forall thing, eval C thing E ~ eval C thing U) -> const E r -> good_result r -> is_str_lit U = false -> callee n = false -> tri (fold C E) (ok U) (rel n).
Proof.
  intros n E U r H1 H2 H3 H4 H5. assert (P : path n = false) by (unfold callee in H5; destruct (path n); [discriminate H5|reflexivity]).
  eapply tri_impl; [|apply (tri_fold0 E U r H2 H3)]. intros e u [-> [v [A [B L]]]]. destruct (canon_round v e B L) as [S [Rd _]]. eapply rel_folded; eauto. congruence.
Qed.
Lemma tri_val : forall n E U r, (forall thing, eval C thing E ~ eval C thing U) -> const E r -> (forall v, r = Ok v -> latom v) -> is_str_lit U = false -> callee n = false -> tri (do! v := eval C VNull E in ok (ELit v)) (ok U) (rel n).
Proof.
  intros n E U r H1 H2 H3 H4 H5. assert (P : path n = false) by (unfold callee in H5; destruct (path n); [discriminate H5|reflexivity]).
  eapply tri_const; [exact H2|]. intros v ->. apply tri_ok. apply (rel_folded n E U v (ELit v) H1 H2); [split; [intro; apply eqv_ret|reflexivity]|apply Re_lit; apply H3; reflexivity|exact H4|exact P|congruence].
Qed.
Lemma child_const : forall n e u, rel n e u -> is_reduced e = true -> exists r, const e r /\ good_result r.
Proof. intros n e u R H. apply red_const. apply (r_lit _ _ _ R). exact H. Qed.

Ltac growt := repeat first [match goal with |- forall _, grow _ => intro end | apply grow_build | apply grow_reduce | apply grow_ret | apply grow_ok | apply grow_scope | (apply grow_pmapM; intro) | (apply grow_bind; [|intro]) |
  match goal with |- grow (match ?x with _ => _ end) => destruct x end].

Lemma fold_bin : forall n o a b x y ux uy u0, rel a x ux -> rel b y uy -> check_bin C o x y = Ok u0 -> callee n = false -> tri (reduce C (EBin o x y)) (ok (EBin o ux uy)) (rel n).
Proof.
  intros n o a b x y ux uy u0 Rx Ry Ck Cn.
  assert (Cg : forall thing, eval C thing (EBin o x y) ~ eval C thing (EBin o ux uy)).
  { intro thing. apply cong_bin; [apply (r_ev _ _ _ Rx)|apply (r_ev _ _ _ Ry)|]. intros sr ng ->. destruct (is_str_lit y) eqn:Sy.
    - right. unfold is_str_lit in Sy. destruct y; try discriminate Sy. destruct v; try discriminate Sy. eexists. split; [apply eqv_ret|].
      unfold check_bin in Ck. destruct (_ && _) in Ck; [|discriminate Ck]. destruct u0. exact Ck.
    - left. destruct (is_str_lit uy) eqn:Su; [|reflexivity]. rewrite <- (r_str _ _ _ Ry Su) in Su. congruence. }
  assert (Pn : path n = false) by (unfold callee in Cn; destruct (path n); [discriminate Cn|reflexivity]).
  cbn [reduce]. destruct (is_reduced x && is_reduced y) eqn:Q.
  - apply andb_true_iff in Q as [Qx Qy]. destruct (child_const _ _ _ Rx Qx) as [ra [A1 A2]]. destruct (child_const _ _ _ Ry Qy) as [rb [B1 B2]].
    destruct (step_bin o x y ra rb A1 A2 B1 B2) as [r [H1 H2]]. eapply tri_fold; eauto.
  - apply tri_ok. apply rel_open; try assumption; try reflexivity; try congruence. cbn [reduce]. rewrite Q. reflexivity.
Qed.
Lemma fold_in : forall n a b x y ux uy, rel a x ux -> rel b y uy -> callee n = false -> tri (reduce C (EIn x y)) (ok (EIn ux uy)) (rel n).
Proof.
  intros n a b x y ux uy Rx Ry Cn.
  assert (Cg : forall thing, eval C thing (EIn x y) ~ eval C thing (EIn ux uy)) by (intro thing; apply cong_in; [apply (r_ev _ _ _ Rx)|apply (r_ev _ _ _ Ry)]).
  assert (Pn : path n = false) by (unfold callee in Cn; destruct (path n); [discriminate Cn|reflexivity]).
  cbn [reduce]. destruct (is_reduced x && is_reduced y) eqn:Q.
  - apply andb_true_iff in Q as [Qx Qy]. destruct (child_const _ _ _ Rx Qx) as [ra [A1 A2]]. destruct (child_const _ _ _ Ry Qy) as [rb [B1 B2]].
    destruct (step_in x y ra rb A1 B1) as [r [H1 H2]]. eapply tri_val; eauto. intros v Hv. destruct (H2 v Hv) as [b0 ->]. exact I.
  - apply tri_ok. apply rel_open; try assumption; try reflexivity; try congruence. cbn [reduce]. rewrite Q. reflexivity.
Qed.
Lemma fold_item : forall n a b x y ux uy safe, rel a x ux -> rel b y uy -> (safe = true -> is_map_t (rtype x) = false) -> callee n = false -> tri (reduce C (EItem x y safe)) (ok (EItem ux uy safe)) (rel n).
Proof.
  intros n a b x y ux uy safe Rx Ry Sf Cn.
  assert (Cg : forall thing, eval C thing (EItem x y safe) ~ eval C thing (EItem ux uy safe)) by (intro thing; apply cong_item; [apply (r_ev _ _ _ Rx)|apply (r_ev _ _ _ Ry)]).
  assert (Pn : path n = false) by (unfold callee in Cn; destruct (path n); [discriminate Cn|reflexivity]).
  assert (N : match rtype x with TMap k _ _ => safe && negb (is_compat (rtype y) k) | _ => false end = false).
  { destruct safe; [specialize (Sf eq_refl); destruct (rtype x); try reflexivity; discriminate Sf|destruct (rtype x); reflexivity]. }
  cbn [reduce]. rewrite N. destruct (is_reduced x && is_reduced y) eqn:Q.
  - apply andb_true_iff in Q as [Qx Qy]. destruct (child_const _ _ _ Rx Qx) as [ra [A1 A2]]. destruct (child_const _ _ _ Ry Qy) as [rb [B1 B2]].
    destruct (step_item x y safe ra rb A1 A2 B1) as [r [H1 H2]]. eapply tri_fold; eauto.
  - apply tri_ok. apply rel_open; try assumption; try reflexivity; try congruence. cbn [reduce]. rewrite N, Q. reflexivity.
Qed.
Definition sub (e u : expr) : Prop := (forall thing, eval C thing e ~ eval C thing u) /\ clit e.
Lemma rel_sub : forall n e u, rel n e u -> sub e u.
Proof. intros n e u R. split; [apply (r_ev _ _ _ R)|apply (r_lit _ _ _ R)]. Qed.
Lemma sub_const : forall e u, sub e u -> is_reduced e = true -> exists r, const e r /\ good_result r.
Proof. intros e u [_ R] H. apply red_const. apply R. exact H. Qed.
Lemma fold_slice : forall n z a b uz ua ub safe, sub z uz -> sub a ua -> sub b ub -> callee n = false -> tri (reduce C (ESlice z a b safe)) (ok (ESlice uz ua ub safe)) (rel n).
Proof.
  intros n z a b uz ua ub safe Rz Ra Rb Cn.
  assert (Cg : forall thing, eval C thing (ESlice z a b safe) ~ eval C thing (ESlice uz ua ub safe)) by (intro thing; apply cong_slice; [apply Rz|apply Ra|apply Rb]).
  assert (Pn : path n = false) by (unfold callee in Cn; destruct (path n); [discriminate Cn|reflexivity]).
  cbn [reduce]. destruct (is_reduced z && is_reduced a && is_reduced b) eqn:Q.
  - apply andb_true_iff in Q as [Q Qb]. apply andb_true_iff in Q as [Qz Qa]. destruct (sub_const _ _ Rz Qz) as [rz [Z1 Z2]]. destruct (sub_const _ _ Ra Qa) as [ra [A1 A2]]. destruct (sub_const _ _ Rb Qb) as [rb [B1 B2]].
    destruct (step_slice z a b safe rz ra rb Z1 Z2 A1 B1) as [r [H1 H2]]. eapply tri_fold; eauto.
  - apply tri_ok. apply rel_open; try assumption; try reflexivity; try congruence. cbn [reduce]. rewrite Q. reflexivity.
Qed.
Lemma fold_un : forall n o a x ux, rel a x ux -> callee n = false -> tri (reduce C (EUn o x)) (ok (EUn o ux)) (rel n).
Proof.
  intros n o a x ux Rx Cn.
  assert (Cg : forall thing, eval C thing (EUn o x) ~ eval C thing (EUn o ux)) by (intro thing; apply cong_un; apply (r_ev _ _ _ Rx)).
  assert (Pn : path n = false) by (unfold callee in Cn; destruct (path n); [discriminate Cn|reflexivity]).
  assert (Op : is_reduced x = false -> tri (ok (EUn o x)) (ok (EUn o ux)) (rel n)).
  { intro Q. apply tri_ok. apply rel_open; try assumption; try reflexivity; try congruence. destruct o; cbn [reduce]; rewrite Q; reflexivity. }
  destruct o; cbn [reduce]; (destruct (is_reduced x) eqn:Q; [|exact (Op eq_refl)]); destruct (child_const _ _ _ Rx Q) as [ra [A1 A2]].
  - destruct (step_not x ra A1) as [r [H1 H2]]. eapply tri_val; eauto. intros v Hv. destruct (H2 v Hv) as [b0 ->]. exact I.
  - destruct (step_neg x ra A1) as [r [H1 H2]]. destruct x; try apply tri_raise. destruct v; try apply tri_raise; eapply tri_val; eauto.
Qed.
Lemma fold_tern : forall n c a b x y z ux uy uz, rel c x ux -> rel a y uy -> rel b z uz -> cond_ok c = true -> n = DTern c a b -> tri (reduce C (ETern x y z)) (ok (ETern ux uy uz)) (rel n).
Proof.
  intros n c a b x y z ux uy uz Rx Ry Rz Ck ->.
  cbn [reduce]. destruct (is_reduced x) eqn:Q.
  - destruct (r_solid _ _ _ Rx Ck Q) as [v [Sv Tv]].
    assert (Br : forall k t ut, rel k t ut -> (if truthy v then uy else uz) = ut -> (cond_ok (DTern c a b) = true -> cond_ok k = true) -> rel (DTern c a b) t (ETern ux uy uz)).
    { intros k t ut R E Hk. constructor; try (intro K; discriminate K).
      - intro thing. eapply eqv_trans; [apply (r_ev _ _ _ R)|]. apply eqv_sym. cbn [eval]. eapply ev_ok; [eapply eqv_trans; [apply eqv_sym; apply (r_ev _ _ _ Rx)|apply Sv]|]. destruct (truthy v); subst ut; (eapply eqv_trans; [apply eqv_sym; apply (r_ev _ _ _ R)|apply (r_ev _ _ _ R)]).
      - apply (r_lit _ _ _ R).
      - intro K. apply (r_solid _ _ _ R). auto.
      - apply (r_fix _ _ _ R). }
    rewrite <- Tv. destruct (truthy v) eqn:T.
    + rewrite (r_fix _ _ _ Ry). apply tri_ok. eapply Br; [exact Ry|reflexivity|]. cbn. intro K. apply andb_true_iff in K. apply K.
    + rewrite (r_fix _ _ _ Rz). apply tri_ok. eapply Br; [exact Rz|reflexivity|]. cbn. intro K. apply andb_true_iff in K. apply K.
  - apply tri_ok. apply rel_open; try reflexivity; try discriminate; [|cbn [reduce]; rewrite Q; reflexivity]. intro thing. apply cong_tern; [apply (r_ev _ _ _ Rx)|apply (r_ev _ _ _ Ry)|apply (r_ev _ _ _ Rz)].
Qed.
Lemma fold_call : forall n f l x es ux us u0, rel f x ux -> callee f = true -> Forall2 sub es us ->
  (if is_undef (rtype x) then Ok tt else validate (rtype x) (map (fun e => Ok (rtype e)) es)) = Ok u0 -> n = DCall f l -> tri (reduce C (ECall x es)) (ok (ECall ux us)) (rel n).
Proof.
  intros n f l x es ux us u0 Rx Cf Rs Ck ->.
  assert (Ty : rtype x = rtype ux). { destruct (r_call _ _ _ Rx Cf) as [E|[E1 E2]]; [exact E|]. rewrite E1 in Ck. destruct (E2 (map (fun e => Ok (rtype e)) es)) as [e0 K]. congruence. }
  assert (Cg : forall thing, eval C thing (ECall x es) ~ eval C thing (ECall ux us)).
  { intro thing. apply cong_call; [apply (r_ev _ _ _ Rx)| |exact Ty]. clear - Rs. induction Rs as [|e u es us [H _] Rs IH]; constructor; auto. }
  cbn [reduce]. destruct (is_reduced x && forallb is_reduced es) eqn:Q.
  - apply andb_true_iff in Q as [Qx Qs]. destruct (child_const _ _ _ Rx Qx) as [ra [A1 A2]]. rewrite forallb_forall in Qs.
    destruct (const_list es) as [rs [F G]]. { intros e He. destruct (Forall2_In_l _ _ _ _ _ _ Rs He) as [u [_ Hu]]. apply (sub_const _ _ Hu). auto. }
    destruct (step_call x es ra rs A1 A2 F) as [r [H1 H2]]. eapply tri_fold; eauto.
  - apply tri_ok. apply rel_open; try assumption; try reflexivity; try discriminate. cbn [reduce]. rewrite Q. reflexivity.
Qed.

Lemma find_scope_in : forall l n a, find_scope l n = Some a -> In a l.
Proof. induction l as [|b l IH]; intros n a H; [discriminate H|]. cbn in H. destruct (str_eqb n (a_name b)); [injection H as <-; left; reflexivity|right; eauto]. Qed.
(** an attribute that is not one of the engine's own asks the resolver: impossible without callbacks *)
Lemma attr_resolver : forall o n safe v, const o (Ok v) -> (exists nm sg, resolve_attr v n = Err (XAttrRes nm sg)) -> is_null v && safe = false ->
  forall w q e q', run w (fold C (EAttr o n safe)) q = (Ok e, q') -> okst q -> s_log q' = s_log q -> False.
Proof.
  intros o n safe v Ho [nm [sg Ra]] Nu w q e q' E [O1 O2] L. unfold fold in E. apply run_pbind_ok in E as [v' [q1 [E1 E2]]]. apply run_ret_ok in E2 as [E2 ->]. cbn [eval] in E1. apply run_pbind_ok in E1 as [v0 [q2 [E0 E1]]].
  destruct (eqv_val D _ _ _ _ _ _ _ (Ho VNull) O1 E0) as [Ev S]. injection Ev as ->. rewrite Nu, Ra in E1. rewrite run_pthen in E1. unfold resolve in E1. rewrite run_pbind, run_act in E1. cbn [step_op] in E1.
  destruct S as [S1 [S2 S3]]. destruct (find_scope (s_scopes q2) n) as [a|] eqn:Fs.
  - apply find_scope_in in Fs. rewrite <- S1 in Fs. apply O2 in Fs. cbn [run ok] in E1. rewrite Fs in E1. unfold nval in E1. cbn in E1. injection E1 as <- _. discriminate E2.
  - assert (K : s_log q1 <> s_log q); [|exact (K L)]. cbn [actr run step_op] in E1. remember (w_resolve w (s_log q2) v n) as r eqn:Er. clear Er.
    assert (Z : forall (p : prog value), (exists x, p = Ret x) -> forall q3 q4 y, run w p q3 = (y, q4) -> q4 = q3) by (intros p [x ->] q3 q4 y Hy; cbn in Hy; congruence).
    apply Z in E1; [|destruct r as [x|x]; [unfold nval; eauto|]; destruct x; unfold raise, nval; eauto; destruct (c_default C); eauto].
    subst q1. cbn. rewrite <- S3. intro K. apply (f_equal (@length event)) in K. cbn in K. lia.
Qed.
Lemma attr_lit_type : forall v nm sf m y x, latom v -> resolve_attr v nm = Ok x -> x = VMeth m y -> exists f, attr_rtype (lit_type v) nm sf = f /\ is_fun_t f = true.
Proof.
  intros v nm sf m y x Hv H ->. apply resolve_attr_cases in H as [t [a [x [vt [et [E [E1 [E2 [E3 _]]]]]]]]].
  eexists. split; [reflexivity|]. unfold attr_rtype, lit_type. rewrite E.
  assert (Nu : is_undef t = false) by (destruct v; try contradiction; injection E as <-; reflexivity). rewrite Nu. cbn [orb].
  assert (Nn : dt_eqb t TNull = false). { destruct v; try contradiction; injection E as <-; try reflexivity. discriminate E1. } rewrite Nn. cbn [andb]. unfold resolve_attr_type. rewrite E1. cbn [rbind ok_or].
  apply coerce_cases in E3.
  destruct a; cbn [attr_fun] in E2; try reflexivity; exfalso; try (apply rmap_ok in E2 as [k [_ ->]]; cbn in E3; try discriminate E3; destruct E3 as [k' [_ E3]]; discriminate E3);
   try (apply rbind_ok in E2 as [k [Ek E2]]; unfold py_set in E2; destruct (forallb hashable k); [|discriminate E2]; injection E2 as <-; cbn in E3; intuition discriminate);
   destruct v; try contradiction; try discriminate E2; try (injection E2 as <-; cbn in E3; try discriminate E3; fail).
  - destruct tz; injection E2 as <-; discriminate E3.
  - injection E2 as <-. destruct (o_tzname tz w); discriminate E3.
  - injection E2 as <-. destruct d; discriminate E3.
  - injection E2 as <-. destruct d; discriminate E3.
  - apply rbind_ok in E2 as [b [_ E2]]. destruct b; [|discriminate E2]. injection E2 as <-. discriminate E3.
  - apply string_to_flt_num in E2. destruct x; try contradiction; discriminate E3.
  - apply rbind_ok in E2 as [r [Er E2]]. apply string_to_flt_num in Er. apply rbind_ok in E2 as [b [_ E2]]. destruct b; [|discriminate E2]. injection E2 as <-. destruct r; try contradiction; discriminate E3.
Qed.
Lemma lit_of_not_fun : forall v a ty, lit_of v <> Ok (EFun a ty).
Proof. intros v a ty H. destruct v; cbn [lit_of] in H; apply rbind_ok in H as [t0 [_ H]]; try (apply rmap_ok in H as [x [_ H]]; discriminate H); discriminate H. Qed.
Lemma fun_type_meth : forall v, latom v -> is_fun_t (lit_type v) = true -> exists m y, v = VMeth m y.
Proof. intros v H K. destruct v; try contradiction; try discriminate K. eauto. Qed.
Lemma not_fun_uncallable : forall e, is_fun_t (rtype e) = false -> is_undef (rtype e) = false -> uncallable e.
Proof. intros e H K. split; [exact K|]. intro ts. destruct (rtype e); try discriminate H; exists XEval; reflexivity. Qed.
Lemma red_not_undef : forall e, red e -> (forall v ty, e <> EFun v ty) -> is_undef (rtype e) = false.
Proof. intros e H K. destruct H as [v H|m x ty|l H|l H|l H]; try reflexivity; [destruct v; try contradiction; reflexivity|]. exfalso. eapply K. reflexivity. Qed.

Lemma fold_attr : forall n o nm safe x ux, rel o x ux -> nm <> n_to_set -> n = DAttr o nm safe ->
  match o with DLit v => x = ELit v /\ ux = ELit v /\ latom v | _ => True end -> (path o = true -> is_reduced x = false) ->
  tri (reduce C (EAttr x nm safe)) (ok (EAttr ux nm safe)) (rel n).
Proof.
  intros n o nm safe x ux Rx Nm -> Hl Hp.
  assert (Cg : forall thing, eval C thing (EAttr x nm safe) ~ eval C thing (EAttr ux nm safe)) by (intro thing; apply cong_attr; apply (r_ev _ _ _ Rx)).
  assert (Sm : callee (DAttr o nm safe) = true -> x = ux).
  { unfold callee. intro K. apply orb_true_iff in K as [K|K]; [apply (r_path _ _ _ Rx); exact K|]. destruct o; try discriminate K. destruct Hl as [-> [-> _]]. reflexivity. }
  cbn [reduce]. destruct (is_reduced x) eqn:Q.
  2:{ apply tri_ok. apply rel_open; try assumption; try reflexivity.
      - cbn [reduce]. rewrite Q. reflexivity.
      - cbn [path]. intro K. rewrite (r_path _ _ _ Rx K). reflexivity.
      - intro K. rewrite (Sm K). reflexivity. }
  assert (Pn : path (DAttr o nm safe) = false). { cbn [path]. destruct (path o) eqn:P; [|reflexivity]. specialize (Hp eq_refl). congruence. }
  destruct (child_const _ _ _ Rx Q) as [ro [Ho Go]].
  assert (Gro : grow (fold C (EAttr x nm safe))).
  { unfold fold. apply grow_bind; [|intro; apply grow_ret]. intros w q. destruct (eval_log C VNull (EAttr x nm safe) w q) as [l [E _]]. eauto. }
  destruct ro as [v|er].
  2:{ eapply tri_bind with (pp := ok (EAttr ux nm safe)) (g := fun u => ok u); [eapply tri_fold0; [apply step_attr_err; exact Ho|apply good_err]|exact Gro|intro; apply grow_ret|].
      intros e u [_ [v [Hc _]]]. assert (K := const_fun _ _ _ Hc (step_attr_err x nm safe er Ho)). discriminate K. }
  assert (Cv := Go v eq_refl).
  assert (Dec : (exists nm' sg, resolve_attr v nm = Err (XAttrRes nm' sg) /\ is_null v && safe = false) \/ (forall nm' sg, resolve_attr v nm = Err (XAttrRes nm' sg) -> is_null v && safe <> false)).
  { destruct (is_null v && safe); [right; discriminate|]. destruct (resolve_attr v nm) as [r0|x0]; [right; discriminate|]. destruct x0; try (right; discriminate). left. eauto. }
  assert (St := step_attr x nm safe v Ho Cv Nm). destruct Dec as [[nm' [sg [Ra Nu]]]|Cs].
  { intros w q a q' E O L qp S. exfalso. destruct (tri_split _ _ _ _ _ _ _ _ Gro (fun l => grow_ret _ _) E L) as [l [q1 [E1 [L1 _]]]]. eapply attr_resolver; eauto. }
  destruct St as [[nm' [sg [Ra Nu]]]|[r [Hr Gr]]]; [exfalso; exact (Cs _ _ Ra Nu)|].
  eapply tri_bind with (pp := ok (EAttr ux nm safe)) (g := fun u => ok u); [eapply tri_fold0; [exact Hr|exact Gr]|exact Gro|intro; apply grow_ret|].
  intros l u [-> [v' [Hc [Cv' L]]]]. apply tri_ok. destruct (canon_round v' l Cv' L) as [Sl [Rl _]].
  assert (Fn : forall w0 ty, l = ELit w0 -> v' = w0 /\ latom w0 /\ rtype (EFun w0 ty) = ty).
  { intros w0 ty ->. split; [|split; [inversion Rl; assumption|reflexivity]]. assert (K := const_fun (ELit w0) _ _ (proj1 Sl) (fun thing => eqv_ret D value (Ok w0))). injection K as ->. reflexivity. }
  destruct (match l with ELit v0 => dt_eqb (rtype l) t_function && is_compat (rtype (EAttr x nm safe)) t_function | _ => false end) eqn:B.
  - destruct l as [w0| | | | | | | | | | | | | |]; try discriminate B. destruct (Fn w0 (rtype (EAttr x nm safe)) eq_refl) as [-> [Lw _]]. rewrite B. apply andb_true_iff in B as [B1 B2].
    destruct (fun_type_meth w0 Lw) as [m [y ->]]; [cbn [rtype] in B1; destruct (lit_type w0); try discriminate B1; reflexivity|].
    eapply rel_folded; [exact Cg|exact Hc|split; [intro; apply eqv_ret|reflexivity]|apply Re_fun|reflexivity|exact Pn|].
    intro K. left. rewrite <- (Sm K). reflexivity.
  - assert (El : (match l with ELit v0 => if dt_eqb (rtype l) t_function && is_compat (rtype (EAttr x nm safe)) t_function then EFun v0 (rtype (EAttr x nm safe)) else l | _ => l end) = l) by (destruct l; try reflexivity; rewrite B; reflexivity).
    rewrite El. eapply rel_folded; [exact Cg|exact Hc|exact Sl|exact Rl|reflexivity|exact Pn|].
    intro K. right. unfold callee in K. rewrite Pn in K. cbn [orb] in K. destruct o; try discriminate K. destruct Hl as [-> [-> Lv]].
    assert (v0 = v). { assert (K2 := const_fun (ELit v0) _ _ Ho (fun thing => eqv_ret D value (Ok v0))). congruence. } subst v0.
    apply not_fun_uncallable.
    + destruct (is_fun_t (rtype l)) eqn:Fl; [|reflexivity]. exfalso. destruct Rl as [w0 Lw|m y ty|ls Hls|ls Hls|ls Hls]; try discriminate Fl.
      * destruct (Fn w0 TUndef eq_refl) as [-> _]. destruct (fun_type_meth w0 Lw Fl) as [m [y ->]].
        assert (Rm : resolve_attr v nm = Ok (VMeth m y)).
        { destruct (is_null v && safe) eqn:Nu.
          - assert (K2 : const (EAttr (ELit v) nm safe) (Ok VNull)) by (intro thing; cbn [eval]; eapply ev_ok; [apply eqv_ret|]; rewrite Nu; apply eqv_ret). assert (K3 := const_fun _ _ _ Hc K2). discriminate K3.
          - destruct (resolve_attr v nm) as [r0|x0] eqn:Ra.
            + assert (K2 : const (EAttr (ELit v) nm safe) (new_value (c_tz C) false r0)) by (intro thing; cbn [eval]; eapply ev_ok; [apply eqv_ret|]; rewrite Nu, Ra; apply eqv_ret). assert (K3 := const_fun _ _ _ Hc K2).
              unfold new_value in K3. symmetry in K3. apply rmap_ok in K3 as [y0 [K3 K4]]. apply canonical_coerce in K3; [|exact (resolve_attr_canonical v nm r0 Cv Nm Ra)]. subst y0. destruct r0; cbn in K4; try discriminate K4; try (destruct tz; discriminate K4). rewrite K4. reflexivity.
            + exfalso. assert (K2 : const (EAttr (ELit v) nm safe) (Err x0)).
              { intro thing. cbn [eval]. eapply ev_ok; [apply eqv_ret|]. rewrite Nu, Ra. destruct x0; try apply eqv_ret. exfalso. apply (Cs name sug eq_refl). reflexivity. }
              assert (K3 := const_fun _ _ _ Hc K2). discriminate K3. }
        destruct (attr_lit_type v nm safe m y _ Lv Rm eq_refl) as [ft [F1 F2]]. cbn [rtype] in B. rewrite F1 in B. destruct ft; try discriminate F2. unfold t_function in B. rewrite is_compat_fun, is_compat_undef_r in B. destruct args, minargs; discriminate B.
      * exact (lit_of_not_fun _ _ _ L).
    + apply red_not_undef; [exact Rl|]. intros w0 ty ->. exact (lit_of_not_fun _ _ _ L).
Qed.

(** what the induction proves: related, and names and paths stay open *)
Definition rel' (n : dnode) (e u : expr) : Prop := rel n e u /\ (path n = true -> is_reduced e = false).
Lemma tri_rel' : forall n p pp, path n = false -> tri p pp (rel n) -> tri p pp (rel' n).
Proof. intros n p pp H T. eapply tri_impl; [|exact T]. intros a u R. split; [exact R|congruence]. Qed.

Lemma fold_display : forall l es us, Forall2 (fun e u => exists a, In a l /\ rel' a e u) es us ->
  (forall thing, Forall2 (fun e u => eval C thing e ~ eval C thing u) es us) /\ (forall e, In e es -> clit e) /\ Forall2 sub es us.
Proof.
  intros l es us F. split; [|split].
  - intro thing. induction F as [|e u es us [a [_ [R _]]] F IH]; constructor; [apply (r_ev _ _ _ R)|exact IH].
  - intros e He. destruct (Forall2_In_l _ _ _ _ _ _ F He) as [u [_ [a [_ [R _]]]]]. apply (r_lit _ _ _ R).
  - induction F as [|e u es us [a [_ [R _]]] F IH]; constructor; [eapply rel_sub; exact R|exact IH].
Qed.

Theorem build_folds : forall n, foldable C n -> tri (build C n) (plain C n) (rel' n).
Proof.
  induction n as [v|t|t|t|l IH|l IH|l IH|o a b IHa IHb|r v i c IHr IHi IHc|c m IHc IHm|o nm sf IHo|c i sf IHc IHi|c a b sf IHc IHa IHb|nm b|f l IHf IH|c a b IHc IHa IHb|o e IHe] using dnode_ind'; intro F; cbn [build plain].
  - apply tri_ok. split; [|discriminate]. apply rel_atom; [|reflexivity]. assert (W := fo_lit C _ F v (Dp_self _)). destruct v; try contradiction; exact I.
  - apply tri_ret. intros e E. exists e. split; [exact E|]. split; [|discriminate]. apply rmap_ok in E as [d [_ ->]]. apply rel_atom; [exact I|reflexivity].
  - apply tri_ret. intros e E. exists e. split; [exact E|]. split; [|discriminate]. apply rmap_ok in E as [d [E ->]]. apply rel_atom; [|reflexivity]. unfold parse_datetime in E. destruct (o_isoparse t) as [[w [z|]]|]; inversion E; exact I.
  - apply tri_ret. intros e E. exists e. split; [exact E|]. split; [|discriminate]. apply rmap_ok in E as [d [E ->]]. apply rel_atom; [|reflexivity]. apply parse_timedelta_td in E as [us ->]. exact I.
  - rewrite Forall_forall in IH. eapply tri_bind; [apply tri_pmapM with (R := rel'); [apply grow_build|]; intros a Ha; apply IH; [exact Ha|eapply foldable_sub; [eapply Dp_arr; [exact Ha|constructor]|exact F]]|growt|growt|].
    intros es us Fs. apply tri_ok. split; [|discriminate]. destruct (fold_display _ _ _ Fs) as [A1 [A2 A3]]. constructor; try (intro K; discriminate K); try reflexivity.
    + intro thing. apply cong_arr. apply A1.
    + intro K. cbn in K. rewrite forallb_forall in K. apply Re_arr. intros e He. apply A2; auto.
    + intros K Q. cbn [cond_ok] in K. cbn [is_reduced] in Q. rewrite forallb_forall in K, Q.
      assert (Sv : exists vs, Forall2 (fun e v => const e (Ok v)) es vs).
      { clear - Fs K Q. induction Fs as [|e u es us [a [Ha [R _]]] Fs IH]; [exists []; constructor|]. destruct IH as [vs Hvs]; [intros; apply Q; right; assumption|]. destruct (r_solid _ _ _ R (K a Ha) (Q e (or_introl eq_refl))) as [v [Hv _]]. exists (v :: vs). constructor; assumption. }
      destruct Sv as [vs Hvs]. exists (VArr vs). split; [apply const_arr; exact Hvs|]. cbn. symmetry. eapply Forall2_nonempty. exact Hvs.
  - rewrite Forall_forall in IH. eapply tri_bind; [apply tri_pmapM with (R := rel'); [apply grow_build|]; intros a Ha; apply IH; [exact Ha|eapply foldable_sub; [eapply Dp_set; [exact Ha|constructor]|exact F]]|growt|growt|].
    intros es us Fs. apply tri_ok. split; [|discriminate]. destruct (fold_display _ _ _ Fs) as [A1 [A2 A3]]. constructor; try (intro K; discriminate K); try reflexivity.
    + intro thing. apply cong_set. apply A1.
    + intro K. cbn in K. rewrite forallb_forall in K. apply Re_set. intros e He. apply A2; auto.
  - rewrite Forall_forall in IH. eapply tri_bind; [apply tri_pmapM with (R := fun (kv : dnode * dnode) (e u : expr * expr) => sub (fst e) (fst u) /\ sub (snd e) (snd u)); [intro; growt|]|growt|growt|].
    + intros [k x] Hk. destruct (IH _ Hk) as [I1 I2]. cbn [fst snd] in *.
      eapply tri_bind; [apply I1; eapply foldable_sub; [eapply Dp_key; [exact Hk|constructor]|exact F]|growt|growt|]. intros e1 u1 [R1 _].
      eapply tri_bind; [apply I2; eapply foldable_sub; [eapply Dp_val; [exact Hk|constructor]|exact F]|growt|growt|]. intros e2 u2 [R2 _]. apply tri_ok. split; eapply rel_sub; eassumption.
    + intros es us Fs. apply tri_check. intros u0 _. apply tri_ok. split; [|discriminate]. constructor; try (intro K; discriminate K); try reflexivity.
      * intro thing. apply cong_map. clear - Fs. induction Fs as [|e u es us [a [_ [[R1 _] [R2 _]]]] Fs IH]; constructor; auto.
      * intro K. cbn in K. rewrite forallb_forall in K. apply Re_map. intros k e He. specialize (K _ He). cbn in K. apply andb_true_iff in K as [K1 K2]. destruct (Forall2_In_l _ _ _ _ _ _ Fs He) as [u [_ [a [_ [[_ R1] [_ R2]]]]]]. split; [apply R1; exact K1|apply R2; exact K2].
  - eapply tri_bind; [apply IHa; eapply foldable_sub; [apply Dp_l; constructor|exact F]|growt|growt|]. intros x ux [Rx _].
    eapply tri_bind; [apply IHb; eapply foldable_sub; [apply Dp_r; constructor|exact F]|growt|growt|]. intros y uy [Ry _]. apply tri_check. intros u0 Ck. apply tri_rel'; [reflexivity|]. eapply fold_bin; eauto.
  - eapply tri_dup; [apply IHi; eapply foldable_sub; [apply Dp_ci; constructor|exact F]|growt|growt|]. intros i0 ui [Ri _]. destruct (negb (is_undef (rtype i0)) && negb (is_iterable (rtype i0))); [apply tri_raise|].
    eapply tri_bind with (R := fun cr ucr => (forall thing, eval C thing (snd cr) ~ eval C thing (snd ucr)) /\ match fst cr, fst ucr with Some c, Some c' => forall thing, eval C thing c ~ eval C thing c' | None, None => True | _, _ => False end).
    + apply tri_scope; [reflexivity|]. eapply tri_bind with (R := fun c c' => match c, c' with Some c, Some c' => forall thing, eval C thing c ~ eval C thing c' | None, None => True | _, _ => False end); [|growt|growt|].
      * destruct c as [c|]; [|apply tri_ok; exact I]. eapply tri_bind; [apply IHc; eapply foldable_sub; [apply Dp_cc; constructor|exact F]|growt|growt|]. intros e u [R _]. apply tri_ok. apply (r_ev _ _ _ R).
      * intros oc ou Hc. eapply tri_bind; [apply IHr; eapply foldable_sub; [apply Dp_cr; constructor|exact F]|growt|growt|]. intros e u [R _]. apply tri_ok. split; [apply (r_ev _ _ _ R)|exact Hc].
    + growt.
    + growt.
    + intros [oc e] [ou u] [R1 R2]. cbn [fst snd] in *. apply tri_ok. split; [|discriminate]. apply rel_open; try reflexivity; try discriminate. intro thing. apply cong_comp; [apply R1|apply (r_ev _ _ _ Ri)|]. destruct oc, ou; try contradiction; auto.
  - eapply tri_bind; [apply IHc; eapply foldable_sub; [apply Dp_inc; constructor|exact F]|growt|growt|]. intros x ux [Rx _].
    eapply tri_bind; [apply IHm; eapply foldable_sub; [apply Dp_inm; constructor|exact F]|growt|growt|]. intros y uy [Ry _]. apply tri_check. intros u0 Ck. apply tri_rel'; [reflexivity|]. eapply fold_in; eauto.
  - assert (Nm : nm <> n_to_set) by (intros ->; apply (fo_to_set C _ F o sf); constructor).
    assert (K : forall x ux, rel' o x ux -> match o with DLit v => x = ELit v /\ ux = ELit v /\ latom v | _ => True end -> tri (do! _ := Ret (check_attr (rtype x) nm sf) in reduce C (EAttr x nm sf)) (ok (EAttr ux nm sf)) (rel' (DAttr o nm sf))).
    { intros x ux [Rx Px] Hl. apply tri_check. intros u0 _. destruct (path o) eqn:Po.
      - cbn [reduce]. rewrite (Px eq_refl). apply tri_ok. rewrite <- (r_path _ _ _ Rx Po). split; [|reflexivity]. apply rel_open; try reflexivity; [intro thing; apply cong_attr|].
        + eapply eqv_trans; [apply (r_ev _ _ _ Rx)|apply eqv_sym; apply (r_ev _ _ _ Rx)].
        + cbn [reduce]. rewrite (Px eq_refl). reflexivity.
      - apply tri_rel'; [exact Po|]. eapply fold_attr; eauto. }
    assert (T := IHo (foldable_sub _ _ _ _ (Dp_attr _ _ _ _ (Dp_self o)) F)).
    destruct o as [v| | | | | | | | | | | | | | | |]; try (eapply tri_bind; [exact T|growt|growt|]; intros x ux R; apply K; [exact R|exact I]).
    cbn [build plain pbind pthen ok]. apply K; [|split; [reflexivity|split; [reflexivity|]]].
    + split; [|discriminate]. apply rel_atom; [|reflexivity]. assert (W := fo_lit C _ F v (Dp_attr _ _ _ _ (Dp_self _))). destruct v; try contradiction; exact I.
    + assert (W := fo_lit C _ F v (Dp_attr _ _ _ _ (Dp_self _))). destruct v; try contradiction; exact I.
  - eapply tri_bind; [apply tri_from; apply IHc; eapply foldable_sub; [apply Dp_itc; constructor|exact F]|growt|growt|]. intros x ux [[Rx _] [w [q [q' Rn]]]].
    eapply tri_bind; [apply IHi; eapply foldable_sub; [apply Dp_iti; constructor|exact F]|growt|growt|]. intros y uy [Ry _]. apply tri_check. intros u0 Ck. apply tri_rel'; [reflexivity|]. eapply fold_item; eauto.
    intros ->. eapply (fo_item C _ F c i (Dp_self _)). exact Rn.
  - assert (Os : forall o d, latom d -> opt_D (fun n => foldable C n -> tri (build C n) (plain C n) (rel' n)) o -> opt_D (foldable C) o ->
      tri (match o with Some n => do! e := build C n in ok (Some e) | None => ok None end) (match o with Some n => do! e := plain C n in ok (Some e) | None => ok None end) (fun e u => sub (mk_lit_slice e d) (mk_lit_slice u d))).
    { intros [n|] d Hd H1 H2; cbn in *.
      - eapply tri_bind; [apply H1; exact H2|growt|growt|]. intros e u [R _]. apply tri_ok. cbn. eapply rel_sub. exact R.
      - apply tri_ok. cbn. eapply (rel_sub (DLit d)). apply rel_atom; [exact Hd|reflexivity]. }
    eapply tri_bind; [apply (Os a (VDec (dec_of_Z 0)) I IHa); destruct a; [|exact I]; cbn; eapply foldable_sub; [apply Dp_sla; constructor|exact F]|growt|growt|]. intros x ux Rx.
    eapply tri_bind; [apply (Os b VNull I IHb); destruct b; [|exact I]; cbn; eapply foldable_sub; [apply Dp_slb; constructor|exact F]|growt|growt|]. intros y uy Ry.
    eapply tri_bind; [apply IHc; eapply foldable_sub; [apply Dp_slc; constructor|exact F]|growt|growt|]. intros z uz [Rz _]. apply tri_check. intros u0 _. apply tri_rel'; [reflexivity|]. apply fold_slice; try assumption; [|reflexivity]. eapply rel_sub. exact Rz.
  - assert (Rt : resolve_type C nm b ~ resolve_type C nm b).
    { unfold resolve_type. destruct b; [apply eqv_ret|]. apply eqv_bind; [apply eqv_act; discriminate|]. intro l0. destruct (find_scope l0 nm) as [a|]; [destruct (a_type a)|]; apply eqv_ret. }
    apply tri_impl with (R := fun e u => e = u /\ exists t, e = ESym nm b t).
    { intros e u [-> [t ->]]. split; [|reflexivity]. apply rel_open; try reflexivity. intro thing. apply cong_sym. intros ->. apply (fo_groups C _ F). constructor. }
    intros w q e q' E O L qp S. assert (T := tri_same _ (do! _ := act (OSym nm) in do! t := resolve_type C nm b in ok (ESym nm b t))).
    destruct (T) with (w := w) (q := q) (a := e) (q' := q') (qp := qp) as [T1 [u [qc [T2 [T3 <-]]]]]; try assumption.
    + apply eqv_bind; [exact (eqv_act D (OSym nm) ltac:(discriminate) ltac:(discriminate) ltac:(discriminate))|]. intros []. apply eqv_bind; [exact Rt|]. intro. apply eqv_ret.
    + intros w0 q0. rewrite run_pbind, run_act. cbn [step_op]. rewrite run_pbind. unfold resolve_type. destruct b; [cbn; repeat split|]. rewrite run_pbind, run_act. cbn [step_op].
      destruct (find_scope _ nm) as [a|]; [destruct (a_type a)|destruct (c_types C nm)]; cbn; repeat split.
    + split; [exact T1|]. exists e, qc. split; [exact T2|]. split; [exact T3|]. split; [reflexivity|]. apply run_pbind_ok in E as [x [q1 [_ E]]]. apply run_pbind_ok in E as [ty [q2 [_ E]]]. apply run_ret_ok in E as [E _]. injection E as <-. eauto.
  - rewrite Forall_forall in IH. eapply tri_bind; [apply IHf; eapply foldable_sub; [apply Dp_callf; constructor|exact F]|growt|growt|]. intros x ux [Rx _].
    eapply tri_bind; [apply tri_pmapM with (R := rel'); [apply grow_build|]; intros a Ha; apply IH; [exact Ha|eapply foldable_sub; [eapply Dp_callx; [exact Ha|constructor]|exact F]]|growt|growt|].
    intros es us Fs. destruct (fold_display _ _ _ Fs) as [_ [_ A3]]. apply tri_check. intros u0 Ck. apply tri_rel'; [reflexivity|]. eapply fold_call; eauto. eapply (fo_call C _ F). constructor.
  - eapply tri_bind; [apply IHc; eapply foldable_sub; [apply Dp_tc; constructor|exact F]|growt|growt|]. intros x ux [Rx _].
    eapply tri_bind; [apply IHa; eapply foldable_sub; [apply Dp_ta; constructor|exact F]|growt|growt|]. intros y uy [Ry _].
    eapply tri_bind; [apply IHb; eapply foldable_sub; [apply Dp_tb; constructor|exact F]|growt|growt|]. intros z uz [Rz _]. apply tri_rel'; [reflexivity|]. eapply fold_tern; eauto. eapply (fo_cond C _ F). constructor.
  - eapply tri_bind; [apply IHe; eapply foldable_sub; [apply Dp_un; constructor|exact F]|growt|growt|]. intros x ux [Rx _]. apply tri_rel'; [reflexivity|]. eapply fold_un; eauto.
Qed.
End Const.

(** ** C12 *)

(** Whatever is written as [n] (within [foldable]): if the rule is constructed as [e], in the decimal context of the rule and
    without the resolver or a function being called meanwhile, then evaluating [e] on any thing, with any resolver, functions,
    clock and random numbers, in any state, gives the outcome (value or error) of evaluating the expression as written [u],
    after the same callbacks. *)
Theorem C12_folding_partial : forall (Orc : Oracle) (C : ctx) n w q e q',
  tz_lawful o_tz -> (forall l, o_set_order (o_set_order l) = o_set_order l) -> foldable C n ->
  s_dc q = c_dec C -> s_scopes q = [] -> run w (rule_new C n) q = (Ok e, q') -> s_log q' = s_log q ->
  exists u, fst (run w (plain C n) q) = Ok u /\
    forall w' thing qe, fst (run w' (rule_evaluate C e thing) qe) = fst (run w' (rule_evaluate C u thing) qe) /\
                        s_log (snd (run w' (rule_evaluate C e thing) qe)) = s_log (snd (run w' (rule_evaluate C u thing) qe)).
Proof.
  intros Orc C n w q e q' Lw St F Ed Es E L.
  assert (O : okst C q) by (split; [exact Ed|rewrite Es; intros a []]).
  destruct (build_folds C Lw St n F w q e q' E O L q (sim_refl q)) as [_ [u [qc [Eu [_ [R _]]]]]]. exists u. split; [rewrite Eu; reflexivity|].
  intros w' thing qe. rewrite !run_rule_evaluate.
  destruct (r_ev _ _ _ _ R thing w' _ _ (sim_refl (set_dc (c_dec C) (set_groups VNull (set_scopes [] qe)))) eq_refl) as [A [B _]].
  destruct (run w' (eval C thing e) _) as [r1 q1]. destruct (run w' (eval C thing u) _) as [r2 q2]. cbn in *. destruct B as [_ [_ B]]. auto.
Qed.
(** in particular the rule matches, or raises, on the same things *)
Theorem C12_matching_partial : forall (Orc : Oracle) (C : ctx) n w q e q',
  tz_lawful o_tz -> (forall l, o_set_order (o_set_order l) = o_set_order l) -> foldable C n ->
  s_dc q = c_dec C -> s_scopes q = [] -> run w (rule_new C n) q = (Ok e, q') -> s_log q' = s_log q ->
  exists u, fst (run w (plain C n) q) = Ok u /\ forall w' thing qe, fst (run w' (rule_matches C e thing) qe) = fst (run w' (rule_matches C u thing) qe).
Proof.
  intros Orc C n w q e q' Lw St F Ed Es E L. destruct (C12_folding_partial Orc C n w q e q' Lw St F Ed Es E L) as [u [Hu H]]. exists u. split; [exact Hu|].
  intros w' thing qe. rewrite !run_rule_matches. destruct (H w' thing qe) as [K _]. destruct (run w' (rule_evaluate C e thing) qe) as [r1 q1]. destruct (run w' (rule_evaluate C u thing) qe) as [r2 q2]. cbn in K. subst r2. destruct r1; reflexivity.
Qed.

(** [(1 + 2 == n) ? ["abc"][0].length : "abc".starts_with("a")] *)
Definition fold_demo : dnode :=
  DTern (DBin BEq (DBin BAdd (DFloat (s "1")) (DFloat (s "2"))) (DSym (s "n") false))
        (DAttr (DItem (DArr [DLit (VStr (s "abc"))]) (DFloat (s "0")) false) (s "length") false)
        (DCall (DAttr (DLit (VStr (s "abc"))) (s "starts_with") false) [DLit (VStr (s "a"))]).
Ltac dparts := repeat match goal with H : In _ [] |- _ => destruct H | H : In _ (_ :: _) |- _ => destruct H as [<-|H] | H : dpart _ _ |- _ => inversion H; clear H; subst end.
Example C12_example :
  foldable untyped_ctx fold_demo /\ tz_lawful (@o_tz demo_orc) /\ (forall l, o_set_order (o_set_order l) = o_set_order l) /\
  run demo_world (rule_new untyped_ctx fold_demo) demo_st =
    (Ok (ETern (EBin BEq (ELit (num 3)) (sym "n")) (ELit (num 3)) (ELit (VBool true))), {| s_scopes := []; s_groups := VNull; s_dc := demo_dc; s_syms := [s "n"]; s_log := [] |}) /\
  s_dc demo_st = c_dec untyped_ctx /\ s_scopes demo_st = [] /\
  fst (run demo_world (plain untyped_ctx fold_demo) demo_st) =
    Ok (ETern (EBin BEq (EBin BAdd (ELit (num 1)) (ELit (num 2))) (sym "n")) (EAttr (EItem (EArr [ELit (VStr (s "abc"))]) (ELit (num 0)) false) (s "length") false)
              (ECall (EAttr (ELit (VStr (s "abc"))) (s "starts_with") false) [ELit (VStr (s "a"))])).
Proof.
  split; [|split; [exact P_Items.demo_lawful|split; [reflexivity|split; [vm_compute; reflexivity|split; [reflexivity|split; [reflexivity|vm_compute; reflexivity]]]]]].
  constructor; unfold fold_demo.
  - intros v H. dparts; exact I.
  - intros nm H. dparts.
  - intros o sf H. dparts.
  - intros c i H. dparts.
  - intros f l H. dparts; reflexivity.
  - intros c a b H. dparts; reflexivity.
Qed.

(** *** Where folding does change results

    In each case: the rule is constructed without callbacks as [e], the expression as written is [u], and they differ. *)
Definition outcomes (n : dnode) : option (result value * result value) :=
  match run demo_world (rule_new untyped_ctx n) demo_st, run demo_world (plain untyped_ctx n) demo_st with
  | (Ok e, q), (Ok u, _) =>
      match s_log q with
      | [] => Some (fst (run demo_world (rule_evaluate untyped_ctx e VNull) demo_st), fst (run demo_world (rule_evaluate untyped_ctx u VNull) demo_st))
      | _ => None
      end
  | _, _ => None
  end.
(** {true: "a"}&[1]: number keys are incompatible with boolean keys, so the lookup is folded to null; Python finds the entry *)
Example C12_safe_item_refuted : outcomes (DItem (DMap [(DLit (VBool true), DLit (VStr (s "a")))]) (DFloat (s "1")) true) = Some (Ok VNull, Ok (VStr (s "a"))).
Proof. vm_compute. reflexivity. Qed.
(** a set of sets as condition: folding takes its number of members, evaluating it raises *)
Example C12_condition_refuted : outcomes (DTern (DSet [DSet [DFloat (s "1")]]) (DFloat (s "1")) (DFloat (s "2"))) = Some (Ok (num 1), Err PType).
Proof. vm_compute. reflexivity. Qed.
(** b"a".to_set holds an int as written, and a Decimal when folded *)
Example C12_to_set_refuted : outcomes (DAttr (DLit (VBytes [97%N])) (s "to_set") false) = Some (Ok (VSet [VDec (dec_of_Z 97)]), Ok (VSet [VInt 97])).
Proof. vm_compute. reflexivity. Qed.
(** the decimal context of the constructing thread decides folded arithmetic: 1 / 3 constructed with two digits *)
Example C12_context_refuted : exists dc, match run demo_world (rule_new untyped_ctx (DBin (BArith TDiv) (DFloat (s "1")) (DFloat (s "3")))) (st_init dc), run demo_world (plain untyped_ctx (DBin (BArith TDiv) (DFloat (s "1")) (DFloat (s "3")))) (st_init dc) with
  | (Ok e, _), (Ok u, _) => fst (run demo_world (rule_evaluate untyped_ctx e VNull) demo_st) = Ok (VDec (DFin false 33 (-2))) /\ fst (run demo_world (rule_evaluate untyped_ctx u VNull) demo_st) = Ok (VDec (DFin false 3333333333333333333333333333 (-28)))
  | _, _ => False
  end.
Proof. exists {| prec := 2; rmode := RHalfEven; emin := -999999; emax := 999999 |}. vm_compute. split; reflexivity. Qed.
