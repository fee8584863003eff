(** * Fits: when a value conforms to a data type definition, and what the engine's conversions do to that *)
From Coq Require Import List ZArith Lia Bool Permutation.
From Verif Require Import Base Dec Value EqFacts DType DTypeFacts Types TypesFacts CoerceFacts Ops ParseUtil Attr Prog Ast Eval Post.
Import ListNotations.
Open Scope Z_scope.

(** ** Specification

    [fits t v]: [v] is null, or [t] is UNDEFINED, or [v] is a value of the kind [t] names, whose members (recursively) fit the member
    types [t] gives.  Mapping keys are only required to have a common type compatible with the key type of [t]: that is all the
    engine checks of them (ast.py:1036-1059). *)
Fixpoint fits (t : dtype) (v : value) : Prop :=
  v = VNull \/
  match t with
  | TUndef => True
  | TNull => False
  | TBytes => exists b, v = VBytes b
  | TBool => exists b, v = VBool b
  | TDatetime => (exists w z, v = VDt w z) \/ (exists d, v = VDate d)
  | TFloat => (exists d, v = VDec d) \/ (exists z, v = VInt z) \/ (exists f, v = VFlt f)
  | TString => exists c, v = VStr c
  | TTimedelta => exists u, v = VTd u
  | TArray m _ => exists l, (v = VArr l \/ v = VList l \/ exists zs, v = VRange zs /\ l = map VInt zs) /\ forall x, In x l -> fits m x
  | TSet m _ => exists l, v = VSet l /\ forall x, In x l -> fits m x
  | TMap k m _ => exists l, (v = VMap l \/ v = VDict l) /\ (forall x, In x (map snd l) -> fits m x) /\
      (forall kts, Forall2 (fun a b => from_value a = Ok b) (map fst l) kts -> is_compat (member_type kts) k = true)
  | TFun _ _ _ _ => callable v = true
  end.

Lemma fits_null : forall t, fits t VNull.
Proof. destruct t; left; reflexivity. Qed.
Lemma fits_undef : forall v, fits TUndef v.
Proof. intro v. right. exact I. Qed.

(** ** member_type of arbitrary (also declared) types *)
Lemma dt_add_keeps : forall acc t x, In x acc -> In x (dt_add acc t).
Proof. intros acc t x H. unfold dt_add. destruct (existsb _ _); [exact H|]. apply in_or_app. left. exact H. Qed.
Lemma dt_add_eqv : forall acc t, exists u, In u (dt_add acc t) /\ dt_eqb t u = true.
Proof.
  intros acc t. unfold dt_add. destruct (existsb (dt_eqb t) acc) eqn:E.
  - apply existsb_exists in E as [u [H1 H2]]. eauto.
  - exists t. split; [apply in_or_app; right; left; reflexivity|apply dt_eqb_refl].
Qed.
Lemma dt_collect_eqv : forall l acc, (forall x, In x acc -> In x (fold_left dt_add l acc)) /\
  forall t, In t l -> exists u, In u (fold_left dt_add l acc) /\ dt_eqb t u = true.
Proof.
  induction l as [|a l IH]; intro acc; cbn; [split; [auto|intros t []]|]. destruct (IH (dt_add acc a)) as [I1 I2]. split.
  - intros x H. apply I1. apply dt_add_keeps. exact H.
  - intros t [->|H]; [|apply I2; exact H]. destruct (dt_add_eqv acc t) as [u [H1 H2]]. exists u. split; [apply I1; exact H1|exact H2].
Qed.
Lemma member_type_eqv : forall l m, member_type l = m -> is_undef m = false -> forall t, In t l -> dt_eqb t TNull = true \/ dt_eqb t m = true.
Proof.
  intros l m E U t H. unfold member_type in E. destruct (dt_collect_eqv l []) as [_ K]. destruct (K t H) as [u [Hu Eu]].
  destruct (dt_eqb t TNull) eqn:N; [left; reflexivity|right].
  assert (In u (filter (fun t => negb (dt_eqb t TNull)) (fold_left dt_add l []))).
  { apply filter_In. split; [exact Hu|]. destruct (dt_eqb u TNull) eqn:N'; [|reflexivity]. rewrite (dt_eqb_trans _ _ _ Eu N') in N. discriminate. }
  destruct (filter _ _) as [|x [|y r]]; subst; [destruct H0|destruct H0 as [->|[]]; exact Eu|discriminate].
Qed.

(** ** the type of a value *)
Lemma members_compat : forall m l ts, (forall x vt, In x l -> from_value x = Ok vt -> vt = TNull \/ is_compat vt m = true) ->
  Forall2 (fun a b => from_value a = Ok b) l ts -> is_compat (member_type ts) m = true.
Proof.
  intros m l ts H F. assert (Hc : Forall canon ts) by (clear H; induction F; constructor; eauto using from_value_canon).
  destruct (member_type_cases ts Hc) as [[t [Hin [Hn [_ ->]]]]|[[_ ->]|[a [b [_ [_ [_ [_ [_ ->]]]]]]]]]; [|apply is_compat_undef_l|apply is_compat_undef_l].
  destruct (Forall2_In_r _ _ _ _ _ _ F Hin) as [x [Hx Ex]]. destruct (H x t Hx Ex); [contradiction|assumption].
Qed.

Lemma from_value_arr : forall l vt, from_value (VArr l) = Ok vt -> exists ts, Forall2 (fun a b => from_value a = Ok b) l ts /\ vt = TArray (member_type ts) true.
Proof. intros l vt H. cbn in H. apply rmap_ok in H as [ts [E ->]]. apply rmapM_ok_iff in E. eauto. Qed.
Lemma from_value_list : forall l, from_value (VList l) = from_value (VArr l).
Proof. reflexivity. Qed.
Lemma rmapM_ints : forall zs, rmapM from_value (map VInt zs) = Ok (map (fun _ => TFloat) zs).
Proof. induction zs as [|z zs IH]; [reflexivity|]. cbn. rewrite IH. reflexivity. Qed.
Lemma from_value_range : forall zs, from_value (VRange zs) = from_value (VArr (map VInt zs)).
Proof. intro zs. cbn. rewrite rmapM_ints. reflexivity. Qed.
Lemma from_value_set : forall l vt, from_value (VSet l) = Ok vt -> exists ts, Forall2 (fun a b => from_value a = Ok b) l ts /\ vt = TSet (member_type ts) true.
Proof. intros l vt H. cbn in H. apply rmap_ok in H as [ts [E ->]]. apply rmapM_ok_iff in E. eauto. Qed.
Lemma from_value_map : forall l vt, from_value (VMap l) = Ok vt -> exists ks ts, Forall2 (fun a b => from_value a = Ok b) (map fst l) ks /\
  Forall2 (fun a b => from_value a = Ok b) (map snd l) ts /\ vt = TMap (member_type ks) (member_type ts) true.
Proof.
  intros l vt H. cbn in H. apply rbind_ok in H as [ks [E1 H]]. apply rbind_ok in H as [ts [E2 H]]. unfold mk_mapping in H. destruct (_ && _); inversion H.
  rewrite <- (rmapM_map _ _ _ fst from_value) in E1. rewrite <- (rmapM_map _ _ _ snd from_value) in E2. apply rmapM_ok_iff in E1, E2. exists ks, ts. auto.
Qed.

(** the type computed from a value that fits [t] is compatible with [t] *)
Theorem fits_compat : forall t v vt, fits t v -> from_value v = Ok vt -> vt = TNull \/ is_compat vt t = true.
Proof.
  induction t as [| | | | | | | |m nb IH|m nb IH|k m nb IHk IHm|nm r a mn IHr IHa] using dtype_ind'; intros v vt F E; cbn [fits] in F; destruct F as [->|F];
    try (left; cbn in E; inversion E; reflexivity); right; try contradiction.
  - apply is_compat_undef_r.
  - destruct F as [b ->]. inversion E. reflexivity.
  - destruct F as [b ->]. inversion E. reflexivity.
  - destruct F as [[w0 [z ->]]|[d ->]]; inversion E; reflexivity.
  - destruct F as [[d ->]|[[d ->]|[d ->]]]; inversion E; reflexivity.
  - destruct F as [b ->]. inversion E. reflexivity.
  - destruct F as [b ->]. inversion E. reflexivity.
  - destruct F as [l [F H]].
    assert (E' : from_value (VArr l) = Ok vt) by (destruct F as [->|[->|[zs [-> ->]]]]; [exact E|exact E|rewrite <- from_value_range; exact E]).
    apply from_value_arr in E' as [ts [T ->]]. cbn. eapply members_compat; [|exact T]. intros x xt Hx Ex. eapply IH; eauto.
  - destruct F as [l [-> H]]. apply from_value_set in E as [ts [T ->]]. cbn. eapply members_compat; [|exact T]. intros x xt Hx Ex. eapply IH; eauto.
  - destruct F as [l [F [H K]]]. assert (E' : from_value (VMap l) = Ok vt) by (destruct F as [->| ->]; exact E).
    apply from_value_map in E' as [ks [ts [T1 [T2 ->]]]]. cbn. rewrite (K _ T1). cbn. eapply members_compat; [|exact T2]. intros x xt Hx Ex. eapply IHm; eauto.
  - destruct v; try discriminate; inversion E; subst; unfold t_function; rewrite is_compat_fun; cbn; destruct a; reflexivity.
Qed.

(** every value fits its own type *)
Theorem fits_own : forall v t, from_value v = Ok t -> fits t v.
Proof.
  assert (M : forall l ts, (forall x t, In x l -> from_value x = Ok t -> fits t x) -> Forall2 (fun a b => from_value a = Ok b) l ts -> forall x, In x l -> fits (member_type ts) x).
  { intros l ts H F x Hx. destruct (is_undef (member_type ts)) eqn:U; [destruct (member_type ts); try discriminate; apply fits_undef|].
    destruct (Forall2_In_l _ _ _ _ _ _ F Hx) as [t [Ht Et]]. assert (Hc : Forall canon ts) by (clear - F; induction F; constructor; eauto using from_value_canon).
    destruct (member_type_cases ts Hc) as [[m [_ [Hn [K E]]]]|[[_ E]|[a [b [_ [_ [_ [_ [_ E]]]]]]]]]; try (rewrite E in U; discriminate).
    destruct (dt_eqb t TNull) eqn:N.
    - assert (t = TNull) by (destruct t; try discriminate; reflexivity). subst. apply from_value_null in Et. subst. apply fits_null.
    - assert (t <> TNull) by (intros ->; discriminate). rewrite E, <- (K t Ht H0). eapply H; eauto. }
  induction v as [|b|d|z|f|c|b|w0 z|d|u|l IH|l IH|l|l IH|l IH|l IH|n|f|me v IH|n] using value_ind'; intros t0 H0; try (inversion H0; subst; cbn [fits]; right; eauto 6; fail).
  - cbn in H0. inversion H0; subst. left. reflexivity.
  - apply from_value_arr in H0 as [ts [F ->]]. rewrite Forall_forall in IH. right. exists l. split; [auto|]. eapply M; eauto.
  - rewrite from_value_list in H0. apply from_value_arr in H0 as [ts [F ->]]. rewrite Forall_forall in IH. right. exists l. split; [auto|]. eapply M; eauto.
  - rewrite from_value_range in H0. apply from_value_arr in H0 as [ts [F ->]]. right. exists (map VInt l). split; [right; right; eauto|]. eapply M; [|exact F].
    intros x t Hx Ex. apply in_map_iff in Hx as [z [<- _]]. inversion Ex; subst. right. right. left. eauto.
  - apply from_value_set in H0 as [ts [F ->]]. rewrite Forall_forall in IH. right. exists l. split; [auto|]. eapply M; eauto.
  - apply from_value_map in H0 as [ks [ts [F1 [F2 ->]]]]. rewrite Forall_forall in IH. right. exists l. split; [auto|]. split.
    + eapply M; [|exact F2]. intros x t Hx Ex. apply in_map_iff in Hx as [kv [<- Hkv]]. apply (proj2 (IH kv Hkv)). exact Ex.
    + intros kts K. assert (kts = ks). { clear - F1 K. revert kts K. induction F1; intros kts K; inversion K; subst; [reflexivity|]. f_equal; [congruence|auto]. } subst. apply is_compat_refl.
  - assert (H1 : from_value (VMap l) = Ok t0) by exact H0. apply from_value_map in H1 as [ks [ts [F1 [F2 ->]]]]. rewrite Forall_forall in IH. right. exists l. split; [auto|]. split.
    + eapply M; [|exact F2]. intros x t Hx Ex. apply in_map_iff in Hx as [kv [<- Hkv]]. apply (proj2 (IH kv Hkv)). exact Ex.
    + intros kts K. assert (kts = ks). { clear - F1 K. revert kts K. induction F1; intros kts K; inversion K; subst; [reflexivity|]. f_equal; [congruence|auto]. } subst. apply is_compat_refl.
Qed.

(** fitting does not distinguish equal definitions *)
Lemma instance_unname : forall t u g, unname t = unname u -> instance t g -> instance u g.
Proof.
  induction t as [| | | | | | | |m nb IH|m nb IH|k m nb IHk IHm|nm r a mn IHr IHa] using dtype_ind'; intros u g E G; destruct u; try discriminate; try exact G; cbn in E; inversion E; subst.
  - inversion G; subst. constructor. eauto.
  - inversion G; subst. constructor. eauto.
  - inversion G; subst. constructor; eauto.
  - inversion G as [| | | | | | | | | | |? nm' ? gr ? ga ? gmn G1 G2 G3]; subst. constructor; [eauto| |exact G3].
    intros l0 ->. destruct a as [la|]; [|discriminate]. destruct (G2 la eq_refl) as [gl [-> F]]. exists gl. split; [reflexivity|].
    match goal with K : _ = option_map (map unname) (Some l0) |- _ => cbn in K; injection K as K; rename K into H1 end. clear - IHa H1 F. cbn in IHa. revert l0 gl H1 F.
    induction IHa as [|d la Hd IHa IH]; intros l0 gl H1 F; destruct l0; try discriminate; inversion F; subst; constructor; cbn in H1; injection H1 as E1 E2; eauto.
Qed.
Lemma dt_eqb_compat_r : forall t u x, dt_eqb t u = true -> is_compat x t = is_compat x u.
Proof.
  assert (A : forall t u x, dt_eqb t u = true -> is_compat x t = true -> is_compat x u = true).
  { intros t u x E H. apply is_compat_spec in H as [g [G1 G2]]. apply is_compat_spec. apply dt_eqb_unname in E. exists g. split; [exact G1|]. eapply instance_unname; eauto. }
  intros t u x E. destruct (is_compat x t) eqn:E1, (is_compat x u) eqn:E2; try reflexivity.
  - rewrite (A t u x E E1) in E2. discriminate.
  - rewrite dt_eqb_sym in E. rewrite (A u t x E E2) in E1. discriminate.
Qed.

Theorem fits_eqb : forall t u v, dt_eqb t u = true -> fits t v -> fits u v.
Proof.
  induction t as [| | | | | | | |m nb IH|m nb IH|k m nb IHk IHm|nm r a mn IHr IHa] using dtype_ind'; intros u v E F; destruct u; try discriminate; try exact F;
    cbn [fits] in F |- *; destruct F as [F|F]; auto; right.
  - cbn in E. apply andb_true_iff in E as [E _]. destruct F as [l [F H]]. exists l. split; [exact F|]. intros x Hx. eapply IH; eauto.
  - cbn in E. apply andb_true_iff in E as [E _]. destruct F as [l [F H]]. exists l. split; [exact F|]. intros x Hx. eapply IH; eauto.
  - cbn in E. apply andb_true_iff in E as [E _]. apply andb_true_iff in E as [Ek E]. destruct F as [l [F [H K]]]. exists l. split; [exact F|]. split; [intros x Hx; eapply IHm; eauto|].
    intros kts Hk. rewrite <- (dt_eqb_compat_r _ _ _ Ek). apply K. exact Hk.
Qed.

(** members of a literal *)
Lemma fits_member : forall ts t v, In t ts -> fits t v -> fits (member_type ts) v.
Proof.
  intros ts t v H F. destruct (is_undef (member_type ts)) eqn:U; [destruct (member_type ts); try discriminate; apply fits_undef|].
  destruct (member_type_eqv ts _ eq_refl U t H) as [N|N]; [|eapply fits_eqb; eauto].
  destruct t; try discriminate. cbn in F. destruct F as [->|[]]. apply fits_null.
Qed.

(** ** definitions whose members are not further specified: a compatible type is enough *)
Definition flat (t : dtype) : Prop :=
  match t with TArray m _ | TSet m _ | TMap _ m _ => m = TUndef | _ => True end.
Lemma fits_flat : forall t v vt, flat t -> from_value v = Ok vt -> is_compat vt t = true -> fits t v.
Proof.
  intros t v vt Fl E K. assert (F := fits_own v vt E).
  destruct vt; try (exfalso; exact (from_value_not_undef v E)); destruct t; try (rewrite is_compat_fun in K); try (cbn in K; discriminate); try exact F; try apply fits_undef.
  all: cbn [fits] in F |- *; destruct F as [F|F]; auto; right.
  - destruct F as [l [F _]]. exists l. split; [exact F|]. intros. cbn in Fl. subst. apply fits_undef.
  - destruct F as [l [F _]]. exists l. split; [exact F|]. intros. cbn in Fl. subst. apply fits_undef.
  - destruct F as [l [F [_ _]]]. exists l. split; [exact F|]. split; [intros; cbn in Fl; subst; apply fits_undef|].
    assert (E' : from_value (VMap l) = Ok (TMap vt1 vt2 nb)) by (destruct F as [->| ->]; exact E). apply from_value_map in E' as [ks [ts [T1 [_ E']]]]. inversion E'; subst.
    intros kts Hk. assert (kts = ks). { clear - T1 Hk. revert kts Hk. induction T1; intros kts K; inversion K; subst; [reflexivity|]. f_equal; [congruence|auto]. } subst.
    cbn in K. apply andb_true_iff in K as [K _]. exact K.
Qed.
