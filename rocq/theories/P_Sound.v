(** * C13: the result type inferred at construction is sound *)
From Coq Require Import List ZArith Lia Bool Permutation String.
From Verif Require Import Base Dec Value EqFacts DType DTypeFacts Types TypesFacts CoerceFacts Ops ParseUtil Attr Prog Ast Eval Build Engine
  ProgFacts StateFacts Post Fits Demo P_Ops P_Aware P_Names.
Import ListNotations.
Open Scope list_scope.
Open Scope Z_scope.

(** names of builtin attributes *)
Definition attr_name (n : str) : Prop := exists t tab, In (t, tab) attr_map /\ In n (map fst tab).

(** subexpressions *)
Inductive part : expr -> expr -> Prop :=
| Pa_self : forall e, part e e
| Pa_arr : forall x e l, In e l -> part x e -> part x (EArr l)
| Pa_set : forall x e l, In e l -> part x e -> part x (ESet l)
| Pa_key : forall x k v l, In (k, v) l -> part x k -> part x (EMap l)
| Pa_val : forall x k v l, In (k, v) l -> part x v -> part x (EMap l)
| Pa_left : forall x o a b, part x a -> part x (EBin o a b)
| Pa_right : forall x o a b, part x b -> part x (EBin o a b)
| Pa_cres : forall x r n i c, part x r -> part x (EComp r n i c)
| Pa_cit : forall x r n i c, part x i -> part x (EComp r n i c)
| Pa_ccond : forall x r n i c, part x c -> part x (EComp r n i (Some c))
| Pa_inc : forall x c m, part x c -> part x (EIn c m)
| Pa_inm : forall x c m, part x m -> part x (EIn c m)
| Pa_attr : forall x o n sf, part x o -> part x (EAttr o n sf)
| Pa_itc : forall x c i sf, part x c -> part x (EItem c i sf)
| Pa_iti : forall x c i sf, part x i -> part x (EItem c i sf)
| Pa_slc : forall x c a b sf, part x c -> part x (ESlice c a b sf)
| Pa_sla : forall x c a b sf, part x a -> part x (ESlice c a b sf)
| Pa_slb : forall x c a b sf, part x b -> part x (ESlice c a b sf)
| Pa_callf : forall x f l, part x f -> part x (ECall f l)
| Pa_callx : forall x f l e, In e l -> part x e -> part x (ECall f l)
| Pa_tc : forall x c a b, part x c -> part x (ETern c a b)
| Pa_ta : forall x c a b, part x a -> part x (ETern c a b)
| Pa_tb : forall x c a b, part x b -> part x (ETern c a b)
| Pa_un : forall x o e, part x e -> part x (EUn o e).
Lemma part_trans : forall x y z, part x y -> part y z -> part x z.
Proof. intros x y z H K. induction K; try assumption; solve [econstructor; eauto | eapply Pa_key; eauto | eapply Pa_val; eauto]. Qed.

(** values the evaluator works with: of supported types, no native number, date, list, range or dict outside of sets, keys and set members hashable,
    no two equal keys *)
Inductive settled {tz : TzDb} : value -> Prop :=
| Se_atom : forall v, match v with VNull | VBool _ | VDec _ | VStr _ | VBytes _ | VDt _ _ | VTd _ | VFun _ | VBFun _ | VMeth _ _ => True | _ => False end -> settled v
| Se_arr : forall l, (forall x, In x l -> settled x) -> settled (VArr l)
| Se_set : forall l, (forall x, In x l -> hashable x = true /\ py_ok x /\ supported x) -> settled (VSet l)
| Se_map : forall l, (forall k x, In (k, x) l -> settled k /\ hashable k = true /\ settled x) -> apart (map fst l) -> settled (VMap l).

(** case analysis on how a given value can fit *)
Ltac fcases F := cbn [fits] in F;
  repeat match type of F with
         | _ \/ _ => destruct F as [F|F]
         | ex _ => let y := fresh "y" in destruct F as [y F]
         | _ /\ _ => let G := fresh "G" in destruct F as [F G]
         end; try discriminate; try contradiction.

Section Settled.
Context {tz : TzDb}.
Lemma settled_py_ok : forall v, settled v -> py_ok v.
Proof.
  induction v as [|b|d|z|f|c|b|w0 z|d|u|l IH|l IH|l|l IH|l IH|l IH|n|f|me v IH|n] using value_ind'; intro H; inversion H as [? K|? K|? K|? K K2]; subst; try contradiction; try (apply Po_scalar; exact I).
  - rewrite Forall_forall in IH. apply Po_arr. intros x Hx. apply IH; auto.
  - rewrite Forall_forall in IH. apply Po_set. intros x Hx. destruct (K x Hx) as [K1 [K2 K3]]. auto.
  - rewrite Forall_forall in IH. apply Po_map. intros k x Hx. destruct (K k x Hx) as [K1 [K3 K4]]. destruct (IH _ Hx) as [I1 I2]. auto.
Qed.
Lemma settled_coerce : forall v, settled v -> coerce false v = Ok v.
Proof.
  induction v as [|b|d|z|f|c|b|w0 z|d|u|l IH|l IH|l|l IH|l IH|l IH|n|f|me v IH|n] using value_ind'; intro H; inversion H as [? K|? K|? K|? K K2]; subst; try contradiction; try reflexivity.
  - rewrite Forall_forall in IH. apply coerce_fix_seq; [|discriminate]. intros y Hy. apply IH; auto.
  - rewrite Forall_forall in IH. apply coerce_fix_map; [exact K2| |discriminate]. intros k x Hx. destruct (K k x Hx) as [K1 [K3 K4]]. destruct (IH _ Hx) as [I1 I2]. cbn in *. auto.
Qed.
Lemma settled_coerce_any : forall ver v v', settled v -> coerce ver v = Ok v' -> v' = v.
Proof.
  intro ver. induction v as [|b|d|z|f|c|b|w0 z|d|u|l IH|l IH|l|l IH|l IH|l IH|n|f|me v IH|n] using value_ind'; intros v' H E; inversion H as [? K|? K|? K|? K K2]; subst; try contradiction; apply coerce_cases in E; cbn in E; subst; try reflexivity.
  - destruct E as [l' [F ->]]. f_equal. clear H. induction F as [|x y l l' Hxy F IHF]; [reflexivity|]. inversion IH; subst. f_equal; [apply H1; [apply K; left; reflexivity|exact Hxy]|apply IHF; [assumption|intros; apply K; right; assumption]].
  - destruct E as [l' [F ->]]. f_equal. assert (l' = l).
    { clear H K2. induction F as [|x y l l' Hxy F IHF]; [reflexivity|]. inversion IH as [|? ? [H1 H2] H3]; subst. f_equal; [|apply IHF; [assumption|intros; apply K; right; assumption]].
      destruct x as [k x], y as [k' y]. apply coerce_pair_ok in Hxy as [X1 [X2 X3]]. cbn in *. destruct (K k x (or_introl eq_refl)) as [K1 [K3 K4]]. f_equal; auto. }
    subst. apply mk_dict_id. exact K2.
Qed.
Lemma settled_supported : forall v, settled v -> supported v.
Proof.
  induction v as [|b|d|z|f|c|b|w0 z|d|u|l IH|l IH|l|l IH|l IH|l IH|n|f|me v IH|n] using value_ind'; intro H; inversion H as [? K|? K|? K|? K K2]; subst; try contradiction; constructor.
  - rewrite Forall_forall in IH. intros x Hx. apply IH; auto.
  - intros x Hx. apply K. exact Hx.
  - rewrite Forall_forall in IH. intros k x Hx. destruct (K k x Hx) as [K1 [K3 K4]]. destruct (IH _ Hx) as [I1 I2]. auto.
Qed.
(** a Python value (hashable keys and members) of supported types *)
Definition nice (v : value) : Prop := py_ok v /\ supported v.
Lemma settled_nice : forall v, settled v -> nice v.
Proof. split; [apply settled_py_ok|apply settled_supported]; assumption. Qed.
Lemma coerce_settled : forall ver v v', py_ok v -> (ver = true \/ supported v) -> coerce ver v = Ok v' -> settled v'.
Proof.
  intros ver v v' P S0 H. assert (S : supported v) by (destruct S0 as [->|S0]; [apply (coerce_true_supported v P); eauto|exact S0]). clear S0. revert v' P S H.
  induction v as [|b|d|z|f|c|b|w0 z|d|u|l IH|l IH|l|l IH|l IH|l IH|n|f|me v IH|n] using value_ind'; intros v' P S H; apply coerce_cases in H; cbn in H; subst; try (apply Se_atom; exact I); inversion S as [| | | | | | | | | |? S'|? S'|? S'|? S'|? S'|? S'| | | ]; subst.
  - destruct H as [l' [F ->]]. rewrite Forall_forall in IH. apply Se_arr. intros y Hy. destruct (Forall2_In_r _ _ _ _ _ _ F Hy) as [x [Hx E]]. eapply IH; eauto. eapply po_arr; eauto.
  - destruct H as [l' [F ->]]. rewrite Forall_forall in IH. apply Se_arr. intros y Hy. destruct (Forall2_In_r _ _ _ _ _ _ F Hy) as [x [Hx E]]. eapply IH; eauto. eapply po_arr; eauto.
  - apply Se_arr. intros y Hy. apply in_map_iff in Hy as [z [<- _]]. apply Se_atom. exact I.
  - apply Se_set. intros x Hx. inversion P as [? K| | |? K| |]; subst; [contradiction|]. destruct (K x Hx). auto.
  - destruct H as [l' [F ->]]. rewrite Forall_forall in IH. assert (P' := po_map l (or_introl P)). apply Se_map; [|apply mk_dict_apart].
    intros k x Hx. destruct (mk_dict_pairs _ _ _ F k x Hx) as [[k0 [x0 [A1 [A2 A3]]]] [k1 [x1 [B1 B2]]]]. destruct (IH _ A1) as [I1 _]. destruct (IH _ B1) as [_ I2]. cbn in *.
    destruct (P' _ _ A1) as [Q1 _]. destruct (P' _ _ B1) as [_ [_ Q2]]. destruct (S' _ _ A1), (S' _ _ B1). eauto.
  - destruct H as [l' [F ->]]. rewrite Forall_forall in IH. assert (P' := po_map l (or_intror P)). apply Se_map; [|apply mk_dict_apart].
    intros k x Hx. destruct (mk_dict_pairs _ _ _ F k x Hx) as [[k0 [x0 [A1 [A2 A3]]]] [k1 [x1 [B1 B2]]]]. destruct (IH _ A1) as [I1 _]. destruct (IH _ B1) as [_ I2]. cbn in *.
    destruct (P' _ _ A1) as [Q1 _]. destruct (P' _ _ B1) as [_ [_ Q2]]. destruct (S' _ _ A1), (S' _ _ B1). eauto.
Qed.

Definition numlike (v : value) : Prop := match v with VDec _ | VInt _ | VFlt _ => True | _ => False end.
Lemma fits_num : forall t v v', numlike v -> numlike v' -> fits t v -> fits t v'.
Proof.
  intros t v v' N N' F. destruct t; destruct v; try contradiction; destruct v'; try contradiction; try exact F; fcases F; try (right; exact I);
    right; first [left; eauto; fail|right; left; eauto; fail|right; right; eauto; fail].
Qed.
Lemma fits_date : forall t d w z, fits t (VDate d) -> fits t (VDt w z).
Proof. intros t d w z F. destruct t; fcases F; try (right; exact I). right. left. eauto. Qed.

(** hashable values contain no mappings, so conversion cannot change what they fit *)
Lemma coerce_fits_hashable : forall ver v v' t, hashable v = true -> coerce ver v = Ok v' -> fits t v -> fits t v'.
Proof.
  intro ver. induction v as [|b|d|z|f|c|b|w0 z|d|u|l IH|l IH|l|l IH|l IH|l IH|n|f|me v IH|n] using value_ind'; intros v' t Hh H F; apply coerce_cases in H; cbn in Hh; try discriminate; cbn in H; subst; try exact F.
  - eapply fits_num; [| |exact F]; exact I.
  - eapply fits_num; [| |exact F]; exact I.
  - eapply fits_date. exact F.
  - destruct H as [l' [F' ->]]. rewrite Forall_forall in IH. destruct t; fcases F; try (right; exact I).
    inversion F; subst. right. exists l'. split; [auto|]. intros x Hx. destruct (Forall2_In_r _ _ _ _ _ _ F' Hx) as [x0 [Hx0 Ex]]. eapply IH; eauto. rewrite forallb_forall in Hh. auto.
  - destruct t; fcases F; try (right; exact I). inversion F; subst. right. eexists. split; [left; reflexivity|]. intros x Hx. apply in_map_iff in Hx as [z [<- Hz]].
    eapply fits_num; [| |apply G; apply in_map; exact Hz]; exact I.
Qed.
End Settled.

Section Attrs.
Context {Orc : Oracle}.

Lemma settled_elems : forall v x, settled v -> In x (elems v) -> py_ok x /\ supported x.
Proof.
  intros v x H Hx. inversion H as [? K|? K|? K|? K K2]; subst; try (destruct v; contradiction); cbn in Hx.
  - split; [apply settled_py_ok|apply settled_supported]; auto.
  - destruct (K x Hx) as [_ [? ?]]. auto.
  - apply in_map_iff in Hx as [[k y] [<- Hk]]. destruct (K _ _ Hk) as [? [? ?]]. split; [apply settled_py_ok|apply settled_supported]; auto.
Qed.
Lemma settled_iter : forall v l, settled v -> py_iter v = Ok l -> forall x, In x l -> py_ok x /\ supported x.
Proof.
  intros v l H E x Hx. destruct v; cbn in E; inversion E; subst; try (apply (settled_elems _ x H); exact Hx).
  - apply in_map_iff in Hx as [c [<- _]]. split; [apply Po_scalar; exact I|constructor].
  - apply in_map_iff in Hx as [c [<- _]]. split; [apply Po_scalar; exact I|constructor].
Qed.

Lemma py_set_ok : forall l v, (forall x, In x l -> py_ok x) -> py_set l = Ok v -> py_ok v.
Proof.
  intros l v H E. unfold py_set in E. destruct (forallb hashable l) eqn:Hh; [|discriminate]. inversion E; subst. apply Po_set. intros x Hx.
  apply (Permutation_in _ (o_set_order_perm _)) in Hx. apply mk_set_In in Hx. rewrite forallb_forall in Hh. auto.
Qed.

Lemma string_to_flt_num : forall t v, string_to_flt t = Ok v -> numlike v.
Proof.
  intros t v H. unfold string_to_flt in H.
  repeat match type of H with context [match ?x with _ => _ end] => destruct x end; try discriminate; inversion H; exact I.
Qed.

Lemma attr_fun_py_ok : forall a v x, settled v -> attr_fun a v = Ok x -> py_ok x.
Proof.
  intros a v x S H. assert (A : forall u, match u with VArr _ | VList _ | VSet _ | VMap _ | VDict _ => False | _ => True end -> py_ok u) by (intros u Hu; apply Po_scalar; exact Hu).
  destruct a; cbn [attr_fun] in H; try (destruct v; cbn in H; try discriminate; inversion H; subst; apply A; exact I).
  - destruct v; try discriminate H. destruct tz; inversion H; subst; apply A; exact I.
  - destruct v; try discriminate H; inversion H; subst. apply A. destruct (o_tzname _ _); exact I.
  - destruct v; try discriminate H; inversion H; subst. apply A. destruct d; exact I.
  - destruct v; try discriminate H; inversion H; subst. apply A. destruct d; exact I.
  - destruct v; try discriminate H. apply rbind_ok in H as [b [_ H]]. destruct b; inversion H; subst. apply A. exact I.
  - destruct v; try discriminate H; inversion H; subst. apply Po_arr. intros y Hy. apply (settled_elems _ y S). exact Hy.
    inversion S; contradiction.
  - destruct v; try discriminate H; inversion H; subst; [|inversion S; contradiction]. apply Po_arr. intros y Hy. apply in_map_iff in Hy as [[k z] [<- Hk]]. inversion S as [? K|? K|? K|? K K2]; subst; [contradiction|].
    destruct (K _ _ Hk) as [_ [_ ?]]. apply settled_py_ok. assumption.
  - destruct v; try discriminate H. apply string_to_flt_num in H. apply A. destruct x; try contradiction; exact I.
  - destruct v; try discriminate H. apply rbind_ok in H as [r [E H]]. apply string_to_flt_num in E. apply rbind_ok in H as [b [_ H]]. destruct b; inversion H; subst. apply A. destruct x; try contradiction; exact I.
  - apply rmap_ok in H as [l [E ->]]. apply Po_arr. intros y Hy. apply (settled_iter _ _ S E y Hy).
  - apply rbind_ok in H as [l [E H]]. eapply py_set_ok; [|exact H]. intros y Hy. apply (settled_iter _ _ S E y Hy).
Qed.

Lemma attr_table_same : forall t u, is_undef t = false -> is_undef u = false -> is_compat t u = true -> attr_table attr_map t = attr_table attr_map u.
Proof.
  intros t u Ht Hu K. destruct t; try discriminate Ht; destruct u; try discriminate Hu; try (cbn in K; discriminate K); reflexivity.
Qed.
Lemma get_attr_same : forall t u n, is_undef t = false -> is_undef u = false -> is_compat t u = true -> get_attr t n = get_attr u n.
Proof. intros. unfold get_attr. rewrite (attr_table_same t u); auto. Qed.
Lemma get_attr_name : forall t n a, get_attr t n = Ok a -> attr_name n.
Proof.
  intros t n a H. unfold get_attr in H. destruct (attr_table attr_map t) as [tab|] eqn:E; [|discriminate]. destruct (assoc n tab) as [a'|] eqn:E2; [|discriminate].
  exists (match find (fun p => is_compat (fst p) t) attr_map with Some p => fst p | None => TUndef end), tab. split.
  - revert E. generalize attr_map. induction l as [|[k tb] l IH]; cbn; [discriminate|]. destruct (is_compat k t) eqn:K; intro E; [inversion E; subst; cbn; left; reflexivity|right; apply IH; exact E].
  - clear - E2. induction tab as [|[k y] tab IH]; cbn in *; [discriminate|]. destruct (str_eqb n k) eqn:K; [left; symmetry; apply str_eqb_eq; exact K|right; auto].
Qed.

(** what a successful attribute access returns *)
Lemma resolve_attr_cases : forall v n r, resolve_attr v n = Ok r -> exists t a x vt et, from_value v = Ok t /\ get_attr t n = Ok a /\ attr_fun a v = Ok x /\
  coerce true x = Ok r /\ from_value r = Ok vt /\ attr_type a vt = Ok et /\ is_compat et vt = true.
Proof.
  intros v n r H. unfold resolve_attr in H. destruct (from_value v) as [t|e] eqn:E; [|destruct e; discriminate].
  apply rbind_ok in H as [a [E1 H]]. apply rbind_ok in H as [x [E2 H]]. apply rbind_ok in H as [v' [E3 H]]. apply rbind_ok in H as [vt [E4 H]]. apply rbind_ok in H as [et [E5 H]].
  destruct (is_compat et vt) eqn:E6; [|discriminate]. inversion H; subst. exists t, a, x, vt, et. auto 8.
Qed.
Lemma resolve_attr_settled : forall v n r, settled v -> resolve_attr v n = Ok r -> settled r.
Proof.
  intros v n r S H. apply resolve_attr_cases in H as [t [a [x [vt [et [E [E1 [E2 [E3 _]]]]]]]]]. eapply coerce_settled; [|left; reflexivity|exact E3]. eapply attr_fun_py_ok; eauto.
Qed.

Lemma assoc_In : forall A (l : list (str * A)) n a, assoc n l = Some a -> In a (map snd l).
Proof. intros A l n a. induction l as [|[k y] l IH]; cbn; [discriminate|]. destruct (str_eqb n k); intro H; [inversion H; auto|right; auto]. Qed.
Lemma iter_members : forall t v l ty (K : dtype -> bool -> dtype) vt0 n a, settled v -> fits t v -> from_value v = Ok vt0 -> is_undef t = false -> get_attr vt0 n = Ok a -> (a = a_to_ary \/ a = a_to_set) ->
  py_iter v = Ok l ->
  (if dt_eqb t TBytes then Ok (K TFloat true) else if dt_eqb t TString then Ok (K TString true) else rmap (fun m => K m true) (value_type_of t)) = Ok ty ->
  exists m, ty = K m true /\ forall y, In y l -> fits m y /\ (hashable y = true \/ settled y).
Proof.
  intros t v l ty K vt0 n a S F E U E1 Ha I1 Ht. destruct (dt_eqb t TBytes) eqn:B; [|destruct (dt_eqb t TString) eqn:B2].
  - destruct t; try discriminate. inversion Ht; subst. exists TFloat. split; [reflexivity|]. fcases F; subst; cbn in I1; inversion I1; subst. intros x Hx. apply in_map_iff in Hx as [c [<- _]]. split; [right; right; left; eauto|left; reflexivity].
  - destruct t; try discriminate. inversion Ht; subst. exists TString. split; [reflexivity|]. fcases F; subst; cbn in I1; inversion I1; subst. intros x Hx. apply in_map_iff in Hx as [c [<- _]]. split; [right; eauto|left; reflexivity].
  - apply rmap_ok in Ht as [m [Hm ->]]. exists m. split; [reflexivity|]. destruct t; try discriminate; inversion Hm; subst.
    + fcases F; subst; try (cbn in I1; discriminate); try (inversion S; contradiction). cbn in I1. inversion I1; subst. intros x Hx. split; [auto|]. right. inversion S; [contradiction|]. auto.
    + fcases F; subst; try (cbn in I1; discriminate). cbn in I1. inversion I1; subst. intros x Hx. split; [auto|]. left. inversion S as [|? ?|? Q|]; [contradiction|]. apply Q. exact Hx.
    + exfalso. assert (exists k' m' nb', vt0 = TMap k' m' nb') as [k' [m' [nb' ->]]].
      { fcases F; subst; [cbn in I1; discriminate| |].
        - apply from_value_map in E as [ks [ts [_ [_ ->]]]]. eauto.
        - inversion S; contradiction. }
      unfold get_attr in E1. change (attr_table attr_map (TMap k' m' nb')) with (attr_table attr_map t_mapping) in E1. destruct (attr_table attr_map t_mapping) as [tab|] eqn:T; [|discriminate].
      destruct (assoc n tab) as [a'|] eqn:As; inversion E1; subst a'. apply assoc_In in As. vm_compute in T. inversion T; subst. cbn in As. destruct Ha; subst; intuition discriminate.
Qed.

Lemma resolve_attr_fits : forall t v n r ty, settled v -> fits t v -> is_undef t = false -> resolve_attr_type t n = Ok ty -> resolve_attr v n = Ok r -> fits ty r.
Proof.
  intros t v n r ty S F U Ht H. apply resolve_attr_cases in H as [vt0 [a [x [vt [et [E [E1 [E2 [E3 [E4 [E5 E6]]]]]]]]]]].
  assert (N : vt0 <> TNull) by (intros ->; vm_compute in E1; discriminate).
  assert (K : is_compat vt0 t = true) by (destruct (fits_compat _ _ _ F E); [contradiction|assumption]).
  assert (U0 : is_undef vt0 = false) by (destruct vt0; try reflexivity; exfalso; exact (from_value_not_undef _ E)).
  unfold resolve_attr_type in Ht. apply rbind_ok in Ht as [a' [A Ht]]. rewrite <- (get_attr_same vt0 t n U0 U K), E1 in A. inversion A; subst a'. clear A.
  rewrite is_compat_sym in E6.
  destruct a; cbn [attr_type] in Ht, E5; try (inversion Ht; subst ty; inversion E5; subst et; eapply fits_flat; [exact I || reflexivity|exact E4|exact E6]).
  - (* ends_with *) inversion Ht; subst. cbn in E2. inversion E2; subst. cbn in E3. inversion E3; subst. right. reflexivity.
  - inversion Ht; subst. cbn in E2. inversion E2; subst. cbn in E3. inversion E3; subst. right. reflexivity.
  - (* to_ary *) cbn [attr_fun] in E2. apply rmap_ok in E2 as [l [I1 ->]].
    assert (G : forall m, (forall y, In y l -> fits m y /\ (hashable y = true \/ settled y)) -> fits (TArray m true) r).
    { intros m Hm. apply coerce_cases in E3. cbn in E3. destruct E3 as [l' [F' ->]]. right. exists l'. split; [auto|]. intros y Hy. destruct (Forall2_In_r _ _ _ _ _ _ F' Hy) as [z [Hz Ez]].
      destruct (Hm z Hz) as [M [Hh|Hs]]; [eapply coerce_fits_hashable; eauto|].
      rewrite (settled_coerce_any _ _ _ Hs Ez). exact M. }
    assert (V : exists m, ty = TArray m true /\ forall y, In y l -> fits m y /\ (hashable y = true \/ settled y)).
    { apply (iter_members t v l ty TArray vt0 n a_to_ary); auto. }
    destruct V as [m [-> V]]. apply G. exact V.
  - (* to_set *) cbn [attr_fun] in E2. apply rbind_ok in E2 as [l [I1 E2]]. unfold py_set in E2. destruct (forallb hashable l) eqn:Hh; [|discriminate]. inversion E2; subst x.
    assert (V : exists m, ty = TSet m true /\ forall y, In y l -> fits m y /\ (hashable y = true \/ settled y)).
    { apply (iter_members t v l ty TSet vt0 n a_to_set); auto. }
    destruct V as [m [-> V]]. apply coerce_cases in E3. cbn in E3. subst. right. eexists. split; [reflexivity|]. intros y Hy. apply (Permutation_in _ (o_set_order_perm _)) in Hy. apply mk_set_In in Hy. apply V. exact Hy.
Qed.
End Attrs.

(** ** Assumptions about the surroundings *)

(** A call is accounted for if the declared return type of the called function does not constrain the members of a returned
    container (the engine checks no more of a result, ast.py:1103-1105), or if it calls the builtin range or split. *)
Definition call_ok {Orc : Oracle} (C : ctx) (f : expr) : Prop :=
  (forall nm r a mn, rtype f = TFun nm r a mn -> flat r) \/
  (exists name nm nb a mn, f = ESym name true (TFun nm (TArray TFloat nb) a mn) /\ assoc name (c_bvals C) = Some (BVconst (VBFun BFrange))) \/
  (exists name nm nb a mn, f = ESym name true (TFun nm (TArray TString nb) (Some (TString :: a)) mn) /\ assoc name (c_bvals C) = Some (BVconst (VBFun BFsplit))).

(** The expressions considered: no comprehension variable has the name of a builtin attribute, and all calls are accounted for. *)
Definition fair {Orc : Oracle} (C : ctx) (e : expr) : Prop :=
  (forall r n i c, part (EComp r n i c) e -> ~ attr_name n) /\ (forall f args, part (ECall f args) e -> call_ok C f).
(** literals hold values as the parser and constant folding make them *)
Definition lits_ok {Orc : Oracle} (e : expr) : Prop :=
  (forall v, part (ELit v) e -> settled v) /\
  (forall v t, part (EFun v t) e -> callable v = true /\ match t with TFun _ _ _ _ | TUndef => True | _ => False end).

(** The callbacks return Python values, of supported types in the case of symbols; the resolver finds no builtin attribute on None. *)
Record behaved (w : world) (thing : value) : Prop := {
  be_resolve : forall l v n x, v = thing \/ nice v -> w_resolve w l v n = Ok x -> nice x;
  be_user : forall l f args x, (forall a, In a args -> py_ok a) -> w_user w l f args = Ok x -> py_ok x;
  be_random : forall l b, py_ok (w_random w l b);
  be_null : forall l n x, attr_name n -> w_resolve w l VNull n <> Ok x
}.

(** the builtins are of supported types: constants, and what generators written by the user deliver *)
Definition supplied (C : ctx) (w : world) : Prop := forall nm b, In (nm, b) (c_bvals C) ->
  match b with BVconst v => nice v | BVgen g => forall l x, w_user w l g [] = Ok x -> nice x | _ => True end.

(** what range and split return *)
Lemma range_shape : forall args v, b_range args = Ok v -> exists l, v = VList (map VInt l).
Proof.
  intros args v H. unfold b_range in H. destruct args as [|a [|b [|c [|d r]]]]; try discriminate H; cbv zeta beta in H;
  repeat match type of H with
         | rbind _ _ = Ok _ => let u := fresh "u" in let K := fresh "K" in apply rbind_ok in H as [u [K H]]
         | (if ?x then _ else _) = Ok _ => destruct x; try discriminate H
         end; inversion H; eauto.
Qed.
Lemma split_shape {Orc : Oracle} : forall args v, b_split args = Ok v -> exists l, v = VArr l /\
  (forall x, In x l -> (exists t, x = VStr t) \/ (exists t, x = VBytes t)) /\ (forall a r, args = a :: r -> match a with VStr _ => forall x, In x l -> exists t, x = VStr t | VBytes _ => True | _ => False end).
Proof.
  intros args v H. unfold b_split in H. destruct args as [|a [|b [|c [|d r]]]]; try discriminate H; cbv zeta beta in H; apply rbind_ok in H as [k [_ H]];
  repeat match type of H with (match ?x with _ => _ end) = Ok _ => destruct x; try discriminate H end; injection H as <-; eexists; (split; [reflexivity|]);
  (split; [intros x Hx; apply in_map_iff in Hx as [? [<- _]]; eauto|intros a0 r0 E; injection E as <- <-; try exact I; intros x Hx; apply in_map_iff in Hx as [? [<- _]]; eauto]).
Qed.

Section Sound.
Context {Orc : Oracle} (C : ctx) (w : world) (thing : value).
Hypothesis NoDefault : c_default C = None.
Hypothesis Builtins : supplied C w.
Hypothesis B : behaved w thing.

Definition inv (q : st) : Prop :=
  (forall a, In a (s_scopes q) -> ~ attr_name (a_name a) /\ nice (a_val a)) /\ nice (s_groups q).
(** partial correctness in the world [w], keeping [inv] *)
Definition sp {A} (p : prog A) (Q : A -> Prop) : Prop := forall q a q', inv q -> run w p q = (Ok a, q') -> Q a /\ inv q'.

Lemma sp_ret : forall A (r : result A) (Q : A -> Prop), (forall a, r = Ok a -> Q a) -> sp (Ret r) Q.
Proof. intros A r Q H q a q' I0 R. cbn in R. inversion R; subst. auto. Qed.
Lemma sp_ok : forall A (a : A) (Q : A -> Prop), Q a -> sp (ok a) Q.
Proof. intros A a Q H q b q' I0 R. cbn in R. inversion R; subst. auto. Qed.
Lemma sp_raise : forall A x (Q : A -> Prop), sp (raise x) Q.
Proof. intros A x Q q b q' _ R. cbn in R. inversion R. Qed.
Lemma sp_bind : forall A X (p : prog A) (f : A -> prog X) P Q, sp p P -> (forall a, P a -> sp (f a) Q) -> sp (pbind p f) Q.
Proof. intros A X p f P Q Hp Hf q b q' I0 R. apply run_pbind_ok in R as [a [q1 [R1 R2]]]. destruct (Hp _ _ _ I0 R1). eapply Hf; eauto. Qed.
Lemma sp_impl : forall A (p : prog A) (P Q : A -> Prop), (forall a, P a -> Q a) -> sp p P -> sp p Q.
Proof. intros A p P Q H Hp q a q' I0 R. destruct (Hp _ _ _ I0 R). auto. Qed.
Lemma sp_pmapM : forall A X (f : A -> prog X) (P : A -> X -> Prop) l, (forall a, In a l -> sp (f a) (P a)) -> sp (pmapM f l) (Forall2 P l).
Proof.
  intros A X f P l. induction l as [|a l IH]; intro H.
  - apply sp_ok. constructor.
  - cbn [pmapM]. eapply sp_bind; [apply H; left; reflexivity|]. intros b Hb. eapply sp_bind; [apply IH; intros; apply H; right; assumption|].
    intros bs Hbs. apply sp_ok. constructor; assumption.
Qed.
Lemma sp_any : forall A (r : result A), sp (Ret r) (fun _ => True).
Proof. intros. apply sp_ret. auto. Qed.
Lemma sp_scope : forall A a (p : prog A) Q, ~ attr_name (a_name a) -> nice (a_val a) -> sp p Q -> sp (with_scope a p) Q.
Proof.
  intros A a p Q Ha Hv Hp q b q' I0 R. rewrite run_with_scope in R.
  assert (I1 : inv (set_scopes (s_scopes q ++ [a]) q)).
  { split; cbn; [|apply I0]. intros x Hx. apply in_app_or in Hx as [Hx|[<-|[]]]; [apply I0; exact Hx|auto]. }
  destruct (run w p _) as [r q1] eqn:E. assert (R' : r = Ok b /\ q' = set_scopes (removelast (s_scopes q1)) q1).
  { revert R. generalize (removelast (s_scopes q1)). intros k R; destruct (s_scopes q1); inversion R; auto. }
  destruct R' as [-> ->]. destruct (Hp _ _ _ I1 E) as [Hb I2]. split; [exact Hb|]. split; [|apply I2].
  change (s_scopes (set_scopes (removelast (s_scopes q1)) q1)) with (removelast (s_scopes q1)). intros x Hx. apply I2. clear - Hx. revert Hx. generalize (s_scopes q1).
  intro k. induction k as [|y k IH]; cbn; [auto|]. destruct k; [intros []|]. intros [->|H]; [left; reflexivity|right; apply IH; exact H].
Qed.
Lemma sp_comp_loop : forall var cond body (Q : value -> Prop), ~ attr_name var -> sp body Q -> (forall c, cond = Some c -> sp c (fun _ => True)) ->
  forall l, (forall x, In x l -> nice x) -> sp (comp_loop var cond body l) (Forall Q).
Proof.
  intros var cond body Q Hv H Hc. induction l as [|x l IH]; intro Hl; [apply sp_ok; constructor|]. cbn [comp_loop].
  apply (sp_bind _ _ _ _ (fun o => match o with Some v => Q v | None => True end)).
  - apply sp_scope; [exact Hv|apply Hl; left; reflexivity|]. apply (sp_bind _ _ _ _ (fun _ => True)).
    + destruct cond as [c|]; [|apply sp_ok; exact I]. eapply sp_bind; [apply Hc; reflexivity|]. intros. apply sp_ok. exact I.
    + intros [] _; [|apply sp_ok; exact I]. eapply sp_bind; [exact H|]. intros v Hv'. apply sp_ok. exact Hv'.
  - intros o Ho. eapply sp_bind; [apply IH; intros; apply Hl; right; assumption|]. intros vs Hvs. apply sp_ok. destruct o; [constructor; assumption|assumption].
Qed.

Definition good (t : dtype) (v : value) : Prop := settled v /\ fits t v.
Definition atom (v : value) : Prop := match v with VArr _ | VList _ | VSet _ | VMap _ | VDict _ => False | _ => True end.
Lemma atom_ok : forall v, atom v -> py_ok v.
Proof. intros v H. apply Po_scalar. destruct v; try exact I; contradiction. Qed.

Lemma set_tz_settled : forall v, settled v -> settled (set_tz (c_tz C) v).
Proof. intros v H. destruct v as [| | | | | | |w0 [z|]| | | | | | | | | | | |]; try exact H. apply Se_atom. exact I. Qed.
Lemma set_tz_fits : forall t v, fits t v -> fits t (set_tz (c_tz C) v).
Proof. intros t v H. destruct v as [| | | | | | |w0 [z|]| | | | | | | | | | | |]; try exact H. destruct t; fcases H; try (right; exact I). right. left. cbn. eauto. Qed.
Lemma nval_settled : forall ver v, py_ok v -> (ver = true \/ supported v) -> sp (nval C ver v) settled.
Proof. intros ver v P S. apply sp_ret. intros a H. unfold new_value in H. apply rmap_ok in H as [u [E ->]]. apply set_tz_settled. eapply coerce_settled; eauto. Qed.
Lemma nval_fits : forall t v, good t v -> sp (nval C false v) (good t).
Proof.
  intros t v [S F]. apply sp_ret. intros a H. unfold new_value in H. rewrite settled_coerce in H by exact S. inversion H; subst. split; [apply set_tz_settled; exact S|apply set_tz_fits; exact F].
Qed.

(** ** Reading names *)
Lemma sp_resolve : forall v n b, v = thing \/ nice v -> sp (resolve C v n b) nice.
Proof.
  intros v n b Hv. unfold resolve. destruct b.
  - assert (KK : forall b, assoc n (c_bvals C) = Some b -> exists n', In (n', b) (c_bvals C)).
    { clear. intros b E. induction (c_bvals C) as [|[k y] l IH]; cbn in E; [discriminate|]. destruct (str_eqb n k); [inversion E; subst; exists k; left; reflexivity|]. destruct (IH E) as [n' H]. exists n'. right. exact H. }
    destruct (assoc n (c_bvals C)) as [[x| | | |g]|] eqn:E.
    + apply sp_ok. destruct (KK _ eq_refl) as [n' K]. exact (Builtins _ _ K).
    + intros q a q' I0 R. cbn in R. inversion R; subst. split; [split; [apply Po_scalar; exact I|constructor]|exact I0].
    + intros q a q' I0 R. cbn in R. inversion R; subst. split; [split; [apply Po_scalar; exact I|constructor]|exact I0].
    + intros q a q' I0 R. cbn in R. inversion R; subst. split; [apply I0|exact I0].
    + destruct (KK _ eq_refl) as [n' K]. intros q a q' I0 R. rewrite run_pthen in R. unfold actr in R. cbn [run step_op] in R. destruct (w_user w (s_log q) g []) as [a1|x]; [|destruct x; discriminate R].
      cbn [run step_op log s_log] in R. destruct (w_user w _ g []) as [a2|x] eqn:E2; [|discriminate R]. injection R as <- <-. split; [exact (Builtins _ _ K _ _ E2)|exact I0].
    + apply sp_raise.
  - intros q a q' I0 R. apply run_pbind_ok in R as [l [q1 [R1 R2]]]. cbn in R1. inversion R1; subst. destruct (find_scope (s_scopes q1) n) as [x|] eqn:E.
    + cbn in R2. inversion R2; subst. split; [|exact I0]. apply (proj1 I0). clear - E. induction (s_scopes q') as [|y l IH]; cbn in E; [discriminate|]. destruct (str_eqb n (a_name y)); [inversion E; left; reflexivity|right; auto].
    + cbn in R2. inversion R2; subst. split; [eapply (be_resolve _ _ B); eauto|]. exact I0.
Qed.
(** no variable in scope shadows a builtin attribute, and the resolver finds none on null *)
Lemma sp_resolve_null : forall n, attr_name n -> sp (resolve C VNull n false) (fun _ => False).
Proof.
  intros n Hn q a q' I0 R. unfold resolve in R. apply run_pbind_ok in R as [l [q1 [R1 R2]]]. cbn in R1. inversion R1; subst. destruct (find_scope (s_scopes q1) n) as [x|] eqn:E.
  - exfalso. assert (K : In x (s_scopes q1) /\ n = a_name x).
    { clear - E. induction (s_scopes q1) as [|y l IH]; cbn in E; [discriminate|]. destruct (str_eqb n (a_name y)) eqn:Q; [inversion E; subst; split; [left; reflexivity|apply str_eqb_eq; exact Q]|]. destruct (IH E). split; [right|]; assumption. }
    destruct K as [K1 ->]. destruct (proj1 I0 x K1). contradiction.
  - exfalso. cbn in R2. inversion R2; subst. eapply (be_null _ _ B); eauto.
Qed.

(** ** Calls *)
Lemma extremum_In : forall o l b v, extremum o b l = Ok v -> v = b \/ In v l.
Proof. intro o. induction l as [|x l IH]; cbn; intros b v H; [inversion H; auto|]. apply rbind_ok in H as [c [_ H]]. apply IH in H. destruct c; intuition congruence. Qed.
Lemma sum_atom : forall dc l a v, atom a -> sum_list dc a l = Ok v -> atom v.
Proof.
  intro dc. induction l as [|x l IH]; cbn; intros a v Ha H; [inversion H; subst; exact Ha|]. apply rbind_ok in H as [c [E H]]. eapply IH; [|exact H].
  unfold sum_add in E. destruct a; try contradiction; destruct x; cbn [is_numeric] in E; try discriminate E; first [inversion E; exact I | apply rdec_dec in E as [d' ->]; exact I].
Qed.
Lemma nice_iter : forall v l, nice v -> py_iter v = Ok l -> forall x, In x l -> nice x.
Proof.
  intros v l [P S] E x Hx. destruct v; cbn in E; inversion E; subst; try (apply in_map_iff in Hx as [c [<- _]]; split; [apply Po_scalar; exact I|constructor]);
    inversion P as [? K|? K|? K|? K|? K|? K]; subst; try contradiction; inversion S as [| | | | | | | | | |? S'|? S'|? S'|? S'|? S'|? S'| | | ]; subst.
  - split; auto.
  - split; auto.
  - split; [apply K|]; auto.
  - apply in_map_iff in Hx as [[k y] [<- Hk]]. destruct (K _ _ Hk), (S' _ _ Hk). split; assumption.
  - apply in_map_iff in Hx as [[k y] [<- Hk]]. destruct (K _ _ Hk), (S' _ _ Hk). split; assumption.
Qed.
Lemma first_order_ok : forall f args, (forall a, In a args -> nice a) -> sp (apply_first_order C f args) py_ok.
Proof.
  intros f args Ha.
  assert (IT : forall v l, nice v -> py_iter v = Ok l -> forall x, In x l -> py_ok x).
  { intros v l N E x Hx. apply (nice_iter v l N E x Hx). }
  assert (RD : forall o, sp (act (ORandom o)) py_ok).
  { intros o q a q' I0 R. cbn in R. inversion R; subst. split; [apply (be_random _ _ B)|exact I0]. }
  assert (DC : forall (k : dctx -> result value), (forall dc v, k dc = Ok v -> py_ok v) -> sp (do! dc := act OGetDc in Ret (k dc)) py_ok).
  { intros k Hk q a q' I0 R. cbn in R. inversion R; subst. split; [eapply Hk; eassumption|exact I0]. }
  destruct f; cbn [apply_first_order].
  - destruct args as [|v [|v2 r]]; try apply sp_raise. apply DC. intros dc u E. unfold py_abs in E. apply atom_ok. destruct v; try discriminate E; try (inversion E; exact I).
    + apply rdec_dec in E as [d' ->]. exact I.
    + destruct f; inversion E; exact I.
    + apply mk_td_td in E as [u' ->]. exact I.
  - destruct args as [|v [|v2 r]]; try apply sp_raise. apply sp_ret. intros u E. apply rmap_ok in E as [l [_ ->]]. apply atom_ok. exact I.
  - destruct args as [|v [|v2 r]]; try apply sp_raise. apply sp_ret. intros u E. apply rmap_ok in E as [l [_ ->]]. apply atom_ok. exact I.
  - destruct args as [|v [|v2 r]]; try apply sp_raise. apply DC. intros dc u E. apply rbind_ok in E as [l [_ E]]. apply atom_ok. eapply sum_atom; [|exact E]. exact I.
  - apply sp_raise.
  - destruct args as [|v [|v2 r]]; try apply sp_raise. apply sp_ret. intros u E. apply rbind_ok in E as [l [E1 E]]. destruct l as [|x l]; [discriminate|]. apply extremum_In in E. eapply (IT v); [apply Ha; left; reflexivity|exact E1|]. cbn. destruct E; auto.
  - destruct args as [|v [|v2 r]]; try apply sp_raise. apply sp_ret. intros u E. apply rbind_ok in E as [l [E1 E]]. destruct l as [|x l]; [discriminate|]. apply extremum_In in E. eapply (IT v); [apply Ha; left; reflexivity|exact E1|]. cbn. destruct E; auto.
  - apply sp_raise.
  - destruct args as [|v [|v2 r]]; try apply sp_raise; destruct v; try apply sp_raise. apply sp_ret. intros u E. unfold parse_datetime in E. destruct (o_isoparse t) as [[w0 [z|]]|]; inversion E; apply atom_ok; exact I.
  - destruct args as [|v [|v2 r]]; try apply sp_raise; destruct v; try apply sp_raise. apply sp_ret. intros u E. apply rmap_ok in E as [d [_ ->]]. apply atom_ok. exact I.
  - destruct args as [|v [|v2 r]]; try apply sp_raise; destruct v; try apply sp_raise. apply sp_ret. intros u E. apply parse_timedelta_td in E as [d ->]. apply atom_ok. exact I.
  - unfold b_random. destruct args as [|b [|b2 r]]; [apply RD| |apply sp_raise]. destruct (truthy b); [|apply RD]. eapply sp_bind; [apply sp_any|]. intros [] _; [apply RD|apply sp_raise].
  - apply sp_ret. intros u E. destruct (range_shape _ _ E) as [l ->]. apply Po_list. intros x Hx. apply in_map_iff in Hx as [z [<- _]]. apply atom_ok. exact I.
  - apply sp_ret. intros u E. destruct (split_shape _ _ E) as [l [-> [K _]]]. apply Po_arr. intros x Hx. destruct (K x Hx) as [[t ->]|[t ->]]; apply atom_ok; exact I.
Qed.

Lemma sp_map : forall A X (f : A -> X) (p : prog A) (P : A -> Prop) (Q : X -> Prop), sp p P -> (forall a, P a -> Q (f a)) -> sp (do! a := p in ok (f a)) Q.
Proof. intros A X f p P Q H K. eapply sp_bind; [exact H|]. intros a Ha. apply sp_ok. auto. Qed.
Lemma flat_ok : forall f args, (forall a, In a args -> nice a) -> sp (apply_flat C f args) py_ok.
Proof.
  intros f args Ha. destruct f; try apply sp_raise; cbn [apply_flat].
  - intros q a q' I0 R. cbn in R. destruct (w_user w (s_log q) n args) eqn:E; inversion R; subst. split; [|exact I0]. eapply (be_user _ _ B); [|exact E]. intros x Hx. apply Ha. exact Hx.
  - apply first_order_ok. exact Ha.
  - destruct args as [|a [|a2 r]]; try apply sp_raise. apply sp_ret. intros v H. apply atom_ok. unfold meth_call in H. destruct m.
    + destruct f; try discriminate H; destruct a; try discriminate H. cbv zeta in H. repeat match type of H with (match ?x with _ => _ end) = Ok _ => destruct x; try discriminate H end; injection H as <-; exact I.
    + destruct f; try discriminate H; destruct a; try discriminate H. cbv zeta in H. repeat match type of H with (match ?x with _ => _ end) = Ok _ => destruct x; try discriminate H end; injection H as <-; exact I.
    + repeat match type of H with rbind _ _ = Ok _ => let u := fresh in apply rbind_ok in H as [u [_ H]] | (match ?x with _ => _ end) = Ok _ => destruct x; try discriminate H end; try (apply rmap_ok in H as [u [_ ->]]; exact I); injection H as <-; exact I.
    + repeat match type of H with rbind _ _ = Ok _ => let u := fresh in apply rbind_ok in H as [u [_ H]] | (match ?x with _ => _ end) = Ok _ => destruct x; try discriminate H end; try (apply rmap_ok in H as [u [_ ->]]; exact I); injection H as <-; exact I.
Qed.
Lemma apply_ok : forall f args, (forall a, In a args -> nice a) -> sp (apply_fun C f args) py_ok.
Proof.
  intros f args Ha.
  assert (D : sp (apply_flat C f args) py_ok) by (apply flat_ok; exact Ha).
  destruct f as [| | | | | | | | | | | | | | | | |b| |]; try exact D. destruct b; try exact D; destruct args as [|g [|it [|a3 r]]]; try exact D; cbn [apply_fun].
  - apply (sp_bind _ _ _ _ (fun l => forall x, In x l -> nice x)).
    + apply sp_ret. intros l E. eapply nice_iter; [|exact E]. apply Ha. right. left. reflexivity.
    + intros l Hl. eapply sp_bind; [apply (sp_pmapM _ _ _ (fun _ y => py_ok y))|].
      * intros x Hx. apply flat_ok. intros a [<-|[]]. auto.
      * intros r F. apply sp_ok. apply Po_arr. intros x Hx. destruct (Forall2_In_r _ _ _ _ _ _ F Hx) as [_ [_ K]]. exact K.
  - apply (sp_bind _ _ _ _ (fun l => forall x, In x l -> nice x)).
    + apply sp_ret. intros l E. eapply nice_iter; [|exact E]. apply Ha. right. left. reflexivity.
    + intros l Hl. eapply sp_bind; [apply (sp_pmapM _ _ _ (fun _ y => nice (snd y)))|].
      * intros x Hx. apply (sp_bind _ _ _ _ (fun _ => True)); [|intros y _; apply sp_ok; cbn; auto].
        destruct g; try (apply sp_ok; exact I); (eapply sp_impl; [|apply flat_ok; intros a [<-|[]]; auto]; auto).
      * intros r F. apply sp_ok. apply Po_arr. intros x Hx. apply in_map_iff in Hx as [[b y] [<- Hy]]. apply filter_In in Hy as [Hy _].
        destruct (Forall2_In_r _ _ _ _ _ _ F Hy) as [_ [_ K]]. apply K.
Qed.

Lemma sp_then : forall A X (p : prog A) (f : result A -> prog X) (P : A -> Prop) Q, sp p P -> (forall a, P a -> sp (f (Ok a)) Q) ->
  (forall x q r q', run w (f (Err x)) q <> (Ok r, q')) -> sp (pthen p f) Q.
Proof.
  intros A X p f P Q Hp Ho He q b q' I0 R. rewrite run_pthen in R. destruct (run w p q) as [[a|x] q1] eqn:E.
  - destruct (Hp _ _ _ I0 E) as [Ha I1]. eapply Ho; eauto.
  - exfalso. eapply He. exact R.
Qed.

(** ** Operators *)
Lemma settled_atom : forall v, match v with VNull | VBool _ | VDec _ | VStr _ | VBytes _ | VDt _ _ | VTd _ | VFun _ | VBFun _ | VMeth _ _ => True | _ => False end -> settled v.
Proof. intros v H. apply Se_atom. exact H. Qed.
Lemma add_good : forall dc a b x y v, good a x -> good b y -> op_add dc x y = Ok v -> good (bin_type BAdd a b) v.
Proof.
  intros dc a b x y v [Sx Fx] [Sy Fy] H.
  assert (K : match x, y with
              | VDt _ _, VTd _ => exists w0 z, v = VDt w0 z | VTd _, VTd _ => exists u, v = VTd u | VTd _, VDt _ _ => exists w0 z, v = VDt w0 z
              | VBytes _, VBytes _ => exists u, v = VBytes u | VStr _, VStr _ => exists u, v = VStr u
              | _, _ => numlike x /\ numlike y /\ exists d, v = VDec d end).
  { destruct x; cbn [op_add] in H; destruct y; try discriminate H; cbn [is_numeric is_bytes is_str andb orb] in H; try discriminate H;
      try (apply mk_dt_dt in H as [? ->]; eauto; fail); try (apply mk_td_td in H as [? ->]; eauto; fail); try (apply rdec_dec in H as [? ->]; exact (conj I (conj I (ex_intro _ _ eq_refl)))); injection H as <-; eauto. }
  clear H. split.
  - destruct x, y; first [destruct K as [? [? ->]]; (apply settled_atom; exact I)|destruct K as [? ->]; (apply settled_atom; exact I)|destruct K as [_ [_ [? ->]]]; (apply settled_atom; exact I)].
  - unfold bin_type, add_type. destruct x; destruct y; try (match type of K with numlike _ /\ _ => destruct K as [K1 [K2 K]]; try (exfalso; exact K1); try (exfalso; exact K2) end);
      repeat match type of K with ex _ => let u := fresh in destruct K as [u K] | _ /\ _ => let k := fresh in destruct K as [k K] end; subst v;
      destruct a; fcases Fx; destruct b; fcases Fy; cbn; try (right; exact I); right; eauto.
Qed.
Lemma sub_good : forall dc a b x y v, good a x -> good b y -> op_sub dc x y = Ok v -> good (bin_type BSub a b) v.
Proof.
  intros dc a b x y v [Sx Fx] [Sy Fy] H.
  assert (K : match x, y with
              | VDt _ _, VTd _ => exists w0 z, v = VDt w0 z | VTd _, VTd _ => exists u, v = VTd u | VDt _ _, VDt _ _ => exists u, v = VTd u
              | _, _ => numlike x /\ numlike y /\ exists d, v = VDec d end).
  { destruct x; cbn [op_sub] in H; destruct y; try discriminate H; cbn [is_numeric andb] in H; try discriminate H;
      try (apply mk_dt_dt in H as [? ->]; eauto; fail); try (apply mk_td_td in H as [? ->]; eauto; fail); try (apply rdec_dec in H as [? ->]; exact (conj I (conj I (ex_intro _ _ eq_refl)))).
    destruct tz, tz0; try discriminate H; apply mk_td_td in H as [? ->]; eauto. }
  clear H. split.
  - destruct x, y; first [destruct K as [? [? ->]]; (apply settled_atom; exact I)|destruct K as [? ->]; (apply settled_atom; exact I)|destruct K as [_ [_ [? ->]]]; (apply settled_atom; exact I)].
  - unfold bin_type, sub_type. destruct x; destruct y; try (match type of K with numlike _ /\ _ => destruct K as [K1 [K2 K]]; try (exfalso; exact K1); try (exfalso; exact K2) end);
      repeat match type of K with ex _ => let u := fresh in destruct K as [u K] | _ /\ _ => let k := fresh in destruct K as [k K] end; subst v;
      destruct a; fcases Fx; destruct b; fcases Fy; cbn; try (right; exact I); right; eauto.
Qed.
Lemma neg_good : forall dc t x v, good t x -> op_neg dc x = Ok v -> good t v.
Proof.
  intros dc t x v [S F] H. unfold op_neg in H. destruct x; try discriminate H; cbn [is_numeric] in H; try (inversion S; contradiction).
  - apply rdec_dec in H as [d0 ->]. split; [(apply settled_atom; exact I)|]. eapply fits_num; [| |exact F]; exact I.
  - apply mk_td_td in H as [u ->]. split; [(apply settled_atom; exact I)|]. destruct t; fcases F; try (right; exact I). right. eauto.
Qed.
Lemma arith_good : forall o dc x y v, op_arith o dc x y = Ok v -> good TFloat v.
Proof.
  intros o dc x y v H. unfold op_arith in H. destruct (dec_arith _ _ _ _); [|destruct (is_arithmetic x0); discriminate]. injection H as <-. split; [(apply settled_atom; exact I)|]. right. left. eauto.
Qed.
Lemma natural_numlike : forall x u, assert_natural x = Ok u -> match x with VSet _ | VNull | VArr _ | VMap _ => False | _ => True end.
Proof. intros x u H. destruct x; try exact I; discriminate H. Qed.
Lemma bit_float_good : forall o a b x y v, good a x -> good b y -> from_value x = Ok TFloat -> op_bit_float o x y = Ok v -> good (bin_type (BBit o) a b) v.
Proof.
  intros o a b x y v [Sx Fx] [Sy Fy] T H. unfold op_bit_float in H. apply rbind_ok in H as [u [N H]]. injection H as <-. split; [(apply settled_atom; exact I)|].
  apply natural_numlike in N. cbn [bin_type]. unfold bit_type.
  assert (is_set_t a = false).
  { destruct a; try reflexivity. fcases Fx; subst; [discriminate T|]. cbn in T. apply rmap_ok in T as [? [_ T]]. discriminate T. }
  assert (is_set_t b = false). { destruct b; try reflexivity. fcases Fy; subst; contradiction. }
  rewrite H, H0. cbn [orb]. destruct (_ || _); [right; left; eauto|]. destruct (is_shift o); [right; left; eauto|apply fits_undef].
Qed.
Lemma bit_set_good : forall o a b x y v, good a x -> good b y -> op_bit_set o x y = Ok v -> good (bin_type (BBit o) a b) v.
Proof.
  intros o a b x y v [Sx Fx] [Sy Fy] H. unfold op_bit_set in H. apply rbind_ok in H as [t [_ H]]. destruct (is_compat t t_set); [|discriminate].
  destruct x as [| | | | | | | | | | | | |lx| | | | | | ]; try discriminate H. destruct y as [| | | | | | | | | | | | |ly| | | | | | ]; try discriminate H. apply rmap_ok in H as [l [H ->]].
  inversion Sx as [? K|? K|? K|? K K2]; [contradiction|]. inversion Sy as [? K'|? K'|? K'|? K' K2']; [contradiction|]. subst.
  assert (L : forall x, In x l -> In x lx \/ In x ly).
  { intros z Hz. destruct o; cbn [set_bitop] in H; try discriminate H; injection H as <-.
    - destruct (_ <? _)%nat; apply filter_In in Hz; tauto.
    - apply in_app_or in Hz as [Hz|Hz]; [auto|]. apply filter_In in Hz; tauto.
    - apply in_app_or in Hz as [Hz|Hz]; apply filter_In in Hz; tauto. }
  split.
  - apply Se_set. intros z Hz. apply (Permutation_in _ (o_set_order_perm _)) in Hz. destruct (L z Hz); auto.
  - cbn [bin_type]. unfold bit_type. assert (Na : dt_eqb a TFloat = false) by (destruct a; try reflexivity; fcases Fx). assert (Nb : dt_eqb b TFloat = false) by (destruct b; try reflexivity; fcases Fy).
    rewrite Na, Nb. destruct (_ || _); [right; eexists; split; [reflexivity|intros; apply fits_undef]|]. cbn [orb].
    destruct o; cbn in *; try discriminate H; apply fits_undef.
Qed.
Lemma tern_good : forall a b v, good a v \/ good b v -> good (tern_type a b) v.
Proof.
  intros a b v H. split; [destruct H as [[H _]|[H _]]; exact H|]. unfold tern_type. destruct (dt_eqb a b) eqn:E.
  - destruct H as [[_ H]|[_ H]]; [exact H|]. rewrite dt_eqb_sym in E. eapply fits_eqb; eauto.
  - destruct (is_array_t a && is_array_t b) eqn:A; [|apply fits_undef]. apply andb_true_iff in A as [A1 A2]. destruct a; try discriminate. destruct b; try discriminate.
    destruct H as [[_ H]|[_ H]]; cbn in H; (destruct H as [->|[l [H _]]]; [apply fits_null|]; right; exists l; split; [exact H|]; intros; apply fits_undef).
Qed.
Lemma slice_In : forall A (l : list A) a b x, In x (seq_slice l a b) -> In x l.
Proof.
  intros A l a b x H. unfold seq_slice in H. cbv zeta in H.
  assert (F : forall n (l : list A), In x (firstn n l) -> In x l) by (induction n as [|n IH]; intros [|y k]; cbn; intuition).
  assert (G : forall n (l : list A), In x (skipn n l) -> In x l) by (induction n as [|n IH]; intros [|y k]; cbn; intuition).
  apply F, G in H. exact H.
Qed.
Lemma slice_good : forall t x a b v v', good t x -> py_getslice x a b = Ok v -> coerce false v = Ok v' -> good (slice_type t) v'.
Proof.
  intros t x a b v v' [S F] H E. destruct x; try discriminate H; cbn in H; injection H as <-; try (inversion S; contradiction).
  - cbn in E. injection E as <-. split; [(apply settled_atom; exact I)|]. destruct t; fcases F; try apply fits_undef. right. eauto.
  - cbn in E. injection E as <-. split; [(apply settled_atom; exact I)|]. destruct t; fcases F; try apply fits_undef. right. eauto.
  - assert (S' : settled (VArr (seq_slice l a b))). { apply Se_arr. intros y Hy. apply slice_In in Hy. inversion S; [contradiction|]. auto. }
    rewrite (settled_coerce _ S') in E. injection E as <-. split; [exact S'|]. destruct t; fcases F; try apply fits_undef. injection F as <-. right. eexists. split; [left; reflexivity|]. intros y Hy. apply slice_In in Hy. auto.
Qed.
Lemma seq_get_In : forall A (l : list A) i x, seq_get l i = Some x -> In x l.
Proof. intros A l i x H. unfold seq_get in H. destruct (norm_index _ _); [|discriminate]. eapply nth_error_In. exact H. Qed.
Lemma dict_get_In' : forall A (l : list (value * A)) k x, dict_get l k = Some x -> exists k', In (k', x) l.
Proof. intros A l k x H. induction l as [|[k' y] l IH]; cbn in H; [discriminate|]. destruct (py_eq k' k); [inversion H; subst; exists k'; left; reflexivity|]. destruct (IH H) as [k2 K]. exists k2. right. exact K. Qed.
Lemma item_good : forall t x k v, good t x -> py_getitem x k = Ok v -> (exists z, v = VInt z /\ fits (item_type t) (VDec (dec_of_Z z))) \/ good (item_type t) v.
Proof.
  intros t x k v [S F] H. destruct x; try discriminate H; cbn [py_getitem] in H; try (inversion S; contradiction).
  - right. destruct (seq_get _ _) eqn:E; [|discriminate]. injection H as <-. split; [(apply settled_atom; exact I)|]. destruct t; fcases F; try apply fits_undef. right. eauto.
  - left. destruct (seq_get _ _) eqn:E; [|discriminate]. injection H as <-. eexists. split; [reflexivity|]. destruct t; fcases F; try apply fits_undef. right. left. eauto.
  - right. destruct (seq_get _ _) eqn:E; [|discriminate]. injection H as <-. apply seq_get_In in E. inversion S; [contradiction|]. split; [auto|]. destruct t; fcases F; try apply fits_undef. injection F as <-. apply G. exact E.
  - right. destruct (hashable k); [|discriminate]. destruct (dict_get _ _) eqn:E; [|discriminate]. injection H as <-. apply dict_get_In' in E as [k' E]. inversion S as [| | |? K]; [contradiction|]. subst.
    split; [eapply K; exact E|]. destruct t; fcases F; try apply fits_undef; destruct G as [G _]; injection F as <-; apply G; apply in_map_iff; eexists; split; [|exact E]; reflexivity.
Qed.

(** ** Evaluation *)
Lemma fair_part : forall x e, part x e -> fair C e -> fair C x.
Proof. intros x e H [F G]. split; intros; [eapply F|eapply G]; eapply part_trans; eauto. Qed.
Lemma lits_part : forall x e, part x e -> lits_ok e -> lits_ok x.
Proof. intros x e H [F G]. split; intros; [eapply F|eapply G]; eapply part_trans; eauto. Qed.

Lemma lit_good : forall v, settled v -> good (lit_type v) v.
Proof.
  intros v S. split; [exact S|]. destruct (proj2 (from_value_supported v (settled_py_ok _ S)) (settled_supported _ S)) as [t E]. unfold lit_type. rewrite E. apply fits_own. exact E.
Qed.
Lemma sym_good : forall n t v v', settled v -> sym_check n t v = Ok v' -> good t v'.
Proof.
  intros n t v v' S H. unfold sym_check in H. destruct (is_undef t) eqn:U; [injection H as <-; split; [exact S|destruct t; try discriminate; apply fits_undef]|].
  apply rbind_ok in H as [vt [E H]].
  assert (L : (if dt_eqb vt TNull then Ok v else Err (XSymType n)) = Ok v' -> good t v').
  { intro K. destruct (dt_eqb vt TNull) eqn:N; [|discriminate]. injection K as <-. destruct vt; try discriminate. apply from_value_null in E. subst. split; [exact S|apply fits_null]. }
  destruct (is_compat vt t) eqn:K; [|apply L; exact H]. assert (F := fits_own v vt E).
  destruct (is_scalar t) eqn:Sc; [injection H as <-; split; [exact S|]; eapply fits_flat; [|exact E|exact K]; destruct t; try discriminate; exact I|].
  destruct (is_undef (value_type t)) eqn:VU.
  { injection H as <-. split; [exact S|]. eapply fits_flat; [|exact E|exact K]. destruct t; try exact I; cbn in VU |- *; destruct t || (destruct t1; destruct t2) || idtac; try discriminate; reflexivity. }
  destruct (_ && _) in H; [discriminate|]. destruct (dt_eqb (value_type t) (value_type vt)) eqn:Q; [|apply L; exact H]. injection H as <-. split; [exact S|]. rewrite dt_eqb_sym in Q.
  destruct t; try discriminate VU; destruct vt; try (exfalso; exact (from_value_not_undef v E)); try (rewrite is_compat_fun in K); try (cbn in K; discriminate K);
    cbn [value_type] in Q; cbn [fits] in F |- *; destruct F as [F|F]; auto; right.
  - destruct F as [l [F G]]. exists l. split; [exact F|]. intros x Hx. eapply fits_eqb; [exact Q|]. auto.
  - destruct F as [l [F G]]. exists l. split; [exact F|]. intros x Hx. eapply fits_eqb; [exact Q|]. auto.
  - destruct F as [l [F [G G2]]]. exists l. split; [exact F|]. split; [intros x Hx; eapply fits_eqb; [exact Q|]; auto|].
    assert (E' : from_value (VMap l) = Ok (TMap vt1 vt2 nb0)) by (destruct F as [->| ->]; exact E). apply from_value_map in E' as [ks [ts [T1 [_ E']]]]. inversion E'; subst.
    intros kts Hk. assert (kts = ks). { clear - T1 Hk. revert kts Hk. induction T1; intros kts K; inversion K; subst; [reflexivity|]. f_equal; [congruence|auto]. } subst.
    cbn in K. apply andb_true_iff in K as [K _]. exact K.
Qed.
Lemma sym_check_same : forall n t v v', sym_check n t v = Ok v' -> v' = v.
Proof.
  intros n t v v' H. unfold sym_check in H. destruct (is_undef t); [congruence|]. apply rbind_ok in H as [vt [_ H]]. cbv zeta in H.
  repeat match type of H with (if ?b then _ else _) = _ => destruct b; try discriminate H; try congruence end.
Qed.
Lemma no_attr_err : forall t v n ty nm sg, settled v -> fits t v -> is_undef t = false -> v <> VNull -> resolve_attr_type t n = Ok ty -> resolve_attr v n <> Err (XAttrRes nm sg).
Proof.
  intros t v n ty nm sg S F U N Ht H. destruct (proj2 (from_value_supported v (settled_py_ok _ S)) (settled_supported _ S)) as [vt E].
  assert (K : is_compat vt t = true) by (destruct (fits_compat _ _ _ F E); [subst; apply from_value_null in E; contradiction|assumption]).
  assert (U0 : is_undef vt = false) by (destruct vt; try reflexivity; exfalso; exact (from_value_not_undef _ E)).
  unfold resolve_attr_type in Ht. apply rbind_ok in Ht as [a [A Ht]]. unfold resolve_attr in H. rewrite E, (get_attr_same vt t n U0 U K), A in H. cbn [rbind] in H.
  destruct (attr_fun a v) as [x|x] eqn:E1; cbn [rbind] in H; [|injection H as ->; eapply attr_fun_err; exact E1].
  destruct (coerce true x) as [y|y] eqn:E2; cbn [rbind] in H; [|injection H as ->; apply (coerce_err _ _ _ (attr_fun_py_ok _ _ _ S E1)) in E2; discriminate E2].
  assert (Sy : settled y) by (eapply coerce_settled; [eapply attr_fun_py_ok; eauto|left; reflexivity|exact E2]).
  destruct (proj2 (from_value_supported y (settled_py_ok _ Sy)) (settled_supported _ Sy)) as [yt Ey]. rewrite Ey in H. cbn [rbind] in H.
  destruct (attr_type a yt) as [et|x0] eqn:E3; cbn [rbind] in H; [destruct (is_compat et yt); discriminate|]. injection H as ->.
  unfold attr_type in E3. destruct a; try discriminate E3; destruct (dt_eqb yt TBytes); try discriminate E3; destruct (dt_eqb yt TString); try discriminate E3; destruct yt; discriminate E3.
Qed.

Lemma callable_settled : forall v, callable v = true -> settled v.
Proof. intros v H. destruct v; try discriminate H; apply settled_atom; exact I. Qed.
Lemma sp_act_dc : forall (k : dctx -> prog value) Q, (forall dc, sp (k dc) Q) -> sp (pbind (act OGetDc) k) Q.
Proof. intros k Q H. apply (sp_bind _ _ _ _ (fun _ => True)); [|intros dc _; apply H]. intros q a q' I0 R. cbn in R. inversion R; subst. split; [exact I|exact I0]. Qed.
Lemma good_bool : forall b, good TBool (VBool b).
Proof. intro b. split; [apply settled_atom; exact I|]. right. eauto. Qed.
Lemma bool_good : forall r : result bool, sp (vbool r) (good TBool).
Proof. intro r. apply sp_ret. intros a H. apply rmap_ok in H as [b [_ ->]]. apply good_bool. Qed.
Lemma fuzzy_good : forall sr ng pre x y, sp (fuzzy_match C sr ng pre x y) (good TBool).
Proof.
  intros sr ng pre x y. unfold fuzzy_match. destruct x; try apply sp_raise.
  - destruct y; try apply sp_raise; [apply sp_ok; apply good_bool|]. eapply sp_bind; [apply sp_any|]. intros _ _. apply sp_ok. apply good_bool.
  - destruct y; try apply sp_raise; [apply sp_ok; apply good_bool|]. eapply sp_bind; [apply sp_any|]. intros _ _. destruct (o_re _ _ _ _) as [gs|]; [|apply sp_ok; apply good_bool].
    apply (sp_bind _ _ _ _ (fun _ => True)); [|intros; apply sp_ok; apply good_bool]. intros q a q' I0 R. cbn in R. inversion R; subst. split; [exact I|]. split; [apply I0|].
    cbn. split; [apply Po_arr|constructor]; intros z Hz; apply in_map_iff in Hz as [[g|] [<- _]]; try (apply Po_scalar; exact I); constructor.
Qed.
Lemma new_set_good : forall es vs, Forall2 (fun e v => good (rtype e) v /\ hashable v = true) es vs -> good (TSet (member_type (map rtype es)) true) (new_set (mk_set vs)).
Proof.
  intros es vs F. assert (M : forall x, In x (o_set_order (mk_set vs)) -> exists e, In e es /\ good (rtype e) x /\ hashable x = true).
  { intros x Hx. apply (Permutation_in _ (o_set_order_perm _)) in Hx. apply mk_set_In in Hx. destruct (Forall2_In_r _ _ _ _ _ _ F Hx) as [e [He K]]. eauto. }
  split.
  - apply Se_set. intros x Hx. destruct (M x Hx) as [e [_ [[S _] Hh]]]. split; [exact Hh|]. split; [apply settled_py_ok; exact S|apply settled_supported; exact S].
  - right. eexists. split; [reflexivity|]. intros x Hx. destruct (M x Hx) as [e [He [[_ K] _]]]. eapply fits_member; [|exact K]. apply in_map. exact He.
Qed.

(** what a call of range or split returns *)
Lemma range_call_good : forall nb vs r v, b_range vs = Ok r -> new_value (c_tz C) true r = Ok v -> good (TArray TFloat nb) v.
Proof.
  intros nb vs r v R H. destruct (range_shape _ _ R) as [l ->]. unfold new_value in H. apply rmap_ok in H as [u [E ->]]. 
  assert (P : py_ok (VList (map VInt l))) by (apply Po_list; intros x Hx; apply in_map_iff in Hx as [z [<- _]]; apply Po_scalar; exact I).
  assert (S := coerce_settled true _ _ P (or_introl eq_refl) E). split; [apply set_tz_settled; exact S|]. apply set_tz_fits.
  apply coerce_cases in E. cbn in E. destruct E as [l' [F ->]]. right. exists l'. split; [auto|]. intros y Hy. destruct (Forall2_In_r _ _ _ _ _ _ F Hy) as [x [Hx E]].
  apply in_map_iff in Hx as [z [<- _]]. cbn in E. injection E as <-. right. left. eauto.
Qed.
Lemma split_call_good : forall nb nm a mn vs r v, validate (TFun nm (TArray TString nb) (Some (TString :: a)) mn) (map from_value vs) = Ok tt ->
  b_split vs = Ok r -> new_value (c_tz C) true r = Ok v -> good (TArray TString nb) v.
Proof.
  intros nb nm a mn vs r v V R H. destruct (split_shape _ _ R) as [l [-> [K1 K2]]]. unfold new_value in H. apply rmap_ok in H as [u [E ->]].
  assert (K : forall x, In x l -> exists t, x = VStr t).
  { destruct vs as [|x0 vs]; [discriminate R|]. specialize (K2 x0 vs eq_refl). destruct x0; try contradiction; [exact K2|]. exfalso. cbn [map validate] in V.
    destruct (match mn with Some m => _ | None => _ end) in V; [discriminate V|]. destruct (_ <? _) in V; [discriminate V|]. cbn in V. discriminate V. }
  assert (P : py_ok (VArr l)) by (apply Po_arr; intros x Hx; destruct (K x Hx) as [t ->]; apply Po_scalar; exact I).
  assert (S := coerce_settled true _ _ P (or_introl eq_refl) E). split; [apply set_tz_settled; exact S|]. apply set_tz_fits.
  apply coerce_cases in E. cbn in E. destruct E as [l' [F ->]]. right. exists l'. split; [auto|]. intros y Hy. destruct (Forall2_In_r _ _ _ _ _ _ F Hy) as [x [Hx E]].
  destruct (K x Hx) as [t ->]. cbn in E. injection E as <-. right. eauto.
Qed.

Theorem eval_sound : forall e, lits_ok e -> fair C e -> sp (eval C thing e) (good (rtype e)).
Proof.
  induction e as [v|v t|l IH|l IH|l IH|o a b IHa IHb|r n i c IHr IHi IHc|c m IHc IHm|o n sf IHo|c i sf IHc IHi|c a b sf IHc IHa IHb|n bi t|f l IHf IHl|c a b IHc IHa IHb|o e IHe] using expr_ind';
    intros L F; cbn [eval rtype].
  - apply sp_ok. apply lit_good. apply L. constructor.
  - apply sp_ok. destruct (proj2 L v t (Pa_self _)) as [K1 K2]. split; [apply callable_settled; exact K1|]. destruct t; try contradiction; [apply fits_undef|right; exact K1].
  - rewrite Forall_forall in IH. eapply sp_map; [apply (sp_pmapM _ _ _ (fun e v => good (rtype e) v))|].
    + intros e He. assert (P : part e (EArr l)) by (eapply Pa_arr; [exact He|constructor]). apply IH; [exact He|eapply lits_part; eauto|eapply fair_part; eauto].
    + intros vs K. split.
      * apply Se_arr. intros x Hx. destruct (Forall2_In_r _ _ _ _ _ _ K Hx) as [e [_ [S _]]]. exact S.
      * right. exists vs. split; [auto|]. intros x Hx. destruct (Forall2_In_r _ _ _ _ _ _ K Hx) as [e [He [_ S]]]. eapply fits_member; [|exact S]. apply in_map. exact He.
  - rewrite Forall_forall in IH. eapply sp_map; [apply (sp_pmapM _ _ _ (fun e v => good (rtype e) v /\ hashable v = true))|].
    + intros e He. assert (P : part e (ESet l)) by (eapply Pa_set; [exact He|constructor]). eapply sp_bind; [apply IH; [exact He|eapply lits_part; eauto|eapply fair_part; eauto]|].
      intros v Hv. destruct (hashable v) eqn:Hh; [apply sp_ok; auto|apply sp_raise].
    + intros vs K. apply new_set_good. exact K.
  - rewrite Forall_forall in IH.
    eapply sp_bind; [apply (sp_pmapM _ _ _ (fun kv kp => good (rtype (fst kv)) (fst kp) /\ hashable (fst kp) = true /\ snd kp = eval C thing (snd kv)))|].
    + intros [k v] Hk. assert (P : part k (EMap l)) by (eapply Pa_key; [exact Hk|constructor]). destruct (IH _ Hk) as [IHk _]. cbn [fst snd] in *.
      eapply sp_bind; [apply IHk; [eapply lits_part; eauto|eapply fair_part; eauto]|]. intros x Hx.
      apply (sp_bind _ _ _ _ (fun y => y = x /\ hashable x = true)).
      * apply sp_ret. intros y E. unfold map_key in E. apply rbind_ok in E as [t [_ E]]. destruct (_ && _); [discriminate|]. destruct (hashable x); inversion E. auto.
      * intros y [-> Hh]. apply sp_ok. auto.
    + intros ks K. eapply sp_map; [apply (sp_pmapM _ _ _ (fun kp kv => fst kv = fst kp /\ exists e, In e (map snd l) /\ good (rtype e) (snd kv)))|].
      * intros [k p] Hp. destruct (mk_dict_In _ _ _ _ Hp) as [_ Hp2]. apply in_map_iff in Hp2 as [[k0 p0] [<- Hp2]]. destruct (Forall2_In_r _ _ _ _ _ _ K Hp2) as [[k1 v1] [H1 [_ [_ E]]]]. cbn [fst snd] in *. subst p0.
        destruct (IH _ H1) as [_ IHv]. cbn [snd] in IHv. assert (P : part v1 (EMap l)) by (eapply Pa_val; [exact H1|constructor]).
        eapply sp_bind; [apply IHv; [eapply lits_part; eauto|eapply fair_part; eauto]|]. intros x Hx. apply sp_ok. cbn. split; [reflexivity|]. exists v1. split; [apply in_map_iff; exists (k1, v1); auto|exact Hx].
      * intros m M. assert (KM : map fst m = map fst (mk_dict ks)). { clear - M. induction M as [|? ? ? ? [E _] M IH]; [reflexivity|]. cbn. rewrite E, IH. reflexivity. }
        assert (KK : forall k, In k (map fst m) -> exists e, In e (map fst l) /\ good (rtype e) k /\ hashable k = true).
        { intros k Hk. rewrite KM in Hk. apply in_map_iff in Hk as [[k0 p0] [<- Hk]]. destruct (mk_dict_In _ _ _ _ Hk) as [Hk2 _]. apply in_map_iff in Hk2 as [[k2 p2] [E2 Hk2]]. cbn in E2. subst k2.
          destruct (Forall2_In_r _ _ _ _ _ _ K Hk2) as [[k1 v1] [H1 [G1 [G2 _]]]]. cbn [fst] in *. exists k1. split; [apply in_map_iff; exists (k1, v1); auto|auto]. }
        split.
        -- apply Se_map; [|rewrite KM; apply mk_dict_apart]. intros k x Hx. destruct (KK k) as [e [_ [[S _] Hh]]]; [apply in_map_iff; exists (k, x); auto|].
           destruct (Forall2_In_r _ _ _ _ _ _ M Hx) as [kp [_ [_ [e' [_ [S' _]]]]]]. auto.
        -- right. exists m. split; [auto|]. split.
           ++ intros x Hx. apply in_map_iff in Hx as [[k y] [<- Hx]]. destruct (Forall2_In_r _ _ _ _ _ _ M Hx) as [kp [_ [_ [e' [He' [_ S']]]]]]. eapply fits_member; [|exact S'].
              apply in_map_iff in He' as [[k1 v1] [<- He']]. apply in_map_iff. exists (k1, v1). auto.
           ++ intros kts Kt. eapply members_compat; [|exact Kt]. intros x vt Hx Ex. destruct (KK x Hx) as [e [He [[_ S] _]]]. eapply fits_compat; [|exact Ex]. eapply fits_member; [|exact S].
              apply in_map_iff in He as [[k1 v1] [<- He]]. apply in_map_iff. exists (k1, v1). auto.
  - assert (Pa : part a (EBin o a b)) by (apply Pa_left; constructor). assert (Pb : part b (EBin o a b)) by (apply Pa_right; constructor).
    specialize (IHa (lits_part _ _ Pa L) (fair_part _ _ Pa F)). specialize (IHb (lits_part _ _ Pb L) (fair_part _ _ Pb F)).
    destruct o as [| |o|o| | | | |o|sr ng].
    + eapply sp_bind; [exact IHa|]. intros x Hx. eapply sp_bind; [exact IHb|]. intros y Hy. apply sp_act_dc. intro dc. apply sp_ret. intros v E. eapply add_good; eauto.
    + eapply sp_bind; [exact IHa|]. intros x Hx. eapply sp_bind; [exact IHb|]. intros y Hy. apply sp_act_dc. intro dc. apply sp_ret. intros v E. eapply sub_good; eauto.
    + eapply sp_bind; [exact IHa|]. intros x Hx. destruct (is_numeric x); [|apply sp_raise]. eapply sp_bind; [exact IHb|]. intros y Hy. destruct (is_numeric y); [|apply sp_raise].
      apply sp_act_dc. intro dc. apply sp_ret. intros v E. eapply arith_good; eauto.
    + eapply sp_bind; [exact IHa|]. intros x Hx. apply (sp_bind _ _ _ _ (fun t => from_value x = Ok t)); [apply sp_ret; auto|]. intros t Ht.
      destruct (dt_eqb t TFloat) eqn:D.
      * assert (t = TFloat) by (destruct t; try discriminate D; reflexivity). subst t. eapply sp_bind; [apply sp_any|]. intros _ _. eapply sp_bind; [exact IHb|]. intros y Hy. apply sp_ret. intros v E. eapply bit_float_good; eauto.
      * destruct (is_set_t t); [|apply sp_raise]. eapply sp_bind; [exact IHb|]. intros y Hy. apply sp_ret. intros v E. eapply bit_set_good; eauto.
    + eapply sp_bind; [exact IHa|]. intros x Hx. destruct (truthy x); [|apply sp_ok; apply good_bool]. eapply sp_map; [exact IHb|]. intros; apply good_bool.
    + eapply sp_bind; [exact IHa|]. intros x Hx. destruct (truthy x); [apply sp_ok; apply good_bool|]. eapply sp_map; [exact IHb|]. intros; apply good_bool.
    + eapply sp_bind; [exact IHa|]. intros x Hx. eapply sp_map; [exact IHb|]. intros; apply good_bool.
    + eapply sp_bind; [exact IHa|]. intros x Hx. eapply sp_map; [exact IHb|]. intros; apply good_bool.
    + eapply sp_bind; [exact IHa|]. intros x Hx. eapply sp_bind; [exact IHb|]. intros. apply bool_good.
    + eapply sp_bind; [exact IHa|]. intros x Hx. destruct x; try apply sp_raise; (eapply sp_bind; [exact IHb|]; intros; apply fuzzy_good).
  - assert (Pr : part r (EComp r n i c)) by (apply Pa_cres; constructor). assert (Pi : part i (EComp r n i c)) by (apply Pa_cit; constructor).
    eapply sp_bind; [exact (IHi (lits_part _ _ Pi L) (fair_part _ _ Pi F))|]. intros v [Sv Fv]. eapply sp_bind; [apply sp_any|]. intros t _. destruct (is_iterable t); [|apply sp_raise].
    eapply sp_map; [apply (sp_comp_loop n _ _ (good (rtype r)))|].
    + eapply (proj1 F). constructor.
    + exact (IHr (lits_part _ _ Pr L) (fair_part _ _ Pr F)).
    + intros p E. destruct c as [c|]; [|discriminate]. injection E as <-. assert (Pc : part c (EComp r n i (Some c))) by (apply Pa_ccond; constructor).
      eapply sp_impl; [|exact (IHc (lits_part _ _ Pc L) (fair_part _ _ Pc F))]. auto.
    + intros x Hx. eapply settled_elems; eauto.
    + intros vs K. rewrite Forall_forall in K. split; [apply Se_arr; intros x Hx; apply K; exact Hx|]. right. exists vs. split; [auto|]. intros x Hx. apply K. exact Hx.
  - assert (Pc : part c (EIn c m)) by (apply Pa_inc; constructor). assert (Pm : part m (EIn c m)) by (apply Pa_inm; constructor).
    eapply sp_bind; [exact (IHc (lits_part _ _ Pc L) (fair_part _ _ Pc F))|]. intros x Hx. eapply sp_bind; [apply sp_any|]. intros _ _.
    eapply sp_bind; [exact (IHm (lits_part _ _ Pm L) (fair_part _ _ Pm F))|]. intros y Hy. apply bool_good.
  - assert (Po : part o (EAttr o n sf)) by (apply Pa_attr; constructor).
    eapply sp_bind; [exact (IHo (lits_part _ _ Po L) (fair_part _ _ Po F))|]. intros v [Sv Fv]. destruct (is_null v && sf) eqn:N; [apply sp_ok; split; [apply settled_atom; exact I|apply fits_null]|].
    assert (T : (forall u, fits (attr_rtype (rtype o) n sf) u) \/ (is_undef (rtype o) = false /\ resolve_attr_type (rtype o) n = Ok (attr_rtype (rtype o) n sf))).
    { unfold attr_rtype. destruct (is_undef (rtype o)) eqn:U; [left; intro; apply fits_undef|]. cbn [orb]. destruct (dt_eqb (rtype o) TNull && sf); [left; intro; apply fits_undef|].
      destruct (resolve_attr_type (rtype o) n) eqn:E; [right; auto|left; intro; apply fits_undef]. }
    destruct (resolve_attr v n) as [r|x] eqn:R.
    + apply nval_fits. split; [eapply resolve_attr_settled; eauto|]. destruct T as [T|[U T]]; [apply T|]. eapply resolve_attr_fits; eauto.
    + destruct x; try apply sp_raise. destruct T as [T|[U T]].
      * eapply (sp_then _ _ _ _ nice); [apply sp_resolve; right; apply settled_nice; exact Sv| |].
        -- intros u Hu. eapply sp_impl; [|apply nval_settled; [apply Hu|right; apply Hu]]. intros a Ha. split; [exact Ha|apply T].
        -- intros x q r q'. rewrite NoDefault. destruct x; cbn; intro H; inversion H.
      * destruct (is_null v) eqn:V.
        -- destruct v; try discriminate V. eapply (sp_then _ _ _ _ (fun _ => False)).
           ++ apply sp_resolve_null. unfold resolve_attr_type in T. apply rbind_ok in T as [a [A _]]. eapply get_attr_name. exact A.
           ++ intros a [].
           ++ intros x q r q'. rewrite NoDefault. destruct x; cbn; intro H; inversion H.
        -- exfalso. eapply no_attr_err; eauto. intros ->. discriminate V.
  - assert (Pc : part c (EItem c i sf)) by (apply Pa_itc; constructor). assert (Pi : part i (EItem c i sf)) by (apply Pa_iti; constructor).
    eapply sp_bind; [exact (IHc (lits_part _ _ Pc L) (fair_part _ _ Pc F))|]. intros x Hx.
    destruct (is_null x); [destruct sf; [apply sp_ok; split; [apply settled_atom; exact I|apply fits_null]|apply sp_raise]|].
    eapply sp_bind; [exact (IHi (lits_part _ _ Pi L) (fair_part _ _ Pi F))|]. intros k Hk. eapply sp_bind; [apply sp_any|]. intros _ _.
    destruct (py_getitem x k) as [v|e] eqn:G.
    + destruct (item_good _ _ _ _ Hx G) as [[z [-> K]]|K]; [|apply nval_fits; exact K]. apply sp_ret. intros a H. cbn in H. injection H as <-. split; [apply settled_atom; exact I|exact K].
    + destruct e; try apply sp_raise. destruct sf; [apply sp_ok; split; [apply settled_atom; exact I|apply fits_null]|apply sp_raise].
  - assert (Pc : part c (ESlice c a b sf)) by (apply Pa_slc; constructor). assert (Pa : part a (ESlice c a b sf)) by (apply Pa_sla; constructor). assert (Pb : part b (ESlice c a b sf)) by (apply Pa_slb; constructor).
    eapply sp_bind; [exact (IHc (lits_part _ _ Pc L) (fair_part _ _ Pc F))|]. intros x Hx.
    destruct (is_null x); [destruct sf; [apply sp_ok; split; [apply settled_atom; exact I|apply fits_null]|apply sp_raise]|].
    eapply sp_bind; [exact (IHa (lits_part _ _ Pa L) (fair_part _ _ Pa F))|]. intros va _. eapply sp_bind; [apply sp_any|]. intros ia _.
    eapply sp_bind; [exact (IHb (lits_part _ _ Pb L) (fair_part _ _ Pb F))|]. intros vb _. eapply sp_bind; [apply sp_any|]. intros jb _.
    apply (sp_bind _ _ _ _ (fun v => py_getslice x ia jb = Ok v)); [apply sp_ret; auto|]. intros v G. apply sp_ret. intros v' E. eapply slice_good; eauto.
  - eapply (sp_then _ _ _ _ nice); [apply sp_resolve; auto| |].
    + intros v Hv. eapply sp_bind; [apply (sp_ok _ _ nice); exact Hv|]. intros u Hu. eapply sp_bind; [apply nval_settled; [apply Hu|right; apply Hu]|].
      intros v' Sv. apply sp_ret. intros v2 E. eapply sym_good; eauto.
    + intros x q r q'. rewrite NoDefault. destruct x; cbn; intro H; inversion H.
  - assert (Pf : part f (ECall f l)) by (apply Pa_callf; constructor). rewrite Forall_forall in IHl.
    assert (CO : call_ok C f) by (eapply (proj2 F); constructor).
    assert (FV : sp (eval C thing f) (fun v => match f with ESym name true _ => match assoc name (c_bvals C) with Some (BVconst (VBFun g)) => v = VBFun g | _ => True end | _ => True end)).
    { assert (Any : sp (eval C thing f) (fun _ => True)) by (eapply sp_impl; [|exact (IHf (lits_part _ _ Pf L) (fair_part _ _ Pf F))]; auto).
      destruct f as [| | | | | | | | | | |name [] tf| | |]; try exact Any. destruct (assoc name (c_bvals C)) as [[vb| | | |]|] eqn:As; try exact Any. destruct vb; try exact Any.
      cbn [eval]. unfold resolve. rewrite As. intros q a q' I0 R. split; [|exact (proj2 (Any q a q' I0 ltac:(cbn [eval]; unfold resolve; rewrite As; exact R)))].
      cbn [ok pthen pbind run nval new_value coerce rmap set_tz rbind] in R. change (new_value (c_tz C) false (VBFun f)) with (Ok (VBFun f)) in R. cbn [run] in R. injection R as R _. apply sym_check_same in R. congruence. }
    eapply sp_bind; [exact FV|]. intros fv Hfv. destruct (callable fv); [|apply sp_raise].
    eapply sp_bind; [apply (sp_pmapM _ _ _ (fun e v => good (rtype e) v))|].
    { intros e He. assert (P : part e (ECall f l)) by (eapply Pa_callx; [exact He|constructor]). apply IHl; [exact He|eapply lits_part; eauto|eapply fair_part; eauto]. }
    intros vs Hvs. apply (sp_bind _ _ _ _ (fun _ => is_undef (rtype f) = false -> validate (rtype f) (map from_value vs) = Ok tt)).
    { apply sp_ret. intros [] E. destruct (is_undef (rtype f)); [discriminate|]. auto. }
    intros _ V.
    eapply (sp_bind _ _ _ _ (fun r => py_ok r /\ (fv = VBFun BFrange -> b_range vs = Ok r) /\ (fv = VBFun BFsplit -> b_split vs = Ok r))).
    { eapply (sp_then _ _ _ _ (fun r => py_ok r /\ (fv = VBFun BFrange -> b_range vs = Ok r) /\ (fv = VBFun BFsplit -> b_split vs = Ok r))).
      - assert (A : sp (apply_fun C fv vs) py_ok). { apply apply_ok. intros x Hx. destruct (Forall2_In_r _ _ _ _ _ _ Hvs Hx) as [e [_ [S _]]]. apply settled_nice. exact S. }
        intros q r q' I0 R. destruct (A q r q' I0 R) as [P I1]. split; [|exact I1]. split; [exact P|]. split; intros ->; cbn in R; congruence.
      - intros a Ha. apply sp_ok. exact Ha.
      - intros x q r q' H. cbn in H. inversion H. }
    intros r [Pr [Rr Rs]]. apply (sp_bind _ _ _ _ (fun v => settled v /\ new_value (c_tz C) true r = Ok v)).
    { intros q v q' I0 R. split; [|exact (proj2 (nval_settled true r Pr (or_introl eq_refl) q v q' I0 R))]. split; [exact (proj1 (nval_settled true r Pr (or_introl eq_refl) q v q' I0 R))|]. cbn in R. congruence. }
    intros v [Sv Nv]. apply (sp_bind _ _ _ _ (fun t => from_value v = Ok t)); [apply sp_ret; auto|]. intros t Ht.
    destruct (is_compat t _) eqn:K; [|apply sp_raise]. apply sp_ok. destruct CO as [Fl|[[name [nm [nb [ag [mn [-> As]]]]]]|[name [nm [nb [ag [mn [-> As]]]]]]]].
    + split; [exact Sv|]. destruct (rtype f) eqn:Tf; try apply fits_undef. eapply fits_flat; [|exact Ht|exact K]. eapply Fl. reflexivity.
    + rewrite As in Hfv. cbn [rtype] in *. eapply range_call_good; eauto.
    + rewrite As in Hfv. cbn [rtype] in *. eapply split_call_good; eauto.
  - assert (Pc : part c (ETern c a b)) by (apply Pa_tc; constructor). assert (Pa : part a (ETern c a b)) by (apply Pa_ta; constructor). assert (Pb : part b (ETern c a b)) by (apply Pa_tb; constructor).
    eapply sp_bind; [exact (IHc (lits_part _ _ Pc L) (fair_part _ _ Pc F))|]. intros x Hx. destruct (truthy x).
    + eapply sp_impl; [|exact (IHa (lits_part _ _ Pa L) (fair_part _ _ Pa F))]. intros v Hv. apply tern_good. auto.
    + eapply sp_impl; [|exact (IHb (lits_part _ _ Pb L) (fair_part _ _ Pb F))]. intros v Hv. apply tern_good. auto.
  - assert (Pe : part e (EUn o e)) by (apply Pa_un; constructor). destruct o.
    + eapply sp_map; [exact (IHe (lits_part _ _ Pe L) (fair_part _ _ Pe F))|]. intros; apply good_bool.
    + eapply sp_bind; [exact (IHe (lits_part _ _ Pe L) (fair_part _ _ Pe F))|]. intros x Hx. apply sp_act_dc. intro dc. apply sp_ret. intros v E. eapply neg_good; eauto.
Qed.
End Sound.

(** ** Construction *)
Section BuildLits.
Context {Orc : Oracle} (C : ctx).

Ltac lo_intro := split; (let H := fresh "H" in intros; match goal with H : part _ _ |- _ => inversion H; subst; clear H end); try discriminate.
Lemma lo_lit : forall v, settled v -> lits_ok (ELit v).
Proof. intros v S. split; intros x; [intros H; inversion H; subst; exact S|intros t H; inversion H]. Qed.
Lemma lo_fun : forall v t, callable v = true -> match t with TFun _ _ _ _ | TUndef => True | _ => False end -> lits_ok (EFun v t).
Proof. intros v t K1 K2. split; intros x; [intros H; inversion H|intros t' H; inversion H; subst; auto]. Qed.
(** the literals of an expression are those of its components *)
Lemma lo_sub : forall e, (forall v, e <> ELit v) -> (forall v t, e <> EFun v t) ->
  (forall x, part x e -> x = e \/ exists y, part x y /\ lits_ok y) -> lits_ok e.
Proof.
  intros e N1 N2 H. split; [intros v P|intros v t P]; destruct (H _ P) as [E|[y [Py [L1 L2]]]]; try (exfalso; symmetry in E; first [exact (N1 _ E)|exact (N2 _ _ E)]); eauto.
Qed.
Ltac lo := apply lo_sub; [discriminate|discriminate|]; let x := fresh "x" in let P := fresh "P" in intros x P; inversion P; subst; try (left; reflexivity); right.

Lemma lit_of_ok : forall v e, lit_of v = Ok e -> lits_ok e.
Proof.
  assert (A : forall v e, rmap ELit (coerce true v) = Ok e -> match v with VArr _ | VList _ | VSet _ | VMap _ | VDict _ | VRange _ => False | _ => True end -> lits_ok e).
  { intros v e H N. apply rmap_ok in H as [u [E ->]]. apply lo_lit. destruct v; try contradiction; cbn in E; try discriminate E; injection E as <-; apply Se_atom; exact I. }
  induction v as [|b|d|z|f|c|b|w0 z|d|u|l IH|l IH|l|l IH|l IH|l IH|n|f|me v IH|n] using value_ind'; intros e H; cbn [lit_of] in H; apply rbind_ok in H as [t0 [_ H]]; try (eapply A; [exact H|exact I]).
  - apply rmap_ok in H as [es [E ->]]. apply rmapM_ok_iff in E. rewrite Forall_forall in IH. lo. match goal with K : In ?e es |- _ => destruct (Forall2_In_r _ _ _ _ _ _ E K) as [v [Hv Ev]]; exists e; split; [assumption|eapply IH; eauto] end.
  - apply rmap_ok in H as [es [E ->]]. apply rmapM_ok_iff in E. rewrite Forall_forall in IH. lo. match goal with K : In ?e es |- _ => destruct (Forall2_In_r _ _ _ _ _ _ E K) as [v [Hv Ev]]; exists e; split; [assumption|eapply IH; eauto] end.
  - injection H as <-. lo. match goal with K : In ?e (map _ l) |- _ => apply in_map_iff in K as [z [<- _]] end. eexists. split; [eassumption|]. apply lo_lit. apply Se_atom. exact I.
  - apply rmap_ok in H as [es [E ->]]. apply rmapM_ok_iff in E. rewrite Forall_forall in IH. lo. match goal with K : In ?e es |- _ => destruct (Forall2_In_r _ _ _ _ _ _ E K) as [v [Hv Ev]]; exists e; split; [assumption|eapply IH; eauto] end.
  - apply rmap_ok in H as [es [E ->]]. apply rmapM_ok_iff in E. rewrite Forall_forall in IH. lo; match goal with K : In (?k, ?e) es |- _ => destruct (Forall2_In_r _ _ _ _ _ _ E K) as [kv [Hv Ev]] end;
      apply rbind_ok in Ev as [k1 [E1 Ev]]; apply rbind_ok in Ev as [v1 [E2 Ev]]; injection Ev as <- <-; destruct (IH _ Hv) as [I1 I2]; eexists; (split; [eassumption|]); eauto.
  - apply rmap_ok in H as [es [E ->]]. apply rmapM_ok_iff in E. rewrite Forall_forall in IH. lo; match goal with K : In (?k, ?e) es |- _ => destruct (Forall2_In_r _ _ _ _ _ _ E K) as [kv [Hv Ev]] end;
      apply rbind_ok in Ev as [k1 [E1 Ev]]; apply rbind_ok in Ev as [v1 [E2 Ev]]; injection Ev as <- <-; destruct (IH _ Hv) as [I1 I2]; eexists; (split; [eassumption|]); eauto.
Qed.
Lemma fold_lits : forall e, post (fold C e) lits_ok.
Proof. intro e. unfold fold. apply post_bind_any. intro v. apply post_ret. intros l E. eapply lit_of_ok. exact E. Qed.
Lemma lits_sub : forall x e, part x e -> lits_ok e -> lits_ok x.
Proof. intros x e H [F G]. split; intros; [eapply F|eapply G]; eapply part_trans; eauto. Qed.
Lemma bool_lits : forall p : prog value, post p (fun v => exists b, v = VBool b) -> post (do! v := p in ok (ELit v)) lits_ok.
Proof. intros p H. eapply post_bind; [exact H|]. intros v [b ->]. apply post_ok. apply lo_lit. apply Se_atom. exact I. Qed.
Lemma reduce_lits : forall e, lits_ok e -> post (reduce C e) lits_ok.
Proof.
  induction e as [v|v t|l IH|l IH|l IH|o a b IHa IHb|r n i c IHr IHi IHc|c m IHc IHm|o n sf IHo|c i sf IHc IHi|c a b sf IHc IHa IHb|n bi t|f l IHf IHl|c a b IHc IHa IHb|o e IHe] using expr_ind';
    intro L; cbn [reduce]; try (apply post_ok; exact L).
  - destruct (_ && _); [apply fold_lits|apply post_ok; exact L].
  - destruct (_ && _); [|apply post_ok; exact L]. apply bool_lits. cbn [eval]. apply post_bind_any. intro x. apply post_bind_any. intro u. apply post_bind_any. intro y.
    apply post_ret. intros v H. apply rmap_ok in H as [b [_ ->]]. eauto.
  - destruct (is_reduced o); [|apply post_ok; exact L]. eapply post_bind; [apply fold_lits|]. intros l Hl. apply post_ok.
    destruct l; try exact Hl. destruct (dt_eqb (rtype (ELit v)) t_function && is_compat (rtype (EAttr o n sf)) t_function) eqn:K; [|exact Hl]. apply andb_true_iff in K as [K1 K2]. apply lo_fun.
    + assert (S : settled v) by (apply Hl; constructor). cbn [rtype] in K1. unfold lit_type in K1. inversion S as [? Q|? Q|? Q|? Q Q2]; subst.
      * destruct v; try contradiction; try (cbn in K1; discriminate K1); reflexivity.
      * destruct (from_value (VArr l)) eqn:E; [|discriminate K1]. apply from_value_arr in E as [ts [_ ->]]. discriminate K1.
      * destruct (from_value (VSet l)) eqn:E; [|discriminate K1]. apply from_value_set in E as [ts [_ ->]]. discriminate K1.
      * destruct (from_value (VMap l)) eqn:E; [|discriminate K1]. apply from_value_map in E as [ks [ts [_ [_ ->]]]]. discriminate K1.
    + destruct (rtype (EAttr o n sf)); try (cbn in K2; discriminate K2); exact I.
  - destruct (match rtype c with TMap k _ _ => sf && negb (is_compat (rtype i) k) | _ => false end); [apply post_ok; apply lo_lit; apply Se_atom; exact I|].
    destruct (_ && _); [apply fold_lits|apply post_ok; exact L].
  - destruct (_ && _); [apply fold_lits|apply post_ok; exact L].
  - destruct (_ && _); [apply fold_lits|apply post_ok; exact L].
  - destruct (is_reduced c); [|apply post_ok; exact L]. destruct (lit_truthy c).
    + apply IHa. eapply lits_sub; [|exact L]. apply Pa_ta. constructor.
    + apply IHb. eapply lits_sub; [|exact L]. apply Pa_tb. constructor.
  - destruct o.
    + destruct (is_reduced e); [|apply post_ok; exact L]. apply bool_lits. cbn [eval]. apply post_bind_any. intro x. apply post_ok. eauto.
    + destruct (is_reduced e); [|apply post_ok; exact L].
      destruct e as [[]| | | | | | | | | | | | | |]; try apply post_raise; cbn [eval]; (eapply (post_bind _ _ _ _ (fun v => match v with VDec _ | VTd _ => True | _ => False end));
        [apply (post_bind _ _ _ _ (fun x => match x with VDec _ | VTd _ => True | _ => False end)); [apply post_ok; exact I|]; intros x Hx; apply post_bind_any; intro dc; apply post_ret; intros v H;
         destruct x; try contradiction; cbn [op_neg is_numeric] in H; [apply rdec_dec in H as [? ->]; exact I|apply mk_td_td in H as [? ->]; exact I]
        |intros v Hv; apply post_ok; apply lo_lit; apply Se_atom; destruct v; try contradiction; exact I]).
Qed.
Lemma build_list_lits : forall l, (forall n, In n l -> post (build C n) lits_ok) -> post (pmapM (build C) l) (fun es => forall e, In e es -> lits_ok e).
Proof.
  intros l H. eapply post_impl; [|apply (post_pmapM _ _ _ (fun _ e => lits_ok e)); exact H]. intros es F e He. destruct (Forall2_In_r _ _ _ _ _ _ F He) as [n [_ K]]. exact K.
Qed.
Lemma opt_lits : forall o, opt_D (fun n => written n -> post (build C n) lits_ok) o -> opt_D written o ->
  post (match o with Some n => do! e := build C n in ok (Some e) | None => ok None end) (fun oc => match oc with Some c => lits_ok c | None => True end).
Proof. intros [n|] H W; [|apply post_ok; exact I]. eapply post_bind; [apply H; exact W|]. intros e He. apply post_ok. exact He. Qed.
Theorem build_lits : forall n, written n -> post (build C n) lits_ok.
Proof.
  induction n as [v|t|t|t|l IH|l IH|l IH|o a b IHa IHb|r v i c IHr IHi IHc|c m IHc IHm|o nm sf IHo|c i sf IHc IHi|c a b sf IHc IHa IHb|nm bi|f l IHf IHl|c a b IHc IHa IHb|o e IHe] using dnode_ind';
    intro W; cbn [build].
  - apply post_ok. apply lo_lit. specialize (W v (Dp_self _)). apply Se_atom. destruct v; try contradiction; exact I.
  - apply post_ret. intros e E. apply rmap_ok in E as [d [_ ->]]. apply lo_lit. apply Se_atom. exact I.
  - apply post_ret. intros e E. apply rmap_ok in E as [d [E ->]]. apply lo_lit. unfold parse_datetime in E. destruct (o_isoparse t) as [[w [z|]]|]; inversion E; apply Se_atom; exact I.
  - apply post_ret. intros e E. apply rmap_ok in E as [d [E ->]]. apply lo_lit. apply parse_timedelta_td in E as [us ->]. apply Se_atom; exact I.
  - rewrite Forall_forall in IH. eapply post_bind; [apply build_list_lits; intros n Hn; apply IH; [exact Hn|eapply written_sub; [|exact W]; eapply Dp_arr; [exact Hn|constructor]]|].
    intros es H. apply post_ok. lo. eauto.
  - rewrite Forall_forall in IH. eapply post_bind; [apply build_list_lits; intros n Hn; apply IH; [exact Hn|eapply written_sub; [|exact W]; eapply Dp_set; [exact Hn|constructor]]|].
    intros es H. apply post_ok. lo. eauto.
  - rewrite Forall_forall in IH. eapply post_bind; [apply (post_pmapM _ _ _ (fun _ e => lits_ok (fst e) /\ lits_ok (snd e)))|].
    + intros [k v] Hn. destruct (IH _ Hn) as [IH1 IH2]. eapply post_bind; [apply IH1; eapply written_sub; [|exact W]; eapply Dp_key; [exact Hn|constructor]|]. intros e1 H1.
      eapply post_bind; [apply IH2; eapply written_sub; [|exact W]; eapply Dp_val; [exact Hn|constructor]|]. intros e2 H2. apply post_ok. split; assumption.
    + intros es F. apply post_bind_any. intro u. apply post_ok. lo; match goal with K : In _ es |- _ => destruct (Forall2_In_r _ _ _ _ _ _ F K) as [x0 [_ [K1 K2]]] end; eauto.
  - eapply post_bind; [apply IHa; eapply written_sub; [|exact W]; apply Dp_l; constructor|]. intros x Hx.
    eapply post_bind; [apply IHb; eapply written_sub; [|exact W]; apply Dp_r; constructor|]. intros y Hy. apply post_bind_any. intro u. apply reduce_lits. lo; eauto.
  - eapply post_bind; [apply IHi; eapply written_sub; [|exact W]; apply Dp_ci; constructor|]. intros x Hx. destruct (_ && _); [apply post_raise|].
    apply (post_bind _ _ _ _ (fun cr => lits_ok (snd cr) /\ match fst cr with Some c => lits_ok c | None => True end)).
    + apply post_scope. eapply post_bind; [apply opt_lits; [destruct c; exact IHc|destruct c; [eapply written_sub; [|exact W]; apply Dp_cc; constructor|exact I]]|].
      intros oc Hc. eapply post_bind; [apply IHr; eapply written_sub; [|exact W]; apply Dp_cr; constructor|]. intros e He. apply post_ok. split; assumption.
    + intros [oc e] [He Hc]. apply post_ok. cbn [fst snd] in *. lo; eauto.
  - eapply post_bind; [apply IHc; eapply written_sub; [|exact W]; apply Dp_inc; constructor|]. intros x Hx.
    eapply post_bind; [apply IHm; eapply written_sub; [|exact W]; apply Dp_inm; constructor|]. intros y Hy. apply post_bind_any. intro u. apply reduce_lits. lo; eauto.
  - eapply post_bind; [apply IHo; eapply written_sub; [|exact W]; apply Dp_attr; constructor|]. intros x Hx. apply post_bind_any. intro u. apply reduce_lits. lo; eauto.
  - eapply post_bind; [apply IHc; eapply written_sub; [|exact W]; apply Dp_itc; constructor|]. intros x Hx.
    eapply post_bind; [apply IHi; eapply written_sub; [|exact W]; apply Dp_iti; constructor|]. intros y Hy. apply post_bind_any. intro u. apply reduce_lits. lo; eauto.
  - eapply post_bind; [apply opt_lits; [destruct a; exact IHa|destruct a; [eapply written_sub; [|exact W]; apply Dp_sla; constructor|exact I]]|].
    intros oa Ha. eapply post_bind; [apply opt_lits; [destruct b; exact IHb|destruct b; [eapply written_sub; [|exact W]; apply Dp_slb; constructor|exact I]]|].
    intros ob Hb. eapply post_bind; [apply IHc; eapply written_sub; [|exact W]; apply Dp_slc; constructor|]. intros z Hz. apply post_bind_any. intro u. apply reduce_lits.
    assert (Ka : lits_ok (mk_lit_slice oa (VDec (dec_of_Z 0)))) by (destruct oa; cbn; [exact Ha|apply lo_lit; apply Se_atom; exact I]).
    assert (Kb : lits_ok (mk_lit_slice ob VNull)) by (destruct ob; cbn; [exact Hb|apply lo_lit; apply Se_atom; exact I]).
    lo; eauto.
  - apply post_bind_any. intro u. apply post_bind_any. intro t. apply post_ok. lo.
  - eapply post_bind; [apply IHf; eapply written_sub; [|exact W]; apply Dp_callf; constructor|]. intros x Hx. rewrite Forall_forall in IHl.
    eapply post_bind; [apply build_list_lits; intros n Hn; apply IHl; [exact Hn|eapply written_sub; [|exact W]; eapply Dp_callx; [exact Hn|constructor]]|].
    intros es Hes. apply post_bind_any. intro u. apply reduce_lits. lo; eauto.
  - eapply post_bind; [apply IHc; eapply written_sub; [|exact W]; apply Dp_tc; constructor|]. intros x Hx.
    eapply post_bind; [apply IHa; eapply written_sub; [|exact W]; apply Dp_ta; constructor|]. intros y Hy.
    eapply post_bind; [apply IHb; eapply written_sub; [|exact W]; apply Dp_tb; constructor|]. intros z Hz. apply reduce_lits. lo; eauto.
  - eapply post_bind; [apply IHe; eapply written_sub; [|exact W]; apply Dp_un; constructor|]. intros x Hx. apply reduce_lits. lo; eauto.
Qed.
End BuildLits.

(** ** The property *)
Section C13.
Context {Orc : Oracle} (C : ctx).

Lemma run_evaluate_inv : forall w thing e q v q', c_default C = None -> supplied C w -> behaved w thing ->
  lits_ok e -> fair C e -> run w (rule_evaluate C e thing) q = (Ok v, q') -> good (rtype e) v.
Proof.
  intros w thing e q v q' D Bn B L F R. rewrite run_rule_evaluate in R. destruct (run w (eval C thing e) _) as [r q1] eqn:E. injection R as -> _.
  eapply (eval_sound C w thing D Bn B e L F); [|exact E]. split; [intros a []|]. split; [apply Po_scalar; exact I|constructor].
Qed.

(** The value a rule returns fits the result type inferred when the rule was constructed. *)
Theorem C13_fits_partial : forall n w0 q0 e q0' w thing q v q',
  written n -> run w0 (build C n) q0 = (Ok e, q0') -> fair C e ->
  c_default C = None -> supplied C w -> behaved w thing ->
  run w (rule_evaluate C e thing) q = (Ok v, q') -> fits (rtype e) v.
Proof. intros n w0 q0 e q0' w thing q v q' W Bd F D Bn B R. eapply run_evaluate_inv; eauto. eapply build_lits; eauto. Qed.

(** In terms of the engine's own classification: it succeeds on the value, which is null or of a compatible type. *)
Theorem C13_compatible_partial : forall n w0 q0 e q0' w thing q v q',
  written n -> run w0 (build C n) q0 = (Ok e, q0') -> fair C e ->
  c_default C = None -> supplied C w -> behaved w thing ->
  run w (rule_evaluate C e thing) q = (Ok v, q') -> v = VNull \/ exists t, from_value v = Ok t /\ is_compat t (rtype e) = true.
Proof.
  intros n w0 q0 e q0' w thing q v q' W Bd F D Bn B R. assert (G : good (rtype e) v) by (eapply run_evaluate_inv; eauto; eapply build_lits; eauto). destruct G as [S G].
  destruct (proj2 (from_value_supported v (settled_py_ok _ S)) (settled_supported _ S)) as [t E]. destruct (fits_compat _ _ _ G E) as [->|K]; [left; apply from_value_null; exact E|right; eauto].
Qed.

(** Such values also contain nothing the engine does not know, and no native numbers, dates, lists or dictionaries outside of sets. *)
Theorem C13_settled_partial : forall n w0 q0 e q0' w thing q v q',
  written n -> run w0 (build C n) q0 = (Ok e, q0') -> fair C e ->
  c_default C = None -> supplied C w -> behaved w thing ->
  run w (rule_evaluate C e thing) q = (Ok v, q') -> settled v.
Proof. intros n w0 q0 e q0' w thing q v q' W Bd F D Bn B R. eapply run_evaluate_inv; eauto. eapply build_lits; eauto. Qed.

(** *** the assumptions, for the defaults *)
(** the default resolver on a thing made of supported values *)
Theorem C13_default_resolver : forall usr now rnd thing, nice thing ->
  (forall l f args x, (forall a, In a args -> py_ok a) -> usr l f args = Ok x -> py_ok x) -> (forall l b, py_ok (rnd l b)) ->
  behaved (default_world usr now rnd) thing.
Proof.
  intros usr now rnd thing Nt U R. split; [|exact U|exact R|].
  - cbn. intros l v n x Hv H. assert (N : nice v) by (destruct Hv as [->|Hv]; assumption). clear Hv.
    assert (K : exists kvs k, (v = VMap kvs \/ v = VDict kvs) /\ In (k, x) kvs).
    { destruct v; try discriminate H; cbn in H; (destruct (dict_get _ _) eqn:E in H; [injection H as <-|destruct (all_strs _) in H; discriminate H]); apply dict_get_In' in E as [k E]; eauto. }
    destruct K as [kvs [k [Ev K]]]. destruct N as [P S]. destruct Ev as [->| ->].
    + split; [eapply (po_map kvs (or_introl P)); exact K|]. inversion S as [| | | | | | | | | | | | | |? S'| | | |]; subst. eapply S'. exact K.
    + split; [eapply (po_map kvs (or_intror P)); exact K|]. inversion S as [| | | | | | | | | | | | | | |? S'| | |]; subst. eapply S'. exact K.
  - cbn. intros. discriminate.
Qed.
(** the default builtins *)
Theorem C13_default_values : c_bvals C = default_values -> forall w, supplied C w.
Proof.
  intros E w nm b H. rewrite E in H. assert (K : match b with BVconst (VDec _) | BVconst (VBFun _) | BVnow | BVtoday | BVgroups => True | _ => False end).
  { clear E. unfold default_values in H. repeat (destruct H as [H|H]; [inversion H; exact I|]). destruct H. }
  destruct b as [v| | | |g]; try exact I; try contradiction. destruct v; try contradiction; (split; [apply Po_scalar; exact I|constructor]).
Qed.
(** calls of default builtins are accounted for *)
Theorem C13_default_calls : c_bvals C = default_values -> c_btypes C = default_types -> forall name w q e q',
  run w (build C (DSym name true)) q = (Ok e, q') -> call_ok C e.
Proof.
  intros V T name w q e q' R. cbn [build] in R. rewrite run_pbind, run_act in R. cbn [step_op resolve_type] in R. unfold ok in R. cbn [pbind pthen run] in R. injection R as <- _. rewrite T.
  destruct (assoc name default_types) as [t|] eqn:A; [|left; intros nm r a mn E; discriminate E].
  assert (K : (forall nm r a mn, t = TFun nm r a mn -> flat r) \/ (name = s "range" /\ t = t_fn (s "range") (TArray TFloat true) [TFloat; TFloat; TFloat] 1) \/
              (name = s "split" /\ t = t_fn (s "split") (TArray TString true) [TString; TString; TFloat] 1)).
  { unfold default_types in A. cbn [assoc] in A.
    repeat match type of A with (if str_eqb name ?k then _ else _) = _ => let E := fresh "E" in destruct (str_eqb name k) eqn:E; [injection A as <-; first
      [left; intros ? ? ? ? Q; first [discriminate Q | unfold t_fn in Q; injection Q as _ <- _ _; exact I | unfold t_fn in Q; injection Q as _ <- _ _; reflexivity]
      |apply str_eqb_eq in E; right; (left; split; [exact E|reflexivity]) || (right; split; [exact E|reflexivity])]|] end. discriminate A. }
  destruct K as [K|[[-> ->]|[-> ->]]].
  - left. cbn. exact K.
  - right. left. unfold t_fn. do 5 eexists. split; [reflexivity|]. rewrite V. reflexivity.
  - right. right. unfold t_fn. do 5 eexists. split; [reflexivity|]. rewrite V. reflexivity.
Qed.
(** calls of a function whose declared return type is not a container, or a container of anything *)
Theorem C13_declared_calls : forall f nm r a mn, rtype f = TFun nm r a mn -> flat r -> call_ok C f.
Proof. intros f nm r a mn E Fl. left. intros ? ? ? ? E'. rewrite E in E'. injection E' as _ <- _ _. exact Fl. Qed.
End C13.
Print Assumptions C13_fits_partial.
Print Assumptions C13_compatible_partial.

(** *** A rule that meets the assumptions: [x.n + 1 for x in xs if x.n > 0][0] over an array of mappings *)
Definition c13_types (n : str) : result dtype := if str_eqb n (s "xs") then Ok (TArray (TMap TString TFloat true) true) else Ok TUndef.
Definition c13_thing : value := VDict [(VStr (s "xs"), VList [VDict [(VStr (s "n"), VInt 4)]; VDict [(VStr (s "n"), VInt 0)]])].
Definition c13_rule : dnode :=
  DItem (DComp (DBin BAdd (DItem (DSym (s "x") false) (DLit (VStr (s "n"))) false) (DFloat (s "1"))) (s "x") (DSym (s "xs") false)
           (Some (DBin (BCmp Cgt) (DItem (DSym (s "x") false) (DLit (VStr (s "n"))) false) (DFloat (s "0"))))) (DFloat (s "0")) false.
Definition c13_expr : expr :=
  EItem (EComp (EBin BAdd (EItem (ESym (s "x") false (TMap TString TFloat true)) (ELit (VStr (s "n"))) false) (ELit (num 1))) (s "x")
           (ESym (s "xs") false (TArray (TMap TString TFloat true) true))
           (Some (EBin (BCmp Cgt) (EItem (ESym (s "x") false (TMap TString TFloat true)) (ELit (VStr (s "n"))) false) (ELit (num 0))))) (ELit (num 0)) false.
Definition c13_world : world := default_world (fun _ _ _ => Err PType) (fun _ _ => 0) (fun _ _ => VInt 4).
Ltac parts H := repeat match goal with H : part _ _ |- _ => inversion H; subst; clear H | H : dpart _ _ |- _ => inversion H; subst; clear H end.
Theorem C13_example :
  written c13_rule /\ fst (run c13_world (build (demo_ctx c13_types) c13_rule) demo_st) = Ok c13_expr /\ fair (demo_ctx c13_types) c13_expr /\
  behaved c13_world c13_thing /\ rtype c13_expr = TFloat /\
  fst (run c13_world (rule_evaluate (demo_ctx c13_types) c13_expr c13_thing) demo_st) = Ok (num 5).
Proof.
  split; [|split; [vm_compute; reflexivity|split; [|split; [|split; [reflexivity|vm_compute; reflexivity]]]]].
  - intros v H. unfold c13_rule in H. parts H; exact I.
  - split.
    + intros r n i c H. unfold c13_expr in H. parts H. intros [t [tab [H1 H2]]]. revert H1 H2. unfold attr_map. cbn [In].
      intros H1 H2. repeat (destruct H1 as [H1|H1]; [injection H1 as <- <-; vm_compute in H2; repeat (destruct H2 as [H2|H2]; [discriminate H2|]); destruct H2|]). destruct H1.
    + intros f args H. unfold c13_expr in H. parts H.
  - apply C13_default_resolver; [|discriminate|intros; apply Po_scalar; exact I]. unfold c13_thing. split.
    + apply Po_dict. intros k x [H|[]]. injection H as <- <-. split; [apply Po_scalar; exact I|]. split; [reflexivity|]. apply Po_list.
      intros y [<-|[<-|[]]]; apply Po_dict; intros k x [H|[]]; injection H as <- <-; (split; [apply Po_scalar; exact I|]; split; [reflexivity|apply Po_scalar; exact I]).
    + constructor. intros k x [H|[]]. injection H as <- <-. split; constructor. intros y [<-|[<-|[]]]; constructor; intros k x [H|[]]; injection H as <- <-; split; constructor.
Qed.
Print Assumptions C13_example.

(** *** Without the assumptions the property fails *)
(** a context with a default value: the attribute of a null string is that default *)
Definition c13_str (n : str) : result dtype := Ok TString.
Theorem C13_default_value_refuted :
  let C := {| c_flags := 0; c_tz := 1%N; c_default := Some (VStr (s "none")); c_dec := demo_dc; c_types := c13_str; c_bvals := default_values; c_btypes := default_types; c_btz := 1%N |} in
  let e := EAttr (ESym (s "a") false TString) (s "length") false in
  fst (run demo_world (build C (DAttr (DSym (s "a") false) (s "length") false)) demo_st) = Ok e /\ rtype e = TFloat /\
  fst (run demo_world (rule_evaluate C e (VDict [(VStr (s "a"), VNull)])) demo_st) = Ok (VStr (s "none")).
Proof. vm_compute. auto. Qed.
(** a function declared to return an array of numbers may return a string in it *)
Definition c13_fn (n : str) : result dtype := Ok (TFun None (TArray TFloat true) (Some []) (Some 0)).
Definition c13_bad_world : world := default_world (fun _ _ _ => Ok (VList [VInt 1; VStr (s "a")])) (fun _ _ => 0) (fun _ _ => VInt 4).
Theorem C13_members_refuted :
  let C := demo_ctx c13_fn in
  let e := EItem (ECall (ESym (s "f") false (TFun None (TArray TFloat true) (Some []) (Some 0))) []) (ELit (num 1)) false in
  fst (run c13_bad_world (build C (DItem (DCall (DSym (s "f") false) []) (DFloat (s "1")) false)) demo_st) = Ok e /\ rtype e = TFloat /\
  fst (run c13_bad_world (rule_evaluate C e (VDict [(VStr (s "f"), VFun 0)])) demo_st) = Ok (VStr (s "a")).
Proof. vm_compute. auto. Qed.
(** a comprehension variable named like an attribute is what the attribute of null resolves to *)
Theorem C13_shadowing_refuted :
  let C := demo_ctx (fun n => if str_eqb n (s "a") then Ok TString else Ok (TArray TString true)) in
  let e := EComp (EAttr (ESym (s "a") false TString) (s "length") false) (s "length") (ESym (s "xs") false (TArray TString true)) None in
  fst (run demo_world (build C (DComp (DAttr (DSym (s "a") false) (s "length") false) (s "length") (DSym (s "xs") false) None)) demo_st) = Ok e /\ rtype e = TArray TFloat true /\
  fst (run demo_world (rule_evaluate C e (VDict [(VStr (s "a"), VNull); (VStr (s "xs"), VList [VStr (s "q")])])) demo_st) = Ok (VArr [VStr (s "q")]).
Proof. vm_compute. auto. Qed.
