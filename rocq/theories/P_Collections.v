(** * C65: attributes of collections: keys, values, to_ary, to_set *)
From Coq Require Import QArith Permutation Lia String.
From Verif Require Import Base Dec Value DType DTypeFacts Types Ops EqFacts CoerceFacts TypesFacts DecFacts ParseUtil Attr Prog Ast Eval Build Engine
  ProgFacts StateFacts Post Refine Demo Fits P_Compare P_Ops P_Eval P_Names P_Calls P_Attrs P_Items P_Aware P_Sound P_Errors.
Open Scope list_scope.
Open Scope Z_scope.

Section Collections.
Context (Orc : Oracle) (C : ctx) (thing : value) (w : world).
Notation yields := (yields C thing w). Notation fails := (fails C thing w).

Lemma settled_true : forall v, settled v -> coerce true v = Ok v.
Proof.
  intros v S. destruct (proj2 (coerce_true_supported v (settled_py_ok v S)) (settled_supported v S)) as [v' E]. rewrite E. f_equal. eapply settled_coerce_any; eassumption.
Qed.
Lemma aware_arr : forall l, new_value (c_tz C) false (VArr l) = rmap (fun v => v) (coerce false (VArr l)).
Proof. intros l. unfold new_value. destruct (coerce false (VArr l)) as [v|x] eqn:E; [|reflexivity]. apply coerce_cases in E as [l' [_ ->]]. reflexivity. Qed.

(** the array an attribute yields *)
Lemma arr_attr : forall o name safe q v q1 t a l et, yields q o v q1 -> is_null v = false -> from_value v = Ok t -> get_attr t name = Ok a -> attr_fun a v = Ok (VArr l) ->
  settled (VArr l) -> (forall m, from_value (VArr l) = Ok (TArray m true) -> attr_type a (TArray m true) = Ok (et m) /\ is_compat (et m) (TArray m true) = true) ->
  yields q (EAttr o name safe) (VArr l) q1.
Proof.
  intros o name safe q v q1 t a l et Y N T G F S K. eapply (attr_ok Orc C thing w o name safe q v q1 (VArr l) (VArr l) Y N).
  - unfold resolve_attr. rewrite T, G. cbn [rbind]. rewrite F. cbn [rbind]. rewrite (settled_true _ S). cbn [rbind]. destruct (settled_type _ S) as [vt E]. rewrite E. cbn [rbind].
    destruct (from_value_arr l vt E) as [ts [_ ->]]. destruct (K _ E) as [K1 K2]. rewrite K1. cbn [rbind]. rewrite K2. reflexivity.
  - rewrite aware_arr, (settled_coerce _ S). reflexivity.
Qed.
Lemma map_type : forall l, settled (VMap l) -> exists k m, from_value (VMap l) = Ok (TMap k m true).
Proof.
  intros l S. destruct (settled_type _ S) as [t E]. destruct (from_value_map l t E) as [ks [ts [_ X]]]. exists (member_type ks), (member_type ts). rewrite E. f_equal. apply X.
Qed.

(** keys and values, position by position in the order of insertion *)
Theorem C65_keys_values : forall o safe q l q1, yields q o (VMap l) q1 -> settled (VMap l) ->
  yields q (EAttr o (s "keys") safe) (VArr (map fst l)) q1 /\ yields q (EAttr o (s "values") safe) (VArr (map snd l)) q1.
Proof.
  intros o safe q l q1 Y S. destruct (map_type l S) as [k [m T]]. inversion S as [? K|? K|? K|? K A]; subst; [contradiction|]. split.
  - eapply (arr_attr o (s "keys") safe q _ q1 _ a_keys (map fst l) (fun _ => t_array) Y eq_refl T); [reflexivity|reflexivity| |intros; split; reflexivity].
    apply Se_arr. intros x I. apply in_map_iff in I as [[k0 x0] [<- I]]. apply (K k0 x0 I).
  - eapply (arr_attr o (s "values") safe q _ q1 _ a_values (map snd l) (fun _ => t_array) Y eq_refl T); [reflexivity|reflexivity| |intros; split; reflexivity].
    apply Se_arr. intros x I. apply in_map_iff in I as [[k0 x0] [<- I]]. apply (K k0 x0 I).
Qed.
(** so the i-th value is the one found under the i-th key (which must not be or contain NaN, equal to no key) *)
Theorem C65_value_of_key : tz_lawful o_tz -> forall o e q l q1 i k x q2, yields q o (VMap l) q1 -> settled (VMap l) -> aware x ->
  nth_error (map fst l) i = Some k -> nth_error (map snd l) i = Some x -> nan_free k -> yields q1 e k q2 -> yields q (EItem o e false) x q2.
Proof.
  intros TZ o e q l q1 i k x q2 Y S AW E1 E2 NF Ye. inversion S as [? K|? K|? K|? K A]; subst; [contradiction|].
  assert (I : In (k, x) l).
  { rewrite nth_error_map in E1, E2. destruct (nth_error l i) as [[k0 x0]|] eqn:E; [|discriminate E1]. cbn in E1, E2. injection E1 as <-. injection E2 as <-. eapply nth_error_In; exact E. }
  destruct (K k x I) as [S1 [S2 S3]]. assert (Hk : hv k) by exact S2.
  destruct (C27_mapping Orc C thing w TZ o e q l q1 k q2 Y Ye Hk) as [R _]; [apply Forall_forall; intros [k0 x0] I0; apply (K k0 x0 I0)|exact A|].
  unfold P_Ops.yields. rewrite (R k x I (proj1 (C56_equivalence o_tz TZ) k Hk NF)). f_equal. unfold new_value. rewrite (settled_coerce _ S3). destruct x as [| | | | | | |wl [zn|]| | | | | | | | | | | |]; try reflexivity. exfalso. apply AW. exact Logic.I.
Qed.

(** to_ary: the elements in order; the members of a set of native numbers become Decimals *)
Theorem C65_to_ary : forall o safe q v q1, yields q o v q1 -> settled v ->
  match v with
  | VStr t => yields q (EAttr o (s "to_ary") safe) (VArr (map (fun c => VStr [c]) t)) q1
  | VBytes b => yields q (EAttr o (s "to_ary") safe) (VArr (map (fun c => VDec (dec_of_Z (Z.of_N c))) b)) q1
  | VArr l => yields q (EAttr o (s "to_ary") safe) (VArr l) q1
  | VSet l => exists l', Forall2 (fun x y => coerce true x = Ok y) l l' /\ yields q (EAttr o (s "to_ary") safe) (VArr l') q1
  | _ => True
  end.
Proof.
  assert (CM : forall m, is_compat (TArray m true) (TArray m true) = true) by (intro; apply is_compat_refl).
  assert (AT : forall m, attr_type a_to_ary (TArray m true) = Ok (TArray m true)) by (intro m; unfold attr_type; cbn [dt_eqb]; reflexivity).
  intros o safe q v q1 Y S. destruct v; try exact I.
  - eapply (arr_attr o (s "to_ary") safe q _ q1 _ a_to_ary _ (fun m => TArray m true) Y eq_refl eq_refl); [reflexivity|reflexivity| |intros m _; split; [apply AT|apply CM]].
    apply Se_arr. intros x I. apply in_map_iff in I as [c [<- _]]. apply Se_atom. exact Logic.I.
  - eapply (attr_ok Orc C thing w o _ safe q _ q1 (VArr (map (fun c => VDec (dec_of_Z (Z.of_N c))) b)) _ Y eq_refl).
    + unfold resolve_attr. cbn [from_value]. change (get_attr TBytes (s "to_ary")) with (@Ok attr a_to_ary). cbn [rbind attr_fun py_iter rmap].
      assert (CO : coerce true (VArr (map (fun c => VInt (Z.of_N c)) b)) = Ok (VArr (map (fun c => VDec (dec_of_Z (Z.of_N c))) b))).
      { rewrite (proj2 (coerce_seq true _)). assert (X : rmapM (coerce true) (map (fun c => VInt (Z.of_N c)) b) = Ok (map (fun c => VDec (dec_of_Z (Z.of_N c))) b)).
        { apply rmapM_ok_iff. clear. induction b as [|c b IH]; constructor; [reflexivity|exact IH]. }
        rewrite X. cbn [rbind]. unfold coerce_fin.
        assert (Sx : settled (VArr (map (fun c => VDec (dec_of_Z (Z.of_N c))) b))) by (apply Se_arr; intros x I; apply in_map_iff in I as [c [<- _]]; apply Se_atom; exact Logic.I).
        destruct (settled_type _ Sx) as [vt E]. rewrite E. reflexivity. }
      rewrite CO. cbn [rbind].
      assert (Sx : settled (VArr (map (fun c => VDec (dec_of_Z (Z.of_N c))) b))) by (apply Se_arr; intros x I; apply in_map_iff in I as [c [<- _]]; apply Se_atom; exact Logic.I).
      destruct (settled_type _ Sx) as [vt E]. rewrite E. cbn [rbind]. destruct (from_value_arr _ vt E) as [ts [_ ->]]. rewrite AT. cbn [rbind]. rewrite CM. reflexivity.
    + rewrite aware_arr. assert (Sx : settled (VArr (map (fun c => VDec (dec_of_Z (Z.of_N c))) b))) by (apply Se_arr; intros x I; apply in_map_iff in I as [c [<- _]]; apply Se_atom; exact Logic.I).
      rewrite (settled_coerce _ Sx). reflexivity.
  - destruct (settled_type _ S) as [t T]. destruct (from_value_arr l t T) as [ts [_ ->]].
    eapply (arr_attr o (s "to_ary") safe q _ q1 _ a_to_ary l (fun m => TArray m true) Y eq_refl T); [reflexivity|reflexivity|exact S|intros m _; split; [apply AT|apply CM]].
  - destruct (settled_type _ S) as [t T]. destruct (from_value_set l t T) as [ts [_ ->]].
    inversion S as [? K|? K|? K|? K A]; subst; [contradiction|].
    assert (PO : py_ok (VArr l)) by (apply Po_arr; intros x I; apply (K x I)). assert (SU : supported (VArr l)) by (constructor; intros x I; apply (K x I)).
    destruct (proj2 (coerce_true_supported (VArr l) PO) SU) as [v' E]. assert (E0 := E). apply coerce_cases in E0 as [l' [F ->]]. exists l'. split; [exact F|].
    destruct (coerce_verified _ _ E) as [vt VT]. destruct (from_value_arr l' vt VT) as [ts' [_ ->]].
    eapply (attr_ok Orc C thing w o _ safe q _ q1 (VArr l') _ Y eq_refl).
    + unfold resolve_attr. rewrite T. change (get_attr (TSet (member_type ts) true) (s "to_ary")) with (@Ok attr a_to_ary). cbn [rbind attr_fun py_iter rmap]. rewrite E. cbn [rbind]. rewrite VT. cbn [rbind].
      rewrite AT. cbn [rbind]. rewrite CM. reflexivity.
    + rewrite aware_arr. rewrite (coerce_idem true _ _ E false ltac:(discriminate)). reflexivity.
Qed.

(** the elements of a collection, as to_set takes them *)
Inductive elements : value -> list value -> Prop :=
| El_str : forall t, elements (VStr t) (map (fun c => VStr [c]) t)
| El_bytes : forall b, elements (VBytes b) (map (fun c => VInt (Z.of_N c)) b)
| El_arr : forall l, elements (VArr l) l
| El_set : forall l, elements (VSet l) l.

(** to_set: no two members are equal, and it has exactly the elements; elements that cannot be members (mappings, sets) raise TypeError *)
Theorem C65_to_set : tz_lawful o_tz -> forall o safe q v q1 l, yields q o v q1 -> settled v -> elements v l ->
  (Forall hv l -> exists l', yields q (EAttr o (s "to_set") safe) (VSet l') q1 /\ apart l' /\ Forall hv l' /\ forall x, hv x -> py_mem x l' = py_mem x l) /\
  (~ Forall hv l -> fails q (EAttr o (s "to_set") safe) PType q1).
Proof.
  intros TZ o safe q v q1 l Y S EL.
  assert (N : is_null v = false) by (inversion EL; reflexivity).
  assert (IT : py_iter v = Ok l) by (inversion EL; reflexivity).
  assert (G : exists t, from_value v = Ok t /\ get_attr t (s "to_set") = Ok a_to_set).
  { destruct (settled_type _ S) as [t T]. exists t. split; [exact T|]. inversion EL; subst; cbn in T; [injection T as <-; reflexivity|injection T as <-; reflexivity| |].
    - destruct (from_value_arr l t T) as [ts [_ ->]]. reflexivity.
    - destruct (from_value_set l t T) as [ts [_ ->]]. reflexivity. }
  destruct G as [t [T G]]. assert (B : forallb hashable l = true <-> Forall hv l) by (rewrite forallb_forall, Forall_forall; reflexivity).
  split.
  - intro F. set (l' := o_set_order (mk_set l)). assert (P : Permutation l' (mk_set l)) by apply o_set_order_perm.
    assert (IN : forall x, In x l' -> In x l) by (intros x I; apply mk_set_In, (Permutation_in _ P), I).
    assert (SU : forall x, In x l' -> py_ok x /\ supported x) by (intros x I; apply (settled_iter v l S IT), IN, I).
    assert (SS : settled (VSet l')).
    { apply Se_set. intros x I. rewrite Forall_forall in F. destruct (SU x I). split; [apply F, IN, I|split; assumption]. }
    exists l'. split; [|split; [|split]].
    + eapply (attr_ok Orc C thing w o _ safe q v q1 (VSet l') _ Y N).
      * unfold resolve_attr. rewrite T, G. cbn [rbind attr_fun]. rewrite IT. cbn [rbind]. unfold py_set. rewrite (proj2 B F). cbn [rbind]. unfold new_set. fold l'. rewrite (settled_true _ SS). cbn [rbind].
        destruct (settled_type _ SS) as [vt E]. rewrite E. cbn [rbind]. destruct (from_value_set l' vt E) as [ts [_ ->]].
        replace (attr_type a_to_set (TSet (member_type ts) true)) with (@Ok dtype (TSet (member_type ts) true)) by reflexivity. cbn [rbind]. rewrite is_compat_refl. reflexivity.
      * reflexivity.
    + assert (A := mk_set_apart l). destruct (C56_equivalence o_tz TZ) as [_ [Sy _]]. clear - A P Sy F. assert (HV : forall x, In x (mk_set l) -> hv x) by (intros x I; rewrite Forall_forall in F; apply F, mk_set_In, I).
      apply Permutation_sym in P. revert A HV. generalize (mk_set l) l' P. clear - Sy. intros a b P. induction P as [|x a b P IH|x y a|a b c P1 IH1 P2 IH2]; intros A HV.
      * exact A.
      * inversion A as [|? ? A0 A1]; subst. constructor; [|apply IH; [exact A1|intros; apply HV; right; assumption]]. rewrite Forall_forall in *. intros z I. apply A0. apply (Permutation_in _ (Permutation_sym P)), I.
      * inversion A as [|? ? A0 A1]; subst. inversion A1 as [|? ? A2 A3]; subst. inversion A0 as [|? ? A4 A5]; subst. constructor; [constructor; [|exact A2]|constructor; [exact A5|exact A3]].
        rewrite Sy; [exact A4|apply HV; right; left; reflexivity|apply HV; left; reflexivity].
      * apply IH2; [apply IH1; assumption|]. intros x I. apply HV. apply (Permutation_in _ (Permutation_sym P1)), I.
    + apply Forall_forall. intros x I. rewrite Forall_forall in F. apply F, IN, I.
    + intros x Hx. transitivity (py_mem x (mk_set l)).
      * unfold py_mem. destruct (existsb (fun y => py_eq y x) l') eqn:E; symmetry.
        -- apply existsb_exists in E as [y [I E]]. apply existsb_exists. exists y. split; [apply (Permutation_in _ P), I|exact E].
        -- destruct (existsb (fun y => py_eq y x) (mk_set l)) eqn:E2; [|reflexivity]. apply existsb_exists in E2 as [y [I E2]]. rewrite <- E. symmetry. apply existsb_exists. exists y. split; [apply (Permutation_in _ (Permutation_sym P)), I|exact E2].
      * destruct (C56_equivalence o_tz TZ) as [_ [Sy Tr]]. apply (mk_set_mem hv Tr); [|exact Hx]. intros y I. rewrite Forall_forall in F. apply F, I.
  - intro NF. unfold P_Ops.fails, P_Ops.yields in *. cbn [eval]. rewrite run_pbind, Y, N. cbn [andb]. unfold resolve_attr. rewrite T, G. cbn [rbind attr_fun]. rewrite IT. cbn [rbind]. unfold py_set.
    destruct (forallb hashable l) eqn:E; [exfalso; apply NF, B; reflexivity|]. reflexivity.
Qed.
End Collections.
Print Assumptions C65_keys_values.
Print Assumptions C65_value_of_key.
Print Assumptions C65_to_ary.
Print Assumptions C65_to_set.

(** {'a': 1, 'b': 2}.keys and .values; ['x', 'y', 'x'].to_set *)
Definition demo_map : expr := EMap [(ELit (VStr (s "a")), ELit (num 1)); (ELit (VStr (s "b")), ELit (num 2))].
Definition demo_pairs : list (value * value) := [(VStr (s "a"), num 1); (VStr (s "b"), num 2)].
Example C65_example :
  yields untyped_ctx VNull demo_world demo_st demo_map (VMap demo_pairs) demo_st /\ @settled demo_tz (VMap demo_pairs) /\ tz_lawful demo_tz /\
  yields untyped_ctx VNull demo_world demo_st (EAttr demo_map (s "values") false) (VArr [num 1; num 2]) demo_st /\
  yields untyped_ctx VNull demo_world demo_st (EAttr (EArr [ELit (VStr (s "x")); ELit (VStr (s "y")); ELit (VStr (s "x"))]) (s "to_set") false) (VSet [VStr (s "x"); VStr (s "y")]) demo_st.
Proof.
  split; [vm_compute; reflexivity|]. split.
  - apply Se_map; [|repeat constructor]. intros k x [E|[E|[]]]; injection E as <- <-; (split; [apply Se_atom; exact I|split; [reflexivity|apply Se_atom; exact I]]).
  - split; [exact demo_lawful|]. split; vm_compute; reflexivity.
Qed.
(** [[{}]].to_set raises TypeError, no EngineError *)
Theorem C65_unhashable_refuted :
  fails untyped_ctx VNull demo_world demo_st (EAttr (EArr [EMap []]) (s "to_set") false) PType demo_st /\ is_engine PType = false.
Proof. split; vm_compute; reflexivity. Qed.
Print Assumptions C65_unhashable_refuted.
(** a NaN key is found under no key *)
Theorem C65_nan_key_refuted :
  let m := EMap [(ELit (VDec DNaN), ELit (num 1))] in
  yields untyped_ctx VNull demo_world demo_st (EAttr m (s "keys") false) (VArr [VDec DNaN]) demo_st /\
  fails untyped_ctx VNull demo_world demo_st (EItem m (ELit (VDec DNaN)) false) XLookup demo_st.
Proof. split; vm_compute; reflexivity. Qed.
Print Assumptions C65_nan_key_refuted.
