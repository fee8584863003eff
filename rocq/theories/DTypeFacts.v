(** * DTypeFacts: proofs about data type definitions *)
From Verif Require Import Base DType.
Open Scope Z_scope.

(** Named versions of the inner list loops, with the equations that connect them. *)
Fixpoint dts_eqb (x y : list dtype) : bool :=
  match x, y with
  | [], [] => true
  | p :: x', q :: y' => dt_eqb p q && dts_eqb x' y'
  | _, _ => false
  end.
Definition args_eqb (a b : option (list dtype)) : bool :=
  match a, b with None, None => true | Some x, Some y => dts_eqb x y | _, _ => false end.

Lemma dt_eqb_fun : forall n r a m n' r' a' m',
  dt_eqb (TFun n r a m) (TFun n' r' a' m') = dt_eqb r r' && args_eqb a a' && optZ_eqb m m'.
Proof. reflexivity. Qed.

Fixpoint all_compat (x y : list dtype) : bool :=
  match x, y with p :: x', q :: y' => is_compat p q && all_compat x' y' | _, _ => true end.
Definition args_compat (a b : option (list dtype)) : bool :=
  match a, b with Some x, Some y => (length x =? length y)%nat && all_compat x y | _, _ => true end.
Definition min_compat (a b : option Z) : bool := match a, b with Some x, Some y => x =? y | _, _ => true end.

Lemma is_compat_fun : forall n r a m n' r' a' m',
  is_compat (TFun n r a m) (TFun n' r' a' m') = is_compat r r' && args_compat a a' && min_compat m m'.
Proof. reflexivity. Qed.

Lemma is_compat_undef_l : forall t, is_compat TUndef t = true.
Proof. destruct t; reflexivity. Qed.
Lemma is_compat_undef_r : forall t, is_compat t TUndef = true.
Proof. destruct t; reflexivity. Qed.

Lemma optZ_eqb_eq : forall a b, optZ_eqb a b = true <-> a = b.
Proof.
  destruct a, b; cbn; split; intro H; try discriminate; try reflexivity.
  - apply Z.eqb_eq in H. congruence.
  - inversion H. apply Z.eqb_refl.
Qed.

(** ** Equality is an equivalence *)
Lemma dt_eqb_refl : forall t, dt_eqb t t = true.
Proof.
  induction t as [| | | | | | | |m nb IH|m nb IH|k v nb IHk IHv|nm r a mn IHr IHa] using dtype_ind'; try reflexivity.
  - cbn. rewrite IH, Bool.eqb_reflx. reflexivity.
  - cbn. rewrite IH, Bool.eqb_reflx. reflexivity.
  - cbn. rewrite IHk, IHv, Bool.eqb_reflx. reflexivity.
  - rewrite dt_eqb_fun, IHr. cbn.
    assert (Hm : optZ_eqb mn mn = true) by (apply optZ_eqb_eq; reflexivity). rewrite Hm.
    destruct a as [l|]; [|reflexivity]. cbn in *.
    assert (Hl : dts_eqb l l = true).
    { induction IHa as [|x l Hx Hl IH]; cbn; [reflexivity|]. rewrite Hx, IH. reflexivity. }
    rewrite Hl. reflexivity.
Qed.

Lemma dt_eqb_sym : forall t u, dt_eqb t u = dt_eqb u t.
Proof.
  induction t as [| | | | | | | |m nb IH|m nb IH|k v nb IHk IHv|nm r a mn IHr IHa] using dtype_ind';
    destruct u as [| | | | | | | |m' nb'|m' nb'|k' v' nb'|nm' r' a' mn']; try reflexivity.
  - cbn. rewrite IH. destruct nb, nb'; reflexivity.
  - cbn. rewrite IH. destruct nb, nb'; reflexivity.
  - cbn. rewrite IHk, IHv. destruct nb, nb'; reflexivity.
  - rewrite !dt_eqb_fun, IHr. f_equal; [f_equal|].
    + destruct a as [l|], a' as [l'|]; try reflexivity. cbn in *.
      revert l'. induction IHa as [|x l Hx Hl IH]; destruct l' as [|y l']; try reflexivity.
      cbn. rewrite Hx, IH. reflexivity.
    + destruct mn, mn'; cbn; try reflexivity. apply Z.eqb_sym.
Qed.

Lemma dt_eqb_trans : forall t u w, dt_eqb t u = true -> dt_eqb u w = true -> dt_eqb t w = true.
Proof.
  induction t as [| | | | | | | |m nb IH|m nb IH|k v nb IHk IHv|nm r a mn IHr IHa] using dtype_ind';
    destruct u as [| | | | | | | |m' nb'|m' nb'|k' v' nb'|nm' r' a' mn']; intros w H1 H2; try discriminate H1;
    destruct w as [| | | | | | | |m2 nb2|m2 nb2|k2 v2 nb2|nm2 r2 a2 mn2]; try discriminate H2; try reflexivity.
  - cbn in *. apply andb_true_iff in H1, H2. destruct H1 as [A1 B1], H2 as [A2 B2].
    apply Bool.eqb_prop in B1, B2. subst. rewrite (IH _ _ A1 A2), Bool.eqb_reflx. reflexivity.
  - cbn in *. apply andb_true_iff in H1, H2. destruct H1 as [A1 B1], H2 as [A2 B2].
    apply Bool.eqb_prop in B1, B2. subst. rewrite (IH _ _ A1 A2), Bool.eqb_reflx. reflexivity.
  - cbn in *. rewrite !andb_true_iff in H1, H2. destruct H1 as [[A1 B1] C1], H2 as [[A2 B2] C2].
    apply Bool.eqb_prop in C1, C2. subst. rewrite (IHk _ _ A1 A2), (IHv _ _ B1 B2), Bool.eqb_reflx. reflexivity.
  - rewrite dt_eqb_fun in *. rewrite !andb_true_iff in H1, H2. destruct H1 as [[A1 B1] C1], H2 as [[A2 B2] C2].
    apply optZ_eqb_eq in C1, C2. subst. rewrite (IHr _ _ A1 A2).
    assert (Hm : optZ_eqb mn2 mn2 = true) by (apply optZ_eqb_eq; reflexivity). rewrite Hm.
    destruct a as [l|], a' as [l'|], a2 as [l2|]; try discriminate; try reflexivity. cbn in *.
    assert (Hl : dts_eqb l l2 = true).
    { revert l' l2 B1 B2. induction IHa as [|x l Hx Hl IH]; intros [|y l'] [|z l2] B1 B2; try discriminate; [reflexivity|].
      cbn in *. apply andb_true_iff in B1, B2. destruct B1 as [D1 E1], B2 as [D2 E2].
      rewrite (Hx _ _ D1 D2), (IH _ _ E1 E2). reflexivity. }
    rewrite Hl. reflexivity.
Qed.

(** Equal definitions hash the same structure. *)
Lemma dt_eqb_hash : forall t u, dt_eqb t u = true -> hash_key t = hash_key u.
Proof.
  induction t as [| | | | | | | |m nb IH|m nb IH|k v nb IHk IHv|nm r a mn IHr IHa] using dtype_ind';
    destruct u as [| | | | | | | |m' nb'|m' nb'|k' v' nb'|nm' r' a' mn']; intros H; try discriminate H; try reflexivity.
  - cbn in *. apply andb_true_iff in H. destruct H as [A B]. apply Bool.eqb_prop in B. subst.
    rewrite (IH _ A). reflexivity.
  - cbn in *. apply andb_true_iff in H. destruct H as [A B]. apply Bool.eqb_prop in B. subst.
    rewrite (IH _ A). reflexivity.
  - cbn in *. rewrite !andb_true_iff in H. destruct H as [[A B] C]. apply Bool.eqb_prop in C. subst.
    rewrite (IHk _ A), (IHv _ B). reflexivity.
  - rewrite dt_eqb_fun in H. rewrite !andb_true_iff in H. destruct H as [[A B] C]. apply optZ_eqb_eq in C. subst.
    cbn. rewrite (IHr _ A). destruct a as [l|], a' as [l'|]; try discriminate; [|reflexivity].
    assert (Hl : map hash_key l = map hash_key l'); [|rewrite Hl; reflexivity].
    cbn in *. revert l' B. induction IHa as [|x l Hx Hl IH]; destruct l' as [|y l']; intro B; try discriminate; [reflexivity|].
    cbn in *. apply andb_true_iff in B. destruct B as [D E]. f_equal; [apply Hx; exact D|apply IH; exact E].
Qed.

(** ** Compatibility *)
Lemma is_compat_sym : forall t u, is_compat t u = is_compat u t.
Proof.
  induction t as [| | | | | | | |m nb IH|m nb IH|k v nb IHk IHv|nm r a mn IHr IHa] using dtype_ind';
    destruct u as [| | | | | | | |m' nb'|m' nb'|k' v' nb'|nm' r' a' mn']; try reflexivity.
  - cbn. apply IH.
  - cbn. apply IH.
  - cbn. rewrite IHk, IHv. reflexivity.
  - rewrite !is_compat_fun, IHr. f_equal; [f_equal|].
    + destruct a as [l|], a' as [l'|]; try reflexivity. cbn in *.
      rewrite (Nat.eqb_sym (length l)). f_equal.
      revert l'. induction IHa as [|x l Hx Hl IH]; destruct l' as [|y l']; try reflexivity.
      cbn. rewrite Hx, IH. reflexivity.
    + destruct mn, mn'; cbn; try reflexivity. apply Z.eqb_sym.
Qed.

Lemma dt_eqb_compat : forall t u, dt_eqb t u = true -> is_compat t u = true.
Proof.
  induction t as [| | | | | | | |m nb IH|m nb IH|k v nb IHk IHv|nm r a mn IHr IHa] using dtype_ind';
    destruct u as [| | | | | | | |m' nb'|m' nb'|k' v' nb'|nm' r' a' mn']; intros H; try discriminate H; try reflexivity.
  - cbn in *. apply andb_true_iff in H. apply IH. tauto.
  - cbn in *. apply andb_true_iff in H. apply IH. tauto.
  - cbn in *. rewrite !andb_true_iff in H. rewrite IHk, IHv by tauto. reflexivity.
  - rewrite dt_eqb_fun in H. rewrite is_compat_fun. rewrite !andb_true_iff in *. destruct H as [[A B] C].
    apply optZ_eqb_eq in C. subst. split; [split|].
    + apply IHr. exact A.
    + destruct a as [l|], a' as [l'|]; try discriminate; try reflexivity. cbn in *.
      apply andb_true_iff. revert l' B. induction IHa as [|x l Hx Hl IH]; destruct l' as [|y l']; intro B; try discriminate.
      * split; reflexivity.
      * cbn in *. apply andb_true_iff in B. destruct B as [D E]. destruct (IH _ E) as [L M].
        split; [exact L|]. rewrite (Hx _ D), M. reflexivity.
    + destruct mn'; cbn; [apply Z.eqb_refl|reflexivity].
Qed.

Lemma is_compat_refl : forall t, is_compat t t = true.
Proof. intro t. apply dt_eqb_compat. apply dt_eqb_refl. Qed.

(** ** Compatible = has a common instance *)

(** Every definition is an instance of itself. *)
Lemma instance_refl : forall t, instance t t.
Proof.
  induction t as [| | | | | | | |m nb IH|m nb IH|k v nb IHk IHv|nm r a mn IHr IHa] using dtype_ind';
    try (constructor; assumption).
  constructor; [exact IHr| |auto].
  intros l Hl. subst a. exists l. split; [reflexivity|]. cbn in IHa. induction IHa; constructor; assumption.
Qed.

(** A common instance, computed. *)
Fixpoint meet (a b : dtype) {struct a} : dtype :=
  let fix meets (x y : list dtype) : list dtype :=
    match x, y with p :: x', q :: y' => meet p q :: meets x' y' | _, _ => [] end in
  match a, b with
  | TUndef, t | t, TUndef => t
  | TFun n r ar mn, TFun _ r' ar' mn' =>
      TFun n (meet r r')
        (match ar, ar' with Some x, Some y => Some (meets x y) | Some x, None => Some x | None, y => y end)
        (match mn with Some z => Some z | None => mn' end)
  | TArray m n, TArray m' _ => TArray (meet m m') n
  | TMap k v n, TMap k' v' _ => TMap (meet k k') (meet v v') n
  | TSet m n, TSet m' _ => TSet (meet m m') n
  | t, _ => t
  end.
Fixpoint meets (x y : list dtype) : list dtype :=
  match x, y with p :: x', q :: y' => meet p q :: meets x' y' | _, _ => [] end.

Lemma meet_fun : forall n r a m n' r' a' m',
  meet (TFun n r a m) (TFun n' r' a' m')
  = TFun n (meet r r')
      (match a, a' with Some x, Some y => Some (meets x y) | Some x, None => Some x | None, y => y end)
      (match m with Some z => Some z | None => m' end).
Proof. reflexivity. Qed.

Lemma meet_undef_l : forall t, meet TUndef t = t.
Proof. destruct t; reflexivity. Qed.
Lemma meet_undef_r : forall t, meet t TUndef = t.
Proof. destruct t; reflexivity. Qed.

Lemma compat_meet : forall t u, is_compat t u = true -> instance t (meet t u) /\ instance u (meet t u).
Proof.
  induction t as [| | | | | | | |m nb IH|m nb IH|k v nb IHk IHv|nm r a mn IHr IHa] using dtype_ind'; intros u H;
    try (rewrite meet_undef_l; split; [constructor|apply instance_refl]; fail);
    (destruct u as [| | | | | | | |m' nb'|m' nb'|k' v' nb'|nm' r' a' mn'];
      try (rewrite meet_undef_r; split; [apply instance_refl|constructor]; fail); try discriminate H);
    try (split; constructor; fail).
  - cbn in *. destruct (IH _ H) as [A B]. split; constructor; assumption.
  - cbn in *. destruct (IH _ H) as [A B]. split; constructor; assumption.
  - cbn in *. apply andb_true_iff in H. destruct H as [Hk Hv]. destruct (IHk _ Hk) as [A B], (IHv _ Hv) as [C D].
    split; constructor; assumption.
  - rewrite is_compat_fun in H. rewrite !andb_true_iff in H. destruct H as [[A B] C].
    rewrite meet_fun. destruct (IHr _ A) as [R1 R2].
    assert (Hargs : forall x y, a = Some x -> a' = Some y ->
              Forall2 instance x (meets x y) /\ Forall2 instance y (meets x y)).
    { intros x y Hx Hy. subst a a'. cbn in B, IHa. apply andb_true_iff in B. destruct B as [L M].
      clear - IHa L M. revert y L M. induction IHa as [|p l Hp Hl IH]; destruct y as [|q y]; intros L M; try discriminate.
      - split; constructor.
      - cbn in *. apply andb_true_iff in M. destruct M as [M1 M2]. destruct (IH _ L M2) as [F1 F2].
        destruct (Hp _ M1) as [G1 G2]. split; constructor; assumption. }
    assert (Hself : forall l : list dtype, Forall2 instance l l).
    { induction l; constructor; [apply instance_refl|assumption]. }
    split; constructor; try assumption.
    + intros l Hl. subst a. destruct a' as [y|].
      * exists (meets l y). split; [reflexivity|]. apply (Hargs l y eq_refl eq_refl).
      * exists l. split; [reflexivity|apply Hself].
    + intros z Hz. subst mn. reflexivity.
    + intros l Hl. subst a'. destruct a as [x|].
      * exists (meets x l). split; [reflexivity|]. apply (Hargs x l eq_refl eq_refl).
      * exists l. split; [reflexivity|apply Hself].
    + intros z Hz. subst mn'. destruct mn as [w|]; [|reflexivity]. cbn in C. apply Z.eqb_eq in C. congruence.
Qed.

Lemma instance_compat : forall g t u, instance t g -> instance u g -> is_compat t u = true.
Proof.
  induction g as [| | | | | | | |m nb IH|m nb IH|k v nb IHk IHv|nm r a mn IHr IHa] using dtype_ind'; intros t u Ht Hu;
    inversion Ht; subst; try apply is_compat_undef_l; inversion Hu; subst; try apply is_compat_undef_r; try reflexivity.
  - cbn. eapply IH; eassumption.
  - cbn. eapply IH; eassumption.
  - cbn. apply andb_true_iff. split; [eapply IHk|eapply IHv]; eassumption.
  - rewrite is_compat_fun, !andb_true_iff.
    match goal with
    | Hr1 : instance ?r1 r, Hr2 : instance ?r2 r, Ha1 : forall l, ?a1 = Some l -> _, Ha2 : forall l, ?a2 = Some l -> _,
      Hm1 : forall z, ?m1 = Some z -> _, Hm2 : forall z, ?m2 = Some z -> _
      |- (is_compat ?r1 ?r2 = true /\ args_compat ?a1 ?a2 = true) /\ min_compat ?m1 ?m2 = true =>
        split; [split; [eapply IHr; eassumption|]|];
        [ destruct a1 as [x|]; [|reflexivity]; destruct a2 as [y|]; [|reflexivity];
          destruct (Ha1 x eq_refl) as [gl [Ega F1]]; destruct (Ha2 y eq_refl) as [gl' [Ega' F2]]
        | destruct m1 as [z|]; [|reflexivity]; destruct m2 as [z'|]; [|reflexivity];
          pose proof (Hm1 z eq_refl) as E1; pose proof (Hm2 z' eq_refl) as E2; rewrite E1 in E2; inversion E2; subst;
          cbn; apply Z.eqb_refl ]
    end.
    subst a. inversion Ega'; subst gl'. cbn in IHa. cbn.
    clear - IHa F1 F2. apply andb_true_iff. revert x y F1 F2.
    induction IHa as [|g gl Hg Hgl IH]; intros x y F1 F2; inversion F1 as [|x0 g0 x' gl0 A1 A2]; inversion F2 as [|y0 g1 y' gl1 B1 B2]; subst.
    + split; reflexivity.
    + destruct (IH _ _ A2 B2) as [L M]. cbn. split; [exact L|].
      apply andb_true_iff. split; [exact (Hg _ _ A1 B1)|exact M].
Qed.

Lemma is_compat_spec : forall t u, is_compat t u = true <-> exists g, instance t g /\ instance u g.
Proof.
  intros t u. split.
  - intro H. exists (meet t u). apply compat_meet. exact H.
  - intros [g [H1 H2]]. eapply instance_compat; eassumption.
Qed.

(** ** Equality ignores function names and nothing else *)
Fixpoint unname (t : dtype) : dtype :=
  match t with
  | TArray m nb => TArray (unname m) nb
  | TSet m nb => TSet (unname m) nb
  | TMap k v nb => TMap (unname k) (unname v) nb
  | TFun _ r a mn => TFun None (unname r) (option_map (map unname) a) mn
  | _ => t
  end.

Lemma dt_eqb_unname : forall t u, dt_eqb t u = true <-> unname t = unname u.
Proof.
  induction t as [| | | | | | | |m nb IH|m nb IH|k v nb IHk IHv|nm r a mn IHr IHa] using dtype_ind';
    destruct u as [| | | | | | | |m' nb'|m' nb'|k' v' nb'|nm' r' a' mn']; try (cbn; split; intro H; (discriminate H || reflexivity)).
  - cbn. rewrite andb_true_iff, IH, Bool.eqb_true_iff. split; [intros [-> ->]; reflexivity|intro H; inversion H; auto].
  - cbn. rewrite andb_true_iff, IH, Bool.eqb_true_iff. split; [intros [-> ->]; reflexivity|intro H; inversion H; auto].
  - cbn. rewrite !andb_true_iff, IHk, IHv, Bool.eqb_true_iff. split; [intros [[-> ->] ->]; reflexivity|intro H; inversion H; auto].
  - rewrite dt_eqb_fun, !andb_true_iff, IHr, optZ_eqb_eq. cbn.
    assert (Ha : args_eqb a a' = true <-> option_map (map unname) a = option_map (map unname) a').
    { destruct a as [l|], a' as [l'|]; cbn; try (split; intro H; (discriminate H || reflexivity)).
      cbn in IHa. revert l'. induction l as [|x l IHl]; destruct l' as [|y l']; cbn; try (split; intro H; (discriminate H || reflexivity)).
      inversion IHa as [|? ? Hx Hl]; subst. rewrite andb_true_iff, Hx, (IHl Hl). split.
      - intros [E1 E2]. inversion E2. congruence.
      - intro H. inversion H. split; congruence. }
    rewrite Ha. split; [intros [[-> ->] ->]; reflexivity|intro H; inversion H; auto].
Qed.
