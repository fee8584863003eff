(** * EqFacts: Python's [==] on values *)
From Verif Require Import Base Dec Value.
From Coq Require Import QArith Lqa.
Open Scope Z_scope.

Fixpoint forall2b {A B} (f : A -> B -> bool) (a : list A) (b : list B) : bool :=
  match a, b with
  | [], [] => true
  | x :: a', y :: b' => f x y && forall2b f a' b'
  | _, _ => false
  end.

Lemma forall2b_Forall2 : forall A B (f : A -> B -> bool) a b,
  forall2b f a b = true <-> Forall2 (fun x y => f x y = true) a b.
Proof.
  intros A B f. induction a as [|x a IH]; destruct b as [|y b]; cbn; split; intro H;
    try discriminate; try (inversion H; fail); try constructor.
  - apply andb_true_iff in H. tauto.
  - apply IH. apply andb_true_iff in H. tauto.
  - inversion H; subst. apply andb_true_iff. split; [assumption|]. apply IH. assumption.
Qed.

(** wall clock times of one zone whose offset does not depend on fold are determined by their UTC time *)
Definition tz_lawful (tz : TzDb) : Prop :=
  forall z w1 w2, tz_fold z w1 = false -> tz_fold z w2 = false -> utc w1 z = utc w2 z -> w1 = w2.

(** no native dict at any depth (the engine converts them), and all sets have pairwise unequal members *)
Inductive wfv {tz : TzDb} : value -> Prop :=
| Wf_atom : forall v,
    match v with VArr _ | VList _ | VSet _ | VMap _ | VDict _ => False | _ => True end -> wfv v
| Wf_arr : forall l, (forall x, In x l -> wfv x) -> wfv (VArr l)
| Wf_list : forall l, (forall x, In x l -> wfv x) -> wfv (VList l)
| Wf_set : forall l, (forall x, In x l -> wfv x) -> ForallOrdPairs (fun x y => py_eq x y = false) l -> wfv (VSet l)
| Wf_map : forall l, (forall k x, In (k, x) l -> wfv k /\ wfv x) -> wfv (VMap l).

(** no NaN (and no bound method object) at any depth *)
Inductive nan_free : value -> Prop :=
| Nf_atom : forall v,
    match v with
    | VArr _ | VList _ | VSet _ | VMap _ | VDict _ | VMeth _ _ => False
    | VDec d => d <> DNaN
    | VFlt f => f <> FNaN
    | _ => True
    end -> nan_free v
| Nf_arr : forall l, (forall x, In x l -> nan_free x) -> nan_free (VArr l)
| Nf_list : forall l, (forall x, In x l -> nan_free x) -> nan_free (VList l)
| Nf_set : forall l, (forall x, In x l -> nan_free x) -> nan_free (VSet l)
| Nf_map : forall l, (forall k x, In (k, x) l -> nan_free k /\ nan_free x) -> nan_free (VMap l)
| Nf_dict : forall l, (forall k x, In (k, x) l -> nan_free k /\ nan_free x) -> nan_free (VDict l).

Section EqFacts.
Context {tz : TzDb}.

Lemma py_eq_arr : forall a b, py_eq (VArr a) (VArr b) = forall2b py_eq a b.
Proof. induction a as [|x a IH]; destruct b as [|y b]; cbn; try reflexivity. f_equal. apply IH. Qed.
Lemma py_eq_list : forall a b, py_eq (VList a) (VList b) = forall2b py_eq a b.
Proof. induction a as [|x a IH]; destruct b as [|y b]; cbn; try reflexivity. f_equal. apply IH. Qed.
Lemma py_eq_map : forall a b,
  py_eq (VMap a) (VMap b) = forall2b (fun p q => py_eq (fst p) (fst q) && py_eq (snd p) (snd q)) a b.
Proof.
  induction a as [|[k x] a IH]; destruct b as [|[k' y] b]; try reflexivity.
  specialize (IH b). cbn in *. rewrite <- IH. reflexivity.
Qed.
Lemma py_eq_set : forall a b,
  py_eq (VSet a) (VSet b) = (length a =? length b)%nat && forallb (fun x => existsb (py_eq x) b) a.
Proof.
  intros a b. cbn. f_equal. induction a as [|x a IH]; cbn; [reflexivity|]. f_equal. exact IH.
Qed.
Lemma py_eq_dict : forall a b,
  py_eq (VDict a) (VDict b) = (length a =? length b)%nat
    && forallb (fun p => existsb (fun q => py_eq (fst p) (fst q) && py_eq (snd p) (snd q)) b) a.
Proof.
  intros a b. cbn. f_equal. induction a as [|[k x] a IH]; cbn; [reflexivity|]. f_equal. exact IH.
Qed.

(** *** Numbers *)
Lemma is_eq_true : forall c, is_eq c = true <-> c = Some Eq.
Proof. intros [[]|]; cbn; split; intro H; try discriminate; try reflexivity; inversion H. Qed.

Lemma xcmp_antisym : forall a b, xcmp b a = option_map CompOpp (xcmp a b).
Proof.
  intros [p|n|] [q|m|]; cbn; try reflexivity.
  - rewrite <- (Qcompare_antisym p q). reflexivity.
  - destruct m; reflexivity.
  - destruct n; reflexivity.
  - destruct n, m; reflexivity.
Qed.

Lemma xcmp_eq_sym : forall a b, xcmp a b = Some Eq -> xcmp b a = Some Eq.
Proof. intros a b H. rewrite xcmp_antisym, H. reflexivity. Qed.

Lemma xcmp_eq_subst : forall a b c, xcmp a b = Some Eq -> xcmp a c = xcmp b c.
Proof.
  intros [p|n|] [q|m|] c; cbn; intro H; try discriminate.
  - inversion H as [H1]. apply Qeq_alt in H1. destruct c; cbn; try reflexivity. f_equal.
    rewrite H1. reflexivity.
  - destruct m; discriminate.
  - destruct n; discriminate.
  - destruct n, m; cbn in *; try discriminate; reflexivity.
Qed.

Lemma xcmp_refl : forall a, a <> XNaN -> xcmp a a = Some Eq.
Proof.
  intros [p|n|] H; cbn; [|destruct n; reflexivity|congruence].
  f_equal. apply Qeq_alt. reflexivity.
Qed.

Definition numv (v : value) : bool := match v with VBool _ | VInt _ | VFlt _ | VDec _ => true | _ => false end.
Lemma py_eq_num : forall v w, numv v = true -> numv w = true ->
  py_eq v w = match num_x v, num_x w with Some a, Some b => is_eq (xcmp a b) | _, _ => false end.
Proof. intros v w Hv Hw. destruct v; try discriminate; destruct w; try discriminate; reflexivity. Qed.
Lemma numv_x : forall v, numv v = true -> exists x, num_x v = Some x.
Proof. intros v H. destruct v; try discriminate; cbn; eexists; reflexivity. Qed.
Lemma py_eq_num_l : forall v w, numv v = true -> py_eq v w = true -> numv w = true.
Proof. intros v w Hv H. destruct v; try discriminate; destruct w; try discriminate; reflexivity. Qed.
Lemma py_eq_num_r : forall v w, numv w = true -> py_eq v w = true -> numv v = true.
Proof. intros v w Hv H. destruct w; try discriminate; destruct v; try discriminate; reflexivity. Qed.

Lemma bfun_eqb_eq : forall a b, bfun_eqb a b = true <-> a = b.
Proof. intros [] []; cbn; split; intro H; try reflexivity; try discriminate. Qed.

(** *** Datetimes *)
Lemma dtm_eqb_refl : forall w z, dtm_eqb w z w z = true.
Proof. intros w [z|]; cbn; rewrite ?N.eqb_refl, Z.eqb_refl; reflexivity. Qed.
Lemma dtm_eqb_sym : forall w1 z1 w2 z2, dtm_eqb w1 z1 w2 z2 = dtm_eqb w2 z2 w1 z1.
Proof.
  intros w1 [a|] w2 [b|]; cbn; try reflexivity; try apply Z.eqb_sym.
  rewrite (N.eqb_sym b a). destruct (a =? b)%N; [apply Z.eqb_sym|].
  rewrite (Z.eqb_sym (utc w1 a)). destruct (utc w2 b =? utc w1 a), (tz_fold a w1), (tz_fold b w2); reflexivity.
Qed.
Lemma dtm_eqb_trans : tz_lawful tz -> forall w1 z1 w2 z2 w3 z3,
  dtm_eqb w1 z1 w2 z2 = true -> dtm_eqb w2 z2 w3 z3 = true -> dtm_eqb w1 z1 w3 z3 = true.
Proof.
  intros L w1 [a|] w2 [b|] w3 [c|]; cbn; intros H1 H2; try discriminate;
    try (apply Z.eqb_eq in H1; apply Z.eqb_eq in H2; apply Z.eqb_eq; congruence).
  destruct (N.eqb_spec a b) as [->|Hab].
  - apply Z.eqb_eq in H1. subst. exact H2.
  - destruct (N.eqb_spec b c) as [->|Hbc].
    + apply Z.eqb_eq in H2. subst. destruct (N.eqb_spec a c) as [->|_]; [congruence|]. exact H1.
    + apply andb_true_iff in H1; destruct H1 as [H1 H1c]. apply andb_true_iff in H1; destruct H1 as [H1 H1b].
      apply andb_true_iff in H2; destruct H2 as [H2 H2c]. apply andb_true_iff in H2; destruct H2 as [H2 H2b].
      apply Z.eqb_eq in H1. apply Z.eqb_eq in H2.
      destruct (N.eqb_spec a c) as [->|_].
      * apply Z.eqb_eq. apply (L c); [destruct (tz_fold c w1)|destruct (tz_fold c w3)|congruence];
          try reflexivity; discriminate.
      * rewrite H1b, H2c. rewrite H1, H2, Z.eqb_refl. reflexivity.
Qed.

(** *** Reflexivity *)
Lemma forall2b_refl : forall A (f : A -> A -> bool) l, (forall x, In x l -> f x x = true) -> forall2b f l l = true.
Proof.
  induction l as [|x l IH]; cbn; intro H; [reflexivity|].
  rewrite (H x (or_introl eq_refl)). apply IH. intros y Hy. apply H. right. exact Hy.
Qed.

Lemma flt_x_nan : forall f, f <> FNaN -> flt_x f <> XNaN.
Proof. intros [] H; cbn; congruence. Qed.
Lemma dec_x_nan : forall d, d <> DNaN -> dec_x d <> XNaN.
Proof. intros [] H; cbn; congruence. Qed.

Theorem py_eq_refl : forall v, nan_free v -> py_eq v v = true.
Proof.
  induction v using value_ind'; intro N; inversion N as [v0 Hv0|l0 Hl0|l0 Hl0|l0 Hl0|l0 Hl0|l0 Hl0]; subst;
    try contradiction; try (destruct Hv0; fail).
  - reflexivity.
  - rewrite py_eq_num by reflexivity. cbn [num_x]. rewrite xcmp_refl by discriminate. reflexivity.
  - rewrite py_eq_num by reflexivity. cbn [num_x]. rewrite xcmp_refl by (apply dec_x_nan; exact Hv0). reflexivity.
  - rewrite py_eq_num by reflexivity. cbn [num_x]. rewrite xcmp_refl by discriminate. reflexivity.
  - rewrite py_eq_num by reflexivity. cbn [num_x]. rewrite xcmp_refl by (apply flt_x_nan; exact Hv0). reflexivity.
  - cbn. apply str_eqb_refl.
  - cbn. apply str_eqb_refl.
  - cbn. apply dtm_eqb_refl.
  - cbn. apply Z.eqb_refl.
  - cbn. apply Z.eqb_refl.
  - rewrite py_eq_arr. apply forall2b_refl. rewrite Forall_forall in H. auto.
  - rewrite py_eq_list. apply forall2b_refl. rewrite Forall_forall in H. auto.
  - cbn. destruct (list_eq_dec Z.eq_dec l l); congruence.
  - rewrite py_eq_set, Nat.eqb_refl. cbn. apply forallb_forall. intros x Hx. apply existsb_exists.
    exists x. split; [exact Hx|]. rewrite Forall_forall in H. auto.
  - rewrite py_eq_map. apply forall2b_refl. intros [k x] Hx. rewrite Forall_forall in H.
    destruct (H _ Hx) as [A B]. destruct (Hl0 _ _ Hx). cbn in *. rewrite A, B; auto.
  - rewrite py_eq_dict, Nat.eqb_refl. cbn. apply forallb_forall. intros [k x] Hx. apply existsb_exists.
    exists (k, x). split; [exact Hx|]. rewrite Forall_forall in H. destruct (H _ Hx) as [A B].
    destruct (Hl0 _ _ Hx). cbn in *. rewrite A, B; auto.
  - cbn. apply N.eqb_refl.
  - cbn. apply bfun_eqb_eq. reflexivity.
  - cbn. apply N.eqb_refl.
Qed.

(** *** Transitivity *)
Lemma wfv_arr : forall l, wfv (VArr l) -> forall x, In x l -> wfv x.
Proof. intros l H. inversion H; subst; [contradiction|assumption]. Qed.
Lemma wfv_list : forall l, wfv (VList l) -> forall x, In x l -> wfv x.
Proof. intros l H. inversion H; subst; [contradiction|assumption]. Qed.
Lemma wfv_set : forall l, wfv (VSet l) -> (forall x, In x l -> wfv x) /\ ForallOrdPairs (fun x y => py_eq x y = false) l.
Proof. intros l H. inversion H; subst; [contradiction|split; assumption]. Qed.
Lemma wfv_map : forall l, wfv (VMap l) -> forall k x, In (k, x) l -> wfv k /\ wfv x.
Proof. intros l H. inversion H; subst; [contradiction|assumption]. Qed.
Lemma wfv_dict : forall l, ~ wfv (VDict l).
Proof. intros l H. inversion H; subst; contradiction. Qed.

Lemma forall2b_trans : forall A (f : A -> A -> bool) a b c,
  (forall x y z, In x a -> In y b -> In z c -> f x y = true -> f y z = true -> f x z = true) ->
  forall2b f a b = true -> forall2b f b c = true -> forall2b f a c = true.
Proof.
  induction a as [|x a IH]; destruct b as [|y b]; destruct c as [|z c]; cbn; intros T H1 H2; try discriminate;
    try reflexivity.
  apply andb_true_iff in H1, H2. destruct H1, H2.
  rewrite (T x y z) by tauto. cbn. apply (IH b c); [|assumption|assumption].
  intros x' y' z' ? ? ?. apply T; tauto.
Qed.

Theorem py_eq_trans : tz_lawful tz -> forall v w u, wfv v -> wfv w -> wfv u ->
  py_eq v w = true -> py_eq w u = true -> py_eq v u = true.
Proof.
  intro L.
  assert (Hnum : forall v w u, numv v = true -> py_eq v w = true -> py_eq w u = true -> py_eq v u = true).
  { intros v w u Hv H1 H2. assert (Hw := py_eq_num_l _ _ Hv H1). assert (Hu := py_eq_num_l _ _ Hw H2).
    rewrite py_eq_num in * by assumption.
    destruct (numv_x _ Hv) as [a Ea]. destruct (numv_x _ Hw) as [b Eb]. destruct (numv_x _ Hu) as [c Ec].
    rewrite Ea, Eb, Ec in *. apply is_eq_true in H1. apply is_eq_true in H2. apply is_eq_true.
    rewrite (xcmp_eq_subst _ _ _ H1). exact H2. }
  induction v using value_ind'; intros w0 u0 Wv Ww Wu E1 E2; try (eapply Hnum; eauto; reflexivity).
  - destruct w0; try discriminate. exact E2.
  - destruct w0; try discriminate. cbn in E1. apply str_eqb_eq in E1. subst. exact E2.
  - destruct w0; try discriminate. cbn in E1. apply str_eqb_eq in E1. subst. exact E2.
  - destruct w0; try discriminate. destruct u0; try discriminate. cbn in *. eapply dtm_eqb_trans; eassumption.
  - destruct w0; try discriminate. cbn in E1. apply Z.eqb_eq in E1. subst. exact E2.
  - destruct w0; try discriminate. cbn in E1. apply Z.eqb_eq in E1. subst. exact E2.
  - destruct w0 as [| | | | | | | | | |b| | | | | | | | |]; try discriminate.
    destruct u0 as [| | | | | | | | | |c| | | | | | | | |]; try discriminate.
    rewrite py_eq_arr in *. rewrite Forall_forall in H.
    eapply forall2b_trans; [|eassumption|eassumption].
    intros x y z Hx Hy Hz.
    apply (H x Hx); [exact (wfv_arr _ Wv x Hx)|exact (wfv_arr _ Ww y Hy)|exact (wfv_arr _ Wu z Hz)].
  - destruct w0 as [| | | | | | | | | | |b| | | | | | | |]; try discriminate.
    destruct u0 as [| | | | | | | | | | |c| | | | | | | |]; try discriminate.
    rewrite py_eq_list in *. rewrite Forall_forall in H.
    eapply forall2b_trans; [|eassumption|eassumption].
    intros x y z Hx Hy Hz.
    apply (H x Hx); [exact (wfv_list _ Wv x Hx)|exact (wfv_list _ Ww y Hy)|exact (wfv_list _ Wu z Hz)].
  - destruct w0; try discriminate. cbn in E1. destruct (list_eq_dec Z.eq_dec l l0); [subst; exact E2|discriminate].
  - destruct w0 as [| | | | | | | | | | | | |b| | | | | |]; try discriminate.
    destruct u0 as [| | | | | | | | | | | | |c| | | | | |]; try discriminate.
    rewrite py_eq_set in *. apply andb_true_iff in E1, E2. destruct E1 as [N1 A1]. destruct E2 as [N2 A2].
    apply Nat.eqb_eq in N1, N2. rewrite N1, N2, Nat.eqb_refl. cbn.
    rewrite forallb_forall in *. rewrite Forall_forall in H. intros x Hx.
    destruct (proj1 (existsb_exists _ _) (A1 x Hx)) as [y [Hy Exy]].
    destruct (proj1 (existsb_exists _ _) (A2 y Hy)) as [z [Hz Eyz]].
    apply existsb_exists. exists z. split; [exact Hz|].
    destruct (wfv_set _ Wv). destruct (wfv_set _ Ww). destruct (wfv_set _ Wu). apply (H x Hx) with (w := y); auto.
  - destruct w0 as [| | | | | | | | | | | | | |b|b| | | |]; try discriminate; [|exfalso; exact (wfv_dict _ Ww)].
    destruct u0 as [| | | | | | | | | | | | | |c|c| | | |]; try discriminate; [|exfalso; exact (wfv_dict _ Wu)].
    rewrite py_eq_map in *. rewrite Forall_forall in H.
    eapply forall2b_trans; [|eassumption|eassumption].
    intros [k x] [k' y] [k'' z] Hx Hy Hz F1 F2. cbn in *.
    apply andb_true_iff in F1, F2. destruct F1, F2. destruct (H _ Hx) as [Hk Hxx]. cbn in *.
    destruct (wfv_map _ Wv _ _ Hx). destruct (wfv_map _ Ww _ _ Hy). destruct (wfv_map _ Wu _ _ Hz).
    rewrite (Hk k' k''), (Hxx y z); auto.
  - exfalso. exact (wfv_dict _ Wv).
  - destruct w0; try discriminate. cbn in E1. apply N.eqb_eq in E1. subst. exact E2.
  - destruct w0; try discriminate. cbn in E1. apply bfun_eqb_eq in E1. subst. exact E2.
  - destruct w0; try discriminate. cbn in E1. apply N.eqb_eq in E1. subst. exact E2.
Qed.

(** *** Symmetry *)
Lemma forall2b_sym : forall A (f : A -> A -> bool) a b,
  (forall x y, In x a -> In y b -> f x y = f y x) -> forall2b f a b = forall2b f b a.
Proof.
  induction a as [|x a IH]; destruct b as [|y b]; cbn; intro T; try reflexivity.
  rewrite (T x y) by tauto. f_equal. apply IH. intros. apply T; tauto.
Qed.

(** pigeonhole: an injection (up to eq) between lists of equal length is onto *)
Lemma pigeon : forall (R : value -> value -> bool) a b,
  (forall x y z, In x a -> In y b -> In z a -> R x y = true -> R z y = true -> R x z = true) ->
  ForallOrdPairs (fun x y => R x y = false) a ->
  length a = length b ->
  (forall x, In x a -> exists y, In y b /\ R x y = true) ->
  forall y, In y b -> exists x, In x a /\ R x y = true.
Proof.
  intros R. induction a as [|x a IH]; intros b T D Hlen M y Hy.
  - destruct b; [contradiction|discriminate].
  - destruct (M x (or_introl eq_refl)) as [y0 [Hy0 E0]].
    apply in_split in Hy0. destruct Hy0 as [b1 [b2 ->]].
    inversion D as [|? ? D1 D2]; subst. rewrite Forall_forall in D1.
    assert (Hin : forall u, In u (b1 ++ b2) -> In u (b1 ++ y0 :: b2)).
    { intros u Hu. apply in_app_iff in Hu. apply in_app_iff. cbn. tauto. }
    assert (Hy' : y = y0 \/ In y (b1 ++ b2)).
    { apply in_app_iff in Hy. rewrite in_app_iff. cbn in Hy. intuition. }
    destruct Hy' as [->|Hy']; [exists x; split; [left; reflexivity|exact E0]|].
    destruct (IH (b1 ++ b2)) with (y := y) as [x' [Hx' E']]; try assumption.
    + intros p q r Hp Hq Hr. apply T; [right; assumption|apply Hin; assumption|right; assumption].
    + rewrite app_length in *. cbn in *. lia.
    + intros p Hp. destruct (M p (or_intror Hp)) as [q [Hq Eq]].
      assert (Hq' : q = y0 \/ In q (b1 ++ b2)).
      { apply in_app_iff in Hq. rewrite in_app_iff. cbn in Hq. intuition. }
      destruct Hq' as [->|Hq']; [|exists q; split; assumption].
      exfalso. assert (R x p = true).
      { apply (T x y0 p); [left; reflexivity|apply in_app_iff; right; left; reflexivity|right; exact Hp|assumption|assumption]. }
      rewrite (D1 p Hp) in H. discriminate.
    + exists x'. split; [right; exact Hx'|exact E'].
Qed.

Theorem py_eq_sym : tz_lawful tz -> forall v w, wfv v -> wfv w -> py_eq v w = py_eq w v.
Proof.
  intro L.
  assert (Hnum : forall v w, numv v = true -> numv w = true -> py_eq v w = py_eq w v).
  { intros v w Hv Hw. rewrite !py_eq_num by assumption.
    destruct (numv_x _ Hv) as [a Ea]. destruct (numv_x _ Hw) as [b Eb]. rewrite Ea, Eb.
    rewrite (xcmp_antisym a b). destruct (xcmp a b) as [[]|]; reflexivity. }
  induction v using value_ind'; intros w0 Wv Ww;
    try (destruct w0; try reflexivity; try (apply Hnum; reflexivity); fail).
  - destruct w0; try reflexivity. cbn. apply str_eqb_sym.
  - destruct w0; try reflexivity. cbn. apply str_eqb_sym.
  - destruct w0; try reflexivity. cbn. apply dtm_eqb_sym.
  - destruct w0; try reflexivity. cbn. apply Z.eqb_sym.
  - destruct w0; try reflexivity. cbn. apply Z.eqb_sym.
  - destruct w0 as [| | | | | | | | | |b| | | | | | | | |]; try reflexivity. rewrite !py_eq_arr.
    rewrite Forall_forall in H. apply forall2b_sym. intros x y Hx Hy.
    apply (H x Hx); [exact (wfv_arr _ Wv x Hx)|exact (wfv_arr _ Ww y Hy)].
  - destruct w0 as [| | | | | | | | | | |b| | | | | | | |]; try reflexivity. rewrite !py_eq_list.
    rewrite Forall_forall in H. apply forall2b_sym. intros x y Hx Hy.
    apply (H x Hx); [exact (wfv_list _ Wv x Hx)|exact (wfv_list _ Ww y Hy)].
  - destruct w0; try reflexivity. cbn.
    destruct (list_eq_dec Z.eq_dec l l0), (list_eq_dec Z.eq_dec l0 l); congruence.
  - destruct w0 as [| | | | | | | | | | | | |b| | | | | |]; try reflexivity. rewrite !py_eq_set.
    rewrite (Nat.eqb_sym (length b)). destruct (Nat.eqb_spec (length l) (length b)) as [Hlen|]; [cbn|reflexivity].
    rewrite Forall_forall in H. destruct (wfv_set _ Wv) as [W1 D1]. destruct (wfv_set _ Ww) as [W2 D2].
    apply Bool.eq_true_iff_eq. rewrite !forallb_forall. split; intros M y Hy; apply existsb_exists.
    + destruct (pigeon py_eq l b) with (y := y) as [x [Hx E]]; try assumption.
      * intros p q r Hp Hq Hr E1 E2. apply (py_eq_trans L) with q; auto. rewrite <- (H r Hr); auto.
      * intros x Hx. apply existsb_exists. apply M. exact Hx.
      * exists x. split; [exact Hx|]. rewrite <- (H x Hx); auto.
    + destruct (pigeon (fun x y => py_eq y x) b l) with (y := y) as [x [Hx E]]; try assumption.
      * intros p q r Hp Hq Hr E1 E2. apply (py_eq_trans L) with q; auto. rewrite <- (H q Hq); auto.
      * clear - D2 W2 H M W1 L Hlen.
        assert (Dsym : forall x y, In x b -> In y b -> py_eq x y = false -> py_eq y x = false).
        { intros x y Hx Hy E. destruct (py_eq y x) eqn:F; [|reflexivity]. exfalso.
          destruct (proj1 (existsb_exists _ _) (M y Hy)) as [y' [Hy' Ey]].
          destruct (proj1 (existsb_exists _ _) (M x Hx)) as [x' [Hx' Ex]].
          (* y ~ y' , y ~ x, x ~ x' : x ~ y' via sym of members of l *)
          assert (E1 : py_eq x' x = true) by (rewrite (H x' Hx' x); auto).
          assert (E2 : py_eq y x' = true) by (apply (py_eq_trans L) with x; auto).
          assert (E3 : py_eq x' y = true) by (rewrite (H x' Hx' y); auto).
          assert (E4 : py_eq x y = true) by (apply (py_eq_trans L) with x'; auto).
          congruence. }
        revert D2 Dsym. clear. induction 1 as [|x b Hf D IH]; intro Dsym; constructor.
        { rewrite Forall_forall in *. intros y Hy. apply Dsym; [left; reflexivity|right; exact Hy|]. apply Hf. exact Hy. }
        apply IH. intros; apply Dsym; auto; right; assumption.
      * symmetry. exact Hlen.
      * intros x Hx. destruct (proj1 (existsb_exists _ _) (M x Hx)) as [z [Hz E]]. exists z. split; [exact Hz|].
        rewrite (H z Hz); auto.
      * exists x. split; [exact Hx|]. exact E.
  - destruct w0 as [| | | | | | | | | | | | | |b|b| | | |]; try reflexivity; [|exfalso; exact (wfv_dict _ Ww)].
    rewrite !py_eq_map. rewrite Forall_forall in H. apply forall2b_sym. intros [k x] [k' y] Hx Hy. cbn.
    destruct (H _ Hx) as [Hk Hxx]. cbn in *. destruct (wfv_map _ Wv _ _ Hx). destruct (wfv_map _ Ww _ _ Hy).
    rewrite (Hk k'), (Hxx y); auto.
  - exfalso. exact (wfv_dict _ Wv).
  - destruct w0; try reflexivity. cbn. apply N.eqb_sym.
  - destruct w0; try reflexivity. cbn. apply Bool.eq_true_iff_eq. rewrite !bfun_eqb_eq. split; congruence.
  - destruct w0; try reflexivity. cbn. apply N.eqb_sym.
Qed.

End EqFacts.
