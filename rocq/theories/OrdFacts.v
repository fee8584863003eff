(** * OrdFacts: the ordering operators *)
From Coq Require Import QArith_base.
From Verif Require Import Base Dec Value DType Types Ops EqFacts.
Open Scope Z_scope.

Lemma Ncompare_trans_lt : forall a b c : N, (a ?= b)%N = Lt -> (b ?= c)%N = Lt -> (a ?= c)%N = Lt.
Proof. intros a b c H1 H2. rewrite N.compare_lt_iff in *. lia. Qed.

(** [c1] then [c2] along a chain a, b, c *)
Definition chain (c1 c2 : comparison) : option comparison :=
  match c1, c2 with
  | Eq, c => Some c
  | c, Eq => Some c
  | Lt, Lt => Some Lt
  | Gt, Gt => Some Gt
  | _, _ => None
  end.

Lemma Z_chain : forall a b c x, chain (a ?= b) (b ?= c) = Some x -> (a ?= c) = x.
Proof.
  intros a b c x H. destruct (Z.compare_spec a b); destruct (Z.compare_spec b c); inversion H; subst; clear H;
    (first [apply Z.compare_eq_iff | apply Z.compare_lt_iff | apply Z.compare_gt_iff]); lia.
Qed.
Lemma N_chain : forall a b c x, chain (a ?= b)%N (b ?= c)%N = Some x -> (a ?= c)%N = x.
Proof.
  intros a b c x H. destruct (N.compare_spec a b); destruct (N.compare_spec b c); inversion H; subst; clear H;
    (first [apply N.compare_eq_iff | apply N.compare_lt_iff | apply N.compare_gt_iff]); lia.
Qed.
Lemma Q_chain : forall a b c x, chain (Qcompare a b) (Qcompare b c) = Some x -> Qcompare a c = x.
Proof.
  intros a b c x H. unfold Qcompare in *.
  assert (E : forall p q r : Z, 0 < r -> (p ?= q) = (p * r ?= q * r)) by (intros; apply Zmult_compare_compat_r; lia).
  set (qa := QArith_base.Qnum a) in *. set (qb := QArith_base.Qnum b) in *. set (qc := QArith_base.Qnum c) in *.
  set (da := QArith_base.Qden a) in *. set (db := QArith_base.Qden b) in *. set (dc := QArith_base.Qden c) in *.
  rewrite (E (qa * Zpos db) (qb * Zpos da) (Zpos dc)) in H by lia.
  rewrite (E (qb * Zpos dc) (qc * Zpos db) (Zpos da)) in H by lia.
  rewrite (E (qa * Zpos dc) (qc * Zpos da) (Zpos db)) by lia.
  replace (qb * Zpos da * Zpos dc) with (qb * Zpos dc * Zpos da) in H by ring.
  replace (qc * Zpos da * Zpos db) with (qc * Zpos db * Zpos da) by ring.
  replace (qa * Zpos dc * Zpos db) with (qa * Zpos db * Zpos dc) by ring.
  eapply Z_chain; eassumption.
Qed.
Lemma xcmp_chain : forall a b c c1 c2 x, xcmp a b = Some c1 -> xcmp b c = Some c2 -> chain c1 c2 = Some x -> xcmp a c = Some x.
Proof.
  intros a b c c1 c2 x H1 H2 H. destruct a as [p|n|]; destruct b as [q|m|]; destruct c as [r|k|]; cbn in *; try discriminate;
    inversion H1; inversion H2; subst; clear H1 H2.
  - f_equal. eapply Q_chain; eassumption.
  - destruct k; destruct (Qcompare p q); inversion H; reflexivity.
  - destruct m; inversion H.
  - destruct m, k; inversion H; reflexivity.
  - destruct n; destruct (Qcompare q r); inversion H; reflexivity.
  - destruct n, k; inversion H; reflexivity.
  - destruct n, m; inversion H; reflexivity.
  - destruct n, m, k; inversion H; reflexivity.
Qed.

Lemma str_cmp_eq : forall a b, str_cmp a b = Eq <-> a = b.
Proof.
  induction a as [|x a IH]; destruct b as [|y b]; cbn; split; intro H; try discriminate; try reflexivity.
  - destruct (N.compare_spec x y); try discriminate. subst. apply IH in H. congruence.
  - inversion H; subst. rewrite N.compare_refl. apply IH. reflexivity.
Qed.
Lemma str_cmp_antisym : forall a b, str_cmp b a = CompOpp (str_cmp a b).
Proof.
  induction a as [|x a IH]; destruct b as [|y b]; cbn; try reflexivity. rewrite (N.compare_antisym y x).
  destruct (y ?= x)%N; cbn; auto.
Qed.
Lemma str_cmp_chain : forall a b c x, chain (str_cmp a b) (str_cmp b c) = Some x -> str_cmp a c = x.
Proof.
  induction a as [|p a IH]; destruct b as [|q b]; destruct c as [|r c]; cbn; intros x H; try (inversion H; reflexivity).
  - destruct (q ?= r)%N; [destruct (str_cmp b c)| |]; inversion H; reflexivity.
  - destruct (p ?= q)%N; [destruct (str_cmp a b)| |]; inversion H; reflexivity.
  - destruct (N.compare_spec p q) as [->|L|L].
    + destruct (q ?= r)%N eqn:E.
      * apply IH in H. exact H.
      * destruct (str_cmp a b); inversion H; reflexivity.
      * destruct (str_cmp a b); inversion H; reflexivity.
    + destruct (N.compare_spec q r) as [->|M|M].
      * apply N.compare_lt_iff in L. rewrite L. destruct (str_cmp b c); inversion H; reflexivity.
      * inversion H. assert (E : (p ?= r)%N = Lt) by (apply N.compare_lt_iff; lia). rewrite E. reflexivity.
      * discriminate.
    + destruct (N.compare_spec q r) as [->|M|M].
      * apply N.compare_gt_iff in L. rewrite L. destruct (str_cmp b c); inversion H; reflexivity.
      * discriminate.
      * inversion H. assert (E : (p ?= r)%N = Gt) by (apply N.compare_gt_iff; lia). rewrite E. reflexivity.
Qed.

(** unambiguous wall clock times of one zone are ordered like their UTC times *)
Definition tz_monotone (tz : TzDb) : Prop :=
  forall z w1 w2, tz_fold z w1 = false -> tz_fold z w2 = false -> w1 < w2 -> utc w1 z < utc w2 z.

Lemma tz_monotone_cmp : forall tz, tz_monotone tz -> forall z w1 w2, tz_fold z w1 = false -> tz_fold z w2 = false ->
  (utc w1 z ?= utc w2 z) = (w1 ?= w2).
Proof.
  intros tz M z w1 w2 F1 F2. destruct (Z.compare_spec w1 w2) as [->|L|L].
  - apply Z.compare_refl.
  - apply Z.compare_lt_iff. apply M; assumption.
  - apply Z.compare_gt_iff. apply M; assumption.
Qed.
Lemma tz_monotone_lawful : forall tz, tz_monotone tz -> tz_lawful tz.
Proof.
  intros tz M z w1 w2 F1 F2 E. assert (H := tz_monotone_cmp tz M z w1 w2 F1 F2). rewrite E, Z.compare_refl in H. symmetry in H.
  apply Z.compare_eq_iff. exact H.
Qed.

(** what the language orders: null, booleans, numbers other than NaN, text, time zone aware datetimes whose UTC time is
    unambiguous, durations, and arrays of these *)
Inductive ordv {tz : TzDb} : value -> Prop :=
| O_null : ordv VNull
| O_bool : forall b, ordv (VBool b)
| O_dec : forall d, d <> DNaN -> ordv (VDec d)
| O_str : forall t, ordv (VStr t)
| O_bytes : forall t, ordv (VBytes t)
| O_dt : forall w z, tz_fold z w = false -> ordv (VDt w (Some z))
| O_td : forall u, ordv (VTd u)
| O_arr : forall l, (forall x, In x l -> ordv x) -> ordv (VArr l).

Lemma ordv_ind_l {tz : TzDb} : forall (P : value -> Prop),
  P VNull -> (forall b, P (VBool b)) -> (forall d, d <> DNaN -> P (VDec d)) -> (forall t, P (VStr t)) -> (forall t, P (VBytes t)) ->
  (forall w z, tz_fold z w = false -> P (VDt w (Some z))) -> (forall u, P (VTd u)) ->
  (forall l, Forall ordv l -> Forall P l -> P (VArr l)) -> forall v, ordv v -> P v.
Proof.
  intros P H1 H2 H3 H4 H5 H6 H7 H8. fix IH 2. intros v H. destruct H; auto.
  apply H8; apply Forall_forall; intros x Hx; [apply H; exact Hx|apply IH, H, Hx].
Qed.

Section Ord.
Context {Orc : Oracle}.

(** Reference comparison: [None] for values of different kinds. *)
Fixpoint vcmp (v w : value) {struct v} : option comparison :=
  let fix lex (a b : list value) : option comparison :=
    match a, b with
    | [], [] => Some Eq
    | [], _ :: _ => Some Lt
    | _ :: _, [] => Some Gt
    | x :: a', y :: b' => match vcmp x y with Some Eq => lex a' b' | c => c end
    end in
  match v, w with
  | VNull, VNull => Some Eq
  | VBool a, VBool b => Some (bool_z a ?= bool_z b)
  | VDec a, VDec b => xcmp (dec_x a) (dec_x b)
  | VStr a, VStr b | VBytes a, VBytes b => Some (str_cmp a b)
  | VDt w1 (Some a), VDt w2 (Some b) => Some (utc w1 a ?= utc w2 b)
  | VTd a, VTd b => Some (a ?= b)
  | VArr a, VArr b => lex a b
  | _, _ => None
  end.
Fixpoint vlex (a b : list value) : option comparison :=
  match a, b with
  | [], [] => Some Eq
  | [], _ :: _ => Some Lt
  | _ :: _, [] => Some Gt
  | x :: a', y :: b' => match vcmp x y with Some Eq => vlex a' b' | c => c end
  end.
Lemma vcmp_arr : forall a b, vcmp (VArr a) (VArr b) = vlex a b.
Proof. reflexivity. Qed.

Lemma vcmp_refl : forall v, ordv v -> vcmp v v = Some Eq.
Proof.
  apply ordv_ind_l; intros; try reflexivity.
  - cbn. rewrite Z.compare_refl. reflexivity.
  - cbn. apply xcmp_refl. apply dec_x_nan. assumption.
  - cbn. f_equal. apply str_cmp_eq. reflexivity.
  - cbn. f_equal. apply str_cmp_eq. reflexivity.
  - cbn. rewrite Z.compare_refl. reflexivity.
  - cbn. rewrite Z.compare_refl. reflexivity.
  - rewrite vcmp_arr. induction l as [|x l IH]; [reflexivity|]. inversion H; inversion H0; subst. cbn. rewrite H7. auto.
Qed.

Lemma vcmp_antisym : forall v w, vcmp w v = option_map CompOpp (vcmp v w).
Proof.
  induction v using value_ind'; intro v'; destruct v'; try reflexivity;
    repeat match goal with tz : option N |- _ => destruct tz; try reflexivity end.
  - cbn. f_equal. apply Z.compare_antisym.
  - cbn. apply xcmp_antisym.
  - cbn. f_equal. apply str_cmp_antisym.
  - cbn. f_equal. apply str_cmp_antisym.
  - cbn. f_equal. apply Z.compare_antisym.
  - cbn. f_equal. apply Z.compare_antisym.
  - rewrite !vcmp_arr. rename l0 into m. revert m. induction l as [|x l IH]; destruct m as [|y m]; try reflexivity.
    inversion H as [|? ? Hx Hl]; subst. cbn. rewrite (Hx y). destruct (vcmp x y) as [[]|]; cbn; auto.
Qed.

Lemma vcmp_chain : forall a b c c1 c2 x, vcmp a b = Some c1 -> vcmp b c = Some c2 -> chain c1 c2 = Some x -> vcmp a c = Some x.
Proof.
  induction a using value_ind'; intros v2 v3 c1 c2 x H1 H2 HC; destruct v2; cbn [vcmp] in H1; try discriminate; destruct v3; cbn [vcmp] in H2; try discriminate;
    repeat match goal with tz : option N |- _ => destruct tz; try discriminate end.
  - inversion H1; inversion H2; subst. exact HC.
  - inversion H1; inversion H2; subst. cbn. f_equal. eapply Z_chain; eassumption.
  - cbn. eapply xcmp_chain; eassumption.
  - inversion H1; inversion H2; subst. cbn. f_equal. eapply str_cmp_chain; eassumption.
  - inversion H1; inversion H2; subst. cbn. f_equal. eapply str_cmp_chain; eassumption.
  - inversion H1; inversion H2; subst. cbn. f_equal. eapply Z_chain; eassumption.
  - inversion H1; inversion H2; subst. cbn. f_equal. eapply Z_chain; eassumption.
  - change (vcmp (VArr l) (VArr l0) = Some c1) in H1. change (vcmp (VArr l0) (VArr l1) = Some c2) in H2.
    rewrite vcmp_arr in *. revert l0 l1 H1 H2. induction l as [|p l IH]; intros m k H1 H2.
    + destruct m as [|q m]; destruct k as [|r k]; cbn in *; try (inversion H1; inversion H2; subst; inversion HC; reflexivity).
      * inversion H1; subst. destruct (vcmp q r) as [[]|]; [destruct (vlex m k) as [[]|]| | |]; inversion H2; subst; inversion HC; reflexivity.
    + inversion H as [|? ? Hp Hl]; subst. destruct m as [|q m]; destruct k as [|r k]; cbn in *; try discriminate.
      * inversion H1; inversion H2; subst; inversion HC; reflexivity.
      * inversion H1; inversion H2; subst; inversion HC.
      * inversion H2; subst. destruct (vcmp p q) as [[]|]; [destruct (vlex l m) as [[]|]| | |]; inversion H1; subst; inversion HC; reflexivity.
      * destruct (vcmp p q) as [cc1|] eqn:E1; [|discriminate]. destruct (vcmp q r) as [cc2|] eqn:E2; [|discriminate].
        destruct cc1, cc2; cbn in H1, H2.
        -- rewrite (Hp _ _ _ _ Eq E1 E2 eq_refl). eapply IH; eassumption.
        -- rewrite (Hp _ _ _ _ Lt E1 E2 eq_refl). inversion H2; subst. destruct c1; inversion HC; reflexivity.
        -- rewrite (Hp _ _ _ _ Gt E1 E2 eq_refl). inversion H2; subst. destruct c1; inversion HC; reflexivity.
        -- rewrite (Hp _ _ _ _ Lt E1 E2 eq_refl). inversion H1; subst. destruct c2; inversion HC; reflexivity.
        -- inversion H1; inversion H2; subst. inversion HC. rewrite (Hp _ _ _ _ Lt E1 E2 eq_refl). reflexivity.
        -- inversion H1; inversion H2; subst. discriminate.
        -- rewrite (Hp _ _ _ _ Gt E1 E2 eq_refl). inversion H1; subst. destruct c2; inversion HC; reflexivity.
        -- inversion H1; inversion H2; subst. discriminate.
        -- inversion H1; inversion H2; subst. inversion HC. rewrite (Hp _ _ _ _ Gt E1 E2 eq_refl). reflexivity.
Qed.

(** ** The operators follow the reference comparison *)
Fixpoint cmp_arrays (o : aop) (a b : list value) (n m : Z) : result bool :=
  match a, b with
  | x :: a', y :: b' =>
      rbind (cmp_values ANe x y) (fun ne => if ne then cmp_values o x y else cmp_arrays o a' b' n m)
  | _, _ => if n =? m then Ok (aop_reflexive o) else aop_native o (VInt n) (VInt m)
  end.
Lemma cmp_values_arr : forall o a b, cmp_values o (VArr a) (VArr b) = cmp_arrays o a b (Z.of_nat (length a)) (Z.of_nat (length b)).
Proof.
  intros o a b. cbn [cmp_values]. generalize (Z.of_nat (length a)) (Z.of_nat (length b)). revert b.
  induction a as [|x a IH]; destruct b as [|y b]; intros n m; try reflexivity. cbn [cmp_arrays]. 
  destruct (cmp_values ANe x y) as [ne|e]; cbn [rbind]; [|reflexivity]. destruct ne; [reflexivity|apply IH].
Qed.

Definition aop_of (o : aop) (c : comparison) : bool :=
  match o with AOrd o => cop_of o c | ANe => match c with Eq => false | _ => true end end.

Lemma aop_refl : forall o, aop_of o Eq = aop_reflexive o.
Proof. intros [[]|]; reflexivity. Qed.
Lemma aop_native_int : forall o n m, aop_native o (VInt n) (VInt m) = Ok (aop_of o (n ?= m)).
Proof.
  intros o n m. assert (E : Qcompare (QArith_base.inject_Z n) (QArith_base.inject_Z m) = (n ?= m)).
  { unfold Qcompare, QArith_base.inject_Z. cbn. rewrite !Z.mul_1_r. reflexivity. }
  destruct o as [o|]; cbn -[Qcompare]; rewrite E; [reflexivity|]. destruct (n ?= m); reflexivity.
Qed.

Lemma cmp_values_vcmp : tz_monotone o_tz -> forall o v w, ordv v -> ordv w ->
  cmp_values o v w = match vcmp v w with Some c => Ok (aop_of o c) | None => Err XEval end.
Proof.
  intros M o v w Hv. revert o w. revert v Hv. apply (ordv_ind_l (fun v => forall o w, ordv w -> cmp_values o v w = match vcmp v w with Some c => Ok (aop_of o c) | None => Err XEval end));
  [|intros b|intros d H|intros t|intros t|intros w z H|intros u|intros l H H0]; intros o v2 Hw; inversion Hw; subst; try reflexivity.
  - destruct b, b0, o as [[]|]; reflexivity.
  - cbn -[xcmp dec_x]. destruct (xcmp (dec_x d) (dec_x d0)) as [c|] eqn:E; cbn -[xcmp dec_x].
    + destruct o as [o|]; cbn -[xcmp dec_x]; rewrite E; [reflexivity|]. destruct c; reflexivity.
    + destruct d, d0; cbn in E; try discriminate; congruence.
  - cbn. destruct o as [o|]; cbn; [reflexivity|]. destruct (str_cmp t t0) eqn:E.
    + apply str_cmp_eq in E. subst. rewrite str_eqb_refl. reflexivity.
    + destruct (str_eqb t t0) eqn:E2; [|reflexivity]. apply str_eqb_eq in E2. apply str_cmp_eq in E2. congruence.
    + destruct (str_eqb t t0) eqn:E2; [|reflexivity]. apply str_eqb_eq in E2. apply str_cmp_eq in E2. congruence.
  - cbn. destruct o as [o|]; cbn; [reflexivity|]. destruct (str_cmp t t0) eqn:E.
    + apply str_cmp_eq in E. subst. rewrite str_eqb_refl. reflexivity.
    + destruct (str_eqb t t0) eqn:E2; [|reflexivity]. apply str_eqb_eq in E2. apply str_cmp_eq in E2. congruence.
    + destruct (str_eqb t t0) eqn:E2; [|reflexivity]. apply str_eqb_eq in E2. apply str_cmp_eq in E2. congruence.
  - assert (E : (if (z =? z0)%N then w ?= w0 else utc w z ?= utc w0 z0) = (utc w z ?= utc w0 z0)).
    { destruct (N.eqb_spec z z0) as [->|]; [|reflexivity]. symmetry. apply tz_monotone_cmp; assumption. }
    destruct o as [o|]; cbn; [rewrite E; reflexivity|]. rewrite H, H0. cbn. rewrite !andb_true_r. unfold aop_of. f_equal.
    rewrite <- E. destruct (z =? z0)%N.
    + destruct (Z.eqb_spec w w0) as [->|]; [rewrite Z.compare_refl; reflexivity|]. destruct (Z.compare_spec w w0); [contradiction| |]; reflexivity.
    + destruct (Z.eqb_spec (utc w z) (utc w0 z0)) as [Eu|]; [rewrite Eu, Z.compare_refl; reflexivity|].
      destruct (Z.compare_spec (utc w z) (utc w0 z0)); [contradiction| |]; reflexivity.
  - cbn. destruct o as [o|]; cbn; [reflexivity|]. destruct (Z.eqb_spec u u0) as [->|]; [rewrite Z.compare_refl; reflexivity|].
    destruct (Z.compare_spec u u0); [contradiction| |]; reflexivity.
  - rewrite cmp_values_arr, vcmp_arr. assert (Hl : forall x, In x l0 -> ordv x) by assumption.
    assert (G : forall l l0 k, Forall (fun v => forall o w, ordv w -> cmp_values o v w = match vcmp v w with Some c => Ok (aop_of o c) | None => Err XEval end) l ->
      (forall x, In x l0 -> ordv x) ->
      cmp_arrays o l l0 (Z.of_nat (length l) + k) (Z.of_nat (length l0) + k) = match vlex l l0 with Some c => Ok (aop_of o c) | None => Err XEval end).
    { clear. induction l as [|x l IH]; intros [|y m] k F Hm; cbn [cmp_arrays vlex].
      - rewrite Z.eqb_refl. rewrite aop_refl. reflexivity.
      - cbn [length]. destruct (Z.eqb_spec (Z.of_nat 0 + k) (Z.of_nat (S (length m)) + k)); [lia|]. rewrite aop_native_int.
        assert (E : (Z.of_nat 0 + k ?= Z.of_nat (S (length m)) + k) = Lt) by (apply Z.compare_lt_iff; lia). rewrite E. reflexivity.
      - cbn [length]. destruct (Z.eqb_spec (Z.of_nat (S (length l)) + k) (Z.of_nat 0 + k)); [lia|]. rewrite aop_native_int.
        assert (E : (Z.of_nat (S (length l)) + k ?= Z.of_nat 0 + k) = Gt) by (apply Z.compare_gt_iff; lia). rewrite E. reflexivity.
      - inversion F as [|? ? Hx Hl]; subst. rewrite (Hx ANe y) by (apply Hm; left; reflexivity).
        destruct (vcmp x y) as [[]|] eqn:E; cbn [rbind aop_of]; [|rewrite (Hx o y) by (apply Hm; left; reflexivity); rewrite E; reflexivity..|reflexivity].
        cbn [length]. replace (Z.of_nat (S (length l)) + k) with (Z.of_nat (length l) + (k + 1)) by lia.
        replace (Z.of_nat (S (length m)) + k) with (Z.of_nat (length m) + (k + 1)) by lia. apply IH; [assumption|].
        intros z Hz. apply Hm. right. exact Hz. }
    specialize (G l l0 0 H0 Hl). rewrite !Z.add_0_r in G. exact G.
Qed.

Lemma op_ord_vcmp : tz_monotone o_tz -> forall o v w, ordv v -> ordv w ->
  op_ord o v w = match vcmp v w with Some c => Ok (cop_of o c) | None => Err XEval end.
Proof. intros M o v w Hv Hw. unfold op_ord. rewrite cmp_values_vcmp by assumption. reflexivity. Qed.

(** the engine's == agrees with the ordering *)
Lemma vcmp_py_eq : tz_monotone o_tz -> forall v w c, ordv v -> ordv w -> vcmp v w = Some c -> (py_eq v w = true <-> c = Eq).
Proof.
  intros M v w c Hv. revert w c. revert v Hv. apply (ordv_ind_l (fun v => forall w c, ordv w -> vcmp v w = Some c -> (py_eq v w = true <-> c = Eq)));
  [|intros b|intros d H|intros t|intros t|intros w z H|intros u|intros l H H0]; intros v2 c Hw E; inversion Hw; subst; cbn [vcmp] in E; try discriminate.
  - inversion E; subst. tauto.
  - inversion E; subst. destruct b, b0; cbn; split; congruence.
  - cbn -[xcmp dec_x]. rewrite E. destruct c; cbn; split; congruence.
  - inversion E; subst. cbn. rewrite str_cmp_eq. apply str_eqb_eq.
  - inversion E; subst. cbn. rewrite str_cmp_eq. apply str_eqb_eq.
  - inversion E; subst. cbn. rewrite H, H0. cbn. rewrite !andb_true_r. rewrite Z.compare_eq_iff.
    destruct (N.eqb_spec z z0) as [->|]; [|apply Z.eqb_eq]. rewrite Z.eqb_eq. split; [congruence|]. apply tz_monotone_lawful; assumption.
  - inversion E; subst. cbn. rewrite Z.compare_eq_iff. apply Z.eqb_eq.
  - change (vcmp (VArr l) (VArr l0) = Some c) in E. rewrite vcmp_arr in E. rewrite py_eq_arr.
    assert (Hl : forall x, In x l0 -> ordv x) by assumption. clear - H H0 E Hl. revert l0 Hl E.

    induction l as [|x l IH]; intros [|y m] Hm E; cbn in *; try (inversion E; subst; split; congruence).
    inversion H0 as [|? ? Hx Hl]; inversion H; subst. destruct (vcmp x y) as [[]|] eqn:Ex; try discriminate.
    + rewrite (proj2 (Hx y Eq (Hm y (or_introl eq_refl)) Ex) eq_refl). cbn. apply IH; auto.
    + inversion E; subst. destruct (py_eq x y) eqn:Ep; [|cbn; split; congruence]. apply (Hx y Lt) in Ep; [discriminate| |exact Ex]. auto.
    + inversion E; subst. destruct (py_eq x y) eqn:Ep; [|cbn; split; congruence]. apply (Hx y Gt) in Ep; [discriminate| |exact Ex]. auto.
Qed.
Lemma vcmp_tag : forall v w c, vcmp v w = Some c -> pytag_eqb (pytag_of v) (pytag_of w) = true.
Proof.
  intros v w c H. destruct v, w; cbn in *; try discriminate; try reflexivity;
    repeat match goal with tz : option N |- _ => destruct tz; try discriminate end; reflexivity.
Qed.
Lemma vcmp_op_eq : tz_monotone o_tz -> forall v w c, ordv v -> ordv w -> vcmp v w = Some c -> (op_eq v w = true <-> c = Eq).
Proof. intros. unfold op_eq. rewrite (vcmp_tag _ _ _ H2). apply vcmp_py_eq; assumption. Qed.

(** ** Flipping the operands, for all values *)
Definition flip (o : cop) : cop := match o with Clt => Cgt | Cle => Cge | Cgt => Clt | Cge => Cle end.
Definition aflip (o : aop) : aop := match o with AOrd o => AOrd (flip o) | ANe => ANe end.
Lemma cop_flip : forall o c, cop_of (flip o) (CompOpp c) = cop_of o c.
Proof. intros [] []; reflexivity. Qed.
Lemma aop_reflexive_flip : forall o, aop_reflexive (aflip o) = aop_reflexive o.
Proof. intros [[]|]; reflexivity. Qed.

Lemma dtm_cmp_antisym : forall w1 z1 w2 z2, dtm_cmp w2 z2 w1 z1 = option_map CompOpp (dtm_cmp w1 z1 w2 z2).
Proof.
  intros w1 [z1|] w2 [z2|]; cbn; try reflexivity.
  - f_equal. rewrite N.eqb_sym. destruct (z1 =? z2)%N; apply Z.compare_antisym.
  - f_equal. apply Z.compare_antisym.
Qed.

Lemma py_ord_num : forall o v w, numv v = true -> numv w = true ->
  py_ord o v w = match num_x v, num_x w with
                 | Some a, Some b => match xcmp a b with
                                     | Some c => Ok (cop_of o c)
                                     | None => if is_dec v || is_dec w then Err PInvalidOp else Ok false
                                     end
                 | _, _ => Err PType
                 end.
Proof. intros o v w Hv Hw. destruct v; cbn in Hv; try discriminate; destruct w; cbn in Hw; try discriminate; reflexivity. Qed.
Lemma py_ord_num_flip : forall o v w, numv v = true -> numv w = true -> py_ord (flip o) w v = py_ord o v w.
Proof.
  intros o v w Hv Hw. rewrite !py_ord_num by assumption. destruct (num_x v) as [a|], (num_x w) as [b|]; try reflexivity.
  rewrite (xcmp_antisym a b), (orb_comm (is_dec w)). destruct (xcmp a b) as [c|]; cbn [option_map]; [|reflexivity]. rewrite cop_flip. reflexivity.
Qed.
Fixpoint ord_lists (o : cop) (a b : list value) : result bool :=
  match a, b with
  | [], [] => Ok (cop_of o Eq)
  | [], _ :: _ => Ok (cop_of o Lt)
  | _ :: _, [] => Ok (cop_of o Gt)
  | x :: a', y :: b' => if py_eq x y then ord_lists o a' b' else py_ord o x y
  end.
Lemma py_ord_arr : forall o a b, py_ord o (VArr a) (VArr b) = ord_lists o a b.
Proof.
  intros o a. induction a as [|x a IH]; destruct b as [|y b]; try reflexivity. cbn [ord_lists]. rewrite <- IH. reflexivity.
Qed.
Lemma py_ord_list : forall o a b, py_ord o (VList a) (VList b) = ord_lists o a b.
Proof.
  intros o a. induction a as [|x a IH]; destruct b as [|y b]; try reflexivity. cbn [ord_lists]. rewrite <- IH. reflexivity.
Qed.
Lemma ord_lists_flip : tz_lawful o_tz -> forall l, Forall (fun v => forall w o, wfv v -> wfv w -> py_ord (flip o) w v = py_ord o v w) l ->
  forall m o, (forall x, In x l -> wfv x) -> (forall x, In x m -> wfv x) -> ord_lists (flip o) m l = ord_lists o l m.
Proof.
  intros T l F. induction F as [|x l Hx Hl IH]; intros [|y m] o Wl Wm; cbn; try (destruct o; reflexivity).
  rewrite (py_eq_sym T y x) by auto with datatypes. destruct (py_eq x y); [|apply Hx; auto with datatypes].
  apply IH; intros; auto with datatypes.
Qed.
Lemma py_ord_flip : tz_lawful o_tz -> forall v w o, wfv v -> wfv w -> py_ord (flip o) w v = py_ord o v w.
Proof.
  intros T. induction v using value_ind'; intros v2 o Hv Hw.
  all: match goal with |- py_ord _ _ ?v = _ => destruct (numv v && numv v2) eqn:EN end.
  all: try (apply andb_true_iff in EN; destruct EN; apply py_ord_num_flip; assumption).
  all: destruct v2; try discriminate EN; try reflexivity.
  - cbn. rewrite (str_cmp_antisym t t0), cop_flip. reflexivity.
  - cbn. rewrite (str_cmp_antisym b b0), cop_flip. reflexivity.
  - cbn. rewrite (dtm_cmp_antisym w tz w0 tz0). destruct (dtm_cmp w tz w0 tz0); cbn; [rewrite cop_flip|]; reflexivity.
  - cbn. rewrite (Z.compare_antisym d days), cop_flip. reflexivity.
  - cbn. rewrite (Z.compare_antisym u us), cop_flip. reflexivity.
  - rewrite !py_ord_arr. apply ord_lists_flip; [assumption|assumption|apply wfv_arr; assumption|apply wfv_arr; assumption].
  - rewrite !py_ord_list. apply ord_lists_flip; [assumption|assumption|apply wfv_list; assumption|apply wfv_list; assumption].
  - destruct o; reflexivity.
Qed.

Lemma pytag_eqb_sym : forall a b, pytag_eqb a b = pytag_eqb b a.
Proof. destruct a, b; try reflexivity. apply N.eqb_sym. Qed.

Lemma aop_native_flip : tz_lawful o_tz -> forall o v w, wfv v -> wfv w -> aop_native (aflip o) w v = aop_native o v w.
Proof. intros T [o|] v w Hv Hw; cbn; [apply py_ord_flip; assumption|]. rewrite (py_eq_sym T w v) by assumption. reflexivity. Qed.

Lemma cmp_values_flip : tz_lawful o_tz -> forall v w o, wfv v -> wfv w -> cmp_values (aflip o) w v = cmp_values o v w.
Proof.
  intros T. assert (A : forall v w o, wfv v -> wfv w ->
     (if pytag_eqb (pytag_of w) (pytag_of v) then aop_native (aflip o) w v else Err XEval) =
     (if pytag_eqb (pytag_of v) (pytag_of w) then aop_native o v w else Err XEval)).
  { intros. rewrite pytag_eqb_sym. destruct (pytag_eqb _ _); [apply aop_native_flip; assumption|reflexivity]. }
  induction v using value_ind'; intros v2 o Hv Hw.
  all: try (specialize (A _ _ o Hv Hw); destruct v2; try exact A; cbn; rewrite ?aop_reflexive_flip; reflexivity).
  specialize (A _ _ o Hv Hw). destruct v2; try exact A. rewrite !cmp_values_arr. clear A.
  generalize (Z.of_nat (length l)) (Z.of_nat (length l0)). assert (Wl := wfv_arr _ Hv).
  assert (Wm' : forall x, In x l0 -> wfv x) by (apply wfv_arr; assumption). clear Hv Hw. revert l0 Wm'.
  assert (B : forall n m, (if m =? n then Ok (aop_reflexive (aflip o)) else aop_native (aflip o) (VInt m) (VInt n)) =
                          (if n =? m then Ok (aop_reflexive o) else aop_native o (VInt n) (VInt m))).
  { intros n m. rewrite Z.eqb_sym, aop_reflexive_flip, aop_native_flip by (assumption || constructor; exact I). reflexivity. }
  induction l as [|x l IH]; intros [|y k] Wk n m; cbn [cmp_arrays]; try apply B.
  inversion H as [|? ? Hx Hl]; subst.
  rewrite <- (Hx y ANe) by auto with datatypes. cbn [aflip]. destruct (cmp_values ANe y x) as [[]|]; cbn [rbind]; [apply Hx; auto with datatypes| |reflexivity].
  apply IH; intros; auto with datatypes.
Qed.
Lemma op_ord_flip : tz_lawful o_tz -> forall v w o, wfv v -> wfv w -> op_ord (flip o) w v = op_ord o v w.
Proof. intros. unfold op_ord. apply (cmp_values_flip H v w (AOrd o)); assumption. Qed.
End Ord.
