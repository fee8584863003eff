(** * FltFacts: the rounding and the repr of binary64 numbers *)
From Coq Require Import QArith Qabs Qpower Lqa ZArith List Bool Lia.
From Verif Require Import Base Dec Value DecRound Flt.
Import ListNotations.
Open Scope Z_scope.

(** ** Powers *)
Local Notation P b t := (((Zpos b # 1) ^ t)%Q).
Lemma p_pos b t : (0 < P b t)%Q.
Proof. apply Qpower_0_lt. reflexivity. Qed.
Lemma p_plus b s t : (P b (s + t) == P b s * P b t)%Q.
Proof. apply Qpower_plus. intros H. discriminate H. Qed.
Lemma p_Z b t : 0 <= t -> (P b t == inject_Z (Zpos b ^ t))%Q.
Proof. intros H. rewrite Zpower_Qpower by exact H. reflexivity. Qed.
Lemma p_inv b t : (P b t * P b (- t) == 1)%Q.
Proof. rewrite <- p_plus. replace (t + - t) with 0 by lia. reflexivity. Qed.
Lemma p_mono b s t : s <= t -> (P b s <= P b t)%Q.
Proof.
  intros H. replace t with (s + (t - s)) by lia. rewrite p_plus. rewrite (p_Z b (t - s)) by lia.
  assert (A := p_pos b s). assert (B : (1 <= inject_Z (Zpos b ^ (t - s)))%Q). { change 1%Q with (inject_Z 1). rewrite <- Zle_Qle. assert (0 < Zpos b ^ (t - s)) by (apply Z.pow_pos_nonneg; lia). lia. }
  nra.
Qed.
Lemma p_lt_inv b s t : (P b s < P b t)%Q -> s < t.
Proof. intros H. destruct (Z.lt_ge_cases s t) as [L|L]; [exact L|]. apply (p_mono b) in L. lra. Qed.

Lemma frac_eq p q : (p # q == inject_Z p / inject_Z (Zpos q))%Q.
Proof. unfold Qeq, Qdiv, Qmult, Qinv, inject_Z. cbn. lia. Qed.
Lemma frac_mul p q : ((p # q) * inject_Z (Zpos q) == inject_Z p)%Q.
Proof. unfold Qeq, Qmult, inject_Z. cbn. rewrite Pos.mul_1_r. ring. Qed.
Lemma frac_le a p q : (a <= p # q)%Q <-> (a * inject_Z (Zpos q) <= inject_Z p)%Q.
Proof. rewrite <- (frac_mul p q). assert (0 < inject_Z (Zpos q))%Q by reflexivity. split; intros; nra. Qed.
Lemma frac_lt a p q : (p # q < a)%Q <-> (inject_Z p < a * inject_Z (Zpos q))%Q.
Proof. rewrite <- (frac_mul p q). assert (0 < inject_Z (Zpos q))%Q by reflexivity. split; intros; nra. Qed.

Lemma pow_le_spec b t p q : pow_le (Zpos b) t p (Zpos q) = true <-> (P b t <= p # q)%Q.
Proof.
  unfold pow_le. rewrite frac_le. destruct (Z.leb_spec 0 t) as [H|H].
  - rewrite Z.leb_le, (p_Z b t H), <- inject_Z_mult, <- Zle_Qle. reflexivity.
  - rewrite Z.leb_le. rewrite Zle_Qle, inject_Z_mult, <- (p_Z b (- t)) by lia. pose proof (p_pos b t). pose proof (p_pos b (- t)). pose proof (p_inv b t).
    split; intros A.
    + setoid_replace (inject_Z p) with (P b t * (inject_Z p * P b (- t)))%Q by (setoid_replace (P b t * (inject_Z p * P b (- t)))%Q with (inject_Z p * (P b t * P b (- t)))%Q by ring; rewrite H2; ring). apply Qmult_le_l; assumption.
    + setoid_replace (inject_Z (Zpos q)) with (P b t * inject_Z (Zpos q) * P b (- t))%Q by (setoid_replace (P b t * inject_Z (Zpos q) * P b (- t))%Q with (inject_Z (Zpos q) * (P b t * P b (- t)))%Q by ring; rewrite H2; ring). apply Qmult_le_r; assumption.
Qed.
Definition log_spec (b : positive) (t : Z) (v : Q) : Prop := (P b t <= v)%Q /\ (v < P b (t + 1))%Q.
Lemma log_of b l1 l2 (p q : positive) : (P b l1 <= inject_Z (Zpos p))%Q -> (inject_Z (Zpos p) < P b (l1 + 1))%Q -> (P b l2 <= inject_Z (Zpos q))%Q -> (inject_Z (Zpos q) < P b (l2 + 1))%Q ->
  log_spec b (if pow_le (Zpos b) (l1 - l2) (Zpos p) (Zpos q) then l1 - l2 else l1 - l2 - 1) (Zpos p # q).
Proof.
  intros A1 A2 B1 B2. set (t := l1 - l2) in *. destruct (pow_le (Zpos b) t (Zpos p) (Zpos q)) eqn:E.
  - apply pow_le_spec in E. split; [exact E|]. apply frac_lt. replace (l1 + 1) with (t + 1 + l2) in A2 by (unfold t; lia). rewrite p_plus in A2. pose proof (p_pos b (t + 1)). nra.
  - assert (N : (Zpos p # q < P b t)%Q). { apply Qnot_le_lt. intros L. apply pow_le_spec in L. congruence. }
    split; [|replace (t - 1 + 1) with t by lia; exact N]. apply frac_le. replace l1 with (t - 1 + (l2 + 1)) in A1 by (unfold t; lia). rewrite p_plus in A1. pose proof (p_pos b (t - 1)). nra.
Qed.
Lemma flog2_spec (p q : positive) : log_spec 2 (flog2 (Zpos p) (Zpos q)) (Zpos p # q).
Proof.
  assert (L : forall n : positive, (P 2 (Z.log2 (Zpos n)) <= inject_Z (Zpos n))%Q /\ (inject_Z (Zpos n) < P 2 (Z.log2 (Zpos n) + 1))%Q).
  { intros n. pose proof (Z.log2_nonneg (Zpos n)). destruct (Z.log2_spec (Zpos n) eq_refl) as [A B]. rewrite (p_Z 2), (p_Z 2) by lia. rewrite <- Zle_Qle, <- Zlt_Qlt. rewrite <- Z.add_1_r in B. auto. }
  unfold flog2. apply log_of; apply L.
Qed.
Lemma flog10_spec (p q : positive) : log_spec 10 (flog10 (Zpos p) (Zpos q)) (Zpos p # q).
Proof.
  assert (L : forall n : positive, (P 10 (ndig (Z.to_N (Zpos n)) - 1) <= inject_Z (Zpos n))%Q /\ (inject_Z (Zpos n) < P 10 (ndig (Z.to_N (Zpos n)) - 1 + 1))%Q).
  { intros n. destruct (ndig_spec (Z.to_N (Zpos n))) as (A & B & C); [discriminate|]. rewrite (p_Z 10), (p_Z 10) by lia. rewrite <- Zle_Qle, <- Zlt_Qlt. rewrite Z2N.id in B, C by lia. replace (ndig (Z.to_N (Zpos n)) - 1 + 1) with (ndig (Z.to_N (Zpos n))) by lia. auto. }
  unfold flog10. replace (ndig (Z.to_N (Zpos p)) - ndig (Z.to_N (Zpos q))) with ((ndig (Z.to_N (Zpos p)) - 1) - (ndig (Z.to_N (Zpos q)) - 1)) by lia.
  apply log_of; apply L.
Qed.
Lemma log_unique b s t v : log_spec b s v -> log_spec b t v -> s = t.
Proof.
  intros [A1 A2] [B1 B2]. destruct (Z.lt_trichotomy s t) as [H|[H|H]]; [|exact H|].
  - assert (X := p_mono b (s + 1) t ltac:(lia)). lra.
  - assert (X := p_mono b (t + 1) s ltac:(lia)). lra.
Qed.

Lemma scaled_spec b e p q : exists a c, scaled (Zpos b) e p (Zpos q) = (a, Zpos c) /\ ((a # c) * P b e == p # q)%Q.
Proof.
  unfold scaled. destruct (Z.leb_spec 0 e) as [H|H].
  - assert (X : 0 < Zpos b ^ e) by (apply Z.pow_pos_nonneg; lia). destruct (Zpos b ^ e) as [|r|r] eqn:E; try lia. exists p, (q * r)%positive. split; [reflexivity|].
    rewrite (p_Z b e H), E. unfold Qeq, Qmult, inject_Z. cbn. nia.
  - assert (X : 0 < Zpos b ^ (- e)) by (apply Z.pow_pos_nonneg; lia). exists (p * Zpos b ^ (- e)), q. split; [reflexivity|].
    assert (A : (p * Zpos b ^ (- e) # q == (p # q) * P b (- e))%Q). { rewrite (p_Z b (- e)) by lia. unfold Qeq, Qmult, inject_Z. cbn. rewrite Pos.mul_1_r. ring. }
    rewrite A. pose proof (p_inv b e) as Y. rewrite <- Qmult_assoc, (Qmult_comm (P b (- e))), Y. ring.
Qed.
Lemma floor_spec a c : (inject_Z (a / Zpos c) <= a # c)%Q /\ (a # c < inject_Z (a / Zpos c) + 1)%Q.
Proof.
  assert (D := Z.div_mod a (Zpos c) ltac:(discriminate)). assert (B := Z.mod_pos_bound a (Zpos c) eq_refl). set (k := a / Zpos c) in *. set (r := a mod Zpos c) in *. clearbody k r.
  split; [apply frac_le|apply frac_lt]; rewrite ?(Qmult_plus_distr_l); [rewrite <- inject_Z_mult, <- Zle_Qle; nia|].
  change 1%Q with (inject_Z 1). rewrite <- !inject_Z_mult, <- inject_Z_plus, <- Zlt_Qlt. nia.
Qed.
Lemma nearest_spec a c : (Qabs (inject_Z (nearest_even a (Zpos c)) - (a # c)) <= 1 # 2)%Q.
Proof.
  assert (D := Z.div_mod a (Zpos c) ltac:(discriminate)). assert (B := Z.mod_pos_bound a (Zpos c) eq_refl). unfold nearest_even. set (k := a / Zpos c) in *. set (r := a mod Zpos c) in *.
  assert (E : (a # c == inject_Z k + (r # c))%Q). { clearbody k r. subst a. unfold Qeq, Qplus, inject_Z. cbn [Qnum Qden]. rewrite Pos.mul_1_l. ring. }
  assert (R0 : (0 <= r # c)%Q) by (unfold Qle; cbn; lia).
  assert (LO : 2 * r <= Zpos c -> ((r # c) <= 1 # 2)%Q) by (intros; unfold Qle; cbn; lia). assert (HI : Zpos c <= 2 * r -> ((1 # 2) <= r # c)%Q) by (intros; unfold Qle; cbn; lia).
  assert (R1 : ((r # c) < 1)%Q) by (unfold Qlt; cbn; lia).
  assert (CASE : forall n, (n = k /\ 2 * r <= Zpos c) \/ (n = k + 1 /\ Zpos c <= 2 * r) -> (Qabs (inject_Z n - (a # c)) <= 1 # 2)%Q).
  { intros n [[-> H]|[-> H]]; rewrite E; apply Qabs_Qle_condition; rewrite ?inject_Z_plus; change (inject_Z 1) with 1%Q; [specialize (LO H)|specialize (HI H)]; lra. }
  apply CASE. destruct (Z.compare_spec (2 * r) (Zpos c)); [destruct (Z.even k)| |]; (left; split; [reflexivity|lia]) || (right; split; [reflexivity|lia]).
Qed.
Lemma nearest_exact a c k : (a # c == inject_Z k)%Q -> nearest_even a (Zpos c) = k.
Proof.
  intros H. unfold Qeq, inject_Z in H. cbn in H. rewrite Z.mul_1_r in H. subst a. unfold nearest_even. rewrite Z.mod_mul, Z.div_mul by discriminate. reflexivity.
Qed.

Lemma q2_spec m e : (q2 m e == inject_Z m * P 2 e)%Q.
Proof.
  unfold q2. destruct (Z.leb_spec 0 e) as [H|H].
  - rewrite inject_Z_mult, (p_Z 2 e H). reflexivity.
  - assert (X : 0 < 2 ^ (- e)) by (apply Z.pow_pos_nonneg; lia). rewrite frac_eq, Z2Pos.id by exact X. pose proof (p_inv 2 e) as Y. rewrite (p_Z 2 (- e)) in Y by lia.
    assert (Z : ~ (inject_Z (2 ^ (- e)) == 0)%Q). { intros Z. rewrite Z in Y. lra. } apply Qmult_inj_r with (z := inject_Z (2 ^ (- e))); [exact Z|]. rewrite <- Qmult_assoc, Y. unfold Qdiv. rewrite <- Qmult_assoc, (Qmult_comm (/ _)), Qmult_inv_r by exact Z. reflexivity.
Qed.
Lemma q10_spec m e : (q10 m e == inject_Z m * P 10 e)%Q.
Proof.
  unfold q10. destruct (Z.leb_spec 0 e) as [H|H].
  - rewrite inject_Z_mult, (p_Z 10 e H). reflexivity.
  - assert (X : 0 < 10 ^ (- e)) by (apply Z.pow_pos_nonneg; lia). rewrite frac_eq, Z2Pos.id by exact X. pose proof (p_inv 10 e) as Y. rewrite (p_Z 10 (- e)) in Y by lia.
    assert (Z : ~ (inject_Z (10 ^ (- e)) == 0)%Q). { intros Z. rewrite Z in Y. lra. } apply Qmult_inj_r with (z := inject_Z (10 ^ (- e))); [exact Z|]. rewrite <- Qmult_assoc, Y. unfold Qdiv. rewrite <- Qmult_assoc, (Qmult_comm (/ _)), Qmult_inv_r by exact Z. reflexivity.
Qed.

(** ** Rounding *)
Lemma round64_ext v w : (v == w)%Q -> round64 v = round64 w.
Proof. intros H. unfold round64. rewrite (Qred_complete v w H). reflexivity. Qed.

Definition two53 : Q := inject_Z (2 ^ 53).
(** the exponent before normalisation *)
Lemma round64_raw v : (0 < v)%Q -> exists t m, log_spec 2 t v /\ let e := Z.max (-1074) (t - 52) in
  (Qabs (inject_Z m * P 2 e - v) <= (1 # 2) * P 2 e)%Q /\ (forall k, (v == inject_Z k * P 2 e)%Q -> m = k) /\
  round64 v = (if m =? 2 ^ 53 then (2 ^ 52, e + 1) else (m, e)).
Proof.
  intros V. set (w := Qred v). assert (W : (w == v)%Q) by apply Qred_correct. assert (W0 : (0 < w)%Q) by (rewrite W; exact V).
  destruct (Qnum w) as [|p|p] eqn:N; try (exfalso; unfold Qlt in W0; rewrite N in W0; cbn in W0; lia).
  assert (E : (w == Zpos p # Qden w)%Q) by (unfold Qeq; cbn; rewrite N; reflexivity).
  pose proof (flog2_spec p (Qden w)) as L. set (t := flog2 (Zpos p) (Zpos (Qden w))) in *.
  destruct (scaled_spec 2 (Z.max (-1074) (t - 52)) (Zpos p) (Qden w)) as (a & c & S & A).
  exists t, (nearest_even a (Zpos c)). split; [unfold log_spec in *; rewrite <- E, W in L; exact L|]. cbv zeta.
  set (e := Z.max (-1074) (t - 52)) in *. pose proof (p_pos 2 e) as PE. rewrite <- E, W in A. split; [|split].
  - pose proof (nearest_spec a c) as X. apply Qabs_Qle_condition in X. apply Qabs_Qle_condition. rewrite <- A. split; nra.
  - intros k K. apply nearest_exact. rewrite K in A. apply (Qmult_inj_r _ _ (P 2 e)); [intros Z; rewrite Z in PE; lra|exact A].
  - unfold round64. fold w. rewrite N. fold t. fold e. rewrite S. reflexivity.
Qed.

Definition normal (v : Q) : Prop := (P 2 (-1022) <= v)%Q.
Lemma p2_52 e : (P 2 (e + 52) == inject_Z (2 ^ 52) * P 2 e)%Q.
Proof. rewrite p_plus, (p_Z 2 52) by lia. ring. Qed.
Lemma round64_spec v : (0 < v)%Q -> exists m e, round64 v = (m, e) /\ -1074 <= e /\ 0 <= m < 2 ^ 53 /\
  (Qabs (inject_Z m * P 2 e - v) <= (1 # 2) * P 2 e)%Q /\
  (normal v -> 2 ^ 52 <= m /\ (Qabs (inject_Z m * P 2 e - v) * inject_Z (2 ^ 53) <= v)%Q).
Proof.
  intros V. destruct (round64_raw v V) as (t & m & [T1 T2] & H). cbv zeta in H. destruct H as (A & _ & R).
  assert (TN : normal v -> -1022 <= t). { intros N. unfold normal in N. destruct (Z.le_gt_cases (-1022) t) as [L|L]; [exact L|]. pose proof (p_mono 2 (t + 1) (-1022) ltac:(lia)). lra. }
  set (e := Z.max (-1074) (t - 52)) in *. pose proof (p_pos 2 e) as PE. apply Qabs_Qle_condition in A as [A1 A2].
  assert (U : (v < inject_Z (2 ^ 53) * P 2 e)%Q).
  { assert (X := p_mono 2 (t + 1) (e + 53) ltac:(lia)). rewrite (p_plus 2 e 53), (p_Z 2 53) in X by lia. lra. }
  assert (M1 : m <= 2 ^ 53). { assert (X : (inject_Z m * P 2 e < inject_Z (2 ^ 53 + 1) * P 2 e)%Q). { rewrite inject_Z_plus. change (inject_Z 1) with 1%Q. lra. } apply Qmult_lt_r in X; [|exact PE]. rewrite <- Zlt_Qlt in X. lia. }
  assert (M0 : 0 <= m). { assert (X : (inject_Z (-1) * P 2 e < inject_Z m * P 2 e)%Q). { change (inject_Z (-1)) with (- 1)%Q. lra. } apply Qmult_lt_r in X; [|exact PE]. rewrite <- Zlt_Qlt in X. lia. }
  assert (NM : -1022 <= t -> (inject_Z (2 ^ 52) * P 2 e <= v)%Q /\ 2 ^ 52 <= m).
  { intros N. assert (E : e + 52 = t) by lia. assert (L : (inject_Z (2 ^ 52) * P 2 e <= v)%Q) by (rewrite <- p2_52, E; exact T1). split; [exact L|].
    assert (X : (inject_Z (2 ^ 52 - 1) * P 2 e < inject_Z m * P 2 e)%Q). { unfold Zminus. rewrite inject_Z_plus. change (inject_Z (- (1))) with (- 1)%Q. lra. } apply Qmult_lt_r in X; [|exact PE]. rewrite <- Zlt_Qlt in X. lia. }
  assert (K53 : inject_Z (2 ^ 53) = 9007199254740992 # 1) by reflexivity. assert (K52 : inject_Z (2 ^ 52) = 4503599627370496 # 1) by reflexivity.
  destruct (Z.eqb_spec m (2 ^ 53)) as [->|NE].
  - assert (E1 : (inject_Z (2 ^ 52) * P 2 (e + 1) == inject_Z (2 ^ 53) * P 2 e)%Q). { rewrite p_plus. change (P 2 1) with (2 # 1). rewrite K52, K53. ring. }
    exists (2 ^ 52), (e + 1). split; [exact R|]. split; [lia|]. split; [lia|]. rewrite E1. split.
    + rewrite (p_plus 2 e 1). change (P 2 1) with (2 # 1). apply Qabs_Qle_condition. lra.
    + intros N. split; [lia|]. destruct (NM (TN N)) as [L _]. assert (X : (Qabs (inject_Z (2 ^ 53) * P 2 e - v) <= (1 # 2) * P 2 e)%Q) by (apply Qabs_Qle_condition; lra).
      rewrite K53, K52 in *. lra.
  - exists m, e. split; [exact R|]. split; [lia|]. split; [lia|]. assert (X : (Qabs (inject_Z m * P 2 e - v) <= (1 # 2) * P 2 e)%Q) by (apply Qabs_Qle_condition; lra). split; [exact X|].
    intros N. destruct (NM (TN N)) as [L M]. split; [exact M|]. rewrite K53, K52 in *. lra.
Qed.

(** a number that is a float is not changed *)
Lemma round64_float v m e : 0 < m < 2 ^ 53 -> -1074 <= e -> (v == inject_Z m * P 2 e)%Q -> (let '(m', e') := round64 v in inject_Z m' * P 2 e' == v)%Q.
Proof.
  intros M E V. assert (PE := p_pos 2 e). assert (V0 : (0 < v)%Q). { rewrite V. apply Qmult_lt_0_compat; [|exact PE]. change 0%Q with (inject_Z 0). rewrite <- Zlt_Qlt. lia. }
  destruct (round64_raw v V0) as (t & n & [T1 T2] & H). cbv zeta in H. destruct H as (_ & X & R). set (e' := Z.max (-1074) (t - 52)) in *.
  assert (L : t < e + 53). { apply (p_lt_inv 2). rewrite (p_plus 2 e 53), (p_Z 2 53) by lia. assert (inject_Z m < inject_Z (2 ^ 53))%Q by (rewrite <- Zlt_Qlt; lia). nra. }
  assert (W : (v == inject_Z (m * 2 ^ (e - e')) * P 2 e')%Q). { rewrite inject_Z_mult, <- (p_Z 2 (e - e')) by lia. rewrite V, <- Qmult_assoc, <- p_plus. replace (e - e' + e') with e by lia. reflexivity. }
  apply X in W as N. rewrite R. destruct (Z.eqb_spec n (2 ^ 53)) as [E1|E1].
  - rewrite p_plus. change (P 2 1) with (2 # 1). rewrite W, <- N, E1. change (inject_Z (2 ^ 53)) with (9007199254740992 # 1). change (inject_Z (2 ^ 52)) with (4503599627370496 # 1). ring.
  - rewrite N. symmetry. exact W.
Qed.
Lemma normal_exponent v m e : normal v -> (v < P 2 1023)%Q -> round64 v = (m, e) -> e <= 971.
Proof.
  intros N U R. assert (V : (0 < v)%Q) by (unfold normal in N; pose proof (p_pos 2 (-1022)); lra). destruct (round64_spec v V) as (m' & e' & R' & _ & _ & A & B). rewrite R in R'. injection R' as <- <-.
  destruct (B N) as [M C]. apply Qabs_Qle_condition in A as [A _]. pose proof (p_pos 2 e). assert (inject_Z (2 ^ 52) <= inject_Z m)%Q by (rewrite <- Zle_Qle; exact M).
  apply Z.lt_succ_r. apply Z.add_lt_mono_r with (p := 52). apply (p_lt_inv 2). replace (Z.succ 971 + 52) with (1023 + 1) by lia. rewrite p2_52, (p_plus 2 1023 1). change (P 2 1) with (2 # 1).
  change (inject_Z (2 ^ 52)) with (4503599627370496 # 1) in *.
  assert (X : (Qabs (inject_Z m * P 2 e - v) * inject_Z (2 ^ 53) >= (inject_Z m * P 2 e - v) * inject_Z (2 ^ 53))%Q). { apply Qmult_le_compat_r; [apply Qle_Qabs|discriminate]. }
  change (inject_Z (2 ^ 53)) with (9007199254740992 # 1) in *. nra.
Qed.

(** ** repr *)
Section Repr.
Variables m e : Z.
Hypothesis M : 0 < m.
Lemma q2_num : exists p, Qnum (q2 m e) = Zpos p.
Proof.
  assert (H : (0 < q2 m e)%Q). { rewrite q2_spec. apply Qmult_lt_0_compat; [|apply p_pos]. change 0%Q with (inject_Z 0). rewrite <- Zlt_Qlt. exact M. }
  unfold Qlt in H. cbn in H. destruct (Qnum (q2 m e)) as [|p|p]; try lia. eauto.
Qed.
Definition decade : Z := flog10 (Qnum (q2 m e)) (Zpos (Qden (q2 m e))).
Lemma decade_spec : log_spec 10 decade (inject_Z m * P 2 e).
Proof.
  unfold decade. destruct q2_num as [p E]. rewrite E. pose proof (flog10_spec p (Qden (q2 m e))) as L. assert (X : (Zpos p # Qden (q2 m e) == inject_Z m * P 2 e)%Q). { rewrite <- q2_spec. unfold Qeq. cbn. rewrite E. reflexivity. }
  unfold log_spec in *. rewrite <- X. exact L.
Qed.
(** lo, the digits before the point of x / 10^k *)
Lemma repr_scaled k : exists a b, scaled 10 k (Qnum (q2 m e)) (Zpos (Qden (q2 m e))) = (a, Zpos b) /\ ((a # b) * P 10 k == inject_Z m * P 2 e)%Q.
Proof.
  destruct (scaled_spec 10 k (Qnum (q2 m e)) (Qden (q2 m e))) as (a & b & S & E). exists a, b. split; [exact S|]. rewrite E, <- q2_spec. reflexivity.
Qed.
Definition reads_back (c k : Z) : Prop := 0 < c /\ round64 (q10 c k) = (m, e).
Lemma reads_ok c k : (0 <? c) && (let '(m', e') := round64 (q10 c k) in (m' =? m) && (e' =? e)) = true <-> reads_back c k.
Proof.
  unfold reads_back. rewrite andb_true_iff, Z.ltb_lt. destruct (round64 (q10 c k)) as [m' e']. rewrite andb_true_iff, !Z.eqb_eq. split; [intros (A & -> & ->); auto|intros (A & [= -> ->]); auto].
Qed.
Lemma repr_digits_sound n c k : repr_digits m e n = Some (c, k) -> reads_back c k /\ k = decade - n + 1 /\ (Qabs (inject_Z c * P 10 k - inject_Z m * P 2 e) <= P 10 k)%Q.
Proof.
  unfold repr_digits. fold decade. destruct (repr_scaled (decade - n + 1)) as (a & b & S & X). rewrite S. intros H. pose proof (floor_spec a b) as [F1 F2]. pose proof (p_pos 10 (decade - n + 1)) as PK.
  assert (D : forall c, c = a / Zpos b \/ c = a / Zpos b + 1 -> (Qabs (inject_Z c * P 10 (decade - n + 1) - inject_Z m * P 2 e) <= P 10 (decade - n + 1))%Q).
  { intros c0 K. rewrite <- X. apply Qabs_Qle_condition. destruct K as [->| ->]; rewrite ?inject_Z_plus; change (inject_Z 1) with 1%Q; split; nra. }
  set (lo := a / Zpos b) in *. set (kk := decade - n + 1) in *.
  destruct ((0 <? lo) && _) eqn:E1; destruct ((0 <? lo + 1) && _) eqn:E2 in H; try discriminate H; injection H as <- <-.
  - split; [|split; [reflexivity|]]; destruct (_ ?= _); try destruct (Z.even lo); try (apply reads_ok; assumption); apply D; auto.
  - split; [apply reads_ok; exact E1|]. split; [reflexivity|apply D; auto].
  - split; [apply reads_ok; exact E2|]. split; [reflexivity|apply D; auto].
Qed.
Lemma repr_digits_complete n i : reads_back i (decade - n + 1) -> (Qabs (inject_Z i * P 10 (decade - n + 1) - inject_Z m * P 2 e) < P 10 (decade - n + 1))%Q -> repr_digits m e n <> None.
Proof.
  intros R A H. unfold repr_digits in H. fold decade in H. set (kk := decade - n + 1) in *. destruct (repr_scaled kk) as (a & b & S & X). rewrite S in H. pose proof (floor_spec a b) as [F1 F2]. pose proof (p_pos 10 kk) as PK.
  set (lo := a / Zpos b) in *. apply Qabs_Qlt_condition in A as [A1 A2]. rewrite <- X in A1, A2.
  assert (I : i = lo \/ i = lo + 1).
  { assert (B1 : (inject_Z lo * P 10 kk < inject_Z (i + 1) * P 10 kk)%Q) by (rewrite inject_Z_plus; change (inject_Z 1) with 1%Q; nra).
    assert (B2 : (inject_Z i * P 10 kk < inject_Z (lo + 2) * P 10 kk)%Q) by (rewrite inject_Z_plus; change (inject_Z 2) with 2%Q; nra).
    apply Qmult_lt_r in B1, B2; try exact PK. rewrite <- Zlt_Qlt in B1, B2. lia. }
  apply reads_ok in R. destruct I as [->| ->]; rewrite R in H; destruct ((0 <? _) && _) in H; discriminate H.
Qed.
Lemma shortest_sound n0 : 1 <= n0 <= 17 -> repr_digits m e n0 <> None ->
  forall c k, shortest 16 m e 1 = (c, k) -> reads_back c k /\ decade - n0 + 1 <= k.
Proof.
  intros N0 H. assert (G : forall f n, n + Z.of_nat f = 17 -> n <= n0 -> forall c k, shortest f m e n = (c, k) -> reads_back c k /\ decade - n0 + 1 <= k).
  { induction f as [|f IH]; intros n L Ln c k E; cbn [shortest] in E; destruct (repr_digits m e n) as [[c' k']|] eqn:D.
    - injection E as <- <-. apply repr_digits_sound in D as (D1 & D2 & _). split; [exact D1|lia].
    - exfalso. assert (n = n0) by lia. congruence.
    - injection E as <- <-. apply repr_digits_sound in D as (D1 & D2 & _). split; [exact D1|lia].
    - apply (IH (n + 1)); [lia| |exact E]. destruct (Z.eq_dec n n0); [congruence|lia]. }
  apply (G 16%nat 1); lia.
Qed.
End Repr.
Lemma drop_zeros_spec f : forall c k c' k', drop_zeros f c k = (c', k') -> (inject_Z c' * P 10 k' == inject_Z c * P 10 k)%Q /\ (0 < c -> 0 < c').
Proof.
  induction f as [|f IH]; intros c k c' k' H; cbn [drop_zeros] in H; [injection H as <- <-; split; [reflexivity|auto]|].
  destruct (Z.eqb_spec (c mod 10) 0) as [E|E]; [|injection H as <- <-; split; [reflexivity|auto]].
  apply IH in H as [H1 H2]. assert (C : c = 10 * (c / 10)) by (pose proof (Z.div_mod c 10); lia). split; [|intros; apply H2; lia].
  rewrite H1, p_plus. change (P 10 1) with (10 # 1). rewrite C at 2. rewrite inject_Z_mult. change (inject_Z 10) with (10 # 1). ring.
Qed.
Lemma repr_dec_spec neg m e c k : 0 < c -> shortest 16 m e 1 = (c, k) -> exists c' k', repr_dec neg m e = DFin neg c' k' /\ (dec_q false c' k' == inject_Z c * P 10 k)%Q.
Proof.
  intros C E. unfold repr_dec. rewrite E. destruct (drop_zeros 20 c k) as [c1 k1] eqn:D. apply drop_zeros_spec in D as [D1 D2]. specialize (D2 C).
  destruct (Z.leb_spec 0 k1) as [K|K]; cbn [andb]; [destruct (_ <=? 16)|].
  - eexists _, _. split; [reflexivity|]. assert (0 < 10 ^ k1) by (apply Z.pow_pos_nonneg; lia). unfold dec_q, signed. rewrite Z2N.id by nia. rewrite !inject_Z_mult, <- (p_Z 10 k1 K), <- D1. change (P 10 (-1)) with (1 # 10). change (inject_Z 10) with (10 # 1). ring.
  - eexists _, _. split; [reflexivity|]. unfold dec_q, signed. rewrite Z2N.id by lia. exact D1.
  - eexists _, _. split; [reflexivity|]. unfold dec_q, signed. rewrite Z2N.id by lia. exact D1.
Qed.

(** A decimal c0 * 10^k0 with c0 < 2^52 (so: any number of up to fifteen digits) survives the conversion to a float and back. *)
Lemma decimal_normal c k : 0 < c < 2 ^ 52 -> -300 <= k <= 290 -> normal (inject_Z c * P 10 k) /\ (inject_Z c * P 10 k < P 2 1023)%Q.
Proof.
  intros C K. pose proof (p_pos 10 k) as PK. assert (C1 : (1 <= inject_Z c)%Q) by (change 1%Q with (inject_Z 1); rewrite <- Zle_Qle; lia). assert (C2 : (inject_Z c <= inject_Z (2 ^ 52))%Q) by (rewrite <- Zle_Qle; lia).
  pose proof (p_mono 10 (-300) k ltac:(lia)) as L. pose proof (p_mono 10 k 290 ltac:(lia)) as U. split.
  - unfold normal. apply Qle_trans with (P 10 (-300)); [vm_compute; discriminate|]. nra.
  - apply Qle_lt_trans with (inject_Z (2 ^ 52) * P 10 290)%Q; [|vm_compute; reflexivity]. assert (0 <= inject_Z (2 ^ 52))%Q by discriminate. nra.
Qed.
Lemma repr_exact10 neg c0 k0 m e : 10 <= c0 < 2 ^ 52 -> -300 <= k0 <= 290 -> round64 (q10 c0 k0) = (m, e) ->
  exists c' k', repr_dec neg m e = DFin neg c' k' /\ (dec_q false c' k' == inject_Z c0 * P 10 k0)%Q.
Proof.
  intros C0 K0 R. destruct (decimal_normal c0 k0 ltac:(lia) K0) as [NV _]. pose proof (p_pos 10 k0) as PK.
  assert (C1 : (10 <= inject_Z c0)%Q) by (change 10%Q with (inject_Z 10); rewrite <- Zle_Qle; lia).
  assert (C2 : (inject_Z c0 <= inject_Z (2 ^ 52 - 1))%Q) by (rewrite <- Zle_Qle; lia). change (inject_Z (2 ^ 52 - 1)) with (4503599627370495 # 1) in C2.
  set (v := (inject_Z c0 * P 10 k0)%Q) in *. assert (V : (q10 c0 k0 == v)%Q) by apply q10_spec.
  assert (V0 : (0 < v)%Q) by (unfold v; nra). rewrite (round64_ext _ _ V) in R.
  destruct (round64_spec v V0) as (m1 & e1 & R1 & E1 & M1 & A & B). rewrite R in R1. injection R1 as <- <-. destruct (B NV) as [M2 D]. clear A B.
  set (x := (inject_Z m * P 2 e)%Q) in *. pose proof (p_pos 2 e) as PE.
  assert (VK : (v <= (4503599627370495 # 1) * P 10 k0)%Q) by (unfold v; apply Qmult_le_compat_r; [exact C2|lra]).
  assert (D' : (Qabs (x - v) <= (1 # 2) * P 10 k0)%Q). { change (inject_Z (2 ^ 53)) with (9007199254740992 # 1) in D. pose proof (Qabs_nonneg (x - v)). nra. }
  assert (D2 := D'). apply Qabs_Qle_condition in D2 as [D2 D3].
  destruct (decade_spec m e ltac:(lia)) as [L1 L2]. fold x in L1, L2. set (j := decade m e) in *.
  assert (J1 : k0 <= j). { apply Z.lt_succ_r. unfold Z.succ. apply (p_lt_inv 10). assert (10 * P 10 k0 <= v)%Q by (unfold v; apply Qmult_le_compat_r; [exact C1|lra]). lra. }
  assert (J2 : j < k0 + 16). { apply (p_lt_inv 10). rewrite p_plus. change (P 10 16) with (10000000000000000 # 1). lra. }
  assert (N0 : j - (j - k0 + 1) + 1 = k0) by lia.
  assert (RD : repr_digits m e (j - k0 + 1) <> None).
  { apply (repr_digits_complete m e (j - k0 + 1) c0); fold j; rewrite N0.
    - split; [lia|]. rewrite (round64_ext _ _ V). exact R.
    - fold x. fold v. rewrite Qabs_Qminus. lra. }
  destruct (shortest 16 m e 1) as [c k] eqn:S. destruct (shortest_sound m e (j - k0 + 1) ltac:(lia) RD c k S) as [[CP RB] KK]. fold j in KK. rewrite N0 in KK.
  destruct (repr_dec_spec neg m e c k CP S) as (c' & k' & E' & W). exists c', k'. split; [exact E'|]. rewrite W.
  set (w := (inject_Z c * P 10 k)%Q) in *. assert (WQ : (q10 c k == w)%Q) by apply q10_spec. rewrite (round64_ext _ _ WQ) in RB.
  assert (W0 : (0 < w)%Q). { unfold w. apply Qmult_lt_0_compat; [|apply p_pos]. change 0%Q with (inject_Z 0). rewrite <- Zlt_Qlt. exact CP. }
  destruct (round64_spec w W0) as (m2 & e2 & R2 & _ & _ & A & _). rewrite RB in R2. injection R2 as <- <-. fold x in A. apply Qabs_Qle_condition in A as [A1 A2].
  assert (EX : ((4503599627370496 # 1) * P 2 e <= x)%Q). { unfold x. assert (inject_Z (2 ^ 52) <= inject_Z m)%Q by (rewrite <- Zle_Qle; exact M2). change (inject_Z (2 ^ 52)) with (4503599627370496 # 1) in *. nra. }
  assert (DV : ((x - v) * (9007199254740992 # 1) <= v)%Q /\ ((v - x) * (9007199254740992 # 1) <= v)%Q).
  { change (inject_Z (2 ^ 53)) with (9007199254740992 # 1) in D. pose proof (Qle_Qabs (x - v)). pose proof (Qle_Qabs (v - x)) as Y. rewrite Qabs_Qminus in Y. split; lra. }
  destruct DV as [DV1 DV2].
  assert (NEAR : (w - v < P 10 k0)%Q /\ (v - w < P 10 k0)%Q) by (split; lra). destruct NEAR as [W1 W2].
  assert (WK : (w == inject_Z (c * 10 ^ (k - k0)) * P 10 k0)%Q). { unfold w. rewrite inject_Z_mult, <- (p_Z 10 (k - k0)) by lia. rewrite <- Qmult_assoc, <- p_plus. replace (k - k0 + k0) with k by lia. reflexivity. }
  rewrite WK. unfold v. assert (EQ : c * 10 ^ (k - k0) = c0); [|rewrite EQ; reflexivity].
  set (z := c * 10 ^ (k - k0)) in *. clearbody z. rewrite WK in W1, W2. unfold v in W1, W2.
  assert (Z1 : (inject_Z z * P 10 k0 < inject_Z (c0 + 1) * P 10 k0)%Q) by (rewrite inject_Z_plus; change (inject_Z 1) with 1%Q; lra).
  assert (Z2 : (inject_Z c0 * P 10 k0 < inject_Z (z + 1) * P 10 k0)%Q) by (rewrite inject_Z_plus; change (inject_Z 1) with 1%Q; lra).
  apply Qmult_lt_r in Z1, Z2; try exact PK. rewrite <- Zlt_Qlt in Z1, Z2. lia.
Qed.
Lemma repr_exact neg c0 k0 m e : 0 < c0 < 2 ^ 52 -> -299 <= k0 <= 290 -> round64 (q10 c0 k0) = (m, e) ->
  exists c' k', repr_dec neg m e = DFin neg c' k' /\ (dec_q false c' k' == inject_Z c0 * P 10 k0)%Q.
Proof.
  intros C0 K0 R. destruct (Z.lt_ge_cases c0 10) as [L|L]; [|apply (repr_exact10 neg c0 k0); [lia|lia|exact R]].
  assert (E : (inject_Z c0 * P 10 k0 == inject_Z (10 * c0) * P 10 (k0 - 1))%Q). { rewrite inject_Z_mult. replace k0 with (1 + (k0 - 1)) at 1 by lia. rewrite p_plus. change (P 10 1) with (10 # 1). change (inject_Z 10) with (10 # 1). ring. }
  destruct (repr_exact10 neg (10 * c0) (k0 - 1) m e) as (c' & k' & H & V); [lia|lia| |exists c', k'; split; [exact H|rewrite E; exact V]].
  rewrite <- R. apply round64_ext. rewrite !q10_spec. symmetry. exact E.
Qed.

(** the digits of repr are as near to the float as its neighbours are *)
Lemma shortest_near m e c k : 2 ^ 52 <= m -> shortest 16 m e 1 = (c, k) -> 0 < c /\ (Qabs (inject_Z c * P 10 k - inject_Z m * P 2 e) * inject_Z (2 ^ 53) <= inject_Z m * P 2 e)%Q.
Proof.
  intros M H. assert (M0 : 0 < m) by lia. pose proof (p_pos 2 e) as PE. set (x := (inject_Z m * P 2 e)%Q).
  assert (EX : ((4503599627370496 # 1) * P 2 e <= x)%Q). { unfold x. apply Qmult_le_compat_r; [|lra]. change (4503599627370496 # 1) with (inject_Z (2 ^ 52)). rewrite <- Zle_Qle. exact M. }
  assert (RB : forall c k, reads_back m e c k -> 0 < c /\ (Qabs (inject_Z c * P 10 k - x) * inject_Z (2 ^ 53) <= x)%Q).
  { intros c' k' [C R]. split; [exact C|]. rewrite (round64_ext _ _ (q10_spec c' k')) in R.
    assert (W0 : (0 < inject_Z c' * P 10 k')%Q). { apply Qmult_lt_0_compat; [|apply p_pos]. change 0%Q with (inject_Z 0). rewrite <- Zlt_Qlt. exact C. }
    destruct (round64_spec _ W0) as (m2 & e2 & R2 & _ & _ & A & _). rewrite R in R2. injection R2 as <- <-. fold x in A. rewrite Qabs_Qminus. change (inject_Z (2 ^ 53)) with (9007199254740992 # 1). lra. }
  assert (G : forall f n, n + Z.of_nat f = 17 -> shortest f m e n = (c, k) -> 0 < c /\ (Qabs (inject_Z c * P 10 k - x) * inject_Z (2 ^ 53) <= x)%Q); [|apply (G 16%nat 1); [reflexivity|exact H]].
  clear H. induction f as [|f IH]; intros n L H; cbn [shortest] in H; destruct (repr_digits m e n) as [[c' k']|] eqn:D.
  - injection H as <- <-. apply repr_digits_sound in D as (D & _). apply RB, D.
  - fold (decade m e) in H. assert (n = 17) by lia. subst n. replace (decade m e - 17 + 1) with (decade m e - 16) in H by lia. destruct (decade_spec m e M0) as [L1 L2]. fold x in L1, L2. destruct (repr_scaled m e (decade m e - 16)) as (a & b & S & X). rewrite S in H. injection H as <- <-.
    pose proof (nearest_spec a b) as Y. apply Qabs_Qle_condition in Y as [Y1 Y2]. fold x in X. set (kk := decade m e - 16) in *. pose proof (p_pos 10 kk) as PK. assert (LK : ((10000000000000000 # 1) * P 10 kk <= x)%Q). { replace (decade m e) with (kk + 16) in L1 by (unfold kk; lia). rewrite p_plus in L1. change (P 10 16) with (10000000000000000 # 1) in L1. lra. }
    assert (NE : (Qabs (inject_Z (nearest_even a (Zpos b)) * P 10 kk - x) <= (1 # 2) * P 10 kk)%Q). { apply Qabs_Qle_condition. rewrite <- X. split; nra. }
    split; [|change (inject_Z (2 ^ 53)) with (9007199254740992 # 1); lra].
    apply Qabs_Qle_condition in NE as [NE _]. assert (Z : (inject_Z 0 * P 10 kk < inject_Z (nearest_even a (Zpos b)) * P 10 kk)%Q) by (change (inject_Z 0) with 0%Q; lra). apply Qmult_lt_r in Z; [|exact PK]. rewrite <- Zlt_Qlt in Z. exact Z.
  - injection H as <- <-. apply repr_digits_sound in D as (D & _). apply RB, D.
  - apply (IH (n + 1)); [lia|exact H].
Qed.

(** ** mk_flt *)
Lemma mk_flt_zero neg v : (v == 0)%Q -> mk_flt neg v = FFin 0 0 (DFin neg 0 (-1)).
Proof. intros H. unfold Qeq in H. cbn in H. rewrite Z.mul_1_r in H. unfold mk_flt. rewrite H. reflexivity. Qed.
Lemma mk_flt_pos neg v : normal v -> (v < P 2 1023)%Q -> exists m e, round64 v = (m, e) /\ 2 ^ 52 <= m /\ mk_flt neg v = FFin (if neg then - m else m) e (repr_dec neg m e).
Proof.
  intros N U. assert (V : (0 < v)%Q) by (unfold normal in N; pose proof (p_pos 2 (-1022)); lra). destruct (round64_spec v V) as (m & e & R & _ & M & _ & B). destruct (B N) as [M2 _].
  exists m, e. split; [exact R|]. split; [exact M2|]. pose proof (normal_exponent v m e N U R) as E. unfold mk_flt. destruct (Z.eqb_spec (Qnum v) 0) as [Z|_]; [exfalso; unfold Qlt in V; cbn in V; lia|].
  rewrite R. destruct (Z.eqb_spec m 0); [lia|]. destruct (Z.ltb_spec 971 e); [lia|reflexivity].
Qed.
(** a decimal with a coefficient below 2^52 is printed as the number it is *)
Lemma mk_flt_exact neg v c k : 0 <= c < 2 ^ 52 -> -299 <= k <= 290 -> (v == inject_Z c * P 10 k)%Q ->
  exists m e c' k', mk_flt neg v = FFin m e (DFin neg c' k') /\ (dec_q false c' k' == v)%Q.
Proof.
  intros C K V. destruct (Z.eq_dec c 0) as [->|NZ].
  - exists 0, 0, 0%N, (-1). assert (V0 : (v == 0)%Q) by (rewrite V; change (inject_Z 0) with 0%Q; ring). rewrite (mk_flt_zero neg v V0). split; [reflexivity|]. rewrite V0. unfold dec_q, signed. change (inject_Z (Z.of_N 0)) with 0%Q. ring.
  - destruct (decimal_normal c k ltac:(lia) ltac:(lia)) as [N U]. unfold normal in N. rewrite <- V in N, U. destruct (mk_flt_pos neg v N U) as (m & e & R & M & E).
    rewrite (round64_ext v (q10 c k)) in R by (rewrite q10_spec; exact V). destruct (repr_exact neg c k m e ltac:(lia) ltac:(lia) R) as (c' & k' & RD & W).
    exists (if neg then - m else m), e, c', k'. rewrite E, RD. split; [reflexivity|]. rewrite V. exact W.
Qed.
(** in general the printed number is within a relative error of 2^-51 *)
Lemma mk_flt_near neg v : normal v -> (v < P 2 1023)%Q -> exists m e c k, mk_flt neg v = FFin m e (DFin neg c k) /\ (Qabs (dec_q false c k - v) * inject_Z (2 ^ 51) <= v)%Q.
Proof.
  intros N U. destruct (mk_flt_pos neg v N U) as (m & e & R & M & E). assert (V : (0 < v)%Q) by (unfold normal in N; pose proof (p_pos 2 (-1022)); lra).
  destruct (round64_spec v V) as (m' & e' & R' & _ & _ & _ & B). rewrite R in R'. injection R' as <- <-. destruct (B N) as [_ D].
  destruct (shortest 16 m e 1) as [c k] eqn:S. destruct (shortest_near m e c k M S) as [C W]. destruct (repr_dec_spec neg m e c k C S) as (c' & k' & RD & Q').
  exists (if neg then - m else m), e, c', k'. rewrite E, RD. split; [reflexivity|]. rewrite Q'. set (x := (inject_Z m * P 2 e)%Q) in *. set (w := (inject_Z c * P 10 k)%Q) in *.
  change (inject_Z (2 ^ 53)) with (9007199254740992 # 1) in *. change (inject_Z (2 ^ 51)) with (2251799813685248 # 1).
  assert (T : (Qabs (w - v) <= Qabs (w - x) + Qabs (x - v))%Q). { setoid_replace (w - v)%Q with ((w - x) + (x - v))%Q by ring. apply Qabs_triangle. }
  pose proof (Qle_Qabs (x - v)). lra.
Qed.

(** quotients by powers of ten *)
Lemma dec_q_sign n c k : (dec_q n c k == (if n then - dec_q false c k else dec_q false c k))%Q.
Proof. unfold dec_q, signed. destruct n; [rewrite inject_Z_opp; ring|reflexivity]. Qed.
Lemma sign_abs a b : (a # b == (if a <? 0 then - (Z.abs a # b) else (Z.abs a # b)))%Q.
Proof. destruct (Z.ltb_spec a 0); unfold Qeq, Qopp; cbn [Qnum Qden]; lia. Qed.
Lemma flt_div_exact a b k : (inject_Z 1 * P 10 (- k) == 1 # b)%Q -> 0 <= k <= 290 -> Z.abs a < 2 ^ 52 ->
  exists m e n c j, flt_div a b = FFin m e (DFin n c j) /\ (dec_q n c j == a # b)%Q.
Proof.
  intros B K A. unfold flt_div. destruct (mk_flt_exact (a <? 0) (Z.abs a # b) (Z.abs a) (- k)) as (m & e & c & j & E & V); [split; [apply Z.abs_nonneg|exact A]|lia| |].
  - change (inject_Z 1) with 1%Q in B. rewrite Qmult_1_l in B. rewrite B. unfold Qeq, Qmult, inject_Z. cbn [Qnum Qden]. lia.
  - exists m, e, (a <? 0), c, j. split; [exact E|]. rewrite dec_q_sign, sign_abs. destruct (a <? 0); rewrite V; reflexivity.
Qed.
Lemma flt_div_near a b : Zpos b < 2 ^ 900 -> Z.abs a < 2 ^ 1000 -> exists m e n c j, flt_div a b = FFin m e (DFin n c j) /\ (Qabs (dec_q n c j - (a # b)) * inject_Z (2 ^ 51) <= Qabs (a # b))%Q.
Proof.
  intros B A. destruct (Z.eq_dec a 0) as [->|NZ].
  - unfold flt_div. rewrite mk_flt_zero by (unfold Qeq; cbn; lia). exists 0, 0, (0 <? 0), 0%N, (-1). split; [reflexivity|]. setoid_replace (0 # b)%Q with 0%Q by (unfold Qeq; cbn; lia). vm_compute. discriminate.
  - set (v := Z.abs a # b). assert (V : (inject_Z 1 / inject_Z (Zpos b) <= v)%Q). { unfold v. rewrite <- frac_eq. unfold Qle. cbn [Qnum Qden]. nia. }
    assert (BP : (0 < inject_Z (Zpos b))%Q) by (change 0%Q with (inject_Z 0); rewrite <- Zlt_Qlt; lia).
    assert (N : normal v). { unfold normal. eapply Qle_trans; [|exact V]. apply Qle_shift_div_l; [exact BP|]. apply Qle_trans with (P 2 (-1022) * inject_Z (2 ^ 900))%Q; [apply Qmult_le_l; [apply p_pos|rewrite <- Zle_Qle; lia]|vm_compute; discriminate]. }
    assert (U : (v < P 2 1023)%Q). { apply Qle_lt_trans with (inject_Z (2 ^ 1000)); [|vm_compute; reflexivity]. unfold v, Qle, inject_Z. cbn [Qnum Qden]. nia. }
    destruct (mk_flt_near (a <? 0) v N U) as (m & e & c & k & E & D). exists m, e, (a <? 0), c, k. split; [exact E|].
    assert (SG : (Qabs (a # b) == v)%Q) by reflexivity. assert (V0 : (0 <= v)%Q) by (unfold v, Qle; cbn; lia). rewrite SG, dec_q_sign, sign_abs. fold v. destruct (a <? 0); [|exact D].
    setoid_replace (- dec_q false c k - - v)%Q with (- (dec_q false c k - v))%Q by ring. rewrite Qabs_opp. exact D.
Qed.

(** ** timedelta(float, ...) *)
Lemma rnd64_spec v : (0 <= v)%Q -> (0 <= rnd64 v)%Q /\ (Qabs (rnd64 v - v) * inject_Z (2 ^ 53) <= v + 1)%Q.
Proof.
  intros V. unfold rnd64. destruct (Z.eqb_spec (Qnum v) 0) as [Z|Z].
  - assert (E : (v == 0)%Q) by (unfold Qeq; cbn; lia). rewrite E. split; [lra|]. vm_compute. discriminate.
  - assert (V0 : (0 < v)%Q) by (unfold Qlt, Qle in *; cbn in *; lia). destruct (round64_spec v V0) as (m & e & R & E & M & A & B). rewrite R. rewrite q2_spec.
    pose proof (p_pos 2 e) as PE. split; [apply Qmult_le_0_compat; [change 0%Q with (inject_Z 0); rewrite <- Zle_Qle; lia|lra]|].
    destruct (Qlt_le_dec v (P 2 (-1022))) as [S|N]; [|destruct (B N) as [_ D]; lra].
    (* subnormal *)
    destruct (round64_raw v V0) as (t & n & [T1 T2] & H). cbv zeta in H. destruct H as (A' & _ & R'). assert (T : t < -1022) by (apply (p_lt_inv 2); lra).
    replace (Z.max (-1074) (t - 52)) with (-1074) in * by lia. rewrite R in R'. apply Qabs_Qle_condition in A' as [A1 A2].
    assert (N53 : n <> 2 ^ 53). { intros ->. assert (X : ((9007199254740992 # 1) * P 2 (-1074) <= v + P 2 (-1074))%Q) by (change (inject_Z (2 ^ 53)) with (9007199254740992 # 1) in *; pose proof (p_pos 2 (-1074)); lra).
      replace (-1022) with (-1074 + 52) in S by lia. rewrite p2_52 in S. change (inject_Z (2 ^ 52)) with (4503599627370496 # 1) in S. pose proof (p_pos 2 (-1074)). lra. }
    apply Z.eqb_neq in N53. rewrite N53 in R'. injection R' as -> ->.
    assert (X : (P 2 (-1074) * inject_Z (2 ^ 53) <= 1)%Q) by (vm_compute; discriminate). change (inject_Z (2 ^ 53)) with (9007199254740992 # 1) in *. lra.
Qed.
Lemma modf64_spec v i f : (0 <= v)%Q -> modf64 v = (i, f) -> 0 <= i /\ (0 <= f)%Q /\ (f < 1)%Q /\ (v == inject_Z i + f)%Q.
Proof.
  intros V H. unfold modf64 in H. injection H as <- <-. assert (D := Z.div_mod (Qnum v) (Zpos (Qden v)) ltac:(discriminate)). assert (B := Z.mod_pos_bound (Qnum v) (Zpos (Qden v)) eq_refl).
  set (k := Qnum v / Zpos (Qden v)) in *. set (r := Qnum v mod Zpos (Qden v)) in *. assert (N : 0 <= Qnum v) by (unfold Qle in V; cbn in V; lia).
  split; [apply Z.div_pos; lia|]. split; [unfold Qle; cbn; lia|]. split; [unfold Qlt; cbn; lia|]. destruct v as [p q]. unfold Qeq, Qplus, inject_Z. cbn [Qnum Qden] in *. rewrite Pos.mul_1_l. rewrite D. ring.
Qed.
Lemma accum_spec sum rest x F sum' rest' : (0 <= rest)%Q -> (0 <= x)%Q -> 0 <= F -> accum (sum, rest) x F = (sum', rest') ->
  (0 <= rest')%Q /\ (rest' <= rest + 2 + rest * (1 # 9007199254740992))%Q /\
  (Qabs (inject_Z sum' + rest' - (inject_Z sum + rest + x * inject_Z F)) * inject_Z (2 ^ 53) <= inject_Z F + rest + 3)%Q.
Proof.
  intros R X HF H. unfold accum in H. destruct (modf64 x) as [i f] eqn:MX. destruct (modf64_spec x i f X MX) as (I0 & F0 & F1 & XE).
  assert (FF : (0 <= inject_Z F)%Q) by (change 0%Q with (inject_Z 0); rewrite <- Zle_Qle; exact HF).
  change (inject_Z (2 ^ 53)) with (9007199254740992 # 1). destruct (Z.eqb_spec (Qnum f) 0) as [Z|Z].
  - injection H as <- <-. assert (E : (f == 0)%Q) by (unfold Qeq; cbn; lia). split; [exact R|]. split; [lra|].
    rewrite inject_Z_plus, inject_Z_mult. assert (E1 : (inject_Z sum + inject_Z i * inject_Z F + rest - (inject_Z sum + rest + x * inject_Z F) == 0)%Q) by (rewrite XE, E; ring). rewrite E1. change (Qabs 0) with 0%Q. lra.
  - assert (FV : (0 <= inject_Z F * f)%Q) by nra. destruct (rnd64_spec _ FV) as [G0 G]. set (g := rnd64 (inject_Z F * f)) in *. destruct (modf64 g) as [i' f'] eqn:MG. destruct (modf64_spec g i' f' G0 MG) as (I0' & F0' & F1' & GE).
    injection H as <- <-. assert (RV : (0 <= rest + f')%Q) by lra. destruct (rnd64_spec _ RV) as [L0 L]. set (l := rnd64 (rest + f')) in *. change (inject_Z (2 ^ 53)) with (9007199254740992 # 1) in *.
    split; [exact L0|]. assert (L' := Qle_Qabs (l - (rest + f'))). split; [lra|].
    rewrite !inject_Z_plus, inject_Z_mult.
    setoid_replace (inject_Z sum + inject_Z i * inject_Z F + inject_Z i' + l - (inject_Z sum + rest + x * inject_Z F))%Q with ((l - (rest + f')) + (g - inject_Z F * f))%Q by (rewrite GE, XE; ring).
    assert (T := Qabs_triangle (l - (rest + f')) (g - inject_Z F * f)). assert (FF1 : (inject_Z F * f <= inject_Z F)%Q) by nra. lra.
Qed.
Lemma add_left_spec sum rest : (0 <= rest)%Q -> (Qabs (inject_Z (add_left (sum, rest)) - (inject_Z sum + rest)) <= 1 # 2)%Q.
Proof.
  intros R. unfold add_left. destruct (modf64 rest) as [i f] eqn:E. destruct (modf64_spec rest i f R E) as (_ & F0 & F1 & RE). rewrite RE. clear E RE.
  assert (LO : 2 * Qnum f <= Zpos (Qden f) -> (f <= 1 # 2)%Q) by (intros; unfold Qle; cbn; lia). assert (HI : Zpos (Qden f) <= 2 * Qnum f -> ((1 # 2) <= f)%Q) by (intros; unfold Qle; cbn; lia).
  assert (CASE : forall n, (n = sum + i /\ 2 * Qnum f <= Zpos (Qden f)) \/ (n = sum + i + 1 /\ Zpos (Qden f) <= 2 * Qnum f) -> (Qabs (inject_Z n - (inject_Z sum + (inject_Z i + f))) <= 1 # 2)%Q).
  { intros n [[-> H]|[-> H]]; apply Qabs_Qle_condition; rewrite !inject_Z_plus; change (inject_Z 1) with 1%Q; [specialize (LO H)|specialize (HI H)]; lra. }
  apply CASE. destruct (Z.compare_spec (2 * Qnum f) (Zpos (Qden f))); [destruct (Z.even (sum + i))| |]; (left; split; [reflexivity|lia]) || (right; split; [reflexivity|lia]).
Qed.

Lemma small_exponent v m e : (0 < v)%Q -> (v < P 2 1023)%Q -> round64 v = (m, e) -> e <= 971.
Proof.
  intros V U R. destruct (Qlt_le_dec v (P 2 (-1022))) as [S|N]; [|exact (normal_exponent v m e N U R)].
  destruct (round64_raw v V) as (t & n & [T1 T2] & H). cbv zeta in H. destruct H as (_ & _ & R'). assert (T : t < -1022) by (apply (p_lt_inv 2); lra). rewrite R in R'. destruct (n =? 2 ^ 53); injection R' as _ ->; lia.
Qed.
Lemma flt_of_dec_val c k v : (v == inject_Z (Z.of_N c) * P 10 k)%Q -> (v < P 2 1023)%Q ->
  exists m e r, flt_of_dec c k = FFin m e r /\ (0 <= q2 m e)%Q /\ (Qabs (q2 m e - v) * inject_Z (2 ^ 53) <= v + 1)%Q /\ (forall z, 0 <= z < 2 ^ 53 -> (v == inject_Z z)%Q -> (q2 m e == inject_Z z)%Q).
Proof.
  intros V U. rewrite <- q10_spec in V. assert (V0 : (0 <= v)%Q). { rewrite V, q10_spec. apply Qmult_le_0_compat; [|apply Qlt_le_weak, p_pos]. change 0%Q with (inject_Z 0). rewrite <- Zle_Qle. lia. }
  unfold flt_of_dec, mk_flt. set (y := q10 (Z.of_N c) k) in *. assert (Z00 : (q2 0 0 == 0)%Q) by reflexivity.
  assert (K : exists m e r, (if Qnum y =? 0 then FFin 0 0 (DFin false 0 (-1)) else let '(m, e) := round64 y in if m =? 0 then FFin 0 0 (DFin false 0 (-1)) else if 971 <? e then FInf false else FFin m e (repr_dec false m e)) = FFin m e r /\ (q2 m e == rnd64 y)%Q).
  { unfold rnd64. destruct (Z.eqb_spec (Qnum y) 0) as [Z|Z]; [exists 0, 0, (DFin false 0 (-1)); split; [reflexivity|exact Z00]|]. destruct (round64 y) as [m e] eqn:R.
    destruct (Z.eqb_spec m 0) as [->|M]; [exists 0, 0, (DFin false 0 (-1)); split; [reflexivity|rewrite q2_spec; change (inject_Z 0) with 0%Q; rewrite q2_spec; change (inject_Z 0) with 0%Q; ring]|].
    assert (Y0 : (0 < y)%Q). { rewrite V in V0. unfold Qlt, Qle in *. cbn in *. lia. }
    pose proof (small_exponent y m e Y0 ltac:(rewrite <- V; exact U) R). destruct (Z.ltb_spec 971 e); [lia|]. exists m, e, (repr_dec false m e). split; reflexivity. }
  destruct K as (m & e & r & E & W). exists m, e, r. split; [exact E|]. rewrite V in V0. destruct (rnd64_spec y V0) as [A B]. rewrite W, V. split; [exact A|]. split; [exact B|].
  intros z Z Hz. rewrite W. rewrite V in Hz. unfold rnd64. destruct (Z.eqb_spec (Qnum y) 0) as [Z1|Z1]; [clear - Hz Z1; clearbody y; rewrite <- Hz; unfold Qeq; cbn; lia|].
  assert (ZP : 0 < z). { destruct (Z.eq_dec z 0) as [->|]; [|lia]. exfalso. apply Z1. unfold Qeq in Hz. cbn in Hz. lia. }
  pose proof (round64_float y z 0 ltac:(lia) ltac:(lia)) as F. change (P 2 0) with 1%Q in F. rewrite Qmult_1_r in F. specialize (F Hz). destruct (round64 y) as [m' e']. rewrite q2_spec, F. exact Hz.
Qed.

(** the components of a duration: weeks, days, hours, minutes, seconds *)
Definition factors : list Z := [604800000000; 86400000000; 3600000000; 60000000; 1000000].
(** the microseconds written *)
Definition written_us (l : list (N * Z)) : Q := fold_right (fun x acc => (inject_Z (Z.of_N (fst (fst x))) * P 10 (snd (fst x)) * inject_Z (snd x) + acc)%Q) 0%Q (combine l factors).

Lemma flt_of_dec_any c k v : (v == inject_Z (Z.of_N c) * P 10 k)%Q ->
  (exists m e r, flt_of_dec c k = FFin m e r /\ (0 <= q2 m e)%Q /\ (Qabs (q2 m e - v) * inject_Z (2 ^ 53) <= v + 1)%Q) \/ (flt_of_dec c k = FInf false /\ (P 2 1023 <= v)%Q).
Proof.
  intros V. destruct (Qlt_le_dec v (P 2 1023)) as [L|L]; [left; destruct (flt_of_dec_val c k v V L) as (m & e & r & A & B & D & _); exists m, e, r; auto|].
  rewrite <- q10_spec in V. set (y := q10 (Z.of_N c) k) in *.
  assert (P0 : (P 2 (-1022) <= P 2 1023)%Q) by (vm_compute; discriminate). assert (N : normal y) by (unfold normal; rewrite <- V; lra).
  pose proof (p_pos 2 1023) as PP. assert (Y0 : (0 < y)%Q) by (rewrite <- V; lra). destruct (round64_spec y Y0) as (m & e & R & E & M & A & B). destruct (B N) as [M2 D].
  unfold flt_of_dec, mk_flt. fold y. destruct (Z.eqb_spec (Qnum y) 0) as [Z|_]; [exfalso; clear -Z Y0; clearbody y; unfold Qlt in Y0; cbn in Y0; lia|].
  rewrite R. destruct (Z.eqb_spec m 0); [lia|]. destruct (971 <? e); [right; auto|]. left. exists m, e, (repr_dec false m e). split; [reflexivity|]. rewrite q2_spec.
  split; [apply Qmult_le_0_compat; [change 0%Q with (inject_Z 0); rewrite <- Zle_Qle; lia|apply Qlt_le_weak, p_pos]|]. rewrite V. lra.
Qed.
(** the result is the duration written, rounded to a microsecond, up to the rounding of the components to floats *)
Lemma timedelta_close w d h m sc : let T := written_us [w; d; h; m; sc] in
  (exists u, timedelta_us [w; d; h; m; sc] = Some u /\ (Qabs (inject_Z u - T) <= T * (1 # 9007199254740992) + (2 # 3))%Q) \/
  (timedelta_us [w; d; h; m; sc] = None /\ (P 2 1023 <= T)%Q).
Proof.
  intros T0. unfold T0, written_us. clear T0. cbn [combine factors fold_right fst snd]. unfold timedelta_us.
  set (val x := (inject_Z (Z.of_N (fst x)) * P 10 (snd x))%Q). fold (val w) (val d) (val h) (val m) (val sc) in *.
  assert (POS : forall x, (0 <= val x)%Q). { intros x. unfold val. apply Qmult_le_0_compat; [|apply Qlt_le_weak, p_pos]. change 0%Q with (inject_Z 0). rewrite <- Zle_Qle. lia. }
  pose proof (POS w) as Pw. pose proof (POS d) as Pd. pose proof (POS h) as Ph. pose proof (POS m) as Pm. pose proof (POS sc) as Ps.
  change (inject_Z 604800000000) with (604800000000 # 1) in *. change (inject_Z 86400000000) with (86400000000 # 1) in *. change (inject_Z 3600000000) with (3600000000 # 1) in *. change (inject_Z 60000000) with (60000000 # 1) in *. change (inject_Z 1000000) with (1000000 # 1) in *.
  assert (FL : forall x, (exists mm ee r, flt_of_dec (fst x) (snd x) = FFin mm ee r /\ (0 <= q2 mm ee)%Q /\ (Qabs (q2 mm ee - val x) * inject_Z (2 ^ 53) <= val x + 1)%Q) \/ (flt_of_dec (fst x) (snd x) = FInf false /\ (P 2 1023 <= val x)%Q)).
  { intros x. exact (flt_of_dec_any (fst x) (snd x) (val x) (Qeq_refl _)). }
  pose proof (p_pos 2 1023) as PP.
  destruct (FL w) as [(mw & ew & rw & -> & Qw & Dw)|[-> BG]]; [|right; split; [reflexivity|lra]]. destruct (FL d) as [(md & ed & rd & -> & Qd & Dd)|[-> BG]]; [|right; split; [reflexivity|lra]]. destruct (FL h) as [(mh & eh & rh & -> & Qh & Dh)|[-> BG]]; [|right; split; [reflexivity|lra]].
  destruct (FL m) as [(mm & em & rm & -> & Qm & Dm)|[-> BG]]; [|right; split; [reflexivity|lra]]. destruct (FL sc) as [(ms & es & rs & -> & Qs & Ds)|[-> BG]]; [|right; split; [reflexivity|lra]]. cbn [fst snd]. clear PP.
  left. eexists. split; [reflexivity|]. set (xw := q2 mw ew) in *. set (xd := q2 md ed) in *. set (xh := q2 mh eh) in *. set (xm := q2 mm em) in *. set (xs := q2 ms es) in *. clearbody xw xd xh xm xs.
  destruct (accum (0, 0%Q) xs 1000000) as [s1 r1] eqn:A1. destruct (accum_spec 0 0%Q xs 1000000 s1 r1 ltac:(lra) Qs ltac:(lia) A1) as (R1 & U1 & E1).
  destruct (accum (s1, r1) xm 60000000) as [s2 r2] eqn:A2. destruct (accum_spec s1 r1 xm 60000000 s2 r2 R1 Qm ltac:(lia) A2) as (R2 & U2 & E2).
  destruct (accum (s2, r2) xh 3600000000) as [s3 r3] eqn:A3. destruct (accum_spec s2 r2 xh 3600000000 s3 r3 R2 Qh ltac:(lia) A3) as (R3 & U3 & E3).
  destruct (accum (s3, r3) xd 86400000000) as [s4 r4] eqn:A4. destruct (accum_spec s3 r3 xd 86400000000 s4 r4 R3 Qd ltac:(lia) A4) as (R4 & U4 & E4).
  destruct (accum (s4, r4) xw 604800000000) as [s5 r5] eqn:A5. destruct (accum_spec s4 r4 xw 604800000000 s5 r5 R4 Qw ltac:(lia) A5) as (R5 & U5 & E5).
  pose proof (add_left_spec s5 r5 R5) as AL. clear A1 A2 A3 A4 A5.
  change (inject_Z 0) with 0%Q in *. change (inject_Z (2 ^ 53)) with (9007199254740992 # 1) in *. change (inject_Z 604800000000) with (604800000000 # 1) in *. change (inject_Z 86400000000) with (86400000000 # 1) in *. change (inject_Z 3600000000) with (3600000000 # 1) in *. change (inject_Z 60000000) with (60000000 # 1) in *. change (inject_Z 1000000) with (1000000 # 1) in *.
  set (TT := (val w * (604800000000 # 1) + (val d * (86400000000 # 1) + (val h * (3600000000 # 1) + (val m * (60000000 # 1) + (val sc * (1000000 # 1) + 0)))))%Q) in *.
  assert (NEAR : (Qabs (inject_Z s5 + r5 - TT) <= TT * (1 # 9007199254740992) + (1 # 6))%Q).
  { apply Qabs_Qle_condition.
    assert (AB : forall a b : Q, (Qabs a * (9007199254740992 # 1) <= b -> a * (9007199254740992 # 1) <= b /\ - a * (9007199254740992 # 1) <= b)%Q).
    { intros a b H. pose proof (Qle_Qabs a). pose proof (Qle_Qabs (- a)) as Y. rewrite Qabs_opp in Y. split; lra. }
    apply AB in Dw, Dd, Dh, Dm, Ds, E1, E2, E3, E4, E5. unfold TT in *. clear AB FL POS. split; lra. }
  setoid_replace (inject_Z (add_left (s5, r5)) - TT)%Q with ((inject_Z (add_left (s5, r5)) - (inject_Z s5 + r5)) + (inject_Z s5 + r5 - TT))%Q by ring. eapply Qle_trans; [apply Qabs_triangle|]. lra.
Qed.
Lemma timedelta_near w d h m sc : (written_us [w; d; h; m; sc] < inject_Z (2 ^ 50))%Q ->
  exists u, timedelta_us [w; d; h; m; sc] = Some u /\ (Qabs (inject_Z u - written_us [w; d; h; m; sc]) < 1)%Q /\
  (forall z, (written_us [w; d; h; m; sc] == inject_Z z)%Q -> u = z).
Proof.
  change (inject_Z (2 ^ 50)) with (1125899906842624 # 1). intros L. destruct (timedelta_close w d h m sc) as [(u & E & N)|[_ B]]; cbv zeta in *.
  2: { exfalso. assert (X : ((1125899906842624 # 1) <= P 2 1023)%Q) by (vm_compute; discriminate). lra. }
  exists u. split; [exact E|]. set (T := written_us [w; d; h; m; sc]) in *. clearbody T. split; [lra|]. intros z Z. rewrite Z in N, L. apply Qabs_Qle_condition in N as [N1 N2].
  assert (Z1 : (inject_Z z < inject_Z (u + 1))%Q) by (rewrite inject_Z_plus; change (inject_Z 1) with 1%Q; lra).
  assert (Z2 : (inject_Z u < inject_Z (z + 1))%Q) by (rewrite inject_Z_plus; change (inject_Z 1) with 1%Q; lra).
  rewrite <- Zlt_Qlt in Z1, Z2. lia.
Qed.

(** whole numbers of units are exact, or far beyond the range of timedelta *)
Lemma modf64_int x z : (x == inject_Z z)%Q -> exists f, modf64 x = (z, f) /\ Qnum f = 0.
Proof.
  intros H. unfold Qeq, inject_Z in H. cbn in H. rewrite Z.mul_1_r in H. unfold modf64. rewrite H, Z.div_mul, Z.mod_mul by discriminate. eexists. split; reflexivity.
Qed.
Lemma accum_whole sum rest x z F : (x == inject_Z z)%Q -> accum (sum, rest) x F = (sum + z * F, rest).
Proof. intros H. unfold accum. destruct (modf64_int x z H) as (f & -> & E). rewrite E. reflexivity. Qed.
Lemma accum_ge sum rest x F : (0 <= rest)%Q -> (0 <= x)%Q -> 0 <= F -> let '(sum', rest') := accum (sum, rest) x F in
  sum <= sum' /\ (0 <= rest')%Q /\ (forall z, (inject_Z z <= x)%Q -> sum + z * F <= sum').
Proof.
  intros R X HF. destruct (accum (sum, rest) x F) as [sum' rest'] eqn:A. destruct (accum_spec _ _ _ _ _ _ R X HF A) as (R' & _ & _).
  unfold accum in A. destruct (modf64 x) as [i f] eqn:MX. destruct (modf64_spec x i f X MX) as (I0 & F0 & F1 & XE).
  assert (LB : sum + i * F <= sum').
  { destruct (Z.eqb_spec (Qnum f) 0); [injection A as <- _; lia|]. assert (FV : (0 <= inject_Z F * f)%Q) by (apply Qmult_le_0_compat; [change 0%Q with (inject_Z 0); rewrite <- Zle_Qle; exact HF|exact F0]). destruct (rnd64_spec _ FV) as [G0 _].
    destruct (modf64 (rnd64 (inject_Z F * f))) as [i' f'] eqn:MG. destruct (modf64_spec _ i' f' G0 MG) as (I0' & _). injection A as <- _. lia. }
  split; [nia|]. split; [exact R'|]. intros z Z. assert (z <= i). { rewrite XE in Z. assert (Y : (inject_Z z < inject_Z (i + 1))%Q) by (rewrite inject_Z_plus; change (inject_Z 1) with 1%Q; lra). rewrite <- Zlt_Qlt in Y. lia. } nia.
Qed.
Lemma add_left_ge sum rest : (0 <= rest)%Q -> sum <= add_left (sum, rest).
Proof. intros R. unfold add_left. destruct (modf64 rest) as [i f] eqn:E. destruct (modf64_spec rest i f R E) as (I & _). destruct (_ ?= _); try destruct (Z.even _); lia. Qed.
Lemma flt_whole (c : N) : (exists m e r, flt_of_dec c 0 = FFin m e r /\ (0 <= q2 m e)%Q /\ (((c < 2 ^ 53)%N /\ (q2 m e == inject_Z (Z.of_N c))%Q) \/ ((2 ^ 53 <= c)%N /\ (inject_Z (2 ^ 52) <= q2 m e)%Q)))
  \/ ((2 ^ 53 <= c)%N /\ flt_of_dec c 0 = FInf false).
Proof.
  assert (E1 : (inject_Z (Z.of_N c) == inject_Z (Z.of_N c) * P 10 0)%Q) by (change (P 10 0) with 1%Q; ring).
  destruct (N.lt_ge_cases c (2 ^ 53)) as [L|L].
  - assert (Z53 : 0 <= Z.of_N c < 2 ^ 53) by lia.
    destruct (flt_of_dec_val c 0 (inject_Z (Z.of_N c)) E1) as (m & e & r & A & B & D & X).
    { apply Qlt_trans with (inject_Z (2 ^ 53)); [rewrite <- Zlt_Qlt; lia|vm_compute; reflexivity]. }
    left. exists m, e, r. split; [exact A|]. split; [exact B|]. left. split; [exact L|]. apply X; [exact Z53|reflexivity].
  - assert (Y : (q10 (Z.of_N c) 0 == inject_Z (Z.of_N c))%Q) by (rewrite q10_spec; symmetry; exact E1). set (y := q10 (Z.of_N c) 0) in *.
    assert (CL : (inject_Z (2 ^ 53) <= inject_Z (Z.of_N c))%Q) by (rewrite <- Zle_Qle; lia). change (inject_Z (2 ^ 53)) with (9007199254740992 # 1) in CL.
    assert (Y0 : (0 < y)%Q) by (rewrite Y; lra). assert (N : normal y). { unfold normal. rewrite Y. apply Qle_trans with 1%Q; [vm_compute; discriminate|lra]. }
    destruct (round64_spec y Y0) as (m & e & R & _ & M & _ & B). destruct (B N) as [M2 D]. unfold flt_of_dec, mk_flt. fold y. destruct (Z.eqb_spec (Qnum y) 0) as [Z|_]; [exfalso; clear -Z Y0; clearbody y; unfold Qlt in Y0; cbn in Y0; lia|].
    rewrite R. destruct (Z.eqb_spec m 0); [lia|]. destruct (971 <? e); [right; auto|]. left. exists m, e, (repr_dec false m e). split; [reflexivity|].
    change (inject_Z (2 ^ 53)) with (9007199254740992 # 1) in D. change (inject_Z (2 ^ 52)) with (4503599627370496 # 1). rewrite q2_spec. set (x := (inject_Z m * P 2 e)%Q) in *. pose proof (Qle_Qabs (y - x)) as Q'. rewrite Qabs_Qminus in Q'. rewrite Y in *.
    split; [lra|]. right. split; [exact L|]. lra.
Qed.
Lemma timedelta_whole (w d h m sc : N) : let T := Z.of_N w * 604800000000 + Z.of_N d * 86400000000 + Z.of_N h * 3600000000 + Z.of_N m * 60000000 + Z.of_N sc * 1000000 in
  let r := timedelta_us [(w, 0); (d, 0); (h, 0); (m, 0); (sc, 0)] in
  r = Some T \/ (2 ^ 52 * 1000000 <= T /\ (r = None \/ exists u, r = Some u /\ 2 ^ 52 * 1000000 <= u)).
Proof.
  intros T. assert (BIGT : (2 ^ 53 <= w)%N \/ (2 ^ 53 <= d)%N \/ (2 ^ 53 <= h)%N \/ (2 ^ 53 <= m)%N \/ (2 ^ 53 <= sc)%N -> 2 ^ 52 * 1000000 <= T) by (unfold T; lia).
  unfold timedelta_us. cbn [fst snd].
  destruct (flt_whole w) as [(mw & ew & rw & -> & Qw & Cw)|[Lw ->]]; [|right; split; [apply BIGT; auto|left; reflexivity]].
  destruct (flt_whole d) as [(md & ed & rd & -> & Qd & Cd)|[Ld ->]]; [|right; split; [apply BIGT; auto|left; reflexivity]].
  destruct (flt_whole h) as [(mh & eh & rh & -> & Qh & Ch)|[Lh ->]]; [|right; split; [apply BIGT; auto|left; reflexivity]].
  destruct (flt_whole m) as [(mm & em & rm & -> & Qm & Cm)|[Lm ->]]; [|right; split; [apply BIGT; auto|left; reflexivity]].
  destruct (flt_whole sc) as [(ms & es & rs & -> & Qs & Cs)|[Ls ->]]; [|right; split; [apply BIGT; auto 10|left; reflexivity]].
  set (xw := q2 mw ew) in *. set (xd := q2 md ed) in *. set (xh := q2 mh eh) in *. set (xm := q2 mm em) in *. set (xs := q2 ms es) in *. clearbody xw xd xh xm xs.
  assert (DEC : ((xw == inject_Z (Z.of_N w))%Q /\ (xd == inject_Z (Z.of_N d))%Q /\ (xh == inject_Z (Z.of_N h))%Q /\ (xm == inject_Z (Z.of_N m))%Q /\ (xs == inject_Z (Z.of_N sc))%Q) \/
    (2 ^ 52 * 1000000 <= T /\ ((inject_Z (2 ^ 52) <= xw)%Q \/ (inject_Z (2 ^ 52) <= xd)%Q \/ (inject_Z (2 ^ 52) <= xh)%Q \/ (inject_Z (2 ^ 52) <= xm)%Q \/ (inject_Z (2 ^ 52) <= xs)%Q))).
  { destruct Cw as [[_ Cw]|[Lw Cw]]; [|right; split; [apply BIGT; auto|auto]]. destruct Cd as [[_ Cd]|[Ld Cd]]; [|right; split; [apply BIGT; auto|auto]]. destruct Ch as [[_ Ch]|[Lh Ch]]; [|right; split; [apply BIGT; auto|auto]].
    destruct Cm as [[_ Cm]|[Lm Cm]]; [|right; split; [apply BIGT; auto|auto]]. destruct Cs as [[_ Cs]|[Ls Cs]]; [|right; split; [apply BIGT; auto 10|auto 10]]. left. auto. }
  destruct DEC as [(Ew & Ed & Eh & Em & Es)|[TB XB]].
  - left. rewrite (accum_whole _ _ _ _ _ Es), (accum_whole _ _ _ _ _ Em), (accum_whole _ _ _ _ _ Eh), (accum_whole _ _ _ _ _ Ed), (accum_whole _ _ _ _ _ Ew). f_equal. unfold add_left, modf64. cbn [Qnum Qden Z.mul Z.compare]. change (0 / 1) with 0. change (0 mod 1) with 0. cbn [Z.mul Z.compare]. unfold T. lia.
  - right. split; [exact TB|]. right. eexists. split; [reflexivity|].
    pose proof (accum_ge 0 0%Q xs 1000000 ltac:(lra) Qs ltac:(lia)) as G1. destruct (accum (0, 0%Q) xs 1000000) as [s1 r1]. destruct G1 as (G1 & R1 & H1).
    pose proof (accum_ge s1 r1 xm 60000000 R1 Qm ltac:(lia)) as G2. destruct (accum (s1, r1) xm 60000000) as [s2 r2]. destruct G2 as (G2 & R2 & H2).
    pose proof (accum_ge s2 r2 xh 3600000000 R2 Qh ltac:(lia)) as G3. destruct (accum (s2, r2) xh 3600000000) as [s3 r3]. destruct G3 as (G3 & R3 & H3).
    pose proof (accum_ge s3 r3 xd 86400000000 R3 Qd ltac:(lia)) as G4. destruct (accum (s3, r3) xd 86400000000) as [s4 r4]. destruct G4 as (G4 & R4 & H4).
    pose proof (accum_ge s4 r4 xw 604800000000 R4 Qw ltac:(lia)) as G5. destruct (accum (s4, r4) xw 604800000000) as [s5 r5]. destruct G5 as (G5 & R5 & H5).
    pose proof (add_left_ge s5 r5 R5). destruct XB as [X|[X|[X|[X|X]]]]; [apply H5 in X|apply H4 in X|apply H3 in X|apply H2 in X|apply H1 in X]; lia.
Qed.
