(** * FltNear: the floats of the model are IEEE 754 doubles, rounded to nearest, ties to even, and printed shortest *)
From Coq Require Import QArith Qabs Qpower Lqa ZArith List Bool Lia.
From Verif Require Import Base Dec Value DecRound Flt FltFacts.
Import ListNotations.
Open Scope Z_scope.
Local Notation P b t := (((Zpos b # 1) ^ t)%Q).

(** ** Specification *)
(** x is a binary64 number (without the upper limit 2^1024, which the theorems below stay away from) *)
Definition double (x : Q) : Prop := exists m e, Z.abs m < 2 ^ 53 /\ -1074 <= e /\ (x == inject_Z m * (2 # 1) ^ e)%Q.
(** x is the double nearest to v; if y is as near, x is an even multiple of the distance of the two *)
Definition nearest_double (v x : Q) : Prop :=
  double x /\ (forall y, double y -> (Qabs (x - v) <= Qabs (y - v))%Q) /\
  (forall y, double y -> ~ (y == x)%Q -> (Qabs (y - v) == Qabs (x - v))%Q -> exists k, (x == inject_Z (2 * k) * Qabs (y - x))%Q).
(** w is a decimal number of n digits *)
Definition has_digits (n : Z) (w : Q) : Prop := exists c k, Z.abs c < 10 ^ n /\ (w == inject_Z c * (10 # 1) ^ k)%Q.
(** w reads back as the double x, no decimal with fewer digits does, and of those with as many digits w is nearest to x (the even one of two) *)
Definition shortest_for (x w : Q) : Prop :=
  nearest_double w x /\ exists n, 0 <= n /\ has_digits n w /\
    (forall w', nearest_double w' x -> has_digits (n - 1) w' -> False) /\
    (forall w', nearest_double w' x -> has_digits n w' -> (Qabs (w - x) <= Qabs (w' - x))%Q) /\
    (forall w', nearest_double w' x -> has_digits n w' -> ~ (w' == w)%Q -> (Qabs (w' - x) == Qabs (w - x))%Q -> exists k, (w == inject_Z (2 * k) * Qabs (w' - w))%Q).

(** ** Order *)
Lemma abs_le a b : (Qabs a <= b)%Q -> (- b <= a /\ a <= b)%Q.
Proof. apply Qabs_Qle_condition. Qed.
Lemma abs_cases a : (0 <= a /\ Qabs a == a)%Q \/ (a <= 0 /\ Qabs a == - a)%Q.
Proof. destruct (Qlt_le_dec 0 a); [left; split; [lra|apply Qabs_pos; lra]|right; split; [lra|apply Qabs_neg; lra]]. Qed.
Ltac absolute1 a := let F := fresh "F" in let q := fresh "q" in pose proof (abs_cases a) as F; remember (Qabs a) as q in *; match goal with E : q = Qabs a |- _ => clear E end; destruct F as [[? ?]|[? ?]].
Ltac absolute := repeat match goal with |- context [Qabs ?a] => absolute1 a | K : context [Qabs ?a] |- _ => absolute1 a end.

Lemma double_ext x y : (x == y)%Q -> double x -> double y.
Proof. intros E (m & e & M & L & X). exists m, e. rewrite <- E. auto. Qed.
Lemma nearest_ext v v' x x' : (v == v')%Q -> (x == x')%Q -> nearest_double v x -> nearest_double v' x'.
Proof.
  intros E1 E2 (D & N & T). split; [eapply double_ext; eassumption|]. split.
  - intros y Y. rewrite <- E1, <- E2. auto.
  - intros y Y NE A. rewrite <- E1, <- E2 in A. rewrite <- E2 in NE. destruct (T y Y NE A) as [k K]. exists k. rewrite <- E2. exact K.
Qed.
Lemma even_odd a b g : ~ (g == 0)%Q -> (inject_Z (2 * a) * g - inject_Z (2 * b) * g == g)%Q -> False.
Proof.
  intros G H. assert (K : (inject_Z (2 * a - 2 * b) * g == inject_Z 1 * g)%Q). { unfold Zminus. rewrite inject_Z_plus, inject_Z_opp. rewrite <- H at 2. change (inject_Z 1) with 1%Q. lra. }
  apply Qmult_inj_r in K; [|exact G]. unfold Qeq, inject_Z in K. cbn [Qnum Qden] in K. lia.
Qed.
Lemma nearest_mono v w x y : nearest_double v x -> nearest_double w y -> (v <= w)%Q -> (x <= y)%Q.
Proof.
  intros (DX & NX & TX) (DY & NY & TY) L. destruct (Qlt_le_dec y x) as [G|G]; [|exact G]. exfalso.
  pose proof (NX y DY) as A. pose proof (NY x DX) as B.
  assert (A1 : (x + y <= 2 * v)%Q) by (absolute; lra). assert (B1 : (2 * w <= x + y)%Q) by (absolute; lra).
  assert (V : (v == (x + y) * (1 # 2))%Q) by lra. assert (W : (w == (x + y) * (1 # 2))%Q) by lra.
  destruct (TX y DY) as [a HA]; [intros E; lra|rewrite V; absolute; lra|]. destruct (TY x DX) as [b HB]; [intros E; lra|rewrite W; absolute; lra|].
  rewrite (Qabs_neg (y - x)) in HA by lra. rewrite (Qabs_pos (x - y)) in HB by lra.
  apply (even_odd a b (x - y)); [lra|]. setoid_replace (- (y - x))%Q with (x - y)%Q in HA by ring. lra.
Qed.
Lemma nearest_unique v x y : nearest_double v x -> nearest_double v y -> (x == y)%Q.
Proof. intros A B. assert (x <= y)%Q by (apply (nearest_mono v v); auto; lra). assert (y <= x)%Q by (apply (nearest_mono v v); auto; lra). lra. Qed.
Lemma nearest_self x : double x -> nearest_double x x.
Proof.
  intros D. split; [exact D|]. assert (Z : (Qabs (x - x) == 0)%Q) by (setoid_replace (x - x)%Q with 0%Q by ring; reflexivity). split.
  - intros y _. rewrite Z. apply Qabs_nonneg.
  - intros y _ NE A. rewrite Z in A. exfalso. apply NE. absolute; lra.
Qed.
Lemma nearest_between v w x : nearest_double v x -> (v <= w <= x)%Q \/ (x <= w <= v)%Q -> forall y, nearest_double w y -> (x == y)%Q.
Proof.
  intros N B y Y. assert (S := nearest_self x (proj1 N)). destruct B as [[B1 B2]|[B1 B2]].
  - pose proof (nearest_mono _ _ _ _ N Y B1). pose proof (nearest_mono _ _ _ _ Y S B2). lra.
  - pose proof (nearest_mono _ _ _ _ S Y B1). pose proof (nearest_mono _ _ _ _ Y N B2). lra.
Qed.

(** ** round64 *)
Lemma nearest_tie a c : (Qabs (inject_Z (nearest_even a (Zpos c)) - (a # c)) == 1 # 2)%Q -> Z.even (nearest_even a (Zpos c)) = true.
Proof.
  assert (D := Z.div_mod a (Zpos c) ltac:(discriminate)). assert (B := Z.mod_pos_bound a (Zpos c) eq_refl). unfold nearest_even. set (k := a / Zpos c) in *. set (r := a mod Zpos c) in *.
  assert (E : (a # c == inject_Z k + (r # c))%Q). { clearbody k r. subst a. unfold Qeq, Qplus, inject_Z. cbn [Qnum Qden]. rewrite Pos.mul_1_l. ring. }
  destruct (Z.compare_spec (2 * r) (Zpos c)) as [H|H|H].
  - intros _. destruct (Z.even k) eqn:K; [exact K|]. rewrite Z.add_1_r, Z.even_succ, <- Z.negb_even, K. reflexivity.
  - intros A. exfalso. rewrite E in A. assert (R : ((r # c) < 1 # 2)%Q) by (unfold Qlt; cbn; lia). assert (R0 : (0 <= r # c)%Q) by (unfold Qle; cbn; lia). absolute; lra.
  - intros A. exfalso. rewrite E, inject_Z_plus in A. change (inject_Z 1) with 1%Q in A. assert (R : ((1 # 2) < r # c)%Q) by (unfold Qlt; cbn; lia). assert (R0 : (r # c < 1)%Q) by (unfold Qlt; cbn; lia). absolute; lra.
Qed.
(** on the grid of the multiples of g *)
Lemma grid m g v k : (0 < g)%Q -> (Qabs (inject_Z m * g - v) <= (1 # 2) * g)%Q ->
  (Qabs (inject_Z m * g - v) <= Qabs (inject_Z k * g - v))%Q /\
  (k <> m -> (Qabs (inject_Z k * g - v) == Qabs (inject_Z m * g - v))%Q -> (Qabs (inject_Z m * g - v) == (1 # 2) * g)%Q /\ (Qabs (inject_Z k * g - inject_Z m * g) == g)%Q).
Proof.
  intros G A. destruct (Z.lt_trichotomy k m) as [H|[->|H]]; [|split; [apply Qle_refl|congruence]|].
  - assert (K : (inject_Z k * g <= inject_Z m * g - g)%Q). { assert (X : (inject_Z k * g <= inject_Z (m - 1) * g)%Q) by (apply Qmult_le_compat_r; [rewrite <- Zle_Qle; lia|lra]). unfold Zminus in X. rewrite inject_Z_plus in X. change (inject_Z (- (1))) with (- 1)%Q in X. lra. }
    split; [absolute; lra|]. intros _ E. split; absolute; lra.
  - assert (K : (inject_Z m * g + g <= inject_Z k * g)%Q). { assert (X : (inject_Z (m + 1) * g <= inject_Z k * g)%Q) by (apply Qmult_le_compat_r; [rewrite <- Zle_Qle; lia|lra]). rewrite inject_Z_plus in X. change (inject_Z 1) with 1%Q in X. lra. }
    split; [absolute; lra|]. intros _ E. split; absolute; lra.
Qed.
(** how the engine's numbers are written: normalised, or with the least exponent *)
Definition canon (m e : Z) : Prop := 0 <= m < 2 ^ 53 /\ -1074 <= e /\ (2 ^ 52 <= m \/ e = -1074).
Lemma canon_double m e : canon m e -> double (inject_Z m * P 2 e).
Proof. intros (M & E & _). exists m, e. split; [lia|]. split; [exact E|reflexivity]. Qed.
Lemma round64_near v : (0 < v)%Q -> exists m e, round64 v = (m, e) /\ canon m e /\ nearest_double v (inject_Z m * P 2 e).
Proof.
  intros V. set (w := Qred v). assert (W : (w == v)%Q) by apply Qred_correct. assert (W0 : (0 < w)%Q) by (rewrite W; exact V).
  destruct (Qnum w) as [|p|p] eqn:N; try (exfalso; unfold Qlt in W0; rewrite N in W0; cbn in W0; lia).
  assert (E : (w == Zpos p # Qden w)%Q) by (unfold Qeq; cbn; rewrite N; reflexivity).
  pose proof (flog2_spec p (Qden w)) as L. set (t := flog2 (Zpos p) (Zpos (Qden w))) in *.
  destruct (scaled_spec 2 (Z.max (-1074) (t - 52)) (Zpos p) (Qden w)) as (a & c & S & A).
  assert (L1 : log_spec 2 t v) by (unfold log_spec in *; rewrite <- E, W in L; exact L). destruct L1 as [T1 T2]. clear L.
  set (e := Z.max (-1074) (t - 52)) in *. pose proof (p_pos 2 e) as PE. rewrite <- E, W in A.
  assert (R : round64 v = (if nearest_even a (Zpos c) =? 2 ^ 53 then (2 ^ 52, e + 1) else (nearest_even a (Zpos c), e))) by (unfold round64; fold w; rewrite N; fold t; fold e; rewrite S; reflexivity).
  pose proof (nearest_spec a c) as X. pose proof (nearest_tie a c) as Y. set (m := nearest_even a (Zpos c)) in *. clearbody m. clear S N E.
  assert (D : (Qabs (inject_Z m * P 2 e - v) == Qabs (inject_Z m - (a # c)) * P 2 e)%Q). { rewrite <- A. setoid_replace (inject_Z m * P 2 e - (a # c) * P 2 e)%Q with ((inject_Z m - (a # c)) * P 2 e)%Q by ring. rewrite Qabs_Qmult, (Qabs_pos (P 2 e)) by lra. reflexivity. }
  assert (A1 : (Qabs (inject_Z m * P 2 e - v) <= (1 # 2) * P 2 e)%Q) by (rewrite D; apply Qmult_le_compat_r; [exact X|lra]).
  assert (EV : (Qabs (inject_Z m * P 2 e - v) == (1 # 2) * P 2 e)%Q -> Z.even m = true). { intros H. apply Y. rewrite D in H. apply Qmult_inj_r in H; [exact H|lra]. }
  clear X Y D A. assert (A2 := abs_le _ _ A1). destruct A2 as [A2 A3].
  assert (U : (v < inject_Z (2 ^ 53) * P 2 e)%Q). { assert (X := p_mono 2 (t + 1) (e + 53) ltac:(lia)). rewrite (p_plus 2 e 53), (p_Z 2 53) in X by lia. lra. }
  assert (M1 : m <= 2 ^ 53). { assert (X : (inject_Z m * P 2 e < inject_Z (2 ^ 53 + 1) * P 2 e)%Q). { rewrite inject_Z_plus. change (inject_Z 1) with 1%Q. lra. } apply Qmult_lt_r in X; [|exact PE]. rewrite <- Zlt_Qlt in X. lia. }
  assert (M0 : 0 <= m). { assert (X : (inject_Z (-1) * P 2 e < inject_Z m * P 2 e)%Q). { change (inject_Z (-1)) with (- 1)%Q. lra. } apply Qmult_lt_r in X; [|exact PE]. rewrite <- Zlt_Qlt in X. lia. }
  assert (NM : -1074 < e -> (inject_Z (2 ^ 52) * P 2 e <= v)%Q /\ 2 ^ 52 <= m).
  { intros H. assert (E : e + 52 = t) by lia. assert (L : (inject_Z (2 ^ 52) * P 2 e <= v)%Q) by (rewrite <- p2_52, E; exact T1). split; [exact L|].
    assert (X : (inject_Z (2 ^ 52 - 1) * P 2 e < inject_Z m * P 2 e)%Q). { unfold Zminus. rewrite inject_Z_plus. change (inject_Z (- (1))) with (- 1)%Q. lra. } apply Qmult_lt_r in X; [|exact PE]. rewrite <- Zlt_Qlt in X. lia. }
  (* every double is on the grid, or farther from v than a point of the grid *)
  assert (GR : forall y, double y -> (exists k, (y == inject_Z k * P 2 e)%Q) \/ (Qabs (inject_Z (2 ^ 52) * P 2 e - v) < Qabs (y - v))%Q).
  { intros y (n & f & Hn & Hf & Hy). destruct (Z.le_gt_cases e f) as [G|G].
    - left. exists (n * 2 ^ (f - e)). rewrite inject_Z_mult, <- (p_Z 2 (f - e)) by lia. rewrite Hy, <- Qmult_assoc, <- p_plus. replace (f - e + e) with f by lia. reflexivity.
    - right. destruct (NM ltac:(lia)) as [L _]. assert (YB : (y < inject_Z (2 ^ 52) * P 2 e)%Q); [|absolute; lra].
      assert (Q1 : (inject_Z n < inject_Z (2 ^ 53))%Q) by (rewrite <- Zlt_Qlt; lia). pose proof (p_pos 2 f) as PF. rewrite Hy.
      apply Qlt_le_trans with (inject_Z (2 ^ 53) * P 2 f)%Q; [apply Qmult_lt_r; assumption|]. pose proof (p_mono 2 (f + 53) (e + 52) ltac:(lia)) as Q2. rewrite (p_plus 2 f 53), (p_plus 2 e 52), (p_Z 2 53), (p_Z 2 52) in Q2 by lia. lra. }
  assert (ND : double (inject_Z m * P 2 e) -> nearest_double v (inject_Z m * P 2 e)).
  { intros DD. split; [exact DD|]. split.
    - intros y DY. destruct (GR y DY) as [[k K]|F]; [rewrite K; apply grid; assumption|]. destruct (grid m (P 2 e) v (2 ^ 52) PE A1) as [G _]. lra.
    - intros y DY NE T. destruct (GR y DY) as [[k K]|F]; [|exfalso; destruct (grid m (P 2 e) v (2 ^ 52) PE A1) as [G _]; lra].
      destruct (grid m (P 2 e) v k PE A1) as [_ G]. rewrite K in T. destruct G as [G1 G2]; [intros ->; apply NE; exact K|exact T|]. specialize (EV G1). apply Z.even_spec in EV. destruct EV as [j J]. exists j. rewrite K, G2, <- J. reflexivity. }
  destruct (Z.eqb_spec m (2 ^ 53)) as [M|M].
  - assert (E1 : (inject_Z (2 ^ 52) * P 2 (e + 1) == inject_Z m * P 2 e)%Q). { rewrite p_plus, M. change (P 2 1) with (2 # 1). change (inject_Z (2 ^ 52)) with (4503599627370496 # 1). change (inject_Z (2 ^ 53)) with (9007199254740992 # 1). ring. }
    assert (CN : canon (2 ^ 52) (e + 1)) by (unfold canon; lia). exists (2 ^ 52), (e + 1). split; [exact R|]. split; [exact CN|].
    eapply nearest_ext; [reflexivity|symmetry; exact E1|]. apply ND. eapply double_ext; [exact E1|]. apply canon_double. exact CN.
  - assert (CN : canon m e). { split; [lia|]. split; [lia|]. destruct (Z.eq_dec e (-1074)); [right; assumption|left; apply NM; lia]. } exists m, e. split; [exact R|]. split; [exact CN|]. apply ND, canon_double, CN.
Qed.
(** two canonical forms of the same number *)
Lemma canon_unique m e n f : canon m e -> canon n f -> (inject_Z m * P 2 e == inject_Z n * P 2 f)%Q -> m = n /\ e = f.
Proof.
  assert (H : forall m e n f, canon m e -> canon n f -> (inject_Z m * P 2 e == inject_Z n * P 2 f)%Q -> e < f -> False).
  { clear. intros m e n f (M & E & _) (N & F & C) Q L. destruct C as [C|C]; [|lia]. assert (f = e + 1 + (f - e - 1)) by lia. set (d := f - e - 1) in *. assert (D : 0 <= d) by (unfold d; lia). rewrite H in Q. clearbody d.
    rewrite p_plus, p_plus in Q. change (P 2 1) with (2 # 1) in Q. rewrite (p_Z 2 d D) in Q. assert (Q1 : (inject_Z m * P 2 e == inject_Z (n * 2 * 2 ^ d) * P 2 e)%Q) by (rewrite !inject_Z_mult; change (inject_Z 2) with (2 # 1); rewrite Q; ring).
    pose proof (p_pos 2 e). apply Qmult_inj_r in Q1; [|lra]. unfold Qeq, inject_Z in Q1. cbn [Qnum Qden] in Q1. assert (0 < 2 ^ d) by (apply Z.pow_pos_nonneg; lia). assert (2 ^ 53 = 2 * 2 ^ 52) by reflexivity. assert (n * 2 <= n * 2 * 2 ^ d) by nia. lia. }
  intros A B Q. destruct (Z.lt_trichotomy e f) as [L|[->|L]]; [exfalso; eauto| |exfalso; apply (H n f m e); auto; symmetry; exact Q].
  split; [|reflexivity]. pose proof (p_pos 2 f). apply Qmult_inj_r in Q; [|lra]. unfold Qeq, inject_Z in Q. cbn [Qnum Qden] in Q. lia.
Qed.
Lemma round64_iff v m e : (0 < v)%Q -> canon m e -> (round64 v = (m, e) <-> nearest_double v (inject_Z m * P 2 e)).
Proof.
  intros V C. destruct (round64_near v V) as (m' & e' & R & C' & N). split; intros H.
  - rewrite R in H. injection H as -> ->. exact N.
  - rewrite R. destruct (canon_unique m' e' m e C' C (nearest_unique v _ _ N H)) as [-> ->]. reflexivity.
Qed.

(** ** repr *)
(** other doubles are not near x *)
Lemma gap m e y : canon m e -> double y -> (Qabs (y - inject_Z m * P 2 e) * inject_Z (2 ^ 53) < inject_Z m * P 2 e)%Q -> (y == inject_Z m * P 2 e)%Q.
Proof.
  intros (M & E & K) (n & f & N & F & Y) L. pose proof (p_pos 2 e) as PE. pose proof (p_pos 2 f) as PF. assert (MQ : (inject_Z m * P 2 e < inject_Z (2 ^ 53) * P 2 e)%Q) by (apply Qmult_lt_r; [exact PE|rewrite <- Zlt_Qlt; lia]).
  change (inject_Z (2 ^ 53)) with (9007199254740992 # 1) in *. destruct (Z.le_gt_cases e f) as [G|G].
  - assert (Y2 : (y == inject_Z (n * 2 ^ (f - e)) * P 2 e)%Q). { rewrite inject_Z_mult, <- (p_Z 2 (f - e)) by lia. rewrite Y, <- Qmult_assoc, <- p_plus. replace (f - e + e) with f by lia. reflexivity. }
    set (k := n * 2 ^ (f - e)) in *. clearbody k. destruct (Z.eq_dec k m) as [->|NE]; [exact Y2|]. exfalso.
    assert (D : (P 2 e <= Qabs (y - inject_Z m * P 2 e))%Q); [|lra]. rewrite Y2. setoid_replace (inject_Z k * P 2 e - inject_Z m * P 2 e)%Q with (inject_Z (k - m) * P 2 e)%Q by (unfold Zminus; rewrite inject_Z_plus, inject_Z_opp; ring).
    rewrite Qabs_Qmult, (Qabs_pos (P 2 e)) by lra. assert (Q1 : (1 <= Qabs (inject_Z (k - m)))%Q). { change (Qabs (inject_Z (k - m))) with (inject_Z (Z.abs (k - m))). change 1%Q with (inject_Z 1). rewrite <- Zle_Qle. lia. } nra.
  - exfalso. assert (M2 : 2 ^ 52 <= m) by lia. assert (MQ2 : (inject_Z (2 ^ 52) * P 2 e <= inject_Z m * P 2 e)%Q) by (apply Qmult_le_compat_r; [rewrite <- Zle_Qle; exact M2|lra]). change (inject_Z (2 ^ 52)) with (4503599627370496 # 1) in MQ2.
    assert (YB : (y <= (9007199254740991 # 1) * P 2 (e - 1))%Q). { rewrite Y. apply Qle_trans with ((9007199254740991 # 1) * P 2 f)%Q; [apply Qmult_le_compat_r; [change (9007199254740991 # 1) with (inject_Z (2 ^ 53 - 1)); rewrite <- Zle_Qle; lia|lra]|]. apply Qmult_le_l; [reflexivity|apply p_mono; lia]. }
    assert (PP : (P 2 e == (2 # 1) * P 2 (e - 1))%Q) by (replace e with (1 + (e - 1)) at 1 by lia; rewrite p_plus; reflexivity). pose proof (p_pos 2 (e - 1)) as P1. set (x := (inject_Z m * P 2 e)%Q) in *. absolute; lra.
Qed.
Lemma close m e w : canon m e -> nearest_double w (inject_Z m * P 2 e) \/ ~ (Qabs (w - inject_Z m * P 2 e) * inject_Z (2 ^ 54) < inject_Z m * P 2 e)%Q \/ ~ (0 < w)%Q.
Proof.
  intros C. destruct (Qlt_le_dec 0 w) as [W|W]; [|right; right; lra]. destruct (Qlt_le_dec (Qabs (w - inject_Z m * P 2 e) * inject_Z (2 ^ 54)) (inject_Z m * P 2 e)) as [L|L]; [left|right; left; lra].
  destruct (round64_near w W) as (n & f & _ & C' & N). eapply nearest_ext; [reflexivity| |exact N]. apply gap; [exact C|apply N|].
  destruct N as (_ & N & _). specialize (N _ (canon_double m e C)). change (inject_Z (2 ^ 54)) with (18014398509481984 # 1) in L. change (inject_Z (2 ^ 53)) with (9007199254740992 # 1). set (x := (inject_Z m * P 2 e)%Q) in *. set (y := (inject_Z n * P 2 f)%Q) in *. clearbody x y. absolute; lra.
Qed.
Lemma nearest_pos w x : nearest_double w x -> (0 < x)%Q -> (0 < w)%Q.
Proof.
  intros N X. destruct (Qlt_le_dec 0 w) as [W|W]; [exact W|]. exfalso. assert (D : double 0) by (exists 0, 0; split; [reflexivity|split; [lia|reflexivity]]). pose proof (nearest_mono _ _ _ _ N (nearest_self 0 D) W). lra.
Qed.

Section Shortest.
Variables m e : Z.
Hypothesis C : canon m e.
Hypothesis M : 0 < m.
Let x : Q := (inject_Z m * P 2 e)%Q.
Let j : Z := decade m e.
Lemma x_pos : (0 < x)%Q.
Proof. unfold x. apply Qmult_lt_0_compat; [|apply p_pos]. change 0%Q with (inject_Z 0). rewrite <- Zlt_Qlt. exact M. Qed.
Lemma reads_iff c k : 0 < c -> (reads_back m e c k <-> nearest_double (inject_Z c * P 10 k) x).
Proof.
  intros H. assert (V : (0 < inject_Z c * P 10 k)%Q) by (apply Qmult_lt_0_compat; [change 0%Q with (inject_Z 0); rewrite <- Zlt_Qlt; exact H|apply p_pos]).
  unfold reads_back. rewrite (round64_ext _ _ (q10_spec c k)), (round64_iff _ m e V C). unfold x. tauto.
Qed.
(** the candidates with n digits *)
Definition unit_ (n : Z) : Z := j - n + 1.
Definition below (n lo : Z) : Prop := (inject_Z lo * P 10 (unit_ n) <= x)%Q /\ (x < inject_Z (lo + 1) * P 10 (unit_ n))%Q.
Lemma below_range n lo : 1 <= n -> below n lo -> 10 ^ (n - 1) <= lo < 10 ^ n.
Proof.
  intros N [L1 L2]. destruct (decade_spec m e M) as [D1 D2]. fold j in D1, D2. fold x in D1, D2. pose proof (p_pos 10 (unit_ n)) as PU. split.
  - apply Z.lt_succ_r. unfold Z.succ. assert (Q : (inject_Z (10 ^ (n - 1)) * P 10 (unit_ n) < inject_Z (lo + 1) * P 10 (unit_ n))%Q). { eapply Qle_lt_trans; [|exact L2]. rewrite <- (p_Z 10 (n - 1)) by lia. rewrite <- p_plus. replace (n - 1 + unit_ n) with j by (unfold unit_; lia). exact D1. }
    apply Qmult_lt_r in Q; [|exact PU]. rewrite <- Zlt_Qlt in Q. exact Q.
  - assert (Q : (inject_Z lo * P 10 (unit_ n) < inject_Z (10 ^ n) * P 10 (unit_ n))%Q). { eapply Qle_lt_trans; [exact L1|]. rewrite <- (p_Z 10 n) by lia. rewrite <- p_plus. replace (n + unit_ n) with (j + 1) by (unfold unit_; lia). exact D2. }
    apply Qmult_lt_r in Q; [|exact PU]. rewrite <- Zlt_Qlt in Q. exact Q.
Qed.
Lemma candidate n lo w : 1 <= n -> below n lo -> nearest_double w x -> has_digits n w ->
  exists i, (i = lo \/ i = lo + 1) /\ reads_back m e i (unit_ n) /\ (Qabs (inject_Z i * P 10 (unit_ n) - x) <= Qabs (w - x))%Q /\ ((Qabs (inject_Z i * P 10 (unit_ n) - x) == Qabs (w - x))%Q -> (w == inject_Z i * P 10 (unit_ n))%Q).
Proof.
  intros N B W (c & k & HC & HW). pose proof (below_range n lo N B) as [R1 R2]. destruct B as [L1 L2]. pose proof x_pos as XP. pose proof (nearest_pos w x W XP) as WP. pose proof (p_pos 10 (unit_ n)) as PU. pose proof (p_pos 10 k) as PK.
  assert (T : 0 < 10 ^ (n - 1)) by (apply Z.pow_pos_nonneg; lia). destruct (decade_spec m e M) as [D1 D2]. fold j in D1, D2. fold x in D1, D2.
  assert (IN : forall i, 0 < i -> (w <= inject_Z i * P 10 (unit_ n) <= x)%Q \/ (x <= inject_Z i * P 10 (unit_ n) <= w)%Q -> reads_back m e i (unit_ n) /\ (Qabs (inject_Z i * P 10 (unit_ n) - x) <= Qabs (w - x))%Q /\ ((Qabs (inject_Z i * P 10 (unit_ n) - x) == Qabs (w - x))%Q -> (w == inject_Z i * P 10 (unit_ n))%Q)).
  { intros i I H. assert (V : (0 < inject_Z i * P 10 (unit_ n))%Q) by (apply Qmult_lt_0_compat; [change 0%Q with (inject_Z 0); rewrite <- Zlt_Qlt; exact I|apply p_pos]). set (v := (inject_Z i * P 10 (unit_ n))%Q) in *. split.
    - apply reads_iff; [exact I|]. fold v. destruct (round64_near v V) as (m' & e' & _ & _ & NV). eapply nearest_ext; [reflexivity| |exact NV]. symmetry. apply (nearest_between w v x W H _ NV).
    - clearbody v. split; [|intros A]; destruct H; absolute; lra. }
  destruct (Qlt_le_dec x w) as [G|G].
  - (* above: w is a multiple of the unit *)
    destruct (IN (lo + 1) ltac:(lia)) as [I1 I2]; [|exists (lo + 1); auto]. right. split; [lra|].
    destruct (Z.le_gt_cases (unit_ n) k) as [K|K].
    + assert (E : (w == inject_Z (c * 10 ^ (k - unit_ n)) * P 10 (unit_ n))%Q). { rewrite inject_Z_mult, <- (p_Z 10 (k - unit_ n)) by lia. rewrite HW, <- Qmult_assoc, <- p_plus. replace (k - unit_ n + unit_ n) with k by lia. reflexivity. }
      set (z := c * 10 ^ (k - unit_ n)) in *. clearbody z. rewrite E. apply Qmult_le_compat_r; [|lra]. rewrite <- Zle_Qle. assert (Q : (inject_Z lo * P 10 (unit_ n) < inject_Z z * P 10 (unit_ n))%Q) by (rewrite <- E; lra). apply Qmult_lt_r in Q; [|exact PU]. rewrite <- Zlt_Qlt in Q. lia.
    + exfalso. assert (Q : (inject_Z c * P 10 k < P 10 (n + k))%Q). { rewrite p_plus, (p_Z 10 n) by lia. apply Qmult_lt_r; [exact PK|]. rewrite <- Zlt_Qlt. lia. } pose proof (p_mono 10 (n + k) j ltac:(unfold unit_ in K; lia)). lra.
  - destruct (IN lo ltac:(lia)) as [I1 I2]; [|exists lo; auto]. left. split; [|exact L1].
    destruct (Z.le_gt_cases (unit_ n) k) as [K|K].
    + assert (E : (w == inject_Z (c * 10 ^ (k - unit_ n)) * P 10 (unit_ n))%Q). { rewrite inject_Z_mult, <- (p_Z 10 (k - unit_ n)) by lia. rewrite HW, <- Qmult_assoc, <- p_plus. replace (k - unit_ n + unit_ n) with k by lia. reflexivity. }
      set (z := c * 10 ^ (k - unit_ n)) in *. clearbody z. rewrite E. apply Qmult_le_compat_r; [|lra]. rewrite <- Zle_Qle. assert (Q : (inject_Z z * P 10 (unit_ n) < inject_Z (lo + 1) * P 10 (unit_ n))%Q) by (rewrite <- E; lra). apply Qmult_lt_r in Q; [|exact PU]. rewrite <- Zlt_Qlt in Q. lia.
    + assert (Q : (inject_Z c * P 10 k < P 10 (n + k))%Q). { rewrite p_plus, (p_Z 10 n) by lia. apply Qmult_lt_r; [exact PK|]. rewrite <- Zlt_Qlt. lia. } pose proof (p_mono 10 (n + k) j ltac:(unfold unit_ in K; lia)).
      assert (Q2 : (P 10 j <= inject_Z lo * P 10 (unit_ n))%Q). { replace j with (n - 1 + unit_ n) by (unfold unit_; lia). rewrite p_plus, (p_Z 10 (n - 1)) by lia. apply Qmult_le_compat_r; [rewrite <- Zle_Qle; exact R1|lra]. } lra.
Qed.
(** repr_digits finds the nearest decimal with n digits that reads back, if there is one *)
Lemma repr_digits_spec n : 1 <= n -> exists lo, below n lo /\
  match repr_digits m e n with
  | Some (c, k) => k = unit_ n /\ (c = lo \/ c = lo + 1) /\ reads_back m e c k /\ (forall i, (i = lo \/ i = lo + 1) -> reads_back m e i k -> (Qabs (inject_Z c * P 10 k - x) <= Qabs (inject_Z i * P 10 k - x))%Q) /\
      (forall i, (i = lo \/ i = lo + 1) -> reads_back m e i k -> i <> c -> (Qabs (inject_Z i * P 10 k - x) == Qabs (inject_Z c * P 10 k - x))%Q -> Z.even c = true)
  | None => ~ reads_back m e lo (unit_ n) /\ ~ reads_back m e (lo + 1) (unit_ n)
  end.
Proof.
  intros N. unfold repr_digits. fold (decade m e). fold j. fold (unit_ n). destruct (repr_scaled m e (unit_ n)) as (a & b & S & X). fold x in X. rewrite S. pose proof (floor_spec a b) as [F1 F2]. pose proof (p_pos 10 (unit_ n)) as PK.
  exists (a / Zpos b). set (lo := a / Zpos b) in *. split. { split; rewrite <- X; [apply Qmult_le_compat_r; [exact F1|lra]|]. apply Qmult_lt_r; [exact PK|]. rewrite inject_Z_plus. exact F2. }
  assert (O1 := reads_ok m e lo (unit_ n)). assert (O2 := reads_ok m e (lo + 1) (unit_ n)). destruct ((0 <? lo) && _); destruct ((0 <? lo + 1) && _).
  - assert (D1 : (inject_Z lo * P 10 (unit_ n) - x == - ((a mod Zpos b # b) * P 10 (unit_ n)))%Q /\ (0 <= (a mod Zpos b # b))%Q /\ (a mod Zpos b # b < 1)%Q).
    { assert (DM := Z.div_mod a (Zpos b) ltac:(discriminate)). assert (BM := Z.mod_pos_bound a (Zpos b) eq_refl). fold lo in DM. set (r := a mod Zpos b) in *. clearbody lo r. split; [|split; [unfold Qle; cbn; lia|unfold Qlt; cbn; lia]]. rewrite <- X. assert (E : (a # b == inject_Z lo + (r # b))%Q). { subst a. unfold Qeq, Qplus, inject_Z. cbn [Qnum Qden]. rewrite Pos.mul_1_l. ring. } rewrite E. ring. }
    destruct D1 as (D1 & D2 & D3). assert (HALF := Z.compare_spec (2 * (a mod Zpos b)) (Zpos b)). set (f := a mod Zpos b # b) in *.
    assert (G : (f * P 10 (unit_ n) <= (1 # 2) * P 10 (unit_ n))%Q \/ ~ 2 * (a mod Zpos b) <= Zpos b) by (destruct (Z.le_gt_cases (2 * (a mod Zpos b)) (Zpos b)); [left; apply Qmult_le_compat_r; [unfold f, Qle; cbn; lia|lra]|right; lia]).
    assert (G' : ((1 # 2) * P 10 (unit_ n) <= f * P 10 (unit_ n))%Q \/ ~ Zpos b <= 2 * (a mod Zpos b)) by (destruct (Z.le_gt_cases (Zpos b) (2 * (a mod Zpos b))); [left; apply Qmult_le_compat_r; [unfold f, Qle; cbn; lia|lra]|right; lia]).
    assert (Y : (inject_Z (lo + 1) * P 10 (unit_ n) == inject_Z lo * P 10 (unit_ n) + P 10 (unit_ n))%Q) by (rewrite inject_Z_plus; change (inject_Z 1) with 1%Q; ring).
    assert (Y1 : (0 <= f * P 10 (unit_ n))%Q) by nra. assert (Y2 : (f * P 10 (unit_ n) < P 10 (unit_ n))%Q) by nra.
    assert (LE : 2 * (a mod Zpos b) <= Zpos b -> (Qabs (inject_Z lo * P 10 (unit_ n) - x) <= Qabs (inject_Z (lo + 1) * P 10 (unit_ n) - x))%Q). { intros H. destruct G as [G|G]; [|contradiction]. rewrite Y. set (u := (inject_Z lo * P 10 (unit_ n))%Q) in *. set (g := (f * P 10 (unit_ n))%Q) in *. clearbody u g. absolute; lra. }
    assert (GE : Zpos b <= 2 * (a mod Zpos b) -> (Qabs (inject_Z (lo + 1) * P 10 (unit_ n) - x) <= Qabs (inject_Z lo * P 10 (unit_ n) - x))%Q). { intros H. destruct G' as [G'|G']; [|contradiction]. rewrite Y. set (u := (inject_Z lo * P 10 (unit_ n))%Q) in *. set (g := (f * P 10 (unit_ n))%Q) in *. clearbody u g. absolute; lra. }
    assert (EQ : (Qabs (inject_Z (lo + 1) * P 10 (unit_ n) - x) == Qabs (inject_Z lo * P 10 (unit_ n) - x))%Q -> 2 * (a mod Zpos b) = Zpos b).
    { intros A. rewrite Y in A. assert (A2 : (f * P 10 (unit_ n) == (1 # 2) * P 10 (unit_ n))%Q). { set (u := (inject_Z lo * P 10 (unit_ n))%Q) in *. set (g := (f * P 10 (unit_ n))%Q) in *. clearbody u g. absolute; lra. }
      apply Qmult_inj_r in A2; [|lra]. unfold f, Qeq in A2. cbn [Qnum Qden] in A2. lia. }
    assert (CASE : forall c, (2 * (a mod Zpos b) = Zpos b -> Z.even c = true) -> (c = lo /\ 2 * (a mod Zpos b) <= Zpos b) \/ (c = lo + 1 /\ Zpos b <= 2 * (a mod Zpos b)) -> unit_ n = unit_ n /\ (c = lo \/ c = lo + 1) /\ reads_back m e c (unit_ n) /\ (forall i, (i = lo \/ i = lo + 1) -> reads_back m e i (unit_ n) -> (Qabs (inject_Z c * P 10 (unit_ n) - x) <= Qabs (inject_Z i * P 10 (unit_ n) - x))%Q) /\
      (forall i, (i = lo \/ i = lo + 1) -> reads_back m e i (unit_ n) -> i <> c -> (Qabs (inject_Z i * P 10 (unit_ n) - x) == Qabs (inject_Z c * P 10 (unit_ n) - x))%Q -> Z.even c = true)).
    { intros c CE [[-> H]|[-> H]]; (split; [reflexivity|]; split; [tauto|]; split; [tauto|]; split; [intros i [->| ->] _; [try apply Qle_refl; auto|try apply Qle_refl; auto]|]; intros i [->| ->] _ NE A; try congruence; apply CE, EQ; (exact A || (symmetry; exact A))). }
    destruct HALF as [H|H|H].
    + apply CASE; [intros _; destruct (Z.even lo) eqn:K; [exact K|rewrite Z.add_1_r, Z.even_succ, <- Z.negb_even, K; reflexivity]|]. destruct (Z.even lo); [left|right]; (split; [reflexivity|lia]).
    + apply CASE; [lia|left; split; [reflexivity|lia]].
    + apply CASE; [lia|right; split; [reflexivity|lia]].
  - split; [reflexivity|]. split; [tauto|]. split; [tauto|]. split; intros i [->| ->] H; [apply Qle_refl| |congruence|]; apply O2 in H; discriminate H.
  - split; [reflexivity|]. split; [tauto|]. split; [tauto|]. split; intros i [->| ->] H; [|apply Qle_refl| |congruence]; apply O1 in H; discriminate H.
  - split; intros H; [apply O1 in H|apply O2 in H]; discriminate H.
Qed.
Lemma none_reads n w : 1 <= n -> repr_digits m e n = None -> nearest_double w x -> has_digits n w -> False.
Proof.
  intros N E W D. destruct (repr_digits_spec n N) as (lo & B & H). rewrite E in H. destruct (candidate n lo w N B W D) as (i & [->| ->] & R & _); tauto.
Qed.
Lemma some_shortest n c k : 1 <= n -> repr_digits m e n = Some (c, k) -> (n = 1 \/ repr_digits m e (n - 1) = None) -> 0 < c /\ shortest_for x (inject_Z c * P 10 k).
Proof.
  intros N E PR. destruct (repr_digits_spec n N) as (lo & B & H). rewrite E in H. destruct H as (-> & CL & R & NR & TR). pose proof (below_range n lo N B) as [R1 R2]. assert (T : 0 < 10 ^ (n - 1)) by (apply Z.pow_pos_nonneg; lia). assert (CP : 0 < c) by lia.
  split; [exact CP|]. split; [apply reads_iff; assumption|]. exists n. split; [lia|]. split; [|split; [|split]].
  - destruct (Z.eq_dec c (10 ^ n)) as [Q|Q]; [|exists c, (unit_ n); split; [lia|reflexivity]]. exists 1, (n + unit_ n). split. { assert (10 ^ 1 <= 10 ^ n) by (apply Z.pow_le_mono_r; lia). change (10 ^ 1) with 10 in *. lia. } rewrite Q, <- (p_Z 10 n), p_plus by lia. change (inject_Z 1) with 1%Q. ring.
  - intros w W D. destruct (Z.eq_dec n 1) as [->|NE].
    + destruct D as (c' & k' & C' & HW). change (10 ^ (1 - 1)) with 1 in C'. assert (c' = 0) by lia. subst c'. pose proof (nearest_pos w x W x_pos) as WP. rewrite HW in WP. change (inject_Z 0) with 0%Q in WP. lra.
    + destruct PR as [PR|PR]; [contradiction|]. apply (none_reads (n - 1) w); auto. lia.
  - intros w W D. destruct (candidate n lo w N B W D) as (i & CI & RI & L & _). specialize (NR i CI RI). lra.
  - intros w W D NE A. destruct (candidate n lo w N B W D) as (i & CI & RI & L & U). pose proof (NR i CI RI) as G. assert (A2 : (Qabs (inject_Z i * P 10 (unit_ n) - x) == Qabs (inject_Z c * P 10 (unit_ n) - x))%Q) by lra.
    assert (WI : (w == inject_Z i * P 10 (unit_ n))%Q) by (apply U; lra). assert (IC : i <> c) by (intros ->; apply NE; exact WI). assert (EC := TR i CI RI IC A2). apply Z.even_spec in EC. destruct EC as [h HH]. exists h. rewrite <- HH.
    pose proof (p_pos 10 (unit_ n)) as PU. assert (DI : (Qabs (w - inject_Z c * P 10 (unit_ n)) == P 10 (unit_ n))%Q); [|rewrite DI; reflexivity]. rewrite WI. setoid_replace (inject_Z i * P 10 (unit_ n) - inject_Z c * P 10 (unit_ n))%Q with (inject_Z (i - c) * P 10 (unit_ n))%Q by (unfold Zminus; rewrite inject_Z_plus, inject_Z_opp; ring).
    rewrite Qabs_Qmult, (Qabs_pos (P 10 (unit_ n))) by lra. change (Qabs (inject_Z (i - c))) with (inject_Z (Z.abs (i - c))). replace (Z.abs (i - c)) with 1 by lia. change (inject_Z 1) with 1%Q. ring.
Qed.
Lemma seventeen : repr_digits m e 17 <> None.
Proof.
  intros E. destruct (repr_digits_spec 17 ltac:(lia)) as (lo & B & H). rewrite E in H. destruct H as [H1 H2]. pose proof (below_range 17 lo ltac:(lia) B) as [R1 R2]. assert (T : 0 < 10 ^ (17 - 1)) by reflexivity. destruct B as [L1 L2].
  destruct (decade_spec m e M) as [D1 D2]. fold j in D1, D2. fold x in D1, D2. pose proof (p_pos 10 (unit_ 17)) as PU. pose proof x_pos as XP.
  assert (DJ : (P 10 j == (10000000000000000 # 1) * P 10 (unit_ 17))%Q). { replace j with (16 + unit_ 17) by (unfold unit_; lia). rewrite p_plus. reflexivity. }
  assert (Y : (inject_Z (lo + 1) * P 10 (unit_ 17) == inject_Z lo * P 10 (unit_ 17) + P 10 (unit_ 17))%Q) by (rewrite inject_Z_plus; change (inject_Z 1) with 1%Q; ring).
  assert (K : forall i, 0 < i -> (Qabs (inject_Z i * P 10 (unit_ 17) - x) <= (1 # 2) * P 10 (unit_ 17))%Q -> reads_back m e i (unit_ 17)).
  { intros i I A. apply reads_iff; [exact I|]. assert (V : (0 < inject_Z i * P 10 (unit_ 17))%Q) by (apply Qmult_lt_0_compat; [change 0%Q with (inject_Z 0); rewrite <- Zlt_Qlt; exact I|exact PU]).
    destruct (close m e (inject_Z i * P 10 (unit_ 17)) C) as [K|[K|K]]; [exact K| |contradiction]. exfalso. apply K. fold x. change (inject_Z (2 ^ 54)) with (18014398509481984 # 1). lra. }
  destruct (Qlt_le_dec (x - inject_Z lo * P 10 (unit_ 17)) ((1 # 2) * P 10 (unit_ 17))) as [G|G].
  - apply H1, K; [lia|]. absolute; lra.
  - apply H2, K; [lia|]. rewrite Y in *. absolute; lra.
Qed.
Lemma shortest_spec c k : shortest 16 m e 1 = (c, k) -> 0 < c /\ shortest_for x (inject_Z c * P 10 k).
Proof.
  intros H. assert (G : forall f n, n + Z.of_nat f = 17 -> 1 <= n -> (n = 1 \/ repr_digits m e (n - 1) = None) -> shortest f m e n = (c, k) -> 0 < c /\ shortest_for x (inject_Z c * P 10 k)); [|apply (G 16%nat 1); [reflexivity|lia|auto|exact H]].
  clear H. induction f as [|f IH]; intros n L N PR H; cbn [shortest] in H; destruct (repr_digits m e n) as [[c' k']|] eqn:D.
  - injection H as -> ->. eapply some_shortest; eassumption.
  - exfalso. assert (n = 17) by lia. subst n. apply seventeen, D.
  - injection H as -> ->. eapply some_shortest; eassumption.
  - apply (IH (n + 1)); [lia|lia|right; replace (n + 1 - 1) with n by lia; exact D|exact H].
Qed.
End Shortest.

(** ** mk_flt *)
Lemma double_opp x : double x -> double (- x).
Proof. intros (m & e & M & E & X). exists (- m), e. split; [lia|]. split; [exact E|]. rewrite X, inject_Z_opp. ring. Qed.
Lemma abs_opp a b : (Qabs (- a - - b) == Qabs (a - b))%Q.
Proof. setoid_replace (- a - - b)%Q with (- (a - b))%Q by ring. apply Qabs_opp. Qed.
Lemma nearest_opp v x : nearest_double v x -> nearest_double (- v) (- x).
Proof.
  intros (D & N & T). split; [apply double_opp, D|]. assert (AL : forall y v, (Qabs (y - - v) == Qabs (- y - v))%Q) by (intros; setoid_replace (y - - v0)%Q with (- (- y - v0))%Q by ring; apply Qabs_opp). split.
  - intros y Y. rewrite abs_opp, AL. apply N, double_opp, Y.
  - intros y Y NE A. rewrite abs_opp, AL in A. destruct (T (- y)%Q) as [k K]; [apply double_opp, Y|intros E; apply NE; rewrite <- E; ring|exact A|]. exists (- k). rewrite AL. rewrite K at 1. replace (2 * - k) with (- (2 * k)) by lia. rewrite inject_Z_opp. ring.
Qed.
Lemma digits_opp n w : has_digits n w -> has_digits n (- w).
Proof. intros (c & k & H & E). exists (- c), k. split; [lia|]. rewrite E, inject_Z_opp. ring. Qed.
Lemma digits_ext n w w' : (w == w')%Q -> has_digits n w -> has_digits n w'.
Proof. intros E (c & k & H & W). exists c, k. rewrite <- E. auto. Qed.
Lemma shortest_ext x x' w w' : (x == x')%Q -> (w == w')%Q -> shortest_for x w -> shortest_for x' w'.
Proof.
  intros E1 E2 (N & n & N0 & D & A & B & T). assert (XE : forall v, nearest_double v x' -> nearest_double v x) by (intros v; apply nearest_ext; [reflexivity|symmetry; exact E1]).
  split; [eapply nearest_ext; eassumption|]. exists n. split; [exact N0|]. split; [eapply digits_ext; eassumption|]. split; [intros v NV; apply A, XE, NV|]. split; intros v NV DV; [rewrite <- E1, <- E2; apply B; auto|].
  intros NE Q. rewrite <- E2 in NE. rewrite <- E1, <- E2 in Q. destruct (T v (XE v NV) DV NE Q) as [k K]. exists k. rewrite <- E2. exact K.
Qed.
Lemma opp_opp (v : Q) : (- - v == v)%Q.
Proof. ring. Qed.
Lemma shortest_opp x w : shortest_for x w -> shortest_for (- x) (- w).
Proof.
  intros (N & n & N0 & D & A & B & T). assert (XE : forall v, nearest_double v (- x) -> nearest_double (- v) x) by (intros v NV; apply nearest_opp in NV; eapply nearest_ext; [reflexivity|apply opp_opp|exact NV]).
  split; [apply nearest_opp, N|]. exists n. split; [exact N0|]. split; [apply digits_opp, D|]. split; [|split].
  - intros v NV DV. apply (A (- v)%Q); [apply XE, NV|apply digits_opp, DV].
  - intros v NV DV. rewrite abs_opp. specialize (B (- v)%Q (XE v NV) (digits_opp _ _ DV)). setoid_replace (v - - x)%Q with (- (- v - x))%Q by ring. rewrite Qabs_opp. exact B.
  - intros v NV DV NE Q. assert (VX : forall u, (Qabs (v - - u) == Qabs (- v - u))%Q) by (intros u; setoid_replace (v - - u)%Q with (- (- v - u))%Q by ring; apply Qabs_opp). rewrite abs_opp, VX in Q.
    destruct (T (- v)%Q (XE v NV) (digits_opp _ _ DV)) as [k K]; [intros E; apply NE; rewrite <- E; ring|exact Q|]. exists (- k). rewrite VX. rewrite K at 1. replace (2 * - k) with (- (2 * k)) by lia. rewrite inject_Z_opp. ring.
Qed.
Lemma double_0 : double 0.
Proof. exists 0, 0. split; [reflexivity|split; [lia|reflexivity]]. Qed.
Lemma shortest_0 : shortest_for 0 0.
Proof.
  split; [apply nearest_self, double_0|]. exists 0. split; [lia|]. split; [exists 0, 0; split; reflexivity|]. split.
  - intros w _ (c & k & L & _). change (10 ^ (0 - 1)) with 0 in L. lia.
  - split; intros w _ H; [setoid_replace (0 - 0)%Q with 0%Q by ring; apply Qabs_nonneg|]. intros NE A. exfalso. apply NE. setoid_replace (0 - 0)%Q with 0%Q in A by ring. change (Qabs 0) with 0%Q in A. absolute; lra.
Qed.

(** from this number on the result is infinite *)
Definition overflow : Q := (inject_Z (2 ^ 54 - 1) * (2 # 1) ^ 970)%Q.
Lemma e972 : (inject_Z (2 ^ 53) * P 2 971 == overflow + P 2 970)%Q.
Proof. unfold overflow. change 971 with (1 + 970). rewrite p_plus. change (P 2 1) with (2 # 1). change (inject_Z (2 ^ 53)) with (9007199254740992 # 1). change (inject_Z (2 ^ 54 - 1)) with (18014398509481983 # 1). generalize (P 2 970). intros q. ring. Qed.
Lemma exponent_bound m e v : canon m e -> nearest_double v (inject_Z m * P 2 e) -> (0 < v)%Q -> (e <= 971 <-> (v < overflow)%Q).
Proof.
  intros C N V. pose proof e972 as E. assert (E2 : (inject_Z (2 ^ 53 - 1) * P 2 971 == overflow - P 2 970)%Q). { unfold Zminus. rewrite inject_Z_plus. change (inject_Z (- (1))) with (- 1)%Q. assert (Q : (P 2 971 == (2 # 1) * P 2 970)%Q) by (change 971 with (1 + 970); rewrite p_plus; reflexivity). lra. }
  assert (DT : double (inject_Z (2 ^ 53) * P 2 971)). { exists (2 ^ 52), 972. split; [reflexivity|]. split; [lia|]. change 972 with (1 + 971). rewrite p_plus. change (P 2 1) with (2 # 1). change (inject_Z (2 ^ 53)) with (9007199254740992 # 1). change (inject_Z (2 ^ 52)) with (4503599627370496 # 1). generalize (P 2 971). intros q. ring. }
  assert (DB : double (inject_Z (2 ^ 53 - 1) * P 2 971)) by (exists (2 ^ 53 - 1), 971; split; [reflexivity|split; [lia|reflexivity]]).
  pose proof (p_pos 2 970) as P0. pose proof (p_pos 2 e) as PE. destruct C as (M & E0 & K). destruct N as (_ & N & T). split; intros H.
  - assert (X : (inject_Z m * P 2 e <= inject_Z (2 ^ 53 - 1) * P 2 971)%Q). { apply Qle_trans with (inject_Z (2 ^ 53 - 1) * P 2 e)%Q; [apply Qmult_le_compat_r; [rewrite <- Zle_Qle; lia|lra]|]. apply Qmult_le_l; [reflexivity|apply p_mono; exact H]. }
    destruct (Qlt_le_dec v overflow) as [L|L]; [exact L|]. exfalso. pose proof (N _ DT) as A. rewrite E in *. rewrite E2 in *. set (x := (inject_Z m * P 2 e)%Q) in *. set (o := overflow) in *. set (g := P 2 970) in *.
    assert (XO : (x == o - g)%Q /\ (v == o)%Q) by (clear T; clearbody x o g; split; absolute; lra). destruct XO as [XO VO]. destruct (T (o + g)%Q DT) as [k HK]; [lra|rewrite XO, VO; clearbody o g; absolute; lra|].
    assert (AB : (Qabs (o + g - x) == (2 # 1) * g)%Q) by (rewrite XO, Qabs_pos; lra). rewrite AB in HK.
    assert (Q : (inject_Z (2 ^ 54 - 1) * g - g == inject_Z (4 * k) * g)%Q). { change (inject_Z (2 ^ 54 - 1) * g)%Q with o. rewrite <- XO, HK. rewrite !inject_Z_mult. change (inject_Z 4) with (4 # 1). change (inject_Z 2) with (2 # 1). ring. }
    assert (Q2 : (inject_Z (2 ^ 54 - 1 - 1) * g == inject_Z (4 * k) * g)%Q) by (rewrite <- Q; unfold Zminus at 1; rewrite inject_Z_plus; change (inject_Z (- (1))) with (- 1)%Q; ring).
    apply Qmult_inj_r in Q2; [|lra]. unfold Qeq, inject_Z in Q2. cbn [Qnum Qden] in Q2. lia.
  - destruct (Z.le_gt_cases e 971) as [L|L]; [exact L|]. exfalso. assert (M2 : 2 ^ 52 <= m) by lia.
    assert (X : (inject_Z (2 ^ 53) * P 2 971 <= inject_Z m * P 2 e)%Q). { apply Qle_trans with (inject_Z (2 ^ 52) * P 2 e)%Q; [|apply Qmult_le_compat_r; [rewrite <- Zle_Qle; exact M2|lra]]. rewrite <- p2_52. pose proof (p_mono 2 (971 + 53) (e + 52) ltac:(lia)) as Q. rewrite (p_plus 2 971 53), (p_Z 2 53) in Q by lia. lra. }
    pose proof (N _ DB) as A. rewrite E in *. rewrite E2 in *. clear T. set (x := (inject_Z m * P 2 e)%Q) in *. set (o := overflow) in *. set (g := P 2 970) in *. clearbody x o g. absolute; lra.
Qed.
Lemma mk_flt_spec neg v : (0 <= v)%Q ->
  ((v < overflow)%Q -> exists m e c k x, mk_flt neg v = FFin m e (DFin neg c k) /\ (inject_Z m * P 2 e == (if neg then - x else x))%Q /\ nearest_double v x /\ shortest_for x (dec_q false c k)) /\
  ((overflow <= v)%Q -> mk_flt neg v = FInf neg).
Proof.
  intros V. unfold mk_flt. destruct (Z.eqb_spec (Qnum v) 0) as [Z|Z].
  - assert (V0 : (v == 0)%Q) by (unfold Qeq; cbn; lia). split.
    + intros _. exists 0, 0, 0%N, (-1), 0%Q. split; [reflexivity|]. split; [destruct neg; reflexivity|]. split; [eapply nearest_ext; [symmetry; exact V0|reflexivity|apply nearest_self, double_0]|]. eapply shortest_ext; [reflexivity| |exact shortest_0]. reflexivity.
    + intros H. exfalso. rewrite V0 in H. apply Qle_not_lt in H. apply H. unfold overflow. apply Qmult_lt_0_compat; [reflexivity|apply p_pos].
  - assert (V0 : (0 < v)%Q) by (unfold Qlt, Qle in *; cbn in *; lia). destruct (round64_near v V0) as (m & e & R & C & N). rewrite R. pose proof (exponent_bound m e v C N V0) as EB.
    destruct (Z.eqb_spec m 0) as [M|M].
    + subst m. destruct C as (_ & _ & C). assert (e = -1074) by lia. subst e. assert (X0 : (inject_Z 0 * P 2 (-1074) == 0)%Q) by (change (inject_Z 0) with 0%Q; ring). split.
      * intros _. exists 0, 0, 0%N, (-1), 0%Q. split; [reflexivity|]. split; [destruct neg; reflexivity|]. split; [eapply nearest_ext; [reflexivity|exact X0|exact N]|]. eapply shortest_ext; [reflexivity| |exact shortest_0]. reflexivity.
      * intros H. exfalso. apply Qle_not_lt in H. apply H, EB. lia.
    + destruct (Z.ltb_spec 971 e) as [L|L].
      * split; [intros H; exfalso; apply EB in H; lia|reflexivity].
      * split; [intros _|intros H; exfalso; apply Qle_not_lt in H; apply H, EB, L]. assert (MP : 0 < m) by (destruct C; lia). destruct (shortest 16 m e 1) as [c k] eqn:S. destruct (shortest_spec m e C MP c k S) as [CP SF]. destruct (repr_dec_spec neg m e c k CP S) as (c' & k' & RD & W).
        exists (if neg then - m else m), e, c', k', (inject_Z m * P 2 e)%Q. rewrite RD. split; [reflexivity|]. split; [destruct neg; [rewrite inject_Z_opp; ring|reflexivity]|]. split; [exact N|]. eapply shortest_ext; [reflexivity|symmetry; exact W|exact SF].
Qed.
(** the shortest decimal is unique *)
Lemma shortest_unique x w u : shortest_for x w -> shortest_for x u -> (w == u)%Q.
Proof.
  intros (N & n & N0 & D & A & B & T) (N' & n' & N0' & D' & A' & B' & T').
  assert (UP : forall a b v, a <= b -> has_digits a v -> has_digits b v). { intros a b v L (c & k & H & E). exists c, k. split; [|exact E]. destruct (Z.le_gt_cases 0 b) as [G|G]; [|rewrite Z.pow_neg_r in * by lia; lia]. destruct (Z.le_gt_cases 0 a) as [G2|G2]; [|rewrite Z.pow_neg_r in H by lia; lia]. pose proof (Z.pow_le_mono_r 10 a b ltac:(lia) L). lia. }
  assert (n = n'). { destruct (Z.lt_trichotomy n n') as [L|[L|L]]; [exfalso; apply (A' w N); apply (UP n); [lia|exact D]|exact L|exfalso; apply (A u N'); apply (UP n'); [lia|exact D']]. } subst n'.
  pose proof (B u N' D') as L1. pose proof (B' w N D) as L2. destruct (Qeq_dec w u) as [E|NE]; [exact E|]. exfalso.
  destruct (T u N' D') as [a HA]; [intros E; apply NE; symmetry; exact E|lra|]. destruct (T' w N D) as [b HB]; [exact NE|lra|].
  destruct (Qlt_le_dec w u) as [L|L].
  - rewrite (Qabs_pos (u - w)) in HA by lra. rewrite (Qabs_neg (w - u)) in HB by lra. apply (even_odd b a (u - w)); [lra|]. setoid_replace (- (w - u))%Q with (u - w)%Q in HB by ring. lra.
  - assert (~ (w - u == 0)%Q) by (intros E; apply NE; lra). rewrite (Qabs_neg (u - w)) in HA by lra. rewrite (Qabs_pos (w - u)) in HB by lra. apply (even_odd a b (w - u)); [assumption|]. setoid_replace (- (u - w))%Q with (w - u)%Q in HA by ring. lra.
Qed.
(** printing keeps the order *)
Lemma shortest_mono x y w u : shortest_for x w -> shortest_for y u -> (x < y)%Q -> (w < u)%Q.
Proof. intros (A & _) (B & _) L. destruct (Qlt_le_dec w u) as [G|G]; [exact G|]. pose proof (nearest_mono _ _ _ _ B A G). lra. Qed.
