(** * DecRound: what rounding to the context's precision does to a number *)
From Coq Require Import QArith Qabs Qpower Lqa Lia.
From Verif Require Import Base Dec Value DType Types DecFacts.
Open Scope Z_scope.

(** ** Specification *)

(** the numbers a decimal context can represent: at most [prec] digits, exponent between Emin - prec + 1 and Emax - prec + 1 *)
Definition representable (dc : dctx) (q : Q) : Prop :=
  exists n c e, (q == dec_q n c e)%Q /\ Z.of_N c < 10 ^ prec dc /\ emin dc - prec dc + 1 <= e <= emax dc - prec dc + 1.

(** the last digit kept when the magnitude of [q] is cut to the context's digits: [k] units of the last kept place [10 ^ j] is below it and [k + 1] above it,
    where [k] has [prec] digits, or fewer if the last place is the smallest the context has *)
Definition cut (dc : dctx) (q : Q) (k j : Z) : Prop :=
  0 <= k < 10 ^ prec dc /\ (10 ^ (prec dc - 1) <= k \/ j = emin dc - prec dc + 1) /\ (inject_Z k * (10 # 1) ^ j < Qabs q)%Q /\ (Qabs q < inject_Z (k + 1) * (10 # 1) ^ j)%Q.

(** [r] is [q] rounded the way the context's rounding mode says *)
Definition correctly_rounded (dc : dctx) (q r : Q) : Prop :=
  representable dc r /\ (0 <= r * q)%Q /\
  let nearest := forall x, representable dc x -> (Qabs (r - q) <= Qabs (x - q))%Q in
  let tie x := representable dc x /\ ~ (x == r)%Q /\ (Qabs (x - q) == Qabs (r - q))%Q in
  match rmode dc with
  | RHalfEven => nearest /\ (forall x, tie x -> exists k, (r == inject_Z (2 * k) * Qabs (x - r))%Q)
  | RHalfUp => nearest /\ (forall x, tie x -> (Qabs x <= Qabs r)%Q)
  | RHalfDown => nearest /\ (forall x, tie x -> (Qabs r <= Qabs x)%Q)
  | RDown => (Qabs r <= Qabs q)%Q /\ forall x, representable dc x -> (Qabs x <= Qabs q)%Q -> (Qabs x <= Qabs r)%Q
  | RUp => (Qabs q <= Qabs r)%Q /\ forall x, representable dc x -> (Qabs q <= Qabs x)%Q -> (Qabs r <= Qabs x)%Q
  | RCeiling => (q <= r)%Q /\ forall x, representable dc x -> (q <= x)%Q -> (r <= x)%Q
  | RFloor => (r <= q)%Q /\ forall x, representable dc x -> (x <= q)%Q -> (x <= r)%Q
  | R05Up => (representable dc q -> (r == q)%Q) /\ (forall x, representable dc x -> ~ (Qabs q < Qabs x < Qabs r)%Q /\ ~ (Qabs r < Qabs x < Qabs q)%Q)
             /\ (representable dc q \/ exists k j, cut dc q k j /\ (Qabs r == inject_Z (if k mod 5 =? 0 then k + 1 else k) * (10 # 1) ^ j)%Q)
  end.

(** ** Number of digits *)
Lemma ndig_aux_spec : forall f c, (c < 2 ^ N.of_nat f)%N -> c <> 0%N -> 1 <= ndig_aux f c /\ 10 ^ (ndig_aux f c - 1) <= Z.of_N c < 10 ^ ndig_aux f c.
Proof.
  induction f as [|f IH]; intros c B NZ; cbn [ndig_aux].
  - cbn in B. lia.
  - destruct (N.ltb_spec c 10) as [L|L]; [cbn; lia|].
    assert (D : (c / 10 < 2 ^ N.of_nat f)%N). { apply N.div_lt_upper_bound; [lia|]. rewrite Nat2N.inj_succ, N.pow_succ_r' in B. lia. }
    assert (N0 : (c / 10)%N <> 0%N). { intro E. apply N.div_small_iff in E; lia. }
    destruct (IH _ D N0) as [I1 [I2 I3]]. set (k := ndig_aux f (c / 10)) in *. split; [lia|]. rewrite N2Z.inj_div in I2, I3. change (Z.of_N 10) with 10 in *.
    replace (1 + k - 1) with (Z.succ (k - 1)) by lia. rewrite Z.pow_succ_r by lia. replace (1 + k) with (Z.succ k) by lia. rewrite Z.pow_succ_r by lia.
    assert (M := Z.div_mod (Z.of_N c) 10 ltac:(lia)). assert (B2 := Z.mod_pos_bound (Z.of_N c) 10 ltac:(lia)). lia.
Qed.
Lemma ndig_spec : forall c, c <> 0%N -> 1 <= ndig c /\ 10 ^ (ndig c - 1) <= Z.of_N c < 10 ^ ndig c.
Proof. intros c H. unfold ndig. apply ndig_aux_spec; [|exact H]. rewrite N2Nat.id. apply N.size_gt. Qed.
Lemma ndig_le : forall c k, c <> 0%N -> 0 <= k -> (ndig c <= k <-> Z.of_N c < 10 ^ k).
Proof.
  intros c k H K. destruct (ndig_spec c H) as [N1 [L U]]. split; intro I.
  - eapply Z.lt_le_trans; [exact U|]. apply Z.pow_le_mono_r; lia.
  - destruct (Z.le_gt_cases (ndig c) k) as [?|G]; [assumption|]. exfalso. assert (10 ^ k <= 10 ^ (ndig c - 1)) by (apply Z.pow_le_mono_r; lia). lia.
Qed.

Lemma pow10_Z : forall k, 0 <= k -> Z.of_N (pow10 k) = 10 ^ k.
Proof. intros k H. unfold pow10. apply Z2N.id. apply Z.pow_nonneg. lia. Qed.
Lemma q10_mono : forall a b, a <= b -> ((10 # 1) ^ a <= (10 # 1) ^ b)%Q.
Proof.
  intros a b H. replace b with (a + (b - a)) by lia. rewrite q10_plus. assert (P := q10_pos a). assert (G : (1 <= (10 # 1) ^ (b - a))%Q).
  { rewrite q10_Z by lia. change 1%Q with (inject_Z 1). rewrite <- Zle_Qle. assert (X := ten_pow_pos (b - a) ltac:(lia)). lia. }
  rewrite <- (Qmult_1_r ((10 # 1) ^ a)) at 1. apply Qmult_le_l; assumption.
Qed.

(** absolute value of a decimal *)
Lemma dec_abs : forall n c e, (Qabs (dec_q n c e) == inject_Z (Z.of_N c) * (10 # 1) ^ e)%Q.
Proof. intros n c e. rewrite <- dec_q_abs. reflexivity. Qed.

(** ** The two neighbours of a number *)
Section Core.
Variables (dc : dctx) (qq : N) (em : Z).
Hypothesis Hp : 1 <= prec dc.
Hypothesis Hlo : emin dc - prec dc + 1 <= em.
Hypothesis Hq : Z.of_N qq < 10 ^ prec dc.
Hypothesis Hn : em = emin dc - prec dc + 1 \/ 10 ^ (prec dc - 1) <= Z.of_N qq.

Let u := ((10 # 1) ^ em)%Q.
Let a := (inject_Z (Z.of_N qq) * u)%Q.

Lemma gap : forall x, representable dc x -> (Qabs x <= a)%Q \/ (a + u <= Qabs x)%Q.
Proof.
  intros x [n [c [e [E [C R]]]]]. assert (EA : (Qabs x == inject_Z (Z.of_N c) * (10 # 1) ^ e)%Q) by (rewrite E; apply dec_abs). unfold a, u. assert (P := q10_pos em).
  destruct (Z.le_gt_cases em e) as [L|L].
  - assert (X : ((10 # 1) ^ e == inject_Z (10 ^ (e - em)) * (10 # 1) ^ em)%Q). { replace e with ((e - em) + em) at 1 by lia. rewrite q10_plus, q10_Z by lia. reflexivity. }
    rewrite EA, X. rewrite Qmult_assoc, <- inject_Z_mult. set (m := Z.of_N c * 10 ^ (e - em)).
    destruct (Z.le_gt_cases m (Z.of_N qq)) as [G|G]; [left|right].
    + apply Qmult_le_compat_r; [rewrite <- Zle_Qle; exact G|apply Qlt_le_weak; exact P].
    + assert (K : (inject_Z (Z.of_N qq + 1) <= inject_Z m)%Q) by (rewrite <- Zle_Qle; lia). 
      rewrite inject_Z_plus in K. set (t := ((10 # 1) ^ em)%Q) in *. assert (K' : ((inject_Z (Z.of_N qq) + inject_Z 1) * t <= inject_Z m * t)%Q) by (apply Qmult_le_compat_r; [exact K|apply Qlt_le_weak; exact P]).
      change (inject_Z 1) with 1%Q in K'. lra.
  - left. destruct Hn as [->|H1]; [lia|]. rewrite EA.
    apply Qle_trans with (inject_Z (10 ^ prec dc) * (10 # 1) ^ e)%Q; [apply Qmult_le_compat_r; [rewrite <- Zle_Qle; lia|apply Qlt_le_weak; apply q10_pos]|].
    apply Qle_trans with (inject_Z (10 ^ (prec dc - 1)) * (10 # 1) ^ em)%Q; [|apply Qmult_le_compat_r; [rewrite <- Zle_Qle; exact H1|apply Qlt_le_weak; exact P]].
    rewrite <- !q10_Z by lia. rewrite <- !q10_plus. apply q10_mono. lia.
Qed.

(** the chosen neighbour is representable *)
Lemma low_repr : forall n, em <= emax dc - prec dc + 1 -> representable dc (dec_q n qq em).
Proof. intros n H. exists n, qq, em. split; [reflexivity|]. split; [exact Hq|]. split; [exact Hlo|exact H]. Qed.
End Core.

Lemma u_pos : forall em, (0 < (10 # 1) ^ em)%Q.
Proof. apply q10_pos. Qed.

(** is the upper neighbour to be chosen, in terms of the exact magnitude [A] between [a] and [a + u]? *)
Definition away_spec (m : rounding) (neg : bool) (qq : N) (A a u : Q) (away : bool) : Prop :=
  match m with
  | RDown => away = false
  | RUp => away = true <-> (a < A)%Q
  | RHalfEven => away = true <-> (2 * a + u < 2 * A)%Q \/ ((2 * A == 2 * a + u)%Q /\ N.odd qq = true)
  | RHalfUp => away = true <-> (2 * a + u <= 2 * A)%Q
  | RHalfDown => away = true <-> (2 * a + u < 2 * A)%Q
  | RCeiling => away = true <-> (a < A)%Q /\ neg = false
  | RFloor => away = true <-> (a < A)%Q /\ neg = true
  | R05Up => away = true <-> (a < A)%Q /\ (qq mod 10 = 0 \/ qq mod 10 = 5)%N
  end.

Lemma Qabs_diff : forall x y : Q, (Qabs (Qabs x - Qabs y) <= Qabs (x - y))%Q.
Proof. intros x y. apply Qabs_Qle_condition. apply Qabs_case; intro; apply Qabs_case; intro; apply Qabs_case; intro; lra. Qed.

Definition sgnq (neg : bool) (x : Q) : Q := if neg then (- x)%Q else x.

Section Choose.
Variables (dc : dctx) (m : rounding) (neg away : bool) (qq : N) (q r a u : Q).
Hypothesis Hm : rmode dc = m.
Hypothesis Hu : (0 < u)%Q.
Hypothesis Ha : (a == inject_Z (Z.of_N qq) * u)%Q.
Hypothesis Hbr : (a <= Qabs q)%Q /\ (Qabs q < a + u)%Q.
Hypothesis Hsg : (q == sgnq neg (Qabs q))%Q.
Hypothesis Hr : (r == sgnq neg (if away then a + u else a))%Q.
Hypothesis Hrep : representable dc r.
Hypothesis Hlast : exists j, (u == (10 # 1) ^ j)%Q /\ Z.of_N qq < 10 ^ prec dc /\ (10 ^ (prec dc - 1) <= Z.of_N qq \/ j = emin dc - prec dc + 1).
Hypothesis Hgap : forall x, representable dc x -> (Qabs x <= a)%Q \/ (a + u <= Qabs x)%Q.

Lemma a_nonneg : (0 <= a)%Q.
Proof. rewrite Ha. apply Qmult_le_0_compat; [change 0%Q with (inject_Z 0); rewrite <- Zle_Qle; lia|apply Qlt_le_weak; exact Hu]. Qed.

Lemma R_abs : (Qabs r == if away then a + u else a)%Q.
Proof. assert (A := a_nonneg). rewrite Hr. unfold sgnq. destruct neg, away; rewrite ?Qabs_opp; apply Qabs_pos; lra. Qed.
Lemma rq_dist : (Qabs (r - q) == Qabs ((if away then a + u else a) - Qabs q))%Q.
Proof.
  rewrite Hr. rewrite Hsg at 1. unfold sgnq. destruct neg; [|reflexivity]. set (R := if away then (a + u)%Q else a). setoid_replace (- R - - Qabs q)%Q with (- (R - Qabs q))%Q by ring. apply Qabs_opp.
Qed.
Lemma rq_sign : (0 <= r * q)%Q.
Proof.
  assert (A := a_nonneg). rewrite Hr, Hsg. unfold sgnq. assert (P := Qabs_nonneg q). set (R := if away then (a + u)%Q else a). assert (RP : (0 <= R)%Q) by (unfold R; destruct away; lra).
  assert (X : (0 <= R * Qabs q)%Q) by (apply Qmult_le_0_compat; assumption). destruct neg; lra.
Qed.

Lemma nearest_ok : (away = true -> (2 * a + u <= 2 * Qabs q)%Q) -> (away = false -> (2 * Qabs q <= 2 * a + u)%Q) ->
  forall x, representable dc x -> (Qabs (r - q) <= Qabs (x - q))%Q.
Proof.
  intros H1 H2 x X. apply Qle_trans with (Qabs (Qabs x - Qabs q)); [|apply Qabs_diff]. rewrite rq_dist. destruct Hbr as [B1 B2]. assert (G := Hgap x X). clear - H1 H2 B1 B2 G Hu.
  generalize dependent (Qabs q). generalize dependent (Qabs x). intros X G A H1 H2 B1 B2.
  destruct away; [specialize (H1 eq_refl)|specialize (H2 eq_refl)]; destruct G as [G|G]; apply Qabs_case; intro; apply Qabs_case; intro; lra.
Qed.

(** if another representable number is equally near, the two are [a] and [a + u] *)
Lemma tie_ok : (away = true -> (2 * a + u <= 2 * Qabs q)%Q) -> (away = false -> (2 * Qabs q <= 2 * a + u)%Q) ->
  forall x, representable dc x -> ~ (x == r)%Q -> (Qabs (x - q) == Qabs (r - q))%Q ->
  (2 * Qabs q == 2 * a + u)%Q /\ (Qabs x == if away then a else a + u)%Q /\ (Qabs (x - r) == u)%Q.
Proof.
  intros H1 H2 x X NE T. assert (A := a_nonneg). assert (RD := rq_dist). rewrite RD in T. assert (D := Qabs_diff x q). rewrite T in D. destruct Hbr as [B1 B2]. assert (Q0 := Qabs_nonneg q). assert (X0 := Qabs_nonneg x).
  (* same sign *)
  assert (SX : (x == sgnq neg (Qabs x))%Q \/ (x == - sgnq neg (Qabs x))%Q). { unfold sgnq. destruct neg; apply Qabs_case; intro; [right|left|left|right]; ring. }
  set (R := if away then (a + u)%Q else a) in *.
  assert (DXQ : (x == sgnq neg (Qabs x))%Q -> (Qabs (x - q) == Qabs (Qabs x - Qabs q))%Q).
  { intro S. rewrite S at 1. rewrite Hsg at 1. unfold sgnq. destruct neg; [|reflexivity]. setoid_replace (- Qabs x - - Qabs q)%Q with (- (Qabs x - Qabs q))%Q by ring. apply Qabs_opp. }
  assert (DXQ' : (x == - sgnq neg (Qabs x))%Q -> (Qabs (x - q) == Qabs x + Qabs q)%Q).
  { intro S. rewrite S at 1. rewrite Hsg at 1. unfold sgnq. destruct neg; [setoid_replace (- - Qabs x - - Qabs q)%Q with (Qabs x + Qabs q)%Q by ring|setoid_replace (- Qabs x - Qabs q)%Q with (- (Qabs x + Qabs q))%Q by ring; rewrite Qabs_opp]; apply Qabs_pos; lra. }
  assert (same : (x == sgnq neg (Qabs x))%Q).
  { destruct SX as [S|S]; [exact S|]. specialize (DXQ' S). rewrite DXQ' in T.
    assert (XZ : (Qabs x == 0)%Q). { unfold R in T. clear - A H1 H2 B1 B2 T Hu Q0 X0. remember (Qabs q) as Z eqn:EZ. remember (Qabs x) as Y eqn:EY. clear EZ EY. destruct away; [specialize (H1 eq_refl)|specialize (H2 eq_refl)]; revert T; apply Qabs_case; intros; lra. }
    rewrite S at 1. unfold sgnq. destruct neg; rewrite XZ; reflexivity. }
  specialize (DXQ same). rewrite DXQ in T.
  assert (NX : ~ (Qabs x == R)%Q). { intro E. apply NE. rewrite same, Hr. fold R. unfold sgnq. destruct neg; rewrite E; reflexivity. }
  assert (XR : (Qabs (x - r) == Qabs (Qabs x - R))%Q). { rewrite same at 1. rewrite Hr. fold R. unfold sgnq. destruct neg; [|reflexivity]. setoid_replace (- Qabs x - - R)%Q with (- (Qabs x - R))%Q by ring. apply Qabs_opp. }
  rewrite XR. unfold R in *. assert (G := Hgap x X). clear - A H1 H2 B1 B2 T Hu Q0 X0 G NX. remember (Qabs q) as Z eqn:EZ. remember (Qabs x) as Y eqn:EY. clear EZ EY.
  destruct away; [specialize (H1 eq_refl)|specialize (H2 eq_refl)]; destruct G as [G|G]; revert T; apply Qabs_case; intro; apply Qabs_case; intro; intro T;
    try (exfalso; lra); try (exfalso; apply NX; lra); (split; [lra|split; [lra|]]); apply Qabs_case; intro; lra.
Qed.

Hypothesis Haway : away_spec m neg qq (Qabs q) a u away.

Lemma abs_sgn : forall x y : Q, (0 <= x * y)%Q -> (Qabs x == Qabs y)%Q -> (x == y)%Q.
Proof.
  intros x y H E. revert E. apply Qabs_case; intro X; apply Qabs_case; intro Y; intro E; try lra.
  - assert (x == 0)%Q by nra. lra.
  - assert (x == 0)%Q by nra. lra.
Qed.
Lemma choose_rounded : correctly_rounded dc q r.
Proof.
  assert (AWY := Haway). revert AWY. assert (NO := nearest_ok). assert (TO := tie_ok). intro AWY.
  assert (A := a_nonneg). assert (RA := R_abs). assert (SG := rq_sign). clear Haway. assert (Q0 := Qabs_nonneg q). destruct Hbr as [B1 B2]. unfold correctly_rounded. split; [exact Hrep|]. split; [exact SG|]. cbv zeta. rewrite Hm.
  assert (RQ : (q == sgnq neg (Qabs q))%Q /\ (r == sgnq neg (Qabs r))%Q). { split; [exact Hsg|]. rewrite Hr at 1. unfold sgnq. destruct neg; rewrite RA; reflexivity. }
  destruct RQ as [QS RS]. destruct m; cbn [away_spec] in AWY.
  - (* half even *)
    assert (H1 : away = true -> (2 * a + u <= 2 * Qabs q)%Q). { intro E. apply AWY in E. destruct E as [E|[E _]]; lra. }
    assert (H2 : away = false -> (2 * Qabs q <= 2 * a + u)%Q). { intro E. destruct (Qlt_le_dec (2 * a + u) (2 * Qabs q)) as [L|L]; [|lra]. assert (away = true) by (apply AWY; left; exact L). congruence. }
    split; [apply NO; assumption|]. intros x [X [NE T]]. destruct (TO H1 H2 x X NE T) as [T1 [T2 T3]].
    assert (PAR : exists k, (if away then Z.of_N qq + 1 else Z.of_N qq) = 2 * k).
    { destruct away.
      - assert (O : N.odd qq = true) by (destruct (proj1 AWY eq_refl) as [E|[_ E]]; [lra|exact E]). apply N.odd_spec in O as [k ->]. exists (Z.of_N k + 1). lia.
      - destruct (N.odd qq) eqn:O; [assert (false = true) by (apply AWY; right; split; [lra|reflexivity]); discriminate|]. rewrite <- N.negb_even in O. apply negb_false_iff in O. apply N.even_spec in O as [k ->]. exists (Z.of_N k). lia. }
    destruct PAR as [k K]. exists (if neg then - k else k). rewrite T3, Hr.
    assert (V : ((if away then a + u else a) == inject_Z (2 * k) * u)%Q). { rewrite <- K. destruct away; rewrite Ha; [rewrite inject_Z_plus; change (inject_Z 1) with 1%Q; ring|reflexivity]. }
    unfold sgnq. destruct neg; rewrite V; [replace (2 * - k) with (- (2 * k)) by lia; rewrite inject_Z_opp; ring|reflexivity].
  - (* half up *)
    assert (H1 : away = true -> (2 * a + u <= 2 * Qabs q)%Q) by (intro E; apply AWY; exact E).
    assert (H2 : away = false -> (2 * Qabs q <= 2 * a + u)%Q). { intro E. destruct (Qlt_le_dec (2 * a + u) (2 * Qabs q)) as [L|L]; [|lra]. assert (away = true) by (apply AWY; lra). congruence. }
    split; [apply NO; assumption|]. intros x [X [NE T]]. destruct (TO H1 H2 x X NE T) as [T1 [T2 T3]]. rewrite RA, T2. destruct away; [lra|]. assert (false = true) by (apply AWY; lra). discriminate.
  - (* half down *)
    assert (H1 : away = true -> (2 * a + u <= 2 * Qabs q)%Q) by (intro E; apply AWY in E; lra).
    assert (H2 : away = false -> (2 * Qabs q <= 2 * a + u)%Q). { intro E. destruct (Qlt_le_dec (2 * a + u) (2 * Qabs q)) as [L|L]; [|lra]. assert (away = true) by (apply AWY; lra). congruence. }
    split; [apply NO; assumption|]. intros x [X [NE T]]. destruct (TO H1 H2 x X NE T) as [T1 [T2 T3]]. rewrite RA, T2. destruct away; [|lra]. assert (X1 := proj1 AWY eq_refl). lra.
  - (* up *)
    destruct away.
    + split; [lra|]. intros x X L. destruct (Hgap x X) as [G|G]; [|lra]. assert (X1 := proj1 AWY eq_refl). lra.
    + assert (~ (a < Qabs q)%Q) by (intro L; assert (false = true) by (apply AWY; exact L); discriminate). split; [lra|]. intros x X L. lra.
  - (* down *)
    rewrite AWY in RA. split; [lra|]. intros x X L. destruct (Hgap x X) as [G|G]; lra.
  - (* ceiling *)
    destruct away.
    + destruct (proj1 AWY eq_refl) as [X1 X2]. rewrite X2 in *. unfold sgnq in QS, RS. split; [lra|]. intros x X L. destruct (Hgap x X) as [G|G]; [exfalso; assert (Y := Qle_Qabs x); lra|]. revert G. apply Qabs_case; intros; lra.
    + unfold sgnq in QS, RS. destruct neg eqn:EN.
      * split; [lra|]. intros x X L. destruct (Hgap x X) as [G|G]; revert G; apply Qabs_case; intros; lra.
      * assert (~ (a < Qabs q)%Q) by (intro L; assert (false = true) by (apply AWY; auto); discriminate). split; [lra|]. intros x X L. lra.
  - (* floor *)
    destruct away.
    + destruct (proj1 AWY eq_refl) as [X1 X2]. rewrite X2 in *. unfold sgnq in QS, RS. split; [lra|]. intros x X L. destruct (Hgap x X) as [G|G]; revert G; apply Qabs_case; intros; lra.
    + unfold sgnq in QS, RS. destruct neg eqn:EN.
      * assert (~ (a < Qabs q)%Q) by (intro L; assert (false = true) by (apply AWY; auto); discriminate). split; [lra|]. intros x X L. lra.
      * split; [lra|]. intros x X L. destruct (Hgap x X) as [G|G]; revert G; apply Qabs_case; intros; lra.
  - (* 05up *)
    assert (AW1 : away = true -> (a < Qabs q)%Q) by (intro E; apply AWY; exact E).
    split; [|split].
    + intro X. apply abs_sgn; [exact SG|]. destruct (Hgap q X) as [G|G]; [|lra]. destruct away; [specialize (AW1 eq_refl); lra|lra].
    + intros x X. destruct (Hgap x X) as [G|G]; destruct away; try specialize (AW1 eq_refl); split; lra.
    + destruct (Qlt_le_dec a (Qabs q)) as [L|L].
      * right. destruct Hlast as [j [J1 [J2 J3]]]. exists (Z.of_N qq), j. rewrite J1 in Ha, B2.
        assert (M5 : (Z.of_N qq mod 5 =? 0) = away).
        { assert (D := N.div_mod qq 10 ltac:(lia)). assert (MB := N.mod_lt qq 10 ltac:(lia)).
          assert (E5 : Z.of_N qq mod 5 = Z.of_N (qq mod 10) mod 5). { rewrite D at 1. rewrite N2Z.inj_add, N2Z.inj_mul. change (Z.of_N 10) with (2 * 5). replace (2 * 5 * Z.of_N (qq / 10)) with (2 * Z.of_N (qq / 10) * 5) by ring. rewrite Z.add_comm, Z.mod_add by lia. reflexivity. }
          rewrite E5. destruct away.
          - destruct (proj1 AWY eq_refl) as [_ [-> | ->]]; reflexivity.
          - apply Z.eqb_neq. intro Z0. assert (C : (qq mod 10 = 0 \/ qq mod 10 = 5)%N).
            { clear - Z0 MB. set (t := (qq mod 10)%N) in *. assert (D := Z.div_mod (Z.of_N t) 5 ltac:(lia)). rewrite Z0 in D. assert (0 <= Z.of_N t / 5) by (apply Z.div_pos; lia). lia. }
            assert (false = true) by (apply AWY; split; [exact L|exact C]). discriminate. }
        split.
        -- split; [lia|]. split; [exact J3|]. rewrite inject_Z_plus. change (inject_Z 1) with 1%Q. split; [lra|]. rewrite Ha in B2. lra.
        -- rewrite M5, RA. destruct away; rewrite Ha, ?J1; [rewrite inject_Z_plus; change (inject_Z 1) with 1%Q; ring|reflexivity].
      * left. assert (AF : away = false) by (destruct away; [specialize (AW1 eq_refl); lra|reflexivity]). rewrite AF in RA.
        assert (RE : (r == q)%Q) by (apply abs_sgn; [exact SG|lra]). destruct Hrep as [n' [c' [e' [E' H']]]]. exists n', c', e'. split; [rewrite <- RE; exact E'|exact H'].
Qed.
End Choose.

(** rounding a representable number changes nothing *)
Lemma rounded_exact : forall dc q r, correctly_rounded dc q r -> representable dc q -> (r == q)%Q.
Proof.
  intros dc q r [Rr [SG H]] X. cbv zeta in H.
  assert (N : (Qabs (r - q) <= Qabs (q - q))%Q -> (r == q)%Q). { intro L. setoid_replace (q - q)%Q with 0%Q in L by ring. change (Qabs 0) with 0%Q in L. revert L. apply Qabs_case; intros; lra. }
  destruct (rmode dc).
  - apply N. apply H. exact X.
  - apply N. apply H. exact X.
  - apply N. apply H. exact X.
  - destruct H as [H1 H2]. apply abs_sgn; [exact SG|]. specialize (H2 q X ltac:(apply Qle_refl)). lra.
  - destruct H as [H1 H2]. apply abs_sgn; [exact SG|]. specialize (H2 q X ltac:(apply Qle_refl)). lra.
  - destruct H as [H1 H2]. specialize (H2 q X ltac:(apply Qle_refl)). lra.
  - destruct H as [H1 H2]. specialize (H2 q X ltac:(apply Qle_refl)). lra.
  - apply H. exact X.
Qed.
Lemma exact_rounded : forall dc q r, representable dc r -> (r == q)%Q -> correctly_rounded dc q r.
Proof.
  intros dc q r X E. split; [exact X|]. split; [rewrite E; nra|]. cbv zeta.
  assert (Z : (Qabs (r - q) == 0)%Q) by (rewrite E; setoid_replace (q - q)%Q with 0%Q by ring; reflexivity).
  assert (T : forall x, (Qabs (x - q) == Qabs (r - q))%Q -> (x == r)%Q). { intros x. rewrite Z, E. apply Qabs_case; intros; lra. }
  assert (N : forall x, representable dc x -> (Qabs (r - q) <= Qabs (x - q))%Q) by (intros x _; rewrite Z; apply Qabs_nonneg).
  assert (EA : (Qabs r == Qabs q)%Q) by (rewrite E; reflexivity).
  destruct (rmode dc); (split; [exact N|intros x [_ [NE K]]; exfalso; apply NE; apply T; exact K]) || (split; [lra|intros; lra]) || (split; [intros _; exact E|split; [intros x _; split; lra|left; destruct X as [n' [c' [e' [E' H']]]]; exists n', c', e'; split; [rewrite <- E; exact E'|exact H']]]).
Qed.

(** ** _fix *)

(** the magnitude [A] is on the same side of every multiple of 5 units in the last place as [c] *)
Definition same_side (c : N) (e : Z) (A : Q) : Prop := forall k, let m := 5 * k in
  (m < Z.of_N c <-> (inject_Z m * (10 # 1) ^ e < A)%Q) /\ (Z.of_N c < m <-> (A < inject_Z m * (10 # 1) ^ e)%Q).

Lemma exact_side : forall c e A, (A == inject_Z (Z.of_N c) * (10 # 1) ^ e)%Q -> same_side c e A.
Proof.
  intros c e A E k m. rewrite E. assert (P := q10_pos e). split; rewrite (Qmult_lt_r _ _ _ P), <- Zlt_Qlt; reflexivity.
Qed.

Theorem dfix_rounded : forall dc n c e q d, dctx_ok dc -> (q == sgnq n (Qabs q))%Q ->
  ((Qabs q == inject_Z (Z.of_N c) * (10 # 1) ^ e)%Q \/ (same_side c e (Qabs q) /\ 10 ^ prec dc <= Z.of_N c)) ->
  dfix dc n c e = Ok d -> exists c' e', d = DFin n c' e' /\ correctly_rounded dc q (dec_q n c' e').
Proof.
  intros dc n c e q d [Hp He] Hs HA H. unfold dfix in H. destruct (N.eqb_spec c 0) as [->|NZ].
  - inversion H; subst d. eexists _, _. split; [reflexivity|]. destruct HA as [E|[_ L]]; [|assert (P := ten_pow_pos (prec dc) ltac:(lia)); cbn in L; lia].
    assert (Q0 : (q == 0)%Q). { cbn in E. rewrite Hs. unfold sgnq. destruct n; rewrite E; ring. }
    assert (Z0 : forall x, (dec_q n 0 x == 0)%Q) by (intro x; unfold dec_q, signed; destruct n; cbn; ring). apply exact_rounded; [|rewrite Z0, Q0; reflexivity].
    exists n, 0%N, (emin dc - prec dc + 1). split; [rewrite !Z0; reflexivity|]. split; [apply ten_pow_pos; lia|]. lia.
  - destruct (ndig_spec c NZ) as [D1 [D2 D3]]. unfold etop, etiny in H. set (em0 := ndig c + e - prec dc) in *. destruct (Z.ltb_spec (emax dc - prec dc + 1) em0) as [|OV]; [discriminate|].
    set (em := Z.max em0 (emin dc - prec dc + 1)) in *. destruct (Z.ltb_spec e em) as [L|L].
    + (* rounding *)
      assert (SS : same_side c e (Qabs q)) by (destruct HA as [E|[E _]]; [apply exact_side; exact E|exact E]).
      set (k := em - e) in *. assert (K1 : 1 <= k) by lia. set (p := pow10 k) in *. assert (PZ : Z.of_N p = 10 ^ k) by (apply pow10_Z; lia).
      assert (P5 : 10 ^ k = 5 * (2 * 10 ^ (k - 1))). { replace k with (Z.succ (k - 1)) at 1 by lia. rewrite Z.pow_succ_r by lia. lia. }
      assert (PP : 0 < 10 ^ k) by (apply ten_pow_pos; lia).
      set (qq := (c / p)%N) in *. set (rr := (c mod p)%N) in *.
      assert (CE : Z.of_N c = Z.of_N qq * 10 ^ k + Z.of_N rr). { rewrite <- PZ. assert (X := N.div_mod c p ltac:(lia)). unfold qq, rr. lia. }
      assert (RB : 0 <= Z.of_N rr < 10 ^ k). { assert (X := N.mod_lt c p ltac:(lia)). unfold rr. lia. }
      assert (Hq : Z.of_N qq < 10 ^ prec dc). { assert (X : Z.of_N c < 10 ^ prec dc * 10 ^ k). { rewrite <- Z.pow_add_r by lia. eapply Z.lt_le_trans; [exact D3|]. apply Z.pow_le_mono_r; lia. } nia. }
      assert (Hn : em = emin dc - prec dc + 1 \/ 10 ^ (prec dc - 1) <= Z.of_N qq).
      { destruct (Z.max_spec em0 (emin dc - prec dc + 1)) as [[_ M]|[_ M]]; fold em in M; [left; exact M|right].
        assert (X : 10 ^ (prec dc - 1) * 10 ^ k <= Z.of_N c). { rewrite <- Z.pow_add_r by lia. replace (prec dc - 1 + k) with (ndig c - 1) by lia. exact D2. } nia. }
      set (u := ((10 # 1) ^ em)%Q). assert (UP : (0 < u)%Q) by (apply q10_pos).
      assert (UE : (u == inject_Z (10 ^ k) * (10 # 1) ^ e)%Q). { unfold u. replace em with (k + e) by lia. rewrite q10_plus, q10_Z by lia. reflexivity. }
      set (a := (inject_Z (Z.of_N qq) * u)%Q).
      assert (AE : (a == inject_Z (5 * (Z.of_N qq * (2 * 10 ^ (k - 1)))) * (10 # 1) ^ e)%Q). { unfold a. rewrite UE, Qmult_assoc, <- inject_Z_mult. replace (Z.of_N qq * 10 ^ k) with (5 * (Z.of_N qq * (2 * 10 ^ (k - 1)))) by (rewrite P5; ring). reflexivity. }
      assert (BE : (a + u == inject_Z (5 * ((Z.of_N qq + 1) * (2 * 10 ^ (k - 1)))) * (10 # 1) ^ e)%Q).
      { unfold a. rewrite UE. rewrite Qmult_assoc, <- inject_Z_mult, <- Qmult_plus_distr_l, <- inject_Z_plus. replace (Z.of_N qq * 10 ^ k + 10 ^ k) with (5 * ((Z.of_N qq + 1) * (2 * 10 ^ (k - 1)))) by (rewrite P5; ring). reflexivity. }
      assert (ME : (2 * a + u == 2 * (inject_Z (5 * ((2 * Z.of_N qq + 1) * 10 ^ (k - 1))) * (10 # 1) ^ e))%Q).
      { unfold a. rewrite UE. replace (5 * ((2 * Z.of_N qq + 1) * 10 ^ (k - 1))) with (Z.of_N qq * 10 ^ k + 5 * 10 ^ (k - 1)) by (rewrite P5; ring). rewrite inject_Z_plus, inject_Z_mult. rewrite P5. rewrite !inject_Z_mult. change (inject_Z 2) with (2 # 1)%Q. change (inject_Z 5) with (5 # 1)%Q. ring. }
      assert (SA := SS (Z.of_N qq * (2 * 10 ^ (k - 1)))). assert (SB := SS ((Z.of_N qq + 1) * (2 * 10 ^ (k - 1)))). assert (SM := SS ((2 * Z.of_N qq + 1) * 10 ^ (k - 1))). cbv zeta in SA, SB, SM.
      rewrite <- AE in SA. rewrite <- BE in SB. destruct SA as [SA1 SA2]. destruct SB as [SB1 SB2]. destruct SM as [SM1 SM2].
      set (M := (inject_Z (5 * ((2 * Z.of_N qq + 1) * 10 ^ (k - 1))) * (10 # 1) ^ e)%Q) in *.
      assert (B1 : (a <= Qabs q)%Q). { apply Qnot_lt_le. intro X. apply SA2 in X. lia. }
      assert (B2 : (Qabs q < a + u)%Q). { apply SB2. lia. }
      set (aw := round_away (rmode dc) n qq rr p) in *.
      assert (AW : away_spec (rmode dc) n qq (Qabs q) a u aw).
      { assert (LTA : (a < Qabs q)%Q <-> rr <> 0%N). { rewrite <- SA1. lia. }
        assert (LTM : (2 * a + u < 2 * Qabs q)%Q <-> 10 ^ k < 2 * Z.of_N rr). { rewrite ME. split; intro X; [assert (Y : (M < Qabs q)%Q) by lra; apply SM1 in Y; lia|assert (Y : (M < Qabs q)%Q) by (apply SM1; lia); lra]. }
        assert (GTM : (2 * Qabs q < 2 * a + u)%Q <-> 2 * Z.of_N rr < 10 ^ k). { rewrite ME. split; intro X; [assert (Y : (Qabs q < M)%Q) by lra; apply SM2 in Y; lia|assert (Y : (Qabs q < M)%Q) by (apply SM2; lia); lra]. }
        assert (EQM : (2 * Qabs q == 2 * a + u)%Q <-> 2 * Z.of_N rr = 10 ^ k).
        { split; intro X.
          - destruct (Z.lt_trichotomy (2 * Z.of_N rr) (10 ^ k)) as [Y|[Y|Y]]; [apply GTM in Y; lra|exact Y|apply LTM in Y; lra].
          - destruct (Q_dec (2 * Qabs q) (2 * a + u)) as [[Y|Y]|Y]; [apply GTM in Y; lia|apply LTM in Y; lia|exact Y]. }
        unfold aw, round_away. destruct (rmode dc); cbn [away_spec].
        - rewrite LTM, EQM, orb_true_iff, andb_true_iff, N.ltb_lt, N.eqb_eq. split; (intros [X|[X Y]]; [left; lia|right; split; [lia|exact Y]]).
        - rewrite N.leb_le. split; intro X.
          + apply Qnot_lt_le. intro Y. apply GTM in Y. lia.
          + destruct (Z.le_gt_cases (10 ^ k) (2 * Z.of_N rr)) as [Y|Y]; [lia|]. apply GTM in Y. lra.
        - rewrite LTM, N.ltb_lt. lia.
        - rewrite LTA, negb_true_iff, N.eqb_neq. reflexivity.
        - reflexivity.
        - rewrite LTA, andb_true_iff, !negb_true_iff, N.eqb_neq. reflexivity.
        - rewrite LTA, andb_true_iff, negb_true_iff, N.eqb_neq. reflexivity.
        - rewrite LTA, andb_true_iff, negb_true_iff, N.eqb_neq, orb_true_iff, !N.eqb_eq. reflexivity. }
      assert (FIN : forall c' e', d = DFin n c' e' -> representable dc (dec_q n c' e') -> (inject_Z (Z.of_N c') * (10 # 1) ^ e' == if aw then a + u else a)%Q -> exists c' e', d = DFin n c' e' /\ correctly_rounded dc q (dec_q n c' e')).
      { intros c' e' E R V. exists c', e'. split; [exact E|]. apply (choose_rounded dc (rmode dc) n aw qq q _ a u eq_refl UP ltac:(reflexivity) (conj B1 B2) Hs); [|exact R| | |exact AW].
        - unfold dec_q, signed, sgnq. destruct n; rewrite <- V; [rewrite inject_Z_opp; ring|reflexivity].
        - exists em. split; [reflexivity|]. split; [exact Hq|]. destruct Hn as [X|X]; [right; exact X|left; exact X].
        - intros x X. unfold a, u. apply (gap dc qq em ltac:(first [exact Hp|lia]) ltac:(first [exact Hn|lia]) ltac:(first [exact Hn|lia|assumption]) x X). }
      destruct aw.
      * cbn [andb] in H. destruct (Z.ltb_spec (prec dc) (ndig (qq + 1))) as [G|G].
        -- destruct (Z.ltb_spec (emax dc - prec dc + 1) (em + 1)) as [|OV2]; [discriminate|]. injection H as H.
           assert (QE : Z.of_N qq + 1 = 10 ^ prec dc). { destruct (Z.le_gt_cases (10 ^ prec dc) (Z.of_N (qq + 1))) as [Y|Y]; [lia|]. apply ndig_le in Y; lia. }
           assert (DE : Z.of_N ((qq + 1) / 10) = 10 ^ (prec dc - 1)). { rewrite N2Z.inj_div. change (Z.of_N 10) with 10. replace (Z.of_N (qq + 1)) with (10 ^ (prec dc - 1) * 10) by (replace (prec dc) with (Z.succ (prec dc - 1)) in QE by lia; rewrite Z.pow_succ_r in QE by lia; lia). apply Z.div_mul. lia. }
           apply (FIN ((qq + 1) / 10)%N (em + 1)); [symmetry; exact H| |].
           ++ exists n, ((qq + 1) / 10)%N, (em + 1). split; [reflexivity|]. split; [rewrite DE; apply Z.pow_lt_mono_r; lia|lia].
           ++ rewrite DE. rewrite q10_plus. change ((10 # 1) ^ 1)%Q with (inject_Z 10). fold u. assert (X : (inject_Z (10 ^ (prec dc - 1)) * inject_Z 10 == inject_Z (Z.of_N qq) + 1)%Q).
              { rewrite <- inject_Z_mult. change 1%Q with (inject_Z 1). rewrite <- inject_Z_plus. rewrite QE. replace (10 ^ prec dc) with (10 ^ (prec dc - 1) * 10); [reflexivity|]. replace (prec dc) with (Z.succ (prec dc - 1)) at 2 by lia. rewrite Z.pow_succ_r by lia. lia. }
              unfold a. setoid_replace (inject_Z (10 ^ (prec dc - 1)) * (u * inject_Z 10))%Q with ((inject_Z (10 ^ (prec dc - 1)) * inject_Z 10) * u)%Q by ring. rewrite X. ring.
        -- destruct (Z.ltb_spec (emax dc - prec dc + 1) em) as [|OV2]; [discriminate|]. injection H as H. apply (FIN (qq + 1)%N em); [symmetry; exact H| |].
           ++ exists n, (qq + 1)%N, em. split; [reflexivity|]. split; [apply ndig_le; lia|lia].
           ++ fold u. unfold a. rewrite N2Z.inj_add, inject_Z_plus. change (inject_Z (Z.of_N 1)) with 1%Q. ring.
      * cbn [andb] in H. destruct (Z.ltb_spec (emax dc - prec dc + 1) em) as [|OV2]; [discriminate|]. injection H as H. apply (FIN qq em); [symmetry; exact H| |reflexivity].
        exists n, qq, em. split; [reflexivity|]. split; [exact Hq|lia].
    + (* already fits *)
      inversion H; subst d. exists c, e. split; [reflexivity|]. assert (ND : ndig c <= prec dc) by lia.
      assert (E : (Qabs q == inject_Z (Z.of_N c) * (10 # 1) ^ e)%Q). { destruct HA as [E|[_ X]]; [exact E|]. exfalso. apply (ndig_le c (prec dc) NZ) in ND; lia. }
      assert (V : (dec_q n c e == q)%Q). { rewrite Hs. unfold sgnq, dec_q, signed. destruct n; rewrite E; [rewrite inject_Z_opp; ring|reflexivity]. }
      apply exact_rounded; [|exact V]. destruct (Z.le_gt_cases e (emax dc - prec dc + 1)) as [Y|Y].
      * exists n, c, e. split; [reflexivity|]. split; [apply ndig_le; lia|lia].
      * exists n, (c * pow10 (e - (emax dc - prec dc + 1)))%N, (emax dc - prec dc + 1). set (t := emax dc - prec dc + 1) in *. split; [|split].
        -- unfold dec_q. replace e with ((e - t) + t) at 1 by lia. rewrite q10_plus, q10_Z by lia. unfold signed. rewrite N2Z.inj_mul, pow10_Z by lia.
           destruct n; [rewrite inject_Z_opp, Z.mul_comm, inject_Z_opp, inject_Z_mult|rewrite inject_Z_mult]; ring.
        -- rewrite N2Z.inj_mul, pow10_Z by lia. eapply Z.lt_le_trans; [apply Z.mul_lt_mono_pos_r; [apply ten_pow_pos; lia|exact D3]|]. rewrite <- Z.pow_add_r by lia. apply Z.pow_le_mono_r; lia.
        -- unfold t. lia.
Qed.

(** a representable number is never an overflow *)
Theorem dfix_fits : forall dc n c e, dctx_ok dc -> representable dc (dec_q n c e) -> exists d, dfix dc n c e = Ok d.
Proof.
  intros dc n c e [Hp He] [n' [c' [e' [E [C R]]]]]. unfold dfix. destruct (N.eqb_spec c 0) as [->|NZ]; [eauto|]. destruct (ndig_spec c NZ) as [D1 [D2 D3]]. unfold etop, etiny.
  assert (EA : (inject_Z (Z.of_N c) * (10 # 1) ^ e == inject_Z (Z.of_N c') * (10 # 1) ^ e')%Q). { rewrite <- (dec_abs n c e), E, dec_abs. reflexivity. }
  assert (LE : ndig c + e - prec dc <= e').
  { assert (X : ((10 # 1) ^ (ndig c - 1 + e) < (10 # 1) ^ (prec dc + e'))%Q).
    { rewrite !q10_plus, (q10_Z (ndig c - 1)), (q10_Z (prec dc)) by lia. apply Qle_lt_trans with (inject_Z (Z.of_N c) * (10 # 1) ^ e)%Q; [apply Qmult_le_compat_r; [rewrite <- Zle_Qle; exact D2|apply Qlt_le_weak; apply q10_pos]|].
      rewrite EA. apply Qmult_lt_r; [apply q10_pos|]. rewrite <- Zlt_Qlt. exact C. }
    destruct (Z.le_gt_cases (ndig c + e - prec dc) e') as [Y|Y]; [exact Y|]. exfalso. assert (Z := q10_mono (prec dc + e') (ndig c - 1 + e) ltac:(lia)). lra. }
  set (em0 := ndig c + e - prec dc) in *. destruct (Z.ltb_spec (emax dc - prec dc + 1) em0) as [|OV]; [lia|]. set (em := Z.max em0 (emin dc - prec dc + 1)) in *.
  destruct (Z.ltb_spec e em) as [L|L]; [|eauto].
  set (k := em - e) in *. assert (EM : em <= e') by lia.
  assert (CE : Z.of_N c = Z.of_N c' * 10 ^ (e' - e)).
  { assert (X : (inject_Z (Z.of_N c) * (10 # 1) ^ e == inject_Z (Z.of_N c' * 10 ^ (e' - e)) * (10 # 1) ^ e)%Q). { rewrite EA. replace e' with ((e' - e) + e) at 1 by lia. rewrite q10_plus, q10_Z, inject_Z_mult by lia. ring. }
    apply Qmult_inj_r in X; [apply (proj1 (inject_Z_injective _ _)) in X; exact X|]. assert (P := q10_pos e). intro Z. rewrite Z in P. discriminate P. }
  assert (R0 : (c mod pow10 k = 0)%N). { apply N2Z.inj. rewrite N2Z.inj_mod, pow10_Z by lia. rewrite CE. replace (e' - e) with ((e' - em) + k) by lia. rewrite Z.pow_add_r by lia. rewrite Z.mul_assoc. apply Z.mod_mul. assert (P := ten_pow_pos k ltac:(lia)). lia. }
  rewrite R0. assert (P0 : (0 < pow10 k)%N). { assert (P := ten_pow_pos k ltac:(lia)). rewrite <- pow10_Z in P by lia. lia. }
  assert (AW : round_away (rmode dc) n (c / pow10 k) 0 (pow10 k) = false). { unfold round_away. destruct (rmode dc); try reflexivity; rewrite ?N.mul_0_r.
    - destruct (N.ltb_spec (pow10 k) 0); [lia|]. destruct (N.eqb_spec 0 (pow10 k)); [lia|reflexivity].
    - destruct (N.leb_spec (pow10 k) 0); [lia|reflexivity].
    - destruct (N.ltb_spec (pow10 k) 0); [lia|reflexivity]. }
  rewrite AW. cbn [andb]. destruct (Z.ltb_spec (emax dc - prec dc + 1) em); [lia|eauto].
Qed.

(** the largest number of the context *)
Definition largest (dc : dctx) : Q := (inject_Z (10 ^ prec dc - 1) * (10 # 1) ^ (emax dc - prec dc + 1))%Q.

Lemma representable_largest : forall dc x, representable dc x -> (Qabs x <= largest dc)%Q.
Proof.
  intros dc x [n [c [e [E [C R]]]]]. rewrite E, dec_abs. unfold largest. apply Qle_trans with (inject_Z (10 ^ prec dc - 1) * (10 # 1) ^ e)%Q.
  - apply Qmult_le_compat_r; [rewrite <- Zle_Qle; lia|apply Qlt_le_weak, q10_pos].
  - rewrite !(Qmult_comm (inject_Z _)). apply Qmult_le_compat_r; [apply q10_mono; lia|]. change 0%Q with (inject_Z 0). rewrite <- Zle_Qle. lia.
Qed.

(** overflow happens only above the largest number *)
Theorem dfix_over : forall dc n c e q x, dctx_ok dc ->
  ((Qabs q == inject_Z (Z.of_N c) * (10 # 1) ^ e)%Q \/ (same_side c e (Qabs q) /\ 10 ^ prec dc <= Z.of_N c)) ->
  dfix dc n c e = Err x -> x = PDecOverflow /\ (largest dc < Qabs q)%Q.
Proof.
  intros dc n c e q x [Hp He] HA H. unfold dfix in H. destruct (N.eqb_spec c 0) as [->|NZ]; [discriminate|].
  destruct (ndig_spec c NZ) as [D1 [D2 D3]]. unfold etop, etiny in H. set (em0 := ndig c + e - prec dc) in *. set (t := emax dc - prec dc + 1) in *.
  assert (SS : same_side c e (Qabs q)) by (destruct HA as [E|[E _]]; [apply exact_side; exact E|exact E]).
  destruct (Z.ltb_spec t em0) as [OV|OV].
  - split; [congruence|].
    assert (G : (inject_Z (10 ^ (ndig c - 1)) * (10 # 1) ^ e <= Qabs q)%Q).
    { destruct HA as [E|[_ B]]; [rewrite E; apply Qmult_le_compat_r; [rewrite <- Zle_Qle; exact D2|apply Qlt_le_weak, q10_pos]|].
      assert (2 <= ndig c). { destruct (Z.le_gt_cases 2 (ndig c)); [assumption|]. assert (ND : ndig c <= prec dc) by lia. apply (ndig_le c (prec dc) NZ) in ND; lia. }
      assert (M : 10 ^ (ndig c - 1) = 5 * (2 * 10 ^ (ndig c - 2))). { replace (ndig c - 1) with (Z.succ (ndig c - 2)) by lia. rewrite Z.pow_succ_r by lia. lia. }
      rewrite M. apply Qnot_lt_le. intro X. apply (proj2 (SS (2 * 10 ^ (ndig c - 2)))) in X. lia. }
    eapply Qlt_le_trans; [|exact G]. unfold largest. fold t. rewrite <- (q10_Z (ndig c - 1)) by lia. rewrite <- q10_plus.
    apply Qlt_le_trans with ((10 # 1) ^ (prec dc + t))%Q; [rewrite (q10_plus (prec dc) t), (q10_Z (prec dc)) by lia; apply Qmult_lt_r; [apply q10_pos|rewrite <- Zlt_Qlt; lia]|]. apply q10_mono. lia.
  - set (em := Z.max em0 (emin dc - prec dc + 1)) in *. destruct (Z.ltb_spec e em) as [L|L]; [|discriminate].
    set (k := em - e) in *. set (p := pow10 k) in *. assert (PZ : Z.of_N p = 10 ^ k) by (apply pow10_Z; lia). assert (PP : 0 < 10 ^ k) by (apply ten_pow_pos; lia).
    assert (P5 : 10 ^ k = 5 * (2 * 10 ^ (k - 1))). { replace k with (Z.succ (k - 1)) at 1 by lia. rewrite Z.pow_succ_r by lia. lia. }
    cbv zeta in H. set (qq := (c / p)%N) in *. set (rr := (c mod p)%N) in *.
    assert (CE : Z.of_N c = Z.of_N qq * 10 ^ k + Z.of_N rr). { rewrite <- PZ. assert (X := N.div_mod c p ltac:(lia)). unfold qq, rr. lia. }
    assert (RB : 0 <= Z.of_N rr < 10 ^ k). { assert (X := N.mod_lt c p ltac:(lia)). unfold rr. lia. }
    assert (Hq : Z.of_N qq < 10 ^ prec dc). { assert (X : Z.of_N c < 10 ^ prec dc * 10 ^ k). { rewrite <- Z.pow_add_r by lia. eapply Z.lt_le_trans; [exact D3|]. apply Z.pow_le_mono_r; lia. } nia. }
    destruct (round_away (rmode dc) n qq rr p) eqn:AW; cbn [andb] in H.
    + destruct (Z.ltb_spec (prec dc) (ndig (qq + 1))) as [G|G].
      * destruct (Z.ltb_spec t (em + 1)) as [O2|O2]; [|discriminate]. split; [congruence|].
        assert (QE : Z.of_N qq + 1 = 10 ^ prec dc). { destruct (Z.le_gt_cases (10 ^ prec dc) (Z.of_N (qq + 1))) as [Y|Y]; [lia|]. apply ndig_le in Y; lia. }
        assert (RN : rr <> 0%N). { intro R0. rewrite R0 in AW. unfold round_away in AW. destruct (rmode dc); try discriminate; rewrite ?N.mul_0_r in AW;
          repeat match type of AW with context[(?a <? ?b)%N] => destruct (N.ltb_spec a b); [lia|] | context[(?a <=? ?b)%N] => destruct (N.leb_spec a b); [lia|] | context[(?a =? ?b)%N] => destruct (N.eqb_spec a b); [lia|] end; discriminate. }
        assert (ET : em = t) by lia. unfold largest. fold t. rewrite <- ET. replace (10 ^ prec dc - 1) with (Z.of_N qq) by lia.
        assert (X : (inject_Z (5 * (Z.of_N qq * (2 * 10 ^ (k - 1)))) * (10 # 1) ^ e < Qabs q)%Q) by (apply (proj1 (SS (Z.of_N qq * (2 * 10 ^ (k - 1))))); lia).
        replace (5 * (Z.of_N qq * (2 * 10 ^ (k - 1)))) with (Z.of_N qq * 10 ^ k) in X by lia. rewrite inject_Z_mult in X. replace em with (k + e) by lia. rewrite q10_plus, q10_Z by lia. rewrite Qmult_assoc. exact X.
      * destruct (Z.ltb_spec t em) as [O2|O2]; [|discriminate]. exfalso. lia.
    + destruct (Z.ltb_spec t em) as [O2|O2]; [|discriminate]. exfalso. lia.
Qed.
