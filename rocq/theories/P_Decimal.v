(** * Theorems about decimal arithmetic (C22) *)
From Coq Require Import QArith Qabs Qpower Lqa Lia String.
From Verif Require Import Base Dec Value DType Types Ops DecFacts DecRound CoerceFacts Prog Ast Eval Build Engine Demo P_Ops.
Open Scope list_scope.
Open Scope Z_scope.

(** ** Specification vocabulary *)

(** the decimal [d] is the finite number [q] *)
Definition number (d : dec) (q : Q) : Prop := exists n c e, d = DFin n c e /\ (dec_q n c e == q)%Q.

Lemma dec_q_sgn : forall n c e, (dec_q n c e == sgnq n (inject_Z (Z.of_N c) * (10 # 1) ^ e))%Q.
Proof. intros [] c e; unfold dec_q, signed, sgnq; [rewrite inject_Z_opp; ring|reflexivity]. Qed.
Lemma sgn_abs : forall n c e q, (q == dec_q n c e)%Q -> (q == sgnq n (Qabs q))%Q.
Proof. intros n c e q E. rewrite E at 1. rewrite dec_q_sgn. unfold sgnq. assert (X : (Qabs q == inject_Z (Z.of_N c) * (10 # 1) ^ e)%Q) by (rewrite E; apply dec_abs). destruct n; rewrite X; reflexivity. Qed.

(** ** Nearest means within half a unit in the last place *)
Theorem C22_half_ulp : forall dc q r, correctly_rounded dc q r -> rmode dc = RHalfEven \/ rmode dc = RHalfUp \/ rmode dc = RHalfDown ->
  forall x y, representable dc x -> representable dc y -> (x <= q <= y)%Q -> (2 * Qabs (r - q) <= y - x)%Q.
Proof.
  intros dc q r [_ [_ H]] M x y X Y [L U].
  assert (N : forall x, representable dc x -> (Qabs (r - q) <= Qabs (x - q))%Q). { cbv zeta in H. destruct M as [M|[M|M]]; rewrite M in H; apply H. }
  assert (N1 := N x X). assert (N2 := N y Y). rewrite (Qabs_neg (x - q)) in N1 by lra. rewrite (Qabs_pos (y - q)) in N2 by lra. lra.
Qed.

(** ** Rounding to the context at the level of decimals *)
Lemma dfix_number : forall dc n c e q, dctx_ok dc -> (q == dec_q n c e)%Q ->
  match dfix dc n c e with
  | Ok d => exists s, number d s /\ correctly_rounded dc q s
  | Err x => x = PDecOverflow /\ (largest dc < Qabs q)%Q
  end.
Proof.
  intros dc n c e q K E. assert (A : (Qabs q == inject_Z (Z.of_N c) * (10 # 1) ^ e)%Q) by (rewrite E; apply dec_abs). destruct (dfix dc n c e) as [d|x] eqn:H.
  - destruct (dfix_rounded dc n c e q d K) as [c' [e' [-> R]]]; [apply (sgn_abs n c e q E)|left; exact A|exact H|]. exists (dec_q n c' e'). split; [exists n, c', e'; split; reflexivity|exact R].
  - apply (dfix_over dc n c e q x K); [left; exact A|exact H].
Qed.

Lemma signed_0 : forall b, signed b 0 = 0.
Proof. intros []; reflexivity. Qed.
Lemma q0 : forall x : Q, (inject_Z 0 * x == 0)%Q.
Proof. intro x. change (inject_Z 0) with 0%Q. ring. Qed.
Lemma inject_Z_sub : forall a b, (inject_Z (a - b) == inject_Z a - inject_Z b)%Q.
Proof. intros. unfold Z.sub. rewrite inject_Z_plus, inject_Z_opp. reflexivity. Qed.
Lemma signed_abs : forall z, signed (z <? 0) (Z.abs_N z) = z.
Proof. intro z. unfold signed. destruct (Z.ltb_spec z 0); rewrite N2Z.inj_abs_N; lia. Qed.
Lemma align : forall n c e e0, e0 <= e -> (dec_q n c e == inject_Z (signed n c * 10 ^ (e - e0)) * (10 # 1) ^ e0)%Q.
Proof. intros. unfold dec_q. replace e with ((e - e0) + e0) at 1 by lia. rewrite q10_plus, q10_Z, inject_Z_mult by lia. ring. Qed.

(** [Decimal.__add__] adds the numbers and rounds once *)
Lemma dadd_fix : forall dc x y p r, number x p -> number y r -> exists n c e, dadd dc x y = dfix dc n c e /\ (p + r == dec_q n c e)%Q.
Proof.
  intros dc x y p r [n1 [c1 [e1 [-> P]]]] [n2 [c2 [e2 [-> R]]]]. cbn [dadd]. set (e := Z.min e1 e2). cbv zeta. set (z := signed n1 c1 * 10 ^ (e1 - e) + signed n2 c2 * 10 ^ (e2 - e)).
  assert (S : (p + r == inject_Z z * (10 # 1) ^ e)%Q). { rewrite <- P, <- R. rewrite (align n1 c1 e1 e), (align n2 c2 e2 e) by (unfold e; lia). unfold z. rewrite inject_Z_plus. ring. }
  destruct (Z.eqb_spec z 0) as [Z|Z].
  - eexists _, 0%N, e. split; [reflexivity|]. rewrite S, Z. unfold dec_q. rewrite signed_0. reflexivity.
  - exists (z <? 0), (Z.abs_N z), e. split; [reflexivity|]. unfold dec_q. rewrite signed_abs. exact S.
Qed.
Lemma number_negate : forall y r, number y r -> number (dnegate y) (- r).
Proof. intros y r [n [c [e [-> R]]]]. exists (negb n), c, e. split; [reflexivity|]. rewrite <- R. unfold dec_q, signed. destruct n; cbn [negb]; rewrite ?inject_Z_opp; ring. Qed.
Lemma dsub_fix : forall dc x y p r, number x p -> number y r -> exists n c e, dsub dc x y = dfix dc n c e /\ (p - r == dec_q n c e)%Q.
Proof. intros dc x y p r P R. apply (dadd_fix dc x (dnegate y) p (- r) P (number_negate y r R)). Qed.
Lemma dmul_fix : forall dc x y p r, number x p -> number y r -> exists n c e, dmul dc x y = dfix dc n c e /\ (p * r == dec_q n c e)%Q.
Proof.
  intros dc x y p r [n1 [c1 [e1 [-> P]]]] [n2 [c2 [e2 [-> R]]]]. cbn [dmul]. eexists _, _, _. split; [reflexivity|]. rewrite <- P, <- R. unfold dec_q. rewrite q10_plus.
  assert (S : signed (xorb n1 n2) (c1 * c2) = signed n1 c1 * signed n2 c2) by (unfold signed; destruct n1, n2; cbn [xorb]; lia). rewrite S, inject_Z_mult. ring.
Qed.

(** division *)
Lemma strip_zeros_q : forall f c e i n, let '(c', e') := strip_zeros f c e i in (dec_q n c' e' == dec_q n c e)%Q.
Proof.
  induction f as [|f IH]; intros c e i n; cbn [strip_zeros]; [reflexivity|]. destruct (e <? i); cbn [andb]; [|reflexivity]. destruct (N.eqb_spec (c mod 10) 0) as [M|M]; [|reflexivity].
  specialize (IH (c / 10)%N (e + 1) i n). destruct (strip_zeros f (c / 10)%N (e + 1) i) as [c' e']. rewrite IH. unfold dec_q. rewrite q10_plus. change ((10 # 1) ^ 1)%Q with (inject_Z 10).
  assert (C : c = (10 * (c / 10))%N) by (assert (X := N.div_mod c 10 ltac:(lia)); lia). assert (S : signed n c = signed n (c / 10) * 10) by (rewrite C at 1; unfold signed; destruct n; lia).
  rewrite S, inject_Z_mult. ring.
Qed.

Lemma dtruediv_rounded : forall dc x y p r, dctx_ok dc -> number x p -> number y r -> ~ (r == 0)%Q ->
  match dtruediv dc x y with
  | Ok d => exists s, number d s /\ correctly_rounded dc (p / r) s
  | Err x => x = PDecOverflow /\ (largest dc < Qabs (p / r))%Q
  end.
Proof.
  intros dc x y p r K [n1 [c1 [e1 [-> P]]]] [n2 [c2 [e2 [-> R]]]] NZ. cbn [dtruediv].
  assert (C2 : c2 <> 0%N). { intros ->. apply NZ. rewrite <- R. unfold dec_q. rewrite signed_0. apply q0. }
  destruct (N.eqb_spec c2 0) as [|_]; [contradiction|].
  assert (SQ : (p / r == sgnq (xorb n1 n2) (inject_Z (Z.of_N c1) / inject_Z (Z.of_N c2) * (10 # 1) ^ (e1 - e2)))%Q).
  { rewrite <- P, <- R. rewrite !dec_q_sgn. assert (X2 : ~ (inject_Z (Z.of_N c2) == 0)%Q). { change 0%Q with (inject_Z 0). rewrite inject_Z_injective. lia. }
    assert (X3 := q10_pos e2). assert (X3' : ~ ((10 # 1) ^ e2 == 0)%Q) by lra. assert (X4 : ((10 # 1) ^ (e1 - e2) * (10 # 1) ^ e2 == (10 # 1) ^ e1)%Q) by (rewrite <- q10_plus; replace (e1 - e2 + e2) with e1 by lia; reflexivity).
    unfold sgnq. destruct n1, n2; cbn [xorb]; rewrite <- X4; field; auto. }
  destruct (N.eqb_spec c1 0) as [->|C1].
  - apply (dfix_number dc (xorb n1 n2) 0 (e1 - e2) (p / r) K). rewrite SQ, dec_q_sgn. unfold sgnq, Qdiv. change (inject_Z (Z.of_N 0)) with 0%Q. destruct (xorb n1 n2); ring.
  - destruct K as [K1 K2]. assert (K : dctx_ok dc) by (split; assumption).
    destruct (ndig_spec c1 C1) as [A1 [A2 A3]]. destruct (ndig_spec c2 C2) as [B1 [B2 B3]]. set (shift := ndig c2 - ndig c1 + prec dc + 1) in *.
    set (num := if 0 <=? shift then (c1 * pow10 shift)%N else c1) in *. set (den := if 0 <=? shift then c2 else (c2 * pow10 (- shift))%N) in *. set (e := e1 - e2 - shift) in *.
    assert (DP : (0 < den)%N). { unfold den. destruct (0 <=? shift) eqn:S; [lia|]. apply Z.leb_gt in S. assert (X := pow10_Z (- shift) ltac:(lia)). assert (Y := ten_pow_pos (- shift) ltac:(lia)). nia. }
    assert (V : (inject_Z (Z.of_N c1) / inject_Z (Z.of_N c2) * (10 # 1) ^ (e1 - e2) == inject_Z (Z.of_N num) / inject_Z (Z.of_N den) * (10 # 1) ^ e)%Q).
    { assert (X2 : ~ (inject_Z (Z.of_N c2) == 0)%Q) by (change 0%Q with (inject_Z 0); rewrite inject_Z_injective; lia).
      assert (TE : ((10 # 1) ^ (e1 - e2) == (10 # 1) ^ e * (10 # 1) ^ shift)%Q) by (rewrite <- q10_plus; replace (e + shift) with (e1 - e2) by (unfold e; lia); reflexivity). rewrite TE.
      unfold num, den. destruct (0 <=? shift) eqn:S.
      - apply Z.leb_le in S. rewrite N2Z.inj_mul, pow10_Z, inject_Z_mult, <- q10_Z by lia. field. exact X2.
      - apply Z.leb_gt in S. rewrite N2Z.inj_mul, pow10_Z, inject_Z_mult, <- q10_Z by lia. assert (X := q10_neg shift). assert (X4 := q10_pos (- shift)).
        setoid_replace ((10 # 1) ^ shift)%Q with (1 / (10 # 1) ^ (- shift))%Q; [field; split; [lra|exact X2]|]. rewrite <- X. field. lra. }
    assert (QB : Z.of_N den * 10 ^ prec dc <= Z.of_N num).
    { unfold num, den. destruct (0 <=? shift) eqn:S.
      - apply Z.leb_le in S. rewrite N2Z.inj_mul, pow10_Z by lia. assert (X : 10 ^ ndig c2 * 10 ^ prec dc = 10 ^ (ndig c1 - 1) * 10 ^ shift) by (rewrite <- !Z.pow_add_r by lia; f_equal; lia).
        assert (P1 := ten_pow_pos (prec dc) ltac:(lia)). assert (P2 := ten_pow_pos shift ltac:(lia)). nia.
      - apply Z.leb_gt in S. rewrite N2Z.inj_mul, pow10_Z by lia. assert (X : 10 ^ ndig c2 * 10 ^ (- shift) * 10 ^ prec dc = 10 ^ (ndig c1 - 1)) by (rewrite <- !Z.pow_add_r by lia; f_equal; lia).
        assert (P1 := ten_pow_pos (prec dc) ltac:(lia)). assert (P2 := ten_pow_pos (- shift) ltac:(lia)). nia. }
    assert (DM := N.div_mod num den ltac:(lia)). assert (ML := N.mod_lt num den ltac:(lia)). set (qn := (num / den)%N) in *. set (rn := (num mod den)%N) in *.
    assert (QL : 10 ^ prec dc <= Z.of_N qn) by nia.
    assert (DZ : (0 < inject_Z (Z.of_N den))%Q) by (change 0%Q with (inject_Z 0); rewrite <- Zlt_Qlt; lia).
    assert (EP := q10_pos e).
    set (A := (inject_Z (Z.of_N num) / inject_Z (Z.of_N den) * (10 # 1) ^ e)%Q) in *.
    assert (A0 : (0 <= A)%Q). { unfold A, Qdiv. apply Qmult_le_0_compat; [|lra]. apply Qmult_le_0_compat; [change 0%Q with (inject_Z 0); rewrite <- Zle_Qle; lia|]. apply Qlt_le_weak, Qinv_lt_0_compat. exact DZ. }
    assert (SQ' : (p / r == sgnq (xorb n1 n2) A)%Q) by (rewrite SQ; unfold sgnq; destruct (xorb n1 n2); rewrite V; reflexivity). clear SQ. rename SQ' into SQ. assert (AB : (Qabs (p / r) == A)%Q). { rewrite SQ. unfold sgnq. destruct (xorb n1 n2); rewrite ?Qabs_opp; apply Qabs_pos; exact A0. }
    destruct (N.eqb_spec rn 0) as [RZ|RZ].
    + assert (ST := strip_zeros_q (Z.to_nat (e1 - e2 - e)) qn e (e1 - e2) (xorb n1 n2)). destruct (strip_zeros _ _ _ _) as [c' e']. apply (dfix_number dc (xorb n1 n2) c' e' (p / r) K).
      rewrite ST, SQ, dec_q_sgn. assert (AE : (A == inject_Z (Z.of_N qn) * (10 # 1) ^ e)%Q). { unfold A. rewrite DM, RZ, N.add_0_r, N2Z.inj_mul, inject_Z_mult. field. lra. } unfold sgnq. destruct (xorb n1 n2); rewrite AE; reflexivity.
    + set (cc := if (qn mod 5 =? 0)%N then (qn + 1)%N else qn) in *.
      assert (LT : forall m, (inject_Z m * (10 # 1) ^ e < A)%Q <-> m <= Z.of_N qn).
      { intro m. unfold A. rewrite (Qmult_lt_r _ _ _ EP). split; intro L.
        - assert (X : (inject_Z m * inject_Z (Z.of_N den) < inject_Z (Z.of_N num))%Q). { apply (Qmult_lt_r _ _ _ DZ) in L. unfold Qdiv in L. rewrite <- Qmult_assoc, (Qmult_comm (/ _)), Qmult_inv_r, Qmult_1_r in L by lra. exact L. }
          rewrite <- inject_Z_mult, <- Zlt_Qlt in X. nia.
        - apply (Qmult_lt_r _ _ _ DZ). unfold Qdiv. rewrite <- Qmult_assoc, (Qmult_comm (/ _)), Qmult_inv_r, Qmult_1_r by lra. rewrite <- inject_Z_mult, <- Zlt_Qlt. nia. }
      assert (GT : forall m, (A < inject_Z m * (10 # 1) ^ e)%Q <-> Z.of_N qn < m).
      { intro m. unfold A. rewrite (Qmult_lt_r _ _ _ EP). split; intro L.
        - assert (X : (inject_Z (Z.of_N num) < inject_Z m * inject_Z (Z.of_N den))%Q). { apply (Qmult_lt_r _ _ _ DZ) in L. unfold Qdiv in L. rewrite <- Qmult_assoc, (Qmult_comm (/ _)), Qmult_inv_r, Qmult_1_r in L by lra. exact L. }
          rewrite <- inject_Z_mult, <- Zlt_Qlt in X. nia.
        - apply (Qmult_lt_r _ _ _ DZ). unfold Qdiv. rewrite <- Qmult_assoc, (Qmult_comm (/ _)), Qmult_inv_r, Qmult_1_r by lra. rewrite <- inject_Z_mult, <- Zlt_Qlt. nia. }
      assert (SS : same_side cc e (Qabs (p / r))).
      { intros k m. rewrite AB, LT, GT. unfold cc, m. destruct (N.eqb_spec (qn mod 5) 0) as [M|M]; assert (X := N.div_mod qn 5 ltac:(lia)); assert (Y := N.mod_lt qn 5 ltac:(lia)); set (t := (qn / 5)%N) in *; set (v := (qn mod 5)%N) in *; clearbody t v qn; clear - X Y M; split; split; intro; lia. }
      assert (CB : 10 ^ prec dc <= Z.of_N cc) by (unfold cc; destruct (_ =? _)%N; lia).
      destruct (dfix dc (xorb n1 n2) cc e) as [d|x] eqn:H.
      * destruct (dfix_rounded dc (xorb n1 n2) cc e (p / r) d K) as [c' [e' [-> RR]]]; [rewrite SQ at 1; unfold sgnq; destruct (xorb n1 n2); rewrite AB; reflexivity|right; split; assumption|exact H|].
        exists (dec_q (xorb n1 n2) c' e'). split; [eexists _, _, _; split; reflexivity|exact RR].
      * apply (dfix_over dc (xorb n1 n2) cc e (p / r) x K); [right; split; assumption|exact H].
Qed.

(** integer quotient and remainder *)
Lemma ddivide_spec : forall dc n1 c1 e1 n2 c2 e2 qn rn e, c2 <> 0%N -> ddivide dc n1 c1 e1 n2 c2 e2 = Some (qn, rn, e) ->
  (inject_Z (Z.of_N c1) * (10 # 1) ^ e1 == inject_Z (Z.of_N qn) * (inject_Z (Z.of_N c2) * (10 # 1) ^ e2) + inject_Z (Z.of_N rn) * (10 # 1) ^ e)%Q /\
  (inject_Z (Z.of_N rn) * (10 # 1) ^ e < inject_Z (Z.of_N c2) * (10 # 1) ^ e2)%Q /\ Z.of_N qn < 10 ^ Z.max 0 (prec dc).
Proof.
  intros dc n1 c1 e1 n2 c2 e2 qn rn e C2 H. unfold ddivide in H. assert (P1 := q10_pos e1). assert (P2 := q10_pos e2).
  assert (B0 := ten_pow_pos (Z.max 0 (prec dc)) ltac:(lia)).
  assert (Y2 : (0 < inject_Z (Z.of_N c2) * (10 # 1) ^ e2)%Q). { apply Qmult_lt_0_compat; [change 0%Q with (inject_Z 0); rewrite <- Zlt_Qlt; lia|exact P2]. }
  assert (AL : forall (c : N) e' i, i <= e' -> (inject_Z (Z.of_N (c * pow10 (e' - i))) * (10 # 1) ^ i == inject_Z (Z.of_N c) * (10 # 1) ^ e')%Q).
  { intros c e' i L. rewrite N2Z.inj_mul, pow10_Z, inject_Z_mult, <- q10_Z by lia. replace e' with ((e' - i) + i) at 2 by lia. rewrite q10_plus. ring. }
  destruct (N.eqb_spec c1 0) as [->|C1].
  - injection H as <- <- <-. change (inject_Z (Z.of_N 0)) with 0%Q. split; [ring|]. split; [setoid_replace (0 * (10 # 1) ^ Z.min e1 e2)%Q with 0%Q by ring; exact Y2|exact B0].
  - destruct (Z.leb_spec (adjusted c1 e1 - adjusted c2 e2) (-2)) as [L|L].
    + injection H as <- <- <-. rewrite (AL c1 e1 (Z.min e1 e2)) by lia. change (inject_Z (Z.of_N 0)) with 0%Q. split; [ring|]. split; [|exact B0].
      unfold adjusted in L. destruct (ndig_spec c1 C1) as [_ [_ A3]]. destruct (ndig_spec c2 C2) as [B1 [B2 _]].
      apply Qlt_trans with ((10 # 1) ^ (ndig c1 + e1))%Q.
      * rewrite q10_plus. apply Qmult_lt_r; [exact P1|]. destruct (ndig_spec c1 C1) as [A1 _]. rewrite q10_Z by lia. rewrite <- Zlt_Qlt. exact A3.
      * apply Qlt_le_trans with ((10 # 1) ^ (ndig c2 - 1 + e2))%Q.
        -- apply Qlt_le_trans with ((10 # 1) ^ (ndig c1 + e1) * inject_Z 10)%Q; [assert (X := q10_pos (ndig c1 + e1)); change (inject_Z 10) with (10 # 1)%Q; lra|].
           change (inject_Z 10) with ((10 # 1) ^ 1)%Q. rewrite <- q10_plus. apply q10_mono. lia.
        -- rewrite q10_plus. apply Qmult_le_compat_r; [|lra]. rewrite q10_Z by lia. rewrite <- Zle_Qle. exact B2.
    + destruct (_ <=? prec dc); [|discriminate]. cbv zeta in H. set (i := Z.min e1 e2) in *. set (i1 := (c1 * pow10 (e1 - i))%N) in *. set (i2 := (c2 * pow10 (e2 - i))%N) in *.
      destruct (N.ltb_spec (i1 / i2) (pow10 (prec dc))) as [QB|]; [|discriminate]. injection H as <- <- <-.
      assert (I2 : (0 < i2)%N). { unfold i2. assert (X := pow10_Z (e2 - i) ltac:(unfold i; lia)). assert (Y := ten_pow_pos (e2 - i) ltac:(unfold i; lia)). nia. }
      assert (DM := N.div_mod i1 i2 ltac:(lia)). assert (ML := N.mod_lt i1 i2 ltac:(lia)).
      rewrite <- (AL c1 e1 i), <- (AL c2 e2 i) by (unfold i; lia). fold i1 i2. assert (PI := q10_pos i). split; [|split].
      * rewrite DM at 1. rewrite N2Z.inj_add, N2Z.inj_mul, inject_Z_plus, inject_Z_mult. ring.
      * apply Qmult_lt_r; [exact PI|]. rewrite <- Zlt_Qlt. lia.
      * destruct (Z.le_gt_cases 0 (prec dc)) as [G|G]; [rewrite Z.max_r by lia; rewrite <- pow10_Z by lia; apply N2Z.inj_lt; exact QB|].
        exfalso. unfold pow10 in QB. rewrite Z.pow_neg_r in QB by lia. apply N.nlt_0_r in QB. exact QB.
Qed.

Lemma ddivide_none : forall dc n1 c1 e1 n2 c2 e2, dctx_ok dc -> c2 <> 0%N -> ddivide dc n1 c1 e1 n2 c2 e2 = None ->
  (inject_Z (10 ^ prec dc) * (inject_Z (Z.of_N c2) * (10 # 1) ^ e2) <= inject_Z (Z.of_N c1) * (10 # 1) ^ e1)%Q.
Proof.
  intros dc n1 c1 e1 n2 c2 e2 [K1 K2] C2 H. unfold ddivide in H. assert (P1 := q10_pos e1). assert (P2 := q10_pos e2). destruct (N.eqb_spec c1 0) as [|C1]; [discriminate|].
  destruct (Z.leb_spec (adjusted c1 e1 - adjusted c2 e2) (-2)) as [|L]; [discriminate|]. destruct (Z.leb_spec (adjusted c1 e1 - adjusted c2 e2) (prec dc)) as [L2|L2].
  - cbv zeta in H. set (i := Z.min e1 e2) in *. destruct (N.ltb_spec (c1 * pow10 (e1 - i) / (c2 * pow10 (e2 - i))) (pow10 (prec dc))) as [|QB]; [discriminate|].
    assert (AL : forall (c : N) e', i <= e' -> (inject_Z (Z.of_N c) * (10 # 1) ^ e' == inject_Z (Z.of_N (c * pow10 (e' - i))) * (10 # 1) ^ i)%Q).
    { intros c e' G. rewrite N2Z.inj_mul, pow10_Z, inject_Z_mult, <- q10_Z by lia. replace e' with ((e' - i) + i) at 1 by lia. rewrite q10_plus. ring. }
    rewrite (AL c1 e1), (AL c2 e2) by (unfold i; lia). set (i1 := (c1 * pow10 (e1 - i))%N) in *. set (i2 := (c2 * pow10 (e2 - i))%N) in *.
    assert (I2 : (0 < i2)%N). { unfold i2. assert (X := pow10_Z (e2 - i) ltac:(unfold i; lia)). assert (Y := ten_pow_pos (e2 - i) ltac:(unfold i; lia)). nia. }
    rewrite Qmult_assoc, <- inject_Z_mult. apply Qmult_le_compat_r; [|apply Qlt_le_weak, q10_pos]. rewrite <- Zle_Qle. assert (DM := N.div_mod i1 i2 ltac:(lia)). rewrite <- pow10_Z by lia. rewrite <- N2Z.inj_mul. apply N2Z.inj_le. set (t := (i1 / i2)%N) in *. set (v := pow10 (prec dc)) in *. set (o := (i1 mod i2)%N) in *. clearbody t v o i1 i2. nia.
  - unfold adjusted in L2. destruct (ndig_spec c1 C1) as [A1 [A2 A3]]. destruct (ndig_spec c2 C2) as [B1 [B2 B3]].
    apply Qle_trans with ((10 # 1) ^ (prec dc + (ndig c2 + e2)))%Q.
    + rewrite (q10_plus (prec dc)), (q10_Z (prec dc)) by lia. rewrite !(Qmult_comm (inject_Z (10 ^ prec dc))). apply Qmult_le_compat_r; [|change 0%Q with (inject_Z 0); rewrite <- Zle_Qle; lia].
      rewrite q10_plus, (q10_Z (ndig c2)) by lia. apply Qmult_le_compat_r; [rewrite <- Zle_Qle; lia|lra].
    + apply Qle_trans with ((10 # 1) ^ (ndig c1 - 1 + e1))%Q; [apply q10_mono; lia|]. rewrite q10_plus, (q10_Z (ndig c1 - 1)) by lia. apply Qmult_le_compat_r; [rewrite <- Zle_Qle; exact A2|lra].
Qed.

Lemma quotient_of_zero : forall p r k, (p == 0)%Q -> (Qabs (p - inject_Z k * r) < Qabs r)%Q -> k = 0.
Proof.
  intros p r k Z L. destruct (Z.eq_dec k 0) as [|N]; [assumption|]. exfalso. rewrite Z in L. setoid_replace (0 - inject_Z k * r)%Q with (- (inject_Z k * r))%Q in L by ring. rewrite Qabs_opp, Qabs_Qmult in L.
  assert (A : (1 <= Qabs (inject_Z k))%Q). { change (Qabs (inject_Z k)) with (inject_Z (Z.abs k)). change 1%Q with (inject_Z 1). rewrite <- Zle_Qle. lia. }
  assert (B := Qabs_nonneg r). assert (X : (1 * Qabs r <= Qabs (inject_Z k) * Qabs r)%Q) by (apply Qmult_le_compat_r; assumption). lra.
Qed.

(** the remainder of two representable numbers is representable *)
Lemma remainder_representable : forall dc p r k, representable dc p -> representable dc r -> (Qabs (p - inject_Z k * r) < Qabs r)%Q -> (0 <= (p - inject_Z k * r) * p)%Q -> (0 <= inject_Z k * r * p)%Q -> representable dc (p - inject_Z k * r).
Proof.
  intros dc p r k [n1 [c1 [e1 [P [C1 R1]]]]] [n2 [c2 [e2 [R [C2 R2]]]]] L S1 S2. set (i := Z.min e1 e2).
  assert (E : (p - inject_Z k * r == inject_Z (signed n1 c1 * 10 ^ (e1 - i) - k * (signed n2 c2 * 10 ^ (e2 - i))) * (10 # 1) ^ i)%Q).
  { rewrite P, R, (align n1 c1 e1 i), (align n2 c2 e2 i) by (unfold i; lia). rewrite inject_Z_sub, (inject_Z_mult k). ring. }
  set (z := signed n1 c1 * 10 ^ (e1 - i) - k * (signed n2 c2 * 10 ^ (e2 - i))) in *.
  assert (AZ : (Qabs (p - inject_Z k * r) == inject_Z (Z.abs z) * (10 # 1) ^ i)%Q). { rewrite E, Qabs_Qmult. rewrite (Qabs_pos ((10 # 1) ^ i)) by (apply Qlt_le_weak, q10_pos). reflexivity. }
  exists (z <? 0), (Z.abs_N z), i. split; [unfold dec_q; rewrite signed_abs; exact E|]. split; [|unfold i; lia]. rewrite N2Z.inj_abs_N.
  assert (LP : (Qabs (p - inject_Z k * r) <= Qabs p)%Q). { destruct (Q_dec p 0) as [PC|PC]; [|assert (Z := quotient_of_zero p r k PC L); subst k; setoid_replace (p - inject_Z 0 * r)%Q with p by (change (inject_Z 0) with 0%Q; ring); apply Qle_refl].
    set (m := (inject_Z k * r)%Q) in *. clearbody m. clear - S1 S2 PC. destruct PC as [PC|PC]; apply Qabs_case; intro; apply Qabs_case; intro; nra. }
  destruct (Z.min_spec e1 e2) as [[_ M]|[_ M]]; fold i in M.
  - rewrite AZ, P, dec_abs, M in LP. apply Qmult_le_r in LP; [|apply q10_pos]. rewrite <- Zle_Qle in LP. lia.
  - rewrite AZ, R, dec_abs, M in L. apply Qmult_lt_r in L; [|apply q10_pos]. rewrite <- Zlt_Qlt in L. lia.
Qed.

Section C22.
Context (Orc : Oracle) (C : ctx) (thing : value) (w : world).
Notation yields := (P_Ops.yields C thing w). Notation fails := (P_Ops.fails C thing w).

(** Evaluating [e] in state [q0] computes the number [q] rounded once to the precision in force: the result is [q] correctly rounded;
    only a number beyond the largest one of the context raises, and then [err]. *)
Definition rounds_to (q0 : st) (e : expr) (q : Q) (err : exn) (q2 : st) : Prop :=
  (exists z s, yields q0 e (VDec z) q2 /\ number z s /\ correctly_rounded (s_dc q2) q s) \/
  (fails q0 e err q2 /\ (largest (s_dc q2) < Qabs q)%Q).

(** so a representable result is computed exactly, without error *)
Theorem C22_exact : forall q0 e q err q2, rounds_to q0 e q err q2 -> representable (s_dc q2) q -> exists z, yields q0 e (VDec z) q2 /\ number z q.
Proof.
  intros q0 e q err q2 [[z [s [Y [N R]]]]|[_ L]] X; [|apply representable_largest in X; lra].
  exists z. split; [exact Y|]. assert (E := rounded_exact _ _ _ R X). destruct N as [n [c [ex [-> N]]]]. exists n, c, ex. split; [reflexivity|]. rewrite N. exact E.
Qed.

Lemma rounds_run : forall q0 e q q2 n c ex f, dctx_ok (s_dc q2) -> (q == dec_q n c ex)%Q -> run w (eval C thing e) q0 = (match dfix (s_dc q2) n c ex with Ok d => Ok (VDec d) | Err x => Err (f x) end, q2) ->
  rounds_to q0 e q (f PDecOverflow) q2.
Proof.
  intros q0 e q q2 n c ex f K E H. assert (A := dfix_number (s_dc q2) n c ex q K E). unfold rounds_to, P_Ops.yields, P_Ops.fails. rewrite H. destruct (dfix (s_dc q2) n c ex) as [d|x].
  - left. destruct A as [s [N R]]. exists d, s. auto.
  - right. destruct A as [-> L]. auto.
Qed.

(** a + b on finite numbers is the exact sum rounded once *)
Theorem C22_add : forall a b q x y q1 q2 p r, yields q a (VDec x) q1 -> yields q1 b (VDec y) q2 -> number x p -> number y r -> dctx_ok (s_dc q2) ->
  rounds_to q (EBin BAdd a b) (p + r) PDecOverflow q2.
Proof.
  intros a b q x y q1 q2 p r Ha Hb P R K. destruct (dadd_fix (s_dc q2) x y p r P R) as [n [c [e [D E]]]]. apply (rounds_run q _ _ q2 n c e (fun x => x) K E).
  unfold P_Ops.yields in *. evbin Ha. evnext Hb. cbn [pbind pthen act run step_op]. unfold op_add. cbn [is_bytes is_str orb is_numeric andb as_dec]. unfold rdec, rmap. rewrite D. destruct (dfix _ _ _ _); reflexivity.
Qed.
(** the sign of a sum that is zero: that of both terms if they agree, else minus only when rounding towards minus infinity *)
Theorem C22_zero_sum : forall a b q n1 c1 e1 n2 c2 e2 q1 q2, yields q a (VDec (DFin n1 c1 e1)) q1 -> yields q1 b (VDec (DFin n2 c2 e2)) q2 -> (dec_q n1 c1 e1 + dec_q n2 c2 e2 == 0)%Q ->
  exists n e, yields q (EBin BAdd a b) (VDec (DFin n 0 e)) q2 /\
    (n1 = n2 -> n = n1) /\ (n1 <> n2 -> (n = true <-> rmode (s_dc q2) = RFloor)).
Proof.
  intros a b q n1 c1 e1 n2 c2 e2 q1 q2 Ha Hb Z.
  assert (S0 : signed n1 c1 * 10 ^ (e1 - Z.min e1 e2) + signed n2 c2 * 10 ^ (e2 - Z.min e1 e2) = 0).
  { rewrite (align n1 c1 e1 (Z.min e1 e2)), (align n2 c2 e2 (Z.min e1 e2)) in Z by lia. rewrite <- Qmult_plus_distr_l, <- inject_Z_plus in Z. apply Qmult_integral in Z as [Z|Z]; [|assert (P := q10_pos (Z.min e1 e2)); rewrite Z in P; discriminate P].
    change 0%Q with (inject_Z 0) in Z. apply (proj1 (inject_Z_injective _ _)) in Z. exact Z. }
  assert (D : exists n e, dadd (s_dc q2) (DFin n1 c1 e1) (DFin n2 c2 e2) = Ok (DFin n 0 e) /\ (n1 = n2 -> n = n1) /\ (n1 <> n2 -> (n = true <-> rmode (s_dc q2) = RFloor))).
  { unfold dadd. cbv zeta. rewrite S0. change (0 =? 0) with true. cbv iota. unfold dfix. change (0 =? 0)%N with true. cbv iota. eexists _, _. split; [reflexivity|].
    assert (FL : is_floor (rmode (s_dc q2)) = true <-> rmode (s_dc q2) = RFloor) by (destruct (rmode (s_dc q2)); cbn; split; congruence).
    assert (C0 : n1 = n2 -> c1 = 0%N /\ c2 = 0%N).
    { intros <-. assert (P1 := ten_pow_pos (e1 - Z.min e1 e2) ltac:(lia)). assert (P2 := ten_pow_pos (e2 - Z.min e1 e2) ltac:(lia)). unfold signed in S0. destruct n1; split; nia. }
    split; intro NE.
    - destruct (C0 NE) as [-> ->]. subst n2. cbn [N.eqb andb]. rewrite Bool.eqb_reflx. destruct n1, (is_floor (rmode (s_dc q2))); reflexivity.
    - assert (EB : Bool.eqb n1 n2 = false) by (destruct n1, n2; try reflexivity; congruence). assert (AB : n1 && n2 = false) by (destruct n1, n2; try reflexivity; congruence). rewrite EB, AB. cbn [negb orb]. rewrite andb_true_r. destruct ((c1 =? 0)%N && (c2 =? 0)%N); exact FL. }
  destruct D as [n [e [D P]]]. exists n, e. split; [|exact P]. unfold P_Ops.yields in *. evbin Ha. evnext Hb. cbn [pbind pthen act run step_op]. unfold op_add. cbn [is_bytes is_str orb is_numeric andb as_dec]. unfold rdec, rmap. rewrite D. reflexivity.
Qed.
(** a - b on finite numbers is the exact difference rounded once *)
Theorem C22_sub : forall a b q x y q1 q2 p r, yields q a (VDec x) q1 -> yields q1 b (VDec y) q2 -> number x p -> number y r -> dctx_ok (s_dc q2) ->
  rounds_to q (EBin BSub a b) (p - r) PDecOverflow q2.
Proof.
  intros a b q x y q1 q2 p r Ha Hb P R K. destruct (dsub_fix (s_dc q2) x y p r P R) as [n [c [e [D E]]]]. apply (rounds_run q _ _ q2 n c e (fun x => x) K E).
  unfold P_Ops.yields in *. evbin Ha. evnext Hb. cbn [pbind pthen act run step_op]. unfold op_sub. cbn [is_numeric andb as_dec]. unfold rdec, rmap. rewrite D. destruct (dfix _ _ _ _); reflexivity.
Qed.
(** a * b on finite numbers is the exact product rounded once *)
Theorem C22_mul : forall a b q x y q1 q2 p r, yields q a (VDec x) q1 -> yields q1 b (VDec y) q2 -> number x p -> number y r -> dctx_ok (s_dc q2) ->
  rounds_to q (EBin (BArith Mul) a b) (p * r) XEval q2.
Proof.
  intros a b q x y q1 q2 p r Ha Hb P R K. destruct (dmul_fix (s_dc q2) x y p r P R) as [n [c [e [D E]]]]. apply (rounds_run q _ _ q2 n c e (fun x => if is_arithmetic x then XEval else x) K E).
  unfold P_Ops.yields in *. evbin Ha. cbn [is_numeric]. evnext Hb. cbn [is_numeric pbind pthen act run step_op as_dec]. unfold op_arith. cbn [as_dec dec_arith]. rewrite D. destruct (dfix _ _ _ _) as [|x0]; [reflexivity|]. destruct (is_arithmetic x0); reflexivity.
Qed.

Definition in_arith (x : exn) : exn := if is_arithmetic x then XEval else x.
Lemma run_arith : forall o a b q x y q1 q2, yields q a (VDec x) q1 -> yields q1 b (VDec y) q2 ->
  run w (eval C thing (EBin (BArith o) a b)) q = (match dec_arith o (s_dc q2) x y with Ok d => Ok (VDec d) | Err x => Err (in_arith x) end, q2).
Proof.
  unfold P_Ops.yields. intros o a b q x y q1 q2 Ha Hb. evbin Ha. cbn [is_numeric]. evnext Hb. cbn [is_numeric pbind pthen act run step_op as_dec]. unfold op_arith. cbn [as_dec]. unfold in_arith.
  destruct (dec_arith o (s_dc q2) x y) as [|x0]; [reflexivity|]. destruct (is_arithmetic x0); reflexivity.
Qed.

(** a / b with b not zero is the exact quotient rounded once *)
Theorem C22_div : forall a b q x y q1 q2 p r, yields q a (VDec x) q1 -> yields q1 b (VDec y) q2 -> number x p -> number y r -> dctx_ok (s_dc q2) -> ~ (r == 0)%Q ->
  rounds_to q (EBin (BArith TDiv) a b) (p / r) XEval q2.
Proof.
  intros a b q x y q1 q2 p r Ha Hb P R K NZ. assert (D := dtruediv_rounded (s_dc q2) x y p r K P R NZ). unfold rounds_to, P_Ops.yields, P_Ops.fails. rewrite (run_arith TDiv a b q x y q1 q2 Ha Hb). cbn [dec_arith].
  destruct (dtruediv (s_dc q2) x y) as [d|e]; [left; destruct D as [s [N S]]; exists d, s; auto|right]. destruct D as [-> D]. split; [reflexivity|exact D].
Qed.

(** [k] is the exact quotient of [p] by [r], truncated to an integer *)
Definition int_quotient (p r : Q) (k : Z) : Prop := (0 <= inject_Z k * r * p)%Q /\ (Qabs (p - inject_Z k * r) < Qabs r)%Q /\ (0 <= (p - inject_Z k * r) * p)%Q.

(** there is only one such integer *)
Lemma trunc_unique : forall p r k m, ~ (r == 0)%Q -> (0 <= inject_Z k * r * p)%Q -> (Qabs (p - inject_Z k * r) < Qabs r)%Q -> (0 <= (p - inject_Z k * r) * p)%Q ->
  (0 <= inject_Z m * r * p)%Q -> (Qabs (p - inject_Z m * r) < Qabs r)%Q -> (0 <= (p - inject_Z m * r) * p)%Q -> k < m -> False.
Proof.
  intros p r k m NZ A1 A2 A3 B1 B2 B3 L. destruct (Q_dec p 0) as [PC|PC]; [|assert (k = 0) by (apply (quotient_of_zero p r); assumption); assert (m = 0) by (apply (quotient_of_zero p r); assumption); lia]. assert (G : (inject_Z k + 1 <= inject_Z m)%Q). { change 1%Q with (inject_Z 1). rewrite <- inject_Z_plus, <- Zle_Qle. lia. }
  set (K := inject_Z k) in *. set (M := inject_Z m) in *. clearbody K M. 
  assert (RC : (r < 0 \/ 0 < r)%Q) by (destruct (Q_dec r 0) as [[?|?]|?]; [left|right|contradiction]; assumption).
  assert (PR : forall u v : Q, (0 < v)%Q -> (0 <= u * v)%Q -> (0 <= u)%Q) by (intros u v V H; apply (Qmult_le_r 0 u v V); lra).
  assert (GR : (0 <= (M - K - 1) * Qabs r)%Q) by (apply Qmult_le_0_compat; [lra|apply Qabs_nonneg]).
  destruct PC as [PC|PC].
  - assert (A3' : (0 <= - (p - K * r))%Q) by (apply (PR _ (- p)%Q); lra). assert (B3' : (0 <= - (p - M * r))%Q) by (apply (PR _ (- p)%Q); lra).
    rewrite Qabs_neg in A2, B2 by lra. destruct RC as [RC|RC]; [rewrite (Qabs_neg r) in * by lra|rewrite (Qabs_pos r) in * by lra]; lra.
  - assert (A3' : (0 <= p - K * r)%Q) by (apply (PR _ p); assumption). assert (B3' : (0 <= p - M * r)%Q) by (apply (PR _ p); assumption).
    rewrite Qabs_pos in A2, B2 by lra. destruct RC as [RC|RC]; [rewrite (Qabs_neg r) in * by lra|rewrite (Qabs_pos r) in * by lra]; lra.
Qed.

Lemma divide_cases : forall dc n1 c1 e1 n2 c2 e2 p r, dctx_ok dc -> (dec_q n1 c1 e1 == p)%Q -> (dec_q n2 c2 e2 == r)%Q -> c2 <> 0%N ->
  match ddivide dc n1 c1 e1 n2 c2 e2 with
  | Some (qn, rn, e) => int_quotient p r (signed (xorb n1 n2) qn) /\ Z.of_N qn < 10 ^ prec dc /\ (p - inject_Z (signed (xorb n1 n2) qn) * r == dec_q n1 rn e)%Q
  | None => (inject_Z (10 ^ prec dc) <= Qabs (p / r))%Q
  end.
Proof.
  intros dc n1 c1 e1 n2 c2 e2 p r K P R C2. assert (Y2 : (0 < inject_Z (Z.of_N c2) * (10 # 1) ^ e2)%Q). { apply Qmult_lt_0_compat; [change 0%Q with (inject_Z 0); rewrite <- Zlt_Qlt; lia|apply q10_pos]. }
  assert (X1 : (0 <= inject_Z (Z.of_N c1) * (10 # 1) ^ e1)%Q). { apply Qmult_le_0_compat; [change 0%Q with (inject_Z 0); rewrite <- Zle_Qle; lia|apply Qlt_le_weak, q10_pos]. }
  rewrite dec_q_sgn in P, R. destruct (ddivide dc n1 c1 e1 n2 c2 e2) as [[[qn rn] e]|] eqn:D.
  - destruct (ddivide_spec dc n1 c1 e1 n2 c2 e2 qn rn e C2 D) as [S1 [S2 S3]]. destruct K as [K1 K2]. rewrite Z.max_r in S3 by lia.
    assert (N0 : (0 <= inject_Z (Z.of_N rn) * (10 # 1) ^ e)%Q). { apply Qmult_le_0_compat; [change 0%Q with (inject_Z 0); rewrite <- Zle_Qle; lia|apply Qlt_le_weak, q10_pos]. }
    assert (Q0 : (0 <= inject_Z (Z.of_N qn))%Q) by (change 0%Q with (inject_Z 0); rewrite <- Zle_Qle; lia).
    assert (SG : (inject_Z (signed (xorb n1 n2) qn) == sgnq (xorb n1 n2) (inject_Z (Z.of_N qn)))%Q) by (unfold signed, sgnq; destruct (xorb n1 n2); [rewrite inject_Z_opp; reflexivity|reflexivity]).
    assert (RE : (p - inject_Z (signed (xorb n1 n2) qn) * r == dec_q n1 rn e)%Q). { rewrite SG, dec_q_sgn, <- P, <- R. unfold sgnq. destruct n1, n2; cbn [xorb]; rewrite S1; ring. }
    split; [|split; [exact S3|exact RE]].
    assert (RP : (inject_Z (Z.of_N qn) * (inject_Z (Z.of_N c2) * (10 # 1) ^ e2) >= 0)%Q) by (apply Qmult_le_0_compat; lra).
    set (X := (inject_Z (Z.of_N c1) * (10 # 1) ^ e1)%Q) in *. set (Y := (inject_Z (Z.of_N c2) * (10 # 1) ^ e2)%Q) in *. set (W := (inject_Z (Z.of_N rn) * (10 # 1) ^ e)%Q) in *. set (U := inject_Z (Z.of_N qn)) in *.
    assert (XU : (0 <= (U * Y) * X)%Q) by (apply Qmult_le_0_compat; assumption). assert (XW : (0 <= W * X)%Q) by (apply Qmult_le_0_compat; assumption).
    split; [|split].
    + rewrite SG, <- P, <- R. unfold sgnq. destruct n1, n2; cbn [xorb]; lra.
    + rewrite RE, <- R, dec_abs. fold W. unfold sgnq. destruct n2; rewrite ?Qabs_opp; rewrite Qabs_pos by lra; exact S2.
    + rewrite RE, dec_q_sgn, <- P. fold W. unfold sgnq. destruct n1; lra.
  - assert (G := ddivide_none dc n1 c1 e1 n2 c2 e2 K C2 D). unfold Qdiv. rewrite Qabs_Qmult.
    set (X := (inject_Z (Z.of_N c1) * (10 # 1) ^ e1)%Q) in *. set (Y := (inject_Z (Z.of_N c2) * (10 # 1) ^ e2)%Q) in *.
    assert (AP : (Qabs p == X)%Q) by (rewrite <- P; unfold sgnq; destruct n1; rewrite ?Qabs_opp; apply Qabs_pos; exact X1).
    assert (AR : (Qabs (/ r) == / Y)%Q). { rewrite <- R. unfold sgnq. destruct n2; [|apply Qabs_pos, Qlt_le_weak, Qinv_lt_0_compat; exact Y2]. setoid_replace (/ - Y)%Q with (- / Y)%Q by (field; lra). rewrite Qabs_opp. apply Qabs_pos, Qlt_le_weak, Qinv_lt_0_compat. exact Y2. }
    rewrite AP, AR. apply Qle_shift_div_l; assumption.
Qed.

(** a // b with b not zero: the result is the exact quotient truncated to an integer; it fails (EvaluationError) only when that has
    more than [prec] digits *)
Theorem C22_floordiv : forall a b q x y q1 q2 p r, yields q a (VDec x) q1 -> yields q1 b (VDec y) q2 -> number x p -> number y r -> dctx_ok (s_dc q2) -> ~ (r == 0)%Q ->
  (exists z k, yields q (EBin (BArith FDiv) a b) (VDec z) q2 /\ number z (inject_Z k) /\ int_quotient p r k /\ Z.abs k < 10 ^ prec (s_dc q2))
  \/ (fails q (EBin (BArith FDiv) a b) XEval q2 /\ (inject_Z (10 ^ prec (s_dc q2)) <= Qabs (p / r))%Q).
Proof.
  intros a b q x y q1 q2 p r Ha Hb [n1 [c1 [e1 [-> P]]]] [n2 [c2 [e2 [-> R]]]] K NZ. unfold P_Ops.yields at 1, P_Ops.fails. rewrite (run_arith FDiv a b q _ _ q1 q2 Ha Hb). cbn [dec_arith dfloordiv].
  assert (C2 : c2 <> 0%N). { intros ->. apply NZ. rewrite <- R. unfold dec_q. rewrite signed_0. apply q0. }
  destruct (N.eqb_spec c2 0) as [|_]; [contradiction|]. assert (D := divide_cases (s_dc q2) n1 c1 e1 n2 c2 e2 p r K P R C2). destruct (ddivide (s_dc q2) n1 c1 e1 n2 c2 e2) as [[[qn rn] e]|].
  - left. destruct D as [D1 [D2 D3]]. exists (DFin (xorb n1 n2) qn 0), (signed (xorb n1 n2) qn). split; [reflexivity|]. split; [eexists _, _, _; split; [reflexivity|unfold dec_q; change ((10 # 1) ^ 0)%Q with 1%Q; ring]|]. split; [exact D1|].
    unfold signed. destruct (xorb n1 n2); lia.
  - right. split; [reflexivity|exact D].
Qed.

(** a % b with b not zero is the exact remainder of that truncated division, rounded once; for representable operands it is
    exact. It fails whenever // does. *)
Theorem C22_mod : forall a b q x y q1 q2 p r, yields q a (VDec x) q1 -> yields q1 b (VDec y) q2 -> number x p -> number y r -> dctx_ok (s_dc q2) -> ~ (r == 0)%Q ->
  (forall k, int_quotient p r k -> Z.abs k < 10 ^ prec (s_dc q2) -> (exists z, yields q (EBin (BArith FDiv) a b) (VDec z) q2) ->
     rounds_to q (EBin (BArith Mod) a b) (p - inject_Z k * r) XEval q2 /\
     (representable (s_dc q2) p -> representable (s_dc q2) r -> representable (s_dc q2) (p - inject_Z k * r))) /\
  (fails q (EBin (BArith FDiv) a b) XEval q2 -> fails q (EBin (BArith Mod) a b) XEval q2).
Proof.
  intros a b q x y q1 q2 p r Ha Hb [n1 [c1 [e1 [-> P]]]] [n2 [c2 [e2 [-> R]]]] K NZ. assert (RF := run_arith FDiv a b q _ _ q1 q2 Ha Hb). assert (RM := run_arith Mod a b q _ _ q1 q2 Ha Hb).
  unfold P_Ops.yields at 1, P_Ops.fails. rewrite RF. rewrite RM. revert RM RF. cbn [dec_arith dfloordiv dmod].
  assert (C2 : c2 <> 0%N). { intros ->. apply NZ. rewrite <- R. unfold dec_q. rewrite signed_0. apply q0. }
  destruct (N.eqb_spec c2 0) as [|_]; [contradiction|]. assert (D := divide_cases (s_dc q2) n1 c1 e1 n2 c2 e2 p r K P R C2). destruct (ddivide (s_dc q2) n1 c1 e1 n2 c2 e2) as [[[qn rn] e]|].
  - intros RM _. split; [|discriminate]. intros k [Q1 [Q2 Q3]] B _. split; [|intros; apply remainder_representable; assumption]. destruct D as [[D1 [D2 D3]] [D4 D5]].
    assert (KE : k = signed (xorb n1 n2) qn).
    { set (m := signed (xorb n1 n2) qn) in *. clearbody m. clear - NZ Q1 Q2 Q3 D1 D2 D3. destruct (Z.lt_trichotomy k m) as [L|[L|L]]; [|exact L|]; exfalso.
      - apply (trunc_unique p r k m); assumption.
      - apply (trunc_unique p r m k); assumption. }
    subst k. change XEval with (in_arith PDecOverflow). apply (rounds_run q _ _ q2 n1 rn e in_arith K D5). exact RM.
  - intros _ _. split; [intros k _ _ [z Z]; discriminate|]. intros _. reflexivity.
Qed.
End C22.

(** hence, for operands that fit the precision, a = (a // b) * b + a % b holds exactly whenever // succeeds *)
Theorem C22_identity : forall (Orc : Oracle) C thing w a b q x y q1 q2 p r z, yields C thing w q a (VDec x) q1 -> yields C thing w q1 b (VDec y) q2 -> number x p -> number y r -> dctx_ok (s_dc q2) -> ~ (r == 0)%Q ->
  representable (s_dc q2) p -> representable (s_dc q2) r -> yields C thing w q (EBin (BArith FDiv) a b) (VDec z) q2 ->
  exists k z' t, number z (inject_Z k) /\ yields C thing w q (EBin (BArith Mod) a b) (VDec z') q2 /\ number z' t /\ (p == inject_Z k * r + t)%Q /\ (Qabs t < Qabs r)%Q /\ (0 <= t * p)%Q.
Proof.
  intros Orc C thing w a b q x y q1 q2 p r z Ha Hb P R K NZ RP RR F. destruct (C22_floordiv Orc C thing w a b q x y q1 q2 p r Ha Hb P R K NZ) as [[z0 [k [Y [N [I B]]]]]|[G _]].
  - assert (z0 = z) by (unfold yields in *; rewrite Y in F; congruence). subst z0. destruct (C22_mod Orc C thing w a b q x y q1 q2 p r Ha Hb P R K NZ) as [M _]. destruct (M k I B (ex_intro _ z F)) as [M1 M2].
    destruct (C22_exact Orc C thing w _ _ _ _ _ M1 (M2 RP RR)) as [z' [Y' N']]. exists k, z', (p - inject_Z k * r)%Q. destruct I as [I1 [I2 I3]]. split; [exact N|]. split; [exact Y'|]. split; [exact N'|]. split; [ring|]. split; assumption.
  - unfold yields, fails in *. rewrite G in F. discriminate.
Qed.

(** 0.1 + 0.1 + 0.1 - 0.3 is exactly 0, in every decimal context that has tenths *)
Definition tenths (k : N) : expr := ELit (VDec (DFin false k (-1))).
Theorem C22_tenths : forall (Orc : Oracle) C thing w q, dctx_ok (s_dc q) -> emin (s_dc q) - prec (s_dc q) + 1 <= -1 <= emax (s_dc q) - prec (s_dc q) + 1 ->
  exists z, yields C thing w q (EBin BSub (EBin BAdd (EBin BAdd (tenths 1) (tenths 1)) (tenths 1)) (tenths 3)) (VDec z) q /\ number z 0.
Proof.
  intros Orc C thing w q K T. assert (L : forall k, yields C thing w q (tenths k) (VDec (DFin false k (-1))) q) by reflexivity.
  assert (N : forall k, number (DFin false k (-1)) (inject_Z (Z.of_N k) / 10)). { intro k. exists false, k, (-1). split; [reflexivity|]. unfold dec_q, signed. change ((10 # 1) ^ (-1))%Q with (1 # 10)%Q. field. }
  assert (R : forall k, (k < 10)%N -> representable (s_dc q) (inject_Z (Z.of_N k) / 10)).
  { intros k B. exists false, k, (-1). split; [unfold dec_q, signed; change ((10 # 1) ^ (-1))%Q with (1 # 10)%Q; field|]. split; [|exact T]. destruct K as [K _]. assert (X : 10 ^ 1 <= 10 ^ prec (s_dc q)) by (apply Z.pow_le_mono_r; lia). lia. }
  assert (RE : forall x y, (x == y)%Q -> representable (s_dc q) x -> representable (s_dc q) y). { intros x y E [n [c [e [X B]]]]. exists n, c, e. split; [rewrite <- E; exact X|exact B]. }
  destruct (C22_exact Orc C thing w _ _ _ _ _ (C22_add Orc C thing w _ _ _ _ _ _ _ _ _ (L 1%N) (L 1%N) (N 1%N) (N 1%N) K)) as [z2 [Y2 N2]]; [apply (RE (inject_Z (Z.of_N 2) / 10)%Q); [reflexivity|apply R; reflexivity]|].
  destruct (C22_exact Orc C thing w _ _ _ _ _ (C22_add Orc C thing w _ _ _ _ _ _ _ _ _ Y2 (L 1%N) N2 (N 1%N) K)) as [z3 [Y3 N3]]; [apply (RE (inject_Z (Z.of_N 3) / 10)%Q); [reflexivity|apply R; reflexivity]|].
  destruct (C22_exact Orc C thing w _ _ _ _ _ (C22_sub Orc C thing w _ _ _ _ _ _ _ _ _ Y3 (L 3%N) N3 (N 3%N) K)) as [z4 [Y4 N4]]; [apply (RE (inject_Z (Z.of_N 0) / 10)%Q); [reflexivity|apply R; reflexivity]|].
  exists z4. split; [exact Y4|]. destruct N4 as [n [c [e [-> V]]]]. exists n, c, e. split; [reflexivity|]. rewrite V. reflexivity.
Qed.

(** The identity need not survive re-evaluation in the engine, where the product is rounded: with two digits,
    93 == (93 // 3.7) * 3.7 + 93 % 3.7 is false. *)
Definition two_digits : dctx := {| prec := 2; rmode := RHalfEven; emin := -999999; emax := 999999 |}.
Theorem C22_identity_rounded_refuted : exists (q : st) a b, dctx_ok (s_dc q) /\
  yields untyped_ctx VNull demo_world q (EBin BEq a (EBin BAdd (EBin (BArith Mul) (EBin (BArith FDiv) a b) b) (EBin (BArith Mod) a b))) (VBool false) q.
Proof. exists (st_init two_digits), (ELit (num 93)), (ELit (VDec (DFin false 37 (-1)))). split; [unfold dctx_ok; cbn; lia|]. vm_compute. reflexivity. Qed.

Example C22_example : yields untyped_ctx VNull demo_world demo_st (EBin (BArith TDiv) (ELit (num 2)) (ELit (num 3))) (VDec (DFin false 6666666666666666666666666667 (-28))) demo_st
  /\ yields untyped_ctx VNull demo_world demo_st (EBin (BArith Mod) (ELit (num (-7))) (ELit (num 3))) (num (-1)) demo_st
  /\ dctx_ok (s_dc demo_st) /\ number (dec_of_Z 2) 2 /\ number (dec_of_Z 3) 3.
Proof. split; [vm_compute; reflexivity|]. split; [vm_compute; reflexivity|]. split; [unfold dctx_ok; cbn; lia|]. split; eexists _, _, _; split; reflexivity. Qed.

Print Assumptions C22_zero_sum.
Print Assumptions C22_add. Print Assumptions C22_div. Print Assumptions C22_identity. Print Assumptions C22_tenths.
