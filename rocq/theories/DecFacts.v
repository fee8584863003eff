(** * DecFacts: numeric meaning of decimals, floor / truncation, the integer and natural number predicates *)
From Coq Require Import QArith Qabs Qpower Lqa Lia.
From Verif Require Import Base Dec Value DType Types.
Open Scope Z_scope.

Lemma ten_pow_pos : forall k, 0 <= k -> 0 < 10 ^ k.
Proof. intros. apply Z.pow_pos_nonneg; lia. Qed.

Lemma q10_Z : forall k, 0 <= k -> ((10 # 1) ^ k == inject_Z (10 ^ k))%Q.
Proof. intros k H. symmetry. change (10 # 1)%Q with (inject_Z 10). apply Zpower_Qpower. assumption. Qed.

Lemma q10_pos : forall k, (0 < (10 # 1) ^ k)%Q.
Proof. intro k. apply Qpower_0_lt. reflexivity. Qed.

Lemma q10_plus : forall a b, ((10 # 1) ^ (a + b) == (10 # 1) ^ a * (10 # 1) ^ b)%Q.
Proof. intros. apply Qpower_plus. discriminate. Qed.

Lemma q10_neg : forall k, ((10 # 1) ^ k * (10 # 1) ^ (- k) == 1)%Q.
Proof. intro k. rewrite <- q10_plus. replace (k + - k) with 0 by lia. reflexivity. Qed.

Lemma dec_q_up : forall n c e, 0 <= e -> (dec_q n c e == inject_Z (signed n c * 10 ^ e))%Q.
Proof. intros n c e H. unfold dec_q. rewrite q10_Z by assumption. rewrite inject_Z_mult. reflexivity. Qed.

Lemma dec_q_down : forall n c e, e <= 0 -> (dec_q n c e * inject_Z (10 ^ (- e)) == inject_Z (signed n c))%Q.
Proof.
  intros n c e H. unfold dec_q. rewrite <- (q10_Z (- e)) by lia. rewrite <- Qmult_assoc. rewrite q10_neg. ring.
Qed.

Lemma Qle_scale : forall a b m, 0 < m -> ((a * inject_Z m <= b * inject_Z m)%Q <-> (a <= b)%Q).
Proof. intros a b m H. apply Qmult_le_r. change 0%Q with (inject_Z 0). rewrite <- Zlt_Qlt. assumption. Qed.
Lemma Qlt_scale : forall a b m, 0 < m -> ((a * inject_Z m < b * inject_Z m)%Q <-> (a < b)%Q).
Proof. intros a b m H. apply Qmult_lt_r. change 0%Q with (inject_Z 0). rewrite <- Zlt_Qlt. assumption. Qed.

(** floor *)
Lemma dfloor_spec : forall n c e, (inject_Z (dfloor n c e) <= dec_q n c e)%Q /\ (dec_q n c e < inject_Z (dfloor n c e + 1))%Q.
Proof.
  intros n c e. unfold dfloor. destruct (Z.leb_spec 0 e) as [H|H].
  - rewrite dec_q_up by assumption. rewrite <- Zle_Qle, <- Zlt_Qlt. lia.
  - assert (P := ten_pow_pos (- e) ltac:(lia)). set (m := 10 ^ (- e)) in *.
    rewrite <- (Qle_scale _ _ m), <- (Qlt_scale _ _ m) by assumption. unfold m. rewrite dec_q_down by lia. fold m.
    rewrite <- !inject_Z_mult, <- Zle_Qle, <- Zlt_Qlt. assert (D := Z.div_mod (signed n c) m ltac:(lia)).
    assert (B := Z.mod_pos_bound (signed n c) m P). nia.
Qed.

Lemma floor_unique : forall q a b, (inject_Z a <= q)%Q -> (q < inject_Z (a + 1))%Q -> (inject_Z b <= q)%Q -> (q < inject_Z (b + 1))%Q -> a = b.
Proof.
  intros q a b H1 H2 H3 H4. assert (A := Qle_lt_trans _ _ _ H1 H4). assert (B := Qle_lt_trans _ _ _ H3 H2).
  rewrite <- Zlt_Qlt in A, B. lia.
Qed.

Lemma dfloor_int : forall n c e z, (dec_q n c e == inject_Z z)%Q -> dfloor n c e = z.
Proof.
  intros n c e z H. destruct (dfloor_spec n c e) as [A B]. apply (floor_unique (dec_q n c e)); try assumption.
  - rewrite H. apply Qle_refl.
  - rewrite H. rewrite <- Zlt_Qlt. lia.
Qed.

(** ceiling *)
Lemma dceil_spec : forall n c e, (inject_Z (dceil n c e - 1) < dec_q n c e)%Q /\ (dec_q n c e <= inject_Z (dceil n c e))%Q.
Proof.
  intros n c e. unfold dceil. destruct (Z.leb_spec 0 e) as [H|H].
  - rewrite dec_q_up by assumption. rewrite <- Zle_Qle, <- Zlt_Qlt. lia.
  - assert (P := ten_pow_pos (- e) ltac:(lia)). set (m := 10 ^ (- e)) in *.
    rewrite <- (Qle_scale _ _ m), <- (Qlt_scale _ _ m) by assumption. unfold m. rewrite dec_q_down by lia. fold m.
    rewrite <- !inject_Z_mult, <- Zle_Qle, <- Zlt_Qlt. assert (D := Z.div_mod (- signed n c) m ltac:(lia)).
    assert (B := Z.mod_pos_bound (- signed n c) m P). nia.
Qed.

Lemma dceil_int : forall n c e z, (dec_q n c e == inject_Z z)%Q -> dceil n c e = z.
Proof.
  intros n c e z H. destruct (dceil_spec n c e) as [A B]. rewrite H in A, B. rewrite <- Zlt_Qlt in A. rewrite <- Zle_Qle in B. lia.
Qed.

(** truncation of an integer is that integer *)
Lemma dtrunc_int : forall n c e z, (dec_q n c e == inject_Z z)%Q -> dtrunc n c e = z.
Proof.
  intros n c e z H. unfold dtrunc. destruct (Z.leb_spec 0 e) as [L|L].
  - rewrite dec_q_up in H by assumption. exact (proj1 (inject_Z_injective _ _) H).
  - assert (P := ten_pow_pos (- e) ltac:(lia)). set (m := 10 ^ (- e)) in *.
    assert (E : (inject_Z (signed n c) == inject_Z (z * m))%Q).
    { rewrite inject_Z_mult, <- H. unfold m. symmetry. apply dec_q_down. lia. }
    apply (proj1 (inject_Z_injective _ _)) in E. rewrite E. apply Z.quot_mul. lia.
Qed.

Lemma dec_of_Z_q : forall z, (dec_q (z <? 0) (Z.abs_N z) 0 == inject_Z z)%Q.
Proof.
  intro z. rewrite dec_q_up by lia. replace (signed (z <? 0) (Z.abs_N z) * 10 ^ 0) with z; [reflexivity|].
  unfold signed. rewrite N2Z.inj_abs_N. destruct (Z.ltb_spec z 0); lia.
Qed.

(** ** The number [z] is what the decimal denotes *)
Definition denotes (d : dec) (z : Z) : Prop := exists q, dec_x d = XQ q /\ (q == inject_Z z)%Q.

Lemma denotes_of_Z : forall z, denotes (dec_of_Z z) z.
Proof. intro z. eexists. split; [reflexivity|apply dec_of_Z_q]. Qed.

Lemma denotes_inj : forall d a b, denotes d a -> denotes d b -> a = b.
Proof.
  intros d a b [q [E H]] [q' [E' H']]. rewrite E in E'. inversion E'; subst q'. apply (proj1 (inject_Z_injective _ _)). rewrite <- H, <- H'. reflexivity.
Qed.

Lemma to_int_denotes : forall d z, denotes d z -> to_int (VDec d) = z.
Proof. intros d z [q [E H]]. destruct d; inversion E; subst. cbn. apply dtrunc_int. assumption. Qed.

(** |x| as a decimal *)
Lemma dec_q_abs : forall n c e, (dec_q false c e == Qabs (dec_q n c e))%Q.
Proof.
  intros n c e. unfold dec_q. rewrite Qabs_Qmult. rewrite (Qabs_pos ((10 # 1) ^ e)) by (apply Qlt_le_weak; apply q10_pos).
  assert (E : inject_Z (signed false c) = Qabs (inject_Z (signed n c))).
  { destruct n; unfold signed, inject_Z, Qabs; f_equal; lia. }
  rewrite E. reflexivity.
Qed.

Lemma isfinite_iff : forall d, isfinite (VDec d) = Ok true <-> exists q, dec_x d = XQ q /\ (Qabs q < inject_Z float_bound)%Q.
Proof.
  intros [n c e|n|]; cbn; try (split; [discriminate|intros [q [E _]]; discriminate]).
  assert (A := dec_q_abs n c e). split.
  - intro H. exists (dec_q n c e). split; [reflexivity|]. rewrite <- A. destruct (_ ?= _)%Q eqn:E; inversion H. rewrite Qlt_alt. exact E.
  - intros [q [E H]]. inversion E; subst. rewrite <- A in H. rewrite Qlt_alt in H. rewrite H. reflexivity.
Qed.
Lemma isfinite_dec_total : forall d, exists b, isfinite (VDec d) = Ok b.
Proof. intros [n c e|n|]; eexists; reflexivity. Qed.

Theorem integer_number_iff : forall d, is_integer_number (VDec d) = Ok true <-> exists z, denotes d z /\ Z.abs z < float_bound.
Proof.
  intro d. unfold is_integer_number, is_real_number. cbn [is_numeric]. destruct (isfinite_dec_total d) as [b F]. rewrite F. cbn [rbind].
  destruct b.
  - apply isfinite_iff in F as [q [E L]]. destruct d as [n c e|n|]; inversion E; subst q; clear E. cbn.
    split.
    + intro H. inversion H as [H1]. clear H. exists (dfloor n c e). apply Qeq_bool_iff in H1. split.
      * eexists. split; [reflexivity|]. symmetry. assumption.
      * rewrite <- H1 in L. rewrite Zlt_Qlt. exact L.
    + intros [z [[q [E H]] _]]. inversion E; subst q. rewrite (dfloor_int n c e z H). f_equal. apply Qeq_bool_iff. symmetry. assumption.
  - cbn. split; [discriminate|]. intros [z [[q [E H]] L]]. assert (X : isfinite (VDec d) = Ok true).
    { apply isfinite_iff. exists q. split; [assumption|]. rewrite H. rewrite Zlt_Qlt in L. exact L. }
    congruence.
Qed.

Lemma integer_number_total : forall d, exists b, is_integer_number (VDec d) = Ok b.
Proof.
  intro d. unfold is_integer_number, is_real_number. cbn [is_numeric]. destruct (isfinite_dec_total d) as [b ->]. cbn. eexists. reflexivity.
Qed.

Theorem natural_number_iff : forall d, is_natural_number (VDec d) = Ok true <-> exists z, denotes d z /\ 0 <= z < float_bound.
Proof.
  intro d. unfold is_natural_number. destruct (integer_number_total d) as [b I]. rewrite I. cbn [rbind]. destruct b.
  - apply integer_number_iff in I as [z [D L]]. destruct (D) as [q [E H]]. cbn [num_x]. rewrite E. cbn [andb].
    split.
    + intro K. exists z. split; [assumption|]. inversion K as [K1]. destruct (q ?= 0)%Q eqn:Q; try discriminate K1;
      assert (0 <= z); try lia; rewrite Zle_Qle, <- H.
      * apply Qeq_alt in Q. rewrite Q. apply Qle_refl.
      * apply Qgt_alt in Q. apply Qlt_le_weak. exact Q.
    + intros [z' [D' L']]. rewrite <- (denotes_inj d z z' D D') in L'. f_equal. destruct (q ?= 0)%Q eqn:Q; try reflexivity.
      exfalso. apply Qlt_alt in Q. rewrite H in Q. change 0%Q with (inject_Z 0) in Q. rewrite <- Zlt_Qlt in Q. lia.
  - cbn. split; [discriminate|]. intros [z [D L]]. assert (X : is_integer_number (VDec d) = Ok true).
    { apply integer_number_iff. exists z. split; [assumption|]. rewrite Z.abs_eq; apply L. }
    congruence.
Qed.
Lemma natural_number_total : forall d, exists b, is_natural_number (VDec d) = Ok b.
Proof. intro d. unfold is_natural_number. destruct (integer_number_total d) as [b ->]. cbn. eexists. reflexivity. Qed.
