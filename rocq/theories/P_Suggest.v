(** * C45, C46: suggestions *)
From Coq Require Import QArith Qabs Qpower Qround Lqa.
From Verif Require Import Base Suggest.
Local Open Scope Q_scope.

(** ** Specification *)
(** the numbers a 53 bit binary float can hold (any exponent) *)
Definition is_float (x : Q) : Prop := exists m e : Z, (Z.abs m <= 2 ^ 53)%Z /\ (x == inject_Z m * Qpower 2 e).
(** a rounding that never crosses a float: monotone, and exact on floats *)
Record faithful (rnd : Q -> Q) : Prop := {
  rnd_mono : forall x y, 0 <= x -> x <= y -> rnd x <= rnd y;
  rnd_float : forall x, 0 <= x -> is_float (rnd x);
  rnd_exact : forall x, 0 <= x -> is_float x -> rnd x == x }.

(** ** Counting matches *)
Fixpoint count (l : list bool) : nat := match l with [] => O | b :: r => ((if b then 1 else 0) + count r)%nat end.
Lemma count_le : forall l, (count l <= length l)%nat.
Proof. induction l as [|[] l IH]; cbn; lia. Qed.
Lemma count_repeat : forall n, count (repeat false n) = O.
Proof. induction n; cbn; auto. Qed.

Lemma scan_ok : forall n j c b m2, (j + n <= length b)%nat -> (length b <= length m2)%nat ->
  exists r, scan n j c b m2 = Ok r /\ forall k, r = Some k -> (j <= k < j + n)%nat /\ nth_error m2 k = Some false /\ nth_error b k = Some c.
Proof.
  induction n as [|n IH]; intros j c b m2 H L; cbn [scan].
  - exists None. split; [reflexivity|]. discriminate.
  - destruct (nth_error m2 j) as [f|] eqn:E; [|apply nth_error_None in E; lia].
    assert (REC : exists r, scan n (S j) c b m2 = Ok r /\ forall k, r = Some k -> (j <= k < j + S n)%nat /\ nth_error m2 k = Some false /\ nth_error b k = Some c).
    { destruct (IH (S j) c b m2) as [r [A B]]; [lia|lia|]. exists r. split; [exact A|]. intros k K. destruct (B k K) as [B1 B2]. split; [lia|exact B2]. }
    destruct f; [exact REC|]. destruct (nth_error b j) as [d|] eqn:E2; [|apply nth_error_None in E2; lia]. destruct (c =? d)%N eqn:CD; [|exact REC].
    apply N.eqb_eq in CD. subst d. exists (Some j). split; [reflexivity|]. intros k K. injection K as <-. split; [lia|]. auto.
Qed.
Lemma set_at_ok : forall l i, nth_error l i = Some false ->
  exists l', set_at i l = Ok l' /\ length l' = length l /\ count l' = S (count l) /\ (forall k, nth_error l' k = if (k =? i)%nat then Some true else nth_error l k).
Proof.
  induction l as [|x l IH]; intros [|i] H; cbn in H; try discriminate.
  - injection H as ->. exists (true :: l). split; [reflexivity|]. split; [reflexivity|]. split; [reflexivity|]. intros [|k]; reflexivity.
  - destruct (IH i H) as [l' [A [B [D E]]]]. exists (x :: l'). cbn [set_at]. rewrite A. split; [reflexivity|]. split; [cbn; lia|]. split; [cbn; lia|]. intros [|k]; [reflexivity|]. apply E.
Qed.
(** the flags never point beyond the strings, and both sides have one flag per match *)
Definition below (n : nat) (m : list bool) : Prop := forall k, nth_error m k = Some true -> (k < n)%nat.
Lemma mark_ok : forall l i b d m1 m2 k, (i + length l <= length m1)%nat -> (length b <= length m2)%nat -> count m1 = k -> count m2 = k -> below i m1 -> below (length b) m2 -> (-1 <= d)%Z ->
  exists m1' m2' k', mark l i b d m1 m2 k = Ok (m1', m2', k') /\ count m1' = k' /\ count m2' = k' /\ length m1' = length m1 /\ length m2' = length m2 /\ below (i + length l) m1' /\ below (length b) m2'.
Proof.
  induction l as [|c l IH]; intros i b d m1 m2 k L1 L2 C1 C2 B1 B2 D; cbn [mark].
  - exists m1, m2, k. cbn. rewrite Nat.add_0_r. repeat (split; [auto; fail|]). exact B2.
  - cbn [length] in L1.
    assert (SC : exists r, scan (Z.to_nat (Z.min (Z.of_nat i + d) (Z.of_nat (length b) - 1) + 1 - Z.max 0 (Z.of_nat i - d))) (Z.to_nat (Z.max 0 (Z.of_nat i - d))) c b m2 = Ok r /\
                 forall j, r = Some j -> nth_error m2 j = Some false /\ nth_error b j = Some c).
    { destruct (Z.to_nat (Z.min (Z.of_nat i + d) (Z.of_nat (length b) - 1) + 1 - Z.max 0 (Z.of_nat i - d))) as [|n] eqn:EN.
      - exists None. split; [reflexivity|]. discriminate.
      - destruct (scan_ok (S n) (Z.to_nat (Z.max 0 (Z.of_nat i - d))) c b m2) as [r [A B]]; [lia|exact L2|]. exists r. split; [exact A|]. intros j J. apply (B j J). }
    destruct SC as [r [A B]]. rewrite A. cbn [rbind]. clear A. destruct r as [j|].
    + destruct (B j eq_refl) as [Bj Bc]. assert (NI : nth_error m1 i = Some false). { destruct (nth_error m1 i) as [[]|] eqn:E; [apply B1 in E; lia|reflexivity|apply nth_error_None in E; lia]. }
      destruct (set_at_ok m1 i NI) as [m1' [E1 [E2 [E3 E4]]]]. destruct (set_at_ok m2 j Bj) as [m2' [F1 [F2 [F3 F4]]]]. rewrite E1, F1. cbn [rbind].
      assert (JB : (j < length b)%nat) by (apply nth_error_Some; congruence).
      destruct (IH (S i) b d m1' m2' (S k)) as [m1'' [m2'' [k' [X Y]]]]; [lia|lia|lia|lia| | |exact D|].
      * intros x. rewrite E4. destruct (x =? i)%nat eqn:XI; [apply Nat.eqb_eq in XI; lia|]. intro Q. apply B1 in Q. lia.
      * intros x. rewrite F4. destruct (x =? j)%nat eqn:XI; [apply Nat.eqb_eq in XI; lia|]. intro Q. apply B2 in Q. lia.
      * exists m1'', m2'', k'. split; [exact X|]. rewrite E2, F2 in Y. cbn [length]. replace (i + S (length l))%nat with (S i + length l)%nat by lia. exact Y.
    + destruct (IH (S i) b d m1 m2 k) as [m1'' [m2'' [k' [X Y]]]]; [lia|lia|lia|lia| |exact B2|exact D|].
      * intros x Q. apply B1 in Q. lia.
      * exists m1'', m2'', k'. split; [exact X|]. cbn [length]. replace (i + S (length l))%nat with (S i + length l)%nat by lia. exact Y.
Qed.

Lemma advance_ok : forall m k, (0 < count m)%nat -> exists k', advance m k = Ok k' /\ (k <= k')%nat /\ nth_error m (k' - k) = Some true /\ count (skipn (S (k' - k)) m) = pred (count m).
Proof.
  induction m as [|[] m IH]; intros k H; cbn [count] in H; [lia| |].
  - exists k. replace (k - k)%nat with O by lia. split; [reflexivity|]. split; [lia|]. split; reflexivity.
  - destruct (IH (S k)) as [k' [A [B [D E]]]]; [lia|]. exists k'. split; [exact A|]. split; [lia|]. replace (k' - k)%nat with (S (k' - S k)) by lia. split; [exact D|]. cbn [count Nat.add]. exact E.
Qed.
Lemma nth_error_skipn : forall A (l : list A) n i, nth_error (skipn n l) i = nth_error l (n + i).
Proof. induction l as [|x l IH]; intros [|n] i; cbn; try reflexivity; [destruct i; reflexivity|apply IH]. Qed.
Lemma skipn_skipn2 : forall A (l : list A) n m, skipn n (skipn m l) = skipn (m + n) l.
Proof. induction l as [|x l IH]; intros n m; [destruct n, m; reflexivity|]. destruct m; [reflexivity|]. cbn. apply IH. Qed.
Lemma transpose_ok : forall l i b m1 m2 k t, (i + length l <= length m1)%nat -> below (length b) m2 -> count (skipn i m1) = count (skipn k m2) ->
  exists t', transpose l i b m1 m2 k t = Ok t' /\ (t <= t' <= t + count (skipn i m1))%nat.
Proof.
  induction l as [|c l IH]; intros i b m1 m2 k t L B C; cbn [transpose].
  - exists t. split; [reflexivity|]. lia.
  - cbn [length] in L. destruct (nth_error m1 i) as [f|] eqn:E; [|apply nth_error_None in E; lia].
    assert (SK : skipn i m1 = f :: skipn (S i) m1). { clear - E. revert m1 E. induction i as [|i IH]; intros [|x m] E; cbn in E; try discriminate; [injection E as ->; reflexivity|]. apply IH. exact E. }
    rewrite SK in *. destruct f; cbn [count] in C |- *.
    + destruct (advance_ok (skipn k m2) k) as [k' [A [K1 [K2 K3]]]]; [lia|]. rewrite A. cbn [rbind]. rewrite nth_error_skipn in K2. replace (k + (k' - k))%nat with k' in K2 by lia. assert (KB := B _ K2).
      destruct (nth_error b k') as [d|] eqn:E2; [|apply nth_error_None in E2; lia]. rewrite skipn_skipn2 in K3. replace (k + S (k' - k))%nat with (S k') in K3 by lia.
      destruct (IH (S i) b m1 m2 (S k') (if (c =? d)%N then t else S t)) as [t' [T1 T2]]; [lia|exact B|lia|]. exists t'. split; [exact T1|]. destruct (c =? d)%N; lia.
    + destruct (IH (S i) b m1 m2 k t) as [t' [T1 T2]]; [lia|exact B|lia|]. exists t'. split; [exact T1|]. lia.
Qed.
(** everything matched and nothing transposed: the texts are equal *)
Lemma count_full : forall l, count l = length l -> l = repeat true (length l).
Proof. induction l as [|[] l IH]; intro H; cbn in *; [reflexivity| |assert (X := count_le l); lia]. f_equal. apply IH. lia. Qed.
Lemma transpose_zero : forall l i b n t t', transpose l i b (repeat true n) (repeat true n) i t = Ok t' -> (t <= t')%nat /\ (t' = t -> forall k c, nth_error l k = Some c -> nth_error b (i + k) = Some c).
Proof.
  induction l as [|c l IH]; intros i b n t t' H; cbn [transpose] in H.
  - injection H as <-. split; [lia|]. intros _ [|k] c; discriminate.
  - destruct (nth_error (repeat true n) i) as [f|] eqn:E; [|discriminate]. assert (IN : (i < n)%nat) by (rewrite <- (repeat_length true n); apply nth_error_Some; congruence).
    assert (f = true) as -> by (eapply repeat_spec; eapply nth_error_In; exact E).
    assert (SK : skipn i (repeat true n) = true :: skipn (S i) (repeat true n)). { clear - E. revert E. generalize (repeat true n). induction i as [|i IH]; intros [|x m] E; cbn in E; try discriminate; [injection E as ->; reflexivity|]. apply IH. exact E. }
    rewrite SK in H. cbn [advance rbind] in H. destruct (nth_error b i) as [d|] eqn:E2; [|discriminate]. apply IH in H as [H1 H2]. destruct (c =? d)%N eqn:CD.
    + split; [exact H1|]. intros T [|k] x; cbn; [intro X; injection X as <-; apply N.eqb_eq in CD; subst; rewrite Nat.add_0_r; exact E2|]. intro X. replace (i + S k)%nat with (S i + k)%nat by lia. apply H2; assumption.
    + split; [lia|]. intro T. lia.
Qed.
Lemma nth_error_ext_str : forall (a b : str), length a = length b -> (forall k c, nth_error a k = Some c -> nth_error b k = Some c) -> a = b.
Proof.
  induction a as [|x a IH]; intros [|y b] L H; try discriminate; [reflexivity|]. assert (E := H O x eq_refl). injection E as ->. f_equal. apply IH; [cbn in L; lia|]. intros k c. apply (H (S k)).
Qed.

(** what the matching phase computes *)
Lemma jaro_counts : forall rnd a b, a <> b ->
  jaro rnd a b = Ok 0 \/
  exists m t, (0 < m <= length a)%nat /\ (m <= length b)%nat /\ (t <= m)%nat /\ ((m < length a)%nat \/ (m < length b)%nat \/ (0 < t)%nat) /\
    jaro rnd a b = Ok (rnd (rnd (rnd (rnd (q_of m / q_of (length a)) + rnd (q_of m / q_of (length b))) + rnd (rnd (q_of m - rnd (q_of t / 2)) / q_of m)) / 3)).
Proof.
  intros rnd a b NE. unfold jaro. destruct (str_eqb a b) eqn:E; [apply str_eqb_eq in E; contradiction|].
  set (n := Nat.max (length a) (length b)).
  destruct (mark_ok a 0 b (Z.of_nat n / 2 - 1) (repeat false n) (repeat false n) 0) as [m1 [m2 [m [X [C1 [C2 [L1 [L2 [B1 B2]]]]]]]]].
  { rewrite repeat_length. cbn. lia. } { rewrite repeat_length. lia. } { apply count_repeat. } { apply count_repeat. }
  { intros k K. apply nth_error_In, repeat_spec in K. discriminate. } { intros k K. apply nth_error_In, repeat_spec in K. discriminate. }
  { assert (0 <= Z.of_nat n / 2)%Z by (apply Z.div_pos; lia). lia. }
  rewrite X. cbn [rbind]. rewrite repeat_length in L1, L2. destruct (m =? 0)%nat eqn:M0; [left; reflexivity|]. apply Nat.eqb_neq in M0. right.
  assert (UP : forall k l, below k l -> (count l <= k)%nat).
  { clear. intros k l. revert k. induction l as [|x l IH]; intros k B; cbn; [lia|]. destruct x.
    - assert (K := B O eq_refl). destruct k as [|k]; [lia|]. specialize (IH k). assert (below k l) by (intros y Y; specialize (B (S y) Y); lia). specialize (IH H). lia.
    - destruct k as [|k]; [|assert (below k l) by (intros y Y; specialize (B (S y) Y); lia); specialize (IH k H); lia].
      assert (below 0 l) by (intros y Y; specialize (B (S y) Y); lia). specialize (IH O H). lia. }
  assert (MA := UP _ _ B1). assert (MB := UP _ _ B2). cbn [Nat.add] in MA.
  destruct (transpose_ok a 0 b m1 m2 0 0) as [t [T1 T2]]; [cbn; lia|exact B2|cbn; congruence|]. rewrite T1. cbn [rbind skipn] in *.
  exists m, t. split; [lia|]. split; [lia|]. split; [lia|]. split.
  - destruct (Nat.eq_dec m (length a)) as [EA|]; [|left; lia]. destruct (Nat.eq_dec m (length b)) as [EB|]; [|right; left; lia]. right. right.
    destruct t; [|lia]. exfalso. apply NE. assert (n = m) by lia.
    assert (F1 : m1 = repeat true n) by (replace n with (length m1) by lia; apply count_full; lia).
    assert (F2 : m2 = repeat true n) by (replace n with (length m2) by lia; apply count_full; lia).
    rewrite F1, F2 in T1. apply nth_error_ext_str; [lia|]. intros k c K. apply (transpose_zero a 0 b n 0 0 T1) in K; [exact K|reflexivity].
  - assert (NZ : forall k, (0 < k)%nat -> Qeq_bool (q_of k) 0 = false). { intros k K. destruct (Qeq_bool (q_of k) 0) eqn:Q; [|reflexivity]. apply Qeq_bool_iff in Q. unfold q_of, Qeq in Q. cbn in Q. lia. }
    unfold fdiv. rewrite (NZ (length a)), (NZ (length b)), (NZ m) by lia. reflexivity.
Qed.

(** ** Floats *)
Definition p2 (k : Z) : Q := Qpower 2 k.
Lemma p2_pos : forall k, 0 < p2 k.
Proof. intro k. apply Qpower_0_lt. reflexivity. Qed.
Lemma p2_Z : forall k, (0 <= k)%Z -> p2 k == inject_Z (2 ^ k).
Proof. intros k K. symmetry. apply (Zpower_Qpower 2 k K). Qed.
Lemma p2_plus : forall a b, p2 (a + b) == p2 a * p2 b.
Proof. intros a b. apply Qpower_plus. discriminate. Qed.
Lemma p2_le : forall a b, (a <= b)%Z -> p2 a <= p2 b.
Proof. intros a b H. apply Qpower_le_compat_l; [exact H|discriminate]. Qed.
Lemma float_Z : forall z, (Z.abs z <= 2 ^ 53)%Z -> is_float (inject_Z z).
Proof. intros z H. exists z, 0%Z. split; [exact H|]. cbn. ring. Qed.
Lemma float_scale : forall z k, (Z.abs z <= 2 ^ 53)%Z -> is_float (inject_Z z * p2 k).
Proof. intros z k H. exists z, k. split; [exact H|reflexivity]. Qed.
Lemma float_eq : forall x y, x == y -> is_float x -> is_float y.
Proof. intros x y E [m [e [A B]]]. exists m, e. split; [exact A|]. rewrite <- E. exact B. Qed.
Ltac isfloat m e := exists m, e; split; [vm_compute; discriminate|vm_compute; reflexivity].
Lemma Zinj_le : forall a b, (a <= b)%Z -> inject_Z a <= inject_Z b.
Proof. intros a b H. rewrite <- Zle_Qle. exact H. Qed.
Lemma Zinj_le_inv : forall a b, inject_Z a <= inject_Z b -> (a <= b)%Z.
Proof. intros a b H. rewrite Zle_Qle. exact H. Qed.
(** a float in [1/2, 1] is a multiple of 2^-54 *)
Lemma half_grid : forall x, is_float x -> 1 # 2 <= x -> x <= 1 -> exists k, (2 ^ 53 <= k <= 2 ^ 54)%Z /\ x == inject_Z k * p2 (-54).
Proof.
  intros x [m [e [M E]]] L U. fold (p2 e) in E. assert (PE := p2_pos e). destruct (Z_lt_le_dec e (-54)) as [H|H].
  - exfalso. assert (A := p2_le e (-55) ltac:(lia)). assert (B : inject_Z m <= inject_Z (2 ^ 53)) by (apply Zinj_le; lia).
    assert (x <= inject_Z (2 ^ 53) * p2 (-55)). { rewrite E. apply Qle_trans with (inject_Z (2 ^ 53) * p2 e); [apply Qmult_le_compat_r; [exact B|lra]|]. rewrite !(Qmult_comm (inject_Z (2 ^ 53))). apply Qmult_le_compat_r; [exact A|vm_compute; discriminate]. }
    assert (inject_Z (2 ^ 53) * p2 (-55) == 1 # 4) by (vm_compute; reflexivity). lra.
  - set (k := (m * 2 ^ (e + 54))%Z). assert (K : x == inject_Z k * p2 (-54)). { unfold k. rewrite E, inject_Z_mult, <- p2_Z by lia. rewrite <- Qmult_assoc, <- p2_plus. replace (e + 54 + -54)%Z with e by lia. reflexivity. }
    exists k. split; [|exact K]. assert (D : p2 (-54) == / inject_Z (2 ^ 54)) by (vm_compute; reflexivity). rewrite K, D in L, U.
    split; apply Zinj_le_inv.
    + apply Qle_trans with ((1 # 2) * inject_Z (2 ^ 54)); [vm_compute; discriminate|]. apply Qle_trans with (inject_Z k * / inject_Z (2 ^ 54) * inject_Z (2 ^ 54)); [apply Qmult_le_compat_r; [exact L|vm_compute; discriminate]|]. rewrite <- Qmult_assoc, (Qmult_comm (/ _)), Qmult_inv_r by discriminate. lra.
    + apply Qle_trans with (inject_Z k * / inject_Z (2 ^ 54) * inject_Z (2 ^ 54)); [rewrite <- Qmult_assoc, (Qmult_comm (/ _)), Qmult_inv_r by discriminate; lra|]. apply Qle_trans with (1 * inject_Z (2 ^ 54)); [apply Qmult_le_compat_r; [exact U|vm_compute; discriminate]|]. lra.
Qed.

(** every text that fits in memory *)
Definition short (a : str) : Prop := (Z.of_nat (length a) <= 2 ^ 48)%Z.

Section C46.
Variable rnd : Q -> Q.
Hypothesis F : faithful rnd.
Lemma r_le : forall x f, 0 <= x -> x <= f -> is_float f -> rnd x <= f.
Proof. intros x f X L FL. apply Qle_trans with (rnd f); [apply (rnd_mono _ F); assumption|]. rewrite (rnd_exact _ F f); [apply Qle_refl|lra|exact FL]. Qed.
Lemma r_ge : forall x f, 0 <= f -> f <= x -> is_float f -> f <= rnd x.
Proof. intros x f X L FL. apply Qle_trans with (rnd f); [rewrite (rnd_exact _ F f X FL); apply Qle_refl|apply (rnd_mono _ F); assumption]. Qed.
Lemma r_0 : forall x, 0 <= x -> 0 <= rnd x.
Proof. intros x H. apply r_ge; [apply Qle_refl|exact H|]. isfloat 0%Z 0%Z. Qed.
Lemma r_eq : forall x y, 0 <= x -> x == y -> rnd x == rnd y.
Proof. intros x y X E. apply Qle_antisym; apply (rnd_mono _ F); lra. Qed.

Lemma ratio : forall m l, (0 < l)%nat -> 0 <= q_of m / q_of l.
Proof. intros m l L. apply Qle_shift_div_l; [unfold q_of; change 0 with (inject_Z 0); rewrite <- Zlt_Qlt; lia|]. rewrite Qmult_0_l. unfold q_of. change 0 with (inject_Z 0). apply Zinj_le. lia. Qed.
Lemma ratio_1 : forall m l, (0 < l)%nat -> (m <= l)%nat -> q_of m / q_of l <= 1.
Proof. intros m l L M. apply Qle_shift_div_r; [unfold q_of; change 0 with (inject_Z 0); rewrite <- Zlt_Qlt; lia|]. rewrite Qmult_1_l. apply Zinj_le. lia. Qed.
Definition c48 : Q := 1 - p2 (-48).
Lemma ratio_lt : forall m l, (m < l)%nat -> (Z.of_nat l <= 2 ^ 48)%Z -> q_of m / q_of l <= c48.
Proof.
  intros m l L M. assert (A : 0 < q_of l) by (unfold q_of; change 0 with (inject_Z 0); rewrite <- Zlt_Qlt; lia). apply Qle_shift_div_r; [exact A|].
  assert (B : q_of m + 1 <= q_of l) by (unfold q_of; change 1 with (inject_Z 1); rewrite <- inject_Z_plus; apply Zinj_le; lia).
  assert (D : q_of l <= inject_Z (2 ^ 48)) by (apply Zinj_le; exact M).
  assert (E : p2 (-48) * q_of l <= 1). { apply Qle_trans with (p2 (-48) * inject_Z (2 ^ 48)); [|vm_compute; discriminate]. rewrite !(Qmult_comm (p2 (-48))). apply Qmult_le_compat_r; [exact D|vm_compute; discriminate]. }
  unfold c48. setoid_replace ((1 - p2 (-48)) * q_of l) with (q_of l - p2 (-48) * q_of l) by ring. lra.
Qed.
(** the last of the three averaged terms *)
Lemma third : forall m t, (0 < m)%nat -> (t <= m)%nat -> (Z.of_nat m <= 2 ^ 48)%Z ->
  let x := rnd (q_of m - rnd (q_of t / 2)) / q_of m in 0 <= x <= 1 /\ ((0 < t)%nat -> x <= 1 - p2 (-49)).
Proof.
  intros m t M T B x. assert (A : 0 < q_of m) by (unfold q_of; change 0 with (inject_Z 0); rewrite <- Zlt_Qlt; lia).
  assert (T0 : 0 <= q_of t) by (unfold q_of; change 0 with (inject_Z 0); apply Zinj_le; lia). assert (TM : q_of t <= q_of m) by (apply Zinj_le; lia).
  assert (H : rnd (q_of t / 2) == q_of t / 2). { apply (rnd_exact _ F); [apply Qle_shift_div_l; lra|]. exists (Z.of_nat t), (-1)%Z. split; [lia|]. reflexivity. }
  assert (H2 : rnd (q_of m - rnd (q_of t / 2)) == q_of m - q_of t / 2).
  { assert (HALF : q_of t / 2 == (1 # 2) * q_of t) by (unfold Qdiv; rewrite Qmult_comm; reflexivity).
    rewrite (r_eq _ (q_of m - q_of t / 2)); [|rewrite H, HALF; lra|rewrite H; reflexivity].
    apply (rnd_exact _ F); [rewrite HALF; lra|]. exists (2 * Z.of_nat m - Z.of_nat t)%Z, (-1)%Z. split; [lia|].
    rewrite HALF. unfold q_of. setoid_replace (2 ^ -1) with (1 # 2) by reflexivity. unfold Zminus. rewrite inject_Z_plus, inject_Z_mult, inject_Z_opp. change (inject_Z 2) with 2. lra. }
  unfold x. assert (HALF : q_of t / 2 == (1 # 2) * q_of t) by (unfold Qdiv; rewrite Qmult_comm; reflexivity). setoid_rewrite H2. rewrite HALF. split; [split|].
  - apply Qle_shift_div_l; [exact A|]. lra.
  - apply Qle_shift_div_r; [exact A|]. lra.
  - intro TP. apply Qle_shift_div_r; [exact A|]. assert (T1 : 1 <= q_of t) by (unfold q_of; change 1 with (inject_Z 1); apply Zinj_le; lia).
    assert (D : q_of m <= inject_Z (2 ^ 48)) by (apply Zinj_le; exact B).
    assert (E : p2 (-49) * q_of m <= 1 # 2). { apply Qle_trans with (p2 (-49) * inject_Z (2 ^ 48)); [|vm_compute; discriminate]. rewrite !(Qmult_comm (p2 (-49))). apply Qmult_le_compat_r; [exact D|vm_compute; discriminate]. }
    setoid_replace ((1 - p2 (-49)) * q_of m) with (q_of m - p2 (-49) * q_of m) by ring. lra.
Qed.
Definition c49 : Q := 1 - p2 (-49).
Definition c51 : Q := 1 - p2 (-51).
Lemma average : forall x y z c, 0 <= x <= 1 -> 0 <= y <= 1 -> 0 <= z <= 1 -> x + y + z <= 2 + c -> (c = 1 \/ c = c49) -> (x <= c \/ y <= c \/ z <= c) ->
  0 <= rnd (rnd (rnd (x + y) + z) / 3) <= (if Qeq_bool c 1 then 1 else c51).
Proof.
  intros x y z c X Y Z _ HC H.
  assert (FL : is_float (1 + c) /\ is_float (2 + c) /\ 0 <= c <= 1 /\ (2 + c) / 3 <= (if Qeq_bool c 1 then 1 else c51)).
  { destruct HC as [-> | ->].
    - split; [isfloat 1%Z 1%Z|]. split; [isfloat 3%Z 0%Z|]. split; [lra|]. vm_compute; discriminate.
    - split; [isfloat (2 ^ 50 - 1)%Z (-49)%Z|]. split; [isfloat (3 * 2 ^ 49 - 1)%Z (-49)%Z|]. split; [split; vm_compute; discriminate|vm_compute; discriminate]. }
  destruct FL as [F1 [F2 [C01 C3]]].
  assert (S1 : 0 <= rnd (x + y)) by (apply r_0; lra).
  assert (S2 : rnd (rnd (x + y) + z) <= 2 + c).
  { apply r_le; [lra| |exact F2]. destruct H as [H|[H|H]].
    - assert (rnd (x + y) <= 1 + c) by (apply r_le; [lra|lra|exact F1]). lra.
    - assert (rnd (x + y) <= 1 + c) by (apply r_le; [lra|lra|exact F1]). lra.
    - assert (rnd (x + y) <= 2) by (apply r_le; [lra|lra|isfloat 2%Z 0%Z]). lra. }
  assert (S3 : 0 <= rnd (rnd (x + y) + z)) by (apply r_0; lra).
  assert (D0 : 0 <= rnd (rnd (x + y) + z) / 3) by (apply Qle_shift_div_l; lra).
  split; [apply r_0; exact D0|]. apply r_le; [exact D0| |destruct (Qeq_bool c 1); [isfloat 1%Z 0%Z|isfloat (2 ^ 51 - 1)%Z (-51)%Z]].
  apply Qle_trans with ((2 + c) / 3); [|exact C3]. apply Qmult_le_compat_r; [exact S2|discriminate].
Qed.

Lemma jaro_bound : forall a b, short a -> short b -> exists j, jaro rnd a b = Ok j /\ 0 <= j <= 1 /\ is_float j /\ (a <> b -> j <= c51) /\ (a = b -> j = 1).
Proof.
  intros a b SA SB. destruct (str_dec a b) as [<-|NE].
  - exists 1. unfold jaro. rewrite str_eqb_refl. split; [reflexivity|]. split; [lra|]. split; [isfloat 1%Z 0%Z|]. split; [congruence|reflexivity].
  - destruct (jaro_counts rnd a b NE) as [->|[m [t [M [MB [T [STR E]]]]]]].
    + exists 0. split; [reflexivity|]. split; [lra|]. split; [isfloat 0%Z 0%Z|]. split; [intros _; vm_compute; discriminate|contradiction].
    + rewrite E. eexists. split; [reflexivity|]. unfold short in *.
      assert (XA : 0 <= rnd (q_of m / q_of (length a)) <= 1) by (split; [apply r_0, ratio; lia|apply r_le; [apply ratio; lia|apply ratio_1; lia|isfloat 1%Z 0%Z]]).
      assert (XB : 0 <= rnd (q_of m / q_of (length b)) <= 1) by (split; [apply r_0, ratio; lia|apply r_le; [apply ratio; lia|apply ratio_1; lia|isfloat 1%Z 0%Z]]).
      destruct (third m t ltac:(lia) ltac:(lia) ltac:(lia)) as [[Z1 Z2] Z3].
      assert (XC : 0 <= rnd (rnd (q_of m - rnd (q_of t / 2)) / q_of m) <= 1) by (split; [apply r_0; exact Z1|apply r_le; [exact Z1|exact Z2|isfloat 1%Z 0%Z]]).
      assert (ST : rnd (q_of m / q_of (length a)) <= c49 \/ rnd (q_of m / q_of (length b)) <= c49 \/ rnd (rnd (q_of m - rnd (q_of t / 2)) / q_of m) <= c49).
      { assert (FC : is_float c49) by (isfloat (2 ^ 49 - 1)%Z (-49)%Z). assert (C48 : c48 <= c49) by (vm_compute; discriminate). destruct STR as [L|[L|L]].
        - left. apply r_le; [apply ratio; lia| |exact FC]. apply Qle_trans with c48; [apply ratio_lt; [exact L|lia]|exact C48].
        - right; left. apply r_le; [apply ratio; lia| |exact FC]. apply Qle_trans with c48; [apply ratio_lt; [exact L|lia]|exact C48].
        - right; right. apply r_le; [exact Z1|apply Z3; lia|exact FC]. }
      assert (AV : 0 <= rnd (rnd (rnd (rnd (q_of m / q_of (length a)) + rnd (q_of m / q_of (length b))) + rnd (rnd (q_of m - rnd (q_of t / 2)) / q_of m)) / 3) <= c51).
      { apply (average _ _ _ c49 XA XB XC); [destruct ST as [ST|[ST|ST]]; lra|right; reflexivity|exact ST]. }
      assert (C51 : c51 <= 1) by (vm_compute; discriminate). split; [lra|]. split; [|split; [intros _; apply AV|contradiction]].
      apply (rnd_float _ F). apply Qle_shift_div_l; [lra|]. rewrite Qmult_0_l. apply r_0. assert (0 <= rnd (rnd (q_of m / q_of (length a)) + rnd (q_of m / q_of (length b)))) by (apply r_0; lra). lra.
Qed.
Lemma common_le : forall n a b, (common n a b <= n)%nat.
Proof. induction n as [|n IH]; intros [|x a] [|y b]; cbn; try lia. destruct (x =? y)%N; [|lia]. specialize (IH a b). lia. Qed.
(** the bonus for a common prefix keeps the value on the grid and below 1 *)
Lemma bonus : forall j p, is_float j -> 1 # 2 <= j -> j <= 1 -> (p <= 5)%nat ->
  let r := rnd (j + rnd (rnd (rnd (1 # 10) * q_of p) * rnd (1 - j))) in j <= r <= 1 /\ (j <= c51 -> r <= 1 - p2 (-53)) /\ is_float r.
Proof.
  intros j p FJ L U P r. destruct (half_grid j FJ L U) as [k [K E]]. set (u := inject_Z (2 ^ 54 - k) * p2 (-54)).
  assert (G : 1 == inject_Z (2 ^ 54) * p2 (-54)) by (vm_compute; reflexivity).
  assert (EU : 1 - j == u). { unfold u. rewrite E. unfold Zminus. rewrite inject_Z_plus, inject_Z_opp. rewrite G at 1. ring. }
  assert (U0 : 0 <= u) by (rewrite <- EU; lra).
  assert (RU : rnd (1 - j) == u). { rewrite (r_eq (1 - j) u); [|lra|exact EU]. apply (rnd_exact _ F _ U0). apply float_scale. lia. }
  assert (P0 : 0 <= q_of p <= 5). { unfold q_of. split; [change 0 with (inject_Z 0)|change 5 with (inject_Z 5)]; apply Zinj_le; lia. }
  assert (T0 : 0 <= rnd (1 # 10)) by (apply r_0; discriminate). assert (T1 : rnd (1 # 10) <= 1 # 8) by (apply r_le; [discriminate|discriminate|isfloat 1%Z (-3)%Z]).
  assert (S0 : 0 <= rnd (1 # 10) * q_of p) by (apply Qmult_le_0_compat; lra).
  assert (S1 : rnd (1 # 10) * q_of p <= 5 # 8). { apply Qle_trans with ((1 # 8) * q_of p); [apply Qmult_le_compat_r; lra|]. lra. }
  assert (R0 := r_0 _ S0). assert (R1 : rnd (rnd (1 # 10) * q_of p) <= 5 # 8) by (apply r_le; [exact S0|exact S1|isfloat 5%Z (-3)%Z]).
  set (w := ((5 * (2 ^ 54 - k) + 7) / 8)%Z). assert (W : (5 * (2 ^ 54 - k) <= 8 * w <= 5 * (2 ^ 54 - k) + 7)%Z) by (unfold w; assert (X := Z.div_mod (5 * (2 ^ 54 - k) + 7) 8); assert (Y := Z.mod_pos_bound (5 * (2 ^ 54 - k) + 7) 8); lia).
  set (v := rnd (rnd (1 # 10) * q_of p) * rnd (1 - j)). assert (RU0 : 0 <= rnd (1 - j)) by (rewrite RU; exact U0). assert (V0 : 0 <= v) by (apply Qmult_le_0_compat; assumption).
  assert (PP := p2_pos (-54)).
  assert (V1 : v <= inject_Z w * p2 (-54)).
  { unfold v. apply Qle_trans with ((5 # 8) * rnd (1 - j)); [apply Qmult_le_compat_r; assumption|]. rewrite RU. unfold u. rewrite Qmult_assoc. apply Qmult_le_compat_r; [|lra].
    assert (inject_Z (5 * (2 ^ 54 - k)) <= inject_Z (8 * w)) by (apply Zinj_le; lia). rewrite !inject_Z_mult in H. change (inject_Z 5) with 5 in H. change (inject_Z 8) with 8 in H. lra. }
  assert (RV : rnd v <= inject_Z w * p2 (-54)) by (apply r_le; [exact V0|exact V1|apply float_scale; lia]). assert (RV0 := r_0 _ V0).
  assert (SUM : j + rnd v <= inject_Z (k + w) * p2 (-54)). { rewrite inject_Z_plus, Qmult_plus_distr_l, <- E. lra. }
  assert (J0 : 0 <= j + rnd v) by lra. fold v in r. split; [split|split].
  - apply r_ge; [lra|lra|exact FJ].
  - apply r_le; [exact J0| |isfloat 1%Z 0%Z]. apply (Qle_trans _ _ _ SUM). rewrite G. apply Qmult_le_compat_r; [|lra]. apply Zinj_le. lia.
  - intro C. assert (KC : (k <= 2 ^ 54 - 8)%Z). { apply Zinj_le_inv. apply Qmult_lt_0_le_reg_r with (p2 (-54)); [exact PP|]. rewrite <- E. apply (Qle_trans _ _ _ C). vm_compute; discriminate. }
    apply r_le; [exact J0| |isfloat (2 ^ 53 - 1)%Z (-53)%Z]. apply (Qle_trans _ _ _ SUM). apply Qle_trans with (inject_Z (2 ^ 54 - 2) * p2 (-54)); [|vm_compute; discriminate]. apply Qmult_le_compat_r; [|lra]. apply Zinj_le. lia.
  - apply (rnd_float _ F). exact J0.
Qed.

(** the similarity of two texts: jaro_winkler_distance *)
Lemma jw_bound : forall a b, short a -> short b -> exists j w, jaro rnd a b = Ok j /\ jaro_winkler rnd a b = Ok w /\ 0 <= j /\ j <= w /\ w <= 1 /\ is_float w /\ (a <> b -> w <= 1 - p2 (-53)) /\ (a = b -> w == 1).
Proof.
  intros a b SA SB. destruct (jaro_bound a b SA SB) as [j [E [B [FL [N1 N2]]]]]. unfold jaro_winkler. rewrite E. cbn [rbind]. exists j. destruct (Qle_bool j (rnd (7 # 10))) eqn:C.
  - exists j. apply Qle_bool_iff in C. split; [reflexivity|]. split; [reflexivity|]. split; [lra|]. split; [lra|]. split; [lra|]. split; [exact FL|]. split.
    + intro N. apply Qle_trans with c51; [apply N1; exact N|vm_compute; discriminate].
    + intro N. rewrite (N2 N). reflexivity.
  - eexists. split; [reflexivity|]. split; [reflexivity|].
    assert (H : 1 # 2 <= j). { destruct (Qlt_le_dec j (1 # 2)) as [H|H]; [|exact H]. exfalso. assert (X : Qle_bool j (rnd (7 # 10)) = true); [|congruence]. apply Qle_bool_iff. apply Qle_trans with (1 # 2); [lra|]. apply r_ge; [discriminate|discriminate|isfloat 1%Z (-1)%Z]. }
    destruct (bonus j (common 5 a b) FL H (proj2 B) (common_le 5 a b)) as [B1 [B2 B3]]. split; [lra|]. split; [apply B1|]. split; [apply B1|]. split; [exact B3|]. split.
    + intro N. apply B2. apply N1. exact N.
    + intro N. rewrite (N2 N) in *. apply Qle_antisym; apply B1.
Qed.

Theorem C46_bounded : forall a b, short a -> short b ->
  exists w, jaro_winkler rnd a b = Ok w /\ 0 <= w <= 1 /\ (w == 1 <-> a = b).
Proof.
  intros a b SA SB. destruct (jw_bound a b SA SB) as [j [w [_ [E [J0 [JW [W1 [_ [N1 N2]]]]]]]]]. exists w. split; [exact E|]. split; [lra|]. split; [|exact N2].
  intro H. destruct (str_dec a b) as [EQ|NE]; [exact EQ|]. exfalso. specialize (N1 NE). assert (P := p2_pos (-53)). lra.
Qed.
(** the same for the measure without the prefix bonus, and the bonus only adds *)
Theorem C46_jaro_bounded : forall a b, short a -> short b ->
  exists j, jaro rnd a b = Ok j /\ 0 <= j <= 1 /\ (j == 1 <-> a = b).
Proof.
  intros a b SA SB. destruct (jaro_bound a b SA SB) as [j [E [B [_ [N1 N2]]]]]. exists j. split; [exact E|]. split; [exact B|]. split; [|intro X; rewrite (N2 X); reflexivity].
  intro H. destruct (str_dec a b) as [EQ|NE]; [exact EQ|]. exfalso. specialize (N1 NE). assert (c51 < 1) by (vm_compute; reflexivity). lra.
Qed.
Theorem C46_prefix_never_lowers : forall a b j w, short a -> short b -> jaro rnd a b = Ok j -> jaro_winkler rnd a b = Ok w -> j <= w.
Proof. intros a b j w SA SB E1 E2. destruct (jw_bound a b SA SB) as [j' [w' [A [B [_ [D _]]]]]]. congruence. Qed.

Lemma sim_bound : forall a b, short a -> short b -> exists w k, jaro_winkler rnd a b = Ok w /\ jw_similarity rnd a b = Ok k /\ 0 <= k <= 1 /\ (k == 0 <-> a = b) /\ (1 # 2 <= w -> k == 1 - w) /\ is_float w /\ 0 <= w <= 1.
Proof.
  intros a b SA SB. destruct (jw_bound a b SA SB) as [j [w [_ [E [J0 [JW [W1 [FL [N1 N2]]]]]]]]]. exists w, (rnd (1 - w)). unfold jw_similarity. rewrite E. split; [reflexivity|]. split; [reflexivity|].
  split; [split; [apply r_0; lra|apply r_le; [lra|lra|isfloat 1%Z 0%Z]]|]. split; [split|split].
  - intro H. destruct (str_dec a b) as [EQ|NE]; [exact EQ|]. exfalso. specialize (N1 NE). assert (p2 (-53) <= rnd (1 - w)) by (apply r_ge; [vm_compute; discriminate|lra|isfloat 1%Z (-53)%Z]). assert (P := p2_pos (-53)). lra.
  - intro H. specialize (N2 H). rewrite (r_eq (1 - w) 0); [|lra|lra]. apply (rnd_exact _ F); [lra|isfloat 0%Z 0%Z].
  - intro H. apply (rnd_exact _ F); [lra|]. destruct (half_grid w FL H W1) as [n [K G]]. apply float_eq with (inject_Z (2 ^ 54 - n) * p2 (-54)); [|apply float_scale; lia].
    unfold Zminus. rewrite inject_Z_plus, inject_Z_opp. assert (G1 : 1 == inject_Z (2 ^ 54) * p2 (-54)) by (vm_compute; reflexivity). rewrite G, Qmult_plus_distr_l, <- G1. ring.
  - split; [exact FL|lra].
Qed.
End C46.

(** no failure on any pair of texts, whatever the rounding *)
Theorem C46_total : forall rnd a b, exists x y z, jaro rnd a b = Ok x /\ jaro_winkler rnd a b = Ok y /\ jw_similarity rnd a b = Ok z.
Proof.
  intros rnd a b. assert (H : exists x, jaro rnd a b = Ok x).
  { destruct (str_dec a b) as [<-|NE]; [exists 1; unfold jaro; rewrite str_eqb_refl; reflexivity|]. destruct (jaro_counts rnd a b NE) as [E|[m [t [_ [_ [_ [_ E]]]]]]]; eauto. }
  destruct H as [x X]. exists x. unfold jw_similarity, jaro_winkler. rewrite X. cbn [rbind]. destruct (Qle_bool x (rnd (7 # 10))); cbn [rbind]; eauto.
Qed.

(** ** C45 *)
(** letters, digits and underscores, not starting with a digit, perhaps after a dollar sign *)
Definition name_letter (c : N) : Prop := (65 <= c <= 90 \/ 97 <= c <= 122 \/ c = 95)%N.
Definition name_char (c : N) : Prop := name_letter c \/ (48 <= c <= 57)%N.
Definition symbol_name (o : str) : Prop := exists h t, (o = h :: t \/ o = 36%N :: h :: t) /\ name_letter h /\ Forall name_char t.
(** what the pattern accepts: a newline may follow *)
Definition acceptable (o : str) : Prop := symbol_name o \/ exists p, symbol_name p /\ o = p ++ [10%N].

Lemma tail_iff : forall l, tail_ok l = true <-> Forall (fun c => alnum c = true) l \/ exists p, Forall (fun c => alnum c = true) p /\ l = p ++ [10%N].
Proof.
  induction l as [|c r IH]; [cbn; split; [intros _; left; constructor|reflexivity]|]. cbn [tail_ok]. destruct (alnum c) eqn:A.
  - rewrite IH. split.
    + intros [H|[p [H ->]]]; [left; constructor; assumption|right; exists (c :: p); split; [constructor; assumption|reflexivity]].
    + intros [H|[p [H E]]]; [left; inversion H; assumption|]. destruct p as [|x p]; [injection E as -> _; discriminate|]. injection E as -> ->. right. exists p. split; [inversion H; assumption|reflexivity].
  - split.
    + intro H. apply andb_true_iff in H as [H1 H2]. apply N.eqb_eq in H1. destruct r; [|discriminate]. right. exists []. split; [constructor|subst; reflexivity].
    + intros [H|[p [H E]]]; [inversion H; congruence|]. destruct p as [|x p]; [injection E as -> ->; reflexivity|]. injection E as -> ->. inversion H; congruence.
Qed.
Lemma alpha_iff : forall c, alpha c = true <-> name_letter c.
Proof. intro c. unfold alpha, name_letter. rewrite !orb_true_iff, !andb_true_iff, !N.leb_le, N.eqb_eq. tauto. Qed.
Lemma alnum_iff : forall c, alnum c = true <-> name_char c.
Proof. intro c. unfold alnum, name_char. rewrite orb_true_iff, andb_true_iff, !N.leb_le, alpha_iff. tauto. Qed.
Lemma alnums_iff : forall l, Forall (fun c => alnum c = true) l <-> Forall name_char l.
Proof. intro l. split; intro H; (eapply Forall_impl; [|exact H]; intros c X; apply alnum_iff; exact X). Qed.
Inductive sym_model : str -> Prop :=
| Sn_plain : forall h t, alpha h = true -> Forall (fun c => alnum c = true) t -> sym_model (h :: t)
| Sn_dollar : forall h t, alpha h = true -> Forall (fun c => alnum c = true) t -> sym_model (36%N :: h :: t).
Lemma sym_model_iff : forall o, sym_model o <-> symbol_name o.
Proof.
  intro o. split.
  - intros [h t A B|h t A B]; exists h, t; (split; [auto|]); (split; [apply alpha_iff; exact A|apply alnums_iff; exact B]).
  - intros [h [t [[-> | ->] [A B]]]]; constructor; (apply alpha_iff; exact A) || (apply alnums_iff; exact B).
Qed.
Lemma pattern_model : forall o, symbol_match o = true <-> sym_model o \/ exists p, sym_model p /\ o = p ++ [10%N].
Proof.
  intro o. unfold symbol_match.
  assert (HD : forall l, head_ok l = true <-> exists h t, l = h :: t /\ alpha h = true /\ (Forall (fun c => alnum c = true) t \/ exists p, Forall (fun c => alnum c = true) p /\ t = p ++ [10%N])).
  { intros [|h t]; cbn [head_ok]; [split; [discriminate|intros [h [t [X _]]]; discriminate]|]. rewrite andb_true_iff, tail_iff. split; [intros [A B]; exists h, t; auto|intros [h' [t' [X Y]]]; injection X as <- <-; exact Y]. }
  destruct o as [|c r]; [split; [discriminate|]; intros [H|[p [H E]]]; [inversion H|destruct p; discriminate]|]. destruct (c =? 36)%N eqn:C.
  - apply N.eqb_eq in C. subst c. rewrite HD. split.
    + intros [h [t [-> [A [B|[p [B ->]]]]]]]; [left; constructor; assumption|right; exists (36%N :: h :: p); split; [constructor; assumption|reflexivity]].
    + intros [H|[p [H E]]]; [inversion H; subst; [discriminate|eexists _, _; auto]|]. inversion H; subst; injection E; intros; subst; [discriminate|]. eexists _, _. split; [reflexivity|]. split; [assumption|]. right. eauto.
  - apply N.eqb_neq in C. rewrite HD. split.
    + intros [h [t [E [A [B|[p [B ->]]]]]]]; injection E as -> ->; [left; constructor; assumption|right; exists (h :: p); split; [constructor; assumption|reflexivity]].
    + intros [H|[p [H E]]]; [inversion H; subst; [eexists _, _; auto|congruence]|]. inversion H; subst; injection E; intros; subst; [|congruence]. eexists _, _. split; [reflexivity|]. split; [assumption|]. right. eauto.
Qed.
Theorem C45_pattern : forall o, symbol_match o = true <-> acceptable o.
Proof.
  intro o. rewrite pattern_model. unfold acceptable. rewrite sym_model_iff. split; (intros [H|[p [H E]]]; [left; exact H|right; exists p; split; [apply sym_model_iff; exact H|exact E]]).
Qed.

Lemma sort_head : forall A (l : list (Q * A)), l <> [] -> exists k x r l1 l2, sort_keyed l = (k, x) :: r /\ l = l1 ++ (k, x) :: l2 /\ (forall k' y, In (k', y) l1 -> k < k') /\ (forall k' y, In (k', y) l2 -> k <= k').
Proof.
  induction l as [|[k0 x0] l IH]; [congruence|]. intros _. cbn [sort_keyed]. destruct l as [|y l].
  - exists k0, x0, [], [], []. cbn. split; [reflexivity|]. split; [reflexivity|]. split; intros k' z [].
  - destruct IH as [k [x [r [l1 [l2 [E [D [H1 H2]]]]]]]]; [discriminate|]. rewrite E. cbn [insert_key]. destruct (Qle_bool k0 k) eqn:L.
    + apply Qle_bool_iff in L. exists k0, x0, ((k, x) :: r), [], (y :: l). split; [reflexivity|]. split; [reflexivity|]. split; [intros k' z []|]. intros k' z I. rewrite D in I. apply in_app_or in I as [I|[I|I]]; [apply H1 in I; lra|injection I as <- _; exact L|apply H2 in I; lra].
    + assert (G : k < k0). { destruct (Qlt_le_dec k k0) as [H|H]; [exact H|]. apply Qle_bool_iff in H. congruence. } exists k, x, (insert_key k0 x0 r), ((k0, x0) :: l1), l2. split; [reflexivity|]. split; [rewrite D; reflexivity|]. split; [|exact H2].
      intros k' z [I|I]; [injection I as <- _; exact G|apply (H1 k' z I)].
Qed.

(** what _suggest picks: the first option whose key no other option undercuts *)
Lemma suggest_spec : forall rnd word options, 
  (options = [] /\ suggest rnd word options = Ok None) \/
  exists l1 r l2 k, suggest rnd word options = Ok (Some r) /\ options = l1 ++ r :: l2 /\ jw_similarity rnd word r = Ok k /\
    (forall o, In o l1 -> exists k', jw_similarity rnd word o = Ok k' /\ k < k') /\ (forall o, In o l2 -> exists k', jw_similarity rnd word o = Ok k' /\ k <= k').
Proof.
  intros rnd word options. destruct options as [|o0 os]; [left; split; reflexivity|]. right. unfold suggest. set (l := o0 :: os). set (f := fun o => rmap (fun k => (k, o)) (jw_similarity rnd word o)).
  assert (H : exists keyed, rmapM f l = Ok keyed).
  { generalize l. induction l0 as [|o r [ks IH]]; [eexists; reflexivity|]. cbn [rmapM]. destruct (C46_total rnd word o) as [_ [_ [z [_ [_ Z]]]]]. unfold f at 1. rewrite Z. cbn [rmap rbind]. rewrite IH. cbn. eauto. }
  destruct H as [keyed H]. rewrite H. cbn [rbind]. apply rmapM_ok_iff in H.
  assert (S : forall l ks, Forall2 (fun a b => f a = Ok b) l ks -> map snd ks = l /\ forall k o, In (k, o) ks -> jw_similarity rnd word o = Ok k).
  { clear. intros l ks H. induction H as [|o [k x] l ks E H [IH1 IH2]]; [split; [reflexivity|intros k o []]|]. unfold f in E. destruct (jw_similarity rnd word o) as [q|] eqn:J; [|discriminate]. injection E as -> ->. split; [cbn; rewrite IH1; reflexivity|]. intros k' o' [I|I]; [injection I as <- <-; exact J|apply IH2; exact I]. }
  destruct (S _ _ H) as [S1 S2]. destruct (sort_head _ keyed) as [k [x [r [l1 [l2 [E [D [H1 H2]]]]]]]]; [intro X; subst keyed; discriminate|]. rewrite E.
  exists (map snd l1), x, (map snd l2), k. split; [reflexivity|]. split; [rewrite <- S1, D, map_app; reflexivity|]. split; [apply S2; rewrite D; apply in_or_app; right; left; reflexivity|]. split.
  - intros o I. apply in_map_iff in I as [[k' o'] [<- I]]. exists k'. split; [apply S2; rewrite D; apply in_or_app; left; exact I|apply (H1 _ _ I)].
  - intros o I. apply in_map_iff in I as [[k' o'] [<- I]]. exists k'. split; [apply S2; rewrite D; apply in_or_app; right; right; exact I|apply (H2 _ _ I)].
Qed.
Lemma filter_split : forall A (f : A -> bool) l l1 r l2, filter f l = l1 ++ r :: l2 -> exists m1 m2, l = m1 ++ r :: m2 /\ f r = true /\ filter f m1 = l1 /\ filter f m2 = l2.
Proof.
  induction l as [|x l IH]; intros l1 r l2 H; [destruct l1; discriminate|]. cbn [filter] in H. destruct (f x) eqn:E.
  - destruct l1 as [|y l1]; [injection H as -> H; exists [], l; auto|]. injection H as -> H. destruct (IH _ _ _ H) as [m1 [m2 [-> [A1 [A2 A3]]]]]. exists (y :: m1), m2. cbn. rewrite E, A2. auto.
  - destruct (IH _ _ _ H) as [m1 [m2 [-> [A1 [A2 A3]]]]]. exists (x :: m1), m2. cbn. rewrite E. auto.
Qed.

Section C45.
Variable rnd : Q -> Q.
(** suggest_symbol always answers; None exactly when no option has an acceptable name *)
Theorem C45_none : forall word options, exists r, suggest_symbol rnd word options = Ok r /\ (r = None <-> forall o, In o options -> ~ acceptable o).
Proof.
  intros word options. unfold suggest_symbol. destruct (suggest_spec rnd word (filter symbol_match options)) as [[E S]|[l1 [r [l2 [k [S [E _]]]]]]].
  - exists None. split; [exact S|]. split; [|reflexivity]. intros _ o I A. apply C45_pattern in A. assert (X : In o (filter symbol_match options)) by (apply filter_In; auto). rewrite E in X. destruct X.
  - exists (Some r). split; [exact S|]. split; [discriminate|]. intro N. exfalso. assert (X : In r (filter symbol_match options)) by (rewrite E; apply in_or_app; right; left; reflexivity). apply filter_In in X as [X1 X2]. apply (N r X1). apply C45_pattern. exact X2.
Qed.
(** otherwise the first acceptable option with the smallest distance jaro_winkler_similarity, i.e. 1 - similarity *)
Theorem C45_best : forall word options r, suggest_symbol rnd word options = Ok (Some r) ->
  exists l1 l2 k, options = l1 ++ r :: l2 /\ acceptable r /\ jw_similarity rnd word r = Ok k /\
    (forall o, In o l1 -> acceptable o -> exists k', jw_similarity rnd word o = Ok k' /\ k < k') /\
    (forall o, In o l2 -> acceptable o -> exists k', jw_similarity rnd word o = Ok k' /\ k <= k').
Proof.
  intros word options r H. unfold suggest_symbol in H. destruct (suggest_spec rnd word (filter symbol_match options)) as [[E S]|[l1 [r' [l2 [k [S [E [K [H1 H2]]]]]]]]]; [congruence|]. rewrite S in H. injection H as ->.
  destruct (filter_split _ _ _ _ _ _ E) as [m1 [m2 [-> [A1 [A2 A3]]]]]. exists m1, m2, k. split; [reflexivity|]. split; [apply C45_pattern; exact A1|]. split; [exact K|]. split.
  - intros o I A. apply C45_pattern in A. apply H1. rewrite <- A2. apply filter_In. auto.
  - intros o I A. apply C45_pattern in A. apply H2. rewrite <- A3. apply filter_In. auto.
Qed.
Hypothesis F : faithful rnd.
(** in terms of the similarity jaro_winkler_distance: earlier options are strictly less similar; later options are not
    more similar, where the rounding of 1 - similarity can only hide differences up to one half *)
Theorem C45_most_similar : forall word options r, suggest_symbol rnd word options = Ok (Some r) -> short word -> (forall o, In o options -> short o) ->
  exists l1 l2 w, options = l1 ++ r :: l2 /\ jaro_winkler rnd word r = Ok w /\
    (forall o, In o l1 -> acceptable o -> exists w', jaro_winkler rnd word o = Ok w' /\ w' < w) /\
    (forall o, In o l2 -> acceptable o -> exists w', jaro_winkler rnd word o = Ok w' /\ (1 # 2 < w' -> w' <= w)).
Proof.
  intros word options r H SW SO. destruct (C45_best _ _ _ H) as [l1 [l2 [k [E [A [K [H1 H2]]]]]]].
  assert (SR : short r) by (apply SO; rewrite E; apply in_or_app; right; left; reflexivity). destruct (sim_bound rnd F word r SW SR) as [w [k0 [W [K0 [KB [_ [KE [FW WB]]]]]]]].
  assert (k0 = k) as -> by congruence. exists l1, l2, w. split; [exact E|]. split; [exact W|]. split.
  - intros o I AO. destruct (H1 o I AO) as [k' [K' L]]. assert (SOo : short o) by (apply SO; rewrite E; apply in_or_app; left; exact I). destruct (sim_bound rnd F word o SW SOo) as [w' [k1 [W' [K1 [KB' [_ [KE' [FW' WB']]]]]]]]. assert (k1 = k') as -> by congruence.
    exists w'. split; [exact W'|]. destruct (Qlt_le_dec w' w) as [X|X]; [exact X|]. exfalso. unfold jw_similarity in K, K'. rewrite W in K. rewrite W' in K'. cbn [rbind] in K, K'. injection K as <-. injection K' as <-. assert (rnd (1 - w') <= rnd (1 - w)) by (apply (rnd_mono _ F); lra). lra.
  - intros o I AO. destruct (H2 o I AO) as [k' [K' L]]. assert (SOo : short o) by (apply SO; rewrite E; apply in_or_app; right; right; exact I). destruct (sim_bound rnd F word o SW SOo) as [w' [k1 [W' [K1 [KB' [_ [KE' [FW' WB']]]]]]]]. assert (k1 = k') as -> by congruence.
    exists w'. split; [exact W'|]. intro HF. specialize (KE' ltac:(lra)). destruct (Qlt_le_dec w w') as [X|X]; [|exact X]. exfalso.
    assert (1 - w' < 1 - w) by lra.
    assert (LW : k <= 1 - w'). { lra. }
    destruct (Qlt_le_dec w (1 # 2)) as [Y|Y]; [|specialize (KE Y); lra].
    assert (1 # 2 <= k); [|].
    { unfold jw_similarity in K. rewrite W in K. cbn [rbind] in K. injection K as <-. apply (r_ge rnd F); [discriminate|lra|isfloat 1%Z (-1)%Z]. }
    lra.
Qed.
(** an exact match wins *)
Theorem C45_itself : forall word options, short word -> (forall o, In o options -> short o) -> acceptable word -> In word options -> suggest_symbol rnd word options = Ok (Some word).
Proof.
  intros word options SW SO A I. destruct (C45_none word options) as [r [E N]]. destruct r as [r|]; [|exfalso; apply (proj1 N eq_refl word I A)].
  destruct (C45_best _ _ _ E) as [l1 [l2 [k [D [_ [K [H1 H2]]]]]]]. destruct (sim_bound rnd F word word SW SW) as [w0 [k0 [_ [K0 [_ [Z _]]]]]].
  assert (SR : short r) by (apply SO; rewrite D; apply in_or_app; right; left; reflexivity). destruct (sim_bound rnd F word r SW SR) as [w [k1 [_ [K1 [B [Z1 _]]]]]]. assert (k1 = k) as -> by congruence.
  assert (k0 == 0) by (apply Z; reflexivity). assert (L : k <= k0). { rewrite D in I. apply in_app_or in I as [I|[<-|I]]; [destruct (H1 word I A) as [k' [K' L]]; assert (k' = k0) as -> by congruence; lra|assert (k0 = k) as -> by congruence; apply Qle_refl|destruct (H2 word I A) as [k' [K' L]]; assert (k' = k0) as -> by congruence; exact L]. }
  assert (word = r) by (apply Z1; lra). subst r. exact E.
Qed.
End C45.

(** ** The hypotheses can be met: truncation to 53 bits is faithful *)
Definition expo (x : Q) : Z := (Z.log2 (Qnum x) - Z.log2 (Zpos (Qden x)) - 53)%Z.
Definition trunc53 (x : Q) : Q :=
  if Qle_bool x 0 then 0
  else
    let f := Qround.Qfloor (x / p2 (expo x)) in
    if (f <=? 2 ^ 53)%Z then inject_Z f * p2 (expo x)
    else inject_Z (Qround.Qfloor (x / p2 (expo x + 1))) * p2 (expo x + 1).
Lemma p2_div : forall x e f, inject_Z f * p2 e <= x <-> inject_Z f <= x / p2 e.
Proof.
  intros x e f. assert (P := p2_pos e). split; intro H; [apply Qle_shift_div_l; assumption|]. apply Qle_trans with (x / p2 e * p2 e); [apply Qmult_le_compat_r; lra|]. unfold Qdiv. rewrite <- Qmult_assoc, (Qmult_comm (/ _)), Qmult_inv_r by lra. lra.
Qed.
Lemma p2_div_lt : forall x e f, x < inject_Z f * p2 e <-> x / p2 e < inject_Z f.
Proof.
  intros x e f. assert (P := p2_pos e). split; intro H; [apply Qlt_shift_div_r; assumption|]. apply Qle_lt_trans with (x / p2 e * p2 e); [unfold Qdiv; rewrite <- Qmult_assoc, (Qmult_comm (/ _)), Qmult_inv_r by lra; lra|]. apply Qmult_lt_compat_r; lra.
Qed.
Lemma trunc53_spec : forall x, 0 < x -> exists e, trunc53 x = inject_Z (Qround.Qfloor (x / p2 e)) * p2 e /\ (2 ^ 52 <= Qround.Qfloor (x / p2 e) <= 2 ^ 53)%Z.
Proof.
  intros x X. unfold trunc53. destruct (Qle_bool x 0) eqn:E0; [apply Qle_bool_iff in E0; lra|].
  assert (NP : (0 < Qnum x)%Z) by (unfold Qlt in X; cbn in X; lia). assert (DP : (0 < Zpos (Qden x))%Z) by lia.
  assert (LN := Z.log2_spec _ NP). assert (LD := Z.log2_spec _ DP). assert (LN0 := Z.log2_nonneg (Qnum x)). assert (LD0 := Z.log2_nonneg (Zpos (Qden x))).
  set (a := Z.log2 (Qnum x)) in *. set (b := Z.log2 (Zpos (Qden x))) in *. unfold expo. fold a b. set (e := (a - b - 53)%Z).
  assert (XE : x == inject_Z (Qnum x) / inject_Z (Zpos (Qden x))) by (destruct x; unfold Qeq, Qdiv, Qinv; cbn; lia).
  assert (DQ : 0 < inject_Z (Zpos (Qden x))) by (change 0 with (inject_Z 0); rewrite <- Zlt_Qlt; lia).
  assert (LO : inject_Z (2 ^ 52) * p2 e <= x).
  { rewrite XE. apply Qle_shift_div_l; [exact DQ|]. apply Qle_trans with (inject_Z (2 ^ 52) * p2 e * p2 (b + 1)).
    - rewrite !(Qmult_comm (inject_Z (2 ^ 52) * p2 e)). apply Qmult_le_compat_r; [rewrite p2_Z by lia; apply Zinj_le; replace (b + 1)%Z with (Z.succ b) by lia; lia|]. apply Qmult_le_0_compat; [vm_compute; discriminate|apply Qlt_le_weak, p2_pos].
    - rewrite <- (p2_Z 52) by lia. rewrite <- !p2_plus. replace (52 + e + (b + 1))%Z with a by (unfold e; lia). rewrite p2_Z by lia. apply Zinj_le. lia. }
  assert (HI : x < inject_Z (2 ^ 54) * p2 e).
  { rewrite XE. apply Qlt_shift_div_r; [exact DQ|]. apply Qlt_le_trans with (inject_Z (2 ^ 54) * p2 e * p2 b).
    - rewrite <- (p2_Z 54) by lia. rewrite <- !p2_plus. replace (54 + e + b)%Z with (Z.succ a) by (unfold e; lia). rewrite p2_Z by lia. rewrite <- Zlt_Qlt. lia.
    - rewrite !(Qmult_comm (inject_Z (2 ^ 54) * p2 e)). apply Qmult_le_compat_r; [rewrite p2_Z by lia; apply Zinj_le; lia|]. apply Qmult_le_0_compat; [vm_compute; discriminate|apply Qlt_le_weak, p2_pos]. }
  assert (FL : forall e', inject_Z (2 ^ 52) * p2 e' <= x -> (2 ^ 52 <= Qround.Qfloor (x / p2 e'))%Z). { intros e' H. apply p2_div in H. apply Qround.Qfloor_resp_le in H. rewrite Qround.Qfloor_Z in H. exact H. }
  destruct (Qround.Qfloor (x / p2 e) <=? 2 ^ 53)%Z eqn:F.
  - exists e. split; [reflexivity|]. split; [apply FL; exact LO|lia].
  - exists (e + 1)%Z. split; [reflexivity|]. apply Z.leb_gt in F. split.
    + apply FL. apply Qle_trans with (inject_Z (2 ^ 53) * p2 e); [|apply p2_div; apply Qle_trans with (inject_Z (Qround.Qfloor (x / p2 e))); [apply Zinj_le; lia|apply Qround.Qfloor_le]]. rewrite <- (p2_Z 52), <- (p2_Z 53), <- !p2_plus by lia. replace (52 + (e + 1))%Z with (53 + e)%Z by lia. apply Qle_refl.
    + apply Zinj_le_inv. apply Qle_trans with (x / p2 (e + 1)); [apply Qround.Qfloor_le|]. apply Qlt_le_weak. apply p2_div_lt. apply Qlt_le_trans with (inject_Z (2 ^ 54) * p2 e); [exact HI|]. rewrite <- (p2_Z 54), <- (p2_Z 53), <- !p2_plus by lia. replace (53 + (e + 1))%Z with (54 + e)%Z by lia. apply Qle_refl.
Qed.
Lemma trunc53_0 : forall x, 0 <= x -> ~ 0 < x -> trunc53 x = 0 /\ x == 0.
Proof. intros x A B. unfold trunc53. destruct (Qle_bool x 0) eqn:E; [apply Qle_bool_iff in E; split; [reflexivity|lra]|]. exfalso. apply B. destruct (Qlt_le_dec 0 x) as [H|H]; [exact H|]. apply Qle_bool_iff in H. congruence. Qed.
Lemma trunc53_le : forall x, 0 <= x -> 0 <= trunc53 x <= x.
Proof.
  intros x X. destruct (Qlt_le_dec 0 x) as [P|P].
  - destruct (trunc53_spec x P) as [e [-> B]]. assert (Q := p2_pos e). split; [apply Qmult_le_0_compat; [change 0 with (inject_Z 0); apply Zinj_le; lia|lra]|]. apply p2_div. apply Qround.Qfloor_le.
  - destruct (trunc53_0 x X) as [-> E]; [lra|]. lra.
Qed.
(** the largest float not above x *)
Lemma trunc53_largest : forall x f, 0 <= x -> is_float f -> f <= x -> f <= trunc53 x.
Proof.
  intros x f X [m [e' [M E]]] L. fold (p2 e') in E. assert (Q' := p2_pos e'). destruct (Qlt_le_dec 0 x) as [P|P]; [|destruct (trunc53_0 x X) as [-> Z]; lra].
  destruct (trunc53_spec x P) as [e [-> B]]. assert (Q := p2_pos e). destruct (Z_lt_le_dec e' e) as [LT|GE].
  - apply Qle_trans with (inject_Z (2 ^ 53) * p2 e'); [rewrite E; apply Qmult_le_compat_r; [apply Zinj_le; lia|lra]|]. apply Qle_trans with (inject_Z (2 ^ 52) * p2 e); [|apply Qmult_le_compat_r; [apply Zinj_le; lia|lra]].
    rewrite <- (p2_Z 52), <- (p2_Z 53), <- !p2_plus by lia. apply p2_le. lia.
  - assert (EF : f == inject_Z (m * 2 ^ (e' - e)) * p2 e). { rewrite E, inject_Z_mult, <- p2_Z by lia. rewrite <- Qmult_assoc, <- p2_plus. replace (e' - e + e)%Z with e' by lia. reflexivity. }
    rewrite EF in L |- *. apply p2_div in L. apply Qround.Qfloor_resp_le in L. rewrite Qround.Qfloor_Z in L. apply Qmult_le_compat_r; [apply Zinj_le; exact L|lra].
Qed.
Theorem trunc53_faithful : faithful trunc53.
Proof.
  assert (FL : forall x, 0 <= x -> is_float (trunc53 x)). { intros x X. destruct (Qlt_le_dec 0 x) as [P|P]; [|destruct (trunc53_0 x X) as [-> Z]; [lra|isfloat 0%Z 0%Z]]. destruct (trunc53_spec x P) as [e [-> B]]. apply float_scale. lia. }
  constructor.
  - intros x y X L. apply trunc53_largest; [lra|apply FL; exact X|]. assert (H := trunc53_le x X). lra.
  - exact FL.
  - intros x X H. apply Qle_antisym; [apply trunc53_le; exact X|]. apply trunc53_largest; [exact X|exact H|apply Qle_refl].
Qed.

(** ** Deviation: an option that is no symbol name because it ends in a newline is suggested *)
Theorem C45_newline_refuted : exists r, suggest_symbol trunc53 (s "ab") [s "ab" ++ [10%N]] = Ok (Some r) /\ ~ symbol_name r.
Proof.
  eexists. split; [vm_compute; reflexivity|]. intro H. apply sym_model_iff in H. inversion H as [h t A B|h t A B]; subst. inversion B as [|x l B1 B2]; subst. inversion B2 as [|y l2 B3 B4]; subst. discriminate B3.
Qed.
(** without such options the choice is always a symbol name *)
Theorem C45_symbol_name : forall rnd word options r, suggest_symbol rnd word options = Ok (Some r) -> ~ In 10%N r -> symbol_name r.
Proof. intros rnd word options r H N. destruct (C45_best _ _ _ _ H) as [_ [_ [_ [_ [[A|[p [_ ->]]] _]]]]]; [exact A|]. exfalso. apply N. apply in_or_app. right. left. reflexivity. Qed.

Example C45_example : suggest_symbol trunc53 (s "titel") [s "1x"; s "name"; s "title"; s "titles"] = Ok (Some (s "title")) /\ suggest_symbol trunc53 (s "a") [s "1"; s "-"] = Ok None
  /\ acceptable (s "title") /\ ~ acceptable (s "1x") /\ short (s "title").
Proof. repeat (split; [vm_compute; reflexivity|]). split; [apply C45_pattern; reflexivity|]. split; [intro H; apply C45_pattern in H; discriminate H|vm_compute; discriminate]. Qed.
Example C46_example : exists w, jaro_winkler trunc53 (s "jonathon") (s "jonathan") = Ok w /\ 9583 # 10000 < w /\ w < 9584 # 10000.
Proof. eexists. split; [vm_compute; reflexivity|]. split; vm_compute; reflexivity. Qed.
