(** * P_Float: C74, results that Python computes with native floats *)
From Coq Require Import QArith Qabs Qpower Lqa Lia String.
From Verif Require Import Base Dec Value DType DTypeFacts Types Ops EqFacts CoerceFacts TypesFacts DecFacts DecRound Flt ParseUtil NumFacts FltFacts FltNear Attr Prog Ast Eval Build Engine
  ProgFacts StateFacts Post Refine Demo P_Compare P_Ops P_Eval P_Names P_Calls P_Attrs P_Numbers.
Open Scope list_scope.
Open Scope Z_scope.

(** The specification is at the head of FltNear.v: [double], [nearest_double] (IEEE 754 round to nearest, ties to even), [shortest_for]
    (the shortest decimal that reads back as the double; of those the nearest).  Both determine their results: *)
Theorem C74_specification_unique : (forall v x y, nearest_double v x -> nearest_double v y -> (x == y)%Q) /\ (forall x w u, shortest_for x w -> shortest_for x u -> (w == u)%Q).
Proof. split; [exact nearest_unique|exact shortest_unique]. Qed.

(** [w] is what Python prints for the float nearest to [v] *)
Definition as_float (v w : Q) : Prop := exists x, nearest_double v x /\ shortest_for x w.

Lemma as_float_mono v v' w w' : as_float v w -> as_float v' w' -> (v <= v')%Q -> (w <= w')%Q.
Proof.
  intros (x & N & S) (y & N' & S') L. pose proof (nearest_mono _ _ _ _ N N' L) as G. destruct (Qlt_le_dec x y) as [H|H]; [pose proof (shortest_mono _ _ _ _ S S' H); lra|].
  assert (E : (x == y)%Q) by lra. rewrite (shortest_unique y w w'); [apply Qle_refl|eapply shortest_ext; [exact E|reflexivity|exact S]|exact S'].
Qed.
Lemma as_float_opp v w : as_float v w -> as_float (- v) (- w).
Proof. intros (x & N & S). exists (- x)%Q. split; [apply nearest_opp, N|apply shortest_opp, S]. Qed.
Lemma as_float_ext v v' w w' : (v == v')%Q -> (w == w')%Q -> as_float v w -> as_float v' w'.
Proof. intros E1 E2 (x & N & S). exists x. split; [eapply nearest_ext; [exact E1|reflexivity|exact N]|eapply shortest_ext; [reflexivity|exact E2|exact S]]. Qed.
Lemma small_overflow v : (v <= inject_Z (2 ^ 100))%Q -> (v < overflow)%Q.
Proof. intros H. eapply Qle_lt_trans; [exact H|]. vm_compute. reflexivity. Qed.
Lemma flt_div_as a b : Z.abs a < 2 ^ 100 -> exists m e n c j, flt_div a b = FFin m e (DFin n c j) /\ as_float (a # b) (dec_q n c j).
Proof.
  intros A. destruct (mk_flt_spec (a <? 0) (Z.abs a # b)) as [F _]; [unfold Qle; cbn; lia|]. destruct F as (m & e & c & k & x & E & _ & N & S).
  - apply small_overflow. unfold Qle, inject_Z. cbn [Qnum Qden]. nia.
  - exists m, e, (a <? 0), c, k. split; [exact E|]. assert (AF : as_float (Z.abs a # b) (dec_q false c k)) by (exists x; auto). pose proof (sign_abs a b) as SA. pose proof (dec_q_sign (a <? 0) c k) as DS. destruct (a <? 0).
    + eapply as_float_ext; [symmetry; exact SA|symmetry; exact DS|]. apply as_float_opp, AF.
    + eapply as_float_ext; [symmetry; exact SA|symmetry; exact DS|exact AF].
Qed.

Section C74.
Context (Orc : Oracle) (C : ctx) (thing : value) (w : world).
Notation yields := (yields C thing w).

(** s.to_flt of a numeral with a fraction or an exponent: the number written, as a float; infinite from 2^1024 - 2^970 on *)
Theorem C74_to_flt : plain_space Orc -> forall o safe q m q1, numeral_ok m -> nm_frac m <> None \/ nm_exp m <> None -> yields q o (VStr (numeral_text m)) q1 ->
  (numeral_value m < inject_Z (2 ^ 54 - 1) * (2 # 1) ^ 970)%Q ->
  exists c e, yields q (EAttr o (s "to_flt") safe) (VDec (DFin false c e)) q1 /\ as_float (numeral_value m) (dec_q false c e).
Proof.
  intros PS o safe q m q1 OK FX H U. assert (LZ : ~ leading_zero m) by (intros (F & X & _); destruct FX; congruence). assert (G := to_flt_numeral Orc PS m OK LZ).
  assert (NV : (q10 (Z.of_N (positional 10 (nm_int m ++ opt_list (nm_frac m)))) (exponent m - Z.of_nat (length (opt_list (nm_frac m)))) == numeral_value m)%Q) by (rewrite q10_spec; reflexivity).
  set (cc := positional 10 (nm_int m ++ opt_list (nm_frac m))) in *. set (ee := exponent m - Z.of_nat (length (opt_list (nm_frac m)))) in *.
  assert (G' : string_to_flt (numeral_text m) = Ok (VFlt (flt_of_dec cc ee))). { rewrite G. destruct (nm_frac m), (nm_exp m); try reflexivity. destruct FX; congruence. }
  rewrite <- NV in U. destruct (mk_flt_spec false (q10 (Z.of_N cc) ee)) as [F _]. { rewrite q10_spec. apply Qmult_le_0_compat; [change 0%Q with (inject_Z 0); rewrite <- Zle_Qle; lia|]. pose proof (p_pos 10 ee). lra. }
  destruct (F U) as (mm & e2 & c & k & x & R & _ & N & S). exists c, k.
  assert (Y := str_to_flt Orc C thing w o safe q _ q1 _ H G' (or_intror (or_introl (ex_intro _ _ eq_refl)))). cbv beta iota in Y. unfold flt_of_dec in Y. rewrite R in Y. split; [exact Y|].
  exists x. split; [eapply nearest_ext; [exact NV|reflexivity|exact N]|exact S].
Qed.
Theorem C74_to_flt_overflow : plain_space Orc -> forall o safe q m q1, numeral_ok m -> nm_frac m <> None \/ nm_exp m <> None -> yields q o (VStr (numeral_text m)) q1 ->
  (inject_Z (2 ^ 54 - 1) * (2 # 1) ^ 970 <= numeral_value m)%Q -> yields q (EAttr o (s "to_flt") safe) (VDec (DInf false)) q1.
Proof.
  intros PS o safe q m q1 OK FX H U. assert (LZ : ~ leading_zero m) by (intros (F & X & _); destruct FX; congruence). assert (G := to_flt_numeral Orc PS m OK LZ).
  assert (NV : (q10 (Z.of_N (positional 10 (nm_int m ++ opt_list (nm_frac m)))) (exponent m - Z.of_nat (length (opt_list (nm_frac m)))) == numeral_value m)%Q) by (rewrite q10_spec; reflexivity).
  set (cc := positional 10 (nm_int m ++ opt_list (nm_frac m))) in *. set (ee := exponent m - Z.of_nat (length (opt_list (nm_frac m)))) in *.
  assert (G' : string_to_flt (numeral_text m) = Ok (VFlt (flt_of_dec cc ee))). { rewrite G. destruct (nm_frac m), (nm_exp m); try reflexivity. destruct FX; congruence. }
  rewrite <- NV in U. destruct (mk_flt_spec false (q10 (Z.of_N cc) ee)) as [_ F]. { rewrite q10_spec. apply Qmult_le_0_compat; [change 0%Q with (inject_Z 0); rewrite <- Zle_Qle; lia|]. pose proof (p_pos 10 ee). lra. }
  assert (Y := str_to_flt Orc C thing w o safe q _ q1 _ H G' (or_intror (or_introl (ex_intro _ _ eq_refl)))). cbv beta iota in Y. unfold flt_of_dec in Y. rewrite (F U) in Y. exact Y.
Qed.
(** x.to_epoch and d.total_seconds: the seconds, as a float *)
Theorem C74_epoch : forall o safe q t z q1, yields q o (VDt t (Some z)) q1 -> Z.abs (since_epoch Orc t z) < 2 ^ 100 ->
  exists n c e, yields q (EAttr o (s "to_epoch") safe) (VDec (DFin n c e)) q1 /\ as_float (secs (since_epoch Orc t z)) (dec_q n c e).
Proof.
  intros o safe q t z q1 H B. assert (R := run_to_epoch Orc C thing w o safe q t z q1 H). destruct (flt_div_as (since_epoch Orc t z) 1000000 B) as (m & e & n & c & j & E & V). rewrite E in R. exists n, c, j. split; [exact R|exact V].
Qed.
Theorem C74_total_seconds : forall o safe q u q1, yields q o (VTd u) q1 -> Z.abs u < 2 ^ 100 ->
  exists n c e, yields q (EAttr o (s "total_seconds") safe) (VDec (DFin n c e)) q1 /\ as_float (secs u) (dec_q n c e).
Proof.
  intros o safe q u q1 H B. assert (R := run_total_seconds Orc C thing w o safe q u q1 H). destruct (flt_div_as u 1000000 B) as (m & e & n & c & j & E & V). rewrite E in R. exists n, c, j. split; [exact R|exact V].
Qed.
(** So order is never reversed, without any bound on digits: earlier instants have no larger epochs; shorter durations no more seconds *)
Theorem C74_epoch_order : forall o o' safe safe' q q' t t' z z' q1 q1', yields q o (VDt t (Some z)) q1 -> yields q' o' (VDt t' (Some z')) q1' ->
  Z.abs (since_epoch Orc t z) < 2 ^ 100 -> Z.abs (since_epoch Orc t' z') < 2 ^ 100 -> t - utcoff z t <= t' - utcoff z' t' ->
  exists n c e n' c' e', yields q (EAttr o (s "to_epoch") safe) (VDec (DFin n c e)) q1 /\ yields q' (EAttr o' (s "to_epoch") safe') (VDec (DFin n' c' e')) q1' /\ (dec_q n c e <= dec_q n' c' e')%Q.
Proof.
  intros o o' safe safe' q q' t t' z z' q1 q1' H H' B B' L. destruct (C74_epoch o safe q t z q1 H B) as (n & c & e & R & V). destruct (C74_epoch o' safe' q' t' z' q1' H' B') as (n' & c' & e' & R' & V').
  exists n, c, e, n', c', e'. split; [exact R|]. split; [exact R'|]. apply (as_float_mono _ _ _ _ V V'). unfold secs, since_epoch, Qle. cbn [Qnum Qden]. lia.
Qed.
Theorem C74_total_seconds_order : forall o o' safe safe' q q' u u' q1 q1', yields q o (VTd u) q1 -> yields q' o' (VTd u') q1' -> Z.abs u < 2 ^ 100 -> Z.abs u' < 2 ^ 100 -> u <= u' ->
  exists n c e n' c' e', yields q (EAttr o (s "total_seconds") safe) (VDec (DFin n c e)) q1 /\ yields q' (EAttr o' (s "total_seconds") safe') (VDec (DFin n' c' e')) q1' /\ (dec_q n c e <= dec_q n' c' e')%Q.
Proof.
  intros o o' safe safe' q q' u u' q1 q1' H H' B B' L. destruct (C74_total_seconds o safe q u q1 H B) as (n & c & e & R & V). destruct (C74_total_seconds o' safe' q' u' q1' H' B') as (n' & c' & e' & R' & V').
  exists n, c, e, n', c', e'. split; [exact R|]. split; [exact R'|]. apply (as_float_mono _ _ _ _ V V'). unfold secs, Qle. cbn [Qnum Qden]. lia.
Qed.
(** and the texts of two numerals keep their order *)
Theorem C74_to_flt_order : plain_space Orc -> forall o o' safe safe' q q' m m' q1 q1', numeral_ok m -> nm_frac m <> None \/ nm_exp m <> None -> yields q o (VStr (numeral_text m)) q1 ->
  numeral_ok m' -> nm_frac m' <> None \/ nm_exp m' <> None -> yields q' o' (VStr (numeral_text m')) q1' -> (numeral_value m <= numeral_value m')%Q -> (numeral_value m' < inject_Z (2 ^ 54 - 1) * (2 # 1) ^ 970)%Q ->
  exists c e c' e', yields q (EAttr o (s "to_flt") safe) (VDec (DFin false c e)) q1 /\ yields q' (EAttr o' (s "to_flt") safe') (VDec (DFin false c' e')) q1' /\ (dec_q false c e <= dec_q false c' e')%Q.
Proof.
  intros PS o o' safe safe' q q' m m' q1 q1' OK FX H OK' FX' H' L U. destruct (C74_to_flt PS o safe q m q1 OK FX H) as (c & e & R & V); [eapply Qle_lt_trans; [exact L|exact U]|]. destruct (C74_to_flt PS o' safe' q' m' q1' OK' FX' H' U) as (c' & e' & R' & V').
  exists c, e, c', e'. split; [exact R|]. split; [exact R'|]. apply (as_float_mono _ _ _ _ V V' L).
Qed.
End C74.
Print Assumptions C74_specification_unique.
Print Assumptions C74_to_flt.
Print Assumptions C74_to_flt_overflow.
Print Assumptions C74_epoch.
Print Assumptions C74_total_seconds.
Print Assumptions C74_epoch_order.
Print Assumptions C74_total_seconds_order.
Print Assumptions C74_to_flt_order.

(** 2^53 + 1 lies between two doubles, and the even one is taken: 9007199254740993.0 is read as ...992, 9007199254740995.0 as ...996; 1e309 is
    infinite, 5e-324 the least number, and half of it (rounded down) is zero *)
Example C74_example : let at_ t := fst (run demo_world (eval untyped_ctx VNull (EAttr (ELit (VStr (s t))) (s "to_flt") false)) demo_st) in
  numeral_ok {| nm_int := [9; 0; 0; 7; 1; 9; 9; 2; 5; 4; 7; 4; 0; 9; 9; 3]%N; nm_frac := Some [0%N]; nm_exp := None |} /\
  at_ "9007199254740993.0"%string = Ok (VDec (DFin false 90071992547409920 (-1))) /\ at_ "9007199254740995.0"%string = Ok (VDec (DFin false 90071992547409960 (-1))) /\
  at_ "1e309"%string = Ok (VDec (DInf false)) /\ at_ "4e-324"%string = Ok (VDec (DFin false 5 (-324))) /\ at_ "2e-324"%string = Ok (VDec (DFin false 0 (-1))) /\
  at_ "0.30000000000000004"%string = Ok (VDec (DFin false 30000000000000004 (-17))) /\ at_ "0.300000000000000044408920985006"%string = Ok (VDec (DFin false 30000000000000004 (-17))).
Proof. cbv zeta. split; [split; [repeat constructor; lia|split; [intros H; discriminate H|exact I]]|]. repeat split; vm_compute; reflexivity. Qed.
