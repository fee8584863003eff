(** * Theorems about the value operators: regex, arithmetic, datetimes, bitwise, membership, items, slices (C20, C21, C23, C25-C29) *)
From Coq Require Import QArith Permutation Lia String.
From Verif Require Import Base Dec Value DType Types Ops EqFacts CoerceFacts TypesFacts Prog Ast Eval Build Engine Demo P_Compare.
Open Scope list_scope.
Open Scope Z_scope.

(** ** Specification vocabulary *)

(** In state [q], evaluating [e] yields the value [v] and leaves the state [q']. *)
Definition yields {Orc : Oracle} (C : ctx) (thing : value) (w : world) (q : st) (e : expr) (v : value) (q' : st) : Prop :=
  run w (eval C thing e) q = (Ok v, q').
(** In state [q], evaluating [e] raises [x] and leaves the state [q']. *)
Definition fails {Orc : Oracle} (C : ctx) (thing : value) (w : world) (q : st) (e : expr) (x : exn) (q' : st) : Prop :=
  run w (eval C thing e) q = (Err x, q').

Ltac evbin H1 := cbn [eval]; rewrite run_pbind, H1.
Ltac evnext H2 := rewrite run_pbind, H2.

(** ** C20: regular expressions *)
Section C20.
Context (Orc : Oracle) (C : ctx) (thing : value) (w : world).
Notation yields := (yields C thing w). Notation fails := (fails C thing w).

Definition text_or_null (v : value) : Prop := v = VNull \/ exists t, v = VStr t.

(** null operands: true (for the positive operators) iff both are null; the state (and with it $re_groups) is untouched *)
Theorem C20_null : forall search neg a b q x y q1 q2, yields q a x q1 -> yields q1 b y q2 ->
  text_or_null x -> text_or_null y -> x = VNull \/ y = VNull -> (forall p, y = VStr p -> o_re_ok (c_flags C) p = true) ->
  yields q (EBin (BFuzzy search neg) a b) (VBool (xorb neg (is_null x && is_null y))) q2.
Proof.
  unfold P_Ops.yields. intros search neg a b q x y q1 q2 Ha Hb Tx Ty N K. evbin Ha.
  assert (M : run w (fuzzy_match C search neg (is_str_lit b) x y) q2 = (Ok (VBool (xorb neg (is_null x && is_null y))), q2)).
  { destruct Tx as [->|[t ->]], Ty as [->|[p ->]]; cbn [fuzzy_match is_null andb].
    - reflexivity.
    - rewrite xorb_false_r. unfold compile_ok. rewrite (K p eq_refl). destruct (is_str_lit b); reflexivity.
    - reflexivity.
    - destruct N; discriminate. }
  destruct Tx as [->|[t ->]]; evnext Hb; exact M.
Qed.

(** !~ and !~~ are =~ and =~~ with the result negated: same errors, same effects, for all operands *)
Theorem C20_complement : forall search a b q,
  run w (eval C thing (EBin (BFuzzy search true) a b)) q =
  let '(r, q') := run w (eval C thing (EBin (BFuzzy search false) a b)) q in (rnot r, q').
Proof.
  intros. cbn [eval]. rewrite !run_pbind. destruct (run w (eval C thing a) q) as [[x|e] q1]; [|reflexivity].
  assert (M : forall y q2, run w (fuzzy_match C search true (is_str_lit b) x y) q2 =
    (let '(r, q') := run w (fuzzy_match C search false (is_str_lit b) x y) q2 in (rnot r, q'))).
  { intros y q2. destruct x; try reflexivity; destruct y; try reflexivity; cbn [fuzzy_match]; rewrite !run_pbind; cbn [run];
      match goal with |- context[if is_str_lit b then ?u else ?v] => destruct (if is_str_lit b then u else v) end; try reflexivity.
    destruct (o_re _ _ _ _); reflexivity. }
  destruct x; try reflexivity; rewrite !run_pbind; destruct (run w (eval C thing b) q1) as [[y|e] q2]; try reflexivity; apply M.
Qed.

(** operands that are neither text nor null raise EvaluationError; a bad left operand is reported before the right one is
    evaluated *)
Theorem C20_wrong_type : forall search neg a b q x q1, yields q a x q1 ->
  (~ text_or_null x -> fails q (EBin (BFuzzy search neg) a b) XEval q1) /\
  (forall y q2, text_or_null x -> yields q1 b y q2 -> ~ text_or_null y -> fails q (EBin (BFuzzy search neg) a b) XEval q2).
Proof.
  unfold P_Ops.yields, P_Ops.fails. intros search neg a b q x q1 Ha. split.
  - intro N. evbin Ha. destruct x; try reflexivity; exfalso; apply N; [left; reflexivity|right; eexists; reflexivity].
  - intros y q2 Tx Hb N. evbin Ha.
    assert (M : run w (fuzzy_match C search neg (is_str_lit b) x y) q2 = (Err XEval, q2)).
    { destruct y; try (destruct Tx as [->|[t ->]]; reflexivity); exfalso; apply N; [left; reflexivity|right; eexists; reflexivity]. }
    destruct Tx as [->|[t ->]]; evnext Hb; exact M.
Qed.

(** an invalid pattern raises RegexSyntaxError: at construction for a literal pattern, else when evaluated *)
Theorem C20_invalid_pattern : forall search neg p, o_re_ok (c_flags C) p = false ->
  (forall a b q x q1 q2, is_str_lit b = false -> yields q a x q1 -> text_or_null x -> yields q1 b (VStr p) q2 ->
     fails q (EBin (BFuzzy search neg) a b) XSynRegex q2) /\
  (forall a e q q1, run w (build C a) q = (Ok e, q1) -> operand_ok (BFuzzy search neg) (rtype e) = true ->
     run w (build C (DBin (BFuzzy search neg) a (DLit (VStr p)))) q = (Err XSynRegex, q1)).
Proof.
  unfold P_Ops.yields, P_Ops.fails. intros search neg p K. split.
  - intros a b q x q1 q2 L Ha Tx Hb. evbin Ha.
    destruct Tx as [->|[t ->]]; evnext Hb; cbn [fuzzy_match]; rewrite L; unfold compile_ok; rewrite K; reflexivity.
  - intros a e q q1 Ha T. cbn [build]. rewrite run_pbind, Ha. rewrite run_pbind. cbn [run ok].
    assert (E : check_bin C (BFuzzy search neg) e (ELit (VStr p)) = Err XSynRegex).
    { unfold check_bin. rewrite T. cbn [andb]. replace (operand_ok _ (rtype (ELit (VStr p)))) with true by (destruct search, neg; reflexivity).
      unfold compile_ok. rewrite K. reflexivity. }
    rewrite run_pbind. cbn [run]. rewrite E. reflexivity.
Qed.

(** on two texts the outcome is whether the pattern matches; $re_groups becomes the groups of that match and is left alone
    when there is none *)
Theorem C20_match : forall search neg a b q t p q1 q2, yields q a (VStr t) q1 -> yields q1 b (VStr p) q2 ->
  o_re_ok (c_flags C) p = true ->
  match o_re (c_flags C) search p t with
  | Some gs => yields q (EBin (BFuzzy search neg) a b) (VBool (negb neg)) (set_groups (VArr (map group_val gs)) q2)
  | None => yields q (EBin (BFuzzy search neg) a b) (VBool neg) q2
  end.
Proof.
  unfold P_Ops.yields. intros search neg a b q t p q1 q2 Ha Hb K.
  assert (E : run w (eval C thing (EBin (BFuzzy search neg) a b)) q =
    match o_re (c_flags C) search p t with
    | Some gs => (Ok (VBool (negb neg)), set_groups (VArr (map group_val gs)) q2) | None => (Ok (VBool neg), q2) end).
  { evbin Ha. evnext Hb. cbn [fuzzy_match]. rewrite run_pbind. cbn [run].
    replace (if is_str_lit b then Ok tt else compile_ok C p) with (@Ok unit tt) by (unfold compile_ok; rewrite K; destruct (is_str_lit b); reflexivity).
    destruct (o_re _ _ _ _); reflexivity. }
  destruct (o_re _ _ _ _); exact E.
Qed.

(** whatever the operands: the groups (and everything else) are as the operands left them unless the operator reports a match *)
Theorem C20_only_match_updates : forall search neg a b q x q1 y q2, yields q a x q1 -> yields q1 b y q2 ->
  forall r q', run w (eval C thing (EBin (BFuzzy search neg) a b)) q = (r, q') ->
  r <> Ok (VBool (negb neg)) -> q' = q2 \/ (q' = q1 /\ ~ text_or_null x).
Proof.
  unfold P_Ops.yields. intros search neg a b q x q1 y q2 Ha Hb r q' H N. cbn [eval] in H. rewrite run_pbind, Ha in H.
  assert (M : forall x, run w (fuzzy_match C search neg (is_str_lit b) x y) q2 = (r, q') -> q' = q2).
  { clear H. intros z H. destruct z; cbn [fuzzy_match] in H; try (inversion H; reflexivity);
      (destruct y; try (inversion H; reflexivity); rewrite run_pbind in H; cbn [run] in H;
       destruct (if is_str_lit b then Ok tt else compile_ok C _); [|inversion H; reflexivity]).
    - inversion H; reflexivity.
    - destruct (o_re _ _ _ _); cbn in H; inversion H; subst; [contradiction N; reflexivity|reflexivity]. }
  destruct x; try (right; cbn in H; inversion H; split; [reflexivity|intros [K|[t' K]]; discriminate]);
    rewrite run_pbind, Hb in H; left; eapply M; exact H.
Qed.
End C20.
Print Assumptions C20_null.
Print Assumptions C20_complement.
Print Assumptions C20_wrong_type.
Print Assumptions C20_invalid_pattern.
Print Assumptions C20_match.
Print Assumptions C20_only_match_updates.

Definition lit (v : value) : expr := ELit v.
Definition text (t : string) : value := VStr (s t).
Example C20_example : 
  yields untyped_ctx demo_thing demo_world demo_st (EBin (BFuzzy false false) (sym "name") (lit (text "Lu"))) (VBool true)
    (set_groups (VArr [text "ke"]) (log (EvResolve demo_thing (s "name") (Ok (text "Luke"))) demo_st)) /\
  yields untyped_ctx demo_thing demo_world demo_st (EBin (BFuzzy true true) (lit VNull) (lit VNull)) (VBool false) demo_st /\
  o_re_ok 0 (s "[") = false /\ o_re_ok 0 (s "Lu") = true.
Proof. repeat split; vm_compute; reflexivity. Qed.

(** ** C21: arithmetic *)
Lemma dfix_err : forall dc n c e x, dfix dc n c e = Err x -> is_arithmetic x = true.
Proof.
  intros dc n c e x H. unfold dfix in H. destruct (c =? 0)%N; [discriminate|]. destruct (etop dc <? _); [inversion H; reflexivity|].
  destruct (e <? _); [|discriminate]. destruct (_ && _); destruct (etop dc <? _); inversion H; reflexivity.
Qed.

Section C21.
Context (Orc : Oracle) (C : ctx) (thing : value) (w : world).
Notation yields := (yields C thing w). Notation fails := (fails C thing w).

Lemma dec_arith_err : forall o dc a b x, dec_arith o dc a b = Err x -> is_arithmetic x = true.
Proof.
  intros o dc a b x H. destruct o; cbn in H.
  - unfold dmul in H. destruct a as [? c1 ?|?|], b as [? c2 ?|?|]; try discriminate; try (eapply dfix_err; exact H);
      match type of H with context[(?z =? 0)%N] => destruct (z =? 0)%N end; inversion H; reflexivity.
  - unfold dtruediv in H. destruct a as [? c1 ?|?|], b as [? c2 ?|?|]; try discriminate; try (inversion H; reflexivity).
    destruct (c2 =? 0)%N; [destruct (c1 =? 0)%N; inversion H; reflexivity|].
    destruct (c1 =? 0)%N; [eapply dfix_err; exact H|]. destruct (_ =? 0)%N; [|eapply dfix_err; exact H].
    destruct (strip_zeros _ _ _ _). eapply dfix_err; exact H.
  - unfold dfloordiv in H. destruct a as [? c1 ?|?|], b as [? c2 ?|?|]; try discriminate; try (inversion H; reflexivity).
    destruct (c2 =? 0)%N; [destruct (c1 =? 0)%N; inversion H; reflexivity|]. destruct (ddivide _ _ _ _ _ _ _) as [[[? ?] ?]|]; inversion H; reflexivity.
  - unfold dmod in H. destruct a as [? c1 ?|?|], b as [? c2 ?|?|]; try discriminate; try (inversion H; reflexivity); try (eapply dfix_err; exact H).
    destruct (c2 =? 0)%N; [inversion H; reflexivity|]. destruct (ddivide _ _ _ _ _ _ _) as [[[? ?] ?]|]; [eapply dfix_err; exact H|inversion H; reflexivity].
  - destruct (o_pow _ _ _); inversion H; reflexivity.
Qed.

(** with two values: a number or EvaluationError, nothing else *)
Theorem C21_number_or_EvaluationError : forall o a b q x y q1 q2, yields q a x q1 -> yields q1 b y q2 ->
  (exists d, yields q (EBin (BArith o) a b) (VDec d) q2) \/ (exists q', fails q (EBin (BArith o) a b) XEval q').
Proof.
  unfold P_Ops.yields, P_Ops.fails. intros o a b q x y q1 q2 Ha Hb. cbn [eval]. rewrite run_pbind, Ha.
  destruct (is_numeric x); [|right; eexists; reflexivity]. rewrite run_pbind, Hb.
  destruct (is_numeric y); [|right; eexists; reflexivity]. cbn [pbind pthen act run step_op]. unfold op_arith.
  destruct (dec_arith o (s_dc q2) (as_dec x) (as_dec y)) as [d|e] eqn:E; [left; eexists; reflexivity|].
  rewrite (dec_arith_err _ _ _ _ _ E). right. eexists. reflexivity.
Qed.

(** a left operand that is not a number fails at once, without evaluating the right one; so does a right one after it *)
Theorem C21_numbers_only : forall o a b q x q1, yields q a x q1 ->
  (is_numeric x = false -> fails q (EBin (BArith o) a b) XEval q1) /\
  (forall y q2, is_numeric x = true -> yields q1 b y q2 -> is_numeric y = false -> fails q (EBin (BArith o) a b) XEval q2).
Proof.
  unfold P_Ops.yields, P_Ops.fails. intros o a b q x q1 Ha. split.
  - intro N. evbin Ha. rewrite N. reflexivity.
  - intros y q2 Nx Hb Ny. evbin Ha. rewrite Nx. evnext Hb. rewrite Ny. reflexivity.
Qed.

(** being numeric means having the data type FLOAT, so no boolean, null, text or collection qualifies *)
Theorem C21_numeric_is_float : forall v, is_numeric v = true <-> from_value v = Ok TFloat.
Proof.
  intro v. destruct v; cbn; try (split; congruence); try (split; discriminate);
    repeat (match goal with |- context[rmapM ?f ?l] => destruct (rmapM f l) end; cbn; try (split; congruence));
    unfold mk_mapping; destruct (_ && _); split; congruence.
Qed.

(** dividing a finite number by zero, or taking a remainder by zero, raises EvaluationError *)
Theorem C21_division_by_zero : forall o a b q n c e m ex q1 q2,
  yields q a (VDec (DFin n c e)) q1 -> yields q1 b (VDec (DFin m 0 ex)) q2 -> o = TDiv \/ o = FDiv \/ o = Mod ->
  fails q (EBin (BArith o) a b) XEval q2.
Proof.
  unfold P_Ops.yields, P_Ops.fails. intros o a b q n c e m ex q1 q2 Ha Hb O. evbin Ha. cbn [is_numeric]. evnext Hb.
  cbn [is_numeric pbind pthen act run step_op as_dec]. unfold op_arith. destruct O as [->|[->| ->]]; cbn; try reflexivity; destruct (c =? 0)%N; reflexivity.
Qed.

(** what the operators compute: the decimal operation under the thread's decimal context *)
Theorem C21_meaning : forall o a b q x y q1 q2, yields q a (VDec x) q1 -> yields q1 b (VDec y) q2 ->
  forall d, dec_arith o (s_dc q2) x y = Ok d <-> yields q (EBin (BArith o) a b) (VDec d) q2.
Proof.
  unfold P_Ops.yields. intros o a b q x y q1 q2 Ha Hb d. evbin Ha. cbn [is_numeric]. evnext Hb.
  cbn [is_numeric pbind pthen act run step_op as_dec]. unfold op_arith. cbn [as_dec].
  destruct (dec_arith o (s_dc q2) x y) as [d'|e]; [split; congruence|]. destruct (is_arithmetic e); split; congruence.
Qed.
End C21.
Print Assumptions C21_number_or_EvaluationError.
Print Assumptions C21_numbers_only.
Print Assumptions C21_numeric_is_float.
Print Assumptions C21_division_by_zero.
Print Assumptions C21_meaning.

(** Dividing an infinity by zero is not an error: inf / 0 and inf // 0 are inf. *)
Theorem C21_infinity_by_zero_refuted : exists a b q, exists d,
  yields untyped_ctx VNull demo_world q b (num 0) q /\
  yields untyped_ctx VNull demo_world q (EBin (BArith TDiv) a b) (VDec d) q /\ yields untyped_ctx VNull demo_world q (EBin (BArith FDiv) a b) (VDec d) q.
Proof. exists (ELit (VDec (DInf false))), (ELit (num 0)), demo_st, (DInf false). repeat split. Qed.
Print Assumptions C21_infinity_by_zero_refuted.
Example C21_example : yields untyped_ctx VNull demo_world demo_st (EBin (BArith Mod) (ELit (num 7)) (ELit (num 3))) (num 1) demo_st
  /\ fails untyped_ctx VNull demo_world demo_st (EBin (BArith TDiv) (ELit (num 7)) (ELit (num 0))) XEval demo_st
  /\ fails untyped_ctx VNull demo_world demo_st (EBin (BArith Mul) (ELit (VBool true)) (sym "nowhere")) XEval demo_st.
Proof. repeat split; vm_compute; reflexivity. Qed.

(** ** C23: datetimes and timedeltas *)
Section C23.
Context (Orc : Oracle).

(** what a Python datetime / timedelta object can hold *)
Definition valid_dt (w : Z) : Prop := 0 <= w < dt_max.
Definition valid_td (u : Z) : Prop := - 999999999 * us_per_day <= u < 1000000000 * us_per_day.
(** utcoffset() is strictly between minus and plus one day (checked by Python) *)
Definition tz_bounded : Prop := forall z w, - us_per_day < utcoff z w < us_per_day.

Lemma td_ok_iff : forall u, td_ok u = true <-> valid_td u.
Proof. intro u. unfold td_ok, valid_td. rewrite Bool.andb_true_iff, Z.leb_le, Z.ltb_lt. reflexivity. Qed.
Lemma mk_td_iff : forall u v, mk_td u = Ok v <-> v = VTd u /\ valid_td u.
Proof.
  intros u v. unfold mk_td. destruct (td_ok u) eqn:E.
  - apply td_ok_iff in E. split; [intro H; inversion H; auto|intros [-> _]; reflexivity].
  - split; [discriminate|]. intros [_ H]. apply td_ok_iff in H. congruence.
Qed.
Lemma mk_dt_iff : forall u z v, mk_dt u z = Ok v <-> v = VDt u z /\ valid_dt u.
Proof.
  intros u z v. unfold mk_dt, valid_dt. destruct ((0 <=? u) && (u <? dt_max)) eqn:E.
  - apply Bool.andb_true_iff in E as [E1 E2]. apply Z.leb_le in E1. apply Z.ltb_lt in E2. split; [intro H; inversion H; auto|intros [-> _]; reflexivity].
  - split; [discriminate|]. intros [_ [H1 H2]]. apply Z.leb_le in H1. apply Z.ltb_lt in H2. rewrite H1, H2 in E. discriminate.
Qed.

(** the sum keeps the time zone, and exists iff it can be represented *)
Theorem C23_add_meaning : forall dc w z u v, op_add dc (VDt w z) (VTd u) = Ok v <-> v = VDt (w + u) z /\ valid_dt (w + u).
Proof. intros. apply mk_dt_iff. Qed.
Theorem C23_sub_meaning : forall dc w z u v, op_sub dc (VDt w z) (VTd u) = Ok v <-> v = VDt (w - u) z /\ valid_dt (w - u).
Proof. intros. apply mk_dt_iff. Qed.
Theorem C23_td_meaning : forall dc u u' v,
  (op_add dc (VTd u) (VTd u') = Ok v <-> v = VTd (u + u') /\ valid_td (u + u')) /\
  (op_sub dc (VTd u) (VTd u') = Ok v <-> v = VTd (u - u') /\ valid_td (u - u')) /\
  (op_neg dc (VTd u) = Ok v <-> v = VTd (- u) /\ valid_td (- u)).
Proof. intros. split; [|split]; apply mk_td_iff. Qed.

(** the difference of two times: of what the clocks show within one zone, of the instants across zones *)
Theorem C23_difference_meaning : forall dc w z w' z' v,
  (z = z' -> op_sub dc (VDt w (Some z)) (VDt w' (Some z')) = Ok v <-> v = VTd (w - w') /\ valid_td (w - w')) /\
  (z <> z' -> let d := (w - utcoff z w) - (w' - utcoff z' w') in op_sub dc (VDt w (Some z)) (VDt w' (Some z')) = Ok v <-> v = VTd d /\ valid_td d).
Proof.
  intros dc w z w' z' v. split.
  - intros ->. cbn. rewrite N.eqb_refl. apply mk_td_iff.
  - intros NE. cbn. destruct (N.eqb_spec z z'); [contradiction|]. apply mk_td_iff.
Qed.

(** (d + t) - t = d  and  (d - t) + t = d *)
Theorem C23_add_sub : forall dc w z u v, valid_dt w ->
  (op_add dc (VDt w z) (VTd u) = Ok v -> op_sub dc v (VTd u) = Ok (VDt w z)) /\
  (op_sub dc (VDt w z) (VTd u) = Ok v -> op_add dc v (VTd u) = Ok (VDt w z)).
Proof.
  intros dc w z u v V. split; intro H; apply mk_dt_iff in H as [-> H]; apply mk_dt_iff.
  - replace (w + u - u) with w by lia. auto.
  - replace (w - u + u) with w by lia. auto.
Qed.

(** (d + t) - d = t *)
Theorem C23_add_sub_dt : forall dc w z u v, valid_td u -> op_add dc (VDt w z) (VTd u) = Ok v -> op_sub dc v (VDt w z) = Ok (VTd u).
Proof.
  intros dc w z u v V H. apply mk_dt_iff in H as [-> H]. cbn. replace (w + u - w) with u by lia.
  destruct z as [z|]; [rewrite N.eqb_refl|]; apply mk_td_iff; auto.
Qed.

(** d1 - d2 = -(d2 - d1), also across time zones *)
Theorem C23_sub_antisym : tz_bounded -> forall dc w z w' z' v, valid_dt w -> valid_dt w' ->
  op_sub dc (VDt w z) (VDt w' z') = Ok v -> exists v', op_sub dc (VDt w' z') (VDt w z) = Ok v' /\ op_neg dc v' = Ok v.
Proof.
  intros B dc w z w' z' v V V' H.
  assert (D : forall u v, Z.abs u <= dt_max + 2 * us_per_day -> mk_td u = Ok v -> exists v', mk_td (- u) = Ok v' /\ op_neg dc v' = Ok v).
  { clear. intros u v A H. apply mk_td_iff in H as [-> H]. exists (VTd (- u)). 
    assert (valid_td (- u)) by (unfold valid_td, dt_max, us_per_day in *; lia). split; [apply mk_td_iff; auto|].
    cbn. rewrite Z.opp_involutive. apply mk_td_iff. auto. }
  cbn in H |- *. destruct z as [z|], z' as [z'|]; try discriminate.
  - rewrite (N.eqb_sym z' z). destruct (z =? z')%N.
    + replace (w' - w) with (- (w - w')) by lia. apply D; [|exact H]. unfold valid_dt, dt_max, us_per_day in *; lia.
    + replace (utc w' z' - utc w z) with (- (utc w z - utc w' z')) by lia. apply D; [|exact H].
      unfold utc. assert (B1 := B z w). assert (B2 := B z' w'). unfold valid_dt, dt_max, us_per_day in *; lia.
  - replace (w' - w) with (- (w - w')) by lia. apply D; [|exact H]. unfold valid_dt, dt_max, us_per_day in *; lia.
Qed.

(** + commutes on datetimes and timedeltas, including the error cases *)
Theorem C23_add_comm : forall dc w z u u',
  op_add dc (VTd u) (VDt w z) = op_add dc (VDt w z) (VTd u) /\ op_add dc (VTd u) (VTd u') = op_add dc (VTd u') (VTd u).
Proof. intros. cbn. rewrite (Z.add_comm u u'). auto. Qed.

(** mismatched kinds raise EvaluationError *)
Definition temporal (v : value) : bool := match v with VDt _ _ | VTd _ => true | _ => false end.
Theorem C23_mismatch : forall dc v d,
  (temporal d = true -> temporal v = false -> op_add dc d v = Err XEval /\ op_sub dc d v = Err XEval /\ op_sub dc v d = Err XEval /\
     ((forall t, v <> VStr t) -> (forall t, v <> VBytes t) -> op_add dc v d = Err XEval)) /\
  (forall w z w' z' u, op_add dc (VDt w z) (VDt w' z') = Err XEval /\ op_sub dc (VTd u) (VDt w z) = Err XEval).
Proof.
  intros dc v d. split; [|intros; split; reflexivity]. intros T N.
  destruct d; try discriminate T; destruct v; try discriminate N; repeat split; try reflexivity; intros S B;
    try (exfalso; eapply S; reflexivity); try (exfalso; eapply B; reflexivity); reflexivity.
Qed.
End C23.
Print Assumptions C23_add_meaning.
Print Assumptions C23_difference_meaning.
Print Assumptions C23_sub_meaning.
Print Assumptions C23_td_meaning.
Print Assumptions C23_add_sub.
Print Assumptions C23_add_sub_dt.
Print Assumptions C23_sub_antisym.
Print Assumptions C23_add_comm.
Print Assumptions C23_mismatch.

(** Adding something to a text or bytes value is not checked: the raw TypeError of Python escapes instead of EvaluationError
    (a + d with a text in the symbol a). *)
Theorem C23_text_plus_datetime_refuted : exists a d, temporal d = true /\ 
  fails untyped_ctx VNull demo_world demo_st (EBin BAdd (ELit a) (ELit d)) PType demo_st /\ is_engine PType = false.
Proof. exists (text "x"), (VTd 1). repeat split. Qed.
Print Assumptions C23_text_plus_datetime_refuted.
Example C23_example : tz_bounded demo_orc /\ valid_dt 63000000000000000 /\ valid_td 5 /\
  op_add demo_dc (VDt 63000000000000000 (Some 1%N)) (VTd 5) = Ok (VDt 63000000000000005 (Some 1%N)).
Proof. unfold tz_bounded, valid_dt, valid_td, dt_max, us_per_day. cbn. repeat split; try lia. Qed.
