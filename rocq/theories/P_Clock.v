(** * C63: the clock, constants, $abs, $random and the parsing builtins; C22 for unary minus *)
From Coq Require Import QArith Qabs Lia Lqa Psatz String.
From Verif Require Import Base Dec Value DType DTypeFacts Types Ops ParseUtil Attr EqFacts CoerceFacts TypesFacts DecFacts OrdFacts Prog Ast Eval Build Engine ProgFacts Demo P_Compare P_Ops P_Eval P_Calls
  P_Attrs P_Decimal DecRound P_Builtins P_Numbers P_Aware.
Open Scope list_scope.
Open Scope Z_scope.

Section Clock.
Context (Orc : Oracle) (C : ctx) (thing : value) (w : world).
Hypothesis HB : c_bvals C = default_values.
Notation yields := (P_Ops.yields C thing w). Notation fails := (P_Ops.fails C thing w). Notation yields_all := (P_Eval.yields_all C thing w).

Definition day : Z := 86400000000.   (* microseconds *)

(** ** The clock: every access of $now and $today asks it twice (resolve_item tests whether the name exists by reading it), for the
    time in the time zone of the builtins (that of the context unless context.builtins was replaced, C73_timezone); the second reading counts *)
Definition before (q : st) : st := log (EvNow (c_btz C) (w_now w (s_log q) (c_btz C))) q.        (* after the first reading *)
Definition reading (q : st) : Z := w_now w (s_log (before q)) (c_btz C).                         (* the second reading *)
Definition after (q : st) : st := log (EvNow (c_btz C) (reading q)) (before q).
Theorem C63_now : forall q, yields q (builtin "now") (VDt (reading q) (Some (c_btz C))) (after q).
Proof.
  intro q. unfold P_Ops.yields, builtin. cbn [eval]. rewrite run_pthen. unfold resolve. rewrite HB.
  reflexivity.
Qed.
(** $today is the midnight that begins the day of the reading *)
Theorem C63_today : forall q, exists d, yields q (builtin "today") (VDt (d * day) (Some (c_btz C))) (after q) /\ d * day <= reading q < (d + 1) * day.
Proof.
  intro q. set (t := reading q). exists (t / day).
  assert (D : t - dt_time t = t / day * day). { unfold dt_time. change us_per_day with day. assert (X := Z.div_mod t day ltac:(discriminate)). lia. }
  split.
  - rewrite <- D. unfold P_Ops.yields, builtin. cbn [eval]. rewrite run_pthen. unfold resolve. rewrite HB.
    reflexivity.
  - assert (X := Z.div_mod t day ltac:(discriminate)). assert (Y := Z.mod_pos_bound t day ltac:(reflexivity)). lia.
Qed.
(** all time-of-day attributes of $today are 0 *)
Theorem C63_midnight : forall q safe name, In name ["hour"; "minute"; "second"; "microsecond"]%string ->
  yields q (EAttr (builtin "today") (s name) safe) (VDec (dec_of_Z 0)) (after q).
Proof.
  intros q safe name I. destruct (C63_today q) as [d [Y _]]. set (q1 := after q) in *.
  assert (T : dt_time (d * day) = 0) by (unfold dt_time; apply Z_mod_mult).
  cbn [In] in I. destruct I as [<-|[<-|[<-|[<-|[]]]]]; (eapply (attr_ok Orc C thing w); [exact Y|reflexivity|reflexivity|]); cbn; unfold dt_hour, dt_minute, dt_second, dt_microsecond; rewrite T; reflexivity.
Qed.
(** $today <= $now unless the clock is turned back (or the zone's offset changes) between the two readings *)
Theorem C63_today_le_now : forall q, reading q <= reading (after q) -> yields q (EBin (BCmp Cle) (builtin "today") (builtin "now")) (VBool true) (after (after q)).
Proof.
  intros q L. destruct (C63_today q) as [d [Y [B _]]]. assert (N := C63_now (after q)).
  unfold P_Ops.yields in *. cbn [eval]. rewrite run_pbind, Y. rewrite run_pbind, N. unfold op_ord. cbn -[reading after]. rewrite N.eqb_refl.
  destruct (Z.compare_spec (d * day) (reading (after q))) as [E|E|E]; [reflexivity|reflexivity|]. exfalso. lia.
Qed.

(** ** Constants: the decimal expansion of the binary64 numbers, never rounded to the precision of the context *)
Theorem C63_constants : forall q, yields q (builtin "e") (VDec (DFin false 2718281828459045 (-15))) q /\ yields q (builtin "pi") (VDec (DFin false 3141592653589793 (-15))) q.
Proof.
  intro q. split; unfold P_Ops.yields, builtin; cbn [eval]; rewrite run_pthen; unfold resolve; rewrite HB; reflexivity.
Qed.

(** ** $abs and unary minus *)
Lemma dneg_fix : forall dc d x, number d x -> exists n c e, dneg dc d = dfix dc n c e /\ (- x == dec_q n c e)%Q.
Proof.
  intros dc d x [n [c [e [-> E]]]]. unfold dneg. destruct (_ && _) eqn:Z; do 3 eexists; (split; [reflexivity|]); rewrite <- E; unfold dec_q, signed.
  - apply andb_true_iff in Z as [Z _]. apply N.eqb_eq in Z. subst c. destruct n; reflexivity.
  - destruct n; cbn [negb]; rewrite inject_Z_opp; ring.
Qed.
Lemma dec_q_sign : forall (n : bool) c e, if n then (dec_q n c e <= 0)%Q else (0 <= dec_q n c e)%Q.
Proof.
  intros n c e. assert (P : (0 < (10 # 1) ^ e)%Q) by apply q10_pos. unfold dec_q, signed. destruct n.
  - rewrite inject_Z_opp. assert (0 <= inject_Z (Z.of_N c))%Q by (change 0%Q with (inject_Z 0); rewrite <- Zle_Qle; lia). nra.
  - assert (0 <= inject_Z (Z.of_N c))%Q by (change 0%Q with (inject_Z 0); rewrite <- Zle_Qle; lia). nra.
Qed.
Lemma dabs_fix : forall dc d x, number d x -> exists n c e, dabs dc d = dfix dc n c e /\ (Qabs x == dec_q n c e)%Q.
Proof.
  intros dc d x N. assert (N' := N). destruct N as [n [c [e [-> E]]]]. assert (S := dec_q_sign n c e). destruct n.
  - cbn [dabs]. destruct (dneg_fix dc _ _ N') as [n [c' [e' [F Q]]]]. exists n, c', e'. split; [exact F|]. rewrite Qabs_neg; [exact Q|]. rewrite <- E. exact S.
  - cbn [dabs dpos]. destruct (_ && _); do 3 eexists; (split; [reflexivity|]); (rewrite Qabs_pos; [symmetry; exact E|rewrite <- E; exact S]).
Qed.
(** $abs of a finite number is its absolute value, rounded once *)
Theorem C63_abs : forall args q d x q2, yields_all q args [VDec d] q2 -> number d x -> dctx_ok (s_dc q2) ->
  rounds_to Orc C thing w q (ECall (builtin "abs") args) (Qabs x) XFunCall q2.
Proof.
  intros args q d x q2 H N K. assert (A : fits [TFloat] 1 [VDec d]).
  { split; [cbn; lia|]. split; [cbn; lia|]. intros [|[|i]] v p Hv Hp; cbn in Hv, Hp; try discriminate; try (destruct i; discriminate). injection Hv as <-. injection Hp as <-. eexists. split; reflexivity. }
  destruct (fits_accepts _ _ _ A) as [S1 A1]. destruct (dabs_fix (s_dc q2) d x N) as [n [c [e [F Q]]]].
  apply (rounds_run Orc C thing w q _ (Qabs x) q2 n c e (fun _ => XFunCall) K Q).
  rewrite (builtin_run Orc C thing w HB "abs" BFabs _ _ _ _ _ _ _ _ eq_refl eq_refl H S1 A1). cbn [apply_fun apply_flat apply_first_order]. rewrite run_pbind. cbn [act run step_op py_abs]. rewrite F. unfold rdec, rmap. destruct (dfix _ _ _ _); reflexivity.
Qed.
(** the infinities and NaN *)
Theorem C63_abs_special : forall args q q2, (forall n, yields_all q args [VDec (DInf n)] q2 -> yields q (ECall (builtin "abs") args) (VDec (DInf false)) q2) /\
  (yields_all q args [VDec DNaN] q2 -> yields q (ECall (builtin "abs") args) (VDec DNaN) q2).
Proof.
  assert (G : forall args q d q2, yields_all q args [VDec d] q2 -> forall d', (forall dc, dabs dc d = Ok d') -> yields q (ECall (builtin "abs") args) (VDec d') q2).
  { intros args q d q2 H d' D. assert (A : fits [TFloat] 1 [VDec d]).
    { split; [cbn; lia|]. split; [cbn; lia|]. intros [|[|i]] v p Hv Hp; cbn in Hv, Hp; try discriminate; try (destruct i; discriminate). injection Hv as <-. injection Hp as <-. eexists. split; reflexivity. }
    destruct (fits_accepts _ _ _ A) as [S1 A1]. unfold P_Ops.yields.
    rewrite (builtin_run Orc C thing w HB "abs" BFabs _ _ _ _ _ _ _ _ eq_refl eq_refl H S1 A1). cbn [apply_fun apply_flat apply_first_order]. rewrite run_pbind. cbn [act run step_op py_abs]. rewrite D. reflexivity. }
  intros args q q2. split; [intros n H; apply (G _ _ _ _ H); intro dc; destruct n; reflexivity|intro H; apply (G _ _ _ _ H); reflexivity].
Qed.
(** -a on a finite number is its negation rounded once *)
Theorem C22_neg : forall a q d x q2, yields q a (VDec d) q2 -> number d x -> dctx_ok (s_dc q2) -> rounds_to Orc C thing w q (EUn Ast.UMinus a) (- x) PDecOverflow q2.
Proof.
  intros a q d x q2 H N K. destruct (dneg_fix (s_dc q2) d x N) as [n [c [e [F Q]]]]. apply (rounds_run Orc C thing w q _ (- x)%Q q2 n c e (fun y => y) K Q).
  unfold P_Ops.yields in H. cbn [eval]. rewrite run_pbind, H, run_pbind. cbn [act run step_op]. unfold op_neg. cbn [is_numeric as_dec]. unfold rdec, rmap. rewrite F. destruct (dfix _ _ _ _); reflexivity.
Qed.

(** ** $random *)
(** random.randint(0, n) answers an int between 0 and n, random.random() a finite float from 0 to below 1 *)
Definition random_lawful : Prop := forall l, (forall n, 0 <= n -> exists k, w_random w l (Some n) = VInt k /\ 0 <= k <= n) /\
  (exists m e d x, w_random w l None = VFlt (FFin m e d) /\ number d x /\ (0 <= x < 1)%Q).
Ltac fit1 := split; [cbn; lia|]; split; [cbn; lia|]; intros [|[|i]] v p Hv Hp; cbn in Hv, Hp; try discriminate; try (destruct i; discriminate); injection Hv as <-; injection Hp as <-; eexists; split; reflexivity.
Lemma random_run : forall args vs q q2, yields_all q args vs q2 -> (vs = [] \/ exists d, vs = [VDec d]) ->
  run w (eval C thing (ECall (builtin "random") args)) q = let '(r, q3) := run w (b_random vs) q2 in (outcome Orc C TFloat r, q3).
Proof.
  intros args vs q q2 H V. assert (A : fits [TFloat] 0 vs) by (destruct V as [->|[d ->]]; [split; [cbn; lia|]; split; [cbn; lia|]; intros [|i] v p Hv; discriminate Hv|fit1]).
  destruct (fits_accepts _ _ _ A) as [S1 A1]. rewrite (builtin_run Orc C thing w HB "random" BFrandom _ _ _ _ _ _ _ _ eq_refl eq_refl H S1 A1). destruct V as [->|[d ->]]; reflexivity.
Qed.
(** $random(n) for a positive integer n is an integer between 0 and n *)
Theorem C63_random_bound : random_lawful -> forall args q d n q2, yields_all q args [VDec d] q2 -> engine_int d n -> 0 < n ->
  exists k, 0 <= k <= n /\ yields q (ECall (builtin "random") args) (VDec (dec_of_Z k)) (log (EvRandom (Some n) (VInt k)) q2).
Proof.
  intros L args q d n q2 H [D B] P. destruct (L (s_log q2)) as [L1 _]. destruct (L1 n ltac:(lia)) as [k [E K]]. exists k. split; [exact K|].
  unfold P_Ops.yields. rewrite (random_run args [VDec d] q q2 H (or_intror (ex_intro _ d eq_refl))). destruct (engine_int_ok d n (conj D B)) as [_ [E2 E3]]. unfold b_random. rewrite E3. destruct (Z.eqb_spec n 0); [lia|]. cbn [negb].
  rewrite run_pbind. cbn [run]. rewrite (proj2 (natural_number_iff d)) by (exists n; split; [exact D|lia]). rewrite E2. cbn [act run step_op]. rewrite E. reflexivity.
Qed.
(** $random() is a number from 0 to below 1; so is $random(0) *)
Theorem C63_random_unit : random_lawful -> forall args q q2, yields_all q args [] q2 \/ (exists d, yields_all q args [VDec d] q2 /\ denotes d 0) ->
  exists z x r, yields q (ECall (builtin "random") args) (VDec z) (log (EvRandom None r) q2) /\ number z x /\ (0 <= x < 1)%Q.
Proof.
  intros L args q q2 H. destruct (L (s_log q2)) as [_ [m [e [d [x [E [N B]]]]]]]. exists d, x, (VFlt (FFin m e d)). split; [|split; assumption]. unfold P_Ops.yields.
  assert (R : exists vs, yields_all q args vs q2 /\ (vs = [] \/ exists d, vs = [VDec d]) /\ b_random vs = act (ORandom None)).
  { destruct H as [H|[d0 [H D]]]; [exists []; auto|exists [VDec d0]]. split; [exact H|]. split; [eauto|]. unfold b_random.
    destruct (engine_int_ok d0 0 (conj D (ltac:(vm_compute; reflexivity) : Z.abs 0 < float_bound))) as [_ [_ E3]]. rewrite E3. reflexivity. }
  destruct R as [vs [Y [V R]]]. rewrite (random_run args vs q q2 Y V), R. cbn [act run step_op]. rewrite E. reflexivity.
Qed.
(** anything else is refused and no random number is drawn *)
Theorem C63_random_bad : forall args q d q2, yields_all q args [VDec d] q2 -> (~ exists n, denotes d n /\ 0 <= n < float_bound) -> fails q (ECall (builtin "random") args) XFunCall q2.
Proof.
  intros args q d q2 H N. unfold P_Ops.fails. rewrite (random_run args [VDec d] q q2 H (or_intror (ex_intro _ d eq_refl))). unfold b_random.
  assert (T : truthy (VDec d) = true).
  { cbn [truthy]. destruct (is_zero d) eqn:Z; [|reflexivity]. exfalso. apply N. destruct d as [n c e| |]; try discriminate Z. cbn in Z. apply N.eqb_eq in Z. subst c. exists 0. split; [|split; [apply Z.le_refl|vm_compute; reflexivity]].
    exists (dec_q n 0 e). split; [reflexivity|]. unfold dec_q, signed. destruct n; cbn; ring. }
  rewrite T, run_pbind. cbn [run]. destruct (natural_number_total d) as [[] E]; [apply natural_number_iff in E; contradiction|]. rewrite E. reflexivity.
Qed.

(** ** $parse_float, $parse_datetime, $parse_timedelta: what the literal of that text means, or FunctionCallError if there is no such literal
    (for $parse_datetime when the time zone of the builtins is that of the context, as it is unless context.builtins was replaced) *)
Definition parse_builtin (D : str -> dnode) (name : string) : Prop :=
  D = DFloat /\ name = "parse_float"%string \/ D = DDatetime /\ name = "parse_datetime"%string /\ c_btz C = c_tz C \/ D = DTimedelta /\ name = "parse_timedelta"%string.
Theorem C63_parse : forall D name args q t q2, parse_builtin D name -> yields_all q args [VStr t] q2 ->
  match fst (run w (build C (D t)) q) with
  | Ok e => exists v, yields q2 e v q2 /\ yields q (ECall (builtin name) args) v q2
  | Err _ => fails q (ECall (builtin name) args) XFunCall q2
  end.
Proof.
  intros D name args q t q2 P H. assert (A : fits [TString] 1 [VStr t]) by fit1. destruct (fits_accepts _ _ _ A) as [S1 A1].
  destruct P as [[-> ->]|[[-> [-> BZ]]|[-> ->]]]; cbn [build run]; unfold P_Ops.yields, P_Ops.fails.
  - rewrite (builtin_run Orc C thing w HB "parse_float" BFparse_float _ _ _ _ _ _ _ _ eq_refl eq_refl H S1 A1). cbn [apply_fun apply_flat apply_first_order run]. destruct (parse_float t) as [d|x]; cbn [rmap fst]; [exists (VDec d); split; reflexivity|reflexivity].
  - rewrite (builtin_run Orc C thing w HB "parse_datetime" BFparse_datetime _ _ _ _ _ _ _ _ eq_refl eq_refl H S1 A1). cbn [apply_fun apply_flat apply_first_order run]. rewrite BZ. unfold parse_datetime.
    destruct (o_isoparse t) as [[z [u|]]|]; cbn [rmap fst]; [eexists; split; reflexivity|eexists; split; reflexivity|reflexivity].
  - rewrite (builtin_run Orc C thing w HB "parse_timedelta" BFparse_timedelta _ _ _ _ _ _ _ _ eq_refl eq_refl H S1 A1). cbn [apply_fun apply_flat apply_first_order run]. destruct (parse_timedelta t) as [d|x] eqn:E; cbn [rmap fst]; [|reflexivity].
    assert (K : exists u, d = VTd u). { eapply P_Aware.parse_timedelta_td. exact E. }
    destruct K as [u ->]. exists (VTd u). split; reflexivity.
Qed.
End Clock.

(** ** Concrete cases *)
Definition half_world : world :=
  default_world (fun _ _ args => match args with [v] => Ok v | _ => Err PType end) (fun _ _ => 63000000123456789)
    (fun _ b => match b with Some n => VInt (n / 2) | None => VFlt (FFin 1 (-1) (DFin false 5 (-1))) end).
Lemma half_lawful : random_lawful half_world.
Proof.
  intro l. split.
  - intros n P. exists (n / 2). split; [reflexivity|]. split; [apply Z.div_pos; lia|]. apply Z.div_le_upper_bound; lia.
  - exists 1, (-1), (DFin false 5 (-1)), (1 # 2)%Q. split; [reflexivity|]. split; [exists false, 5%N, (-1); split; reflexivity|]. split; [discriminate|reflexivity].
Qed.
(** [$random(0)] need not be an integer between 0 and 0: a boundary of 0 is taken as none *)
Theorem C63_random_zero_refuted : random_lawful half_world /\
  yields untyped_ctx VNull half_world demo_st (ECall (builtin "random") [ELit (num 0)]) (VDec (DFin false 5 (-1))) (log (EvRandom None (VFlt (FFin 1 (-1) (DFin false 5 (-1))))) demo_st).
Proof. split; [exact half_lawful|reflexivity]. Qed.
Theorem C63_example : c_bvals untyped_ctx = default_values /\ random_lawful half_world /\ dctx_ok (s_dc demo_st) /\
  yields untyped_ctx VNull half_world demo_st (ECall (builtin "random") [ELit (num 10)]) (num 5) (log (EvRandom (Some 10) (VInt 5)) demo_st) /\
  yields untyped_ctx VNull half_world demo_st (builtin "today") (VDt 62999942400000000 (Some 1%N)) (after untyped_ctx half_world demo_st) /\
  yields untyped_ctx VNull half_world demo_st (ECall (builtin "abs") [ELit (num (-3))]) (num 3) demo_st /\
  yields untyped_ctx VNull half_world demo_st (ECall (builtin "parse_float") [ELit (VStr (s "1.5"))]) (VDec (DFin false 15 (-1))) demo_st.
Proof. split; [reflexivity|]. split; [exact half_lawful|]. split; [unfold dctx_ok; cbn; lia|]. repeat split; vm_compute; reflexivity. Qed.
Print Assumptions C63_today.
Print Assumptions C63_abs.
Print Assumptions C63_random_bound.
Print Assumptions C63_parse.
Print Assumptions C22_neg.
