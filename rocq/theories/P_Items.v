(** * Theorems about bitwise operators, sets, membership, items, slices and safe navigation (C25-C29) *)
From Coq Require Import QArith Permutation Lia String.
From Verif Require Import Base Dec Value DType Types Ops EqFacts CoerceFacts TypesFacts DecFacts Attr Prog Ast Eval Build Engine Demo P_Compare P_Ops.
Open Scope list_scope.
Open Scope Z_scope.

(** ** C25: bitwise operators *)
Section C25.
Context (Orc : Oracle) (C : ctx) (thing : value) (w : world).
Notation yields := (yields C thing w). Notation fails := (fails C thing w).

(** the numbers the engine accepts as natural: non-negative integers whose conversion to a C double does not overflow *)
Definition natural (d : dec) (z : Z) : Prop := denotes d z /\ 0 <= z < float_bound.

(** bit [i] of the result *)
Definition bit_spec (o : bitop) (m n : Z) (i : Z) : bool :=
  match o with
  | BAnd => Z.testbit m i && Z.testbit n i
  | BOr => Z.testbit m i || Z.testbit n i
  | BXor => xorb (Z.testbit m i) (Z.testbit n i)
  | BShl => if i <? n then false else Z.testbit m (i - n)
  | BShr => Z.testbit m (i + n)
  end.

Lemma z_bitop_bits : forall o m n, 0 <= m -> 0 <= n ->
  0 <= z_bitop o m n /\ forall i, 0 <= i -> Z.testbit (z_bitop o m n) i = bit_spec o m n i.
Proof.
  intros o m n Hm Hn. destruct o; cbn [z_bitop bit_spec].
  - split; [apply Z.land_nonneg; auto|intros; apply Z.land_spec].
  - split; [apply Z.lor_nonneg; auto|intros; apply Z.lor_spec].
  - split; [apply Z.lxor_nonneg; tauto|intros; apply Z.lxor_spec].
  - split; [apply Z.shiftl_nonneg; auto|]. intros i Hi. rewrite Z.shiftl_spec by assumption.
    destruct (Z.ltb_spec i n); [apply Z.testbit_neg_r; lia|reflexivity].
  - split; [apply Z.shiftr_nonneg; auto|]. intros i Hi. apply Z.shiftr_spec. assumption.
Qed.

(** on naturals the result is the natural number with the specified bits *)
Theorem C25_naturals : forall o a b q x y m n q1 q2, yields q a (VDec x) q1 -> yields q1 b (VDec y) q2 -> natural x m -> natural y n ->
  exists d r, yields q (EBin (BBit o) a b) (VDec d) q2 /\ denotes d r /\ 0 <= r /\ forall i, 0 <= i -> Z.testbit r i = bit_spec o m n i.
Proof.
  unfold P_Ops.yields. intros o a b q x y m n q1 q2 Ha Hb [Dx Lx] [Dy Ly].
  exists (dec_of_Z (z_bitop o m n)), (z_bitop o m n).
  assert (Nx : is_natural_number (VDec x) = Ok true) by (apply natural_number_iff; exists m; auto).
  assert (Ny : is_natural_number (VDec y) = Ok true) by (apply natural_number_iff; exists n; auto).
  split; [|split; [apply denotes_of_Z|apply z_bitop_bits; lia]].
  evbin Ha. rewrite run_pbind. cbn [from_value run dt_eqb]. rewrite run_pbind. unfold assert_natural. rewrite Nx. cbn [run rbind].
  evnext Hb. cbn [run]. unfold op_bit_float, assert_natural. rewrite Ny. cbn [rbind].
  rewrite (to_int_denotes x m Dx), (to_int_denotes y n Dy). reflexivity.
Qed.

(** shifting is multiplication and floor division by a power of two *)
Theorem C25_shift_meaning : forall m n, 0 <= m -> 0 <= n -> z_bitop BShl m n = m * 2 ^ n /\ z_bitop BShr m n = m / 2 ^ n.
Proof. intros. split; [apply Z.shiftl_mul_pow2|apply Z.shiftr_div_pow2]; assumption. Qed.

(** every other number on the left fails without evaluating the right operand; so does any other right operand *)
Theorem C25_other_numbers_raise : forall o a b q x q1, yields q a (VDec x) q1 ->
  ((forall z, ~ natural x z) -> fails q (EBin (BBit o) a b) XEval q1) /\
  (forall m y q2, natural x m -> yields q1 b y q2 -> normal y -> (forall d z, y = VDec d -> ~ natural d z) ->
     fails q (EBin (BBit o) a b) XEval q2).
Proof.
  unfold P_Ops.yields, P_Ops.fails. intros o a b q x q1 Ha.
  assert (NN : forall d, (forall z, ~ natural d z) -> assert_natural (VDec d) = Err XEval).
  { intros d N. unfold assert_natural. destruct (natural_number_total d) as [[] E]; rewrite E; [|reflexivity].
    apply natural_number_iff in E as [z Z]. destruct (N z Z). }
  split.
  - intro N. evbin Ha. rewrite run_pbind. cbn [from_value run dt_eqb]. rewrite run_pbind. rewrite (NN x N). reflexivity.
  - intros m y q2 [Dx Lx] Hb Ny N. evbin Ha. rewrite run_pbind. cbn [from_value run dt_eqb]. rewrite run_pbind.
    assert (Nx : is_natural_number (VDec x) = Ok true) by (apply natural_number_iff; exists m; auto).
    unfold assert_natural at 1. rewrite Nx. cbn [run rbind]. evnext Hb. cbn [run]. unfold op_bit_float.
    assert (E : assert_natural y = Err XEval); [|rewrite E; reflexivity].
    inversion Ny; subst; try reflexivity. apply NN. intros z. apply N. reflexivity.
Qed.

(** the kinds may not be mixed, and nothing but numbers and sets is accepted *)
Theorem C25_mixed_kinds_raise : forall o a b q x q1, yields q a x q1 -> normal x ->
  (forall t, from_value x = Ok t -> t <> TFloat -> is_set_t t = false -> fails q (EBin (BBit o) a b) XEval q1) /\
  (forall t l y ty q2, x = VSet l -> from_value x = Ok t -> yields q1 b y q2 -> from_value y = Ok ty -> is_set_t ty = false ->
     fails q (EBin (BBit o) a b) XEval q2).
Proof.
  unfold P_Ops.yields, P_Ops.fails. intros o a b q x q1 Ha Nx. split.
  - intros t T NF NS. evbin Ha. rewrite run_pbind. cbn [run]. rewrite T. rewrite NS.
    destruct (dt_eqb t TFloat) eqn:E; [|reflexivity]. exfalso. apply NF. destruct t; cbn in E; try discriminate. reflexivity.
  - intros t l y ty q2 -> T Hb Ty NS. evbin Ha. rewrite run_pbind. cbn [run]. rewrite T. cbn in T. destruct (rmapM from_value l) as [ts|]; [|discriminate].
    inversion T; subst. cbn [dt_eqb is_set_t]. evnext Hb. cbn [run]. unfold op_bit_set. rewrite Ty. cbn [rbind].
    assert (E : is_compat ty t_set = false); [|rewrite E; reflexivity].
    assert (U := from_value_not_undef y). destruct ty; try discriminate; try reflexivity. congruence.
Qed.

(** ** sets *)
Lemma py_mem_perm : forall x l l', Permutation l l' -> py_mem x l = py_mem x l'.
Proof.
  intros x l l' P. apply Bool.eq_true_iff_eq. unfold py_mem. rewrite !existsb_exists. split; intros [y [Hy E]]; exists y; (split; [|exact E]);
    [eapply Permutation_in; eassumption|eapply Permutation_in; [apply Permutation_sym; eassumption|exact Hy]].
Qed.

Lemma apart_filter : forall f l, apart l -> apart (filter f l).
Proof.
  intros f l A. induction A as [|x l F A IH]; cbn; [constructor|]. destruct (f x); [|exact IH]. constructor; [|exact IH].
  rewrite Forall_forall in *. intros y Hy. apply filter_In in Hy as [Hy _]. apply F. exact Hy.
Qed.
Lemma apart_concat : forall a b, apart a -> apart b -> (forall x y, In x a -> In y b -> py_eq x y = false) -> apart (a ++ b).
Proof.
  intros a b A B H. induction A as [|x l F A IH]; cbn; [exact B|]. constructor.
  - rewrite Forall_forall in *. intros y Hy. apply in_app_or in Hy as [Hy|Hy]; [apply F, Hy|apply H; [left; reflexivity|exact Hy]].
  - apply IH. intros u v Hu. apply H. right. exact Hu.
Qed.
Lemma apart_perm : forall (K : value -> Prop), (forall x y, K x -> K y -> py_eq x y = py_eq y x) ->
  forall l l', Permutation l l' -> (forall x, In x l -> K x) -> apart l -> apart l'.
Proof.
  intros K Sy l l' P. induction P as [|x l l' P IH|x y l|l l' l'' P1 IH1 P2 IH2]; intros Kl A.
  - exact A.
  - inversion A as [|? ? F A']; subst. constructor; [|apply IH; [intros z Hz; apply Kl; right; exact Hz|exact A']].
    rewrite Forall_forall in *. intros z Hz. apply F. eapply Permutation_in; [apply Permutation_sym; exact P|exact Hz].
  - inversion A as [|? ? F A']; subst. inversion A' as [|? ? F' A'']; subst. inversion F as [|? ? E F0]; subst. constructor; [|constructor; assumption].
    constructor; [|assumption]. rewrite Sy; [exact E|apply Kl; right; left; reflexivity|apply Kl; left; reflexivity].
  - apply IH2; [|apply IH1; assumption]. intros z Hz. apply Kl. eapply Permutation_in; [apply Permutation_sym; exact P1|exact Hz].
Qed.

Definition mem_spec (o : bitop) (a b : bool) : bool :=
  match o with BAnd => a && b | BOr => a || b | BXor => xorb a b | _ => false end.

Lemma set_bitop_spec : tz_lawful o_tz -> forall o l1 l2, is_shift o = false -> Forall hv l1 -> Forall hv l2 -> apart l1 -> apart l2 ->
  exists l, set_bitop o l1 l2 = Ok l /\ Forall hv l /\ apart l /\ forall v, hv v -> py_mem v l = mem_spec o (py_mem v l1) (py_mem v l2).
Proof.
  intros T o l1 l2 O F1 F2 A1 A2. rewrite Forall_forall in F1, F2.
  assert (Sy := proj1 (proj2 (C56_equivalence o_tz T))). assert (Tr := proj2 (proj2 (C56_equivalence o_tz T))).
  assert (Ff : forall f l, (forall x, In x l -> hv x) -> Forall hv (filter f l)).
  { intros f l H. apply Forall_forall. intros x Hx. apply filter_In in Hx as [Hx _]. auto. }
  assert (Cong : forall l x y, (forall z, In z l -> hv z) -> hv x -> hv y -> py_eq x y = true -> py_mem x l = py_mem y l).
  { intros l x y Hl Hx Hy E. apply Bool.eq_true_iff_eq. unfold py_mem. rewrite !existsb_exists. split; intros [z [Hz Ez]]; exists z; (split; [exact Hz|]).
    - apply (Tr z x y); auto.
    - apply (Tr z y x); auto. rewrite Sy; auto. }
  assert (Mf : forall l f v, hv v -> (forall z, In z l -> hv z) -> (forall x y, hv x -> hv y -> py_eq x y = true -> f x = f y) ->
             py_mem v (filter f l) = py_mem v l && f v).
  { intros l f v Hv Hl Cf. apply Bool.eq_true_iff_eq. rewrite Bool.andb_true_iff. unfold py_mem. rewrite !existsb_exists. split.
    - intros [y [Hy E]]. apply filter_In in Hy as [Hy Fy]. split; [exists y; auto|]. rewrite <- (Cf y v); auto.
    - intros [[y [Hy E]] Fv]. exists y. split; [|exact E]. apply filter_In. split; [exact Hy|]. rewrite (Cf y v); auto. }
  assert (Mapp : forall v l l', py_mem v (l ++ l') = py_mem v l || py_mem v l') by (intros; apply existsb_app).
  assert (C1 : forall x y, hv x -> hv y -> py_eq x y = true -> py_mem x l1 = py_mem y l1) by (intros; apply Cong; auto).
  assert (C2 : forall x y, hv x -> hv y -> py_eq x y = true -> py_mem x l2 = py_mem y l2) by (intros; apply Cong; auto).
  assert (N1 : forall x y, hv x -> hv y -> py_eq x y = true -> negb (py_mem x l1) = negb (py_mem y l1)) by (intros; f_equal; auto).
  assert (N2 : forall x y, hv x -> hv y -> py_eq x y = true -> negb (py_mem x l2) = negb (py_mem y l2)) by (intros; f_equal; auto).
  destruct o; try discriminate O; cbn [set_bitop mem_spec]; eexists; (split; [reflexivity|]).
  - destruct (length l1 <? length l2)%nat; (split; [apply Ff; assumption|split; [apply apart_filter; assumption|]]); intros v Hv.
    + rewrite Mf by assumption. reflexivity.
    + rewrite Mf by assumption. apply Bool.andb_comm.
  - split; [apply Forall_app; split; [apply Forall_forall; exact F1|apply Ff; exact F2]|]. split.
    + apply apart_concat; [assumption|apply apart_filter; assumption|]. intros x y Hx Hy. apply filter_In in Hy as [Hy Ny].
      destruct (py_eq x y) eqn:E; [|reflexivity]. exfalso. apply Bool.negb_true_iff in Ny. assert (M : py_mem y l1 = true) by (apply existsb_exists; exists x; auto). congruence.
    + intros v Hv. rewrite Mapp, Mf by assumption. destruct (py_mem v l1), (py_mem v l2); reflexivity.
  - split; [apply Forall_app; split; apply Ff; assumption|]. split.
    + apply apart_concat; try (apply apart_filter; assumption). intros x y Hx Hy. apply filter_In in Hy as [Hy Ny]. apply filter_In in Hx as [Hx Nx].
      destruct (py_eq x y) eqn:E; [|reflexivity]. exfalso. apply Bool.negb_true_iff in Ny. assert (M : py_mem y l1 = true) by (apply existsb_exists; exists x; auto). congruence.
    + intros v Hv. rewrite Mapp, !Mf by assumption. destruct (py_mem v l1), (py_mem v l2); reflexivity.
Qed.

(** &, | and ^ of two sets are intersection, union and symmetric difference (membership up to equality); the result is again a
    set: hashable, pairwise unequal members *)
Theorem C25_sets : tz_lawful o_tz -> forall o a b q l1 l2 t1 t2 q1 q2, is_shift o = false ->
  yields q a (VSet l1) q1 -> yields q1 b (VSet l2) q2 -> from_value (VSet l1) = Ok t1 -> from_value (VSet l2) = Ok t2 ->
  Forall hv l1 -> Forall hv l2 -> apart l1 -> apart l2 ->
  exists l, yields q (EBin (BBit o) a b) (VSet l) q2 /\ Forall hv l /\ apart l /\
    forall v, hv v -> py_mem v l = mem_spec o (py_mem v l1) (py_mem v l2).
Proof.
  unfold P_Ops.yields. intros T o a b q l1 l2 t1 t2 q1 q2 O Ha Hb T1 T2 F1 F2 A1 A2.
  destruct (set_bitop_spec T o l1 l2 O F1 F2 A1 A2) as [l [E [Fl [Al Ml]]]].
  exists (o_set_order l). assert (P := o_set_order_perm l). assert (S1 : exists m1, t1 = TSet m1 true).
  { cbn in T1. destruct (rmapM from_value l1); inversion T1. eexists. reflexivity. }
  assert (S2 : exists m2, t2 = TSet m2 true).
  { cbn in T2. destruct (rmapM from_value l2); inversion T2. eexists. reflexivity. }
  destruct S1 as [m1 ->], S2 as [m2 ->]. split.
  - evbin Ha. rewrite run_pbind. cbn [run]. rewrite T1. cbn [dt_eqb is_set_t]. evnext Hb. cbn [run]. unfold op_bit_set. rewrite T2. cbn [rbind].
    replace (is_compat (TSet m2 true) t_set) with true; [rewrite E; reflexivity|]. cbn. destruct m2; reflexivity.
  - split; [|split].
    + apply Forall_forall. intros x Hx. rewrite Forall_forall in Fl. apply Fl. eapply Permutation_in; eassumption.
    + apply (apart_perm hv) with l; [apply C56_equivalence; exact T|apply Permutation_sym; exact P|apply Forall_forall; exact Fl|exact Al].
    + intros v Hv. rewrite <- (Ml v Hv). apply py_mem_perm. exact P.
Qed.
End C25.
Print Assumptions C25_naturals.
Print Assumptions C25_shift_meaning.
Print Assumptions C25_other_numbers_raise.
Print Assumptions C25_mixed_kinds_raise.
Print Assumptions C25_sets.

(** Natural numbers from about 1.8e308 on are not recognised as natural (math.isfinite goes through a C double), so 1e400 | 0
    raises EvaluationError. *)
Theorem C25_huge_natural_refuted : exists d z, denotes d z /\ 0 <= z /\
  fails untyped_ctx VNull demo_world demo_st (EBin (BBit BOr) (ELit (VDec d)) (ELit (num 0))) XEval demo_st.
Proof.
  exists (DFin false 1 400), (10 ^ 400). split; [|split].
  - eexists. split; [reflexivity|]. rewrite dec_q_up by lia. replace (signed false 1) with 1 by reflexivity. rewrite Z.mul_1_l. reflexivity.
  - apply Z.pow_nonneg. lia.
  - vm_compute. reflexivity.
Qed.
Print Assumptions C25_huge_natural_refuted.

Lemma demo_lawful : tz_lawful (@o_tz demo_orc).
Proof. intros z w1 w2 _ _ H. unfold utc in H. cbn in H. lia. Qed.
Example C25_example : natural (dec_of_Z 12) 12 /\ natural (DFin false 60 (-1)) 6 /\
  yields untyped_ctx VNull demo_world demo_st (EBin (BBit BXor) (ELit (num 12)) (ELit (num 10))) (num 6) demo_st /\
  tz_lawful (@o_tz demo_orc) /\
  yields untyped_ctx VNull demo_world demo_st (EBin (BBit BXor) (ESet [ELit (num 1); ELit (num 2)]) (ESet [ELit (num 2); ELit (num 3)])) (VSet [num 1; num 3]) demo_st.
Proof.
  split; [split; [apply denotes_of_Z|vm_compute; intuition congruence]|].
  split; [split; [eexists; split; [reflexivity|reflexivity]|vm_compute; intuition congruence]|].
  split; [vm_compute; reflexivity|]. split; [exact demo_lawful|vm_compute; reflexivity].
Qed.

(** ** C26: membership *)
Section C26.
Context (Orc : Oracle) (C : ctx) (thing : value) (w : world).
Notation yields := (yields C thing w). Notation fails := (fails C thing w).

(** [m] occurs in the text as a contiguous run *)
Definition occurs {A} (m t : list A) : Prop := exists u v, t = u ++ m ++ v.

Lemma is_prefix_iff : forall p t, is_prefix p t = true <-> exists v, t = p ++ v.
Proof.
  induction p as [|x p IH]; intros t; cbn; [split; [exists t; reflexivity|reflexivity]|]. destruct t as [|y t]; [split; [discriminate|intros [v H]; discriminate]|].
  rewrite Bool.andb_true_iff, N.eqb_eq, IH. split.
  - intros [-> [v ->]]. exists v. reflexivity.
  - intros [v H]. inversion H. split; [reflexivity|exists v; reflexivity].
Qed.
Lemma is_infix_iff : forall p t, is_infix p t = true <-> occurs p t.
Proof.
  intros p t. unfold occurs. induction t as [|y t IH].
  - cbn. rewrite Bool.orb_false_r. rewrite is_prefix_iff. split; [intros [v H]; exists [], v; exact H|].
    intros [u [v H]]. exists v. destruct u; [exact H|discriminate].
  - cbn. change (is_prefix p (y :: t) || is_infix p t = true <-> exists u v, y :: t = u ++ p ++ v). rewrite Bool.orb_true_iff, is_prefix_iff, IH. split.
    + intros [[v H]|[u [v H]]]; [exists [], v; exact H|]. exists (y :: u), v. rewrite H. reflexivity.
    + intros [u [v H]]. destruct u as [|z u]; [left; exists v; exact H|right]. inversion H. exists u, v. reflexivity.
Qed.

Lemma in_eval : forall c m q cv tc q1 mv q2, yields q c cv q1 -> from_value cv = Ok tc -> yields q1 m mv q2 ->
  run w (eval C thing (EIn c m)) q = (rmap VBool (op_in cv mv), q2).
Proof.
  unfold P_Ops.yields. intros c m q cv tc q1 mv q2 Hc T Hm. evbin Hc. rewrite run_pbind. cbn [run]. rewrite T. evnext Hm. reflexivity.
Qed.

(** arrays: some element is equal; for sets and mappings (keys) as well, given a hashable member *)
Theorem C26_collection : forall c m q cv tc q1 mv q2, yields q c cv q1 -> from_value cv = Ok tc -> yields q1 m mv q2 ->
  forall l, (cv = VArr l \/ (cv = VSet l /\ hashable mv = true) \/ (exists kvs, cv = VMap kvs /\ l = map fst kvs /\ hashable mv = true)) ->
  exists b, yields q (EIn c m) (VBool b) q2 /\ (b = true <-> exists x, In x l /\ py_eq x mv = true).
Proof.
  intros c m q cv tc q1 mv q2 Hc T Hm l K. exists (py_mem mv l). split; [|unfold py_mem; rewrite existsb_exists; reflexivity].
  unfold P_Ops.yields. rewrite (in_eval _ _ _ _ _ _ _ _ Hc T Hm). unfold op_in. rewrite T. cbn [rbind].
  assert (NT : dt_eqb tc TBytes || dt_eqb tc TString = false).
  { destruct K as [->|[[-> _]|[kvs [-> _]]]]; cbn in T.
    - destruct (rmapM from_value l); inversion T; reflexivity.
    - destruct (rmapM from_value l); inversion T; reflexivity.
    - destruct (rmapM (fun kv => from_value (fst kv)) kvs) as [ks|]; [|discriminate]. cbn in T.
      destruct (rmapM (fun kv => from_value (snd kv)) kvs) as [vs|]; [|discriminate]. cbn in T. unfold mk_mapping in T.
      destruct (_ && _); inversion T; reflexivity. }
  rewrite NT. destruct K as [->|[[-> Hh]|[kvs [-> [-> Hh]]]]]; cbn [py_in]; try reflexivity.
  - rewrite Hh. destruct mv; reflexivity.
  - rewrite Hh. reflexivity.
Qed.

(** texts and bytes: contiguous run; anything else in them raises EvaluationError *)
Theorem C26_text : forall c m q t q1 mv q2, yields q1 m mv q2 ->
  (yields q c (VStr t) q1 ->
     (forall p, mv = VStr p -> exists b, yields q (EIn c m) (VBool b) q2 /\ (b = true <-> occurs p t)) /\
     (forall tm, from_value mv = Ok tm -> tm <> TString -> fails q (EIn c m) XEval q2)) /\
  (yields q c (VBytes t) q1 ->
     (forall p, mv = VBytes p -> exists b, yields q (EIn c m) (VBool b) q2 /\ (b = true <-> occurs p t)) /\
     (forall tm, from_value mv = Ok tm -> tm <> TBytes -> fails q (EIn c m) XEval q2)).
Proof.
  intros c m q t q1 mv q2 Hm. 
  split; intro Hc; (split; [intros p ->; exists (is_infix p t); split; [|apply is_infix_iff]; unfold P_Ops.yields; erewrite in_eval; try eassumption; reflexivity|]);
    intros tm Tm NT; unfold P_Ops.fails; (erewrite in_eval; [|eassumption|reflexivity|eassumption]); unfold op_in; cbn [from_value rbind dt_eqb orb]; rewrite Tm; cbn [rbind].
  - destruct (dt_eqb tm TString) eqn:E; [|reflexivity]. exfalso. apply NT. destruct tm; cbn in E; try discriminate. reflexivity.
  - destruct (dt_eqb tm TBytes) eqn:E; [|reflexivity]. exfalso. apply NT. destruct tm; cbn in E; try discriminate. reflexivity.
Qed.

(** [m not in c] is built as the negation of [m in c] *)
Theorem C26_not_in : forall c m q, run w (eval C thing (EUn UNot (EIn c m))) q =
  let '(r, q') := run w (eval C thing (EIn c m)) q in (rnot r, q').
Proof.
  intros. change (eval C thing (EUn UNot (EIn c m))) with (pbind (eval C thing (EIn c m)) (fun x => ok (VBool (negb (truthy x))))).
  rewrite run_pbind. cbn [eval]. rewrite run_pbind. destruct (run w (eval C thing c) q) as [[cv|e] q1]; [|reflexivity].
  rewrite run_pbind. cbn [run]. destruct (from_value cv); [|reflexivity]. rewrite run_pbind. destruct (run w (eval C thing m) q1) as [[mv|e] q2]; [|reflexivity].
  cbn. destruct (op_in cv mv); reflexivity.
Qed.
End C26.
Print Assumptions C26_collection.
Print Assumptions C26_text.
Print Assumptions C26_not_in.
Example C26_example : yields untyped_ctx VNull demo_world demo_st (EIn (ELit (text "skywalker")) (ELit (text "walk"))) (VBool true) demo_st /\
  yields untyped_ctx demo_thing demo_world demo_st (EIn (EArr [ELit (num 1); ELit (num 2)]) (ELit (VDec (DFin false 20 (-1))))) (VBool true) demo_st /\
  fails untyped_ctx VNull demo_world demo_st (EIn (ELit (text "skywalker")) (ELit (num 1))) XEval demo_st.
Proof. repeat split; vm_compute; reflexivity. Qed.

(** Looking up an unhashable value in a mapping or set leaks Python's TypeError. *)
Theorem C26_unhashable_refuted : 
  fails untyped_ctx VNull demo_world demo_st (EIn (EMap [(ELit (num 1), ELit (num 2))]) (EArr [EMap []])) PType demo_st /\ is_engine PType = false.
Proof. split; vm_compute; reflexivity. Qed.
Print Assumptions C26_unhashable_refuted.

(** ** C27: item access *)

(** the position meant by index [i] in a sequence of [n] elements *)
Definition position (n i : Z) : option Z :=
  if (0 <=? i) && (i <? n) then Some i else if (- n <=? i) && (i <? 0) then Some (n + i) else None.

Lemma norm_index_position : forall n i, norm_index n i = option_map Z.to_nat (position n i).
Proof.
  intros n i. unfold norm_index, position. destruct (Z.ltb_spec i 0); destruct (Z.leb_spec 0 i); try lia; cbn [andb].
  - destruct (Z.leb_spec 0 (n + i)); destruct (Z.leb_spec (- n) i); cbn [andb]; try lia; [|reflexivity]. destruct (Z.ltb_spec (n + i) n); [reflexivity|lia].
  - destruct (Z.ltb_spec i n); [reflexivity|]. rewrite Bool.andb_false_r. reflexivity.
Qed.

Lemma position_range : forall n i p, position n i = Some p -> 0 <= p < n.
Proof.
  intros n i p H. unfold position in H. destruct (Z.leb_spec 0 i); cbn [andb] in H.
  - destruct (Z.ltb_spec i n); [inversion H; lia|]. destruct (Z.leb_spec (- n) i); cbn [andb] in H; [|discriminate]. destruct (Z.ltb_spec i 0); [lia|discriminate].
  - destruct (Z.leb_spec (- n) i); cbn [andb] in H; [|discriminate]. destruct (Z.ltb_spec i 0); [inversion H; lia|discriminate].
Qed.

Lemma seq_get_Some : forall A (l : list A) i p, position (Z.of_nat (length l)) i = Some p -> exists x, nth_error l (Z.to_nat p) = Some x /\ seq_get l i = Some x.
Proof.
  intros A l i p H. unfold seq_get. rewrite norm_index_position, H. cbn. assert (R := position_range _ _ _ H).
  destruct (nth_error l (Z.to_nat p)) as [x|] eqn:E; [exists x; auto|]. apply nth_error_None in E. lia.
Qed.
Lemma seq_get_None : forall A (l : list A) i, position (Z.of_nat (length l)) i = None -> seq_get l i = None.
Proof. intros A l i H. unfold seq_get. rewrite norm_index_position, H. reflexivity. Qed.

Section C27.
Context (Orc : Oracle) (C : ctx) (thing : value) (w : world).
Notation yields := (yields C thing w). Notation fails := (fails C thing w).

(** integer keys of moderate size *)
Definition index_value (k : value) (i : Z) : Prop := exists d, k = VDec d /\ denotes d i /\ Z.abs i < float_bound.

Lemma isfinite_err : forall v x, isfinite v = Err x -> x = POverflow \/ x = PType.
Proof.
  intros v x H. unfold isfinite in H. destruct v; try (inversion H; auto; fail).
  - destruct d; inversion H.
  - destruct (Z.abs z <? float_bound); inversion H; auto.
  - destruct f; inversion H.
Qed.
Lemma assert_integer_err : forall k x, assert_integer k = Err x -> x <> XLookup.
Proof.
  intros k x H E. subst x. unfold assert_integer in H. destruct (is_integer_number k) as [b|x] eqn:I; cbn [rbind] in H.
  - destruct b; discriminate.
  - inversion H; subst x. unfold is_integer_number in I. destruct (is_real_number k) as [b|x] eqn:R; cbn [rbind] in I; [discriminate|].
    inversion I; subst x. unfold is_real_number in R. destruct (is_numeric k); [|discriminate]. apply isfinite_err in R as [R|R]; discriminate.
Qed.

Lemma index_ok : forall k i, index_value k i -> assert_integer k = Ok tt /\ to_int k = i.
Proof.
  intros k i [d [-> [D L]]]. split; [|apply to_int_denotes; exact D]. unfold assert_integer.
  replace (is_integer_number (VDec d)) with (@Ok bool true); [reflexivity|]. symmetry. apply integer_number_iff. exists i. auto.
Qed.

Lemma item_eval : forall c e safe q cv q1 k q2, yields q c cv q1 -> cv <> VNull -> yields q1 e k q2 ->
  run w (eval C thing (EItem c e safe)) q =
  match (if is_sequence cv then assert_integer k else Ok tt) with
  | Err x => (Err x, q2)
  | Ok _ => match py_getitem cv k with
            | Ok v => (new_value (c_tz C) false v, q2)
            | Err XLookup => (if safe then Ok VNull else Err XLookup, q2)
            | Err x => (Err x, q2)
            end
  end.
Proof.
  unfold P_Ops.yields. intros c e safe q cv q1 k q2 Hc N He. evbin Hc. replace (is_null cv) with false by (destruct cv; congruence || reflexivity).
  evnext He. rewrite run_pbind. cbn [run]. destruct (if is_sequence cv then assert_integer k else Ok tt); [|reflexivity].
  destruct (py_getitem cv k) as [v|x]; [reflexivity|]. destruct x; try reflexivity. destruct safe; reflexivity.
Qed.

(** text and bytes: the character (a text of length one) resp. byte (a number) at the position; LookupError elsewhere *)
Theorem C27_text : forall c e safe q t q1 k i q2, yields q c (VStr t) q1 -> yields q1 e k q2 -> index_value k i ->
  match position (Z.of_nat (length t)) i with
  | Some p => exists ch, nth_error t (Z.to_nat p) = Some ch /\ yields q (EItem c e safe) (VStr [ch]) q2
  | None => if safe then yields q (EItem c e safe) VNull q2 else fails q (EItem c e safe) XLookup q2
  end.
Proof.
  intros c e safe q t q1 k i q2 Hc He K. destruct (index_ok k i K) as [A B]. unfold P_Ops.yields, P_Ops.fails.
  rewrite (item_eval _ _ safe _ _ _ _ _ Hc ltac:(discriminate) He). cbn [is_sequence]. rewrite A. cbn [py_getitem]. rewrite B.
  destruct (position (Z.of_nat (length t)) i) as [p|] eqn:P.
  - destruct (seq_get_Some _ _ _ _ P) as [x [E G]]. rewrite G. exists x. split; [exact E|reflexivity].
  - rewrite (seq_get_None _ _ _ P). destruct safe; reflexivity.
Qed.
Theorem C27_bytes : forall c e safe q t q1 k i q2, yields q c (VBytes t) q1 -> yields q1 e k q2 -> index_value k i ->
  match position (Z.of_nat (length t)) i with
  | Some p => exists b, nth_error t (Z.to_nat p) = Some b /\ yields q (EItem c e safe) (VDec (dec_of_Z (Z.of_N b))) q2
  | None => if safe then yields q (EItem c e safe) VNull q2 else fails q (EItem c e safe) XLookup q2
  end.
Proof.
  intros c e safe q t q1 k i q2 Hc He K. destruct (index_ok k i K) as [A B]. unfold P_Ops.yields, P_Ops.fails.
  rewrite (item_eval _ _ safe _ _ _ _ _ Hc ltac:(discriminate) He). cbn [is_sequence]. rewrite A. cbn [py_getitem]. rewrite B.
  destruct (position (Z.of_nat (length t)) i) as [p|] eqn:P.
  - destruct (seq_get_Some _ _ _ _ P) as [x [E G]]. rewrite G. exists x. split; [exact E|reflexivity].
  - rewrite (seq_get_None _ _ _ P). destruct safe; reflexivity.
Qed.
(** arrays: the element at the position, coerced and with a time zone attached like every value read (C04, C24) *)
Theorem C27_array : forall c e safe q l q1 k i q2, yields q c (VArr l) q1 -> yields q1 e k q2 -> index_value k i ->
  match position (Z.of_nat (length l)) i with
  | Some p => exists x, nth_error l (Z.to_nat p) = Some x /\ run w (eval C thing (EItem c e safe)) q = (new_value (c_tz C) false x, q2)
  | None => if safe then yields q (EItem c e safe) VNull q2 else fails q (EItem c e safe) XLookup q2
  end.
Proof.
  intros c e safe q t q1 k i q2 Hc He K. destruct (index_ok k i K) as [A B]. unfold P_Ops.yields, P_Ops.fails.
  rewrite (item_eval _ _ safe _ _ _ _ _ Hc ltac:(discriminate) He). cbn [is_sequence]. rewrite A. cbn [py_getitem]. rewrite B.
  destruct (position (Z.of_nat (length t)) i) as [p|] eqn:P.
  - destruct (seq_get_Some _ _ _ _ P) as [x [E G]]. rewrite G. exists x. split; [exact E|reflexivity].
  - rewrite (seq_get_None _ _ _ P). destruct safe; reflexivity.
Qed.
(** reading a value that is already in the engine's form gives that value, a naive datetime in the default time zone *)
Theorem C27_element_unchanged : forall x, coerce false x = Ok x ->
  new_value (c_tz C) false x = Ok (match x with VDt t None => VDt t (Some (c_tz C)) | _ => x end).
Proof. intros x H. unfold new_value. rewrite H. destruct x; reflexivity. Qed.

(** keys that are not integers raise EvaluationError on every sequence, also with safe access *)
Theorem C27_non_integer_raises : forall c e safe q cv q1 k q2, yields q c cv q1 -> is_sequence cv = true -> yields q1 e k q2 ->
  normal k -> (forall i, ~ index_value k i) -> fails q (EItem c e safe) XEval q2.
Proof.
  intros c e safe q cv q1 k q2 Hc S He N NI. unfold P_Ops.fails. rewrite (item_eval _ _ safe _ _ _ _ _ Hc ltac:(destruct cv; discriminate) He).
  rewrite S. assert (E : assert_integer k = Err XEval); [|rewrite E; reflexivity].
  inversion N; subst; try reflexivity. unfold assert_integer. destruct (integer_number_total d) as [[] E]; rewrite E; [|reflexivity].
  apply integer_number_iff in E as [z [D L]]. exfalso. apply (NI z). exists d. auto.
Qed.

(** mappings: the value stored under the key equal to [k] (there is at most one), LookupError if there is none *)
Theorem C27_mapping : tz_lawful o_tz -> forall c e q m q1 k q2, yields q c (VMap m) q1 -> yields q1 e k q2 -> hv k ->
  Forall (fun kv => hv (fst kv)) m -> apart (map fst m) ->
  (forall k' x, In (k', x) m -> py_eq k' k = true -> run w (eval C thing (EItem c e false)) q = (new_value (c_tz C) false x, q2)) /\
  ((forall k' x, In (k', x) m -> py_eq k' k = false) -> fails q (EItem c e false) XLookup q2).
Proof.
  intros T c e q m q1 k q2 Hc He Hk F A. unfold P_Ops.fails. rewrite (item_eval _ _ false _ _ _ _ _ Hc ltac:(discriminate) He).
  cbn [is_sequence py_getitem]. unfold hv in Hk. rewrite Hk.
  assert (Sy := proj1 (proj2 (C56_equivalence o_tz T))). assert (Tr := proj2 (proj2 (C56_equivalence o_tz T))).
  clear Hc He. split.
  - intros k' x Hin E. replace (dict_get m k) with (Some x); [reflexivity|]. induction m as [|[k0 x0] m IH]; [destruct Hin|]. cbn.
    inversion F as [|? ? F0 F']; subst. inversion A as [|? ? A0 A']; subst. destruct Hin as [H|Hin].
    + inversion H; subst. rewrite E. reflexivity.
    + destruct (py_eq k0 k) eqn:E0; [|apply IH; assumption]. exfalso.
      assert (Hk' : hv k') by (rewrite Forall_forall in F'; apply (F' (k', x) Hin)). rewrite Forall_forall in A0.
      assert (X : py_eq k0 k' = false) by (apply A0; apply in_map_iff; exists (k', x); auto).
      assert (Y : py_eq k0 k' = true) by (apply (Tr k0 k k'); auto; rewrite Sy; auto). congruence.
  - intro N. replace (dict_get m k) with (@None value); [reflexivity|]. clear F A. induction m as [|[k0 x0] m IH]; [reflexivity|]. cbn.
    rewrite (N k0 x0) by (left; reflexivity). apply IH. intros k' x' H'. apply (N k' x'). right. exact H'.
Qed.
End C27.
Print Assumptions C27_text.
Print Assumptions C27_bytes.
Print Assumptions C27_array.
Print Assumptions C27_element_unchanged.
Print Assumptions C27_non_integer_raises.
Print Assumptions C27_mapping.
Example C27_example : position 4 (-1) = Some 3 /\ position 4 4 = None /\ index_value (num (-1)) (-1) /\
  yields untyped_ctx demo_thing demo_world demo_st (EItem (ELit (text "Luke")) (EUn UMinus (ELit (num 1))) false) (text "e") demo_st /\
  fails untyped_ctx demo_thing demo_world demo_st (EItem (EArr [ELit VNull]) (ELit (num 1)) false) XLookup demo_st.
Proof.
  split; [reflexivity|]. split; [reflexivity|]. split; [exists (dec_of_Z (-1)); split; [reflexivity|split; [apply denotes_of_Z|reflexivity]]|].
  split; vm_compute; reflexivity.
Qed.

(** ** C28: slices *)

(** Elements of [l] at the positions p with lo <= p < hi, in order; a bound below zero counts from the end *)
Definition from_end (n : Z) (b : Z) : Z := if b <? 0 then n + b else b.
Definition between {A} (l : list A) (lo hi : Z) : list A :=
  map snd (filter (fun px => (lo <=? fst px) && (fst px <? hi)) (combine (map Z.of_nat (seq 0 (length l))) l)).
Definition slice_spec {A} (l : list A) (a b : option Z) : list A :=
  let n := Z.of_nat (length l) in
  between l (match a with Some i => from_end n i | None => 0 end) (match b with Some j => from_end n j | None => n end).

Lemma between_off : forall A (l : list A) k lo hi, 
  map snd (filter (fun px => (lo <=? fst px) && (fst px <? hi)) (combine (map Z.of_nat (seq k (length l))) l))
  = firstn (Z.to_nat (hi - Z.max lo (Z.of_nat k))) (skipn (Z.to_nat (lo - Z.of_nat k)) l).
Proof.
  intros A l. induction l as [|x l IH]; intros k lo hi; [cbn; rewrite skipn_nil, firstn_nil; reflexivity|].
  cbn [length seq map combine filter fst]. destruct (Z.leb_spec lo (Z.of_nat k)); cbn [andb].
  - replace (Z.to_nat (lo - Z.of_nat k)) with 0%nat by lia. cbn [skipn].
    destruct (Z.ltb_spec (Z.of_nat k) hi).
    + cbn [map snd]. rewrite IH. replace (Z.to_nat (lo - Z.of_nat (S k))) with 0%nat by lia. cbn [skipn].
      replace (Z.to_nat (hi - Z.max lo (Z.of_nat k))) with (S (Z.to_nat (hi - Z.max lo (Z.of_nat (S k))))) by lia. reflexivity.
    + rewrite IH. replace (Z.to_nat (hi - Z.max lo (Z.of_nat (S k)))) with 0%nat by lia. replace (Z.to_nat (hi - Z.max lo (Z.of_nat k))) with 0%nat by lia. reflexivity.
  - rewrite IH. replace (Z.to_nat (lo - Z.of_nat k)) with (S (Z.to_nat (lo - Z.of_nat (S k)))) by lia. cbn [skipn].
    f_equal. lia.
Qed.

Lemma seq_slice_spec : forall A (l : list A) a b, seq_slice l a b = slice_spec l a b.
Proof.
  intros A l a b. unfold seq_slice, slice_spec, between. rewrite between_off. set (n := Z.of_nat (length l)). rewrite Z.sub_0_r.
  assert (G : forall lo hi i j, i = Z.max 0 (Z.min lo n) -> j = Z.max 0 (Z.min hi n) ->
    firstn (Z.to_nat (j - i)) (skipn (Z.to_nat i) l) = firstn (Z.to_nat (hi - Z.max lo (Z.of_nat 0))) (skipn (Z.to_nat lo) l)).
  { intros lo hi i j -> ->. destruct (Z.leb_spec lo n) as [L|L].
    - replace (Z.to_nat (Z.max 0 (Z.min lo n))) with (Z.to_nat lo) by lia. destruct (Z.leb_spec hi n) as [L2|L2].
      + f_equal. lia.
      + rewrite !firstn_all2; [reflexivity|rewrite skipn_length; lia|rewrite skipn_length; lia].
    - rewrite (skipn_all2 (n := Z.to_nat lo)) by lia. rewrite (skipn_all2 (n := Z.to_nat (Z.max 0 (Z.min lo n)))) by lia. rewrite !firstn_nil. reflexivity. }
  apply G; [destruct a as [i|]|destruct b as [j|]]; unfold clamp_index, from_end; subst n; try lia.
  - destruct (Z.ltb_spec i 0); lia.
  - destruct (Z.ltb_spec j 0); lia.
Qed.

Section C28.
Context (Orc : Oracle) (C : ctx) (thing : value) (w : world).
Notation yields := (yields C thing w). Notation fails := (fails C thing w).

(** a slice bound: null (absent) or an integer *)
Definition bound (v : value) (b : option Z) : Prop := match b with None => v = VNull | Some i => index_value v i end.

Lemma bound_ok : forall v b, bound v b -> opt_index v = Ok b.
Proof.
  intros v [i|] H; cbn in H; [|subst; reflexivity]. destruct (index_ok v i H) as [A B]. destruct H as [d [-> _]].
  unfold opt_index. rewrite A. cbn [rbind]. rewrite B. reflexivity.
Qed.

Lemma slice_eval : forall c a b safe q cv q1 va q2 vb q3 i j, yields q c cv q1 -> cv <> VNull -> yields q1 a va q2 -> yields q2 b vb q3 ->
  bound va i -> bound vb j -> run w (eval C thing (ESlice c a b safe)) q = (rbind (py_getslice cv i j) (coerce false), q3).
Proof.
  unfold P_Ops.yields. intros c a b safe q cv q1 va q2 vb q3 i j Hc N Ha Hb Ba Bb. evbin Hc. replace (is_null cv) with false by (destruct cv; congruence || reflexivity).
  evnext Ha. rewrite run_pbind. cbn [run]. rewrite (bound_ok _ _ Ba). evnext Hb. rewrite run_pbind. cbn [run]. rewrite (bound_ok _ _ Bb).
  rewrite run_pbind. cbn [run]. destruct (py_getslice cv i j); reflexivity.
Qed.

(** the selected run, for texts, bytes and (coerced) arrays; never an error for integer or null bounds *)
Theorem C28_slice : forall c a b safe q cv q1 va q2 vb q3 i j, yields q c cv q1 -> yields q1 a va q2 -> yields q2 b vb q3 ->
  bound va i -> bound vb j ->
  (forall t, cv = VStr t -> yields q (ESlice c a b safe) (VStr (slice_spec t i j)) q3) /\
  (forall t, cv = VBytes t -> yields q (ESlice c a b safe) (VBytes (slice_spec t i j)) q3) /\
  (forall l, cv = VArr l -> coerce false cv = Ok cv -> yields q (ESlice c a b safe) (VArr (slice_spec l i j)) q3).
Proof.
  intros c a b safe q cv q1 va q2 vb q3 i j Hc Ha Hb Ba Bb. unfold P_Ops.yields. split; [|split].
  - intros t ->. rewrite (slice_eval _ _ _ safe _ _ _ _ _ _ _ i j Hc ltac:(discriminate) Ha Hb Ba Bb). cbn [py_getslice rbind]. rewrite seq_slice_spec. reflexivity.
  - intros t ->. rewrite (slice_eval _ _ _ safe _ _ _ _ _ _ _ i j Hc ltac:(discriminate) Ha Hb Ba Bb). cbn [py_getslice rbind]. rewrite seq_slice_spec. reflexivity.
  - intros l -> K. rewrite (slice_eval _ _ _ safe _ _ _ _ _ _ _ i j Hc ltac:(discriminate) Ha Hb Ba Bb). cbn [py_getslice rbind]. rewrite <- seq_slice_spec.
    rewrite coerce_arr in K |- *. destruct (rmapM (coerce false) l) as [l'|] eqn:E; [|discriminate]. cbn [rbind] in K.
    inversion K; subst l'. clear K.
    assert (X : forall x, In x l -> coerce false x = Ok x).
    { apply rmapM_ok_iff in E. intros x Hx. clear - E Hx. remember l as l' in E at 2. assert (G : Forall2 (fun a b => coerce false a = Ok b) l l) by (subst; exact E). clear E Heql'.
      induction l as [|y l IH]; [destruct Hx|]. inversion G; subst. destruct Hx as [->|Hx]; [assumption|]. apply IH; assumption. }
    assert (Y : forall x, In x (seq_slice l i j) -> coerce false x = Ok x).
    { intros x Hx. apply X. unfold seq_slice in Hx.
      assert (S1 : forall n (l : list value), In x (firstn n l) -> In x l) by (intros n l0 H0; rewrite <- (firstn_skipn n l0); apply in_or_app; left; exact H0).
      assert (S2 : forall n (l : list value), In x (skipn n l) -> In x l) by (intros n l0 H0; rewrite <- (firstn_skipn n l0); apply in_or_app; right; exact H0).
      eapply S2, S1. exact Hx. }
    replace (rmapM (coerce false) (seq_slice l i j)) with (@Ok (list value) (seq_slice l i j)); [reflexivity|].
    symmetry. apply rmapM_ok_iff. clear - Y. induction (seq_slice l i j); constructor; [apply Y; left; reflexivity|apply IHl0; intros; apply Y; right; assumption].
Qed.

(** c[:k] followed by c[k:] is c *)
Theorem C28_split : forall A (l : list A) k, slice_spec l None (Some k) ++ slice_spec l (Some k) None = l.
Proof.
  intros A l k. rewrite <- !seq_slice_spec. unfold seq_slice. set (n := Z.of_nat (length l)). rewrite Z.sub_0_r. change (skipn (Z.to_nat 0) l) with l.
  set (i := clamp_index n k). assert (0 <= i <= n) by (unfold i, clamp_index; destruct (Z.ltb_spec k 0); lia).
  rewrite (firstn_all2 (n := Z.to_nat (n - i))) by (rewrite skipn_length; lia). apply firstn_skipn.
Qed.
(** c[:] is c, and a slice is as long as its bounds allow *)
Theorem C28_whole : forall A (l : list A), slice_spec l None None = l /\ slice_spec l (Some 0) None = l.
Proof.
  intros A l. rewrite <- !seq_slice_spec. unfold seq_slice. cbn [clamp_index]. set (n := Z.of_nat (length l)).
  assert (E : clamp_index n 0 = 0) by (unfold clamp_index; cbn; lia). rewrite E. rewrite Z.sub_0_r. change (skipn (Z.to_nat 0) l) with l.
  split; apply firstn_all2; lia.
Qed.

(** null containers and bounds that are not integers raise EvaluationError; a bad lower bound before the upper is evaluated *)
Theorem C28_errors : forall c a b q cv q1, yields q c cv q1 ->
  (cv = VNull -> fails q (ESlice c a b false) XEval q1) /\
  (forall va q2 safe, cv <> VNull -> yields q1 a va q2 -> normal va -> (forall i, ~ bound va i) -> fails q (ESlice c a b safe) XEval q2).
Proof.
  unfold P_Ops.yields, P_Ops.fails. intros c a b q cv q1 Hc. split.
  - intros ->. evbin Hc. reflexivity.
  - intros va q2 safe N Ha Nv NB. evbin Hc. replace (is_null cv) with false by (destruct cv; congruence || reflexivity). evnext Ha. rewrite run_pbind. cbn [run].
    assert (E : opt_index va = Err XEval); [|rewrite E; reflexivity].
    inversion Nv; subst; try reflexivity; [exfalso; apply (NB None); reflexivity|].
    unfold opt_index, assert_integer. destruct (integer_number_total d) as [[] E]; rewrite E; [|reflexivity].
    apply integer_number_iff in E as [z [D L]]. exfalso. apply (NB (Some z)). exists d. auto.
Qed.
End C28.
Print Assumptions C28_slice.
Print Assumptions C28_split.
Print Assumptions C28_whole.
Print Assumptions C28_errors.
Example C28_example : slice_spec [1;2;3;4;5] (Some (-3)) (Some 10) = [3;4;5] /\ slice_spec [1;2;3] (Some 2) (Some 1) = [] /\ slice_spec [1;2;3] (Some (-9)) (Some (-1)) = [1;2] /\
  bound VNull None /\ bound (num (-3)) (Some (-3)) /\
  yields untyped_ctx demo_thing demo_world demo_st (ESlice (ELit (text "Skywalker")) (ELit (num 3)) (ELit (num (-2))) false) (text "walk") demo_st.
Proof.
  split; [reflexivity|]. split; [reflexivity|]. split; [reflexivity|]. split; [reflexivity|].
  split; [exists (dec_of_Z (-3)); split; [reflexivity|split; [apply denotes_of_Z|reflexivity]]|vm_compute; reflexivity].
Qed.

(** ** C29: safe navigation *)
Section C29.
Context (Orc : Oracle) (C : ctx) (thing : value) (w : world).
Notation yields := (yields C thing w). Notation fails := (fails C thing w).

(** on null: null, and neither key nor bounds are evaluated (the state is the one after the container) *)
Theorem C29_null : forall c q q1, yields q c VNull q1 ->
  (forall name, yields q (EAttr c name true) VNull q1) /\ (forall i, yields q (EItem c i true) VNull q1) /\ (forall a b, yields q (ESlice c a b true) VNull q1).
Proof. unfold P_Ops.yields. intros c q q1 Hc. split; [|split]; intros; evbin Hc; reflexivity. Qed.

(** on anything else safe access is the ordinary access, except that the item's own LookupError becomes null *)
Theorem C29_non_null : forall c q cv q1, yields q c cv q1 -> cv <> VNull ->
  (forall name, run w (eval C thing (EAttr c name true)) q = run w (eval C thing (EAttr c name false)) q) /\
  (forall a b, run w (eval C thing (ESlice c a b true)) q = run w (eval C thing (ESlice c a b false)) q) /\
  (forall i x q2, fails q1 i x q2 -> fails q (EItem c i true) x q2 /\ fails q (EItem c i false) x q2) /\
  (forall i k q2, yields q1 i k q2 ->
     run w (eval C thing (EItem c i true)) q =
     match run w (eval C thing (EItem c i false)) q with (Err XLookup, q') => (Ok VNull, q') | r => r end).
Proof.
  intros c q cv q1 Hc N. assert (NN : is_null cv = false) by (destruct cv; congruence || reflexivity). unfold P_Ops.yields, P_Ops.fails in *. split; [|split; [|split]].
  - intros. cbn [eval]. rewrite !run_pbind, Hc. rewrite NN. reflexivity.
  - intros. cbn [eval]. rewrite !run_pbind, Hc. rewrite NN. reflexivity.
  - intros i x q2 Hi. split; cbn [eval]; rewrite run_pbind, Hc, NN, run_pbind, Hi; reflexivity.
  - intros i k q2 Hi. rewrite (item_eval Orc C thing w c i true q cv q1 k q2 Hc N Hi), (item_eval Orc C thing w c i false q cv q1 k q2 Hc N Hi).
    destruct (if is_sequence cv then assert_integer k else Ok tt) as [u|x] eqn:E.
    + destruct (py_getitem cv k) as [v|x]; [|destruct x; reflexivity]. unfold new_value. destruct (coerce false v) as [v'|x] eqn:Ec; cbn; [reflexivity|].
      destruct x; try reflexivity. exfalso.
      assert (NL : forall v x, coerce false v = Err x -> x <> XLookup).
      { clear. intros v. induction v using value_ind'; intros x0 Hx; cbn in Hx; try discriminate.
        - destruct (rmapM (coerce false) l) eqn:R; cbn in Hx; [discriminate|]. inversion Hx; subst. clear Hx.
          induction l as [|y l IH]; [discriminate|]. cbn in R. inversion H; subst. destruct (coerce false y) eqn:Ey; cbn in R; [|inversion R; subst; eauto].
          destruct (rmapM (coerce false) l); cbn in R; [discriminate|]. inversion R; subst. apply IH; auto.
        - destruct (rmapM (coerce false) l) eqn:R; cbn in Hx; [discriminate|]. inversion Hx; subst. clear Hx.
          induction l as [|y l IH]; [discriminate|]. cbn in R. inversion H; subst. destruct (coerce false y) eqn:Ey; cbn in R; [|inversion R; subst; eauto].
          destruct (rmapM (coerce false) l); cbn in R; [discriminate|]. inversion R; subst. apply IH; auto.
        - match type of Hx with rbind ?u _ = _ => destruct u eqn:R end; cbn in Hx; [discriminate|]. inversion Hx; subst. clear Hx.
          induction l as [|[k y] l IH]; [discriminate|]. cbn in R. inversion H as [|? ? [H1 H2] H3]; subst. cbn in H1, H2. destruct (coerce false k) eqn:Ek; cbn in R; [|inversion R; subst; eauto].
          destruct (coerce false y) eqn:Ey; cbn in R; [|inversion R; subst; eauto]. destruct (hashable a); cbn in R; [|inversion R; discriminate].
          match type of R with rbind ?u _ = _ => destruct u eqn:R' end; cbn in R; [discriminate|]. inversion R; subst. apply IH; auto.
        - match type of Hx with rbind ?u _ = _ => destruct u eqn:R end; cbn in Hx; [discriminate|]. inversion Hx; subst. clear Hx.
          induction l as [|[k y] l IH]; [discriminate|]. cbn in R. inversion H as [|? ? [H1 H2] H3]; subst. cbn in H1, H2. destruct (coerce false k) eqn:Ek; cbn in R; [|inversion R; subst; eauto].
          destruct (coerce false y) eqn:Ey; cbn in R; [|inversion R; subst; eauto]. destruct (hashable a); cbn in R; [|inversion R; discriminate].
          match type of R with rbind ?u _ = _ => destruct u eqn:R' end; cbn in R; [discriminate|]. inversion R; subst. apply IH; auto. }
      exact (NL v XLookup Ec eq_refl).
    + destruct x; try reflexivity. destruct (is_sequence cv); [|discriminate]. exfalso. apply (assert_integer_err k XLookup E). reflexivity.
Qed.

(** a key that is absent, or out of range: null *)
Theorem C29_missing_key : forall c q m q1 i k q2, yields q c (VMap m) q1 -> yields q1 i k q2 -> hv k -> dict_get m k = None ->
  yields q (EItem c i true) VNull q2.
Proof.
  intros c q m q1 i k q2 Hc Hi Hk D. unfold P_Ops.yields. rewrite (item_eval Orc C thing w c i true q (VMap m) q1 k q2 Hc ltac:(discriminate) Hi).
  cbn [is_sequence py_getitem]. unfold hv in Hk. rewrite Hk, D. reflexivity.
Qed.
End C29.
Print Assumptions C29_null.
Print Assumptions C29_non_null.
Print Assumptions C29_missing_key.
Example C29_example : 
  yields untyped_ctx demo_thing demo_world demo_st (EItem (ELit VNull) (sym "nowhere") true) VNull demo_st /\
  yields untyped_ctx demo_thing demo_world demo_st (EItem (EMap [(ELit (num 1), ELit (num 2))]) (ELit (num 3)) true) VNull demo_st /\
  yields untyped_ctx demo_thing demo_world demo_st (EItem (ELit (text "abc")) (ELit (num 9)) true) VNull demo_st /\
  fails untyped_ctx demo_thing demo_world demo_st (EItem (ELit (text "abc")) (ELit (text "x")) true) XEval demo_st.
Proof. repeat split; vm_compute; reflexivity. Qed.
