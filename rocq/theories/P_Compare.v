(** * Theorems about equality and ordering of values (C17, C18, C19, C56) *)
From Coq Require Import Permutation QArith.
From Coq Require Import Lia.
From Verif Require Import Base Dec Value DType Types Ops EqFacts CoerceFacts TypesFacts OrdFacts Prog Ast Eval Engine Demo.
Open Scope Z_scope.

(** ** Specification vocabulary *)

(** the outermost constructor of a data type *)
Definition kind (t : dtype) : nat :=
  match t with
  | TUndef => 0 | TNull => 1 | TBool => 2 | TBytes => 3 | TDatetime => 4 | TFloat => 5 | TString => 6 | TTimedelta => 7
  | TArray _ _ => 8 | TSet _ _ => 9 | TMap _ _ _ => 10 | TFun _ _ _ _ => 11
  end%nat.

Definition rnot (r : result value) : result value := match r with Ok (VBool b) => Ok (VBool (negb b)) | _ => r end.

Lemma kind_tag : forall a b ta tb, normal a -> normal b -> from_value a = Ok ta -> from_value b = Ok tb -> kind ta <> kind tb ->
  pytag_eqb (pytag_of a) (pytag_of b) = false.
Proof.
  intros a b ta tb Na Nb Fa Fb K. destruct (pytag_eqb (pytag_of a) (pytag_of b)) eqn:E; [exfalso|reflexivity]. apply K. clear K.
  assert (G : forall v t, normal v -> from_value v = Ok t ->
    kind t = match pytag_of v with GNone => 1 | GBool => 2 | GBytes => 3 | GDatetime => 4 | GDecimal => 5 | GStr => 6 | GTimedelta => 7
                  | GTuple => 8 | GSet => 9 | GODict => 10 | _ => 11 end%nat).
  { clear. intros v t N F. inversion N; subst; cbn in F; try (inversion F; subst; reflexivity).
    - destruct (rmapM from_value l); cbn in F; [|discriminate]. inversion F. reflexivity.
    - destruct (rmapM from_value l); cbn in F; [|discriminate]. inversion F. reflexivity.
    - destruct (rmapM (fun kv => from_value (fst kv)) l) as [ks|]; cbn in F; [|discriminate].
      destruct (rmapM (fun kv => from_value (snd kv)) l) as [vs|]; cbn in F; [|discriminate]. unfold mk_mapping in F.
      destruct (is_compound _ && _); [discriminate|]. inversion F. reflexivity.
    - inversion F. destruct f; reflexivity. }
  rewrite (G a ta Na Fa), (G b tb Nb Fb). destruct (pytag_of a), (pytag_of b); cbn in E; try discriminate; reflexivity.
Qed.

(** ** What == means, at every depth

    the number a value stands for; true and false count as 1 and 0 *)
Inductive quantity : value -> Q -> Prop :=
| Qu_bool : forall b : bool, quantity (VBool b) (if b then 1 else 0)%Q
| Qu_int : forall z, quantity (VInt z) (inject_Z z)
| Qu_dec : forall n c e, quantity (VDec (DFin n c e)) ((if n then -1 else 1) * inject_Z (Z.of_N c) * (10 # 1) ^ e)%Q
| Qu_flt : forall m e d, quantity (VFlt (FFin m e d)) (inject_Z m * (2 # 1) ^ e)%Q.
Inductive infinite : value -> bool -> Prop :=
| In_dec : forall n, infinite (VDec (DInf n)) n
| In_flt : forall n, infinite (VFlt (FInf n)) n.
Section Equal.
Context {tz : TzDb}.
Inductive equal : value -> value -> Prop :=
| E_null : equal VNull VNull
| E_number : forall x y p q, quantity x p -> quantity y q -> (p == q)%Q -> equal x y
| E_infinite : forall x y n, infinite x n -> infinite y n -> equal x y
| E_text : forall t, equal (VStr t) (VStr t)
| E_bytes : forall t, equal (VBytes t) (VBytes t)
| E_date : forall d, equal (VDate d) (VDate d)
| E_duration : forall u, equal (VTd u) (VTd u)
| E_clock : forall w z, equal (VDt w z) (VDt w z)
(** the same instant in different zones, unless the clock shows it twice (PEP 495) *)
| E_instant : forall w z w' z', z <> z' -> w - utcoff z w = w' - utcoff z' w' -> tz_fold z w = false -> tz_fold z' w' = false -> equal (VDt w (Some z)) (VDt w' (Some z'))
| E_array : forall a b, Forall2 equal a b -> equal (VArr a) (VArr b)
| E_list : forall a b, Forall2 equal a b -> equal (VList a) (VList b)
| E_range : forall a, equal (VRange a) (VRange a)
| E_set : forall a b, List.length a = List.length b -> Forall (fun x => Exists (equal x) b) a -> equal (VSet a) (VSet b)
| E_map : forall a b, Forall2 (fun p q => equal (fst p) (fst q) /\ equal (snd p) (snd q)) a b -> equal (VMap a) (VMap b)
(** a dict ignores the order of its entries; a mapping of the rule language, an OrderedDict, does not *)
| E_dict : forall x y a b, (x = VDict a /\ (y = VDict b \/ y = VMap b)) \/ (x = VMap a /\ y = VDict b) -> List.length a = List.length b ->
    Forall (fun p => Exists (fun q => equal (fst p) (fst q) /\ equal (snd p) (snd q)) b) a -> equal x y
| E_function : forall n, equal (VFun n) (VFun n)
| E_builtin : forall f, equal (VBFun f) (VBFun f)
| E_object : forall n, equal (VObj n) (VObj n).

Lemma num_x_quantity : forall v p, num_x v = Some (XQ p) -> exists q, quantity v q /\ (p == q)%Q.
Proof.
  intros v p H. destruct v; try discriminate H; cbn in H.
  - injection H as <-. exists (if b then 1 else 0)%Q. split; [constructor|]. destruct b; reflexivity.
  - destruct d as [n c e| |]; cbn in H; try discriminate H. injection H as <-. eexists. split; [constructor|]. unfold dec_q. apply QArith_base.Qmult_comp; [|reflexivity]. unfold signed. destruct n; unfold QArith_base.Qeq, inject_Z; cbn [Qnum Qden Qmult]; lia.
  - injection H as <-. eexists. split; [constructor|reflexivity].
  - destruct f as [m e d| |]; cbn in H; try discriminate H. injection H as <-. eexists. split; [constructor|reflexivity].
Qed.
Lemma quantity_num_x : forall v q, quantity v q -> exists p, num_x v = Some (XQ p) /\ (p == q)%Q.
Proof.
  intros v q H. assert (E : exists p, num_x v = Some (XQ p)) by (destruct H; eexists; reflexivity). destruct E as [p E]. exists p. split; [exact E|].
  destruct (num_x_quantity v p E) as [q' [K1 K2]]. rewrite K2. clear -H K1. inversion H; subst; inversion K1; subst; reflexivity.
Qed.
Lemma num_x_infinite : forall v n, num_x v = Some (XInf n) <-> infinite v n.
Proof.
  intros v n. split.
  - intro H. destruct v; try discriminate H; cbn in H; [destruct d; cbn in H; try discriminate H|destruct f; cbn in H; try discriminate H]; injection H as <-; constructor.
  - intros []; reflexivity.
Qed.
Lemma quantity_numv : forall v q, quantity v q -> numv v = true.
Proof. intros v q []; reflexivity. Qed.
Lemma infinite_numv : forall v n, infinite v n -> numv v = true.
Proof. intros v n []; reflexivity. Qed.
Lemma number_equal : forall x y, numv x = true -> numv y = true -> (py_eq x y = true <-> equal x y).
Proof.
  intros x y Hx Hy. rewrite (py_eq_num x y Hx Hy). split.
  - destruct (num_x x) as [a|] eqn:A; [|discriminate]. destruct (num_x y) as [b|] eqn:B; [|discriminate]. rewrite is_eq_true. intro H. destruct a as [p|n|], b as [q|m|]; cbn in H; try discriminate H; try (destruct m; discriminate H); try (destruct n; discriminate H).
    + injection H as H. apply QArith_base.Qeq_alt in H. destruct (num_x_quantity x p A) as [p' [X1 X2]], (num_x_quantity y q B) as [q' [Y1 Y2]]. eapply E_number; [exact X1|exact Y1|]. rewrite <- X2, <- Y2. exact H.
    + assert (n = m) by (destruct n, m; try discriminate H; reflexivity). subst m. eapply E_infinite; apply num_x_infinite; eassumption.
  - intro H. inversion H; subst; try discriminate Hx.
    + destruct (quantity_num_x _ _ H0) as [p' [X1 X2]], (quantity_num_x _ _ H1) as [q' [Y1 Y2]]. rewrite X1, Y1. cbn. assert (E : (p' == q')%Q) by (rewrite X2, Y2; exact H2). apply QArith_base.Qeq_alt in E. rewrite E. reflexivity.
    + apply num_x_infinite in H0, H1. rewrite H0, H1. cbn. destruct n; reflexivity.
    + destruct H0 as [[-> _]|[-> _]]; discriminate Hx.
Qed.
Lemma Forall2_equal : forall a, Forall (fun x => forall y, py_eq x y = true <-> equal x y) a -> forall b, Forall2 (fun x y => py_eq x y = true) a b <-> Forall2 equal a b.
Proof.
  intros a H. induction H as [|x a Hx H IH]; intro b; split; intro K; inversion K; subst; constructor; try (apply Hx; assumption); apply IH; assumption.
Qed.
Ltac not_number := match goal with
  | Q : quantity _ _ |- _ => inversion Q; fail
  | Q : infinite _ _ |- _ => inversion Q; fail
  | D : _ \/ _ |- _ => destruct D as [[D [D'|D']]|[D D']]; discriminate D
  end.
Ltac flip_inversion H := inversion H; subst; try not_number.
Lemma Exists_equal : forall A (f : A -> A -> bool) (R : A -> A -> Prop) a, Forall (fun x => forall y, f x y = true <-> R x y) a ->
  forall b, forallb (fun x => existsb (f x) b) a = true <-> Forall (fun x => Exists (R x) b) a.
Proof.
  intros A f R a H b. rewrite forallb_forall, Forall_forall. rewrite Forall_forall in H. split; intros K x X; specialize (K x X); specialize (H x X).
  - apply existsb_exists in K as [y [Y1 Y2]]. apply Exists_exists. exists y. split; [exact Y1|]. apply H. exact Y2.
  - apply existsb_exists. apply Exists_exists in K as [y [Y1 Y2]]. exists y. split; [exact Y1|]. apply H. exact Y2.
Qed.
Lemma pair_equal : forall l, Forall (fun kv : value * value => (forall y, py_eq (fst kv) y = true <-> equal (fst kv) y) /\ (forall y, py_eq (snd kv) y = true <-> equal (snd kv) y)) l ->
  Forall (fun p : value * value => forall q, py_eq (fst p) (fst q) && py_eq (snd p) (snd q) = true <-> equal (fst p) (fst q) /\ equal (snd p) (snd q)) l.
Proof. intros l H. eapply Forall_impl; [|exact H]. cbn beta. intros p [H1 H2] q. rewrite Bool.andb_true_iff, H1, H2. reflexivity. Qed.
Lemma py_eq_dict_map : forall a b, py_eq (VDict a) (VMap b) = py_eq (VDict a) (VDict b) /\ py_eq (VMap a) (VDict b) = py_eq (VDict a) (VDict b).
Proof. intros. split; reflexivity. Qed.
Theorem equal_spec : forall x y, py_eq x y = true <-> equal x y.
Proof.
  induction x as [|b|d|z|f|t|t|w z|d|u|l IH|l IH|l|l IH|l IH|l IH|n|f|m v IHv|n] using value_ind'; intro y.
  - destruct y; split; intro H; try discriminate H; try reflexivity; try constructor; flip_inversion H.
  - destruct (numv y) eqn:N; [apply number_equal; [reflexivity|exact N]|]; split; intro H; [apply py_eq_num_l in H; [congruence|reflexivity]|]; inversion H; subst;
    [match goal with Q : quantity ?y _, N : numv ?y = false |- _ => apply quantity_numv in Q; congruence end|match goal with Q : infinite ?y _, N : numv ?y = false |- _ => apply infinite_numv in Q; congruence end|not_number].
  - destruct (numv y) eqn:N; [apply number_equal; [reflexivity|exact N]|]; split; intro H; [apply py_eq_num_l in H; [congruence|reflexivity]|]; inversion H; subst;
    [match goal with Q : quantity ?y _, N : numv ?y = false |- _ => apply quantity_numv in Q; congruence end|match goal with Q : infinite ?y _, N : numv ?y = false |- _ => apply infinite_numv in Q; congruence end|not_number].
  - destruct (numv y) eqn:N; [apply number_equal; [reflexivity|exact N]|]; split; intro H; [apply py_eq_num_l in H; [congruence|reflexivity]|]; inversion H; subst;
    [match goal with Q : quantity ?y _, N : numv ?y = false |- _ => apply quantity_numv in Q; congruence end|match goal with Q : infinite ?y _, N : numv ?y = false |- _ => apply infinite_numv in Q; congruence end|not_number].
  - destruct (numv y) eqn:N; [apply number_equal; [reflexivity|exact N]|]; split; intro H; [apply py_eq_num_l in H; [congruence|reflexivity]|]; inversion H; subst;
    [match goal with Q : quantity ?y _, N : numv ?y = false |- _ => apply quantity_numv in Q; congruence end|match goal with Q : infinite ?y _, N : numv ?y = false |- _ => apply infinite_numv in Q; congruence end|not_number].
  - split; intro H; [destruct y; try discriminate H; apply str_eqb_eq in H; subst; constructor|flip_inversion H; apply str_eqb_eq; reflexivity].
  - split; intro H; [destruct y; try discriminate H; apply str_eqb_eq in H; subst; constructor|flip_inversion H; apply str_eqb_eq; reflexivity].
  - split; intro H.
    + destruct y as [| | | | | | |w' z'| | | | | | | | | | | | ]; try discriminate H. cbn [py_eq] in H. unfold dtm_eqb in H. destruct z as [z|], z' as [z'|]; try discriminate H.
      * destruct (N.eqb_spec z z') as [->|NE]; [apply Z.eqb_eq in H; subst; constructor|]. apply Bool.andb_true_iff in H as [H H3]. apply Bool.andb_true_iff in H as [H1 H2]. apply Z.eqb_eq in H1. apply Bool.negb_true_iff in H2, H3. constructor; assumption.
      * apply Z.eqb_eq in H; subst; constructor.
    + flip_inversion H; [apply dtm_eqb_refl|]. cbn [py_eq]. unfold dtm_eqb. destruct (N.eqb_spec z0 z') as [E|_]; [contradiction|]. unfold utc. repeat match goal with E : tz_fold _ _ = false |- _ => rewrite E; clear E end.
      match goal with E : _ - _ = _ - _ |- _ => rewrite E end. rewrite Z.eqb_refl. reflexivity.
  - split; intro H; [destruct y; try discriminate H; apply Z.eqb_eq in H; subst; constructor|flip_inversion H; apply Z.eqb_refl].
  - split; intro H; [destruct y; try discriminate H; apply Z.eqb_eq in H; subst; constructor|flip_inversion H; apply Z.eqb_refl].
  - split; intro H; [destruct y; try discriminate H; rewrite py_eq_arr, forall2b_Forall2 in H; apply E_array, (Forall2_equal l IH); exact H|flip_inversion H; rewrite py_eq_arr, forall2b_Forall2; apply (Forall2_equal l IH); assumption].
  - split; intro H; [destruct y; try discriminate H; rewrite py_eq_list, forall2b_Forall2 in H; apply E_list, (Forall2_equal l IH); exact H|flip_inversion H; rewrite py_eq_list, forall2b_Forall2; apply (Forall2_equal l IH); assumption].
  - split; intro H; [destruct y as [| | | | | | | | | | | |l'| | | | | | | ]; try discriminate H; cbn in H; destruct (list_eq_dec Z.eq_dec l l'); [subst; constructor|discriminate H]|flip_inversion H; cbn; destruct (list_eq_dec Z.eq_dec l l); [reflexivity|contradiction]].
  - split; intro H.
    + destruct y; try discriminate H. rewrite py_eq_set in H. apply Bool.andb_true_iff in H as [H1 H2]. apply Nat.eqb_eq in H1. apply (Exists_equal _ py_eq equal _ IH) in H2. constructor; assumption.
    + flip_inversion H. rewrite py_eq_set. apply Bool.andb_true_iff. split; [apply Nat.eqb_eq; assumption|]. apply (Exists_equal _ py_eq equal _ IH). assumption.
  - apply pair_equal in IH. split; intro H.
    + destruct y as [| | | | | | | | | | | | | |l'|l'| | | | ]; try discriminate H.
      * rewrite py_eq_map, forall2b_Forall2 in H. apply E_map. revert l' H. induction IH as [|p l Hp IH IHl]; intros l' H; inversion H; subst; constructor; [apply Hp; assumption|apply IHl; assumption].
      * rewrite (proj2 (py_eq_dict_map l l')), py_eq_dict in H. apply Bool.andb_true_iff in H as [H1 H2]. apply Nat.eqb_eq in H1. eapply Exists_equal in H2; [|exact IH]. apply (E_dict _ _ l l'); [right; auto|assumption|exact H2].
    + inversion H; subst; try match goal with Q : quantity _ _ |- _ => inversion Q; fail | Q : infinite _ _ |- _ => inversion Q; fail end.
      * rewrite py_eq_map, forall2b_Forall2. match goal with K : Forall2 _ _ _ |- _ => revert K end. clear H. revert b. induction IH as [|p l Hp IH IHl]; intros l' H; inversion H; subst; constructor; [apply Hp; assumption|apply IHl; assumption].
      * match goal with D : _ \/ _ |- _ => rename D into DD end. destruct DD as [[D _]|[D D']]; [discriminate D|]. injection D as <-. subst. rewrite (proj2 (py_eq_dict_map l b)), py_eq_dict. apply Bool.andb_true_iff. split; [apply Nat.eqb_eq; assumption|]. eapply Exists_equal; [exact IH|assumption].
  - apply pair_equal in IH. split; intro H.
    + assert (X : exists l', (y = VDict l' \/ y = VMap l') /\ py_eq (VDict l) (VDict l') = true) by (destruct y as [| | | | | | | | | | | | | |l'|l'| | | | ]; try discriminate H; exists l'; auto).
      destruct X as [l' [Y X]]. rewrite py_eq_dict in X. apply Bool.andb_true_iff in X as [H1 H2]. apply Nat.eqb_eq in H1. eapply Exists_equal in H2; [|exact IH]. apply (E_dict _ _ l l'); [left; auto|assumption|exact H2].
    + inversion H; subst; try match goal with Q : quantity _ _ |- _ => inversion Q; fail | Q : infinite _ _ |- _ => inversion Q; fail end.
      match goal with D : _ \/ _ |- _ => rename D into DD end. destruct DD as [[D D']|[D D']]; [|discriminate D]. injection D as <-.
      assert (X : py_eq (VDict l) (VDict b) = true) by (rewrite py_eq_dict; apply Bool.andb_true_iff; split; [apply Nat.eqb_eq; assumption|]; eapply Exists_equal; [exact IH|assumption]).
      destruct D' as [->| ->]; [exact X|rewrite (proj1 (py_eq_dict_map l b)); exact X].
  - split; intro H; [destruct y; try discriminate H; apply N.eqb_eq in H; subst; constructor|flip_inversion H; apply N.eqb_refl].
  - split; intro H; [destruct y; try discriminate H; apply bfun_eqb_eq in H; subst; constructor|flip_inversion H; apply bfun_eqb_eq; reflexivity].
  - split; intro H; [destruct y; discriminate H|flip_inversion H].
  - split; intro H; [destruct y; try discriminate H; apply N.eqb_eq in H; subst; constructor|flip_inversion H; apply N.eqb_refl].
Qed.
End Equal.

(** ** C17 *)
Section C17.
Context (Orc : Oracle) (C : ctx) (thing : value).

(** the operators evaluate both operands, left first, and then cannot fail *)
Theorem C17_never_raises : forall a b w q,
  run w (eval C thing (EBin BEq a b)) q =
    match run w (eval C thing a) q with
    | (Ok x, q1) => match run w (eval C thing b) q1 with (Ok y, q2) => (Ok (VBool (op_eq x y)), q2) | (Err e, q2) => (Err e, q2) end
    | (Err e, q1) => (Err e, q1)
    end.
Proof.
  intros. cbn [eval]. rewrite run_pbind. destruct (run w (eval C thing a) q) as [[x|e] q1]; [|reflexivity].
  rewrite run_pbind. destruct (run w (eval C thing b) q1) as [[y|e] q2]; reflexivity.
Qed.

(** [a != b] is exactly [not (a == b)]: same effects, negated result, same errors of the operands *)
Theorem C17_complement : forall a b w q,
  run w (eval C thing (EBin BNe a b)) q = let '(r, q') := run w (eval C thing (EBin BEq a b)) q in (rnot r, q').
Proof.
  intros. cbn [eval]. rewrite !run_pbind. destruct (run w (eval C thing a) q) as [[x|e] q1]; [|reflexivity].
  rewrite !run_pbind. destruct (run w (eval C thing b) q1) as [[y|e] q2]; [|reflexivity]. cbn. unfold op_eq, op_ne.
  destruct (pytag_eqb _ _); reflexivity.
Qed.

(** values of different kinds of data types are unequal *)
Theorem C17_different_kinds_unequal : forall x y tx ty, normal x -> normal y -> from_value x = Ok tx -> from_value y = Ok ty ->
  kind tx <> kind ty -> op_eq x y = false.
Proof. intros x y tx ty Nx Ny Fx Fy K. unfold op_eq. rewrite (kind_tag x y tx ty) by assumption. reflexivity. Qed.

Theorem C17_symmetric : tz_lawful o_tz -> forall x y, wfv x -> wfv y -> op_eq x y = op_eq y x.
Proof. intros T x y Wx Wy. unfold op_eq. rewrite pytag_eqb_sym, (py_eq_sym T x y Wx Wy). reflexivity. Qed.

Theorem C17_reflexive : forall x, nan_free x -> op_eq x x = true.
Proof.
  intros x N. unfold op_eq. assert (E : pytag_eqb (pytag_of x) (pytag_of x) = true).
  { destruct (pytag_of x); try reflexivity. apply N.eqb_refl. }
  rewrite E. apply py_eq_refl. assumption.
Qed.

(** two numbers are equal iff they are the same number; texts iff they are the same text; arrays iff same length and equal
    members *)
Theorem C17_meaning : 
  (forall n1 c1 e1 n2 c2 e2, op_eq (VDec (DFin n1 c1 e1)) (VDec (DFin n2 c2 e2)) = true <-> QArith_base.Qeq (dec_q n1 c1 e1) (dec_q n2 c2 e2)) /\
  (forall t u, op_eq (VStr t) (VStr u) = true <-> t = u) /\
  (forall a b, op_eq (VArr a) (VArr b) = true <-> Forall2 (fun x y => py_eq x y = true) a b).
Proof.
  split; [|split].
  - intros. unfold op_eq. cbn [pytag_of pytag_eqb]. rewrite py_eq_num by reflexivity. cbn [num_x dec_x xcmp]. rewrite is_eq_true, QArith_base.Qeq_alt.
    split; congruence.
  - intros. apply str_eqb_eq.
  - intros. unfold op_eq. cbn [pytag_of pytag_eqb]. rewrite py_eq_arr. apply forall2b_Forall2.
Qed.

(** [==] holds exactly when the values are [equal] and have the same Python type; nested members may differ in type *)
Theorem C17_equality : forall x y, op_eq x y = true <-> equal x y /\ pytag_of x = pytag_of y.
Proof.
  intros x y. unfold op_eq. assert (E : pytag_eqb (pytag_of x) (pytag_of y) = true <-> pytag_of x = pytag_of y).
  { generalize (pytag_of x) (pytag_of y). intros a b. destruct a, b; cbn; split; intro H; try reflexivity; try discriminate H; try (apply N.eqb_eq in H; congruence). injection H as <-. apply N.eqb_refl. }
  destruct (pytag_eqb (pytag_of x) (pytag_of y)).
  - rewrite equal_spec. split; [intro H; split; [exact H|apply E; reflexivity]|intros [H _]; exact H].
  - split; [discriminate|]. intros [_ H]. apply E in H. discriminate H.
Qed.
End C17.
Print Assumptions C17_equality.
Print Assumptions C17_never_raises.
Print Assumptions C17_complement.
Print Assumptions C17_different_kinds_unequal.
Print Assumptions C17_symmetric.
Print Assumptions C17_reflexive.
Print Assumptions C17_meaning.

(** Nested inside arrays, Python's equality looks through the types: [true] == [1] although true == 1 is false. *)
Theorem C17_nested_types_refuted : exists x y tx ty, normal x /\ normal y /\ from_value x = Ok tx /\ from_value y = Ok ty /\
  dt_eqb tx ty = false /\ is_compat tx ty = false /\ op_eq x y = true.
Proof.
  exists (VArr [VBool true]), (VArr [num 1]), (TArray TBool true), (TArray TFloat true).
  repeat split; try (constructor; intros ? [<-|[]]; constructor).
Qed.
Print Assumptions C17_nested_types_refuted.
Example C17_example : op_eq (VBool true) (num 1) = false /\ op_eq (num 1) (VDec (DFin false 10 (-1))) = true /\
  equal (VSet [VInt 1; VStr (s "a")]) (VSet [VStr (s "a"); VFlt (FFin 2 (-1) (DFin false 1 0))]) /\ ~ equal (num 1) (VStr (s "1")).
Proof. split; [vm_compute; reflexivity|]. split; [vm_compute; reflexivity|]. split; [apply equal_spec; vm_compute; reflexivity|]. intro H. apply equal_spec in H. discriminate H. Qed.

(** ** C18 *)
Section C18.
Context (Orc : Oracle).

(** swapping the operands swaps the operator: on all values, including NaN, naive datetimes and mismatched types *)
Theorem C18_converse : tz_lawful o_tz -> forall x y, wfv x -> wfv y ->
  op_ord Cgt x y = op_ord Clt y x /\ op_ord Cge x y = op_ord Cle y x.
Proof. intros T x y Wx Wy. split; [apply (op_ord_flip T y x Clt)|apply (op_ord_flip T y x Cle)]; assumption. Qed.

(** if one ordering operator succeeds on two orderable values they all do, and exactly one of <, ==, > holds *)
Theorem C18_trichotomy : tz_monotone o_tz -> forall x y o b, ordv x -> ordv y -> op_ord o x y = Ok b ->
  exists lt gt, op_ord Clt x y = Ok lt /\ op_ord Cgt x y = Ok gt /\
    ((lt = true /\ op_eq x y = false /\ gt = false) \/ (lt = false /\ op_eq x y = true /\ gt = false) \/
     (lt = false /\ op_eq x y = false /\ gt = true)).
Proof.
  intros M x y o b Ox Oy H. rewrite !op_ord_vcmp in * by assumption. destruct (vcmp x y) as [c|] eqn:E; [|discriminate].
  assert (EQ := vcmp_op_eq M x y c Ox Oy E). eexists. eexists. split; [reflexivity|]. split; [reflexivity|].
  destruct c; cbn; destruct (op_eq x y); intuition congruence.
Qed.

Theorem C18_le_is_lt_or_eq : tz_monotone o_tz -> forall x y, ordv x -> ordv y ->
  (op_ord Cle x y = Ok true <-> op_ord Clt x y = Ok true \/ (op_eq x y = true /\ exists b, op_ord Clt x y = Ok b)) /\
  (op_ord Cge x y = Ok true <-> op_ord Cgt x y = Ok true \/ (op_eq x y = true /\ exists b, op_ord Clt x y = Ok b)).
Proof.
  intros M x y Ox Oy. rewrite !op_ord_vcmp by assumption. destruct (vcmp x y) as [c|] eqn:E.
  - assert (EQ := vcmp_op_eq M x y c Ox Oy E). destruct (op_eq x y), c; try (exfalso; intuition congruence); cbn.
    + split; (split; [intros _; right; eauto|reflexivity]).
    + split; (split; [auto|intros [K|[K _]]; congruence]).
    + split; (split; [auto|intros [K|[K _]]; congruence]).
  - split; split; try discriminate; intros [K|[K [b' K']]]; discriminate.
Qed.

(** values of different kinds of data types raise EvaluationError *)
Theorem C18_different_kinds_raise : forall o x y tx ty, normal x -> normal y -> from_value x = Ok tx -> from_value y = Ok ty ->
  kind tx <> kind ty -> op_ord o x y = Err XEval.
Proof.
  intros o x y tx ty Nx Ny Fx Fy K. assert (E := kind_tag x y tx ty Nx Ny Fx Fy K). unfold op_ord.
  destruct x; destruct y; cbn [cmp_values]; rewrite ?E; try reflexivity; cbn in E; discriminate.
Qed.

(** null is <= and >= null, not < or >, and not comparable with anything else *)
Theorem C18_null : forall o,
  op_ord o VNull VNull = Ok (match o with Cle | Cge => true | Clt | Cgt => false end) /\
  forall v, v <> VNull -> op_ord o VNull v = Err XEval /\ op_ord o v VNull = Err XEval.
Proof.
  intro o. split; [destruct o; reflexivity|]. intros v H. destruct v; try contradiction; try (split; reflexivity).
  destruct f; split; reflexivity.
Qed.

(** the meaning on atoms *)
Theorem C18_meaning : 
  (forall n1 c1 e1 n2 c2 e2, op_ord Clt (VDec (DFin n1 c1 e1)) (VDec (DFin n2 c2 e2)) = Ok true <-> QArith_base.Qlt (dec_q n1 c1 e1) (dec_q n2 c2 e2)) /\
  (forall a b, op_ord Clt (VTd a) (VTd b) = Ok true <-> a < b) /\
  (forall w1 w2 z, op_ord Clt (VDt w1 (Some z)) (VDt w2 (Some z)) = Ok true <-> w1 < w2) /\
  (forall w1 z1 w2 z2, z1 <> z2 -> (op_ord Clt (VDt w1 (Some z1)) (VDt w2 (Some z2)) = Ok true <-> w1 - utcoff z1 w1 < w2 - utcoff z2 w2)) /\
  (forall a b, op_ord Clt (VBool a) (VBool b) = Ok true <-> a = false /\ b = true).
Proof.
  assert (L : forall c, @Ok bool (cop_of Clt c) = Ok true <-> c = Lt) by (intros []; cbn; split; congruence).
  split; [|split; [|split; [|split]]].
  - intros. unfold op_ord. cbn [cmp_values pytag_of pytag_eqb aop_native]. rewrite py_ord_num by reflexivity. cbn [num_x dec_x xcmp]. apply L.
  - intros. cbn -[cop_of]. apply L.
  - intros. cbn -[cop_of]. rewrite N.eqb_refl. apply L.
  - intros w1 z1 w2 z2 H. cbn -[cop_of]. destruct (N.eqb_spec z1 z2); [contradiction|]. apply L.
  - intros a b. destruct a, b; cbn; split; intuition congruence.
Qed.

(** text and bytes: a proper prefix is smaller, otherwise the first difference decides, by code point or byte value *)
Definition before (a b : list N) : Prop :=
  (exists c r, b = a ++ c :: r) \/ exists p x y a' b', a = p ++ x :: a' /\ b = p ++ y :: b' /\ (x < y)%N.
Lemma before_iff : forall a b, str_cmp a b = Lt <-> before a b.
Proof.
  induction a as [|x a IH]; intros [|y b]; cbn [str_cmp]; split; intro H; try discriminate H.
  - destruct H as [[c [r E]]|[p [x [y [a' [b' [E _]]]]]]]; [discriminate E|]. destruct p; discriminate E.
  - left. exists y, b. reflexivity.
  - reflexivity.
  - exfalso. destruct H as [[c [r E]]|[p [x' [y [a' [b' [_ [E _]]]]]]]]; [discriminate E|]. destruct p; discriminate E.
  - destruct (N.compare_spec x y) as [->|L|L]; [|right; exists [], x, y, a, b; auto|discriminate H]. apply IH in H as [[c [r ->]]|[p [x' [y' [a' [b' [-> [-> L]]]]]]]].
    + left. exists c, r. reflexivity.
    + right. exists (y :: p), x', y', a', b'. auto.
  - destruct H as [[c [r E]]|[p [x' [y' [a' [b' [E1 [E2 L]]]]]]]].
    + injection E as -> ->. rewrite N.compare_refl. apply IH. left. exists c, r. reflexivity.
    + destruct p as [|z p]; cbn in E1, E2; injection E1 as -> ->; injection E2 as -> ->.
      * destruct (N.compare_spec x' y') as [E|_|L']; [lia|reflexivity|lia].
      * rewrite N.compare_refl. apply IH. right. exists p, x', y', a', b'. auto.
Qed.
Theorem C18_text : forall a b,
  (op_ord Clt (VStr a) (VStr b) = Ok true <-> before a b) /\ (op_ord Clt (VBytes a) (VBytes b) = Ok true <-> before a b) /\
  (op_ord Cle (VStr a) (VStr b) = Ok true <-> before a b \/ a = b) /\ (op_ord Cle (VBytes a) (VBytes b) = Ok true <-> before a b \/ a = b).
Proof.
  assert (L : forall c, @Ok bool (cop_of Clt c) = Ok true <-> c = Lt) by (intros []; cbn; split; congruence).
  assert (LE : forall a b, @Ok bool (cop_of Cle (str_cmp a b)) = Ok true <-> before a b \/ a = b).
  { intros a b. rewrite <- before_iff, <- str_cmp_eq. destruct (str_cmp a b); cbn; intuition congruence. }
  intros a b. split; [|split; [|split]]; cbn -[cop_of str_cmp]; rewrite ?LE; try reflexivity; rewrite L; apply before_iff.
Qed.

(** sets (members of arrays, or values of UNDEFINED type) are ordered by inclusion *)
Theorem C18_sets : forall a b,
  let within := forall x, In x a -> exists y, In y b /\ py_eq y x = true in
  (op_ord Cle (VSet a) (VSet b) = Ok true <-> within) /\ (op_ord Clt (VSet a) (VSet b) = Ok true <-> within /\ (length a < length b)%nat).
Proof.
  intros a b within. assert (S : subset a b = true <-> within).
  { unfold subset, within. rewrite forallb_forall. split; intros H x I; apply existsb_exists, (H x I). }
  split; cbn -[subset Nat.ltb].
  - rewrite <- S. split; intro H; [injection H as H; exact H|rewrite H; reflexivity].
  - rewrite <- S, <- Nat.ltb_lt, <- andb_true_iff. split; intro H; [injection H as H; exact H|rewrite H; reflexivity].
Qed.
End C18.
Print Assumptions C18_converse.
Print Assumptions C18_trichotomy.
Print Assumptions C18_le_is_lt_or_eq.
Print Assumptions C18_different_kinds_raise.
Print Assumptions C18_null.
Print Assumptions C18_meaning.
Print Assumptions C18_text.
Print Assumptions C18_sets.
(** so neither of two sets may be smaller, though they differ; arrays of sets inherit this *)
Theorem C18_sets_refuted : forall o : cop, @op_ord demo_orc o (VArr [VSet [num 1]]) (VArr [VSet [num 2]]) = Ok false /\ @op_eq demo_orc (VArr [VSet [num 1]]) (VArr [VSet [num 2]]) = false.
Proof. intros []; vm_compute; auto. Qed.
Print Assumptions C18_sets_refuted.

(** Without "unambiguous UTC time" trichotomy fails: a wall clock time repeated at the end of daylight saving time compared
    with the same instant in another zone is neither <, == nor >, while both <= and >= hold. *)
Definition dst_tz : TzDb := {| utcoff := fun _ _ => 0; tz_fold := fun z w => (z =? 1)%N && (w =? 7) |}.
Definition dst_orc : Oracle := {| o_tz := dst_tz; o_set_order := o_set_order; o_set_order_perm := o_set_order_perm;
  o_re_ok := o_re_ok; o_re := o_re; o_lower := o_lower; o_upper := o_upper; o_space := o_space; o_digit := o_digit;
  o_decode := o_decode; o_encode := o_encode; o_isoparse := o_isoparse;
  o_pylit := o_pylit; o_pow := o_pow;
  o_timestamp := o_timestamp; o_tzname := o_tzname; o_suggest := o_suggest |}.
Theorem C18_repeated_hour_refuted : exists x y,
  @op_ord dst_orc Clt x y = Ok false /\ @op_eq dst_orc x y = false /\ @op_ord dst_orc Cgt x y = Ok false /\
  @op_ord dst_orc Cle x y = Ok true /\ @op_ord dst_orc Cge x y = Ok true.
Proof. exists (VDt 7 (Some 1%N)), (VDt 7 (Some 2%N)). vm_compute. auto. Qed.
Print Assumptions C18_repeated_hour_refuted.

Example C18_example_tz : tz_monotone demo_tz /\ tz_lawful demo_tz.
Proof. assert (M : tz_monotone demo_tz) by (intros z w1 w2 _ _ H; unfold utc; cbn; lia). split; [exact M|apply tz_monotone_lawful; exact M]. Qed.
Example C18_example : op_ord Clt (VArr [num 1; VStr (s "b")]) (VArr [num 1; VStr (s "c")]) = Ok true /\
  ordv (VArr [num 1; VStr (s "b")]).
Proof.
  split; [reflexivity|]. constructor. intros x [<-|[<-|[]]]; constructor. discriminate.
Qed.

(** ** C19 *)
Section C19.
Context (Orc : Oracle).

(** "same": neither smaller nor greater *)
Definition level (x y : value) : Prop := op_ord Cle x y = Ok true /\ op_ord Cge x y = Ok true.

(** The first position where two arrays differ decides; a proper prefix is smaller; arrays level everywhere are level. *)
Theorem C19_lexicographic : tz_monotone o_tz -> forall p p', Forall2 level p p' -> Forall ordv p -> Forall ordv p' ->
  (forall o x y a b, ordv x -> ordv y -> ~ level x y -> Forall ordv a -> Forall ordv b ->
     op_ord o (VArr (p ++ x :: a)) (VArr (p' ++ y :: b)) = op_ord o x y) /\
  (forall y b, ordv y -> Forall ordv b -> op_ord Clt (VArr p) (VArr (p' ++ y :: b)) = Ok true /\
                                         op_ord Cgt (VArr (p ++ y :: b)) (VArr p') = Ok true) /\
  level (VArr p) (VArr p').
Proof.
  intros M p p' F Op Op'.
  assert (LV : forall x y, ordv x -> ordv y -> (level x y <-> vcmp x y = Some Eq)).
  { intros x y Ox Oy. unfold level. rewrite !op_ord_vcmp by assumption. destruct (vcmp x y) as [[]|]; cbn; split; intuition congruence. }
  assert (OA : forall l, Forall ordv l -> ordv (VArr l)) by (intros l Hl; constructor; apply Forall_forall; exact Hl).
  assert (P : forall a b, vlex (p ++ a) (p' ++ b) = vlex a b).
  { intros a b. clear - F Op Op' LV. induction F as [|x y p p' L F IH]; [reflexivity|]. inversion Op; inversion Op'; subst. cbn.
    apply LV in L; [|assumption|assumption]. rewrite L. auto. }
  split; [|split].
  - intros o x y a b Ox Oy NL Oa Ob. rewrite !op_ord_vcmp; try assumption; try (apply OA, Forall_app; split; [assumption|constructor; assumption]).
    rewrite vcmp_arr, P. cbn. destruct (vcmp x y) as [[]|] eqn:E; try reflexivity. exfalso. apply NL, LV; assumption.
  - intros y b Oy Ob. assert (O1 := OA _ Op). assert (O2 := OA _ Op').
    assert (O3 : ordv (VArr (p ++ y :: b))) by (apply OA, Forall_app; split; [assumption|constructor; assumption]).
    assert (O4 : ordv (VArr (p' ++ y :: b))) by (apply OA, Forall_app; split; [assumption|constructor; assumption]).
    rewrite !op_ord_vcmp by assumption.
    rewrite !vcmp_arr. assert (P1 := P [] (y :: b)). assert (P2 := P (y :: b) []). rewrite app_nil_r in P1, P2. rewrite P1, P2. split; reflexivity.
  - apply LV; [apply OA; assumption|apply OA; assumption|]. rewrite vcmp_arr. assert (P1 := P [] []). rewrite !app_nil_r in P1. exact P1.
Qed.

(** < and <= are transitive, and so are their mixtures *)
Theorem C19_transitive : tz_monotone o_tz -> forall x y z, ordv x -> ordv y -> ordv z ->
  (op_ord Clt x y = Ok true -> op_ord Clt y z = Ok true -> op_ord Clt x z = Ok true) /\
  (op_ord Cle x y = Ok true -> op_ord Cle y z = Ok true -> op_ord Cle x z = Ok true) /\
  (op_ord Clt x y = Ok true -> op_ord Cle y z = Ok true -> op_ord Clt x z = Ok true) /\
  (op_ord Cle x y = Ok true -> op_ord Clt y z = Ok true -> op_ord Clt x z = Ok true).
Proof.
  intros M x y z Ox Oy Oz. rewrite !op_ord_vcmp by assumption.
  destruct (vcmp x y) as [c1|] eqn:E1; [|repeat split; discriminate]. destruct (vcmp y z) as [c2|] eqn:E2; [|repeat split; discriminate].
  assert (Ch := vcmp_chain x y z c1 c2). repeat split; intros H1 H2; destruct c1; try discriminate H1; destruct c2; try discriminate H2;
    (erewrite Ch; [|eassumption|eassumption|reflexivity]; reflexivity).
Qed.

(** < is irreflexive, <= reflexive *)
Theorem C19_reflexivity : tz_monotone o_tz -> forall x, ordv x -> op_ord Clt x x = Ok false /\ op_ord Cle x x = Ok true.
Proof. intros M x Ox. rewrite !op_ord_vcmp by assumption. rewrite (vcmp_refl x Ox). split; reflexivity. Qed.
End C19.
Print Assumptions C19_lexicographic.
Print Assumptions C19_transitive.
Print Assumptions C19_reflexivity.
Example C19_example :
  op_ord Clt (VArr [num 1; num 2]) (VArr [num 1; num 2; num 0]) = Ok true /\
  op_ord Clt (VArr [VStr (s "a"); num 9]) (VArr [VStr (s "b"); num 1]) = Ok true /\
  op_ord Clt (VArr [num 1]) (VArr [VStr (s "a")]) = Err XEval /\
  Forall2 (level demo_orc) [num 1; num 2] [VDec (DFin false 10 (-1)); num 2].
Proof. repeat split; repeat constructor. Qed.

(** ** C56 *)
Section C56.
Context (tz : TzDb).
Definition hv (v : value) : Prop := hashable v = true.

Theorem C56_equivalence : tz_lawful tz ->
  (forall x, hv x -> nan_free x -> py_eq x x = true) /\
  (forall x y, hv x -> hv y -> py_eq x y = py_eq y x) /\
  (forall x y z, hv x -> hv y -> hv z -> py_eq x y = true -> py_eq y z = true -> py_eq x z = true).
Proof.
  intro T. split; [|split].
  - intros. apply py_eq_refl. assumption.
  - intros x y Hx Hy. apply py_eq_sym; [exact T|apply hashable_wfv; assumption|apply hashable_wfv; assumption].
  - intros x y z Hx Hy Hz. apply py_eq_trans; try exact T; apply hashable_wfv; assumption.
Qed.

(** Building a set keeps exactly one member of every class of equal elements, the first one, ... *)
Theorem C56_set_one_representative : tz_lawful tz -> forall l, Forall hv l ->
  apart (mk_set l) /\ (forall x, In x (mk_set l) -> In x l) /\
  (forall x, In x l -> nan_free x -> exists y, In y (mk_set l) /\ py_eq y x = true) /\
  mk_set l = first_keys l.
Proof.
  intros T l F. rewrite Forall_forall in F.
  assert (Sy := proj1 (proj2 (C56_equivalence T))). assert (Tr := proj2 (proj2 (C56_equivalence T))).
  split; [apply mk_set_apart|]. split; [apply mk_set_In|]. split.
  - intros x Hx Nx. assert (E : py_mem x (mk_set l) = true).
    { rewrite (mk_set_mem hv Tr) by (assumption || apply F; exact Hx). apply existsb_exists. exists x. split; [exact Hx|apply py_eq_refl; exact Nx]. }
    apply existsb_exists in E. exact E.
  - apply (mk_set_first hv Tr). exact F.
Qed.

(** ... and membership does not depend on the insertion order. *)
Theorem C56_membership_order_free : tz_lawful tz -> forall l l' x, Forall hv l -> hv x -> Permutation l l' ->
  py_mem x (mk_set l) = py_mem x (mk_set l').
Proof.
  intros T l l' x F Hx P. rewrite Forall_forall in F.
  assert (Sy := proj1 (proj2 (C56_equivalence T))). assert (Tr := proj2 (proj2 (C56_equivalence T))).
  assert (F' : forall y, In y l' -> hv y) by (intros y Hy; apply F; eapply Permutation_in; [apply Permutation_sym, P|exact Hy]).
  rewrite (mk_set_mem hv Tr l x F Hx), (mk_set_mem hv Tr l' x F' Hx).
  unfold py_mem. destruct (existsb (fun y => py_eq y x) l) eqn:E.
  - apply existsb_exists in E. destruct E as [y [Hy Ey]]. symmetry. apply existsb_exists. exists y. split; [eapply Permutation_in; eassumption|exact Ey].
  - destruct (existsb (fun y => py_eq y x) l') eqn:E'; [|reflexivity]. apply existsb_exists in E'. destruct E' as [y [Hy Ey]].
    rewrite <- E. apply existsb_exists. exists y. split; [eapply Permutation_in; [apply Permutation_sym, P|exact Hy]|exact Ey].
Qed.

(** Mappings: keys as for sets, each with the last value given for it. *)
Theorem C56_mapping_content : tz_lawful tz -> forall (l : list (value * value)), Forall (fun kv => hv (fst kv)) l ->
  map fst (mk_dict l) = first_keys (map fst l) /\ forall k, hv k -> dict_get (mk_dict l) k = last_val l k.
Proof.
  intros T l F. assert (Sy := proj1 (proj2 (C56_equivalence T))). assert (Tr := proj2 (proj2 (C56_equivalence T))).
  assert (K : forall y, In y (map fst l) -> hv y).
  { intros y Hy. apply in_map_iff in Hy. destruct Hy as [kv [<- Hy]]. rewrite Forall_forall in F. auto. }
  split; [rewrite mk_dict_keys; apply (mk_set_first hv Tr); exact K|]. intros k Hk. apply (dict_get_mk hv Tr Sy); assumption.
Qed.
End C56.
Print Assumptions C56_equivalence.
Print Assumptions C56_set_one_representative.
Print Assumptions C56_membership_order_free.
Print Assumptions C56_mapping_content.
Example C56_example :
  @mk_set demo_tz [num 1; VStr (s "a"); VDec (DFin false 10 (-1)); VInt 1; VArr [num 2]; VArr [VInt 2]] = [num 1; VStr (s "a"); VArr [num 2]] /\
  Forall hv [num 1; VStr (s "a"); VDec (DFin false 10 (-1)); VInt 1; VArr [num 2]; VArr [VInt 2]].
Proof. split; [vm_compute; reflexivity|repeat constructor]. Qed.
