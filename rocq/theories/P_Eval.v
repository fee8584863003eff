(** * Theorems about symbols, attributes, comprehensions, mapping literals and calls (C14, C24, C30-C35) *)
From Coq Require Import QArith Permutation Lia String.
From Verif Require Import Base Dec Value DType DTypeFacts Types Ops EqFacts CoerceFacts TypesFacts DecFacts ParseUtil Attr Prog Ast Eval Build Engine
  ProgFacts StateFacts Demo P_Compare P_Ops.
Open Scope list_scope.
Open Scope Z_scope.

(** ** Specification vocabulary *)

(** evaluating the expressions one after the other gives these values *)
Inductive yields_all {Orc : Oracle} (C : ctx) (thing : value) (w : world) : st -> list expr -> list value -> st -> Prop :=
| Ya_nil : forall q, yields_all C thing w q [] [] q
| Ya_cons : forall q e v q1 es vs q2, yields C thing w q e v q1 -> yields_all C thing w q1 es vs q2 ->
    yields_all C thing w q (e :: es) (v :: vs) q2.

Lemma yields_all_run : forall (Orc : Oracle) C thing w q es vs q', yields_all C thing w q es vs q' ->
  run w (pmapM (eval C thing) es) q = (Ok vs, q').
Proof.
  intros Orc C thing w q es vs q' H. induction H as [q|q e v q1 es vs q2 He H IH]; [reflexivity|]. cbn [pmapM]. rewrite run_pbind, He, run_pbind, IH. reflexivity.
Qed.

(** ** C14: typed symbols *)
Section C14.
Context (Orc : Oracle) (C : ctx) (thing : value) (w : world).
Notation yields := (yields C thing w). Notation fails := (fails C thing w).

(** what a declared type demands of a value of type [vt]: compatible, and for a compound type with a declared member (value)
    type that exact member type, and no null member if declared non-nullable *)
Definition meets (t : dtype) (v : value) (vt : dtype) : Prop :=
  is_compat vt t = true /\
  (is_scalar t = true \/ value_type t = TUndef \/
   (dt_eqb (value_type t) (value_type vt) = true /\ (nullable_of t = true \/ value_type t = TNull \/ ~ In VNull (elems v)))).
Definition conforms (t : dtype) (v : value) : Prop :=
  t = TUndef \/ v = VNull \/ exists vt, from_value v = Ok vt /\ meets t v vt.

Lemma null_in : forall l, existsb is_null l = true <-> In VNull l.
Proof.
  intro l. rewrite existsb_exists. split; [intros [x [H E]]; destruct x; try discriminate; exact H|intro H; exists VNull; split; [exact H|reflexivity]].
Qed.

Lemma sym_check_iff : forall name t v, sym_check name t v = Ok v <-> conforms t v.
Proof.
  intros name t v. unfold sym_check, conforms. destruct (is_undef t) eqn:U; [destruct t; try discriminate; split; auto|].
  assert (NU : t <> TUndef) by (intros ->; discriminate).
  destruct (from_value v) as [vt|x] eqn:T; cbn [rbind]; [|split; [discriminate|intros [K|[->|[vt [K _]]]]; [contradiction|discriminate|discriminate]]].
  assert (L : (if dt_eqb vt TNull then Ok v else Err (XSymType name)) = Ok v <-> v = VNull).
  { rewrite <- from_value_null, T. destruct (dt_eqb vt TNull) eqn:E.
    - destruct vt; try discriminate. split; reflexivity.
    - split; [discriminate|]. intro K. inversion K; subst. discriminate. }
  assert (U0 : forall d, is_undef d = true <-> d = TUndef) by (intros []; cbn; split; congruence).
  assert (N0 : forall d, dt_eqb d TNull = true <-> d = TNull) by (intros []; cbn; split; congruence).
  destruct (is_compat vt t) eqn:Cp.
  - destruct (is_scalar t) eqn:S; [split; [intros _; right; right; exists vt; split; [reflexivity|split; auto]|reflexivity]|].
    destruct (is_undef (value_type t)) eqn:VU; [split; [intros _; right; right; exists vt; split; [reflexivity|split; [exact Cp|right; left; apply U0; exact VU]]|reflexivity]|].
    destruct (negb (dt_eqb (value_type t) TNull) && negb (nullable_of t) && existsb is_null (elems v)) eqn:NN.
    + apply Bool.andb_true_iff in NN as [NN1 NI]. apply Bool.andb_true_iff in NN1 as [NT NB]. apply null_in in NI.
      split; [discriminate|]. intros [K|[->|[vt' [K [_ [M|[M|[_ [M|[M|M]]]]]]]]]]; try contradiction.
      * congruence.
      * apply U0 in M. congruence.
      * rewrite M in NB. discriminate.
      * apply N0 in M. rewrite M in NT. discriminate.
    + destruct (dt_eqb (value_type t) (value_type vt)) eqn:VT.
      * split; [intros _|reflexivity]. right. right. exists vt. split; [reflexivity|]. split; [exact Cp|]. right. right. split; [exact VT|].
        destruct (nullable_of t); [left; reflexivity|]. destruct (dt_eqb (value_type t) TNull) eqn:Z; [right; left; apply N0; exact Z|]. right. right.
        cbn in NN. intro I0. apply null_in in I0. congruence.
      * rewrite L. split; [auto|]. intros [K|[K|[vt' [K [_ [M|[M|[M _]]]]]]]]; try contradiction; try assumption; try congruence.
        -- apply U0 in M. congruence.
  - rewrite L. split; [auto|]. intros [K|[K|[vt' [K [M _]]]]]; [contradiction|assumption|congruence].
Qed.

Lemma sym_check_other : forall name t v, conforms t v \/ sym_check name t v = Err (XSymType name) \/ (t <> TUndef /\ exists x, from_value v = Err x).
Proof.
  intros name t v. destruct (sym_check name t v) as [v'|x] eqn:E.
  - left. apply (sym_check_iff name). rewrite E. f_equal. unfold sym_check in E. destruct (is_undef t); [congruence|]. destruct (from_value v); [|discriminate]. cbn in E.
    repeat match type of E with (if ?b then _ else _) = _ => destruct b end; congruence.
  - right. unfold sym_check in E. destruct (is_undef t) eqn:U; [discriminate|]. assert (NU : t <> TUndef) by (intros ->; discriminate).
    destruct (from_value v) as [vt|y]; [|right; split; [exact NU|exists y; reflexivity]]. left. cbn in E. rewrite <- E.
    repeat match goal with |- context[if ?b then _ else _] => destruct b end; congruence.
Qed.

(** whatever the symbol resolves to, a delivered value conforms to the declared type *)
Theorem C14_delivered_conforms : forall name bi t q v q', yields q (ESym name bi t) v q' -> conforms t v.
Proof.
  unfold P_Ops.yields. intros name bi t q v q' H. cbn [eval] in H. rewrite run_pthen in H. destruct (run w (resolve C thing name bi) q) as [r q1].
  apply run_pbind_ok in H as [u [q2 [_ H]]]. apply run_pbind_ok in H as [v' [q3 [_ H]]]. cbn in H. inversion H as [[E Q]]. clear H.
  assert (K : sym_check name t v' = Ok v -> v' = v).
  { clear E. intro E. unfold sym_check in E. destruct (is_undef t); [congruence|]. destruct (from_value v'); [|discriminate]. cbn in E.
    repeat match type of E with (if ?b then _ else _) = _ => destruct b end; congruence. }
  assert (v' = v) by auto. subst v'. apply (sym_check_iff name). exact E.
Qed.

(** a resolved value that conforms is delivered, one that does not raises SymbolTypeError *)
Theorem C14_conforming_is_delivered : forall name bi t q r q1 v, run w (resolve C thing name bi) q = (Ok r, q1) ->
  new_value (c_tz C) false r = Ok v ->
  (conforms t v -> yields q (ESym name bi t) v q1) /\
  (~ conforms t v -> (exists vt, from_value v = Ok vt) -> fails q (ESym name bi t) (XSymType name) q1).
Proof.
  unfold P_Ops.yields, P_Ops.fails. intros name bi t q r q1 v R N.
  assert (E : run w (eval C thing (ESym name bi t)) q = (sym_check name t v, q1)).
  { cbn [eval]. rewrite run_pthen, R. rewrite run_pbind. cbn [run ok]. rewrite run_pbind. unfold nval. cbn [run]. rewrite N. reflexivity. }
  rewrite E. split.
  - intro K. apply (sym_check_iff name) in K. rewrite K. reflexivity.
  - intros K [vt T]. destruct (sym_check_other name t v) as [K'|[K'|[_ [x K']]]]; [contradiction|rewrite K'; reflexivity|congruence].
Qed.

(** the type map of a context is what the symbols of its rules are declared with *)
Theorem C14_declared_type : forall m name q, c_types C = type_resolver_of m -> s_scopes q = [] -> forall t, assoc name m = Some t ->
  run w (build C (DSym name false)) q = (Ok (ESym name false t), add_sym name q).
Proof.
  intros m name q T S t A. cbn [build]. rewrite run_pbind, run_act. cbn [step_op]. rewrite run_pbind. unfold resolve_type. rewrite run_pbind.
  cbn [run act step_op]. cbn [s_scopes add_sym]. rewrite S. cbn [find_scope run]. rewrite T. unfold type_resolver_of. rewrite A. reflexivity.
Qed.
End C14.
Print Assumptions C14_delivered_conforms.
Print Assumptions C14_conforming_is_delivered.
Print Assumptions C14_declared_type.
Example C14_example : conforms (TArray TFloat true) (VArr [num 1; VNull]) /\ ~ conforms (TArray TFloat false) (VArr [num 1; VNull]) /\
  ~ conforms TFloat (VStr (s "x")) /\
  fails untyped_ctx demo_thing demo_world demo_st (ESym (s "name") false TFloat) (XSymType (s "name"))
    (log (EvResolve demo_thing (s "name") (Ok (VStr (s "Luke")))) demo_st).
Proof.
  split; [right; right; exists (TArray TFloat true); split; [reflexivity|split; [reflexivity|right; right; split; [reflexivity|left; reflexivity]]]|].
  split; [intro K; apply (sym_check_iff (s "x")) in K; vm_compute in K; discriminate|].
  split; [intro K; apply (sym_check_iff (s "x")) in K; vm_compute in K; discriminate|vm_compute; reflexivity].
Qed.
(** An empty array does not conform to ARRAY(FLOAT), because its member type is UNDEFINED. *)
Theorem C14_empty_array_refuted : ~ conforms (TArray TFloat true) (VArr []) /\
  fails untyped_ctx (VDict [(VStr (s "xs"), VList [])]) demo_world demo_st (ESym (s "xs") false (TArray TFloat true)) (XSymType (s "xs"))
    (log (EvResolve (VDict [(VStr (s "xs"), VList [])]) (s "xs") (Ok (VList []))) demo_st).
Proof. split; [intro K; apply (sym_check_iff (s "x")) in K; vm_compute in K; discriminate|vm_compute; reflexivity]. Qed.
Print Assumptions C14_empty_array_refuted.

(** ** C30: comprehensions *)
Section C30.
Context (Orc : Oracle) (C : ctx) (thing : value) (w : world).
Notation yields := (yields C thing w). Notation fails := (fails C thing w).

Definition bind_var (var : str) (x : value) (q : st) : st := set_scopes (s_scopes q ++ [{| a_name := var; a_val := x; a_type := None |}]) q.
Definition unbind (q0 : st) (q : st) : st := set_scopes (s_scopes q0) q.

(** [iterates q xs out q']: visiting the elements [xs] in order from state [q] has outcome [out] and ends in [q'].  Per element
    the condition is evaluated with the variable bound, then, if it is truthy, the result; the binding is removed before the
    next element; the first error ends the iteration. *)
Inductive iterates (res : expr) (var : str) (cond : option expr) : st -> list value -> result (list value) -> st -> Prop :=
| It_nil : forall q, iterates res var cond q [] (Ok []) q
| It_skip : forall q x xs c cv q1 out q2, cond = Some c -> yields (bind_var var x q) c cv q1 -> truthy cv = false ->
    iterates res var cond (unbind q q1) xs out q2 -> iterates res var cond q (x :: xs) out q2
| It_keep : forall q x xs q1 v q2 out q3, 
    (match cond with None => q1 = bind_var var x q | Some c => exists cv, yields (bind_var var x q) c cv q1 /\ truthy cv = true end) ->
    yields q1 res v q2 -> iterates res var cond (unbind q q2) xs out q3 ->
    iterates res var cond q (x :: xs) (rmap (cons v) out) q3
| It_cond_error : forall q x xs c err q1, cond = Some c -> fails (bind_var var x q) c err q1 ->
    iterates res var cond q (x :: xs) (Err err) (unbind q q1)
| It_result_error : forall q x xs q1 err q2,
    (match cond with None => q1 = bind_var var x q | Some c => exists cv, yields (bind_var var x q) c cv q1 /\ truthy cv = true end) ->
    fails q1 res err q2 -> iterates res var cond q (x :: xs) (Err err) (unbind q q2).

Lemma scope_run : forall A a (p : prog A) q, (forall w q, s_scopes (snd (run w p q)) = s_scopes q) ->
  run w (with_scope a p) q = let '(r, q1) := run w p (set_scopes (s_scopes q ++ [a]) q) in (r, unbind q q1).
Proof. intros A a p q K. rewrite (run_scope_bal A a p w q K). reflexivity. Qed.

Lemma body_scopes : forall res cond, forall w q,
  s_scopes (snd (run w (do! b := (match cond with None => ok true | Some c => do! v := eval C thing c in ok (truthy v) end) in
                  if b then (do! v := eval C thing res in ok (Some v)) else ok None) q)) = s_scopes q.
Proof.
  intros res cond. assert (E : forall e, keeps s_scopes (eval C thing e)) by (intros e w' q'; apply eval_scopes).
  apply keeps_pbind.
  - destruct cond as [c|]; [apply keeps_pbind; [apply E|intros; apply keeps_ret]|apply keeps_ret].
  - intros []; [apply keeps_pbind; [apply E|intros; apply keeps_ret]|apply keeps_ret].
Qed.

Lemma comp_loop_iterates : forall res var cond xs q out q',
  run w (comp_loop var (match cond with Some c => Some (eval C thing c) | None => None end) (eval C thing res) xs) q = (out, q') <->
  iterates res var cond q xs out q'.
Proof.
  intros res var cond. unfold P_Ops.yields, P_Ops.fails. induction xs as [|x xs IH]; intros q out q'.
  - cbn. split; [intro H; inversion H; constructor|intro H; inversion H; reflexivity].
  - cbn [comp_loop]. rewrite run_pbind.
    rewrite (scope_run _ _ _ q) by (destruct cond; apply (body_scopes res (Some _)) || apply (body_scopes res None)).
    fold (bind_var var x q).
    assert (BODY : forall r q1, 
      run w (do! b := (match match cond with Some c => Some (eval C thing c) | None => None end with None => ok true | Some c => do! v := c in ok (truthy v) end) in
                  if b then (do! v := eval C thing res in ok (Some v)) else ok None) (bind_var var x q) = (r, q1) ->
      (exists c cv, cond = Some c /\ run w (eval C thing c) (bind_var var x q) = (Ok cv, q1) /\ truthy cv = false /\ r = Ok None) \/
      (exists c err, cond = Some c /\ run w (eval C thing c) (bind_var var x q) = (Err err, q1) /\ r = Err err) \/
      (exists q0, (match cond with None => q0 = bind_var var x q | Some c => exists cv, run w (eval C thing c) (bind_var var x q) = (Ok cv, q0) /\ truthy cv = true end) /\
         ((exists v, run w (eval C thing res) q0 = (Ok v, q1) /\ r = Ok (Some v)) \/ (exists err, run w (eval C thing res) q0 = (Err err, q1) /\ r = Err err)))).
    { intros r q1. rewrite run_pbind. destruct cond as [c|].
      - rewrite run_pbind. destruct (run w (eval C thing c) (bind_var var x q)) as [[cv|err] q0] eqn:Ec.
        + cbn [run ok]. destruct (truthy cv) eqn:Tc.
          * rewrite run_pbind. destruct (run w (eval C thing res) q0) as [[v|err] q2] eqn:Er; cbn; intro H; inversion H; subst; right; right; exists q0;
              (split; [exists cv; auto|]); [left; exists v|right; exists err]; auto.
          * cbn. intro H. inversion H; subst. left. exists c, cv. auto.
        + intro H. inversion H; subst. right. left. exists c, err. auto.
      - cbn [run ok]. rewrite run_pbind. destruct (run w (eval C thing res) (bind_var var x q)) as [[v|err] q2] eqn:Er; cbn; intro H; inversion H; subst;
          right; right; exists (bind_var var x q); (split; [reflexivity|]); [left; exists v|right; exists err]; auto. }
    match goal with |- context[run w ?p (bind_var var x q)] => remember p as body eqn:HB0; assert (HB : forall q0, run w body q0 = run w p q0) by (rewrite HB0; reflexivity); clear HB0 end.
    destruct (run w body (bind_var var x q)) as [r q1] eqn:RB. specialize (BODY r q1). cbn in BODY |- *.
    assert (BD := BODY eq_refl). split.
    + intro H. destruct BD as [[c [cv [E1 [E2 [E3 ->]]]]]|[[c [err [E1 [E2 ->]]]]|[q0 [E1 [[v [E2 ->]]|[err [E2 ->]]]]]]].
      * rewrite run_pbind in H. eapply It_skip; try eassumption. apply IH. destruct (run w _ (unbind q q1)) as [[vs|err] q2]; inversion H; reflexivity.
      * inversion H; subst. eapply It_cond_error; [reflexivity|exact E2].
      * rewrite run_pbind in H. destruct (run w (comp_loop var match cond with Some c => Some (eval C thing c) | None => None end (eval C thing res) xs) (unbind q q1)) as [o2 q2] eqn:EL.
        apply IH in EL. replace out with (rmap (cons v) o2) by (destruct o2; inversion H; reflexivity). replace q' with q2 by (destruct o2; inversion H; reflexivity).
        eapply It_keep; eassumption.
      * inversion H; subst. eapply It_result_error; [exact E1|exact E2].
    + intro H. clear BODY. inversion H as [|? ? ? c cv q1' ? ? Ec Hc Tc L|? ? ? q0' v q1' o2 ? Hc Hr L|? ? ? c err q1' Ec Hc|? ? ? q0' err q1' Hc Hr]; subst.
      * assert (X : run w body (bind_var var x q) = (Ok None, q1')) by (rewrite HB; rewrite run_pbind, run_pbind, Hc; cbn [run ok]; rewrite Tc; reflexivity).
        rewrite RB in X. inversion X; subst. rewrite run_pbind. apply IH in L. rewrite L. destruct out; reflexivity.
      * assert (X : run w body (bind_var var x q) = (Ok (Some v), q1')).
        { rewrite HB, run_pbind. destruct cond as [c|]; [destruct Hc as [cv [Hc Tc]]; rewrite run_pbind, Hc; cbn [run ok]; rewrite Tc|subst q0'; cbn [run ok]]; rewrite run_pbind, Hr; reflexivity. }
        rewrite RB in X. inversion X; subst. rewrite run_pbind. apply IH in L. rewrite L. destruct o2; reflexivity.
      * assert (X : run w body (bind_var var x q) = (Err err, q1')) by (rewrite HB, run_pbind, run_pbind, Hc; reflexivity).
        rewrite RB in X. inversion X; subst. reflexivity.
      * assert (X : run w body (bind_var var x q) = (Err err, q1')).
        { rewrite HB, run_pbind. destruct cond as [c|]; [destruct Hc as [cv [Hc Tc]]; rewrite run_pbind, Hc; cbn [run ok]; rewrite Tc|subst q0'; cbn [run ok]]; rewrite run_pbind, Hr; reflexivity. }
        rewrite RB in X. inversion X; subst. reflexivity.
Qed.

(** the iterable is evaluated once; a non-iterable raises EvaluationError; else the outcome is that of the iteration, as array *)
Theorem C30_meaning : forall res var it cond q v q1 t, yields q it v q1 -> from_value v = Ok t ->
  (is_iterable t = false -> fails q (EComp res var it cond) XEval q1) /\
  (is_iterable t = true -> forall out q', 
     run w (eval C thing (EComp res var it cond)) q = (rmap VArr out, q') <-> iterates res var cond q1 (elems v) out q').
Proof.
  intros res var it cond q v q1 t Hi T. unfold P_Ops.yields, P_Ops.fails in *. split.
  - intro NI. cbn [eval]. rewrite run_pbind, Hi, run_pbind. cbn [run]. rewrite T, NI. reflexivity.
  - intros I out q'. rewrite <- comp_loop_iterates. cbn [eval]. rewrite run_pbind, Hi, run_pbind. cbn [run]. rewrite T, I. rewrite run_pbind.
    destruct (run w (comp_loop _ _ _ _) q1) as [[vs|x] q2]; cbn; split; intro H.
    + destruct out; inversion H; subst; reflexivity.
    + inversion H; reflexivity.
    + destruct out; inversion H; subst; reflexivity.
    + inversion H; reflexivity.
Qed.

(** If condition and result compute [f] and [g] of the element without changing the state, the comprehension is filter, then map. *)
Theorem C30_filter_map : forall res var it c q v q1 t (f g : value -> value), yields q it v q1 -> from_value v = Ok t -> is_iterable t = true ->
  (forall x, In x (elems v) -> yields (bind_var var x q1) c (f x) (bind_var var x q1)) ->
  (forall x, In x (elems v) -> truthy (f x) = true -> yields (bind_var var x q1) res (g x) (bind_var var x q1)) ->
  yields q (EComp res var it (Some c)) (VArr (map g (filter (fun x => truthy (f x)) (elems v)))) q1.
Proof.
  intros res var it c q v q1 t f g Hi T I Hc Hr. unfold P_Ops.yields.
  assert (U : forall x, unbind q1 (bind_var var x q1) = q1) by (intro x; destruct q1; reflexivity).
  assert (L : forall xs, (forall x, In x xs -> In x (elems v)) -> iterates res var (Some c) q1 xs (Ok (map g (filter (fun x => truthy (f x)) xs))) q1).
  { induction xs as [|x xs IH]; intro Sub; [constructor|]. cbn [filter]. assert (Hx : In x (elems v)) by (apply Sub; left; reflexivity).
    assert (IH' : iterates res var (Some c) q1 xs (Ok (map g (filter (fun x => truthy (f x)) xs))) q1) by (apply IH; intros; apply Sub; right; assumption).
    destruct (truthy (f x)) eqn:Tf.
    - change (Ok (map g (x :: filter (fun x => truthy (f x)) xs))) with (rmap (cons (g x)) (Ok (map g (filter (fun x => truthy (f x)) xs)))).
      eapply It_keep; [exists (f x); split; [apply Hc; exact Hx|exact Tf]|apply Hr; assumption|]. rewrite U. exact IH'.
    - eapply It_skip; [reflexivity|apply Hc; exact Hx|exact Tf|]. rewrite U. exact IH'. }
  apply (proj2 (proj2 (C30_meaning res var it (Some c) q v q1 t Hi T) I (Ok _) q1)). apply L. auto.
Qed.

(** the iterated elements: members of arrays and sets, keys of mappings *)
Example C30_elements : (forall l, elems (VArr l) = l) /\ (forall l, elems (VSet l) = l) /\ (forall m, elems (VMap m) = map fst m).
Proof. repeat split. Qed.
End C30.
Print Assumptions C30_meaning.
Print Assumptions C30_filter_map.
Example C30_example : yields untyped_ctx VNull demo_world demo_st
  (EComp (EBin (BArith Mul) (sym "x") (sym "x")) (s "x") (EArr [ELit (num 1); ELit (num 2); ELit (num 3)]) (Some (EBin (BCmp Cgt) (sym "x") (ELit (num 1)))))
  (VArr [num 4; num 9]) demo_st /\
  fails untyped_ctx VNull demo_world demo_st (EComp (sym "x") (s "x") (ELit (num 1)) None) XEval demo_st.
Proof. split; vm_compute; reflexivity. Qed.
