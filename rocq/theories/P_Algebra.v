(** * Theorems about equivalent rules (C76) *)
From Coq Require Import String.
From Verif Require Import Base Dec Value EqFacts DType Types Ops ParseUtil Attr Prog Ast Eval Build Engine ProgFacts StateFacts Demo P_Fold.
Open Scope list_scope.
Open Scope Z_scope.

(** ** Specification *)
Notation enot := (EUn UNot).
Notation eand := (EBin BAndL).
Notation eor := (EBin BOrL).
Definition etrue : expr := ELit (VBool true).
Definition efalse : expr := ELit (VBool false).

(** the laws, for arbitrary expressions a, b, c *)
Inductive law : expr -> expr -> Prop :=
| L_and_not : forall a b, law (enot (eand a b)) (eor (enot a) (enot b))                (* not (a and b)  =  not a or not b *)
| L_or_not : forall a b, law (enot (eor a b)) (eand (enot a) (enot b))                 (* not (a or b)  =  not a and not b *)
| L_and_assoc : forall a b c, law (eand (eand a b) c) (eand a (eand b c))
| L_or_assoc : forall a b c, law (eor (eor a b) c) (eor a (eor b c))
| L_and_true : forall a, law (eand a etrue) (enot (enot a))                            (* a and true  =  not not a *)
| L_or_false : forall a, law (eor a efalse) (enot (enot a))
| L_true_and : forall a, law (eand etrue a) (enot (enot a))
| L_false_or : forall a, law (eor efalse a) (enot (enot a))
| L_not_thrice : forall a, law (enot (enot (enot a))) (enot a)
| L_not_not_and : forall a b, law (enot (enot (eand a b))) (eand a b)                  (* results of operators are already boolean *)
| L_not_not_or : forall a b, law (enot (enot (eor a b))) (eor a b)
| L_if : forall a, law (ETern a etrue efalse) (enot (enot a))                          (* a ? true : false  =  not not a *)
| L_if_not : forall a b c, law (ETern (enot a) b c) (ETern a c b)                      (* (not a) ? b : c  =  a ? c : b *)
| L_if_and : forall a b c d, law (ETern (eand a b) c d) (ETern a (ETern b c d) d)
| L_if_or : forall a b c d, law (ETern (eor a b) c d) (ETern a c (ETern b c d))
| L_if_if : forall a b c d e, law (ETern (ETern a b c) d e) (ETern a (ETern b d e) (ETern c d e))
| L_and_if : forall a b, law (eand a b) (ETern a (enot (enot b)) efalse)
| L_or_if : forall a b, law (eor a b) (ETern a etrue (enot (enot b)))
| L_ne : forall a b, law (EBin BNe a b) (enot (EBin BEq a b))                          (* a != b  =  not (a == b) *)
| L_unlike : forall se a b, law (EBin (BFuzzy se true) a b) (enot (EBin (BFuzzy se false) a b)).   (* a !~ b  =  not (a =~ b) *)

(** applying laws, in either direction, any number of times, anywhere inside an expression.  The only restriction: the function
    position of a call may only be replaced by an expression of the same inferred type, since the arguments are checked against it. *)
Section Spec.
Context {Orc : Oracle}.
Inductive equivalent : expr -> expr -> Prop :=
| Q_law : forall a b, law a b -> equivalent a b
| Q_refl : forall a, equivalent a a
| Q_sym : forall a b, equivalent a b -> equivalent b a
| Q_trans : forall a b c, equivalent a b -> equivalent b c -> equivalent a c
| Q_arr : forall l l', all_equivalent l l' -> equivalent (EArr l) (EArr l')
| Q_set : forall l l', all_equivalent l l' -> equivalent (ESet l) (ESet l')
| Q_map : forall l l', items_equivalent l l' -> equivalent (EMap l) (EMap l')
| Q_bin : forall o a a' b b', equivalent a a' -> equivalent b b' -> equivalent (EBin o a b) (EBin o a' b')
| Q_comp : forall r r' v i i', equivalent r r' -> equivalent i i' -> equivalent (EComp r v i None) (EComp r' v i' None)
| Q_comp_if : forall r r' v i i' c c', equivalent r r' -> equivalent i i' -> equivalent c c' -> equivalent (EComp r v i (Some c)) (EComp r' v i' (Some c'))
| Q_in : forall a a' b b', equivalent a a' -> equivalent b b' -> equivalent (EIn a b) (EIn a' b')
| Q_attr : forall a a' n sf, equivalent a a' -> equivalent (EAttr a n sf) (EAttr a' n sf)
| Q_item : forall a a' b b' sf, equivalent a a' -> equivalent b b' -> equivalent (EItem a b sf) (EItem a' b' sf)
| Q_slice : forall a a' b b' c c' sf, equivalent a a' -> equivalent b b' -> equivalent c c' -> equivalent (ESlice a b c sf) (ESlice a' b' c' sf)
| Q_call : forall f f' l l', equivalent f f' -> rtype f = rtype f' -> all_equivalent l l' -> equivalent (ECall f l) (ECall f' l')
| Q_tern : forall a a' b b' c c', equivalent a a' -> equivalent b b' -> equivalent c c' -> equivalent (ETern a b c) (ETern a' b' c')
| Q_un : forall o a a', equivalent a a' -> equivalent (EUn o a) (EUn o a')
with all_equivalent : list expr -> list expr -> Prop :=
| Qs_nil : all_equivalent [] []
| Qs_cons : forall a a' l l', equivalent a a' -> all_equivalent l l' -> all_equivalent (a :: l) (a' :: l')
with items_equivalent : list (expr * expr) -> list (expr * expr) -> Prop :=
| Qi_nil : items_equivalent [] []
| Qi_cons : forall k k' a a' l l', equivalent k k' -> equivalent a a' -> items_equivalent l l' -> items_equivalent ((k, a) :: l) ((k', a') :: l').
End Spec.
Scheme equivalent_mind := Induction for equivalent Sort Prop
  with all_equivalent_mind := Induction for all_equivalent Sort Prop
  with items_equivalent_mind := Induction for items_equivalent Sort Prop.
Combined Scheme equivalent_all from equivalent_mind, all_equivalent_mind, items_equivalent_mind.

(** ** Proof *)

(** programs that behave alike in every world and state *)
Definition peq {A} (p p' : prog A) : Prop := forall w q, run w p q = run w p' q.
Lemma peq_refl : forall A (p : prog A), peq p p. Proof. intros A p w q. reflexivity. Qed.
Lemma peq_bind : forall A B (p p' : prog A) (f f' : A -> prog B), peq p p' -> (forall a, peq (f a) (f' a)) -> peq (pbind p f) (pbind p' f').
Proof. intros A B p p' f f' Hp Hf w q. rewrite !run_pbind, (Hp w q). destruct (run w p' q) as [[a|x] q1]; [apply Hf|reflexivity]. Qed.
Lemma peq_then : forall A B (p p' : prog A) (f f' : result A -> prog B), peq p p' -> (forall a, peq (f a) (f' a)) -> peq (pthen p f) (pthen p' f').
Proof. intros A B p p' f f' Hp Hf w q. rewrite !run_pthen, (Hp w q). destruct (run w p' q) as [a q1]. apply Hf. Qed.
Lemma peq_pmapM : forall A A' B (f : A -> prog B) (f' : A' -> prog B) l l', Forall2 (fun a a' => peq (f a) (f' a')) l l' -> peq (pmapM f l) (pmapM f' l').
Proof.
  intros A A' B f f' l l' H. induction H as [|a a' l l' Ha H IH]; [apply peq_refl|]. cbn [pmapM]. apply peq_bind; [exact Ha|]. intro b. apply peq_bind; [exact IH|]. intro. apply peq_refl.
Qed.
Lemma peq_scope : forall A a (p p' : prog A), peq p p' -> peq (with_scope a p) (with_scope a p').
Proof. intros A a p p' H w q. rewrite !run_with_scope, H. reflexivity. Qed.
Lemma peq_comp_loop : forall var c c' b b', match c, c' with Some c, Some c' => peq c c' | None, None => True | _, _ => False end -> peq b b' ->
  forall l, peq (comp_loop var c b l) (comp_loop var c' b' l).
Proof.
  intros var c c' b b' Hc Hb. induction l as [|x l IH]; [apply peq_refl|]. cbn [comp_loop]. apply peq_bind.
  - apply peq_scope. apply peq_bind; [destruct c, c'; try contradiction; [apply peq_bind; [exact Hc|intro; apply peq_refl]|apply peq_refl]|].
    intros []; [apply peq_bind; [exact Hb|intro; apply peq_refl]|apply peq_refl].
  - intro o. apply peq_bind; [exact IH|]. intro. apply peq_refl.
Qed.

Section C76.
Context (Orc : Oracle) (C : ctx) (thing : value).

Definition pentries : list (value * prog value) -> list (value * prog value) -> Prop := Forall2 (fun e e' => fst e = fst e' /\ peq (snd e) (snd e')).
Lemma pentries_put : forall m m' k p p', pentries m m' -> peq p p' -> pentries (dict_put m k p) (dict_put m' k p').
Proof.
  intros m m' k p p' H Hp. induction H as [|[a x] [a' x'] m m' [E Hb] H IH]; cbn.
  - constructor; [split; [reflexivity|exact Hp]|constructor].
  - cbn in E, Hb. subst a'. destruct (py_eq a k); constructor; try assumption; split; try reflexivity; assumption.
Qed.
Lemma pentries_mk : forall l l', pentries l l' -> pentries (mk_dict l) (mk_dict l').
Proof.
  intros l l' H. unfold mk_dict. assert (Gen : forall m m', pentries m m' -> pentries (fold_left (fun m kv => dict_put m (fst kv) (snd kv)) l m) (fold_left (fun m kv => dict_put m (fst kv) (snd kv)) l' m')).
  { induction H as [|[a x] [a' x'] l l' [E Hb] H IH]; intros m m' Hm; [exact Hm|]. cbn in *. subst a'. apply IH. apply pentries_put; assumption. }
  apply Gen. constructor.
Qed.

Lemma law_eval : forall a b, law a b -> peq (eval C thing a) (eval C thing b).
Proof.
  intros a b H w q.
  destruct H; cbn [eval etrue efalse];
    repeat (first [ progress cbn [run ok raise negb truthy] | rewrite run_pbind
    | match goal with
      | |- context [match run w (eval C thing ?x) ?q with _ => _ end] => destruct (run w (eval C thing x) q) as [[?|?] ?]
      | |- context [if truthy ?v then _ else _] => destruct (truthy v) eqn:?
      | |- context [negb (truthy ?v)] => destruct (truthy v) eqn:?
      end ]); try reflexivity.
  - unfold op_ne, op_eq. destruct (pytag_eqb _ _); reflexivity.
  - assert (X : forall v, run w (do! y := eval C thing b in fuzzy_match C se true (is_str_lit b) v y) s =
        (let (r, q') := run w (do! y := eval C thing b in fuzzy_match C se false (is_str_lit b) v y) s in match r with Ok a => (Ok (VBool (negb (truthy a))), q') | Err x => (Err x, q') end)).
    { intro v. rewrite !run_pbind. destruct (run w (eval C thing b) s) as [[y|x] s1]; [|reflexivity]. unfold fuzzy_match. destruct v; try reflexivity; (destruct y; try reflexivity);
        rewrite !run_pbind; cbn [run]; (match goal with |- context [if is_str_lit b then ?u else ?v] => destruct (if is_str_lit b then u else v) end; [|reflexivity]); try reflexivity.
      destruct (o_re _ _ _ _); reflexivity. }
    destruct a0; try reflexivity; apply X.
Qed.

Lemma Forall2_impl : forall A B (R R' : A -> B -> Prop) l l', (forall a b, R a b -> R' a b) -> Forall2 R l l' -> Forall2 R' l l'.
Proof. intros A B R R' l l' H K. induction K; constructor; auto. Qed.

Lemma law_str_lit : forall a b, law a b -> is_str_lit a = is_str_lit b.
Proof. intros a b []; reflexivity. Qed.

Theorem equivalent_eval :
  (forall a b, equivalent a b -> peq (eval C thing a) (eval C thing b) /\ is_str_lit a = is_str_lit b) /\
  (forall l l', all_equivalent l l' -> Forall2 (fun a a' => peq (eval C thing a) (eval C thing a')) l l') /\
  (forall l l', items_equivalent l l' -> Forall2 (fun a a' => peq (eval C thing (fst a)) (eval C thing (fst a')) /\ peq (eval C thing (snd a)) (eval C thing (snd a'))) l l').
Proof.
  apply equivalent_all.
  - intros a b L. split; [apply law_eval; exact L|apply law_str_lit; exact L].
  - intros a. split; [apply peq_refl|reflexivity].
  - intros a b _ [H K]. split; [intros w q; symmetry; apply H|congruence].
  - intros a b c _ [H K] _ [H' K']. split; [intros w q; rewrite H; apply H'|congruence].
  - intros l l' _ H. split; [|reflexivity]. cbn [eval]. apply peq_bind; [apply peq_pmapM; exact H|intro; apply peq_refl].
  - intros l l' _ H. split; [|reflexivity]. cbn [eval]. apply peq_bind; [apply peq_pmapM|intro; apply peq_refl].
    eapply Forall2_impl; [|exact H]. intros a a' K. apply peq_bind; [exact K|intro; apply peq_refl].
  - intros l l' _ H. split; [|reflexivity]. cbn [eval]. intros w q. rewrite !run_pbind.
    assert (G : forall q, match run w (pmapM (fun kv => do! k := eval C thing (fst kv) in do! k' := Ret (map_key k) in ok (k', eval C thing (snd kv))) l) q,
                            run w (pmapM (fun kv => do! k := eval C thing (fst kv) in do! k' := Ret (map_key k) in ok (k', eval C thing (snd kv))) l') q with
                      | (Ok ks, q1), (Ok ks', q1') => pentries ks ks' /\ q1 = q1' | (Err x, q1), (Err x', q1') => x = x' /\ q1 = q1' | _, _ => False end).
    { clear q. induction H as [|a a' l l' [Ha Ha'] H IH]; intro q; [split; [constructor|reflexivity]|]. cbn [pmapM]. rewrite !run_pbind, (Ha w q).
      destruct (run w (eval C thing (fst a')) q) as [[k|x] q1]; [|split; reflexivity]. rewrite !run_pbind. cbn [run]. destruct (map_key k) as [k'|x]; [|split; reflexivity]. cbn [run ok].
      rewrite !run_pbind. specialize (IH q1). destruct (run w (pmapM _ l) q1) as [[ks|x] q2], (run w (pmapM _ l') q1) as [[ks'|x'] q2']; try contradiction; destruct IH as [I1 I2]; subst; [|split; reflexivity].
      split; [|reflexivity]. constructor; [split; [reflexivity|exact Ha']|exact I1]. }
    specialize (G q). destruct (run w (pmapM _ l) q) as [[ks|x] q1], (run w (pmapM _ l') q) as [[ks'|x'] q1']; try contradiction; destruct G as [G1 G2]; subst; [|reflexivity].
    apply pentries_mk in G1. apply peq_bind; [|intro; apply peq_refl]. apply peq_pmapM. eapply Forall2_impl; [|exact G1]. intros [k p] [k' p'] [E K]. cbn in *. subst k'. apply peq_bind; [exact K|intro; apply peq_refl].
  - intros o a a' b b' _ [Ha _] _ [Hb Sb]. split; [|reflexivity]. cbn [eval]. destruct o.
    + apply peq_bind; [exact Ha|]. intro x. apply peq_bind; [exact Hb|]. intro. apply peq_refl.
    + apply peq_bind; [exact Ha|]. intro x. apply peq_bind; [exact Hb|]. intro. apply peq_refl.
    + apply peq_bind; [exact Ha|]. intro x. destruct (is_numeric x); [|apply peq_refl]. apply peq_bind; [exact Hb|]. intro. apply peq_refl.
    + apply peq_bind; [exact Ha|]. intro x. apply peq_bind; [apply peq_refl|]. intro t. destruct (dt_eqb t TFloat); [|destruct (is_set_t t); [|apply peq_refl]].
      * apply peq_bind; [apply peq_refl|]. intro. apply peq_bind; [exact Hb|]. intro. apply peq_refl.
      * apply peq_bind; [exact Hb|]. intro. apply peq_refl.
    + apply peq_bind; [exact Ha|]. intro x. destruct (truthy x); [|apply peq_refl]. apply peq_bind; [exact Hb|]. intro. apply peq_refl.
    + apply peq_bind; [exact Ha|]. intro x. destruct (truthy x); [apply peq_refl|]. apply peq_bind; [exact Hb|]. intro. apply peq_refl.
    + apply peq_bind; [exact Ha|]. intro x. apply peq_bind; [exact Hb|]. intro. apply peq_refl.
    + apply peq_bind; [exact Ha|]. intro x. apply peq_bind; [exact Hb|]. intro. apply peq_refl.
    + apply peq_bind; [exact Ha|]. intro x. apply peq_bind; [exact Hb|]. intro. apply peq_refl.
    + rewrite <- Sb. apply peq_bind; [exact Ha|]. intro x. destruct x; try apply peq_refl; (apply peq_bind; [exact Hb|]; intro; apply peq_refl).
  - intros r r' v i i' _ [Hr _] _ [Hi _]. split; [|reflexivity]. cbn [eval]. apply peq_bind; [exact Hi|]. intro x. apply peq_bind; [apply peq_refl|]. intro t. destruct (is_iterable t); [|apply peq_refl].
    apply peq_bind; [|intro; apply peq_refl]. apply peq_comp_loop; [exact I|exact Hr].
  - intros r r' v i i' c c' _ [Hr _] _ [Hi _] _ [Hc _]. split; [|reflexivity]. cbn [eval]. apply peq_bind; [exact Hi|]. intro x. apply peq_bind; [apply peq_refl|]. intro t. destruct (is_iterable t); [|apply peq_refl].
    apply peq_bind; [|intro; apply peq_refl]. apply peq_comp_loop; [exact Hc|exact Hr].
  - intros a a' b b' _ [Ha _] _ [Hb _]. split; [|reflexivity]. cbn [eval]. apply peq_bind; [exact Ha|]. intro x. apply peq_bind; [apply peq_refl|]. intro. apply peq_bind; [exact Hb|]. intro. apply peq_refl.
  - intros a a' n sf _ [Ha _]. split; [|reflexivity]. cbn [eval]. apply peq_bind; [exact Ha|]. intro. apply peq_refl.
  - intros a a' b b' sf _ [Ha _] _ [Hb _]. split; [|reflexivity]. cbn [eval]. apply peq_bind; [exact Ha|]. intro x. destruct (is_null x); [apply peq_refl|]. apply peq_bind; [exact Hb|]. intro. apply peq_refl.
  - intros a a' b b' c c' sf _ [Ha _] _ [Hb _] _ [Hc _]. split; [|reflexivity]. cbn [eval]. apply peq_bind; [exact Ha|]. intro x. destruct (is_null x); [apply peq_refl|]. apply peq_bind; [exact Hb|]. intro.
    apply peq_bind; [apply peq_refl|]. intro. apply peq_bind; [exact Hc|]. intro. apply peq_refl.
  - intros f f' l l' _ [Hf _] T _ Hl. split; [|reflexivity]. cbn [eval rtype]. rewrite T. apply peq_bind; [exact Hf|]. intro fv. destruct (callable fv); [|apply peq_refl].
    apply peq_bind; [apply peq_pmapM; exact Hl|]. intro. apply peq_refl.
  - intros a a' b b' c c' _ [Ha _] _ [Hb _] _ [Hc _]. split; [|reflexivity]. cbn [eval]. apply peq_bind; [exact Ha|]. intro x. destruct (truthy x); assumption.
  - intros o a a' _ [Ha _]. split; [|reflexivity]. cbn [eval]. destruct o; (apply peq_bind; [exact Ha|]; intro; apply peq_refl).
  - constructor.
  - intros a a' l l' _ [Ha _] _ H. constructor; assumption.
  - constructor.
  - intros k k' a a' l l' _ [Hk _] _ [Ha _] _ H. constructor; [split; assumption|exact H].
Qed.

(** Rules that differ by such rewritings have the same result or the same error, and make the same callbacks with the same answers
    in the same order: the final states are equal, too. *)
Theorem C76_equivalent_rules : forall a b, equivalent a b -> forall w q,
  run w (rule_evaluate C a thing) q = run w (rule_evaluate C b thing) q /\ run w (rule_matches C a thing) q = run w (rule_matches C b thing) q.
Proof.
  intros a b H w q. assert (E : run w (rule_evaluate C a thing) q = run w (rule_evaluate C b thing) q).
  { rewrite !run_rule_evaluate. rewrite (proj1 (proj1 equivalent_eval a b H)). reflexivity. }
  split; [exact E|]. rewrite !run_rule_matches, E. reflexivity.
Qed.
End C76.
Print Assumptions C76_equivalent_rules.

(** The distributive law is not among them: [a and (b or c)] evaluates a once, [(a and b) or (a and c)] possibly twice, so the resolver
    is asked twice. *)
Theorem C76_distributive_refuted : exists C thing a b c w q,
  run w (rule_evaluate C (eand a (eor b c)) thing) q <> run w (rule_evaluate C (eor (eand a b) (eand a c)) thing) q.
Proof.
  exists untyped_ctx, demo_thing, (sym "on"), efalse, efalse, demo_world, demo_st. intro H. apply (f_equal (fun x => List.length (s_log (snd x)))) in H. vm_compute in H. discriminate H.
Qed.
Print Assumptions C76_distributive_refuted.

(** not (on and name != "Luke") inside a comprehension condition *)
Example C76_example :
  let r := fun c => EComp (sym "x") (s "x") (sym "xs") (Some c) in
  let a := r (enot (eand (sym "on") (EBin BNe (sym "name") (ELit (VStr (s "Luke")))))) in
  let b := r (eor (enot (sym "on")) (enot (enot (EBin BEq (sym "name") (ELit (VStr (s "Luke"))))))) in
  equivalent a b /\ a <> b /\
  fst (run demo_world (rule_evaluate untyped_ctx a demo_thing) demo_st) = Ok (VArr [num 1; num 2; VNull]) /\
  fst (run demo_world (rule_evaluate untyped_ctx b demo_thing) demo_st) = Ok (VArr [num 1; num 2; VNull]).
Proof.
  cbv zeta. split; [|split; [discriminate|split; vm_compute; reflexivity]]. apply Q_comp_if; try apply Q_refl. eapply Q_trans; [apply Q_law, L_and_not|]. apply Q_bin; [apply Q_refl|]. apply Q_un. apply Q_law. apply L_ne.
Qed.

(** Rules as constructed from their texts: two rules whose expressions as written ([plain], C12) are equivalent, and where constant
    folding is exact (C12), have the same outcome and ask the callbacks the same. *)
Theorem C76_constructed_rules : forall (Orc : Oracle) C n n' w q e q1 e' q1' u u',
  tz_lawful o_tz -> (forall l, o_set_order (o_set_order l) = o_set_order l) -> foldable C n -> foldable C n' ->
  s_dc q = c_dec C -> s_scopes q = [] ->
  run w (rule_new C n) q = (Ok e, q1) -> s_log q1 = s_log q -> run w (rule_new C n') q = (Ok e', q1') -> s_log q1' = s_log q ->
  fst (run w (plain C n) q) = Ok u -> fst (run w (plain C n') q) = Ok u' -> equivalent u u' ->
  forall w' thing qe, fst (run w' (rule_evaluate C e thing) qe) = fst (run w' (rule_evaluate C e' thing) qe) /\
                      fst (run w' (rule_matches C e thing) qe) = fst (run w' (rule_matches C e' thing) qe) /\
                      s_log (snd (run w' (rule_evaluate C e thing) qe)) = s_log (snd (run w' (rule_evaluate C e' thing) qe)).
Proof.
  intros Orc C n n' w q e q1 e' q1' u u' Lw St F F' Ed Es E L E' L' P P' Q w' thing qe.
  destruct (C12_folding_partial Orc C n w q e q1 Lw St F Ed Es E L) as [v [Hv H]]. destruct (C12_folding_partial Orc C n' w q e' q1' Lw St F' Ed Es E' L') as [v' [Hv' H']].
  assert (v = u) as -> by congruence. assert (v' = u') as -> by congruence.
  destruct (H w' thing qe) as [H1 H2]. destruct (H' w' thing qe) as [H1' H2']. destruct (C76_equivalent_rules Orc C thing u u' Q w' qe) as [K _].
  assert (A : fst (run w' (rule_evaluate C e thing) qe) = fst (run w' (rule_evaluate C e' thing) qe)) by (rewrite H1, H1', K; reflexivity).
  split; [exact A|]. split; [|rewrite H2, H2', K; reflexivity].
  rewrite !run_rule_matches. destruct (run w' (rule_evaluate C e thing) qe) as [r1 p1]. destruct (run w' (rule_evaluate C e' thing) qe) as [r2 p2]. cbn in A. subst r2. destruct r1; reflexivity.
Qed.
Print Assumptions C76_constructed_rules.

(** not (on and 1 + 1 > 3) and (not on) or not (1 + 1 > 3): both are folded, to different expressions *)
Definition c76_left : dnode := DUn UNot (DBin BAndL (DSym (s "on") false) (DBin (BCmp Cgt) (DBin BAdd (DFloat (s "1")) (DFloat (s "1"))) (DFloat (s "3")))).
Definition c76_right : dnode := DBin BOrL (DUn UNot (DSym (s "on") false)) (DUn UNot (DBin (BCmp Cgt) (DBin BAdd (DFloat (s "1")) (DFloat (s "1"))) (DFloat (s "3")))).
Example C76_constructed_example : exists e e' q1 u u',
  run demo_world (rule_new untyped_ctx c76_left) demo_st = (Ok e, q1) /\ run demo_world (rule_new untyped_ctx c76_right) demo_st = (Ok e', q1) /\ s_log q1 = s_log demo_st /\
  foldable untyped_ctx c76_left /\ foldable untyped_ctx c76_right /\
  fst (run demo_world (plain untyped_ctx c76_left) demo_st) = Ok u /\ fst (run demo_world (plain untyped_ctx c76_right) demo_st) = Ok u' /\ equivalent u u' /\ u <> u' /\ e <> e'.
Proof.
  do 5 eexists. split; [vm_compute; reflexivity|]. split; [vm_compute; reflexivity|]. split; [reflexivity|].
  split; [constructor; unfold c76_left; [intros v H; dparts; exact I|intros nm H; dparts|intros o sf H; dparts|intros c i H; dparts|intros f l H; dparts; reflexivity|intros c a b H; dparts; reflexivity]|].
  split; [constructor; unfold c76_right; [intros v H; dparts; exact I|intros nm H; dparts|intros o sf H; dparts|intros c i H; dparts|intros f l H; dparts; reflexivity|intros c a b H; dparts; reflexivity]|].
  split; [vm_compute; reflexivity|]. split; [vm_compute; reflexivity|]. split; [apply Q_law, L_and_not|]. split; discriminate.
Qed.
