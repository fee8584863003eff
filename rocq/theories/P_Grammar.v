(** * C50-C52: the grammar *)
From Coq Require Import Arith.
From Verif Require Import Base Dec Value DType Types Ops ParseUtil Attr Prog Ast Eval Build StrLit P_StrLit.
From Verif Require Import Grammar GrammarSpec GrammarCheck GrammarFacts GrammarSem.
Local Open Scope N_scope.

(** ** C50: the parser recognises exactly the derivations that respect the precedence table *)
Lemma parse_loop inp o : real inp -> (parse inp = o <-> parses_to inp o).
Proof.
  intros R. destruct (terminates (6 * length inp + 1) [] inp) as (o' & E & Ns).
  { split; [exact I|]. split; [exact I|exact R]. }
  { unfold measure. cbn [stack_weight fold_right]. lia. }
  unfold parse, parses_to. rewrite E. split.
  - intros <-. eauto.
  - intros [n H]. eapply loop_det; eassumption.
Qed.

Theorem C50_exactly_derivations : forall inp t, real inp ->
  (parse inp = Accepted t <-> derives (NT N_statement) t /\ yield t = inp /\ grouped t).
Proof.
  intros inp t R. rewrite parse_loop by exact R. split.
  - intros [n H]. exact (sound _ _ _ R H).
  - intros (D & <- & G). exact (complete_parse _ D G).
Qed.

(** every input is accepted or refused with RuleSyntaxError, within six iterations per token *)
Theorem C50_total : forall inp, real inp -> (exists t, parse inp = Accepted t) \/ parse inp = SyntaxError.
Proof.
  intros inp R. destruct (terminates (6 * length inp + 1) [] inp) as (o & E & Ns).
  { split; [exact I|]. split; [exact I|exact R]. }
  { unfold measure. cbn [stack_weight fold_right]. lia. }
  unfold parse. rewrite E. destruct o; [eauto|auto|congruence].
Qed.
Theorem C50_terminates : forall inp, real inp -> exists o, parses_to inp o /\ forall o', parses_to inp o' -> o' = o.
Proof.
  intros inp R. exists (parse inp). split; [apply parse_loop; [exact R|reflexivity]|].
  intros o' H. symmetry. apply parse_loop; assumption.
Qed.
Theorem C50_rejected_iff : forall inp, real inp ->
  (parse inp = SyntaxError <-> ~ exists t, derives (NT N_statement) t /\ yield t = inp /\ grouped t).
Proof.
  intros inp R. split.
  - intros E (t & H). apply C50_exactly_derivations in H; [|exact R]. congruence.
  - intros H. destruct (C50_total inp R) as [[t E]|E]; [|exact E]. exfalso. apply H. exists t.
    apply C50_exactly_derivations; assumption.
Qed.
(** with the precedence table the grammar is unambiguous *)
Theorem C50_unambiguous : forall t t', derives (NT N_statement) t -> derives (NT N_statement) t' -> grouped t -> grouped t' ->
  real (yield t) -> yield t = yield t' -> t = t'.
Proof.
  intros t t' D D' G G' R E.
  assert (A : parse (yield t) = Accepted t) by (apply C50_exactly_derivations; auto).
  assert (B : parse (yield t) = Accepted t') by (apply C50_exactly_derivations; auto). congruence.
Qed.

(** *** The deferred node *)
(** a value of the right shape for its symbol *)
Definition sort (x : symbol) (v : sval) : Prop :=
  match x with
  | T k => exists t, v = STok t /\ kind t = k
  | NT N_ary_members => exists l, v = SNodes l
  | NT N_map_member => exists k w, v = SPair k w
  | NT N_map_members => exists l, v = SPairs l
  | NT _ => exists d, v = SNode d
  end.
Definition literal_error (x : exn) : Prop := x = XSynBytes \/ x = XSynString.
(** symbol tokens have a name (the lexer's pattern needs a letter) *)
Definition named_tokens (inp : list token) : Prop := Forall (fun t => kind t = T_SYMBOL -> Grammar.text t <> []) inp.

Section S.
Context {Orc : Oracle}.
Variable uname : str -> option N.
Notation sem := (sem uname).
Notation actions := (actions uname).

Definition sorted (xs : list symbol) (vs : list sval) : Prop := Forall2 sort xs vs.
Definition sorted_named (xs : list symbol) (vs : list sval) : Prop :=
  sorted xs vs /\ Forall (fun v => match v with STok t => kind t = T_SYMBOL -> Grammar.text t <> [] | _ => True end) vs.

Lemma bytes_error b x : bytes_value b = Err x -> x = XSynBytes.
Proof. unfold bytes_value. destruct (decode_bytes BNormal b); congruence. Qed.

Lemma action_sorts p vs : (N.to_nat p < length productions)%nat -> sorted_named (rhs p) vs ->
  match nth (N.to_nat p) actions (fun _ => bad) vs with
  | Ok v => sort (NT (lhs p)) v
  | Err x => literal_error x
  end.
Proof.
  intros Hp [Hs Hn]. apply in_prods_iff in Hp.
  Local Transparent productions.
  assert (Hq : In p (map N.of_nat (seq 0 69))) by exact Hp. clear Hp. vm_compute in Hq.
  repeat (destruct Hq as [<-|Hq]; [
    match type of Hs with sorted (rhs ?p) _ => let r := eval vm_compute in (rhs p) in change (rhs p) with r in Hs end;
    match goal with |- context [lhs ?p] => let r := eval vm_compute in (lhs p) in change (lhs p) with r end;
    match goal with |- context [nth (N.to_nat ?p) _ _] => let r := eval vm_compute in (N.to_nat p) in change (N.to_nat p) with r end;
    cbn [nth actions];
    unfold sorted in Hs;
    repeat match goal with H : Forall2 _ _ _ |- _ => inversion H; clear H; subst end;
    cbn [sort] in *;
    repeat match goal with
           | H : exists _, _ |- _ => destruct H
           | H : _ /\ _ |- _ => destruct H
           end; subst|]); [..|destruct Hq].
  all: try (cbn; eauto; fail).
  - inversion Hn as [|? ? Hx _]; subst. unfold a_symbol. destruct (Grammar.text x) as [|c r]; [destruct (Hx H0 eq_refl)|].
    destruct (c =? 36); cbn; eauto.
  - unfold a_text. destruct (bytes_value (unquote (Grammar.text x))) as [b|e] eqn:E; cbn; [eauto|]. left. eapply bytes_error. exact E.
  - unfold a_text. destruct (string_value uname (unquote (Grammar.text x))) as [b|e] eqn:E; cbn; [eauto|]. right.
    exact (C49_only_syntax_error _ _ _ E).
Qed.

Lemma sem_sorts t : forall x, derives x t -> named_tokens (yield t) ->
  match sem t with Ok v => sort x v /\ (match v with STok k => kind k = T_SYMBOL -> Grammar.text k <> [] | _ => True end) | Err e => literal_error e end.
Proof.
  induction t as [t|p l IH] using tree_ind'; intros x D Nm.
  - apply derives_leaf in D as [-> _]. cbn [GrammarSem.sem sort]. split; [eauto|]. inversion Nm; assumption.
  - apply derives_node in D as (-> & Hp & D). cbn [GrammarSem.sem].
    assert (K : match rmapM sem l with Ok vs => sorted_named (rhs p) vs | Err e => literal_error e end).
    { cbn [yield] in Nm. clear Hp. revert D Nm. generalize (rhs p). induction IH as [|c l Hc _ IHl]; intros xs D Nm.
      - inversion D. subst. cbn [rmapM]. split; constructor.
      - inversion D as [|y ? ys ? Dc Dl]. subst. cbn [flat_map] in Nm. apply Forall_app in Nm as [N1 N2].
        cbn [rmapM]. specialize (Hc _ Dc N1). destruct (sem c) as [v|e]; cbn [rbind]; [|exact Hc].
        specialize (IHl _ Dl N2). destruct (rmapM sem l) as [vs|e]; cbn [rbind]; [|exact IHl].
        destruct IHl as [I1 I2]. destruct Hc as [H1 H2]. split; constructor; assumption. }
    destruct (rmapM sem l) as [vs|e]; cbn [rbind]; [|exact K].
    pose proof (action_sorts p vs Hp K) as A. destruct (nth (N.to_nat p) actions (fun _ => bad) vs) as [v|e]; [|exact A].
    split; [exact A|]. destruct v; try exact I. exfalso. revert A. destruct (lhs p); cbn [sort]; intros A; try (destruct A as [? A]; discriminate A); destruct A as (? & ? & A); discriminate A.
Qed.

(** The parser turns a token sequence into the deferred node of its derivation, or raises one of the engine's syntax
    errors: RuleSyntaxError exactly when there is no derivation, otherwise the error of a malformed literal. *)
Theorem C50_parser : forall inp, real inp -> named_tokens inp ->
  match parse_tokens uname inp with
  | Ok d => exists t, derives (NT N_statement) t /\ yield t = inp /\ grouped t /\ sem t = Ok (SNode d)
  | Err x => (x = XSynRule /\ ~ exists t, derives (NT N_statement) t /\ yield t = inp /\ grouped t)
             \/ (literal_error x /\ exists t, derives (NT N_statement) t /\ yield t = inp /\ grouped t /\ sem t = Err x)
  end.
Proof.
  intros inp R Nm. unfold parse_tokens. destruct (C50_total inp R) as [[t E]|E]; rewrite E.
  - assert (H := E). apply C50_exactly_derivations in H; [|exact R]. destruct H as (D & Y & G). rewrite <- Y in Nm.
    pose proof (sem_sorts t _ D Nm) as S. destruct (sem t) as [v|e] eqn:Es; cbn [rbind].
    + destruct S as [[d ->] _]. exists t. auto.
    + right. split; [exact S|]. exists t. auto.
  - left. split; [reflexivity|]. apply C50_rejected_iff; assumption.
Qed.
End S.

(** ** C51: precedence *)
(** *** An operand: a phrase whose outermost construct is not an operator (a literal, a symbol, a call, an attribute, an
    item, a parenthesised expression, ...) *)
Definition operand (t : tree) : Prop := derives (NT N_expression) t /\ grouped t /\ exists p l, t = Node p l /\ operator p = None.

(** [k] is a binary operator, [p] its production [expression : expression k expression] *)
Definition binary (k : tok) (p : N) : Prop :=
  (N.to_nat p < length productions)%nat /\ lhs p = N_expression /\ rhs p = [NT N_expression; T k; NT N_expression].
Definition single (t : tree) : tree := Node 1 [t].

(** *** Proofs *)
Lemma prod_forall (f : N -> bool) : forallb f prod_ids = true -> forall p, (N.to_nat p < length productions)%nat -> f p = true.
Proof. intros H p Hp. rewrite forallb_forall in H. apply H, in_prods_iff, Hp. Qed.

Lemma call_closes p : (N.to_nat p < length productions)%nat -> closes p T_LPAREN = true -> operator p = None.
Proof.
  intros Hp H. assert (K : forallb (fun p => negb (closes p T_LPAREN) || match operator p with None => true | _ => false end) prod_ids = true) by (vm_compute; reflexivity).
  apply (prod_forall _ K) in Hp. cbv beta in Hp. rewrite H in Hp. destruct (operator p); [discriminate|reflexivity].
Qed.
Lemma call_extends p : (N.to_nat p < length productions)%nat -> extends p T_LPAREN = true.
Proof. intros Hp. exact (prod_forall (fun p => extends p T_LPAREN) ltac:(vm_compute; reflexivity) p Hp). Qed.
Lemma object_shape p : (N.to_nat p < length productions)%nat -> lhs p = N_object ->
  (exists l k, rhs p = l ++ [T k]) /\ operator p = None /\
  match rhs p with
  | T _ :: _ => True
  | NT N_object :: T k :: _ => infix k = false
  | NT N_expression :: T T_LPAREN :: _ => True
  | _ => False
  end.
Proof.
  intros Hp Hl.
  assert (K : forallb (fun p => negb (nonterm_eqb (lhs p) N_object) ||
     (match last (rhs p) (NT NStart) with T _ => true | _ => false end && match operator p with None => true | _ => false end &&
      match rhs p with T _ :: _ => true | NT N_object :: T k :: _ => negb (infix k) | NT N_expression :: T k :: _ => tok_eqb k T_LPAREN | _ => false end)) prod_ids = true) by (vm_compute; reflexivity).
  apply (prod_forall _ K) in Hp. cbv beta in Hp. rewrite Hl in Hp. change (nonterm_eqb N_object N_object) with true in Hp. cbn [negb orb] in Hp.
  apply andb_prop in Hp as [Hp H3]. apply andb_prop in Hp as [H1 H2]. split; [|split].
  - destruct (rhs p) as [|y r] eqn:E; [discriminate H1|]. rewrite <- E in *. destruct (last (rhs p) (NT NStart)) as [k|] eqn:El; [|discriminate H1].
    exists (removelast (rhs p)), k. rewrite <- El. apply app_removelast_last. rewrite E. discriminate.
  - destruct (operator p); [discriminate|reflexivity].
  - destruct (rhs p) as [|[t|[]] [|[k|] r]]; try discriminate H3; try exact I.
    + apply tok_eqb_eq in H3. subst k. exact I.
    + apply negb_true_iff in H3. exact H3.
Qed.
Lemma plain_shape p : (N.to_nat p < length productions)%nat -> lhs p = N_expression -> operator p = None ->
  rhs p = [NT N_object] \/ exists k, rhs p = [T k].
Proof.
  intros Hp Hl Ho.
  assert (K : forallb (fun p => negb (nonterm_eqb (lhs p) N_expression) || match operator p with None => false | _ => true end ||
     match rhs p with [NT N_object] => true | [T _] => true | _ => false end) prod_ids = true) by (vm_compute; reflexivity).
  apply (prod_forall _ K) in Hp. cbv beta in Hp. rewrite Hl, Ho in Hp. change (nonterm_eqb N_expression N_expression) with true in Hp. cbn [negb orb] in Hp.
  destruct (rhs p) as [|[k|[]] [|? ?]]; try discriminate Hp; eauto.
Qed.
Lemma derives_nt n t : derives (NT n) t -> exists p l, t = Node p l /\ lhs p = n /\ (N.to_nat p < length productions)%nat /\ Forall2 derives (rhs p) l.
Proof. inversion 1; subst. eauto 6. Qed.

(** what an object or an operand exposes at its edges *)
Lemma object_right t : derives (NT N_object) t -> forall q, In q (right_edge t) -> operator q = None.
Proof.
  intros D q Hq. destruct (derives_nt _ _ D) as (p & l & -> & Hl & Hp & F).
  destruct (object_shape p Hp Hl) as ((r & k & E) & Ho & _). rewrite E in F. apply Forall2_app_inv_l in F as (l1 & l2 & _ & F2 & ->).
  inversion F2 as [|? c ? ? Dc Dn]; subst. inversion Dn; subst. rewrite right_edge_last in Hq.
  inversion Dc; subst. destruct Hq as [<-|[]]. exact Ho.
Qed.
Lemma operand_right t : operand t -> forall q, In q (right_edge t) -> operator q = None.
Proof.
  intros (D & _ & p & l & -> & Ho) q Hq. apply derives_node in D as (E & Hp & F). injection E as E.
  destruct (plain_shape p Hp (eq_sym E) Ho) as [R|[k R]]; rewrite R in F; inversion F as [|? c ? ? Dc Dn]; subst; inversion Dn; subst.
  - change [c] with ([] ++ [c]) in Hq. rewrite right_edge_last in Hq. destruct Hq as [<-|Hq]; [exact Ho|]. exact (object_right _ Dc _ Hq).
  - inversion Dc; subst. destruct Hq as [<-|[]]. exact Ho.
Qed.
Lemma closed_left t : (derives (NT N_object) t \/ exists p l, t = Node p l /\ derives (NT N_expression) t /\ operator p = None) -> grouped t ->
  forall x, In x (left_edge t) -> infix x = true -> x = T_LPAREN.
Proof.
  induction t as [t|p l IH] using tree_ind'; intros H G x Hx Hi; [destruct Hx|].
  inversion G as [|? ? G1 G2 G3]. subst.
  destruct H as [D|(p' & l' & E & D & Ho)].
  - apply derives_node in D as (E & Hp & F). injection E as E. destruct (object_shape p Hp (eq_sym E)) as (_ & _ & S).
    destruct (rhs p) as [|[k|n] [|[k2|] r]] eqn:Er; try (destruct n; contradiction S); try contradiction S.
    + inversion F as [|? c ? ? Dc Dr]; subst. inversion Dc; subst. destruct Hx.
    + inversion F as [|? c ? ? Dc Dr]; subst. inversion Dc; subst. destruct Hx.
    + inversion F as [|? c ? ? Dc Dr]; subst. inversion Dc; subst. destruct Hx.
    + inversion F as [|? c ? ? Dc Dr]; subst. inversion Dr as [|? c2 ? ? Dc2 _]; subst. inversion Dc2; subst.
      inversion IH as [|? ? I1 _]; subst. inversion G1 as [|? ? Gc _]; subst.
      destruct (derives_nt _ _ Dc) as (pc & lc & -> & Hlc & Hpc & _).
      destruct Hx as [<-|Hx].
      * destruct n; try contradiction S; [|congruence]. destruct (kind t); try contradiction S. reflexivity.
      * destruct n; try contradiction S.
        -- apply I1; auto. right. exists pc, lc. split; [reflexivity|]. split; [exact Dc|]. apply call_closes; [exact Hpc|].
           destruct (kind t) eqn:Ek; try contradiction S. rewrite <- Ek. apply (G2 [] (Node pc lc) t l'0 eq_refl). left. reflexivity.
        -- apply I1; auto.
  - injection E as <- <-. apply derives_node in D as (E & Hp & F). injection E as E.
    destruct (plain_shape p Hp (eq_sym E) Ho) as [R|[k R]]; rewrite R in F; inversion F as [|? c ? ? Dc Dn]; subst; inversion Dn; subst.
    + inversion IH as [|? ? I1 _]; subst. inversion G1 as [|? ? Gc _]; subst. apply I1; auto.
      destruct c as [|pc lc]; [destruct Hx|exact Hx].
    + inversion Dc; subst. destruct Hx.
Qed.
Lemma operand_left t : operand t -> forall x, In x (left_edge t) -> infix x = true -> x = T_LPAREN.
Proof. intros (D & G & p & l & E & Ho). apply closed_left; [right; exists p, l; auto|exact G]. Qed.
Lemma operand_extends t p : operand t -> (N.to_nat p < length productions)%nat -> forall x, In x (left_edge t) -> extends p x = true.
Proof.
  intros O Hp x Hx. destruct (infix x) eqn:E; [|apply extends_not_infix; exact E].
  rewrite (operand_left _ O x Hx E). apply call_extends. exact Hp.
Qed.
Lemma operand_closes t x : operand t -> forall q, In q (right_edge t) -> closes q x = true.
Proof. intros O q Hq. unfold closes. rewrite (operand_right _ O q Hq). reflexivity. Qed.
Lemma binary_operator k p : binary k p -> operator p = Some (Op k) /\ infix k = true.
Proof.
  intros (Hp & Hl & Hr).
  assert (K : forallb (fun p => match lhs p, rhs p with
     | N_expression, [NT N_expression; T k; NT N_expression] => match operator p with Some (Op k') => tok_eqb k' k && infix k | _ => false end
     | _, _ => true end) prod_ids = true) by (vm_compute; reflexivity).
  apply (prod_forall _ K) in Hp. cbv beta in Hp. rewrite Hl, Hr in Hp. destruct (operator p) as [[k'|]|]; try discriminate Hp.
  apply andb_prop in Hp as [H1 H2]. apply tok_eqb_eq in H1. subst. auto.
Qed.
Lemma grouped_node p l : Forall grouped l -> adj l -> (forall l1 c, l = l1 ++ [c] -> l1 <> [] -> forall x, In x (left_edge c) -> extends p x = true) ->
  grouped (Node p l).
Proof. intros F A L. constructor; [exact F|apply adj_iff; exact A|exact L]. Qed.
Lemma grouped_bin p a t b : grouped a -> grouped b -> (forall q, In q (right_edge a) -> closes q (kind t) = true) ->
  (forall x, In x (left_edge b) -> extends p x = true) -> grouped (Node p [a; Leaf t; b]).
Proof.
  intros Ga Gb Ra Lb. apply grouped_node.
  - repeat constructor; assumption.
  - cbn [adj right_edge]. split; [exact Ra|]. split; [destruct b; [intros q []|exact I]|]. split; exact I.
  - intros l1 c E _. change [a; Leaf t; b] with ([a; Leaf t] ++ [b]) in E. apply app_inj_tail in E as [_ <-]. exact Lb.
Qed.
Lemma grouped_un p t b : grouped b -> (forall x, In x (left_edge b) -> extends p x = true) -> grouped (Node p [Leaf t; b]).
Proof.
  intros Gb Lb. apply grouped_node.
  - repeat constructor; assumption.
  - cbn [adj right_edge]. split; [destruct b; [intros q []|exact I]|]. split; exact I.
  - intros l1 c E _. change [Leaf t; b] with ([Leaf t] ++ [b]) in E. apply app_inj_tail in E as [_ <-]. exact Lb.
Qed.
Lemma grouped_single t : grouped t -> grouped (single t).
Proof.
  intros G. apply grouped_node; [repeat constructor; exact G|cbn [adj]; tauto|].
  intros [|? [|]] c E H; cbn in E; [contradiction|discriminate E|discriminate E].
Qed.
Lemma derives_single t : derives (NT N_expression) t -> derives (NT N_statement) (single t).
Proof. intros D. change (NT N_statement) with (NT (lhs 1)). constructor; [vm_compute; lia|]. change (rhs 1) with [NT N_expression]. repeat constructor. exact D. Qed.
Lemma derives_bin k p a t b : binary k p -> kind t = k -> k <> T_end -> derives (NT N_expression) a -> derives (NT N_expression) b ->
  derives (NT N_expression) (Node p [a; Leaf t; b]).
Proof.
  intros (Hp & Hl & Hr) Hk Hn Da Db. rewrite <- Hl. constructor; [exact Hp|]. rewrite Hr. subst k. repeat constructor; assumption.
Qed.
Lemma infix_real k : infix k = true -> k <> T_end.
Proof. intros H ->. discriminate H. Qed.
Lemma real_yield t : forall x, derives x t -> real (yield t).
Proof.
  induction t as [t|p l IH] using tree_ind'; intros x D.
  - apply derives_leaf in D as [-> H]. repeat constructor. exact H.
  - apply derives_node in D as (-> & _ & D). cbn [yield]. revert D. generalize (rhs p).
    induction IH as [|c l Hc _ IHl]; intros xs D; [constructor|]. inversion D as [|? ? ? ? Dc Dl]; subst. cbn [flat_map].
    apply Forall_app. split; [exact (Hc _ Dc)|exact (IHl _ Dl)].
Qed.
Lemma parse_of t : derives (NT N_statement) t -> grouped t -> parse (yield t) = Accepted t.
Proof. intros D G. apply C50_exactly_derivations; [exact (real_yield _ _ D)|auto]. Qed.
Lemma parse_expression t : derives (NT N_expression) t -> grouped t -> parse (yield t) = Accepted (single t).
Proof.
  intros D G. replace (yield t) with (yield (single t)) by (cbn [yield single flat_map]; apply app_nil_r).
  apply parse_of; [apply derives_single; exact D|apply grouped_single; exact G].
Qed.
Lemma closes_level p o x i a j b : operator p = Some o -> level o = Some (i, a) -> level (Op x) = Some (j, b) ->
  (j < i)%nat \/ (i = j /\ a = Left) -> closes p x = true.
Proof.
  intros Ho Li Lj H. unfold closes. rewrite Ho. destruct (infix x); [|reflexivity]. rewrite Li, Lj.
  destruct H as [H|[-> ->]]; [apply Nat.ltb_lt in H; rewrite H; reflexivity|]. rewrite Nat.eqb_refl. apply orb_true_r.
Qed.
Lemma extends_level p o x i a j b : operator p = Some o -> level o = Some (i, a) -> level (Op x) = Some (j, b) ->
  (i < j)%nat \/ (i = j /\ a = Right) -> extends p x = true.
Proof.
  intros Ho Li Lj H. unfold extends. rewrite Ho. destruct (infix x); [|reflexivity]. rewrite Li, Lj.
  destruct H as [H|[-> ->]]; [apply Nat.ltb_lt in H; rewrite H; reflexivity|]. rewrite Nat.eqb_refl. apply orb_true_r.
Qed.

(** *** Pairs of binary operators: [a o1 b o2 c] *)
Section Pair.
Variables (a b c : tree) (t1 t2 : token) (p1 p2 : N) (i j : nat) (s1 s2 : assoc).
Hypothesis Ha : operand a.
Hypothesis Hb : operand b.
Hypothesis Hc : operand c.
Hypothesis H1 : binary (kind t1) p1.
Hypothesis H2 : binary (kind t2) p2.
Hypothesis L1 : level (Op (kind t1)) = Some (i, s1).
Hypothesis L2 : level (Op (kind t2)) = Some (j, s2).

(** the first operator binds tighter, or both are at the same level, which associates to the left *)
Theorem C51_left : (j < i)%nat \/ (i = j /\ s1 = Left) ->
  parse (yield a ++ t1 :: yield b ++ t2 :: yield c) = Accepted (single (Node p2 [Node p1 [a; Leaf t1; b]; Leaf t2; c])).
Proof.
  intros H. destruct (binary_operator _ _ H1) as [O1 I1]. destruct (binary_operator _ _ H2) as [O2 I2].
  assert (D : derives (NT N_expression) (Node p2 [Node p1 [a; Leaf t1; b]; Leaf t2; c])).
  { eapply derives_bin; [exact H2|reflexivity|apply infix_real; exact I2| |apply Hc].
    eapply derives_bin; [exact H1|reflexivity|apply infix_real; exact I1|apply Ha|apply Hb]. }
  rewrite <- parse_expression; [|exact D|].
  - f_equal. cbn [yield flat_map]. rewrite ?app_nil_r, <- ?app_assoc. reflexivity.
  - apply grouped_bin.
    + apply grouped_bin; [apply Ha|apply Hb|apply operand_closes; exact Ha|apply operand_extends; [exact Hb|apply H1]].
    + apply Hc.
    + intros q Hq. change [a; Leaf t1; b] with ([a; Leaf t1] ++ [b]) in Hq. rewrite right_edge_last in Hq.
      destruct Hq as [<-|Hq]; [|exact (operand_closes _ _ Hb q Hq)]. exact (closes_level _ _ _ _ _ _ _ O1 L1 L2 H).
    + apply operand_extends; [exact Hc|apply H2].
Qed.

(** the second operator binds tighter, or both are at the same level, which associates to the right *)
Theorem C51_right : (i < j)%nat \/ (i = j /\ s1 = Right) ->
  parse (yield a ++ t1 :: yield b ++ t2 :: yield c) = Accepted (single (Node p1 [a; Leaf t1; Node p2 [b; Leaf t2; c]])).
Proof.
  intros H. destruct (binary_operator _ _ H1) as [O1 I1]. destruct (binary_operator _ _ H2) as [O2 I2].
  assert (D : derives (NT N_expression) (Node p1 [a; Leaf t1; Node p2 [b; Leaf t2; c]])).
  { eapply derives_bin; [exact H1|reflexivity|apply infix_real; exact I1|apply Ha|].
    eapply derives_bin; [exact H2|reflexivity|apply infix_real; exact I2|apply Hb|apply Hc]. }
  rewrite <- parse_expression; [|exact D|].
  - f_equal. cbn [yield flat_map]. rewrite ?app_nil_r, <- ?app_assoc. reflexivity.
  - apply grouped_bin.
    + apply Ha.
    + apply grouped_bin; [apply Hb|apply Hc|apply operand_closes; exact Hb|apply operand_extends; [exact Hc|apply H2]].
    + apply operand_closes. exact Ha.
    + intros x Hx. destruct Hb as (_ & _ & pb & lb & Eb & _). rewrite Eb in Hx. cbn [left_edge] in Hx. destruct Hx as [<-|Hx].
      * exact (extends_level _ _ _ _ _ _ _ O1 L1 L2 H).
      * apply (operand_extends b p1 Hb); [apply H1|]. rewrite Eb. exact Hx.
Qed.

(** nonassociative operators of one level do not chain *)
Definition starts_operand (s : N) : bool :=
  forallb (fun p => negb (nonterm_eqb (lhs p) N_expression) || match operator p with Some _ => true | None => false end
                    || has s p 0 (fun m => forallb (fun x => negb (infix x) || mem m x) all_toks)) prod_ids.
Lemma operand_steps d st inp : operand d -> starts_operand (top st) = true -> infix (look inp) = true ->
  exists s, goto_of (top st) N_expression = Some s /\ steps (st, yield d ++ inp) ((s, d) :: st, inp).
Proof.
  intros O K Hi. assert (Od := O). destruct O as (D & G & p & l & -> & Ho). pose proof (complete_tree _ _ D G) as N.
  apply derives_node in D as (E & Hp & F). injection E as E. rewrite E. apply N.
  - unfold starts_operand in K. apply (prod_forall _ K) in Hp. cbv beta in Hp. rewrite <- E, Ho in Hp.
    change (nonterm_eqb N_expression N_expression) with true in Hp. cbn [negb orb] in Hp.
    apply has_iff in Hp as (m & Hm & Hf). exists m. split; [exact Hm|]. rewrite forallb_forall in Hf.
    specialize (Hf (look inp) (in_all_toks _)). cbv beta in Hf. rewrite Hi in Hf. exact Hf.
  - intros ->. vm_compute in E. discriminate E.
  - apply operand_closes. exact Od.
  - intros q x Hq Hx. apply (operand_extends _ q Od); [|exact Hx]. unfold pending in Hq. destruct (goto_of (top st) N_expression); [|destruct Hq].
    apply complete_iff in Hq as (m & Hm). exact (proj1 (item_bounds _ _ _ _ Hm)).
Qed.

Definition nonassoc_pair (k1 k2 : tok) : bool :=
  match level (Op k1), level (Op k2) with
  | Some (i, NonAssoc), Some (j, _) => Nat.eqb i j && infix k1 && infix k2 && negb (tok_eqb k1 T_LPAREN)
  | _, _ => false
  end.
Lemma nonassoc_states :
  forallb (fun k1 => forallb (fun k2 =>
    if nonassoc_pair k1 k2 then
        match goto_of 0 N_expression with
        | Some s =>
            match act_of s k1 with
            | AShift s' => match goto_of s' N_expression with
                           | Some s'' => match act_of s'' k2 with AErr => true | _ => false end
                           | None => false end
            | _ => false end
        | None => false end
    else true) all_toks) all_toks = true.
Proof. vm_compute. reflexivity. Qed.
Lemma nonassoc_starts : starts_operand 0 = true /\
  forallb (fun k1 => if nonassoc_pair k1 k1 then
        match goto_of 0 N_expression with
        | Some s => match act_of s k1 with AShift s' => starts_operand s' | _ => false end
        | None => false end
    else true) all_toks = true.
Proof. split; vm_compute; reflexivity. Qed.

Theorem C51_nonassoc : i = j -> s1 = NonAssoc -> parse (yield a ++ t1 :: yield b ++ t2 :: yield c) = SyntaxError.
Proof.
  intros Eij Es. destruct (binary_operator _ _ H1) as [O1 I1]. destruct (binary_operator _ _ H2) as [O2 I2].
  pose proof nonassoc_states as K. rewrite forallb_forall in K. specialize (K (kind t1) (in_all_toks _)). cbv beta in K.
  rewrite forallb_forall in K. specialize (K (kind t2) (in_all_toks _)). cbv beta in K.
  destruct nonassoc_starts as [K0 K1]. rewrite forallb_forall in K1. specialize (K1 (kind t1) (in_all_toks _)). cbv beta in K1.
  assert (Nl : tok_eqb (kind t1) T_LPAREN = false).
  { destruct (tok_eqb (kind t1) T_LPAREN) eqn:E; [|reflexivity]. apply tok_eqb_eq in E. exfalso. destruct H1 as (Hp & Hl & Hr). rewrite E in Hr.
    assert (Q : forallb (fun p => negb (nonterm_eqb (lhs p) N_expression) || match rhs p with [_; T T_LPAREN; _] => false | _ => true end) prod_ids = true) by (vm_compute; reflexivity).
    apply (prod_forall _ Q) in Hp. cbv beta in Hp. rewrite Hl, Hr in Hp. discriminate Hp. }
  assert (N12 : nonassoc_pair (kind t1) (kind t2) = true) by (unfold nonassoc_pair; rewrite L1, L2, Es, Eij, Nat.eqb_refl, I1, I2, Nl; reflexivity).
  assert (N11 : nonassoc_pair (kind t1) (kind t1) = true) by (unfold nonassoc_pair; rewrite L1, Es, Nat.eqb_refl, I1, Nl; reflexivity).
  rewrite N12 in K. rewrite N11 in K1.
  destruct (goto_of 0 N_expression) as [s|] eqn:E0; [|discriminate K].
  destruct (act_of s (kind t1)) as [s'| | |] eqn:E1; try discriminate K.
  destruct (goto_of s' N_expression) as [s''|] eqn:E2; [|discriminate K].
  destruct (act_of s'' (kind t2)) eqn:E3; try discriminate K.
  destruct (operand_steps a [] (t1 :: yield b ++ t2 :: yield c) Ha K0 I1) as (sa & Ga & Sa). cbn [top] in Ga. rewrite E0 in Ga. injection Ga as <-.
  destruct (operand_steps b ((s', Leaf t1) :: (s, a) :: []) (t2 :: yield c) Hb K1 I2) as (sb & Gb & Sb). cbn [top] in Gb. rewrite E2 in Gb. injection Gb as <-.
  assert (R : real (yield a ++ t1 :: yield b ++ t2 :: yield c)).
  { apply Forall_app. split; [eapply real_yield; apply Ha|]. constructor; [apply infix_real; exact I1|].
    apply Forall_app. split; [eapply real_yield; apply Hb|]. constructor; [apply infix_real; exact I2|]. eapply real_yield; apply Hc. }
  apply parse_loop; [exact R|]. unfold parses_to.
  eapply (steps_loop ([], yield a ++ t1 :: yield b ++ t2 :: yield c)).
  - eapply steps_trans; [exact Sa|]. eapply steps_step; [unfold step; cbn [top look]; rewrite E1; reflexivity|]. exact Sb.
  - cbn [fst snd]. unfold step. cbn [top look]. rewrite E3. reflexivity.
Qed.
End Pair.

(** the binary operators, one production each, all in the precedence table *)
Definition binary_table : list (tok * N) :=
  [ (T_OR, 32); (T_AND, 31); (T_BWOR, 15); (T_BWXOR, 16); (T_BWAND, 14);
    (T_EQ, 21); (T_NE, 22); (T_EQ_FZM, 27); (T_EQ_FZS, 28); (T_NE_FZM, 29); (T_NE_FZS, 30); (T_GE, 24); (T_GT, 23);
    (T_LE, 26); (T_LT, 25); (T_IN, 19); (T_ADD, 12); (T_SUB, 13); (T_BWLSH, 17); (T_BWRSH, 18);
    (T_MUL, 8); (T_TDIV, 10); (T_FDIV, 9); (T_MOD, 7); (T_POW, 11) ].
Theorem C51_binary_operators : forall k p, binary k p <-> In (k, p) binary_table.
Proof.
  intros k p. split.
  - intros (Hp & Hl & Hr).
    assert (K : forallb (fun p => match lhs p, rhs p with
       | N_expression, [NT N_expression; T k; NT N_expression] => existsb (fun e => tok_eqb (fst e) k && (snd e =? p)) binary_table
       | _, _ => true end) prod_ids = true) by (vm_compute; reflexivity).
    apply (prod_forall _ K) in Hp. cbv beta in Hp. rewrite Hl, Hr in Hp. apply existsb_exists in Hp as ((k', p') & Hi & H).
    apply andb_prop in H as [A B]. cbn [fst snd] in A, B. apply tok_eqb_eq in A. apply N.eqb_eq in B. subst. exact Hi.
  - intros H.
    assert (K : forallb (fun e => Nat.ltb (N.to_nat (snd e)) (length productions) && nonterm_eqb (lhs (snd e)) N_expression &&
      match rhs (snd e) with [NT N_expression; T k; NT N_expression] => tok_eqb k (fst e) | _ => false end) binary_table = true) by (vm_compute; reflexivity).
    rewrite forallb_forall in K. specialize (K _ H). cbn [fst snd] in K. apply andb_prop in K as [K K3]. apply andb_prop in K as [K1 K2].
    apply Nat.ltb_lt in K1. apply nonterm_eqb_eq in K2. split; [exact K1|]. split; [exact K2|].
    destruct (rhs p) as [|[|[]] [|[k'|] [|[|[]] [|]]]]; try discriminate K3. apply tok_eqb_eq in K3. subst. reflexivity.
Qed.
Theorem C51_levels : forall k p, binary k p -> exists i s, level (Op k) = Some (i, s).
Proof.
  intros k p H. apply C51_binary_operators in H.
  assert (K : forallb (fun e => match level (Op (fst e)) with Some _ => true | None => false end) binary_table = true) by (vm_compute; reflexivity).
  rewrite forallb_forall in K. specialize (K _ H). cbn [fst] in K. destruct (level (Op k)) as [[i s]|]; [eauto|discriminate].
Qed.

(** *** Unary operators, ternary *)
Lemma level_binary k p i s : binary k p -> level (Op k) = Some (i, s) -> i <> 6%nat /\ i <> 2%nat /\ (i < 12)%nat.
Proof.
  intros H L. apply C51_binary_operators in H.
  assert (K : forallb (fun e => match level (Op (fst e)) with Some (i, _) => negb (Nat.eqb i 6) && negb (Nat.eqb i 2) && Nat.ltb i 12 | None => false end) binary_table = true) by (vm_compute; reflexivity).
  rewrite forallb_forall in K. specialize (K _ H). cbn [fst] in K. rewrite L in K.
  apply andb_prop in K as [K K3]. apply andb_prop in K as [K1 K2].
  apply negb_true_iff, Nat.eqb_neq in K1. apply negb_true_iff, Nat.eqb_neq in K2. apply Nat.ltb_lt in K3. auto.
Qed.
Definition minus (t : token) (a : tree) : tree := Node 36 [Leaf t; a].
Definition negation (t : token) (a : tree) : tree := Node 34 [Leaf t; a].
Definition ternary (a : tree) (q : token) (b : tree) (c : token) (d : tree) : tree := Node 6 [a; Leaf q; b; Leaf c; d].
Definition infixed (p : N) (a : tree) (t : token) (b : tree) : tree := Node p [a; Leaf t; b].
Definition not_in (a : tree) (n i : token) (b : tree) : tree := Node 20 [a; Leaf n; Leaf i; b].

Ltac derive p := constructor; [vm_compute; lia|]; let r := eval vm_compute in (rhs p) in change (rhs p) with r.
Lemma derives_minus t a : kind t = T_SUB -> derives (NT N_expression) a -> derives (NT N_expression) (minus t a).
Proof. intros K D. change (NT N_expression) with (NT (lhs 36)). derive 36. rewrite <- K. repeat constructor; [congruence|exact D]. Qed.
Lemma derives_negation t a : kind t = T_NOT -> derives (NT N_expression) a -> derives (NT N_expression) (negation t a).
Proof. intros K D. change (NT N_expression) with (NT (lhs 34)). derive 34. rewrite <- K. repeat constructor; [congruence|exact D]. Qed.
Lemma derives_ternary a q b c d : kind q = T_QMARK -> kind c = T_COLON -> derives (NT N_expression) a -> derives (NT N_expression) b ->
  derives (NT N_expression) d -> derives (NT N_expression) (ternary a q b c d).
Proof.
  intros K1 K2 Da Db Dd. change (NT N_expression) with (NT (lhs 6)). derive 6. rewrite <- K1, <- K2. repeat constructor; try assumption; congruence.
Qed.
Lemma derives_not_in a n i b : kind n = T_NOT -> kind i = T_IN -> derives (NT N_expression) a -> derives (NT N_expression) b -> derives (NT N_expression) (not_in a n i b).
Proof.
  intros K1 K2 Da Db. change (NT N_expression) with (NT (lhs 20)). derive 20. rewrite <- K1, <- K2. repeat constructor; try assumption; congruence.
Qed.
Lemma closes_colon q : closes q T_COLON = true.
Proof. unfold closes. destruct (operator q); reflexivity. Qed.
Lemma grouped_ternary a q b c d : kind c = T_COLON -> grouped a -> grouped b -> grouped d ->
  (forall p, In p (right_edge a) -> closes p (kind q) = true) -> (forall x, In x (left_edge d) -> extends 6 x = true) -> grouped (ternary a q b c d).
Proof.
  intros K Ga Gb Gd Ra Ld. apply grouped_node.
  - repeat constructor; assumption.
  - cbn [adj]. split; [exact Ra|]. split; [destruct b; [intros ? []|exact I]|]. split; [intros p _; rewrite K; apply closes_colon|].
    split; [destruct d; [intros ? []|exact I]|]. split; exact I.
  - intros l1 e E _. change [a; Leaf q; b; Leaf c; d] with ([a; Leaf q; b; Leaf c] ++ [d]) in E. apply app_inj_tail in E as [_ <-]. exact Ld.
Qed.
Lemma grouped_not_in a n i b : grouped a -> grouped b -> (forall p, In p (right_edge a) -> closes p (kind n) = true) ->
  (forall x, In x (left_edge b) -> extends 20 x = true) -> grouped (not_in a n i b).
Proof.
  intros Ga Gb Ra Lb. apply grouped_node.
  - repeat constructor; assumption.
  - cbn [adj right_edge]. split; [exact Ra|]. split; [intros ? []|]. split; [destruct b; [intros ? []|exact I]|]. split; exact I.
  - intros l1 e E _. change [a; Leaf n; Leaf i; b] with ([a; Leaf n; Leaf i] ++ [b]) in E. apply app_inj_tail in E as [_ <-]. exact Lb.
Qed.
Lemma right_infixed p a t b : right_edge (infixed p a t b) = p :: right_edge b.
Proof. exact (right_edge_last p [a; Leaf t] b). Qed.
Lemma right_ternary a q b c d : right_edge (ternary a q b c d) = 6 :: right_edge d.
Proof. exact (right_edge_last 6 [a; Leaf q; b; Leaf c] d). Qed.
Lemma left_infixed p a t b : operand a -> left_edge (infixed p a t b) = kind t :: left_edge a.
Proof. intros (_ & _ & pa & la & -> & _). reflexivity. Qed.
Lemma left_ternary a q b c d : operand a -> left_edge (ternary a q b c d) = kind q :: left_edge a.
Proof. intros (_ & _ & pa & la & -> & _). reflexivity. Qed.

Section Others.
Variables (a b c d : tree) (t u v w : token) (p : N) (i : nat) (s : assoc).
Hypothesis Ha : operand a.
Hypothesis Hb : operand b.
Hypothesis Hc : operand c.
Hypothesis Hd : operand d.
Hypothesis Ho : binary (kind t) p.
Hypothesis Lo : level (Op (kind t)) = Some (i, s).
Let Op1 := proj1 (binary_operator _ _ Ho).
Let In1 := proj2 (binary_operator _ _ Ho).
Let Ne1 := infix_real _ In1.
Let Hp : (N.to_nat p < length productions)%nat := proj1 Ho.

Ltac yields := cbn [yield flat_map infixed minus negation ternary not_in app]; rewrite ?app_nil_r, <- ?app_assoc; cbn [app]; rewrite ?app_nil_r, <- ?app_assoc; reflexivity.
Ltac parsed := rewrite <- parse_expression; [f_equal; yields| |].

(** a unary minus binds tighter than every binary operator, on either side *)
Theorem C51_minus : kind u = T_SUB ->
  parse (u :: yield a ++ t :: yield b) = Accepted (single (infixed p (minus u a) t b)) /\
  parse (yield a ++ t :: u :: yield b) = Accepted (single (infixed p a t (minus u b))).
Proof.
  intros K. pose proof (level_binary _ _ _ _ Ho Lo) as (_ & _ & L12). split; parsed.
  - apply (derives_bin (kind t)); auto; [apply derives_minus; [exact K|apply Ha]|apply Hb].
  - apply grouped_bin; [apply grouped_un; [apply Ha|apply operand_extends; [exact Ha|vm_compute; lia]]|apply Hb| |apply operand_extends; [exact Hb|exact Hp]].
    intros q Hq. change (minus u a) with (Node 36 ([Leaf u] ++ [a])) in Hq. rewrite right_edge_last in Hq. destruct Hq as [<-|Hq]; [|exact (operand_closes _ _ Ha q Hq)].
    apply (closes_level 36 UMinus (kind t) 12 Right i s); [reflexivity|reflexivity|exact Lo|left; exact L12].
  - apply (derives_bin (kind t)); auto; [apply Ha|apply derives_minus; [exact K|apply Hb]].
  - apply grouped_bin; [apply Ha|apply grouped_un; [apply Hb|apply operand_extends; [exact Hb|vm_compute; lia]]|apply operand_closes; exact Ha|].
    intros x [].
Qed.
(** [not] binds looser than every binary operator except [and] and [or] *)
Theorem C51_not : kind u = T_NOT ->
  parse (u :: yield a ++ t :: yield b) =
    Accepted (single (if Nat.ltb i 2 then infixed p (negation u a) t b else negation u (infixed p a t b))).
Proof.
  intros K. pose proof (level_binary _ _ _ _ Ho Lo) as (_ & L2 & _). destruct (Nat.ltb i 2) eqn:E; parsed.
  - apply (derives_bin (kind t)); auto; [apply derives_negation; [exact K|apply Ha]|apply Hb].
  - apply grouped_bin; [apply grouped_un; [apply Ha|apply operand_extends; [exact Ha|vm_compute; lia]]|apply Hb| |apply operand_extends; [exact Hb|exact Hp]].
    intros q Hq. change (negation u a) with (Node 34 ([Leaf u] ++ [a])) in Hq. rewrite right_edge_last in Hq. destruct Hq as [<-|Hq]; [|exact (operand_closes _ _ Ha q Hq)].
    apply Nat.ltb_lt in E. apply (closes_level 34 (Op T_NOT) (kind t) 2 Right i s); [reflexivity|reflexivity|exact Lo|left; exact E].
  - apply derives_negation; [exact K|]. apply (derives_bin (kind t)); auto; [apply Ha|apply Hb].
  - apply grouped_un; [apply grouped_bin; [apply Ha|apply Hb|apply operand_closes; exact Ha|apply operand_extends; [exact Hb|exact Hp]]|].
    intros x Hx. change (Node p [a; Leaf t; b]) with (infixed p a t b) in Hx. rewrite (left_infixed _ _ _ _ Ha) in Hx. destruct Hx as [<-|Hx]; [|apply (operand_extends a 34 Ha); [vm_compute; lia|exact Hx]].
    apply Nat.ltb_ge in E. apply (extends_level 34 (Op T_NOT) (kind t) 2 Right i s); [reflexivity|reflexivity|exact Lo|left; lia].
Qed.
(** the condition and the last branch of a ternary extend over comparisons, arithmetic and shifts, not over the logical
    operators and &, ^ and | *)
Theorem C51_ternary_condition : kind u = T_QMARK -> kind v = T_COLON ->
  parse (yield a ++ t :: yield b ++ u :: yield c ++ v :: yield d) =
    Accepted (single (if Nat.ltb 6 i then ternary (infixed p a t b) u c v d else infixed p a t (ternary b u c v d))).
Proof.
  intros K1 K2. pose proof (level_binary _ _ _ _ Ho Lo) as (L6 & _ & _). destruct (Nat.ltb 6 i) eqn:E; parsed.
  - apply derives_ternary; auto; [apply (derives_bin (kind t)); auto; [apply Ha|apply Hb]|apply Hc|apply Hd].
  - apply grouped_ternary; [exact K2|apply grouped_bin; [apply Ha|apply Hb|apply operand_closes; exact Ha|apply operand_extends; [exact Hb|exact Hp]]|apply Hc|apply Hd| |apply operand_extends; [exact Hd|vm_compute; lia]].
    intros q Hq. rewrite right_infixed in Hq. destruct Hq as [<-|Hq]; [|exact (operand_closes _ _ Hb q Hq)]. rewrite K1.
    apply Nat.ltb_lt in E. apply (closes_level p _ T_QMARK i s 6 Right Op1 Lo); [reflexivity|left; exact E].
  - apply (derives_bin (kind t)); auto; [apply Ha|]. apply derives_ternary; auto; [apply Hb|apply Hc|apply Hd].
  - apply grouped_bin; [apply Ha|apply grouped_ternary; [exact K2|apply Hb|apply Hc|apply Hd|apply operand_closes; exact Hb|apply operand_extends; [exact Hd|vm_compute; lia]]|apply operand_closes; exact Ha|].
    intros x Hx. rewrite (left_ternary _ _ _ _ _ Hb) in Hx. destruct Hx as [<-|Hx]; [|apply (operand_extends b p Hb); [exact Hp|exact Hx]]. rewrite K1.
    apply Nat.ltb_ge in E. apply (extends_level p _ T_QMARK i s 6 Right Op1 Lo); [reflexivity|left; lia].
Qed.
Theorem C51_ternary_branch : kind u = T_QMARK -> kind v = T_COLON ->
  parse (yield a ++ u :: yield b ++ v :: yield c ++ t :: yield d) =
    Accepted (single (if Nat.ltb 6 i then ternary a u b v (infixed p c t d) else infixed p (ternary a u b v c) t d)).
Proof.
  intros K1 K2. pose proof (level_binary _ _ _ _ Ho Lo) as (L6 & _ & _). destruct (Nat.ltb 6 i) eqn:E; parsed.
  - apply derives_ternary; auto; [apply Ha|apply Hb|apply (derives_bin (kind t)); auto; [apply Hc|apply Hd]].
  - apply grouped_ternary; [exact K2|apply Ha|apply Hb|apply grouped_bin; [apply Hc|apply Hd|apply operand_closes; exact Hc|apply operand_extends; [exact Hd|exact Hp]]|apply operand_closes; exact Ha|].
    intros x Hx. rewrite (left_infixed _ _ _ _ Hc) in Hx. destruct Hx as [<-|Hx]; [|apply (operand_extends c 6 Hc); [vm_compute; lia|exact Hx]].
    apply Nat.ltb_lt in E. apply (extends_level 6 (Op T_COLON) (kind t) 6 Right i s); [reflexivity|reflexivity|exact Lo|left; exact E].
  - apply (derives_bin (kind t)); auto; [|apply Hd]. apply derives_ternary; auto; [apply Ha|apply Hb|apply Hc].
  - apply grouped_bin; [apply grouped_ternary; [exact K2|apply Ha|apply Hb|apply Hc|apply operand_closes; exact Ha|apply operand_extends; [exact Hc|vm_compute; lia]]|apply Hd| |apply operand_extends; [exact Hd|exact Hp]].
    intros q Hq. rewrite right_ternary in Hq. destruct Hq as [<-|Hq]; [|exact (operand_closes _ _ Hc q Hq)].
    apply Nat.ltb_ge in E. apply (closes_level 6 (Op T_COLON) (kind t) 6 Right i s); [reflexivity|reflexivity|exact Lo|left; lia].
Qed.
(** [not in] is the level of [not] towards what stands on its left: every operator except [and] and [or] is closed
    before it (the right operand is delimited as for [in]) *)
Theorem C51_not_in : kind u = T_NOT -> kind v = T_IN ->
  parse (yield a ++ t :: yield b ++ u :: v :: yield c) =
    Accepted (single (if Nat.ltb 2 i then not_in (infixed p a t b) u v c else infixed p a t (not_in b u v c))).
Proof.
  intros K1 K2. pose proof (level_binary _ _ _ _ Ho Lo) as (_ & L2 & _). destruct (Nat.ltb 2 i) eqn:E; parsed.
  - apply derives_not_in; auto; [apply (derives_bin (kind t)); auto; [apply Ha|apply Hb]|apply Hc].
  - apply grouped_not_in; [apply grouped_bin; [apply Ha|apply Hb|apply operand_closes; exact Ha|apply operand_extends; [exact Hb|exact Hp]]|apply Hc| |apply operand_extends; [exact Hc|vm_compute; lia]].
    intros q Hq. rewrite right_infixed in Hq. destruct Hq as [<-|Hq]; [|exact (operand_closes _ _ Hb q Hq)]. rewrite K1.
    apply Nat.ltb_lt in E. apply (closes_level p _ T_NOT i s 2 Right Op1 Lo); [reflexivity|left; exact E].
  - apply (derives_bin (kind t)); auto; [apply Ha|]. apply derives_not_in; auto; [apply Hb|apply Hc].
  - apply grouped_bin; [apply Ha|apply grouped_not_in; [apply Hb|apply Hc|apply operand_closes; exact Hb|apply operand_extends; [exact Hc|vm_compute; lia]]|apply operand_closes; exact Ha|].
    intros x Hx. assert (E1 : left_edge (not_in b u v c) = kind u :: left_edge b) by (destruct Hb as (_ & _ & pb & lb & -> & _); reflexivity).
    rewrite E1 in Hx. destruct Hx as [<-|Hx]; [|apply (operand_extends b p Hb); [exact Hp|exact Hx]]. rewrite K1.
    apply Nat.ltb_ge in E. apply (extends_level p _ T_NOT i s 2 Right Op1 Lo); [reflexivity|left; lia].
Qed.
End Others.

(** [a ? b : c ? d : e] nests in the last branch *)
Theorem C51_ternary_right : forall a b c d e u v w x, operand a -> operand b -> operand c -> operand d -> operand e ->
  kind u = T_QMARK -> kind v = T_COLON -> kind w = T_QMARK -> kind x = T_COLON ->
  parse (yield a ++ u :: yield b ++ v :: yield c ++ w :: yield d ++ x :: yield e) =
    Accepted (single (ternary a u b v (ternary c w d x e))).
Proof.
  intros a b c d e u v w x Ha Hb Hc Hd He K1 K2 K3 K4.
  rewrite <- parse_expression.
  - f_equal. cbn [yield flat_map ternary app]. rewrite ?app_nil_r, <- ?app_assoc. cbn [app]. rewrite ?app_nil_r, <- ?app_assoc. reflexivity.
  - apply derives_ternary; auto; [apply Ha|apply Hb|]. apply derives_ternary; auto; [apply Hc|apply Hd|apply He].
  - apply grouped_ternary; [exact K2|apply Ha|apply Hb| |apply operand_closes; exact Ha|].
    + apply grouped_ternary; [exact K4|apply Hc|apply Hd|apply He|apply operand_closes; exact Hc|apply operand_extends; [exact He|vm_compute; lia]].
    + intros y Hy. rewrite (left_ternary _ _ _ _ _ Hc) in Hy. destruct Hy as [<-|Hy]; [rewrite K3; reflexivity|apply (operand_extends c 6 Hc); [vm_compute; lia|exact Hy]].
Qed.

(** *** Witnesses *)
Definition tk (k : tok) : token := mkToken k [].
Definition symbol_tree (n : list N) : tree := Node 5 [Node 35 [Leaf (mkToken T_SYMBOL n)]].
Definition paren (t : tree) : tree := Node 5 [Node 33 [Leaf (tk T_LPAREN); t; Leaf (tk T_RPAREN)]].
Lemma operand_symbol n : operand (symbol_tree n).
Proof.
  split; [|split].
  - change (NT N_expression) with (NT (lhs 5)). derive 5. repeat constructor. change (NT N_object) with (NT (lhs 35)). derive 35.
    constructor; [|constructor]. exact (der_token (mkToken T_SYMBOL n) ltac:(discriminate)).
  - apply grouped_node; [constructor; [|constructor]|cbn [adj]; tauto|].
    + apply grouped_node; [repeat constructor|cbn [adj]; tauto|]. intros [|? [|]] c E H; cbn in E; [contradiction|discriminate E|discriminate E].
    + intros [|? [|]] c E H; cbn in E; [contradiction|discriminate E|discriminate E].
  - exists 5, [Node 35 [Leaf (mkToken T_SYMBOL n)]]. split; reflexivity.
Qed.
(** every grouped expression in parentheses is an operand *)
Lemma operand_paren t : derives (NT N_expression) t -> grouped t -> operand (paren t).
Proof.
  intros D G. split; [|split].
  - change (NT N_expression) with (NT (lhs 5)). derive 5. repeat constructor. change (NT N_object) with (NT (lhs 33)). derive 33.
    constructor; [exact (der_token (tk T_LPAREN) ltac:(discriminate))|]. constructor; [exact D|]. constructor; [exact (der_token (tk T_RPAREN) ltac:(discriminate))|constructor].
  - apply grouped_node; [constructor; [|constructor]|cbn [adj]; tauto|].
    + apply grouped_node; [repeat constructor; exact G| |].
      * cbn [adj right_edge]. split; [destruct t; [intros q []|exact I]|]. split; [|split; exact I]. intros q _. unfold closes. destruct (operator q); reflexivity.
      * intros l1 c E _ x Hx. change [Leaf (tk T_LPAREN); t; Leaf (tk T_RPAREN)] with ([Leaf (tk T_LPAREN); t] ++ [Leaf (tk T_RPAREN)]) in E.
        apply app_inj_tail in E as [_ <-]. destruct Hx.
    + intros [|? [|]] c E H; cbn in E; [contradiction|discriminate E|discriminate E].
  - eexists _, _. split; reflexivity.
Qed.
Definition sx : tree := symbol_tree (s "x").
Definition sy : tree := symbol_tree (s "y").
Definition sz : tree := symbol_tree (s "z").
(** x + y * z, x - y - z, x < y < z, and (x or y) as an operand: (x or y) * z + x *)
Example C51_example :
  parse (yield sx ++ tk T_ADD :: yield sy ++ tk T_MUL :: yield sz) = Accepted (single (infixed 12 sx (tk T_ADD) (infixed 8 sy (tk T_MUL) sz))) /\
  parse (yield sx ++ tk T_SUB :: yield sy ++ tk T_SUB :: yield sz) = Accepted (single (infixed 13 (infixed 13 sx (tk T_SUB) sy) (tk T_SUB) sz)) /\
  parse (yield sx ++ tk T_LT :: yield sy ++ tk T_LT :: yield sz) = SyntaxError /\
  parse (yield (paren (infixed 32 sx (tk T_OR) sy)) ++ tk T_MUL :: yield sz ++ tk T_ADD :: yield sx)
    = Accepted (single (infixed 12 (infixed 8 (paren (infixed 32 sx (tk T_OR) sy)) (tk T_MUL) sz) (tk T_ADD) sx)).
Proof. vm_compute. auto. Qed.

(** "Comparison operators do not chain" is false of [not in], and it does not group like [in]: *)
Theorem C51_not_in_refuted : forall a b c n i e m, operand a -> operand b -> operand c ->
  kind n = T_NOT -> kind i = T_IN -> kind e = T_EQ -> kind m = T_BWAND ->
  (* a == b not in c  is  (a == b) not in c,  although  a == b in c  is refused *)
  parse (yield a ++ e :: yield b ++ n :: i :: yield c) = Accepted (single (not_in (infixed 21 a e b) n i c)) /\
  parse (yield a ++ e :: yield b ++ i :: yield c) = SyntaxError /\
  (* a & b not in c  is  (a & b) not in c,  although  a & b in c  is  a & (b in c) *)
  parse (yield a ++ m :: yield b ++ n :: i :: yield c) = Accepted (single (not_in (infixed 14 a m b) n i c)) /\
  parse (yield a ++ m :: yield b ++ i :: yield c) = Accepted (single (infixed 14 a m (infixed 19 b i c))).
Proof.
  intros a b c n i e m Ha Hb Hc Kn Ki Ke Km.
  assert (Be : binary (kind e) 21) by (apply C51_binary_operators; rewrite Ke; cbn; tauto).
  assert (Bm : binary (kind m) 14) by (apply C51_binary_operators; rewrite Km; cbn; tauto).
  assert (Bi : binary (kind i) 19) by (apply C51_binary_operators; rewrite Ki; cbn; tauto).
  split; [|split; [|split]].
  - apply (C51_not_in a b c e n i 21 7 NonAssoc Ha Hb Hc Be); [rewrite Ke; reflexivity|exact Kn|exact Ki].
  - apply (C51_nonassoc a b c e i 21 19 7 7 NonAssoc NonAssoc); auto; [rewrite Ke; reflexivity|rewrite Ki; reflexivity].
  - apply (C51_not_in a b c m n i 14 5 Left Ha Hb Hc Bm); [rewrite Km; reflexivity|exact Kn|exact Ki].
  - apply (C51_right a b c m i 14 19 5 7 Left NonAssoc); auto; rewrite ?Km, ?Ki; try reflexivity; left; lia.
Qed.
