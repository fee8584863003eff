(** * Theorems about the diagram of a rule (C84) *)
From Coq Require Import Lia String Permutation.
From Verif Require Import Base Dec Value DType Types Ops Attr Prog Ast Diagram P_Sound.
From Verif Require Import Engine Demo.
Local Open Scope string_scope.
Local Open Scope nat_scope.
Local Open Scope list_scope.

(** ** Specification: reading a diagram *)
(** what the diagram shows below a node: its label and, in the order of the edges, the labels of the edges and what they lead to *)
Inductive picture := Picture (class : string) (detail : option shown) (below : list (elabel * picture)).
(** the edges that leave a node, in the order of the diagram *)
Fixpoint leaving (g : list stmt) (p : place) : list (elabel * place) :=
  match g with
  | [] => []
  | Edge a b l :: r => if list_eq_dec Nat.eq_dec a p then (l, b) :: leaving r p else leaving r p
  | Node _ _ _ :: r => leaving r p
  end.
Inductive shows (g : list stmt) : place -> picture -> Prop :=
| Shows : forall p c d below, In (Node p c d) g ->
    Forall2 (fun e b => fst e = fst b /\ shows g (snd e) (snd b)) (leaving g p) below -> shows g p (Picture c d below).
Definition node_names (g : list stmt) : list place := flat_map (fun s => match s with Node p _ _ => [p] | _ => [] end) g.
Definition edge_ends (g : list stmt) : list place := flat_map (fun s => match s with Edge _ c _ => [c] | _ => [] end) g.

(** The parts of an expression that a diagram shows, with the labels of the edges *)
Fixpoint numbered (i : nat) (l : list expr) : list (elabel * expr) := match l with [] => [] | x :: r => (Argument i, x) :: numbered (S i) r end.
Definition below (e : expr) : list (elabel * expr) :=
  match e with
  | ELit _ | EFun _ _ | ESym _ _ _ | EMap _ => []
  | EArr l | ESet l => map (fun x => (NoLabel, x)) l
  | EBin _ a b => [(Label "left", a); (Label "right", b)]
  | EComp r _ i c => [(Label "result", r); (Label "iterable", i)] ++ match c with Some x => [(Label "condition", x)] | None => [] end
  | EIn c m => [(Label "container", c); (Label "member", m)]
  | EAttr o _ _ => [(NoLabel, o)]
  | EItem c i _ => [(Label "container", c); (Label "item", i)]
  | ESlice c a b _ => [(Label "container", c); (Label "start", a); (Label "stop", b)]
  | ECall f l => (Label "function", f) :: numbered 1 l
  | ETern c a b => [(Label "condition", c); (Label "true case", a); (Label "false case", b)]
  | EUn _ x => [(NoLabel, x)]
  end.
(** the class of a node and what is written next to it *)
Definition label_of (e : expr) : string * option shown :=
  match e with
  | ELit v => (literal_class v, Some (Value v)) | EFun v _ => ("FunctionExpression", Some (Value v))
  | EArr _ => ("ArrayExpression", None) | ESet _ => ("SetExpression", None) | EMap _ => ("MappingExpression", None)
  | EBin o _ _ => (operator_class o, Some (Kind (operator_type o))) | EComp _ v _ _ => ("ComprehensionExpression", Some (Variable_ v))
  | EIn _ _ => ("ContainsExpression", None) | EAttr _ n _ => ("GetAttributeExpression", Some (Name n)) | EItem _ _ _ => ("GetItemExpression", None)
  | ESlice _ _ _ _ => ("GetSliceExpression", None) | ESym n _ _ => ("SymbolExpression", Some (Name n)) | ECall _ _ => ("FunctionCallExpression", None)
  | ETern _ _ _ => ("TernaryExpression", None) | EUn o _ => ("UnaryExpression", Some (Kind (unary_type o)))
  end.
Inductive depicts : expr -> picture -> Prop :=
| Depicts : forall e ks, Forall2 (fun b k => fst b = fst k /\ depicts (snd b) (snd k)) (below e) ks -> depicts e (Picture (fst (label_of e)) (snd (label_of e)) ks).

(** ** Facts *)
Lemma below_ind : forall P : expr -> Prop, (forall e, (forall l x, In (l, x) (below e) -> P x) -> P e) -> forall e, P e.
Proof.
  intros P H. assert (N : forall l i lb x, Forall P l -> In (lb, x) (numbered i l) -> P x).
  { induction l as [|y l IH]; intros i lb x F K; [destruct K|]. inversion F; subst. destruct K as [K|K]; [injection K as _ <-; assumption|eapply IH; eassumption]. }
  assert (M : forall l lb x, Forall P l -> In (lb, x) (map (fun x => (NoLabel, x)) l) -> P x).
  { induction l as [|y l IH]; intros lb x F K; [destruct K|]. inversion F; subst. destruct K as [K|K]; [injection K as _ <-; assumption|eapply IH; eassumption]. }
  induction e using expr_ind'; apply H; intros lb x K; cbn [below] in K.
  - destruct K.
  - destruct K.
  - eapply M; eassumption.
  - eapply M; eassumption.
  - destruct K.
  - cbn in K. intuition congruence.
  - destruct c; cbn in K; cbn [opt_P] in *; intuition congruence.
  - cbn in K. intuition congruence.
  - cbn in K. intuition congruence.
  - cbn in K. intuition congruence.
  - cbn in K. intuition congruence.
  - destruct K.
  - destruct K as [K|K]; [injection K as _ <-; assumption|eapply N; eassumption].
  - cbn in K. intuition congruence.
  - cbn in K. intuition congruence.
Qed.
(** the parts below a node with their places *)
Fixpoint kids (p : place) (i : nat) (l : list (elabel * expr)) : list (elabel * place * expr) :=
  match l with [] => [] | (lb, x) :: r => (lb, i :: p, x) :: kids p (S i) r end.
Definition drawn (ks : list (elabel * place * expr)) : list stmt := flat_map (fun k => draw (snd (fst k)) (snd k)) ks.
Definition edges (p : place) (ks : list (elabel * place * expr)) : list stmt := map (fun k => Edge p (snd (fst k)) (fst (fst k))) ks.
Definition norm (p : place) (e : expr) : list stmt :=
  Node p (fst (label_of e)) (snd (label_of e)) :: drawn (kids p 0 (below e)) ++ edges p (kids p 0 (below e)).
(** draw with children drawn one after another *)
Fixpoint mixed (p : place) (ks : list (elabel * place * expr)) : list stmt :=
  match ks with [] => [] | (lb, c, x) :: r => draw c x ++ [Edge p c lb] ++ mixed p r end.
Lemma draw_cases : forall p e, draw p e = norm p e \/ draw p e = Node p (fst (label_of e)) (snd (label_of e)) :: mixed p (kids p 0 (below e)).
Proof.
  intros p e.
  assert (M : forall l i, (fix members (i : nat) (l : list expr) : list stmt := match l with [] => [] | x :: r => draw (i :: p) x ++ [Edge p (i :: p) NoLabel] ++ members (S i) r end) i l = mixed p (kids p i (map (fun x => (NoLabel, x)) l))).
  { induction l as [|x l IH]; intro i; [reflexivity|]. cbn [map kids mixed]. rewrite <- IH. reflexivity. }
  assert (A : forall l i, (fix arguments (i : nat) (l : list expr) : list stmt := match l with [] => [] | x :: r => draw (i :: p) x ++ [Edge p (i :: p) (Argument i)] ++ arguments (S i) r end) i l = mixed p (kids p i (numbered i l))).
  { induction l as [|x l IH]; intro i; [reflexivity|]. cbn [numbered kids mixed]. rewrite <- IH. reflexivity. }
  destruct e; try (left; unfold norm; cbn [draw below kids drawn edges flat_map map fst snd label_of app]; rewrite ?app_nil_r, <- ?app_assoc; reflexivity).
  - right. cbn [draw below fst snd label_of]. rewrite M. reflexivity.
  - right. cbn [draw below fst snd label_of]. rewrite M. reflexivity.
  - right. cbn [draw below fst snd label_of]. destruct cond; cbn [app kids mixed]; rewrite ?app_nil_r, <- ?app_assoc; reflexivity.
  - right. cbn [draw below fst snd label_of]. rewrite A. cbn [kids mixed app]. reflexivity.
Qed.
Lemma mixed_perm : forall p ks, Permutation (mixed p ks) (drawn ks ++ edges p ks).
Proof.
  intros p ks. induction ks as [|[[lb c] x] r IH]; [constructor|]. cbn [mixed drawn flat_map edges map fst snd]. rewrite <- app_assoc. apply Permutation_app_head.
  cbn [app]. eapply perm_trans; [apply perm_skip, IH|]. unfold drawn. apply Permutation_middle.
Qed.
Lemma draw_perm : forall p e, Permutation (draw p e) (norm p e).
Proof. intros p e. destruct (draw_cases p e) as [->| ->]; [apply Permutation_refl|]. apply perm_skip, mixed_perm. Qed.
Definition owner (s : stmt) : place := match s with Node p _ _ | Edge p _ _ => p end.
Definition at_ (q : place) (g : list stmt) : list stmt := filter (fun s => if list_eq_dec Nat.eq_dec (owner s) q then true else false) g.
Lemma kids_place : forall p l i lb c x, In (lb, c, x) (kids p i l) -> exists j, (i <= j)%nat /\ c = j :: p /\ In (lb, x) l.
Proof.
  intros p l. induction l as [|[lb0 x0] r IH]; intros i lb c x K; [destruct K|]. destruct K as [K|K]; [injection K as <- <- <-; exists i; repeat split; [lia|left; reflexivity]|].
  destruct (IH (S i) lb c x K) as [j [L [E I]]]. exists j. repeat split; [lia|exact E|right; exact I].
Qed.
Lemma draw_owner : forall e p s, In s (draw p e) -> exists r, owner s = r ++ p.
Proof.
  intro e. induction e as [e IH] using below_ind. intros p s K. apply (Permutation_in _ (draw_perm p e)) in K. destruct K as [<-|K]; [exists []; reflexivity|].
  apply in_app_or in K as [K|K].
  - apply in_flat_map in K as [[[lb c] x] [K1 K2]]. destruct (kids_place _ _ _ _ _ _ K1) as [j [_ [-> I]]]. cbn [fst snd] in K2. destruct (IH lb x I (j :: p) s K2) as [r E]. exists (r ++ [j]). rewrite <- app_assoc. exact E.
  - apply in_map_iff in K as [k [<- _]]. exists []. reflexivity.
Qed.
Lemma at_app : forall q a b, at_ q (a ++ b) = at_ q a ++ at_ q b.
Proof. intros. unfold at_. apply filter_app. Qed.
Lemma at_none : forall q g, (forall s, In s g -> owner s <> q) -> at_ q g = [].
Proof. intros q g H. induction g as [|s g IH]; [reflexivity|]. unfold at_ in *. cbn [filter]. destruct (list_eq_dec Nat.eq_dec (owner s) q) as [E|_]; [exfalso; apply (H s (or_introl eq_refl) E)|]. apply IH. intros x I. apply H. right. exact I. Qed.
Lemma tail_eq : forall (r r' : place) i j p, r ++ i :: p = r' ++ j :: p -> i = j.
Proof.
  intros r r' i j p H. replace (r ++ i :: p) with ((r ++ [i]) ++ p) in H by (rewrite <- app_assoc; reflexivity). replace (r' ++ j :: p) with ((r' ++ [j]) ++ p) in H by (rewrite <- app_assoc; reflexivity).
  apply app_inv_tail in H. apply app_inj_tail in H as [_ H]. exact H.
Qed.
Lemma longer : forall (r : place) i p, r ++ i :: p <> p.
Proof. intros r i p H. apply (f_equal (@length nat)) in H. rewrite app_length in H. cbn in H. lia. Qed.
(** what the node itself says *)
Lemma at_own_kids : forall p ks, (forall lb c x, In (lb, c, x) ks -> exists j, c = j :: p) -> at_ p (mixed p ks) = edges p ks /\ at_ p (drawn ks ++ edges p ks) = edges p ks.
Proof.
  intros p ks H. assert (E : at_ p (edges p ks) = edges p ks).
  { clear H. induction ks as [|k r IH]; [reflexivity|]. cbn [edges map]. unfold at_ in *. cbn [filter owner]. destruct (list_eq_dec Nat.eq_dec p p) as [_|X]; [|exfalso; apply X; reflexivity]. f_equal. exact IH. }
  assert (D : forall lb c x, In (lb, c, x) ks -> at_ p (draw c x) = []).
  { intros lb c x K. destruct (H lb c x K) as [j ->]. apply at_none. intros s I. destruct (draw_owner x (j :: p) s I) as [r ->]. apply longer. }
  split.
  - clear H E. induction ks as [|[[lb c] x] r IH]; [reflexivity|]. cbn [mixed edges map fst snd]. rewrite at_app, (D lb c x (or_introl eq_refl)). cbn [app]. unfold at_ at 1. cbn [filter owner]. destruct (list_eq_dec Nat.eq_dec p p) as [_|X]; [|exfalso; apply X; reflexivity].
    f_equal. apply IH. intros lb' c' x' K. apply (D lb' c' x'). right. exact K.
  - rewrite at_app, E. replace (at_ p (drawn ks)) with (@nil stmt); [reflexivity|]. symmetry. clear H E. induction ks as [|[[lb c] x] r IH]; [reflexivity|]. cbn [drawn flat_map fst snd]. rewrite at_app, (D lb c x (or_introl eq_refl)). apply IH. intros lb' c' x' K. apply (D lb' c' x'). right. exact K.
Qed.
Lemma kids_child : forall p i l lb c x, In (lb, c, x) (kids p i l) -> exists j, c = j :: p.
Proof. intros p i l lb c x K. destruct (kids_place _ _ _ _ _ _ K) as [j [_ [E _]]]. exists j. exact E. Qed.
Lemma at_own : forall p e, at_ p (draw p e) = Node p (fst (label_of e)) (snd (label_of e)) :: edges p (kids p 0 (below e)).
Proof.
  intros p e. destruct (at_own_kids p (kids p 0 (below e)) (kids_child p 0 (below e))) as [A B].
  destruct (draw_cases p e) as [->| ->]; [unfold norm|]; unfold at_ at 1; cbn [filter owner]; (destruct (list_eq_dec Nat.eq_dec p p) as [_|X]; [|exfalso; apply X; reflexivity]); f_equal; assumption.
Qed.
(** what a part below says *)
Lemma at_kid_list : forall p q l i lb c x r, In (lb, c, x) (kids p i l) -> q = r ++ c -> at_ q (mixed p (kids p i l)) = at_ q (draw c x) /\ at_ q (drawn (kids p i l) ++ edges p (kids p i l)) = at_ q (draw c x).
Proof.
  intros p q l.
  assert (Ed : forall i l lb c x r, In (lb, c, x) (kids p i l) -> q = r ++ c -> forall ks, at_ q (edges p ks) = []).
  { intros i l0 lb c x r K -> ks. destruct (kids_child _ _ _ _ _ _ K) as [j ->]. apply at_none. intros s I. apply in_map_iff in I as [k [<- _]]. cbn [owner]. intro E. symmetry in E. apply longer in E. exact E. }
  assert (No : forall j r, q = r ++ j :: p -> forall l i, (j < i)%nat -> at_ q (drawn (kids p i l)) = [] /\ at_ q (mixed p (kids p i l)) = []).
  { intros j r E l0. induction l0 as [|[lb0 x0] l0 IH]; intros i L; [split; reflexivity|]. cbn [kids mixed drawn flat_map fst snd]. destruct (IH (S i) ltac:(lia)) as [I1 I2].
    assert (D : at_ q (draw (i :: p) x0) = []). { apply at_none. intros s K. destruct (draw_owner x0 (i :: p) s K) as [r' ->]. rewrite E. intro X. apply tail_eq in X. lia. }
    assert (G : at_ q [Edge p (i :: p) lb0] = []). { apply at_none. intros s [<-|[]]. cbn [owner]. rewrite E. intro X. symmetry in X. apply longer in X. exact X. }
    split; [rewrite at_app, D; exact I1|rewrite !at_app, D, G; exact I2]. }
  assert (Dr : forall l i lb c x r, In (lb, c, x) (kids p i l) -> q = r ++ c -> at_ q (mixed p (kids p i l)) = at_ q (draw c x) /\ at_ q (drawn (kids p i l)) = at_ q (draw c x)).
  { intro l0. induction l0 as [|[lb0 x0] l0 IH]; intros i lb c x r K E; [destruct K|]. cbn [kids mixed drawn flat_map fst snd].
    assert (G : at_ q [Edge p (i :: p) lb0] = []) by (exact (Ed i ((lb0, x0) :: l0) lb c x r K E [(lb0, i :: p, x0)])). destruct K as [K|K].
    - injection K as -> <- ->. destruct (No i r E l0 (S i) ltac:(lia)) as [N1 N2]. rewrite !at_app, G. unfold drawn in N1. rewrite N1, N2. cbn [app]. rewrite ?app_nil_r. split; reflexivity.
    - destruct (kids_place _ _ _ _ _ _ K) as [j [L [Ec _]]]. destruct (IH (S i) lb c x r K E) as [I1 I2].
      assert (D : at_ q (draw (i :: p) x0) = []). { apply at_none. intros s K'. destruct (draw_owner x0 (i :: p) s K') as [r' ->]. rewrite E, Ec. intro X. apply tail_eq in X. lia. }
      rewrite !at_app, D, G. split; [exact I1|exact I2]. }
  intros i lb c x r K E. destruct (Dr l i lb c x r K E) as [D1 D2]. split; [exact D1|]. rewrite at_app, D2, (Ed i l lb c x r K E), app_nil_r. reflexivity.
Qed.
Lemma at_kid : forall p e lb c x r, In (lb, c, x) (kids p 0 (below e)) -> at_ (r ++ c) (draw p e) = at_ (r ++ c) (draw c x).
Proof.
  intros p e lb c x r K. destruct (at_kid_list p (r ++ c) (below e) 0 lb c x r K eq_refl) as [A B]. destruct (kids_child _ _ _ _ _ _ K) as [j Ec].
  assert (G : forall d s, at_ (r ++ c) (Node p d s :: []) = []) by (intros d s; apply at_none; intros y [<-|[]]; cbn [owner]; rewrite Ec; intro X; symmetry in X; apply longer in X; exact X).
  destruct (draw_cases p e) as [->| ->]; [unfold norm|]; change (Node p (fst (label_of e)) (snd (label_of e)) :: ?l) with ([Node p (fst (label_of e)) (snd (label_of e))] ++ l); rewrite at_app, G; assumption.
Qed.
Lemma leaving_at : forall g p, leaving g p = leaving (at_ p g) p.
Proof.
  intros g p. induction g as [|[q c d|q c l] g IH]; [reflexivity| |]; unfold at_ in *; cbn [leaving filter owner].
  - rewrite IH. destruct (list_eq_dec Nat.eq_dec q p); reflexivity.
  - destruct (list_eq_dec Nat.eq_dec q p) as [E|E] eqn:D; [cbn [leaving]; rewrite D, IH; reflexivity|exact IH].
Qed.
Lemma leaving_edges : forall p ks, leaving (edges p ks) p = map fst ks.
Proof. intros p ks. induction ks as [|[[lb c] x] r IH]; [reflexivity|]. cbn [edges map leaving fst snd]. destruct (list_eq_dec Nat.eq_dec p p) as [_|X]; [|exfalso; apply X; reflexivity]. rewrite <- IH. reflexivity. Qed.
Lemma node_at : forall g p c d, In (Node p c d) (at_ p g) -> In (Node p c d) g.
Proof. intros g p c d H. apply filter_In in H. apply H. Qed.

(** ** The diagram shows the expression *)
Lemma shows_draw : forall e p g, (forall r, at_ (r ++ p) g = at_ (r ++ p) (draw p e)) -> forall pic, depicts e pic -> shows g p pic.
Proof.
  intro e. induction e as [e IH] using below_ind. intros p g H pic D. inversion D as [? ks F]; subst.
  assert (H0 := H []). cbn [app] in H0. rewrite at_own in H0. apply Shows.
  - apply node_at. rewrite H0. left. reflexivity.
  - rewrite leaving_at, H0. cbn [leaving]. rewrite leaving_edges.
    assert (G : forall l i ks, (forall lb x, In (lb, x) l -> In (lb, x) (below e)) -> (forall k, In k (kids p i l) -> In k (kids p 0 (below e))) -> Forall2 (fun b k => fst b = fst k /\ depicts (snd b) (snd k)) l ks ->
              Forall2 (fun (e0 : elabel * place) (b : elabel * picture) => fst e0 = fst b /\ shows g (snd e0) (snd b)) (map fst (kids p i l)) ks).
    { clear F D ks. intros l i ks Hl Hk F. revert i Hk. induction F as [|[lb x] k l ks [F1 F2] F IHF]; intros i Hk; [constructor|]. cbn [kids map fst snd] in *. constructor.
      - cbn [fst snd]. split; [exact F1|]. apply (IH lb x (Hl lb x (or_introl eq_refl))); [|exact F2]. intro r.
        replace (r ++ i :: p) with ((r ++ [i]) ++ p) by (rewrite <- app_assoc; reflexivity). rewrite H. rewrite <- app_assoc. cbn [app]. eapply at_kid. apply Hk. left. reflexivity.
      - apply IHF; [intros lb' x' K; apply Hl; right; exact K|]. intros k' K. apply Hk. right. exact K. }
    apply G; auto.
Qed.
Lemma depicts_some : forall e, exists pic, depicts e pic.
Proof.
  intro e. induction e as [e IH] using below_ind.
  assert (G : forall l, (forall lb x, In (lb, x) l -> In (lb, x) (below e)) -> exists ks, Forall2 (fun b k => fst b = fst k /\ depicts (snd b) (snd k)) l ks).
  { induction l as [|[lb x] l IHl]; intro H; [exists []; constructor|]. destruct (IH lb x (H lb x (or_introl eq_refl))) as [k K]. destruct IHl as [ks F]; [intros lb' x' I; apply H; right; exact I|]. exists ((lb, k) :: ks). constructor; [split; [reflexivity|exact K]|exact F]. }
  destruct (G (below e)) as [ks F]; [auto|]. eexists. apply Depicts. exact F.
Qed.
Section picture_ind.
  Variable P : picture -> Prop.
  Hypothesis H : forall c d l, Forall (fun k => P (snd k)) l -> P (Picture c d l).
  Fixpoint picture_ind' (x : picture) : P x :=
    match x with Picture c d l => H c d l ((fix all (l : list (elabel * picture)) : Forall (fun k => P (snd k)) l := match l with [] => Forall_nil _ | k :: r => Forall_cons k (picture_ind' (snd k)) (all r) end) l) end.
End picture_ind.
Lemma names_In : forall g p, In p (node_names g) <-> exists c d, In (Node p c d) g.
Proof.
  intros g p. unfold node_names. rewrite in_flat_map. split.
  - intros [[q c d|q c l] [K1 K2]]; [destruct K2 as [<-|[]]; eauto|destruct K2].
  - intros [c [d K]]. exists (Node p c d). split; [exact K|left; reflexivity].
Qed.
Lemma node_unique : forall g p c d c' d', NoDup (node_names g) -> In (Node p c d) g -> In (Node p c' d') g -> c = c' /\ d = d'.
Proof.
  intros g p c d c' d' N H K. induction g as [|[q x y|q x y] g IH]; [destruct H| |].
  - cbn [node_names flat_map app] in N. inversion N as [|? ? N1 N2]; subst. destruct H as [H|H]; destruct K as [K|K].
    + rewrite H in K. injection K as -> ->. split; reflexivity.
    + exfalso. injection H as -> _ _. apply N1. apply names_In. eauto.
    + exfalso. injection K as -> _ _. apply N1. apply names_In. eauto.
    + apply IH; assumption.
  - cbn [node_names flat_map app] in N. destruct H as [H|H]; [discriminate H|]. destruct K as [K|K]; [discriminate K|]. apply IH; assumption.
Qed.
Lemma shows_unique : forall g, NoDup (node_names g) -> forall a b p, shows g p a -> shows g p b -> a = b.
Proof.
  intros g N a. induction a as [c d l IH] using picture_ind'. intros b p H K. inversion H as [? ? ? ? H1 H2]; subst. inversion K as [? c' d' l' K1 K2]; subst.
  destruct (node_unique g p c d c' d' N H1 K1) as [<- <-]. f_equal. clear H K H1 K1. revert l' K2. induction H2 as [|e k es ks [A B] H2 IH2]; intros l' K2; inversion K2 as [|? k' ? ks' [A' B'] K3]; subst; [reflexivity|].
  inversion IH as [|? ? I1 I2]; subst. f_equal; [|apply IH2; assumption]. destruct k as [k1 k2], k' as [k1' k2']. cbn [fst snd] in *. subst. f_equal. eapply I1; eassumption.
Qed.

(** ** The diagram is a tree *)
Lemma names_app : forall a b, node_names (a ++ b) = node_names a ++ node_names b.
Proof. intros. unfold node_names. apply flat_map_app. Qed.
Lemma ends_app : forall a b, edge_ends (a ++ b) = edge_ends a ++ edge_ends b.
Proof. intros. unfold edge_ends. apply flat_map_app. Qed.
Lemma names_perm : forall a b, Permutation a b -> Permutation (node_names a) (node_names b).
Proof. intros a b H. unfold node_names. apply Permutation_flat_map. exact H. Qed.
Lemma ends_perm : forall a b, Permutation a b -> Permutation (edge_ends a) (edge_ends b).
Proof. intros a b H. unfold edge_ends. apply Permutation_flat_map. exact H. Qed.
Lemma names_edges : forall p ks, node_names (edges p ks) = [].
Proof. intros p ks. induction ks as [|k r IH]; [reflexivity|exact IH]. Qed.
Lemma ends_edges : forall p ks, edge_ends (edges p ks) = map (fun k => snd (fst k)) ks.
Proof. intros p ks. induction ks as [|k r IH]; [reflexivity|]. cbn [edges map edge_ends flat_map app]. f_equal. exact IH. Qed.
Lemma names_place : forall e p q, In q (node_names (draw p e)) -> exists r, q = r ++ p.
Proof. intros e p q H. apply names_In in H as [c [d H]]. destruct (draw_owner e p _ H) as [r E]. exists r. exact E. Qed.
Lemma NoDup_app_intro : forall A (a b : list A), NoDup a -> NoDup b -> (forall x, In x a -> In x b -> False) -> NoDup (a ++ b).
Proof. intros A a b Na Nb H. induction Na as [|x a Hx Na IH]; [exact Nb|]. cbn [app]. constructor; [intro K; apply in_app_or in K as [K|K]; [exact (Hx K)|exact (H x (or_introl eq_refl) K)]|apply IH]. intros y K1 K2. apply (H y (or_intror K1) K2). Qed.
Lemma draw_tree : forall e p, NoDup (node_names (draw p e)) /\ Permutation (node_names (draw p e)) (p :: edge_ends (draw p e)) /\ (forall a b l, In (Edge a b l) (draw p e) -> In a (node_names (draw p e))).
Proof.
  intro e. induction e as [e IH] using below_ind. intro p.
  assert (L : forall l i, (forall lb x, In (lb, x) l -> In (lb, x) (below e)) -> NoDup (node_names (drawn (kids p i l))) /\ Permutation (node_names (drawn (kids p i l))) (map (fun k => snd (fst k)) (kids p i l) ++ edge_ends (drawn (kids p i l))) /\ (forall q, In q (node_names (drawn (kids p i l))) -> exists r j, i <= j /\ q = r ++ j :: p)).
  { induction l as [|[lb x] l IHl]; intros i H; [split; [constructor|split; [constructor|intros q []]]|].
    destruct (IHl (S i) ltac:(intros lb' x' K; apply H; right; exact K)) as [N [Pm R]]. destruct (IH lb x (H lb x (or_introl eq_refl)) (i :: p)) as [N0 [P0 _]].
    cbn [kids drawn flat_map fst snd map]. fold (drawn (kids p (S i) l)). rewrite names_app, ends_app. split; [|split].
    - apply NoDup_app_intro; [exact N0|exact N|]. intros q K1 K2. apply names_place in K1 as [r1 ->]. destruct (R _ K2) as [r2 [j [Lj E]]]. apply tail_eq in E. lia.
    - cbn [app]. eapply perm_trans; [apply Permutation_app; [exact P0|exact Pm]|]. cbn [app]. apply perm_skip. rewrite !app_assoc. apply Permutation_app_tail. apply Permutation_app_comm.
    - intros q K. apply in_app_or in K as [K|K]; [apply names_place in K as [r ->]; exists r, i; split; [lia|reflexivity]|]. destruct (R q K) as [r [j [Lj E]]]. exists r, j. split; [lia|exact E]. }
  destruct (L (below e) 0) as [N [Pm R]]; [auto|]. assert (Q := draw_perm p e). assert (Qn := names_perm _ _ Q). assert (Qe := ends_perm _ _ Q). unfold norm in Qn, Qe.
  cbn [node_names edge_ends flat_map app] in Qn, Qe. fold (node_names (drawn (kids p 0 (below e)) ++ edges p (kids p 0 (below e)))) in Qn. fold (edge_ends (drawn (kids p 0 (below e)) ++ edges p (kids p 0 (below e)))) in Qe.
  rewrite names_app, names_edges, app_nil_r in Qn. rewrite ends_app, ends_edges in Qe. split; [|split].
  - eapply Permutation_NoDup; [apply Permutation_sym, Qn|]. constructor; [|exact N]. intro K. destruct (R p K) as [r [j [_ E]]]. symmetry in E. apply longer in E. exact E.
  - eapply perm_trans; [exact Qn|]. apply perm_skip. eapply perm_trans; [exact Pm|]. eapply perm_trans; [apply Permutation_app_comm|]. apply Permutation_sym. exact Qe.
  - intros a b l K. apply (Permutation_in _ Q) in K. eapply Permutation_in; [apply Permutation_sym, Qn|]. destruct K as [K|K]; [discriminate K|]. apply in_app_or in K as [K|K].
    + right. apply in_flat_map in K as [[[lb c] x] [K1 K2]]. cbn [fst snd] in K2. destruct (kids_place _ _ _ _ _ _ K1) as [j [_ [-> I]]]. destruct (IH lb x I (j :: p)) as [_ [_ E]]. specialize (E a b l K2).
      apply names_In in E as [cc [dd E]]. apply names_In. exists cc, dd. apply in_flat_map. exists (lb, j :: p, x). split; assumption.
    + apply in_map_iff in K as [k [E _]]. injection E as <- _ _. left. reflexivity.
Qed.
(** one node after another along edges *)
Inductive reaches (g : list stmt) (a : place) : place -> Prop :=
| R_self : reaches g a a
| R_edge : forall b c l, reaches g a b -> In (Edge b c l) g -> reaches g a c.
Lemma reaches_trans : forall g a b c, reaches g a b -> reaches g b c -> reaches g a c.
Proof. intros g a b c H K. induction K as [|x y l K IH E]; [exact H|eapply R_edge; eassumption]. Qed.
Lemma reaches_more : forall g g' a b, (forall s, In s g -> In s g') -> reaches g a b -> reaches g' a b.
Proof. intros g g' a b H K. induction K as [|x y l K IH E]; [apply R_self|eapply R_edge; [exact IH|apply H; exact E]]. Qed.
Lemma draw_reaches : forall e p q, In q (node_names (draw p e)) -> reaches (draw p e) p q.
Proof.
  intro e. induction e as [e IH] using below_ind. intros p q H. assert (Q := draw_perm p e). apply (Permutation_in _ (names_perm _ _ Q)) in H.
  unfold norm in H. cbn [node_names flat_map app] in H. destruct H as [<-|H]; [apply R_self|]. fold (node_names (drawn (kids p 0 (below e)) ++ edges p (kids p 0 (below e)))) in H. rewrite names_app, names_edges, app_nil_r in H.
  apply names_In in H as [c [d H]]. apply in_flat_map in H as [[[lb ch] x] [K1 K2]]. cbn [fst snd] in K2. destruct (kids_place _ _ _ _ _ _ K1) as [j [_ [Ec I]]].
  apply reaches_trans with (b := ch).
  - eapply R_edge; [apply R_self|]. apply (Permutation_in _ (Permutation_sym Q)). right. apply in_or_app. right. apply in_map_iff. exists (lb, ch, x). split; [reflexivity|exact K1].
  - apply reaches_more with (g := draw ch x); [|apply (IH lb x I); apply names_In; eauto]. intros s K. apply (Permutation_in _ (Permutation_sym Q)). right. apply in_or_app. left. apply in_flat_map. exists (lb, ch, x). split; assumption.
Qed.
Definition comment_nodes (c : option str) : list place := match c with Some _ => [comment_place] | None => [] end.
Lemma rule_names : forall e c, node_names (rule_diagram e c) = top :: node_names (draw [0] e) ++ comment_nodes c.
Proof. intros e c. unfold rule_diagram. rewrite !names_app. destruct c; reflexivity. Qed.

(** C84: the diagram is a tree: its node names are distinct, every node but the statement and the comment is the end of exactly one
    edge, edges leave nodes of the diagram, and every node but the comment is reached from the statement *)
Theorem C84_tree : forall e c, NoDup (node_names (rule_diagram e c)) /\
  Permutation (node_names (rule_diagram e c)) (top :: comment_nodes c ++ edge_ends (rule_diagram e c)) /\
  (forall a b l, In (Edge a b l) (rule_diagram e c) -> In a (node_names (rule_diagram e c))) /\
  (forall p, In p (node_names (rule_diagram e c)) -> In p (comment_nodes c) \/ reaches (rule_diagram e c) top p).
Proof.
  intros e c. destruct (draw_tree e [0]) as [N [Pm E]]. rewrite !rule_names. split; [|split; [|split]].
  - constructor.
    + intro K. apply in_app_or in K as [K|K]; [apply names_place in K as [r K]; destruct r; discriminate K|]. destruct c; [destruct K as [K|[]]; discriminate K|destruct K].
    + apply NoDup_app_intro; [exact N|destruct c; repeat constructor; intros []|]. intros x K1 K2. apply names_place in K1 as [r ->]. destruct c; [|destruct K2]. destruct K2 as [K2|[]]. unfold comment_place in K2. apply (f_equal (@rev nat)) in K2. rewrite rev_app_distr in K2. discriminate K2.
  - apply perm_skip. eapply perm_trans; [apply Permutation_app_comm|]. apply Permutation_app_head.
    unfold rule_diagram. rewrite !ends_app. replace (edge_ends (match c with Some t => [Node comment_place "Comment" (Some (Text t))] | None => [] end)) with (@nil place) by (destruct c; reflexivity).
    change (edge_ends [Node top "Statement" None]) with (@nil place). change (edge_ends [Edge top [0] NoLabel]) with [[0]]. cbn [app]. eapply perm_trans; [exact Pm|]. apply Permutation_cons_append.
  - intros a b l K. unfold rule_diagram in K. apply in_app_or in K as [K|K]; [destruct K as [K|[]]; discriminate K|]. apply in_app_or in K as [K|K]; [right; apply in_or_app; left; eapply E; exact K|].
    destruct K as [K|K]; [injection K as <- _ _; left; reflexivity|]. destruct c; [destruct K as [K|[]]; discriminate K|destruct K].
  - intros p [<-|K]; [right; apply R_self|]. apply in_app_or in K as [K|K]; [|left; exact K]. right. apply reaches_trans with (b := [0]).
    + eapply R_edge; [apply R_self|]. unfold rule_diagram. apply in_or_app. right. apply in_or_app. right. left. reflexivity.
    + eapply reaches_more; [|apply draw_reaches; exact K]. intros s I. unfold rule_diagram. apply in_or_app. right. apply in_or_app. left. exact I.
Qed.
(** C84: what the diagram shows at the statement is a picture of the expression, and nothing else *)
Theorem C84_shows : forall e c pic, shows (rule_diagram e c) top pic <-> exists k, depicts e k /\ pic = Picture "Statement" None [(NoLabel, k)].
Proof.
  intros e c pic.
  assert (T : forall k, depicts e k -> shows (rule_diagram e c) top (Picture "Statement" None [(NoLabel, k)])).
  { intros k K. apply Shows; [left; reflexivity|].
    assert (L : leaving (rule_diagram e c) top = [(NoLabel, [0])]).
    { rewrite leaving_at. unfold rule_diagram. rewrite !at_app. rewrite (at_none top (draw [0] e)) by (intros s I; destruct (draw_owner e [0] s I) as [r ->]; destruct r; discriminate). destruct c; reflexivity. }
    rewrite L. constructor; [|constructor]. cbn [fst snd]. split; [reflexivity|]. eapply shows_draw; [|exact K]. intro r. unfold rule_diagram. rewrite !at_app.
    assert (Z : forall x y z, at_ (r ++ [0]) [Node top x y] = [] /\ at_ (r ++ [0]) [Edge top [0] z] = [] /\ at_ (r ++ [0]) (match c with Some t => [Node comment_place "Comment" (Some (Text t))] | None => [] end) = []).
    { intros x y z. split; [|split]; apply at_none.
      - intros s [<-|[]]. cbn [owner]. destruct r; discriminate.
      - intros s [<-|[]]. cbn [owner]. destruct r; discriminate.
      - intros s I E. assert (O : owner s = comment_place) by (destruct c; [destruct I as [<-|[]]; reflexivity|destruct I]). rewrite O in E. apply (f_equal (@rev nat)) in E. rewrite rev_app_distr in E. discriminate E. }
    destruct (Z "Statement" None NoLabel) as [Z1 [Z2 Z3]]. rewrite Z1, Z2, Z3. cbn [app]. rewrite app_nil_r. reflexivity. }
  split.
  - intro H. destruct (depicts_some e) as [k K]. exists k. split; [exact K|]. eapply shows_unique; [apply (C84_tree e c)|exact H|apply T; exact K].
  - intros [k [K ->]]. apply T. exact K.
Qed.

(** ** What the diagram determines *)
(** a function literal *)
Definition function_literal (e : expr) (v : value) : Prop := (e = ELit v /\ literal_class v = "FunctionExpression") \/ exists t, e = EFun v t.
(** equal up to the contents of mapping literals, the safe flags, the scope and type of symbols and the types of function literals *)
Inductive alike : expr -> expr -> Prop :=
| Al_lit : forall v, alike (ELit v) (ELit v)
| Al_fun : forall a b v, function_literal a v -> function_literal b v -> alike a b
| Al_arr : forall l l', Forall2 alike l l' -> alike (EArr l) (EArr l')
| Al_set : forall l l', Forall2 alike l l' -> alike (ESet l) (ESet l')
| Al_map : forall l l', alike (EMap l) (EMap l')
| Al_bin : forall o a b a' b', alike a a' -> alike b b' -> alike (EBin o a b) (EBin o a' b')
| Al_comp : forall r v i r' i', alike r r' -> alike i i' -> alike (EComp r v i None) (EComp r' v i' None)
| Al_comp_if : forall r v i c r' i' c', alike r r' -> alike i i' -> alike c c' -> alike (EComp r v i (Some c)) (EComp r' v i' (Some c'))
| Al_in : forall a b a' b', alike a a' -> alike b b' -> alike (EIn a b) (EIn a' b')
| Al_attr : forall a n sf a' sf', alike a a' -> alike (EAttr a n sf) (EAttr a' n sf')
| Al_item : forall a b sf a' b' sf', alike a a' -> alike b b' -> alike (EItem a b sf) (EItem a' b' sf')
| Al_slice : forall a b c sf a' b' c' sf', alike a a' -> alike b b' -> alike c c' -> alike (ESlice a b c sf) (ESlice a' b' c' sf')
| Al_sym : forall n b t b' t', alike (ESym n b t) (ESym n b' t')
| Al_call : forall f l f' l', alike f f' -> Forall2 alike l l' -> alike (ECall f l) (ECall f' l')
| Al_tern : forall a b c a' b' c', alike a a' -> alike b b' -> alike c c' -> alike (ETern a b c) (ETern a' b' c')
| Al_un : forall o a a', alike a a' -> alike (EUn o a) (EUn o a').
Lemma operator_inj : forall o o', operator_class o = operator_class o' -> operator_type o = operator_type o' -> o = o'.
Proof.
  intros o o' C T. destruct o as [| |[]|[]| | | | |[]|[] []]; destruct o' as [| |[]|[]| | | | |[]|[] []]; first [reflexivity|discriminate T|discriminate C].
Qed.
Lemma depicts_inv : forall e c d ks, depicts e (Picture c d ks) -> label_of e = (c, d) /\ Forall2 (fun b k => fst b = fst k /\ depicts (snd b) (snd k)) (below e) ks.
Proof. intros e c d ks H. inversion H as [? ? F]; subst. split; [destruct (label_of e); reflexivity|exact F]. Qed.
Lemma depicts_alike : forall a b k, depicts a k -> depicts b k -> alike a b.
Proof.
  intro a. induction a as [a IH] using below_ind. intros b [c d ks] A B. apply depicts_inv in A as [LA FA]. apply depicts_inv in B as [LB FB].
  assert (L : label_of a = label_of b) by congruence. clear LA LB.
  assert (G : Forall2 (fun x y => fst x = fst y /\ alike (snd x) (snd y)) (below a) (below b)).
  { assert (Gl : forall l l' ks, (forall lb x, In (lb, x) l -> In (lb, x) (below a)) -> Forall2 (fun b k => fst b = fst k /\ depicts (snd b) (snd k)) l ks -> Forall2 (fun b k => fst b = fst k /\ depicts (snd b) (snd k)) l' ks -> Forall2 (fun x y => fst x = fst y /\ alike (snd x) (snd y)) l l').
    { intros l l' ks0 Hl F1. revert l'. induction F1 as [|[lb x] k l ks0 [P1 P2] F1 IHF]; intros l' F2; inversion F2 as [|[lb' x'] ? ? ? [Q1 Q2] F3]; subst; [constructor|]. cbn [fst snd] in *. constructor.
      - cbn [fst snd]. split; [congruence|]. apply (IH lb x (Hl lb x (or_introl eq_refl)) x' (snd k)); assumption.
      - apply IHF; [intros lb0 x0 I; apply Hl; right; exact I|exact F3]. }
    apply (Gl (below a) (below b) ks); auto. }
  clear IH FA FB.
  assert (M : forall l l', Forall2 (fun x y => fst x = fst y /\ alike (snd x) (snd y)) (map (fun x => (NoLabel, x)) l) (map (fun x => (NoLabel, x)) l') -> Forall2 alike l l').
  { induction l as [|x l IHl]; intros [|y l'] F; inversion F as [|? ? ? ? [_ Q] F']; subst; constructor; [exact Q|apply IHl; exact F']. }
  assert (U : forall l l' i, Forall2 (fun x y => fst x = fst y /\ alike (snd x) (snd y)) (numbered i l) (numbered i l') -> Forall2 alike l l').
  { induction l as [|x l IHl]; intros [|y l'] i F; inversion F as [|? ? ? ? [_ Q] F']; subst; constructor; [exact Q|eapply IHl; exact F']. }
  destruct a, b; cbn [label_of] in L; try discriminate L; try (injection L as L1 L2; try discriminate L1; try discriminate L2).
  all: try (exfalso; match goal with K : operator_class ?o = _ |- _ => destruct o as [| |[]|[]| | | | |[]|[] []]; discriminate K | K : _ = operator_class ?o |- _ => destruct o as [| |[]|[]| | | | |[]|[] []]; discriminate K end).
  all: cbn [below] in G.
  - subst. apply Al_lit.
  - subst. eapply Al_fun; [left; split; [reflexivity|assumption]|right; eexists; reflexivity].
  - subst. eapply Al_fun; [right; eexists; reflexivity|left; split; [reflexivity|symmetry; assumption]].
  - injection L as ->. eapply Al_fun; right; eexists; reflexivity.
  - apply Al_arr, M. exact G.
  - apply Al_set, M. exact G.
  - apply Al_map.
  - rewrite (operator_inj _ _ L1 L2). inversion G as [|? ? ? ? [_ G1] G']; subst. inversion G' as [|? ? ? ? [_ G2] _]; subst. apply Al_bin; assumption.
  - injection L as ->. inversion G as [|? ? ? ? [_ G1] G']; subst. inversion G' as [|? ? ? ? [_ G2] G'']; subst. destruct cond, cond0; try (inversion G''; fail).
    + inversion G'' as [|? ? ? ? [_ G3] _]; subst. apply Al_comp_if; assumption.
    + apply Al_comp; assumption.
  - inversion G as [|? ? ? ? [_ G1] G']; subst. inversion G' as [|? ? ? ? [_ G2] _]; subst. apply Al_in; assumption.
  - injection L as ->. inversion G as [|? ? ? ? [_ G1] G']; subst. apply Al_attr; assumption.
  - inversion G as [|? ? ? ? [_ G1] G']; subst. inversion G' as [|? ? ? ? [_ G2] _]; subst. apply Al_item; assumption.
  - inversion G as [|? ? ? ? [_ G1] G']; subst. inversion G' as [|? ? ? ? [_ G2] G'']; subst. inversion G'' as [|? ? ? ? [_ G3] _]; subst. apply Al_slice; assumption.
  - injection L as ->. apply Al_sym.
  - inversion G as [|? ? ? ? [_ G1] G']; subst. apply Al_call; [assumption|]. eapply U; exact G'.
  - inversion G as [|? ? ? ? [_ G1] G']; subst. inversion G' as [|? ? ? ? [_ G2] G'']; subst. inversion G'' as [|? ? ? ? [_ G3] _]; subst. apply Al_tern; assumption.
  - inversion G as [|? ? ? ? [_ G1] G']; subst. replace o0 with o by (destruct o, o0; [reflexivity|discriminate L|discriminate L|reflexivity]). apply Al_un; assumption.
Qed.
(** C84: two rules whose diagrams show the same picture are alike *)
Theorem C84_faithful : forall e e' c c' pic, shows (rule_diagram e c) top pic -> shows (rule_diagram e' c') top pic -> alike e e'.
Proof.
  intros e e' c c' pic H K. apply C84_shows in H as [k [H ->]]. apply C84_shows in K as [k' [K E]]. injection E as <-. eapply depicts_alike; eassumption.
Qed.
(** rules of which the diagram shows everything: no mapping literals, no safe navigation, no builtins, no function literals; symbols
    have the types that ty gives *)
Definition plain_part (ty : str -> dtype) (x : expr) : Prop :=
  match x with
  | EMap _ | EFun _ _ => False
  | ELit v => literal_class v <> "FunctionExpression"
  | EAttr _ _ sf | EItem _ _ sf | ESlice _ _ _ sf => sf = false
  | ESym n b t => b = false /\ t = ty n
  | _ => True
  end.
Definition transparent (ty : str -> dtype) (e : expr) : Prop := forall x, part x e -> plain_part ty x.
Ltac kid1 IH T T' C := eapply IH; [left; reflexivity|intros y Y; apply T; apply C; exact Y|intros y Y; apply T'; apply C; exact Y|assumption].
Ltac kid2 IH T T' C := eapply IH; [right; left; reflexivity|intros y Y; apply T; apply C; exact Y|intros y Y; apply T'; apply C; exact Y|assumption].
Ltac kid3 IH T T' C := eapply IH; [right; right; left; reflexivity|intros y Y; apply T; apply C; exact Y|intros y Y; apply T'; apply C; exact Y|assumption].
Lemma alike_equal : forall ty e e', transparent ty e -> transparent ty e' -> alike e e' -> e = e'.
Proof.
  intros ty e. induction e as [e IH] using below_ind. intros e' T T' H.
  assert (Ls : forall l l', (forall x, In x l -> forall x', transparent ty x -> transparent ty x' -> alike x x' -> x = x') -> (forall x, In x l -> transparent ty x) -> (forall x, In x l' -> transparent ty x) -> Forall2 alike l l' -> l = l').
  { intros l l' I A B F. induction F as [|x x' l l' F1 F2 IHF]; [reflexivity|]. f_equal; [apply I; [left; reflexivity|apply A; left; reflexivity|apply B; left; reflexivity|exact F1]|]. apply IHF; intros y K; [apply I|apply A|apply B]; right; exact K. }
  assert (Nu : forall l i x, In x l -> exists lb, In (lb, x) (numbered i l)).
  { induction l as [|y l IHl]; intros i x []; [subst; eexists; left; reflexivity|]. destruct (IHl (S i) x H0) as [lb K]. exists lb. right. exact K. }
  assert (S1 := T e (Pa_self e)). assert (S2 := T' e' (Pa_self e')).
  destruct H; cbn [plain_part] in S1, S2; try contradiction.
  - reflexivity.
  - exfalso. destruct H as [[-> C]|[t ->]]; [exact (S1 C)|exact S1].
  - f_equal. apply Ls; [| | |assumption].
    + intros x K. apply (IH NoLabel). apply in_map_iff. exists x. split; [reflexivity|exact K].
    + intros x K y Y. apply T. eapply Pa_arr; eassumption.
    + intros x K y Y. apply T'. eapply Pa_arr; eassumption.
  - f_equal. apply Ls; [| | |assumption].
    + intros x K. apply (IH NoLabel). apply in_map_iff. exists x. split; [reflexivity|exact K].
    + intros x K y Y. apply T. eapply Pa_set; eassumption.
    + intros x K y Y. apply T'. eapply Pa_set; eassumption.
  - f_equal; [kid1 IH T T' Pa_left|kid2 IH T T' Pa_right].
  - f_equal; [kid1 IH T T' Pa_cres|kid2 IH T T' Pa_cit].
  - f_equal; [kid1 IH T T' Pa_cres|kid2 IH T T' Pa_cit|f_equal; kid3 IH T T' Pa_ccond].
  - f_equal; [kid1 IH T T' Pa_inc|kid2 IH T T' Pa_inm].
  - rewrite S1, S2. f_equal. kid1 IH T T' Pa_attr.
  - rewrite S1, S2. f_equal; [kid1 IH T T' Pa_itc|kid2 IH T T' Pa_iti].
  - rewrite S1, S2. f_equal; [kid1 IH T T' Pa_slc|kid2 IH T T' Pa_sla|kid3 IH T T' Pa_slb].
  - destruct S1 as [-> ->], S2 as [-> ->]. reflexivity.
  - f_equal; [kid1 IH T T' Pa_callf|]. apply Ls; [| | |assumption].
    + intros x K. destruct (Nu l 1 x K) as [lb I]. apply (IH lb). right. exact I.
    + intros x K y Y. apply T. eapply Pa_callx; eassumption.
    + intros x K y Y. apply T'. eapply Pa_callx; eassumption.
  - f_equal; [kid1 IH T T' Pa_tc|kid2 IH T T' Pa_ta|kid3 IH T T' Pa_tb].
  - f_equal. kid1 IH T T' Pa_un.
Qed.
(** C84: transparent rules whose diagrams show the same picture are the same rule *)
Theorem C84_same_rule : forall ty e e' c c' pic, transparent ty e -> transparent ty e' -> shows (rule_diagram e c) top pic -> shows (rule_diagram e' c') top pic -> e = e'.
Proof. intros ty e e' c c' pic T T' H K. eapply alike_equal; [exact T|exact T'|]. eapply C84_faithful; eassumption. Qed.
Print Assumptions C84_tree.
Print Assumptions C84_shows.
Print Assumptions C84_same_rule.

(** ** Examples, and what the diagram does not show *)
(** name.length > 3 and [x for x in xs if x] *)
Definition c84_rule : expr := EBin BAndL (EBin (BCmp Cgt) (EAttr (sym "name") (s "length") false) (ELit (num 3))) (EComp (sym "x") (s "x") (sym "xs") (Some (sym "x"))).
Example C84_example : transparent (fun _ => TUndef) c84_rule /\ length (node_names (rule_diagram c84_rule (Some (s "a comment")))) = 11 /\
  leaving (rule_diagram c84_rule None) [1; 0] = [(Label "result", [0; 1; 0]); (Label "iterable", [1; 1; 0]); (Label "condition", [2; 1; 0])].
Proof.
  split; [|split; vm_compute; reflexivity]. intros x H. unfold c84_rule, sym in H.
  repeat match goal with K : part _ _ |- _ => inversion K; subst; clear K end; cbn [plain_part]; try exact I; try reflexivity; try (split; reflexivity); discriminate.
Qed.
(** not shown: safe navigation, the scope of a symbol, the contents of a mapping literal.  name.length and name&.length, $now and now,
    {'a': 1} and {} have the same diagram *)
Theorem C84_hidden_refuted : forall c,
  rule_diagram (EAttr (sym "name") (s "length") false) c = rule_diagram (EAttr (sym "name") (s "length") true) c /\
  rule_diagram (ESym (s "now") true TDatetime) c = rule_diagram (ESym (s "now") false TUndef) c /\
  rule_diagram (EMap [(ELit (VStr (s "a")), ELit (num 1))]) c = rule_diagram (EMap []) c.
Proof. intro c. repeat split. Qed.
(** the comment is a node that no edge reaches *)
Theorem C84_comment_refuted : forall e t, In comment_place (node_names (rule_diagram e (Some t))) /\ ~ In comment_place (edge_ends (rule_diagram e (Some t))).
Proof.
  intros e t. destruct (C84_tree e (Some t)) as [N [Pm _]]. split; [eapply Permutation_in; [apply Permutation_sym, Pm|right; left; reflexivity]|].
  intro K. apply (Permutation_NoDup Pm) in N. cbn [comment_nodes app] in N. inversion N as [|? ? _ N']; subst. inversion N' as [|? ? X _]; subst. exact (X K).
Qed.
