(** * GrammarFacts: the machine of Grammar.v accepts exactly the grouped derivations of GrammarSpec.v *)
From Coq Require Import List NArith Bool Lia Arith.
From Verif Require Import GrammarSpec GrammarCheck.
Import ListNotations.
Open Scope N_scope.

(** ** Basic facts *)
Lemma tok_index_inj a b : tok_index a = tok_index b -> a = b.
Proof.
  intros H.
  assert (X : forall x, nth (N.to_nat (tok_index x)) all_toks T_end = x) by (intros []; reflexivity).
  rewrite <- (X a), <- (X b), H. reflexivity.
Qed.
Lemma tok_eqb_eq a b : tok_eqb a b = true <-> a = b.
Proof. unfold tok_eqb. rewrite N.eqb_eq. split; [apply tok_index_inj|intros ->; reflexivity]. Qed.
Lemma nonterm_eqb_eq a b : nonterm_eqb a b = true <-> a = b.
Proof. split; [destruct a, b; vm_compute; congruence|intros ->; destruct b; reflexivity]. Qed.
Lemma symbol_eqb_eq a b : symbol_eqb a b = true <-> a = b.
Proof.
  destruct a, b; cbn; rewrite ?tok_eqb_eq, ?nonterm_eqb_eq; split; try congruence; try discriminate.
Qed.
Lemma in_all_toks a : In a all_toks.
Proof. destruct a; cbn; tauto. Qed.
Lemma in_all_nonterms a : In a all_nonterms.
Proof. destruct a; cbn; tauto. Qed.

Lemma in_states_iff s : In s states <-> (N.to_nat s < length lr_items)%nat.
Proof.
  unfold states. rewrite in_map_iff. split.
  - intros (n & <- & H). apply in_seq in H. rewrite Nnat.Nat2N.id. apply H.
  - intros H. exists (N.to_nat s). rewrite Nnat.N2Nat.id. split; [reflexivity|apply in_seq; lia].
Qed.
Lemma in_prods_iff p : In p prod_ids <-> (N.to_nat p < length productions)%nat.
Proof.
  unfold prod_ids. rewrite in_map_iff. split.
  - intros (n & <- & H). apply in_seq in H. rewrite Nnat.Nat2N.id. apply H.
  - intros H. exists (N.to_nat p). rewrite Nnat.N2Nat.id. split; [reflexivity|apply in_seq; lia].
Qed.
Lemma items_state s it : In it (items s) -> In s states.
Proof.
  intros H. apply in_states_iff. destruct (Nat.lt_ge_cases (N.to_nat s) (length lr_items)); [assumption|].
  unfold items in H. rewrite nth_overflow in H by assumption. destruct H.
Qed.
Lemma all_items_ok f : all_items f = true -> forall s p d m, In (p, d, m) (items s) -> f s p d m = true.
Proof.
  unfold all_items. rewrite forallb_forall. intros H s p d m Hi.
  specialize (H s (items_state _ _ Hi)). cbv beta in H. rewrite forallb_forall in H. exact (H _ Hi).
Qed.
Lemma all_actions_ok f : all_actions f = true -> forall s a, In s states -> f s a (act_of s a) = true.
Proof.
  unfold all_actions. rewrite forallb_forall. intros H s a Hs. specialize (H s Hs). cbv beta in H.
  rewrite forallb_forall in H. apply H, in_all_toks.
Qed.
Lemma has_iff s p d f : has s p d f = true <-> exists m, In (p, d, m) (items s) /\ f m = true.
Proof.
  unfold has. rewrite existsb_exists. split.
  - intros (((p', d'), m) & Hi & H). apply andb_prop in H as [H Hf]. apply andb_prop in H as [H1 H2].
    apply N.eqb_eq in H1, H2. subst. exists m. split; assumption.
  - intros (m & Hi & H). exists (p, d, m). split; [assumption|]. rewrite !N.eqb_refl. exact H.
Qed.
Lemma complete_iff s p : In p (complete s) <-> exists m, In (p, len p, m) (items s).
Proof.
  unfold complete. rewrite in_flat_map. split.
  - intros (((p', d), m) & Hi & H). destruct (d =? len p') eqn:E; [|destruct H]. destruct H as [->|[]].
    apply N.eqb_eq in E. subst d. eauto.
  - intros (m & Hi). exists (p, len p, m). split; [assumption|]. rewrite N.eqb_refl. left. reflexivity.
Qed.
Lemma sub_mask_mem a b t : sub_mask a b = true -> mem a t = true -> mem b t = true.
Proof.
  unfold sub_mask, mem. intros H Ha. apply N.eqb_eq in H. rewrite <- H, N.land_spec in Ha.
  apply andb_prop in Ha. tauto.
Qed.

Opaque chk_first chk_prods chk_items chk_closure chk_goto chk_shift chk_reduce chk_pending chk_start chk_s_reduce chk_s_shift chk_s_goto chk_s_zero chk_s_accept.
Lemma ck_all : chk_first = true /\ chk_prods = true /\ chk_items = true /\ chk_closure = true /\ chk_goto = true
  /\ chk_shift = true /\ chk_reduce = true /\ chk_pending = true /\ chk_start = true
  /\ chk_s_reduce = true /\ chk_s_shift = true /\ chk_s_goto = true /\ chk_s_zero = true /\ chk_s_accept = true.
Proof.
  pose proof checked as C. repeat (apply andb_prop in C as [C ?]). repeat (split; [assumption|]). assumption.
Qed.
Transparent chk_first chk_prods chk_items chk_closure chk_goto chk_shift chk_reduce chk_pending chk_start chk_s_reduce chk_s_shift chk_s_goto chk_s_zero chk_s_accept.

Lemma item_bounds s p d m : In (p, d, m) (items s) -> (N.to_nat p < length productions)%nat /\ d <= len p.
Proof.
  destruct ck_all as (_ & _ & C & _). intros H. unfold chk_items in C. pose proof (all_items_ok _ C _ _ _ _ H) as X. cbv beta in X.
  apply andb_prop in X as [A B]. apply Nat.ltb_lt in A. apply N.leb_le in B. split; assumption.
Qed.

Global Opaque act_of goto_of items states complete lr_items lr_action lr_goto productions.

(** ** Runs *)
Inductive steps : stack * list token -> stack * list token -> Prop :=
| steps_refl c : steps c c
| steps_step st inp st' inp' c : step st inp = Continue st' inp' -> steps (st', inp') c -> steps (st, inp) c.
Lemma steps_trans a b c : steps a b -> steps b c -> steps a c.
Proof. induction 1; [tauto|]. intros. eapply steps_step; eauto. Qed.
Lemma steps_one st inp st' inp' : step st inp = Continue st' inp' -> steps (st, inp) (st', inp').
Proof. intros. eapply steps_step; [eassumption|constructor]. Qed.
Lemma steps_loop c c' o : steps c c' -> step (fst c') (snd c') = Done o -> exists n, loop n (fst c) (snd c) = Some o.
Proof.
  induction 1 as [c|st inp st' inp' c Hs _ IH]; intros H.
  - exists 1%nat. cbn [loop]. rewrite H. reflexivity.
  - destruct (IH H) as [n Hn]. exists (S n). cbn [fst snd loop] in *. rewrite Hs. exact Hn.
Qed.
Lemma loop_mono n : forall st inp o m, loop n st inp = Some o -> (n <= m)%nat -> loop m st inp = Some o.
Proof.
  induction n as [|n IH]; intros st inp o m H Hm; [discriminate|].
  destruct m as [|m]; [lia|]. cbn [loop] in *. destruct (step st inp); [|assumption]. apply IH; [assumption|lia].
Qed.
Lemma loop_det n m st inp o o' : loop n st inp = Some o -> loop m st inp = Some o' -> o = o'.
Proof.
  intros H H'. assert (X := loop_mono _ _ _ _ (Nat.max n m) H (Nat.le_max_l _ _)).
  assert (Y := loop_mono _ _ _ _ (Nat.max n m) H' (Nat.le_max_r _ _)). congruence.
Qed.

(** ** Edges *)
Fixpoint adj (l : list tree) : Prop :=
  match l with
  | [] => True
  | c :: r => match r with Leaf x :: _ => forall q, In q (right_edge c) -> closes q (kind x) = true | _ => True end /\ adj r
  end.
Lemma adj_iff l : adj l <-> forall l1 c x l2, l = l1 ++ c :: Leaf x :: l2 -> forall q, In q (right_edge c) -> closes q (kind x) = true.
Proof.
  induction l as [|c r IH]; cbn [adj].
  - split; [|tauto]. intros _ [|? ?] ? ? ? H; discriminate.
  - rewrite IH. split.
    + intros [H1 H2] [|y l1] c' x l2 E; cbn in E; injection E as -> ->.
      * exact H1.
      * exact (H2 _ _ _ _ eq_refl).
    + intros H. split.
      * destruct r as [|[x|] r]; try exact I. exact (H [] c x r eq_refl).
      * intros l1 c' x l2 ->. exact (H (c :: l1) c' x l2 eq_refl).
Qed.
Lemma right_edge_last p l c : right_edge (Node p (l ++ [c])) = p :: right_edge c.
Proof.
  cbn [right_edge]. f_equal. induction l as [|a l IH]; [reflexivity|].
  cbn [app]. destruct (l ++ [c]) eqn:E; [destruct l; discriminate|]. exact IH.
Qed.

(** ** Soundness *)
Definition trans (s : N) (x : symbol) (s' : N) : Prop :=
  match x with T a => act_of s a = AShift s' | NT n => goto_of s n = Some s' end.

Fixpoint good (st : stack) : Prop :=
  match st with
  | [] => True
  | (s, t) :: r =>
      In s states /\ s <> 0 /\ good r /\ grouped t
      /\ (exists x, derives x t /\ trans (top r) x s)
      /\ (forall q x, In q (pending (top r)) -> In x (left_edge t) -> extends q x = true)
      /\ (match t, r with Leaf x, (_, c) :: _ => forall q, In q (right_edge c) -> closes q (kind x) = true | _, _ => True end)
  end.
Definition at_look (st : stack) (a : tok) : Prop :=
  match st with (_, c) :: _ => forall q, In q (right_edge c) -> closes q a = true | [] => True end.

Lemma good_top st : good st -> In (top st) states.
Proof. destruct st as [|[s t] r]; cbn [good top]; intros H; [vm_compute; tauto|apply H]. Qed.

Lemma derives_leaf x t : derives x (Leaf t) -> x = T (kind t) /\ kind t <> T_end.
Proof. inversion 1; subst. split; [reflexivity|assumption]. Qed.
Lemma derives_node x p l : derives x (Node p l) -> x = NT (lhs p) /\ (N.to_nat p < length productions)%nat /\ Forall2 derives (rhs p) l.
Proof. inversion 1; subst. auto. Qed.

Lemma back_item s s' x p d m : back s s' x symbol_eqb = true -> In (p, d, m) (items s') -> d <> 0 ->
  sym_at p (d - 1) = Some x /\ exists m', In (p, d - 1, m') (items s).
Proof.
  unfold back. rewrite forallb_forall. intros H Hi Hd. specialize (H _ Hi). cbv beta iota in H.
  apply orb_prop in H as [H|H]; [apply N.eqb_eq in H; contradiction|].
  apply andb_prop in H as [H1 H2]. split.
  - destruct (sym_at p (d - 1)); [|discriminate]. apply symbol_eqb_eq in H1. congruence.
  - apply has_iff in H2 as (m' & Hm & _). eauto.
Qed.
Lemma trans_back s x s' : In s states -> trans s x s' ->
  In s' states /\ s' <> 0 /\ forall p d m, In (p, d, m) (items s') -> d <> 0 -> sym_at p (d - 1) = Some x /\ exists m', In (p, d - 1, m') (items s).
Proof.
  destruct ck_all as (_ & _ & _ & _ & _ & _ & _ & _ & _ & _ & Ks & Kg & _). intros Hs H.
  assert (Y : in_states s' && back s s' x symbol_eqb = true).
  { destruct x as [a|n]; cbn [trans] in H.
    - unfold chk_s_shift in Ks. pose proof (all_actions_ok _ Ks s a Hs) as X. cbv beta in X. rewrite H in X.
      apply andb_prop in X as [X _]. apply andb_prop in X as [X _]. exact X.
    - unfold chk_s_goto in Kg. rewrite forallb_forall in Kg. specialize (Kg s Hs). cbv beta in Kg.
      rewrite forallb_forall in Kg. specialize (Kg n (in_all_nonterms n)). cbv beta in Kg. rewrite H in Kg. exact Kg. }
  apply andb_prop in Y as [Y1 Y2]. unfold in_states in Y1. apply andb_prop in Y1 as [Y0 Y1].
  apply Nat.ltb_lt in Y0. apply negb_true_iff, N.eqb_neq in Y1.
  split; [apply in_states_iff; assumption|]. split; [assumption|]. intros. eapply back_item; eassumption.
Qed.
Lemma shift_facts s a s' : In s states -> act_of s a = AShift s' ->
  a <> T_end /\ forall q, In q (complete s) -> extends q a = true.
Proof.
  destruct ck_all as (_ & _ & _ & _ & _ & _ & _ & _ & _ & _ & Ks & _). intros Hs H.
  unfold chk_s_shift in Ks. pose proof (all_actions_ok _ Ks s a Hs) as X. cbv beta in X. rewrite H in X.
  apply andb_prop in X as [X X2]. apply andb_prop in X as [X X1]. apply negb_true_iff in X1.
  split.
  - intros ->. assert (tok_eqb T_end T_end = true) by reflexivity. congruence.
  - rewrite forallb_forall in X2. exact X2.
Qed.

Lemma skipn_nth {A} (l : list A) n x : nth_error l n = Some x -> skipn n l = x :: skipn (S n) l.
Proof.
  revert n. induction l as [|a l IH]; intros [|n] H; cbn in H; try discriminate.
  - injection H as ->. reflexivity.
  - cbn [skipn]. exact (IH _ H).
Qed.

(** popping along an item *)
Lemma pop_ok p d : forall st acc,
  good st -> (exists m, In (p, N.of_nat d, m) (items (top st))) ->
  Forall2 derives (skipn d (rhs p)) acc -> Forall grouped acc -> adj acc ->
  match acc with Leaf x :: _ => at_look st (kind x) | _ => True end ->
  exists l st', pop d st acc = Some (l ++ acc, st') /\ length l = d /\ good st' /\
    (exists m, In (p, 0, m) (items (top st'))) /\
    Forall2 derives (rhs p) (l ++ acc) /\ Forall grouped (l ++ acc) /\ adj (l ++ acc) /\
    (l <> [] -> exists l0 c r s, l = l0 ++ [c] /\ st = (s, c) :: r /\ (l0 <> [] -> r <> [])) /\
    (match l with
     | c :: r => (forall q x, In q (pending (top st')) -> In x (left_edge c) -> extends q x = true) /\
          (exists X s1, derives X c /\ trans (top st') X s1 /\
             match r ++ acc with
             | Leaf x :: _ => match r with [] => True | _ => exists s2, act_of s1 (kind x) = AShift s2 end
             | _ => True end)
     | [] => True end).
Proof.
  induction d as [|d IH]; intros st acc G [m Hm] D F A L.
  - exists [], st. cbn [pop app length]. split; [reflexivity|]. split; [reflexivity|]. split; [assumption|].
    split; [eauto|]. split; [exact D|]. split; [assumption|]. split; [assumption|]. split; [congruence|exact I].
  - destruct st as [|[s t] r].
    { exfalso. cbn [top] in Hm. destruct ck_all as (_ & _ & K & _).
      assert (Z : forallb (fun it => match it with (_, d, _) => d =? 0 end) (items 0) = true) by (vm_compute; reflexivity).
      rewrite forallb_forall in Z. specialize (Z _ Hm). cbv beta iota in Z. apply N.eqb_eq in Z. lia. }
    cbn [good top] in G, Hm. destruct G as (Gs & Gz & Gr & Gg & (x & Dx & Tx) & Gl & Gp).
    destruct (trans_back _ _ _ (good_top _ Gr) Tx) as (_ & _ & B).
    destruct (B _ _ _ Hm ltac:(lia)) as [Sx [m' Hm']].
    replace (N.of_nat (S d) - 1) with (N.of_nat d) in * by lia.
    unfold sym_at in Sx. rewrite Nnat.Nat2N.id in Sx.
    assert (D' : Forall2 derives (skipn d (rhs p)) (t :: acc)).
    { rewrite (skipn_nth _ _ _ Sx). constructor; assumption. }
    assert (A' : adj (t :: acc)).
    { cbn [adj]. split; [|assumption]. destruct acc as [|[y|] acc']; try exact I. exact L. }
    destruct (IH r (t :: acc) Gr (ex_intro _ m' Hm') D') as (l & st' & P1 & P2 & P3 & P4 & P5 & P6 & P7 & P8 & P9).
    + constructor; assumption.
    + exact A'.
    + destruct t as [y|]; [|exact I]. destruct r as [|[s0 c0] r0]; cbn [at_look]; [exact I|exact Gp].
    + exists (l ++ [t]), st'. cbn [pop]. rewrite <- !app_assoc. cbn [app].
      split; [exact P1|]. split; [rewrite app_length; cbn [length]; lia|]. split; [exact P3|].
      split; [exact P4|]. split; [exact P5|]. split; [exact P6|]. split; [exact P7|].
      split.
      { intros _. exists l, t, r, s. split; [reflexivity|]. split; [reflexivity|].
        intros Hl. destruct (P8 Hl) as (l0 & c & r' & s' & _ & -> & _). discriminate. }
      destruct l as [|c l'].
      { cbn [app]. cbn [length] in P2. subst d. cbn [pop app] in P1.
        assert (st' = r) by congruence. subst st'. split; [exact Gl|]. exists x, s. split; [assumption|]. split; [assumption|].
        destruct acc as [|[y|] acc']; exact I. }
      cbn [app]. destruct P9 as [Q1 (X & s1 & Q2 & Q3 & Q4)]. split; [exact Q1|]. exists X, s1.
      split; [assumption|]. split; [assumption|]. rewrite <- app_assoc. cbn [app].
      destruct l' as [|c' l''].
      * cbn [app] in *. destruct t as [y|]; [|exact I].
        (* the leaf directly above c *)
        cbn [length] in P2. subst d. cbn [pop] in P1. destruct r as [|[sc c0] r0]; [discriminate|].
        cbn [pop] in P1. assert (c0 = c /\ st' = r0) as [-> ->] by (split; congruence).
        cbn [good] in Gr. destruct Gr as (_ & _ & _ & _ & (X' & DX' & TX') & _).
        assert (X' = X).
        { destruct c as [cy|cp cl].
          - apply derives_leaf in DX' as [-> _]. apply derives_leaf in Q2 as [-> _]. reflexivity.
          - apply derives_node in DX' as [-> _]. apply derives_node in Q2 as [-> _]. reflexivity. }
        subst X'. assert (s1 = sc) by (destruct X; cbn [trans] in *; congruence). subst s1.
        apply derives_leaf in Dx as [-> _]. cbn [trans top] in Tx. eauto.
      * cbn [app] in *. destruct c' as [y|]; exact Q4.
Qed.

Lemma len_length p : N.to_nat (len p) = length (rhs p).
Proof. unfold len. apply Nnat.Nat2N.id. Qed.
Lemma chk_prod_facts p : (N.to_nat p < length productions)%nat ->
  rhs p <> [] /\ no_adjacent (rhs p) = true /\
  forall n x r, rhs p = NT n :: T x :: r -> n = N_expression \/ infix x = false.
Proof.
  destruct ck_all as (K1 & K2 & _). intros H. apply in_prods_iff in H.
  unfold chk_first in K1. rewrite forallb_forall in K1. specialize (K1 p H). cbv beta in K1.
  unfold chk_prods in K2. rewrite forallb_forall in K2. specialize (K2 p H). cbv beta in K2.
  apply andb_prop in K2 as [K2 K3]. split; [destruct (rhs p); congruence|]. split; [assumption|].
  intros n x r E. rewrite E in K3. apply orb_prop in K3 as [K3|K3].
  - left. apply nonterm_eqb_eq. exact K3.
  - right. apply negb_true_iff. exact K3.
Qed.

Lemma extends_not_infix q x : infix x = false -> extends q x = true.
Proof. intros H. unfold extends. destruct (operator q); [|reflexivity]. rewrite H. reflexivity. Qed.

Lemma operator_last p o : operator p = Some o -> exists l, rhs p = l ++ [NT N_expression].
Proof.
  intros H. destruct (rhs p) as [|a r] eqn:E.
  { exfalso. unfold operator in H. rewrite E in H. destruct (lhs p); discriminate. }
  assert (L : last (a :: r) (T T_end) = NT N_expression).
  { unfold operator in H. rewrite E in H. destruct (lhs p); try discriminate.
    destruct a as [[]|]; try (destruct (last (_ :: r) (T T_end)) as [|[]]; try discriminate; reflexivity).
    destruct r as [|[|[]] [|]]; try reflexivity;
      match goal with |- last ?l ?d = _ => destruct (last l d) as [|[]]; try discriminate; reflexivity end. }
  exists (removelast (a :: r)). rewrite <- L at 1. apply app_removelast_last. discriminate.
Qed.

Lemma Forall2_last {A B} (R : A -> B -> Prop) l a m b : Forall2 R (l ++ [a]) (m ++ [b]) -> R a b.
Proof.
  revert m. induction l as [|x l IH]; intros [|y m] H; cbn in H; inversion H; subst.
  - assumption.
  - destruct m; inversion H5.
  - destruct l; inversion H5.
  - exact (IH _ H5).
Qed.

Definition state_ok (st : stack) (inp : list token) : Prop := good st /\ at_look st (look inp) /\ real inp.

Lemma step_sound st inp : state_ok st inp ->
  match step st inp with
  | Continue st' inp' => state_ok st' inp'
  | Done o => o <> Stuck
  end.
Proof.
  intros (G & L & R). unfold step.
  destruct (act_of (top st) (look inp)) as [s|p| |] eqn:E.
  - (* shift *)
    destruct (shift_facts _ _ _ (good_top _ G) E) as [Ne Ex].
    destruct inp as [|t r]; [cbn [look] in Ne; congruence|]. cbn [look] in *.
    destruct (trans_back (top st) (T (kind t)) s (good_top _ G) E) as (T1 & T2 & _).
    split; [|split].
    + cbn [good]. split; [assumption|]. split; [assumption|]. split; [assumption|]. split; [constructor|].
      split; [exists (T (kind t)); split; [constructor; assumption|exact E]|].
      split; [cbn [left_edge]; intros ? ? ? []|].
      destruct st as [|[s0 c] r0]; [exact I|exact L].
    + cbn. tauto.
    + inversion R; assumption.
  - (* reduce *)
    destruct ck_all as (_ & _ & _ & _ & _ & _ & _ & _ & _ & Kr & _ & _ & Kz & _).
    unfold chk_s_reduce in Kr. pose proof (all_actions_ok _ Kr _ (look inp) (good_top _ G)) as X. cbv beta in X. rewrite E in X.
    apply andb_prop in X as [X X2]. apply andb_prop in X as [X X1]. apply has_iff in X as (m & Hm & _).
    destruct (item_bounds _ _ _ _ Hm) as [Bp _].
    destruct (chk_prod_facts p Bp) as (Rn & _ & Rx).
    destruct (pop_ok p (length (rhs p)) st []) as (l & st' & P1 & P2 & P3 & [m0 P4] & P5 & P6 & P7 & P8 & P9); auto.
    { exists m. unfold len in Hm. exact Hm. }
    { rewrite skipn_all. constructor. }
    { exact I. }
    rewrite app_nil_r in *. rewrite P1.
    unfold chk_s_zero in Kz. pose proof (all_items_ok _ Kz _ _ _ _ P4) as Z. cbv beta in Z. rewrite X1 in Z. cbn [andb N.eqb] in Z.
    destruct (goto_of (top st') (lhs p)) as [s'|] eqn:Eg; [|discriminate].
    assert (Ln : l <> []). { intros ->. cbn in P2. destruct (rhs p); [congruence|discriminate]. }
    destruct (P8 Ln) as (l0 & c & r0 & sc & El & Est & Hr0). subst st.
    destruct (trans_back (top st') (NT (lhs p)) s' (good_top _ P3) Eg) as (T1 & T2 & _).
    assert (Gr : grouped (Node p l)).
    { constructor; [exact P6|apply adj_iff; exact P7|].
      intros l1 c' E' Hl1 x Hx. rewrite El in E'. apply app_inj_tail in E' as [-> ->].
      destruct (operator p) as [o|] eqn:Eo; [|unfold extends; rewrite Eo; reflexivity].
      destruct (operator_last _ _ Eo) as [rl Er]. rewrite Er, El in P5. apply Forall2_last in P5.
      cbn [good] in G. destruct G as (_ & _ & Gr0 & _ & (X & DX & TX) & Gl & _).
      assert (X = NT N_expression).
      { destruct c' as [cy|cp cl].
        - apply derives_leaf in P5 as [? _]. discriminate.
        - apply derives_node in DX as [-> _]. apply derives_node in P5 as [-> _]. reflexivity. }
      subst X. cbn [trans] in TX. apply (Gl p x); [|exact Hx]. unfold pending. rewrite TX.
      apply complete_iff. exists m. exact Hm. }
    split; [|split].
    + cbn [good]. split; [assumption|]. split; [assumption|]. split; [assumption|]. split; [assumption|].
      split.
      { exists (NT (lhs p)). split; [constructor; assumption|exact Eg]. }
      split; [|exact I].
      intros q x Hq Hx. destruct l as [|c1 rl]; [congruence|].
      destruct P9 as [Q1 (X & s1 & Q2 & Q3 & Q4)]. rewrite app_nil_r in Q4.
      destruct c1 as [y|cp cl]; [destruct Hx|].
      assert (Hx' : In x (left_edge (Node cp cl)) \/ exists y r1, rl = Leaf y :: r1 /\ kind y = x).
      { cbn [left_edge] in Hx. destruct rl as [|[y|] r1]; [left; exact Hx| |left; exact Hx].
        destruct Hx as [Hx|Hx]; [right; eauto|left; exact Hx]. }
      destruct Hx' as [Hx'|(y & r1 & -> & <-)]; [exact (Q1 _ _ Hq Hx')|].
      destruct Q4 as [s2 Q4].
      inversion P5 as [|Y1 ? rr ? D1 D2 ER]. subst. inversion D2 as [|Y2 ? rr2 ? D3 _]. subst.
      apply derives_leaf in D3 as [-> _].
      apply derives_node in D1 as [-> D1]. apply derives_node in Q2 as [-> _].
      destruct (Rx _ _ _ (eq_sym ER)) as [Hn|Hi]; [|apply extends_not_infix; exact Hi].
      cbn [trans] in Q3. unfold pending in Hq. rewrite <- Hn, Q3 in Hq.
      destruct (trans_back _ (NT (lhs cp)) _ (good_top _ P3) Q3) as (Hs1 & _).
      destruct (shift_facts _ _ _ Hs1 Q4) as [_ Ex]. exact (Ex q Hq).
    + cbn [at_look]. subst l. rewrite right_edge_last. intros q [<-|Hq]; [exact X2|exact (L q Hq)].
    + assumption.
  - destruct ck_all as (_ & _ & _ & _ & _ & _ & _ & _ & _ & _ & _ & _ & _ & Ka).
    unfold chk_s_accept in Ka. apply andb_prop in Ka as [Ka _]. pose proof (all_actions_ok _ Ka _ (look inp) (good_top _ G)) as X. cbv beta in X.
    rewrite E in X. apply andb_prop in X as [_ X]. apply has_iff in X as (m & Hm & _).
    destruct st as [|[s t] r]; [|discriminate].
    assert (Z : forallb (fun it => match it with (_, d, _) => d =? 0 end) (items 0) = true) by (vm_compute; reflexivity).
    rewrite forallb_forall in Z. specialize (Z _ Hm). discriminate.
  - discriminate.
Qed.

Lemma steps_sound c c' : steps c c' -> state_ok (fst c) (snd c) -> state_ok (fst c') (snd c').
Proof.
  induction 1 as [c|st inp st' inp' c Hs _ IH]; intros H; [assumption|].
  apply IH. pose proof (step_sound st inp H) as X. rewrite Hs in X. exact X.
Qed.

(** the tokens read so far *)
Definition consumed (st : stack) : list token := flat_map (fun e => yield (snd e)) (rev st).
Lemma consumed_cons e st : consumed (e :: st) = consumed st ++ yield (snd e).
Proof. unfold consumed. cbn [rev]. rewrite flat_map_app. cbn [flat_map]. rewrite app_nil_r. reflexivity. Qed.
Lemma pop_consumed n : forall st acc l st', pop n st acc = Some (l, st') ->
  consumed st ++ flat_map yield acc = consumed st' ++ flat_map yield l.
Proof.
  induction n as [|n IH]; intros st acc l st' H; cbn [pop] in H; [congruence|].
  destruct st as [|[s t] r]; [discriminate|]. rewrite consumed_cons, <- app_assoc. cbn [snd].
  exact (IH _ _ _ _ H).
Qed.
Lemma step_consumed st inp st' inp' : step st inp = Continue st' inp' -> consumed st ++ inp = consumed st' ++ inp'.
Proof.
  unfold step. destruct (act_of (top st) (look inp)) as [s|p| |]; intros H; try discriminate.
  - destruct inp as [|t r]; [discriminate|]. injection H as <- <-. rewrite consumed_cons. cbn [snd yield].
    rewrite <- app_assoc. reflexivity.
  - destruct (pop (length (rhs p)) st []) as [[ts st0]|] eqn:E; [|discriminate].
    destruct (goto_of (top st0) (lhs p)); [|discriminate]. injection H as <- <-.
    apply pop_consumed in E. cbn [flat_map] in E. rewrite app_nil_r in E. rewrite E, consumed_cons. reflexivity.
  - destruct st as [|[? ?] ?]; discriminate.
Qed.
Lemma steps_consumed c c' : steps c c' -> consumed (fst c) ++ snd c = consumed (fst c') ++ snd c'.
Proof.
  induction 1 as [c|st inp st' inp' c Hs _ IH]; [reflexivity|]. rewrite <- IH. apply step_consumed. exact Hs.
Qed.

Lemma loop_steps n : forall st inp o, loop n st inp = Some o -> exists c, steps (st, inp) c /\ step (fst c) (snd c) = Done o.
Proof.
  induction n as [|n IH]; intros st inp o H; [discriminate|]. cbn [loop] in H.
  destruct (step st inp) as [st' inp'|o'] eqn:E.
  - destruct (IH _ _ _ H) as (c & S1 & S2). exists c. split; [|exact S2]. eapply steps_step; eassumption.
  - injection H as ->. exists (st, inp). split; [constructor|exact E].
Qed.

Theorem sound inp t n : real inp -> loop n [] inp = Some (Accepted t) ->
  derives (NT N_statement) t /\ yield t = inp /\ grouped t.
Proof.
  intros R H. destruct (loop_steps _ _ _ _ H) as ((st & rest) & S1 & S2). cbn [fst snd] in S2.
  pose proof (steps_sound _ _ S1) as K. cbn [fst snd] in K. destruct K as (G & L & R'); [split; [exact I|split; [exact I|exact R]]|].
  pose proof (steps_consumed _ _ S1) as Cn. cbn [fst snd] in Cn. unfold consumed at 1 in Cn. cbn [rev flat_map app] in Cn.
  unfold step in S2. destruct (act_of (top st) (look rest)) as [s|p| |] eqn:E.
  - destruct rest; discriminate.
  - destruct (pop (length (rhs p)) st []) as [[ts st0]|]; [|discriminate]. destruct (goto_of (top st0) (lhs p)); discriminate.
  - destruct st as [|[s t'] r]; [discriminate|]. injection S2 as <-. cbn [top] in E.
    destruct ck_all as (_ & _ & _ & _ & _ & _ & _ & _ & _ & _ & _ & _ & _ & Ka).
    unfold chk_s_accept in Ka. apply andb_prop in Ka as [Ka Kb]. cbn [good] in G. destruct G as (Gs & Gz & Gr & Gg & (x & Dx & Tx) & _).
    pose proof (all_actions_ok _ Ka _ (look rest) Gs) as X. cbv beta in X.
    rewrite E in X. apply andb_prop in X as [X0 X]. apply has_iff in X as (m & Hm & _).
    apply tok_eqb_eq in X0.
    destruct (trans_back _ _ _ (good_top _ Gr) Tx) as (_ & _ & B). destruct (B _ _ _ Hm ltac:(discriminate)) as [Sx [m' Hm']].
    pose proof (all_items_ok _ Kb _ _ _ _ Hm') as Z. cbv beta in Z. cbn [N.eqb negb orb N.sub N.pred] in Z.
    apply N.eqb_eq in Z.
    destruct r as [|[s0 ?] ?]; [|cbn [top good] in *; destruct Gr as (_ & Nz & _); contradiction].
    vm_compute in Sx. injection Sx as <-.
    destruct rest as [|a rest]; [|cbn [look] in X0; inversion R'; contradiction].
    rewrite consumed_cons in Cn. unfold consumed in Cn. cbn [rev flat_map app snd] in Cn. rewrite app_nil_r in Cn.
    split; [exact Dx|]. split; [symmetry; exact Cn|exact Gg].
  - discriminate.
Qed.

(** ** Termination *)
Definition weight (x : symbol) : nat :=
  match x with
  | T _ => 5
  | NT N_object => 4 | NT N_expression => 3
  | NT N_map_members | NT NStart => 1
  | NT _ => 2
  end.
Definition root (t : tree) : symbol := match t with Leaf x => T (kind x) | Node p _ => NT (lhs p) end.
Definition stack_weight (st : stack) : nat := fold_right (fun e n => (weight (root (snd e)) + n)%nat) 0%nat st.
Definition measure (st : stack) (inp : list token) : nat := (stack_weight st + 6 * length inp)%nat.

Lemma root_derives x t : derives x t -> root t = x.
Proof. inversion 1; reflexivity. Qed.
Definition wsum (l : list symbol) : nat := fold_right (fun x n => (weight x + n)%nat) 0%nat l.
Lemma wsum_app a b : wsum (a ++ b) = (wsum a + wsum b)%nat.
Proof. unfold wsum. induction a as [|x a IH]; cbn; [reflexivity|]. unfold wsum in IH. lia. Qed.
Lemma pop_weight n : forall st acc l st', pop n st acc = Some (l, st') ->
  (stack_weight st + wsum (map root acc) = stack_weight st' + wsum (map root l))%nat.
Proof.
  induction n as [|n IH]; intros st acc l st' H; cbn [pop] in H; [congruence|].
  destruct st as [|[s t] r]; [discriminate|]. apply IH in H. unfold stack_weight, wsum in *. cbn [map fold_right snd] in *. lia.
Qed.
Lemma roots_of xs l : Forall2 derives xs l -> map root l = xs.
Proof. induction 1; cbn [map]; [reflexivity|]. f_equal; [apply root_derives; assumption|assumption]. Qed.
Lemma prod_weight p : (N.to_nat p < length productions)%nat -> p <> 0 -> (weight (NT (lhs p)) < wsum (rhs p))%nat.
Proof.
  intros H Hp. apply in_prods_iff in H.
  assert (K : forallb (fun p => (p =? 0) || Nat.ltb (weight (NT (lhs p))) (wsum (rhs p))) prod_ids = true) by (vm_compute; reflexivity).
  rewrite forallb_forall in K. specialize (K p H). cbv beta in K. apply orb_prop in K as [K|K].
  - apply N.eqb_eq in K. contradiction.
  - apply Nat.ltb_lt. exact K.
Qed.

Lemma step_measure st inp st' inp' : state_ok st inp -> step st inp = Continue st' inp' ->
  (measure st' inp' < measure st inp)%nat.
Proof.
  intros (G & L & R). unfold step.
  destruct (act_of (top st) (look inp)) as [s|p| |] eqn:E; try discriminate.
  - destruct inp as [|t r]; [discriminate|]. intros X. injection X as <- <-.
    unfold measure. cbn [stack_weight fold_right snd root weight length]. unfold stack_weight. lia.
  - destruct ck_all as (_ & _ & _ & _ & _ & _ & _ & _ & _ & Kr & _ & _ & _ & _).
    unfold chk_s_reduce in Kr. pose proof (all_actions_ok _ Kr _ (look inp) (good_top _ G)) as X. cbv beta in X. rewrite E in X.
    apply andb_prop in X as [X X2]. apply andb_prop in X as [X X1]. apply has_iff in X as (m & Hm & _).
    apply negb_true_iff, N.eqb_neq in X1.
    destruct (item_bounds _ _ _ _ Hm) as [Bp _].
    destruct (pop_ok p (length (rhs p)) st []) as (l & st0 & P1 & P2 & P3 & [m0 P4] & P5 & _); auto.
    { exists m. unfold len in Hm. exact Hm. }
    { rewrite skipn_all. constructor. }
    { exact I. }
    rewrite app_nil_r in *. rewrite P1. destruct (goto_of (top st0) (lhs p)) as [s'|]; [|discriminate].
    intros Y. injection Y as <- <-. apply pop_weight in P1. rewrite (roots_of _ _ P5) in P1. cbn [map wsum fold_right] in P1.
    pose proof (prod_weight p Bp X1). unfold measure. cbn [stack_weight fold_right snd root]. unfold stack_weight, wsum in *. lia.
  - destruct st as [|[? ?] ?]; discriminate.
Qed.

Lemma terminates n : forall st inp, state_ok st inp -> (measure st inp < n)%nat -> exists o, loop n st inp = Some o /\ o <> Stuck.
Proof.
  induction n as [|n IH]; intros st inp H Hn; [lia|]. cbn [loop].
  pose proof (step_sound st inp H) as S1. destruct (step st inp) as [st' inp'|o] eqn:E.
  - apply IH; [exact S1|]. pose proof (step_measure _ _ _ _ H E). lia.
  - exists o. split; [reflexivity|exact S1].
Qed.

(** ** Completeness *)
Lemma state0_start : state_ok [] [].
Proof. split; [exact I|]. split; [exact I|constructor]. Qed.

Section tree_ind.
  Variable P : tree -> Prop.
  Hypothesis Hl : forall t, P (Leaf t).
  Hypothesis Hn : forall p l, Forall P l -> P (Node p l).
  Fixpoint tree_ind' (t : tree) : P t :=
    match t with
    | Leaf t => Hl t
    | Node p l => Hn p l ((fix all (l : list tree) : Forall P l :=
                             match l with [] => Forall_nil _ | x :: r => Forall_cons _ (tree_ind' x) (all r) end) l)
    end.
End tree_ind.

Lemma first_mem x t inp : derives x t -> mem (first_of x) (look (yield t ++ inp)) = true.
Proof.
  revert x inp. induction t as [t|p l IH] using tree_ind'; intros x inp D.
  - apply derives_leaf in D as [-> _]. cbn [yield app look first_of]. unfold mem. rewrite N.setbit_eqb, N.eqb_refl. reflexivity.
  - apply derives_node in D as (-> & Hp & D). destruct ck_all as (K & _). unfold chk_first in K.
    rewrite forallb_forall in K. specialize (K p (proj2 (in_prods_iff p) Hp)). cbv beta in K.
    destruct (rhs p) as [|y ys]; [discriminate|]. inversion D as [|? c ? r Dc _]. subst.
    inversion IH as [|? ? I1 _]. subst. cbn [yield flat_map]. rewrite <- app_assoc.
    eapply sub_mask_mem; [exact K|]. exact (I1 _ _ Dc).
Qed.

Lemma closure_item s p d m n q : In (p, d, m) (items s) -> sym_at p d = Some (NT n) -> (N.to_nat q < length productions)%nat -> lhs q = n ->
  forall a, (match sym_at p (d + 1) with None => mem m a = true | Some x => mem (first_of x) a = true end) ->
  exists m', In (q, 0, m') (items s) /\ mem m' a = true.
Proof.
  intros Hi Hs Hq Hl a Ha. destruct ck_all as (_ & _ & _ & K & _). unfold chk_closure in K.
  pose proof (all_items_ok _ K _ _ _ _ Hi) as X. cbv beta in X. rewrite Hs in X. cbv zeta in X.
  rewrite forallb_forall in X. specialize (X q (proj2 (in_prods_iff q) Hq)). cbv beta in X.
  assert (E : nonterm_eqb (lhs q) n = true) by (apply nonterm_eqb_eq; exact Hl). rewrite E in X.
  apply has_iff in X as (m' & Hm & Sb). exists m'. split; [exact Hm|].
  destruct (sym_at p (d + 1)) as [y|]; exact (sub_mask_mem _ _ _ Sb Ha).
Qed.
Lemma goto_item s p d m n : In (p, d, m) (items s) -> sym_at p d = Some (NT n) ->
  exists s' m', goto_of s n = Some s' /\ In (p, d + 1, m') (items s') /\ forall a, mem m a = true -> mem m' a = true.
Proof.
  intros Hi Hs. destruct ck_all as (_ & _ & _ & _ & K & _). unfold chk_goto in K.
  pose proof (all_items_ok _ K _ _ _ _ Hi) as X. cbv beta in X. rewrite Hs in X.
  destruct (goto_of s n) as [s'|]; [|discriminate]. apply has_iff in X as (m' & Hm & Sb).
  exists s', m'. split; [reflexivity|]. split; [exact Hm|]. intros a. apply sub_mask_mem. exact Sb.
Qed.
Lemma shift_item s p d m x : In (p, d, m) (items s) -> sym_at p d = Some (T x) ->
  (d = 1 -> forall n r, rhs p = NT n :: r -> n = N_expression -> forall q, In q (complete s) -> extends q x = true) ->
  exists s' m', act_of s x = AShift s' /\ In (p, d + 1, m') (items s') /\ forall a, mem m a = true -> mem m' a = true.
Proof.
  intros Hi Hs Hx. destruct ck_all as (_ & _ & _ & _ & _ & K & _). unfold chk_shift in K.
  pose proof (all_items_ok _ K _ _ _ _ Hi) as X. cbv beta in X. rewrite Hs in X.
  assert (Bad : (d =? 1) && match rhs p with NT n :: _ => is_expr n | _ => false end
               && existsb (fun q => negb (extends q x)) (complete s) = true -> False).
  { intros B. apply andb_prop in B as [B B3]. apply andb_prop in B as [B1 B2]. apply N.eqb_eq in B1.
    destruct (rhs p) as [|[|n] r]; [discriminate B2|discriminate B2|]. apply nonterm_eqb_eq in B2.
    apply existsb_exists in B3 as (q & Hq & B3). rewrite (Hx B1 n r eq_refl B2 q Hq) in B3. discriminate. }
  destruct (act_of s x) as [s'| | |]; [|destruct (Bad X)|destruct (Bad X)|destruct (Bad X)].
  apply has_iff in X as (m' & Hm & Sb).
  exists s', m'. split; [reflexivity|]. split; [exact Hm|]. intros a. apply sub_mask_mem. exact Sb.
Qed.
Lemma reduce_item s p m a : In (p, len p, m) (items s) -> p <> 0 -> mem m a = true -> closes p a = true -> act_of s a = AReduce p.
Proof.
  intros Hi Hp Ha Hc. destruct ck_all as (_ & _ & _ & _ & _ & _ & K & _). unfold chk_reduce in K.
  pose proof (all_items_ok _ K _ _ _ _ Hi) as X. cbv beta in X. rewrite N.eqb_refl in X.
  apply N.eqb_neq in Hp. rewrite Hp in X. cbn [negb andb] in X.
  rewrite forallb_forall in X. specialize (X a (in_all_toks a)). cbv beta in X. rewrite Ha, Hc in X.
  destruct (act_of s a); [discriminate X| |discriminate X|discriminate X]. apply N.eqb_eq in X. rewrite X. reflexivity.
Qed.
Lemma pending_item s p d m n q : In (p, d, m) (items s) -> 1 <= d -> sym_at p d = Some (NT n) -> In q (pending s) ->
  (q = p /\ d + 1 = len p) \/ operator q = None.
Proof.
  intros Hi Hd Hs Hq. destruct ck_all as (_ & _ & _ & _ & _ & _ & _ & K & _). unfold chk_pending in K.
  pose proof (all_items_ok _ K _ _ _ _ Hi) as X. cbv beta in X. apply N.leb_le in Hd. rewrite Hd, Hs in X.
  rewrite forallb_forall in X. specialize (X q Hq). cbv beta in X. apply orb_prop in X as [X|X].
  - apply andb_prop in X as [A B]. apply N.eqb_eq in A, B. left. split; assumption.
  - right. destruct (operator q); [discriminate|reflexivity].
Qed.
Lemma no_adj_at l : no_adjacent l = true -> forall i a b, nth_error l i = Some (NT a) -> nth_error l (S i) = Some (NT b) -> False.
Proof.
  induction l as [|x l IH]; intros H [|i] a b H1 H2; cbn in H1, H2; try discriminate.
  - injection H1 as ->. destruct l as [|y l]; [discriminate|]. injection H2 as ->. discriminate.
  - eapply IH; try eassumption. destruct x as [|]; [exact H|]. cbn [no_adjacent] in H. destruct l as [|[|] l]; [discriminate| |discriminate]. exact H.
Qed.
Lemma skipn_cons_nth {A} n : forall (l : list A) x r, skipn n l = x :: r -> nth_error l n = Some x /\ skipn (S n) l = r.
Proof.
  induction n as [|n IH]; intros [|a l] x r H; cbn [skipn] in H; try discriminate.
  - injection H as -> ->. split; reflexivity.
  - cbn [nth_error]. exact (IH _ _ _ H).
Qed.

Lemma Forall2_length {A B} (R : A -> B -> Prop) l m : Forall2 R l m -> length l = length m.
Proof. induction 1; cbn; congruence. Qed.
Arguments Forall2_length {A B R l m} _.

Definition expects (st : stack) (p : N) (a : tok) : Prop := exists m, In (p, 0, m) (items (top st)) /\ mem m a = true.
Definition left_free (st : stack) (t : tree) : Prop :=
  forall q x, In q (pending (top st)) -> In x (left_edge t) -> extends q x = true.
Definition shifts_in (p : N) (l : list tree) : Prop :=
  forall st inp, expects st p (look inp) -> p <> 0 -> (forall q, In q (right_edge (Node p l)) -> closes q (look inp) = true) ->
    left_free st (Node p l) ->
    exists s, goto_of (top st) (lhs p) = Some s /\ steps (st, yield (Node p l) ++ inp) ((s, Node p l) :: st, inp).
Definition node_ok (t : tree) : Prop := match t with Leaf _ => True | Node p l => shifts_in p l end.

(** the rest of a production, after the first [length l1] symbols are on the stack *)
Lemma finish p l : (N.to_nat p < length productions)%nat -> Forall2 derives (rhs p) l -> grouped (Node p l) -> Forall node_ok l ->
  forall st inp, (forall q, In q (right_edge (Node p l)) -> closes q (look inp) = true) -> left_free st (Node p l) ->
  forall l2 l1 sd m, l = l1 ++ l2 ->
    In (p, N.of_nat (length l1), m) (items (top sd)) -> mem m (look inp) = true ->
    (forall acc, pop (length l1) sd acc = Some (l1 ++ acc, st)) ->
    match l1 with [c] => exists s1, sd = (s1, c) :: st /\ trans (top st) (root c) s1 | [] => sd = st | _ => True end ->
    exists se me, steps (sd, flat_map yield l2 ++ inp) (se, inp) /\ In (p, len p, me) (items (top se)) /\ mem me (look inp) = true
      /\ pop (length l) se [] = Some (l, st).
Proof.
  intros Hp D Gr F st inp Hright Hleft. inversion Gr as [|? ? G1 G2 G3]. subst.
  destruct (chk_prod_facts p Hp) as (Rn & Ra & Rx).
  induction l2 as [|c0 l0 IH]; intros l1 sd m El Hi Hm Hpop Hfst.
  - rewrite app_nil_r in El. subst l1. exists sd, m. split; [constructor|].
    split; [unfold len; rewrite (Forall2_length D); exact Hi|]. split; [exact Hm|].
    rewrite Hpop. rewrite app_nil_r. reflexivity.
  - (* the symbol of c *)
    assert (Dl : Forall2 derives (skipn (length l1) (rhs p)) (c0 :: l0)).
    { rewrite El in D. apply Forall2_app_inv_r in D as (r1 & r2 & D1 & D2 & ->).
      rewrite <- (Forall2_length D1), skipn_app, skipn_all, Nat.sub_diag. cbn [skipn app]. exact D2. }
    remember (skipn (length l1) (rhs p)) as sk eqn:Esk. destruct sk as [|x xs]; [inversion Dl|].
    assert (Dx : derives x c0) by (inversion Dl; assumption).
    assert (Dxs : Forall2 derives xs l0) by (inversion Dl; assumption). clear Dl.
    symmetry in Esk. destruct (skipn_cons_nth _ _ _ _ Esk) as [Nx Sx].
    assert (Hsym : sym_at p (N.of_nat (length l1)) = Some x).
    { unfold sym_at. rewrite Nnat.Nat2N.id. exact Nx. }
    assert (Hlen : forall (c1 : tree), N.of_nat (length (l1 ++ [c1])) = N.of_nat (length l1) + 1).
    { intros. rewrite app_length. cbn [length]. lia. }
    assert (Hpop' : forall s, forall acc, pop (length (l1 ++ [c0])) ((s, c0) :: sd) acc = Some ((l1 ++ [c0]) ++ acc, st)).
    { intros s acc. rewrite app_length. cbn [length]. rewrite Nat.add_1_r. cbn [pop]. rewrite Hpop, <- app_assoc. reflexivity. }
    assert (Hfst' : forall s, trans (top sd) (root c0) s ->
       match l1 ++ [c0] with [c] => exists s1, (s, c0) :: sd = (s1, c) :: st /\ trans (top st) (root c) s1 | [] => (s, c0) :: sd = st | _ => True end).
    { intros s Hs. destruct l1 as [|a [|b l1]]; cbn [app]; try exact I. subst sd. eauto. }
    assert (El' : l = (l1 ++ [c0]) ++ l0) by (rewrite <- app_assoc; exact El).
    destruct c0 as [t|pc lc].
    + (* a token *)
      apply derives_leaf in Dx as [-> Ht].
      destruct (shift_item _ _ _ _ _ Hi Hsym) as (s' & m' & A1 & A2 & A3).
      { intros Hd n r Er En q Hq. destruct l1 as [|c1 [|c2 l1]]; cbn [length] in Hd; try lia.
        destruct Hfst as (s1 & -> & Tr). cbn [top] in Hq.
        assert (Dc : derives (NT n) c1). { rewrite Er, El in D. cbn [app] in D. inversion D; assumption. }
        destruct c1 as [y|p1 k1]; [apply derives_leaf in Dc as [? _]; discriminate|].
        cbn [root trans] in Tr. apply derives_node in Dc as [Dc _]. injection Dc as ->. rewrite En in Tr.
        apply (Hleft q (kind t)); [unfold pending; rewrite Tr; exact Hq|]. rewrite El. cbn [app left_edge]. left. reflexivity. }
      destruct (IH (l1 ++ [Leaf t]) ((s', Leaf t) :: sd) m' El') as (se & me & B1 & B2 & B3 & B4).
      * cbn [top]. rewrite Hlen. exact A2.
      * apply A3. exact Hm.
      * apply Hpop'.
      * apply Hfst'. exact A1.
      * exists se, me. split; [|auto]. eapply steps_step; [|exact B1].
        cbn [flat_map yield app]. unfold step. cbn [look]. rewrite A1. reflexivity.
    + (* a phrase *)
      apply derives_node in Dx as (-> & Hpc & Dc).
      assert (Fc : node_ok (Node pc lc)).
      { rewrite Forall_forall in F. apply F. rewrite El. apply in_or_app. right. left. reflexivity. }
      assert (Hpc0 : pc <> 0).
      { intros ->. assert (Z : forallb (fun p => forallb (fun x => match x with NT NStart => false | _ => true end) (rhs p)) prod_ids = true) by (vm_compute; reflexivity).
        rewrite forallb_forall in Z. specialize (Z p (proj2 (in_prods_iff p) Hp)). cbv beta in Z. rewrite forallb_forall in Z.
        specialize (Z _ (nth_error_In _ _ Nx)). vm_compute in Z. discriminate. }
      assert (La : match sym_at p (N.of_nat (length l1) + 1) with
                   | None => mem m (look (flat_map yield l0 ++ inp)) = true
                   | Some x => mem (first_of x) (look (flat_map yield l0 ++ inp)) = true end).
      { unfold sym_at. replace (N.to_nat (N.of_nat (length l1) + 1)) with (S (length l1)) by lia.
        destruct Dxs as [|y c1 ys l0' Dy Dys].
        - assert (E : nth_error (rhs p) (S (length l1)) = None).
          { apply nth_error_None. apply (f_equal (@length symbol)) in Sx. rewrite skipn_length in Sx. cbn in Sx. lia. }
          rewrite E. cbn [flat_map app]. exact Hm.
        - destruct (skipn_cons_nth _ _ _ _ Sx) as [Ny _]. rewrite Ny. cbn [flat_map]. rewrite <- app_assoc. apply first_mem. exact Dy. }
      destruct (closure_item _ _ _ _ _ pc Hi Hsym Hpc eq_refl _ La) as (mc & Hmc & Hmc').
      destruct (Fc sd (flat_map yield l0 ++ inp)) as (s' & Gs & St).
      * exists mc. split; assumption.
      * exact Hpc0.
      * intros q Hq. destruct l0 as [|[y|py ly] l0'].
        -- cbn [flat_map app]. apply Hright. rewrite El. rewrite right_edge_last. right. exact Hq.
        -- cbn [flat_map yield app look]. exact (G2 _ _ _ _ El q Hq).
        -- exfalso. inversion Dxs as [|y0 ? ys0 ? Dy _]. subst. apply derives_node in Dy as [-> _].
           destruct (skipn_cons_nth _ _ _ _ (eq_sym H)) as [Ny _]. exact (no_adj_at _ Ra _ _ _ Nx Ny).
      * intros q x Hq Hx. destruct l1 as [|a l1].
        -- subst sd. apply (Hleft q x Hq). rewrite El. cbn [app left_edge]. destruct l0 as [|[y|] l0']; [exact Hx|right; exact Hx|exact Hx].
        -- destruct (pending_item _ _ _ _ _ q Hi ltac:(cbn [length]; lia) Hsym Hq) as [[-> Hl]|Hn].
           ++ assert (l0 = []).
              { assert (N.of_nat (length l) = N.of_nat (length (a :: l1)) + 1) by (rewrite Hl; unfold len; rewrite (Forall2_length D); reflexivity).
                rewrite El, app_length in H. cbn [length] in H. destruct l0; [reflexivity|cbn [length] in H; lia]. }
              subst l0. apply (G3 _ _ El); [discriminate|exact Hx].
           ++ unfold extends. rewrite Hn. reflexivity.
      * destruct (goto_item _ _ _ _ _ Hi Hsym) as (s2 & m' & A1 & A2 & A3). rewrite Gs in A1. injection A1 as <-.
        destruct (IH (l1 ++ [Node pc lc]) ((s', Node pc lc) :: sd) m' El') as (se & me & B1 & B2 & B3 & B4).
        -- cbn [top]. rewrite Hlen. exact A2.
        -- apply A3. exact Hm.
        -- apply Hpop'.
        -- apply Hfst'. exact Gs.
        -- exists se, me. split; [|auto]. eapply steps_trans; [|exact B1].
           cbn [flat_map]. rewrite <- app_assoc. exact St.
Qed.

Lemma complete_tree t : forall x, derives x t -> grouped t -> node_ok t.
Proof.
  induction t as [t|p l IH] using tree_ind'; intros x D G; [exact I|].
  apply derives_node in D as (-> & Hp & D). cbn [node_ok]. intros st inp (m & Hi & Hm) Hp0 Hr Hl.
  assert (F : Forall node_ok l).
  { inversion G as [|? ? G1 _ _]. subst. clear - IH D G1. revert D. generalize (rhs p). induction IH as [|c l Hc _ IHl]; intros xs D; [constructor|].
    inversion D; subst. inversion G1; subst. constructor; [eapply Hc; eassumption|eapply IHl; eassumption]. }
  destruct (finish p l Hp D G F st inp Hr Hl l [] st m eq_refl Hi Hm (fun _ => eq_refl) eq_refl) as (se & me & B1 & B2 & B3 & B4).
  destruct ck_all as (_ & _ & _ & _ & _ & _ & _ & _ & _ & _ & _ & _ & Kz & _). unfold chk_s_zero in Kz.
  pose proof (all_items_ok _ Kz _ _ _ _ Hi) as Z. cbv beta in Z. pose proof Hp0 as Hp1. apply N.eqb_neq in Hp1. rewrite Hp1 in Z. cbn [andb N.eqb negb] in Z.
  destruct (goto_of (top st) (lhs p)) as [s|] eqn:Eg; [|discriminate].
  exists s. split; [reflexivity|]. eapply steps_trans; [exact B1|]. apply steps_one.
  assert (A : act_of (top se) (look inp) = AReduce p).
  { apply (reduce_item _ _ me); auto. apply Hr. cbn [right_edge]. left. reflexivity. }
  unfold step. rewrite A. rewrite <- (Forall2_length D) in B4. rewrite B4, Eg. reflexivity.
Qed.

Theorem complete_parse t : derives (NT N_statement) t -> grouped t -> exists n, loop n [] (yield t) = Some (Accepted t).
Proof.
  intros D G. pose proof (complete_tree _ _ D G) as N. destruct t as [t|p l]; [apply derives_leaf in D as [? _]; discriminate|].
  apply derives_node in D as (Ep & Hp & D). injection Ep as Ep.
  destruct ck_all as (_ & _ & _ & _ & _ & _ & _ & _ & K & _). unfold chk_start in K.
  apply andb_prop in K as [K K3]. apply andb_prop in K as [K1 K2].
  assert (P : p = 1 \/ p = 2).
  { assert (Z : forallb (fun p => (p =? 1) || (p =? 2) || negb (nonterm_eqb (lhs p) N_statement)) prod_ids = true) by (vm_compute; reflexivity).
    rewrite forallb_forall in Z. specialize (Z p (proj2 (in_prods_iff p) Hp)). cbv beta in Z. rewrite <- Ep in Z. cbn in Z.
    rewrite orb_false_r in Z. apply orb_prop in Z as [Z|Z]; apply N.eqb_eq in Z; auto. }
  assert (Ex : expects [] p (look [])).
  { destruct P as [-> | ->]; [apply has_iff in K1 as (m & A & B)|apply has_iff in K2 as (m & A & B)]; exists m; split; assumption. }
  destruct (N [] [] Ex) as (s & Gs & St).
  - destruct P; subst; discriminate.
  - intros q _. unfold closes. destruct (operator q); reflexivity.
  - intros q x Hq _. cbn [top] in Hq.
    assert (Z : forallb (fun q => match operator q with None => true | _ => false end) (pending 0) = true) by (vm_compute; reflexivity).
    rewrite forallb_forall in Z. specialize (Z q Hq). cbv beta in Z. unfold extends. destruct (operator q); [discriminate|reflexivity].
  - rewrite app_nil_r in St. rewrite <- Ep in Gs. cbn [top] in Gs. rewrite Gs in K3.
    apply (steps_loop _ _ (Accepted (Node p l)) St). cbn [fst snd]. unfold step. cbn [top look].
    destruct (act_of s T_end); try discriminate. reflexivity.
Qed.
