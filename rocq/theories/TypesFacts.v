(** * TypesFacts: proofs about from_value *)
From Verif Require Import Base Dec Value DType DTypeFacts Types.
Open Scope Z_scope.

(** from_value only produces definitions without names, argument lists or nullable=False. *)
Fixpoint canon (t : dtype) : Prop :=
  match t with
  | TUndef | TBytes | TBool | TDatetime | TFloat | TNull | TString | TTimedelta => True
  | TArray m nb | TSet m nb => canon m /\ nb = true
  | TMap k v nb => canon k /\ canon v /\ nb = true
  | TFun n r a m => n = None /\ r = TUndef /\ a = None /\ m = None
  end.

Lemma canon_eqb : forall t u, canon t -> canon u -> dt_eqb t u = true -> t = u.
Proof.
  induction t as [| | | | | | | |m nb IH|m nb IH|k v nb IHk IHv|nm r a mn IHr IHa] using dtype_ind';
    destruct u as [| | | | | | | |m' nb'|m' nb'|k' v' nb'|nm' r' a' mn']; intros Ht Hu H; try discriminate H; try reflexivity.
  - cbn in *. apply andb_true_iff in H. destruct H as [H _]. destruct Ht as [Ht ->], Hu as [Hu ->].
    rewrite (IH _ Ht Hu H). reflexivity.
  - cbn in *. apply andb_true_iff in H. destruct H as [H _]. destruct Ht as [Ht ->], Hu as [Hu ->].
    rewrite (IH _ Ht Hu H). reflexivity.
  - cbn in *. rewrite !andb_true_iff in H. destruct H as [[H1 H2] _]. destruct Ht as [K [V ->]], Hu as [K' [V' ->]].
    rewrite (IHk _ K K' H1), (IHv _ V V' H2). reflexivity.
  - cbn in Ht, Hu. destruct Ht as [-> [-> [-> ->]]], Hu as [-> [-> [-> ->]]]. reflexivity.
Qed.

Lemma canon_eqb_iff : forall t u, canon t -> canon u -> (dt_eqb t u = true <-> t = u).
Proof.
  intros t u Ht Hu. split; [apply canon_eqb; assumption|]. intros ->. apply dt_eqb_refl.
Qed.

(** ** The set of member types *)
Lemma dt_add_In : forall acc t x, Forall canon acc -> canon t -> (In x (dt_add acc t) <-> In x acc \/ x = t).
Proof.
  intros acc t x Hacc Ht. unfold dt_add. destruct (existsb (dt_eqb t) acc) eqn:E.
  - apply existsb_exists in E. destruct E as [y [Hy E]].
    assert (y = t).
    { symmetry. apply canon_eqb; auto. rewrite Forall_forall in Hacc. apply Hacc. exact Hy. }
    subst y. split; [tauto|]. intros [H|H]; [exact H|subst; exact Hy].
  - rewrite in_app_iff. cbn. intuition.
Qed.

Lemma dt_add_canon : forall acc t, Forall canon acc -> canon t -> Forall canon (dt_add acc t).
Proof.
  intros acc t Hacc Ht. unfold dt_add. destruct (existsb _ _); [exact Hacc|]. apply Forall_app. auto.
Qed.

Lemma dt_add_NoDup : forall acc t, Forall canon acc -> canon t -> NoDup acc -> NoDup (dt_add acc t).
Proof.
  intros acc t Hacc Ht Hn. unfold dt_add. destruct (existsb (dt_eqb t) acc) eqn:E; [exact Hn|].
  assert (Hni : ~ In t acc).
  { intro Hin. assert (existsb (dt_eqb t) acc = true) by (apply existsb_exists; exists t; split; [exact Hin|apply dt_eqb_refl]).
    congruence. }
  clear E Hacc. induction acc as [|a acc IH]; cbn; [constructor; [auto|constructor]|].
  inversion Hn as [|? ? Ha Hr]; subst. constructor.
  - rewrite in_app_iff. cbn. cbn in Hni. intuition.
  - apply IH; [exact Hr|]. cbn in Hni. tauto.
Qed.

Lemma dt_collect : forall l acc, Forall canon l -> Forall canon acc -> NoDup acc ->
  let r := fold_left dt_add l acc in NoDup r /\ Forall canon r /\ (forall x, In x r <-> In x acc \/ In x l).
Proof.
  induction l as [|t l IH]; intros acc Hl Hacc Hn; cbn.
  - repeat split; auto. tauto.
  - inversion Hl; subst. destruct (IH (dt_add acc t)) as [A [B C]]; auto using dt_add_canon, dt_add_NoDup.
    repeat split; auto.
    + intro H. apply C in H. destruct H as [H|H]; [apply dt_add_In in H; auto|auto]. intuition.
    + intro H. apply C. rewrite dt_add_In by assumption. intuition.
Qed.

Lemma NoDup_single : forall A (l : list A) x, NoDup l -> In x l -> (forall y, In y l -> y = x) -> l = [x].
Proof.
  intros A l x Hn Hin Hall. destruct l as [|a [|b l]]; [contradiction|rewrite (Hall a (or_introl eq_refl)); reflexivity|].
  inversion Hn as [|? ? Ha Hr]; subst. exfalso. apply Ha.
  rewrite (Hall a (or_introl eq_refl)), (Hall b (or_intror (or_introl eq_refl))). left. reflexivity.
Qed.

Definition notnull (t : dtype) : bool := negb (dt_eqb t TNull).
Lemma notnull_iff : forall t, notnull t = true <-> t <> TNull.
Proof. intro t. unfold notnull. destruct t; cbn; split; intro H; try congruence; try discriminate. Qed.

Lemma member_type_same : forall l t, Forall canon l -> In t l -> t <> TNull ->
  (forall u, In u l -> u <> TNull -> u = t) -> member_type l = t.
Proof.
  intros l t Hc Hin Ht Hall. unfold member_type.
  destruct (dt_collect l [] Hc (Forall_nil _) (NoDup_nil _)) as [Hn [Hcan Hiff]].
  assert (E : filter notnull (fold_left dt_add l []) = [t]).
  { apply NoDup_single.
    - apply NoDup_filter. exact Hn.
    - apply filter_In. split; [apply Hiff; auto|]. apply notnull_iff. exact Ht.
    - intros y Hy. apply filter_In in Hy. destruct Hy as [Hy1 Hy2]. apply notnull_iff in Hy2.
      apply Hall; [|exact Hy2]. apply Hiff in Hy1. destruct Hy1 as [[]|H]. exact H. }
  unfold notnull in E. rewrite E. reflexivity.
Qed.

Lemma member_type_none : forall l, Forall canon l -> (forall u, In u l -> u = TNull) -> member_type l = TUndef.
Proof.
  intros l Hc Hall. unfold member_type.
  destruct (dt_collect l [] Hc (Forall_nil _) (NoDup_nil _)) as [Hn [Hcan Hiff]].
  assert (E : filter notnull (fold_left dt_add l []) = []).
  { destruct (filter notnull (fold_left dt_add l [])) as [|x r] eqn:E; [reflexivity|]. exfalso.
    assert (Hx : In x (filter notnull (fold_left dt_add l []))) by (rewrite E; left; reflexivity).
    apply filter_In in Hx. destruct Hx as [H1 H2]. apply notnull_iff in H2. apply Hiff in H1.
    destruct H1 as [[]|H1]. apply H2. apply Hall. exact H1. }
  unfold notnull in E. rewrite E. reflexivity.
Qed.

Lemma member_type_mixed : forall l a b, Forall canon l -> In a l -> In b l -> a <> TNull -> b <> TNull -> a <> b ->
  member_type l = TUndef.
Proof.
  intros l a b Hc Ha Hb Hna Hnb Hab. unfold member_type.
  destruct (dt_collect l [] Hc (Forall_nil _) (NoDup_nil _)) as [Hn [Hcan Hiff]].
  assert (Fa : In a (filter notnull (fold_left dt_add l []))).
  { apply filter_In. split; [apply Hiff; auto|apply notnull_iff; exact Hna]. }
  assert (Fb : In b (filter notnull (fold_left dt_add l []))).
  { apply filter_In. split; [apply Hiff; auto|apply notnull_iff; exact Hnb]. }
  unfold notnull in Fa, Fb.
  destruct (filter (fun t => negb (dt_eqb t TNull)) (fold_left dt_add l [])) as [|x [|y r]]; [contradiction| |reflexivity].
  cbn in Fa, Fb. destruct Fa as [<-|[]], Fb as [<-|[]]. congruence.
Qed.

Lemma member_type_cases : forall l, Forall canon l ->
  (exists t, In t l /\ t <> TNull /\ (forall u, In u l -> u <> TNull -> u = t) /\ member_type l = t)
  \/ ((forall u, In u l -> u = TNull) /\ member_type l = TUndef)
  \/ (exists a b, In a l /\ In b l /\ a <> TNull /\ b <> TNull /\ a <> b /\ member_type l = TUndef).
Proof.
  intros l Hc.
  destruct (existsb notnull l) eqn:E1.
  - apply existsb_exists in E1. destruct E1 as [t [Ht Hnt]]. apply notnull_iff in Hnt.
    destruct (forallb (fun u => negb (notnull u) || dt_eqb u t) l) eqn:E2.
    + left. exists t. assert (Hall : forall u, In u l -> u <> TNull -> u = t).
      { intros u Hu Hnu. rewrite forallb_forall in E2. specialize (E2 u Hu). apply notnull_iff in Hnu. rewrite Hnu in E2.
        cbn in E2. rewrite Forall_forall in Hc. apply canon_eqb; auto. }
      split; [|split; [|split]]; auto. apply member_type_same; auto.
    + right. right.
      assert (Hex : exists u, In u l /\ (negb (notnull u) || dt_eqb u t) = false).
      { clear - E2. induction l as [|x l IH]; cbn in E2; [discriminate|]. apply andb_false_iff in E2. destruct E2 as [E2|E2].
        - exists x. split; [left; reflexivity|exact E2].
        - destruct (IH E2) as [u [H1 H2]]. exists u. split; [right; exact H1|exact H2]. }
      destruct Hex as [u [Hu E]]. apply orb_false_iff in E. destruct E as [Ea Eb].
      apply negb_false_iff in Ea. apply notnull_iff in Ea.
      assert (u <> t) by (intro; subst; rewrite dt_eqb_refl in Eb; discriminate).
      exists u, t. repeat split; auto. eapply member_type_mixed with (a := u) (b := t); auto.
  - right. left. assert (Hall : forall u, In u l -> u = TNull).
    { intros u Hu. destruct (notnull u) eqn:E.
      - assert (existsb notnull l = true) by (apply existsb_exists; exists u; auto). congruence.
      - unfold notnull in E. apply negb_false_iff in E. apply canon_eqb; cbn; auto.
        rewrite Forall_forall in Hc. auto. }
    split; [exact Hall|]. apply member_type_none; assumption.
Qed.

Lemma member_type_canon : forall l, Forall canon l -> canon (member_type l).
Proof.
  intros l Hc. destruct (member_type_cases l Hc) as [[t [Hin [_ [_ E]]]]|[[_ E]|[a [b [_ [_ [_ [_ [_ E]]]]]]]]]; rewrite E.
  - rewrite Forall_forall in Hc. apply Hc. exact Hin.
  - exact I.
  - exact I.
Qed.

Lemma member_type_float : forall (A : Type) (l : list A),
  member_type (map (fun _ => TFloat) l) = if nonempty l then TFloat else TUndef.
Proof.
  intros A l. destruct l as [|a l]; [reflexivity|]. cbn [nonempty]. apply member_type_same.
  - apply Forall_forall. intros x Hx. apply in_map_iff in Hx. destruct Hx as [? [<- _]]. exact I.
  - left. reflexivity.
  - discriminate.
  - intros u Hu _. apply in_map_iff in Hu. destruct Hu as [? [<- _]]. reflexivity.
Qed.

(** ** from_value *)
Lemma Forall2_In_l : forall A B (R : A -> B -> Prop) l l' x, Forall2 R l l' -> In x l -> exists y, In y l' /\ R x y.
Proof.
  intros A B R l l' x H. induction H as [|a b l l' Hab H IH]; intro Hin; [contradiction|].
  destruct Hin as [<-|Hin]; [exists b; cbn; auto|]. destruct (IH Hin) as [y [H1 H2]]. exists y. cbn. auto.
Qed.
Lemma Forall2_In_r : forall A B (R : A -> B -> Prop) l l' y, Forall2 R l l' -> In y l' -> exists x, In x l /\ R x y.
Proof.
  intros A B R l l' y H. induction H as [|a b l l' Hab H IH]; intro Hin; [contradiction|].
  destruct Hin as [<-|Hin]; [exists a; cbn; auto|]. destruct (IH Hin) as [x [H1 H2]]. exists x. cbn. auto.
Qed.

Lemma from_value_canon : forall v t, from_value v = Ok t -> canon t.
Proof.
  induction v as [|b|d|z|f|t0|b|w tz|d|u|l IH|l IH|l|l IH|l IH|l IH|n|f|m v IH|n] using value_ind'; intros t H; cbn in H;
    try (inversion H; subst; exact I); try (inversion H; subst; cbn; auto; fail).
  - destruct (rmapM from_value l) as [ts|x] eqn:E; inversion H; subst. cbn. split; [|reflexivity].
    apply member_type_canon. apply rmapM_ok_iff in E. apply Forall_forall. intros t Ht.
    destruct (Forall2_In_r _ _ _ _ _ _ E Ht) as [x [Hx Ex]]. rewrite Forall_forall in IH. eapply IH; eassumption.
  - destruct (rmapM from_value l) as [ts|x] eqn:E; inversion H; subst. cbn. split; [|reflexivity].
    apply member_type_canon. apply rmapM_ok_iff in E. apply Forall_forall. intros t Ht.
    destruct (Forall2_In_r _ _ _ _ _ _ E Ht) as [x [Hx Ex]]. rewrite Forall_forall in IH. eapply IH; eassumption.
  - inversion H; subst. cbn. split; [|reflexivity]. rewrite member_type_float. destruct (nonempty l); exact I.
  - destruct (rmapM from_value l) as [ts|x] eqn:E; inversion H; subst. cbn. split; [|reflexivity].
    apply member_type_canon. apply rmapM_ok_iff in E. apply Forall_forall. intros t Ht.
    destruct (Forall2_In_r _ _ _ _ _ _ E Ht) as [x [Hx Ex]]. rewrite Forall_forall in IH. eapply IH; eassumption.
  - destruct (rmapM (fun kv => from_value (fst kv)) l) as [ks|x] eqn:E1; [|discriminate].
    destruct (rmapM (fun kv => from_value (snd kv)) l) as [vs|x] eqn:E2; [|discriminate].
    cbn in H. unfold mk_mapping in H. destruct (_ && _); inversion H; subst. cbn.
    apply rmapM_ok_iff in E1, E2. rewrite Forall_forall in IH. repeat split; apply member_type_canon; apply Forall_forall; intros t Ht.
    + destruct (Forall2_In_r _ _ _ _ _ _ E1 Ht) as [x [Hx Ex]]. destruct (IH x Hx) as [A _]. apply A. exact Ex.
    + destruct (Forall2_In_r _ _ _ _ _ _ E2 Ht) as [x [Hx Ex]]. destruct (IH x Hx) as [_ A]. apply A. exact Ex.
  - destruct (rmapM (fun kv => from_value (fst kv)) l) as [ks|x] eqn:E1; [|discriminate].
    destruct (rmapM (fun kv => from_value (snd kv)) l) as [vs|x] eqn:E2; [|discriminate].
    cbn in H. unfold mk_mapping in H. destruct (_ && _); inversion H; subst. cbn.
    apply rmapM_ok_iff in E1, E2. rewrite Forall_forall in IH. repeat split; apply member_type_canon; apply Forall_forall; intros t Ht.
    + destruct (Forall2_In_r _ _ _ _ _ _ E1 Ht) as [x [Hx Ex]]. destruct (IH x Hx) as [A _]. apply A. exact Ex.
    + destruct (Forall2_In_r _ _ _ _ _ _ E2 Ht) as [x [Hx Ex]]. destruct (IH x Hx) as [_ A]. apply A. exact Ex.
Qed.

Lemma from_value_not_undef : forall v, from_value v <> Ok TUndef.
Proof.
  destruct v; cbn; try discriminate.
  - destruct (rmapM from_value l); discriminate.
  - destruct (rmapM from_value l); discriminate.
  - destruct (rmapM from_value l); discriminate.
  - destruct (rmapM (fun kv => from_value (fst kv)) l); [|discriminate].
    destruct (rmapM (fun kv => from_value (snd kv)) l); [|discriminate]. cbn. unfold mk_mapping. destruct (_ && _); discriminate.
  - destruct (rmapM (fun kv => from_value (fst kv)) l); [|discriminate].
    destruct (rmapM (fun kv => from_value (snd kv)) l); [|discriminate]. cbn. unfold mk_mapping. destruct (_ && _); discriminate.
Qed.

Lemma from_value_null : forall v, from_value v = Ok TNull <-> v = VNull.
Proof.
  intro v. split; [|intros ->; reflexivity].
  destruct v; cbn; try discriminate; try reflexivity.
  - destruct (rmapM from_value l); discriminate.
  - destruct (rmapM from_value l); discriminate.
  - destruct (rmapM from_value l); discriminate.
  - destruct (rmapM (fun kv => from_value (fst kv)) l); [|discriminate].
    destruct (rmapM (fun kv => from_value (snd kv)) l); [|discriminate]. cbn. unfold mk_mapping. destruct (_ && _); discriminate.
  - destruct (rmapM (fun kv => from_value (fst kv)) l); [|discriminate].
    destruct (rmapM (fun kv => from_value (snd kv)) l); [|discriminate]. cbn. unfold mk_mapping. destruct (_ && _); discriminate.
Qed.

Lemma from_value_err : forall v x, from_value v = Err x -> x = PType \/ x = XEngine.
Proof.
  assert (Haux : forall A (f : A -> result dtype) l x,
            (forall a y, In a l -> f a = Err y -> y = PType \/ y = XEngine) -> rmapM f l = Err x -> x = PType \/ x = XEngine).
  { intros A f. induction l as [|a l IHl]; cbn; intros x Hf H; [discriminate|].
    destruct (f a) as [b|y] eqn:E; cbn in H; [|inversion H; subst; eauto].
    destruct (rmapM f l) as [bs|y] eqn:E2; cbn in H; [discriminate|]. inversion H; subst. eauto. }
  induction v as [|b|d|z|f|t0|b|w tz|d|u|l IH|l IH|l|l IH|l IH|l IH|n|f|m v IH|n] using value_ind'; intros x H; cbn in H;
    try discriminate H; try (inversion H; auto; fail).
  - destruct (rmapM from_value l) as [ts|y] eqn:E; cbn in H; [discriminate|]. inversion H; subst.
    eapply Haux; [|exact E]. rewrite Forall_forall in IH. eauto.
  - destruct (rmapM from_value l) as [ts|y] eqn:E; cbn in H; [discriminate|]. inversion H; subst.
    eapply Haux; [|exact E]. rewrite Forall_forall in IH. eauto.
  - destruct (rmapM from_value l) as [ts|y] eqn:E; cbn in H; [discriminate|]. inversion H; subst.
    eapply Haux; [|exact E]. rewrite Forall_forall in IH. eauto.
  - rewrite Forall_forall in IH. destruct (rmapM (fun kv => from_value (fst kv)) l) as [ks|y] eqn:E1.
    + destruct (rmapM (fun kv => from_value (snd kv)) l) as [vs|y] eqn:E2; cbn in H.
      * unfold mk_mapping in H. destruct (_ && _); inversion H; auto.
      * inversion H; subst. eapply Haux; [|exact E2]. intros a y Ha. apply IH. exact Ha.
    + cbn in H. inversion H; subst. eapply Haux; [|exact E1]. intros a y Ha. apply IH. exact Ha.
  - rewrite Forall_forall in IH. destruct (rmapM (fun kv => from_value (fst kv)) l) as [ks|y] eqn:E1.
    + destruct (rmapM (fun kv => from_value (snd kv)) l) as [vs|y] eqn:E2; cbn in H.
      * unfold mk_mapping in H. destruct (_ && _); inversion H; auto.
      * inversion H; subst. eapply Haux; [|exact E2]. intros a y Ha. apply IH. exact Ha.
    + cbn in H. inversion H; subst. eapply Haux; [|exact E1]. intros a y Ha. apply IH. exact Ha.
Qed.

(** *** from_value computes [has_type] *)
Definition fv_spec (v : value) : Prop := forall t, from_value v = Ok t <-> has_type v t.

Lemma members_from_value : forall l ts, Forall fv_spec l -> Forall2 (fun v t => from_value v = Ok t) l ts ->
  members_type l (member_type ts).
Proof.
  intros l ts IH H.
  assert (Hc : Forall canon ts).
  { apply Forall_forall. intros t Ht. destruct (Forall2_In_r _ _ _ _ _ _ H Ht) as [x [_ Ex]].
    eapply from_value_canon. exact Ex. }
  rewrite Forall_forall in IH.
  destruct (member_type_cases ts Hc) as [[t [Hin [Hnn [Hall E]]]]|[[Hall E]|[a [b [Ha [Hb [Hna [Hnb [Hab E]]]]]]]]]; rewrite E.
  - destruct (Forall2_In_r _ _ _ _ _ _ H Hin) as [x [Hx Ex]].
    apply Mt_same with (x := x); [exact Hx| |].
    + intro; subst x. cbn in Ex. congruence.
    + intros y Hy Hny. destruct (Forall2_In_l _ _ _ _ _ _ H Hy) as [u [Hu Eu]].
      apply IH; [exact Hy|]. rewrite Eu. f_equal. apply Hall; [exact Hu|]. intro; subst u. apply Hny.
      apply from_value_null. exact Eu.
  - apply Mt_none. intros y Hy. destruct (Forall2_In_l _ _ _ _ _ _ H Hy) as [u [Hu Eu]].
    rewrite (Hall u Hu) in Eu. apply from_value_null. exact Eu.
  - destruct (Forall2_In_r _ _ _ _ _ _ H Ha) as [x [Hx Ex]]. destruct (Forall2_In_r _ _ _ _ _ _ H Hb) as [y [Hy Ey]].
    apply Mt_mixed with (x := x) (y := y) (a := a) (b := b); auto.
    + intros z Hz. destruct (Forall2_In_l _ _ _ _ _ _ H Hz) as [u [Hu Eu]]. exists u. apply IH; assumption.
    + intro; subst x. cbn in Ex. congruence.
    + intro; subst y. cbn in Ey. congruence.
    + apply IH; assumption.
    + apply IH; assumption.
Qed.

Lemma members_rmapM : forall l m, Forall fv_spec l -> members_type l m ->
  exists ts, Forall2 (fun v t => from_value v = Ok t) l ts /\ member_type ts = m.
Proof.
  intros l m IH H. rewrite Forall_forall in IH.
  assert (Hex : forall (Htot : forall x, In x l -> exists t, from_value x = Ok t),
            exists ts, Forall2 (fun v t => from_value v = Ok t) l ts).
  { clear. induction l as [|a l IHl]; intro Htot; [exists []; constructor|].
    destruct (Htot a (or_introl eq_refl)) as [t Et]. destruct IHl as [ts Hts].
    - intros x Hx. apply Htot. right. exact Hx.
    - exists (t :: ts). constructor; assumption. }
  assert (Hcan : forall ts, Forall2 (fun v t => from_value v = Ok t) l ts -> Forall canon ts).
  { intros ts Hts. apply Forall_forall. intros t Ht. destruct (Forall2_In_r _ _ _ _ _ _ Hts Ht) as [x [_ Ex]].
    eapply from_value_canon. exact Ex. }
  inversion H as [l0 m0 x Hx Hnx Hall|l0 Hall|l0 x y a b Htot Hx Hy Hnx Hny Ha Hb Hab]; subst.
  - destruct Hex as [ts Hts].
    { intros y Hy. destruct y as [|b0|d0|z0|f0|t0|b0|w0 tz0|d0|u0|l0|l0|l0|l0|l0|l0|n0|f0|m0 v0|n0];
        try (exists TNull; reflexivity); (exists m; apply IH; [exact Hy|]; apply Hall; [exact Hy|discriminate]). }
    exists ts. split; [exact Hts|].
    destruct (Forall2_In_l _ _ _ _ _ _ Hts Hx) as [t [Ht Et]].
    assert (Em : t = m).
    { assert (E2 : from_value x = Ok m) by (apply IH; [exact Hx|apply Hall; assumption]). congruence. }
    subst t. apply member_type_same; auto.
    + intro; subst m. apply Hnx. apply from_value_null. exact Et.
    + intros u Hu Hnu. destruct (Forall2_In_r _ _ _ _ _ _ Hts Hu) as [y [Hy Ey]].
      assert (E2 : from_value y = Ok m).
      { apply IH; [exact Hy|]. apply Hall; [exact Hy|]. intro; subst y. cbn in Ey. congruence. }
      congruence.
  - destruct Hex as [ts Hts]; [intros y Hy; rewrite (Hall y Hy); exists TNull; reflexivity|].
    exists ts. split; [exact Hts|]. apply member_type_none; auto.
    intros u Hu. destruct (Forall2_In_r _ _ _ _ _ _ Hts Hu) as [y [Hy Ey]]. rewrite (Hall y Hy) in Ey. cbn in Ey. congruence.
  - destruct Hex as [ts Hts].
    { intros z Hz. destruct (Htot z Hz) as [t Ht]. exists t. apply IH; assumption. }
    exists ts. split; [exact Hts|].
    destruct (Forall2_In_l _ _ _ _ _ _ Hts Hx) as [t [Ht Et]]. destruct (Forall2_In_l _ _ _ _ _ _ Hts Hy) as [u [Hu Eu]].
    apply IH in Ha; [|exact Hx]. apply IH in Hb; [|exact Hy].
    apply member_type_mixed with (a := t) (b := u); auto.
    + intro; subst t. apply Hnx. apply from_value_null. exact Et.
    + intro; subst u. apply Hny. apply from_value_null. exact Eu.
    + congruence.
Qed.

Lemma hashable_type : forall v t, hashable v = true -> from_value v = Ok t -> is_compound t && negb (is_array_t t) = false.
Proof.
  intros v t Hh H. destruct v; cbn in *; try discriminate; try (inversion H; subst; reflexivity).
  destruct (rmapM from_value l); inversion H; subst. reflexivity.
Qed.

Lemma key_type_ok : forall ks ts, (forall k, In k ks -> hashable k = true) ->
  Forall2 (fun v t => from_value v = Ok t) ks ts -> is_compound (member_type ts) && negb (is_array_t (member_type ts)) = false.
Proof.
  intros ks ts Hh H.
  assert (Hc : Forall canon ts).
  { apply Forall_forall. intros t Ht. destruct (Forall2_In_r _ _ _ _ _ _ H Ht) as [x [_ Ex]].
    eapply from_value_canon. exact Ex. }
  destruct (member_type_cases ts Hc) as [[t [Hin [Hnn [Hall E]]]]|[[Hall E]|[a [b [Ha [Hb [Hna [Hnb [Hab E]]]]]]]]]; rewrite E; try reflexivity.
  destruct (Forall2_In_r _ _ _ _ _ _ H Hin) as [x [Hx Ex]]. eapply hashable_type; eauto.
Qed.

Lemma rmapM_map : forall A B C (g : A -> B) (f : B -> result C) l, rmapM f (map g l) = rmapM (fun a => f (g a)) l.
Proof.
  intros A B C g f. induction l as [|a l IH]; cbn; [reflexivity|]. rewrite IH. reflexivity.
Qed.

Lemma fv_spec_map : forall l, py_ok (VMap l) \/ py_ok (VDict l) ->
  Forall (fun kv => fv_spec (fst kv) /\ fv_spec (snd kv)) l ->
  forall t, rbind (rmapM (fun kv => from_value (fst kv)) l) (fun ks =>
            rbind (rmapM (fun kv => from_value (snd kv)) l) (fun vs => mk_mapping (member_type ks) (member_type vs) true)) = Ok t
    <-> exists k m, t = TMap k m true /\ members_type (map fst l) k /\ members_type (map snd l) m.
Proof.
  intros l Hok IH t.
  assert (Hh : forall k, In k (map fst l) -> hashable k = true).
  { intros k Hk. apply in_map_iff in Hk. destruct Hk as [[k' x] [Ek Hin]]. cbn in Ek. subst k'.
    destruct Hok as [Hok|Hok]; inversion Hok as [v Hv| | | |l0 H0|l0 H0]; subst; try contradiction; eapply H0; exact Hin. }
  assert (I1 : Forall fv_spec (map fst l)).
  { apply Forall_forall. intros x Hx. apply in_map_iff in Hx. destruct Hx as [p [<- Hp]]. rewrite Forall_forall in IH. apply IH. exact Hp. }
  assert (I2 : Forall fv_spec (map snd l)).
  { apply Forall_forall. intros x Hx. apply in_map_iff in Hx. destruct Hx as [p [<- Hp]]. rewrite Forall_forall in IH. apply IH. exact Hp. }
  rewrite <- (rmapM_map _ _ _ fst from_value), <- (rmapM_map _ _ _ snd from_value).
  split.
  - intro H. destruct (rmapM from_value (map fst l)) as [ks|x] eqn:E1; [|discriminate].
    destruct (rmapM from_value (map snd l)) as [vs|x] eqn:E2; [|discriminate].
    apply rmapM_ok_iff in E1, E2. cbn in H. unfold mk_mapping in H. rewrite (key_type_ok _ _ Hh E1) in H.
    inversion H; subst. exists (member_type ks), (member_type vs). split; [reflexivity|].
    split; apply members_from_value; assumption.
  - intros [k [m [-> [Hk Hm]]]].
    destruct (members_rmapM _ _ I1 Hk) as [ks [F1 E1]]. destruct (members_rmapM _ _ I2 Hm) as [vs [F2 E2]].
    pose proof F1 as F1'. apply rmapM_ok_iff in F1, F2. rewrite F1, F2. cbn. unfold mk_mapping.
    rewrite (key_type_ok _ _ Hh F1'). subst. reflexivity.
Qed.

Lemma fv_spec_list : forall l, Forall fv_spec l -> forall ts0,
  rmapM from_value l = Ok ts0 -> members_type l (member_type ts0).
Proof. intros l IH ts H. apply rmapM_ok_iff in H. apply members_from_value; assumption. Qed.

Lemma from_value_has_type : forall v, py_ok v -> fv_spec v.
Proof.
  induction v as [|b|d|z|f|t0|b|w tz|d|u|l IH|l IH|l|l IH|l IH|l IH|n|f|m v IH|n] using value_ind'; intros Hok t;
    try (cbn; split; intro H; inversion H; subst; constructor; fail).
  - assert (I : Forall fv_spec l).
    { inversion Hok as [v Hv|l0 H0| | | |]; subst; [contradiction|]. rewrite Forall_forall in *. intros x Hx. apply IH; auto. }
    cbn. split; intro H.
    + destruct (rmapM from_value l) as [ts|x] eqn:E; inversion H; subst. constructor. apply fv_spec_list; assumption.
    + inversion H as [| | | | | | | | | |l0 m Hm| | | | | | | |]; subst. destruct (members_rmapM _ _ I Hm) as [ts [F E]].
      apply rmapM_ok_iff in F. rewrite F. cbn. subst. reflexivity.
  - assert (I : Forall fv_spec l).
    { inversion Hok as [v Hv| |l0 H0| | |]; subst; [contradiction|]. rewrite Forall_forall in *. intros x Hx. apply IH; auto. }
    cbn. split; intro H.
    + destruct (rmapM from_value l) as [ts|x] eqn:E; inversion H; subst. constructor. apply fv_spec_list; assumption.
    + inversion H as [| | | | | | | | | | |l0 m Hm| | | | | | |]; subst. destruct (members_rmapM _ _ I Hm) as [ts [F E]].
      apply rmapM_ok_iff in F. rewrite F. cbn. subst. reflexivity.
  - cbn. rewrite member_type_float. split; intro H; inversion H; subst; try constructor.
  - assert (I : Forall fv_spec l).
    { inversion Hok as [v Hv| | |l0 H0| |]; subst; [contradiction|]. rewrite Forall_forall in *. intros x Hx. apply IH; auto. apply H0. exact Hx. }
    cbn. split; intro H.
    + destruct (rmapM from_value l) as [ts|x] eqn:E; inversion H; subst. constructor. apply fv_spec_list; assumption.
    + inversion H as [| | | | | | | | | | | | |l0 m Hm| | | | |]; subst. destruct (members_rmapM _ _ I Hm) as [ts [F E]].
      apply rmapM_ok_iff in F. rewrite F. cbn. subst. reflexivity.
  - assert (I : Forall (fun kv => fv_spec (fst kv) /\ fv_spec (snd kv)) l).
    { inversion Hok as [v Hv| | | |l0 H0|]; subst; [contradiction|]. rewrite Forall_forall in *. intros [k x] Hx.
      destruct (H0 k x Hx) as [A [B C]]. destruct (IH _ Hx) as [P1 P2]. split; [apply P1|apply P2]; assumption. }
    cbn [from_value]. rewrite (fv_spec_map l (or_introl Hok) I t). split.
    + intros [k [m [-> [Hk Hm]]]]. constructor; assumption.
    + intro H. inversion H; subst. eauto.
  - assert (I : Forall (fun kv => fv_spec (fst kv) /\ fv_spec (snd kv)) l).
    { inversion Hok as [v Hv| | | | |l0 H0]; subst; [contradiction|]. rewrite Forall_forall in *. intros [k x] Hx.
      destruct (H0 k x Hx) as [A [B C]]. destruct (IH _ Hx) as [P1 P2]. split; [apply P1|apply P2]; assumption. }
    cbn [from_value]. rewrite (fv_spec_map l (or_intror Hok) I t). split.
    + intros [k [m [-> [Hk Hm]]]]. constructor; assumption.
    + intro H. inversion H; subst. eauto.
Qed.

(** *** from_value succeeds exactly on supported values *)
Lemma rmapM_total : forall A B (f : A -> result B) l,
  (forall a, In a l -> exists b, f a = Ok b) <-> exists l', rmapM f l = Ok l'.
Proof.
  intros A B f l. split.
  - induction l as [|a l IH]; intro H; [exists []; reflexivity|].
    destruct (H a (or_introl eq_refl)) as [b Eb]. destruct IH as [l' E']; [intros x Hx; apply H; right; exact Hx|].
    exists (b :: l'). cbn. rewrite Eb. cbn. rewrite E'. reflexivity.
  - intros [l' H] a Ha. apply rmapM_ok_iff in H. destruct (Forall2_In_l _ _ _ _ _ _ H Ha) as [b [_ Eb]]. eauto.
Qed.

Lemma from_value_supported : forall v, py_ok v -> ((exists t, from_value v = Ok t) <-> supported v).
Proof.
  assert (Haux : forall l, Forall (fun x => (exists t, from_value x = Ok t) <-> supported x) l ->
    ((exists ts, rmapM from_value l = Ok ts) <-> (forall x, In x l -> supported x))).
  { intros l IH. rewrite <- rmapM_total. rewrite Forall_forall in IH. split; intros H x Hx; apply IH; auto. }
  assert (Hm : forall l, py_ok (VMap l) \/ py_ok (VDict l) ->
    (forall kv, In kv l -> ((exists t, from_value (fst kv) = Ok t) <-> supported (fst kv)) /\ ((exists t, from_value (snd kv) = Ok t) <-> supported (snd kv))) ->
    ((exists t, rbind (rmapM (fun kv => from_value (fst kv)) l) (fun ks =>
            rbind (rmapM (fun kv => from_value (snd kv)) l) (fun vs => mk_mapping (member_type ks) (member_type vs) true)) = Ok t)
     <-> (forall k x, In (k, x) l -> supported k /\ supported x))).
  { intros l Hok IH. split.
    - intros [t H] k x Hin. destruct (rmapM (fun kv => from_value (fst kv)) l) as [ks|y] eqn:E1; [|discriminate].
      destruct (rmapM (fun kv => from_value (snd kv)) l) as [vs|y] eqn:E2; [|discriminate].
      assert (T1 : forall a, In a l -> exists b, from_value (fst a) = Ok b) by (apply rmapM_total; eauto).
      assert (T2 : forall a, In a l -> exists b, from_value (snd a) = Ok b) by (apply rmapM_total; eauto).
      destruct (IH _ Hin) as [A B]. split; [apply A; apply (T1 _ Hin)|apply B; apply (T2 _ Hin)].
    - intro H.
      assert (T1 : exists ks, rmapM (fun kv : value * value => from_value (fst kv)) l = Ok ks).
      { apply rmapM_total. intros [k x] Hin. apply IH; [exact Hin|]. apply (H k x Hin). }
      assert (T2 : exists vs, rmapM (fun kv : value * value => from_value (snd kv)) l = Ok vs).
      { apply rmapM_total. intros [k x] Hin. apply IH; [exact Hin|]. apply (H k x Hin). }
      destruct T1 as [ks E1], T2 as [vs E2]. rewrite E1, E2. cbn. unfold mk_mapping.
      rewrite <- (rmapM_map _ _ _ fst from_value) in E1. apply rmapM_ok_iff in E1.
      rewrite (key_type_ok (map fst l) ks); [eauto| |exact E1].
      intros k Hk. apply in_map_iff in Hk. destruct Hk as [[k' x] [Ek Hin]]. cbn in Ek. subst k'.
      destruct Hok as [Hok|Hok]; inversion Hok as [v Hv| | | |l0 H0|l0 H0]; subst; try contradiction; eapply H0; exact Hin. }
  induction v as [|b|d|z|f|t0|b|w tz|d|u|l IH|l IH|l|l IH|l IH|l IH|n|f|m v IH|n] using value_ind'; intros Hok;
    try (cbn; split; [intros _; constructor|intros _; eexists; reflexivity]; fail).
  - assert (I : Forall (fun x => (exists t, from_value x = Ok t) <-> supported x) l).
    { inversion Hok as [v Hv|l0 H0| | | |]; subst; [contradiction|]. rewrite Forall_forall in *. intros x Hx. apply IH; auto. }
    cbn. split.
    + intros [t H]. destruct (rmapM from_value l) as [ts|x] eqn:E; [|discriminate]. constructor. apply Haux; eauto.
    + intro H. inversion H; subst. destruct (proj2 (Haux l I)) as [ts E]; [assumption|]. rewrite E. cbn. eauto.
  - assert (I : Forall (fun x => (exists t, from_value x = Ok t) <-> supported x) l).
    { inversion Hok as [v Hv| |l0 H0| | |]; subst; [contradiction|]. rewrite Forall_forall in *. intros x Hx. apply IH; auto. }
    cbn. split.
    + intros [t H]. destruct (rmapM from_value l) as [ts|x] eqn:E; [|discriminate]. constructor. apply Haux; eauto.
    + intro H. inversion H; subst. destruct (proj2 (Haux l I)) as [ts E]; [assumption|]. rewrite E. cbn. eauto.
  - assert (I : Forall (fun x => (exists t, from_value x = Ok t) <-> supported x) l).
    { inversion Hok as [v Hv| | |l0 H0| |]; subst; [contradiction|]. rewrite Forall_forall in *. intros x Hx. apply IH; auto. apply H0. exact Hx. }
    cbn. split.
    + intros [t H]. destruct (rmapM from_value l) as [ts|x] eqn:E; [|discriminate]. constructor. apply Haux; eauto.
    + intro H. inversion H; subst. destruct (proj2 (Haux l I)) as [ts E]; [assumption|]. rewrite E. cbn. eauto.
  - cbn [from_value]. rewrite (Hm l (or_introl Hok)).
    + split; [intro H; constructor; exact H|intro H; inversion H; subst; assumption].
    + inversion Hok as [v Hv| | | |l0 H0|]; subst; [contradiction|]. rewrite Forall_forall in IH. intros [k x] Hx.
      destruct (H0 k x Hx) as [A [B C]]. destruct (IH _ Hx) as [P1 P2]. split; [apply P1|apply P2]; assumption.
  - cbn [from_value]. rewrite (Hm l (or_intror Hok)).
    + split; [intro H; constructor; exact H|intro H; inversion H; subst; assumption].
    + inversion Hok as [v Hv| | | | |l0 H0]; subst; [contradiction|]. rewrite Forall_forall in IH. intros [k x] Hx.
      destruct (H0 k x Hx) as [A [B C]]. destruct (IH _ Hx) as [P1 P2]. split; [apply P1|apply P2]; assumption.
  - cbn. split; [intros [t H]; discriminate|intro H; inversion H].
Qed.

(** For real Python objects the only exception is TypeError. *)
Lemma from_value_err_type : forall v x, py_ok v -> from_value v = Err x -> x = PType.
Proof.
  assert (Haux : forall A (f : A -> result dtype) l x,
            (forall a y, In a l -> f a = Err y -> y = PType) -> rmapM f l = Err x -> x = PType).
  { intros A f. induction l as [|a l IHl]; cbn; intros x Hf H; [discriminate|].
    destruct (f a) as [b|y] eqn:E; cbn in H; [|inversion H; subst; eauto].
    destruct (rmapM f l) as [bs|y] eqn:E2; cbn in H; [discriminate|]. inversion H; subst. eauto. }
  assert (Hm : forall l x, (forall k w, In (k, w) l -> hashable k = true) ->
    (forall kv, In kv l -> (forall y, from_value (fst kv) = Err y -> y = PType) /\ (forall y, from_value (snd kv) = Err y -> y = PType)) ->
    rbind (rmapM (fun kv => from_value (fst kv)) l) (fun ks =>
            rbind (rmapM (fun kv => from_value (snd kv)) l) (fun vs => mk_mapping (member_type ks) (member_type vs) true)) = Err x
     -> x = PType).
  { intros l x Hh IH H. destruct (rmapM (fun kv => from_value (fst kv)) l) as [ks|y] eqn:E1.
    - destruct (rmapM (fun kv => from_value (snd kv)) l) as [vs|y] eqn:E2; cbn in H.
      + unfold mk_mapping in H. rewrite <- (rmapM_map _ _ _ fst from_value) in E1. apply rmapM_ok_iff in E1.
        rewrite (key_type_ok (map fst l) ks) in H; [discriminate| |exact E1].
        intros k Hk. apply in_map_iff in Hk. destruct Hk as [[k' w] [Ek Hin]]. cbn in Ek. subst k'. eapply Hh. exact Hin.
      + inversion H; subst. eapply Haux; [|exact E2]. intros a y Ha. apply IH. exact Ha.
    - cbn in H. inversion H; subst. eapply Haux; [|exact E1]. intros a y Ha. apply IH. exact Ha. }
  induction v as [|b|d|z|f|t0|b|w tz|d|u|l IH|l IH|l|l IH|l IH|l IH|n|f|m v IH|n] using value_ind'; intros x Hok H; cbn [from_value] in H;
    try discriminate H; try (inversion H; auto; fail).
  - inversion Hok as [v Hv|l0 H0| | | |]; subst; [contradiction|].
    destruct (rmapM from_value l) as [ts|y] eqn:E; cbn in H; [discriminate|]. inversion H; subst.
    eapply Haux; [|exact E]. rewrite Forall_forall in IH. eauto.
  - inversion Hok as [v Hv| |l0 H0| | |]; subst; [contradiction|].
    destruct (rmapM from_value l) as [ts|y] eqn:E; cbn in H; [discriminate|]. inversion H; subst.
    eapply Haux; [|exact E]. rewrite Forall_forall in IH. eauto.
  - inversion Hok as [v Hv| | |l0 H0| |]; subst; [contradiction|].
    destruct (rmapM from_value l) as [ts|y] eqn:E; cbn in H; [discriminate|]. inversion H; subst.
    eapply Haux; [|exact E]. rewrite Forall_forall in IH. intros a y Ha. apply IH; [exact Ha|]. apply H0. exact Ha.
  - inversion Hok as [v Hv| | | |l0 H0|]; subst; [contradiction|]. rewrite Forall_forall in IH. eapply Hm; [| |exact H].
    + intros k w Hin. apply (H0 k w Hin).
    + intros [k w] Hin. destruct (H0 k w Hin) as [A [B C]]. destruct (IH _ Hin) as [P1 P2]. split; intro y; [apply P1|apply P2]; assumption.
  - inversion Hok as [v Hv| | | | |l0 H0]; subst; [contradiction|]. rewrite Forall_forall in IH. eapply Hm; [| |exact H].
    + intros k w Hin. apply (H0 k w Hin).
    + intros [k w] Hin. destruct (H0 k w Hin) as [A [B C]]. destruct (IH _ Hin) as [P1 P2]. split; intro y; [apply P1|apply P2]; assumption.
Qed.
