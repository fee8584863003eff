(** * CoerceFacts: dictionaries, sets and coerce_value *)
From Verif Require Import Base Dec Value EqFacts DType DTypeFacts Types TypesFacts.
From Coq Require Import QArith.
Open Scope Z_scope.

(** keys (members) pairwise unequal *)
Definition apart {tz : TzDb} (l : list value) : Prop := ForallOrdPairs (fun x y => py_eq x y = false) l.

(** ** Independent specification of building a dict or set from a sequence of (key, value) pairs *)

(** first occurrence of every key *)
Fixpoint first_keys {tz : TzDb} (l : list value) : list value :=
  match l with [] => [] | k :: r => k :: filter (fun x => negb (py_eq k x)) (first_keys r) end.
(** the value of the last pair whose key equals [k] *)
Fixpoint last_val {tz : TzDb} {A} (l : list (value * A)) (k : value) : option A :=
  match l with
  | [] => None
  | (k', a) :: r => match last_val r k with Some b => Some b | None => if py_eq k' k then Some a else None end
  end.

Section Dict.
Context {tz : TzDb}.

Lemma dict_put_keys : forall A (m : list (value * A)) k a,
  map fst (dict_put m k a) = set_add (map fst m) k.
Proof.
  intros A m k a. unfold set_add, py_mem. induction m as [|[k' a'] m IH]; cbn; [reflexivity|].
  destruct (py_eq k' k) eqn:E; cbn; [reflexivity|]. rewrite IH.
  destruct (existsb (fun y => py_eq y k) (map fst m)); reflexivity.
Qed.

Lemma mk_dict_keys_aux : forall A (l : list (value * A)) m,
  map fst (fold_left (fun m kv => dict_put m (fst kv) (snd kv)) l m) = fold_left set_add (map fst l) (map fst m).
Proof.
  intros A. induction l as [|[k a] l IH]; intro m; cbn; [reflexivity|]. rewrite IH, dict_put_keys. reflexivity.
Qed.
Lemma mk_dict_keys : forall A (l : list (value * A)), map fst (mk_dict l) = mk_set (map fst l).
Proof. intros A l. apply (mk_dict_keys_aux A l []). Qed.

Lemma apart_snoc : forall l x, apart l -> (forall y, In y l -> py_eq y x = false) -> apart (l ++ [x]).
Proof.
  unfold apart. induction l as [|a l IH]; intros x D H; cbn.
  - constructor; constructor.
  - inversion D as [|? ? D1 D2]; subst. constructor.
    + apply Forall_app. split; [exact D1|]. constructor; [|constructor]. apply H. left. reflexivity.
    + apply IH; [exact D2|]. intros y Hy. apply H. right. exact Hy.
Qed.

Lemma set_add_apart : forall l x, apart l -> apart (set_add l x).
Proof.
  intros l x D. unfold set_add, py_mem. destruct (existsb _ l) eqn:E; [exact D|].
  apply apart_snoc; [exact D|]. intros y Hy. destruct (py_eq y x) eqn:F; [|reflexivity].
  assert (existsb (fun y => py_eq y x) l = true) by (apply existsb_exists; eauto). congruence.
Qed.

Lemma mk_set_apart_aux : forall l acc, apart acc -> apart (fold_left set_add l acc).
Proof. induction l as [|x l IH]; intros acc D; cbn; [exact D|]. apply IH. apply set_add_apart. exact D. Qed.
Lemma mk_set_apart : forall l, apart (mk_set l).
Proof. intro l. apply mk_set_apart_aux. constructor. Qed.
Lemma mk_dict_apart : forall A (l : list (value * A)), apart (map fst (mk_dict l)).
Proof. intros. rewrite mk_dict_keys. apply mk_set_apart. Qed.

Lemma set_add_In : forall l x y, In y (set_add l x) -> In y l \/ y = x.
Proof.
  intros l x y. unfold set_add. destruct (py_mem x l); [auto|]. intro H. apply in_app_iff in H. cbn in H. intuition.
Qed.
Lemma mk_set_In_aux : forall l acc y, In y (fold_left set_add l acc) -> In y acc \/ In y l.
Proof.
  induction l as [|x l IH]; intros acc y H; cbn in *; [auto|].
  apply IH in H. destruct H as [H|H]; [apply set_add_In in H; intuition|auto].
Qed.
Lemma mk_set_In : forall l y, In y (mk_set l) -> In y l.
Proof. intros l y H. apply mk_set_In_aux in H. destruct H as [[]|H]; exact H. Qed.

Lemma dict_put_In : forall A (m : list (value * A)) k a kv, In kv (dict_put m k a) ->
  In kv m \/ (snd kv = a /\ (fst kv = k \/ In (fst kv) (map fst m))).
Proof.
  intros A m k a kv. induction m as [|[k' a'] m IH]; cbn; intro H.
  - destruct H as [<-|[]]. right. cbn. auto.
  - destruct (py_eq k' k).
    + destruct H as [<-|H]; [right; cbn; auto|left; right; exact H].
    + destruct H as [<-|H]; [left; left; reflexivity|]. apply IH in H. intuition.
Qed.
Lemma mk_dict_In_aux : forall A (l : list (value * A)) m k a,
  In (k, a) (fold_left (fun m kv => dict_put m (fst kv) (snd kv)) l m) ->
  In k (map fst m ++ map fst l) /\ In a (map snd m ++ map snd l).
Proof.
  intros A. induction l as [|[k0 a0] l IH]; intros m k a H; cbn in *.
  - rewrite !app_nil_r. split; apply in_map_iff; exists (k, a); auto.
  - apply IH in H. destruct H as [H1 H2]. rewrite dict_put_keys in H1. split.
    + apply in_app_iff in H1. destruct H1 as [H1|H1]; [apply set_add_In in H1|]; apply in_app_iff; cbn; intuition.
    + apply in_app_iff in H2. destruct H2 as [H2|H2]; [|apply in_app_iff; cbn; auto].
      apply in_map_iff in H2. destruct H2 as [[k1 a1] [E H2]]. cbn in E. subst a1.
      apply dict_put_In in H2. destruct H2 as [H2|[H2 _]].
      * apply in_app_iff. left. apply in_map_iff. exists (k1, a). auto.
      * cbn in H2. subst. apply in_app_iff. right. left. reflexivity.
Qed.
Lemma mk_dict_In : forall A (l : list (value * A)) k a, In (k, a) (mk_dict l) -> In k (map fst l) /\ In a (map snd l).
Proof. intros A l k a H. apply (mk_dict_In_aux A l []) in H. exact H. Qed.

(** a dict whose keys are pairwise unequal is rebuilt unchanged *)
Lemma dict_put_new : forall A (m : list (value * A)) k a, (forall y, In y (map fst m) -> py_eq y k = false) ->
  dict_put m k a = m ++ [(k, a)].
Proof.
  intros A. induction m as [|[k' a'] m IH]; intros k a H; cbn; [reflexivity|].
  rewrite (H k') by (left; reflexivity). rewrite IH; [reflexivity|]. intros y Hy. apply H. right. exact Hy.
Qed.
Lemma apart_app : forall l1 l2 x, apart (l1 ++ x :: l2) -> forall y, In y l1 -> py_eq y x = false.
Proof.
  unfold apart. induction l1 as [|a l1 IH]; intros l2 x H y Hy; [contradiction|]. cbn in H. inversion H as [|? ? H1 H2]; subst.
  destruct Hy as [<-|Hy]; [|eapply IH; eassumption].
  rewrite Forall_forall in H1. apply H1. apply in_app_iff. right. left. reflexivity.
Qed.
Lemma mk_dict_id_aux : forall A (l m : list (value * A)), apart (map fst (m ++ l)) ->
  fold_left (fun m kv => dict_put m (fst kv) (snd kv)) l m = m ++ l.
Proof.
  intros A. induction l as [|[k a] l IH]; intros m H; cbn; [rewrite app_nil_r; reflexivity|].
  rewrite dict_put_new.
  - rewrite IH; rewrite <- app_assoc; [reflexivity|exact H].
  - rewrite map_app in H. cbn in H. eapply apart_app. exact H.
Qed.
Lemma mk_dict_id : forall A (l : list (value * A)), apart (map fst l) -> mk_dict l = l.
Proof. intros A l H. apply (mk_dict_id_aux A l []). exact H. Qed.
Lemma mk_set_id_aux : forall l m, apart (m ++ l) -> fold_left set_add l m = m ++ l.
Proof.
  induction l as [|k l IH]; intros m H; cbn; [rewrite app_nil_r; reflexivity|].
  assert (E : set_add m k = m ++ [k]).
  { unfold set_add, py_mem. destruct (existsb _ m) eqn:E; [|reflexivity]. apply existsb_exists in E.
    destruct E as [y [Hy E]]. rewrite (apart_app _ _ _ H y Hy) in E. discriminate. }
  rewrite E, IH; rewrite <- app_assoc; [reflexivity|exact H].
Qed.
Lemma mk_set_id : forall l, apart l -> mk_set l = l.
Proof. intros l H. apply (mk_set_id_aux l []). exact H. Qed.

(** lookup after construction *)
Section Per.
Variable K : value -> Prop.
Hypothesis Ktrans : forall x y z, K x -> K y -> K z -> py_eq x y = true -> py_eq y z = true -> py_eq x z = true.
Hypothesis Ksym : forall x y, K x -> K y -> py_eq x y = py_eq y x.

Lemma per_left : forall x y z, K x -> K y -> K z -> py_eq x y = true -> py_eq x z = py_eq y z.
Proof.
  intros x y z Kx Ky Kz E. apply Bool.eq_true_iff_eq. split; intro H.
  - apply Ktrans with x; auto. rewrite Ksym; auto.
  - apply Ktrans with y; auto.
Qed.

Lemma dict_get_put : forall A (m : list (value * A)) k a k2,
  (forall y, In y (map fst m) -> K y) -> K k -> K k2 ->
  dict_get (dict_put m k a) k2 = if py_eq k k2 then Some a else dict_get m k2.
Proof.
  intros A. induction m as [|[k' a'] m IH]; intros k a k2 Km Kk K2; cbn; [reflexivity|].
  assert (Kk' : K k') by (apply Km; left; reflexivity).
  destruct (py_eq k' k) eqn:E; cbn.
  - rewrite (per_left k' k k2) by auto. destruct (py_eq k k2); reflexivity.
  - rewrite IH; auto; [|intros y Hy; apply Km; right; exact Hy].
    destruct (py_eq k' k2) eqn:E2; [|reflexivity].
    destruct (py_eq k k2) eqn:E3; [|reflexivity].
    exfalso. assert (py_eq k' k = true) by (apply Ktrans with k2; auto; rewrite Ksym; auto). congruence.
Qed.

Lemma dict_get_mk_aux : forall A (l m : list (value * A)) k,
  (forall y, In y (map fst m) -> K y) -> (forall y, In y (map fst l) -> K y) -> K k ->
  dict_get (fold_left (fun m kv => dict_put m (fst kv) (snd kv)) l m) k =
  match last_val l k with Some a => Some a | None => dict_get m k end.
Proof.
  intros A. induction l as [|[k0 a0] l IH]; intros m k Km Kl Kk; cbn; [reflexivity|].
  assert (K0 : K k0) by (apply Kl; left; reflexivity).
  rewrite IH; auto; [|intros y Hy; rewrite dict_put_keys in Hy; apply set_add_In in Hy; destruct Hy as [Hy| ->]; auto
                    |intros y Hy; apply Kl; right; exact Hy].
  destruct (last_val l k); [reflexivity|]. rewrite dict_get_put; auto. destruct (py_eq k0 k); reflexivity.
Qed.
Lemma dict_get_mk : forall A (l : list (value * A)) k, (forall y, In y (map fst l) -> K y) -> K k ->
  dict_get (mk_dict l) k = last_val l k.
Proof.
  intros A l k Kl Kk. unfold mk_dict. rewrite dict_get_mk_aux; auto; [destruct (last_val l k); reflexivity|].
  intros y [].
Qed.

Lemma filter_filter : forall A (f g : A -> bool) l, filter f (filter g l) = filter (fun x => g x && f x) l.
Proof.
  intros A f g. induction l as [|x l IH]; cbn; [reflexivity|]. destruct (g x); cbn; [destruct (f x)|]; rewrite IH; reflexivity.
Qed.
Lemma filter_ext_In : forall A (f g : A -> bool) l, (forall x, In x l -> f x = g x) -> filter f l = filter g l.
Proof.
  intros A f g. induction l as [|x l IH]; cbn; intro H; [reflexivity|]. rewrite (H x) by auto.
  rewrite IH by (intros; apply H; auto). reflexivity.
Qed.
Lemma first_keys_In : forall l x, In x (first_keys l) -> In x l.
Proof.
  induction l as [|k l IH]; intros x H; cbn in *; [exact H|]. destruct H as [H|H]; [auto|].
  apply filter_In in H. right. apply IH. tauto.
Qed.

Lemma mk_set_first_aux : forall l acc, (forall y, In y acc -> K y) -> (forall y, In y l -> K y) ->
  fold_left set_add l acc = acc ++ filter (fun x => negb (py_mem x acc)) (first_keys l).
Proof.
  induction l as [|k l IH]; intros acc Ka Kl; cbn [fold_left first_keys filter]; [rewrite app_nil_r; reflexivity|].
  assert (Kk : K k) by (apply Kl; left; reflexivity).
  rewrite IH; [|intros y Hy; apply set_add_In in Hy; destruct Hy as [Hy| ->]; auto|intros; apply Kl; right; assumption].
  unfold set_add. destruct (py_mem k acc) eqn:E; cbn [negb].
  - f_equal. rewrite filter_filter. apply filter_ext_In. intros x Hx. apply first_keys_In in Hx.
    destruct (py_mem x acc) eqn:F; cbn; [rewrite andb_false_r; reflexivity|]. rewrite andb_true_r.
    destruct (py_eq k x) eqn:G; [|reflexivity]. exfalso.
    unfold py_mem in *. apply existsb_exists in E. destruct E as [y [Hy E]].
    assert (py_mem x acc = true).
    { apply existsb_exists. exists y. split; [exact Hy|]. apply Ktrans with k; auto. apply Kl; right; exact Hx. }
    unfold py_mem in *. congruence.
  - rewrite <- app_assoc. cbn. do 2 f_equal. rewrite filter_filter. apply filter_ext_In. intros x Hx.
    unfold py_mem. rewrite existsb_app. cbn. rewrite orb_false_r.
    destruct (existsb (fun y => py_eq y x) acc), (py_eq k x); reflexivity.
Qed.
Lemma mk_set_first : forall l, (forall y, In y l -> K y) -> mk_set l = first_keys l.
Proof.
  intros l Kl. unfold mk_set. rewrite mk_set_first_aux; auto; [|intros y []].
  cbn [app]. generalize (first_keys l) as m. clear. induction m as [|x r IH]; cbn; [reflexivity|]. f_equal. exact IH.
Qed.

Lemma mk_set_mem_aux : forall l acc x, (forall y, In y acc -> K y) -> (forall y, In y l -> K y) -> K x ->
  py_mem x (fold_left set_add l acc) = py_mem x acc || py_mem x l.
Proof.
  induction l as [|k l IH]; intros acc x Ka Kl Kx; cbn [fold_left]; [unfold py_mem at 3; cbn; rewrite orb_false_r; reflexivity|].
  assert (Kk : K k) by (apply Kl; left; reflexivity).
  rewrite IH; auto; [|intros y Hy; apply set_add_In in Hy; destruct Hy as [Hy| ->]; auto|intros; apply Kl; right; assumption].
  unfold set_add. destruct (py_mem k acc) eqn:E; unfold py_mem in *; cbn.
  - destruct (py_eq k x) eqn:F; cbn; [|reflexivity].
    apply existsb_exists in E. destruct E as [y [Hy E]].
    assert (G : existsb (fun y => py_eq y x) acc = true).
    { apply existsb_exists. exists y. split; [exact Hy|]. apply Ktrans with k; auto. }
    rewrite G. reflexivity.
  - rewrite existsb_app. cbn. rewrite orb_false_r. rewrite orb_assoc. reflexivity.
Qed.
Lemma mk_set_mem : forall l x, (forall y, In y l -> K y) -> K x -> py_mem x (mk_set l) = py_mem x l.
Proof. intros l x Kl Kx. unfold mk_set. rewrite mk_set_mem_aux; auto. intros y []. Qed.
End Per.

End Dict.

(** ** coerce_value *)

Section CoerceFacts.
Context {tz : TzDb}.

(** at no depth of [v] do two keys of one dict become equal by conversion *)
Inductive keys_apart : value -> Prop :=
| Ka_atom : forall v, match v with VArr _ | VList _ | VMap _ | VDict _ => False | _ => True end -> keys_apart v
| Ka_arr : forall l, (forall x, In x l -> keys_apart x) -> keys_apart (VArr l)
| Ka_list : forall l, (forall x, In x l -> keys_apart x) -> keys_apart (VList l)
| Ka_map : forall l, (forall k x, In (k, x) l -> keys_apart k /\ keys_apart x) ->
    (forall ks, rmapM (fun kv => coerce false (fst kv)) l = Ok ks -> apart ks) -> keys_apart (VMap l)
| Ka_dict : forall l, (forall k x, In (k, x) l -> keys_apart k /\ keys_apart x) ->
    (forall ks, rmapM (fun kv => coerce false (fst kv)) l = Ok ks -> apart ks) -> keys_apart (VDict l).

Lemma coerce_arr : forall ver l, coerce ver (VArr l) =
  rbind (rmapM (coerce ver) l) (fun l' => if ver then rmap (fun _ => VArr l') (from_value (VArr l')) else Ok (VArr l')).
Proof. reflexivity. Qed.

Definition coerce_pair (ver : bool) (kv : value * value) : result (value * value) :=
  rbind (coerce ver (fst kv)) (fun k => rbind (coerce ver (snd kv)) (fun w =>
  if hashable k then Ok (k, w) else Err PType)).
Definition coerce_fin (ver : bool) (v : value) : result value :=
  if ver then rmap (fun _ => v) (from_value v) else Ok v.

Lemma coerce_seq : forall ver l, coerce ver (VList l) = rbind (rmapM (coerce ver) l) (fun l' => coerce_fin ver (VArr l'))
  /\ coerce ver (VArr l) = rbind (rmapM (coerce ver) l) (fun l' => coerce_fin ver (VArr l')).
Proof. split; reflexivity. Qed.
Lemma coerce_dict : forall ver l,
  coerce ver (VMap l) = rbind (rmapM (coerce_pair ver) l) (fun l' => coerce_fin ver (VMap (mk_dict l')))
  /\ coerce ver (VDict l) = rbind (rmapM (coerce_pair ver) l) (fun l' => coerce_fin ver (VMap (mk_dict l'))).
Proof. split; reflexivity. Qed.

Lemma coerce_fin_ok : forall ver v v', coerce_fin ver v = Ok v' -> v' = v.
Proof. intros [] v v' H; cbn in H; [|inversion H; reflexivity]. destruct (from_value v); inversion H; reflexivity. Qed.

Lemma coerce_pair_ok : forall ver kv kv', coerce_pair ver kv = Ok kv' <->
  coerce ver (fst kv) = Ok (fst kv') /\ coerce ver (snd kv) = Ok (snd kv') /\ hashable (fst kv') = true.
Proof.
  intros ver [k x] [k' x']. unfold coerce_pair. cbn. split; intro H.
  - destruct (coerce ver k) as [k1|] eqn:E1; [|discriminate]. cbn in H.
    destruct (coerce ver x) as [x1|] eqn:E2; [|discriminate]. cbn in H.
    destruct (hashable k1) eqn:E3; inversion H; subst. auto.
  - destruct H as [H1 [H2 H3]]. rewrite H1. cbn. rewrite H2. cbn. rewrite H3. reflexivity.
Qed.

(** case analysis on what coerce does to a value *)
Lemma coerce_cases : forall ver v v', coerce ver v = Ok v' ->
  match v with
  | VArr l | VList l => exists l', Forall2 (fun x y => coerce ver x = Ok y) l l' /\ v' = VArr l'
  | VRange l => v' = VArr (map (fun z => VDec (dec_of_Z z)) l)
  | VDate d => v' = VDt (d * us_per_day) None
  | VFlt f => v' = VDec (flt_dec f)
  | VInt z => v' = VDec (dec_of_Z z)
  | VMap l | VDict l => exists l', Forall2 (fun x y => coerce_pair ver x = Ok y) l l' /\ v' = VMap (mk_dict l')
  | _ => v' = v
  end.
Proof.
  intros ver v v' H. destruct v; try (apply (coerce_fin_ok ver) in H; exact H).
  - rewrite (proj2 (coerce_seq ver l)) in H. destruct (rmapM (coerce ver) l) as [l'|] eqn:E; [|discriminate]. cbn in H.
    apply coerce_fin_ok in H. apply rmapM_ok_iff in E. eauto.
  - rewrite (proj1 (coerce_seq ver l)) in H. destruct (rmapM (coerce ver) l) as [l'|] eqn:E; [|discriminate]. cbn in H.
    apply coerce_fin_ok in H. apply rmapM_ok_iff in E. eauto.
  - rewrite (proj1 (coerce_dict ver l)) in H. destruct (rmapM (coerce_pair ver) l) as [l'|] eqn:E; [|discriminate]. cbn in H.
    apply coerce_fin_ok in H. apply rmapM_ok_iff in E. eauto.
  - rewrite (proj2 (coerce_dict ver l)) in H. destruct (rmapM (coerce_pair ver) l) as [l'|] eqn:E; [|discriminate]. cbn in H.
    apply coerce_fin_ok in H. apply rmapM_ok_iff in E. eauto.
Qed.

Lemma coerce_verified : forall v v', coerce true v = Ok v' -> exists t, from_value v' = Ok t.
Proof.
  assert (F : forall v v', coerce_fin true v = Ok v' -> exists t, from_value v' = Ok t).
  { intros v v' H. assert (E := coerce_fin_ok _ _ _ H). subst. cbn in H. destruct (from_value v); [eauto|discriminate]. }
  intros v v' H. destruct v; try (apply F in H; exact H).
  - rewrite (proj2 (coerce_seq true l)) in H. destruct (rmapM (coerce true) l); [|discriminate]. apply F in H. exact H.
  - rewrite (proj1 (coerce_seq true l)) in H. destruct (rmapM (coerce true) l); [|discriminate]. apply F in H. exact H.
  - rewrite (proj1 (coerce_dict true l)) in H. destruct (rmapM (coerce_pair true) l); [|discriminate]. apply F in H. exact H.
  - rewrite (proj2 (coerce_dict true l)) in H. destruct (rmapM (coerce_pair true) l); [|discriminate]. apply F in H. exact H.
Qed.

Lemma mk_dict_pairs : forall ver l l', Forall2 (fun x y => coerce_pair ver x = Ok y) l l' ->
  forall k w, In (k, w) (mk_dict l') ->
  (exists k0 x0, In (k0, x0) l /\ coerce ver k0 = Ok k /\ hashable k = true) /\
  (exists k0 x0, In (k0, x0) l /\ coerce ver x0 = Ok w).
Proof.
  intros ver l l' F k w H. apply mk_dict_In in H. destruct H as [H1 H2].
  apply in_map_iff in H1. destruct H1 as [[k1 w1] [E1 H1]]. cbn in E1. subst k1.
  apply in_map_iff in H2. destruct H2 as [[k2 w2] [E2 H2]]. cbn in E2. subst w2.
  destruct (Forall2_In_r _ _ _ _ _ _ F H1) as [[ka xa] [Ha Ea]]. apply coerce_pair_ok in Ea. cbn in Ea.
  destruct (Forall2_In_r _ _ _ _ _ _ F H2) as [[kb xb] [Hb Eb]]. apply coerce_pair_ok in Eb. cbn in Eb.
  split; [exists ka, xa|exists kb, xb]; tauto.
Qed.

Theorem coerce_normal : forall ver v v', coerce ver v = Ok v' -> normal v'.
Proof.
  intro ver. induction v using value_ind'; intros v' H0; apply coerce_cases in H0; cbn in H0; subst; try constructor.
  - destruct H0 as [l' [F ->]]. constructor. intros x Hx. destruct (Forall2_In_r _ _ _ _ _ _ F Hx) as [y [Hy E]].
    rewrite Forall_forall in H. eapply H; eassumption.
  - destruct H0 as [l' [F ->]]. constructor. intros x Hx. destruct (Forall2_In_r _ _ _ _ _ _ F Hx) as [y [Hy E]].
    rewrite Forall_forall in H. eapply H; eassumption.
  - intros x Hx. apply in_map_iff in Hx. destruct Hx as [z [<- _]]. constructor.
  - destruct H0 as [l' [F ->]]. constructor. intros k w Hk. rewrite Forall_forall in H.
    destruct (mk_dict_pairs _ _ _ F _ _ Hk) as [[k0 [x0 [A [B _]]]] [k1 [x1 [A1 B1]]]].
    split; [apply (proj1 (H _ A)); exact B|apply (proj2 (H _ A1)); exact B1].
  - destruct H0 as [l' [F ->]]. constructor. intros k w Hk. rewrite Forall_forall in H.
    destruct (mk_dict_pairs _ _ _ F _ _ Hk) as [[k0 [x0 [A [B _]]]] [k1 [x1 [A1 B1]]]].
    split; [apply (proj1 (H _ A)); exact B|apply (proj2 (H _ A1)); exact B1].
Qed.

(** coerced values are fixed points *)
Lemma coerce_fix_seq : forall b l', (forall y, In y l' -> coerce b y = Ok y) ->
  (b = true -> exists t, from_value (VArr l') = Ok t) -> coerce b (VArr l') = Ok (VArr l').
Proof.
  intros b l' H Ht. rewrite (proj2 (coerce_seq b l')).
  assert (E : rmapM (coerce b) l' = Ok l').
  { apply rmapM_ok_iff. clear Ht. induction l' as [|y l' IH]; constructor; [apply H; left; reflexivity|].
    apply IH. intros; apply H; right; assumption. }
  rewrite E. cbn. destruct b; [|reflexivity]. destruct (Ht eq_refl) as [t Et]. unfold coerce_fin. rewrite Et. reflexivity.
Qed.
Lemma coerce_fix_map : forall b m, apart (map fst m) ->
  (forall k w, In (k, w) m -> coerce b k = Ok k /\ coerce b w = Ok w /\ hashable k = true) ->
  (b = true -> exists t, from_value (VMap m) = Ok t) -> coerce b (VMap m) = Ok (VMap m).
Proof.
  intros b m D H Ht. rewrite (proj1 (coerce_dict b m)).
  assert (E : rmapM (coerce_pair b) m = Ok m).
  { apply rmapM_ok_iff. clear Ht D. induction m as [|[k w] m IH]; constructor.
    - apply coerce_pair_ok. cbn. apply H. left. reflexivity.
    - apply IH. intros; apply H; right; assumption. }
  rewrite E. cbn. rewrite (mk_dict_id _ m D). destruct b; [|reflexivity]. destruct (Ht eq_refl) as [t Et].
  unfold coerce_fin. rewrite Et. reflexivity.
Qed.

Lemma coerce_fix_atom : forall b v, match v with VArr _ | VList _ | VMap _ | VDict _ | VRange _ | VDate _ | VFlt _ | VInt _ => False | _ => True end ->
  (b = true -> exists t, from_value v = Ok t) -> coerce b v = Ok v.
Proof.
  intros b v Hv Ht. assert (coerce b v = coerce_fin b v) as -> by (destruct v; try contradiction; reflexivity).
  destruct b; [|reflexivity]. destruct (Ht eq_refl) as [t Et]. unfold coerce_fin. rewrite Et. reflexivity.
Qed.

Theorem coerce_idem : forall ver v v', coerce ver v = Ok v' ->
  forall b, (b = true -> ver = true) -> coerce b v' = Ok v'.
Proof.
  intros ver v v' H b Hb.
  assert (G : (b = true -> exists t, from_value v' = Ok t) -> coerce b v' = Ok v').
  { revert v' H. induction v using value_ind'; intros v' H0 Ht; assert (H1 := H0); apply coerce_cases in H1; cbn in H1; subst;
      try (apply coerce_fix_atom; [exact I|assumption]).
    - destruct H1 as [l' [F ->]]. apply coerce_fix_seq; [|exact Ht]. intros y Hy.
      destruct (Forall2_In_r _ _ _ _ _ _ F Hy) as [x [Hx E]]. rewrite Forall_forall in H. apply (H x Hx); [exact E|].
      intro Eb. rewrite (Hb Eb) in E. eapply coerce_verified; exact E.
    - destruct H1 as [l' [F ->]]. apply coerce_fix_seq; [|exact Ht]. intros y Hy.
      destruct (Forall2_In_r _ _ _ _ _ _ F Hy) as [x [Hx E]]. rewrite Forall_forall in H. apply (H x Hx); [exact E|].
      intro Eb. rewrite (Hb Eb) in E. eapply coerce_verified; exact E.
    - apply coerce_fix_seq; [|exact Ht]. intros y Hy. apply in_map_iff in Hy. destruct Hy as [z [<- _]].
      apply coerce_fix_atom; [exact I|]. intros _. eexists; reflexivity.
    - destruct H1 as [l' [F ->]]. apply coerce_fix_map; [apply mk_dict_apart| |exact Ht]. intros k w Hk.
      rewrite Forall_forall in H.
      destruct (mk_dict_pairs _ _ _ F _ _ Hk) as [[k0 [x0 [A [B C]]]] [k1 [x1 [A1 B1]]]].
      repeat split; [apply (proj1 (H _ A)); [exact B|]|apply (proj2 (H _ A1)); [exact B1|]|exact C].
      + intro Eb. rewrite (Hb Eb) in B. eapply coerce_verified; exact B.
      + intro Eb. rewrite (Hb Eb) in B1. eapply coerce_verified; exact B1.
    - destruct H1 as [l' [F ->]]. apply coerce_fix_map; [apply mk_dict_apart| |exact Ht]. intros k w Hk.
      rewrite Forall_forall in H.
      destruct (mk_dict_pairs _ _ _ F _ _ Hk) as [[k0 [x0 [A [B C]]]] [k1 [x1 [A1 B1]]]].
      repeat split; [apply (proj1 (H _ A)); [exact B|]|apply (proj2 (H _ A1)); [exact B1|]|exact C].
      + intro Eb. rewrite (Hb Eb) in B. eapply coerce_verified; exact B.
      + intro Eb. rewrite (Hb Eb) in B1. eapply coerce_verified; exact B1. }
  apply G. intro Eb. rewrite (Hb Eb) in H. eapply coerce_verified; exact H.
Qed.

(** *** Totality on real Python objects *)
Lemma po_arr : forall l, py_ok (VArr l) \/ py_ok (VList l) -> forall x, In x l -> py_ok x.
Proof. intros l [H|H]; inversion H; subst; try contradiction; assumption. Qed.
Lemma po_map : forall l, py_ok (VMap l) \/ py_ok (VDict l) ->
  forall k x, In (k, x) l -> py_ok k /\ hashable k = true /\ py_ok x.
Proof. intros l [H|H]; inversion H; subst; try contradiction; assumption. Qed.

Lemma coerce_hashable : forall ver v v', hashable v = true -> coerce ver v = Ok v' -> hashable v' = true.
Proof.
  intro ver. induction v using value_ind'; intros v' Hh H0; cbn in Hh; try discriminate;
    apply coerce_cases in H0; cbn in H0; subst; try exact eq_refl.
  - destruct H0 as [l' [F ->]]. cbn. rewrite Forall_forall in H. apply forallb_forall. intros y Hy.
    destruct (Forall2_In_r _ _ _ _ _ _ F Hy) as [x [Hx E]]. eapply H; [exact Hx| |exact E].
    rewrite forallb_forall in Hh. apply Hh. exact Hx.
  - cbn. apply forallb_forall. intros y Hy. apply in_map_iff in Hy. destruct Hy as [z [<- _]]. reflexivity.
Qed.

Theorem coerce_total : forall v, py_ok v -> exists v', coerce false v = Ok v'.
Proof.
  induction v using value_ind'; intro Hok; try (eexists; reflexivity).
  - rewrite (proj2 (coerce_seq false l)). destruct (proj1 (rmapM_total _ _ (coerce false) l)) as [l' E].
    + intros a Ha. rewrite Forall_forall in H. apply H; [exact Ha|]. apply (po_arr l); auto.
    + rewrite E. cbn. eauto.
  - rewrite (proj1 (coerce_seq false l)). destruct (proj1 (rmapM_total _ _ (coerce false) l)) as [l' E].
    + intros a Ha. rewrite Forall_forall in H. apply H; [exact Ha|]. apply (po_arr l); auto.
    + rewrite E. cbn. eauto.
  - rewrite (proj1 (coerce_dict false l)). destruct (proj1 (rmapM_total _ _ (coerce_pair false) l)) as [l' E].
    + intros [k x] Ha. rewrite Forall_forall in H. destruct (po_map l (or_introl Hok) _ _ Ha) as [A [B C]].
      destruct (H _ Ha) as [Hk Hx]. destruct (Hk A) as [k' Ek]. destruct (Hx C) as [x' Ex]. cbn in Ek, Ex.
      exists (k', x'). apply coerce_pair_ok. cbn. repeat split; auto. eapply coerce_hashable; eassumption.
    + rewrite E. cbn. eauto.
  - rewrite (proj2 (coerce_dict false l)). destruct (proj1 (rmapM_total _ _ (coerce_pair false) l)) as [l' E].
    + intros [k x] Ha. rewrite Forall_forall in H. destruct (po_map l (or_intror Hok) _ _ Ha) as [A [B C]].
      destruct (H _ Ha) as [Hk Hx]. destruct (Hk A) as [k' Ek]. destruct (Hx C) as [x' Ex]. cbn in Ek, Ex.
      exists (k', x'). apply coerce_pair_ok. cbn. repeat split; auto. eapply coerce_hashable; eassumption.
    + rewrite E. cbn. eauto.
Qed.

Lemma coerce_py_ok : forall ver v v', py_ok v -> coerce ver v = Ok v' -> py_ok v'.
Proof.
  intro ver. induction v using value_ind'; intros v' Hok H0; apply coerce_cases in H0; cbn in H0; subst;
    try (constructor; exact I); try exact Hok.
  - destruct H0 as [l' [F ->]]. apply Po_arr. intros y Hy. destruct (Forall2_In_r _ _ _ _ _ _ F Hy) as [x [Hx E]].
    rewrite Forall_forall in H. eapply H; [exact Hx| |exact E]. apply (po_arr l); auto.
  - destruct H0 as [l' [F ->]]. apply Po_arr. intros y Hy. destruct (Forall2_In_r _ _ _ _ _ _ F Hy) as [x [Hx E]].
    rewrite Forall_forall in H. eapply H; [exact Hx| |exact E]. apply (po_arr l); auto.
  - apply Po_arr. intros y Hy. apply in_map_iff in Hy. destruct Hy as [z [<- _]]. constructor. exact I.
  - destruct H0 as [l' [F ->]]. apply Po_map. intros k w Hk. rewrite Forall_forall in H.
    destruct (mk_dict_pairs _ _ _ F _ _ Hk) as [[k0 [x0 [A [B C]]]] [k1 [x1 [A1 B1]]]].
    destruct (po_map l (or_introl Hok) _ _ A) as [P1 [P2 P3]]. destruct (po_map l (or_introl Hok) _ _ A1) as [Q1 [Q2 Q3]].
    repeat split; [eapply (proj1 (H _ A)); [exact P1|exact B]|exact C|eapply (proj2 (H _ A1)); [exact Q3|exact B1]].
  - destruct H0 as [l' [F ->]]. apply Po_map. intros k w Hk. rewrite Forall_forall in H.
    destruct (mk_dict_pairs _ _ _ F _ _ Hk) as [[k0 [x0 [A [B C]]]] [k1 [x1 [A1 B1]]]].
    destruct (po_map l (or_intror Hok) _ _ A) as [P1 [P2 P3]]. destruct (po_map l (or_intror Hok) _ _ A1) as [Q1 [Q2 Q3]].
    repeat split; [eapply (proj1 (H _ A)); [exact P1|exact B]|exact C|eapply (proj2 (H _ A1)); [exact Q3|exact B1]].
Qed.

(** a coerced supported value is supported *)
Lemma coerce_supported : forall ver v v', supported v -> coerce ver v = Ok v' -> supported v'.
Proof.
  intro ver. induction v using value_ind'; intros v' Hs H0; apply coerce_cases in H0; cbn in H0; subst;
    try constructor; try (inversion Hs; subst; assumption).
  - destruct H0 as [l' [F ->]]. constructor. intros y Hy. destruct (Forall2_In_r _ _ _ _ _ _ F Hy) as [x [Hx E]].
    rewrite Forall_forall in H. inversion Hs; subst. eapply H; [exact Hx|auto|exact E].
  - destruct H0 as [l' [F ->]]. constructor. intros y Hy. destruct (Forall2_In_r _ _ _ _ _ _ F Hy) as [x [Hx E]].
    rewrite Forall_forall in H. inversion Hs; subst. eapply H; [exact Hx|auto|exact E].
  - intros y Hy. apply in_map_iff in Hy. destruct Hy as [z [<- _]]. constructor.
  - destruct H0 as [l' [F ->]]. inversion Hs as [| | | | | | | | | | | | | |l0 Hl| | | |]; subst. constructor. intros k w Hk. rewrite Forall_forall in H.
    destruct (mk_dict_pairs _ _ _ F _ _ Hk) as [[k0 [x0 [A [B C]]]] [k1 [x1 [A1 B1]]]].
    split; [eapply (proj1 (H _ A)); [exact (proj1 (Hl _ _ A))|exact B]|eapply (proj2 (H _ A1)); [exact (proj2 (Hl _ _ A1))|exact B1]].
  - destruct H0 as [l' [F ->]]. inversion Hs as [| | | | | | | | | | | | | | |l0 Hl| | |]; subst. constructor. intros k w Hk. rewrite Forall_forall in H.
    destruct (mk_dict_pairs _ _ _ F _ _ Hk) as [[k0 [x0 [A [B C]]]] [k1 [x1 [A1 B1]]]].
    split; [eapply (proj1 (H _ A)); [exact (proj1 (Hl _ _ A))|exact B]|eapply (proj2 (H _ A1)); [exact (proj2 (Hl _ _ A1))|exact B1]].
Qed.

(** with verification: succeeds exactly on supported values *)
Theorem coerce_true_supported : forall v, py_ok v -> ((exists v', coerce true v = Ok v') <-> supported v).
Proof.
  assert (Fin : forall v, py_ok v -> supported v -> coerce_fin true v = Ok v).
  { intros v Hok Hs. apply (from_value_supported v Hok) in Hs. destruct Hs as [t E]. cbn. rewrite E. reflexivity. }
  induction v using value_ind'; intro Hok.
  all: try (split; [intros _; constructor|intros _; eexists; reflexivity]; fail).
  - split.
    + intros [v' E]. apply coerce_cases in E. destruct E as [l' [F _]]. constructor. intros x Hx.
      destruct (Forall2_In_l _ _ _ _ _ _ F Hx) as [y [_ E]]. rewrite Forall_forall in H. apply H; eauto using po_arr.
    + intro Hs. assert (Hs' := Hs). inversion Hs' as [| | | | | | | | | |l0 Hl| | | | | | | |]; subst. rewrite (proj2 (coerce_seq true l)).
      destruct (proj1 (rmapM_total _ _ (coerce true) l)) as [l' E].
      { intros a Ha. rewrite Forall_forall in H. apply H; auto. apply (po_arr l); auto. }
      rewrite E. cbn [rbind]. exists (VArr l'). apply rmapM_ok_iff in E. apply Fin; [apply Po_arr|apply Su_arr]; intros y Hy;
        destruct (Forall2_In_r _ _ _ _ _ _ E Hy) as [x [Hx Ex]].
      * eapply coerce_py_ok; [|exact Ex]. apply (po_arr l); auto.
      * eapply coerce_supported; [|exact Ex]. auto.
  - split.
    + intros [v' E]. apply coerce_cases in E. destruct E as [l' [F _]]. constructor. intros x Hx.
      destruct (Forall2_In_l _ _ _ _ _ _ F Hx) as [y [_ E]]. rewrite Forall_forall in H. apply H; eauto using po_arr.
    + intro Hs. assert (Hs' := Hs). inversion Hs' as [| | | | | | | | | | |l0 Hl| | | | | | |]; subst. rewrite (proj1 (coerce_seq true l)).
      destruct (proj1 (rmapM_total _ _ (coerce true) l)) as [l' E].
      { intros a Ha. rewrite Forall_forall in H. apply H; auto. apply (po_arr l); auto. }
      rewrite E. cbn [rbind]. exists (VArr l'). apply rmapM_ok_iff in E. apply Fin; [apply Po_arr|apply Su_arr]; intros y Hy;
        destruct (Forall2_In_r _ _ _ _ _ _ E Hy) as [x [Hx Ex]].
      * eapply coerce_py_ok; [|exact Ex]. apply (po_arr l); auto.
      * eapply coerce_supported; [|exact Ex]. auto.
  - split; [intros _; constructor|]. intros _. exists (VArr (map (fun z => VDec (dec_of_Z z)) l)).
    apply Fin; [apply Po_arr|apply Su_arr]; intros y Hy; apply in_map_iff in Hy; destruct Hy as [z [<- _]]; constructor; exact I.
  - split.
    + intros [v' E]. assert (E' := E). apply coerce_cases in E. cbn in E. subst. apply coerce_verified in E'.
      apply from_value_supported; assumption.
    + intro Hs. exists (VSet l). apply Fin; assumption.
  - split.
    + intros [v' E]. apply coerce_cases in E. destruct E as [l' [F _]]. constructor. intros k x Hx.
      destruct (Forall2_In_l _ _ _ _ _ _ F Hx) as [[k' x'] [_ E]]. apply coerce_pair_ok in E. cbn in E.
      rewrite Forall_forall in H. destruct (po_map l (or_introl Hok) _ _ Hx) as [P1 [P2 P3]].
      split; [apply (proj1 (H _ Hx)); [exact P1|exists k'; tauto]|apply (proj2 (H _ Hx)); [exact P3|exists x'; tauto]].
    + intro Hs. assert (Hs' := Hs). inversion Hs' as [| | | | | | | | | | | | | |l0 Hl| | | |]; subst.
      rewrite (proj1 (coerce_dict true l)). rewrite Forall_forall in H.
      destruct (proj1 (rmapM_total _ _ (coerce_pair true) l)) as [l' E].
      { intros [k x] Ha. destruct (po_map l (or_introl Hok) _ _ Ha) as [P1 [P2 P3]]. destruct (Hl _ _ Ha) as [S1 S2].
        destruct (proj2 (proj1 (H _ Ha) P1) S1) as [k' Ek]. destruct (proj2 (proj2 (H _ Ha) P3) S2) as [x' Ex].
        exists (k', x'). apply coerce_pair_ok. cbn. repeat split; auto. eapply coerce_hashable; eassumption. }
      rewrite E. cbn [rbind]. exists (VMap (mk_dict l')). apply rmapM_ok_iff in E. apply Fin; [apply Po_map|apply Su_map]; intros k w Hk;
        destruct (mk_dict_pairs _ _ _ E _ _ Hk) as [[k0 [x0 [A [B C]]]] [k1 [x1 [A1 B1]]]];
        destruct (po_map l (or_introl Hok) _ _ A) as [P1 [P2 P3]]; destruct (po_map l (or_introl Hok) _ _ A1) as [Q1 [Q2 Q3]].
      * repeat split; [eapply coerce_py_ok; [|exact B]|exact C|eapply coerce_py_ok; [|exact B1]]; assumption.
      * split; [eapply coerce_supported; [|exact B]; apply (Hl _ _ A)|eapply coerce_supported; [|exact B1]; apply (Hl _ _ A1)].
  - split.
    + intros [v' E]. apply coerce_cases in E. destruct E as [l' [F _]]. constructor. intros k x Hx.
      destruct (Forall2_In_l _ _ _ _ _ _ F Hx) as [[k' x'] [_ E]]. apply coerce_pair_ok in E. cbn in E.
      rewrite Forall_forall in H. destruct (po_map l (or_intror Hok) _ _ Hx) as [P1 [P2 P3]].
      split; [apply (proj1 (H _ Hx)); [exact P1|exists k'; tauto]|apply (proj2 (H _ Hx)); [exact P3|exists x'; tauto]].
    + intro Hs. assert (Hs' := Hs). inversion Hs' as [| | | | | | | | | | | | | | |l0 Hl| | |]; subst.
      rewrite (proj2 (coerce_dict true l)). rewrite Forall_forall in H.
      destruct (proj1 (rmapM_total _ _ (coerce_pair true) l)) as [l' E].
      { intros [k x] Ha. destruct (po_map l (or_intror Hok) _ _ Ha) as [P1 [P2 P3]]. destruct (Hl _ _ Ha) as [S1 S2].
        destruct (proj2 (proj1 (H _ Ha) P1) S1) as [k' Ek]. destruct (proj2 (proj2 (H _ Ha) P3) S2) as [x' Ex].
        exists (k', x'). apply coerce_pair_ok. cbn. repeat split; auto. eapply coerce_hashable; eassumption. }
      rewrite E. cbn [rbind]. exists (VMap (mk_dict l')). apply rmapM_ok_iff in E. apply Fin; [apply Po_map|apply Su_map]; intros k w Hk;
        destruct (mk_dict_pairs _ _ _ E _ _ Hk) as [[k0 [x0 [A [B C]]]] [k1 [x1 [A1 B1]]]];
        destruct (po_map l (or_intror Hok) _ _ A) as [P1 [P2 P3]]; destruct (po_map l (or_intror Hok) _ _ A1) as [Q1 [Q2 Q3]].
      * repeat split; [eapply coerce_py_ok; [|exact B]|exact C|eapply coerce_py_ok; [|exact B1]]; assumption.
      * split; [eapply coerce_supported; [|exact B]; apply (Hl _ _ A)|eapply coerce_supported; [|exact B1]; apply (Hl _ _ A1)].
  - split; [intros [v' E]; discriminate|intro Hs; inversion Hs].
Qed.

(** ... and otherwise raises TypeError *)
Theorem coerce_err : forall ver v x, py_ok v -> coerce ver v = Err x -> x = PType.
Proof.
  intro ver.
  assert (Fin : forall v x, py_ok v -> coerce_fin ver v = Err x -> x = PType).
  { intros v x Hok H. destruct ver; [|discriminate]. cbn in H. destruct (from_value v) eqn:E; [discriminate|].
    inversion H; subst. eapply from_value_err_type; eassumption. }
  assert (Aux : forall A B (f : A -> result B) l x, (forall a y, In a l -> f a = Err y -> y = PType) -> rmapM f l = Err x -> x = PType).
  { intros A B f. induction l as [|a l IHl]; cbn; intros x Hf H; [discriminate|].
    destruct (f a) as [b|y] eqn:E; cbn in H; [|inversion H; subst; eauto].
    destruct (rmapM f l) as [bs|y] eqn:E2; cbn in H; [discriminate|]. inversion H; subst. eauto. }
  induction v using value_ind'; intros x Hok H0; try (apply (Fin _ _ Hok H0)); try (apply Fin in H0; [exact H0|constructor; exact I]).
  - rewrite (proj2 (coerce_seq ver l)) in H0. destruct (rmapM (coerce ver) l) as [l'|y] eqn:E; cbn [rbind] in H0.
    + apply Fin in H0; [exact H0|]. apply rmapM_ok_iff in E. apply Po_arr. intros y Hy.
      destruct (Forall2_In_r _ _ _ _ _ _ E Hy) as [z [Hz Ez]]. eapply coerce_py_ok; [|exact Ez]. apply (po_arr l); auto.
    + inversion H0; subst. eapply Aux; [|exact E]. rewrite Forall_forall in H. intros a y Ha. apply H; [exact Ha|]. apply (po_arr l); auto.
  - rewrite (proj1 (coerce_seq ver l)) in H0. destruct (rmapM (coerce ver) l) as [l'|y] eqn:E; cbn [rbind] in H0.
    + apply Fin in H0; [exact H0|]. apply rmapM_ok_iff in E. apply Po_arr. intros y Hy.
      destruct (Forall2_In_r _ _ _ _ _ _ E Hy) as [z [Hz Ez]]. eapply coerce_py_ok; [|exact Ez]. apply (po_arr l); auto.
    + inversion H0; subst. eapply Aux; [|exact E]. rewrite Forall_forall in H. intros a y Ha. apply H; [exact Ha|]. apply (po_arr l); auto.
  - apply Fin in H0; [exact H0|]. apply Po_arr. intros y Hy. apply in_map_iff in Hy. destruct Hy as [z [<- _]]. constructor. exact I.
  - rewrite (proj1 (coerce_dict ver l)) in H0. rewrite Forall_forall in H. destruct (rmapM (coerce_pair ver) l) as [l'|y] eqn:E; cbn [rbind] in H0.
    + apply Fin in H0; [exact H0|]. apply rmapM_ok_iff in E. apply Po_map; intros k w Hk;
        destruct (mk_dict_pairs _ _ _ E _ _ Hk) as [[k0 [x0 [A [B C]]]] [k1 [x1 [A1 B1]]]];
        destruct (po_map l (or_introl Hok) _ _ A) as [P1 [P2 P3]]; destruct (po_map l (or_introl Hok) _ _ A1) as [Q1 [Q2 Q3]].
      repeat split; [eapply coerce_py_ok; [|exact B]|exact C|eapply coerce_py_ok; [|exact B1]]; assumption.
    + inversion H0; subst. eapply Aux; [|exact E]. intros [k w] y Ha Ey. destruct (po_map l (or_introl Hok) _ _ Ha) as [P1 [P2 P3]].
      unfold coerce_pair in Ey. cbn in Ey. destruct (coerce ver k) eqn:E1; cbn in Ey; [|inversion Ey; subst; eapply (proj1 (H _ Ha)); eassumption].
      destruct (coerce ver w) eqn:E2; cbn in Ey; [|inversion Ey; subst; eapply (proj2 (H _ Ha)); eassumption].
      destruct (hashable a); inversion Ey; reflexivity.
  - rewrite (proj2 (coerce_dict ver l)) in H0. rewrite Forall_forall in H. destruct (rmapM (coerce_pair ver) l) as [l'|y] eqn:E; cbn [rbind] in H0.
    + apply Fin in H0; [exact H0|]. apply rmapM_ok_iff in E. apply Po_map; intros k w Hk;
        destruct (mk_dict_pairs _ _ _ E _ _ Hk) as [[k0 [x0 [A [B C]]]] [k1 [x1 [A1 B1]]]];
        destruct (po_map l (or_intror Hok) _ _ A) as [P1 [P2 P3]]; destruct (po_map l (or_intror Hok) _ _ A1) as [Q1 [Q2 Q3]].
      repeat split; [eapply coerce_py_ok; [|exact B]|exact C|eapply coerce_py_ok; [|exact B1]]; assumption.
    + inversion H0; subst. eapply Aux; [|exact E]. intros [k w] y Ha Ey. destruct (po_map l (or_intror Hok) _ _ Ha) as [P1 [P2 P3]].
      unfold coerce_pair in Ey. cbn in Ey. destruct (coerce ver k) eqn:E1; cbn in Ey; [|inversion Ey; subst; eapply (proj1 (H _ Ha)); eassumption].
      destruct (coerce ver w) eqn:E2; cbn in Ey; [|inversion Ey; subst; eapply (proj2 (H _ Ha)); eassumption].
      destruct (hashable a); inversion Ey; reflexivity.
Qed.

(** *** Coercion keeps the data type when no keys collapse *)
Lemma coerce_true_false : forall v v', coerce true v = Ok v' -> coerce false v = Ok v'.
Proof.
  assert (Aux : forall A B (f g : A -> result B) l l', (forall a b, In a l -> f a = Ok b -> g a = Ok b) -> rmapM f l = Ok l' -> rmapM g l = Ok l').
  { intros A B f g l l' Hf H. apply rmapM_ok_iff in H. apply rmapM_ok_iff. induction H; constructor; auto.
    - apply Hf; [left; reflexivity|assumption].
    - apply IHForall2. intros; apply Hf; [right|]; assumption. }
  induction v using value_ind'; intros v' H0;
    try (apply (coerce_fin_ok true) in H0; subst; reflexivity).
  - rewrite (proj2 (coerce_seq true l)) in H0. rewrite (proj2 (coerce_seq false l)).
    destruct (rmapM (coerce true) l) as [l'|] eqn:E; [|discriminate]. rewrite Forall_forall in H.
    rewrite (Aux _ _ (coerce true) (coerce false) l l'); auto. cbn [rbind] in *. apply (coerce_fin_ok true) in H0. subst. reflexivity.
  - rewrite (proj1 (coerce_seq true l)) in H0. rewrite (proj1 (coerce_seq false l)).
    destruct (rmapM (coerce true) l) as [l'|] eqn:E; [|discriminate]. rewrite Forall_forall in H.
    rewrite (Aux _ _ (coerce true) (coerce false) l l'); auto. cbn [rbind] in *. apply (coerce_fin_ok true) in H0. subst. reflexivity.
  - rewrite (proj1 (coerce_dict true l)) in H0. rewrite (proj1 (coerce_dict false l)).
    destruct (rmapM (coerce_pair true) l) as [l'|] eqn:E; [|discriminate]. rewrite Forall_forall in H.
    rewrite (Aux _ _ (coerce_pair true) (coerce_pair false) l l'); auto.
    + cbn [rbind] in *. apply (coerce_fin_ok true) in H0. subst. reflexivity.
    + intros [k x] [k' x'] Ha Ey. apply coerce_pair_ok in Ey. apply coerce_pair_ok. cbn in *. destruct (H _ Ha). cbn in *. intuition.
  - rewrite (proj2 (coerce_dict true l)) in H0. rewrite (proj2 (coerce_dict false l)).
    destruct (rmapM (coerce_pair true) l) as [l'|] eqn:E; [|discriminate]. rewrite Forall_forall in H.
    rewrite (Aux _ _ (coerce_pair true) (coerce_pair false) l l'); auto.
    + cbn [rbind] in *. apply (coerce_fin_ok true) in H0. subst. reflexivity.
    + intros [k x] [k' x'] Ha Ey. apply coerce_pair_ok in Ey. apply coerce_pair_ok. cbn in *. destruct (H _ Ha). cbn in *. intuition.
Qed.

Lemma Forall2_rmapM_from : forall A B (f : A -> result dtype) (g : B -> result dtype) (R : A -> B -> Prop) l l',
  Forall2 R l l' -> (forall a b, In a l -> R a b -> f a = g b) -> rmapM f l = rmapM g l'.
Proof.
  intros A B f g R l l' F. induction F as [|a b l l' Hab F IH]; intro H; cbn; [reflexivity|].
  rewrite (H a b) by (auto; left; reflexivity). rewrite IH; [reflexivity|]. intros; apply H; [right|]; assumption.
Qed.

Theorem coerce_type : forall v v', keys_apart v -> coerce false v = Ok v' -> from_value v' = from_value v.
Proof.
  induction v using value_ind'; intros v' Ka H0; apply coerce_cases in H0; cbn in H0; subst; try reflexivity.
  - destruct H0 as [l' [F ->]]. cbn. f_equal. symmetry. rewrite Forall_forall in H.
    inversion Ka as [v0 Hv|l0 Hl| | |]; subst; [contradiction|].
    eapply Forall2_rmapM_from; [exact F|]. cbn. intros a b Ha E. symmetry. apply H; auto.
  - destruct H0 as [l' [F ->]]. cbn. f_equal. symmetry. rewrite Forall_forall in H.
    inversion Ka as [v0 Hv| |l0 Hl| |]; subst; [contradiction|].
    eapply Forall2_rmapM_from; [exact F|]. cbn. intros a b Ha E. symmetry. apply H; auto.
  - cbn. rewrite rmapM_map. cbn. assert (E : rmapM (fun _ : Z => Ok TFloat) l = Ok (map (fun _ => TFloat) l)).
    { clear. induction l as [|z l IH]; cbn; [reflexivity|]. rewrite IH. reflexivity. }
    rewrite E. reflexivity.
  - destruct H0 as [l' [F ->]]. rewrite Forall_forall in H. inversion Ka as [v0 Hv| | |l0 Hl Hd|]; subst; [contradiction|].
    rewrite mk_dict_id.
    + cbn. rewrite <- (Forall2_rmapM_from _ _ (fun kv => from_value (fst kv)) (fun kv => from_value (fst kv)) _ _ _ F).
      * rewrite <- (Forall2_rmapM_from _ _ (fun kv => from_value (snd kv)) (fun kv => from_value (snd kv)) _ _ _ F); [reflexivity|].
        intros [k x] [k' x'] Ha E. apply coerce_pair_ok in E. cbn in *. symmetry. apply (proj2 (H _ Ha)); [apply (Hl _ _ Ha)|tauto].
      * intros [k x] [k' x'] Ha E. apply coerce_pair_ok in E. cbn in *. symmetry. apply (proj1 (H _ Ha)); [apply (Hl _ _ Ha)|tauto].
    + apply Hd. apply rmapM_ok_iff. clear - F. induction F as [|a b l l' E F IH]; cbn; constructor; [|exact IH].
      apply coerce_pair_ok in E. tauto.
  - destruct H0 as [l' [F ->]]. rewrite Forall_forall in H. inversion Ka as [v0 Hv| | | |l0 Hl Hd]; subst; [contradiction|].
    rewrite mk_dict_id.
    + cbn. rewrite <- (Forall2_rmapM_from _ _ (fun kv => from_value (fst kv)) (fun kv => from_value (fst kv)) _ _ _ F).
      * rewrite <- (Forall2_rmapM_from _ _ (fun kv => from_value (snd kv)) (fun kv => from_value (snd kv)) _ _ _ F); [reflexivity|].
        intros [k x] [k' x'] Ha E. apply coerce_pair_ok in E. cbn in *. symmetry. apply (proj2 (H _ Ha)); [apply (Hl _ _ Ha)|tauto].
      * intros [k x] [k' x'] Ha E. apply coerce_pair_ok in E. cbn in *. symmetry. apply (proj1 (H _ Ha)); [apply (Hl _ _ Ha)|tauto].
    + apply Hd. apply rmapM_ok_iff. clear - F. induction F as [|a b l l' E F IH]; cbn; constructor; [|exact IH].
      apply coerce_pair_ok in E. tauto.
Qed.

End CoerceFacts.

(** ** What the converted mapping holds *)
Lemma hashable_wfv : forall (tz : TzDb) v, hashable v = true -> wfv v.
Proof.
  intros tz. induction v using value_ind'; intro Hh; try (apply Wf_atom; exact I); try discriminate.
  apply Wf_arr. intros x Hx. rewrite Forall_forall in H. apply H; [exact Hx|]. cbn in Hh. rewrite forallb_forall in Hh. auto.
Qed.

Lemma coerce_dict_content : forall (tz : TzDb), tz_lawful tz -> forall ver l m,
  (coerce ver (VDict l) = Ok (VMap m) \/ coerce ver (VMap l) = Ok (VMap m)) ->
  exists l', Forall2 (fun kv kv' => coerce ver (fst kv) = Ok (fst kv') /\ coerce ver (snd kv) = Ok (snd kv')) l l' /\
    map fst m = first_keys (map fst l') /\ (forall k, In k (map fst m) -> dict_get m k = last_val l' k).
Proof.
  intros tz L ver l m H.
  assert (E : exists l', Forall2 (fun x y => coerce_pair ver x = Ok y) l l' /\ VMap m = VMap (mk_dict l'))
    by (destruct H as [H|H]; apply coerce_cases in H; exact H).
  destruct E as [l' [F E]]. inversion E; subst. exists l'.
  assert (Kl : forall y, In y (map fst l') -> hashable y = true).
  { intros y Hy. apply in_map_iff in Hy. destruct Hy as [[k x] [<- Hy]]. destruct (Forall2_In_r _ _ _ _ _ _ F Hy) as [z [_ Ez]].
    apply coerce_pair_ok in Ez. tauto. }
  assert (T : forall x y z, hashable x = true -> hashable y = true -> hashable z = true -> py_eq x y = true -> py_eq y z = true -> py_eq x z = true).
  { intros x y z Hx Hy Hz. apply py_eq_trans; auto using hashable_wfv. }
  assert (S : forall x y, hashable x = true -> hashable y = true -> py_eq x y = py_eq y x).
  { intros. apply py_eq_sym; auto using hashable_wfv. }
  repeat split.
  - clear - F. induction F as [|a b l l' E F IH]; constructor; [|exact IH]. apply coerce_pair_ok in E. tauto.
  - rewrite mk_dict_keys. apply (mk_set_first (fun v => hashable v = true)); assumption.
  - intros k Hk. apply (dict_get_mk (fun v => hashable v = true)); auto. apply Kl. rewrite mk_dict_keys in Hk. apply mk_set_In. exact Hk.
Qed.

Lemma dec_of_Z_x : forall z, exists q, dec_x (dec_of_Z z) = XQ q /\ (q == inject_Z z)%Q.
Proof.
  intro z. eexists. split; [reflexivity|]. unfold dec_q. cbn.
  assert (E : (if z <? 0 then - Z.of_N (Z.abs_N z) else Z.of_N (Z.abs_N z)) = z) by (destruct (Z.ltb_spec z 0); lia).
  unfold signed. rewrite E. unfold Qeq; cbn; lia.
Qed.

Lemma coerce_int_exact : forall (tz : TzDb) ver z, exists d, coerce ver (VInt z) = Ok (VDec d) /\
  exists q, dec_x d = XQ q /\ (q == inject_Z z)%Q.
Proof. intros tz ver z. exists (dec_of_Z z). split; [destruct ver; reflexivity|apply dec_of_Z_x]. Qed.

Lemma coerce_type_changes : exists v v', py_ok v /\
  @coerce {| utcoff := fun _ _ => 0; tz_fold := fun _ _ => false |} true v = Ok v' /\ from_value v' <> from_value v.
Proof.
  exists (VDict [(VFlt (FFin 3602879701896397 (-55) (DFin false 1 (-1))), VInt 1); (VDec (DFin false 1 (-1)), VStr (s "a"))]).
  eexists. split; [|split; [vm_compute; reflexivity|vm_compute; discriminate]].
  apply Po_dict. intros k x [H|[H|[]]]; inversion H; subst; repeat split; apply Po_scalar; exact I.
Qed.

Lemma from_value_drop_null : forall l1 l2 t,
  from_value (VArr (l1 ++ VNull :: l2)) = Ok t -> from_value (VArr (l1 ++ l2)) = Ok t.
Proof.
  intros l1 l2 t H. cbn in *.
  destruct (rmapM from_value (l1 ++ VNull :: l2)) as [ts|] eqn:E; [|discriminate]. cbn in H. inversion H; subst. clear H.
  apply rmapM_ok_iff in E. apply Forall2_app_inv_l in E. destruct E as [t1 [t2 [F1 [F2 ->]]]].
  inversion F2 as [|? tn ? t3 Hn F3]; subst. cbn in Hn. inversion Hn; subst. clear Hn F2.
  assert (E : rmapM from_value (l1 ++ l2) = Ok (t1 ++ t3)) by (apply rmapM_ok_iff; apply Forall2_app; assumption).
  rewrite E. cbn. do 2 f_equal.
  assert (C : forall l ts, Forall2 (fun a b => from_value a = Ok b) l ts -> Forall canon ts).
  { intros l ts F. induction F; constructor; auto. eapply from_value_canon; eassumption. }
  assert (C1 := C _ _ F1). assert (C3 := C _ _ F3).
  assert (C0 : Forall canon (t1 ++ t3)) by (apply Forall_app; auto).
  assert (C2 : Forall canon (t1 ++ TNull :: t3)) by (apply Forall_app; split; [auto|constructor; [exact I|auto]]).
  assert (In1 : forall u, In u (t1 ++ t3) -> In u (t1 ++ TNull :: t3)).
  { intros u Hu. rewrite in_app_iff in *. cbn. tauto. }
  assert (In2 : forall u, u <> TNull -> In u (t1 ++ TNull :: t3) -> In u (t1 ++ t3)).
  { intros u Hn Hu. rewrite in_app_iff in *. cbn in Hu. intuition congruence. }
  destruct (member_type_cases _ C2) as [[u [A [B [D ->]]]]|[[A ->]|[a [b [A [B [D [G [K ->]]]]]]]]].
  - apply member_type_same; auto.
  - apply member_type_none; auto.
  - apply member_type_mixed with a b; auto.
Qed.
