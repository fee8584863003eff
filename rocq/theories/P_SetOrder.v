(** * Theorems about the order in which the members of a set literal are evaluated (C81)

    ast.py:334-337 keeps the member nodes of a set literal in a Python set, so that they are evaluated in an order that differs from
    run to run.  The model evaluates them in source order; here that is shown not to matter. *)
From Coq Require Import String Lia Permutation.
From Verif Require Import Base Dec Value DType Types Ops EqFacts CoerceFacts ParseUtil Attr Prog Ast Eval Build Engine ProgFacts StateFacts DTypeFacts Fits P_Compare P_State P_Sound Demo.
Open Scope list_scope.

(** ** Without =~ and its relatives, evaluation leaves the groups alone *)
Definition no_match (o : op) : Prop := match o with OSetG _ | OReset => False | _ => True end.
Section NoMatch.
Context {Orc : Oracle} (C : ctx).
Notation em := (emits no_match).
Lemma nm_ret : forall A (r : result A), em (Ret r).
Proof. constructor. Qed.
Lemma nm_bind : forall A B (p : prog A) (f : A -> prog B), em p -> (forall a, em (f a)) -> em (pbind p f).
Proof. intros. apply emits_pbind; assumption. Qed.
Lemma nm_act : forall o, no_match o -> em (act o).
Proof. intros o H. apply emits_act. exact H. Qed.
Lemma nm_dc : em (act OGetDc).
Proof. apply (nm_act OGetDc). exact I. Qed.
Lemma nm_random : forall args, em (b_random args).
Proof.
  intros [|b [|c args]]; unfold b_random; [apply (nm_act (ORandom None)); exact I| |apply nm_ret].
  destruct (truthy b); [|apply (nm_act (ORandom None)); exact I].
  apply nm_bind; [apply nm_ret|]. intros []; [apply (nm_act (ORandom (Some (to_int b)))); exact I|apply nm_ret].
Qed.
Lemma nm_first_order : forall f args, em (apply_first_order C f args).
Proof.
  intros f args. destruct f; cbn [apply_first_order]; try apply nm_random; try apply nm_ret;
    destruct args as [|v [|v2 args]]; try apply nm_ret; try (destruct v; try apply nm_ret).
  all: try (apply nm_bind; [apply nm_dc|]; intro; apply nm_ret).
Qed.
Lemma nm_flat : forall f args, em (apply_flat C f args).
Proof.
  intros f args. destruct f; cbn [apply_flat]; try apply nm_ret.
  - apply (emits_actr _ (OUser n args)). exact I.
  - apply nm_first_order.
  - destruct args as [|a [|b args]]; apply nm_ret.
Qed.
Lemma nm_apply : forall f args, em (apply_fun C f args).
Proof.
  intros f args. unfold apply_fun. destruct f; try apply nm_flat. destruct f; try apply nm_flat; destruct args as [|g [|it [|x args]]]; try apply nm_flat.
  - apply nm_bind; [apply nm_ret|]. intro l. apply nm_bind; [|intro; apply nm_ret]. apply emits_pmapM. intros. apply nm_flat.
  - apply nm_bind; [apply nm_ret|]. intro l. apply nm_bind; [|intro; apply nm_ret]. apply emits_pmapM. intros. apply nm_bind; [|intro; apply nm_ret].
    destruct g; try apply nm_flat. apply nm_ret.
Qed.
Lemma nm_resolve : forall t n b, em (resolve C t n b).
Proof.
  intros t n b. unfold resolve. destruct b.
  - destruct (assoc n (c_bvals C)) as [[]|]; try apply nm_ret.
    + apply nm_bind; [apply (nm_act (ONow _)); exact I|]. intro. apply nm_bind; [apply (nm_act (ONow _)); exact I|intro; apply nm_ret].
    + apply nm_bind; [apply (nm_act (ONow _)); exact I|]. intro. apply nm_bind; [apply (nm_act (ONow _)); exact I|intro; apply nm_ret].
    + apply (nm_act OGetG). exact I.
    + apply emits_pthen; [apply emits_actr; exact I|]. intros [v|[]]; try apply nm_ret. apply emits_actr. exact I.
  - apply nm_bind; [apply (nm_act OScopes); exact I|]. intro l. destruct (find_scope l n); [apply nm_ret|]. apply (emits_actr _ (OResolve t n)). exact I.
Qed.
Inductive nmq {A} (Q : A -> Prop) : prog A -> Prop :=
| Nmq_ret : forall r, (forall a, r = Ok a -> Q a) -> nmq Q (Ret r)
| Nmq_step : forall o k, no_match o -> (forall a, nmq Q (k a)) -> nmq Q (Step o k).
Lemma nmq_bind : forall A B (p : prog A) Q (f : A -> prog B), nmq Q p -> (forall a, Q a -> em (f a)) -> em (pbind p f).
Proof.
  intros A B p Q f H K. unfold pbind. induction H as [r Hr|o k Ho Hk IH]; cbn; [|constructor; assumption]. destruct r as [a|x]; [apply K, Hr; reflexivity|constructor].
Qed.
Lemma nmq_of : forall A B (p : prog A) (f : A -> prog B) Q, em p -> (forall a, nmq Q (f a)) -> nmq Q (pbind p f).
Proof.
  intros A B p f Q H K. unfold pbind. induction H as [r|o k Ho Hk IH]; cbn; [|constructor; assumption]. destruct r as [a|x]; [apply K|constructor; intros a E; discriminate E].
Qed.
Lemma nmq_then : forall A B (p : prog A) Q (f : A -> prog B) R, nmq Q p -> (forall a, Q a -> nmq R (f a)) -> nmq R (pbind p f).
Proof.
  intros A B p Q f R H K. unfold pbind. induction H as [r Hr|o k Ho Hk IH]; cbn; [|constructor; assumption]. destruct r as [a|x]; [apply K, Hr; reflexivity|constructor; intros a E; discriminate E].
Qed.
Lemma nmq_pmapM : forall A B (f : A -> prog B) Q l, (forall a, In a l -> nmq Q (f a)) -> nmq (Forall Q) (pmapM f l).
Proof.
  intros A B f Q l. induction l as [|a l IH]; intro H; [constructor; intros b E; injection E as <-; constructor|]. cbn [pmapM].
  eapply nmq_then; [apply H; left; reflexivity|]. intros b Hb. eapply nmq_then; [apply IH; intros; apply H; right; assumption|]. intros bs Hbs. constructor. intros c E. injection E as <-. constructor; assumption.
Qed.
Lemma nm_comp : forall var cond body l, (forall c, cond = Some c -> em c) -> em body -> em (comp_loop var cond body l).
Proof.
  intros var cond body l Hc Hb. induction l as [|x l IH]; cbn [comp_loop]; [apply nm_ret|]. apply nm_bind.
  - apply emits_with_scope; [exact I|exact I|]. apply nm_bind; [destruct cond as [c|]; [apply nm_bind; [apply Hc; reflexivity|intro; apply nm_ret]|apply nm_ret]|].
    intros []; [apply nm_bind; [exact Hb|intro; apply nm_ret]|apply nm_ret].
  - intro. apply nm_bind; [exact IH|intro; apply nm_ret].
Qed.

(** the expression contains none of =~ =~~ !~ !~~ *)
Definition matchless (e : expr) : Prop := forall search neg a b, ~ part (EBin (BFuzzy search neg) a b) e.
Lemma matchless_part : forall e x, matchless e -> part x e -> matchless x.
Proof. intros e x H P search neg a b K. apply (H search neg a b). eapply part_trans; eassumption. Qed.
Lemma nm_eval : forall thing e, matchless e -> em (eval C thing e).
Proof.
  intros thing. induction e as [v|v t|l IH|l IH|l IH|o a c IHa IHb|r n i c IHr IHi IHc|c m IHc IHm|o n sf IHo|c i sf IHc IHi|c a d sf IHc IHa IHb|n bi t|f l IHf IHl|c a d IHc IHa IHb|o e IHe] using expr_ind';
    intro M; cbn [eval]; try apply nm_ret.
  - rewrite Forall_forall in IH. apply nm_bind; [|intro; apply nm_ret]. apply emits_pmapM. intros a Ha. apply IH; [exact Ha|]. eapply matchless_part; [exact M|]. eapply Pa_arr; [exact Ha|constructor].
  - rewrite Forall_forall in IH. apply nm_bind; [|intro; apply nm_ret]. apply emits_pmapM. intros a Ha. apply nm_bind; [apply IH; [exact Ha|]; eapply matchless_part; [exact M|]; eapply Pa_set; [exact Ha|constructor]|]. intro v. destruct (hashable v); apply nm_ret.
  - rewrite Forall_forall in IH. assert (K : forall kv, In kv l -> em (eval C thing (fst kv)) /\ em (eval C thing (snd kv))).
    { intros [k v] Hk. destruct (IH _ Hk) as [I1 I2]. split; [apply I1; eapply matchless_part; [exact M|]; eapply Pa_key; [exact Hk|constructor]|apply I2; eapply matchless_part; [exact M|]; eapply Pa_val; [exact Hk|constructor]]. }
    apply (nmq_bind _ _ _ (Forall (fun kp : value * prog value => em (snd kp)))).
    + apply nmq_pmapM. intros kv Hk. apply nmq_of; [apply K; exact Hk|]. intro. apply nmq_of; [apply nm_ret|]. intro. constructor. intros c E. injection E as <-. apply K. exact Hk.
    + intros ks Hks. apply nm_bind; [|intro; apply nm_ret]. apply emits_pmapM. intros kp Hkp. apply nm_bind; [|intro; apply nm_ret].
      rewrite Forall_forall in Hks. apply (mk_dict_vals _ (fun p => em p) ks Hks kp Hkp).
  - assert (Ha : em (eval C thing a)) by (apply IHa; eapply matchless_part; [exact M|]; apply Pa_left; constructor).
    assert (Hb : em (eval C thing c)) by (apply IHb; eapply matchless_part; [exact M|]; apply Pa_right; constructor).
    destruct o; (apply nm_bind; [exact Ha|]; intro u).
    + apply nm_bind; [exact Hb|]. intro. apply nm_bind; [apply nm_dc|]. intro. apply nm_ret.
    + apply nm_bind; [exact Hb|]. intro. apply nm_bind; [apply nm_dc|]. intro. apply nm_ret.
    + destruct (is_numeric u); [|apply nm_ret]. apply nm_bind; [exact Hb|]. intro v. destruct (is_numeric v); [|apply nm_ret]. apply nm_bind; [apply nm_dc|]. intro. apply nm_ret.
    + apply nm_bind; [apply nm_ret|]. intro. destruct (dt_eqb _ _); [apply nm_bind; [apply nm_ret|]; intro; apply nm_bind; [exact Hb|]; intro; apply nm_ret|].
      destruct (is_set_t _); [|apply nm_ret]. apply nm_bind; [exact Hb|]. intro. apply nm_ret.
    + destruct (truthy u); [|apply nm_ret]. apply nm_bind; [exact Hb|]. intro. apply nm_ret.
    + destruct (truthy u); [apply nm_ret|]. apply nm_bind; [exact Hb|]. intro. apply nm_ret.
    + apply nm_bind; [exact Hb|]. intro. apply nm_ret.
    + apply nm_bind; [exact Hb|]. intro. apply nm_ret.
    + apply nm_bind; [exact Hb|]. intro. apply nm_ret.
    + exfalso. eapply M. constructor.
  - apply nm_bind; [apply IHi; eapply matchless_part; [exact M|]; apply Pa_cit; constructor|]. intro v. apply nm_bind; [apply nm_ret|]. intro t0. destruct (is_iterable t0); [|apply nm_ret].
    apply nm_bind; [|intro; apply nm_ret]. apply nm_comp.
    + destruct c as [c|]; [|discriminate]. intros p E. injection E as <-. apply IHc. eapply matchless_part; [exact M|]. apply Pa_ccond. constructor.
    + apply IHr. eapply matchless_part; [exact M|]. apply Pa_cres. constructor.
  - apply nm_bind; [apply IHc; eapply matchless_part; [exact M|]; apply Pa_inc; constructor|]. intro. apply nm_bind; [apply nm_ret|]. intro. apply nm_bind; [apply IHm; eapply matchless_part; [exact M|]; apply Pa_inm; constructor|]. intro. apply nm_ret.
  - apply nm_bind; [apply IHo; eapply matchless_part; [exact M|]; apply Pa_attr; constructor|]. intro v. destruct (is_null v && sf); [apply nm_ret|]. destruct (resolve_attr v n) as [r|[]]; try apply nm_ret.
    apply emits_pthen; [apply nm_resolve|]. intros [u|[]]; try apply nm_ret. destruct (c_default C); apply nm_ret.
  - apply nm_bind; [apply IHc; eapply matchless_part; [exact M|]; apply Pa_itc; constructor|]. intro u. destruct (is_null u); [destruct sf; apply nm_ret|]. apply nm_bind; [apply IHi; eapply matchless_part; [exact M|]; apply Pa_iti; constructor|]. intro k. apply nm_bind; [apply nm_ret|]. intro. destruct (py_getitem u k) as [v|[]]; try apply nm_ret. destruct sf; apply nm_ret.
  - apply nm_bind; [apply IHc; eapply matchless_part; [exact M|]; apply Pa_slc; constructor|]. intro u. destruct (is_null u); [destruct sf; apply nm_ret|]. apply nm_bind; [apply IHa; eapply matchless_part; [exact M|]; apply Pa_sla; constructor|]. intro. apply nm_bind; [apply nm_ret|]. intro. apply nm_bind; [apply IHb; eapply matchless_part; [exact M|]; apply Pa_slb; constructor|]. intro.
    apply nm_bind; [apply nm_ret|]. intro. apply nm_bind; [apply nm_ret|]. intro. apply nm_ret.
  - apply emits_pthen; [apply nm_resolve|]. intro r. apply nm_bind; [destruct r as [v|[]]; try apply nm_ret; destruct (c_default C); apply nm_ret|]. intro. apply nm_bind; [apply nm_ret|]. intro. apply nm_ret.
  - rewrite Forall_forall in IHl. apply nm_bind; [apply IHf; eapply matchless_part; [exact M|]; apply Pa_callf; constructor|]. intro fv. destruct (callable fv); [|apply nm_ret].
    apply nm_bind; [apply emits_pmapM; intros a Ha; apply IHl; [exact Ha|]; eapply matchless_part; [exact M|]; eapply Pa_callx; [exact Ha|constructor]|]. intro vs. apply nm_bind; [apply nm_ret|]. intro.
    apply nm_bind; [apply emits_pthen; [apply nm_apply|]; intros []; apply nm_ret|]. intro. apply nm_bind; [apply nm_ret|]. intro. apply nm_bind; [apply nm_ret|]. intro. destruct (is_compat _ _); apply nm_ret.
  - apply nm_bind; [apply IHc; eapply matchless_part; [exact M|]; apply Pa_tc; constructor|]. intro u. destruct (truthy u); [apply IHa; eapply matchless_part; [exact M|]; apply Pa_ta; constructor|apply IHb; eapply matchless_part; [exact M|]; apply Pa_tb; constructor].
  - assert (He : em (eval C thing e)) by (apply IHe; eapply matchless_part; [exact M|]; apply Pa_un; constructor). destruct o; (apply nm_bind; [exact He|]; intro); [apply nm_ret|]. apply nm_bind; [apply nm_dc|]. intro. apply nm_ret.
Qed.
Lemma nm_groups : forall A (p : prog A), em p -> forall w q, s_groups (snd (run w p q)) = s_groups q.
Proof.
  intros A p H. induction H as [r|o k Ho Hk IH]; intros w q; [reflexivity|]. cbn [run].
  assert (G : s_groups (snd (step_op w o q)) = s_groups q) by (destruct o; try contradiction; cbn; try reflexivity; destruct (s_scopes q); reflexivity).
  destruct (step_op w o q) as [a q1]. cbn [snd] in G. rewrite IH. exact G.
Qed.
End NoMatch.

(** ** C81 *)
Section SetOrder.
Context {Orc : Oracle} (C : ctx) (thing : value) (w : world) (q : st).

(** the outcome of a member evaluated on its own, first *)
Definition alone (m : expr) : result value := fst (run w (eval C thing m) q).
(** what a member does wrong: it fails, or it is a mapping or a set *)
Definition spoils (m : expr) (x : exn) : Prop := alone m = Err x \/ exists v, alone m = Ok v /\ hashable v = false /\ x = PType.

Lemma same_after : forall m q1, memoryless w -> same_tls q1 q -> matchless m ->
  fst (run w (eval C thing m) q1) = alone m /\ same_tls (snd (run w (eval C thing m) q1)) q.
Proof.
  intros m q1 M T H. unfold alone. split.
  - destruct (bisim _ (eval C thing m) w w q1 q (M _ _) T) as [l [sy G]]. destruct (run w (eval C thing m) q1), (run w (eval C thing m) q). apply G.
  - destruct T as [T1 [T2 T3]]. unfold same_tls. rewrite eval_scopes, eval_dc, (nm_groups _ _ (nm_eval C thing m H)). auto.
Qed.
Lemma members_run : memoryless w -> forall l q1, same_tls q1 q -> (forall m, In m l -> matchless m) ->
  match fst (run w (pmapM (fun e => do! v := eval C thing e in if hashable v then ok v else raise PType) l) q1) with
  | Ok vs => Forall2 (fun m v => alone m = Ok v /\ hashable v = true) l vs
  | Err x => exists m, In m l /\ spoils m x
  end.
Proof.
  intros M l. induction l as [|m l IH]; intros q1 T H; cbn [pmapM]; [constructor|].
  destruct (same_after m q1 M T (H m (or_introl eq_refl))) as [A B]. rewrite !run_pbind.
  destruct (run w (eval C thing m) q1) as [[v|x] q2]; cbn [fst snd] in *; [|exists m; split; [left; reflexivity|left; congruence]].
  destruct (hashable v) eqn:E; [|cbn [raise run fst]; exists m; split; [left; reflexivity|right; exists v; repeat split; congruence]].
  cbn [ok run]. rewrite run_pbind. specialize (IH q2 B (fun m Hm => H m (or_intror Hm))).
  destruct (run w (pmapM _ l) q2) as [[vs|x] q3]; cbn [fst ok run] in *; [constructor; [split; congruence|exact IH]|destruct IH as [m' [I1 I2]]; exists m'; split; [right; exact I1|exact I2]].
Qed.

(** members are pairwise different and every class of values yielded by a member is there *)
Definition the_set (l : list expr) (a : list value) : Prop :=
  apart a /\ (forall x, In x a -> exists m, In m l /\ alone m = Ok x) /\
  (forall x, hv x -> py_mem x a = true <-> exists m v, In m l /\ alone m = Ok v /\ py_eq v x = true).
Lemma set_run : tz_lawful o_tz -> memoryless w -> forall l, (forall m, In m l -> matchless m) ->
  match fst (run w (eval C thing (ESet l)) q) with
  | Ok r => (forall m, In m l -> exists v, alone m = Ok v /\ hashable v = true) /\ exists a, r = VSet a /\ the_set l a
  | Err x => exists m, In m l /\ spoils m x
  end.
Proof.
  intros TZ M l H. cbn [eval]. rewrite run_pbind. assert (K := members_run M l q (conj eq_refl (conj eq_refl eq_refl)) H).
  destruct (run w (pmapM _ l) q) as [[vs|x] q1]; cbn [fst ok run] in *; [|exact K].
  assert (K1 : forall m, In m l -> exists v, In v vs /\ alone m = Ok v /\ hashable v = true).
  { clear - K. induction K as [|m v l vs [H1 H2] K IH]; intros m' I; [destruct I|]. destruct I as [<-|I]; [exists v; split; [left; reflexivity|auto]|]. destruct (IH m' I) as [v' [J1 J2]]. exists v'. split; [right; exact J1|exact J2]. }
  assert (K2 : forall v, In v vs -> exists m, In m l /\ alone m = Ok v /\ hashable v = true).
  { clear - K. induction K as [|m v l vs [H1 H2] K IH]; intros v' I; [destruct I|]. destruct I as [<-|I]; [exists m; split; [left; reflexivity|auto]|]. destruct (IH v' I) as [m' [J1 J2]]. exists m'. split; [right; exact J1|exact J2]. }
  split; [intros m I; destruct (K1 m I) as [v [_ J]]; exists v; exact J|].
  unfold new_set. exists (o_set_order (mk_set vs)). split; [reflexivity|]. set (a := o_set_order (mk_set vs)).
  assert (P : Permutation a (mk_set vs)) by apply o_set_order_perm.
  assert (HV : Forall hv vs) by (apply Forall_forall; intros v I; destruct (K2 v I) as [m [_ [_ J]]]; exact J).
  destruct (C56_equivalence o_tz TZ) as [_ [Sy Tr]].
  assert (IN : forall x, In x a -> In x vs) by (intros x I; apply mk_set_In, (Permutation_in _ P), I).
  split; [|split].
  - assert (A := mk_set_apart vs). assert (HM : forall x, In x (mk_set vs) -> hv x) by (intros x I; rewrite Forall_forall in HV; apply HV, mk_set_In, I).
    clear - A P Sy HM. apply Permutation_sym in P. revert A HM. generalize (mk_set vs) a P. clear - Sy. intros a b P. induction P as [|x a b P IH|x y a|a b c P1 IH1 P2 IH2]; intros A HM.
    + exact A.
    + inversion A as [|? ? A0 A1]; subst. constructor; [|apply IH; [exact A1|intros; apply HM; right; assumption]]. rewrite Forall_forall in *. intros z I. apply A0. apply (Permutation_in _ (Permutation_sym P)), I.
    + inversion A as [|? ? A0 A1]; subst. inversion A1 as [|? ? A2 A3]; subst. inversion A0 as [|? ? A4 A5]; subst. constructor; [constructor; [|exact A2]|constructor; [exact A5|exact A3]].
      rewrite Sy; [exact A4|apply HM; right; left; reflexivity|apply HM; left; reflexivity].
    + apply IH2; [apply IH1; assumption|]. intros x I. apply HM. apply (Permutation_in _ (Permutation_sym P1)), I.
  - intros x I. destruct (K2 x (IN x I)) as [m [J1 [J2 _]]]. exists m. auto.
  - intros x Hx. assert (E : py_mem x a = py_mem x vs).
    { rewrite <- (mk_set_mem hv Tr vs x) by (first [exact Hx|intros y I; rewrite Forall_forall in HV; apply HV, I]). unfold py_mem. apply Bool.eq_iff_eq_true. rewrite !existsb_exists.
      split; intros [y [I E]]; exists y; (split; [|exact E]); [apply (Permutation_in _ P), I|apply (Permutation_in _ (Permutation_sym P)), I]. }
    rewrite E. unfold py_mem. rewrite existsb_exists. split.
    + intros [v [I V]]. destruct (K2 v I) as [m [J1 [J2 _]]]. exists m, v. auto.
    + intros [m [v [I [A V]]]]. destruct (K1 m I) as [v' [J1 [J2 _]]]. exists v'. split; [exact J1|]. congruence.
Qed.
End SetOrder.

Lemma apart_le : forall (tz : TzDb) a b, tz_lawful tz -> apart a -> Forall hv a -> Forall hv b -> (forall x, In x a -> exists y, In y b /\ py_eq y x = true) -> (length a <= length b)%nat.
Proof.
  intros tz a. induction a as [|x a IH]; intros b TZ A Ha Hb H; [cbn; lia|]. destruct (C56_equivalence tz TZ) as [_ [Sy Tr]].
  destruct (H x (or_introl eq_refl)) as [y [I E]]. destruct (in_split y b I) as [b1 [b2 ->]]. inversion A as [|? ? A0 A1]; subst. inversion Ha as [|? ? Hx Ha']; subst. rewrite Forall_app in Hb. destruct Hb as [Hb1 Hb2]. inversion Hb2 as [|? ? Hy Hb3]; subst.
  assert (L : (length a <= length (b1 ++ b2))%nat); [|rewrite app_length in *; cbn; lia].
  apply IH; [exact TZ|exact A1|exact Ha'|apply Forall_app; auto|]. intros x' I'. destruct (H x' (or_intror I')) as [y' [J E']]. exists y'. split; [|exact E'].
  apply in_app_iff in J as [J|[<-|J]]; [apply in_app_iff; auto| |apply in_app_iff; auto]. exfalso. rewrite Forall_forall in A0, Ha'. specialize (A0 x' I').
  assert (X : py_eq x x' = true) by (apply (Tr x y x' Hx Hy (Ha' x' I')); [rewrite Sy by assumption; exact E|exact E']). rewrite X in A0. discriminate A0.
Qed.

(** A set literal without =~ in its members, with callbacks that have no memory of their own: every member is as if evaluated alone, so
    the value is the set of the members' values; it fails exactly if some member fails or is a mapping or set, with such an error. *)
Theorem C81_members : forall (Orc : Oracle) C thing w q l, tz_lawful o_tz -> memoryless w -> (forall m, In m l -> matchless m) ->
  (forall r, fst (run w (eval C thing (ESet l)) q) = Ok r -> exists a, r = VSet a /\ the_set C thing w q l a) /\
  (forall x, fst (run w (eval C thing (ESet l)) q) = Err x -> exists m, In m l /\ spoils C thing w q m x) /\
  ((exists r, fst (run w (eval C thing (ESet l)) q) = Ok r) <-> forall m, In m l -> exists v, alone C thing w q m = Ok v /\ hashable v = true).
Proof.
  intros Orc C thing w q l TZ M H. assert (K := set_run C thing w q TZ M l H). destruct (fst (run w (eval C thing (ESet l)) q)) as [r|x].
  - destruct K as [K1 K2]. split; [intros r0 E; injection E as <-; exact K2|]. split; [intros x E; discriminate E|]. split; [intros _; exact K1|intros _; exists r; reflexivity].
  - split; [intros r E; discriminate E|]. split; [intros x0 E; injection E as <-; exact K|]. split; [intros [r E]; discriminate E|]. intro G. exfalso.
    destruct K as [m [I [S|[v [S1 [S2 _]]]]]]; destruct (G m I) as [v' [G1 G2]]; congruence.
Qed.

(** Whatever the order in which the members are evaluated: equal sets, or a failure in both cases. *)
Theorem C81_order_irrelevant : forall (Orc : Oracle) C thing w q l l', tz_lawful o_tz -> memoryless w -> (forall m, In m l -> matchless m) -> Permutation l l' ->
  match fst (run w (eval C thing (ESet l)) q), fst (run w (eval C thing (ESet l')) q) with
  | Ok (VSet a), Ok (VSet b) =>
      (forall x, hv x -> py_mem x a = py_mem x b) /\
      ((forall m v, In m l -> alone C thing w q m = Ok v -> nan_free v) -> py_eq (VSet a) (VSet b) = true)
  | Err x, Err y => (exists m, In m l /\ spoils C thing w q m x) /\ (exists m, In m l /\ spoils C thing w q m y)
  | _, _ => False
  end.
Proof.
  intros Orc C thing w q l l' TZ M H P.
  assert (H' : forall m, In m l' -> matchless m) by (intros m I; apply H, (Permutation_in _ (Permutation_sym P)), I).
  assert (PI : forall m, In m l <-> In m l') by (intro m; split; intro I; [apply (Permutation_in _ P)|apply (Permutation_in _ (Permutation_sym P))]; exact I).
  assert (K := set_run C thing w q TZ M l H). assert (K' := set_run C thing w q TZ M l' H').
  destruct (fst (run w (eval C thing (ESet l)) q)) as [r|x], (fst (run w (eval C thing (ESet l')) q)) as [r'|x'].
  - destruct K as [Kl [a [-> [A1 [A2 A3]]]]], K' as [Kl' [b [-> [B1 [B2 B3]]]]].
    assert (HVa : Forall hv a) by (apply Forall_forall; intros x I; destruct (A2 x I) as [m [J1 J2]]; destruct (Kl m J1) as [v [E1 E2]]; unfold hv; congruence).
    assert (HVb : Forall hv b) by (apply Forall_forall; intros x I; destruct (B2 x I) as [m [J1 J2]]; destruct (Kl' m J1) as [v [E1 E2]]; unfold hv; congruence).
    assert (E : forall x, hv x -> py_mem x a = py_mem x b).
    { intros x Hx. apply Bool.eq_iff_eq_true. rewrite (A3 x Hx), (B3 x Hx). split; intros [m [v [I J]]]; exists m, v; (split; [apply PI; exact I|exact J]). }
    split; [exact E|]. intro NF. rewrite Forall_forall in HVa, HVb.
    assert (NA : forall x, In x a -> nan_free x) by (intros x I; destruct (A2 x I) as [m [J1 J2]]; exact (NF m x J1 J2)).
    assert (NB : forall x, In x b -> nan_free x) by (intros x I; destruct (B2 x I) as [m [J1 J2]]; exact (NF m x (proj2 (PI m) J1) J2)).
    assert (MA : forall x, In x a -> exists y, In y b /\ py_eq y x = true).
    { intros x I. apply existsb_exists. fold (py_mem x b). rewrite <- (E x (HVa x I)). apply existsb_exists. exists x. split; [exact I|apply py_eq_refl, NA, I]. }
    assert (MB : forall x, In x b -> exists y, In y a /\ py_eq y x = true).
    { intros x I. apply existsb_exists. fold (py_mem x a). rewrite (E x (HVb x I)). apply existsb_exists. exists x. split; [exact I|apply py_eq_refl, NB, I]. }
    assert (L1 : (length a <= length b)%nat) by (apply (apart_le o_tz); try assumption; apply Forall_forall; assumption).
    assert (L2 : (length b <= length a)%nat) by (apply (apart_le o_tz); try assumption; apply Forall_forall; assumption).
    destruct (C56_equivalence o_tz TZ) as [_ [Sy _]]. cbn [py_eq]. apply Bool.andb_true_iff. split; [apply Nat.eqb_eq; lia|].
    assert (G : forall c, incl c a -> (fix all_in (a b : list value) {struct a} : bool := match a with [] => true | x :: a' => existsb (fun y => py_eq x y) b && all_in a' b end) c b = true).
    { induction c as [|x c IH]; intro Ic; [reflexivity|]. apply Bool.andb_true_iff. split; [|apply IH; intros z Hz; apply Ic; right; exact Hz].
      assert (Ix : In x a) by (apply Ic; left; reflexivity). destruct (MA x Ix) as [y [J1 J2]]. apply existsb_exists. exists y. split; [exact J1|]. rewrite Sy; [exact J2|apply HVa; exact Ix|apply HVb; exact J1]. }
    apply G. apply incl_refl.
  - destruct K as [Kl _], K' as [m [I [S|[v [S1 [S2 _]]]]]]; destruct (Kl m (proj2 (PI m) I)) as [v' [G1 G2]]; congruence.
  - destruct K' as [Kl _], K as [m [I [S|[v [S1 [S2 _]]]]]]; destruct (Kl m (proj1 (PI m) I)) as [v' [G1 G2]]; congruence.
  - split; [exact K|]. destruct K' as [m [I S]]. exists m. split; [apply PI; exact I|exact S].
Qed.

(** ** The type of a set literal *)
(** all members that can be anything but null have the type [t], and there is one *)
Definition uniform (l : list dtype) (t : dtype) : Prop :=
  In t l /\ dt_eqb t TNull = false /\ forall u, In u l -> dt_eqb u TNull = true \/ dt_eqb u t = true.
Lemma dt_add_apart : forall acc t, ForallOrdPairs (fun x y => dt_eqb x y = false) acc -> ForallOrdPairs (fun x y => dt_eqb x y = false) (dt_add acc t).
Proof.
  intros acc t H. unfold dt_add. destruct (existsb (dt_eqb t) acc) eqn:E; [exact H|]. induction H as [|a acc Ha H IH]; cbn; [repeat constructor|].
  cbn [existsb] in E. apply Bool.orb_false_iff in E as [E1 E2]. constructor; [|apply IH; exact E2]. apply Forall_app. split; [exact Ha|]. constructor; [rewrite dt_eqb_sym; exact E1|constructor].
Qed.
Lemma dt_fold_apart : forall l acc, ForallOrdPairs (fun x y => dt_eqb x y = false) acc -> ForallOrdPairs (fun x y => dt_eqb x y = false) (fold_left dt_add l acc).
Proof. intro l. induction l as [|a l IH]; intros acc H; [exact H|]. cbn [fold_left]. apply IH, dt_add_apart, H. Qed.
Lemma dt_fold_In : forall l acc x, In x (fold_left dt_add l acc) -> In x acc \/ In x l.
Proof.
  intro l. induction l as [|a l IH]; intros acc x H; [left; exact H|]. cbn [fold_left] in H. apply IH in H as [H|H]; [|right; right; exact H]. unfold dt_add in H. destruct (existsb _ _); [left; exact H|].
  apply in_app_iff in H as [H|[<-|[]]]; [left; exact H|right; left; reflexivity].
Qed.
Lemma member_type_uniform : forall l, (forall t, uniform l t -> dt_eqb (member_type l) t = true) /\ ((forall t, ~ uniform l t) -> member_type l = TUndef).
Proof.
  intro l. unfold member_type. remember (filter (fun t => negb (dt_eqb t TNull)) (fold_left dt_add l [])) as F eqn:EF.
  assert (IN : forall x, In x F <-> In x (fold_left dt_add l []) /\ dt_eqb x TNull = false) by (intro x; rewrite EF, filter_In, Bool.negb_true_iff; reflexivity).
  assert (SUB : forall x, In x F -> In x l) by (intros x I; apply IN in I as [I _]; apply dt_fold_In in I as [[]|I]; exact I).
  assert (COV : forall x, In x l -> dt_eqb x TNull = false -> exists u, In u F /\ dt_eqb x u = true).
  { intros x I Nx. destruct (proj2 (dt_collect_eqv l []) x I) as [u [J E]]. exists u. split; [|exact E]. apply IN. split; [exact J|]. destruct (dt_eqb u TNull) eqn:Nu; [|reflexivity]. rewrite (dt_eqb_trans _ _ _ E Nu) in Nx. discriminate Nx. }
  assert (AP : ForallOrdPairs (fun x y => dt_eqb x y = false) F).
  { rewrite EF. assert (A := dt_fold_apart l [] (FOP_nil _)). clear - A. induction A as [|a r Ha A IH]; cbn [filter]; [constructor|]. destruct (negb (dt_eqb a TNull)); [|exact IH]. constructor; [|exact IH]. rewrite Forall_forall in *. intros x I. apply filter_In in I as [I _]. apply Ha, I. }
  split.
  - intros t [I [Nt U]]. destruct (COV t I Nt) as [u [J E]].
    assert (ALL : forall x, In x F -> dt_eqb x t = true) by (intros x Ix; destruct (U x (SUB x Ix)) as [K|K]; [apply IN in Ix as [_ Ix]; rewrite Ix in K; discriminate K|exact K]).
    destruct F as [|a [|b r]]; [destruct J|apply ALL; left; reflexivity|]. exfalso. inversion AP as [|? ? A0 A1]; subst. inversion A0 as [|? ? A2 A3]; subst.
    rewrite (dt_eqb_trans a t b) in A2; [discriminate A2|apply ALL; left; reflexivity|rewrite dt_eqb_sym; apply ALL; right; left; reflexivity].
  - intro NU. destruct F as [|a [|b r]]; [reflexivity| |reflexivity]. exfalso. apply (NU a). assert (Ia : In a [a]) by (left; reflexivity). split; [apply SUB, Ia|]. split; [apply IN, Ia|].
    intros u I. destruct (dt_eqb u TNull) eqn:Nu; [left; reflexivity|right]. destruct (COV u I Nu) as [x [[<-|[]] E]]. exact E.
Qed.
(** The inferred type of a set literal does not depend on the order either; it is uniform's type, or undefined. *)
Theorem C81_type : forall l, exists m, rtype (ESet l) = TSet m true /\ (forall t, uniform (map rtype l) t -> dt_eqb m t = true) /\ ((forall t, ~ uniform (map rtype l) t) -> m = TUndef) /\
  forall l', Permutation l l' -> dt_eqb (rtype (ESet l)) (rtype (ESet l')) = true.
Proof.
  intro l. exists (member_type (map rtype l)). split; [reflexivity|]. destruct (member_type_uniform (map rtype l)) as [M1 M2]. split; [exact M1|]. split; [exact M2|].
  intros l' P. assert (P' : Permutation (map rtype l) (map rtype l')) by (apply Permutation_map, P). change (rtype (ESet l)) with (TSet (member_type (map rtype l)) true). change (rtype (ESet l')) with (TSet (member_type (map rtype l')) true).
  change (dt_eqb (TSet (member_type (map rtype l)) true) (TSet (member_type (map rtype l')) true)) with (dt_eqb (member_type (map rtype l)) (member_type (map rtype l')) && Bool.eqb true true)%bool. rewrite Bool.andb_true_r.
  assert (UP : forall t, uniform (map rtype l) t <-> uniform (map rtype l') t).
  { intro t. unfold uniform. split; intros [I [Nt U]]; (split; [|split; [exact Nt|]]).
    - apply (Permutation_in _ P'), I.
    - intros u Iu. apply U, (Permutation_in _ (Permutation_sym P')), Iu.
    - apply (Permutation_in _ (Permutation_sym P')), I.
    - intros u Iu. apply U, (Permutation_in _ P'), Iu. }
  destruct (member_type_uniform (map rtype l')) as [M1' M2'].
  assert (D : (exists t, uniform (map rtype l) t) \/ (forall t, ~ uniform (map rtype l) t)).
  { clear. generalize (map rtype l). intro ts.
    assert (G : forall r, (exists t, In t r /\ dt_eqb t TNull = false /\ forall u, In u ts -> dt_eqb u TNull = true \/ dt_eqb u t = true) \/ (forall t, In t r -> ~ (dt_eqb t TNull = false /\ forall u, In u ts -> dt_eqb u TNull = true \/ dt_eqb u t = true))).
    { induction r as [|t r [[x [I X]]|IH]]; [right; intros t []|left; exists x; split; [right; exact I|exact X]|].
      destruct (negb (dt_eqb t TNull) && forallb (fun u => dt_eqb u TNull || dt_eqb u t) ts)%bool eqn:E.
      - apply Bool.andb_true_iff in E as [E1 E2]. left. exists t. split; [left; reflexivity|]. split; [apply Bool.negb_true_iff, E1|]. rewrite forallb_forall in E2. intros u I. apply Bool.orb_true_iff, E2, I.
      - right. intros x [<-|I]; [|apply IH; exact I]. intros [X1 X2]. rewrite X1 in E. cbn in E. assert (Y : forallb (fun u => dt_eqb u TNull || dt_eqb u t)%bool ts = true) by (apply forallb_forall; intros u I; apply Bool.orb_true_iff, X2, I). congruence. }
    destruct (G ts) as [[t [I X]]|X]; [left; exists t; split; [exact I|exact X]|right; intros t [I U]; exact (X t I U)]. }
  destruct D as [[t U]|NU].
  - apply (dt_eqb_trans _ t); [apply M1, U|rewrite dt_eqb_sym; apply M1', UP, U].
  - rewrite (M2 NU), M2' by (intros t K; apply (NU t), UP, K). reflexivity.
Qed.
Print Assumptions C81_type.
Print Assumptions C81_members.
Print Assumptions C81_order_irrelevant.

(** without =~ is needed: the groups read by one member are those of another one's match, if that comes first *)
Definition c81_match : expr := EBin (BFuzzy false false) (sym "name") (ELit (VStr (s "Lu"))).
Definition c81_groups : expr := EBin BEq (ESym (s "re_groups") true (TArray TString true)) (ELit VNull).
Example C81_match_refuted :
  fst (run demo_world (rule_evaluate untyped_ctx (ESet [c81_match; c81_groups]) demo_thing) demo_st) = Ok (VSet [VBool true; VBool false]) /\
  fst (run demo_world (rule_evaluate untyped_ctx (ESet [c81_groups; c81_match]) demo_thing) demo_st) = Ok (VSet [VBool true]).
Proof. vm_compute. split; reflexivity. Qed.
(** a set with equal members, and one where two members fail, in both orders *)
Definition c81_three : expr := EBin BAdd (ELit (num 1)) (ELit (num 2)).
Definition c81_fails : expr := EBin (BArith TDiv) (sym "n") (ELit (num 0)).
Example C81_example :
  tz_lawful o_tz /\ memoryless demo_world /\ (forall m, In m [sym "n"; sym "name"; c81_three] -> matchless m) /\
  fst (run demo_world (eval untyped_ctx demo_thing (ESet [sym "n"; sym "name"; c81_three])) demo_st) = Ok (VSet [num 3; VStr (s "Luke")]) /\
  fst (run demo_world (eval untyped_ctx demo_thing (ESet [c81_three; sym "name"; sym "n"])) demo_st) = Ok (VSet [num 3; VStr (s "Luke")]) /\
  fst (run demo_world (eval untyped_ctx demo_thing (ESet [c81_fails; sym "nope"])) demo_st) = Err XEval /\
  fst (run demo_world (eval untyped_ctx demo_thing (ESet [sym "nope"; c81_fails])) demo_st) = Err (XSymRes (s "nope") (Some (s "n"))).
Proof.
  split; [exact (proj2 C18_example_tz)|]. split; [exact C07_memoryless_world|]. split; [|vm_compute; repeat split].
  intros m [<-|[<-|[<-|[]]]] x n a b P; inversion P; subst; repeat match goal with H : part _ (ELit _) |- _ => inversion H end.
Qed.
Example C81_type_example :
  rtype (ESet [ELit VNull; ELit (num 1); EBin (BArith Mul) (ELit (num 1)) (sym "n")]) = TSet TFloat true /\ rtype (ESet [ELit (num 1); sym "n"]) = TSet TUndef true /\
  uniform [TNull; TFloat; TFloat] TFloat /\ ~ uniform [TFloat; TUndef] TFloat.
Proof.
  split; [reflexivity|]. split; [reflexivity|]. split.
  - split; [right; left; reflexivity|]. split; [reflexivity|]. intros u [<-|[<-|[<-|[]]]]; auto.
  - intros [_ [_ U]]. destruct (U TUndef) as [E|E]; [right; left; reflexivity|discriminate E|discriminate E].
Qed.
