(** * Theorems about rules with and without declared types (C85) *)
From Coq Require Import QArith Lia String.
From Verif Require Import Base Dec Value DType DTypeFacts Types TypesFacts OrdFacts EqFacts CoerceFacts Ops ParseUtil Attr Prog Ast Eval Build Engine ProgFacts StateFacts Post P_Ops P_Sound P_Aware P_Construct Demo.
Open Scope list_scope.
Open Scope Z_scope.

(** ** Specification *)
(** the context without declared types *)
Definition undeclared (C : ctx) : ctx :=
  {| c_flags := c_flags C; c_tz := c_tz C; c_default := c_default C; c_dec := c_dec C; c_types := fun _ => Ok TUndef;
     c_bvals := c_bvals C; c_btypes := c_btypes C; c_btz := c_btz C |}.
(** the expression with the declared types of its symbols forgotten; the types of builtins are not declared *)
Fixpoint erase (e : expr) : expr :=
  match e with
  | ESym n false _ => ESym n false TUndef
  | ELit _ | EFun _ _ | ESym _ _ _ => e
  | EArr l => EArr (map erase l)
  | ESet l => ESet (map erase l)
  | EMap l => EMap (map (fun kv => (erase (fst kv), erase (snd kv))) l)
  | EBin o a b => EBin o (erase a) (erase b)
  | EComp r v i c => EComp (erase r) v (erase i) (match c with Some x => Some (erase x) | None => None end)
  | EIn c m => EIn (erase c) (erase m)
  | EAttr o n sf => EAttr (erase o) n sf
  | EItem c i sf => EItem (erase c) (erase i) sf
  | ESlice c a b sf => ESlice (erase c) (erase a) (erase b) sf
  | ECall f l => ECall (erase f) (map erase l)
  | ETern c a b => ETern (erase c) (erase a) (erase b)
  | EUn o x => EUn o (erase x)
  end.
(** a value that is not of the declared type, or of no type of the engine at all *)
Definition type_failure (x : exn) : Prop := (exists n, x = XSymType n) \/ x = PType \/ x = XEngine.

(** ** p' behaves like p unless p raises one of these *)
Section Adds.
Context (X : exn -> Prop).
Definition adds {A} (p p' : prog A) : Prop := forall w q, (exists x q', X x /\ run w p q = (Err x, q')) \/ run w p q = run w p' q.
Lemma adds_refl : forall A (p : prog A), adds p p.
Proof. intros A p w q. right. reflexivity. Qed.
Lemma adds_bind : forall A B (p p' : prog A) (f f' : A -> prog B), adds p p' -> (forall a, adds (f a) (f' a)) -> adds (pbind p f) (pbind p' f').
Proof.
  intros A B p p' f f' H K w q. rewrite !run_pbind. destruct (H w q) as [[x [q' [Hx R]]]|R].
  - left. exists x, q'. rewrite R. split; [exact Hx|reflexivity].
  - rewrite <- R. destruct (run w p q) as [[a|x] q1]; [apply K|right; reflexivity].
Qed.
Lemma adds_then : forall A B (p : prog A) (f f' : result A -> prog B), (forall r, adds (f r) (f' r)) -> adds (pthen p f) (pthen p f').
Proof. intros A B p f f' K w q. rewrite !run_pthen. destruct (run w p q) as [r q1]. apply K. Qed.
Lemma adds_scope : forall A a (p p' : prog A), keeps s_scopes p -> adds p p' -> adds (with_scope a p) (with_scope a p').
Proof.
  intros A a p p' Kp H w q. rewrite !run_with_scope. destruct (H w (set_scopes (s_scopes q ++ [a]) q)) as [[x [q' [Hx R]]]|R].
  - left. assert (Z := Kp w (set_scopes (s_scopes q ++ [a]) q)). rewrite R in Z |- *. cbn [snd set_scopes s_scopes] in Z. rewrite Z. destruct (s_scopes q ++ [a]) eqn:E; [destruct (s_scopes q); discriminate E|]. eexists x, _. split; [exact Hx|reflexivity].
  - right. rewrite R. reflexivity.
Qed.
Lemma adds_pmapM : forall A A' B (f : A -> prog B) (f' : A' -> prog B) l l', Forall2 (fun a a' => adds (f a) (f' a')) l l' -> adds (pmapM f l) (pmapM f' l').
Proof.
  intros A A' B f f' l l' H. induction H as [|a a' l l' Ha H IH]; [apply adds_refl|]. cbn [pmapM]. apply adds_bind; [exact Ha|]. intro b. apply adds_bind; [exact IH|]. intro. apply adds_refl.
Qed.
Lemma adds_comp_loop : forall var c c' b b', match c, c' with Some c, Some c' => keeps s_scopes c /\ adds c c' | None, None => True | _, _ => False end -> keeps s_scopes b -> adds b b' ->
  forall l, adds (comp_loop var c b l) (comp_loop var c' b' l).
Proof.
  intros var c c' b b' Hc Kb Hb. induction l as [|x l IH]; [apply adds_refl|]. cbn [comp_loop]. apply adds_bind.
  - apply adds_scope.
    + apply keeps_pbind; [destruct c as [c|]; [apply keeps_pbind; [destruct c'; [apply Hc|destruct Hc]|]; intro; apply keeps_ret|apply keeps_ret]|]. intros []; [apply keeps_pbind; [exact Kb|]; intro; apply keeps_ret|apply keeps_ret].
    + apply adds_bind; [destruct c, c'; try (exact (False_ind _ Hc)); [apply adds_bind; [apply Hc|intro; apply adds_refl]|apply adds_refl]|].
      intros []; [apply adds_bind; [exact Hb|intro; apply adds_refl]|apply adds_refl].
  - intro o. apply adds_bind; [exact IH|]. intro. apply adds_refl.
Qed.
Definition aentries {Orc : Oracle} : list (value * prog value) -> list (value * prog value) -> Prop := Forall2 (fun e e' => fst e = fst e' /\ adds (snd e) (snd e')).
Lemma aentries_put : forall {Orc : Oracle} m m' k p p', aentries m m' -> adds p p' -> aentries (dict_put m k p) (dict_put m' k p').
Proof.
  intros Orc m m' k p p' H Hp. induction H as [|[a x] [a' x'] m m' [E Hb] H IH]; cbn.
  - constructor; [split; [reflexivity|exact Hp]|constructor].
  - cbn in E, Hb. subst a'. destruct (py_eq a k); constructor; try assumption; split; try reflexivity; assumption.
Qed.
Lemma aentries_mk : forall {Orc : Oracle} l l', aentries l l' -> aentries (mk_dict l) (mk_dict l').
Proof.
  intros Orc l l' H. unfold mk_dict. assert (Gen : forall m m', aentries m m' -> aentries (fold_left (fun m kv => dict_put m (fst kv) (snd kv)) l m) (fold_left (fun m kv => dict_put m (fst kv) (snd kv)) l' m')).
  { induction H as [|[a x] [a' x'] l l' [E Hb] H IH]; intros m m' Hm; [exact Hm|]. cbn in *. subst a'. apply IH. apply aentries_put; assumption. }
  apply Gen. constructor.
Qed.
End Adds.

(** ** Evaluation *)
Section Eval.
Context {Orc : Oracle} (C : ctx) (thing : value) (X : exn -> Prop).
Hypothesis HX : forall x, type_failure x -> X x.
Lemma str_lit_erase : forall e, is_str_lit (erase e) = is_str_lit e.
Proof. intros []; try reflexivity. destruct builtin; reflexivity. Qed.
Lemma adds_sym : forall n t v, adds X (Ret (sym_check n t v)) (Ret (sym_check n TUndef v)).
Proof.
  intros n t v w q. cbn [run]. destruct (sym_check n t v) as [u|x] eqn:E.
  - right. unfold sym_check in E. f_equal. destruct (is_undef t); [injection E as ->; reflexivity|]. destruct (from_value v) as [vt|]; [|discriminate E]. cbn [rbind] in E. cbn [sym_check is_undef].
    repeat match type of E with (if ?b then _ else _) = _ => destruct b end; first [injection E as ->; reflexivity|discriminate E].
  - left. exists x, q. split; [|reflexivity]. apply HX. unfold sym_check in E. destruct (is_undef t); [discriminate E|]. destruct (from_value v) as [vt|y] eqn:F.
    + cbn [rbind] in E. left. exists n. repeat match type of E with (if ?b then _ else _) = _ => destruct b end; first [discriminate E|injection E as <-; reflexivity].
    + injection E as <-. destruct (from_value_err _ _ F) as [-> | ->]; unfold type_failure; auto.
Qed.
(** calls: the declared type of what is called is forgotten or not declared, and every error is allowed for *)
Definition call_ok (f : expr) : Prop := (forall x, X x) /\ (rtype (erase f) = TUndef \/ rtype (erase f) = rtype f).
Lemma adds_eval : forall e, (forall f l, part (ECall f l) e -> call_ok f) -> adds X (eval C thing e) (eval C thing (erase e)).
Proof.
  assert (Ke : forall e, keeps s_scopes (eval C thing e)) by (intros e w q; apply eval_scopes).
  assert (L : forall l, Forall (fun e => (forall f l, part (ECall f l) e -> call_ok f) -> adds X (eval C thing e) (eval C thing (erase e))) l -> (forall e, In e l -> forall f l, part (ECall f l) e -> call_ok f) -> Forall2 (fun a a' => adds X (eval C thing a) (eval C thing a')) l (map erase l)).
  { induction l as [|x l IH]; intros F H; [constructor|]. inversion F; subst. cbn [map]. constructor; [match goal with K : _ -> adds X _ _ |- _ => apply K end; apply H; left; reflexivity|apply IH; [assumption|intros e I; apply H; right; exact I]]. }
  intro e. induction e as [v|v t|l IH|l IH|l IH|o a b IHa IHb|r v i c IHr IHi IHc|c m IHc IHm|o n sf IHo|c i sf IHc IHi|c a b sf IHc IHa IHb|n b t|f l IHf IHl|c a b IHc IHa IHb|o e IHe] using expr_ind'; intro H; cbn [erase]; try (apply adds_refl).
  - cbn [eval]. apply adds_bind; [|intro; apply adds_refl]. apply adds_pmapM, L; [exact IH|]. intros e I f l0 K. eapply H, Pa_arr; eassumption.
  - cbn [eval]. apply adds_bind; [|intro; apply adds_refl]. apply adds_pmapM. assert (F := L l IH ltac:(intros e I f l0 K; eapply H, Pa_set; eassumption)).
    clear - F. induction F; constructor; [|assumption]. apply adds_bind; [assumption|intro; apply adds_refl].
  - cbn [eval].
    assert (W : adds X (do! ks := pmapM (fun kv => do! k := eval C thing (fst kv) in do! k' := Ret (map_key k) in ok (k', eval C thing (snd kv))) l in ok ks)
                       (do! ks := pmapM (fun kv => do! k := eval C thing (fst kv) in do! k' := Ret (map_key k) in ok (k', eval C thing (snd kv))) l in ok ks)) by apply adds_refl. clear W.
    assert (W : forall w q, (exists x q', X x /\ run w (pmapM (fun kv => do! k := eval C thing (fst kv) in do! k' := Ret (map_key k) in ok (k', eval C thing (snd kv))) l) q = (Err x, q')) \/
      (exists x q', run w (pmapM (fun kv => do! k := eval C thing (fst kv) in do! k' := Ret (map_key k) in ok (k', eval C thing (snd kv))) l) q = (Err x, q') /\
         run w (pmapM (fun kv => do! k := eval C thing (fst kv) in do! k' := Ret (map_key k) in ok (k', eval C thing (snd kv))) (map (fun kv => (erase (fst kv), erase (snd kv))) l)) q = (Err x, q')) \/
      (exists ks ks' q', run w (pmapM (fun kv => do! k := eval C thing (fst kv) in do! k' := Ret (map_key k) in ok (k', eval C thing (snd kv))) l) q = (Ok ks, q') /\
         run w (pmapM (fun kv => do! k := eval C thing (fst kv) in do! k' := Ret (map_key k) in ok (k', eval C thing (snd kv))) (map (fun kv => (erase (fst kv), erase (snd kv))) l)) q = (Ok ks', q') /\ aentries X ks ks')).
    { assert (Hl : forall k v, In (k, v) l -> adds X (eval C thing k) (eval C thing (erase k)) /\ adds X (eval C thing v) (eval C thing (erase v))).
      { intros k v I. rewrite Forall_forall in IH. destruct (IH (k, v) I) as [I1 I2]. split; [apply I1; intros f l0 K; eapply H, Pa_key; eassumption|apply I2; intros f l0 K; eapply H, Pa_val; eassumption]. }
      clear IH H. induction l as [|[k v] l IHl]; intros w q; [right; right; exists [], [], q; repeat split; constructor|].
      cbn [map pmapM fst snd]. rewrite !run_pbind. destruct (Hl k v (or_introl eq_refl)) as [Hk Hv]. destruct (Hk w q) as [[x [q' [Hx R]]]|R]; [left; exists x, q'; rewrite R; split; [exact Hx|reflexivity]|].
      rewrite <- R. destruct (run w (eval C thing k) q) as [[kv|x] q1]; [|right; left; exists x, q1; split; reflexivity].
      rewrite !run_pbind. cbn [run]. destruct (map_key kv) as [k'|x]; [|right; left; exists x, q1; split; reflexivity]. cbn [run ok]. rewrite !run_pbind.
      destruct (IHl ltac:(intros k0 v0 I; apply Hl; right; exact I) w q1) as [[x [q' [Hx R2]]]|[[x [q' [R2 R3]]]|[ks [ks' [q' [R2 [R3 E]]]]]]].
      - left. exists x, q'. rewrite R2. split; [exact Hx|reflexivity].
      - right. left. exists x, q'. rewrite R2, R3. split; reflexivity.
      - right. right. exists ((k', eval C thing v) :: ks), ((k', eval C thing (erase v)) :: ks'), q'. rewrite R2, R3. split; [reflexivity|]. split; [reflexivity|]. constructor; [split; [reflexivity|exact Hv]|exact E]. }
    intros w q. rewrite !run_pbind. destruct (W w q) as [[x [q' [Hx R]]]|[[x [q' [R R']]]|[ks [ks' [q' [R [R' E]]]]]]].
    + left. exists x, q'. rewrite R. split; [exact Hx|reflexivity].
    + right. rewrite R, R'. reflexivity.
    + rewrite R, R'. assert (G : adds X (do! m := pmapM (fun kp : value * prog value => do! v := snd kp in ok (fst kp, v)) (mk_dict ks) in ok (VMap m)) (do! m := pmapM (fun kp : value * prog value => do! v := snd kp in ok (fst kp, v)) (mk_dict ks') in ok (VMap m)));
        [|apply G].
      apply adds_bind; [|intro; apply adds_refl]. apply adds_pmapM. apply aentries_mk in E. clear - E. induction E as [|[a p] [a' p'] l l' [E1 E2] E IH]; constructor; [|exact IH]. cbn [fst snd] in *. subst a'. apply adds_bind; [exact E2|intro; apply adds_refl].
  - assert (Ha : adds X (eval C thing a) (eval C thing (erase a))) by (apply IHa; intros f l0 K; eapply H, Pa_left; eassumption).
    assert (Hb : adds X (eval C thing b) (eval C thing (erase b))) by (apply IHb; intros f l0 K; eapply H, Pa_right; eassumption).
    destruct o; cbn [eval]; rewrite ?str_lit_erase; (apply adds_bind; [exact Ha|]; intro u).
    + apply adds_bind; [exact Hb|]. intro. apply adds_refl.
    + apply adds_bind; [exact Hb|]. intro. apply adds_refl.
    + destruct (is_numeric u); [|apply adds_refl]. apply adds_bind; [exact Hb|]. intro. apply adds_refl.
    + apply adds_bind; [apply adds_refl|]. intro. destruct (dt_eqb _ _); [apply adds_bind; [apply adds_refl|]; intro; apply adds_bind; [exact Hb|]; intro; apply adds_refl|].
      destruct (is_set_t _); [|apply adds_refl]. apply adds_bind; [exact Hb|]. intro. apply adds_refl.
    + destruct (truthy u); [|apply adds_refl]. apply adds_bind; [exact Hb|]. intro. apply adds_refl.
    + destruct (truthy u); [apply adds_refl|]. apply adds_bind; [exact Hb|]. intro. apply adds_refl.
    + apply adds_bind; [exact Hb|]. intro. apply adds_refl.
    + apply adds_bind; [exact Hb|]. intro. apply adds_refl.
    + apply adds_bind; [exact Hb|]. intro. apply adds_refl.
    + destruct u; try apply adds_refl; (apply adds_bind; [exact Hb|]; intro; apply adds_refl).
  - cbn [eval]. apply adds_bind; [apply IHi; intros f l0 K; eapply H, Pa_cit; eassumption|]. intro u. apply adds_bind; [apply adds_refl|]. intro t. destruct (is_iterable t); [|apply adds_refl].
    apply adds_bind; [|intro; apply adds_refl]. apply adds_comp_loop; [|apply Ke|apply IHr; intros f l0 K; eapply H, Pa_cres; eassumption].
    destruct c as [c|]; [|exact I]. split; [apply Ke|]. cbn [opt_P] in IHc. apply IHc. intros f l0 K. eapply H, Pa_ccond; eassumption.
  - cbn [eval]. apply adds_bind; [apply IHc; intros f l0 K; eapply H, Pa_inc; eassumption|]. intro u. apply adds_bind; [apply adds_refl|]. intro. apply adds_bind; [apply IHm; intros f l0 K; eapply H, Pa_inm; eassumption|]. intro. apply adds_refl.
  - cbn [eval]. apply adds_bind; [apply IHo; intros f l0 K; eapply H, Pa_attr; eassumption|]. intro u. apply adds_refl.
  - cbn [eval]. apply adds_bind; [apply IHc; intros f l0 K; eapply H, Pa_itc; eassumption|]. intro u. destruct (is_null u); [apply adds_refl|]. apply adds_bind; [apply IHi; intros f l0 K; eapply H, Pa_iti; eassumption|]. intro. apply adds_refl.
  - cbn [eval]. apply adds_bind; [apply IHc; intros f l0 K; eapply H, Pa_slc; eassumption|]. intro u. destruct (is_null u); [apply adds_refl|]. apply adds_bind; [apply IHa; intros f l0 K; eapply H, Pa_sla; eassumption|]. intro.
    apply adds_bind; [apply adds_refl|]. intro. apply adds_bind; [apply IHb; intros f l0 K; eapply H, Pa_slb; eassumption|]. intro. apply adds_refl.
  - destruct b; [apply adds_refl|]. cbn [eval]. apply adds_then. intro r. apply adds_bind; [apply adds_refl|]. intro. apply adds_bind; [apply adds_refl|]. intro. apply adds_sym.
  - destruct (H f l (Pa_self _)) as [All Rt]. cbn [eval]. apply adds_bind; [apply IHf; intros g l0 K; eapply H, Pa_callf; eassumption|]. intro fv. destruct (callable fv); [|apply adds_refl].
    apply adds_bind; [apply adds_pmapM, L; [exact IHl|]; intros e I g l0 K; eapply H, Pa_callx; eassumption|]. intro vs. destruct Rt as [Rt|Rt].
    + cbn [rtype]. rewrite Rt. cbn [is_undef]. intros w q. rewrite !run_pbind. cbn [run].
      destruct (if is_undef (rtype f) then Ok tt else validate (rtype f) (map from_value vs)) as [u|x]; [|left; exists x, q; split; [apply All|reflexivity]].
      assert (G : forall r, adds X (do! v := nval C true r in do! t := Ret (from_value v) in if is_compat t match rtype f with TFun _ r0 _ _ => r0 | _ => TUndef end then ok v else raise XFunCall)
                                   (do! v := nval C true r in do! t := Ret (from_value v) in if is_compat t TUndef then ok v else raise XFunCall)).
      { intro r. apply adds_bind; [apply adds_refl|]. intro v. apply adds_bind; [apply adds_refl|]. intro t. rewrite is_compat_undef_r. destruct (is_compat t _); [apply adds_refl|]. intros w0 q0. left. eexists XFunCall, q0. split; [apply All|reflexivity]. }
      assert (G2 := adds_bind X _ _ _ _ _ _ (adds_refl X _ (pthen (apply_fun C fv vs) (fun r => match r with Ok v => ok v | Err _ => raise XFunCall end))) G). apply (G2 w q).
    + cbn [rtype]. rewrite Rt. apply adds_refl.
  - cbn [eval]. apply adds_bind; [apply IHc; intros f l0 K; eapply H, Pa_tc; eassumption|]. intro u. destruct (truthy u); [apply IHa; intros f l0 K; eapply H, Pa_ta; eassumption|apply IHb; intros f l0 K; eapply H, Pa_tb; eassumption].
  - destruct o; cbn [eval]; (apply adds_bind; [apply IHe; intros f l0 K; eapply H, Pa_un; eassumption|]); intro u; apply adds_refl.
Qed.
End Eval.

(** ** Two declarations of the types of the same names *)
(** the same context with another type resolver *)
Definition with_types (C : ctx) (f : str -> result dtype) : ctx :=
  {| c_flags := c_flags C; c_tz := c_tz C; c_default := c_default C; c_dec := c_dec C; c_types := f;
     c_bvals := c_bvals C; c_btypes := c_btypes C; c_btz := c_btz C |}.
(** threads that differ in the types of the variables of comprehensions only *)
Definition same_asg (a b : asg) : Prop := a_name a = a_name b /\ a_val a = a_val b.
Definition same_thread (q q' : st) : Prop :=
  Forall2 same_asg (s_scopes q) (s_scopes q') /\ s_groups q = s_groups q' /\ s_dc q = s_dc q' /\ s_syms q = s_syms q' /\ s_log q = s_log q'.
Lemma same_asg_refl : forall l, Forall2 same_asg l l.
Proof. induction l; constructor; [split; reflexivity|assumption]. Qed.
Lemma same_thread_refl : forall q, same_thread q q.
Proof. intro q. split; [apply same_asg_refl|repeat split]. Qed.

(** both fail at the same place or one of them fails, or both go on with related values on such threads *)
Definition sim {A} (R : A -> A -> Prop) (p p' : prog A) : Prop := forall w q q', same_thread q q' ->
  (exists x q1, run w p q = (Err x, q1)) \/ (exists x q1, run w p' q' = (Err x, q1)) \/
  exists a a' q1 q1', run w p q = (Ok a, q1) /\ run w p' q' = (Ok a', q1') /\ R a a' /\ same_thread q1 q1'.
(** the same outcome *)
Definition alike {A} (p p' : prog A) : Prop := forall w q q', same_thread q q' ->
  fst (run w p q) = fst (run w p' q') /\ same_thread (snd (run w p q)) (snd (run w p' q')).
Lemma alike_sim : forall A (p p' : prog A), alike p p' -> sim eq p p'.
Proof.
  intros A p p' H w q q' S. destruct (H w q q' S) as [E T]. destruct (run w p q) as [[a|x] q1], (run w p' q') as [r q1']; cbn [fst snd] in *; subst r.
  - right. right. exists a, a, q1, q1'. repeat split; try reflexivity; apply T.
  - left. eauto.
Qed.
Lemma alike_ret : forall A (r : result A), alike (Ret r) (Ret r).
Proof. intros A r w q q' S. split; [reflexivity|exact S]. Qed.
Lemma alike_then : forall A B (p p' : prog A) (f f' : result A -> prog B), alike p p' -> (forall r, alike (f r) (f' r)) -> alike (pthen p f) (pthen p' f').
Proof.
  intros A B p p' f f' H K w q q' S. rewrite !run_pthen. destruct (H w q q' S) as [E T]. destruct (run w p q) as [r q1], (run w p' q') as [r' q1']. cbn [fst snd] in *. subst r'. apply K. exact T.
Qed.
Lemma alike_bind : forall A B (p p' : prog A) (f f' : A -> prog B), alike p p' -> (forall r, alike (f r) (f' r)) -> alike (pbind p f) (pbind p' f').
Proof. intros. apply alike_then; [assumption|]. intros [a|x]; [auto|apply alike_ret]. Qed.
Lemma alike_act : forall o, match o with OScopes | OPush _ | OPop | OReset => False | _ => True end -> alike (act o) (act o).
Proof.
  intros o H w q q' S. destruct S as [S1 [S2 [S3 [S4 S5]]]]. destruct o; try contradiction; cbn; rewrite ?S2, ?S3, ?S4, ?S5; (split; [reflexivity|]); repeat split; cbn; congruence || assumption.
Qed.
Lemma quiet_alike : forall A (p : prog A), quiet p -> alike p p.
Proof.
  intros A p H. induction H as [r|o k Ho _ IH]; [apply alike_ret|]. change (alike (pbind (act o) k) (pbind (act o) k)). apply alike_bind; [|exact IH]. apply alike_act. destruct o; try exact I; contradiction.
Qed.
Lemma sim_ret : forall A (R : A -> A -> Prop) a a', R a a' -> sim R (ok a) (ok a').
Proof. intros A R a a' H w q q' S. right. right. exists a, a', q, q'. repeat split; try assumption; apply S. Qed.
Lemma sim_res : forall A (R : A -> A -> Prop) r r', (forall a a', r = Ok a -> r' = Ok a' -> R a a') -> sim R (Ret r) (Ret r').
Proof.
  intros A R r r' H w q q' S. destruct r as [a|x]; [|left; exists x, q; reflexivity]. destruct r' as [a'|x]; [|right; left; exists x, q'; reflexivity].
  right. right. exists a, a', q, q'. repeat split; try apply S. apply H; reflexivity.
Qed.
Lemma sim_raise_l : forall A (R : A -> A -> Prop) x p, sim R (raise x) p.
Proof. intros A R x p w q q' S. left. exists x, q. reflexivity. Qed.
Lemma sim_raise_r : forall A (R : A -> A -> Prop) x p, sim R p (raise x).
Proof. intros A R x p w q q' S. right. left. exists x, q'. reflexivity. Qed.
Lemma sim_bind : forall A B (R : A -> A -> Prop) (Q : B -> B -> Prop) p p' f f', sim R p p' -> (forall a a', R a a' -> sim Q (f a) (f' a')) -> sim Q (pbind p f) (pbind p' f').
Proof.
  intros A B R Q p p' f f' H K w q q' S. rewrite !run_pbind. destruct (H w q q' S) as [[x [q1 E]]|[[x [q1 E]]|[a [a' [q1 [q1' [E [E' [Ha T]]]]]]]]].
  - left. exists x, q1. rewrite E. reflexivity.
  - right. left. exists x, q1. rewrite E. reflexivity.
  - rewrite E, E'. apply (K a a' Ha w q1 q1' T).
Qed.
Lemma sim_same : forall A B (Q : B -> B -> Prop) (p : prog A) p' f f', sim eq p p' -> (forall a, sim Q (f a) (f' a)) -> sim Q (pbind p f) (pbind p' f').
Proof. intros A B Q p p' f f' H K. eapply sim_bind; [exact H|]. intros a a' <-. apply K. Qed.
Lemma sim_then : forall A B (R : B -> B -> Prop) (p p' : prog A) f f', alike p p' -> (forall r, sim R (f r) (f' r)) -> sim R (pthen p f) (pthen p' f').
Proof.
  intros A B R p p' f f' H K w q q' S. rewrite !run_pthen. destruct (H w q q' S) as [E T]. destruct (run w p q) as [r q1], (run w p' q') as [r' q1']. cbn [fst snd] in *. subst r'. apply K. exact T.
Qed.
Lemma sim_only : forall A T (r r' : result T) (R : A -> A -> Prop) p p', sim R p p' -> sim R (do! _ := Ret r in p) (do! _ := Ret r' in p').
Proof. intros A T r r' R p p' H. eapply (sim_bind _ _ (fun _ _ => True)); [apply sim_res; intros; exact I|]. intros. exact H. Qed.
Lemma sim_pmapM : forall A B (R : B -> B -> Prop) (f f' : A -> prog B) l, (forall a, In a l -> sim R (f a) (f' a)) -> sim (Forall2 R) (pmapM f l) (pmapM f' l).
Proof.
  intros A B R f f' l. induction l as [|a l IH]; intro H; [apply sim_ret; constructor|]. cbn [pmapM]. eapply sim_bind; [apply H; left; reflexivity|]. intros b b' Hb.
  eapply sim_bind; [apply IH; intros; apply H; right; assumption|]. intros bs bs' Hbs. apply sim_ret. constructor; assumption.
Qed.
Lemma sim_pmapM2 : forall A B (f f' : A -> prog B) l l', Forall2 (fun a a' => sim eq (f a) (f' a')) l l' -> sim eq (pmapM f l) (pmapM f' l').
Proof.
  intros A B f f' l l' H. induction H as [|a a' l l' Ha H IH]; [apply sim_ret; reflexivity|]. cbn [pmapM]. apply sim_same; [exact Ha|]. intro b. apply sim_same; [exact IH|]. intro bs. apply sim_ret. reflexivity.
Qed.
Lemma sim_scope : forall A (R : A -> A -> Prop) a a' (p p' : prog A), same_asg a a' -> keeps s_scopes p -> keeps s_scopes p' -> sim R p p' -> sim R (with_scope a p) (with_scope a' p').
Proof.
  intros A R a a' p p' Sa K K' H w q q' S. rewrite !run_with_scope.
  assert (S1 : same_thread (set_scopes (s_scopes q ++ [a]) q) (set_scopes (s_scopes q' ++ [a']) q')).
  { destruct S as [S1 S]. split; [|exact S]. cbn. apply Forall2_app; [exact S1|]. constructor; [exact Sa|constructor]. }
  assert (Z := K w (set_scopes (s_scopes q ++ [a]) q)). assert (Z' := K' w (set_scopes (s_scopes q' ++ [a']) q')).
  destruct (H w _ _ S1) as [[x [q1 E]]|[[x [q1 E]]|[b [b' [q1 [q1' [E [E' [Hb T]]]]]]]]]; rewrite ?E, ?E' in *; cbn [snd set_scopes s_scopes] in *.
  - left. rewrite Z. destruct (s_scopes q ++ [a]) eqn:N; [destruct (s_scopes q); discriminate N|]. eauto.
  - right. left. rewrite Z'. destruct (s_scopes q' ++ [a']) eqn:N; [destruct (s_scopes q'); discriminate N|]. eauto.
  - right. right. rewrite Z, Z'. destruct (s_scopes q ++ [a]) eqn:N; [destruct (s_scopes q); discriminate N|]. destruct (s_scopes q' ++ [a']) eqn:N'; [destruct (s_scopes q'); discriminate N'|].
    rewrite <- N, <- N', !removelast_last. eexists b, b', _, _. split; [reflexivity|]. split; [reflexivity|]. split; [exact Hb|]. destruct T as [_ T]. destruct S as [S0 _]. split; [exact S0|exact T].
Qed.

Ltac shape e' H := destruct e'; cbn [erase] in H; try discriminate H; try (match type of H with context [if ?b then _ else _] => destruct b; discriminate H end).
Section Sim.
Context {Orc : Oracle} (C : ctx) (thing : value).
Lemma scope_alike : forall l l' n, Forall2 same_asg l l' -> match find_scope l n, find_scope l' n with Some a, Some a' => a_val a = a_val a' | None, None => True | _, _ => False end.
Proof. intros l l' n H. induction H as [|a a' l l' [N V] H IH]; [exact I|]. cbn [find_scope]. rewrite <- N. destruct (str_eqb n (a_name a)); [exact V|exact IH]. Qed.
Lemma alike_resolve : forall t n b, alike (resolve C t n b) (resolve C t n b).
Proof.
  intros t n b. unfold resolve. destruct b.
  - destruct (assoc n (c_bvals C)) as [[v| | | |g]|]; try apply alike_ret.
    + apply alike_bind; [exact (alike_act (ONow _) I)|]. intro. apply alike_bind; [exact (alike_act (ONow _) I)|]. intro. apply alike_ret.
    + apply alike_bind; [exact (alike_act (ONow _) I)|]. intro. apply alike_bind; [exact (alike_act (ONow _) I)|]. intro. apply alike_ret.
    + exact (alike_act OGetG I).
    + assert (G : alike (actr (OUser g []) (fun r => r)) (actr (OUser g []) (fun r => r))).
      { intros w q q' [S1 [S2 [S3 [S4 S5]]]]. cbn. rewrite S5. repeat split; cbn; congruence || assumption. }
      apply alike_then; [exact G|]. intros [a|[]]; try apply alike_ret. exact G.
  - intros w q q' S. rewrite !run_pbind. cbn. assert (F := scope_alike _ _ n (proj1 S)). destruct (find_scope (s_scopes q) n), (find_scope (s_scopes q') n); try contradiction; cbn.
    + rewrite F. split; [reflexivity|exact S].
    + destruct S as [S1 [S2 [S3 [S4 S5]]]]. rewrite S5. repeat split; cbn; congruence || assumption.
Qed.
Lemma sim_eq_ret : forall A (r : result A), sim eq (Ret r) (Ret r).
Proof. intros. apply alike_sim, alike_ret. Qed.
Lemma sim_act : forall o, match o with OScopes | OPush _ | OPop | OReset => False | _ => True end -> sim eq (act o) (act o).
Proof. intros o H. apply alike_sim, alike_act, H. Qed.
Lemma sim_fuzzy : forall sr ng pre u v, sim eq (fuzzy_match C sr ng pre u v) (fuzzy_match C sr ng pre u v).
Proof.
  intros sr ng pre u v. unfold fuzzy_match. destruct u; try apply sim_eq_ret; destruct v; try apply sim_eq_ret.
  - apply sim_same; [apply sim_eq_ret|]. intro. apply sim_eq_ret.
  - apply sim_same; [apply sim_eq_ret|]. intro. destruct (o_re (c_flags C) sr _ _) as [gs|]; [|apply sim_eq_ret]. apply sim_same; [apply sim_act; exact I|intro; apply sim_eq_ret].
Qed.
Lemma sim_attr : forall o o' n sf, sim eq o o' ->
  sim eq (do! v := o in if is_null v && sf then ok VNull else match resolve_attr v n with Ok r => nval C false r | Err (XAttrRes _ sug) => pthen (resolve C v n false) (fun r => match r with Ok x => nval C false x | Err (XSymRes _ sug') => match c_default C with Some d => nval C false d | None => raise (XAttrRes n (merge_sug n sug sug')) end | Err x => raise x end) | Err x => raise x end)
         (do! v := o' in if is_null v && sf then ok VNull else match resolve_attr v n with Ok r => nval C false r | Err (XAttrRes _ sug) => pthen (resolve C v n false) (fun r => match r with Ok x => nval C false x | Err (XSymRes _ sug') => match c_default C with Some d => nval C false d | None => raise (XAttrRes n (merge_sug n sug sug')) end | Err x => raise x end) | Err x => raise x end).
Proof.
  intros o o' n sf H. apply sim_same; [exact H|]. intro v. destruct (is_null v && sf); [apply sim_eq_ret|]. destruct (resolve_attr v n) as [r|[]]; try apply sim_eq_ret.
  apply alike_sim. apply alike_then; [apply alike_resolve|]. intros [x|[]]; try apply alike_ret. destruct (c_default C); apply alike_ret.
Qed.
Lemma sim_comp_loop : forall var c c' b b', match c, c' with Some c, Some c' => keeps s_scopes c /\ keeps s_scopes c' /\ sim eq c c' | None, None => True | _, _ => False end -> keeps s_scopes b -> keeps s_scopes b' -> sim eq b b' ->
  forall l, sim eq (comp_loop var c b l) (comp_loop var c' b' l).
Proof.
  intros var c c' b b' Hc Kb Kb' Hb. induction l as [|x l IH]; [apply sim_eq_ret|]. cbn [comp_loop]. apply sim_same.
  - apply sim_scope; [split; reflexivity| | |].
    + apply keeps_pbind; [destruct c as [c|]; [apply keeps_pbind; [destruct c'; [apply Hc|destruct Hc]|]; intro; apply keeps_ret|apply keeps_ret]|]. intros []; [apply keeps_pbind; [exact Kb|]; intro; apply keeps_ret|apply keeps_ret].
    + apply keeps_pbind; [destruct c' as [c'|]; [apply keeps_pbind; [destruct c; [apply Hc|destruct Hc]|]; intro; apply keeps_ret|apply keeps_ret]|]. intros []; [apply keeps_pbind; [exact Kb'|]; intro; apply keeps_ret|apply keeps_ret].
    + apply sim_same; [destruct c, c'; try (exact (False_ind _ Hc)); [apply sim_same; [apply Hc|intro; apply sim_eq_ret]|apply sim_eq_ret]|].
      intros []; [apply sim_same; [exact Hb|intro; apply sim_eq_ret]|apply sim_eq_ret].
  - intro o. apply sim_same; [exact IH|]. intro. apply sim_eq_ret.
Qed.
Definition sentries : list (value * prog value) -> list (value * prog value) -> Prop := Forall2 (fun e e' => fst e = fst e' /\ sim eq (snd e) (snd e')).
Lemma sentries_put : forall m m' k p p', sentries m m' -> sim eq p p' -> sentries (dict_put m k p) (dict_put m' k p').
Proof.
  intros m m' k p p' H Hp. induction H as [|[a x] [a' x'] m m' [E Hb] H IH]; cbn.
  - constructor; [split; [reflexivity|exact Hp]|constructor].
  - cbn in E, Hb. subst a'. destruct (py_eq a k); constructor; try assumption; split; try reflexivity; assumption.
Qed.
Lemma sentries_mk : forall l l', sentries l l' -> sentries (mk_dict l) (mk_dict l').
Proof.
  intros l l' H. unfold mk_dict. assert (Gen : forall m m', sentries m m' -> sentries (fold_left (fun m kv => dict_put m (fst kv) (snd kv)) l m) (fold_left (fun m kv => dict_put m (fst kv) (snd kv)) l' m')).
  { induction H as [|[a x] [a' x'] l l' [E Hb] H IH]; intros m m' Hm; [exact Hm|]. cbn in *. subst a'. apply IH. apply sentries_put; assumption. }
  apply Gen. constructor.
Qed.
Lemma erase_str_lit : forall e e', erase e = erase e' -> is_str_lit e = is_str_lit e'.
Proof. intros e e' H. rewrite <- (str_lit_erase e), <- (str_lit_erase e'), H. reflexivity. Qed.
Lemma map_erase : forall l l', map erase l = map erase l' -> Forall2 (fun a b => erase a = erase b) l l'.
Proof. induction l as [|a l IH]; intros [|b l'] H; try discriminate H; constructor; injection H; auto. Qed.
Lemma map_erase_pairs : forall l l', map (fun kv => (erase (fst kv), erase (snd kv))) l = map (fun kv => (erase (fst kv), erase (snd kv))) l' -> Forall2 (fun a b => erase (fst a) = erase (fst b) /\ erase (snd a) = erase (snd b)) l l'.
Proof. induction l as [|a l IH]; intros [|b l'] H; try discriminate H; constructor; injection H; auto. Qed.
Lemma sims : forall l, Forall (fun e => forall e', erase e = erase e' -> sim eq (eval C thing e) (eval C thing e')) l -> forall l', Forall2 (fun a b => erase a = erase b) l l' -> Forall2 (fun a b => sim eq (eval C thing a) (eval C thing b)) l l'.
Proof. intros l F l' H. revert F. induction H as [|a b l l' E H IH]; intro F; constructor; inversion F; subst; [match goal with K : forall e', _ -> _ |- _ => apply K; exact E end|apply IH; assumption]. Qed.
Theorem eval_sim : forall e e', erase e = erase e' -> sim eq (eval C thing e) (eval C thing e').
Proof.
  assert (Ke : forall e, keeps s_scopes (eval C thing e)) by (intros e w q; apply eval_scopes).
  intro e. induction e as [v|v t|l IH|l IH|l IH|o a b IHa IHb|r v i c IHr IHi IHc|c m IHc IHm|o n sf IHo|c i sf IHc IHi|c a b sf IHc IHa IHb|n b t|f l IHf IHl|c a b IHc IHa IHb|o e IHe] using expr_ind'; intros e' H.
  - cbn [erase] in H. shape e' H. injection H as <-. apply sim_eq_ret.
  - cbn [erase] in H. shape e' H. injection H as <- <-. apply sim_eq_ret.
  - cbn [erase] in H. shape e' H. injection H as H. apply map_erase in H. cbn [eval]. apply sim_same; [|intro; apply sim_eq_ret]. apply sim_pmapM2, sims; assumption.
  - cbn [erase] in H. shape e' H. injection H as H. apply map_erase in H. cbn [eval]. apply sim_same; [|intro; apply sim_eq_ret]. apply sim_pmapM2. assert (F := sims _ IH _ H). clear - F. induction F; constructor; [|assumption]. apply sim_same; [assumption|]. intro v. destruct (hashable v); apply sim_eq_ret.
  - cbn [erase] in H. shape e' H. injection H as H. apply map_erase_pairs in H. cbn [eval]. apply (sim_bind _ _ sentries).
    + revert IH. induction H as [|[k v] [k' v'] l l0 [H1 H2] H IHl]; intro F; [apply sim_ret; constructor|]. inversion F as [|? ? [F1 F2] F3]; subst. cbn [fst snd] in *. cbn [pmapM]. cbn [fst snd].
      apply (sim_bind _ _ (fun a b => fst a = fst b /\ sim eq (snd a) (snd b))).
      * apply sim_same; [apply F1; exact H1|]. intro u. apply sim_same; [apply sim_eq_ret|]. intro u'. apply sim_ret. split; [reflexivity|]. apply F2. exact H2.
      * intros x y Hxy. eapply sim_bind; [apply IHl; exact F3|]. intros xs ys Hs. apply sim_ret. constructor; assumption.
    + intros ks ks' E. apply sim_same; [|intro; apply sim_eq_ret]. apply sim_pmapM2. apply sentries_mk in E. clear - E. induction E as [|[a p] [a' p'] l l' [E1 E2] E IH]; constructor; [|exact IH]. cbn [fst snd] in *. subst a'. apply sim_same; [exact E2|]. intro. apply sim_eq_ret.
  - cbn [erase] in H. shape e' H. injection H as <- Ha Hb. apply IHa in Ha. assert (Sb := erase_str_lit _ _ Hb). apply IHb in Hb.
    destruct o; cbn [eval]; rewrite <- ?Sb; (apply sim_same; [exact Ha|]; intro u).
    + apply sim_same; [exact Hb|]. intro. apply sim_same; [apply sim_act; exact I|intro; apply sim_eq_ret].
    + apply sim_same; [exact Hb|]. intro. apply sim_same; [apply sim_act; exact I|intro; apply sim_eq_ret].
    + destruct (is_numeric u); [|apply sim_eq_ret]. apply sim_same; [exact Hb|]. intro v. destruct (is_numeric v); [|apply sim_eq_ret]. apply sim_same; [apply sim_act; exact I|intro; apply sim_eq_ret].
    + apply sim_same; [apply sim_eq_ret|]. intro. destruct (dt_eqb _ _); [apply sim_same; [apply sim_eq_ret|]; intro; apply sim_same; [exact Hb|]; intro; apply sim_eq_ret|].
      destruct (is_set_t _); [|apply sim_eq_ret]. apply sim_same; [exact Hb|]. intro. apply sim_eq_ret.
    + destruct (truthy u); [|apply sim_eq_ret]. apply sim_same; [exact Hb|]. intro. apply sim_eq_ret.
    + destruct (truthy u); [apply sim_eq_ret|]. apply sim_same; [exact Hb|]. intro. apply sim_eq_ret.
    + apply sim_same; [exact Hb|]. intro. apply sim_eq_ret.
    + apply sim_same; [exact Hb|]. intro. apply sim_eq_ret.
    + apply sim_same; [exact Hb|]. intro. apply sim_eq_ret.
    + destruct u; try apply sim_eq_ret; (apply sim_same; [exact Hb|]; intro; apply sim_fuzzy).
  - cbn [erase] in H. shape e' H. injection H as Hr <- Hi Hc. cbn [eval]. apply sim_same; [apply IHi; exact Hi|]. intro u. apply sim_same; [apply sim_eq_ret|]. intro t. destruct (is_iterable t); [|apply sim_eq_ret].
    apply sim_same; [|intro; apply sim_eq_ret]. apply sim_comp_loop; [|apply Ke|apply Ke|apply IHr; exact Hr].
    destruct c as [c|], cond as [c'|]; try discriminate Hc; [|exact I]. injection Hc as Hc. split; [apply Ke|]. split; [apply Ke|]. apply IHc. exact Hc.
  - cbn [erase] in H. shape e' H. injection H as Hc Hm. cbn [eval]. apply sim_same; [apply IHc; exact Hc|]. intro u. apply sim_same; [apply sim_eq_ret|]. intro. apply sim_same; [apply IHm; exact Hm|]. intro. apply sim_eq_ret.
  - cbn [erase] in H. shape e' H. injection H as Ho <- <-. cbn [eval]. apply sim_attr. apply IHo. exact Ho.
  - cbn [erase] in H. shape e' H. injection H as Hc Hi <-. cbn [eval]. apply sim_same; [apply IHc; exact Hc|]. intro u. destruct (is_null u); [destruct sf; apply sim_eq_ret|]. apply sim_same; [apply IHi; exact Hi|]. intro. apply alike_sim, alike_bind; [apply alike_ret|]. intro. destruct (py_getitem _ _) as [v|[]]; try apply alike_ret. destruct sf; apply alike_ret.
  - cbn [erase] in H. shape e' H. injection H as Hc Ha Hb <-. cbn [eval]. apply sim_same; [apply IHc; exact Hc|]. intro u. destruct (is_null u); [destruct sf; apply sim_eq_ret|]. apply sim_same; [apply IHa; exact Ha|]. intro.
    apply sim_same; [apply sim_eq_ret|]. intro. apply sim_same; [apply IHb; exact Hb|]. intro. apply alike_sim. apply alike_bind; [apply alike_ret|]. intro. apply alike_bind; [apply alike_ret|]. intro. apply alike_ret.
  - cbn [erase] in H. assert (E : exists t', e' = ESym n b t' /\ (b = true -> t' = t)).
    { destruct e'; cbn [erase] in H; try (destruct b; discriminate H). destruct b, builtin; try discriminate H; injection H as <-; eexists; (split; [reflexivity|]); [intros _; congruence|discriminate]. }
    destruct E as [t' [-> Ht]]. cbn [eval]. apply sim_then; [apply alike_resolve|]. intro r. apply sim_same.
    + apply alike_sim. destruct r as [x|[]]; try apply alike_ret. destruct (c_default C); apply alike_ret.
    + intro v. apply sim_same; [apply sim_eq_ret|]. intro v'. apply sim_res. intros x y Hx Hy. unfold sym_check in *.
      assert (G : forall t x, sym_check n t v' = Ok x -> x = v').
      { clear. intros t x E. unfold sym_check in E. destruct (is_undef t); [injection E as ->; reflexivity|]. destruct (from_value v') as [vt|]; [|discriminate E]. cbn [rbind] in E.
        repeat match type of E with (if ?b then _ else _) = _ => destruct b end; first [injection E as ->; reflexivity|discriminate E]. }
      rewrite (G _ _ Hx), (G _ _ Hy). reflexivity.
  - cbn [erase] in H. shape e' H. injection H as Hf Hl. cbn [eval]. apply sim_same; [apply IHf; exact Hf|]. intro fv. destruct (callable fv); [|apply sim_eq_ret].
    apply map_erase in Hl. apply sim_same; [apply sim_pmapM2, sims; assumption|]. intro vs. apply sim_only.
    apply sim_same; [apply alike_sim, alike_then; [apply quiet_alike, apply_quiet|]; intros [x|x]; apply alike_ret|]. intro r. apply sim_same; [apply sim_eq_ret|]. intro v. apply sim_same; [apply sim_eq_ret|]. intro t.
    destruct (is_compat t _); [|apply sim_raise_l]. destruct (is_compat t _); [apply sim_eq_ret|apply sim_raise_r].
  - cbn [erase] in H. shape e' H. injection H as Hc Ha Hb. cbn [eval]. apply sim_same; [apply IHc; exact Hc|]. intro u. destruct (truthy u); [apply IHa; exact Ha|apply IHb; exact Hb].
  - cbn [erase] in H. shape e' H. injection H as <- He. apply IHe in He. destruct o; cbn [eval]; (apply sim_same; [exact He|]; intro u); [apply sim_eq_ret|]. apply sim_same; [apply sim_act; exact I|intro; apply sim_eq_ret].
Qed.
End Sim.

(** ** Construction *)
Lemma reduced_erase : forall e, is_reduced e = true -> erase e = e.
Proof.
  induction e as [v|v t|l IH|l IH|l IH|o a b IHa IHb|r v i c IHr IHi IHc|c m IHc IHm|o n sf IHo|c i sf IHc IHi|c a b sf IHc IHa IHb|n b t|f l IHf IHl|c a b IHc IHa IHb|o e IHe] using expr_ind'; intro H; try discriminate H; try reflexivity; cbn [is_reduced erase] in *; f_equal; rewrite forallb_forall in H; rewrite Forall_forall in IH.
  - rewrite <- (map_id l) at 2. apply map_ext_in. intros a Ha. apply IH; auto.
  - rewrite <- (map_id l) at 2. apply map_ext_in. intros a Ha. apply IH; auto.
  - rewrite <- (map_id l) at 2. apply map_ext_in. intros [k v] Ha. specialize (H _ Ha). apply andb_true_iff in H as [H1 H2]. destruct (IH _ Ha) as [I1 I2]. cbn [fst snd] in *. rewrite I1, I2 by assumption. reflexivity.
Qed.
Lemma erase_reduced : forall e, is_reduced (erase e) = is_reduced e.
Proof.
  induction e as [v|v t|l IH|l IH|l IH|o a b IHa IHb|r v i c IHr IHi IHc|c m IHc IHm|o n sf IHo|c i sf IHc IHi|c a b sf IHc IHa IHb|n b t|f l IHf IHl|c a b IHc IHa IHb|o e IHe] using expr_ind'; try reflexivity; cbn [is_reduced erase].
  - induction IH as [|a l Ha F IH]; [reflexivity|]. cbn [map forallb]. rewrite Ha, IH. reflexivity.
  - induction IH as [|a l Ha F IH]; [reflexivity|]. cbn [map forallb]. rewrite Ha, IH. reflexivity.
  - induction IH as [|a l [Ha Hb] F IH]; [reflexivity|]. cbn [map forallb fst snd]. rewrite Ha, Hb, IH. reflexivity.
  - destruct b; reflexivity.
Qed.
(** no safe item access *)
Definition nosafe (e : expr) : Prop := forall c i, ~ part (EItem c i true) e.
Definition R (e e' : expr) : Prop := erase e = erase e' /\ nosafe e.
Lemma R_reduced : forall e e', R e e' -> is_reduced e = is_reduced e'.
Proof. intros e e' [H _]. rewrite <- (erase_reduced e), <- (erase_reduced e'), H. reflexivity. Qed.
Lemma R_same : forall e e', R e e' -> is_reduced e = true -> e' = e.
Proof. intros e e' H K. assert (K' := K). rewrite (R_reduced _ _ H) in K'. rewrite <- (reduced_erase e K), <- (reduced_erase e' K'). symmetry. apply H. Qed.
Lemma reduced_nosafe : forall e, is_reduced e = true -> nosafe e.
Proof. intros e H c i P. apply (reduced_part _ _ P) in H. discriminate H. Qed.
Lemma lit_of_reduced : forall {Orc : Oracle} v e, lit_of v = Ok e -> is_reduced e = true.
Proof.
  intro Orc.
  assert (A : forall v e, rmap ELit (coerce true v) = Ok e -> is_reduced e = true) by (intros v e H; apply rmap_ok in H as [u [_ ->]]; reflexivity).
  induction v as [|b|d|z|f|c|b|w0 z|d|u|l IH|l IH|l|l IH|l IH|l IH|n|f|me v IH|n] using value_ind'; intros e H; cbn [lit_of] in H; apply rbind_ok in H as [t0 [_ H]]; try (eapply A; exact H).
  - apply rmap_ok in H as [es [E ->]]. apply rmapM_ok_iff in E. rewrite Forall_forall in IH. cbn [is_reduced]. apply forallb_forall. intros x Hx. destruct (Forall2_In_r _ _ _ _ _ _ E Hx) as [v [Hv Ev]]. eapply IH; eauto.
  - apply rmap_ok in H as [es [E ->]]. apply rmapM_ok_iff in E. rewrite Forall_forall in IH. cbn [is_reduced]. apply forallb_forall. intros x Hx. destruct (Forall2_In_r _ _ _ _ _ _ E Hx) as [v [Hv Ev]]. eapply IH; eauto.
  - injection H as <-. cbn [is_reduced]. apply forallb_forall. intros x Hx. apply in_map_iff in Hx as [z [<- _]]. reflexivity.
  - apply rmap_ok in H as [es [E ->]]. apply rmapM_ok_iff in E. rewrite Forall_forall in IH. cbn [is_reduced]. apply forallb_forall. intros x Hx. destruct (Forall2_In_r _ _ _ _ _ _ E Hx) as [v [Hv Ev]]. eapply IH; eauto.
  - apply rmap_ok in H as [es [E ->]]. apply rmapM_ok_iff in E. rewrite Forall_forall in IH. cbn [is_reduced]. apply forallb_forall. intros x Hx. destruct (Forall2_In_r _ _ _ _ _ _ E Hx) as [v [Hv Ev]].
    apply rbind_ok in Ev as [k1 [E1 Ev]]; apply rbind_ok in Ev as [v1 [E2 Ev]]; injection Ev as <-. destruct (IH _ Hv) as [I1 I2]. cbn [fst snd]. rewrite (I1 _ E1), (I2 _ E2). reflexivity.
  - apply rmap_ok in H as [es [E ->]]. apply rmapM_ok_iff in E. rewrite Forall_forall in IH. cbn [is_reduced]. apply forallb_forall. intros x Hx. destruct (Forall2_In_r _ _ _ _ _ _ E Hx) as [v [Hv Ev]].
    apply rbind_ok in Ev as [k1 [E1 Ev]]; apply rbind_ok in Ev as [v1 [E2 Ev]]; injection Ev as <-. destruct (IH _ Hv) as [I1 I2]. cbn [fst snd]. rewrite (I1 _ E1), (I2 _ E2). reflexivity.
Qed.
Lemma R_red : forall e, is_reduced e = true -> R e e.
Proof. intros e H. split; [reflexivity|apply reduced_nosafe; exact H]. Qed.

Section Construction.
Context {Orc : Oracle} (C : ctx).
Ltac ns := let c := fresh "c" in let i := fresh "i" in let P := fresh "P" in intros c i P; inversion P; subst; try discriminate;
  match goal with K : part (EItem c i true) _ |- _ => revert K; firstorder end.
Lemma sim_fold : forall e e', erase e = erase e' -> sim R (fold C e) (fold C e').
Proof.
  intros e e' H. unfold fold. apply sim_same; [apply eval_sim; exact H|]. intro v. apply sim_res. intros a a' Ea Ea'. rewrite Ea in Ea'. injection Ea' as <-. apply R_red. eapply lit_of_reduced. exact Ea.
Qed.
Lemma sim_lit : forall e e', erase e = erase e' -> sim R (do! v := eval C VNull e in ok (ELit v)) (do! v := eval C VNull e' in ok (ELit v)).
Proof. intros e e' H. apply sim_same; [apply eval_sim; exact H|]. intro v. apply sim_ret. apply R_red. reflexivity. Qed.
Lemma nosafe_sub : forall x e, part x e -> nosafe e -> nosafe x.
Proof. intros x e P H c i K. eapply H. eapply part_trans; eassumption. Qed.
Lemma sim_reduce : forall e e', R e e' -> sim R (reduce C e) (reduce C e').
Proof.
  induction e as [v|v t|l IH|l IH|l IH|o a b IHa IHb|r v i c IHr IHi IHc|c m IHc IHm|o n sf IHo|c i sf IHc IHi|c a b sf IHc IHa IHb|n b t|f l IHf IHl|c a b IHc IHa IHb|o e IHe] using expr_ind'; intros e' H; assert (H0 := H); destruct H as [H N]; cbn [erase] in H.
  - shape e' H. apply sim_ret. exact H0.
  - shape e' H. apply sim_ret. exact H0.
  - shape e' H. apply sim_ret. exact H0.
  - shape e' H. apply sim_ret. exact H0.
  - shape e' H. apply sim_ret. exact H0.
  - shape e' H. cbn [reduce]. injection H as <- Ha Hb.
    assert (Ra : R a e'1) by (split; [exact Ha|eapply nosafe_sub; [|exact N]; apply Pa_left; constructor]). assert (Rb : R b e'2) by (split; [exact Hb|eapply nosafe_sub; [|exact N]; apply Pa_right; constructor]).
    rewrite <- (R_reduced _ _ Ra), <- (R_reduced _ _ Rb). destruct (_ && _); [apply sim_fold; apply H0|apply sim_ret; exact H0].
  - shape e' H. apply sim_ret. exact H0.
  - shape e' H. cbn [reduce]. injection H as Ha Hb.
    assert (Ra : R c e'1) by (split; [exact Ha|eapply nosafe_sub; [|exact N]; apply Pa_inc; constructor]). assert (Rb : R m e'2) by (split; [exact Hb|eapply nosafe_sub; [|exact N]; apply Pa_inm; constructor]).
    rewrite <- (R_reduced _ _ Ra), <- (R_reduced _ _ Rb). destruct (_ && _); [apply sim_lit; apply H0|apply sim_ret; exact H0].
  - shape e' H. cbn [reduce]. injection H as Ha <- <-.
    assert (Ra : R o e') by (split; [exact Ha|eapply nosafe_sub; [|exact N]; apply Pa_attr; constructor]).
    rewrite <- (R_reduced _ _ Ra). destruct (is_reduced o) eqn:Ro; [|apply sim_ret; exact H0]. rewrite (R_same _ _ Ra Ro).
    unfold fold. eapply (sim_bind _ _ (fun l l' => l = l' /\ is_reduced l = true)).
    + apply sim_same; [apply eval_sim; reflexivity|]. intro v. apply sim_res. intros x y Ex Ey. rewrite Ex in Ey. injection Ey as <-. split; [reflexivity|]. eapply lit_of_reduced. exact Ex.
    + intros l l' [<- Rl]. apply sim_ret. apply R_red. destruct l; try exact Rl. destruct (_ && _); reflexivity.
  - shape e' H. injection H as Ha Hb <-.
    assert (Ra : R c e'1) by (split; [exact Ha|eapply nosafe_sub; [|exact N]; apply Pa_itc; constructor]). assert (Rb : R i e'2) by (split; [exact Hb|eapply nosafe_sub; [|exact N]; apply Pa_iti; constructor]).
    destruct sf; [destruct (N c i (Pa_self _))|]. cbn [reduce andb].
    assert (E : forall t : dtype, match t with TMap _ _ _ => false | _ => false end = false) by (intros []; reflexivity). rewrite !E.
    rewrite <- (R_reduced _ _ Ra), <- (R_reduced _ _ Rb). destruct (_ && _); [apply sim_fold; apply H0|apply sim_ret; exact H0].
  - shape e' H. cbn [reduce]. injection H as Hc Ha Hb <-.
    assert (Rc : R c e'1) by (split; [exact Hc|eapply nosafe_sub; [|exact N]; apply Pa_slc; constructor]). assert (Ra : R a e'2) by (split; [exact Ha|eapply nosafe_sub; [|exact N]; apply Pa_sla; constructor]). assert (Rb : R b e'3) by (split; [exact Hb|eapply nosafe_sub; [|exact N]; apply Pa_slb; constructor]).
    rewrite <- (R_reduced _ _ Ra), <- (R_reduced _ _ Rb), <- (R_reduced _ _ Rc). destruct (_ && _); [apply sim_fold; apply H0|apply sim_ret; exact H0].
  - assert (E : exists t', e' = ESym n b t').
    { destruct e'; cbn [erase] in H; try (destruct b; discriminate H). destruct b, builtin; try discriminate H; injection H as <-; eexists; reflexivity. }
    destruct E as [t' ->]. apply sim_ret. exact H0.
  - shape e' H. cbn [reduce]. injection H as Hf Hl.
    assert (Rf : R f e') by (split; [exact Hf|eapply nosafe_sub; [|exact N]; apply Pa_callf; constructor]).
    assert (Rl : forallb is_reduced l = forallb is_reduced args).
    { apply map_erase in Hl. clear - Hl. induction Hl as [|x y l l' E F IH]; [reflexivity|]. cbn [forallb]. rewrite IH, <- (erase_reduced x), <- (erase_reduced y), E. reflexivity. }
    rewrite <- (R_reduced _ _ Rf), <- Rl. destruct (_ && _); [apply sim_fold; apply H0|apply sim_ret; exact H0].
  - shape e' H. cbn [reduce]. injection H as Hc Ha Hb.
    assert (Rc : R c e'1) by (split; [exact Hc|eapply nosafe_sub; [|exact N]; apply Pa_tc; constructor]). assert (Ra : R a e'2) by (split; [exact Ha|eapply nosafe_sub; [|exact N]; apply Pa_ta; constructor]). assert (Rb : R b e'3) by (split; [exact Hb|eapply nosafe_sub; [|exact N]; apply Pa_tb; constructor]).
    rewrite <- (R_reduced _ _ Rc). destruct (is_reduced c) eqn:E; [|apply sim_ret; exact H0]. rewrite (R_same _ _ Rc E). destruct (lit_truthy c); [apply IHa; exact Ra|apply IHb; exact Rb].
  - shape e' H. injection H as <- He. assert (Re : R e e') by (split; [exact He|eapply nosafe_sub; [|exact N]; apply Pa_un; constructor]).
    destruct (is_reduced e) eqn:E; [rewrite (R_same _ _ Re E) in *|]; destruct o; cbn [reduce]; rewrite <- ?(R_reduced _ _ Re), E; try (apply sim_ret; exact H0).
    + apply sim_lit. reflexivity.
    + destruct e as [[]| | | | | | | | | | | | | |]; try apply sim_raise_l; apply sim_lit; reflexivity.
Qed.
End Construction.

Definition no_safe_items (n : dnode) : Prop := forall c i, ~ dpart (DItem c i true) n.
Section Build2.
Context {Orc : Oracle} (C : ctx) (f : str -> result dtype).
Lemma eval_types : forall thing, eval (with_types C f) thing = eval C thing.
Proof. reflexivity. Qed.
Lemma reduce_types : reduce (with_types C f) = reduce C.
Proof. reflexivity. Qed.
Lemma rule_evaluate_types : forall e thing, rule_evaluate (with_types C f) e thing = rule_evaluate C e thing.
Proof. reflexivity. Qed.
Lemma nsi_sub : forall x n, dpart x n -> no_safe_items n -> no_safe_items x.
Proof. intros x n P U c i K. eapply U. eapply dpart_trans; eassumption. Qed.
Ltac sub U := eapply nsi_sub; [|exact U].
Ltac nz := let c := fresh "c" in let i := fresh "i" in let P := fresh "P" in intros c i P; inversion P; subst; try discriminate;
  match goal with K : part (EItem c i true) ?x |- _ => match goal with N : nosafe x |- _ => exact (N _ _ K) end end.
Definition Ro (o o' : option expr) : Prop := match o, o' with Some e, Some e' => R e e' | None, None => True | _, _ => False end.
Lemma R_lits : forall v, R (ELit v) (ELit v).
Proof. intro. apply R_red. reflexivity. Qed.
Lemma Forall2_R : forall es es', Forall2 R es es' -> map erase es = map erase es' /\ (forall e, In e es -> nosafe e).
Proof. intros es es' H. induction H as [|a b l l' [E N] H [I1 I2]]; [split; [reflexivity|intros e []]|]. split; [cbn; congruence|]. intros e [<-|K]; auto. Qed.
Lemma sim_opt : forall o, opt_D (fun n => no_safe_items n -> sim R (build C n) (build (with_types C f) n)) o -> opt_D no_safe_items o ->
  sim Ro (match o with Some n => do! e := build C n in ok (Some e) | None => ok None end) (match o with Some n => do! e := build (with_types C f) n in ok (Some e) | None => ok None end).
Proof. intros [n|] H U; [|apply sim_ret; exact I]. eapply sim_bind; [apply H; exact U|]. intros a a' Ha. apply sim_ret. exact Ha. Qed.
Theorem sim_build : forall n, no_safe_items n -> sim R (build C n) (build (with_types C f) n).
Proof.
  induction n as [v|t|t|t|l IH|l IH|l IH|o a b IHa IHb|r v i c IHr IHi IHc|c m IHc IHm|o nm sf IHo|c i sf IHc IHi|c a b sf IHc IHa IHb|nm bi|g l IHf IHl|c a b IHc IHa IHb|o e IHe] using dnode_ind';
    intro U; cbn [build]; rewrite ?reduce_types.
  - apply sim_ret. apply R_lits.
  - apply sim_res. intros a a' E E'. rewrite E in E'. injection E' as <-. apply rmap_ok in E as [d [_ ->]]. apply R_lits.
  - apply sim_res. intros a a' E E'. change (c_tz (with_types C f)) with (c_tz C) in E'. rewrite E in E'. injection E' as <-. apply rmap_ok in E as [d [_ ->]]. apply R_lits.
  - apply sim_res. intros a a' E E'. rewrite E in E'. injection E' as <-. apply rmap_ok in E as [d [_ ->]]. apply R_lits.
  - rewrite Forall_forall in IH. eapply sim_bind; [apply (sim_pmapM _ _ R); intros n Hn; apply IH; [exact Hn|sub U; eapply Dp_arr; [exact Hn|constructor]]|].
    intros es es' H. apply Forall2_R in H as [H1 H2]. apply sim_ret. split; [cbn [erase]; congruence|]. intros c i P. inversion P; subst. eapply H2; eassumption.
  - rewrite Forall_forall in IH. eapply sim_bind; [apply (sim_pmapM _ _ R); intros n Hn; apply IH; [exact Hn|sub U; eapply Dp_set; [exact Hn|constructor]]|].
    intros es es' H. apply Forall2_R in H as [H1 H2]. apply sim_ret. split; [cbn [erase]; congruence|]. intros c i P. inversion P; subst. eapply H2; eassumption.
  - rewrite Forall_forall in IH. eapply (sim_bind _ _ (Forall2 (fun kv kv' => R (fst kv) (fst kv') /\ R (snd kv) (snd kv')))).
    + apply sim_pmapM. intros [k v] Hn. destruct (IH _ Hn) as [I1 I2]. cbn [fst snd] in *. eapply sim_bind; [apply I1; sub U; eapply Dp_key; [exact Hn|constructor]|]. intros a a' Ha.
      eapply sim_bind; [apply I2; sub U; eapply Dp_val; [exact Hn|constructor]|]. intros b b' Hb. apply sim_ret. split; assumption.
    + intros es es' H. apply sim_only. apply sim_ret.
      assert (G : map (fun kv => (erase (fst kv), erase (snd kv))) es = map (fun kv => (erase (fst kv), erase (snd kv))) es' /\ (forall k v, In (k, v) es -> nosafe k /\ nosafe v)).
      { clear - H. induction H as [|[k v] [k' v'] l l' [[E1 N1] [E2 N2]] H [I1 I2]]; [split; [reflexivity|intros k v []]|]. cbn [map fst snd] in *. split; [congruence|]. intros k0 v0 [E|K]; [injection E as <- <-; auto|eauto]. }
      destruct G as [G1 G2]. split; [cbn [erase]; congruence|]. intros c i P. inversion P; subst; match goal with K : In _ es |- _ => apply G2 in K as [K1 K2] end; [eapply K1|eapply K2]; eassumption.
  - eapply sim_bind; [apply IHa; sub U; apply Dp_l; constructor|]. intros x x' [Hx Nx]. eapply sim_bind; [apply IHb; sub U; apply Dp_r; constructor|]. intros y y' [Hy Ny].
    apply sim_only. apply sim_reduce. split; [cbn [erase]; congruence|nz].
  - eapply sim_bind; [apply IHi; sub U; apply Dp_ci; constructor|]. intros x x' [Hx Nx]. destruct (_ && _); [apply sim_raise_l|]. destruct (_ && _); [apply sim_raise_r|].
    apply (sim_bind _ _ (fun p p' => Ro (fst p) (fst p') /\ R (snd p) (snd p'))).
    + assert (Kb : forall C' (e : dnode), keeps s_scopes (build C' e)) by (intros C' e w q; apply build_scopes).
      assert (Ko : forall C' (o : option dnode), keeps s_scopes (match o with Some n => do! e := build C' n in ok (Some e) | None => ok None end)).
      { intros C' [n|]; [|apply keeps_ret]. apply keeps_pbind; [apply Kb|]. intro. apply keeps_ret. }
      apply sim_scope; [split; reflexivity| | |].
      * apply keeps_pbind; [apply Ko|]. intro. apply keeps_pbind; [apply Kb|]. intro. apply keeps_ret.
      * apply keeps_pbind; [apply Ko|]. intro. apply keeps_pbind; [apply Kb|]. intro. apply keeps_ret.
      * eapply sim_bind; [apply sim_opt; [exact IHc|destruct c; [sub U; apply Dp_cc; constructor|exact I]]|]. intros oc oc' Hc.
        eapply sim_bind; [apply IHr; sub U; apply Dp_cr; constructor|]. intros e e' He. apply sim_ret. split; assumption.
    + intros [oc e] [oc' e'] [Hc [He Ne]]. apply sim_ret. cbn [fst snd] in *. unfold Ro in Hc. destruct oc as [y|], oc' as [y'|]; try contradiction.
      * destruct Hc as [Hy Ny]. split; [cbn [erase]; congruence|nz].
      * split; [cbn [erase]; congruence|nz].
  - eapply sim_bind; [apply IHc; sub U; apply Dp_inc; constructor|]. intros x x' [Hx Nx]. eapply sim_bind; [apply IHm; sub U; apply Dp_inm; constructor|]. intros y y' [Hy Ny].
    apply sim_only. apply sim_reduce. split; [cbn [erase]; congruence|nz].
  - eapply sim_bind; [apply IHo; sub U; apply Dp_attr; constructor|]. intros x x' [Hx Nx]. apply sim_only. apply sim_reduce. split; [cbn [erase]; congruence|nz].
  - eapply sim_bind; [apply IHc; sub U; apply Dp_itc; constructor|]. intros x x' [Hx Nx]. eapply sim_bind; [apply IHi; sub U; apply Dp_iti; constructor|]. intros y y' [Hy Ny].
    apply sim_only. apply sim_reduce. destruct sf; [destruct (U c i (Dp_self _))|]. split; [cbn [erase]; congruence|nz].
  - eapply sim_bind; [apply sim_opt; [exact IHa|destruct a; [sub U; apply Dp_sla; constructor|exact I]]|]. intros oa oa' Ha.
    eapply sim_bind; [apply sim_opt; [exact IHb|destruct b; [sub U; apply Dp_slb; constructor|exact I]]|]. intros ob ob' Hb.
    eapply sim_bind; [apply IHc; sub U; apply Dp_slc; constructor|]. intros z z' [Hz Nz]. apply sim_only. apply sim_reduce.
    assert (L : forall o o' d, Ro o o' -> R (mk_lit_slice o d) (mk_lit_slice o' d)) by (intros [x|] [x'|] d K; try contradiction; [exact K|apply R_lits]).
    destruct (L _ _ (VDec (dec_of_Z 0)) Ha) as [E1 N1], (L _ _ VNull Hb) as [E2 N2]. split; [cbn [erase]; congruence|nz].
  - apply sim_same; [exact (sim_act (OSym nm) I)|]. intro u. unfold resolve_type. destruct bi.
    + eapply sim_same; [apply sim_eq_ret|]. intro t. apply sim_ret. split; [reflexivity|]. intros c i P. inversion P.
    + eapply (sim_bind _ _ (fun _ _ => True)).
      * intros w q q' S. rewrite !run_pbind. cbn. assert (G : forall r r' : result dtype, (exists x q1, (r, q) = (Err x, q1)) \/ (exists x q1, (r', q') = (Err x, q1)) \/ exists a a' q1 q1', (r, q) = (Ok a, q1) /\ (r', q') = (Ok a', q1') /\ True /\ same_thread q1 q1').
        { intros [a|x] [a'|x']; [right; right; exists a, a', q, q'; repeat split; apply S|right; left; eauto|left; eauto|left; eauto]. }
        destruct (find_scope (s_scopes q) nm) as [a|], (find_scope (s_scopes q') nm) as [a'|]; try (destruct (a_type a)); try (destruct (a_type a')); apply G.
      * intros t t' _. apply sim_ret. split; [reflexivity|]. intros c i P. inversion P.
  - rewrite Forall_forall in IHl. eapply sim_bind; [apply IHf; sub U; apply Dp_callf; constructor|]. intros x x' [Hx Nx].
    eapply sim_bind; [apply (sim_pmapM _ _ R); intros n Hn; apply IHl; [exact Hn|sub U; eapply Dp_callx; [exact Hn|constructor]]|]. intros es es' H. apply Forall2_R in H as [H1 H2].
    apply sim_only. apply sim_reduce. split; [cbn [erase]; congruence|]. intros c i P. inversion P; subst; [eapply Nx; eassumption|eapply H2; eassumption].
  - eapply sim_bind; [apply IHc; sub U; apply Dp_tc; constructor|]. intros x x' [Hx Nx]. eapply sim_bind; [apply IHa; sub U; apply Dp_ta; constructor|]. intros y y' [Hy Ny]. eapply sim_bind; [apply IHb; sub U; apply Dp_tb; constructor|]. intros z z' [Hz Nz].
    apply sim_reduce. split; [cbn [erase]; congruence|nz].
  - eapply sim_bind; [apply IHe; sub U; apply Dp_un; constructor|]. intros x x' [Hx Nx]. apply sim_reduce. split; [cbn [erase]; congruence|nz].
Qed.
End Build2.

(** ** Without declared types and comprehensions no symbol has a type *)
Definition no_comprehension (n : dnode) : Prop := forall r v i c, ~ dpart (DComp r v i c) n.
Section Fixed.
Context {Orc : Oracle} (C : ctx).
(** started outside of comprehensions *)
Definition fx {A} (Q : A -> Prop) (p : prog A) : Prop := forall w q r q', s_scopes q = [] -> run w p q = (Ok r, q') -> Q r /\ s_scopes q' = [].
Lemma fx_res : forall A (Q : A -> Prop) r, (forall a, r = Ok a -> Q a) -> fx Q (Ret r).
Proof. intros A Q r H w q a q' S E. injection E as E <-. split; [apply H; exact E|exact S]. Qed.
Lemma fx_ret : forall A (Q : A -> Prop) a, Q a -> fx Q (ok a).
Proof. intros A Q a H. apply fx_res. intros b E. injection E as <-. exact H. Qed.
Lemma fx_bind : forall A B (P : A -> Prop) (Q : B -> Prop) p f, fx P p -> (forall a, P a -> fx Q (f a)) -> fx Q (pbind p f).
Proof. intros A B P Q p f H K w q r q' S E. rewrite run_pbind in E. destruct (run w p q) as [[a|x] q1] eqn:G; [|discriminate E]. destruct (H w q a q1 S G) as [Pa S1]. exact (K a Pa w q1 r q' S1 E). Qed.
Lemma fx_only : forall A T (Q : A -> Prop) (r : result T) p, fx Q p -> fx Q (do! _ := Ret r in p).
Proof. intros. eapply (fx_bind _ _ (fun _ => True)); [apply fx_res; intros; exact I|]. intros. assumption. Qed.
Lemma fx_pmapM : forall A B (Q : B -> Prop) (f : A -> prog B) l, (forall a, In a l -> fx Q (f a)) -> fx (Forall Q) (pmapM f l).
Proof.
  intros A B Q f l. induction l as [|a l IH]; intro H; [apply fx_ret; constructor|]. cbn [pmapM]. eapply fx_bind; [apply H; left; reflexivity|]. intros b Hb.
  eapply fx_bind; [apply IH; intros; apply H; right; assumption|]. intros bs Hbs. apply fx_ret. constructor; assumption.
Qed.
Lemma fx_eval : forall thing e, fx (fun _ => True) (eval C thing e).
Proof. intros thing e w q r q' S E. assert (K := eval_scopes C thing e w q). rewrite E in K. cbn [snd] in K. split; [exact I|congruence]. Qed.
Definition bare (e : expr) : Prop := erase e = e.
Lemma bare_fold : forall e, fx (fun l => is_reduced l = true) (fold C e).
Proof. intro e. unfold fold. eapply fx_bind; [apply fx_eval|]. intros v _. apply fx_res. intros l E. eapply lit_of_reduced. exact E. Qed.
Lemma fx_impl : forall A (P Q : A -> Prop) p, fx P p -> (forall a, P a -> Q a) -> fx Q p.
Proof. intros A P Q p H K w q r q' S E. destruct (H w q r q' S E) as [H1 H2]. split; [apply K; exact H1|exact H2]. Qed.
Lemma bare_f : forall e, fx bare (fold C e).
Proof. intro e. eapply fx_impl; [apply bare_fold|]. intros l H. apply reduced_erase. exact H. Qed.
Lemma bare_v : forall e, fx bare (do! v := eval C VNull e in ok (ELit v)).
Proof. intro e. eapply fx_bind; [apply fx_eval|]. intros v _. apply fx_ret. reflexivity. Qed.
Lemma bare_reduce : forall e, bare e -> fx bare (reduce C e).
Proof.
  induction e as [v|v t|l IH|l IH|l IH|o a b IHa IHb|r v i c IHr IHi IHc|c m IHc IHm|o n sf IHo|c i sf IHc IHi|c a b sf IHc IHa IHb|n b t|f l IHf IHl|c a b IHc IHa IHb|o e IHe] using expr_ind'; intro B; cbn [reduce]; try (apply fx_ret; exact B).
  - destruct (_ && _); [apply bare_f|apply fx_ret; exact B].
  - destruct (_ && _); [apply bare_v|apply fx_ret; exact B].
  - destruct (is_reduced o); [|apply fx_ret; exact B]. eapply fx_bind; [apply bare_fold|]. intros l Hl. apply fx_ret. apply reduced_erase. destruct l; try exact Hl. destruct (_ && _); reflexivity.
  - match goal with |- fx _ (if ?b then _ else _) => destruct b end; [apply fx_ret; reflexivity|]. destruct (_ && _); [apply bare_f|apply fx_ret; exact B].
  - destruct (_ && _); [apply bare_f|apply fx_ret; exact B].
  - destruct (_ && _); [apply bare_f|apply fx_ret; exact B].
  - unfold bare in B. cbn [erase] in B. injection B as Bc Ba Bb. destruct (is_reduced c); [|apply fx_ret; unfold bare; cbn [erase]; congruence]. destruct (lit_truthy c); [apply IHa; exact Ba|apply IHb; exact Bb].
  - destruct o; (destruct (is_reduced e); [|apply fx_ret; exact B]); [apply bare_v|]. destruct e as [[]| | | | | | | | | | | | | |]; try (let E := fresh in intros ? ? ? ? ? E; discriminate E); apply bare_v.
Qed.
Lemma Forall_bare : forall es, Forall bare es -> map erase es = es.
Proof. induction 1 as [|e l H F IH]; [reflexivity|]. cbn [map]. rewrite H, IH. reflexivity. Qed.
Lemma nc_sub : forall x n, dpart x n -> no_comprehension n -> no_comprehension x.
Proof. intros x n P U r v i c K. eapply U. eapply dpart_trans; eassumption. Qed.
Ltac sub U := eapply nc_sub; [|exact U].
Definition obare (o : option expr) : Prop := match o with Some e => bare e | None => True end.
Lemma bare_opt : forall o, opt_D (fun n => no_comprehension n -> fx bare (build (undeclared C) n)) o -> opt_D no_comprehension o ->
  fx obare (match o with Some n => do! e := build (undeclared C) n in ok (Some e) | None => ok None end).
Proof. intros [n|] H U; [|apply fx_ret; exact I]. eapply fx_bind; [apply H; exact U|]. intros a Ha. apply fx_ret. exact Ha. Qed.
Lemma bare_build : forall n, no_comprehension n -> fx bare (build (undeclared C) n).
Proof.
  induction n as [v|t|t|t|l IH|l IH|l IH|o a b IHa IHb|r v i c IHr IHi IHc|c m IHc IHm|o nm sf IHo|c i sf IHc IHi|c a b sf IHc IHa IHb|nm bi|g l IHf IHl|c a b IHc IHa IHb|o e IHe] using dnode_ind';
    intro U; cbn [build]; change (reduce (undeclared C)) with (reduce C).
  - apply fx_ret. reflexivity.
  - apply fx_res. intros e E. apply rmap_ok in E as [d [_ ->]]. reflexivity.
  - apply fx_res. intros e E. apply rmap_ok in E as [d [_ ->]]. reflexivity.
  - apply fx_res. intros e E. apply rmap_ok in E as [d [_ ->]]. reflexivity.
  - rewrite Forall_forall in IH. eapply fx_bind; [apply (fx_pmapM _ _ bare); intros n Hn; apply IH; [exact Hn|sub U; eapply Dp_arr; [exact Hn|constructor]]|]. intros es H. apply fx_ret. unfold bare. cbn [erase]. rewrite Forall_bare by exact H. reflexivity.
  - rewrite Forall_forall in IH. eapply fx_bind; [apply (fx_pmapM _ _ bare); intros n Hn; apply IH; [exact Hn|sub U; eapply Dp_set; [exact Hn|constructor]]|]. intros es H. apply fx_ret. unfold bare. cbn [erase]. rewrite Forall_bare by exact H. reflexivity.
  - rewrite Forall_forall in IH. eapply (fx_bind _ _ (Forall (fun kv => bare (fst kv) /\ bare (snd kv)))).
    + apply fx_pmapM. intros [k v] Hn. destruct (IH _ Hn) as [I1 I2]. cbn [fst snd] in *. eapply fx_bind; [apply I1; sub U; eapply Dp_key; [exact Hn|constructor]|]. intros a Ha.
      eapply fx_bind; [apply I2; sub U; eapply Dp_val; [exact Hn|constructor]|]. intros b Hb. apply fx_ret. split; assumption.
    + intros es H. apply fx_only. apply fx_ret. unfold bare. cbn [erase]. f_equal. clear - H. induction H as [|[k v] l [H1 H2] F IH]; [reflexivity|]. cbn [map fst snd] in *. rewrite H1, H2, IH. reflexivity.
  - eapply fx_bind; [apply IHa; sub U; apply Dp_l; constructor|]. intros x Hx. eapply fx_bind; [apply IHb; sub U; apply Dp_r; constructor|]. intros y Hy. apply fx_only. apply bare_reduce. unfold bare in *. cbn [erase]. congruence.
  - destruct (U r v i c (Dp_self _)).
  - eapply fx_bind; [apply IHc; sub U; apply Dp_inc; constructor|]. intros x Hx. eapply fx_bind; [apply IHm; sub U; apply Dp_inm; constructor|]. intros y Hy. apply fx_only. apply bare_reduce. unfold bare in *. cbn [erase]. congruence.
  - eapply fx_bind; [apply IHo; sub U; apply Dp_attr; constructor|]. intros x Hx. apply fx_only. apply bare_reduce. unfold bare in *. cbn [erase]. congruence.
  - eapply fx_bind; [apply IHc; sub U; apply Dp_itc; constructor|]. intros x Hx. eapply fx_bind; [apply IHi; sub U; apply Dp_iti; constructor|]. intros y Hy. apply fx_only. apply bare_reduce. unfold bare in *. cbn [erase]. congruence.
  - eapply fx_bind; [apply bare_opt; [exact IHa|destruct a; [sub U; apply Dp_sla; constructor|exact I]]|]. intros oa Ha. eapply fx_bind; [apply bare_opt; [exact IHb|destruct b; [sub U; apply Dp_slb; constructor|exact I]]|]. intros ob Hb.
    eapply fx_bind; [apply IHc; sub U; apply Dp_slc; constructor|]. intros z Hz. apply fx_only. apply bare_reduce.
    assert (L : forall o d, obare o -> bare (mk_lit_slice o d)) by (intros [x|] d K; [exact K|reflexivity]). assert (E1 := L _ (VDec (dec_of_Z 0)) Ha). assert (E2 := L _ VNull Hb). unfold bare in *. cbn [erase]. congruence.
  - eapply (fx_bind _ _ (fun _ => True)); [intros w q r q' S E; injection E as <- <-; split; [exact I|exact S]|]. intros u _. unfold resolve_type. destruct bi.
    + eapply (fx_bind _ _ (fun _ => True)); [apply fx_res; intros; exact I|]. intros. apply fx_ret. reflexivity.
    + apply (fx_bind _ _ (fun t => t = TUndef)); [|intros t ->; apply fx_ret; reflexivity]. intros w q r q' S E. rewrite run_pbind in E. cbn in E. rewrite S in E. cbn in E. injection E as <- <-. split; [reflexivity|exact S].
  - rewrite Forall_forall in IHl. eapply fx_bind; [apply IHf; sub U; apply Dp_callf; constructor|]. intros x Hx.
    eapply fx_bind; [apply (fx_pmapM _ _ bare); intros n Hn; apply IHl; [exact Hn|sub U; eapply Dp_callx; [exact Hn|constructor]]|]. intros es H. apply fx_only. apply bare_reduce. unfold bare. cbn [erase]. rewrite Forall_bare by exact H. rewrite Hx. reflexivity.
  - eapply fx_bind; [apply IHc; sub U; apply Dp_tc; constructor|]. intros x Hx. eapply fx_bind; [apply IHa; sub U; apply Dp_ta; constructor|]. intros y Hy. eapply fx_bind; [apply IHb; sub U; apply Dp_tb; constructor|]. intros z Hz. apply bare_reduce. unfold bare in *. cbn [erase]. congruence.
  - eapply fx_bind; [apply IHe; sub U; apply Dp_un; constructor|]. intros x Hx. apply bare_reduce. unfold bare in *. cbn [erase]. congruence.
Qed.
End Fixed.

(** * C85 *)
Lemma thread_eq : forall q q', same_thread q q' -> s_scopes q = [] -> s_scopes q' = [] -> q = q'.
Proof. intros [] [] [_ [H1 [H2 [H3 H4]]]] E E'. cbn in *. congruence. Qed.
Section C85.
Context (Orc : Oracle) (C : ctx).
(** ** The types a context declares do not change values

    The same text (parsed rule) constructed in two contexts that differ in the declared types only, without safe item access: when both
    accept it, then on every thing, every thread and every behaviour of the callbacks the two rules give the same value and leave the
    same state behind, unless one of them raises. *)
Theorem C85_same_value : forall types n w q e e' q1 q1', no_safe_items n ->
  run w (rule_new C n) q = (Ok e, q1) -> run w (rule_new (with_types C types) n) q = (Ok e', q1') ->
  forall w2 thing q2 v v' q3 q3',
  run w2 (rule_evaluate C e thing) q2 = (Ok v, q3) -> run w2 (rule_evaluate (with_types C types) e' thing) q2 = (Ok v', q3') -> v = v' /\ q3 = q3'.
Proof.
  intros types n w q e e' q1 q1' U B B' w2 thing q2 v v' q3 q3' E E'. rewrite rule_evaluate_types in E'.
  unfold rule_new in B, B'. destruct (sim_build C types n U w q q (same_thread_refl q)) as [[x [q0 K]]|[[x [q0 K]]|[a [a' [q0 [q0' [K [K' [[Ra _] _]]]]]]]]]; [congruence|congruence|].
  rewrite B in K. rewrite B' in K'. injection K as <- <-. injection K' as <- <-.
  rewrite run_rule_evaluate in E, E'. set (q5 := set_dc (c_dec C) (set_groups VNull (set_scopes [] q2))) in *.
  assert (Z := eval_scopes C thing e w2 q5). assert (Z' := eval_scopes C thing e' w2 q5).
  destruct (eval_sim C thing e e' Ra w2 q5 q5 (same_thread_refl q5)) as [[x [q0 K]]|[[x [q0 K]]|[u [u' [q6 [q6' [K [K' [<- T]]]]]]]]]; [rewrite K in E; discriminate E|rewrite K in E'; discriminate E'|].
  rewrite K in E, Z. rewrite K' in E', Z'. injection E as <- <-. injection E' as <- <-. split; [reflexivity|]. f_equal. apply thread_eq; [exact T|exact Z|exact Z'].
Qed.

(** ** Without comprehensions the rule of the context that declares nothing is the same expression without types *)
Theorem C85_undeclared_rule : forall n w q e e' q1 q1', no_safe_items n -> no_comprehension n -> s_scopes q = [] ->
  run w (rule_new C n) q = (Ok e, q1) -> run w (rule_new (undeclared C) n) q = (Ok e', q1') -> e' = erase e.
Proof.
  intros n w q e e' q1 q1' U NC S B B'. unfold rule_new in B, B'.
  destruct (sim_build C (fun _ => Ok TUndef) n U w q q (same_thread_refl q)) as [[x [q0 K]]|[[x [q0 K]]|[a [a' [q0 [q0' [K [K' [[Ra _] _]]]]]]]]]; [congruence| |].
  - change (with_types C (fun _ => Ok TUndef)) with (undeclared C) in K. congruence.
  - change (with_types C (fun _ => Ok TUndef)) with (undeclared C) in K'. rewrite B in K. rewrite B' in K'. injection K as <- <-. injection K' as <- <-.
    destruct (bare_build C n NC w q e' q1' S B') as [F _]. unfold bare in F. congruence.
Qed.

(** ** What evaluates with types evaluates without, to the same value

    The type of what is called must be forgotten with the declarations or not depend on them: names, attributes and builtins. *)
Theorem C85_no_value_lost : forall e thing w q v q', (forall f l, part (ECall f l) e -> rtype (erase f) = TUndef \/ rtype (erase f) = rtype f) ->
  run w (rule_evaluate C e thing) q = (Ok v, q') -> run w (rule_evaluate C (erase e) thing) q = (Ok v, q').
Proof.
  intros e thing w q v q' H E. rewrite run_rule_evaluate in *. set (q5 := set_dc (c_dec C) (set_groups VNull (set_scopes [] q))) in *.
  destruct (adds_eval C thing (fun _ => True) (fun _ _ => I) e) with (w := w) (q := q5) as [[x [q0 [_ K]]]|K].
  - intros f l P. split; [intros; exact I|eapply H; exact P].
  - rewrite K in E. discriminate E.
  - rewrite <- K. exact E.
Qed.

(** ** Declarations add type failures only

    Without calls: the rule with types behaves exactly like the rule without, or raises a symbol type error (or the TypeError or
    EngineError of a value that has no type at all). *)
Theorem C85_only_type_failures : forall e thing w q, (forall f l, ~ part (ECall f l) e) ->
  (exists x q', type_failure x /\ run w (rule_evaluate C e thing) q = (Err x, q')) \/ run w (rule_evaluate C e thing) q = run w (rule_evaluate C (erase e) thing) q.
Proof.
  intros e thing w q H. rewrite !run_rule_evaluate. set (q5 := set_dc (c_dec C) (set_groups VNull (set_scopes [] q))) in *.
  destruct (adds_eval C thing type_failure (fun _ K => K) e) with (w := w) (q := q5) as [[x [q0 [Hx K]]]|K].
  - intros f l P. destruct (H _ _ P).
  - left. rewrite K. eauto.
  - right. rewrite K. reflexivity.
Qed.
End C85.

(** ** Instances *)
Local Open Scope string_scope.
Local Open Scope list_scope.
Definition decl (n : str) : result dtype :=
  if str_eqb n (s "n") then Ok TFloat else if str_eqb n (s "name") then Ok TString else if str_eqb n (s "xs") then Ok (TArray TFloat true) else if str_eqb n (s "m") then Ok (TMap TFloat TString true) else Err (XSymRes n None).
(** n + 1 > 2 and (name =~ 'L') *)
Definition rule1 : dnode := DBin BAndL (DBin (BCmp Cgt) (DBin BAdd (DSym (s "n") false) (DFloat (s "1"))) (DFloat (s "2"))) (DBin (BFuzzy true false) (DSym (s "name") false) (DLit (VStr (s "L")))).
Example C85_example :
  no_safe_items rule1 /\ no_comprehension rule1 /\
  exists e e' q1 q1' q3, run demo_world (rule_new (demo_ctx decl) rule1) demo_st = (Ok e, q1) /\ run demo_world (rule_new (undeclared (demo_ctx decl)) rule1) demo_st = (Ok e', q1') /\
    e <> e' /\ run demo_world (rule_evaluate (demo_ctx decl) e demo_thing) demo_st = (Ok (VBool true), q3) /\ run demo_world (rule_evaluate (demo_ctx decl) e' demo_thing) demo_st = (Ok (VBool true), q3).
Proof.
  split; [intros c i P; repeat match goal with H : dpart _ _ |- _ => inversion H; subst; clear H end|]. split; [intros r v i c P; repeat match goal with H : dpart _ _ |- _ => inversion H; subst; clear H end|].
  eexists _, _, _, _, _. split; [vm_compute; reflexivity|]. split; [vm_compute; reflexivity|]. split; [intro H; discriminate H|]. split; vm_compute; reflexivity.
Qed.
(** a declared type that the value does not have: only the rule with types fails *)
Example C85_type_failure :
  fst (run demo_world (rule_evaluate untyped_ctx (EBin BEq (ESym (s "n") false TString) (ELit VNull)) demo_thing) demo_st) = Err (XSymType (s "n")) /\
  fst (run demo_world (rule_evaluate untyped_ctx (erase (EBin BEq (ESym (s "n") false TString) (ELit VNull))) demo_thing) demo_st) = Ok (VBool false).
Proof. split; vm_compute; reflexivity. Qed.

(** ** Two things declarations do change *)
(** m&[true] with m a mapping of FLOAT keys is null whatever m is; without the declaration the key true finds 1 *)
Definition rule2 : dnode := DItem (DSym (s "m") false) (DLit (VBool true)) true.
Definition thing2 : value := VDict [(VStr (s "m"), VDict [(VInt 1, VStr (s "a"))])].
Theorem C85_safe_item_refuted :
  exists e e' q1 q1', run demo_world (rule_new (demo_ctx decl) rule2) demo_st = (Ok e, q1) /\ run demo_world (rule_new (undeclared (demo_ctx decl)) rule2) demo_st = (Ok e', q1') /\
    fst (run demo_world (rule_evaluate (demo_ctx decl) e thing2) demo_st) = Ok VNull /\ fst (run demo_world (rule_evaluate (undeclared (demo_ctx decl)) e' thing2) demo_st) = Ok (VStr (s "a")).
Proof. eexists _, _, _, _. split; [vm_compute; reflexivity|]. split; [vm_compute; reflexivity|]. split; vm_compute; reflexivity. Qed.
(** a rule accepted with declared types and refused without: the two arms have different types, or the same unknown one *)
Definition rule3 : dnode := DBin BEq (DBin BAdd (DTern (DSym (s "n") false) (DMap [(DLit (VStr (s "a")), DSym (s "n") false)]) (DMap [(DLit (VStr (s "a")), DSym (s "name") false)])) (DFloat (s "1"))) (DFloat (s "1")).
Theorem C85_acceptance_refuted :
  (exists e q1, run demo_world (rule_new (demo_ctx decl) rule3) demo_st = (Ok e, q1)) /\ fst (run demo_world (rule_new (undeclared (demo_ctx decl)) rule3) demo_st) = Err XEval.
Proof. split; [eexists _, _; vm_compute; reflexivity|vm_compute; reflexivity]. Qed.
Print Assumptions C85_same_value.
Print Assumptions C85_undeclared_rule.
Print Assumptions C85_no_value_lost.
Print Assumptions C85_only_type_failures.
