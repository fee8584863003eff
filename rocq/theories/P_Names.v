(** * Theorems about names: comprehension variables, default values, attribute lookup (C31, C34, C35) *)
From Coq Require Import QArith Permutation Lia String.
From Verif Require Import Base Dec Value DType DTypeFacts Types Ops EqFacts CoerceFacts TypesFacts ParseUtil Attr Prog Ast Eval Build Engine
  ProgFacts StateFacts Post Refine Demo P_Compare P_Ops P_Eval.
Open Scope list_scope.
Open Scope Z_scope.

(** ** C31: comprehension variables *)
Section C31.
Context (Orc : Oracle) (C : ctx) (thing : value) (w : world).

Lemma find_scope_app : forall l l' n, find_scope (l ++ l') n = match find_scope l n with Some a => Some a | None => find_scope l' n end.
Proof. induction l as [|a l IH]; intros l' n; [reflexivity|]. cbn. destruct (str_eqb n (a_name a)); [reflexivity|apply IH]. Qed.

(** A variable bound by no outer comprehension denotes the current element, read like every other value; neither the thing nor
    the resolver is consulted. *)
Theorem C31_variable_partial : forall var x t q, find_scope (s_scopes q) var = None ->
  run w (eval C thing (ESym var false t)) (bind_var var x q) = (rbind (new_value (c_tz C) false x) (sym_check var t), bind_var var x q).
Proof.
  intros var x t q F. cbn [eval]. rewrite run_pthen. unfold resolve. rewrite run_pbind, run_act. cbn [step_op]. unfold bind_var at 1 2. cbn [s_scopes set_scopes].
  rewrite find_scope_app, F. cbn [find_scope a_name]. rewrite str_eqb_refl. cbn [run ok a_val]. rewrite run_pbind. cbn [run ok]. rewrite run_pbind. unfold nval. cbn [run].
  destruct (new_value (c_tz C) false x); reflexivity.
Qed.

(** The binding is invisible to every other name and to builtins. *)
Theorem C31_other_names : forall var x n bi t q, n <> var \/ bi = true ->
  let '(r, q') := run w (eval C thing (ESym n bi t)) q in
  run w (eval C thing (ESym n bi t)) (bind_var var x q) = (r, bind_var var x q').
Proof.
  intros var x n bi t q H.
  assert (R : let '(r, q') := run w (resolve C thing n bi) q in run w (resolve C thing n bi) (bind_var var x q) = (r, bind_var var x q')).
  { destruct bi.
    - unfold resolve. destruct (assoc n (c_bvals C)) as [b|]; [|reflexivity]. destruct b as [v| | | |g]; try reflexivity. unfold actr. cbn [pthen run step_op]. unfold log, bind_var, set_scopes. cbn [s_log]. destruct (w_user w (s_log q) g []) as [a|y]; [reflexivity|destruct y; reflexivity].
    - destruct H as [H|H]; [|discriminate]. unfold resolve. rewrite !run_pbind, !run_act. cbn [step_op]. unfold bind_var at 1. cbn [s_scopes set_scopes]. rewrite find_scope_app.
      destruct (find_scope (s_scopes q) n); [reflexivity|]. cbn [find_scope a_name]. destruct (str_eqb n var) eqn:E; [apply str_eqb_eq in E; contradiction|]. reflexivity. }
  cbn [eval]. rewrite !run_pthen. destruct (run w (resolve C thing n bi) q) as [r q1]. rewrite R. rewrite !run_pbind.
  destruct r as [v|y]; [|destruct y; try reflexivity; destruct (c_default C); try reflexivity]; cbn [run ok]; rewrite !run_pbind; unfold nval; cbn [run];
    destruct (new_value _ _ _); reflexivity.
Qed.
End C31.
Print Assumptions C31_variable_partial.
Print Assumptions C31_other_names.

(** the element wins over a thing with a member of the same name *)
Example C31_example : yields untyped_ctx (VDict [(VStr (s "x"), VInt 7); (VStr (s "y"), VInt 8)]) demo_world demo_st
  (EComp (EArr [sym "x"; sym "y"]) (s "x") (EArr [ELit (num 1); ELit (num 2)]) None)
  (VArr [VArr [num 1; num 8]; VArr [num 2; num 8]])
  (let t := VDict [(VStr (s "x"), VInt 7); (VStr (s "y"), VInt 8)] in
   log (EvResolve t (s "y") (Ok (VInt 8))) (log (EvResolve t (s "y") (Ok (VInt 8))) demo_st)).
Proof. vm_compute. reflexivity. Qed.

(** The scopes are searched from the outermost one: in [[x for x in [2]] for x in [1]] the inner x is 1, not 2. *)
Theorem C31_nested_refuted : yields untyped_ctx VNull demo_world demo_st
  (EComp (EComp (sym "x") (s "x") (EArr [ELit (num 2)]) None) (s "x") (EArr [ELit (num 1)]) None)
  (VArr [VArr [num 1]]) demo_st.
Proof. vm_compute. reflexivity. Qed.
Print Assumptions C31_nested_refuted.

(** Attribute access is not unaffected: [obj.x for x in [2]] is [2] although obj has a member x with the value 5. *)
Theorem C31_attribute_refuted :
  let thing := VDict [(VStr (s "obj"), VDict [(VStr (s "x"), VInt 5)])] in
  fst (run demo_world (eval untyped_ctx thing (EAttr (sym "obj") (s "x") false)) demo_st) = Ok (num 5) /\
  fst (run demo_world (eval untyped_ctx thing (EComp (EAttr (sym "obj") (s "x") false) (s "x") (EArr [ELit (num 2)]) None)) demo_st) = Ok (VArr [num 2]).
Proof. vm_compute. split; reflexivity. Qed.
Print Assumptions C31_attribute_refuted.

(** ** C34: default_value *)
Section C34.
Context (Orc : Oracle) (C : ctx) (thing : value).

(** the same context with another default_value ([None] = UNDEFINED, the default of the constructor) *)
Definition with_default (d : option value) : ctx :=
  {| c_flags := c_flags C; c_tz := c_tz C; c_default := d; c_dec := c_dec C; c_types := c_types C; c_bvals := c_bvals C; c_btypes := c_btypes C; c_btz := c_btz C |}.

(** [unresolvable name n bi q]: the resolver (or the builtin table) does not know the name *)
Definition unresolved (w : world) (obj : value) (name : str) (bi : bool) (q : st) (sg : option str) (q' : st) : Prop :=
  run w (resolve C obj name bi) q = (Err (XSymRes name sg), q').

(** an unresolvable symbol: the default (read like every value) with a default_value, SymbolResolutionError without *)
Theorem C34_symbol : forall w name bi t q sg q', unresolved w thing name bi q sg q' ->
  (forall d, run w (eval (with_default (Some d)) thing (ESym name bi t)) q = (rbind (new_value (c_tz C) false d) (sym_check name t), q')) /\
  fails (with_default None) thing w q (ESym name bi t) (XSymRes name sg) q'.
Proof.
  unfold unresolved, fails. intros w name bi t q sg q' H. split; [intro d|]; cbn [eval]; rewrite run_pthen.
  - change (resolve (with_default (Some d)) thing name bi) with (resolve C thing name bi). rewrite H, run_pbind. cbn [c_default with_default run ok]. rewrite run_pbind. unfold nval. cbn [run c_tz with_default].
    destruct (new_value (c_tz C) false d); reflexivity.
  - change (resolve (with_default None) thing name bi) with (resolve C thing name bi). rewrite H, run_pbind. reflexivity.
Qed.

(** an attribute that is neither builtin nor a member *)
Theorem C34_attribute : forall w o name safe q v q1 n' sg sg' q2,
  (forall d, yields (with_default d) thing w q o v q1) -> (v = VNull -> safe = false) ->
  resolve_attr v name = Err (XAttrRes n' sg) -> unresolved w v name false q1 sg' q2 ->
  (forall d, run w (eval (with_default (Some d)) thing (EAttr o name safe)) q = (new_value (c_tz C) false d, q2)) /\
  exists sg2, fails (with_default None) thing w q (EAttr o name safe) (XAttrRes name sg2) q2.
Proof.
  unfold unresolved, yields, fails. intros w o name safe q v q1 n' sg sg' q2 Hv NS RA UR.
  assert (NB : is_null v && safe = false) by (destruct v; try reflexivity; cbn; auto). split; [intro d|eexists]; cbn [eval]; rewrite run_pbind, Hv, NB, RA, run_pthen.
  - change (resolve (with_default (Some d)) v name false) with (resolve C v name false). rewrite UR. reflexivity.
  - change (resolve (with_default None) v name false) with (resolve C v name false). rewrite UR. cbn [c_default with_default]. reflexivity.
Qed.

(** An evaluation without default_value that does not end in a resolution error is the same with any default_value: same
    value or error, same effects.  So a default only ever replaces unresolvable names. *)
Definition resolution_error (x : exn) : bool := match x with XSymRes _ _ | XAttrRes _ _ => true | _ => false end.

Ltac rbnd := apply ref_bind; [|intro].
Ltac rsame := apply ref_refl.
Lemma default_ref : forall d e, ref resolution_error (eval (with_default None) thing e) (eval (with_default (Some d)) thing e).
Proof.
  intro d. assert (KS : forall d e, keeps s_scopes (eval (with_default d) thing e)) by (intros d0 e w q; apply eval_scopes).
  induction e as [v|v t|l IH|l IH|l IH|o a b IHa IHb|r n i c IHr IHi IHc|c m IHc IHm|o n sf IHo|c i sf IHc IHi|c a b sf IHc IHa IHb|n bi t|f l IHf IHl|c a b IHc IHa IHb|o e IHe] using expr_ind';
    cbn [eval]; try rsame.
  - rewrite Forall_forall in IH. rbnd; [apply ref_pmapM; exact IH|rsame].
  - rewrite Forall_forall in IH. rbnd; [|rsame]. apply ref_pmapM. intros e He. rbnd; [apply IH; exact He|rsame].
  - rewrite Forall_forall in IH. apply (ref_map_literal resolution_error _ l (fun kv => eval (with_default None) thing (fst kv)) (fun kv => eval (with_default (Some d)) thing (fst kv))
      (fun kv => eval (with_default None) thing (snd kv)) (fun kv => eval (with_default (Some d)) thing (snd kv))); intros kv Hkv; destruct (IH kv Hkv); assumption.
  - destruct o.
    + rbnd; [exact IHa|]. rbnd; [exact IHb|rsame].
    + rbnd; [exact IHa|]. rbnd; [exact IHb|rsame].
    + rbnd; [exact IHa|]. destruct (is_numeric _); [|rsame]. rbnd; [exact IHb|rsame].
    + rbnd; [exact IHa|]. rbnd; [rsame|]. destruct (dt_eqb _ _); [|destruct (is_set_t _); [|rsame]].
      * rbnd; [rsame|]. rbnd; [exact IHb|rsame].
      * rbnd; [exact IHb|rsame].
    + rbnd; [exact IHa|]. destruct (truthy _); [|rsame]. rbnd; [exact IHb|rsame].
    + rbnd; [exact IHa|]. destruct (truthy _); [rsame|]. rbnd; [exact IHb|rsame].
    + rbnd; [exact IHa|]. rbnd; [exact IHb|rsame].
    + rbnd; [exact IHa|]. rbnd; [exact IHb|rsame].
    + rbnd; [exact IHa|]. rbnd; [exact IHb|rsame].
    + rbnd; [exact IHa|]. destruct a0; try rsame; (rbnd; [exact IHb|rsame]).
  - rbnd; [exact IHi|]. rbnd; [rsame|]. destruct (is_iterable _); [|rsame]. rbnd; [|rsame]. apply ref_comp_loop; try apply KS; [|exact IHr].
    destruct c as [c|]; [|exact I]. split; [exact IHc|split; apply KS].
  - rbnd; [exact IHc|]. rbnd; [rsame|]. rbnd; [exact IHm|rsame].
  - rbnd; [exact IHo|]. destruct (is_null _ && sf); [rsame|]. destruct (resolve_attr _ _) as [r|x]; [rsame|]. destruct x; try rsame.
    apply ref_then_same. intros [v|x]; [rsame|]. destruct x; try rsame. apply ref_bad. reflexivity.
  - rbnd; [exact IHc|]. destruct (is_null _); [rsame|]. rbnd; [exact IHi|rsame].
  - rbnd; [exact IHc|]. destruct (is_null _); [rsame|]. rbnd; [exact IHa|]. rbnd; [rsame|]. rbnd; [exact IHb|rsame].
  - apply ref_then_same. intros r. destruct r as [v|x]; [rsame|]. destruct x; try rsame.
    intros w q. right. exists (XSymRes name sug), q. split; reflexivity.
  - rbnd; [exact IHf|]. destruct (callable _); [|rsame]. rewrite Forall_forall in IHl. rbnd; [apply ref_pmapM; exact IHl|]. rbnd; [rsame|]. rsame.
  - rbnd; [exact IHc|]. destruct (truthy _); assumption.
  - destruct o; (rbnd; [exact IHe|rsame]).
Qed.

Theorem C34_conservative : forall d e w q r q', run w (eval (with_default None) thing e) q = (r, q') ->
  (forall n sg, r <> Err (XSymRes n sg) /\ r <> Err (XAttrRes n sg)) ->
  run w (eval (with_default (Some d)) thing e) q = (r, q').
Proof.
  intros d e w q r q' H N. destruct (default_ref d e w q) as [E|[x [q1 [E Bx]]]]; [rewrite E; exact H|]. exfalso. rewrite E in H. inversion H; subst.
  destruct x; try discriminate; destruct (N name sug) as [N1 N2]; [apply N2|apply N1]; reflexivity.
Qed.
End C34.
Print Assumptions C34_symbol.
Print Assumptions C34_attribute.
Print Assumptions C34_conservative.
Example C34_example :
  let C := with_default untyped_ctx (Some (VInt 9)) in
  yields C demo_thing demo_world demo_st (sym "missing") (num 9) (log (EvResolve demo_thing (s "missing") (Err (XSymRes (s "missing") (Some (s "n"))))) demo_st) /\
  yields C demo_thing demo_world demo_st (sym "n") (num 3) (log (EvResolve demo_thing (s "n") (Ok (VInt 3))) demo_st) /\
  fst (run demo_world (eval C demo_thing (EAttr (sym "name") (s "missing") false)) demo_st) = Ok (num 9) /\
  fst (run demo_world (eval untyped_ctx demo_thing (EAttr (sym "name") (s "missing") false)) demo_st) = Err (XAttrRes (s "missing") (Some (s "as_lower"))).
Proof. repeat split; vm_compute; reflexivity. Qed.

(** ** C35: attribute lookup *)

(** docs/source/attributes.rst, "Builtin Attributes" (which forgets to_int of FLOAT) *)
Definition documented (v : value) : list str :=
  match v with
  | VArr _ | VList _ | VRange _ => map s ["ends_with"; "is_empty"; "length"; "starts_with"; "to_ary"; "to_set"]
  | VBytes _ => map s ["ends_with"; "is_empty"; "length"; "starts_with"; "to_ary"; "to_set"; "decode"]
  | VDt _ _ | VDate _ =>
      map s ["date"; "day"; "hour"; "microsecond"; "millisecond"; "minute"; "month"; "second"; "to_epoch"; "weekday"; "year"; "zone_name"]
  | VDec _ | VInt _ | VFlt _ => map s ["ceiling"; "floor"; "is_nan"; "to_flt"; "to_str"; "to_int"]
  | VMap _ | VDict _ => map s ["is_empty"; "keys"; "length"; "values"]
  | VSet _ => map s ["is_empty"; "length"; "to_ary"; "to_set"]
  | VStr _ => map s ["as_lower"; "as_upper"; "encode"; "ends_with"; "to_ary"; "to_flt"; "to_set"; "to_str"; "to_int"; "is_empty"; "length"; "starts_with"]
  | VTd _ => map s ["days"; "seconds"; "microseconds"; "total_seconds"]
  | _ => []
  end%string.

Section C35.
Context (Orc : Oracle) (C : ctx) (thing : value) (w : world).

Lemma assoc_In : forall (A : Type) name (tab : list (str * A)), (exists a, assoc name tab = Some a) <-> In name (map fst tab).
Proof.
  intros A name tab. induction tab as [|[k a] tab IH]; cbn; [split; [intros [a H]; discriminate|intros []]|].
  destruct (str_eqb name k) eqn:E.
  - apply str_eqb_eq in E. subst. split; [auto|intros _; eauto].
  - rewrite IH. apply str_eqb_neq in E. split; [auto|intros [K|K]; [congruence|exact K]].
Qed.

Lemma table_of : forall v t, from_value v = Ok t ->
  match attr_table attr_map t with Some tab => forall name, In name (map fst tab) <-> In name (documented v) | None => documented v = [] end.
Proof.
  intros v t H.
  assert (K : forall l l' : list str, Permutation l l' -> forall n, In n l <-> In n l').
  { intros l l' P n. split; [apply Permutation_in; exact P|apply Permutation_in; symmetry; exact P]. }
  assert (S : forall l l' : list str, (forallb (fun x => str_mem x l') l && forallb (fun x => str_mem x l) l' = true) -> forall n, In n l <-> In n l').
  { intros l l' P n. apply andb_true_iff in P as [P1 P2]. rewrite forallb_forall in P1, P2. split; intro I0; [apply P1 in I0|apply P2 in I0]; apply existsb_exists in I0 as [x [Hx E]]; apply str_eqb_eq in E; subst; exact Hx. }
  destruct v; cbn [from_value] in H; try discriminate;
    repeat match type of H with rbind ?r _ = _ => destruct r; cbn [rbind] in H; try discriminate | rmap _ ?r = _ => destruct r; cbn [rmap] in H; try discriminate end;
    unfold mk_mapping in H; repeat match type of H with (if ?b then _ else _) = _ => destruct b; try discriminate end; inversion H; subst; clear H;
    match goal with |- match ?x with Some _ => _ | None => _ end => let y := eval cbn in x in change x with y; cbv iota end; try reflexivity; apply S; vm_compute; reflexivity.
Qed.

Lemma get_attr_doc : forall v t name, from_value v = Ok t ->
  (In name (documented v) -> exists a, get_attr t name = Ok a) /\ (~ In name (documented v) -> exists sg, get_attr t name = Err (XAttrRes name sg)).
Proof.
  intros v t name T. assert (K := table_of v t T). unfold get_attr. destruct (attr_table attr_map t) as [tab|].
  - specialize (K name). rewrite <- K, <- assoc_In. destruct (assoc name tab); split; intro H; eauto.
    + exfalso. apply H. eauto.
    + destruct H as [a H]. discriminate.
  - rewrite K. split; [intros []|eauto].
Qed.

Lemma attr_fun_err : forall a v n sg, attr_fun a v <> Err (XAttrRes n sg).
Proof.
  assert (RE : forall v x n sg, is_integer_number v = Err x -> x <> XAttrRes n sg).
  { intros v x n sg H. unfold is_integer_number, is_real_number in H. destruct (is_numeric v); [|discriminate].
    destruct (isfinite v) as [b|y] eqn:E; [discriminate|]. cbn [rbind] in H. inversion H; subst. unfold isfinite in E.
    destruct v as [| |d|z|f| | | | | | | | | | | | | | |]; try (inversion E; discriminate).
    - destruct d; discriminate.
    - destruct (Z.abs z <? float_bound); inversion E; discriminate.
    - destruct f; discriminate. }
  assert (SF : forall t x n sg, string_to_flt t = Err x -> x <> XAttrRes n sg).
  { intros t x n sg H. unfold string_to_flt in H. cbv zeta in H.
    match type of H with (if ?b then _ else _) = _ => destruct b end; [destruct (dec_of_str _); inversion H; discriminate|].
    destruct (scan_float _) as [[k|k]|]; try discriminate. destruct (n_frac k); [discriminate|]. destruct (n_exp k); [discriminate|]. destruct (n_int k) as [|c [|c2 r]]; try discriminate;
      destruct c; try discriminate. destruct (_ =? _)%N; inversion H; discriminate. }
  intros a v n sg H. 
  assert (IT : forall v, rbind (is_integer_number v) (fun b => if b then Ok v else Err XEval) <> Err (XAttrRes n sg)).
  { intros v0 K. destruct (is_integer_number v0) as [[]|x] eqn:E; cbn in K; inversion K; subst. eapply RE; [exact E|reflexivity]. }
  destruct a; try (unfold attr_fun in H; discriminate H); try (unfold attr_fun in H; repeat match type of H with match ?y with _ => _ end = _ => destruct y end; discriminate H); try (destruct v; cbn in H; discriminate).
  - destruct v; try (cbn in H; discriminate). exact (IT _ H).
  - destruct v; try (cbn in H; discriminate). cbn [attr_fun] in H. eapply SF; [exact H|reflexivity].
  - destruct v; try (cbn in H; discriminate). cbn [attr_fun] in H. destruct (string_to_flt t) as [r|x] eqn:E; [exact (IT _ H)|]. cbn in H. inversion H; subst. eapply SF; [exact E|reflexivity].
  - unfold attr_fun in H. destruct v; cbn in H; try discriminate; unfold py_set in H; destruct (forallb hashable _); discriminate.
Qed.

Lemma resolve_attr_builtin : forall v t name, from_value v = Ok t -> In name (documented v) -> forall n sg, resolve_attr v name <> Err (XAttrRes n sg).
Proof.
  intros v t name T D n sg H. unfold resolve_attr in H. rewrite T in H. destruct (proj1 (get_attr_doc v t name T) D) as [a G]. rewrite G in H. cbn [rbind] in H.
  destruct (attr_fun a v) as [u|x] eqn:A; [|cbn in H; inversion H; subst; eapply attr_fun_err; exact A]. cbn [rbind] in H.
  destruct (coerce true u) as [u'|x] eqn:Co.
  - cbn [rbind] in H. destruct (from_value u') as [vt|x] eqn:F.
    + cbn [rbind] in H. destruct (attr_type a vt) as [et|x] eqn:AT.
      * cbn [rbind] in H. destruct (is_compat et vt); discriminate.
      * cbn in H. inversion H; subst. destruct a; cbn in AT; try discriminate; repeat match type of AT with (if ?b then _ else _) = _ => destruct b; try discriminate end; destruct vt; discriminate.
    + cbn in H. inversion H; subst. destruct (from_value_err _ _ F); discriminate.
  - cbn in H. inversion H; subst. assert (K : forall v x, coerce true v = Err x -> x = PType \/ x = XEngine).
    { clear. intros v. assert (FE : forall (u u' : value) x, rmap (fun _ : dtype => u') (from_value u) = Err x -> x = PType \/ x = XEngine).
      { intros u u' x H. destruct (from_value u) eqn:E; [discriminate|]. inversion H; subst. eapply from_value_err; exact E. }
      induction v as [|b|d|z|f|t|b|w0 tz|d|u|l IH|l IH|l|l IH|l IH|l IH|n0|f|m v IH|n0] using value_ind'; intros x H; try (apply (FE _ _ _ H)).
      - cbn [coerce] in H. destruct (rmapM (coerce true) l) as [l'|y] eqn:E; [apply (FE _ _ _ H)|]. cbn in H. inversion H; subst. clear -IH E. rewrite Forall_forall in IH.
        induction l as [|a l IHl]; [discriminate|]. cbn in E. destruct (coerce true a) eqn:Ea; [|cbn in E; inversion E; subst; eapply (IH a); [left; reflexivity|exact Ea]].
        cbn in E. destruct (rmapM (coerce true) l) eqn:El; [discriminate|]. cbn in E. inversion E; subst. apply IHl; [intros; eapply IH; [right; eassumption|eassumption]|reflexivity].
      - cbn [coerce] in H. destruct (rmapM (coerce true) l) as [l'|y] eqn:E; [apply (FE _ _ _ H)|]. cbn in H. inversion H; subst. clear -IH E. rewrite Forall_forall in IH.
        induction l as [|a l IHl]; [discriminate|]. cbn in E. destruct (coerce true a) eqn:Ea; [|cbn in E; inversion E; subst; eapply (IH a); [left; reflexivity|exact Ea]].
        cbn in E. destruct (rmapM (coerce true) l) eqn:El; [discriminate|]. cbn in E. inversion E; subst. apply IHl; [intros; eapply IH; [right; eassumption|eassumption]|reflexivity].
      - cbn [coerce] in H. match type of H with rbind ?r _ = _ => destruct r as [l'|y] eqn:E end; [apply (FE _ _ _ H)|]. cbn in H. inversion H; subst. clear -IH E. rewrite Forall_forall in IH.
        induction l as [|[k a] l IHl]; [discriminate|]. cbn in E. destruct (IH (k, a) (or_introl eq_refl)) as [IHk IHa]. cbn in IHk, IHa. destruct (coerce true k) as [k'|] eqn:Ek; [|cbn in E; inversion E; subst; eapply IHk; reflexivity].
        cbn in E. destruct (coerce true a) eqn:Ea; [|cbn in E; inversion E; subst; eapply IHa; reflexivity]. cbn in E. destruct (hashable k'); [|cbn in E; inversion E; auto].
        cbn in E. match type of E with rbind ?r _ = _ => destruct r eqn:El end; [discriminate|]. cbn in E. inversion E; subst. apply IHl; [intros; apply IH; right; assumption|reflexivity].
      - cbn [coerce] in H. match type of H with rbind ?r _ = _ => destruct r as [l'|y] eqn:E end; [apply (FE _ _ _ H)|]. cbn in H. inversion H; subst. clear -IH E. rewrite Forall_forall in IH.
        induction l as [|[k a] l IHl]; [discriminate|]. cbn in E. destruct (IH (k, a) (or_introl eq_refl)) as [IHk IHa]. cbn in IHk, IHa. destruct (coerce true k) as [k'|] eqn:Ek; [|cbn in E; inversion E; subst; eapply IHk; reflexivity].
        cbn in E. destruct (coerce true a) eqn:Ea; [|cbn in E; inversion E; subst; eapply IHa; reflexivity]. cbn in E. destruct (hashable k'); [|cbn in E; inversion E; auto].
        cbn in E. match type of E with rbind ?r _ = _ => destruct r eqn:El end; [discriminate|]. cbn in E. inversion E; subst. apply IHl; [intros; apply IH; right; assumption|reflexivity]. }
    destruct (K _ _ Co); discriminate.
Qed.

(** A documented attribute of the object's type is what obj.name yields; the resolver and the default value are not consulted
    (the state is the one the object left), whatever members the object has. *)
Theorem C35_builtin_first : forall o name safe q v q1 t, yields C thing w q o v q1 -> from_value v = Ok t -> In name (documented v) ->
  run w (eval C thing (EAttr o name safe)) q = (rbind (resolve_attr v name) (new_value (c_tz C) false), q1).
Proof.
  unfold yields. intros o name safe q v q1 t H T D. cbn [eval]. rewrite run_pbind, H.
  assert (N : is_null v = false) by (destruct v; try reflexivity; destruct D). rewrite N. cbn [andb].
  assert (K := resolve_attr_builtin v t name T D). destruct (resolve_attr v name) as [r|x]; [reflexivity|]. destruct x; try reflexivity. exfalso. apply (K name0 sug). reflexivity.
Qed.

(** Otherwise the resolver is asked for the member; then the default value; then AttributeResolutionError. *)
Theorem C35_member_then_default : forall o name safe q v q1, yields C thing w q o v q1 -> (v = VNull -> safe = false) ->
  (exists t, from_value v = Ok t /\ ~ In name (documented v)) \/ from_value v = Err PType ->
  let '(r, q2) := run w (resolve C v name false) q1 in
  match r with
  | Ok m => run w (eval C thing (EAttr o name safe)) q = (new_value (c_tz C) false m, q2)
  | Err (XSymRes _ _) =>
      match c_default C with
      | Some d => run w (eval C thing (EAttr o name safe)) q = (new_value (c_tz C) false d, q2)
      | None => exists sg, fails C thing w q (EAttr o name safe) (XAttrRes name sg) q2
      end
  | Err x => fails C thing w q (EAttr o name safe) x q2
  end.
Proof.
  unfold yields, fails. intros o name safe q v q1 H NS D.
  assert (NB : is_null v && safe = false) by (destruct v; try reflexivity; cbn; auto).
  assert (RA : exists n sg, resolve_attr v name = Err (XAttrRes n sg)).
  { unfold resolve_attr. destruct D as [[t [T D]]|T]; rewrite T; [|eauto]. destruct (proj2 (get_attr_doc v t name T) D) as [sg G]. rewrite G. cbn. eauto. }
  destruct RA as [n [sg RA]].
  assert (E : run w (eval C thing (EAttr o name safe)) q = run w (pthen (resolve C v name false) (fun r =>
            match r with
            | Ok x => nval C false x
            | Err (XSymRes _ sug') => match c_default C with Some d => nval C false d | None => raise (XAttrRes name (merge_sug name sg sug')) end
            | Err x => raise x
            end)) q1) by (cbn [eval]; rewrite run_pbind, H, NB, RA; reflexivity).
  rewrite E, run_pthen. destruct (run w (resolve C v name false) q1) as [[m|x] q2]; [reflexivity|]. destruct x; try reflexivity. destruct (c_default C); [reflexivity|]. eexists. reflexivity.
Qed.

(** so a mapping key that is also an attribute name is shadowed *)
Theorem C35_shadowing : forall o safe q m q1 t, yields C thing w q o (VMap m) q1 -> from_value (VMap m) = Ok t ->
  yields C thing w q (EAttr o (s "length") safe) (VDec (dec_of_Z (Z.of_nat (length m)))) q1.
Proof.
  intros o safe q m q1 t H T. unfold yields. rewrite (C35_builtin_first o (s "length") safe q (VMap m) q1 t H T) by (cbn; auto 10).
  unfold resolve_attr. rewrite T. destruct (proj1 (get_attr_doc _ _ (s "length") T)) as [a G]; [cbn; auto 10|]. rewrite G. 
  assert (a = a_length).
  { cbn [from_value] in T. destruct (rmapM (fun kv => from_value (fst kv)) m); [|discriminate]. cbn [rbind] in T. destruct (rmapM (fun kv => from_value (snd kv)) m); [|discriminate]. cbn [rbind] in T.
    unfold mk_mapping in T. destruct (_ && _) in T; [discriminate|]. inversion T; subst. cbn in G. inversion G. reflexivity. }
  subst a. reflexivity.
Qed.
End C35.
Print Assumptions C35_builtin_first.
Print Assumptions C35_member_then_default.
Print Assumptions C35_shadowing.
Example C35_example :
  let m := VDict [(VStr (s "length"), VInt 77); (VStr (s "k"), VInt 5)] in let th := VDict [(VStr (s "m"), m)] in
  fst (run demo_world (eval untyped_ctx th (EAttr (sym "m") (s "length") false)) demo_st) = Ok (num 2) /\
  fst (run demo_world (eval untyped_ctx th (EAttr (sym "m") (s "k") false)) demo_st) = Ok (num 5) /\
  fst (run demo_world (eval untyped_ctx th (EAttr (sym "m") (s "z") false)) demo_st) = Err (XAttrRes (s "z") (Some (s "keys"))).
Proof. vm_compute. repeat split. Qed.
