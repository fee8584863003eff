(** * Theorems about the names a rule depends on, and the attribute resolver (C75) *)
From Coq Require Import String.
From Verif Require Import Base Dec Value DType Types Ops EqFacts CoerceFacts ParseUtil Attr Prog Ast Eval Build Engine ProgFacts StateFacts Post Local Getattr Demo.
Open Scope list_scope.
Open Scope Z_scope.

(** ** Only the named symbols matter

    A rule compiled from [n] names the plain symbols [dfree [] n] (those that are not variables of an enclosing comprehension) and the
    attributes [dattrs n].  Two evaluations, of any two things with any two resolvers, that are told the same about those names have
    the same outcome; an error may differ only in its suggestion. *)
Section C75.
Context (Orc : Oracle) (C : ctx).

(** the engine has no builtin attribute [x] for the value [v], so that the resolver is asked for it (C35) *)
Definition no_builtin (v : value) (x : str) : Prop := exists m sg, resolve_attr v x = Err (XAttrRes m sg).

Theorem C75_only_named_symbols : forall n w0 q0 e q1, run w0 (rule_new C n) q0 = (Ok e, q1) ->
  forall w w' thing thing' q q',
  (forall x, In x (dfree [] n) -> same_answer w w' thing thing' x) ->
  (forall x v, In x (dattrs n) -> no_builtin v x -> same_answer w w' v v x) ->
  same_functions w w' -> same_history (s_log q) (s_log q') ->
  same_outcome (fst (run w (rule_evaluate C e thing) q)) (fst (run w' (rule_evaluate C e thing') q')) /\
  same_outcome (fst (run w (rule_matches C e thing) q)) (fst (run w' (rule_matches C e thing') q')) /\
  same_history (s_log (snd (run w (rule_evaluate C e thing) q))) (s_log (snd (run w' (rule_evaluate C e thing') q'))) /\
  s_groups (snd (run w (rule_evaluate C e thing) q)) = s_groups (snd (run w' (rule_evaluate C e thing') q')).
Proof.
  intros n w0 q0 e q1 HB w w' thing thing' q q' HS HA HF HL.
  assert (W : within (fun x => In x (dfree [] n)) (fun x => In x (dattrs n)) [] e).
  { eapply (build_within C (fun x => In x (dfree [] n)) (fun x => In x (dattrs n)) n []); [split; auto|exact HB]. }
  rewrite !run_rule_matches, !run_rule_evaluate.
  assert (L := eval_loc C w w' thing thing' _ _ HF HS (fun x v m sg H K => HA x v H (ex_intro _ m (ex_intro _ sg K))) e [] W (set_dc (c_dec C) (set_groups VNull (set_scopes [] q))) (set_dc (c_dec C) (set_groups VNull (set_scopes [] q')))).
  assert (S0 : sim (set_dc (c_dec C) (set_groups VNull (set_scopes [] q))) (set_dc (c_dec C) (set_groups VNull (set_scopes [] q')))) by (split; [repeat split|exact HL]).
  specialize (L S0 (fun x X => match X with end)).
  destruct (run w _ _) as [r p], (run w' _ _) as [r' p']. destruct L as [L1 [[[_ [L2 _]] L3] _]]. cbn [fst snd s_log set_dc s_groups].
  split; [exact L1|]. split; [destruct r, r'; cbn in *; subst; try contradiction; auto|]. split; assumption.
Qed.

(** ** The default resolver: items that are not named do not matter *)
Lemma text_keys_all : forall l : list (value * value), Forall (fun kv => exists t, fst kv = VStr t) l -> exists ks, all_strs l = Some ks.
Proof.
  intros l H. induction H as [|[k v] l [t E] H [ks IH]]; [exists []; reflexivity|]. cbn in E. subst k. exists (t :: ks). unfold all_strs in *. cbn [fold_right key_str fst]. rewrite IH. reflexivity.
Qed.
Definition text_keys (l : list (value * value)) : Prop := Forall (fun kv => exists t, fst kv = VStr t) l.
Definition is_mapping (thing : value) (l : list (value * value)) : Prop := thing = VDict l \/ thing = VMap l.

Theorem C75_unnamed_items : forall n w0 q0 e q1, run w0 (rule_new C n) q0 = (Ok e, q1) ->
  forall usr now rnd thing thing' l l' q, let w := default_world usr now rnd in
  is_mapping thing l -> is_mapping thing' l' -> text_keys l -> text_keys l' ->
  (forall x, In x (dfree [] n) -> dict_get l (VStr x) = dict_get l' (VStr x)) ->
  same_functions w w ->
  same_outcome (fst (run w (rule_evaluate C e thing) q)) (fst (run w (rule_evaluate C e thing') q)) /\
  same_outcome (fst (run w (rule_matches C e thing) q)) (fst (run w (rule_matches C e thing') q)).
Proof.
  intros n w0 q0 e q1 HB usr now rnd thing thing' l l' q w M M' K K' HG HF.
  assert (X : forall x, In x (dfree [] n) -> same_answer w w thing thing' x).
  { intros x Hx h h' _. cbn [w w_resolve default_world]. destruct (text_keys_all l K) as [ks E], (text_keys_all l' K') as [ks' E'].
    assert (R : forall t m, is_mapping t m -> resolve_item t x = match dict_get m (VStr x) with Some v => Ok v | None => match all_strs m with Some ks => Err (XSymRes x (o_suggest x ks)) | None => Err PType end end) by (intros t m [->| ->]; reflexivity).
    rewrite (R _ _ M), (R _ _ M'), (HG x Hx), E, E'. destruct (dict_get l' (VStr x)); reflexivity. }
  destruct (C75_only_named_symbols n w0 q0 e q1 HB w w thing thing' q q X) as [H1 [H2 _]]; auto.
  - intros x v _ _ h h' _. cbn. apply alike_refl.
  - apply same_history_refl.
Qed.

(** in particular, setting one item the rule does not name changes nothing *)
Theorem C75_other_item : forall n w0 q0 e q1, run w0 (rule_new C n) q0 = (Ok e, q1) ->
  forall usr now rnd l k v q, let w := default_world usr now rnd in text_keys l -> ~ In k (dfree [] n) -> same_functions w w ->
  same_outcome (fst (run w (rule_evaluate C e (VDict l)) q)) (fst (run w (rule_evaluate C e (VDict (dict_put l (VStr k) v))) q)).
Proof.
  intros n w0 q0 e q1 HB usr now rnd l k v q w K NK HF.
  assert (ST : forall t m (x : value), dict_get (dict_put m (VStr k) x) (VStr t) = if str_eqb k t then Some x else dict_get m (VStr t)).
  { clear. intros t m x. assert (T : forall a, py_eq a (VStr k) = true -> py_eq a (VStr t) = py_eq (VStr k) (VStr t)).
    { intros a H. destruct a; try discriminate H. cbn in H. apply str_eqb_eq in H. subst. reflexivity. }
    induction m as [|[a y] m IH]; cbn [dict_put dict_get].
    - reflexivity.
    - destruct (py_eq a (VStr k)) eqn:E; cbn [dict_get].
      + rewrite (T a E). change (py_eq (VStr k) (VStr t)) with (str_eqb k t). destruct (str_eqb k t); reflexivity.
      + rewrite IH. destruct (py_eq a (VStr t)) eqn:E2; [|reflexivity]. destruct (str_eqb k t) eqn:E3; [|reflexivity]. apply str_eqb_eq in E3. subst. congruence. }
  eapply (C75_unnamed_items n w0 q0 e q1 HB usr now rnd _ _ l _ q); [left; reflexivity|left; reflexivity|exact K| | |exact HF].
  - clear -K. unfold text_keys in *. induction K as [|[a y] m [t E] K IH]; cbn [dict_put]; [constructor; [eexists; reflexivity|constructor]|]. cbn in E. subst a.
    destruct (py_eq (VStr t) (VStr k)); constructor; try assumption; eexists; reflexivity.
  - intros x Hx. rewrite ST. destruct (str_eqb k x) eqn:E; [|reflexivity]. apply str_eqb_eq in E. subst. contradiction.
Qed.

(** ** resolve_attribute *)

(** attributes that can be read repeatedly: same answer whenever asked *)
Definition steady (P : pyobj) (g : value -> str -> result value) : Prop := forall l b t n, py_getattr P l b t n = g t n.

(** what a rule sees is Python's attribute; a missing attribute (AttributeError) is an unresolvable symbol; other exceptions propagate *)
Theorem C75_attribute_resolver : forall P g l t n, steady P g ->
  match g t n with
  | Ok v => resolve_attribute P l t n = Ok v
  | Err PAttribute => exists sg, resolve_attribute P l t n = Err (XSymRes n sg)
  | Err x => resolve_attribute P l t n = Err x
  end.
Proof.
  intros P g l t n S0. unfold resolve_attribute. rewrite !S0. destruct (g t n) as [v|x] eqn:E; [reflexivity|]. destruct x; try reflexivity. eexists. reflexivity.
Qed.

(** An object whose attributes are [items], as far as the rule names them, is evaluated by resolve_attribute exactly like the
    dictionary [items] by resolve_item.  Member access in the rule, other than builtin attributes, has to find the same. *)
Theorem C75_objects_like_dictionaries : forall n w0 q0 e q1, run w0 (rule_new C n) q0 = (Ok e, q1) ->
  forall P g usr now rnd thing items q, steady P g -> text_keys items ->
  (forall x, In x (dfree [] n) -> g thing x = match dict_get items (VStr x) with Some v => Ok v | None => Err PAttribute end) ->
  (forall x v l, In x (dattrs n) -> no_builtin v x -> same_outcome (resolve_attribute P l v x) (resolve_item v x)) ->
  same_functions (attribute_world P usr now rnd) (default_world usr now rnd) ->
  same_outcome (fst (run (attribute_world P usr now rnd) (rule_evaluate C e thing) q)) (fst (run (default_world usr now rnd) (rule_evaluate C e (VDict items)) q)).
Proof.
  intros n w0 q0 e q1 HB P g usr now rnd thing items q S0 K HG MA HF.
  destruct (C75_only_named_symbols n w0 q0 e q1 HB (attribute_world P usr now rnd) (default_world usr now rnd) thing (VDict items) q q) as [H _]; auto.
  - intros x Hx h h' _. cbn [w_resolve attribute_world default_world]. specialize (HG x Hx). assert (X := C75_attribute_resolver P g h thing x S0). rewrite HG in X.
    destruct (text_keys_all items K) as [ks E]. unfold resolve_item. destruct (dict_get items (VStr x)) as [v|]; [rewrite X; reflexivity|]. rewrite E. destruct X as [sg ->]. reflexivity.
  - intros x v Hx NB h h' _. cbn [w_resolve attribute_world default_world]. apply MA; assumption.
  - apply same_history_refl.
Qed.
End C75.
Print Assumptions C75_only_named_symbols.
Print Assumptions C75_unnamed_items.
Print Assumptions C75_other_item.
Print Assumptions C75_attribute_resolver.
Print Assumptions C75_objects_like_dictionaries.

(** An object with the attributes of a person; the attribute "upper" of a text is one of Python's methods.  The rule
    [name == "Luke" and [x for x in xs if x > n] == [2]] names n, name and xs. *)
Definition py_answers (t : value) (n : str) : result value :=
  match t with
  | VObj 7 => match dict_get [(VStr (s "n"), VInt 1); (VStr (s "name"), VStr (s "Luke")); (VStr (s "xs"), VList [VInt 1; VInt 2])] (VStr n) with Some v => Ok v | None => Err PAttribute end
  | VStr _ => if str_eqb n (s "upper") then Ok (VFun 5) else Err PAttribute
  | _ => Err PAttribute
  end.
Definition py_demo : pyobj := {| py_getattr := fun _ _ => py_answers; py_dir := fun _ => map s ["n"; "name"; "xs"]%string |}.
Definition demo_functions (l : list event) (f : N) (args : list value) : result value := match f with 5%N => Ok (VStr (s "LUKE")) | _ => match args with [v] => Ok v | _ => Err PType end end.
Definition object_world : world := attribute_world py_demo demo_functions (fun _ _ => 63000000000000000) (fun _ _ => VInt 4).
Definition item_world : world := default_world demo_functions (fun _ _ => 63000000000000000) (fun _ _ => VInt 4).
Definition person_rule : dnode :=
  DBin BAndL (DBin BEq (DSym (s "name") false) (DLit (VStr (s "Luke"))))
             (DBin BEq (DComp (DSym (s "x") false) (s "x") (DSym (s "xs") false) (Some (DBin (BCmp Cgt) (DSym (s "x") false) (DSym (s "n") false)))) (DArr [DFloat (s "2")])).
Definition person_items : list (value * value) := [(VStr (s "xs"), VList [VInt 1; VInt 2]); (VStr (s "age"), VInt 53); (VStr (s "n"), VInt 1); (VStr (s "name"), VStr (s "Luke"))].

Example C75_example :
  dfree [] person_rule = map s ["name"; "xs"; "n"]%string /\ dattrs person_rule = [] /\
    exists e q, run demo_world (rule_new untyped_ctx person_rule) demo_st = (Ok e, q) /\
    steady py_demo py_answers /\ text_keys person_items /\ same_functions object_world item_world /\ same_functions item_world item_world /\
    (forall x, In x (dfree [] person_rule) -> py_answers (VObj 7) x = match dict_get person_items (VStr x) with Some v => Ok v | None => Err PAttribute end) /\
    fst (run object_world (rule_evaluate untyped_ctx e (VObj 7)) demo_st) = Ok (VBool true) /\
    fst (run item_world (rule_evaluate untyped_ctx e (VDict person_items)) demo_st) = Ok (VBool true).
Proof.
  split; [reflexivity|]. split; [reflexivity|]. eexists _, _. split; [vm_compute; reflexivity|]. split; [intros l b t n; reflexivity|]. split; [repeat (constructor; [eexists; reflexivity|]); constructor|].
  split; [intros l l' _; repeat split|]. split; [intros l l' _; repeat split|]. split; [|split; vm_compute; reflexivity].
  intros x H. cbn in H. repeat (destruct H as [<-|H]; [vm_compute; reflexivity|]). destruct H.
Qed.

(** *** What resolve_attribute exposes beyond the attributes of the thing

    Member access asks the resolver about the member's value, so the Python attributes of every value reached are visible, not only
    those of the thing: [name.upper()] calls a Python method that the language does not have.  With resolve_item the same rule is an
    error. *)
Example C75_members_exposed :
  fst (run object_world (rule_evaluate untyped_ctx (ECall (EAttr (sym "name") (s "upper") false) []) (VObj 7)) demo_st) = Ok (VStr (s "LUKE")) /\
    fst (run item_world (rule_evaluate untyped_ctx (ECall (EAttr (sym "name") (s "upper") false) []) (VDict person_items)) demo_st) = Err (XAttrRes (s "upper") (Some (s "as_lower"))).
Proof. vm_compute. split; reflexivity. Qed.

(** The attribute is read twice, and only the first time an AttributeError counts as "no such symbol".  An attribute that is gone at
    the second read (deleted by another thread, a property that fails the second time) leaves the engine as Python's AttributeError,
    which is not an EngineError, even if the context has a default_value. *)
Theorem C75_read_twice_refuted : exists (P : pyobj) C usr now rnd, c_default C <> None /\ is_engine PAttribute = false /\
    fst (run (attribute_world P usr now rnd) (rule_evaluate C (sym "name") (VObj 7)) demo_st) = Err PAttribute.
Proof.
  exists {| py_getattr := fun _ second t n => if second then Err PAttribute else Ok (VInt 1); py_dir := fun _ => [] |}.
  exists {| c_flags := 0; c_tz := 1%N; c_default := Some VNull; c_dec := demo_dc; c_types := fun _ => Ok TUndef; c_bvals := default_values; c_btypes := default_types; c_btz := 1%N |}.
  exists (fun _ _ _ => Err PType), (fun _ _ => 0), (fun _ _ => VInt 4). split; [discriminate|]. split; [reflexivity|]. vm_compute. reflexivity.
Qed.
Print Assumptions C75_read_twice_refuted.
