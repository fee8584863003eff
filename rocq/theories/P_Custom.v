(** * P_Custom: C73, changing the builtin symbols *)
From Verif Require Import Base Dec Value DType Types Ops ParseUtil Attr Prog Ast Eval Build Engine ProgFacts StateFacts Custom Demo P_Eval P_State P_Ops P_Names.
From Coq Require Import Lia String.
Local Open Scope list_scope.

(** ** Specification: the documented names *)
Definition documented_names : list str :=
  map s ["e"; "pi"; "now"; "today"; "abs"; "any"; "all"; "sum"; "map"; "max"; "min"; "filter"; "parse_datetime"; "parse_float"; "parse_timedelta"; "random"; "range"; "split"]%string.
(** what is given for a name in a dictionary *)
Definition given {A} (d : list (str * A)) (n : str) (v : A) : Prop := In (n, v) d.
Definition absent {A} (d : list (str * A)) (n : str) : Prop := ~ In n (map fst d).

Lemma sput_assoc : forall A (l : list (str * A)) k v n, assoc n (sput l k v) = if str_eqb n k then Some v else assoc n l.
Proof.
  intros A l k v n. induction l as [|[k' v'] l IH]; [reflexivity|]. cbn [sput]. destruct (str_eqb k k') eqn:E.
  - apply str_eqb_eq in E. subst k'. cbn [assoc]. destruct (str_eqb n k); reflexivity.
  - cbn [assoc]. rewrite IH. destruct (str_eqb n k') eqn:E1; [|reflexivity]. destruct (str_eqb n k) eqn:E2; [|reflexivity].
    apply str_eqb_eq in E1. apply str_eqb_eq in E2. subst. rewrite str_eqb_refl in E. discriminate E.
Qed.
Lemma supdate_absent : forall A (m l : list (str * A)) n, absent m n -> assoc n (supdate l m) = assoc n l.
Proof.
  intros A m. unfold supdate. induction m as [|[k v] m IH]; intros l n H; [reflexivity|]. cbn [fold_left fst snd]. rewrite IH; [|intro K; apply H; right; exact K].
  rewrite sput_assoc. destruct (str_eqb n k) eqn:E; [|reflexivity]. apply str_eqb_eq in E. subst. exfalso. apply H. left. reflexivity.
Qed.
Lemma supdate_given : forall A (m l : list (str * A)) n v, NoDup (map fst m) -> given m n v -> assoc n (supdate l m) = Some v.
Proof.
  intros A m. unfold supdate. induction m as [|[k u] m IH]; intros l n v ND H; [destruct H|]; destruct H as [E|H]; cbn [fold_left fst snd]; inversion ND as [|? ? N1 N2]; subst.
  - injection E as -> ->. change (assoc n (supdate (sput l n v) m) = Some v). rewrite supdate_absent; [|exact N1]. rewrite sput_assoc, str_eqb_refl. reflexivity.
  - apply IH; assumption.
Qed.
Lemma own_assoc : forall n, n <> s "re_groups" -> assoc n own_values = assoc n default_values /\ assoc n own_types = assoc n default_types.
Proof.
  intros n H. assert (D : forall A (l : list (str * A)) v, assoc n (l ++ [(s "re_groups", v)]) = assoc n l).
  { intros A l v. induction l as [|[k u] l IH]; cbn [assoc app].
    - destruct (str_eqb n (s "re_groups")) eqn:E; [apply str_eqb_eq in E; contradiction|reflexivity].
    - destruct (str_eqb n k); [reflexivity|exact IH]. }
  split; [change default_values with (own_values ++ [(s "re_groups", BVgroups)])|change default_types with (own_types ++ [(s "re_groups", TArray TString true)])]; symmetry; apply D.
Qed.
Lemma own_names : forall n, In n documented_names <-> assoc n own_values <> None.
Proof.
  intro n. change documented_names with (map fst own_values). generalize own_values as l. induction l as [|[k v] l IH]; cbn [map fst assoc In]; [split; [intros []|congruence]|].
  destruct (str_eqb n k) eqn:E; [apply str_eqb_eq in E; subst; split; [discriminate|auto]|]. rewrite <- IH. split; [intros [-> |K]; [rewrite str_eqb_refl in E; discriminate E|exact K]|auto].
Qed.

Section C73.
Context {Orc : Oracle} (C : ctx) (tz_local : N) (z : option N).   (* dateutil.tz.tzlocal(); the argument timezone *)
(** the outcome of a rule, made and evaluated in context D; of the rule $n *)
Definition made_and_run (D : ctx) (nd : dnode) (w : world) (thing : value) (q : st) : result value * st :=
  match run w (rule_new D nd) q with (Ok e, q1) => run w (rule_evaluate D e thing) q1 | (Err x, q1) => (Err x, q1) end.
Definition dollar (D : ctx) (n : str) := made_and_run D (DSym n true).
Definition type_of_builtin (b : builtins) (n : str) : dtype := match assoc n (b_types b) with Some t => t | None => TUndef end.

Lemma dollar_run : forall D n w thing q, dollar D n w thing q = run w (rule_evaluate D (ESym n true (match assoc n (c_btypes D) with Some t => t | None => TUndef end)) thing) (add_sym n q).
Proof. reflexivity. Qed.
Lemma dollar_ext : forall D D' n w thing q, c_bvals D = c_bvals D' \/ (assoc n (c_bvals D) = assoc n (c_bvals D') /\ assoc n (c_bvals D) <> None /\ forall g, assoc n (c_bvals D) <> Some (BVgen g)) -> assoc n (c_btypes D) = assoc n (c_btypes D') -> c_tz D = c_tz D' -> (c_btz D = c_btz D' \/ ~ In n (map s ["now"; "today"]%string) /\ assoc n (c_bvals D) = assoc n default_values) -> c_default D = c_default D' -> c_dec D = c_dec D' ->
  dollar D n w thing q = dollar D' n w thing q.
Proof.
  intros D D' n w thing q B T Z BZ F E. rewrite !dollar_run, !run_rule_evaluate, T, E. cbn [eval]. unfold nval. rewrite Z, F.
  assert (R : resolve D thing n true = resolve D' thing n true).
  { unfold resolve.
    assert (BN : assoc n (c_bvals D) = Some BVnow \/ assoc n (c_bvals D) = Some BVtoday -> c_btz D = c_btz D').
    { intro K. destruct BZ as [BZ|[N0 DV]]; [exact BZ|]. exfalso. apply N0. rewrite DV in K. destruct K as [K|K]; apply Base.assoc_In in K; revert K; clear; cbn [default_values In map]; intro K;
        repeat (destruct K as [K|K]; [first [discriminate K|injection K as <-; auto]|]); destruct K. }
    destruct B as [B|[B [N0 G]]]; [rewrite <- B|rewrite <- B]; (destruct (assoc n (c_bvals D)) as [[v| | | |g]|]; try reflexivity; try (rewrite BN by auto; reflexivity)); [destruct (G g eq_refl)|contradiction]. }
  rewrite R. reflexivity.
Qed.

(** A value given under a name, new or one of the defaults, is what $name means; it is converted like every value, and checked against the
    type given for the name, or else the default's type for this name, or else not at all. *)
Theorem C73_given : forall vs ts n v w thing q, NoDup (map fst vs) -> given vs n (BVconst v) ->
  fst (dollar (with_builtins C (from_defaults tz_local vs ts z)) n w thing q) =
  rbind (new_value (c_tz C) false v) (fun v' => sym_check n (type_of_builtin (from_defaults tz_local vs ts z) n) v').
Proof.
  intros vs ts n v w thing q ND G. rewrite dollar_run, run_rule_evaluate. cbn [with_builtins c_btypes].
  assert (A : assoc n (c_bvals (with_builtins C (from_defaults tz_local vs ts z))) = Some (BVconst v)) by (apply supdate_given; assumption).
  assert (K := proj1 (C40_builtin_constant _ _ (with_builtins C (from_defaults tz_local vs ts z)) thing thing n (type_of_builtin (from_defaults tz_local vs ts z) n) v w w
     (set_dc (c_dec (with_builtins C (from_defaults tz_local vs ts z))) (set_groups VNull (set_scopes [] (add_sym n q)))) q A eq_refl eq_refl)).
  assert (K2 := proj1 (proj2 (C40_builtin_constant _ _ (with_builtins C (from_defaults tz_local vs ts z)) thing thing n (type_of_builtin (from_defaults tz_local vs ts z) n) v w w
     (set_dc (c_dec (with_builtins C (from_defaults tz_local vs ts z))) (set_groups VNull (set_scopes [] (add_sym n q)))) q A eq_refl eq_refl))).
  unfold type_of_builtin in *. destruct (run w (eval _ _ _) _) as [r q1]. exact K2.
Qed.
(** the type: the given one; else that of the default of this name; else UNDEFINED *)
Theorem C73_type : forall vs ts n, NoDup (map fst ts) ->
  (forall t, given ts n t -> type_of_builtin (from_defaults tz_local vs ts z) n = t) /\
  (absent ts n -> In n documented_names -> exists t, In (n, t) default_types /\ type_of_builtin (from_defaults tz_local vs ts z) n = t) /\
  (absent ts n -> ~ In n documented_names -> type_of_builtin (from_defaults tz_local vs ts z) n = TUndef).
Proof.
  intros vs ts n ND. unfold type_of_builtin, from_defaults, builtins_new. cbn [b_types]. split; [|split].
  - intros t G. rewrite (supdate_given _ _ _ _ _ ND G). reflexivity.
  - intros A D. rewrite supdate_absent by exact A. assert (E : In n (map fst own_types)). { revert D. clear. intro D. unfold documented_names in D. cbn [map In] in D. cbn [own_types removelast default_types map fst In]. tauto. }
    assert (NN : assoc n own_types <> None). { clear -E. revert E. generalize own_types as l. induction l as [|[k v] l IH]; intro E; [destruct E|]. cbn [assoc]. destruct (str_eqb n k) eqn:X; [discriminate|]. apply IH. destruct E as [E|E]; [cbn in E; subst k; rewrite str_eqb_refl in X; discriminate X|exact E]. }
    destruct (assoc n own_types) as [t|] eqn:T; [|contradiction]. exists t. split; [|reflexivity]. apply Base.assoc_In in T. change default_types with (own_types ++ [(s "re_groups", TArray TString true)]). apply in_or_app. left. exact T.
  - intros A D. rewrite supdate_absent by exact A. destruct (assoc n own_types) as [t|] eqn:T; [|reflexivity]. exfalso. apply D. apply Base.assoc_In in T. apply (in_map fst) in T. revert T. clear. cbn [own_types removelast default_types map fst In]. unfold documented_names. cbn [map In]. tauto.
Qed.

(** The other documented symbols mean what they mean in a standard context (except $re_groups, which only the standard context has). *)
Theorem C73_others : forall vs ts n w thing q, c_bvals C = default_values -> c_btypes C = default_types -> absent vs n -> absent ts n -> In n documented_names ->
  (b_tz (from_defaults tz_local vs ts z) = c_btz C \/ ~ In n (map s ["now"; "today"]%string)) ->
  dollar (with_builtins C (from_defaults tz_local vs ts z)) n w thing q = dollar C n w thing q.
Proof.
  intros vs ts n w thing q B T A1 A2 D TZ. assert (NR : n <> s "re_groups"). { intros ->. revert D. clear. unfold documented_names. cbn [map In]. intro D. repeat (destruct D as [D|D]; [vm_compute in D; discriminate D|]). exact D. }
  destruct (own_assoc n NR) as [O1 O2]. apply dollar_ext; try reflexivity.
  - right. cbn [with_builtins c_bvals from_defaults builtins_new b_values]. rewrite supdate_absent by exact A1. rewrite B. split; [exact O1|]. split; [apply own_names; exact D|].
    intros g X. apply Base.assoc_In in X. revert X. clear. cbn [own_values removelast default_values In]. intro X. repeat (destruct X as [X|X]; [discriminate X|]). exact X.
  - cbn [with_builtins c_btypes from_defaults builtins_new b_types]. rewrite supdate_absent by exact A2. rewrite T. exact O2.
  - destruct TZ as [TZ|TZ]; [left; exact TZ|right]. split; [exact TZ|]. cbn [with_builtins c_bvals from_defaults builtins_new b_values]. rewrite supdate_absent by exact A1. exact O1.
Qed.
(** The clock and $parse_datetime use the time zone given to the new builtins, or else the local one; never the default_timezone of the
    context. *)
Definition zone : N := match z with Some x => x | None => tz_local end.
Theorem C73_timezone : forall vs ts w thing q, let D := with_builtins C (from_defaults tz_local vs ts z) in
  (forall n, In n (map s ["now"; "today"]%string) -> absent vs n -> absent ts n -> exists t, fst (dollar D n w thing q) = Ok (VDt t (Some zone))) /\
  (forall t, run w (apply_fun D (VBFun BFparse_datetime) [VStr t]) q = (parse_datetime t zone, q)).
Proof.
  intros vs ts w thing q D. split; [|reflexivity]. intros n I0 A1 A2.
  assert (V : assoc n (c_bvals D) = assoc n own_values) by (subst D; cbn [with_builtins c_bvals from_defaults builtins_new b_values]; apply supdate_absent; exact A1).
  assert (T : assoc n (c_btypes D) = assoc n own_types) by (subst D; cbn [with_builtins c_btypes from_defaults builtins_new b_types]; apply supdate_absent; exact A2).
  assert (BZ : c_btz D = zone) by reflexivity. clearbody D. rewrite dollar_run, run_rule_evaluate, T. cbn [eval]. rewrite run_pthen. unfold resolve. rewrite V, BZ.
  cbn [map In] in I0. destruct I0 as [<-|[<-|[]]]; eexists; reflexivity.
Qed.
(** Names that are neither given nor documented do not exist; Builtins({}) has no names at all. *)
Theorem C73_unknown : forall b n w thing q, absent (b_values b) n -> c_default C = None -> (exists sg, fst (dollar (with_builtins C b) n w thing q) = Err (XSymRes n sg)).
Proof.
  intros b n w thing q A D. rewrite dollar_run, run_rule_evaluate. cbn [eval]. rewrite run_pthen. unfold resolve. cbn [with_builtins c_bvals c_default].
  replace (assoc n (b_values b)) with (@None bval). 
  - rewrite run_raise, run_pbind, D, run_raise. eexists. reflexivity.
  - symmetry. destruct (assoc n (b_values b)) eqn:E; [|reflexivity]. exfalso. apply A. apply Base.assoc_In in E. apply (in_map fst) in E. exact E.
Qed.
Theorem C73_unknown_from_defaults : forall vs ts n, absent vs n -> ~ In n documented_names -> absent (b_values (from_defaults tz_local vs ts z)) n.
Proof.
  intros vs ts n A D K. cbn [from_defaults builtins_new b_values] in K. assert (E : assoc n (supdate own_values vs) = None). { rewrite supdate_absent by exact A. destruct (assoc n own_values) eqn:E; [|reflexivity]. exfalso. apply D. apply own_names. congruence. }
  clear -K E. induction (supdate own_values vs) as [|[k v] l IH]; [exact K|]. cbn [assoc] in E. destruct (str_eqb n k) eqn:X; [discriminate E|]. destruct K as [K|K]; [cbn in K; subst; rewrite str_eqb_refl in X; discriminate X|apply IH; assumption].
Qed.
Theorem C73_empty : forall n w thing q, c_default C = None -> exists sg, fst (dollar (with_builtins C (builtins_new tz_local [] [] z)) n w thing q) = Err (XSymRes n sg).
Proof. intros. apply C73_unknown; [intros []|assumption]. Qed.
(** Plain names are not affected by any of this. *)
Theorem C73_plain_names : forall b n w thing q, run w (rule_new (with_builtins C b) (DSym n false)) q = run w (rule_new C (DSym n false)) q /\
  forall t, run w (rule_evaluate (with_builtins C b) (ESym n false t) thing) q = run w (rule_evaluate C (ESym n false t) thing) q.
Proof. intros. split; [reflexivity|]. intro t. rewrite !run_rule_evaluate. reflexivity. Qed.

(** A mapping is a namespace: $ns.x is the (converted) value given for x, unless x is an attribute of mappings. *)
Theorem C73_namespace : forall vs ts ns l x v w thing q ms u ty, NoDup (map fst vs) -> NoDup (map fst ts) -> given vs ns (BVconst (VDict l)) -> absent ts ns -> ~ In ns documented_names ->
  new_value (c_tz C) false (VDict l) = Ok (VMap ms) -> from_value (VMap ms) = Ok ty -> ~ In x (documented (VMap ms)) -> dict_get ms (VStr x) = Some v -> new_value (c_tz C) false v = Ok u ->
  (forall lg m k, w_resolve w lg m k = resolve_item m k) ->
  fst (made_and_run (with_builtins C (from_defaults tz_local vs ts z)) (DAttr (DSym ns true) x false) w thing q) = Ok u.
Proof.
  intros vs ts ns l x v w thing q ms u ty ND ND2 G AT DN NV FV NX GX NU W. remember (with_builtins C (from_defaults tz_local vs ts z)) as D eqn:ED.
  assert (A : assoc ns (c_bvals D) = Some (BVconst (VDict l))) by (subst D; apply supdate_given; assumption). assert (TZ : c_tz D = c_tz C) by (subst D; reflexivity).
  assert (T : match assoc ns (c_btypes D) with Some t => t | None => TUndef end = TUndef) by (subst D; exact (proj2 (proj2 (C73_type vs ts ns ND2)) AT DN)).
  assert (B : run w (rule_new D (DAttr (DSym ns true) x false)) q = (Ok (EAttr (ESym ns true TUndef) x false), add_sym ns q)).
  { unfold rule_new. cbn [build]. rewrite run_pbind, run_pbind, run_act. cbn [step_op]. unfold resolve_type. rewrite T. rewrite run_pbind, run_ok, run_ok. reflexivity. }
  unfold made_and_run. rewrite B, run_rule_evaluate. remember (set_dc (c_dec D) (set_groups VNull (set_scopes [] (add_sym ns q)))) as q1 eqn:Q. assert (S : s_scopes q1 = []) by (subst q1; reflexivity).
  assert (Y : yields D thing w q1 (ESym ns true TUndef) (VMap ms) q1).
  { unfold yields. cbn [eval]. rewrite run_pthen. unfold resolve. rewrite A, run_ok, run_pbind, run_ok, run_pbind. unfold nval. rewrite TZ, NV. reflexivity. }
  assert (K := C35_member_then_default _ D thing w (ESym ns true TUndef) x false q1 (VMap ms) q1 Y (fun _ => eq_refl) (or_introl (ex_intro _ ty (conj FV NX)))).
  unfold resolve in K. rewrite run_pbind in K. cbn [run act step_op] in K. rewrite S in K. cbn [find_scope] in K. unfold actr in K. cbn [run step_op] in K. rewrite W in K. unfold resolve_item in K. rewrite GX in K. cbn [run] in K. rewrite TZ, NU in K.
  destruct (run w (eval D thing _) q1) as [r q2]. injection K as -> _. reflexivity.
Qed.

(** A value generator is called twice for every access: the first call decides whether the name exists (a KeyError means no), the second
    gives the value, which is converted and checked like a constant. *)
Theorem C73_generator : forall vs ts n g w thing q, NoDup (map fst vs) -> given vs n (BVgen g) ->
  let D := with_builtins C (from_defaults tz_local vs ts z) in
  let accept v := rbind (new_value (c_tz C) false v) (fun v' => sym_check n (type_of_builtin (from_defaults tz_local vs ts z) n) v') in
  let first := w_user w (s_log q) g [] in
  let second := w_user w (EvUser g [] first :: s_log q) g [] in
  (forall a v, first = Ok a -> second = Ok v -> fst (dollar D n w thing q) = accept v /\ s_log (snd (dollar D n w thing q)) = EvUser g [] second :: EvUser g [] first :: s_log q) /\
  (first = Err PKey -> c_default C = None -> exists sg, fst (dollar D n w thing q) = Err (XSymRes n sg)) /\
  (forall d, first = Err PKey -> c_default C = Some d -> fst (dollar D n w thing q) = accept d) /\
  (forall x, first = Err x -> x <> PKey -> (forall m sg, x <> XSymRes m sg) -> fst (dollar D n w thing q) = Err x) /\
  (forall a x, first = Ok a -> second = Err x -> (forall m sg, x <> XSymRes m sg) -> fst (dollar D n w thing q) = Err x).
Proof.
  intros vs ts n g w thing q ND G D accept first second. assert (A : assoc n (c_bvals D) = Some (BVgen g)) by (apply supdate_given; assumption).
  assert (E : dollar D n w thing q = run w (rule_evaluate D (ESym n true (type_of_builtin (from_defaults tz_local vs ts z) n)) thing) (add_sym n q)) by reflexivity.
  rewrite E. clear E. rewrite run_rule_evaluate. set (q1 := set_dc _ _). assert (L1 : s_log q1 = s_log q) by reflexivity. clearbody q1. cbn [eval]. rewrite run_pthen. unfold resolve. rewrite A. unfold actr. cbn [pthen run step_op]. rewrite L1. fold first.
  change (c_default D) with (c_default C). change (c_tz D) with (c_tz C).
  assert (Fin : forall v q2, run w (do! v' := nval D false v in Ret (sym_check n (type_of_builtin (from_defaults tz_local vs ts z) n) v')) q2 = (accept v, q2)).
  { intros v q2. rewrite run_pbind. unfold nval, accept. rewrite run_ret. change (c_tz D) with (c_tz C). destruct (new_value (c_tz C) false v); reflexivity. }
  split; [|split; [|split; [|split]]].
  - intros a v F1 F2. rewrite F1. cbn [run step_op]. change (s_log (log (EvUser g [] (Ok a)) q1)) with (EvUser g [] (Ok a) :: s_log q1). rewrite L1, <- F1. fold second. rewrite F2. rewrite run_pbind. cbn [run ok]. rewrite Fin.
    cbn [fst snd]. split; [reflexivity|]. cbn [set_dc set_groups set_scopes s_log log]. rewrite L1. reflexivity.
  - intros F1 Dn. rewrite F1. cbn [run raise]. rewrite Dn. rewrite run_pbind. cbn [run raise]. eexists. reflexivity.
  - intros d F1 Dn. rewrite F1. cbn [run raise]. rewrite Dn. rewrite run_pbind. cbn [run ok]. rewrite Fin. reflexivity.
  - intros x F1 NK NS. rewrite F1. destruct x; try (exfalso; eapply NS; reflexivity); try congruence; cbn [run raise]; rewrite run_pbind; reflexivity.
  - intros a x F1 F2 NS. rewrite F1. cbn [run step_op]. change (s_log (log (EvUser g [] (Ok a)) q1)) with (EvUser g [] (Ok a) :: s_log q1). rewrite L1, <- F1. fold second. rewrite F2.
    destruct x; try (exfalso; eapply NS; reflexivity); cbn [run raise]; rewrite run_pbind; reflexivity.
Qed.
End C73.
Print Assumptions C73_generator.
Print Assumptions C73_timezone.
Print Assumptions C73_given.
Print Assumptions C73_type.
Print Assumptions C73_others.
Print Assumptions C73_unknown.
Print Assumptions C73_unknown_from_defaults.
Print Assumptions C73_empty.
Print Assumptions C73_plain_names.
Print Assumptions C73_namespace.

(** from_defaults({'version': '4.5.0', 'pi': 3, 'cfg': {'max': 7}}) *)
Definition c73_values : list (str * bval) := [(s "version", BVconst (VStr (s "4.5.0"))); (s "pi", BVconst (VInt 3)); (s "cfg", BVconst (VDict [(VStr (s "max"), VInt 7)]))].
Definition c73_ctx : ctx := with_builtins untyped_ctx (from_defaults 1%N c73_values [] None).
Example C73_example :
  NoDup (map fst c73_values) /\ given c73_values (s "pi") (BVconst (VInt 3)) /\ In (s "pi") documented_names /\ ~ In (s "version") documented_names /\
  fst (dollar c73_ctx (s "version") demo_world demo_thing demo_st) = Ok (VStr (s "4.5.0")) /\
  fst (dollar c73_ctx (s "pi") demo_world demo_thing demo_st) = Ok (num 3) /\
  fst (dollar c73_ctx (s "e") demo_world demo_thing demo_st) = Ok (VDec (DFin false 2718281828459045 (-15))) /\
  fst (made_and_run c73_ctx (DAttr (DSym (s "cfg") true) (s "max") false) demo_world demo_thing demo_st) = Ok (num 7).
Proof.
  split; [|split; [right; left; reflexivity|split; [right; left; reflexivity|split; [|repeat split; vm_compute; reflexivity]]]].
  - cbn. repeat constructor; cbn; intro H; repeat (destruct H as [H|H]; [vm_compute in H; discriminate H|]); exact H.
  - unfold documented_names. cbn [map In]. intro H. repeat (destruct H as [H|H]; [vm_compute in H; discriminate H|]). exact H.
Qed.
(** Overriding a default with a value of another type, without giving the new type, makes the symbol unusable: the default's type stays. *)
Theorem C73_override_type_refuted : fst (dollar (with_builtins untyped_ctx (from_defaults 1%N [(s "pi", BVconst (VStr (s "three")))] [] None)) (s "pi") demo_world demo_thing demo_st) = Err (XSymType (s "pi")).
Proof. vm_compute. reflexivity. Qed.
(** A context whose builtins are replaced as in the documentation has no $re_groups. *)
Theorem C73_re_groups_lost : exists sg, fst (dollar c73_ctx (s "re_groups") demo_world demo_thing demo_st) = Err (XSymRes (s "re_groups") sg).
Proof. eexists. vm_compute. reflexivity. Qed.
Print Assumptions C73_override_type_refuted.
Print Assumptions C73_re_groups_lost.

(** A generator that counts its calls: the first $counter is 2, not 1, and a rule that uses it once advances it by two. *)
Definition counting_world : world := {| w_resolve := w_resolve demo_world; w_user := fun l _ _ => Ok (VInt (Z.of_nat (S (List.length l)))); w_now := w_now demo_world; w_random := w_random demo_world |}.
Theorem C73_generator_once_refuted :
  let D := with_builtins untyped_ctx (from_defaults 1%N [(s "counter", BVgen 7)] [] None) in
  let '(r, q) := dollar D (s "counter") counting_world demo_thing demo_st in
  s_log demo_st = [] /\ r = Ok (num 2) /\ fst (dollar D (s "counter") counting_world demo_thing q) = Ok (num 4).
Proof. vm_compute. auto. Qed.
Print Assumptions C73_generator_once_refuted.

(** So replacing the builtins as in the documentation (which passes no timezone) moves the clock of a context with another
    default_timezone (here 1; the local zone is 2): $now is then in the local zone, and $parse_datetime no longer agrees with datetime literals. *)
Theorem C73_default_timezone_refuted :
  let D := with_builtins untyped_ctx (from_defaults 2%N [(s "version", BVconst (VStr (s "1")))] [] None) in
  c_tz D = 1%N /\ fst (dollar untyped_ctx (s "now") demo_world demo_thing demo_st) = Ok (VDt 63000000000000000 (Some 1%N)) /\
  fst (dollar D (s "now") demo_world demo_thing demo_st) = Ok (VDt 63000000000000000 (Some 2%N)).
Proof. vm_compute. auto. Qed.
Print Assumptions C73_default_timezone_refuted.
