(** * Theorems about mapping literals, function calls and literal nodes (C32, C33, C55) *)
From Coq Require Import QArith Permutation Lia String.
From Verif Require Import Base Dec Value DType DTypeFacts Types Ops EqFacts CoerceFacts TypesFacts ParseUtil Attr Prog Ast Eval Build Engine
  ProgFacts StateFacts Post Refine Demo P_Compare P_Ops P_Eval.
Open Scope list_scope.
Open Scope Z_scope.

(** ** C32: mapping literals *)
Section C32.
Context (Orc : Oracle) (C : ctx) (thing : value) (w : world).
Notation yields := (yields C thing w). Notation fails := (fails C thing w). Notation yields_all := (yields_all C thing w).

(** a value that can be a key: of a supported type, hashable (so no set, mapping or list, also not inside an array), not NaN *)
Definition key_ok (k : value) : Prop := hashable k = true /\ (exists t, from_value k = Ok t) /\ py_eq k k = true.

Lemma key_ok_map_key : forall k, key_ok k -> map_key k = Ok k.
Proof.
  intros k [H [[t T] _]]. unfold map_key. rewrite T. cbn [rbind]. rewrite H.
  assert (E : is_compound t && negb (is_array_t t) = false); [|rewrite E; reflexivity].
  destruct k; try discriminate; cbn [from_value] in T;
    repeat match type of T with rbind ?r _ = _ => destruct r; cbn [rbind] in T; try discriminate | rmap _ ?r = _ => destruct r; cbn [rmap] in T; try discriminate end;
    inversion T; reflexivity.
Qed.

Lemma keys_run : forall l ks q q1, yields_all q (map fst l) ks q1 -> Forall key_ok ks ->
  run w (pmapM (fun kv => do! k := eval C thing (fst kv) in do! k' := Ret (map_key k) in ok (k', eval C thing (snd kv))) l) q =
  (Ok (combine ks (map (fun kv => eval C thing (snd kv)) l)), q1).
Proof.
  induction l as [|[a b] l IH]; intros ks q q1 H G; inversion H as [|? ? v qq ? vs ? Ha Hl]; subst; [reflexivity|].
  inversion G as [|? ? Gv Gs]; subst. cbn [pmapM fst snd map combine]. rewrite !run_pbind. rewrite Ha. cbn [run]. rewrite run_pbind. cbn [run]. rewrite (key_ok_map_key v Gv). cbn [run ok].
  rewrite run_pbind, (IH _ _ _ Hl Gs). reflexivity.
Qed.

Lemma last_val_map : forall A B (f : A -> B) (l : list (value * A)) k, last_val (map (fun ka => (fst ka, f (snd ka))) l) k = option_map f (last_val l k).
Proof.
  intros A B f. induction l as [|[k' a] l IH]; intro k; [reflexivity|]. cbn. rewrite IH. destruct (last_val l k); [reflexivity|]. cbn. destruct (py_eq k' k); reflexivity.
Qed.
Lemma combine_map_r : forall A B (f : A -> B) (ks : list value) l, combine ks (map f l) = map (fun ka => (fst ka, f (snd ka))) (combine ks l).
Proof. intros A B f. induction ks as [|k ks IH]; intros [|a l]; cbn; [reflexivity..|]. rewrite IH. reflexivity. Qed.
Lemma combine_fst : forall A (ks : list value) (l : list A), length ks = length l -> map fst (combine ks l) = ks.
Proof. intros A. induction ks as [|k ks IH]; intros [|a l] H; try discriminate; [reflexivity|]. cbn. f_equal. apply IH. inversion H. reflexivity. Qed.

Lemma dict_get_In : forall A (m : list (value * A)) k a, apart (map fst m) -> (forall k, In k (map fst m) -> py_eq k k = true) -> In (k, a) m -> dict_get m k = Some a.
Proof.
  intros A. induction m as [|[k' a'] m IH]; intros k a D R H; [contradiction|]. cbn [map fst] in D. inversion D as [|? ? D1 D2]; subst. cbn.
  destruct H as [H|H].
  - inversion H; subst. rewrite (R k) by (left; reflexivity). reflexivity.
  - rewrite Forall_forall in D1. rewrite (D1 k) by (apply in_map_iff; exists (k, a); auto). apply IH; [exact D2|intros; apply R; right; assumption|exact H].
Qed.

(** A mapping literal first evaluates every key expression once, in order (state q to q1).  Then, for each different key in
    order of first occurrence, it evaluates one value expression: the one written with the last equal key.  The result pairs the
    keys (at their first position) with these values; the first failing value expression decides the error. *)
Theorem C32_literal : tz_lawful o_tz -> forall l ks q q1, yields_all q (map fst l) ks q1 -> Forall key_ok ks ->
  exists es, Forall2 (fun k e => last_val (combine ks (map snd l)) k = Some e) (first_keys ks) es /\
    run w (eval C thing (EMap l)) q =
    let '(r, q2) := run w (pmapM (eval C thing) es) q1 in (rmap (fun vs => VMap (combine (first_keys ks) vs)) r, q2).
Proof.
  intros L l ks q q1 H G.
  assert (Len : length ks = length l).
  { clear -H. remember (map fst l) as es eqn:E. revert l E. induction H; intros [|a l] E; try discriminate; [reflexivity|]. inversion E; subst. cbn. f_equal. auto. }
  assert (GH : forall y, In y ks -> hashable y = true) by (rewrite Forall_forall in G; intros y Hy; apply G; exact Hy).
  assert (GR : forall y, In y ks -> py_eq y y = true) by (rewrite Forall_forall in G; intros y Hy; apply G; exact Hy).
  assert (T : forall x y z, hashable x = true -> hashable y = true -> hashable z = true -> py_eq x y = true -> py_eq y z = true -> py_eq x z = true)
    by (intros x y z Hx Hy Hz; apply py_eq_trans; auto using hashable_wfv).
  assert (S : forall x y, hashable x = true -> hashable y = true -> py_eq x y = py_eq y x) by (intros; apply py_eq_sym; auto using hashable_wfv).
  remember (combine ks (map snd l)) as D eqn:ED.
  assert (KD : map fst D = ks) by (subst D; apply combine_fst; rewrite map_length; exact Len).
  set (P := map (fun ka => (fst ka, eval C thing (snd ka))) D).
  assert (EP : combine ks (map (fun kv => eval C thing (snd kv)) l) = P).
  { unfold P. subst D. rewrite <- combine_map_r, map_map. reflexivity. }
  assert (KP : map fst P = ks) by (unfold P; rewrite map_map; cbn; exact KD).
  set (m := mk_dict P).
  assert (Km : map fst m = first_keys ks).
  { unfold m. rewrite mk_dict_keys, KP. apply (mk_set_first (fun v => hashable v = true)); assumption. }
  assert (Sub : forall k, In k (first_keys ks) -> In k ks) by (intros k Hk; apply first_keys_In; exact Hk).
  assert (Gm : forall k p, In (k, p) m -> exists e, last_val D k = Some e /\ p = eval C thing e).
  { intros k p Hk. assert (Hf : In k (map fst m)) by (apply in_map_iff; exists (k, p); auto).
    assert (Hk' : In k ks) by (apply Sub; rewrite <- Km; exact Hf).
    assert (E1 : dict_get m k = Some p).
    { apply dict_get_In; [apply mk_dict_apart| |exact Hk]. intros y Hy. apply GR, Sub. rewrite <- Km. exact Hy. }
    unfold m in E1. rewrite (dict_get_mk (fun v => hashable v = true)) in E1; auto; [|rewrite KP; exact GH].
    unfold P in E1. rewrite last_val_map in E1. destruct (last_val D k) as [e|]; [|discriminate]. cbn in E1. exists e. split; [reflexivity|congruence]. }
  assert (Es : exists es, Forall2 (fun k e => last_val D k = Some e) (map fst m) es /\ map snd m = map (eval C thing) es).
  { assert (Q : forall m : list (value * prog value), (forall k p, In (k, p) m -> exists e, last_val D k = Some e /\ p = eval C thing e) ->
      exists es, Forall2 (fun k e => last_val D k = Some e) (map fst m) es /\ map snd m = map (eval C thing) es); [|exact (Q m Gm)].
    clear. induction m as [|[k p] m IH]; intro Gm; [exists []; split; [constructor|reflexivity]|].
    destruct (Gm k p (or_introl eq_refl)) as [e [E1 ->]]. destruct IH as [es [F M]]; [intros; apply Gm; right; assumption|]. exists (e :: es). split; [constructor; assumption|cbn; f_equal; exact M]. }
  destruct Es as [es [F M]]. exists es. split; [rewrite <- Km; exact F|].
  cbn [eval]. rewrite run_pbind, (keys_run l ks q q1 H G), EP. fold m. rewrite run_pbind.
  assert (R : forall (m : list (value * prog value)) es q1, map snd m = map (eval C thing) es ->
    run w (pmapM (fun kp : value * prog value => do! v := snd kp in ok (fst kp, v)) m) q1 =
    let '(r, q2) := run w (pmapM (eval C thing) es) q1 in (rmap (combine (map fst m)) r, q2)).
  { clear. induction m as [|[k p] m IH]; intros [|e es] q1 E; try discriminate; [reflexivity|]. cbn [map snd] in E. inversion E; subst. cbn [pmapM snd fst map]. rewrite !run_pbind.
    destruct (run w (eval C thing e) q1) as [[v|x] q2]; [|reflexivity]. cbn [run ok]. rewrite !run_pbind, (IH es q2 H1). destruct (run w (pmapM (eval C thing) es) q2) as [[vs|x] q3]; reflexivity. }
  rewrite (R m es q1 M), Km. destruct (run w (pmapM (eval C thing) es) q1) as [[vs|x] q2]; reflexivity.
Qed.

(** first_keys keeps exactly one representative, the first, of every class of equal keys *)
Theorem C32_first_keys : tz_lawful o_tz -> forall ks, Forall key_ok ks ->
  apart (first_keys ks) /\ (forall k, In k (first_keys ks) -> In k ks) /\
  (forall l1 k l2, ks = l1 ++ k :: l2 -> (forall k', In k' l1 -> py_eq k' k = false) -> In k (first_keys ks)) /\
  (forall k, In k ks -> exists k', In k' (first_keys ks) /\ py_eq k' k = true).
Proof.
  intros L ks G.
  assert (GH : forall y, In y ks -> hashable y = true) by (rewrite Forall_forall in G; intros y Hy; apply G; exact Hy).
  assert (GR : forall y, In y ks -> py_eq y y = true) by (rewrite Forall_forall in G; intros y Hy; apply G; exact Hy).
  assert (T : forall x y z, hashable x = true -> hashable y = true -> hashable z = true -> py_eq x y = true -> py_eq y z = true -> py_eq x z = true)
    by (intros x y z Hx Hy Hz; apply py_eq_trans; auto using hashable_wfv).
  assert (S : forall x y, hashable x = true -> hashable y = true -> py_eq x y = py_eq y x) by (intros; apply py_eq_sym; auto using hashable_wfv).
  split; [|split; [|split]].
  - rewrite <- (mk_set_first (fun v => hashable v = true) T ks GH). apply mk_set_apart.
  - intros k. apply first_keys_In.
  - intros l1. assert (Q : forall ks, (forall y, In y ks -> hashable y = true) -> forall l1 k l2, ks = l1 ++ k :: l2 -> (In k (first_keys ks) \/ exists k', In k' l1 /\ py_eq k' k = true)).
    { clear. induction ks as [|a ks IH]; intros GH l1 k l2 E; [destruct l1; discriminate|]. destruct l1 as [|b l1]; inversion E; subst; [left; left; reflexivity|].
      destruct (IH (fun y Hy => GH y (or_intror Hy)) l1 k l2 eq_refl) as [H|[k' [H1 H2]]]; [|right; exists k'; split; [right; exact H1|exact H2]].
      destruct (py_eq b k) eqn:Eb; [right; exists b; split; [left; reflexivity|exact Eb]|]. left. right. apply filter_In. rewrite Eb. auto. }
    intros k l2 E N. destruct (Q ks GH l1 k l2 E) as [H|[k' [H1 H2]]]; [exact H|]. rewrite (N k' H1) in H2. discriminate.
  - intros k Hk. assert (M := mk_set_mem (fun v => hashable v = true) T ks k GH (GH k Hk)). rewrite (mk_set_first (fun v => hashable v = true) T ks GH) in M.
    assert (M2 : py_mem k ks = true) by (apply existsb_exists; exists k; split; [exact Hk|apply GR; exact Hk]). rewrite M2 in M. apply existsb_exists in M. exact M.
Qed.

(** A set or mapping as key: EngineError right after that key was evaluated; later keys and all values are not evaluated. *)
Theorem C32_bad_key : forall l1 k e l2 ks q q1 v q2, yields_all q (map fst l1) ks q1 -> Forall key_ok ks -> yields q1 k v q2 ->
  (exists x, v = VSet x) \/ (exists m, v = VMap m) -> (exists t, from_value v = Ok t) -> fails q (EMap (l1 ++ (k, e) :: l2)) XEngine q2.
Proof.
  unfold P_Ops.yields, P_Ops.fails. intros l1 k e l2 ks q q1 v q2 H G Hk Kd [t T].
  assert (E : map_key v = Err XEngine).
  { unfold map_key. rewrite T. cbn [rbind]. destruct Kd as [[x ->]|[m ->]]; cbn [from_value] in T; unfold mk_mapping in T;
      repeat match type of T with rbind ?r _ = _ => destruct r; cbn [rbind] in T; try discriminate | rmap _ ?r = _ => destruct r; cbn [rmap] in T; try discriminate | (if ?b then _ else _) = _ => destruct b; try discriminate end; inversion T; reflexivity. }
  cbn [eval]. rewrite run_pbind.
  assert (Q : forall l1 ks q, yields_all q (map fst l1) ks q1 -> Forall key_ok ks ->
    run w (pmapM (fun kv => do! k := eval C thing (fst kv) in do! k' := Ret (map_key k) in ok (k', eval C thing (snd kv))) (l1 ++ (k, e) :: l2)) q = (Err XEngine, q2)).
  { clear -Hk E. induction l1 as [|[a b] l1 IH]; intros ks q H G; inversion H as [|? ? u qq ? vs ? Ha Hl]; subst; cbn [pmapM app fst snd]; rewrite !run_pbind.
    - rewrite Hk, run_pbind. cbn [run]. rewrite E. reflexivity.
    - inversion G as [|? ? Gv Gs]; subst. rewrite Ha, run_pbind. cbn [run]. rewrite (key_ok_map_key u Gv). cbn [run ok]. rewrite run_pbind, (IH _ _ Hl Gs). reflexivity. }
  rewrite (Q l1 ks q H G). reflexivity.
Qed.

(** The same for a key expression that fails: its error, and nothing after it is evaluated. *)
Theorem C32_key_error : forall l1 k e l2 ks q q1 x q2, yields_all q (map fst l1) ks q1 -> Forall key_ok ks -> fails q1 k x q2 -> fails q (EMap (l1 ++ (k, e) :: l2)) x q2.
Proof.
  unfold P_Ops.fails. intros l1 k e l2 ks q q1 x q2 H G Hk. cbn [eval]. rewrite run_pbind.
  assert (Q : forall l1 ks q, yields_all q (map fst l1) ks q1 -> Forall key_ok ks ->
    run w (pmapM (fun kv => do! k := eval C thing (fst kv) in do! k' := Ret (map_key k) in ok (k', eval C thing (snd kv))) (l1 ++ (k, e) :: l2)) q = (Err x, q2)).
  { clear -Hk. induction l1 as [|[a b] l1 IH]; intros ks q H G; inversion H as [|? ? u qq ? vs ? Ha Hl]; subst; cbn [pmapM app fst snd]; rewrite !run_pbind.
    - rewrite Hk. reflexivity.
    - inversion G as [|? ? Gv Gs]; subst. rewrite Ha, run_pbind. cbn [run]. rewrite (key_ok_map_key u Gv). cbn [run ok]. rewrite run_pbind, (IH _ _ Hl Gs). reflexivity. }
  rewrite (Q l1 ks q H G). reflexivity.
Qed.
End C32.
Print Assumptions C32_literal.
Print Assumptions C32_first_keys.
Print Assumptions C32_bad_key.
Print Assumptions C32_key_error.

(** {1: "a", 2: "b", 1: fail()} keeps position one for key 1 and evaluates only "b" and the last value *)
Example C32_example :
  let one := num 1 in let two := num 2 in
  let l := [(ELit one, ECall (ELit VNull) []); (ELit two, ELit (VStr (s "b"))); (ELit one, ELit (VStr (s "c")))] in
  yields_all untyped_ctx VNull demo_world demo_st (map fst l) [one; two; one] demo_st /\ Forall (key_ok demo_orc) [one; two; one] /\
  yields untyped_ctx VNull demo_world demo_st (EMap l) (VMap [(one, VStr (s "c")); (two, VStr (s "b"))]) demo_st /\
  fails untyped_ctx VNull demo_world demo_st (EMap [(ELit (VSet [one]), ECall (ELit VNull) [])]) XEngine demo_st.
Proof.
  cbv zeta. split; [repeat econstructor|].
  assert (K : forall z, z = 1 \/ z = 2 -> key_ok demo_orc (num z)) by (intros z [->| ->]; split; [reflexivity|split; [eexists; reflexivity|vm_compute; reflexivity]| reflexivity|split; [eexists; reflexivity|vm_compute; reflexivity]]).
  split; [repeat (constructor; [apply K; auto|]); constructor|]. vm_compute. repeat split.
Qed.

(** ** C33: function calls *)
Section C33.
Context (Orc : Oracle) (C : ctx) (thing : value) (w : world).
Notation yields := (yields C thing w). Notation fails := (fails C thing w). Notation yields_all := (yields_all C thing w).

(** the arguments agree with a function type: at least the minimum, at most the declared number, each of a compatible type *)
Definition accepts (ps : option (list dtype)) (mn : option Z) (vs : list value) : Prop :=
  (forall m, mn = Some m -> m <= Z.of_nat (length vs)) /\
  (forall l, ps = Some l -> (length vs <= length l)%nat /\
     forall i v p, nth_error vs i = Some v -> nth_error l i = Some p -> exists t, from_value v = Ok t /\ is_compat t p = true).
Definition supported_args (vs : list value) : Prop := forall v, In v vs -> exists t, from_value v = Ok t.

Lemma check_args_iff : forall vs l, (length vs <= length l)%nat -> supported_args vs ->
  ((forall i v p, nth_error vs i = Some v -> nth_error l i = Some p -> exists t, from_value v = Ok t /\ is_compat t p = true) /\ check_args (map from_value vs) l = Ok tt) \/
  (~ (forall i v p, nth_error vs i = Some v -> nth_error l i = Some p -> exists t, from_value v = Ok t /\ is_compat t p = true) /\ check_args (map from_value vs) l = Err XFunCall).
Proof.
  induction vs as [|v vs IH]; intros l H S.
  - left. split; [|destruct l; reflexivity]. intros [|i] v p Hv; discriminate.
  - destruct l as [|p l]; [cbn in H; lia|]. cbn [map check_args]. destruct (S v (or_introl eq_refl)) as [t T]. rewrite T. cbn [rbind].
    destruct (is_compat t p) eqn:E.
    + destruct (IH l) as [[A B]|[A B]]; [cbn in H; lia|intros u Hu; apply S; right; exact Hu| |].
      * left. split; [|exact B]. intros [|i] v' p' Hv Hp; cbn in Hv, Hp; [inversion Hv; inversion Hp; subst; eauto|eapply A; eassumption].
      * right. split; [|exact B]. intro Q. apply A. intros i v' p' Hv Hp. apply (Q (Datatypes.S i)); assumption.
    + right. split; [|reflexivity]. intro Q. destruct (Q O v p eq_refl eq_refl) as [t' [T' E']]. congruence.
Qed.

Lemma validate_iff : forall nm ret ps mn vs, supported_args vs ->
  (accepts ps mn vs /\ validate (TFun nm ret ps mn) (map from_value vs) = Ok tt) \/
  (~ accepts ps mn vs /\ validate (TFun nm ret ps mn) (map from_value vs) = Err XFunCall).
Proof.
  intros nm ret ps mn vs S. unfold validate, accepts. rewrite map_length.
  destruct (match mn with Some m => Z.of_nat (length vs) <? m | None => false end) eqn:E.
  - right. split; [|reflexivity]. intros [A _]. destruct mn as [m|]; [|discriminate]. specialize (A m eq_refl). apply Z.ltb_lt in E. lia.
  - assert (A : forall m, mn = Some m -> m <= Z.of_nat (length vs)) by (intros m ->; apply Z.ltb_ge in E; exact E).
    destruct ps as [l|]; [|left; split; [split; [exact A|discriminate]|reflexivity]].
    destruct (Z.ltb_spec (Z.of_nat (length l)) (Z.of_nat (length vs))).
    + right. split; [|reflexivity]. intros [_ B]. destruct (B l eq_refl). lia.
    + destruct (check_args_iff vs l ltac:(lia) S) as [[B D]|[B D]]; [left|right]; (split; [|exact D]).
      * split; [exact A|]. intros l' El. inversion El; subst. split; [lia|exact B].
      * intros [_ Q]. apply B. apply (Q l eq_refl).
Qed.

(** what becomes of the function's outcome: every exception is FunctionCallError; a result is made an engine value (coerced) and
    delivered only if its type is compatible with the declared one *)
Definition outcome (ret : dtype) (r : result value) : result value :=
  match r with
  | Err _ => Err XFunCall
  | Ok v => rbind (new_value (c_tz C) true v) (fun v' => rbind (from_value v') (fun t => if is_compat t ret then Ok v' else Err XFunCall))
  end.

(** Arguments that agree with the declaration: the function is run, once, on exactly these arguments. *)
Theorem C33_accepted : forall f args nm ret ps mn q fv q1 vs q2, rtype f = TFun nm ret ps mn ->
  yields q f fv q1 -> callable fv = true -> yields_all q1 args vs q2 -> supported_args vs -> accepts ps mn vs ->
  run w (eval C thing (ECall f args)) q = let '(r, q3) := run w (apply_fun C fv vs) q2 in (outcome ret r, q3).
Proof.
  unfold P_Ops.yields. intros f args nm ret ps mn q fv q1 vs q2 Tf Hf Cf Ha S A. cbn [eval rtype]. rewrite run_pbind, Hf, Cf, run_pbind, (yields_all_run _ _ _ _ _ _ _ _ Ha).
  rewrite Tf. cbn [is_undef]. rewrite run_pbind. cbn [run]. destruct (validate_iff nm ret ps mn vs S) as [[_ V]|[N _]]; [|contradiction]. rewrite V.
  rewrite run_pbind, run_pthen. destruct (run w (apply_fun C fv vs) q2) as [[v|x] q3]; cbn [outcome]; [|reflexivity]. cbn [run ok]. rewrite run_pbind. unfold nval. cbn [run].
  destruct (new_value (c_tz C) true v) as [v'|x]; [|reflexivity]. rewrite run_pbind. cbn [run rbind]. destruct (from_value v') as [t|x]; [|reflexivity]. cbn [rbind].
  destruct (is_compat t ret); reflexivity.
Qed.

(** Arguments that do not: FunctionCallError, and the function is not run (the state, with its log of callbacks, is the one the
    arguments left). *)
Theorem C33_rejected : forall f args nm ret ps mn q fv q1 vs q2, rtype f = TFun nm ret ps mn ->
  yields q f fv q1 -> callable fv = true -> yields_all q1 args vs q2 -> supported_args vs -> ~ accepts ps mn vs ->
  fails q (ECall f args) XFunCall q2.
Proof.
  unfold P_Ops.yields, P_Ops.fails. intros f args nm ret ps mn q fv q1 vs q2 Tf Hf Cf Ha S A. cbn [eval rtype]. rewrite run_pbind, Hf, Cf, run_pbind, (yields_all_run _ _ _ _ _ _ _ _ Ha).
  rewrite Tf. cbn [is_undef]. rewrite run_pbind. cbn [run]. destruct (validate_iff nm ret ps mn vs S) as [[N _]|[_ V]]; [contradiction|]. rewrite V. reflexivity.
Qed.

(** In particular a Python function sees exactly one call, with these arguments. *)
Theorem C33_one_call : forall f args nm ret ps mn q n q1 vs q2, rtype f = TFun nm ret ps mn ->
  yields q f (VFun n) q1 -> yields_all q1 args vs q2 -> supported_args vs -> accepts ps mn vs ->
  let r := w_user w (s_log q2) n vs in
  run w (eval C thing (ECall f args)) q = (outcome ret r, log (EvUser n vs r) q2).
Proof. intros. rewrite (C33_accepted f args nm ret ps mn q (VFun n) q1 vs q2); auto. Qed.

(** Whatever the function does, a delivered value has a type compatible with the declared return type, and no exception of the
    function escapes as itself: the only other errors are those of making its result an engine value. *)
Theorem C33_result : forall f args nm ret ps mn q v q', rtype f = TFun nm ret ps mn ->
  yields q (ECall f args) v q' -> exists t, from_value v = Ok t /\ is_compat t ret = true.
Proof.
  unfold P_Ops.yields. intros f args nm ret ps mn q v q' Tf H.
  assert (P : post (eval C thing (ECall f args)) (fun v => exists t, from_value v = Ok t /\ is_compat t ret = true)).
  { cbn [eval rtype]. apply post_bind_any. intro fv. destruct (callable fv); [|apply post_raise]. apply post_bind_any. intro vs. apply post_bind_any. intros _. apply post_bind_any. intro r.
    apply post_bind_any. intro u. rewrite Tf. apply post_bind with (P := fun t => from_value u = Ok t); [apply post_ret; auto|]. intros t T. destruct (is_compat t ret) eqn:E; [apply post_ok; eauto|apply post_raise]. }
  eapply P. exact H.
Qed.

(** A value that is not callable is EvaluationError before the arguments are evaluated. *)
Theorem C33_not_callable : forall f args q v q1, yields q f v q1 -> callable v = false -> fails q (ECall f args) XEval q1.
Proof. unfold P_Ops.yields, P_Ops.fails. intros f args q v q1 H E. cbn [eval]. rewrite run_pbind, H, E. reflexivity. Qed.

(** Construction applies the same count and type rules to the inferred argument types and rejects without running anything. *)
Theorem C33_construction : forall f args nm ret ps mn q x q1 es q2, rtype x = TFun nm ret ps mn ->
  run w (build C f) q = (Ok x, q1) -> run w (pmapM (build C) args) q1 = (Ok es, q2) ->
  ~ ((forall m, mn = Some m -> m <= Z.of_nat (length es)) /\
     (forall l, ps = Some l -> (length es <= length l)%nat /\ forall i e p, nth_error es i = Some e -> nth_error l i = Some p -> is_compat (rtype e) p = true)) ->
  run w (build C (DCall f args)) q = (Err XFunCall, q2).
Proof.
  intros f args nm ret ps mn q x q1 es q2 Tx Hf Ha N. cbn [build]. rewrite run_pbind, Hf, run_pbind, Ha, Tx. cbn [is_undef]. rewrite run_pbind. cbn [run].
  assert (V : validate (TFun nm ret ps mn) (map (fun e => Ok (rtype e)) es) = Err XFunCall).
  { unfold validate. rewrite map_length. destruct (match mn with Some m => Z.of_nat (length es) <? m | None => false end) eqn:E; [reflexivity|].
    assert (A : forall m, mn = Some m -> m <= Z.of_nat (length es)) by (intros m ->; apply Z.ltb_ge in E; exact E).
    destruct ps as [l|]; [|exfalso; apply N; split; [exact A|discriminate]].
    destruct (Z.ltb_spec (Z.of_nat (length l)) (Z.of_nat (length es))); [reflexivity|].
    assert (N2 : ~ forall i e p, nth_error es i = Some e -> nth_error l i = Some p -> is_compat (rtype e) p = true).
    { intro Q. apply N. split; [exact A|]. intros l' El. inversion El; subst. split; [lia|exact Q]. }
    clear -N2. revert l N2. induction es as [|e es IH]; intros l N2; [exfalso; apply N2; intros [|i] e p H; discriminate|].
    destruct l as [|p l]; [exfalso; apply N2; intros [|i] e' p _ H; discriminate|]. cbn [map check_args rbind]. destruct (is_compat (rtype e) p) eqn:E; [|reflexivity].
    apply IH. intro Q. apply N2. intros [|i] e' p' H1 H2; cbn in H1, H2; [inversion H1; inversion H2; subst; exact E|eapply Q; eassumption]. }
  rewrite V. reflexivity.
Qed.
End C33.
Print Assumptions C33_accepted.
Print Assumptions C33_rejected.
Print Assumptions C33_result.
Print Assumptions C33_construction.

(** a function declared (FLOAT, STRING optional) -> FLOAT that returns its only argument *)
Example C33_example :
  let ft := TFun (Some (s "f")) TFloat (Some [TFloat; TString]) (Some 1) in
  let f := EFun (VFun 7) ft in
  let call l := run demo_world (eval untyped_ctx VNull (ECall f (map ELit l))) demo_st in
  accepts (Some [TFloat; TString]) (Some 1) [num 2] /\ ~ accepts (Some [TFloat; TString]) (Some 1) [VStr []] /\
  call [num 2] = (Ok (num 2), log (EvUser 7 [num 2] (Ok (num 2))) demo_st) /\
  call [num 2; VStr (s "x")] = (Err XFunCall, log (EvUser 7 [num 2; VStr (s "x")] (Err PType)) demo_st) /\
  call [] = (Err XFunCall, demo_st) /\ call [VStr []] = (Err XFunCall, demo_st) /\ call [num 2; num 2] = (Err XFunCall, demo_st) /\
  call [num 2; VStr []; num 2] = (Err XFunCall, demo_st) /\ call [VNull] = (Err XFunCall, demo_st).
Proof.
  cbv zeta. split; [|split; [|vm_compute; repeat split]].
  - split; [intros m H; inversion H; cbn; lia|]. intros l H; inversion H; subst. split; [cbn; lia|]. intros [|[|i]] v p Hv Hp; cbn in Hv, Hp; try discriminate.
    inversion Hv; inversion Hp; subst. exists TFloat. split; reflexivity.
  - intros [_ H]. destruct (H _ eq_refl) as [_ Q]. destruct (Q O _ _ eq_refl eq_refl) as [t [T E]]. inversion T; subst. discriminate.
Qed.

(** ** C55: literal nodes *)
Section C55.
Context (Orc : Oracle) (C : ctx).

(** a fully coerced value: engine representations throughout, also inside sets; sets and mappings as Python can build them *)
Inductive engine_value : value -> Prop :=
| Ev_atom : forall v, match v with VNull | VBool _ | VDec _ | VStr _ | VBytes _ | VDt _ _ | VTd _ | VFun _ | VBFun _ | VMeth _ _ => True | _ => False end -> engine_value v
| Ev_arr : forall l, (forall x, In x l -> engine_value x) -> engine_value (VArr l)
| Ev_set : forall l, (forall x, In x l -> engine_value x /\ hashable x = true) -> apart l -> engine_value (VSet l)
| Ev_map : forall l, (forall k x, In (k, x) l -> engine_value k /\ hashable k = true /\ engine_value x) -> apart (map fst l) -> engine_value (VMap l).

(** the same value, up to the order in which the members of a set are listed *)
Inductive same : value -> value -> Prop :=
| Sm_refl : forall v, same v v
| Sm_arr : forall l l', Forall2 same l l' -> same (VArr l) (VArr l')
| Sm_set : forall l l', Permutation l l' -> same (VSet l) (VSet l')
| Sm_map : forall l l', Forall2 (fun a b => fst a = fst b /\ same (snd a) (snd b)) l l' -> same (VMap l) (VMap l').

Lemma same_hashable : forall v v', hashable v = true -> same v v' -> v' = v.
Proof.
  induction v as [| | | | | | | | | |l IH| | | | | | | | |] using value_ind'; intros v' Hh S; try discriminate; inversion S as [|? l' F| |]; subst; try reflexivity.
  f_equal. cbn in Hh. rewrite forallb_forall in Hh. clear S. induction F as [|a b l l' E F IHF]; [reflexivity|]. inversion IH as [|? ? Ia Il]; subst. f_equal.
  - apply Ia; [apply Hh; left; reflexivity|exact E].
  - apply IHF; [exact Il|intros x Hx; apply Hh; right; exact Hx].
Qed.

Theorem C55_round_trip : forall v t, engine_value v -> from_value v = Ok t ->
  exists e v', lit_of v = Ok e /\ rtype e = t /\ same v v' /\ forall thing w q, yields C thing w q e v' q.
Proof.
  induction v as [|b|d|z|f|u|b|w0 tz|d|u|l IH|l IH|l|l IH|l IH|l IH|n0|f|m v IH|n0] using value_ind'; intros t EV T;
    try (inversion EV; subst; contradiction);
    try (cbn [from_value] in T; inversion T; subst; eexists _, _; split; [reflexivity|split; [reflexivity|split; [apply Sm_refl|intros; reflexivity]]]).
  - assert (EL : forall x, In x l -> engine_value x) by (inversion EV; subst; [contradiction|assumption]).
    cbn [from_value] in T. destruct (rmapM from_value l) as [ts|] eqn:ET; [|discriminate]. cbn [rmap] in T. inversion T; subst. apply rmapM_ok_iff in ET.
    assert (Q : exists es vs, rmapM lit_of l = Ok es /\ map rtype es = ts /\ Forall2 same l vs /\ forall thing w q, run w (pmapM (eval C thing) es) q = (Ok vs, q)).
    { clear T EV. induction ET as [|a ta l ts Ea F IHF]; [exists [], []; repeat split; constructor|]. inversion IH as [|? ? Ia Il]; subst.
      destruct (Ia ta (EL a (or_introl eq_refl)) Ea) as [e [v' [E1 [E2 [E3 E4]]]]]. destruct (IHF Il) as [es [vs [F1 [F2 [F3 F4]]]]]; [intros x Hx; apply EL; right; exact Hx|].
      exists (e :: es), (v' :: vs). cbn [rmapM]. rewrite E1, F1. repeat split; [cbn; congruence|constructor; assumption|]. intros. cbn [pmapM]. rewrite run_pbind. unfold yields in E4. rewrite E4, run_pbind, F4. reflexivity. }
    destruct Q as [es [vs [F1 [F2 [F3 F4]]]]]. exists (EArr es), (VArr vs). cbn [lit_of from_value]. rewrite (proj2 (rmapM_ok_iff _ _ _ _ _) ET), F1. cbn [rmap rbind rtype]. rewrite F2. repeat split; [apply Sm_arr; exact F3|].
    intros. unfold yields. cbn [eval]. rewrite run_pbind, F4. reflexivity.
  - assert (EL : forall x, In x l -> engine_value x /\ hashable x = true) by (inversion EV; subst; [contradiction|assumption]).
    assert (AP : apart l) by (inversion EV; subst; [contradiction|assumption]).
    cbn [from_value] in T. destruct (rmapM from_value l) as [ts|] eqn:ET; [|discriminate]. cbn [rmap] in T. inversion T; subst. apply rmapM_ok_iff in ET.
    assert (Q : exists es, rmapM lit_of l = Ok es /\ map rtype es = ts /\ forall thing w q, run w (pmapM (fun e => do! v := eval C thing e in if hashable v then ok v else raise PType) es) q = (Ok l, q)).
    { clear T EV AP. induction ET as [|a ta l ts Ea F IHF]; [exists []; repeat split; constructor|]. inversion IH as [|? ? Ia Il]; subst. destruct (EL a (or_introl eq_refl)) as [Ev Hh].
      destruct (Ia ta Ev Ea) as [e [v' [E1 [E2 [E3 E4]]]]]. apply (same_hashable _ _ Hh) in E3. subst v'. destruct (IHF Il) as [es [F1 [F2 F4]]]; [intros x Hx; apply EL; right; exact Hx|].
      exists (e :: es). cbn [rmapM]. rewrite E1, F1. repeat split; [cbn; congruence|]. intros. cbn [pmapM]. rewrite !run_pbind. unfold yields in E4. rewrite E4, Hh. cbn [run ok]. rewrite run_pbind, F4. reflexivity. }
    destruct Q as [es [F1 [F2 F4]]]. exists (ESet es), (new_set (mk_set l)). cbn [lit_of from_value]. rewrite (proj2 (rmapM_ok_iff _ _ _ _ _) ET), F1. cbn [rmap rbind rtype]. rewrite F2, (mk_set_id l AP). repeat split.
    + apply Sm_set. apply Permutation_sym. apply o_set_order_perm.
    + intros. unfold yields. cbn [eval]. rewrite run_pbind, F4, (mk_set_id l AP). reflexivity.
  - assert (EL : forall k x, In (k, x) l -> engine_value k /\ hashable k = true /\ engine_value x) by (inversion EV; subst; [contradiction|assumption]).
    assert (AP : apart (map fst l)) by (inversion EV; subst; [contradiction|assumption]).
    assert (T0 := T). cbn [from_value] in T. destruct (rmapM (fun kv => from_value (fst kv)) l) as [ks|] eqn:EK; [|discriminate]. cbn [rbind] in T.
    destruct (rmapM (fun kv => from_value (snd kv)) l) as [vts|] eqn:EX; [|discriminate]. cbn [rbind] in T.
    unfold mk_mapping in T. destruct (_ && _) in T; [discriminate|]. inversion T; subst. apply rmapM_ok_iff in EK. apply rmapM_ok_iff in EX.
    assert (Q : exists es m, rmapM (fun kv => rbind (lit_of (fst kv)) (fun k => rbind (lit_of (snd kv)) (fun w => Ok (k, w)))) l = Ok es /\ map (fun kv => rtype (fst kv)) es = ks /\ map (fun kv => rtype (snd kv)) es = vts /\
       Forall2 (fun a b => fst a = fst b /\ same (snd a) (snd b)) l m /\
       forall thing w q, run w (pmapM (fun kv => do! k := eval C thing (fst kv) in do! k' := Ret (map_key k) in ok (k', eval C thing (snd kv))) es) q = (Ok (map (fun ke => (fst (fst ke), eval C thing (snd (snd ke)))) (combine l es)), q) /\
         map fst (map (fun ke => (fst (fst ke), eval C thing (snd (snd ke)))) (combine l es)) = map fst l /\
         run w (pmapM (fun kp : value * prog value => do! v := snd kp in ok (fst kp, v)) (map (fun ke => (fst (fst ke), eval C thing (snd (snd ke)))) (combine l es))) q = (Ok m, q)).
    { clear T T0 EV AP. revert vts EX. induction EK as [|[k x] kt l ks Ek F IHF]; intros vts EX; inversion EX as [|? xt ? vts' Ex EX']; subst; [exists [], []; repeat split; constructor|].
      inversion IH as [|? ? [Ik Ix] Il]; subst. cbn [fst snd] in *. destruct (EL k x (or_introl eq_refl)) as [Ev [Hh Evx]].
      destruct (Ik kt Ev Ek) as [e1 [v1 [A1 [A2 [A3 A4]]]]]. apply (same_hashable _ _ Hh) in A3. subst v1. destruct (Ix xt Evx Ex) as [e2 [v2 [B1 [B2 [B3 B4]]]]].
      destruct (IHF Il (fun k x H => EL k x (or_intror H)) vts' EX') as [es [m [F1 [F2 [F3 [F4 F5]]]]]]. exists ((e1, e2) :: es), ((k, v2) :: m).
      cbn [rmapM fst snd]. rewrite A1. cbn [rbind]. rewrite B1. cbn [rbind]. rewrite F1. repeat split; try (cbn; congruence); [constructor; [split; [reflexivity|exact B3]|exact F4]| | |].
      - destruct (F5 thing w q) as [G1 [G2 G3]]. unfold yields in A4, B4. cbn [pmapM fst snd combine map]. rewrite !run_pbind, A4, run_pbind. cbn [run].
        assert (MK : map_key k = Ok k).
        { unfold map_key. rewrite Ek. cbn [rbind]. rewrite Hh. destruct k; try discriminate; cbn [from_value] in Ek;
            repeat match type of Ek with rmap _ ?r = _ => destruct r; cbn [rmap] in Ek; try discriminate end; inversion Ek; reflexivity. }
        rewrite MK. cbn [run ok]. rewrite run_pbind, G1. reflexivity.
      - cbn. f_equal. apply (F5 thing w q).
      - destruct (F5 thing w q) as [G1 [G2 G3]]. unfold yields in A4, B4. cbn [pmapM fst snd combine map]. rewrite !run_pbind, B4. cbn [run ok]. rewrite run_pbind, G3. reflexivity. }
    destruct Q as [es [m [F1 [F2 [F3 [F4 F5]]]]]]. exists (EMap es), (VMap m). cbn [lit_of]. rewrite T0. cbn [rbind]. rewrite F1. cbn [rmap rtype]. rewrite F2, F3. repeat split; [apply Sm_map; exact F4|].
    intros. destruct (F5 thing w q) as [G1 [G2 G3]]. unfold yields. cbn [eval]. rewrite run_pbind, G1, run_pbind.
    rewrite mk_dict_id by (rewrite G2; exact AP). rewrite G3. reflexivity.
Qed.

(** Coerced values are of this form as long as the sets in them are (a native set is not coerced, C55_native_set). *)
Inductive sets_engine : value -> Prop :=
| Se_atom : forall v, match v with VArr _ | VList _ | VMap _ | VDict _ | VSet _ | VObj _ => False | _ => True end -> sets_engine v
| Se_arr : forall l, (forall x, In x l -> sets_engine x) -> sets_engine (VArr l)
| Se_list : forall l, (forall x, In x l -> sets_engine x) -> sets_engine (VList l)
| Se_map : forall l, (forall k x, In (k, x) l -> sets_engine k /\ sets_engine x) -> sets_engine (VMap l)
| Se_dict : forall l, (forall k x, In (k, x) l -> sets_engine k /\ sets_engine x) -> sets_engine (VDict l)
| Se_set : forall l, engine_value (VSet l) -> sets_engine (VSet l).

Theorem C55_coerced : forall ver v v', sets_engine v -> coerce ver v = Ok v' -> engine_value v'.
Proof.
  intros ver v. induction v as [|b|d|z|f|u|b|w0 tz|d|u|l IH|l IH|l|l IH|l IH|l IH|n0|f|m v IH|n0] using value_ind'; intros v' S H; apply coerce_cases in H; cbn in H; subst;
    try (apply Ev_atom; exact I); try (inversion S; subst; contradiction).
  - destruct H as [l' [F ->]]. apply Ev_arr. intros y Hy. destruct (Forall2_In_r _ _ _ _ _ _ F Hy) as [x [Hx E]]. rewrite Forall_forall in IH. apply (IH x Hx); [|exact E]. inversion S; subst; [contradiction|auto].
  - destruct H as [l' [F ->]]. apply Ev_arr. intros y Hy. destruct (Forall2_In_r _ _ _ _ _ _ F Hy) as [x [Hx E]]. rewrite Forall_forall in IH. apply (IH x Hx); [|exact E]. inversion S; subst; [contradiction|auto].
  - apply Ev_arr. intros y Hy. apply in_map_iff in Hy. destruct Hy as [z [<- _]]. apply Ev_atom. exact I.
  - inversion S; subst; [contradiction|assumption].
  - destruct H as [l' [F ->]]. rewrite Forall_forall in IH. apply Ev_map; [|apply mk_dict_apart]. intros k x Hk. destruct (mk_dict_pairs _ _ _ F _ _ Hk) as [[k0 [x0 [A [B D]]]] [k1 [x1 [A1 B1]]]].
    assert (SE : forall k x, In (k, x) l -> sets_engine k /\ sets_engine x) by (inversion S; subst; [contradiction|assumption]).
    repeat split; [eapply (proj1 (IH _ A)); [apply (SE _ _ A)|exact B]|exact D|eapply (proj2 (IH _ A1)); [apply (SE _ _ A1)|exact B1]].
  - destruct H as [l' [F ->]]. rewrite Forall_forall in IH. apply Ev_map; [|apply mk_dict_apart]. intros k x Hk. destruct (mk_dict_pairs _ _ _ F _ _ Hk) as [[k0 [x0 [A [B D]]]] [k1 [x1 [A1 B1]]]].
    assert (SE : forall k x, In (k, x) l -> sets_engine k /\ sets_engine x) by (inversion S; subst; [contradiction|assumption]).
    repeat split; [eapply (proj1 (IH _ A)); [apply (SE _ _ A)|exact B]|exact D|eapply (proj2 (IH _ A1)); [apply (SE _ _ A1)|exact B1]].
Qed.
End C55.
Print Assumptions C55_round_trip.
Print Assumptions C55_coerced.

(** a set of native numbers is left alone by coerce_value, but the literal made from it holds decimals: equal, not identical *)
Theorem C55_native_set : let v := VSet [VInt 1] in coerce true v = Ok v /\
  exists e v', lit_of v = Ok e /\ yields untyped_ctx VNull demo_world demo_st e v' demo_st /\ v' = VSet [num 1] /\ v' <> v /\ py_eq v v' = true.
Proof. cbv zeta. split; [reflexivity|]. eexists _, _. split; [reflexivity|]. split; [vm_compute; reflexivity|]. split; [reflexivity|]. split; [discriminate|vm_compute; reflexivity]. Qed.

Example C55_example :
  let v := VMap [(VStr (s "a"), VArr [num 1; VNull; VSet [VBool true; VStr (s "x")]]); (VArr [num 2], VBytes [])] in
  engine_value demo_orc v /\ from_value v = Ok (TMap TUndef TUndef true) /\
  rbind (lit_of v) (fun e => fst (run demo_world (eval untyped_ctx VNull e) demo_st)) = Ok v.
Proof.
  cbv zeta. split; [|split; vm_compute; reflexivity]. apply Ev_map.
  - intros k x [H|[H|[]]]; inversion H; subst; (repeat split); try (apply Ev_atom; exact I).
    + apply Ev_arr. intros x [<-|[<-|[<-|[]]]]; try (apply Ev_atom; exact I). apply Ev_set; [intros x [<-|[<-|[]]]; split; try reflexivity; apply Ev_atom; exact I|].
      repeat constructor.
    + apply Ev_arr. intros x [<-|[]]. apply Ev_atom; exact I.
  - cbn. repeat constructor.
Qed.
