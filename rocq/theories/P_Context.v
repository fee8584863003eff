(** * Theorems about constructing a Context (C69) *)
From Coq Require Import Lia String.
From Verif Require Import Base Dec Value DType DTypeFacts Types Ops EqFacts CoerceFacts TypesFacts DecFacts ParseUtil Attr Prog Ast Eval Build Engine
  ProgFacts StateFacts Demo P_Compare P_Ops P_Eval P_Attrs Context.
Open Scope list_scope.
Open Scope Z_scope.

Section C69.
Context (Orc : Oracle) (tz_local tz_utc : N) (cur : N).
Notation context_new := (context_new tz_local tz_utc cur).

(** what each argument has to be *)
Definition good_tz (a : tz_arg) (z : N) : Prop :=
  match a with
  | TzText t => (cased t (s "local") /\ z = tz_local) \/ (cased t (s "utc") /\ z = tz_utc)
  | TzInfo i => z = i
  | TzOther => False
  end.
Definition good_entry (e : dtype + value) : Prop := match e with inl _ => True | inr v => supported v end.
Definition good_types (a : types_arg) : Prop := match a with TypesDict m => forall k e, In (k, e) m -> good_entry e | _ => True end.
(** the example values are values Python can build *)
Definition entries_ok (a : types_arg) : Prop := match a with TypesDict m => forall k v, In (k, inr v) m -> py_ok v | _ => True end.

Lemma lower_cased : forall t n, Forall (fun c => (c < 128)%N) t -> Forall (fun c => c < 128 /\ ~ 65 <= c <= 90)%N n -> py_lower t = n -> cased t n.
Proof.
  intros t n A P E. rewrite (py_lower_ascii Orc t A) in E. subst n. clear A. unfold cased. induction t as [|c t IH]; [constructor|]. cbn [map] in P |- *.
  inversion P as [|? ? [P1 P2] P3]; subst. constructor; [|apply IH; exact P3].
  destruct (N.leb_spec 65 c), (N.leb_spec c 90); cbn [andb] in *; lia.
Qed.

Lemma type_map_iff : forall m, (forall k v, In (k, inr v) m -> py_ok v) -> ((exists l, type_map_of m = Ok l) <-> forall k e, In (k, e) m -> good_entry e).
Proof.
  intros m P. unfold type_map_of. rewrite <- rmapM_total. split.
  - intros H k e He. destruct (H (k, e) He) as [b E]. destruct e as [t|v]; [exact I|]. cbn in E. destruct (from_value v) as [t|x] eqn:F; [|discriminate E].
    apply (from_value_supported v (P k v He)). exists t. exact F.
  - intros H [k [t|v]] He; [eexists; reflexivity|]. specialize (H k (inr v) He). apply (from_value_supported v (P k v He)) in H as [t F]. cbn. rewrite F. eexists. reflexivity.
Qed.
Lemma type_map_err : forall m x, (forall k v, In (k, inr v) m -> py_ok v) -> type_map_of m = Err x -> x = PType.
Proof.
  unfold type_map_of. induction m as [|[k e] m IH]; intros x P H; [discriminate H|]. cbn [rmapM] in H. destruct e as [t|v]; cbn [fst snd rbind] in H.
  - destruct (rmapM _ m) eqn:E; [discriminate H|]. cbn in H. injection H as <-. apply IH; [|reflexivity]. intros; eapply P; right; eassumption.
  - destruct (from_value v) as [t|y] eqn:F; cbn in H.
    + destruct (rmapM _ m) eqn:E; [discriminate H|]. cbn in H. injection H as <-. apply IH; [|reflexivity]. intros; eapply P; right; eassumption.
    + injection H as <-. eapply from_value_err_type; [|exact F]. eapply P. left. reflexivity.
Qed.

(** Construction succeeds exactly if the time zone is a tzinfo object or one of the two names in any letter case, and every
    entry of a type dictionary is a definition or a supported value.  (Texts that are not ASCII: up to Unicode case mapping.) *)
Theorem C69_accepts : forall a, entries_ok (a_types a) -> (forall t, a_tz a = TzText t -> Forall (fun c => (c < 128)%N) t) ->
  ((exists x, context_new a = Ok x) <-> (exists z, good_tz (a_tz a) z) /\ good_types (a_types a)).
Proof.
  intros a P A. unfold Context.context_new.
  assert (Z : forall z, tz_of tz_local tz_utc (a_tz a) = Ok z <-> good_tz (a_tz a) z \/ False).
  { intro z. destruct (a_tz a) as [t|i|] eqn:Et; cbn [tz_of good_tz].
    - cbv zeta. destruct (str_eqb (py_lower t) (s "local")) eqn:E1.
      + apply str_eqb_eq in E1. split.
        * intro H. injection H as <-. left. left. split; [|reflexivity]. apply lower_cased; [apply A; reflexivity|apply plain_text; reflexivity|exact E1].
        * intros [[[_ ->]|[H _]]|[]]; [reflexivity|]. rewrite (cased_lower Orc t _ H) in E1 by (apply plain_text; reflexivity). discriminate E1.
      + destruct (str_eqb (py_lower t) (s "utc")) eqn:E2.
        * apply str_eqb_eq in E2. split.
          -- intro H. injection H as <-. left. right. split; [|reflexivity]. apply lower_cased; [apply A; reflexivity|apply plain_text; reflexivity|exact E2].
          -- intros [[[H _]|[_ ->]]|[]]; [|reflexivity]. rewrite (cased_lower Orc t _ H) in E2 by (apply plain_text; reflexivity). discriminate E2.
        * split; [discriminate|]. intros [[[H _]|[H _]]|[]]; rewrite (cased_lower Orc t _ H) in E1, E2 by (apply plain_text; reflexivity); [discriminate E1|discriminate E2].
    - split; [intro H; injection H as <-; left; reflexivity|intros [->|[]]; reflexivity].
    - split; [discriminate|intros [[]|[]]]. }
  assert (T : (exists f, types_of (a_types a) = Ok f) <-> good_types (a_types a)).
  { destruct (a_types a) as [|m|f]; cbn [types_of good_types]; [split; [auto|eexists; reflexivity]| |split; [auto|eexists; reflexivity]].
    rewrite <- (type_map_iff m P). split; intros [y H].
    - destruct (type_map_of m) as [l|x]; [eauto|discriminate H].
    - rewrite H. eexists. reflexivity. }
  destruct (tz_of tz_local tz_utc (a_tz a)) as [z|x] eqn:EZ; cbn [rbind].
  - destruct (types_of (a_types a)) as [f|x] eqn:ET; cbn [rbind].
    + split; [|eexists; reflexivity]. intros _. split; [exists z; destruct (proj1 (Z z) eq_refl) as [K|[]]; exact K|apply T; eauto].
    + split; [intros [y K]; discriminate K|]. intros [_ K]. apply T in K as [f K]. discriminate K.
  - split; [intros [y K]; discriminate K|]. intros [[z K] _]. assert (H := proj2 (Z z) (or_introl K)). discriminate H.
Qed.

(** What is raised otherwise: ValueError for a text that is no supported zone name, TypeError for everything else; the time zone is
    looked at first. *)
Theorem C69_errors : forall a x, entries_ok (a_types a) -> context_new a = Err x ->
  (x = PValue /\ exists t, a_tz a = TzText t /\ ~ cased t (s "local") /\ ~ cased t (s "utc")) \/
  (x = PType /\ (a_tz a = TzOther \/ exists m k v, a_types a = TypesDict m /\ In (k, inr v) m /\ ~ supported v)).
Proof.
  intros a x P H. unfold Context.context_new in H. destruct (tz_of tz_local tz_utc (a_tz a)) as [z|y] eqn:EZ; cbn [rbind] in H.
  - right. destruct (types_of (a_types a)) as [f|y] eqn:ET; cbn [rbind] in H; [discriminate H|]. injection H as <-.
    destruct (a_types a) as [|m|f] eqn:EA; cbn [types_of] in ET; [discriminate ET| |discriminate ET].
    destruct (type_map_of m) as [l|x] eqn:EM; cbn in ET; [discriminate ET|]. injection ET as <-. split; [eapply type_map_err; eassumption|]. right. exists m.
    assert (K : exists k v, In (k, inr v) m /\ exists x', from_value v = Err x').
    { clear -EM. unfold type_map_of in EM. revert x EM. induction m as [|[k e] m IH]; intros x E; [discriminate E|]. cbn [rmapM] in E. destruct e as [t|v]; cbn [fst snd rbind] in E.
      - destruct (rmapM _ m) as [|y]; [discriminate E|]. destruct (IH y eq_refl) as (k' & v' & K & K'). exists k', v'. split; [right; exact K|exact K'].
      - destruct (from_value v) as [t|y] eqn:F; cbn in E.
        + destruct (rmapM _ m) as [|y]; [discriminate E|]. destruct (IH y eq_refl) as (k' & v' & K & K'). exists k', v'. split; [right; exact K|exact K'].
        + exists k, v. split; [left; reflexivity|]. rewrite F. eauto. }
    destruct K as (k & v & K & [x' F]). exists k, v. split; [reflexivity|]. split; [exact K|]. intro S. apply (from_value_supported v (P k v K)) in S as [t S]. congruence.
  - injection H as <-. destruct (a_tz a) as [t|i|]; cbn [tz_of] in EZ; [left|discriminate EZ|right; injection EZ as <-; split; [reflexivity|left; reflexivity]].
    cbv zeta in EZ. destruct (str_eqb (py_lower t) (s "local")) eqn:E1; [discriminate EZ|]. destruct (str_eqb (py_lower t) (s "utc")) eqn:E2; [discriminate EZ|]. injection EZ as <-.
    split; [reflexivity|]. exists t. split; [reflexivity|]. split; intro K; rewrite (cased_lower Orc t _ K) in E1, E2 by (apply plain_text; reflexivity); [discriminate E1|discriminate E2].
Qed.

(** The context has what was given, and for what was left out: no regular expression flags, no default value, the local time zone,
    the decimal context of the creating thread, symbols of undefined type. *)
Theorem C69_settings : forall a x, context_new a = Ok x -> 
  x_flags x = a_flags a /\ x_default x = a_default a /\ x_dec x = match a_dec a with Some d => d | None => cur end /\
  (forall z, a_tz a = TzInfo z -> x_tz x = z) /\ (forall t, a_tz a = TzText t -> (cased t (s "local") -> x_tz x = tz_local) /\ (cased t (s "utc") -> x_tz x = tz_utc)).
Proof.
  intros a x H. unfold Context.context_new in H. destruct (tz_of tz_local tz_utc (a_tz a)) as [z|y] eqn:EZ; cbn [rbind] in H; [|discriminate H].
  destruct (types_of (a_types a)) as [f|y]; cbn [rbind] in H; [|discriminate H]. injection H as <-. cbn. split; [reflexivity|]. split; [reflexivity|]. split; [reflexivity|].
  split; [intros i E; rewrite E in EZ; injection EZ as <-; reflexivity|]. intros t E. rewrite E in EZ. cbn [tz_of] in EZ. cbv zeta in EZ. split; intro K; rewrite (cased_lower Orc t _ K) in EZ by (apply plain_text; reflexivity);
    injection EZ as <-; reflexivity.
Qed.
Theorem C69_no_arguments : exists x, context_new no_args = Ok x /\ x_flags x = 0 /\ x_default x = None /\ x_tz x = tz_local /\ x_dec x = cur /\ forall n, x_types x n = Ok TUndef.
Proof. eexists. split; [reflexivity|]. repeat split; reflexivity. Qed.

(** The time zone of the context is used for everything: naive datetimes and dates that are read, datetime literals, $now, $today and
    $parse_datetime. *)
Theorem C69_timezone : forall a x heap w q thing, context_new a = Ok x -> let C := seen x heap in let zone := x_tz x in
  (forall name u, find_scope (s_scopes q) name = None -> w_resolve w (s_log q) thing name = Ok (VDt u None) ->
     fst (run w (eval C thing (ESym name false TUndef)) q) = Ok (VDt u (Some zone))) /\
  (forall t u, o_isoparse t = Some (u, None) -> run w (build C (DDatetime t)) q = (Ok (ELit (VDt u (Some zone))), q)) /\
  (forall n, In n (map s ["now"; "today"]%string) -> exists u, fst (run w (eval C thing (ESym n true TDatetime)) q) = Ok (VDt u (Some zone))) /\
  (forall t u, o_isoparse t = Some (u, None) -> fst (run w (eval C thing (ECall (ESym (s "parse_datetime") true t_function) [ELit (VStr t)])) q) = Ok (VDt u (Some zone))).
Proof.
  intros a x heap w q thing _ C zone. split; [|split; [|split]].
  - intros name u S R. cbn [eval]. rewrite run_pthen. unfold resolve. rewrite run_pbind. cbn [run act step_op]. rewrite S. unfold actr. cbn [run step_op]. rewrite R. reflexivity.
  - intros t u E. cbn [build]. unfold parse_datetime. rewrite E. reflexivity.
  - intros n I0. cbn [map In] in I0. destruct I0 as [<-|[<-|[]]]; eexists; reflexivity.
  - intros t u E. cbn [eval]. rewrite run_pbind.
    assert (R : run w (eval C thing (ESym (s "parse_datetime") true t_function)) q = (Ok (VBFun BFparse_datetime), q)) by reflexivity.
    cbn [eval] in R. rewrite R. cbn [callable pmapM]. cbn. unfold parse_datetime. rewrite E. reflexivity.
Qed.

(** Without a type resolver every symbol is accepted and has type UNDEFINED; with a dictionary a symbol has the given definition or
    the data type of the example value (of the last entry of a name, as Python keeps it); with a callback what it says. *)
Theorem C69_types : forall a x heap w q name, context_new a = Ok x -> s_scopes q = [] ->
  match a_types a with
  | TypesNone => run w (build (seen x heap) (DSym name false)) q = (Ok (ESym name false TUndef), add_sym name q)
  | TypesDict m => NoDup (map fst m) ->
      (forall t, In (name, inl t) m -> run w (build (seen x heap) (DSym name false)) q = (Ok (ESym name false t), add_sym name q)) /\
      (forall v, In (name, inr v) m -> exists t, from_value v = Ok t /\ run w (build (seen x heap) (DSym name false)) q = (Ok (ESym name false t), add_sym name q)) /\
      (~ In name (map fst m) -> exists sg, fst (run w (build (seen x heap) (DSym name false)) q) = Err (XSymRes name sg))
  | TypesFun f => fst (run w (build (seen x heap) (DSym name false)) q) = match f name with Ok t => Ok (ESym name false t) | Err e => Err e end
  end.
Proof.
  intros a x heap w q name H S. unfold Context.context_new in H. destruct (tz_of tz_local tz_utc (a_tz a)) as [z|y]; cbn [rbind] in H; [|discriminate H].
  destruct (types_of (a_types a)) as [f|y] eqn:ET; cbn [rbind] in H; [|discriminate H]. injection H as <-.
  assert (R : run w (build (seen {| x_flags := a_flags a; x_tz := z; x_default := a_default a; x_dec := match a_dec a with Some d => d | None => cur end; x_types := f |} heap) (DSym name false)) q =
    (rbind (f name) (fun t => Ok (ESym name false t)), add_sym name q)).
  { cbn [build]. rewrite run_pbind, run_act. cbn [step_op]. rewrite run_pbind. unfold resolve_type. rewrite run_pbind. cbn [run act step_op]. cbn [s_scopes add_sym]. rewrite S. cbn [find_scope run seen c_types x_types].
    destruct (f name); reflexivity. }
  destruct (a_types a) as [|m|g]; cbn [types_of] in ET.
  - injection ET as <-. exact R.
  - intro ND. destruct (type_map_of m) as [l|y] eqn:EM; [|discriminate ET]. cbn [rmap] in ET. injection ET as <-. rewrite R. unfold type_resolver_of.
    assert (M : forall e, In (name, e) m -> exists t, (match e with inl t' => t = t' | inr v => from_value v = Ok t end) /\ assoc name l = Some t).
    { clear R. unfold type_map_of in EM. revert l EM. induction m as [|[k e] m IH]; intros l E e0 He; [destruct He|]. cbn [rmapM] in E. inversion ND as [|? ? N1 N2]; subst.
      destruct He as [He|He].
      - injection He as -> ->. destruct e0 as [t|v]; cbn [fst snd rbind] in E.
        + destruct (rmapM _ m); [|discriminate E]. cbn in E. injection E as <-. exists t. split; [reflexivity|]. cbn [assoc]. rewrite str_eqb_refl. reflexivity.
        + destruct (from_value v) as [t|]; [|discriminate E]. cbn in E. destruct (rmapM _ m); [|discriminate E]. cbn in E. injection E as <-. exists t. split; [reflexivity|]. cbn [assoc]. rewrite str_eqb_refl. reflexivity.
      - assert (NE : str_eqb name k = false). { apply not_true_is_false. intro K. apply str_eqb_eq in K. subst k. apply N1. apply in_map_iff. exists (name, e0). auto. }
        destruct e as [t|v]; cbn [fst snd rbind] in E.
        + destruct (rmapM _ m) as [l'|]; [|discriminate E]. cbn in E. injection E as <-. destruct (IH N2 l' eq_refl e0 He) as (t0 & K1 & K2). exists t0. split; [exact K1|]. cbn [assoc]. rewrite NE. exact K2.
        + destruct (from_value v) as [t|]; [|discriminate E]. cbn in E. destruct (rmapM _ m) as [l'|]; [|discriminate E]. cbn in E. injection E as <-. destruct (IH N2 l' eq_refl e0 He) as (t0 & K1 & K2). exists t0. split; [exact K1|]. cbn [assoc]. rewrite NE. exact K2. }
    split; [|split].
    + intros t Ht. destruct (M _ Ht) as (t' & -> & ->). reflexivity.
    + intros v Hv. destruct (M _ Hv) as (t' & K & ->). exists t'. split; [exact K|reflexivity].
    + intro Nn. assert (A : assoc name l = None).
      { destruct (assoc name l) as [t|] eqn:E; [|reflexivity]. exfalso. apply Nn. apply assoc_In in E. clear -EM E. unfold type_map_of in EM. apply rmapM_ok_iff in EM.
        induction EM as [|[k e] b m l K F IH]; [destruct E|]. cbn [map fst]. destruct E as [->|E]; [|right; apply IH; exact E]. left. destruct e as [t'|v]; cbn in K; [injection K as -> _; reflexivity|].
        destruct (from_value v); cbn in K; [injection K as -> _; reflexivity|discriminate K]. }
      rewrite A. eexists. reflexivity.
  - injection ET as ->. rewrite R. destruct (f name); reflexivity.
Qed.

(** The empty dictionary is not the absence of a dictionary: no symbol is known. *)
Theorem C69_empty_dictionary : forall a x heap w q name, a_types a = TypesDict [] -> context_new a = Ok x -> s_scopes q = [] ->
  exists sg, fst (run w (build (seen x heap) (DSym name false)) q) = Err (XSymRes name sg).
Proof. intros a x heap w q name E H S. assert (T := C69_types a x heap w q name H S). rewrite E in T. destruct (T (NoDup_nil _)) as [_ [_ K]]. apply K. intros []. Qed.

(** ** Examples as types *)
(** data as read from JSON, with dates, durations, bytes, other numbers, sets of scalars and functions in it: mappings have texts as keys *)
Inductive data : value -> Prop :=
| Da_scalar : forall v, match v with VArr _ | VList _ | VRange _ | VSet _ | VMap _ | VDict _ | VObj _ => False | _ => True end -> data v
| Da_arr : forall l, (forall x, In x l -> data x) -> data (VArr l)
| Da_list : forall l, (forall x, In x l -> data x) -> data (VList l)
| Da_range : forall l, data (VRange l)
| Da_set : forall l, (forall x, In x l -> hashable x = true) -> (forall x, In x l -> data x) -> data (VSet l)
| Da_map : forall l, NoDup (map fst l) -> (forall k x, In (k, x) l -> exists t, k = VStr t) -> (forall k x, In (k, x) l -> data x) -> data (VMap l)
| Da_dict : forall l, NoDup (map fst l) -> (forall k x, In (k, x) l -> exists t, k = VStr t) -> (forall k x, In (k, x) l -> data x) -> data (VDict l).

Lemma apart_texts : forall (l : list value), NoDup l -> (forall k, In k l -> exists t, k = VStr t) -> apart l.
Proof.
  intros l ND T. induction ND as [|k l N1 N2 IH]; [constructor|]. constructor; [|apply IH; intros; apply T; right; assumption].
  apply Forall_forall. intros k' Hk'. destruct (T k (or_introl eq_refl)) as [t ->]. destruct (T k' (or_intror Hk')) as [t' ->]. cbn. apply not_true_is_false. intro E. apply str_eqb_eq in E. subst t'. apply N1. exact Hk'.
Qed.

(** coercion does not change the data type of such data *)
Lemma data_type : forall v, data v -> exists v' t, coerce false v = Ok v' /\ from_value v = Ok t /\ from_value v' = Ok t.
Proof.
  assert (L : forall l, (forall x, In x l -> exists v' t, coerce false x = Ok v' /\ from_value x = Ok t /\ from_value v' = Ok t) ->
    exists l' ts, rmapM (coerce false) l = Ok l' /\ rmapM from_value l = Ok ts /\ rmapM from_value l' = Ok ts).
  { induction l as [|x l IH]; intro H; [exists [], []; repeat split|]. destruct (H x (or_introl eq_refl)) as (x' & t & E1 & E2 & E3). destruct IH as (l' & ts & F1 & F2 & F3); [intros; apply H; right; assumption|].
    exists (x' :: l'), (t :: ts). cbn [rmapM]. rewrite E1, E2, E3, F1, F2, F3. repeat split. }
  assert (M : forall l, NoDup (map fst l) -> (forall k x, In (k, x) l -> (exists t, k = VStr t) /\ exists v' t, coerce false x = Ok v' /\ from_value x = Ok t /\ from_value v' = Ok t) ->
    exists l' t, rmapM (coerce_pair false) l = Ok l' /\ mk_dict l' = l' /\ from_value (VDict l) = Ok t /\ from_value (VMap l') = Ok t).
  { intros l ND H. assert (G : exists l' ks vs, rmapM (coerce_pair false) l = Ok l' /\ map fst l' = map fst l /\ Forall (fun k => k = TString) ks /\
      rmapM (fun kv => from_value (fst kv)) l = Ok ks /\ rmapM (fun kv => from_value (snd kv)) l = Ok vs /\ rmapM (fun kv => from_value (fst kv)) l' = Ok ks /\ rmapM (fun kv => from_value (snd kv)) l' = Ok vs).
    { clear ND. induction l as [|[k x] l IH]; [exists [], [], []; repeat split; constructor|]. destruct (H k x (or_introl eq_refl)) as [[t ->] (x' & tx & E1 & E2 & E3)].
      destruct IH as (l' & ks & vs & F0 & F1 & F2 & F3 & F4 & F5 & F6); [intros; apply H; right; assumption|].
      exists ((VStr t, x') :: l'), (TString :: ks), (tx :: vs). cbn [rmapM fst snd coerce_pair map]. unfold coerce_pair at 1. cbn [fst snd]. rewrite E1, E2, E3, F0, F3, F4, F5, F6. cbn. rewrite F1.
      repeat split. constructor; [reflexivity|exact F2]. }
    destruct G as (l' & ks & vs & F0 & F1 & F2 & F3 & F4 & F5 & F6).
    assert (K : member_type ks = TString \/ member_type ks = TUndef).
    { destruct ks as [|k0 ks0]; [right; reflexivity|left]. apply member_type_same; [| |discriminate|].
      - eapply Forall_impl; [|exact F2]. intros ? ->. reflexivity.
      - left. inversion F2; assumption.
      - intros u Hu _. rewrite Forall_forall in F2. apply F2. exact Hu. }
    exists l', (TMap (member_type ks) (member_type vs) true). split; [exact F0|]. split; [|split].
    - apply mk_dict_id. rewrite F1. apply apart_texts; [exact ND|]. intros k Hk. apply in_map_iff in Hk as [[k' x] [<- Hk]]. apply (H k' x Hk).
    - cbn [from_value]. rewrite F3, F4. cbn [rbind]. unfold mk_mapping. destruct K as [-> | ->]; reflexivity.
    - cbn [from_value]. rewrite F5, F6. cbn [rbind]. unfold mk_mapping. destruct K as [-> | ->]; reflexivity. }
  intros v D. induction D as [v S|l D IH|l D IH|l|l Hh D IH|l ND T D IH|l ND T D IH].
  - destruct v as [| | | | | | | | | | | | | | | | | | |]; try contradiction; eexists _, _; repeat split; reflexivity.
  - destruct (L l IH) as (l' & ts & E1 & E2 & E3). exists (VArr l'), (TArray (member_type ts) true). rewrite (proj2 (coerce_seq false l)), E1. cbn [rbind coerce_fin from_value rmap]. rewrite E2, E3. repeat split.
  - destruct (L l IH) as (l' & ts & E1 & E2 & E3). exists (VArr l'), (TArray (member_type ts) true). rewrite (proj1 (coerce_seq false l)), E1. cbn [rbind coerce_fin from_value rmap]. rewrite E2, E3. repeat split.
  - exists (VArr (map (fun z => VDec (dec_of_Z z)) l)), (TArray (member_type (map (fun _ => TFloat) l)) true). split; [reflexivity|]. split; [reflexivity|]. cbn [from_value].
    replace (rmapM from_value (map (fun z => VDec (dec_of_Z z)) l)) with (@Ok (list dtype) (map (fun _ => TFloat) l)); [reflexivity|]. induction l as [|z l IH]; [reflexivity|]. cbn [map rmapM from_value rbind]. rewrite <- IH. reflexivity.
  - destruct (L l IH) as (l' & ts & E1 & E2 & E3). exists (VSet l), (TSet (member_type ts) true). split; [reflexivity|]. cbn [from_value]. rewrite E2. split; reflexivity.
  - destruct (M l ND) as (l' & t & E1 & E2 & E3 & E4); [intros k x Hk; split; [apply (T k x Hk)|apply (IH k x Hk)]|]. exists (VMap l'), t. rewrite (proj1 (coerce_dict false l)), E1. cbn [rbind coerce_fin]. rewrite E2. repeat split; assumption.
  - destruct (M l ND) as (l' & t & E1 & E2 & E3 & E4); [intros k x Hk; split; [apply (T k x Hk)|apply (IH k x Hk)]|]. exists (VMap l'), t. rewrite (proj2 (coerce_dict false l)), E1. cbn [rbind coerce_fin]. rewrite E2. repeat split; assumption.
Qed.

Lemma self_conforms : forall v t, from_value v = Ok t -> conforms t v.
Proof.
  intros v t E. right. right. exists t. split; [exact E|]. split; [apply is_compat_refl|]. destruct (is_scalar t) eqn:S; [left; reflexivity|]. right. right. split; [apply dt_eqb_refl|]. left.
  assert (G : match t with TArray _ n | TSet _ n | TMap _ _ n => n = true | _ => True end).
  { destruct v; cbn in E; try (injection E as <-; exact I); try (injection E as <-; reflexivity); try discriminate E.
    all: destruct (rmapM _ l) in E; [|discriminate E]; cbn in E; try (injection E as <-; reflexivity).
    all: destruct (rmapM _ l) in E; [|discriminate E]; cbn in E; unfold mk_mapping in E; match type of E with (if ?b then _ else _) = _ => destruct b end; [discriminate E|injection E as <-; reflexivity]. }
  destruct t; try reflexivity; exact G.
Qed.

(** A context made from example data accepts that data: every symbol of the dictionary is known to rules and, on the examples
    themselves as the thing, evaluates to the example (converted to the types of the engine) without a type error. *)
Theorem C69_examples : forall a x heap usr now rnd m name v q q0, a_types a = TypesDict (map (fun kv => (fst kv, inr (snd kv))) m) -> context_new a = Ok x ->
  NoDup (map fst m) -> (forall k e, In (k, e) m -> data e) -> In (name, v) m -> s_scopes q0 = [] -> s_scopes q = [] ->
  let w := default_world usr now rnd in let thing := VDict (map (fun kv => (VStr (fst kv), snd kv)) m) in
  exists t v', run w (build (seen x heap) (DSym name false)) q0 = (Ok (ESym name false t), add_sym name q0) /\
    new_value (x_tz x) false v = Ok v' /\ yields (seen x heap) thing w q (ESym name false t) v' (log (EvResolve thing name (Ok v)) q).
Proof.
  intros a x heap usr now rnd m name v q q0 EA H ND D Hv S0 S w thing.
  assert (T := C69_types a x heap w q0 name H S0). rewrite EA in T. rewrite map_map in T. cbn [fst] in T. destruct (T ND) as [_ [T1 _]]. clear T.
  destruct (T1 v) as (t & Ft & B). { apply in_map_iff. exists (name, v). auto. }
  destruct (data_type v (D name v Hv)) as (u & t' & E1 & E2 & E3). assert (t' = t) by congruence. subst t'.
  exists t, (set_tz (x_tz x) u). split; [exact B|]. split; [unfold new_value; rewrite E1; reflexivity|].
  apply (C14_conforming_is_delivered Orc (seen x heap) thing w name false t q v); [|unfold new_value; cbn [c_tz seen]; rewrite E1; reflexivity|].
  - unfold resolve. rewrite run_pbind. cbn [run act step_op]. rewrite S. cbn [find_scope]. cbn [run actr step_op].
    assert (G : dict_get (map (fun kv => (VStr (fst kv), snd kv)) m) (VStr name) = Some v).
    { clear -ND Hv. induction m as [|[k e] m IH]; [destruct Hv|]. cbn [map fst snd dict_get]. inversion ND; subst. destruct Hv as [Hv|Hv].
      - injection Hv as -> ->. cbn. rewrite str_eqb_refl. reflexivity.
      - replace (py_eq (VStr k) (VStr name)) with false; [apply IH; assumption|]. symmetry. cbn. apply not_true_is_false. intro K. apply str_eqb_eq in K. subst k. apply H1. apply in_map_iff. exists (name, v). auto. }
    replace (w_resolve w (s_log q) thing name) with (@Ok value v); [reflexivity|]. cbn [w_resolve w default_world]. unfold resolve_item, thing. rewrite G. reflexivity.
  - apply self_conforms. rewrite <- E3. destruct u as [| | | | | | | ? [|]| | | | | | | | | | | |]; reflexivity.
Qed.

(** Everything a rule does under the context depends on the decimal context object only through its settings at evaluation time; an
    explicit decimal_context is independent of the creating thread. *)
Theorem C69_decimal_context : forall a x heap heap', context_new a = Ok x ->
  (forall d, a_dec a = Some d -> heap d = heap' d -> seen x heap = seen x heap') /\ (a_dec a = None -> heap cur = heap' cur -> seen x heap = seen x heap').
Proof.
  intros a x heap heap' H. destruct (C69_settings a x H) as (_ & _ & E & _). unfold seen. split.
  - intros d K Q. rewrite K in E. rewrite E, Q. reflexivity.
  - intros K Q. rewrite K in E. rewrite E, Q. reflexivity.
Qed.
End C69.
Print Assumptions C69_timezone.
Print Assumptions C69_accepts.
Print Assumptions C69_errors.
Print Assumptions C69_settings.
Print Assumptions C69_types.
Print Assumptions C69_empty_dictionary.
Print Assumptions C69_examples.
Print Assumptions C69_decimal_context.

Definition c69_args : context_args :=
  {| a_flags := 0; a_types := TypesDict (map (fun kv => (fst kv, inr (snd kv))) [(s "name", VStr (s "Luke")); (s "born", VDate 700000); (s "tags", VList [VStr (s "a"); VNull]); (s "at", VDict [(VStr (s "x"), VInt 1)])]);
     a_tz := TzText (s "UTC"); a_default := None; a_dec := Some 3%N |}.
Example C69_example : (exists x, context_new 7 8 0 c69_args = Ok x /\ x_tz x = 8%N /\ x_types x (s "tags") = Ok (TArray TString true) /\ x_types x (s "at") = Ok (TMap TString TFloat true)) /\
  entries_ok (a_types c69_args) /\ data (VDict [(VStr (s "x"), VInt 1)]) /\
  context_new 7 8 0 {| a_flags := 0; a_types := TypesNone; a_tz := TzText (s "CET"); a_default := None; a_dec := None |} = Err PValue /\
  context_new 7 8 0 {| a_flags := 0; a_types := TypesDict [(s "o", inr (VObj 1))]; a_tz := TzInfo 4; a_default := None; a_dec := None |} = Err PType.
Proof.
  split; [eexists; split; [vm_compute; reflexivity|repeat split]|]. split.
  - intros k v Hv. cbn [a_types c69_args map fst snd In] in Hv. destruct Hv as [E|[E|[E|[E|[]]]]]; injection E as <- <-; [apply Po_scalar; exact I|apply Po_scalar; exact I| |].
    + apply Po_list. intros x [<-|[<-|[]]]; apply Po_scalar; exact I.
    + apply Po_dict. intros k x [E|[]]. injection E as <- <-. repeat split; apply Po_scalar; exact I.
  - split; [|split; vm_compute; reflexivity]. apply Da_dict; [repeat constructor; intros []|intros k x [E|[]]; injection E as <- <-; eexists; reflexivity|intros k x [E|[]]; injection E as <- <-; constructor; exact I].
Qed.

(** Without texts as keys an example can be refused by the context made from it: coercion merges the keys 0.1 and Decimal("0.1")
    (different in Python), so the inner mapping loses the entry that made its value type undefined. *)
Definition c69_clash : value := VDict [(VStr (s "i"), VDict [(VFlt (FFin 3602879701896397 (-55) (DFin false 1 (-1))), VInt 1); (VDec (DFin false 1 (-1)), VStr (s "a"))])].
Theorem C69_key_clash_refuted : exists x, context_new 7 8 0 {| a_flags := 0; a_types := TypesDict [(s "m", inr c69_clash)]; a_tz := TzInfo 4; a_default := None; a_dec := None |} = Ok x /\
  fst (run demo_world (rule_evaluate (seen x (fun _ => demo_dc)) (ESym (s "m") false (TMap TString (TMap TFloat TUndef true) true)) (VDict [(VStr (s "m"), c69_clash)])) demo_st) = Err (XSymType (s "m")) /\
  fst (run demo_world (build (seen x (fun _ => demo_dc)) (DSym (s "m") false)) demo_st) = Ok (ESym (s "m") false (TMap TString (TMap TFloat TUndef true) true)).
Proof. eexists. split; [vm_compute; reflexivity|]. split; vm_compute; reflexivity. Qed.
Print Assumptions C69_key_clash_refuted.

(** The default decimal context is the creating thread's own object, not a copy: if that thread changes its settings later, the results
    of rules of the context change, in every thread. *)
Theorem C69_decimal_alias_refuted : exists x h h' e, context_new 7 8 0 no_args = Ok x /\ h 0%N = dctx_default /\ h' 0%N = {| prec := 2; rmode := RHalfEven; emin := -999999; emax := 999999 |} /\
  fst (run demo_world (rule_evaluate (seen x h) e VNull) demo_st) <> fst (run demo_world (rule_evaluate (seen x h') e VNull) demo_st).
Proof.
  eexists. exists (fun _ => dctx_default), (fun _ => {| prec := 2; rmode := RHalfEven; emin := -999999; emax := 999999 |}), (EBin BAdd (ELit (num 100)) (ELit (num 1))).
  split; [reflexivity|]. split; [reflexivity|]. split; [reflexivity|]. vm_compute. discriminate.
Qed.
Print Assumptions C69_decimal_alias_refuted.

