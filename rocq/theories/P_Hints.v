(** * C62: data types from type hints and names *)
From Coq Require Import List ZArith Bool String.
From Verif Require Import Base Dec Value DType DTypeFacts Types TypesFacts CoerceFacts Ops ParseUtil Attr Prog Ast Eval Build Engine ProgFacts Demo P_Ops P_Eval Fits Hints.
Import ListNotations.
Open Scope list_scope.
Open Scope Z_scope.

(** ** Specification: the values a type hint describes, by their exact class *)
Definition of_class (c : pyclass) (v : value) : Prop :=
  match c, v with
  | Plist, VList _ | Prange, VRange _ | Ptuple, VArr _ | Pbool, VBool _ | Pbytes, VBytes _ | Pdate, VDate _ | Pdatetime, VDt _ _
  | Ptimedelta, VTd _ | Pdecimal, VDec _ | Pfloat, VFlt _ | Pint, VInt _ | Pdict, VDict _ | Pnone, VNull | Pset, VSet _ | Pstr, VStr _
  | Pfunction, VFun _ | Pclass _, VObj _ => True
  | _, _ => False
  end.
Inductive described : hint -> value -> Prop :=
| Ds_class c v : of_class c v -> described (Hclass c) v
| Ds_list a r l : (forall x, In x l -> described a x) -> described (Halias (Hclass Plist) (Some (a :: r))) (VList l)        (* list[a] *)
| Ds_set a r l : (forall x, In x l -> described a x) -> described (Halias (Hclass Pset) (Some (a :: r))) (VSet l)           (* set[a] *)
| Ds_dict a b r l : (forall k x, In (k, x) l -> described a k) -> (forall k x, In (k, x) l -> described b x) ->
    described (Halias (Hclass Pdict) (Some (a :: b :: r))) (VDict l)                                                         (* dict[a, b] *)
| Ds_tuple args l : described (Halias (Hclass Ptuple) args) (VArr l)                                                         (* tuple[...] *)
| Ds_bare o v : described o v -> described (Halias o None) v                                                                 (* typing.List *)
| Ds_annotated o p args v : described (Halias o p) v -> described (Halias (Halias o p) args) v.                              (* typing.Annotated *)

Lemma compat_members : forall (t : dtype) l ts, (forall x vt, In x l -> from_value x = Ok vt -> is_compat vt t = true) ->
  Forall2 (fun a b => from_value a = Ok b) l ts -> is_compat (member_type ts) t = true.
Proof. intros t l ts H F. apply (members_compat t l ts); [|exact F]. intros x vt Hx E. right. eapply H; eassumption. Qed.
Lemma Forall2_map_l : forall A B C (f : A -> B) (R : B -> C -> Prop) l l', Forall2 R (map f l) l' -> Forall2 (fun a c => R (f a) c) l l'.
Proof. intros A B C f R l. induction l as [|a l IH]; intros l' H; inversion H; subst; constructor; auto. Qed.

(** A value a hint describes has a data type compatible with the one made from the hint: annotating symbols with the classes of their
    values never makes a rule reject a value of the right class by is_compatible. *)
Theorem C62_sound : forall h t v vt, from_type h = Ok t -> described h v -> from_value v = Ok vt -> is_compat vt t = true.
Proof.
  assert (H : forall h v, described h v -> forall t vt, from_type h = Ok t -> from_value v = Ok vt -> is_compat vt t = true); [|eauto].
  induction 1 as [c v K|a r l K IH|a r l K IH|a b r l K1 IH1 K2 IH2|args l|o v K IH|o p args v K IH]; intros t vt T F.
  - destruct c, v; try contradiction; cbn [from_type class_type] in T; try discriminate T; injection T as <-; try (cbn in F; injection F as <-; reflexivity).
    + rewrite from_value_list in F. apply from_value_arr in F as [ts [_ ->]]. apply is_compat_undef_r.
    + rewrite from_value_range in F. apply from_value_arr in F as [ts [_ ->]]. apply is_compat_undef_r.
    + apply from_value_arr in F as [ts [_ ->]]. apply is_compat_undef_r.
    + assert (F' : from_value (VMap l) = Ok vt) by exact F. apply from_value_map in F' as [ks [ts [_ [_ ->]]]]. cbn [is_compat t_mapping]. rewrite !is_compat_undef_r. reflexivity.
    + apply from_value_set in F as [ts [_ ->]]. apply is_compat_undef_r.
  - cbn [from_type class_type rbind] in T. destruct (from_type a) as [ta|] eqn:E; [|discriminate T]. cbn in T. injection T as <-.
    rewrite from_value_list in F. apply from_value_arr in F as [ts [Ft ->]]. cbn [is_compat]. eapply compat_members; [|exact Ft]. intros x u Hx Hu. exact (IH x Hx ta u eq_refl Hu).
  - cbn [from_type class_type rbind] in T. destruct (from_type a) as [ta|] eqn:E; [|discriminate T]. cbn in T. injection T as <-.
    apply from_value_set in F as [ts [Ft ->]]. cbn [is_compat]. eapply compat_members; [|exact Ft]. intros x u Hx Hu. exact (IH x Hx ta u eq_refl Hu).
  - cbn [from_type class_type rbind] in T. destruct (from_type a) as [ta|] eqn:E; [|discriminate T]. cbn [rbind] in T. destruct (from_type b) as [tb|] eqn:E2; [|discriminate T]. cbn [rbind] in T.
    unfold mk_mapping in T. destruct (_ && _) in T; [discriminate T|]. injection T as <-.
    assert (F' : from_value (VMap l) = Ok vt) by exact F. apply from_value_map in F' as [ks [ts [Fk [Ft ->]]]]. cbn [is_compat]. apply andb_true_iff. split; (eapply compat_members; [|eassumption]).
    + intros x u Hx Hu. apply in_map_iff in Hx as [[k y] [<- Hx]]. exact (IH1 k y Hx ta u eq_refl Hu).
    + intros x u Hx Hu. apply in_map_iff in Hx as [[k y] [<- Hx]]. exact (IH2 k y Hx tb u eq_refl Hu).
  - cbn [from_type class_type rbind] in T. injection T as <-. apply from_value_arr in F as [ts [_ ->]]. apply is_compat_undef_r.
  - cbn [from_type] in T. destruct (from_type o) as [to|] eqn:E; [|discriminate T]. cbn [rbind] in T. assert (t = to) as -> by (destruct o as [[]| |]; congruence). eapply IH; [reflexivity|exact F].
  - change (rbind (from_type (Halias o p)) (fun main => Ok main) = Ok t) in T. destruct (from_type (Halias o p)) as [to|] eqn:E; [|discriminate T]. cbn [rbind] in T. injection T as <-. eapply IH; [reflexivity|exact F].
Qed.
Print Assumptions C62_sound.

(** from_type never answers UNDEFINED. *)
Theorem C62_never_undefined : forall h, from_type h <> Ok TUndef.
Proof.
  induction h as [c|o IH args|]; [destruct c; discriminate| |discriminate]. intro H. cbn [from_type] in H. destruct (from_type o) as [main|] eqn:E; [|discriminate H]. cbn [rbind] in H.
  assert (M : main <> TUndef) by congruence. destruct o as [[]| |]; try (injection H as H; contradiction);
    (destruct args as [[|a r]|]; [discriminate H| |injection H as H; contradiction]);
    destruct (from_type a) as [ta|]; try discriminate H.
  destruct r as [|b r]; [discriminate H|]. cbn [rbind] in H. destruct (from_type b) as [tb|]; [|discriminate H]. cbn [rbind] in H. unfold mk_mapping in H. destruct (_ && _) in H; discriminate H.
Qed.
(** from_type fails only with TypeError, ValueError, IndexError (no such argument: dict[str]) or, for a mapping with a container other than
    an array for a key, EngineError. *)
Theorem C62_errors : forall h x, from_type h = Err x -> x = PType \/ x = PValue \/ x = PIndex \/ x = XEngine.
Proof.
  fix IH 1. intros h x H. destruct h as [c|o args|].
  - destruct c; try discriminate H. injection H as <-. auto.
  - cbn [from_type] in H. destruct (from_type o) as [main|y] eqn:E; cbn [rbind] in H; [|injection H as <-; exact (IH o y E)].
    destruct o as [[]| |]; try discriminate H; (destruct args as [[|a r]|]; [injection H as <-; auto| |discriminate H]);
      destruct (from_type a) as [ta|y] eqn:Ea; cbn [rbind rmap] in H; try discriminate H; try (injection H as <-; exact (IH a y Ea)).
    destruct r as [|b r]; [injection H as <-; auto|]. destruct (from_type b) as [tb|y] eqn:Eb; cbn [rbind] in H; [|injection H as <-; exact (IH b y Eb)].
    unfold mk_mapping in H. destruct (_ && _) in H; [injection H as <-; auto|discriminate H].
  - injection H as <-. auto.
Qed.

(** ** Symbols typed by hints *)
(** a class that stands for a scalar type (NoneType aside) *)
Definition scalar_class (c : pyclass) : bool :=
  match c with Pbool | Pbytes | Pdate | Pdatetime | Ptimedelta | Pdecimal | Pfloat | Pint | Pstr | Pfunction => true | _ => false end.
(** a hint and a value for which the member type of the value is exactly the hinted one: no member type is hinted, or it is a scalar class
    and there is a member *)
Inductive simple : hint -> value -> Prop :=
| Si_class c v : simple (Hclass c) v
| Si_bare c v : simple (Halias (Hclass c) None) v
| Si_tuple args v : simple (Halias (Hclass Ptuple) args) v
| Si_list c r x l : scalar_class c = true -> simple (Halias (Hclass Plist) (Some (Hclass c :: r))) (VList (x :: l))
| Si_set c r x l : scalar_class c = true -> simple (Halias (Hclass Pset) (Some (Hclass c :: r))) (VSet (x :: l))
| Si_dict a c r kx l : scalar_class c = true -> simple (Halias (Hclass Pdict) (Some (a :: Hclass c :: r))) (VDict (kx :: l)).

Lemma class_value : forall c x t, scalar_class c = true -> of_class c x -> class_type c = Ok t -> from_value x = Ok t /\ canon t /\ t <> TNull.
Proof. intros c x t K H T. destruct c; try discriminate K; injection T as <-; destruct x; try contradiction; (split; [reflexivity|split; [cbn; auto|discriminate]]). Qed.
Lemma class_members : forall c t x l ts, scalar_class c = true -> class_type c = Ok t -> (forall y, In y (x :: l) -> described (Hclass c) y) ->
  Forall2 (fun a b => from_value a = Ok b) (x :: l) ts -> member_type ts = t.
Proof.
  intros c t x l ts K T D F. assert (A : forall y, In y (x :: l) -> from_value y = Ok t /\ canon t /\ t <> TNull).
  { intros y Hy. specialize (D y Hy). inversion D as [c' v' Oc| | | | | |]; subst. eapply class_value; eassumption. }
  destruct (A x (or_introl eq_refl)) as [_ [Ct Nt]].
  assert (B : forall u, In u ts -> u = t). { intros u Hu. destruct (Forall2_In_r _ _ _ _ _ u F Hu) as [y [Hy E]]. destruct (A y Hy) as [E' _]. rewrite E' in E. injection E as <-. reflexivity. }
  apply member_type_same; [apply Forall_forall; intros u Hu; rewrite (B u Hu); exact Ct| |exact Nt|intros u Hu _; exact (B u Hu)].
  inversion F as [|a b la lb E F']; subst. left. apply B. left. reflexivity.
Qed.
Lemma class_eqb : forall c t, scalar_class c = true -> class_type c = Ok t -> dt_eqb t t = true.
Proof. intros c t K T. destruct c; try discriminate K; injection T as <-; reflexivity. Qed.
(** the types made from hints are nullable all over *)
Lemma hint_simple : forall h t v vt, from_type h = Ok t -> described h v -> simple h v -> from_value v = Ok vt ->
  is_compat vt t = true /\ (is_scalar t = true \/ value_type t = TUndef \/ (dt_eqb (value_type t) (value_type vt) = true /\ nullable_of t = true)).
Proof.
  intros h t v vt T D S F. split; [eapply C62_sound; eassumption|]. destruct S as [c v|c v|args v|c r x l K|c r x l K|a c r kx l K].
  - destruct c; cbn [from_type class_type] in T; try discriminate T; injection T as <-; auto.
  - destruct c; cbn [from_type class_type rbind] in T; try discriminate T; injection T as <-; auto.
  - cbn [from_type class_type rbind] in T. injection T as <-. auto.
  - right. right. cbn [from_type class_type rbind] in T. destruct (class_type c) as [ta|] eqn:E; [|discriminate T]. cbn in T. injection T as <-.
    rewrite from_value_list in F. apply from_value_arr in F as [ts [Ft ->]]. inversion D as [| a0 r0 l0 Dl | | | | |]; subst. split; [|reflexivity].
    cbn [value_type]. rewrite (class_members c ta x l ts K E Dl Ft). exact (class_eqb c ta K E).
  - right. right. cbn [from_type class_type rbind] in T. destruct (class_type c) as [ta|] eqn:E; [|discriminate T]. cbn in T. injection T as <-.
    apply from_value_set in F as [ts [Ft ->]]. inversion D as [| | a0 r0 l0 Dl | | | |]; subst. split; [|reflexivity].
    cbn [value_type]. rewrite (class_members c ta x l ts K E Dl Ft). exact (class_eqb c ta K E).
  - right. right. cbn [from_type class_type rbind] in T. destruct (from_type a) as [ta|] eqn:Ea; [|discriminate T]. cbn [rbind] in T. destruct (class_type c) as [tb|] eqn:E; [|discriminate T]. cbn [rbind] in T.
    unfold mk_mapping in T. destruct (_ && _) in T; [discriminate T|]. injection T as <-. inversion D as [| | | a0 b0 r0 l0 Dk Dl | | |]; subst.
    assert (F' : from_value (VMap (kx :: l)) = Ok vt) by exact F. apply from_value_map in F' as [ks [ts [Fk [Ft ->]]]]. split; [|reflexivity].
    cbn [value_type]. cbn [map] in Ft. rewrite (class_members c tb (snd kx) (map snd l) ts K E); [exact (class_eqb c tb K E)| |exact Ft].
    intros y Hy. change (In y (map snd (kx :: l))) in Hy. apply in_map_iff in Hy as [[k y'] [<- Hy]]. exact (Dl k y' Hy).
Qed.
(** A symbol typed by a hint accepts every value the hint describes, if the hint has no member class or a scalar one and the value a member. *)
Theorem C62_symbol : forall (Orc : Oracle) C thing w name bi q r q1 v h t, from_type h = Ok t -> described h r -> simple h r ->
  keys_apart r -> (exists vt, from_value r = Ok vt) -> run w (resolve C thing name bi) q = (Ok r, q1) -> new_value (c_tz C) false r = Ok v ->
  yields C thing w q (ESym name bi t) v q1.
Proof.
  intros Orc C thing w name bi q r q1 v h t T D S K [vt F] R N. apply (C14_conforming_is_delivered Orc C thing w name bi t q r q1 v R N).
  right. right. exists vt. unfold new_value in N. destruct (coerce false r) as [v1|] eqn:E; [|discriminate N]. cbn [rmap] in N. injection N as <-.
  assert (F1 : from_value v1 = Ok vt) by (rewrite (coerce_type r v1 K E); exact F).
  assert (F2 : from_value (set_tz (c_tz C) v1) = Ok vt) by (destruct v1; try exact F1; destruct tz; exact F1).
  split; [exact F2|]. destruct (hint_simple h t r vt T D S F) as [A [B|[B|[B B']]]]; (split; [exact A|]); [left|right; left|right; right; split; [|left]]; assumption.
Qed.
(** Not without the restriction: list[int] rejects the empty list, list[list[int]] a list of an empty list, list[None] the list of a None. *)
Definition h_list (a : hint) : hint := Halias (Hclass Plist) (Some [a]).
Theorem C62_symbol_refuted : exists h1 h2 h3 v1 v2 v3 t1 t2 t3, from_type h1 = Ok t1 /\ from_type h2 = Ok t2 /\ from_type h3 = Ok t3 /\
  described h1 v1 /\ described h2 v2 /\ described h3 v3 /\ forall n, sym_check n t1 v1 = Err (XSymType n) /\ sym_check n t2 v2 = Err (XSymType n) /\ sym_check n t3 v3 = Err (XSymType n).
Proof.
  exists (h_list (Hclass Pint)), (h_list (h_list (Hclass Pint))), (h_list (Hclass Pnone)), (VList []), (VList [VList []]), (VList [VNull]). do 3 eexists.
  split; [reflexivity|]. split; [reflexivity|]. split; [reflexivity|].
  split; [constructor; intros x []|]. split; [constructor; intros x [<-|[]]; constructor; intros x []|]. split; [constructor; intros x [<-|[]]; constructor; exact I|].
  intro n. split; [reflexivity|]. split; reflexivity.
Qed.
(** A bool is an int to Python and to [isinstance], but a symbol hinted int rejects it. *)
Theorem C62_bool_is_no_number : forall n b, exists t, from_type (Hclass Pint) = Ok t /\ sym_check n t (VBool b) = Err (XSymType n).
Proof. intros n b. exists TFloat. split; reflexivity. Qed.

(** ** Names *)
(** The name of a type names a type it is compatible with: the type itself if it is a scalar, else the one with members (result) unknown. *)
Theorem C62_own_name : forall t, exists u, from_name (type_name t) = Ok u /\ is_compat t u = true /\ type_name u = type_name t /\
  (match t with TArray _ _ | TSet _ _ | TMap _ _ _ | TFun _ _ _ _ => True | _ => u = t end).
Proof.
  intro t. destruct t; (eexists; split; [vm_compute; reflexivity|]; split; [|split; [reflexivity|exact I || reflexivity]]); try reflexivity; cbn [is_compat]; rewrite ?is_compat_undef_r; try reflexivity; destruct args, minargs; reflexivity.
Qed.
(** A name finds the type of that name; the two ways of asking differ in the exception only. *)
Theorem C62_names : forall n, (forall t, from_name n = Ok t -> type_name t = n /\ from_key n = Ok t) /\
  (forall x, from_name n = Err x -> x = PValue /\ from_key n = Err PKey /\ forall t, type_name t <> n).
Proof.
  intro n. unfold from_name, from_key. destruct (assoc n members) as [t|] eqn:E.
  - split; [|discriminate]. intros t' H. injection H as <-. split; [|reflexivity]. apply assoc_In in E. cbn [members In] in E.
    repeat destruct E as [E|E]; try contradiction; injection E as <- <-; reflexivity.
  - split; [discriminate|]. intros x H. injection H as <-. split; [reflexivity|]. split; [reflexivity|]. intros t <-. destruct t; discriminate E.
Qed.

(** ** Concrete case: dict[str, list[int]], with a value; Annotated[list[int], ...]; typing.Dict; dict[set, int] is an error *)
Definition h_dict (a b : hint) : hint := Halias (Hclass Pdict) (Some [a; b]).
Definition h_demo : hint := h_dict (Hclass Pstr) (h_list (Hclass Pint)).
Definition v_demo : value := VDict [(VStr (s "a"), VList [VInt 1; VInt 2]); (VStr (s "b"), VList [])].
Lemma v_demo_described : described h_demo v_demo.
Proof.
  constructor; intros k x [H|[H|[]]]; injection H as <- <-; constructor; try exact I; [intros y [<-|[<-|[]]]; constructor; exact I|intros y []].
Qed.
Theorem C62_example : from_type h_demo = Ok (TMap TString (TArray TFloat true) true) /\ described h_demo v_demo /\
  (exists vt, from_value v_demo = Ok vt /\ is_compat vt (TMap TString (TArray TFloat true) true) = true) /\
  from_type (Halias (h_list (Hclass Pint)) (Some [h_list (Hclass Pint)])) = Ok (TArray TFloat true) /\
  from_type (Halias (Hclass Pdict) None) = Ok t_mapping /\ from_type (h_dict (Hclass Pset) (Hclass Pint)) = Err XEngine /\
  from_type (Hclass (Pclass 0)) = Err PValue /\ from_type (h_list Hother) = Err PType.
Proof.
  split; [reflexivity|]. split; [exact v_demo_described|]. split; [eexists; split; [vm_compute; reflexivity|reflexivity]|]. repeat split.
Qed.
(** a list of ints for a symbol hinted list[int] *)
Theorem C62_symbol_example : forall Orc : Oracle, simple (h_list (Hclass Pint)) (VList [VInt 1; VInt 2]) /\ described (h_list (Hclass Pint)) (VList [VInt 1; VInt 2]) /\
  keys_apart (VList [VInt 1; VInt 2]) /\ exists vt, from_value (VList [VInt 1; VInt 2]) = Ok vt.
Proof.
  intro Orc. split; [constructor; reflexivity|]. split; [constructor; intros x [<-|[<-|[]]]; constructor; exact I|].
  split; [constructor; intros x [<-|[<-|[]]]; constructor; exact I|]. eexists. reflexivity.
Qed.
Print Assumptions C62_symbol.
Print Assumptions C62_names.
Print Assumptions C62_own_name.
Print Assumptions C62_errors.
