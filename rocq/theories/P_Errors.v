(** * C43: which exceptions an evaluation can raise *)
From Coq Require Import List ZArith Lia Bool String.
From Verif Require Import Base Dec Value EqFacts DType DTypeFacts Types TypesFacts CoerceFacts Ops ParseUtil Attr Prog Ast Eval Build Engine
  ProgFacts StateFacts Post Fits DecFacts Demo P_Ops P_Aware P_Names P_Sound.
Import ListNotations.
Open Scope list_scope.
Open Scope Z_scope.

(** ** Specification *)

(** An operand whose static type is unknown may be of any type. *)
Definition maybe (t g : dtype) : Prop := t = TUndef \/ t = g.
Definition maybe_time (t : dtype) : Prop := t = TUndef \/ t = TDatetime \/ t = TTimedelta.

(** an attribute of a value of that static type *)
Definition known_attr {Orc : Oracle} (t : dtype) (n : str) : bool :=
  negb (is_undef t) && match resolve_attr_type t n with Ok _ => true | Err _ => false end.

(** expressions that cannot be null, whatever the symbols are *)
Fixpoint solid {Orc : Oracle} (e : expr) : bool :=
  match e with
  | ELit VNull => false
  | ELit _ | EFun _ _ | EArr _ | ESet _ | EMap _ | EBin _ _ _ | EComp _ _ _ _ | EIn _ _ | EUn _ _ => true
  | ESlice c _ _ _ => solid c
  | ETern _ a b => solid a && solid b
  | EAttr o n sf => known_attr (rtype o) n && negb (str_eqb n (s "zone_name")) && (solid o || negb sf)
  | _ => false
  end.

(** types all of whose values are hashable *)
Fixpoint hash_safe (t : dtype) : bool :=
  match t with
  | TUndef | TSet _ _ | TMap _ _ _ => false
  | TArray m _ => hash_safe m
  | _ => true
  end.

(** what ordering two values of a type can raise *)
Inductive ord_leak : dtype -> exn -> Prop :=
| ol_any_type : ord_leak TUndef PType
| ol_any_nan : ord_leak TUndef PInvalidOp
| ol_num : ord_leak TFloat PInvalidOp                                            (* nan *)
| ol_fun : forall n r a m, ord_leak (TFun n r a m) PType
| ol_map : forall k v n, ord_leak (TMap k v n) PType
| ol_arr : forall m n x, ord_leak m x -> ord_leak (TArray m n) x
| ol_arr_dt : forall n, ord_leak (TArray TDatetime n) PType.                     (* naive and aware members *)

Definition fine_container {Orc : Oracle} (c m : expr) : Prop :=
  solid c = true /\
  match rtype c with
  | TString | TBytes | TArray _ _ => True
  | TSet _ _ | TMap _ _ _ => hash_safe (rtype m) = true
  | _ => False
  end.

(** keys of mapping literals: sets and mappings are refused with an EngineError *)
Definition key_safe (t : dtype) : bool := match t with TSet _ _ | TMap _ _ _ => true | _ => hash_safe t end.

(** Calls that cannot return a value of an unsupported type: the builtin functions, except map (which returns what the given
    function returns) and random, and the methods of strings, bytes and arrays. *)
Definition own_call {Orc : Oracle} (C : ctx) (f : expr) : Prop :=
  match f with
  | ESym name true _ => match assoc name (c_bvals C) with
                        | Some (BVconst (VBFun g)) => g <> BFmap /\ g <> BFrandom
                        | _ => False
                        end
  | EAttr o n _ => known_attr (rtype o) n = true
  | _ => False
  end.

(** [leaks C e x]: the operation at the root of [e] can raise the exception [x], which is not an EngineError.  This is the complete
    list (C43_characterisation_partial); in every other case operators raise EngineErrors only. *)
Inductive leaks {Orc : Oracle} (C : ctx) : expr -> exn -> Prop :=
| lk_add_str : forall a b, maybe (rtype a) TString -> ~ (solid b = true /\ rtype b = TString) -> leaks C (EBin BAdd a b) PType
| lk_add_bytes : forall a b, maybe (rtype a) TBytes -> ~ (solid b = true /\ rtype b = TBytes) -> leaks C (EBin BAdd a b) PType
| lk_add_time : forall a b, maybe_time (rtype a) -> maybe_time (rtype b) -> leaks C (EBin BAdd a b) POverflow
| lk_add_num : forall a b x, maybe (rtype a) TFloat -> maybe (rtype b) TFloat -> x = PInvalidOp \/ x = PDecOverflow -> leaks C (EBin BAdd a b) x
| lk_sub_time : forall a b, maybe_time (rtype a) -> maybe_time (rtype b) -> leaks C (EBin BSub a b) POverflow
| lk_sub_num : forall a b x, maybe (rtype a) TFloat -> maybe (rtype b) TFloat -> x = PInvalidOp \/ x = PDecOverflow -> leaks C (EBin BSub a b) x
| lk_neg_num : forall a, maybe (rtype a) TFloat -> leaks C (EUn UMinus a) PDecOverflow
| lk_neg_time : forall a, maybe (rtype a) TTimedelta -> leaks C (EUn UMinus a) POverflow
| lk_ord : forall o a b x, ord_leak (rtype a) x -> ord_leak (rtype b) x -> leaks C (EBin (BCmp o) a b) x
| lk_shift : forall o a b, o = BShl \/ o = BShr -> rtype a = TUndef \/ (exists m n, rtype a = TSet m n) -> leaks C (EBin (BBit o) a b) PType
| lk_set : forall e l, In e l -> hash_safe (rtype e) = false -> leaks C (ESet l) PType
| lk_key : forall k v l, In (k, v) l -> key_safe (rtype k) = false -> leaks C (EMap l) PType
| lk_in : forall c m, ~ fine_container c m -> leaks C (EIn c m) PType
| lk_item : forall c i sf, match rtype c with
                           | TString | TBytes | TArray _ _ | TNull => False
                           | TMap _ _ _ => hash_safe (rtype i) = false
                           | _ => True
                           end -> leaks C (EItem c i sf) PType
| lk_slice : forall c a b sf, match rtype c with TString | TBytes | TArray _ _ | TNull => False | _ => True end -> leaks C (ESlice c a b sf) PType
| lk_attr_number : forall o n sf x, maybe (rtype o) TString -> n = s "to_flt" \/ n = s "to_int" -> x = PInvalidOp \/ x = PSyntax -> leaks C (EAttr o n sf) x
| lk_attr_int : forall o n sf, maybe (rtype o) TString -> n = s "to_int" -> leaks C (EAttr o n sf) POverflow
| lk_attr_set : forall o sf, rtype o = TUndef \/ (exists m nb, rtype o = TArray m nb /\ hash_safe m = false) -> leaks C (EAttr o (s "to_set") sf) PType
| lk_call : forall f l, ~ own_call C f -> leaks C (ECall f l) PType.               (* the function returned an unsupported value *)

(** The resolver raised it: looking up a symbol in the thing, or the name after a dot in a value, which is null if the static type of
    that value has an attribute of that name.  Or the generator of a builtin symbol raised it. *)
Definition resolver_raises {Orc : Oracle} (C : ctx) (w : world) (thing : value) (e : expr) (x : exn) : Prop :=
  (exists l n, w_resolve w l thing n = Err x) \/
  (exists l v o n sf, part (EAttr o n sf) e /\ (known_attr (rtype o) n = true -> v = VNull) /\ w_resolve w l v n = Err x) \/
  (exists l n t g, part (ESym n true t) e /\ assoc n (c_bvals C) = Some (BVgen g) /\ w_user w l g [] = Err x).

Definition accounted {Orc : Oracle} (C : ctx) (w : world) (thing : value) (e : expr) (x : exn) : Prop :=
  is_engine x = true \/ resolver_raises C w thing e x \/ exists e', part e' e /\ leaks C e' x.

(** ** Values *)
Section Values.
Context {Orc : Oracle}.

Lemma settled_type : forall v, settled v -> exists t, from_value v = Ok t.
Proof. intros v S. apply (from_value_supported v (settled_py_ok _ S)). apply settled_supported. exact S. Qed.

Lemma hash_safe_ok : forall t v, hash_safe t = true -> settled v -> fits t v -> hashable v = true.
Proof.
  induction t as [| | | | | | | |m nb IH|m nb IH|k m nb IHk IHm|nm r a mn IHr IHa] using dtype_ind'; intros v H S F; try discriminate H; fcases F; subst; try reflexivity.
  - cbn [hashable]. apply forallb_forall. intros x Hx. inversion S; subst; [contradiction|]. apply IH; [exact H| |]; auto.
  - inversion S; contradiction.
  - destruct v; try discriminate F; reflexivity.
Qed.

(** ordering *)
Definition ord_leak2 (t : dtype) (x : exn) : Prop := ord_leak t x \/ (t = TDatetime /\ x = PType).
Lemma ord_leak2_arr : forall m n x, ord_leak2 m x -> ord_leak (TArray m n) x.
Proof. intros m n x [H|[-> ->]]; constructor; assumption. Qed.

Lemma cmp_ne_err : forall l r x, cmp_values ANe l r = Err x -> x = XEval.
Proof.
  induction l as [|b|d|z|f|t|b|w tz|d|u|l IH|l IH|l|l IH|l IH|l IH|n|f|m v IH|n] using value_ind'; intros r x H;
    try (destruct r; cbn [cmp_values] in H; try discriminate H; destruct (pytag_eqb _ _) in H; cbn [aop_native] in H; congruence).
  destruct r as [|b|d|z|f|t|b|w tz|d|u|l2|l2|l2|l2|l2|l2|n|f|m v|n]; try (cbn [cmp_values] in H; destruct (pytag_eqb _ _) in H; cbn [aop_native] in H; congruence).
  cbn [cmp_values] in H. revert H. generalize (Z.of_nat (length l)) (Z.of_nat (length l2)). intros n m. revert l2.
  induction l as [|y l IHl]; intros l2 H; [destruct (n =? m); cbn in H; discriminate H|].
  destruct l2 as [|y2 l2]; [destruct (n =? m); cbn in H; discriminate H|].
  inversion IH as [|? ? H1 H2]; subst. destruct (cmp_values ANe y y2) as [ne|e] eqn:E; cbn [rbind] in H.
  - destruct ne; [eapply H1; rewrite E; exact H|]. eapply IHl; eauto.
  - inversion H; subst. eapply H1. exact E.
Qed.


Definition kind_leak (v : value) (x : exn) : Prop :=
  match v with
  | VDec _ => x = PInvalidOp
  | VDt _ _ | VMap _ | VFun _ | VBFun _ | VMeth _ _ => x = PType
  | _ => False
  end.
Lemma kind_leaks : forall t v x, fits t v -> kind_leak v x -> ord_leak2 t x.
Proof.
  intros t v x F K. destruct t; try (fcases F; subst; cbn in K; try contradiction; subst).
  all: try (left; constructor).
  - destruct v; cbn in K; try contradiction; subst; left; constructor.
  - right. auto.
  - destruct v; try discriminate F; cbn in K; subst; left; constructor.
Qed.
Lemma leaf_err : forall o l r x, settled l -> settled r -> pytag_eqb (pytag_of l) (pytag_of r) = true -> py_ord o l r = Err x ->
  match l with VArr _ | VNull => False | _ => True end -> kind_leak l x /\ kind_leak r x.
Proof.
  intros o l r x Sl Sr T H N.
  destruct l; try contradiction; try (inversion Sl; contradiction); destruct r; try (inversion Sr; contradiction); try discriminate T;
    try (match goal with f : bfun |- _ => destruct f; discriminate T end); cbn [py_ord kind_leak] in *;
    try discriminate H; try (injection H as <-; auto).
  - cbn [num_x is_dec orb] in H. destruct (xcmp _ _) in H; [discriminate H|]. injection H as <-. auto.
  - destruct (dtm_cmp _ _ _ _); [discriminate H|]. injection H as <-. auto.
Qed.

Lemma int_ord_ok : forall o n m x (P : Prop), aop_native o (VInt n) (VInt m) = Err x -> P.
Proof. intros o n m x P H. destruct o; cbn in H; discriminate H. Qed.

Lemma cmp_err : forall l o r t u x, settled l -> settled r -> fits t l -> fits u r -> cmp_values (AOrd o) l r = Err x ->
  x = XEval \/ (ord_leak2 t x /\ ord_leak2 u x).
Proof.
  induction l as [|b|d|z|f|c|b|w tz|d|k|l IH|l IH|l|l IH|l IH|l IH|n|f|m v IH|n] using value_ind'; intros o r t u x Sl Sr Fl Fr H.
  11:{ destruct r as [|b|d|z|f|c|b|w tz|d|k|l2|l2|l2|l2|l2|l2|n|f|m v|n];
         try (cbn [cmp_values] in H; change (pytag_eqb _ _) with false in H; left; cbv iota in H; congruence).
       2:{ left. destruct f; cbn in H; congruence. }
       assert (Ml : forall y, In y l -> settled y) by (inversion Sl; subst; [contradiction|assumption]).
       assert (Mr : forall y, In y l2 -> settled y) by (inversion Sr; subst; [contradiction|assumption]).
       assert (Xl : exists t', (forall y, In y l -> fits t' y) /\ forall x, ord_leak2 t' x -> ord_leak2 t x).
       { destruct t; fcases Fl; subst.
         - exists TUndef. split; [intros; apply fits_undef|]. auto.
         - injection Fl as <-. exists t. split; [assumption|]. intros x0 K. left. apply ord_leak2_arr. exact K. }
       assert (Xr : exists t', (forall y, In y l2 -> fits t' y) /\ forall x, ord_leak2 t' x -> ord_leak2 u x).
       { destruct u; fcases Fr; subst.
         - exists TUndef. split; [intros; apply fits_undef|]. auto.
         - injection Fr as <-. exists u. split; [assumption|]. intros x0 K. left. apply ord_leak2_arr. exact K. }
       destruct Xl as [t' [Gl Kl]]. destruct Xr as [u' [Gr Kr]].
       assert (K : x = XEval \/ ord_leak2 t' x /\ ord_leak2 u' x); [|destruct K as [K|[K1 K2]]; auto].
       cbn [cmp_values] in H. revert H. generalize (Z.of_nat (length l)) (Z.of_nat (length l2)). intros n m. clear Sl Sr Fl Fr Kl Kr.
       revert l2 Mr Gr. induction l as [|y l IHl]; intros l2 Mr Gr H.
       - destruct (n =? m); [discriminate H|]. exact (int_ord_ok _ _ _ _ _ H).
       - destruct l2 as [|y2 l2]; [destruct (n =? m); [discriminate H|]; exact (int_ord_ok _ _ _ _ _ H)|].
         inversion IH as [|? ? H1 H2]; subst. destruct (cmp_values ANe y y2) as [ne|e] eqn:E; cbn [rbind] in H.
         + destruct ne.
           * eapply (H1 o y2 t' u'); [apply Ml; left; reflexivity|apply Mr; left; reflexivity|apply Gl; left; reflexivity|apply Gr; left; reflexivity|exact H].
           * eapply (IHl H2); [intros; apply Ml; right; assumption|intros; apply Gl; right; assumption|intros; apply Mr; right; eassumption|intros; apply Gr; right; eassumption|exact H].
         + inversion H; subst. left. eapply cmp_ne_err. exact E. }
  all: try (inversion Sl; contradiction).
  all: destruct r as [|b'|d'|z'|f'|c'|b'|w' tz'|d'|k'|l2|l2|l2|l2|l2|l2|n'|f'|m' v'|n']; try (inversion Sr; contradiction);
    try (cbn [cmp_values aop_reflexive] in H; discriminate H);
    match type of H with cmp_values ?o ?l ?r = _ => change (cmp_values o l r) with (if pytag_eqb (pytag_of l) (pytag_of r) then aop_native o l r else Err XEval) in H end;
    (destruct (pytag_eqb _ _) eqn:T in H; [|left; congruence]); cbn [aop_native] in H;
    try discriminate T; try (destruct f'; discriminate T);
    (destruct (leaf_err _ _ _ _ Sl Sr T H I) as [K1 K2]; right; split; eapply kind_leaks; eassumption).
Qed.

(** operators on settled values *)
Lemma dfix_err : forall dc n c e x, dfix dc n c e = Err x -> x = PDecOverflow.
Proof.
  intros dc n c e x H. unfold dfix in H. cbv zeta in H.
  repeat match type of H with
         | (if ?b then _ else _) = _ => destruct b; try discriminate H
         | (let '(_, _) := ?p in _) = _ => destruct p
         end; congruence.
Qed.
Lemma dadd_err : forall dc a b x, dadd dc a b = Err x -> x = PInvalidOp \/ x = PDecOverflow.
Proof.
  intros dc a b x H. destruct a as [n1 c1 e1|n1|], b as [n2 c2 e2|n2|]; cbn [dadd] in H; try discriminate H.
  - cbv zeta in H. right. destruct (_ =? 0) in H; apply dfix_err in H; exact H.
  - destruct (Bool.eqb n1 n2); [discriminate H|]. left. congruence.
Qed.
Lemma dneg_err : forall dc a x, dneg dc a = Err x -> x = PDecOverflow.
Proof. intros dc a x H. destruct a; cbn [dneg] in H; try discriminate H. destruct (_ && _) in H; apply dfix_err in H; exact H. Qed.
Lemma mk_td_err : forall u x, mk_td u = Err x -> x = POverflow.
Proof. intros u x H. unfold mk_td in H. destruct (td_ok u); congruence. Qed.
Lemma mk_dt_err : forall u z x, mk_dt u z = Err x -> x = POverflow.
Proof. intros u z x H. unfold mk_dt in H. destruct (_ && _) in H; congruence. Qed.
Lemma rdec_err : forall r x, rdec r = Err x -> r = Err x.
Proof. intros r x H. destruct r; cbn in H; congruence. Qed.

Lemma maybe_num : forall t d, fits t (VDec d) -> maybe t TFloat.
Proof. intros t d F. destruct t; fcases F; [left|right]; reflexivity. Qed.
Lemma maybe_str : forall t d, fits t (VStr d) -> maybe t TString.
Proof. intros t d F. destruct t; fcases F; [left|right]; reflexivity. Qed.
Lemma maybe_bytes : forall t d, fits t (VBytes d) -> maybe t TBytes.
Proof. intros t d F. destruct t; fcases F; [left|right]; reflexivity. Qed.
Lemma maybe_td : forall t d, fits t (VTd d) -> maybe t TTimedelta.
Proof. intros t d F. destruct t; fcases F; [left|right]; reflexivity. Qed.
Lemma maybe_td2 : forall t d, fits t (VTd d) -> maybe_time t.
Proof. intros t d F. destruct t; fcases F; [left|right;right]; reflexivity. Qed.
Lemma maybe_dt2 : forall t d z, fits t (VDt d z) -> maybe_time t.
Proof. intros t d z F. destruct t; fcases F; [left|right;left]; reflexivity. Qed.

Lemma add_err : forall dc t u x y e, settled x -> settled y -> fits t x -> fits u y -> op_add dc x y = Err e ->
  e = XEval \/
  (e = PType /\ maybe t TString /\ match y with VStr _ => False | _ => True end) \/
  (e = PType /\ maybe t TBytes /\ match y with VBytes _ => False | _ => True end) \/
  (e = POverflow /\ maybe_time t /\ maybe_time u) \/
  ((e = PInvalidOp \/ e = PDecOverflow) /\ maybe t TFloat /\ maybe u TFloat).
Proof.
  intros dc t u x y e Sx Sy Fx Fy H.
  destruct x; try (inversion Sx; contradiction); cbn [op_add] in H; try (destruct y; cbn [is_bytes is_str orb is_numeric andb] in H; left; congruence).
  - destruct y; try (inversion Sy; contradiction); cbn [is_bytes is_str orb is_numeric andb as_dec] in H; try (left; congruence).
    apply rdec_err, dadd_err in H. right; right; right; right. split; [exact H|]. split; eapply maybe_num; eassumption.
  - destruct y; cbn [is_bytes] in H; try discriminate H; try (left; congruence);
      right; left; (split; [congruence|]; split; [eapply maybe_str; eassumption|exact I]).
  - destruct y; try discriminate H; right; right; left; (split; [congruence|]; split; [eapply maybe_bytes; eassumption|exact I]).
  - destruct y; try (left; congruence). apply mk_dt_err in H. right; right; right; left. split; [exact H|]. split; [eapply maybe_dt2|eapply maybe_td2]; eassumption.
  - destruct y; try (left; congruence); [apply mk_dt_err in H|apply mk_td_err in H]; right; right; right; left; (split; [exact H|]);
      (split; [eapply maybe_td2; eassumption|]); [eapply maybe_dt2|eapply maybe_td2]; eassumption.
Qed.

Lemma sub_err : forall dc t u x y e, settled x -> settled y -> ~ naive x -> ~ naive y -> fits t x -> fits u y -> op_sub dc x y = Err e ->
  e = XEval \/ (e = POverflow /\ maybe_time t /\ maybe_time u) \/ ((e = PInvalidOp \/ e = PDecOverflow) /\ maybe t TFloat /\ maybe u TFloat).
Proof.
  intros dc t u x y e Sx Sy Ax Ay Fx Fy H.
  destruct x; try (inversion Sx; contradiction); cbn [op_sub] in H; try (destruct y; cbn [is_numeric andb] in H; left; congruence).
  - destruct y; try (inversion Sy; contradiction); cbn [is_numeric andb as_dec] in H; try (left; congruence).
    unfold dsub in H. apply rdec_err, dadd_err in H. right; right. split; [exact H|]. split; eapply maybe_num; eassumption.
  - destruct y; try (left; congruence).
    + right; left. destruct tz as [z|]; [|exfalso; apply Ax; exact I]. destruct tz0 as [z0|]; [|exfalso; apply Ay; exact I]. apply mk_td_err in H.
      split; [exact H|]. split; eapply maybe_dt2; eassumption.
    + apply mk_dt_err in H. right; left. split; [exact H|]. split; [eapply maybe_dt2|eapply maybe_td2]; eassumption.
  - destruct y; try (left; congruence). apply mk_td_err in H. right; left. split; [exact H|]. split; eapply maybe_td2; eassumption.
Qed.

Lemma neg_err : forall dc t x e, settled x -> fits t x -> op_neg dc x = Err e ->
  e = XEval \/ (e = PDecOverflow /\ maybe t TFloat) \/ (e = POverflow /\ maybe t TTimedelta).
Proof.
  intros dc t x e Sx Fx H. destruct x; try (inversion Sx; contradiction); cbn [op_neg is_numeric as_dec] in H; try (left; congruence).
  - apply rdec_err, dneg_err in H. right; left. split; [exact H|eapply maybe_num; eassumption].
  - apply mk_td_err in H. right; right. split; [exact H|eapply maybe_td; eassumption].
Qed.

Lemma ord_err : forall o t u x y e, settled x -> settled y -> ~ naive x -> ~ naive y -> fits t x -> fits u y -> op_ord o x y = Err e ->
  e = XEval \/ (ord_leak t e /\ ord_leak u e).
Proof.
  intros o t u x y e Sx Sy Ax Ay Fx Fy H. destruct (cmp_err x o y t u e Sx Sy Fx Fy H) as [K|[K1 K2]]; [left; exact K|].
  assert (M : forall v1 v2, ~ naive v1 -> ~ naive v2 -> cmp_values (AOrd o) v1 v2 = Err e -> match v1, v2 with VDt _ _, _ | _, VDt _ _ | VNull, _ | _, VNull => e = XEval | _, _ => True end).
  { intros v1 v2 A1 A2 E. destruct v1, v2; try exact I; try (cbn in E; congruence); try (destruct f; cbn in E; congruence).
    destruct tz as [z|]; [|exfalso; apply A1; exact I]. destruct tz0 as [z0|]; [|exfalso; apply A2; exact I]. cbn in E. destruct (N.eqb z z0) in E; discriminate E. }
  specialize (M x y Ax Ay H).
  destruct K1 as [K1|[-> ->]].
  - destruct K2 as [K2|[-> ->]]; [right; auto|]. left. fcases Fy; subst; try (inversion Sy; contradiction); destruct x; exact M.
  - left. fcases Fx; subst; try (inversion Sx; contradiction); destruct y; exact M.
Qed.

Lemma hash_item : forall t k, settled k -> fits t k -> hashable k = false -> hash_safe t = false.
Proof. intros t k S F H. destruct (hash_safe t) eqn:E; [|reflexivity]. rewrite (hash_safe_ok t k E S F) in H. discriminate H. Qed.
Lemma key_err : forall t k x, settled k -> fits t k -> map_key k = Err x -> x = XEngine \/ (x = PType /\ key_safe t = false).
Proof.
  intros t k x S F H. unfold map_key in H. destruct (settled_type k S) as [vt E]. rewrite E in H. cbn [rbind] in H. destruct (is_compound vt && negb (is_array_t vt)) eqn:K; [left; congruence|].
  destruct (hashable k) eqn:Hh; [discriminate H|]. right. split; [congruence|]. unfold key_safe. destruct t; try (eapply hash_item; eassumption); exfalso.
  - fcases F; subst; [discriminate Hh|]. apply from_value_set in E as [ts [_ ->]]. discriminate K.
  - fcases F; subst; [discriminate Hh| |inversion S; contradiction]. apply from_value_map in E as [ks [ts [_ [_ ->]]]]. discriminate K.
Qed.

Lemma settled_integer : forall v, settled v -> exists b, is_integer_number v = Ok b.
Proof. intros v S. destruct v; try (inversion S; contradiction); try (eexists; reflexivity). apply integer_number_total. Qed.
Lemma settled_natural : forall v, settled v -> exists b, is_natural_number v = Ok b.
Proof. intros v S. destruct v; try (inversion S; contradiction); try (eexists; reflexivity). apply natural_number_total. Qed.
Lemma assert_natural_err : forall v x, settled v -> assert_natural v = Err x -> x = XEval.
Proof. intros v x S H. unfold assert_natural in H. destruct (settled_natural v S) as [b E]. rewrite E in H. cbn in H. destruct b; congruence. Qed.
Lemma assert_integer_err : forall v x, settled v -> assert_integer v = Err x -> x = XEval.
Proof. intros v x S H. unfold assert_integer in H. destruct (settled_integer v S) as [b E]. rewrite E in H. cbn in H. destruct b; congruence. Qed.
Lemma opt_index_err : forall v x, settled v -> opt_index v = Err x -> x = XEval.
Proof.
  intros v x S H. unfold opt_index in H. destruct v; try discriminate H; (match type of H with rbind (assert_integer ?v) _ = _ => destruct (assert_integer v) eqn:E; cbn [rbind] in H; [discriminate H|] end);
  apply (assert_integer_err _ _ S) in E; congruence.
Qed.

Lemma bit_set_err : forall o t x y e, settled y -> fits t x -> (exists l, x = VSet l) -> op_bit_set o x y = Err e ->
  e = XEval \/ (e = PType /\ (o = BShl \/ o = BShr) /\ (t = TUndef \/ exists m n, t = TSet m n)).
Proof.
  intros o t x y e Sy Fx [l ->] H. unfold op_bit_set in H. destruct (settled_type y Sy) as [ty E]. rewrite E in H. cbn [rbind] in H.
  destruct (is_compat ty t_set) eqn:K; [|left; congruence]. right.
  assert (exists l2, y = VSet l2) as [l2 ->].
  { destruct ty; try discriminate K; [exfalso; exact (from_value_not_undef _ E)|]. destruct y; try (inversion Sy; contradiction); try discriminate E; eauto.
    - apply from_value_arr in E as [ts [_ E]]. discriminate E.
    - apply from_value_map in E as [ks [ts [_ [_ E]]]]. discriminate E.
    }
  assert (T : t = TUndef \/ exists m n, t = TSet m n) by (destruct t; fcases Fx; eauto).
  destruct o; cbn in H; try discriminate H; split; (congruence || auto).
Qed.

Lemma type_string : forall m, settled m -> from_value m = Ok TString -> exists z, m = VStr z.
Proof.
  intros m S E. destruct m; try (inversion S; contradiction); try discriminate E; eauto.
  - apply from_value_arr in E as [ts [_ E]]. discriminate E.
  - apply from_value_set in E as [ts [_ E]]. discriminate E.
  - apply from_value_map in E as [ks [ts [_ [_ E]]]]. discriminate E.
Qed.
Lemma type_bytes : forall m, settled m -> from_value m = Ok TBytes -> exists z, m = VBytes z.
Proof.
  intros m S E. destruct m; try (inversion S; contradiction); try discriminate E; eauto.
  - apply from_value_arr in E as [ts [_ E]]. discriminate E.
  - apply from_value_set in E as [ts [_ E]]. discriminate E.
  - apply from_value_map in E as [ks [ts [_ [_ E]]]]. discriminate E.
Qed.

Lemma in_err : forall c m t u e, settled c -> settled m -> fits t c -> fits u m -> op_in c m = Err e ->
  e = XEval \/ (e = PType /\ match t with
                             | TString | TBytes | TArray _ _ => c = VNull
                             | TSet _ _ | TMap _ _ _ => c = VNull \/ hash_safe u = false
                             | _ => True
                             end).
Proof.
  intros c m t u e Sc Sm Fc Fm H. unfold op_in in H. destruct (settled_type c Sc) as [tc Ec]. destruct (settled_type m Sm) as [tm Em]. rewrite Ec in H. cbn [rbind] in H.
  destruct (dt_eqb tc TBytes || dt_eqb tc TString) eqn:D.
  - left. rewrite Em in H. cbn [rbind] in H. destruct (dt_eqb tm tc) eqn:E; [|congruence]. exfalso.
    destruct tc; try discriminate D; destruct tm; try discriminate E;
      [destruct (type_bytes c Sc Ec) as [z ->]; destruct (type_bytes m Sm Em) as [z' ->]|destruct (type_string c Sc Ec) as [z ->]; destruct (type_string m Sm Em) as [z' ->]]; discriminate H.
  - right. assert (P : e = PType). { destruct c; cbn in H; try congruence; destruct m; try congruence; cbn [hashable] in H; try congruence; destruct (_ : bool) in H; congruence. }
    split; [exact P|]. assert (Hh : match c with VSet _ | VMap _ => hashable m = false | VArr _ | VStr _ | VBytes _ => False | _ => True end).
    { destruct c; try exact I; cbn [py_in] in H.
      - cbn in Ec. injection Ec as <-. discriminate D.
      - cbn in Ec. injection Ec as <-. discriminate D.
      - discriminate H.
      - destruct m; try (cbn [hashable] in H |- *; congruence); destruct (hashable _) eqn:E in H; congruence.
      - destruct (hashable m); congruence. }
    destruct t; try exact I; fcases Fc; subst; try (inversion Sc; contradiction); auto; right; eapply hash_item; eassumption.
Qed.

Lemma item_err : forall x k t u e, settled x -> settled k -> fits t x -> fits u k -> x <> VNull -> py_getitem x k = Err e ->
  e = XLookup \/ (e = PType /\ match t with TString | TBytes | TArray _ _ | TNull => False | TMap _ _ _ => hash_safe u = false | _ => True end).
Proof.
  intros x k t u e Sx Sk Fx Fk N H. destruct x; try (inversion Sx; contradiction); try contradiction; cbn [py_getitem] in H;
    try (right; split; [congruence|]; destruct t; try exact I; fcases Fx; fail);
    try (destruct (seq_get _ _) in H; [discriminate H|left; congruence]).
  destruct (hashable k) eqn:Hh; [destruct (dict_get _ _) in H; [discriminate H|left; congruence]|]. right. split; [congruence|].
  destruct t; try exact I; fcases Fx. eapply hash_item; eassumption.
Qed.
Lemma slice_err : forall x i j t e, settled x -> fits t x -> x <> VNull -> py_getslice x i j = Err e ->
  e = PType /\ match t with TString | TBytes | TArray _ _ | TNull => False | _ => True end.
Proof.
  intros x i j t e Sx Fx N H. destruct x; try (inversion Sx; contradiction); try contradiction; cbn [py_getslice] in H; try discriminate H;
    (split; [congruence|]; destruct t; try exact I; fcases Fx).
Qed.
Lemma slice_ok : forall x i j v, settled x -> py_getslice x i j = Ok v -> settled v.
Proof.
  intros x i j v S H. destruct x; try (inversion S; contradiction); cbn [py_getslice] in H; try discriminate H; injection H as <-; try (apply settled_atom; exact I).
  apply Se_arr. intros y Hy. apply slice_In in Hy. inversion S; [contradiction|]. auto.
Qed.

Lemma attr_fun_supported : forall a v x, settled v -> attr_fun a v = Ok x -> supported x.
Proof.
  intros a v x S H.
  destruct a; cbn [attr_fun] in H; try (destruct v; cbn in H; try discriminate; inversion H; subst; constructor; fail).
  - destruct v; try discriminate H. destruct tz; inversion H; subst; constructor.
  - destruct v; try discriminate H; inversion H; subst. destruct (o_tzname _ _); constructor.
  - destruct v; try discriminate H; inversion H; subst. destruct d; constructor.
  - destruct v; try discriminate H; inversion H; subst. destruct d; constructor.
  - destruct v; try discriminate H. apply rbind_ok in H as [b [_ H]]. destruct b; inversion H; subst. constructor.
  - destruct v; try discriminate H; inversion H; subst; [|inversion S; contradiction]. constructor. intros y Hy. apply (settled_elems _ y S). exact Hy.
  - destruct v; try discriminate H; inversion H; subst; [|inversion S; contradiction]. constructor. intros y Hy. apply in_map_iff in Hy as [[k z] [<- Hk]]. inversion S as [? K|? K|? K|? K K2]; subst; [contradiction|].
    destruct (K _ _ Hk) as [_ [_ ?]]. apply settled_supported. assumption.
  - destruct v; try discriminate H. apply string_to_flt_num in H. destruct x; try contradiction; constructor.
  - destruct v; try discriminate H. apply rbind_ok in H as [r [E H]]. apply string_to_flt_num in E. apply rbind_ok in H as [b [_ H]]. destruct b; inversion H; subst. destruct x; try contradiction; constructor.
  - apply rmap_ok in H as [l [E ->]]. constructor. intros y Hy. apply (settled_iter _ _ S E y Hy).
  - apply rbind_ok in H as [l [E H]]. unfold py_set in H. destruct (forallb hashable l); [|discriminate H]. injection H as <-. constructor. intros y Hy.
    apply (Permutation.Permutation_in _ (o_set_order_perm _)) in Hy. apply mk_set_In in Hy. apply (settled_iter _ _ S E y Hy).
Qed.

(** errors of the attribute functions proper *)
Definition attr_leak (t : dtype) (n : str) (x : exn) : Prop :=
  (maybe t TString /\ (n = s "to_flt" \/ n = s "to_int") /\ (x = PInvalidOp \/ x = PSyntax)) \/
  (maybe t TString /\ n = s "to_int" /\ x = POverflow) \/
  (n = s "to_set" /\ x = PType /\ (t = TUndef \/ exists m nb, t = TArray m nb /\ hash_safe m = false)).

Lemma flt_err : forall t x, string_to_flt t = Err x -> x = PInvalidOp \/ x = PSyntax.
Proof.
  intros t x H. unfold string_to_flt in H. cbv zeta in H. destruct (is_prefix _ _) in H; [destruct (dec_of_str _) in H; [discriminate H|left; congruence]|].
  destruct (scan_float _) as [[n|n]|] in H; try discriminate H. destruct (n_frac n), (n_exp n); try discriminate H.
  right. destruct (n_int n) as [|[|c] [|d r]]; try discriminate H. destruct (_ =? _)%N in H; congruence.
Qed.
Lemma finite_err : forall v x, numlike v -> is_integer_number v = Err x -> x = POverflow.
Proof.
  intros v x N H. unfold is_integer_number in H. destruct (is_real_number v) as [b|y] eqn:E; cbn [rbind] in H; [discriminate H|]. injection H as <-.
  unfold is_real_number in E. destruct v; try contradiction; cbn [is_numeric] in E; unfold isfinite in E;
    repeat match type of E with (match ?d with _ => _ end) = _ => destruct d end; congruence.
Qed.
Lemma array_hash : forall t l, settled (VArr l) -> fits t (VArr l) -> forallb hashable l = false -> t = TUndef \/ exists m nb, t = TArray m nb /\ hash_safe m = false.
Proof.
  intros t l S F H. destruct t; fcases F; [left; reflexivity|]. right. exists t, nb. split; [reflexivity|]. injection F as <-. destruct (hash_safe t) eqn:E; [|reflexivity]. exfalso.
  assert (K : forallb hashable l = true). { apply forallb_forall. intros x Hx. apply (hash_safe_ok t); [exact E| |auto]. inversion S; [contradiction|]. auto. }
  congruence.
Qed.
Lemma attr_fun_leak : forall t v vt n a x, settled v -> fits t v -> from_value v = Ok vt -> get_attr vt n = Ok a -> attr_fun a v = Err x ->
  is_engine x = true \/ attr_leak t n x.
Proof.
  intros t v vt n a x S F E G H. unfold get_attr in G.
  assert (T : exists tab, attr_table attr_map vt = Some tab /\ In (n, a) tab).
  { destruct (attr_table attr_map vt) as [tab|]; [|discriminate G]. exists tab. split; [reflexivity|]. destruct (assoc n tab) as [a'|] eqn:A; [|discriminate G]. injection G as <-.
    clear - A. induction tab as [|[k y] tab IH]; cbn in *; [discriminate|]. destruct (str_eqb n k) eqn:K; [left; injection A as <-; f_equal; symmetry; apply str_eqb_eq; exact K|right; auto]. }
  destruct T as [tab [T I0]].
  clear G. assert (Tb : exists l, tab = l /\ match v with
                                          | VArr _ => attr_table attr_map t_array = Some l | VSet _ => attr_table attr_map t_set = Some l | VMap _ => attr_table attr_map t_mapping = Some l
                                          | _ => attr_table attr_map vt = Some l end).
  { exists tab. split; [reflexivity|]. destruct v; try exact T.
    - apply from_value_arr in E as [ts [_ ->]]. exact T.
    - apply from_value_set in E as [ts [_ ->]]. exact T.
    - apply from_value_map in E as [ks [ts [_ [_ ->]]]]. exact T. }
  destruct Tb as [l0 [-> Tb]]. clear T.
  destruct v; try (inversion S; contradiction); try (cbn in E; injection E as <-); try (vm_compute in Tb; discriminate Tb);
    (match type of Tb with attr_table attr_map ?k = _ => let z := eval vm_compute in (attr_table attr_map k) in change (attr_table attr_map k) with z in Tb end;
     injection Tb as <-; cbn [In] in I0;
     repeat match type of I0 with _ \/ _ => destruct I0 as [I0|I0] end; try contradiction;
     (assert (Nn := f_equal fst I0); assert (Na := f_equal snd I0); cbn [fst snd] in Nn, Na; subst n a); clear I0; cbn [attr_fun] in H; try discriminate H).
  - destruct (integer_number_total d) as [b Eb]. rewrite Eb in H. cbn [rbind] in H. destruct b; [discriminate H|]. injection H as <-. left. reflexivity.
  - right. left. split; [eapply maybe_str; exact F|]. split; [left; reflexivity|]. eapply flt_err. exact H.
  - destruct (string_to_flt t0) as [r|y] eqn:Ef; cbn [rbind] in H.
    + apply string_to_flt_num in Ef. destruct (is_integer_number r) as [b|y] eqn:Ei; cbn [rbind] in H.
      * destruct b; [discriminate H|]. injection H as <-. left. reflexivity.
      * apply (finite_err _ _ Ef) in Ei. right. right. left. split; [eapply maybe_str; exact F|]. split; [reflexivity|congruence].
    + right. left. split; [eapply maybe_str; exact F|]. split; [right; reflexivity|]. injection H as <-. eapply flt_err. exact Ef.
  - exfalso. cbn [py_iter rbind] in H. unfold py_set in H. assert (K : forallb hashable (map (fun c => VStr [c]) t0) = true) by (apply forallb_forall; intros y Hy; apply in_map_iff in Hy as [c [<- _]]; reflexivity).
    rewrite K in H. discriminate H.
  - exfalso. cbn [py_iter rbind] in H. unfold py_set in H. assert (K : forallb hashable (map (fun c => VInt (Z.of_N c)) b) = true) by (apply forallb_forall; intros y Hy; apply in_map_iff in Hy as [c [<- _]]; reflexivity).
    rewrite K in H. discriminate H.
  - exfalso. destruct tz; discriminate H.
  - cbn [py_iter rbind] in H. unfold py_set in H. destruct (forallb hashable l) eqn:K; [discriminate H|]. injection H as <-. right. right. right. split; [reflexivity|]. split; [reflexivity|].
    eapply array_hash; eassumption.
  - exfalso. cbn [py_iter rbind] in H. unfold py_set in H. assert (K : forallb hashable l = true). { apply forallb_forall. intros y Hy. inversion S as [|? ?|? K|]; subst; [contradiction|]. apply K. exact Hy. }
    rewrite K in H. discriminate H.
Qed.

Lemma attr_err : forall t v n x, settled v -> fits t v -> resolve_attr v n = Err x -> is_engine x = true \/ attr_leak t n x.
Proof.
  intros t v n x S F H. unfold resolve_attr in H. destruct (settled_type v S) as [vt E]. rewrite E in H.
  destruct (get_attr vt n) as [a|y] eqn:G; cbn [rbind] in H.
  2:{ injection H as <-. left. unfold get_attr in G. destruct (attr_table attr_map vt); [destruct (assoc n l); [discriminate G|]|]; injection G as <-; reflexivity. }
  destruct (attr_fun a v) as [y|y] eqn:A; cbn [rbind] in H; [|injection H as <-; eapply attr_fun_leak; eassumption].
  assert (P := attr_fun_py_ok _ _ _ S A). destruct (proj2 (coerce_true_supported y P) (attr_fun_supported _ _ _ S A)) as [v' Ev]. rewrite Ev in H. cbn [rbind] in H.
  assert (S' : settled v') by (eapply coerce_settled; [exact P|left; reflexivity|exact Ev]). destruct (settled_type v' S') as [vt' E']. rewrite E' in H. cbn [rbind] in H.
  destruct (attr_type a vt') as [et|y0] eqn:T; cbn [rbind] in H; [destruct (is_compat et vt'); [discriminate H|injection H as <-; left; reflexivity]|]. exfalso.
  destruct a; try discriminate T; cbn [attr_fun] in A.
  - apply rmap_ok in A as [l [_ ->]]. apply coerce_cases in Ev. cbn in Ev. destruct Ev as [l' [_ ->]]. apply from_value_arr in E' as [ts [_ ->]]. discriminate T.
  - apply rbind_ok in A as [l [_ A]]. unfold py_set in A. destruct (forallb hashable l); [|discriminate A]. injection A as <-. apply coerce_cases in Ev. cbn in Ev. subst v'.
    apply from_value_set in E' as [ts [_ ->]]. discriminate T.
Qed.
End Values.

(** ** Programs *)
Section Ep.
Context {Orc : Oracle} (C : ctx) (w : world) (thing : value).
Hypothesis NoDefault : c_default C = None.
Hypothesis Builtins : supplied C w.
Hypothesis B : behaved w thing.

(** every exception [p] raises is in [E] *)
Definition ep {A} (p : prog A) (E : exn -> Prop) : Prop := forall q x q', inv q -> run w p q = (Err x, q') -> E x.

Lemma ep_ret : forall A (r : result A) (E : exn -> Prop), (forall x, r = Err x -> E x) -> ep (Ret r) E.
Proof. intros A r E H q x q' _ R. cbn in R. inversion R; subst. auto. Qed.
Lemma ep_ok : forall A (a : A) E, ep (ok a) E.
Proof. intros A a E q x q' _ R. cbn in R. inversion R. Qed.
Lemma ep_raise : forall A x (E : exn -> Prop), E x -> ep (@raise A x) E.
Proof. intros A x E H q y q' _ R. cbn in R. inversion R; subst. exact H. Qed.
Lemma ep_bind : forall A X (p : prog A) (f : A -> prog X) (P : A -> Prop) E, sp w p P -> ep p E -> (forall a, P a -> ep (f a) E) -> ep (pbind p f) E.
Proof.
  intros A X p f P E Hp Hx Hf q x q' I0 R. rewrite run_pbind in R. destruct (run w p q) as [[a|y] q1] eqn:R1.
  - destruct (Hp _ _ _ I0 R1) as [Pa I1]. exact (Hf a Pa _ _ _ I1 R).
  - inversion R; subst. exact (Hx _ _ _ I0 R1).
Qed.
Lemma ep_then : forall A X (p : prog A) (f : result A -> prog X) (P : A -> Prop) (E0 E : exn -> Prop), sp w p P -> ep p E0 -> (forall a, P a -> ep (f (Ok a)) E) ->
  (forall x, E0 x -> forall q y q', run w (f (Err x)) q = (Err y, q') -> E y) -> ep (pthen p f) E.
Proof.
  intros A X p f P E0 E Hp Hx Hf He q x q' I0 R. rewrite run_pthen in R. destruct (run w p q) as [[a|y] q1] eqn:R1.
  - destruct (Hp _ _ _ I0 R1) as [Pa I1]. exact (Hf a Pa _ _ _ I1 R).
  - exact (He y (Hx _ _ _ I0 R1) _ _ _ R).
Qed.
Lemma ep_impl : forall A (p : prog A) (E E' : exn -> Prop), (forall x, E x -> E' x) -> ep p E -> ep p E'.
Proof. intros A p E E' H K q x q' I0 R. apply H. exact (K _ _ _ I0 R). Qed.
Lemma ep_pmapM : forall A X (f : A -> prog X) (P : A -> X -> Prop) E l, (forall a, In a l -> sp w (f a) (P a)) -> (forall a, In a l -> ep (f a) E) -> ep (pmapM f l) E.
Proof.
  intros A X f P E l. induction l as [|a l IH]; intros Hs He; [apply ep_ok|]. cbn [pmapM]. eapply ep_bind; [apply Hs; left; reflexivity|apply He; left; reflexivity|].
  intros b _. eapply ep_bind; [apply (sp_pmapM w _ _ f P); intros; apply Hs; right; assumption|apply IH; intros; [apply Hs|apply He]; right; assumption|]. intros. apply ep_ok.
Qed.
Lemma ep_scope : forall A a (p : prog A) E, keeps s_scopes p -> ~ attr_name (a_name a) -> nice (a_val a) -> ep p E -> ep (with_scope a p) E.
Proof.
  intros A a p E K Ha Hv Hp q x q' I0 R. rewrite (run_scope_bal A a p w q K) in R.
  assert (I1 : inv (set_scopes (s_scopes q ++ [a]) q)).
  { split; cbn; [|apply I0]. intros y Hy. apply in_app_or in Hy as [Hy|[<-|[]]]; [apply I0; exact Hy|auto]. }
  destruct (run w p _) as [r q1] eqn:R1. inversion R; subst. exact (Hp _ _ _ I1 R1).
Qed.
Lemma ep_dc : forall (k : dctx -> prog value) E, (forall dc, ep (k dc) E) -> ep (pbind (act OGetDc) k) E.
Proof.
  intros k E H. apply (ep_bind _ _ _ _ (fun _ => True)); [|intros q x q' _ R; cbn in R; inversion R|intros; apply H].
  intros q a q' I0 R. cbn in R. inversion R; subst. split; [exact I|exact I0].
Qed.
Lemma ep_comp_loop : forall var cond body (Q : value -> Prop) E, ~ attr_name var -> keeps s_scopes body -> (forall c, cond = Some c -> keeps s_scopes c) ->
  sp w body Q -> ep body E -> (forall c, cond = Some c -> sp w c (fun _ => True) /\ ep c E) ->
  forall l, (forall x, In x l -> nice x) -> ep (comp_loop var cond body l) E.
Proof.
  intros var cond body Q E Hv Kb Kc Sb Eb Hc. induction l as [|x l IH]; intro Hl; [apply ep_ok|]. cbn [comp_loop].
  set (inner := (do! b := (match cond with None => ok true | Some c => do! v := c in ok (truthy v) end) in if b then (do! v := body in ok (Some v)) else ok None) : prog (option value)).
  assert (Kin : keeps s_scopes inner).
  { apply keeps_pbind; [destruct cond as [c|]; [apply keeps_pbind; [apply Kc; reflexivity|]; intro; apply keeps_ret|apply keeps_ret]|].
    intros []; [apply keeps_pbind; [exact Kb|]; intro; apply keeps_ret|apply keeps_ret]. }
  assert (Sin : sp w inner (fun _ => True)).
  { apply (sp_bind _ _ _ _ _ (fun _ => True)).
    - destruct cond as [c|]; [|apply sp_ok; exact I]. eapply sp_bind; [apply Hc; reflexivity|]. intros. apply sp_ok. exact I.
    - intros [] _; [|apply sp_ok; exact I]. eapply sp_bind; [exact Sb|]. intros. apply sp_ok. exact I. }
  assert (Ein : ep inner E).
  { apply (ep_bind _ _ _ _ (fun _ => True)).
    - destruct cond as [c|]; [|apply sp_ok; exact I]. eapply sp_bind; [apply Hc; reflexivity|]. intros. apply sp_ok. exact I.
    - destruct cond as [c|]; [|apply ep_ok]. destruct (Hc c eq_refl) as [H1 H2]. eapply ep_bind; [exact H1|exact H2|]. intros. apply ep_ok.
    - intros [] _; [|apply ep_ok]. eapply ep_bind; [exact Sb|exact Eb|]. intros. apply ep_ok. }
  assert (N : nice x) by (apply Hl; left; reflexivity).
  eapply ep_bind; [apply sp_scope; [exact Hv|exact N|exact Sin]|apply ep_scope; [exact Kin|exact Hv|exact N|exact Ein]|]. intros o _.
  eapply ep_bind; [apply (sp_comp_loop w var cond body Q Hv Sb); [intros c Ec; apply (Hc c Ec)|intros; apply Hl; right; assumption]|apply IH; intros; apply Hl; right; assumption|].
  intros. apply ep_ok.
Qed.

(** values that are not null *)
Lemma get_attr_In : forall t n a, get_attr t n = Ok a -> exists k tab, In (k, tab) attr_map /\ In (n, a) tab.
Proof.
  intros t n a H. unfold get_attr in H. destruct (attr_table attr_map t) as [tab|] eqn:E; [|discriminate]. destruct (assoc n tab) as [a'|] eqn:E2; [|discriminate]. injection H as ->.
  assert (K : exists k, In (k, tab) attr_map).
  { revert E. generalize attr_map. induction l as [|[k tb] l IH]; cbn; [discriminate|]. destruct (is_compat k t); intro E; [injection E as ->; exists k; left; reflexivity|]. destruct (IH E) as [k' K]. exists k'. right. exact K. }
  destruct K as [k K]. exists k, tab. split; [exact K|]. clear - E2. induction tab as [|[k y] tab IH]; cbn in *; [discriminate|].
  destruct (str_eqb n k) eqn:Q; [left; injection E2 as <-; f_equal; symmetry; apply str_eqb_eq; exact Q|right; auto].
Qed.
Lemma zone_attr : forall t n, get_attr t n = Ok a_zone_name -> n = s "zone_name".
Proof.
  intros t n H. destruct (get_attr_In _ _ _ H) as [k [tab [K1 K2]]]. cbn [attr_map In] in K1.
  repeat (destruct K1 as [K1|K1]; [injection K1 as <- <-; cbn [In] in K2; repeat (destruct K2 as [K2|K2]; [discriminate K2 || (injection K2 as <-; reflexivity)|]); destruct K2|]). destruct K1.
Qed.
Lemma coerce_null : forall ver v, coerce ver v = Ok VNull -> v = VNull.
Proof. intros ver v H. apply coerce_cases in H. destruct v; try reflexivity; try discriminate H; destruct H as [l' [_ H]]; discriminate H. Qed.
Lemma attr_fun_nonnull : forall a v, attr_fun a v = Ok VNull -> a = a_zone_name.
Proof.
  intros a v H. destruct a; cbn [attr_fun] in H; try reflexivity; exfalso; try (destruct v; discriminate H); try (apply rmap_ok in H as [? [_ H]]; discriminate H).
  - destruct v; try discriminate H. destruct tz; discriminate H.
  - destruct v; try discriminate H. destruct d; discriminate H.
  - destruct v; try discriminate H. destruct d; discriminate H.
  - destruct v; try discriminate H. apply rbind_ok in H as [b [_ H]]. destruct b; discriminate H.
  - destruct v; try discriminate H. apply string_to_flt_num in H. exact H.
  - destruct v; try discriminate H. apply rbind_ok in H as [r [E H]]. apply string_to_flt_num in E. apply rbind_ok in H as [b [_ H]]. destruct b; [|discriminate H]. injection H as ->. exact E.
  - apply rbind_ok in H as [l [_ H]]. unfold py_set in H. destruct (forallb hashable l); discriminate H.
Qed.
Lemma attr_fun_callable : forall a v x, settled v -> attr_fun a v = Ok x -> callable x = true -> exists m y, x = VMeth m y.
Proof.
  intros a v x S H Cx. destruct a; cbn [attr_fun] in H; try (injection H as <-; eauto; fail); exfalso; try (destruct v; try discriminate H; injection H as <-; discriminate Cx); try (apply rmap_ok in H as [? [_ ->]]; discriminate Cx).
  - destruct v; try discriminate H. destruct tz; injection H as <-; discriminate Cx.
  - destruct v; try discriminate H. injection H as <-. destruct (o_tzname _ _); discriminate Cx.
  - destruct v; try discriminate H. injection H as <-. destruct d; discriminate Cx.
  - destruct v; try discriminate H. injection H as <-. destruct d; discriminate Cx.
  - destruct v; try discriminate H. apply rbind_ok in H as [b [_ H]]. destruct b; [|discriminate H]. injection H as <-. discriminate Cx.
  - destruct v; try discriminate H. apply string_to_flt_num in H. destruct x; try contradiction; discriminate Cx.
  - destruct v; try discriminate H. apply rbind_ok in H as [r [E H]]. apply string_to_flt_num in E. apply rbind_ok in H as [b [_ H]]. destruct b; [|discriminate H]. injection H as ->. destruct x; try contradiction; discriminate Cx.
  - apply rbind_ok in H as [l [_ H]]. unfold py_set in H. destruct (forallb hashable l); [|discriminate H]. injection H as <-. discriminate Cx.
Qed.
Lemma attr_nonnull : forall v n, resolve_attr v n = Ok VNull -> n = s "zone_name".
Proof. intros v n H. apply resolve_attr_cases in H as [t [a [x [vt [et [_ [E1 [E2 [E3 _]]]]]]]]]. apply coerce_null in E3. subst x. apply attr_fun_nonnull in E2. subst a. eapply zone_attr. exact E1. Qed.
Lemma nval_nonnull : forall ver v, v <> VNull -> sp w (nval C ver v) (fun u => u <> VNull).
Proof.
  intros ver v N. apply sp_ret. intros a H ->. apply N. unfold new_value in H. apply rmap_ok in H as [u [E H]]. assert (u = VNull) by (destruct u as [| | | | | | |w0 [z|]| | | | | | | | | | | |]; try discriminate H; reflexivity). subst u.
  eapply coerce_null. exact E.
Qed.
Lemma sp_and : forall A (p : prog A) (P Q : A -> Prop), sp w p P -> sp w p Q -> sp w p (fun a => P a /\ Q a).
Proof. intros A p P Q H K q a q' I0 R. destruct (H _ _ _ I0 R), (K _ _ _ I0 R). auto. Qed.
Lemma sp_true : forall e, lits_ok e -> fair C e -> sp w (eval C thing e) (fun _ => True).
Proof. intros e L F. eapply sp_impl; [|exact (eval_sound C w thing NoDefault Builtins B e L F)]. auto. Qed.

(** the value of a known attribute comes from the attribute table *)
Lemma known_value : forall o n sf (Z : Prop), known_attr (rtype o) n = true -> lits_ok o -> fair C o -> sp w (eval C thing o) (fun v => sf = true -> v = VNull -> Z) ->
  sp w (eval C thing (EAttr o n sf)) (fun u => (Z /\ u = VNull) \/ exists v r, settled v /\ resolve_attr v n = Ok r /\ u = set_tz (c_tz C) r).
Proof.
  intros o n sf Z K L F N. unfold known_attr in K. apply andb_true_iff in K as [U K]. apply negb_true_iff in U. destruct (resolve_attr_type (rtype o) n) as [ty|] eqn:T; [|discriminate K]. clear K.
  assert (G := eval_sound C w thing NoDefault Builtins B o L F). cbn [eval].
  eapply sp_bind; [apply sp_and; [exact G|exact N]|].
  intros v [[Sv Fv] Nv]. destruct (is_null v && sf) eqn:NN.
  { apply andb_true_iff in NN as [N1 ->]. apply sp_ok. left. split; [|reflexivity]. apply (Nv eq_refl). destruct v; try discriminate N1; reflexivity. }
  destruct (resolve_attr v n) as [r|x] eqn:R.
  - assert (Sr := resolve_attr_settled _ _ _ Sv R). apply sp_ret. intros a H. unfold new_value in H. rewrite (settled_coerce _ Sr) in H. injection H as <-.
    right. exists v, r. auto.
  - destruct x; try apply sp_raise. destruct (is_null v) eqn:V.
    + destruct v; try discriminate V. eapply (sp_then _ _ _ _ _ (fun _ => False)).
      * apply (sp_resolve_null C w thing B). unfold resolve_attr_type in T. apply rbind_ok in T as [a [A _]]. eapply get_attr_name. exact A.
      * intros a [].
      * intros x q r q'. rewrite NoDefault. destruct x; cbn; intro H; inversion H.
    + exfalso. eapply no_attr_err; eauto. intros ->. discriminate V.
Qed.

Lemma sp_post : forall A (p : prog A) (Q : A -> Prop), sp w p (fun _ => True) -> post p Q -> sp w p Q.
Proof. intros A p Q S P q a q' I0 R. split; [exact (P _ _ _ _ R)|exact (proj2 (S _ _ _ I0 R))]. Qed.
Lemma bool_nonnull : forall r, post (vbool r) (fun v => v <> VNull).
Proof. intro r. apply post_ret. intros a H. apply rmap_ok in H as [b [_ ->]]. discriminate. Qed.
Lemma result_nonnull : forall e, match e with EArr _ | ESet _ | EMap _ | EBin _ _ _ | EComp _ _ _ _ | EIn _ _ | EUn _ _ => True | _ => False end -> post (eval C thing e) (fun v => v <> VNull).
Proof.
  intros e K. destruct e as [v|v t|l|l|l|o a b|r n i c|c m|o n sf|c i sf|c a b sf|n bi t|f l|c a b|o e]; try contradiction; cbn [eval].
  - apply post_bind_any. intro. apply post_ok. discriminate.
  - apply post_bind_any. intro. apply post_ok. discriminate.
  - apply post_bind_any. intro. apply post_bind_any. intro. apply post_ok. discriminate.
  - destruct o as [| |o|o| | | | |o|sr ng].
    + apply post_bind_any. intro x. apply post_bind_any. intro y. apply post_bind_any. intro dc. apply post_ret. intros v H ->. unfold op_add in H.
      destruct x, y; cbn [is_bytes is_str is_numeric orb andb] in H; try discriminate H; try (apply mk_dt_dt in H as [? H]; discriminate H); try (apply mk_td_td in H as [? H]; discriminate H); apply rdec_dec in H as [? H]; discriminate H.
    + apply post_bind_any. intro x. apply post_bind_any. intro y. apply post_bind_any. intro dc. apply post_ret. intros v H ->. unfold op_sub in H.
      destruct x, y; cbn [is_numeric andb] in H; try discriminate H; try (apply mk_dt_dt in H as [? H]; discriminate H); try (apply mk_td_td in H as [? H]; discriminate H); try (apply rdec_dec in H as [? H]; discriminate H).
      destruct tz, tz0; try discriminate H; apply mk_td_td in H as [? H]; discriminate H.
    + apply post_bind_any. intro x. destruct (is_numeric x); [|apply post_raise]. apply post_bind_any. intro y. destruct (is_numeric y); [|apply post_raise]. apply post_bind_any. intro dc. apply post_ret. intros v H ->.
      unfold op_arith in H. destruct (dec_arith _ _ _ _) as [d|e] in H; [discriminate H|]. destruct (is_arithmetic e) in H; discriminate H.
    + apply post_bind_any. intro x. apply post_bind_any. intro t. destruct (dt_eqb t TFloat).
      * apply post_bind_any. intros _. apply post_bind_any. intro y. apply post_ret. intros v H ->. unfold op_bit_float in H. apply rbind_ok in H as [? [_ H]]. discriminate H.
      * destruct (is_set_t t); [|apply post_raise]. apply post_bind_any. intro y. apply post_ret. intros v H ->. unfold op_bit_set in H. apply rbind_ok in H as [? [_ H]]. destruct (is_compat _ _) in H; [|discriminate H].
        destruct x, y; try discriminate H. apply rmap_ok in H as [? [_ H]]. discriminate H.
    + apply post_bind_any. intro x. destruct (truthy x); [|apply post_ok; discriminate]. apply post_bind_any. intro. apply post_ok. discriminate.
    + apply post_bind_any. intro x. destruct (truthy x); [apply post_ok; discriminate|]. apply post_bind_any. intro. apply post_ok. discriminate.
    + apply post_bind_any. intro x. apply post_bind_any. intro y. apply post_ok. discriminate.
    + apply post_bind_any. intro x. apply post_bind_any. intro y. apply post_ok. discriminate.
    + apply post_bind_any. intro x. apply post_bind_any. intro y. apply bool_nonnull.
    + assert (Fz : forall x y, post (fuzzy_match C sr ng (is_str_lit b) x y) (fun v => v <> VNull)).
      { intros x y. unfold fuzzy_match. destruct x; try apply post_raise; (destruct y; try apply post_raise; [apply post_ok; discriminate|]); apply post_bind_any; intros _; [apply post_ok; discriminate|].
        destruct (o_re _ _ _ _); [apply post_bind_any; intros _|]; apply post_ok; discriminate. }
      apply post_bind_any. intro x. destruct x; try apply post_raise; apply post_bind_any; intro; apply Fz.
  - apply post_bind_any. intro v. apply post_bind_any. intro t. destruct (is_iterable t); [|apply post_raise]. apply post_bind_any. intro. apply post_ok. discriminate.
  - apply post_bind_any. intro x. apply post_bind_any. intros _. apply post_bind_any. intro y. apply bool_nonnull.
  - destruct o; [apply post_bind_any; intro; apply post_ok; discriminate|]. apply post_bind_any. intro x. apply post_bind_any. intro dc. apply post_ret. intros v H ->. unfold op_neg in H.
    destruct x; cbn [is_numeric] in H; try discriminate H; try (apply mk_td_td in H as [? H]; discriminate H); apply rdec_dec in H as [? H]; discriminate H.
Qed.

Lemma solid_ok : forall e, solid e = true -> lits_ok e -> fair C e -> sp w (eval C thing e) (fun v => v <> VNull).
Proof.
  induction e as [v|v t|l IH|l IH|l IH|o a b IHa IHb|r n i c IHr IHi IHc|c m IHc IHm|o n sf IHo|c i sf IHc IHi|c a b sf IHc IHa IHb|n bi t|f l IHf IHl|c a b IHc IHa IHb|o e IHe] using expr_ind';
    intros S L F; cbn [solid] in S; try discriminate S; try (apply sp_post; [apply sp_true; assumption|apply result_nonnull; exact I]).
  - apply sp_ok. destruct v; discriminate.
  - apply sp_ok. destruct (proj2 L v t (Pa_self _)) as [K1 K2]. intros ->. discriminate K1.
  - apply andb_true_iff in S as [S S3]. apply andb_true_iff in S as [S1 S2]. assert (P : part o (EAttr o n sf)) by (apply Pa_attr; constructor).
    assert (Lo := lits_part _ _ P L). assert (Fo := fair_part C _ _ P F).
    eapply sp_impl; [|apply (known_value o n sf False S1 Lo Fo)].
    + intros u [[[] _]|[v [r [Sv [R ->]]]]] N. assert (r = VNull) by (destruct r as [| | | | | | |w0 [z|]| | | | | | | | | | | |]; try discriminate N; reflexivity). subst r.
      apply attr_nonnull in R. subst n. discriminate S2.
    + destruct sf; [rewrite orb_false_r in S3; eapply sp_impl; [|apply IHo; assumption]; intros v Hv _ E; contradiction|]. eapply sp_impl; [|apply (sp_true o); assumption]. intros v _ E. discriminate E.
  - assert (Pc : part c (ESlice c a b sf)) by (apply Pa_slc; constructor).
    assert (Pa : part a (ESlice c a b sf)) by (apply Pa_sla; constructor). assert (Pb : part b (ESlice c a b sf)) by (apply Pa_slb; constructor).
    cbn [eval]. eapply sp_bind; [apply IHc; [exact S|eapply lits_part; eauto|eapply fair_part; eauto]|]. intros x Nx. destruct (is_null x) eqn:Ex; [destruct x; try discriminate Ex; contradiction|].
    eapply sp_bind; [apply (sp_true a); [eapply lits_part; eauto|eapply fair_part; eauto]|]. intros va _. eapply sp_bind; [apply sp_any|]. intros ia _.
    eapply sp_bind; [apply (sp_true b); [eapply lits_part; eauto|eapply fair_part; eauto]|]. intros vb _. eapply sp_bind; [apply sp_any|]. intros jb _.
    apply (sp_bind _ _ _ _ _ (fun v => py_getslice x ia jb = Ok v)); [apply sp_ret; auto|]. intros v G. apply sp_ret. intros v' E ->. apply coerce_null in E. subst v. destruct x; discriminate G.
  - apply andb_true_iff in S as [S1 S2]. assert (Pc : part c (ETern c a b)) by (apply Pa_tc; constructor). assert (Pa : part a (ETern c a b)) by (apply Pa_ta; constructor). assert (Pb : part b (ETern c a b)) by (apply Pa_tb; constructor).
    cbn [eval]. eapply sp_bind; [apply (sp_true c); [eapply lits_part; eauto|eapply fair_part; eauto]|]. intros x _. destruct (truthy x); [apply IHa|apply IHb]; try assumption; first [eapply lits_part; eauto; fail | eapply fair_part; eauto].
Qed.

(** what the engine's own functions return *)
Definition own_value (v : value) : Prop := (exists g, v = VBFun g /\ g <> BFmap /\ g <> BFrandom) \/ (exists m u, v = VMeth m u) \/ callable v = false.
Lemma own_callee : forall f, own_call C f -> lits_ok f -> fair C f -> sp w (eval C thing f) own_value.
Proof.
  intros f K L F. destruct f as [| | | | | | | |o n sf| | |name [] tf| | |]; try contradiction; cbn [own_call] in K.
  - assert (P : part o (EAttr o n sf)) by (apply Pa_attr; constructor).
    assert (Lo := lits_part _ _ P L). assert (Fo := fair_part C _ _ P F).
    eapply sp_impl; [|apply (known_value o n sf True K Lo Fo); eapply sp_impl; [|apply (sp_true o); assumption]; auto].
    intros u [[_ ->]|[v [r [Sv [R ->]]]]]; [right; right; reflexivity|].
    apply resolve_attr_cases in R as [t [a [x [vt [et [_ [_ [E2 [E3 _]]]]]]]]].
    assert (Q : callable r = false \/ exists m y, r = VMeth m y).
    { destruct (callable r) eqn:Cr; [|left; reflexivity]. right. assert (x = r) by (apply coerce_cases in E3; destruct x; try (subst r; discriminate Cr || reflexivity); destruct E3 as [? [_ ->]]; discriminate Cr).
      subst x. eapply attr_fun_callable; eassumption. }
    destruct Q as [Q|[m [y ->]]]; [right; right; destruct r as [| | | | | | |w0 [z|]| | | | | | | | | | | |]; try discriminate Q; reflexivity|right; left; exists m, y; reflexivity].
  - destruct (assoc name (c_bvals C)) as [[vb| | | |]|] eqn:As; try contradiction. destruct vb as [| | | | | | | | | | | | | | | | |g| |]; try contradiction.
    assert (T := sp_true _ L F). intros q a q' I0 R. split; [|exact (proj2 (T q a q' I0 R))].
    cbn [eval] in R. unfold resolve in R. rewrite As in R.
    cbn [ok pthen pbind run nval new_value coerce rmap set_tz rbind] in R. change (new_value (c_tz C) false (VBFun g)) with (Ok (VBFun g)) in R. cbn [run] in R. injection R as R _. apply sym_check_same in R.
    left. exists g. split; [exact R|exact K].
Qed.

Lemma first_order_supported : forall f args, f <> BFrandom -> (forall a, In a args -> nice a) -> post (apply_first_order C f args) supported.
Proof.
  intros f args Nr Ha.
  assert (IT : forall v l, nice v -> py_iter v = Ok l -> forall x, In x l -> supported x).
  { intros v l N E x Hx. apply (nice_iter v l N E x Hx). }
  assert (At : forall v, atom v -> (forall n, v <> VObj n) -> supported v).
  { intros v H N. destruct v; try contradiction; try constructor. exfalso. eapply N. reflexivity. }
  destruct f; try contradiction; cbn [apply_first_order].
  13:{ apply post_ret. intros u E. destruct (split_shape _ _ E) as [l [-> [K _]]]. constructor. intros x Hx. destruct (K x Hx) as [[t ->]|[t ->]]; constructor. }
  12:{ apply post_ret. intros u E. destruct (range_shape _ _ E) as [l ->]. constructor. intros x Hx. apply in_map_iff in Hx as [z [<- _]]. constructor. }
  all: destruct args as [|v [|v2 r]]; try apply post_raise.
  all: try (destruct v; apply post_raise).
  - apply post_bind_any. intro dc. apply post_ret. intros u E. unfold py_abs in E. destruct v; try discriminate E; try (injection E as <-; constructor).
    + apply rdec_dec in E as [d' ->]. constructor.
    + destruct f; injection E as <-; constructor.
    + apply mk_td_td in E as [u' ->]. constructor.
  - apply post_ret. intros u E. apply rmap_ok in E as [l [_ ->]]. constructor.
  - apply post_ret. intros u E. apply rmap_ok in E as [l [_ ->]]. constructor.
  - apply post_bind_any. intro dc. apply post_ret. intros u E. apply rbind_ok in E as [l [_ E]]. revert E. assert (K : supported (VInt 0)) by constructor. revert K. generalize (VInt 0). induction l as [|x l IH]; cbn [sum_list]; intros acc K E; [injection E as <-; exact K|].
    apply rbind_ok in E as [acc' [E1 E]]. eapply IH; [|exact E]. unfold sum_add in E1. destruct acc, x; cbn [is_numeric] in E1; try discriminate E1; try (injection E1 as <-; constructor); apply rdec_dec in E1 as [? ->]; constructor.
  - apply post_ret. intros u E. apply rbind_ok in E as [l [E1 E]]. destruct l as [|x l]; [discriminate|]. apply extremum_In in E. eapply (IT v); [apply Ha; left; reflexivity|exact E1|]. cbn. destruct E; auto.
  - apply post_ret. intros u E. apply rbind_ok in E as [l [E1 E]]. destruct l as [|x l]; [discriminate|]. apply extremum_In in E. eapply (IT v); [apply Ha; left; reflexivity|exact E1|]. cbn. destruct E; auto.
  - destruct v; try apply post_raise; apply post_ret. intros u E. unfold parse_datetime in E. destruct (o_isoparse t) as [[w0 [z|]]|]; try discriminate E; injection E as <-; constructor.
  - destruct v; try apply post_raise; apply post_ret. intros u E. apply rmap_ok in E as [d [_ ->]]. constructor.
  - destruct v; try apply post_raise; apply post_ret. intros u E. apply parse_timedelta_td in E as [d ->]. constructor.
Qed.
Lemma meth_supported : forall m v a r, meth_call m v a = Ok r -> supported r.
Proof.
  intros m v a r H. unfold meth_call in H. destruct m.
  - destruct v; try discriminate H; destruct a; try discriminate H. cbv zeta in H. repeat match type of H with (match ?x with _ => _ end) = Ok _ => destruct x; try discriminate H end; injection H as <-; constructor.
  - destruct v; try discriminate H; destruct a; try discriminate H. cbv zeta in H. repeat match type of H with (match ?x with _ => _ end) = Ok _ => destruct x; try discriminate H end; injection H as <-; constructor.
  - apply rbind_ok in H as [z [_ H]]. apply rbind_ok in H as [u [_ H]]. injection H as <-. constructor.
  - apply rbind_ok in H as [z [_ H]]. apply rbind_ok in H as [u [_ H]]. injection H as <-. constructor.
Qed.
Lemma own_supported : forall f args, own_value f -> callable f = true -> (forall a, In a args -> nice a) -> post (apply_fun C f args) supported.
Proof.
  intros f args [[g [-> [Nm Nr]]]|[[m [u ->]]|K]] Cf Ha; [| |congruence].
  - assert (D : post (apply_flat C (VBFun g) args) supported) by (apply first_order_supported; assumption).
    destruct g; try contradiction; try exact D. destruct args as [|g [|it [|a3 r]]]; try exact D. cbn [apply_fun].
    apply (post_bind _ _ _ _ (fun l => forall x, In x l -> nice x)); [apply post_ret; intros l E; eapply nice_iter; [|exact E]; apply Ha; right; left; reflexivity|].
    intros l Hl. eapply post_bind; [apply (post_pmapM _ _ _ (fun _ y => nice (snd y)))|].
    + intros x Hx. apply post_bind_any. intro y. apply post_ok. cbn. auto.
    + intros r F. apply post_ok. constructor. intros x Hx. apply in_map_iff in Hx as [[b y] [<- Hy]]. apply filter_In in Hy as [Hy _].
      destruct (Forall2_In_r _ _ _ _ _ _ F Hy) as [_ [_ K]]. apply K.
  - cbn [apply_fun apply_flat]. destruct args as [|a [|a2 r]]; try apply post_raise. apply post_ret. intros v H. eapply meth_supported. exact H.
Qed.

(** *** every exception is accounted for *)
Lemma acc_part : forall e' e x, part e' e -> accounted C w thing e' x -> accounted C w thing e x.
Proof. intros e' e x P [H|[H|[y [H K]]]]; [left; exact H|right; left; destruct H as [H|[[l [v [o [n [sf [H1 H2]]]]]]|[l [n [t [g [H1 H2]]]]]]]; [left; exact H|right; left; exists l, v, o, n, sf; split; [eapply part_trans; eassumption|exact H2]|right; right; exists l, n, t, g; split; [eapply part_trans; eassumption|exact H2]]|right; right; exists y; split; [eapply part_trans; eassumption|exact K]]. Qed.
Lemma acc_leak : forall e x, leaks C e x -> accounted C w thing e x.
Proof. intros e x H. right. right. exists e. split; [constructor|exact H]. Qed.
Lemma acc_engine : forall e x, is_engine x = true -> accounted C w thing e x.
Proof. intros. left. assumption. Qed.

Definition bins_aware (e : expr) : Prop := forall o a b, part (EBin o a b) e -> lits_aware a /\ lits_aware b.
Lemma bins_part : forall x e, part x e -> bins_aware e -> bins_aware x.
Proof. intros x e P H o a b K. apply (H o). eapply part_trans; eassumption. Qed.
Lemma aware_value : forall e, lits_aware e -> lits_ok e -> fair C e -> sp w (eval C thing e) (fun v => ~ naive v).
Proof. intros e A L F. apply sp_post; [apply sp_true; assumption|]. apply eval_aware. exact A. Qed.

Lemma nval_never : forall v E, py_ok v -> ep (nval C false v) E.
Proof. intros v E P. apply ep_ret. intros x H. unfold new_value in H. destruct (coerce_total v P) as [u Eu]. rewrite Eu in H. discriminate H. Qed.
Lemma resolve_errs : forall v n b, ep (resolve C v n b) (fun x => is_engine x = true \/ (exists l, w_resolve w l v n = Err x) \/ (b = true /\ exists l g, assoc n (c_bvals C) = Some (BVgen g) /\ w_user w l g [] = Err x)).
Proof.
  intros v n b q x q' I0 R. unfold resolve in R. destruct b.
  - destruct (assoc n (c_bvals C)) as [[u| | | |g]|]; try (cbn in R; inversion R; subst; left; reflexivity).
    rewrite run_pthen in R. unfold actr in R. cbn [run step_op] in R. destruct (w_user w (s_log q) g []) as [a1|y] eqn:E1.
    + cbn [run step_op log s_log] in R. injection R as E2 _. right. right. split; [reflexivity|]. eauto.
    + assert (K : y = PKey \/ y = x) by (destruct y; cbn in R; inversion R; subst; auto). destruct K as [->| ->]; [cbn in R; injection R as <- _; left; reflexivity|]. right. right. split; [reflexivity|]. eauto.
  - rewrite run_pbind in R. cbn in R. destruct (find_scope (s_scopes q) n); cbn in R; inversion R; subst. right. left. eexists. reflexivity.
Qed.
Lemma sym_check_errs : forall n t v x, settled v -> sym_check n t v = Err x -> is_engine x = true.
Proof.
  intros n t v x S H. unfold sym_check in H. destruct (is_undef t); [discriminate H|]. destruct (settled_type v S) as [vt E]. rewrite E in H. cbn [rbind] in H. cbv zeta in H.
  repeat match type of H with (if ?b then _ else _) = _ => destruct b; try discriminate H end; injection H as <-; reflexivity.
Qed.
Lemma fuzzy_errs : forall sr ng pre x y (E : exn -> Prop), (forall x, is_engine x = true -> E x) -> ep (fuzzy_match C sr ng pre x y) E.
Proof.
  intros sr ng pre x y E H. unfold fuzzy_match. destruct x; try (apply ep_raise; apply H; reflexivity);
    (destruct y; try (apply ep_raise; apply H; reflexivity); [apply ep_ok|]);
    (eapply ep_bind; [apply sp_any|apply ep_ret; intros z K; destruct pre; [discriminate K|]; unfold compile_ok in K; destruct (o_re_ok _ _); [discriminate K|]; injection K as <-; apply H; reflexivity|]); intros _ _; [apply ep_ok|].
  destruct (o_re _ _ _ _); [|apply ep_ok]. apply (ep_bind _ _ _ _ (fun _ => True)); [|intros q z q' _ R; cbn in R; inversion R|intros; apply ep_ok].
  intros q a q' I0 R. cbn in R. inversion R; subst. split; [exact I|]. split; [apply I0|].
  cbn. split; [apply Po_arr|constructor]; intros z Hz; apply in_map_iff in Hz as [[g|] [<- _]]; try (apply Po_scalar; exact I); constructor.
Qed.
Lemma check_args_errs : forall ps vs x, (forall v, In v vs -> settled v) -> check_args (map from_value vs) ps = Err x -> is_engine x = true.
Proof.
  induction ps as [|p ps IH]; intros [|v vs] x S H; cbn in H; try discriminate H. destruct (settled_type v (S v (or_introl eq_refl))) as [t E]. rewrite E in H. cbn in H.
  destruct (is_compat t p); [|injection H as <-; reflexivity]. eapply IH; [|exact H]. intros u Hu. apply S. right. exact Hu.
Qed.
Lemma validate_errs : forall t vs x, (forall v, In v vs -> settled v) -> validate t (map from_value vs) = Err x -> is_engine x = true.
Proof.
  intros t vs x S H. unfold validate in H. destruct t; try (injection H as <-; reflexivity). cbv zeta in H. destruct (match minargs with Some m => _ | None => _ end) in H; [injection H as <-; reflexivity|].
  destruct args; [|discriminate H]. destruct (_ <? _) in H; [injection H as <-; reflexivity|]. eapply check_args_errs; eassumption.
Qed.

Lemma arith_errs : forall o dc x y z, op_arith o dc x y = Err z -> is_engine z = true.
Proof. intros o dc x y z H. unfold op_arith in H. destruct (dec_arith o dc (as_dec x) (as_dec y)) as [d|e] eqn:E; [discriminate H|]. rewrite (dec_arith_err Orc _ _ _ _ _ E) in H. injection H as <-. reflexivity. Qed.
Lemma own_call_dec : forall f, own_call C f \/ ~ own_call C f.
Proof.
  intros f. destruct f; cbn [own_call]; auto.
  - destruct (known_attr _ _); [left; reflexivity|right; discriminate].
  - destruct builtin; [|right; auto]. destruct (assoc name (c_bvals C)) as [[v| | | |]|]; auto. destruct v; auto. destruct f; (left; split; discriminate) || (right; intros [? ?]; congruence).
Qed.

Theorem eval_errors : forall e, lits_ok e -> bins_aware e -> fair C e -> ep (eval C thing e) (accounted C w thing e).
Proof.
  assert (En : forall e x, is_engine x = true -> accounted C w thing e x) by exact acc_engine.
  assert (FT : forall v e, settled v -> ep (Ret (from_value v)) (accounted C w thing e)).
  { intros v e S. apply ep_ret. intros x H. destruct (settled_type v S) as [t E]. congruence. }
  assert (SF : forall v, settled v -> sp w (Ret (from_value v)) (fun t => from_value v = Ok t)) by (intros; apply sp_ret; auto).
  induction e as [v|v t|l IH|l IH|l IH|o a b IHa IHb|r n i c IHr IHi IHc|c m IHc IHm|o n sf IHo|c i sf IHc IHi|c a b sf IHc IHa IHb|n bi t|f l IHf IHl|c a b IHc IHa IHb|o e IHe] using expr_ind';
    intros L A F; cbn [eval].
  - apply ep_ok.
  - apply ep_ok.
  - rewrite Forall_forall in IH. eapply ep_bind; [apply (sp_pmapM w _ _ _ (fun _ _ => True))|apply (ep_pmapM _ _ _ (fun _ _ => True))|intros; apply ep_ok];
      intros e He; assert (P : part e (EArr l)) by (eapply Pa_arr; [exact He|constructor]); try (apply sp_true; [eapply lits_part; eauto|eapply fair_part; eauto]).
    eapply ep_impl; [intros x; apply (acc_part _ _ x P)|]. apply IH; [exact He|eapply lits_part; eauto|eapply bins_part; eauto|eapply fair_part; eauto].
  - rewrite Forall_forall in IH.
    assert (Sm : forall e, In e l -> sp w (do! v := eval C thing e in if hashable v then ok v else raise PType) (fun _ => True)).
    { intros e He. assert (P : part e (ESet l)) by (eapply Pa_set; [exact He|constructor]). eapply sp_bind; [apply (sp_true e); [eapply lits_part; eauto|eapply fair_part; eauto]|].
      intros v _. destruct (hashable v); [apply sp_ok; exact I|apply sp_raise]. }
    eapply ep_bind; [apply (sp_pmapM w _ _ _ (fun _ _ => True)); exact Sm|apply (ep_pmapM _ _ _ (fun _ _ => True)); [exact Sm|]|intros; apply ep_ok].
    intros e He. assert (P : part e (ESet l)) by (eapply Pa_set; [exact He|constructor]).
    eapply ep_bind; [exact (eval_sound C w thing NoDefault Builtins B e (lits_part _ _ P L) (fair_part C _ _ P F))| |].
    + eapply ep_impl; [intros x; apply (acc_part _ _ x P)|]. apply IH; [exact He|eapply lits_part; eauto|eapply bins_part; eauto|eapply fair_part; eauto].
    + intros v [Sv Fv]. destruct (hashable v) eqn:Hh; [apply ep_ok|]. apply ep_raise. apply acc_leak. eapply lk_set; [exact He|]. eapply hash_item; eassumption.
  - rewrite Forall_forall in IH.
    assert (Sk : forall kv, In kv l -> sp w (do! k := eval C thing (fst kv) in do! k' := Ret (map_key k) in ok (k', eval C thing (snd kv))) (fun kp => snd kp = eval C thing (snd kv))).
    { intros [k v] Hk. assert (P : part k (EMap l)) by (eapply Pa_key; [exact Hk|constructor]). cbn [fst snd]. eapply sp_bind; [apply (sp_true k); [eapply lits_part; eauto|eapply fair_part; eauto]|].
      intros x _. eapply sp_bind; [apply sp_any|]. intros y _. apply sp_ok. reflexivity. }
    eapply ep_bind; [apply (sp_pmapM w _ _ _ _ _ Sk)|apply (ep_pmapM _ _ _ _ _ _ Sk)|].
    + intros [k v] Hk. assert (P : part k (EMap l)) by (eapply Pa_key; [exact Hk|constructor]). destruct (IH _ Hk) as [IHk _]. cbn [fst snd] in *.
      eapply ep_bind; [exact (eval_sound C w thing NoDefault Builtins B k (lits_part _ _ P L) (fair_part C _ _ P F))| |].
      * eapply ep_impl; [intros x; apply (acc_part _ _ x P)|]. apply IHk; [eapply lits_part; eauto|eapply bins_part; eauto|eapply fair_part; eauto].
      * intros u [Su Fu]. eapply ep_bind; [apply sp_any| |intros; apply ep_ok]. apply ep_ret. intros x H. destruct (key_err _ _ _ Su Fu H) as [->|[-> K]]; [apply En; reflexivity|].
        apply acc_leak. eapply lk_key; eassumption.
    + intros ks K.
      assert (Q : forall kp, In kp (mk_dict ks) -> exists v1, part v1 (EMap l) /\ snd kp = eval C thing v1 /\ ep (eval C thing v1) (accounted C w thing (EMap l))).
      { intros [k p] Hp. destruct (mk_dict_In _ _ _ _ Hp) as [_ Hp2]. apply in_map_iff in Hp2 as [[k0 p0] [<- Hp2]]. destruct (Forall2_In_r _ _ _ _ _ _ K Hp2) as [[k1 v1] [H1 E]]. cbn [fst snd] in *.
        assert (P : part v1 (EMap l)) by (eapply Pa_val; [exact H1|constructor]). destruct (IH _ H1) as [_ IHv]. cbn [snd] in IHv. exists v1. split; [exact P|]. split; [exact E|].
        eapply ep_impl; [intros x; apply (acc_part _ _ x P)|]. apply IHv; [eapply lits_part; eauto|eapply bins_part; eauto|eapply fair_part; eauto]. }
      assert (Sv : forall kp, In kp (mk_dict ks) -> sp w (snd kp) (fun _ => True)).
      { intros kp Hp. destruct (Q kp Hp) as [v1 [P [-> _]]]. apply sp_true; [eapply lits_part; eauto|eapply fair_part; eauto]. }
      eapply ep_bind; [apply (sp_pmapM w _ _ _ (fun _ _ => True))|apply (ep_pmapM _ _ _ (fun _ _ => True))|intros; apply ep_ok].
      * intros kp Hp. eapply sp_bind; [apply Sv; exact Hp|]. intros. apply sp_ok. exact I.
      * intros kp Hp. eapply sp_bind; [apply Sv; exact Hp|]. intros. apply sp_ok. exact I.
      * intros kp Hp. eapply ep_bind; [apply Sv; exact Hp| |intros; apply ep_ok]. destruct (Q kp Hp) as [v1 [_ [-> H]]]. exact H.
  - assert (Pa : part a (EBin o a b)) by (apply Pa_left; constructor). assert (Pb : part b (EBin o a b)) by (apply Pa_right; constructor).
    assert (La := lits_part _ _ Pa L). assert (Fa := fair_part C _ _ Pa F). assert (Lb := lits_part _ _ Pb L). assert (Fb := fair_part C _ _ Pb F).
    specialize (IHa La (bins_part _ _ Pa A) Fa). specialize (IHb Lb (bins_part _ _ Pb A) Fb).
    assert (Ia : ep (eval C thing a) (accounted C w thing (EBin o a b))) by (eapply ep_impl; [intros x; apply (acc_part _ _ x Pa)|exact IHa]).
    assert (Ib : ep (eval C thing b) (accounted C w thing (EBin o a b))) by (eapply ep_impl; [intros x; apply (acc_part _ _ x Pb)|exact IHb]).
    assert (Ga := eval_sound C w thing NoDefault Builtins B a La Fa). assert (Gb := eval_sound C w thing NoDefault Builtins B b Lb Fb).
    destruct (A o a b (Pa_self _)) as [Aa Ab]. assert (Wa := aware_value a Aa La Fa). assert (Wb := aware_value b Ab Lb Fb).
    destruct o as [| |o|o| | | | |o|sr ng].
    + eapply ep_bind; [exact Ga|exact Ia|]. intros x [Sx Fx].
      apply (ep_bind _ _ _ _ (fun y => good (rtype b) y /\ (solid b = true -> y <> VNull))); [|exact Ib|].
      { destruct (solid b) eqn:Sb; [apply sp_and; [exact Gb|eapply sp_impl; [|apply solid_ok; assumption]; auto]|eapply sp_impl; [|exact Gb]; intros y Hy; split; [exact Hy|discriminate]]. }
      intros y [[Sy Fy] Ny]. apply ep_dc. intro dc. apply ep_ret. intros z H. destruct (add_err _ _ _ _ _ _ Sx Sy Fx Fy H) as [->|[[-> [M1 M2]]|[[-> [M1 M2]]|[[-> [M1 M2]]|[M0 [M1 M2]]]]]]; [apply En; reflexivity| | | |]; apply acc_leak.
      * apply lk_add_str; [exact M1|]. intros [K1 K2]. specialize (Ny K1). rewrite K2 in Fy. fcases Fy; subst; contradiction.
      * apply lk_add_bytes; [exact M1|]. intros [K1 K2]. specialize (Ny K1). rewrite K2 in Fy. fcases Fy; subst; contradiction.
      * apply lk_add_time; assumption.
      * apply lk_add_num; assumption.
    + eapply ep_bind; [apply sp_and; [exact Ga|exact Wa]|exact Ia|]. intros x [[Sx Fx] Ax]. eapply ep_bind; [apply sp_and; [exact Gb|exact Wb]|exact Ib|]. intros y [[Sy Fy] Ay].
      apply ep_dc. intro dc. apply ep_ret. intros z H. destruct (sub_err _ _ _ _ _ _ Sx Sy Ax Ay Fx Fy H) as [->|[[-> [M1 M2]]|[M0 [M1 M2]]]]; [apply En; reflexivity| |]; apply acc_leak.
      * apply lk_sub_time; assumption.
      * apply lk_sub_num; assumption.
    + eapply ep_bind; [exact Ga|exact Ia|]. intros x _. destruct (is_numeric x); [|apply ep_raise; apply En; reflexivity]. eapply ep_bind; [exact Gb|exact Ib|]. intros y _.
      destruct (is_numeric y); [|apply ep_raise; apply En; reflexivity]. apply ep_dc. intro dc. apply ep_ret. intros z H. apply En. apply (arith_errs _ _ _ _ _ H).
    + eapply ep_bind; [exact Ga|exact Ia|]. intros x [Sx Fx]. eapply ep_bind; [apply SF; exact Sx|apply FT; exact Sx|]. intros t Ht. destruct (dt_eqb t TFloat).
      * eapply ep_bind; [apply sp_any|apply ep_ret; intros z H; apply (assert_natural_err _ _ Sx) in H; subst z; apply En; reflexivity|]. intros _ _. eapply ep_bind; [exact Gb|exact Ib|]. intros y [Sy Fy].
        apply ep_ret. intros z H. unfold op_bit_float in H. destruct (assert_natural y) eqn:E; cbn [rbind] in H; [discriminate H|]. injection H as <-. apply (assert_natural_err _ _ Sy) in E. subst. apply En. reflexivity.
      * destruct (is_set_t t) eqn:Ts; [|apply ep_raise; apply En; reflexivity]. eapply ep_bind; [exact Gb|exact Ib|]. intros y [Sy Fy]. apply ep_ret. intros z H.
        assert (X : exists l, x = VSet l).
        { destruct t; try discriminate Ts. destruct x; try (inversion Sx; contradiction); try discriminate Ht; eauto; [apply from_value_arr in Ht as [ts [_ Ht]]|apply from_value_map in Ht as [ks [ts [_ [_ Ht]]]]]; discriminate Ht. }
        destruct (bit_set_err _ _ _ _ _ Sy Fx X H) as [->|[-> [K1 K2]]]; [apply En; reflexivity|]. apply acc_leak. apply lk_shift; assumption.
    + eapply ep_bind; [exact Ga|exact Ia|]. intros x _. destruct (truthy x); [|apply ep_ok]. eapply ep_bind; [exact Gb|exact Ib|intros; apply ep_ok].
    + eapply ep_bind; [exact Ga|exact Ia|]. intros x _. destruct (truthy x); [apply ep_ok|]. eapply ep_bind; [exact Gb|exact Ib|intros; apply ep_ok].
    + eapply ep_bind; [exact Ga|exact Ia|]. intros x _. eapply ep_bind; [exact Gb|exact Ib|intros; apply ep_ok].
    + eapply ep_bind; [exact Ga|exact Ia|]. intros x _. eapply ep_bind; [exact Gb|exact Ib|intros; apply ep_ok].
    + eapply ep_bind; [apply sp_and; [exact Ga|exact Wa]|exact Ia|]. intros x [[Sx Fx] Ax]. eapply ep_bind; [apply sp_and; [exact Gb|exact Wb]|exact Ib|]. intros y [[Sy Fy] Ay].
      apply ep_ret. intros z H. unfold rmap in H. destruct (op_ord o x y) as [bb|z'] eqn:E; [discriminate H|]. injection H as <-.
      destruct (ord_err _ _ _ _ _ _ Sx Sy Ax Ay Fx Fy E) as [->|[K1 K2]]; [apply En; reflexivity|]. apply acc_leak. apply lk_ord; assumption.
    + eapply ep_bind; [exact Ga|exact Ia|]. intros x _. destruct x; try (apply ep_raise; apply En; reflexivity); (eapply ep_bind; [exact Gb|exact Ib|]; intros; apply fuzzy_errs; apply En).
  - assert (Pr : part r (EComp r n i c)) by (apply Pa_cres; constructor). assert (Pi : part i (EComp r n i c)) by (apply Pa_cit; constructor).
    assert (Lr := lits_part _ _ Pr L). assert (Fr := fair_part C _ _ Pr F). assert (Li := lits_part _ _ Pi L). assert (Fi := fair_part C _ _ Pi F).
    eapply ep_bind; [exact (eval_sound C w thing NoDefault Builtins B i Li Fi)|eapply ep_impl; [intros x; apply (acc_part _ _ x Pi)|apply IHi; [exact Li|eapply bins_part; eauto|exact Fi]]|].
    intros v [Sv Fv]. eapply ep_bind; [apply SF; exact Sv|apply FT; exact Sv|]. intros t _. destruct (is_iterable t); [|apply ep_raise; apply En; reflexivity].
    assert (Hc : forall p, match c with Some c0 => Some (eval C thing c0) | None => None end = Some p -> exists c0, c = Some c0 /\ p = eval C thing c0) by (intros p E; destruct c as [c0|]; [injection E as <-; eauto|discriminate E]).
    assert (Nn : ~ attr_name n) by (eapply (proj1 F); constructor).
    assert (Gr := eval_sound C w thing NoDefault Builtins B r Lr Fr).
    assert (Ne : forall x, In x (elems v) -> nice x) by (intros x Hx; eapply settled_elems; eauto).
    assert (Hcs : forall p, match c with Some c0 => Some (eval C thing c0) | None => None end = Some p -> sp w p (fun _ => True) /\ ep p (accounted C w thing (EComp r n i c))).
    { intros p E. destruct (Hc p E) as [c0 [-> ->]]. assert (Pc : part c0 (EComp r n i (Some c0))) by (apply Pa_ccond; constructor).
      assert (Lc := lits_part _ _ Pc L). assert (Fc := fair_part C _ _ Pc F). split; [apply sp_true; assumption|]. eapply ep_impl; [intros x; apply (acc_part _ _ x Pc)|]. apply IHc; [exact Lc|eapply bins_part; eauto|exact Fc]. }
    eapply ep_bind; [|apply (ep_comp_loop n _ _ (good (rtype r)) (accounted C w thing (EComp r n i c)) Nn)|intros; apply ep_ok].
    + apply (sp_comp_loop w n _ _ (good (rtype r)) Nn); [exact Gr|intros p E; apply (Hcs p E)|exact Ne].
    + intros w0 q0. apply eval_scopes.
    + intros p E. destruct (Hc p E) as [c0 [_ ->]]. intros w0 q0. apply eval_scopes.
    + exact Gr.
    + eapply ep_impl; [intros x; apply (acc_part _ _ x Pr)|]. apply IHr; [exact Lr|eapply bins_part; eauto|exact Fr].
    + exact Hcs.
    + exact Ne.
  - assert (Pc : part c (EIn c m)) by (apply Pa_inc; constructor). assert (Pm : part m (EIn c m)) by (apply Pa_inm; constructor).
    assert (Lc := lits_part _ _ Pc L). assert (Fc := fair_part C _ _ Pc F). assert (Lm := lits_part _ _ Pm L). assert (Fm := fair_part C _ _ Pm F).
    assert (Gc := eval_sound C w thing NoDefault Builtins B c Lc Fc). assert (Gm := eval_sound C w thing NoDefault Builtins B m Lm Fm).
    apply (ep_bind _ _ _ _ (fun y => good (rtype c) y /\ (solid c = true -> y <> VNull))); [|eapply ep_impl; [intros x; apply (acc_part _ _ x Pc)|apply IHc; [exact Lc|eapply bins_part; eauto|exact Fc]]|].
    { destruct (solid c) eqn:Sb; [apply sp_and; [exact Gc|eapply sp_impl; [|apply solid_ok; assumption]; auto]|eapply sp_impl; [|exact Gc]; intros y Hy; split; [exact Hy|discriminate]]. }
    intros x [[Sx Fx] Nx]. eapply ep_bind; [apply SF; exact Sx|apply FT; exact Sx|]. intros t _.
    eapply ep_bind; [exact Gm|eapply ep_impl; [intros z; apply (acc_part _ _ z Pm)|apply IHm; [exact Lm|eapply bins_part; eauto|exact Fm]]|].
    intros y [Sy Fy]. apply ep_ret. intros z H. unfold rmap in H. destruct (op_in x y) as [bb|z'] eqn:E; [discriminate H|]. injection H as <-.
    destruct (in_err _ _ _ _ _ Sx Sy Fx Fy E) as [->|[-> K]]; [apply En; reflexivity|]. apply acc_leak. apply lk_in. intros [Q1 Q2]. specialize (Nx Q1).
    destruct (rtype c); try contradiction; try (destruct K as [K|K]; [contradiction|congruence]).
  - assert (Po : part o (EAttr o n sf)) by (apply Pa_attr; constructor). assert (Lo := lits_part _ _ Po L). assert (Fo := fair_part C _ _ Po F).
    eapply ep_bind; [exact (eval_sound C w thing NoDefault Builtins B o Lo Fo)|eapply ep_impl; [intros x; apply (acc_part _ _ x Po)|apply IHo; [exact Lo|eapply bins_part; eauto|exact Fo]]|].
    intros v [Sv Fv]. destruct (is_null v && sf); [apply ep_ok|].
    destruct (resolve_attr v n) as [r|x] eqn:R.
    + apply nval_never. apply settled_py_ok. eapply resolve_attr_settled; eauto.
    + assert (X : accounted C w thing (EAttr o n sf) x).
      { destruct (attr_err _ _ _ _ Sv Fv R) as [K|[[K1 [K2 K3]]|[[K1 [K2 ->]]|[-> [-> K]]]]]; [apply En; exact K| | |]; apply acc_leak.
        - apply lk_attr_number; assumption.
        - apply lk_attr_int; assumption.
        - apply lk_attr_set; assumption. }
      destruct x; try (apply ep_raise; exact X).
      assert (Kn : known_attr (rtype o) n = true -> v = VNull).
      { intro K. unfold known_attr in K. apply andb_true_iff in K as [U K]. apply negb_true_iff in U. destruct (resolve_attr_type (rtype o) n) as [ty|] eqn:T; [|discriminate K].
        destruct (is_null v) eqn:V; [destruct v; try discriminate V; reflexivity|]. exfalso. eapply no_attr_err; eauto. intros ->. discriminate V. }
      eapply (ep_then _ _ _ _ nice); [apply (sp_resolve C w thing Builtins B); right; apply settled_nice; exact Sv|apply resolve_errs| |].
      * intros u Hu. apply nval_never. apply Hu.
      * intros x Hx q y q' H. rewrite NoDefault in H. destruct x; cbn in H; inversion H; subst; try (left; reflexivity); (destruct Hx as [Hx|[[l0 Hx]|[Hx _]]]; [left; exact Hx|right; left; right; left; exists l0, v, o, n, sf; split; [constructor|split; [exact Kn|exact Hx]]|discriminate Hx]).
  - assert (Pc : part c (EItem c i sf)) by (apply Pa_itc; constructor). assert (Pi : part i (EItem c i sf)) by (apply Pa_iti; constructor).
    assert (Lc := lits_part _ _ Pc L). assert (Fc := fair_part C _ _ Pc F). assert (Li := lits_part _ _ Pi L). assert (Fi := fair_part C _ _ Pi F).
    eapply ep_bind; [exact (eval_sound C w thing NoDefault Builtins B c Lc Fc)|eapply ep_impl; [intros x; apply (acc_part _ _ x Pc)|apply IHc; [exact Lc|eapply bins_part; eauto|exact Fc]]|].
    intros x [Sx Fx]. destruct (is_null x) eqn:Nx; [destruct sf; [apply ep_ok|apply ep_raise; apply En; reflexivity]|].
    eapply ep_bind; [exact (eval_sound C w thing NoDefault Builtins B i Li Fi)|eapply ep_impl; [intros z; apply (acc_part _ _ z Pi)|apply IHi; [exact Li|eapply bins_part; eauto|exact Fi]]|].
    intros k [Sk Fk]. eapply ep_bind; [apply sp_any| |].
    { apply ep_ret. intros z H. destruct (is_sequence x); [|discriminate H]. apply (assert_integer_err _ _ Sk) in H. subst z. apply En. reflexivity. }
    intros _ _. destruct (py_getitem x k) as [v|e] eqn:G.
    + apply nval_never. destruct (item_good (rtype c) _ _ _ (conj Sx Fx) G) as [[z [-> _]]|[K _]]; [apply Po_scalar; exact I|apply settled_py_ok; exact K].
    + assert (N : x <> VNull) by (intros ->; discriminate Nx).
      destruct (item_err _ _ _ _ _ Sx Sk Fx Fk N G) as [->|[-> K]].
      * destruct sf; [apply ep_ok|apply ep_raise; apply En; reflexivity].
      * apply ep_raise. apply acc_leak. apply lk_item. exact K.
  - assert (Pc : part c (ESlice c a b sf)) by (apply Pa_slc; constructor). assert (Pa : part a (ESlice c a b sf)) by (apply Pa_sla; constructor). assert (Pb : part b (ESlice c a b sf)) by (apply Pa_slb; constructor).
    assert (Lc := lits_part _ _ Pc L). assert (Fc := fair_part C _ _ Pc F). assert (La := lits_part _ _ Pa L). assert (Fa := fair_part C _ _ Pa F). assert (Lb := lits_part _ _ Pb L). assert (Fb := fair_part C _ _ Pb F).
    eapply ep_bind; [exact (eval_sound C w thing NoDefault Builtins B c Lc Fc)|eapply ep_impl; [intros x; apply (acc_part _ _ x Pc)|apply IHc; [exact Lc|eapply bins_part; eauto|exact Fc]]|].
    intros x [Sx Fx]. destruct (is_null x) eqn:Nx; [destruct sf; [apply ep_ok|apply ep_raise; apply En; reflexivity]|].
    eapply ep_bind; [exact (eval_sound C w thing NoDefault Builtins B a La Fa)|eapply ep_impl; [intros z; apply (acc_part _ _ z Pa)|apply IHa; [exact La|eapply bins_part; eauto|exact Fa]]|].
    intros va [Sa _]. eapply ep_bind; [apply sp_any|apply ep_ret; intros z H; apply (opt_index_err _ _ Sa) in H; subst z; apply En; reflexivity|]. intros ia _.
    eapply ep_bind; [exact (eval_sound C w thing NoDefault Builtins B b Lb Fb)|eapply ep_impl; [intros z; apply (acc_part _ _ z Pb)|apply IHb; [exact Lb|eapply bins_part; eauto|exact Fb]]|].
    intros vb [Sb _]. eapply ep_bind; [apply sp_any|apply ep_ret; intros z H; apply (opt_index_err _ _ Sb) in H; subst z; apply En; reflexivity|]. intros jb _.
    apply (ep_bind _ _ _ _ settled); [apply sp_ret; intros v G; exact (slice_ok _ _ _ _ Sx G)| |].
    + apply ep_ret. intros z H. assert (N : x <> VNull) by (intros ->; discriminate Nx). destruct (slice_err _ _ _ _ _ Sx Fx N H) as [-> K]. apply acc_leak. apply lk_slice. exact K.
    + intros v S1. apply ep_ret. intros z H. rewrite (settled_coerce _ S1) in H. discriminate H.
  - eapply (ep_then _ _ _ _ nice); [apply (sp_resolve C w thing Builtins B); left; reflexivity|apply resolve_errs| |].
    + intros v Hv. apply (ep_bind _ _ _ _ nice); [apply sp_ok; exact Hv|apply ep_ok|]. intros u Hu.
      eapply ep_bind; [apply (nval_settled C w false u); [apply Hu|right; apply Hu]|apply nval_never; apply Hu|]. intros v' Sv. apply ep_ret. intros z H. apply En. eapply sym_check_errs; eassumption.
    + intros x Hx q y q' H. rewrite NoDefault in H. assert (y = x) by (destruct x; cbn in H; inversion H; reflexivity). subst y. destruct Hx as [Hx|[[l0 Hx]|[-> [l0 [g [Hg Hx]]]]]]; [left; exact Hx|right; left; left; exists l0, n; exact Hx|right; left; right; right; exists l0, n, t, g; split; [constructor|split; assumption]].
  - assert (Pf : part f (ECall f l)) by (apply Pa_callf; constructor). rewrite Forall_forall in IHl. assert (Lf := lits_part _ _ Pf L). assert (Ff := fair_part C _ _ Pf F).
    apply (ep_bind _ _ _ _ (fun v => own_call C f -> own_value v)).
    { destruct (own_call_dec f) as [O|O]; [eapply sp_impl; [|apply own_callee; assumption]; auto|eapply sp_impl; [|apply (sp_true f); assumption]; intros; contradiction]. }
    { eapply ep_impl; [intros x; apply (acc_part _ _ x Pf)|apply IHf; [exact Lf|eapply bins_part; eauto|exact Ff]]. }
    intros fv Ofv. destruct (callable fv) eqn:Cf; [|apply ep_raise; apply En; reflexivity].
    assert (Sl : forall e, In e l -> sp w (eval C thing e) settled).
    { intros e He. assert (P : part e (ECall f l)) by (eapply Pa_callx; [exact He|constructor]). eapply sp_impl; [|exact (eval_sound C w thing NoDefault Builtins B e (lits_part _ _ P L) (fair_part C _ _ P F))]. intros v [K _]. exact K. }
    eapply ep_bind; [apply (sp_pmapM w _ _ _ (fun _ v => settled v)); exact Sl|apply (ep_pmapM _ _ _ (fun _ v => settled v)); [exact Sl|]|].
    { intros e He. assert (P : part e (ECall f l)) by (eapply Pa_callx; [exact He|constructor]). eapply ep_impl; [intros x; apply (acc_part _ _ x P)|]. apply IHl; [exact He|eapply lits_part; eauto|eapply bins_part; eauto|eapply fair_part; eauto]. }
    intros vs Hvs. assert (Svs : forall v, In v vs -> settled v) by (intros v Hv; destruct (Forall2_In_r _ _ _ _ _ _ Hvs Hv) as [e [_ K]]; exact K). clear Hvs.
    eapply ep_bind; [apply sp_any|apply ep_ret; intros x H; destruct (is_undef (rtype f)); [discriminate H|]; apply En; eapply validate_errs; eassumption|]. intros _ _.
    assert (Nvs : forall v, In v vs -> nice v) by (intros; apply settled_nice; auto).
    assert (Ap := apply_ok C w thing B fv vs Nvs).
    apply (ep_bind _ _ _ _ (fun r => py_ok r /\ (own_call C f -> supported r))).
    { eapply sp_then; [| |].
      - instantiate (1 := fun r => py_ok r /\ (own_call C f -> supported r)). apply sp_and; [exact Ap|]. destruct (own_call_dec f) as [O|O].
        + eapply sp_impl; [|apply sp_post; [eapply sp_impl; [|exact Ap]; auto|apply own_supported; [exact (Ofv O)|exact Cf|exact Nvs]]]. auto.
        + eapply sp_impl; [|exact Ap]. intros; contradiction.
      - intros a Ha. apply sp_ok. exact Ha.
      - intros x q r q' H. cbn in H. inversion H. }
    { eapply (ep_then _ _ _ _ _ (fun _ => True)); [exact Ap|intros q x q' _ _; exact I|intros; apply ep_ok|]. intros x _ q y q' H. cbn in H. inversion H; subst. apply En. reflexivity. }
    intros r [Pr Or]. apply (ep_bind _ _ _ _ settled); [apply (nval_settled C w true r Pr); left; reflexivity| |].
    { apply ep_ret. intros x H. unfold new_value in H. destruct (coerce true r) as [u|y] eqn:E; [discriminate H|]. injection H as <-.
      assert (y = PType) by (exact (coerce_err _ _ _ Pr E)). subst y. apply acc_leak. apply lk_call. intro O. destruct (proj2 (coerce_true_supported r Pr) (Or O)) as [u Eu]. congruence. }
    intros v Sv. eapply ep_bind; [apply SF; exact Sv|apply FT; exact Sv|]. intros t _. destruct (is_compat t _); [apply ep_ok|apply ep_raise; apply En; reflexivity].
  - assert (Pc : part c (ETern c a b)) by (apply Pa_tc; constructor). assert (Pa : part a (ETern c a b)) by (apply Pa_ta; constructor). assert (Pb : part b (ETern c a b)) by (apply Pa_tb; constructor).
    eapply ep_bind; [apply (sp_true c); [eapply lits_part; eauto|eapply fair_part; eauto]|eapply ep_impl; [intros x; apply (acc_part _ _ x Pc)|apply IHc; [eapply lits_part; eauto|eapply bins_part; eauto|eapply fair_part; eauto]]|].
    intros x _. destruct (truthy x); [eapply ep_impl; [intros z; apply (acc_part _ _ z Pa)|apply IHa]|eapply ep_impl; [intros z; apply (acc_part _ _ z Pb)|apply IHb]]; first [eapply lits_part; eauto; fail|eapply bins_part; eauto; fail|eapply fair_part; eauto].
  - assert (P : part e (EUn o e)) by (apply Pa_un; constructor). assert (Le := lits_part _ _ P L). assert (Fe := fair_part C _ _ P F).
    assert (Ie : ep (eval C thing e) (accounted C w thing (EUn o e))) by (eapply ep_impl; [intros x; apply (acc_part _ _ x P)|apply IHe; [exact Le|eapply bins_part; eauto|exact Fe]]).
    destruct o; (eapply ep_bind; [exact (eval_sound C w thing NoDefault Builtins B e Le Fe)|exact Ie|]; intros x [Sx Fx]); [apply ep_ok|].
    apply ep_dc. intro dc. apply ep_ret. intros z H. destruct (neg_err _ _ _ _ Sx Fx H) as [->|[[-> K]|[-> K]]]; [apply En; reflexivity|apply acc_leak; apply lk_neg_num; exact K|apply acc_leak; apply lk_neg_time; exact K].
Qed.
End Ep.

(** ** C43 *)
Section C43.
Context {Orc : Oracle} (C : ctx).

Lemma const_part : forall x e, part x e -> is_const e -> x = e.
Proof. intros x e P K. destruct e; try contradiction; inversion P; reflexivity. Qed.
Lemma const_or_part : forall x e, part x e -> const_or_ok e -> const_or_ok x.
Proof.
  intros x e P. induction P; intro K; try exact K; apply IHP;
    (match goal with |- const_or_ok ?y => assert (D : is_const y \/ ~ is_const y) by (destruct y; cbn; auto); destruct D as [D|D]; [left; exact D|] end); right;
    (destruct K as [K|K]; [contradiction|]); (eapply la_sub; [|exact K]).
  - eapply Op_arr; [eassumption|exact D|constructor].
  - eapply Op_set; [eassumption|exact D|constructor].
  - eapply Op_key; [eassumption|exact D|constructor].
  - eapply Op_val; [eassumption|exact D|constructor].
  - apply Op_left; constructor.
  - apply Op_right; constructor.
  - apply Op_cres; constructor.
  - apply Op_cit; constructor.
  - apply Op_ccond; constructor.
  - apply Op_inc; constructor.
  - apply Op_inm; constructor.
  - apply Op_attr; constructor.
  - apply Op_itc; constructor.
  - apply Op_iti; constructor.
  - apply Op_slc; constructor.
  - apply Op_sla; constructor.
  - apply Op_slb; constructor.
  - apply Op_callf; constructor.
  - eapply Op_callx; [eassumption|constructor].
  - apply Op_tc; constructor.
  - apply Op_ta; constructor.
  - apply Op_tb; constructor.
  - apply Op_un; constructor.
Qed.
Lemma built_bins : forall n, written n -> post (build C n) bins_aware.
Proof.
  intros n W w q e q' R o a b P. assert (L := build_aware Orc C n W w q e q' R). destruct (const_or_part _ _ P (or_intror L)) as [K|K]; [contradiction|].
  split; (eapply la_sub; [|exact K]); [apply Op_left|apply Op_right]; constructor.
Qed.

(** Every exception an evaluation raises is an EngineError, or was raised by the resolver, or comes from an operation of the rule
    listed in [leaks].  Contexts with a default value, comprehension variables named like attributes, and functions declared to
    return containers of a given member type are not covered. *)
Theorem C43_characterisation_partial : forall n w0 q0 e q0' w thing q x q',
  written n -> run w0 (build C n) q0 = (Ok e, q0') -> fair C e ->
  c_default C = None -> supplied C w -> behaved w thing ->
  run w (rule_evaluate C e thing) q = (Err x, q') ->
  is_engine x = true \/ resolver_raises C w thing e x \/ exists e', part e' e /\ leaks C e' x.
Proof.
  intros n w0 q0 e q0' w thing q x q' W Bd F D Bn B R. rewrite run_rule_evaluate in R. destruct (run w (eval C thing e) _) as [r q1] eqn:E. injection R as -> _.
  eapply (eval_errors C w thing D Bn B e); [eapply build_lits; eassumption|eapply built_bins; eassumption|exact F| |exact E].
  split; [intros a []|]. split; [apply Po_scalar; exact I|constructor].
Qed.

(** So rules without such operations satisfy the property, if the resolver raises EngineErrors only (as the default one does if the
    keys of the thing are strings, C43_default_resolver). *)
Theorem C43_engine_errors_partial : forall n w0 q0 e q0' w thing q r q',
  written n -> run w0 (build C n) q0 = (Ok e, q0') -> fair C e ->
  c_default C = None -> supplied C w -> behaved w thing ->
  (forall x, resolver_raises C w thing e x -> is_engine x = true) -> (forall e' x, part e' e -> ~ leaks C e' x) ->
  run w (rule_evaluate C e thing) q = (r, q') ->
  match r with Ok v => v = VNull \/ exists t, from_value v = Ok t | Err x => is_engine x = true end.
Proof.
  intros n w0 q0 e q0' w thing q r q' W Bd F D Bn B Rs Nl R. destruct r as [v|x].
  - right. apply settled_type. eapply (C13_settled_partial C); eassumption.
  - destruct (C43_characterisation_partial _ _ _ _ _ _ _ _ _ _ W Bd F D Bn B R) as [K|[K|[e' [P K]]]]; [exact K|apply Rs; exact K|exfalso; eapply Nl; eassumption].
Qed.
End C43.
Print Assumptions C43_characterisation_partial.
Print Assumptions C43_engine_errors_partial.

(** *** A rule without such operations, in a context that declares types:
    $any(xs) and n in [1, 2, 3] and [y * 2 for y in xs if y == n].length == 2 and name =~ "L" *)
Definition c43_types (n : str) : result dtype :=
  if str_eqb n (s "xs") then Ok (TArray TFloat true) else if str_eqb n (s "n") then Ok TFloat else Ok TString.
Definition c43_thing : value := VDict [(VStr (s "xs"), VList [VInt 3; VInt 0; VInt 3]); (VStr (s "n"), VInt 3); (VStr (s "name"), VStr (s "Luke"))].
Definition c43_rule : dnode :=
  DBin BAndL (DBin BAndL (DBin BAndL (DCall (DSym (s "any") true) [DSym (s "xs") false])
    (DIn (DArr [DFloat (s "1"); DFloat (s "2"); DFloat (s "3")]) (DSym (s "n") false)))
    (DBin BEq (DAttr (DComp (DBin (BArith Mul) (DSym (s "y") false) (DFloat (s "2"))) (s "y") (DSym (s "xs") false) (Some (DBin BEq (DSym (s "y") false) (DSym (s "n") false)))) (s "length") false) (DFloat (s "2"))))
    (DBin (BFuzzy false false) (DSym (s "name") false) (DLit (VStr (s "L")))).
Definition c43_expr : expr :=
  match fst (run c13_world (build (demo_ctx c43_types) c43_rule) demo_st) with Ok e => e | Err _ => ELit VNull end.
Definition c43_lit := Eval vm_compute in c43_expr.

Ltac parts2 := repeat match goal with
  | H : In _ _ |- _ => cbn [In] in H; repeat (destruct H as [H|H]); try contradiction; try subst
  | H : part _ (_ _) |- _ => inversion H; subst; clear H
  | H : dpart _ (_ _) |- _ => inversion H; subst; clear H end.
Lemma c43_no_leak : forall e' x, part e' c43_lit -> ~ leaks (demo_ctx c43_types) e' x.
Proof.
  intros e' x H K. unfold c43_lit in H. parts2; inversion K; subst; clear K;
    try (match goal with E : maybe _ _ |- _ => destruct E as [E|E]; vm_compute in E; discriminate E end);
    try (match goal with E : _ = s "to_flt" \/ _ |- _ => destruct E as [E|E]; vm_compute in E; discriminate E end);
    try (match goal with E : _ \/ exists m nb, _ |- _ => destruct E as [E|[m [nb [E _]]]]; vm_compute in E; discriminate E end);
    try (match goal with E : ~ own_call _ _ |- _ => apply E; vm_compute; split; discriminate end);
    try (match goal with E : ~ fine_container _ _ |- _ => apply E; vm_compute; auto end);
    try (match goal with E : _ = s "to_int" |- _ => vm_compute in E; discriminate E end).
Qed.
Theorem C43_example :
  written c43_rule /\ fst (run c13_world (build (demo_ctx c43_types) c43_rule) demo_st) = Ok c43_lit /\ fair (demo_ctx c43_types) c43_lit /\
  behaved c13_world c43_thing /\ (forall e' x, part e' c43_lit -> ~ leaks (demo_ctx c43_types) e' x) /\
  (forall x, resolver_raises (demo_ctx c43_types) c13_world c43_thing c43_lit x -> is_engine x = true) /\
  fst (run c13_world (rule_evaluate (demo_ctx c43_types) c43_lit c43_thing) demo_st) = Ok (VBool true) /\
  fst (run c13_world (rule_evaluate (demo_ctx c43_types) c43_lit (VDict [])) demo_st) = Err (XSymRes (s "xs") None).
Proof.
  split; [|split; [vm_compute; reflexivity|split; [|split; [|split; [exact c43_no_leak|split; [|split; vm_compute; reflexivity]]]]]].
  - intros v H. unfold c43_rule in H. parts2; exact I.
  - split.
    + intros r n i c H. unfold c43_lit in H. parts2. intros [t [tab [H1 H2]]]. revert H1 H2. unfold attr_map. cbn [In].
      intros H1 H2. repeat (destruct H1 as [H1|H1]; [injection H1 as <- <-; vm_compute in H2; repeat (destruct H2 as [H2|H2]; [discriminate H2|]); destruct H2|]). destruct H1.
    + intros f args H. unfold c43_lit in H. parts2. left. cbn. intros nm r a mn E. injection E as _ <- _ _. exact I.
  - apply C13_default_resolver; [|discriminate|intros; apply Po_scalar; exact I]. unfold c43_thing. split.
    + apply Po_dict. intros k x [H|[H|[H|[]]]]; injection H as <- <-; (split; [apply Po_scalar; exact I|]; split; [reflexivity|]); try (apply Po_scalar; exact I). apply Po_list.
      intros y [<-|[<-|[<-|[]]]]; apply Po_scalar; exact I.
    + constructor. intros k x [H|[H|[H|[]]]]; injection H as <- <-; split; constructor. intros y [<-|[<-|[<-|[]]]]; constructor.
  - intros x [[l [n H]]|[[l [v [o [n [sf [P [K H]]]]]]]|[l [n [t [g [P [A _]]]]]]]]; [| |unfold c43_lit in P; parts2; vm_compute in A; discriminate A].
    + cbn [w_resolve c13_world default_world] in H. unfold c43_thing, resolve_item in H. destruct (dict_get _ _) in H; [discriminate H|]. vm_compute in H. injection H as <-. reflexivity.
    + unfold c43_lit in P. assert (v = VNull) by (apply K; parts2; vm_compute; reflexivity). subst v. vm_compute in H. injection H as <-. reflexivity.
Qed.

Lemma all_strs_none : forall l, all_strs l = None -> exists k y, In (k, y) l /\ forall t, k <> VStr t.
Proof.
  induction l as [|[k y] l IH]; intro E; [discriminate E|].
  change (all_strs ((k, y) :: l)) with (match key_str (k, y), all_strs l with Some t, Some ts => Some (t :: ts) | _, _ => None end) in E.
  destruct (key_str (k, y)) as [t|] eqn:K.
  - destruct (all_strs l); [discriminate E|]. destruct (IH eq_refl) as [k' [y' [H1 H2]]]. exists k', y'. split; [right; exact H1|exact H2].
  - exists k, y. split; [left; reflexivity|]. intros t ->. discriminate K.
Qed.
(** The default resolver raises TypeError for a missing name only, when a key of the mapping is not a string. *)
Theorem C43_default_resolver : forall {Orc : Oracle} v n x, resolve_item v n = Err x ->
  is_engine x = true \/ (x = PType /\ exists l k y, (v = VMap l \/ v = VDict l) /\ In (k, y) l /\ (forall t, k <> VStr t)).
Proof.
  intros Orc v n x H. unfold resolve_item in H. destruct v; try (injection H as <-; left; reflexivity);
  (destruct (dict_get _ _) in H; [discriminate H|]; destruct (all_strs l) eqn:E; [injection H as <-; left; reflexivity|]; right; split; [congruence|]; exists l;
   destruct (all_strs_none l E) as [k [y [K1 K2]]]; exists k, y; auto).
Qed.

(** *** Every row of the table is attained: rules whose evaluation raises that exception *)
Definition nothing (l : list event) (f : N) (a : list value) : result value := Ok (VObj 0).
Definition ctx_of (t : list (str * dtype)) : ctx := demo_ctx (fun n => match assoc n t with Some d => Ok d | None => Ok TUndef end).
Definition escape (t : list (str * dtype)) (n : dnode) (thing : list (string * value)) : option exn :=
  let w := default_world nothing (fun _ _ => 0) (fun _ _ => VInt 4) in
  match fst (run w (build (ctx_of t) n) demo_st) with
  | Ok e => match fst (run w (rule_evaluate (ctx_of t) e (VDict (map (fun p => (VStr (s (fst p)), snd p)) thing))) demo_st) with Ok _ => None | Err x => Some x end
  | Err _ => None
  end.
Definition v_ (n : string) : dnode := DSym (s n) false.
Definition dmaxdt : value := VDt dt_max (Some 1%N).
(** "a" + x, x a number; b + x; d + t beyond the year 9999; inf + -inf; t1 - t2; inf - inf *)
Theorem C43_add_refuted :
  escape [] (DBin BAdd (DLit (VStr (s "a"))) (v_ "x")) [("x"%string, VInt 1)] = Some PType /\
  escape [(s "x", TString)] (DBin BAdd (DLit (VStr (s "a"))) (v_ "x")) [("x"%string, VNull)] = Some PType /\
  escape [] (DBin BAdd (DLit (VBytes [97%N])) (v_ "x")) [("x"%string, VInt 1)] = Some PType /\
  escape [] (DBin BAdd (v_ "x") (DTimedelta (s "P1D"))) [("x"%string, dmaxdt)] = Some POverflow /\
  escape [(s "x", TFloat); (s "y", TFloat)] (DBin BAdd (v_ "x") (v_ "y")) [("x"%string, VDec (DInf false)); ("y"%string, VDec (DInf true))] = Some PInvalidOp /\
  escape [(s "x", TFloat); (s "y", TFloat)] (DBin BAdd (v_ "x") (v_ "y")) [("x"%string, VDec (DFin false 9 999999)); ("y"%string, VDec (DFin false 9 999999))] = Some PDecOverflow /\
  escape [(s "x", TFloat); (s "y", TFloat)] (DBin BSub (v_ "x") (v_ "y")) [("x"%string, VDec (DInf false)); ("y"%string, VDec (DInf false))] = Some PInvalidOp.
Proof. vm_compute. repeat split; reflexivity. Qed.
(** nan < 1, a comparison of two mappings, -x of too many nines, << of sets *)
Theorem C43_operators_refuted :
  escape [(s "x", TFloat)] (DBin (BCmp Clt) (v_ "x") (DFloat (s "1"))) [("x"%string, VDec DNaN)] = Some PInvalidOp /\
  escape [] (DBin (BCmp Clt) (v_ "x") (v_ "y")) [("x"%string, VDict []); ("y"%string, VDict [])] = Some PType /\
  escape [] (DUn UMinus (v_ "x")) [("x"%string, VDec (DFin false 99999999999999999999999999999 999971))] = Some PDecOverflow /\
  escape [] (DBin (BBit BShl) (v_ "x") (v_ "y")) [("x"%string, VSet []); ("y"%string, VSet [])] = Some PType.
Proof. vm_compute. repeat split; reflexivity. Qed.
(** a list as set member; an array holding a set as mapping key; containers that are null or no containers; items and slices of numbers *)
Theorem C43_containers_refuted :
  escape [] (DSet [v_ "x"]) [("x"%string, VList [VSet []])] = Some PType /\
  escape [] (DMap [(v_ "x", DLit VNull)]) [("x"%string, VList [VSet []])] = Some PType /\
  escape [(s "x", TArray TUndef true)] (DIn (v_ "x") (DFloat (s "1"))) [("x"%string, VNull)] = Some PType /\
  escape [] (DIn (v_ "x") (DFloat (s "1"))) [("x"%string, VInt 1)] = Some PType /\
  escape [] (DItem (v_ "x") (DFloat (s "0")) false) [("x"%string, VInt 1)] = Some PType /\
  escape [] (DItem (v_ "x") (v_ "y") false) [("x"%string, VDict []); ("y"%string, VSet [])] = Some PType /\
  escape [] (DSlice (v_ "x") (Some (DFloat (s "0"))) None false) [("x"%string, VInt 1)] = Some PType.
Proof. vm_compute. repeat split; reflexivity. Qed.
(** "infant".to_flt, "007".to_flt, to_set of an array of mappings, a function returning an object of an unknown class *)
Theorem C43_attributes_refuted :
  escape [(s "x", TString)] (DAttr (v_ "x") (s "to_flt") false) [("x"%string, VStr (s "infant"))] = Some PInvalidOp /\
  escape [(s "x", TString)] (DAttr (v_ "x") (s "to_flt") false) [("x"%string, VStr (s "007"))] = Some PSyntax /\
  escape [] (DAttr (v_ "x") (s "to_set") false) [("x"%string, VList [VDict []])] = Some PType /\
  escape [] (DCall (v_ "f") []) [("f"%string, VFun 0)] = Some PType.
Proof. vm_compute. repeat split; reflexivity. Qed.
(** the missing name and a key that is not a string *)
Theorem C43_resolver_refuted :
  fst (run c13_world (rule_evaluate (ctx_of []) (sym "x") (VDict [(VInt 1, VInt 2)])) demo_st) = Err PType.
Proof. vm_compute. reflexivity. Qed.
Print Assumptions C43_example.
Print Assumptions C43_attributes_refuted.
