(** * C71: a thing that conforms to the declared types never fails a rule for its symbols *)
From Coq Require Import QArith Lia String.
From Verif Require Import Base Dec Value DType DTypeFacts Types TypesFacts OrdFacts EqFacts CoerceFacts Ops ParseUtil Attr Prog Ast Eval Build Engine ProgFacts StateFacts Demo Post P_Ops P_Eval P_Names P_Errors.
Open Scope list_scope.
Open Scope Z_scope.

(** errors about symbols *)
Definition symerr (x : exn) : Prop := match x with XSymRes _ _ | XSymType _ => True | _ => False end.
Definition clean {A} (r : result A) : Prop := forall x, r = Err x -> ~ symerr x.

Lemma clean_ok : forall A (a : A), clean (Ok a).
Proof. intros A a x H. discriminate H. Qed.
Lemma clean_err : forall A x, ~ symerr x -> clean (@Err A x).
Proof. intros A x H y E. injection E as <-. exact H. Qed.
Lemma clean_bind : forall A B (r : result A) (f : A -> result B), clean r -> (forall a, r = Ok a -> clean (f a)) -> clean (rbind r f).
Proof. intros A B [a|x] f H K; cbn [rbind]; [apply K; reflexivity|]. intros y E. injection E as <-. apply H. reflexivity. Qed.
Lemma clean_map : forall A B (r : result A) (f : A -> B), clean r -> clean (rmap f r).
Proof. intros A B [a|x] f H y E; cbn in E; [discriminate E|]. injection E as <-. apply H. reflexivity. Qed.
Ltac good := first [apply clean_ok | apply clean_err; let K := fresh in intro K; exact K].
Lemma clean_from : forall v, clean (from_value v).
Proof. intros v x H. destruct (from_value_err _ _ H) as [-> | ->]; intro K; exact K. Qed.
Lemma clean_finite : forall v, clean (is_integer_number v).
Proof.
  intro v. unfold is_integer_number, is_real_number. destruct (is_numeric v); [|good]. apply clean_bind; [|intros; good]. unfold isfinite. destruct v as [| |d|z|f| | | | | | | | | | | | | | |]; try good.
  - destruct d; good.
  - destruct (Z.abs z <? float_bound); good.
  - destruct f; good.
Qed.
Lemma clean_natural : forall v, clean (is_natural_number v).
Proof. intro v. unfold is_natural_number. apply clean_bind; [apply clean_finite|]. intros b _. good. Qed.
Lemma clean_asint : forall v, clean (assert_integer v).
Proof. intro v. unfold assert_integer. apply clean_bind; [apply clean_finite|]. intros [] _; good. Qed.
Lemma clean_asnat : forall v, clean (assert_natural v).
Proof. intro v. unfold assert_natural. apply clean_bind; [apply clean_natural|]. intros [] _; good. Qed.
Lemma clean_td : forall u, clean (mk_td u).
Proof. intros u x H. apply mk_td_err in H as ->. intro K; exact K. Qed.
Lemma clean_dt : forall u z, clean (mk_dt u z).
Proof. intros u z x H. apply mk_dt_err in H as ->. intro K; exact K. Qed.
Lemma clean_add : forall {Orc : Oracle} dc x y, clean (op_add dc x y).
Proof.
  intros Orc dc x y.
  assert (N : clean (if is_bytes y || is_str y then Err XEval else if is_numeric x && is_numeric y then rdec (dadd dc (as_dec x) (as_dec y)) else Err XEval)).
  { destruct (_ || _); [good|]. destruct (_ && _); [|good]. apply clean_map. intros z H. apply dadd_err in H as [-> | ->]; intro K; exact K. }
  destruct x; try exact N; unfold op_add; destruct y; cbn [is_bytes]; try good; first [apply clean_dt|apply clean_td].
Qed.
Lemma clean_sub : forall {Orc : Oracle} dc x y, clean (op_sub dc x y).
Proof.
  intros Orc dc x y.
  assert (N : clean (if is_numeric x && is_numeric y then rdec (dsub dc (as_dec x) (as_dec y)) else Err XEval)).
  { destruct (_ && _); [|good]. apply clean_map. intros z H. unfold dsub in H. apply dadd_err in H as [-> | ->]; intro K; exact K. }
  destruct x; try exact N; unfold op_sub; destruct y; try good; try apply clean_dt; try apply clean_td. destruct tz, tz0; try good; apply clean_td.
Qed.
Lemma clean_neg : forall {Orc : Oracle} dc x, clean (op_neg dc x).
Proof.
  intros Orc dc x. assert (N : clean (if is_numeric x then rdec (dneg dc (as_dec x)) else Err XEval)).
  { destruct (is_numeric x); [|good]. apply clean_map. intros z H. apply dneg_err in H as ->. intro K; exact K. }
  destruct x; try exact N. apply clean_td.
Qed.
Lemma clean_arith : forall {Orc : Oracle} o dc x y, clean (op_arith o dc x y).
Proof.
  intros Orc o dc x y z H. unfold op_arith in H. destruct (dec_arith _ _ _ _) as [d|e] eqn:E; [discriminate H|]. rewrite (dec_arith_err Orc _ _ _ _ _ E) in H. injection H as <-. intro K; exact K.
Qed.
Lemma clean_bit_float : forall {Orc : Oracle} o x y, clean (op_bit_float o x y).
Proof. intros. unfold op_bit_float. apply clean_bind; [apply clean_asnat|intros; good]. Qed.
Lemma clean_bit_set : forall {Orc : Oracle} o x y, clean (op_bit_set o x y).
Proof.
  intros. unfold op_bit_set. apply clean_bind; [apply clean_from|]. intros t _. destruct (is_compat t t_set); [|good]. destruct x; try good; destruct y; try good. apply clean_map. destruct o; good.
Qed.
Lemma clean_pyord : forall {Orc : Oracle} v o w, clean (py_ord o v w).
Proof.
  intros Orc. assert (NUM : forall o v w, clean (match num_x v, num_x w with Some a, Some b => match xcmp a b with Some c => Ok (cop_of o c) | None => if is_dec v || is_dec w then Err PInvalidOp else Ok false end | _, _ => Err PType end)).
  { intros o v w. destruct (num_x v); [|good]. destruct (num_x w); [|good]. destruct (xcmp x x0); [good|]. destruct (_ || _); good. }
  assert (LS : forall l, Forall (fun v => forall o w, clean (py_ord o v w)) l -> forall o m, clean (ord_lists o l m)).
  { intros l F. induction F as [|x l H F IH]; intros o m; destruct m as [|y m]; cbn [ord_lists]; try good. destruct (py_eq x y); [apply IH|apply H]. }
  intro v. induction v as [|b|d|z|f|t|b|w0 tz|d|u|l IH|l IH|l|l IH|l IH|l IH|n0|f|m v IH|n0] using value_ind'; intros o w.
  all: try (destruct w; first [apply clean_err; intro K; exact K | apply clean_ok | apply (NUM o)]; fail).
  - destruct w; try (apply clean_err; intro K; exact K). cbn [py_ord]. destruct (dtm_cmp _ _ _ _); good.
  - destruct w; try (apply clean_err; intro K; exact K). rewrite py_ord_arr. apply LS. exact IH.
  - destruct w; try (apply clean_err; intro K; exact K). rewrite py_ord_list. apply LS. exact IH.
Qed.
Lemma clean_cmp : forall {Orc : Oracle} l o r, clean (cmp_values o l r).
Proof.
  intros Orc. assert (NA : forall o l r, clean (aop_native o l r)). { intros [c|] l r; [apply clean_pyord|good]. }
  assert (TG : forall o l r, clean (if pytag_eqb (pytag_of l) (pytag_of r) then aop_native o l r else Err XEval)). { intros o l r. destruct (pytag_eqb _ _); [apply NA|good]. }
  intro l. induction l as [|b|d|z|f|t|b|w0 tz|d|u|l IH|l IH|l|l IH|l IH|l IH|n0|f|m v IH|n0] using value_ind'; intros o r.
  1: destruct r; first [exact (TG _ _ _)|good].
  all: try (exact (TG _ _ _)).
  destruct r as [| | | | | | | | | |l0| | | | | | | | |]; try (exact (TG o (VArr l) _)); try good. cbn [cmp_values]. generalize (Z.of_nat (length l)) (Z.of_nat (length l0)). intros n m. revert l0.
  induction IH as [|x l H F IHl]; intros l0.
  - destruct (n =? m); [good|apply NA].
  - destruct l0 as [|y l0]; [destruct (n =? m); [good|apply NA]|]. apply clean_bind; [apply H|]. intros ne _. destruct ne; [apply H|apply IHl].
Qed.
Lemma clean_in : forall {Orc : Oracle} c m, clean (op_in c m).
Proof.
  intros Orc c m. unfold op_in. assert (P : clean (py_in m c)). { unfold py_in. destruct c; try good; try (destruct m; good); try (destruct (hashable m); good). destruct m; try good; match goal with |- clean (if ?b then _ else _) => destruct b end; good. }
  apply clean_bind; [apply clean_from|]. intros tc _. destruct (_ || _); [|exact P]. apply clean_bind; [apply clean_from|]. intros tm _. destruct (dt_eqb tm tc); [exact P|good].
Qed.
Lemma clean_getitem : forall {Orc : Oracle} c k, clean (py_getitem c k).
Proof.
  intros. unfold py_getitem. destruct c; try good; try (destruct (seq_get _ _); good); destruct (hashable k); try good; destruct (dict_get _ _); good.
Qed.
Lemma clean_getslice : forall c a b, clean (py_getslice c a b).
Proof. intros. unfold py_getslice. destruct c; good. Qed.
Lemma clean_opt_index : forall v, clean (opt_index v).
Proof. intro v. destruct v; cbn [opt_index]; try good; (apply clean_bind; [apply clean_asint|intros; good]). Qed.
Lemma clean_rmapM : forall A B (f : A -> result B) l, (forall a, In a l -> clean (f a)) -> clean (rmapM f l).
Proof.
  intros A B f l H. induction l as [|a l IH]; [apply clean_ok|]. cbn [rmapM]. apply clean_bind; [apply H; left; reflexivity|]. intros b _. apply clean_bind; [apply IH; intros; apply H; right; assumption|]. intros. good.
Qed.
Lemma clean_coerce : forall {tz : TzDb} v ver, clean (coerce ver v).
Proof.
  intro tz0.
  assert (FE : forall (u u' : value), clean (rmap (fun _ : dtype => u') (from_value u))) by (intros; apply clean_map, clean_from).
  assert (FN : forall ver (u : value), clean (if ver : bool then rmap (fun _ : dtype => u) (from_value u) else Ok u)) by (intros [] u; [apply FE|good]).
  intro v. induction v as [|b|d|z|f|t|b|w0 tz|d|u|l IH|l IH|l|l IH|l IH|l IH|n0|f|m v IH|n0] using value_ind'; intro ver; cbn [coerce]; try apply FN; rewrite Forall_forall in IH.
  - apply clean_bind; [apply clean_rmapM; intros a Ia; apply IH; exact Ia|intros; apply FN].
  - apply clean_bind; [apply clean_rmapM; intros a Ia; apply IH; exact Ia|intros; apply FN].
  - apply clean_bind; [|intros; apply FN]. apply clean_rmapM. intros kv Ik. destruct (IH kv Ik) as [H1 H2]. apply clean_bind; [apply H1|]. intros k _. apply clean_bind; [apply H2|]. intros x _. destruct (hashable k); good.
  - apply clean_bind; [|intros; apply FN]. apply clean_rmapM. intros kv Ik. destruct (IH kv Ik) as [H1 H2]. apply clean_bind; [apply H1|]. intros k _. apply clean_bind; [apply H2|]. intros x _. destruct (hashable k); good.
Qed.
Lemma clean_new : forall {Orc : Oracle} tz ver v, clean (new_value tz ver v).
Proof. intros. unfold new_value. apply clean_map, clean_coerce. Qed.
Lemma clean_key : forall v, clean (map_key v).
Proof. intro v. unfold map_key. apply clean_bind; [apply clean_from|]. intros t _. destruct (_ && _); [good|]. destruct (hashable v); good. Qed.
Lemma clean_validate : forall t vs, clean (validate t (map from_value vs)).
Proof.
  intros t vs. unfold validate. destruct t; try good. cbv zeta. destruct (match minargs with Some m => _ | None => _ end); [good|]. destruct args as [l|]; [|good]. destruct (_ <? _); [good|].
  revert l. induction vs as [|v vs IH]; intros [|p l]; cbn [map check_args]; try good. apply clean_bind; [apply clean_from|]. intros a _. destruct (is_compat a p); [apply IH|good].
Qed.
Lemma clean_to_flt : forall {Orc : Oracle} t, clean (string_to_flt t).
Proof. intros Orc t x H. destruct (flt_err _ _ H) as [-> | ->]; intro K; exact K. Qed.
Lemma clean_attr : forall {Orc : Oracle} v n, clean (resolve_attr v n).
Proof.
  intros Orc v n. unfold resolve_attr. assert (F := clean_from v). destruct (from_value v) as [t|x]; [|intros y E; destruct x; injection E as <-; first [apply F; reflexivity|intro K; exact K]].
  apply clean_bind; [unfold get_attr; destruct (attr_table attr_map t) as [tab|]; [destruct (assoc n tab)|]; good|]. intros a _. apply clean_bind.
  - assert (IT : forall v, clean (rbind (is_integer_number v) (fun b => if b then Ok v else Err XEval))) by (intro u; apply clean_bind; [apply clean_finite|intros [] _; good]).
    assert (IR : forall v, clean (py_iter v)) by (intros []; good). assert (LN : forall v, clean (py_len v)) by (intros []; good).
    destruct a; try (destruct v; good); try (apply clean_map; first [apply IR|apply LN]).
    + destruct v; try good. destruct tz; good.
    + destruct v; try good. apply IT.
    + destruct v; try good. apply clean_to_flt.
    + destruct v; try good. cbn [attr_fun]. apply clean_bind; [apply clean_to_flt|intros; apply IT].
    + cbn [attr_fun]. apply clean_bind; [apply IR|]. intros l _. unfold py_set. destruct (forallb hashable l); good.
  - intros u _. apply clean_bind; [apply clean_coerce|]. intros u' _. apply clean_bind; [apply clean_from|]. intros vt _. apply clean_bind.
    + destruct a; cbn [attr_type]; try good; destruct vt; try good; repeat match goal with |- clean (if ?b then _ else _) => destruct b end; good.
    + intros et _. destruct (is_compat et vt); good.
Qed.

(** ** Specification *)
(** the names a rule uses with a dollar sign, and the variables of its comprehensions *)
Fixpoint dollar_names (n : dnode) : list str :=
  match n with
  | DLit _ | DFloat _ | DDatetime _ | DTimedelta _ => []
  | DArr l | DSet l => flat_map dollar_names l
  | DMap l => flat_map (fun kv => dollar_names (fst kv) ++ dollar_names (snd kv)) l
  | DBin _ a b => dollar_names a ++ dollar_names b
  | DComp r v i c => dollar_names i ++ dollar_names r ++ match c with Some c => dollar_names c | None => [] end
  | DIn c m => dollar_names c ++ dollar_names m
  | DAttr o _ _ => dollar_names o
  | DItem c i _ => dollar_names c ++ dollar_names i
  | DSlice c a b _ => dollar_names c ++ match a with Some a => dollar_names a | None => [] end ++ match b with Some b => dollar_names b | None => [] end
  | DSym n bi => if bi then [n] else []
  | DCall f l => dollar_names f ++ flat_map dollar_names l
  | DTern c a b => dollar_names c ++ dollar_names a ++ dollar_names b
  | DUn _ e => dollar_names e
  end.
Fixpoint variables (n : dnode) : list str :=
  match n with
  | DLit _ | DFloat _ | DDatetime _ | DTimedelta _ | DSym _ _ => []
  | DArr l | DSet l => flat_map variables l
  | DMap l => flat_map (fun kv => variables (fst kv) ++ variables (snd kv)) l
  | DBin _ a b => variables a ++ variables b
  | DComp r v i c => v :: variables i ++ variables r ++ match c with Some c => variables c | None => [] end
  | DIn c m => variables c ++ variables m
  | DAttr o _ _ => variables o
  | DItem c i _ => variables c ++ variables i
  | DSlice c a b _ => variables c ++ match a with Some a => variables a | None => [] end ++ match b with Some b => variables b | None => [] end
  | DCall f l => variables f ++ flat_map variables l
  | DTern c a b => variables c ++ variables a ++ variables b
  | DUn _ e => variables e
  end.

(** ** What construction leaves in the tree *)
Section Conform.
Context {Orc : Oracle} (C : ctx) (V B : list str).

Fixpoint declared (b : list str) (e : expr) : Prop :=
  match e with
  | ELit _ | EFun _ _ => True
  | EArr l | ESet l => fold_right (fun x P => declared b x /\ P) True l
  | EMap l => fold_right (fun kv P => (declared b (fst kv) /\ declared b (snd kv)) /\ P) True l
  | EBin _ x y => declared b x /\ declared b y
  | EComp r v i c => In v V /\ declared b i /\ declared (v :: b) r /\ match c with Some c => declared (v :: b) c | None => True end
  | EIn c m => declared b c /\ declared b m
  | EAttr o _ _ => declared b o
  | EItem c i _ => declared b c /\ declared b i
  | ESlice c x y _ => declared b c /\ declared b x /\ declared b y
  | ESym n bi t => if bi then In n B /\ t = match assoc n (c_btypes C) with Some t => t | None => TUndef end else In n b \/ c_types C n = Ok t
  | ECall f l => declared b f /\ fold_right (fun x P => declared b x /\ P) True l
  | ETern c x y => declared b c /\ declared b x /\ declared b y
  | EUn _ x => declared b x
  end.

Lemma fold_all : forall A (P : A -> Prop) l, fold_right (fun x Q => P x /\ Q) True l <-> Forall P l.
Proof. intros A P l. induction l as [|a l IH]; cbn; [split; auto|]. rewrite IH. split; [intros [H K]; constructor; assumption|intro H; inversion H; auto]. Qed.
Definition same_names (a b : list str) : Prop := forall n, In n a <-> In n b.
Lemma same_cons : forall v a b, same_names a b -> same_names (v :: a) (v :: b).
Proof. intros v a b H n. cbn. rewrite (H n). reflexivity. Qed.
Lemma declared_ext : forall e a b, same_names a b -> declared a e -> declared b e.
Proof.
  induction e as [v|v t|l IH|l IH|l IH|o x y IHa IHb|r n i c IHr IHi IHc|c m IHc IHm|o n sf IHo|c i sf IHc IHi|c x y sf IHc IHa IHb|n bi t|f l IHf IHl|c x y IHc IHa IHb|o e IHe] using expr_ind'; intros a b S H; cbn [declared] in *.
  - exact I.
  - exact I.
  - apply fold_all in H. apply fold_all. rewrite Forall_forall in *. intros z Z. eapply IH; eauto.
  - apply fold_all in H. apply fold_all. rewrite Forall_forall in *. intros z Z. eapply IH; eauto.
  - apply (fold_all _ (fun kv => declared a (fst kv) /\ declared a (snd kv))) in H. apply (fold_all _ (fun kv => declared b (fst kv) /\ declared b (snd kv))). rewrite Forall_forall in *. intros z Z. destruct (IH z Z) as [K1 K2]. destruct (H z Z). split; [eapply K1|eapply K2]; eauto.
  - destruct H. split; eauto.
  - destruct H as [H1 [H2 [H3 H4]]]. split; [exact H1|]. split; [eauto|]. split; [eapply IHr; [apply same_cons; exact S|exact H3]|]. destruct c as [c|]; [|exact I]. eapply IHc; [apply same_cons; exact S|exact H4].
  - destruct H. split; eauto.
  - eauto.
  - destruct H. split; eauto.
  - destruct H as [? [? ?]]. split; [eauto|split; eauto].
  - destruct bi; [exact H|]. destruct H as [H|H]; [left; apply S; exact H|right; exact H].
  - destruct H as [H1 H2]. split; [eauto|]. apply fold_all in H2. apply fold_all. rewrite Forall_forall in *. intros z Z. eapply IHl; eauto.
  - destruct H as [? [? ?]]. split; [eauto|split; eauto].
  - eauto.
Qed.

Lemma lit_declared : forall b v e, lit_of v = Ok e -> declared b e.
Proof.
  intro b. assert (M : forall l, Forall (fun v => forall e, lit_of v = Ok e -> declared b e) l -> forall es, rmapM lit_of l = Ok es -> fold_right (fun x P => declared b x /\ P) True es).
  { intros l F. induction F as [|v l H F IH]; intros es E; cbn [rmapM] in E; [injection E as <-; exact I|]. apply rbind_ok in E as [e [E1 E]]. apply rbind_ok in E as [es' [E2 E]]. injection E as <-. split; [apply H; exact E1|apply IH; exact E2]. }
  assert (M2 : forall l, Forall (fun kv => (forall e, lit_of (fst kv) = Ok e -> declared b e) /\ (forall e, lit_of (snd kv) = Ok e -> declared b e)) l -> forall es,
     rmapM (fun kv => rbind (lit_of (fst kv)) (fun k => rbind (lit_of (snd kv)) (fun w => Ok (k, w)))) l = Ok es -> fold_right (fun kv P => (declared b (fst kv) /\ declared b (snd kv)) /\ P) True es).
  { intros l F. induction F as [|[k v] l [H1 H2] F IH]; intros es E; cbn [rmapM] in E; [injection E as <-; exact I|]. apply rbind_ok in E as [kv [E1 E]]. apply rbind_ok in E as [es' [E2 E]]. injection E as <-.
    apply rbind_ok in E1 as [k' [K1 E1]]. apply rbind_ok in E1 as [v' [K2 E1]]. injection E1 as <-. split; [split; [apply H1; exact K1|apply H2; exact K2]|apply IH; exact E2]. }
  intro v. induction v as [|x|d|z|f|t|x|w0 tz|d|u|l IH|l IH|l|l IH|l IH|l IH|n0|f|m v IH|n0] using value_ind'; intros e E; cbn [lit_of] in E; apply rbind_ok in E as [ty [_ E]]; try (apply rmap_ok in E as [u' [_ ->]]; exact I).
  - apply rmap_ok in E as [es [E ->]]. exact (M l IH es E).
  - apply rmap_ok in E as [es [E ->]]. exact (M l IH es E).
  - injection E as <-. cbn [declared]. induction l; cbn; [exact I|split; [exact I|assumption]].
  - apply rmap_ok in E as [es [E ->]]. exact (M l IH es E).
  - apply rmap_ok in E as [es [E ->]]. exact (M2 l IH es E).
  - apply rmap_ok in E as [es [E ->]]. exact (M2 l IH es E).
Qed.
Lemma fold_declared : forall b e, post (fold C e) (declared b).
Proof. intros b e. apply post_bind_any. intro v. apply post_ret. intros x H. eapply lit_declared; exact H. Qed.
Lemma reduce_declared : forall b e, declared b e -> post (reduce C e) (declared b).
Proof.
  intros b e. induction e as [v|v t|l IH|l IH|l IH|o x y IHa IHb|r n i c IHr IHi IHc|c m IHc IHm|o n sf IHo|c i sf IHc IHi|c x y sf IHc IHa IHb|n bi t|f l IHf IHl|c x y IHc IHa IHb|o e IHe] using expr_ind';
    intro L; cbn [reduce]; try (apply post_ok; exact L).
  - destruct (_ && _); [apply fold_declared|apply post_ok; exact L].
  - destruct (_ && _); [|apply post_ok; exact L]. apply post_bind_any. intro v. apply post_ok. exact I.
  - destruct (is_reduced o); [|apply post_ok; exact L]. eapply post_bind; [apply fold_declared|]. intros l Hl. apply post_ok. destruct l; try exact Hl. destruct (_ && _); exact I.
  - destruct (match rtype c with TMap k _ _ => sf && negb (is_compat (rtype i) k) | _ => false end); [apply post_ok; exact I|]. destruct (_ && _); [apply fold_declared|apply post_ok; exact L].
  - destruct (_ && _); [apply fold_declared|apply post_ok; exact L].
  - destruct (_ && _); [apply fold_declared|apply post_ok; exact L].
  - destruct (is_reduced c); [|apply post_ok; exact L]. destruct L as [_ [L1 L2]]. destruct (lit_truthy c); [apply IHa; exact L1|apply IHb; exact L2].
  - destruct o; (destruct (is_reduced e); [|apply post_ok; exact L]).
    + apply post_bind_any. intro v. apply post_ok. exact I.
    + destruct e as [v| | | | | | | | | | | | | | ]; try apply post_raise. destruct v; try apply post_raise; (apply post_bind_any; intro; apply post_ok; exact I).
Qed.

Definition names_in (n : dnode) : Prop := incl (dollar_names n) B /\ incl (variables n) V.
Definition made (n : dnode) : Prop := forall w q e q', names_in n -> run w (build C n) q = (Ok e, q') -> declared (bnd q) e.
Ltac inv_bind H x q1 H1 := apply run_pbind_ok in H; destruct H as [x [q1 [H1 H]]].
Lemma incl_app_l : forall (a b c : list str), incl (a ++ b) c -> incl a c. Proof. intros a b c H x K. apply H, in_or_app. left. exact K. Qed.
Lemma incl_app_r : forall (a b c : list str), incl (a ++ b) c -> incl b c. Proof. intros a b c H x K. apply H, in_or_app. right. exact K. Qed.
Lemma made_list : forall l, Forall made l -> forall w q es q', incl (flat_map dollar_names l) B -> incl (flat_map variables l) V -> run w (pmapM (build C) l) q = (Ok es, q') ->
  fold_right (fun x P => declared (bnd q) x /\ P) True es.
Proof.
  induction l as [|a l IH]; intros F w q es q' HB HV H; cbn [pmapM] in H; [injection H as <- <-; exact I|]. inversion F as [|? ? Ha Hl]; subst. inv_bind H e q1 H1. inv_bind H es' q2 H2. injection H as <- <-.
  cbn [flat_map] in HB, HV. split; [eapply Ha; [split; eapply incl_app_l; eassumption|exact H1]|]. rewrite <- (build_bnd C _ _ _ _ _ H1). eapply IH; [exact Hl|eapply incl_app_r; exact HB|eapply incl_app_r; exact HV|exact H2].
Qed.
Ltac names H := let HB := fresh "HB" in let HV := fresh "HV" in destruct H as [HB HV]; cbn [dollar_names variables] in HB, HV.
Ltac part_names := split; [first [eassumption|eapply incl_app_l; eassumption|eapply incl_app_r; eassumption|eapply incl_app_l; eapply incl_app_r; eassumption|eapply incl_app_r; eapply incl_app_r; eassumption]
                          |first [eassumption|eapply incl_app_l; eassumption|eapply incl_app_r; eassumption|eapply incl_app_l; eapply incl_app_r; eassumption|eapply incl_app_r; eapply incl_app_r; eassumption]].
Lemma reduce_made : forall w b e q e' q', declared b e -> run w (reduce C e) q = (Ok e', q') -> declared b e'.
Proof. intros w b e q e' q' D H. eapply reduce_declared; eassumption. Qed.
Theorem build_declared : forall n, made n.
Proof.
  induction n as [v|t|t|t|l IH|l IH|l IH|o a b IHa IHb|r v i c IHr IHi IHc|c m IHc IHm|o nm sf IHo|c i sf IHc IHi|c a b sf IHc IHa IHb|nm bi|f l IHf IHl|c a b IHc IHa IHb|o x IHx] using dnode_ind'; intros w q e q' N H; cbn [build] in H; names N.
  - injection H as <- <-. exact I.
  - cbn in H. injection H as H _. apply rmap_ok in H as [d [_ ->]]. exact I.
  - cbn in H. injection H as H _. apply rmap_ok in H as [d [_ ->]]. exact I.
  - cbn in H. injection H as H _. apply rmap_ok in H as [d [_ ->]]. exact I.
  - inv_bind H es q1 H1. injection H as <- <-. cbn [declared]. eapply made_list; eassumption.
  - inv_bind H es q1 H1. injection H as <- <-. cbn [declared]. eapply made_list; eassumption.
  - inv_bind H es q1 H1. inv_bind H u q2 H2. injection H as <- <-. cbn [declared]. clear H2.
    revert q es q1 H1. induction l as [|kv l IHl]; intros q es q1 H1; cbn [pmapM] in H1; [injection H1 as <- <-; exact I|]. inversion IH as [|? ? [Hk Hv] Hl]; subst. cbn [flat_map] in HB, HV.
    inv_bind H1 p q3 H3. inv_bind H1 es' q4 H4. injection H1 as <- <-. inv_bind H3 k q5 H5. inv_bind H3 v q6 H6. injection H3 as <- <-. cbn [fold_right fst snd].
    assert (E1 := build_bnd C _ _ _ _ _ H5). assert (E2 := build_bnd C _ _ _ _ _ H6). split; [split|].
    + eapply Hk; [split; eapply incl_app_l; eapply incl_app_l; eassumption|exact H5].
    + rewrite <- E1. eapply Hv; [split; eapply incl_app_r; eapply incl_app_l; eassumption|exact H6].
    + rewrite <- E1, <- E2. eapply IHl; [exact Hl|eapply incl_app_r; exact HB|eapply incl_app_r; exact HV|exact H4].
  - inv_bind H x q1 H1. inv_bind H y q2 H2. inv_bind H u q3 H3. eapply reduce_made; [|exact H]. split; [eapply IHa; [part_names|exact H1]|]. rewrite <- (build_bnd C _ _ _ _ _ H1). eapply IHb; [part_names|exact H2].
  - inv_bind H i' q1 H1. destruct (_ && _) in H; [discriminate H|]. inv_bind H cr q2 H2. injection H as <- <-. apply run_scope_ok in H2 as [q3 [H2 _]]. inv_bind H2 c' q4 H4. inv_bind H2 e q5 H5. injection H2 as <- <-. cbn [fst snd declared].
    match type of H4 with run w _ ?s0 = _ => set (qs := s0) in * end.
    assert (Eb : same_names (bnd qs) (v :: bnd q)). { intro x. unfold qs, bnd. cbn. rewrite map_app, in_app_iff. fold (bnd q1). rewrite (build_bnd C _ _ _ _ _ H1). cbn. tauto. }
    split; [apply HV; left; reflexivity|]. assert (HV' : incl (variables i ++ variables r ++ match c with Some c => variables c | None => [] end) V) by (intros x K; apply HV; right; exact K).
    split; [eapply IHi; [part_names|exact H1]|].
    destruct c as [c|].
    + inv_bind H4 ec q6 H6. injection H4 as <- <-. split.
      * apply (declared_ext _ (bnd q6)); [|eapply IHr; [part_names|exact H5]]. rewrite (build_bnd C _ _ _ _ _ H6). exact Eb.
      * apply (declared_ext _ _ _ Eb). eapply IHc; [part_names|exact H6].
    + injection H4 as <- <-. split; [|exact I]. apply (declared_ext _ _ _ Eb). eapply IHr; [part_names|exact H5].
  - inv_bind H x q1 H1. inv_bind H y q2 H2. inv_bind H u q3 H3. eapply reduce_made; [|exact H]. split; [eapply IHc; [part_names|exact H1]|]. rewrite <- (build_bnd C _ _ _ _ _ H1). eapply IHm; [part_names|exact H2].
  - inv_bind H x q1 H1. inv_bind H u q3 H3. eapply reduce_made; [|exact H]. cbn [declared]. eapply IHo; [part_names|exact H1].
  - inv_bind H x q1 H1. inv_bind H y q2 H2. inv_bind H u q3 H3. eapply reduce_made; [|exact H]. split; [eapply IHc; [part_names|exact H1]|]. rewrite <- (build_bnd C _ _ _ _ _ H1). eapply IHi; [part_names|exact H2].
  - inv_bind H x q1 H1. inv_bind H y q2 H2. inv_bind H z q3 H3. inv_bind H u q4 H4. eapply reduce_made; [|exact H]. clear H H4. cbn [declared].
    assert (X1 : declared (bnd q) (mk_lit_slice x (VDec (dec_of_Z 0))) /\ bnd q1 = bnd q).
    { destruct a as [a|]; [|injection H1 as <- <-; split; [exact I|reflexivity]]. inv_bind H1 ea q5 H5. injection H1 as <- <-. split; [eapply IHa; [part_names|exact H5]|exact (build_bnd C _ _ _ _ _ H5)]. }
    assert (X2 : declared (bnd q1) (mk_lit_slice y VNull) /\ bnd q2 = bnd q1).
    { destruct b as [b|]; [|injection H2 as <- <-; split; [exact I|reflexivity]]. inv_bind H2 eb q5 H5. injection H2 as <- <-. split; [eapply IHb; [part_names|exact H5]|exact (build_bnd C _ _ _ _ _ H5)]. }
    destruct X1 as [X1 E1]. destruct X2 as [X2 E2]. rewrite E1 in X2, E2. split; [rewrite <- E2; eapply IHc; [part_names|exact H3]|]. split; assumption.
  - inv_bind H u q1 H1. inv_bind H t q2 H2. injection H as <- <-. cbn [declared]. cbn in H1. injection H1 as _ <-. unfold resolve_type in H2. destruct bi; [injection H2 as <- _; split; [apply HB; left; reflexivity|reflexivity]|].
    inv_bind H2 l q3 H3. cbn in H3. injection H3 as <- <-. cbn [add_sym s_scopes] in H2. destruct (find_scope _ nm) as [a|] eqn:F in H2.
    + left. destruct (str_mem nm (bnd q)) eqn:M; [apply str_mem_In; exact M|]. apply find_scope_None in M. cbn in F. congruence.
    + right. cbn in H2. injection H2 as H2 _. exact H2.
  - inv_bind H x q1 H1. inv_bind H es q2 H2. inv_bind H u q3 H3. eapply reduce_made; [|exact H]. split; [eapply IHf; [part_names|exact H1]|]. rewrite <- (build_bnd C _ _ _ _ _ H1). eapply made_list; [exact IHl|eapply incl_app_r; exact HB|eapply incl_app_r; exact HV|exact H2].
  - inv_bind H x q1 H1. inv_bind H y q2 H2. inv_bind H z q3 H3. eapply reduce_made; [|exact H]. assert (E1 := build_bnd C _ _ _ _ _ H1). assert (E2 := build_bnd C _ _ _ _ _ H2). split; [eapply IHc; [part_names|exact H1]|]. split; [rewrite <- E1; eapply IHa; [part_names|exact H2]|rewrite <- E1, <- E2; eapply IHb; [part_names|exact H3]].
  - inv_bind H x' q1 H1. eapply reduce_made; [|exact H]. cbn [declared]. eapply IHx; [part_names|exact H1].
Qed.

(** ** What evaluation raises *)
Lemma builtin_fits : forall n bv, assoc n default_values = Some bv -> forall t, t = match assoc n default_types with Some t => t | None => TUndef end ->
  (exists v, bv = BVconst v /\ forall tz, exists v', new_value tz false v = Ok v' /\ conforms t v') \/ (bv = BVnow /\ t = TDatetime) \/ (bv = BVtoday /\ t = TDatetime) \/ (bv = BVgroups /\ n = s "re_groups").
Proof.
  intros n bv A t ->. unfold default_values in A. cbn [assoc fst snd] in A.
  repeat match type of A with (if str_eqb n ?k then _ else _) = _ => destruct (str_eqb n k) eqn:E; [apply str_eqb_eq in E; subst n; injection A as <-;
    first [left; eexists; split; [reflexivity|]; intro tz; eexists; split; [reflexivity|]; apply (proj1 (sym_check_iff (s "x") _ _)); vm_compute; reflexivity
          |right; left; split; reflexivity|right; right; left; split; reflexivity|right; right; right; split; reflexivity]|clear E] end.
  discriminate A.
Qed.
Lemma builtin_none : forall n, assoc n default_values = None -> assoc n default_types = None.
Proof.
  intros n A. destruct (assoc n default_types) as [t|] eqn:E; [|reflexivity]. exfalso. unfold default_types in E. cbn [assoc fst snd] in E.
  repeat match type of E with (if str_eqb n ?k then _ else _) = _ => destruct (str_eqb n k) eqn:E0; [apply str_eqb_eq in E0; subst n; vm_compute in A; discriminate A|clear E0] end. discriminate E.
Qed.
Section Evaluate.
Context (w : world) (thing : value).
Hypothesis Hsym : forall n t, c_types C n = Ok t -> forall l, exists v v', w_resolve w l thing n = Ok v /\ new_value (c_tz C) false v = Ok v' /\ conforms t v'.
Hypothesis Hres : forall l v n m, w_resolve w l v n <> Err (XSymType m).
Hypothesis Hbv : c_bvals C = default_values.
Hypothesis Hbt : c_btypes C = default_types.

Definition allowed (x : exn) : Prop :=
  match x with XSymRes n _ => In n B /\ assoc n (c_bvals C) = None /\ c_default C = None | XSymType n => In n B /\ n = s "re_groups" \/ In n V | _ => True end.
Lemma clean_allowed : forall x, ~ symerr x -> allowed x.
Proof. intros x H. destruct x; try exact I; exfalso; apply H; exact I. Qed.
Definition lp (b : list str) {A} (p : prog A) : Prop := forall q x q', same_names (bnd q) b -> incl b V -> run w p q = (Err x, q') -> allowed x.
Lemma lp_ok : forall b A (a : A), lp b (ok a).
Proof. intros b A a q x q' _ _ H. discriminate H. Qed.
Lemma lp_ret : forall b A (r : result A), clean r -> lp b (Ret r).
Proof. intros b A r H q x q' _ _ E. cbn in E. injection E as E _. apply clean_allowed. exact (H x E). Qed.
Lemma lp_raise : forall b A x, ~ symerr x -> lp b (@raise A x).
Proof. intros b A x H. apply lp_ret. apply clean_err. exact H. Qed.
Lemma lp_bind : forall b A X (p : prog A) (f : A -> prog X), keeps s_scopes p -> lp b p -> (forall a, lp b (f a)) -> lp b (pbind p f).
Proof.
  intros b A X p f K Hp Hf q x q' S V0 H. rewrite run_pbind in H. specialize (K w q). destruct (run w p q) as [[a|y] q1] eqn:R.
  - eapply Hf; [|exact V0|exact H]. unfold bnd in *. cbn in K. rewrite K. exact S.
  - injection H as <- <-. eapply Hp; eassumption.
Qed.
Lemma lp_pmapM : forall b A X (f : A -> prog X) l, (forall a, In a l -> keeps s_scopes (f a)) -> (forall a, In a l -> lp b (f a)) -> lp b (pmapM f l).
Proof.
  intros b A X f l K H. induction l as [|a l IH]; [apply lp_ok|]. cbn [pmapM]. apply lp_bind; [apply K; left; reflexivity|apply H; left; reflexivity|]. intro y.
  apply lp_bind; [apply keeps_pmapM; intros; apply K; right; assumption|apply IH; intros; [apply K|apply H]; right; assumption|intros; apply lp_ok].
Qed.
Lemma keeps_eval : forall e, keeps s_scopes (eval C thing e).
Proof. intros e w0 q. apply eval_scopes. Qed.
Lemma keeps_comp : forall v cond body, keeps s_scopes body -> (forall c, cond = Some c -> keeps s_scopes c) -> forall l, keeps s_scopes (comp_loop v cond body l).
Proof.
  intros v cond body Kb Kc. induction l as [|x l IH]; [apply keeps_ret|]. cbn [comp_loop]. apply keeps_pbind; [|intro; apply keeps_pbind; [exact IH|intro; apply keeps_ret]].
  apply keeps_scope. apply keeps_pbind; [destruct cond as [c|]; [apply keeps_pbind; [apply Kc; reflexivity|]; intro; apply keeps_ret|apply keeps_ret]|].
  intros []; [apply keeps_pbind; [exact Kb|]; intro; apply keeps_ret|apply keeps_ret].
Qed.
(** programs whose errors are harmless in every state *)
Definition always {A} (p : prog A) : Prop := forall q x q', run w p q = (Err x, q') -> allowed x.
Lemma always_lp : forall b A (p : prog A), always p -> lp b p.
Proof. intros b A p H q x q' _ _ R. eapply H; exact R. Qed.
Lemma lp_bind_any : forall b A X (p : prog A) (f : A -> prog X), lp b p -> (forall a, always (f a)) -> lp b (pbind p f).
Proof.
  intros b A X p f Hp Hf q x q' S V0 H. rewrite run_pbind in H. destruct (run w p q) as [[a|y] q1] eqn:R; [eapply Hf; exact H|]. injection H as <- <-. eapply Hp; eassumption.
Qed.
Lemma always_ret : forall A (r : result A), clean r -> always (Ret r).
Proof. intros A r H q x q' E. cbn in E. injection E as E _. apply clean_allowed. exact (H x E). Qed.
Lemma always_bind : forall A X (p : prog A) (f : A -> prog X), always p -> (forall a, always (f a)) -> always (pbind p f).
Proof. intros A X p f Hp Hf q x q' H. rewrite run_pbind in H. destruct (run w p q) as [[a|y] q1] eqn:R; [eapply Hf; exact H|]. injection H as <- <-. eapply Hp; exact R. Qed.
Lemma always_then : forall A X (p : prog A) (f : result A -> prog X), (forall r, always (f r)) -> always (pthen p f).
Proof. intros A X p f Hf q x q' H. rewrite run_pthen in H. destruct (run w p q) as [r q1]. eapply Hf; exact H. Qed.
Lemma lp_scope : forall b A a (p : prog A), keeps s_scopes p -> In (a_name a) V -> lp (a_name a :: b) p -> lp b (with_scope a p).
Proof.
  intros b A a p K HV Hp q x q' S V0 H. rewrite (run_scope_bal A a p w q K) in H. destruct (run w p _) as [r q1] eqn:R. injection H as -> _. eapply Hp; [| |exact R].
  - intro n. unfold bnd. cbn. rewrite map_app, in_app_iff. fold (bnd q). rewrite (S n). cbn. tauto.
  - intros n [<-|N]; [exact HV|apply V0; exact N].
Qed.
Lemma lp_comp_loop : forall b v cond body, In v V -> keeps s_scopes body -> (forall c, cond = Some c -> keeps s_scopes c) -> lp (v :: b) body -> (forall c, cond = Some c -> lp (v :: b) c) ->
  forall l, lp b (comp_loop v cond body l).
Proof.
  intros b v cond body HV Kb Kc Hb Hc. induction l as [|x l IH]; [apply lp_ok|]. cbn [comp_loop].
  set (inner := (do! b := (match cond with None => ok true | Some c => do! v := c in ok (truthy v) end) in if b then (do! v := body in ok (Some v)) else ok None) : prog (option value)).
  assert (Kin : keeps s_scopes inner).
  { apply keeps_pbind; [destruct cond as [c|]; [apply keeps_pbind; [apply Kc; reflexivity|]; intro; apply keeps_ret|apply keeps_ret]|].
    intros []; [apply keeps_pbind; [exact Kb|]; intro; apply keeps_ret|apply keeps_ret]. }
  assert (Lin : lp (v :: b) inner).
  { apply lp_bind; [destruct cond as [c|]; [apply keeps_pbind; [apply Kc; reflexivity|]; intro; apply keeps_ret|apply keeps_ret]| |].
    - destruct cond as [c|]; [|apply lp_ok]. apply lp_bind; [apply Kc; reflexivity|apply Hc; reflexivity|intro; apply lp_ok].
    - intros []; [|apply lp_ok]. apply lp_bind; [exact Kb|exact Hb|intro; apply lp_ok]. }
  apply lp_bind; [apply (keeps_scope _ _ inner Kin)|apply lp_scope; [exact Kin|exact HV|exact Lin]|]. intro o.
  apply lp_bind; [apply keeps_comp; assumption|exact IH|intro; apply lp_ok].
Qed.
Lemma lp_dc : forall b (k : dctx -> prog value), (forall dc, lp b (k dc)) -> lp b (pbind (act OGetDc) k).
Proof. intros b k H. apply lp_bind; [intros w0 q; reflexivity| |exact H]. intros q x q' _ _ R. cbn in R. discriminate R. Qed.
Lemma lp_nval : forall b ver v, lp b (nval C ver v).
Proof. intros. apply lp_ret, clean_new. Qed.
Lemma lp_vbool : forall b r, clean r -> lp b (vbool r).
Proof. intros. apply lp_ret, clean_map. assumption. Qed.
Ltac ck := let K := fresh in intro K; exact K.
Lemma fuzzy_always : forall sr ng pre x y, always (fuzzy_match C sr ng pre x y).
Proof.
  assert (R : forall A x, ~ symerr x -> always (@raise A x)) by (intros; apply always_ret, clean_err; assumption). assert (O : forall A (a : A), always (ok a)) by (intros; apply always_ret, clean_ok).
  intros sr ng pre x y. unfold fuzzy_match. assert (Z : forall A, always (@raise A XEval)) by (intros; apply R; ck).
  destruct x; try apply Z; destruct y; try apply Z; try apply O; (apply always_bind; [apply always_ret; destruct pre; [apply clean_ok|unfold compile_ok; destruct (o_re_ok _ _); [apply clean_ok|apply clean_err; ck]]|]); intros _; try apply O.
  destruct (o_re _ _ _ _) as [gs|]; [|apply O]. apply always_bind; [intros q x q' E; cbn in E; discriminate E|intros; apply O].
Qed.
Lemma resolve_err : forall v n q x q', run w (resolve C v n false) q = (Err x, q') -> exists l, w_resolve w l v n = Err x.
Proof.
  intros v n q x q' H. unfold resolve in H. rewrite run_pbind in H. cbn in H. destruct (find_scope (s_scopes q) n); [discriminate H|]. cbn in H. injection H as H _. eauto.
Qed.

Theorem eval_allowed : forall e b, declared b e -> lp b (eval C thing e).
Proof.
  assert (KM : forall l, keeps s_scopes (pmapM (eval C thing) l)) by (intro l; apply keeps_pmapM; intros; apply keeps_eval).
  assert (LM : forall b l, Forall (fun e => forall b, declared b e -> lp b (eval C thing e)) l -> fold_right (fun x P => declared b x /\ P) True l -> lp b (pmapM (eval C thing) l)).
  { intros b l F D. apply fold_all in D. rewrite Forall_forall in *. apply lp_pmapM; [intros; apply keeps_eval|]. intros a Ia. apply F; [exact Ia|apply D; exact Ia]. }
  assert (RR : forall A x, ~ symerr x -> always (@raise A x)) by (intros; apply always_ret, clean_err; assumption). assert (OO : forall A (a : A), always (ok a)) by (intros; apply always_ret, clean_ok).
  induction e as [v|v t|l IH|l IH|l IH|o x y IHa IHb|r n i c IHr IHi IHc|c m IHc IHm|o n sf IHo|c i sf IHc IHi|c x y sf IHc IHa IHb|n bi t|f l IHf IHl|c x y IHc IHa IHb|o e IHe] using expr_ind'; intros b D; cbn [declared] in D; cbn [eval].
  - apply lp_ok.
  - apply lp_ok.
  - apply lp_bind_any; [apply LM; assumption|intros; apply OO].
  - apply lp_bind_any; [|intros; apply OO]. apply fold_all in D. rewrite Forall_forall in *. apply lp_pmapM; intros a Ia.
    + apply keeps_pbind; [apply keeps_eval|]. intro v. destruct (hashable v); apply keeps_ret.
    + apply lp_bind_any; [apply IH; [exact Ia|apply D; exact Ia]|]. intro v. destruct (hashable v); [apply OO|apply RR; ck].
  - apply (fold_all _ (fun kv => declared b (fst kv) /\ declared b (snd kv))) in D. rewrite Forall_forall in *.
    intros q z q' S V0 H. rewrite run_pbind in H. remember (pmapM (fun kv : expr * expr => do! k := eval C thing (fst kv) in do! k' := Ret (map_key k) in ok (k', eval C thing (snd kv))) l) as P1 eqn:EP.
    assert (K1 : keeps s_scopes P1). { subst P1. apply keeps_pmapM. intros kv _. apply keeps_pbind; [apply keeps_eval|]. intro k. apply keeps_pbind; [apply keeps_ret|intro; apply keeps_ret]. }
    assert (L1 : lp b P1). { subst P1. apply lp_pmapM; intros kv Ik; [apply keeps_pbind; [apply keeps_eval|]; intro k; apply keeps_pbind; [apply keeps_ret|intro; apply keeps_ret]|]. apply lp_bind_any; [apply IH; [exact Ik|apply D; exact Ik]|]. intro k. apply always_bind; [apply always_ret, clean_key|intro; apply OO]. }
    assert (P2 : post P1 (Forall (fun kp => exists kv, In kv l /\ snd kp = eval C thing (snd kv)))).
    { subst P1. eapply post_impl; [|apply (post_pmapM _ _ _ (fun kv kp => In kv l /\ snd kp = eval C thing (snd kv)))].
      - intros ks F. remember (fun kv kp => In kv l /\ snd kp = eval C thing (snd kv)) as Q eqn:EQ. assert (G : forall l0, Forall2 Q l0 ks -> Forall (fun kp => exists kv, Q kv kp) ks). { clear. intros l0 F. induction F; constructor; [eauto|assumption]. } apply G in F. subst Q. exact F.
      - intros kv Ik. apply post_bind_any. intro k. apply post_bind_any. intro k'. apply post_ok. auto. }
    assert (K1' := K1 w q). destruct (run w P1 q) as [[ks|y] q1] eqn:R1; [|injection H as <- <-; eapply L1; eassumption]. cbn in K1'.
    assert (S1 : same_names (bnd q1) b) by (unfold bnd; rewrite K1'; exact S). specialize (P2 _ _ _ _ R1).
    assert (P3 : Forall (fun kp => exists kv, In kv l /\ snd kp = eval C thing (snd kv)) (mk_dict ks)).
    { rewrite Forall_forall in *. intros kp Ikp. destruct kp as [k0 p0]. destruct (mk_dict_In _ _ _ _ Ikp) as [_ I2]. apply in_map_iff in I2. destruct I2 as [kp' [I2 I1]]. destruct (P2 kp' I1) as [kv [J1 J2]]. exists kv. split; [exact J1|cbn; congruence]. }
    match type of H with run w ?p q1 = _ => assert (L2 : lp b p) end; [|exact (L2 _ _ _ S1 V0 H)].
    rewrite Forall_forall in P3. apply lp_bind_any; [|intros; apply OO]. apply lp_pmapM; intros kp Ikp; destruct (P3 kp Ikp) as [kv [J1 J2]]; rewrite J2.
    + apply keeps_pbind; [apply keeps_eval|intro; apply keeps_ret].
    + apply lp_bind_any; [apply IH; [exact J1|apply D; exact J1]|intros; apply OO].
  - destruct D as [Da Db]. specialize (IHa b Da). specialize (IHb b Db). assert (Kx := keeps_eval x). assert (Ky := keeps_eval y).
    assert (DC : forall f : dctx -> result value, (forall dc, clean (f dc)) -> always (do! dc := act OGetDc in Ret (f dc))).
    { intros f H. apply always_bind; [intros q z q' R; cbn in R; discriminate R|]. intro dc. apply always_ret, H. }
    destruct o.
    + apply lp_bind; [exact Kx|exact IHa|]. intro u. apply lp_bind_any; [exact IHb|]. intro v. apply DC. intro. apply clean_add.
    + apply lp_bind; [exact Kx|exact IHa|]. intro u. apply lp_bind_any; [exact IHb|]. intro v. apply DC. intro. apply clean_sub.
    + apply lp_bind; [exact Kx|exact IHa|]. intro u. destruct (is_numeric u); [|apply lp_raise; ck]. apply lp_bind_any; [exact IHb|]. intro v. destruct (is_numeric v); [|apply RR; ck]. apply DC. intro. apply clean_arith.
    + apply lp_bind; [exact Kx|exact IHa|]. intro u. apply lp_bind; [apply keeps_ret|apply lp_ret, clean_from|]. intro t. destruct (dt_eqb t TFloat).
      * apply lp_bind; [apply keeps_ret|apply lp_ret, clean_asnat|]. intros _. apply lp_bind_any; [exact IHb|]. intro v. apply always_ret, clean_bit_float.
      * destruct (is_set_t t); [|apply lp_raise; ck]. apply lp_bind_any; [exact IHb|]. intro v. apply always_ret, clean_bit_set.
    + apply lp_bind; [exact Kx|exact IHa|]. intro u. destruct (truthy u); [|apply lp_ok]. apply lp_bind_any; [exact IHb|intros; apply OO].
    + apply lp_bind; [exact Kx|exact IHa|]. intro u. destruct (truthy u); [apply lp_ok|]. apply lp_bind_any; [exact IHb|intros; apply OO].
    + apply lp_bind; [exact Kx|exact IHa|]. intro u. apply lp_bind_any; [exact IHb|intros; apply OO].
    + apply lp_bind; [exact Kx|exact IHa|]. intro u. apply lp_bind_any; [exact IHb|intros; apply OO].
    + apply lp_bind; [exact Kx|exact IHa|]. intro u. apply lp_bind_any; [exact IHb|]. intro v. apply always_ret, clean_map, clean_cmp.
    + apply lp_bind; [exact Kx|exact IHa|]. intro u. destruct u; try (apply lp_raise; ck); (apply lp_bind_any; [exact IHb|]; intro v; apply fuzzy_always).
  - destruct D as [Dv [Di [Dr Dc]]]. apply lp_bind; [apply keeps_eval|apply IHi; exact Di|]. intro v. apply lp_bind; [apply keeps_ret|apply lp_ret, clean_from|]. intro t. destruct (is_iterable t); [|apply lp_raise; ck].
    apply lp_bind_any; [|intros; apply OO]. apply lp_comp_loop; [exact Dv|apply keeps_eval| |apply IHr; exact Dr|]; destruct c as [c|]; intros c0 E; try discriminate E; injection E as <-; [apply keeps_eval|apply IHc; exact Dc].
  - destruct D as [Dc Dm]. apply lp_bind; [apply keeps_eval|apply IHc; exact Dc|]. intro u. apply lp_bind; [apply keeps_ret|apply lp_ret, clean_from|]. intros _. apply lp_bind_any; [apply IHm; exact Dm|]. intro v. apply always_ret, clean_map, clean_in.
  - apply lp_bind_any; [apply IHo; exact D|]. intro v. destruct (is_null v && sf); [apply OO|]. assert (CA := clean_attr v n). destruct (resolve_attr v n) as [u|x]; [apply always_ret, clean_new|].
    assert (RX : always (@raise value x)) by (apply RR; apply CA; reflexivity). destruct x; try exact RX. clear RX.
    intros q z q' H. rewrite run_pthen in H. destruct (run w (resolve C v n false) q) as [[u|x] q1] eqn:R.
    + eapply (always_ret _ _ (clean_new _ _ _)); exact H.
    + destruct (resolve_err _ _ _ _ _ R) as [l E]. destruct x; try (cbn in H; injection H as <- _; exact I).
      * destruct (c_default C) as [d|]; [eapply (always_ret _ _ (clean_new _ _ _)); exact H|]. cbn in H. injection H as <- _. exact I.
      * exfalso. exact (Hres _ _ _ _ E).
  - destruct D as [Dc Di]. apply lp_bind; [apply keeps_eval|apply IHc; exact Dc|]. intro u. destruct (is_null u); [destruct sf; [apply lp_ok|apply lp_raise; ck]|]. apply lp_bind_any; [apply IHi; exact Di|]. intro k.
    apply always_bind; [apply always_ret; destruct (is_sequence u); [apply clean_asint|apply clean_ok]|]. intros _. assert (G := clean_getitem u k). destruct (py_getitem u k) as [z|x]; [apply always_ret, clean_new|].
    assert (RX : always (@raise value x)) by (apply RR; apply G; reflexivity). destruct x; try exact RX. destruct sf; [apply OO|exact RX].
  - destruct D as [Dc [Dx Dy]]. apply lp_bind; [apply keeps_eval|apply IHc; exact Dc|]. intro u. destruct (is_null u); [destruct sf; [apply lp_ok|apply lp_raise; ck]|]. apply lp_bind; [apply keeps_eval|apply IHa; exact Dx|]. intro va.
    apply lp_bind; [apply keeps_ret|apply lp_ret, clean_opt_index|]. intro j. apply lp_bind_any; [apply IHb; exact Dy|]. intro vb. apply always_bind; [apply always_ret, clean_opt_index|]. intro k. apply always_bind; [apply always_ret, clean_getslice|]. intro z. apply always_ret, clean_coerce.
  - intros q z q' S V0 H. rewrite run_pthen in H.
    assert (SC : forall v, sym_check n t v = Err z -> z = XSymType n \/ ~ symerr z).
    { intros v E. destruct (sym_check_other n t v) as [K|[K|[NU [x K]]]]; [apply (sym_check_iff n) in K; congruence|left; congruence|]. unfold sym_check in E. destruct (is_undef t) eqn:U; [discriminate E|]. rewrite K in E. cbn in E. injection E as <-. right. apply (clean_from v). exact K. }
    assert (TAIL : forall v q1, run w (do! v' := nval C false v in Ret (sym_check n t v')) q1 = (Err z, q') -> z = XSymType n \/ ~ symerr z).
    { intros v q1 E. rewrite run_pbind in E. unfold nval in E. cbn in E. assert (CN := clean_new (c_tz C) false v). destruct (new_value (c_tz C) false v) as [v'|x]; [cbn in E; injection E as E _; exact (SC v' E)|]. injection E as <- _. right. apply CN. reflexivity. }
    assert (DEC : (In n B /\ n = s "re_groups" \/ In n V) -> z = XSymType n \/ ~ symerr z -> allowed z). { intros HI [-> |K]; [exact HI|apply clean_allowed; exact K]. }
    destruct bi.
    + destruct D as [D T]. destruct (assoc n (c_bvals C)) as [bv|] eqn:A.
      * unfold resolve in H. rewrite A in H. rewrite Hbv in A. rewrite Hbt in T. destruct (builtin_fits n bv A t T) as [[v [-> K]]|[[-> ->]|[[-> ->]|[-> ->]]]].
        -- exfalso. destruct (K (c_tz C)) as [v' [K1 K2]]. apply (sym_check_iff n) in K2. rewrite run_ok, run_pbind, run_ok, run_pbind in H. unfold nval in H. rewrite run_ret, K1, run_ret, K2 in H. discriminate H.
        -- exfalso. cbn in H. discriminate H.
        -- exfalso. cbn in H. discriminate H.
        -- apply DEC; [left; split; [exact D|reflexivity]|]. cbn in H. match type of H with run w ?p ?q1 = _ => exact (TAIL _ q1 H) end.
      * assert (TU : t = TUndef). { subst t. rewrite Hbv in A. rewrite Hbt, (builtin_none n A). reflexivity. }
        unfold resolve in H. rewrite A in H. cbn in H. destruct (c_default C) as [d|] eqn:DV.
        -- assert (CN := clean_new (c_tz C) false d). rewrite TU in H. clear TU. cbn in H. destruct (new_value (c_tz C) false d) as [v'|x]; [discriminate H|]. injection H as <- _. apply clean_allowed. apply CN. reflexivity.
        -- injection H as <- _. split; [exact D|split; [exact A|exact DV]].
    + destruct D as [D|D].
      * assert (HV : In n V) by (apply V0; exact D). apply (DEC (or_intror HV)). assert (F : exists a, find_scope (s_scopes q) n = Some a).
        { destruct (find_scope (s_scopes q) n) as [a|] eqn:F; [eauto|]. apply find_scope_None in F. apply (proj2 (S n)) in D. apply str_mem_In in D. unfold bnd in D. congruence. }
        destruct F as [a F]. assert (R : run w (resolve C thing n false) q = (Ok (a_val a), q)). { unfold resolve. rewrite run_pbind. cbn. rewrite F. reflexivity. }
        rewrite R in H. rewrite run_pbind in H. cbn [run ok] in H. exact (TAIL _ _ H).
      * destruct (find_scope (s_scopes q) n) as [a|] eqn:F.
        -- assert (HV : In n V). { apply V0. apply S. apply str_mem_In. destruct (str_mem n (bnd q)) eqn:M; [reflexivity|]. apply find_scope_None in M. congruence. }
           apply (DEC (or_intror HV)). assert (R : run w (resolve C thing n false) q = (Ok (a_val a), q)). { unfold resolve. rewrite run_pbind. cbn. rewrite F. reflexivity. }
           rewrite R in H. rewrite run_pbind in H. cbn [run ok] in H. exact (TAIL _ _ H).
        -- destruct (Hsym n t D (s_log q)) as [v [v' [R1 [R2 R3]]]]. apply (sym_check_iff n) in R3.
           assert (R : exists q1, run w (resolve C thing n false) q = (Ok v, q1)). { unfold resolve. rewrite run_pbind. cbn. rewrite F. cbn. rewrite R1. eauto. }
           destruct R as [q1 R]. rewrite R in H. rewrite run_pbind in H. cbn [run ok] in H. rewrite run_pbind in H. unfold nval in H. cbn in H. rewrite R2, R3 in H. discriminate H.
  - destruct D as [Df Dl]. apply lp_bind; [apply keeps_eval|apply IHf; exact Df|]. intro fv. destruct (callable fv); [|apply lp_raise; ck]. apply lp_bind_any; [apply LM; assumption|]. intro vs.
    apply always_bind; [apply always_ret; destruct (is_undef (rtype f)); [apply clean_ok|apply clean_validate]|]. intros _. apply always_bind; [apply always_then; intros [v|x]; [apply OO|apply RR; ck]|]. intro r.
    apply always_bind; [apply always_ret, clean_new|]. intro v. apply always_bind; [apply always_ret, clean_from|]. intro t. destruct (is_compat _ _); [apply OO|apply RR; ck].
  - destruct D as [Dc [Dx Dy]]. apply lp_bind; [apply keeps_eval|apply IHc; exact Dc|]. intro u. destruct (truthy u); [apply IHa|apply IHb]; assumption.
  - destruct o; (apply lp_bind_any; [apply IHe; exact D|]); intro u; [apply OO|]. apply always_bind; [intros q z q' R; cbn in R; discriminate R|]. intro dc. apply always_ret, clean_neg.
Qed.
End Evaluate.
End Conform.

(** * C71: a thing that keeps what the types promise never fails a rule for its symbols *)
(** [keeps_promises]: what the default resolver finds under every declared name, read as the engine reads values, has the declared type. *)
Definition keeps_promises {Orc : Oracle} (tz : N) (m : list (str * dtype)) (thing : value) : Prop :=
  forall n t, assoc n m = Some t -> exists v v', resolve_item thing n = Ok v /\ new_value tz false v = Ok v' /\ conforms t v'.

Section C71.
Context {Orc : Oracle} (C : ctx) (m : list (str * dtype)) (w0 w : world).
Hypothesis Htypes : c_types C = type_resolver_of m.
Hypothesis Hbv : c_bvals C = default_values.
Hypothesis Hbt : c_btypes C = default_types.
Hypothesis Hres : forall l t n, w_resolve w l t n = resolve_item t n.

(** Whatever rule the context accepted, and whatever the clock, the functions and the random source do: on a thing keeping the promises, a
    symbol resolution error can only name an unknown $builtin (and only without a default value), a symbol type error can only name
    $re_groups or the variable of a comprehension. *)
Theorem C71_symbols : forall nd q0 e q1 thing q x q', s_scopes q0 = [] -> run w0 (rule_new C nd) q0 = (Ok e, q1) -> keeps_promises (c_tz C) m thing ->
  run w (rule_evaluate C e thing) q = (Err x, q') ->
  (forall n sg, x = XSymRes n sg -> In n (dollar_names nd) /\ assoc n default_values = None /\ c_default C = None) /\
  (forall n, x = XSymType n -> n = s "re_groups" /\ In n (dollar_names nd) \/ In n (variables nd)).
Proof.
  intros nd q0 e q1 thing q x q' S0 B KP R.
  assert (D : declared C (variables nd) (dollar_names nd) [] e).
  { assert (D := build_declared C (variables nd) (dollar_names nd) nd w0 q0 e q1 (conj (incl_refl _) (incl_refl _)) B). unfold bnd in D. rewrite S0 in D. exact D. }
  rewrite run_rule_evaluate in R.
  assert (A : allowed C (variables nd) (dollar_names nd) x).
  { remember (set_dc (c_dec C) (set_groups VNull (set_scopes [] q))) as qs eqn:Q. destruct (run w (eval C thing e) qs) as [r q2] eqn:E. apply (f_equal fst) in R. cbn in R. subst r.
    refine (eval_allowed C _ _ w thing _ _ Hbv Hbt e [] D qs x q2 _ _ E).
    - intros n t K l. rewrite Htypes in K. unfold type_resolver_of in K. destruct (assoc n m) as [t'|] eqn:AM; [|discriminate K]. injection K as <-. destruct (KP n t' AM) as [v [v' [K1 [K2 K3]]]]. exists v, v'. rewrite Hres. auto.
    - intros l v n y. rewrite Hres. unfold resolve_item. destruct v; try discriminate; (destruct (dict_get _ _); [discriminate|]; destruct (all_strs _); discriminate).
    - subst qs. intro n. split; intro K; exact K.
    - intros n []. }
  split.
  - intros n sg ->. destruct A as [A1 [A2 A3]]. rewrite Hbv in A2. auto.
  - intros n ->. destruct A as [[A1 A2]|A]; auto.
Qed.

(** A rule without $names and comprehensions raises no symbol error at all. *)
Theorem C71_plain : forall nd q0 e q1 thing q x q', s_scopes q0 = [] -> run w0 (rule_new C nd) q0 = (Ok e, q1) -> keeps_promises (c_tz C) m thing ->
  dollar_names nd = [] -> variables nd = [] -> run w (rule_evaluate C e thing) q = (Err x, q') -> forall n, (forall sg, x <> XSymRes n sg) /\ x <> XSymType n.
Proof.
  intros nd q0 e q1 thing q x q' S0 B KP ED EV R n. destruct (C71_symbols nd q0 e q1 thing q x q' S0 B KP R) as [H1 H2]. rewrite ED in H1, H2. rewrite EV in H2. split.
  - intros sg E. apply (H1 n sg E).
  - intro E. destruct (H2 n E) as [[_ []]|[]].
Qed.
End C71.
Print Assumptions C71_symbols.
Print Assumptions C71_plain.

Definition c71_types : list (str * dtype) := [(s "n", TFloat); (s "name", TString); (s "xs", TArray TFloat true)].
Definition c71_ctx : ctx := demo_ctx (type_resolver_of c71_types).
(** n > 2 and name =~ "Lu" and [x for x in xs if x] : accepted, and the thing keeps the promises *)
Definition c71_rule : dnode := DBin BAndL (DBin (BCmp Cgt) (DSym (s "n") false) (DLit (num 2))) (DBin BAndL (DBin (BFuzzy false false) (DSym (s "name") false) (DLit (VStr (s "Lu"))))
  (DComp (DSym (s "x") false) (s "x") (DSym (s "xs") false) (Some (DSym (s "x") false)))).
(** the context accepts the rule, and the resulting expression has the property *)
Definition accepted (nd : dnode) (P : expr -> Prop) : Prop := match run demo_world (rule_new c71_ctx nd) demo_st with (Ok e, _) => P e | _ => False end.
Example C71_example : keeps_promises (c_tz c71_ctx) c71_types demo_thing /\
  accepted c71_rule (fun e => fst (run demo_world (rule_evaluate c71_ctx e demo_thing) demo_st) = Ok (VBool true)) /\ variables c71_rule = [s "x"] /\ dollar_names c71_rule = [] /\
  accepted (DBin (BArith TDiv) (DSym (s "n") false) (DBin BSub (DSym (s "n") false) (DLit (num 3)))) (fun e => fst (run demo_world (rule_evaluate c71_ctx e demo_thing) demo_st) = Err XEval).
Proof.
  split; [|split; [|split; [reflexivity|split; [reflexivity|]]]].
  - intros n t A. unfold c71_types in A. cbn [assoc] in A.
    repeat match type of A with (if str_eqb n ?k then _ else _) = _ => destruct (str_eqb n k) eqn:E; [apply str_eqb_eq in E; subst n; injection A as <-; eexists _, _; split; [vm_compute; reflexivity|split; [vm_compute; reflexivity|]];
      apply (proj1 (sym_check_iff (s "x") _ _)); vm_compute; reflexivity|clear E] end. discriminate A.
  - vm_compute. reflexivity.
  - vm_compute. reflexivity.
Qed.

(** The exceptions of C71_symbols are real. *)
(** 1: $nope is accepted by a context with declared types and raises a symbol resolution error when evaluated. *)
Theorem C71_unknown_builtin_refuted : accepted (DSym (s "nope") true) (fun e => match fst (run demo_world (rule_evaluate c71_ctx e demo_thing) demo_st) with Err (XSymRes n _) => n = s "nope" | _ => False end).
Proof. vm_compute. reflexivity. Qed.
(** 2: [v for v in [xs[5:]]]: the slice is an empty array, which is no array of floats any more. *)
Theorem C71_variable_refuted : accepted (DComp (DSym (s "v") false) (s "v") (DArr [DSlice (DSym (s "xs") false) (Some (DLit (num 5))) None false]) None)
  (fun e => fst (run demo_world (rule_evaluate c71_ctx e demo_thing) demo_st) = Err (XSymType (s "v"))).
Proof. vm_compute. reflexivity. Qed.
(** 3: $re_groups: after a comparison that matched a pattern none of whose groups took part (or that has none), the groups are an array
    without any text, and reading them is a symbol type error; when at least one group took part they are returned. *)
Definition groups_error {Orc : Oracle} (C : ctx) (thing : value) (w : world) (q : st) : Prop := fst (run w (eval C thing (ESym (s "re_groups") true (TArray TString true))) q) = Err (XSymType (s "re_groups")).
Theorem C71_re_groups : forall {Orc : Oracle} (C : ctx) thing w q gs, c_bvals C = default_values -> s_groups q = VArr (map group_val gs) ->
  (groups_error C thing w q <-> forall t, ~ In (Some t) gs) /\
  ((exists t, In (Some t) gs) -> fst (run w (eval C thing (ESym (s "re_groups") true (TArray TString true))) q) = Ok (VArr (map group_val gs))).
Proof.
  intros Orc C thing w q gs Hb G. assert (L : run w (eval C thing (ESym (s "re_groups") true (TArray TString true))) q = (sym_check (s "re_groups") (TArray TString true) (VArr (map group_val gs)), q)).
  { cbn [eval]. rewrite run_pthen. unfold resolve. rewrite Hb. change (assoc (s "re_groups") default_values) with (Some BVgroups). cbn [run act step_op s_groups]. rewrite G, run_pbind, run_ok, run_pbind. unfold nval. rewrite run_ret.
    replace (new_value (c_tz C) false (VArr (map group_val gs))) with (Ok (VArr (map group_val gs))); [reflexivity|]. symmetry. unfold new_value. cbn [coerce].
    assert (M : rmapM (coerce (tz := o_tz) false) (map group_val gs) = Ok (map group_val gs)) by (clear; induction gs as [|[t|] gs IH]; [reflexivity| |]; cbn [map rmapM group_val coerce]; rewrite IH; reflexivity). rewrite M. reflexivity. }
  assert (F : from_value (VArr (map group_val gs)) = Ok (TArray (member_type (map (fun g => match g with Some _ => TString | None => TNull end) gs)) true)).
  { cbn [from_value]. replace (rmapM from_value (map group_val gs)) with (Ok (map (fun g : option str => match g with Some _ => TString | None => TNull end) gs)); [reflexivity|]. clear. induction gs as [|[t|] gs IH]; [reflexivity| |]; cbn [map rmapM group_val from_value]; rewrite <- IH; reflexivity. }
  assert (CN : Forall canon (map (fun g : option str => match g with Some _ => TString | None => TNull end) gs)) by (apply Forall_forall; intros u Hu; apply in_map_iff in Hu as [[t|] [<- _]]; reflexivity).
  assert (YES : (exists t, In (Some t) gs) -> sym_check (s "re_groups") (TArray TString true) (VArr (map group_val gs)) = Ok (VArr (map group_val gs))).
  { intros [t Ht]. unfold sym_check. rewrite F. replace (member_type _) with TString; [vm_compute; reflexivity|]. symmetry. apply member_type_same; [exact CN| |discriminate|].
    - apply in_map_iff. exists (Some t). auto.
    - intros u Hu Nu. apply in_map_iff in Hu as [[t'|] [<- _]]; congruence. }
  assert (NO : (forall t, ~ In (Some t) gs) -> sym_check (s "re_groups") (TArray TString true) (VArr (map group_val gs)) = Err (XSymType (s "re_groups"))).
  { intros H. unfold sym_check. rewrite F. replace (member_type _) with TUndef; [vm_compute; reflexivity|]. symmetry. apply member_type_none; [exact CN|]. intros u Hu. apply in_map_iff in Hu as [[t|] [<- Hi]]; [exfalso; eapply H; exact Hi|reflexivity]. }
  unfold groups_error. rewrite L. cbn [fst]. split; [split|exact YES].
  - intros E t Ht. rewrite (YES (ex_intro _ t Ht)) in E. discriminate E.
  - exact NO.
Qed.
Print Assumptions C71_re_groups.
(** name =~~ "uke" and $re_groups, where the only group of the pattern takes no part in the match (in the demonstration engine) *)
Theorem C71_re_groups_refuted : accepted (DBin BAndL (DBin (BFuzzy true false) (DSym (s "name") false) (DLit (VStr (s "uke")))) (DSym (s "re_groups") true))
  (fun e => fst (run demo_world (rule_evaluate c71_ctx e demo_thing) demo_st) = Err (XSymType (s "re_groups"))).
Proof. vm_compute. reflexivity. Qed.
Print Assumptions C71_unknown_builtin_refuted.
Print Assumptions C71_variable_refuted.
Print Assumptions C71_re_groups_refuted.
