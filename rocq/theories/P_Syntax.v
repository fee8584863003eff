(** * Theorems about when syntax errors are reported (C82) *)
From Coq Require Import QArith Lia String.
From Verif Require Import Base Dec Value DType DTypeFacts Types TypesFacts OrdFacts EqFacts CoerceFacts Ops ParseUtil Attr Prog Ast Eval Build Engine ProgFacts StateFacts GrammarSem Lexer RuleText Post P_Ops P_Eval P_Names P_Aware P_Errors P_Sound P_Lexer Demo.
From Verif Require P_Construct.
Open Scope list_scope.
Open Scope Z_scope.

(** ** No operation on values reports a syntax error *)
Definition synerr (x : exn) : Prop := is_syntax x = true.
Definition clean {A} (r : result A) : Prop := forall x, r = Err x -> ~ synerr x.
Lemma clean_ok : forall A (a : A), clean (Ok a).
Proof. intros A a x H. discriminate H. Qed.
Lemma clean_err : forall A x, ~ synerr x -> clean (@Err A x).
Proof. intros A x H y E. injection E as <-. exact H. Qed.
Lemma clean_bind : forall A B (r : result A) (f : A -> result B), clean r -> (forall a, r = Ok a -> clean (f a)) -> clean (rbind r f).
Proof. intros A B [a|x] f H K; cbn [rbind]; [apply K; reflexivity|]. intros y E. injection E as <-. apply H. reflexivity. Qed.
Lemma clean_map : forall A B (r : result A) (f : A -> B), clean r -> clean (rmap f r).
Proof. intros A B [a|x] f H y E; cbn in E; [discriminate E|]. injection E as <-. apply H. reflexivity. Qed.
Ltac good := first [apply clean_ok | apply clean_err; discriminate].
Lemma clean_from : forall v, clean (from_value v).
Proof. intros v x H. destruct (from_value_err _ _ H) as [-> | ->]; discriminate. Qed.
Lemma clean_finite : forall v, clean (is_integer_number v).
Proof.
  intro v. unfold is_integer_number, is_real_number. destruct (is_numeric v); [|good]. apply clean_bind; [|intros; good]. unfold isfinite. destruct v as [| |d|z|f| | | | | | | | | | | | | | |]; try good.
  - destruct d; good.
  - destruct (Z.abs z <? float_bound); good.
  - destruct f; good.
Qed.
Lemma clean_natural : forall v, clean (is_natural_number v).
Proof. intro v. unfold is_natural_number. apply clean_bind; [apply clean_finite|]. intros b _. good. Qed.
Lemma clean_asint : forall v, clean (assert_integer v).
Proof. intro v. unfold assert_integer. apply clean_bind; [apply clean_finite|]. intros [] _; good. Qed.
Lemma clean_asnat : forall v, clean (assert_natural v).
Proof. intro v. unfold assert_natural. apply clean_bind; [apply clean_natural|]. intros [] _; good. Qed.
Lemma clean_td : forall u, clean (mk_td u).
Proof. intros u x H. apply mk_td_err in H as ->. discriminate. Qed.
Lemma clean_dt : forall u z, clean (mk_dt u z).
Proof. intros u z x H. apply mk_dt_err in H as ->. discriminate. Qed.
Lemma clean_add : forall {Orc : Oracle} dc x y, clean (op_add dc x y).
Proof.
  intros Orc dc x y.
  assert (N : clean (if is_bytes y || is_str y then Err XEval else if is_numeric x && is_numeric y then rdec (dadd dc (as_dec x) (as_dec y)) else Err XEval)).
  { destruct (_ || _); [good|]. destruct (_ && _); [|good]. apply clean_map. intros z H. apply dadd_err in H as [-> | ->]; discriminate. }
  destruct x; try exact N; unfold op_add; destruct y; cbn [is_bytes]; try good; first [apply clean_dt|apply clean_td].
Qed.
Lemma clean_sub : forall {Orc : Oracle} dc x y, clean (op_sub dc x y).
Proof.
  intros Orc dc x y.
  assert (N : clean (if is_numeric x && is_numeric y then rdec (dsub dc (as_dec x) (as_dec y)) else Err XEval)).
  { destruct (_ && _); [|good]. apply clean_map. intros z H. unfold dsub in H. apply dadd_err in H as [-> | ->]; discriminate. }
  destruct x; try exact N; unfold op_sub; destruct y; try good; try apply clean_dt; try apply clean_td. destruct tz, tz0; try good; apply clean_td.
Qed.
Lemma clean_neg : forall {Orc : Oracle} dc x, clean (op_neg dc x).
Proof.
  intros Orc dc x. assert (N : clean (if is_numeric x then rdec (dneg dc (as_dec x)) else Err XEval)).
  { destruct (is_numeric x); [|good]. apply clean_map. intros z H. apply dneg_err in H as ->. discriminate. }
  destruct x; try exact N. apply clean_td.
Qed.
Lemma clean_arith : forall {Orc : Oracle} o dc x y, clean (op_arith o dc x y).
Proof.
  intros Orc o dc x y z H. unfold op_arith in H. destruct (dec_arith _ _ _ _) as [d|e] eqn:E; [discriminate H|]. rewrite (dec_arith_err Orc _ _ _ _ _ E) in H. injection H as <-. discriminate.
Qed.
Lemma clean_bit_float : forall {Orc : Oracle} o x y, clean (op_bit_float o x y).
Proof. intros. unfold op_bit_float. apply clean_bind; [apply clean_asnat|intros; good]. Qed.
Lemma clean_bit_set : forall {Orc : Oracle} o x y, clean (op_bit_set o x y).
Proof.
  intros. unfold op_bit_set. apply clean_bind; [apply clean_from|]. intros t _. destruct (is_compat t t_set); [|good]. destruct x; try good; destruct y; try good. apply clean_map. destruct o; good.
Qed.
Lemma clean_pyord : forall {Orc : Oracle} v o w, clean (py_ord o v w).
Proof.
  intros Orc. assert (NUM : forall o v w, clean (match num_x v, num_x w with Some a, Some b => match xcmp a b with Some c => Ok (cop_of o c) | None => if is_dec v || is_dec w then Err PInvalidOp else Ok false end | _, _ => Err PType end)).
  { intros o v w. destruct (num_x v); [|good]. destruct (num_x w); [|good]. destruct (xcmp x x0); [good|]. destruct (_ || _); good. }
  assert (LS : forall l, Forall (fun v => forall o w, clean (py_ord o v w)) l -> forall o m, clean (ord_lists o l m)).
  { intros l F. induction F as [|x l H F IH]; intros o m; destruct m as [|y m]; cbn [ord_lists]; try good. destruct (py_eq x y); [apply IH|apply H]. }
  intro v. induction v as [|b|d|z|f|t|b|w0 tz|d|u|l IH|l IH|l|l IH|l IH|l IH|n0|f|m v IH|n0] using value_ind'; intros o w.
  all: try (destruct w; first [apply clean_err; discriminate | apply clean_ok | apply (NUM o)]; fail).
  - destruct w; try (apply clean_err; discriminate). cbn [py_ord]. destruct (dtm_cmp _ _ _ _); good.
  - destruct w; try (apply clean_err; discriminate). rewrite py_ord_arr. apply LS. exact IH.
  - destruct w; try (apply clean_err; discriminate). rewrite py_ord_list. apply LS. exact IH.
Qed.
Lemma clean_cmp : forall {Orc : Oracle} l o r, clean (cmp_values o l r).
Proof.
  intros Orc. assert (NA : forall o l r, clean (aop_native o l r)). { intros [c|] l r; [apply clean_pyord|good]. }
  assert (TG : forall o l r, clean (if pytag_eqb (pytag_of l) (pytag_of r) then aop_native o l r else Err XEval)). { intros o l r. destruct (pytag_eqb _ _); [apply NA|good]. }
  intro l. induction l as [|b|d|z|f|t|b|w0 tz|d|u|l IH|l IH|l|l IH|l IH|l IH|n0|f|m v IH|n0] using value_ind'; intros o r.
  1: destruct r; first [exact (TG _ _ _)|good].
  all: try (exact (TG _ _ _)).
  destruct r as [| | | | | | | | | |l0| | | | | | | | |]; try (exact (TG o (VArr l) _)); try good. cbn [cmp_values]. generalize (Z.of_nat (length l)) (Z.of_nat (length l0)). intros n m. revert l0.
  induction IH as [|x l H F IHl]; intros l0.
  - destruct (n =? m); [good|apply NA].
  - destruct l0 as [|y l0]; [destruct (n =? m); [good|apply NA]|]. apply clean_bind; [apply H|]. intros ne _. destruct ne; [apply H|apply IHl].
Qed.
Lemma clean_in : forall {Orc : Oracle} c m, clean (op_in c m).
Proof.
  intros Orc c m. unfold op_in. assert (P : clean (py_in m c)). { unfold py_in. destruct c; try good; try (destruct m; good); try (destruct (hashable m); good). destruct m; try good; match goal with |- clean (if ?b then _ else _) => destruct b end; good. }
  apply clean_bind; [apply clean_from|]. intros tc _. destruct (_ || _); [|exact P]. apply clean_bind; [apply clean_from|]. intros tm _. destruct (dt_eqb tm tc); [exact P|good].
Qed.
Lemma clean_getitem : forall {Orc : Oracle} c k, clean (py_getitem c k).
Proof.
  intros. unfold py_getitem. destruct c; try good; try (destruct (seq_get _ _); good); destruct (hashable k); try good; destruct (dict_get _ _); good.
Qed.
Lemma clean_getslice : forall c a b, clean (py_getslice c a b).
Proof. intros. unfold py_getslice. destruct c; good. Qed.
Lemma clean_opt_index : forall v, clean (opt_index v).
Proof. intro v. destruct v; cbn [opt_index]; try good; (apply clean_bind; [apply clean_asint|intros; good]). Qed.
Lemma clean_rmapM : forall A B (f : A -> result B) l, (forall a, In a l -> clean (f a)) -> clean (rmapM f l).
Proof.
  intros A B f l H. induction l as [|a l IH]; [apply clean_ok|]. cbn [rmapM]. apply clean_bind; [apply H; left; reflexivity|]. intros b _. apply clean_bind; [apply IH; intros; apply H; right; assumption|]. intros. good.
Qed.
Lemma clean_coerce : forall {tz : TzDb} v ver, clean (coerce ver v).
Proof.
  intro tz0.
  assert (FE : forall (u u' : value), clean (rmap (fun _ : dtype => u') (from_value u))) by (intros; apply clean_map, clean_from).
  assert (FN : forall ver (u : value), clean (if ver : bool then rmap (fun _ : dtype => u) (from_value u) else Ok u)) by (intros [] u; [apply FE|good]).
  intro v. induction v as [|b|d|z|f|t|b|w0 tz|d|u|l IH|l IH|l|l IH|l IH|l IH|n0|f|m v IH|n0] using value_ind'; intro ver; cbn [coerce]; try apply FN; rewrite Forall_forall in IH.
  - apply clean_bind; [apply clean_rmapM; intros a Ia; apply IH; exact Ia|intros; apply FN].
  - apply clean_bind; [apply clean_rmapM; intros a Ia; apply IH; exact Ia|intros; apply FN].
  - apply clean_bind; [|intros; apply FN]. apply clean_rmapM. intros kv Ik. destruct (IH kv Ik) as [H1 H2]. apply clean_bind; [apply H1|]. intros k _. apply clean_bind; [apply H2|]. intros x _. destruct (hashable k); good.
  - apply clean_bind; [|intros; apply FN]. apply clean_rmapM. intros kv Ik. destruct (IH kv Ik) as [H1 H2]. apply clean_bind; [apply H1|]. intros k _. apply clean_bind; [apply H2|]. intros x _. destruct (hashable k); good.
Qed.
Lemma clean_new : forall {Orc : Oracle} tz ver v, clean (new_value tz ver v).
Proof. intros. unfold new_value. apply clean_map, clean_coerce. Qed.
Lemma clean_key : forall v, clean (map_key v).
Proof. intro v. unfold map_key. apply clean_bind; [apply clean_from|]. intros t _. destruct (_ && _); [good|]. destruct (hashable v); good. Qed.
Lemma clean_validate : forall t vs, clean (validate t (map from_value vs)).
Proof.
  intros t vs. unfold validate. destruct t; try good. cbv zeta. destruct (match minargs with Some m => _ | None => _ end); [good|]. destruct args as [l|]; [|good]. destruct (_ <? _); [good|].
  revert l. induction vs as [|v vs IH]; intros [|p l]; cbn [map check_args]; try good. apply clean_bind; [apply clean_from|]. intros a _. destruct (is_compat a p); [apply IH|good].
Qed.
Lemma clean_to_flt : forall {Orc : Oracle} t, clean (string_to_flt t).
Proof. intros Orc t x H. destruct (flt_err _ _ H) as [-> | ->]; discriminate. Qed.
Lemma clean_attr : forall {Orc : Oracle} v n, clean (resolve_attr v n).
Proof.
  intros Orc v n. unfold resolve_attr. assert (F := clean_from v). destruct (from_value v) as [t|x]; [|intros y E; destruct x; injection E as <-; first [apply F; reflexivity|discriminate]].
  apply clean_bind; [unfold get_attr; destruct (attr_table attr_map t) as [tab|]; [destruct (assoc n tab)|]; good|]. intros a _. apply clean_bind.
  - assert (IT : forall v, clean (rbind (is_integer_number v) (fun b => if b then Ok v else Err XEval))) by (intro u; apply clean_bind; [apply clean_finite|intros [] _; good]).
    assert (IR : forall v, clean (py_iter v)) by (intros []; good). assert (LN : forall v, clean (py_len v)) by (intros []; good).
    destruct a; try (destruct v; good); try (apply clean_map; first [apply IR|apply LN]).
    + destruct v; try good. destruct tz; good.
    + destruct v; try good. apply IT.
    + destruct v; try good. apply clean_to_flt.
    + destruct v; try good. cbn [attr_fun]. apply clean_bind; [apply clean_to_flt|intros; apply IT].
    + cbn [attr_fun]. apply clean_bind; [apply IR|]. intros l _. unfold py_set. destruct (forallb hashable l); good.
  - intros u _. apply clean_bind; [apply clean_coerce|]. intros u' _. apply clean_bind; [apply clean_from|]. intros vt _. apply clean_bind.
    + destruct a; cbn [attr_type]; try good; destruct vt; try good; repeat match goal with |- clean (if ?b then _ else _) => destruct b end; good.
    + intros et _. destruct (is_compat et vt); good.
Qed.


(** ** What a program can raise, given callbacks that raise no syntax errors *)
Definition quiet (o : op) : ans o -> Prop :=
  match o return ans o -> Prop with
  | OResolve _ _ | OUser _ _ => fun a => clean a
  | OPop => fun a => clean a
  | _ => fun _ => True
  end.
Inductive rq (E : exn -> Prop) {A} (Q : A -> Prop) : prog A -> Prop :=
| Rq_ret : forall r, (forall a, r = Ok a -> Q a) -> (forall x, r = Err x -> E x) -> rq E Q (Ret r)
| Rq_step : forall o k, (forall a, quiet o a -> rq E Q (k a)) -> rq E Q (Step o k).
(** the resolver, the functions and the generators raise no syntax errors *)
Definition quiet_world (w : world) : Prop :=
  (forall l v n x, w_resolve w l v n = Err x -> is_syntax x = false) /\ (forall l f a x, w_user w l f a = Err x -> is_syntax x = false).
Lemma not_syn : forall x, ~ synerr x <-> is_syntax x = false.
Proof. intro x. unfold synerr. destruct (is_syntax x); split; intro H; try reflexivity; try discriminate; exfalso; apply H; reflexivity. Qed.
Lemma rq_run : forall w, quiet_world w -> forall (E : exn -> Prop) A (Q : A -> Prop) p, rq E Q p -> forall q x q', run w p q = (Err x, q') -> E x.
Proof.
  intros w [W1 W2] E A Q p H. induction H as [r H1 H2|o k Hk IH]; intros q x q' R; cbn [run] in R; [injection R as R _; apply H2; exact R|].
  assert (G : quiet o (fst (step_op w o q))).
  { destruct o; cbn; try exact I; try (intros y Hy; apply not_syn); try (destruct (s_scopes q); cbn in Hy; [injection Hy as <-; reflexivity|discriminate Hy]); eauto. }
  destruct (step_op w o q) as [a q1]. eapply IH; [exact G|exact R].
Qed.

Section Raises.
Context {Orc : Oracle} (C : ctx) (E : exn -> Prop).
Hypothesis HE : forall x, is_syntax x = false -> E x.
Notation T := (fun _ => True).
Notation rt := (rq E (fun _ => True)).
Lemma rq_of : forall A (r : result A) (Q : A -> Prop), clean r -> (forall a, r = Ok a -> Q a) -> rq E Q (Ret r).
Proof. intros A r Q H K. constructor; [exact K|]. intros x Hx. apply HE, not_syn, H, Hx. Qed.
Lemma rt_of : forall A (r : result A), clean r -> rt (Ret r).
Proof. intros A r H. apply rq_of; [exact H|auto]. Qed.
Lemma rt_ok : forall A (a : A), rt (ok a).
Proof. intros. apply rt_of, clean_ok. Qed.
Lemma rt_raise : forall A x, is_syntax x = false -> rt (@raise A x).
Proof. intros. apply rt_of. intros y Hy. injection Hy as <-. apply not_syn. assumption. Qed.
Lemma rq_bind : forall A B (p : prog A) P (f : A -> prog B) Q, rq E P p -> (forall a, P a -> rq E Q (f a)) -> rq E Q (pbind p f).
Proof.
  intros A B p P f Q H K. unfold pbind. induction H as [r H1 H2|o k Hk IH]; cbn; [|constructor; auto]. destruct r as [a|x]; [apply K, H1; reflexivity|constructor; [intros a Ha; discriminate Ha|intros y Hy; injection Hy as <-; apply H2; reflexivity]].
Qed.
Lemma rt_bind : forall A B (p : prog A) (f : A -> prog B), rt p -> (forall a, rt (f a)) -> rt (pbind p f).
Proof. intros. eapply rq_bind; [eassumption|auto]. Qed.
Lemma rt_then : forall A B (p : prog A) (f : result A -> prog B), rt p -> (forall a, rt (f (Ok a))) -> (forall x, E x -> rt (f (Err x))) -> rt (pthen p f).
Proof.
  intros A B p f H K1 K2. induction H as [r H1 H2|o k Hk IH]; cbn; [|constructor; auto]. destruct r as [a|x]; [apply K1|apply K2, H2; reflexivity].
Qed.
(** whatever the first part raises is dropped *)
Lemma rt_drop : forall A B (p : prog A) (f : result A -> prog B), (forall r, rt (f r)) -> rt (pthen p f).
Proof. intros A B p f K. induction p as [r|o k IH]; cbn; [apply K|constructor; auto]. Qed.
Lemma rt_act : forall o, rt (act o).
Proof. intro o. constructor. intros a _. constructor; [auto|intros x Hx; discriminate Hx]. Qed.
Lemma rq_pmapM : forall A B (f : A -> prog B) Q l, (forall a, In a l -> rq E Q (f a)) -> rq E (Forall Q) (pmapM f l).
Proof.
  intros A B f Q l. induction l as [|a l IH]; intro H; [constructor; [intros b Hb; injection Hb as <-; constructor|intros x Hx; discriminate Hx]|]. cbn [pmapM].
  eapply rq_bind; [apply H; left; reflexivity|]. intros b Hb. eapply rq_bind; [apply IH; intros; apply H; right; assumption|]. intros bs Hbs. constructor; [intros c Hc; injection Hc as <-; constructor; assumption|intros x Hx; discriminate Hx].
Qed.
Lemma rt_weaken : forall A (p : prog A) Q, rq E Q p -> rt p.
Proof. intros A p Q H. induction H; constructor; auto. Qed.
Lemma rt_pmapM : forall A B (f : A -> prog B) l, (forall a, In a l -> rt (f a)) -> rt (pmapM f l).
Proof. intros. eapply rt_weaken. apply rq_pmapM. eassumption. Qed.
Lemma rt_scope : forall A a (p : prog A), rt p -> rt (with_scope a p).
Proof.
  intros A a p H. unfold with_scope. apply rt_bind; [apply rt_act|]. intros _.
  assert (K : forall r : result A, (forall x, r = Err x -> E x) -> rq E (fun _ : A => True) (do! b := act OPop in match b with Ok _ => Ret r | Err x => raise x end)).
  { intros r Hr. constructor. intros b Hb. cbn in Hb. cbn. destruct b as [u|x]; [constructor; auto|apply rt_raise; apply not_syn, Hb; reflexivity]. }
  apply rt_then; [exact H| |].
  - intro b. apply K. intros x Hx. discriminate Hx.
  - intros x Hx. apply K. intros y Hy. injection Hy as <-. exact Hx.
Qed.
Lemma rt_comp : forall var cond body l, (forall c, cond = Some c -> rt c) -> rt body -> rt (comp_loop var cond body l).
Proof.
  intros var cond body l Hc Hb. induction l as [|x l IH]; cbn [comp_loop]; [apply rt_ok|]. apply rt_bind.
  - apply rt_scope. apply rt_bind; [destruct cond as [c|]; [apply rt_bind; [apply Hc; reflexivity|intro; apply rt_ok]|apply rt_ok]|].
    intros []; [apply rt_bind; [exact Hb|intro; apply rt_ok]|apply rt_ok].
  - intro. apply rt_bind; [exact IH|intro; apply rt_ok].
Qed.
Lemma rt_resolve : forall t n b, rt (resolve C t n b).
Proof.
  assert (A : forall o (f : ans o -> result value), (forall a, quiet o a -> clean (f a)) -> rt (actr o f)).
  { intros o f H. constructor. intros a Ha. apply rt_of, H, Ha. }
  intros t n b. unfold resolve. destruct b.
  - destruct (assoc n (c_bvals C)) as [[]|]; [apply rt_ok| | | | |apply rt_raise; reflexivity].
    + apply rt_bind; [apply rt_act|]. intro. apply rt_bind; [apply rt_act|intro; apply rt_ok].
    + apply rt_bind; [apply rt_act|]. intro. apply rt_bind; [apply rt_act|intro; apply rt_ok].
    + apply (rt_act OGetG).
    + constructor. intros a Ha. cbn. cbn in Ha. destruct a as [v|x]; [apply (A (OUser g []) (fun r => r)); auto|]. assert (K := Ha x eq_refl). destruct x; first [apply rt_raise; reflexivity|exfalso; apply K; reflexivity].
  - apply rt_bind; [apply rt_act|]. intro l. destruct (find_scope l n); [apply rt_ok|]. apply (A (OResolve t n) (fun r => r)). auto.
Qed.
Lemma clean_sym : forall n t v, clean (sym_check n t v).
Proof.
  intros n t v. unfold sym_check. destruct t; try good; try (apply clean_bind; [apply clean_from|intros; repeat match goal with |- clean (if ?b then _ else _) => destruct b end; good]).
Qed.

(** the pattern of every =~ is a text literal, or a syntax error in a pattern is expected *)
Definition expected (e : expr) : Prop := E XSynRegex \/ forall search neg a b, part (EBin (BFuzzy search neg) a b) e -> is_str_lit b = true.
Lemma expected_part : forall e x, expected e -> part x e -> expected x.
Proof. intros e x [H|H] P; [left; exact H|right]. intros search neg a b K. apply (H search neg a b). eapply part_trans; eassumption. Qed.
Lemma rt_fuzzy : forall sr ng pre u v, E XSynRegex \/ pre = true -> rt (fuzzy_match C sr ng pre u v).
Proof.
  intros sr ng pre u v H. unfold fuzzy_match.
  assert (K : forall p, rt (Ret (if pre then Ok tt else compile_ok C p))).
  { intro p. destruct pre; [apply rt_ok|]. destruct H as [H|H]; [|discriminate H]. unfold compile_ok. destruct (o_re_ok _ _); [apply rt_ok|]. constructor; [auto|]. intros x Hx. injection Hx as <-. exact H. }
  destruct u; try (apply rt_raise; reflexivity); destruct v; try (apply rt_raise; reflexivity); try apply rt_ok; (apply rt_bind; [apply K|]; intros _); [apply rt_ok|].
  destruct (o_re _ _ _ _); [|apply rt_ok]. apply rt_bind; [apply rt_act|intro; apply rt_ok].
Qed.
Theorem rt_eval : forall thing e, expected e -> rt (eval C thing e).
Proof.
  intros thing. induction e as [v|v t|l IH|l IH|l IH|o a c IHa IHb|r n i c IHr IHi IHc|c m IHc IHm|o n sf IHo|c i sf IHc IHi|c a d sf IHc IHa IHb|n bi t|f l IHf IHl|c a d IHc IHa IHb|o e IHe] using expr_ind';
    intro M; cbn [eval]; try apply rt_ok.
  - rewrite Forall_forall in IH. apply rt_bind; [|intro; apply rt_ok]. apply rt_pmapM. intros a Ha. apply IH; [exact Ha|]. eapply expected_part; [exact M|]. eapply Pa_arr; [exact Ha|constructor].
  - rewrite Forall_forall in IH. apply rt_bind; [|intro; apply rt_ok]. apply rt_pmapM. intros a Ha. apply rt_bind; [apply IH; [exact Ha|]; eapply expected_part; [exact M|]; eapply Pa_set; [exact Ha|constructor]|]. intro v. destruct (hashable v); [apply rt_ok|apply rt_raise; reflexivity].
  - rewrite Forall_forall in IH. assert (K : forall kv, In kv l -> rt (eval C thing (fst kv)) /\ rt (eval C thing (snd kv))).
    { intros [k v] Hk. destruct (IH _ Hk) as [I1 I2]. split; [apply I1; eapply expected_part; [exact M|]; eapply Pa_key; [exact Hk|constructor]|apply I2; eapply expected_part; [exact M|]; eapply Pa_val; [exact Hk|constructor]]. }
    apply (rq_bind _ _ _ (Forall (fun kp : value * prog value => rt (snd kp)))).
    + apply rq_pmapM. intros kv Hk. eapply rq_bind; [apply K; exact Hk|]. intros k _. apply (rq_bind _ _ _ T); [apply rt_of, clean_key|]. intros k' _. constructor; [intros c Hc; injection Hc as <-; apply K; exact Hk|intros x Hx; discriminate Hx].
    + intros ks Hks. apply rt_bind; [|intro; apply rt_ok]. apply rt_pmapM. intros kp Hkp. apply rt_bind; [|intro; apply rt_ok].
      rewrite Forall_forall in Hks. apply (mk_dict_vals _ (fun p => rt p) ks Hks kp Hkp).
  - assert (Ha : rt (eval C thing a)) by (apply IHa; eapply expected_part; [exact M|]; apply Pa_left; constructor).
    assert (Hb : rt (eval C thing c)) by (apply IHb; eapply expected_part; [exact M|]; apply Pa_right; constructor).
    destruct o; (apply rt_bind; [exact Ha|]; intro u).
    + apply rt_bind; [exact Hb|]. intro. apply rt_bind; [apply rt_act|]. intro. apply rt_of, clean_add.
    + apply rt_bind; [exact Hb|]. intro. apply rt_bind; [apply rt_act|]. intro. apply rt_of, clean_sub.
    + destruct (is_numeric u); [|apply rt_raise; reflexivity]. apply rt_bind; [exact Hb|]. intro v. destruct (is_numeric v); [|apply rt_raise; reflexivity]. apply rt_bind; [apply rt_act|]. intro. apply rt_of, clean_arith.
    + apply rt_bind; [apply rt_of, clean_from|]. intro. destruct (dt_eqb _ _); [apply rt_bind; [apply rt_of, clean_asnat|]; intro; apply rt_bind; [exact Hb|]; intro; apply rt_of, clean_bit_float|].
      destruct (is_set_t _); [|apply rt_raise; reflexivity]. apply rt_bind; [exact Hb|]. intro. apply rt_of, clean_bit_set.
    + destruct (truthy u); [|apply rt_ok]. apply rt_bind; [exact Hb|]. intro. apply rt_ok.
    + destruct (truthy u); [apply rt_ok|]. apply rt_bind; [exact Hb|]. intro. apply rt_ok.
    + apply rt_bind; [exact Hb|]. intro. apply rt_ok.
    + apply rt_bind; [exact Hb|]. intro. apply rt_ok.
    + apply rt_bind; [exact Hb|]. intro. apply rt_of, clean_map, clean_cmp.
    + assert (X : E XSynRegex \/ is_str_lit c = true) by (destruct M as [M|M]; [left; exact M|right; eapply M; constructor]).
      destruct u; try (apply rt_raise; reflexivity); (apply rt_bind; [exact Hb|]; intro; apply rt_fuzzy; exact X).
  - apply rt_bind; [apply IHi; eapply expected_part; [exact M|]; apply Pa_cit; constructor|]. intro v. apply rt_bind; [apply rt_of, clean_from|]. intro t0. destruct (is_iterable t0); [|apply rt_raise; reflexivity].
    apply rt_bind; [|intro; apply rt_ok]. apply rt_comp.
    + destruct c as [c|]; [|discriminate]. intros p Hp. injection Hp as <-. apply IHc. eapply expected_part; [exact M|]. apply Pa_ccond. constructor.
    + apply IHr. eapply expected_part; [exact M|]. apply Pa_cres. constructor.
  - apply rt_bind; [apply IHc; eapply expected_part; [exact M|]; apply Pa_inc; constructor|]. intro. apply rt_bind; [apply rt_of, clean_from|]. intro. apply rt_bind; [apply IHm; eapply expected_part; [exact M|]; apply Pa_inm; constructor|]. intro. apply rt_of, clean_map, clean_in.
  - apply rt_bind; [apply IHo; eapply expected_part; [exact M|]; apply Pa_attr; constructor|]. intro v. destruct (is_null v && sf); [apply rt_ok|]. assert (CA := clean_attr v n). destruct (resolve_attr v n) as [r|x]; [apply rt_of, clean_new|].
    assert (Cx : rt (@raise value x)) by (apply rt_raise, not_syn, CA; reflexivity). destruct x; try exact Cx.
    apply rt_then; [apply rt_resolve|intro; apply rt_of, clean_new|]. intros x Hx. assert (Y : rt (@raise value x)) by (constructor; [auto|intros z Hz; injection Hz as <-; exact Hx]). destruct x; try exact Y. destruct (c_default C); [apply rt_of, clean_new|apply rt_raise; reflexivity].
  - apply rt_bind; [apply IHc; eapply expected_part; [exact M|]; apply Pa_itc; constructor|]. intro u. destruct (is_null u); [destruct sf; [apply rt_ok|apply rt_raise; reflexivity]|]. apply rt_bind; [apply IHi; eapply expected_part; [exact M|]; apply Pa_iti; constructor|]. intro k. apply rt_bind; [apply rt_of; destruct (is_sequence u); [apply clean_asint|good]|]. intro.
    assert (CG := clean_getitem u k). destruct (py_getitem u k) as [v|x]; [apply rt_of, clean_new|]. assert (Cx : rt (@raise value x)) by (apply rt_raise, not_syn, CG; reflexivity). destruct x; try exact Cx. destruct sf; [apply rt_ok|apply rt_raise; reflexivity].
  - apply rt_bind; [apply IHc; eapply expected_part; [exact M|]; apply Pa_slc; constructor|]. intro u. destruct (is_null u); [destruct sf; [apply rt_ok|apply rt_raise; reflexivity]|]. apply rt_bind; [apply IHa; eapply expected_part; [exact M|]; apply Pa_sla; constructor|]. intro. apply rt_bind; [apply rt_of, clean_opt_index|]. intro. apply rt_bind; [apply IHb; eapply expected_part; [exact M|]; apply Pa_slb; constructor|]. intro.
    apply rt_bind; [apply rt_of, clean_opt_index|]. intro. apply rt_bind; [apply rt_of, clean_getslice|]. intro. apply rt_of, clean_coerce.
  - apply rt_then; [apply rt_resolve| |].
    + intro v. apply rt_bind; [apply rt_ok|]. intro. apply rt_bind; [apply rt_of, clean_new|]. intro. apply rt_of, clean_sym.
    + intros x Hx. apply rt_bind; [|intro; apply rt_bind; [apply rt_of, clean_new|]; intro; apply rt_of, clean_sym]. assert (Y : rt (@raise value x)) by (constructor; [auto|intros z Hz; injection Hz as <-; exact Hx]). destruct x; try exact Y. destruct (c_default C); [apply rt_ok|exact Y].
  - rewrite Forall_forall in IHl. apply rt_bind; [apply IHf; eapply expected_part; [exact M|]; apply Pa_callf; constructor|]. intro fv. destruct (callable fv); [|apply rt_raise; reflexivity].
    apply rt_bind; [apply rt_pmapM; intros a Ha; apply IHl; [exact Ha|]; eapply expected_part; [exact M|]; eapply Pa_callx; [exact Ha|constructor]|]. intro vs. apply rt_bind; [apply rt_of; destruct (is_undef (rtype f)); [good|apply clean_validate]|]. intro.
    apply rt_bind; [apply rt_drop; intros []; [apply rt_ok|apply rt_raise; reflexivity]|]. intro. apply rt_bind; [apply rt_of, clean_new|]. intro. apply rt_bind; [apply rt_of, clean_from|]. intro. destruct (is_compat _ _); [apply rt_ok|apply rt_raise; reflexivity].
  - apply rt_bind; [apply IHc; eapply expected_part; [exact M|]; apply Pa_tc; constructor|]. intro u. destruct (truthy u); [apply IHa; eapply expected_part; [exact M|]; apply Pa_ta; constructor|apply IHb; eapply expected_part; [exact M|]; apply Pa_tb; constructor].
  - assert (He : rt (eval C thing e)) by (apply IHe; eapply expected_part; [exact M|]; apply Pa_un; constructor). destruct o; (apply rt_bind; [exact He|]; intro); [apply rt_ok|]. apply rt_bind; [apply rt_act|]. intro. apply rt_of, clean_neg.
Qed.
End Raises.

(** ** Construction and patterns *)
Section Patterns.
Context {Orc : Oracle} (C : ctx) (PB : expr -> Prop).
Definition pats (e : expr) : Prop := forall sr ng a b, part (EBin (BFuzzy sr ng) a b) e -> PB b.
Lemma ps_sub : forall e, (forall sr ng a b, e = EBin (BFuzzy sr ng) a b -> PB b) -> (forall x, part x e -> x = e \/ exists y, part x y /\ pats y) -> pats e.
Proof. intros e N H sr ng a b P. destruct (H _ P) as [E|[y [Py L]]]; [eapply N; symmetry; exact E|eapply L; exact Py]. Qed.
Lemma ps_part : forall x e, part x e -> pats e -> pats x.
Proof. intros x e P H sr ng a b K. eapply H. eapply part_trans; eassumption. Qed.
Lemma ps_lit : forall v, pats (ELit v). Proof. intros v sr ng a b P. inversion P. Qed.
Lemma ps_fun : forall v t, pats (EFun v t). Proof. intros v t sr ng a b P. inversion P. Qed.
Ltac lo := apply ps_sub; [discriminate|]; let x := fresh "x" in let P := fresh "P" in intros x P; inversion P; subst; try (left; reflexivity); right.
Lemma lit_of_pats : forall v e, lit_of v = Ok e -> pats e.
Proof.
  assert (A : forall v e, rmap ELit (coerce true v) = Ok e -> pats e) by (intros v e H; apply rmap_ok in H as [u [_ ->]]; apply ps_lit).
  induction v as [|b|d|z|f|c|b|w0 z|d|u|l IH|l IH|l|l IH|l IH|l IH|n|f|me v IH|n] using value_ind'; intros e H; cbn [lit_of] in H; apply rbind_ok in H as [t0 [_ H]]; try (eapply A; exact H).
  - apply rmap_ok in H as [es [E ->]]. apply rmapM_ok_iff in E. rewrite Forall_forall in IH. lo. match goal with K : In ?e es |- _ => destruct (Forall2_In_r _ _ _ _ _ _ E K) as [v [Hv Ev]]; exists e; split; [assumption|eapply IH; eauto] end.
  - apply rmap_ok in H as [es [E ->]]. apply rmapM_ok_iff in E. rewrite Forall_forall in IH. lo. match goal with K : In ?e es |- _ => destruct (Forall2_In_r _ _ _ _ _ _ E K) as [v [Hv Ev]]; exists e; split; [assumption|eapply IH; eauto] end.
  - injection H as <-. lo. match goal with K : In ?e (map _ l) |- _ => apply in_map_iff in K as [z [<- _]] end. eexists. split; [eassumption|]. apply ps_lit.
  - apply rmap_ok in H as [es [E ->]]. apply rmapM_ok_iff in E. rewrite Forall_forall in IH. lo. match goal with K : In ?e es |- _ => destruct (Forall2_In_r _ _ _ _ _ _ E K) as [v [Hv Ev]]; exists e; split; [assumption|eapply IH; eauto] end.
  - apply rmap_ok in H as [es [E ->]]. apply rmapM_ok_iff in E. rewrite Forall_forall in IH. lo; match goal with K : In (?k, ?e) es |- _ => destruct (Forall2_In_r _ _ _ _ _ _ E K) as [kv [Hv Ev]] end;
      apply rbind_ok in Ev as [k1 [E1 Ev]]; apply rbind_ok in Ev as [v1 [E2 Ev]]; injection Ev as <- <-; destruct (IH _ Hv) as [I1 I2]; eexists; (split; [eassumption|]); eauto.
  - apply rmap_ok in H as [es [E ->]]. apply rmapM_ok_iff in E. rewrite Forall_forall in IH. lo; match goal with K : In (?k, ?e) es |- _ => destruct (Forall2_In_r _ _ _ _ _ _ E K) as [kv [Hv Ev]] end;
      apply rbind_ok in Ev as [k1 [E1 Ev]]; apply rbind_ok in Ev as [v1 [E2 Ev]]; injection Ev as <- <-; destruct (IH _ Hv) as [I1 I2]; eexists; (split; [eassumption|]); eauto.
Qed.
Lemma fold_pats : forall e, post (fold C e) pats.
Proof. intro e. unfold fold. apply post_bind_any. intro v. apply post_ret. intros l E. eapply lit_of_pats. exact E. Qed.
Lemma reduce_pats : forall e, pats e -> post (reduce C e) pats.
Proof.
  induction e as [v|v t|l IH|l IH|l IH|o a b IHa IHb|r n i c IHr IHi IHc|c m IHc IHm|o n sf IHo|c i sf IHc IHi|c a b sf IHc IHa IHb|n bi t|f l IHf IHl|c a b IHc IHa IHb|o e IHe] using expr_ind';
    intro L; cbn [reduce]; try (apply post_ok; exact L).
  - destruct (_ && _); [apply fold_pats|apply post_ok; exact L].
  - destruct (_ && _); [|apply post_ok; exact L]. apply post_bind_any. intro v. apply post_ok, ps_lit.
  - destruct (is_reduced o); [|apply post_ok; exact L]. eapply post_bind; [apply fold_pats|]. intros l Hl. apply post_ok. destruct l; try exact Hl. destruct (_ && _); [apply ps_fun|exact Hl].
  - destruct (match rtype c with TMap k _ _ => sf && negb (is_compat (rtype i) k) | _ => false end); [apply post_ok, ps_lit|]. destruct (_ && _); [apply fold_pats|apply post_ok; exact L].
  - destruct (_ && _); [apply fold_pats|apply post_ok; exact L].
  - destruct (_ && _); [apply fold_pats|apply post_ok; exact L].
  - destruct (is_reduced c); [|apply post_ok; exact L]. destruct (lit_truthy c).
    + apply IHa. eapply ps_part; [|exact L]. apply Pa_ta. constructor.
    + apply IHb. eapply ps_part; [|exact L]. apply Pa_tb. constructor.
  - destruct o; (destruct (is_reduced e); [|apply post_ok; exact L]).
    + apply post_bind_any. intro v. apply post_ok, ps_lit.
    + destruct e as [v| | | | | | | | | | | | | | ]; try apply post_raise. destruct v; try apply post_raise; (apply post_bind_any; intro; apply post_ok, ps_lit).
Qed.
(** what construction guarantees about the pattern of each =~ of the text *)
Definition known (n : dnode) : Prop := forall sr ng a b, dpart (DBin (BFuzzy sr ng) a b) n -> forall w q y q', run w (build C b) q = (Ok y, q') -> forall x, check_bin C (BFuzzy sr ng) x y = Ok tt -> PB y.
Lemma known_sub : forall m n, dpart m n -> known n -> known m.
Proof. intros m n P H sr ng a b K. eapply H. eapply P_Construct.dpart_trans; eassumption. Qed.
Lemma build_list_pats : forall l, (forall n, In n l -> post (build C n) pats) -> post (pmapM (build C) l) (fun es => forall e, In e es -> pats e).
Proof.
  intros l H. eapply post_impl; [|apply (post_pmapM _ _ _ (fun _ e => pats e)); exact H]. intros es F e He. destruct (Forall2_In_r _ _ _ _ _ _ F He) as [n [_ K]]. exact K.
Qed.
Lemma opt_pats : forall o, opt_D (fun n => known n -> post (build C n) pats) o -> opt_D known o ->
  post (match o with Some n => do! e := build C n in ok (Some e) | None => ok None end) (fun oc => match oc with Some c => pats c | None => True end).
Proof. intros [n|] H W; [|apply post_ok; exact I]. eapply post_bind; [apply H; exact W|]. intros e He. apply post_ok. exact He. Qed.
Theorem build_pats : forall n, known n -> post (build C n) pats.
Proof.
  induction n as [v|t|t|t|l IH|l IH|l IH|o a b IHa IHb|r v i c IHr IHi IHc|c m IHc IHm|o nm sf IHo|c i sf IHc IHi|c a b sf IHc IHa IHb|nm bi|f l IHf IHl|c a b IHc IHa IHb|o e IHe] using dnode_ind';
    intro W; cbn [build].
  - apply post_ok, ps_lit.
  - apply post_ret. intros e E. apply rmap_ok in E as [d [_ ->]]. apply ps_lit.
  - apply post_ret. intros e E. apply rmap_ok in E as [d [E ->]]. apply ps_lit.
  - apply post_ret. intros e E. apply rmap_ok in E as [d [E ->]]. apply ps_lit.
  - rewrite Forall_forall in IH. eapply post_bind; [apply build_list_pats; intros n Hn; apply IH; [exact Hn|eapply known_sub; [|exact W]; eapply Dp_arr; [exact Hn|constructor]]|].
    intros es H. apply post_ok. lo. eauto.
  - rewrite Forall_forall in IH. eapply post_bind; [apply build_list_pats; intros n Hn; apply IH; [exact Hn|eapply known_sub; [|exact W]; eapply Dp_set; [exact Hn|constructor]]|].
    intros es H. apply post_ok. lo. eauto.
  - rewrite Forall_forall in IH. eapply post_bind; [apply (post_pmapM _ _ _ (fun _ e => pats (fst e) /\ pats (snd e)))|].
    + intros [k v] Hn. destruct (IH _ Hn) as [IH1 IH2]. eapply post_bind; [apply IH1; eapply known_sub; [|exact W]; eapply Dp_key; [exact Hn|constructor]|]. intros e1 H1.
      eapply post_bind; [apply IH2; eapply known_sub; [|exact W]; eapply Dp_val; [exact Hn|constructor]|]. intros e2 H2. apply post_ok. split; assumption.
    + intros es F. apply post_bind_any. intro u. apply post_ok. lo; match goal with K : In _ es |- _ => destruct (Forall2_In_r _ _ _ _ _ _ F K) as [x0 [_ [K1 K2]]] end; eauto.
  - eapply post_bind; [apply IHa; eapply known_sub; [|exact W]; apply Dp_l; constructor|]. intros x Hx.
    apply (post_bind _ _ _ _ (fun y => pats y /\ exists w q q', run w (build C b) q = (Ok y, q'))).
    { intros w q y q' R. split; [eapply IHb; [eapply known_sub; [|exact W]; apply Dp_r; constructor|exact R]|eauto]. }
    intros y [Hy [w [q [q' R]]]]. apply (post_bind _ _ _ _ (fun u => check_bin C o x y = Ok u)); [apply post_ret; auto|]. intros [] K. apply reduce_pats.
    apply ps_sub; [intros sr ng a' b' E; injection E as -> <- <-; eapply (W sr ng a b (Dp_self _) w q y q' R x K)|]. intros z P. inversion P; subst; try (left; reflexivity); right; eauto.
  - eapply post_bind; [apply IHi; eapply known_sub; [|exact W]; apply Dp_ci; constructor|]. intros x Hx. destruct (_ && _); [apply post_raise|].
    apply (post_bind _ _ _ _ (fun cr => pats (snd cr) /\ match fst cr with Some c => pats c | None => True end)).
    + apply post_scope. eapply post_bind; [apply opt_pats; [destruct c; exact IHc|destruct c; [eapply known_sub; [|exact W]; apply Dp_cc; constructor|exact I]]|].
      intros oc Hc. eapply post_bind; [apply IHr; eapply known_sub; [|exact W]; apply Dp_cr; constructor|]. intros e He. apply post_ok. split; assumption.
    + intros [oc e] [He Hc]. apply post_ok. cbn [fst snd] in *. lo; eauto.
  - eapply post_bind; [apply IHc; eapply known_sub; [|exact W]; apply Dp_inc; constructor|]. intros x Hx.
    eapply post_bind; [apply IHm; eapply known_sub; [|exact W]; apply Dp_inm; constructor|]. intros y Hy. apply post_bind_any. intro u. apply reduce_pats. lo; eauto.
  - eapply post_bind; [apply IHo; eapply known_sub; [|exact W]; apply Dp_attr; constructor|]. intros x Hx. apply post_bind_any. intro u. apply reduce_pats. lo; eauto.
  - eapply post_bind; [apply IHc; eapply known_sub; [|exact W]; apply Dp_itc; constructor|]. intros x Hx.
    eapply post_bind; [apply IHi; eapply known_sub; [|exact W]; apply Dp_iti; constructor|]. intros y Hy. apply post_bind_any. intro u. apply reduce_pats. lo; eauto.
  - eapply post_bind; [apply opt_pats; [destruct a; exact IHa|destruct a; [eapply known_sub; [|exact W]; apply Dp_sla; constructor|exact I]]|].
    intros oa Ha. eapply post_bind; [apply opt_pats; [destruct b; exact IHb|destruct b; [eapply known_sub; [|exact W]; apply Dp_slb; constructor|exact I]]|].
    intros ob Hb. eapply post_bind; [apply IHc; eapply known_sub; [|exact W]; apply Dp_slc; constructor|]. intros z Hz. apply post_bind_any. intro u. apply reduce_pats.
    assert (Ka : pats (mk_lit_slice oa (VDec (dec_of_Z 0)))) by (destruct oa; cbn; [exact Ha|apply ps_lit]).
    assert (Kb : pats (mk_lit_slice ob VNull)) by (destruct ob; cbn; [exact Hb|apply ps_lit]).
    lo; eauto.
  - apply post_bind_any. intro u. apply post_bind_any. intro t. apply post_ok. lo.
  - eapply post_bind; [apply IHf; eapply known_sub; [|exact W]; apply Dp_callf; constructor|]. intros x Hx. rewrite Forall_forall in IHl.
    eapply post_bind; [apply build_list_pats; intros n Hn; apply IHl; [exact Hn|eapply known_sub; [|exact W]; eapply Dp_callx; [exact Hn|constructor]]|].
    intros es Hes. apply post_bind_any. intro u. apply reduce_pats. lo; eauto.
  - eapply post_bind; [apply IHc; eapply known_sub; [|exact W]; apply Dp_tc; constructor|]. intros x Hx.
    eapply post_bind; [apply IHa; eapply known_sub; [|exact W]; apply Dp_ta; constructor|]. intros y Hy.
    eapply post_bind; [apply IHb; eapply known_sub; [|exact W]; apply Dp_tb; constructor|]. intros z Hz. apply reduce_pats. lo; eauto.
  - eapply post_bind; [apply IHe; eapply known_sub; [|exact W]; apply Dp_un; constructor|]. intros x Hx. apply reduce_pats. lo; eauto.
Qed.
End Patterns.

(** every part of a text is constructed if the text is *)
Lemma pmapM_each : forall A B (f : A -> prog B) l w q bs q', run w (pmapM f l) q = (Ok bs, q') -> forall a, In a l -> exists q1 b q2, run w (f a) q1 = (Ok b, q2).
Proof.
  induction l as [|a l IH]; intros w q bs q' H x K; [destruct K|]. cbn [pmapM] in H. apply run_pbind_ok in H as [b [q1 [H1 H]]]. apply run_pbind_ok in H as [bs' [q2 [H2 _]]]. destruct K as [<-|K]; eauto.
Qed.
Ltac inv_bind H x q1 H1 := apply run_pbind_ok in H; destruct H as [x [q1 [H1 H]]].
Lemma part_built : forall {Orc : Oracle} C x n, dpart x n -> forall w q e q', run w (build C n) q = (Ok e, q') -> exists q1 y q2, run w (build C x) q1 = (Ok y, q2).
Proof.
  intros Orc C x n D. induction D as [n|x n l I D IH|x n l I D IH|x k v l I D IH|x k v l I D IH|x o a b D IH|x o a b D IH|x r n i c D IH|x r n i c D IH|x r n i c D IH|x c m D IH|x c m D IH|x o n sf D IH|x c i sf D IH|x c i sf D IH|x c a b sf D IH|x c a b sf D IH|x c a b sf D IH|x f l D IH|x f l e I D IH|x c a b D IH|x c a b D IH|x c a b D IH|x o e D IH];
    intros w q e' q' H; [eauto|cbn [build] in H ..].
  - inv_bind H es q1 H1. destruct (pmapM_each _ _ _ _ _ _ _ _ H1 _ I) as [q2 [b [q3 R]]]. eauto.
  - inv_bind H es q1 H1. destruct (pmapM_each _ _ _ _ _ _ _ _ H1 _ I) as [q2 [b [q3 R]]]. eauto.
  - inv_bind H es q1 H1. destruct (pmapM_each _ _ _ _ _ _ _ _ H1 _ I) as [q2 [b [q3 R]]]. inv_bind R k' q4 R1. eauto.
  - inv_bind H es q1 H1. destruct (pmapM_each _ _ _ _ _ _ _ _ H1 _ I) as [q2 [b [q3 R]]]. inv_bind R k' q4 R1. inv_bind R v' q5 R2. eauto.
  - inv_bind H y q1 H1. eauto.
  - inv_bind H y q1 H1. inv_bind H z q2 H2. eauto.
  - inv_bind H y q1 H1. destruct (_ && _) in H; [discriminate H|]. inv_bind H cr q2 H2. apply run_scope_ok in H2 as [q3 [H2 _]]. inv_bind H2 c' q4 H4. inv_bind H2 e0 q5 H5. eauto.
  - inv_bind H y q1 H1. eauto.
  - inv_bind H y q1 H1. destruct (_ && _) in H; [discriminate H|]. inv_bind H cr q2 H2. apply run_scope_ok in H2 as [q3 [H2 _]]. inv_bind H2 c' q4 H4. inv_bind H4 e0 q5 H5. eauto.
  - inv_bind H y q1 H1. eauto.
  - inv_bind H y q1 H1. inv_bind H z q2 H2. eauto.
  - inv_bind H y q1 H1. eauto.
  - inv_bind H y q1 H1. eauto.
  - inv_bind H y q1 H1. inv_bind H z q2 H2. eauto.
  - inv_bind H y q1 H1. inv_bind H z q2 H2. inv_bind H z3 q3 H3. eauto.
  - inv_bind H y q1 H1. inv_bind H1 e0 q5 H5. eauto.
  - inv_bind H y q1 H1. inv_bind H z q2 H2. inv_bind H2 e0 q5 H5. eauto.
  - inv_bind H y q1 H1. eauto.
  - inv_bind H y q1 H1. inv_bind H es q2 H2. destruct (pmapM_each _ _ _ _ _ _ _ _ H2 _ I) as [q3 [b [q4 R]]]. eauto.
  - inv_bind H y q1 H1. eauto.
  - inv_bind H y q1 H1. inv_bind H z q2 H2. eauto.
  - inv_bind H y q1 H1. inv_bind H z q2 H2. inv_bind H z3 q3 H3. eauto.
  - inv_bind H y q1 H1. eauto.
Qed.

(** either some =~ of the rule has a computed pattern or none has *)
Definition computed (e : expr) : Prop := exists sr ng a b, part (EBin (BFuzzy sr ng) a b) e /\ is_str_lit b = false.
Notation literal := (pats (fun b => is_str_lit b = true)).
Lemma computed_part : forall x e, part x e -> computed x -> computed e.
Proof. intros x e P [sr [ng [a [b [K L]]]]]. exists sr, ng, a, b. split; [eapply part_trans; eassumption|exact L]. Qed.
Lemma decide_list : forall l, Forall (fun e => computed e \/ literal e) l -> (exists e, In e l /\ computed e) \/ (forall e, In e l -> literal e).
Proof.
  induction l as [|e l IH]; intro H; [right; intros e []|]. inversion H as [|? ? H1 H2]; subst. destruct H1 as [H1|H1]; [left; exists e; split; [left; reflexivity|exact H1]|].
  destruct (IH H2) as [[x [I K]]|K]; [left; exists x; split; [right; exact I|exact K]|right]. intros x [<-|I]; [exact H1|apply K; exact I].
Qed.
Ltac lo := apply ps_sub; [discriminate|]; let x := fresh "x" in let P := fresh "P" in intros x P; inversion P; subst; try (left; reflexivity); right.
Lemma decide : forall e, computed e \/ literal e.
Proof.
  induction e as [v|v t|l IH|l IH|l IH|o a b IHa IHb|r n i c IHr IHi IHc|c m IHc IHm|o n sf IHo|c i sf IHc IHi|c a b sf IHc IHa IHb|n bi t|f l IHf IHl|c a b IHc IHa IHb|o e IHe] using expr_ind'.
  - right. apply ps_lit.
  - right. apply ps_fun.
  - destruct (decide_list _ IH) as [[e [I K]]|K]; [left; eapply computed_part; [|exact K]; eapply Pa_arr; [exact I|constructor]|right; lo; eauto].
  - destruct (decide_list _ IH) as [[e [I K]]|K]; [left; eapply computed_part; [|exact K]; eapply Pa_set; [exact I|constructor]|right; lo; eauto].
  - assert (G : (exists kv, In kv l /\ (computed (fst kv) \/ computed (snd kv))) \/ (forall kv, In kv l -> literal (fst kv) /\ literal (snd kv))).
    { induction l as [|kv l IHl]; [right; intros kv []|]. inversion IH as [|? ? H1 H2]; subst. destruct H1 as [[H1|H1] [H3|H3]]; try (left; exists kv; split; [left; reflexivity|auto]; fail).
      destruct (IHl H2) as [[x [I K]]|K]; [left; exists x; split; [right; exact I|exact K]|right]. intros x [<-|I]; [split; assumption|apply K; exact I]. }
    destruct G as [[[k v] [I [K|K]]]|K]; [left; eapply computed_part; [|exact K]; eapply Pa_key; [exact I|constructor]|left; eapply computed_part; [|exact K]; eapply Pa_val; [exact I|constructor]|right].
    lo; match goal with J : In _ l |- _ => destruct (K _ J) as [K1 K2] end; eauto.
  - destruct IHa as [K|Ka]; [left; eapply computed_part; [|exact K]; apply Pa_left; constructor|]. destruct IHb as [K|Kb]; [left; eapply computed_part; [|exact K]; apply Pa_right; constructor|].
    assert (X : (exists sr ng, o = BFuzzy sr ng /\ is_str_lit b = false) \/ (forall sr ng, o = BFuzzy sr ng -> is_str_lit b = true)).
    { destruct o; try (right; intros; discriminate). destruct (is_str_lit b); [right; auto|left; eauto]. }
    destruct X as [[sr [ng [-> E]]]|X]; [left; exists sr, ng, a, b; split; [constructor|exact E]|right]. apply ps_sub; [intros sr ng a' b' E; injection E as -> _ <-; eapply X; reflexivity|]. intros x P. inversion P; subst; try (left; reflexivity); right; eauto.
  - destruct IHr as [K|Kr]; [left; eapply computed_part; [|exact K]; apply Pa_cres; constructor|]. destruct IHi as [K|Ki]; [left; eapply computed_part; [|exact K]; apply Pa_cit; constructor|].
    destruct c as [c|]; [destruct IHc as [K|Kc]; [left; eapply computed_part; [|exact K]; apply Pa_ccond; constructor|]|]; right; lo; eauto.
  - destruct IHc as [K|Kc]; [left; eapply computed_part; [|exact K]; apply Pa_inc; constructor|]. destruct IHm as [K|Km]; [left; eapply computed_part; [|exact K]; apply Pa_inm; constructor|]. right. lo; eauto.
  - destruct IHo as [K|Ko]; [left; eapply computed_part; [|exact K]; apply Pa_attr; constructor|]. right. lo; eauto.
  - destruct IHc as [K|Kc]; [left; eapply computed_part; [|exact K]; apply Pa_itc; constructor|]. destruct IHi as [K|Km]; [left; eapply computed_part; [|exact K]; apply Pa_iti; constructor|]. right. lo; eauto.
  - destruct IHc as [K|Kc]; [left; eapply computed_part; [|exact K]; apply Pa_slc; constructor|]. destruct IHa as [K|Ka]; [left; eapply computed_part; [|exact K]; apply Pa_sla; constructor|]. destruct IHb as [K|Kb]; [left; eapply computed_part; [|exact K]; apply Pa_slb; constructor|]. right. lo; eauto.
  - right. lo.
  - destruct IHf as [K|Kf]; [left; eapply computed_part; [|exact K]; apply Pa_callf; constructor|]. destruct (decide_list _ IHl) as [[e [I K]]|K]; [left; eapply computed_part; [|exact K]; eapply Pa_callx; [exact I|constructor]|right; lo; eauto].
  - destruct IHc as [K|Kc]; [left; eapply computed_part; [|exact K]; apply Pa_tc; constructor|]. destruct IHa as [K|Ka]; [left; eapply computed_part; [|exact K]; apply Pa_ta; constructor|]. destruct IHb as [K|Kb]; [left; eapply computed_part; [|exact K]; apply Pa_tb; constructor|]. right. lo; eauto.
  - destruct IHe as [K|Ke]; [left; eapply computed_part; [|exact K]; apply Pa_un; constructor|]. right. lo; eauto.
Qed.

(** ** The theorems *)
Lemma evaluate_raises : forall {Orc : Oracle} C w (E : exn -> Prop) e thing q x q', quiet_world w -> (forall y, is_syntax y = false -> E y) -> expected E e ->
  run w (rule_evaluate C e thing) q = (Err x, q') -> E x.
Proof.
  intros Orc C w E e thing q x q' W HE Ex R. rewrite run_rule_evaluate in R. destruct (run w (eval C thing e) _) as [r q1] eqn:Q. injection R as -> _.
  eapply rq_run; [exact W|exact (rt_eval C E HE thing e Ex)|exact Q].
Qed.
(** Evaluating a rule raises no syntax error, except for an invalid pattern of a =~ whose pattern is not a text literal. *)
Theorem C82_evaluation : forall (Orc : Oracle) C w e thing q x q', quiet_world w ->
  run w (rule_evaluate C e thing) q = (Err x, q') -> is_syntax x = true ->
  x = XSynRegex /\ exists sr ng a b, part (EBin (BFuzzy sr ng) a b) e /\ (forall p, b <> ELit (VStr p)).
Proof.
  intros Orc C w e thing q x q' W R S. revert S. apply (evaluate_raises C w (fun x => is_syntax x = true -> x = XSynRegex /\ exists sr ng a b, part (EBin (BFuzzy sr ng) a b) e /\ (forall p, b <> ELit (VStr p))) e thing q x q' W); [intros y H K; congruence| |exact R].
  destruct (decide e) as [[sr [ng [a [b [P L]]]]]|L]; [left|right; exact L]. intros _. split; [reflexivity|]. exists sr, ng, a, b. split; [exact P|]. intros p ->. discriminate L.
Qed.
(** A rule whose patterns are all text literals raises no syntax error once it has been constructed. *)
Theorem C82_literal_patterns : forall (Orc : Oracle) C n w0 q0 e q1 w thing q x q',
  (forall sr ng a b, dpart (DBin (BFuzzy sr ng) a b) n -> exists p, b = DLit (VStr p)) ->
  run w0 (rule_new C n) q0 = (Ok e, q1) -> quiet_world w ->
  run w (rule_evaluate C e thing) q = (Err x, q') -> is_syntax x = false.
Proof.
  intros Orc C n w0 q0 e q1 w thing q x q' L B W R. apply (evaluate_raises C w (fun x => is_syntax x = false) e thing q x q' W); [auto| |exact R].
  right. eapply (build_pats C (fun b => is_str_lit b = true)); [|exact B]. intros sr ng a b D w1 q2 y q3 R1 y' _. destruct (L _ _ _ _ D) as [p ->]. cbn in R1. injection R1 as <- _. reflexivity.
Qed.
Theorem C82_text : forall (Orc : Oracle) space uname C t n w0 q0 e q1 w thing q x q', parse_text space uname t = Ok n ->
  (forall sr ng a b, dpart (DBin (BFuzzy sr ng) a b) n -> exists p, b = DLit (VStr p)) ->
  run w0 (rule_of_text space uname C t) q0 = (Ok e, q1) -> quiet_world w ->
  run w (rule_evaluate C e thing) q = (Err x, q') -> is_syntax x = false.
Proof. intros Orc space uname C t n w0 q0 e q1 w thing q x q' P L B. unfold rule_of_text in B. rewrite P in B. eapply C82_literal_patterns; eassumption. Qed.
(** An invalid pattern written as a literal anywhere in the text is refused at construction, even where it would never be used. *)
Theorem C82_bad_pattern_refused : forall (Orc : Oracle) C n sr ng a p w q e q', dpart (DBin (BFuzzy sr ng) a (DLit (VStr p))) n -> o_re_ok (c_flags C) p = false ->
  run w (rule_new C n) q <> (Ok e, q').
Proof.
  intros Orc C n sr ng a p w q e q' D B R. destruct (part_built C _ _ D _ _ _ _ R) as [q1 [y [q2 R2]]]. cbn [build] in R2. inv_bind R2 x q3 R3. inv_bind R2 z q4 R4. cbn in R4. injection R4 as <- <-.
  inv_bind R2 u q5 R5. cbn [run] in R5. injection R5 as R5 _. unfold check_bin in R5. destruct (_ && _) in R5; [|discriminate R5]. unfold compile_ok in R5. rewrite B in R5. discriminate R5.
Qed.
Print Assumptions C82_evaluation.
Print Assumptions C82_text.
Print Assumptions C82_bad_pattern_refused.

(** a computed pattern is checked only when it is used; a literal one at construction, and so is one that folds to a literal *)
Definition c82_make (t : string) : prog expr := rule_of_text ascii_space (fun _ => None) untyped_ctx (s t).
Definition c82_try (t : string) : prog value := do! e := c82_make t in rule_evaluate untyped_ctx e demo_thing.
Example C82_example :
  quiet_world demo_world /\
  (exists e, fst (run demo_world (c82_make "name =~ (n == 3 ? '[' : 'a')") demo_st) = Ok e) /\
  fst (run demo_world (c82_try "name =~ (n == 3 ? '[' : 'a')") demo_st) = Err XSynRegex /\
  fst (run demo_world (c82_make "name =~ '['") demo_st) = Err XSynRegex /\
  fst (run demo_world (c82_make "true or (null =~ '[')") demo_st) = Err XSynRegex /\
  fst (run demo_world (c82_make "name =~ (true ? '[' : 'a')") demo_st) = Err XSynRegex /\
  fst (run demo_world (c82_try "name =~ 'Lu' and n / 0") demo_st) = Err XEval.
Proof.
  split; [split|]; [| |vm_compute; repeat split; eauto].
  - intros l v n x H. cbn [w_resolve demo_world default_world] in H. unfold resolve_item in H.
    destruct v; try (injection H as <-; reflexivity); destruct (dict_get _ _); try discriminate H; destruct (all_strs _); injection H as <-; reflexivity.
  - intros l f a x H. cbn [w_user demo_world default_world] in H. destruct a as [|v [|? ?]]; try discriminate H; injection H as <-; reflexivity.
Qed.
