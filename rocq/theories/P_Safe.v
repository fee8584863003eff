(** * Theorems about rules that cannot fail (C83) *)
From Coq Require Import QArith Lia String Permutation.
From Verif Require Import Base Dec Value DType DTypeFacts Types TypesFacts OrdFacts EqFacts CoerceFacts Ops ParseUtil Attr Prog Ast Eval Build Engine ProgFacts StateFacts Post P_Ops Demo.
Open Scope list_scope.
Open Scope Z_scope.

(** ** Specification: values of fields and typed rules *)
(** [field t v]: v is a value of the scalar type t: not null, not NaN, and aware if it is a datetime *)
Definition field (t : dtype) (v : value) : Prop :=
  match t, v with
  | TBool, VBool _ | TString, VStr _ | TBytes, VBytes _ | TTimedelta, VTd _ | TDatetime, VDt _ (Some _) => True
  | TFloat, VDec d => d <> DNaN
  | _, _ => False
  end.
Definition scalar_field (t : dtype) : Prop := In t [TBool; TString; TBytes; TTimedelta; TDatetime; TFloat].
(** operators of logic and comparison take every field but bytes (ast.py:559) *)
Definition comparable (t : dtype) : Prop := In t [TBool; TString; TTimedelta; TDatetime; TFloat].
(** the attributes that every field of the type has, and their types *)
Definition sure_attrs : list (dtype * string * dtype) :=
  [(TString, "length", TFloat); (TString, "is_empty", TBool); (TString, "as_lower", TString); (TString, "as_upper", TString); (TString, "to_str", TString);
   (TBytes, "length", TFloat); (TBytes, "is_empty", TBool);
   (TDatetime, "date", TDatetime); (TDatetime, "day", TFloat); (TDatetime, "hour", TFloat); (TDatetime, "microsecond", TFloat); (TDatetime, "minute", TFloat);
   (TDatetime, "month", TFloat); (TDatetime, "second", TFloat); (TDatetime, "weekday", TString); (TDatetime, "year", TFloat);
   (TTimedelta, "days", TFloat); (TTimedelta, "seconds", TFloat); (TTimedelta, "microseconds", TFloat);
   (TFloat, "is_nan", TBool); (TFloat, "ceiling", TFloat); (TFloat, "floor", TFloat); (TFloat, "to_flt", TFloat); (TFloat, "to_str", TString)]%string.

Section Typing.
Context {Orc : Oracle} (C : ctx) (m : list (str * dtype)).
(** the text of a rule about fields whose types are declared in m, and the type of its value *)
Inductive typed : dnode -> dtype -> Prop :=
| T_text : forall t, typed (DLit (VStr t)) TString
| T_flag : forall b, typed (DLit (VBool b)) TBool
| T_bytes : forall b, typed (DLit (VBytes b)) TBytes
| T_num : forall t d, parse_float t = Ok d -> d <> DNaN -> typed (DFloat t) TFloat
| T_datetime : forall t w z, parse_datetime t (c_tz C) = Ok (VDt w (Some z)) -> typed (DDatetime t) TDatetime
| T_timedelta : forall t u, parse_timedelta t = Ok (VTd u) -> typed (DTimedelta t) TTimedelta
| T_field : forall n t, assoc n m = Some t -> scalar_field t -> typed (DSym n false) t
| T_logic : forall o a b t u, In o [BAndL; BOrL; BEq; BNe] -> typed a t -> typed b u -> comparable t -> comparable u -> typed (DBin o a b) TBool
| T_order : forall o a b t, typed a t -> typed b t -> comparable t -> typed (DBin (BCmp o) a b) TBool
| T_match : forall sr ng a p, typed a TString -> o_re_ok (c_flags C) p = true -> typed (DBin (BFuzzy sr ng) a (DLit (VStr p))) TBool
| T_concat : forall a b t, typed a t -> typed b t -> In t [TString; TBytes] -> typed (DBin BAdd a b) t
| T_not : forall a t, typed a t -> typed (DUn UNot a) TBool
| T_if : forall c a b u t, typed c u -> typed a t -> typed b t -> typed (DTern c a b) t
| T_within : forall c a t, typed c t -> typed a t -> In t [TString; TBytes] -> typed (DIn c a) TBool
| T_among_array : forall l ts a t, Forall2 typed l ts -> typed a t -> typed (DIn (DArr l) a) TBool
| T_among_set : forall l ts a t, Forall2 typed l ts -> typed a t -> typed (DIn (DSet l) a) TBool
| T_attr : forall a t n u sf, typed a t -> In (t, n, u) sure_attrs -> typed (DAttr a (s n) sf) u.

(** the resolver delivers a field of the declared type under every declared name *)
Definition complete (w : world) (thing : value) : Prop :=
  forall n t, assoc n m = Some t -> forall log, exists v v', w_resolve w log thing n = Ok v /\ new_value (c_tz C) false v = Ok v' /\ field t v'.
End Typing.

(** ** Facts about fields *)
Ltac no H := try (exact (False_ind _ H)).
Tactic Notation "flds" ident(H) ident(t) ident(v) := destruct t; no H; destruct v; no H.
Lemma field_scalar : forall t v, field t v -> scalar_field t.
Proof. intros t v H. destruct t; no H; cbn; tauto. Qed.
Lemma field_type : forall t v, field t v -> from_value v = Ok t.
Proof. intros t v H. flds H t v; reflexivity. Qed.
Lemma field_lit : forall {Orc : Oracle} t v, field t v -> lit_of v = Ok (ELit v).
Proof. intros Orc t v H. flds H t v; reflexivity. Qed.
Lemma field_new : forall {Orc : Oracle} tz ver t v, field t v -> new_value tz ver v = Ok v.
Proof. intros Orc tz ver t v H. flds H t v; destruct ver; try reflexivity; (match goal with |- context [VDt _ ?z] => destruct z; [reflexivity|destruct H] end). Qed.
Lemma field_sym : forall {Orc : Oracle} n t v, field t v -> sym_check n t v = Ok v.
Proof. intros Orc n t v H. unfold sym_check. rewrite (field_type t v H). destruct t; no H; reflexivity. Qed.
Lemma field_hash : forall t v, field t v -> hashable v = true.
Proof. intros t v H. flds H t v; reflexivity. Qed.
Lemma field_nonnull : forall t v, field t v -> is_null v = false.
Proof. intros t v H. flds H t v; reflexivity. Qed.
Lemma field_order : forall {Orc : Oracle} o t v u, comparable t -> field t v -> field t u -> exists b, op_ord o v u = Ok b.
Proof.
  intros Orc o t v u K H G. unfold op_ord. destruct t; no H; destruct v; no H; destruct u; no G; cbn [cmp_values pytag_of pytag_eqb aop_native py_ord]; try (eexists; reflexivity).
  - destruct tz; [|destruct H]. destruct tz0; [|destruct G]. cbn [dtm_cmp]. eexists. reflexivity.
  - cbn [num_x]. destruct d; [ | |exfalso; apply H; reflexivity]; (destruct d0; [ | |exfalso; apply G; reflexivity]); cbn [dec_x xcmp]; eexists; reflexivity.
Qed.

(** ** Every typed rule is accepted, and evaluates *)
Section Safe.
Context {Orc : Oracle} (C : ctx) (m : list (str * dtype)).
Hypothesis Htypes : c_types C = type_resolver_of m.

(** evaluating e gives a field of type t *)
Definition ev (w : world) (thing : value) (e : expr) (t : dtype) : Prop :=
  forall q, s_scopes q = [] -> exists v q', run w (eval C thing e) q = (Ok v, q') /\ s_scopes q' = [] /\ field t v.
Lemma ev_intro : forall w thing e t, (forall q, s_scopes q = [] -> exists v, fst (run w (eval C thing e) q) = Ok v /\ field t v) -> ev w thing e t.
Proof.
  intros w thing e t H q S. destruct (H q S) as [v [E F]]. exists v, (snd (run w (eval C thing e) q)). split; [rewrite <- E; destruct (run w (eval C thing e) q); reflexivity|]. split; [|exact F]. rewrite eval_scopes. exact S.
Qed.
Lemma ev_lit : forall w thing v t, field t v -> ev w thing (ELit v) t.
Proof. intros w thing v t F. apply ev_intro. intros q S. exists v. split; [reflexivity|exact F]. Qed.
Ltac bind1 H q v q1 R S F := let S0 := fresh in match goal with K : s_scopes q = [] |- _ => destruct (H q K) as [v [q1 [R [S F]]]]; rewrite run_pbind, R end.
Lemma ev_logic : forall w thing o a b t u, In o [BAndL; BOrL; BEq; BNe] -> ev w thing a t -> ev w thing b u -> ev w thing (EBin o a b) TBool.
Proof.
  intros w thing o a b t u O A B. apply ev_intro. intros q S. destruct O as [<-|[<-|[<-|[<-|[]]]]]; cbn [eval]; bind1 A q x q1 R1 S1 F1.
  - destruct (truthy x); [bind1 B q1 y q2 R2 S2 F2|]; eexists; (split; [reflexivity|exact I]).
  - destruct (truthy x); [|bind1 B q1 y q2 R2 S2 F2]; eexists; (split; [reflexivity|exact I]).
  - bind1 B q1 y q2 R2 S2 F2; eexists; (split; [reflexivity|exact I]).
  - bind1 B q1 y q2 R2 S2 F2; eexists; (split; [reflexivity|exact I]).
Qed.
Lemma ev_order : forall w thing o a b t, comparable t -> ev w thing a t -> ev w thing b t -> ev w thing (EBin (BCmp o) a b) TBool.
Proof.
  intros w thing o a b t K A B. apply ev_intro. intros q S. cbn [eval]. bind1 A q x q1 R1 S1 F1. bind1 B q1 y q2 R2 S2 F2. destruct (field_order o t x y K F1 F2) as [r E]. unfold vbool. rewrite E. eexists. split; [reflexivity|exact I].
Qed.
Lemma ev_match : forall w thing sr ng a p, ev w thing a TString -> ev w thing (EBin (BFuzzy sr ng) a (ELit (VStr p))) TBool.
Proof.
  intros w thing sr ng a p A. apply ev_intro. intros q S. cbn [eval]. bind1 A q x q1 R1 S1 F1. destruct x; no F1. cbn. destruct (o_re _ _ _ _); eexists; (split; [reflexivity|exact I]).
Qed.
Lemma ev_concat : forall w thing a b t, In t [TString; TBytes] -> ev w thing a t -> ev w thing b t -> ev w thing (EBin BAdd a b) t.
Proof.
  intros w thing a b t K A B. apply ev_intro. intros q S. cbn [eval]. bind1 A q x q1 R1 S1 F1. bind1 B q1 y q2 R2 S2 F2.
  destruct K as [<-|[<-|[]]]; destruct x; no F1; destruct y; no F2; eexists; (split; [reflexivity|exact I]).
Qed.
Lemma ev_not : forall w thing a t, ev w thing a t -> ev w thing (EUn UNot a) TBool.
Proof. intros w thing a t A. apply ev_intro. intros q S. cbn [eval]. bind1 A q x q1 R1 S1 F1. eexists. split; [reflexivity|exact I]. Qed.
Lemma ev_if : forall w thing c a b u t, ev w thing c u -> ev w thing a t -> ev w thing b t -> ev w thing (ETern c a b) t.
Proof.
  intros w thing c a b u t K A B q S. cbn [eval]. bind1 K q x q1 R1 S1 F1. destruct (truthy x); [apply A|apply B]; exact S1.
Qed.
Lemma ev_within : forall w thing c a t, In t [TString; TBytes] -> ev w thing c t -> ev w thing a t -> ev w thing (EIn c a) TBool.
Proof.
  intros w thing c a t K A B. apply ev_intro. intros q S. cbn [eval]. bind1 A q x q1 R1 S1 F1. rewrite run_pbind. rewrite (field_type t x F1). cbn [run]. bind1 B q1 y q2 R2 S2 F2.
  destruct K as [<-|[<-|[]]]; destruct x; no F1; destruct y; no F2; eexists; (split; [reflexivity|exact I]).
Qed.
Definition evs (w : world) (thing : value) (l : list expr) (ts : list dtype) : Prop := Forall2 (ev w thing) l ts.
Lemma evs_run : forall w thing (f : value -> prog value) l ts, (forall t v, field t v -> f v = ok v) -> evs w thing l ts -> forall q, s_scopes q = [] -> exists vs q', run w (pmapM (fun e => do! v := eval C thing e in f v) l) q = (Ok vs, q') /\ s_scopes q' = [] /\ Forall2 field ts vs.
Proof.
  intros w thing f l ts Hf H. induction H as [|e t l ts He Hl IH]; intros q S; cbn [pmapM].
  - exists [], q. split; [reflexivity|]. split; [exact S|constructor].
  - destruct (He q S) as [v [q1 [R1 [S1 F1]]]]. destruct (IH q1 S1) as [vs [q2 [R2 [S2 F2]]]].
    exists (v :: vs), q2. rewrite run_pbind, run_pbind, R1, (Hf t v F1). cbn [run ok]. rewrite run_pbind, R2. cbn [run ok]. split; [reflexivity|]. split; [exact S2|constructor; assumption].
Qed.
Lemma from_fields : forall ts vs, Forall2 field ts vs -> rmapM from_value vs = Ok ts.
Proof. intros ts vs H. induction H as [|t v ts vs F H IH]; [reflexivity|]. cbn [rmapM]. rewrite (field_type t v F), IH. reflexivity. Qed.
Lemma hash_fields : forall ts vs, Forall2 field ts vs -> forall v, In v vs -> exists t, field t v.
Proof. intros ts vs H. induction H as [|t v ts vs F H IH]; intros x []; [subst; eauto|apply IH; assumption]. Qed.
Lemma fields_of : forall vs, (forall v, In v vs -> exists t, field t v) -> exists ts, Forall2 field ts vs.
Proof. induction vs as [|v vs IH]; intro H; [exists []; constructor|]. destruct (H v (or_introl eq_refl)) as [t F]. destruct IH as [ts K]; [intros x I; apply H; right; exact I|]. exists (t :: ts). constructor; assumption. Qed.
Lemma ev_among_array : forall w thing l ts a t, evs w thing l ts -> ev w thing a t -> ev w thing (EIn (EArr l) a) TBool.
Proof.
  intros w thing l ts a t L A. apply ev_intro. intros q S. cbn [eval]. destruct (evs_run w thing ok l ts (fun _ _ _ => eq_refl) L q S) as [vs [q1 [R1 [S1 F1]]]].
  assert (R : run w (pmapM (eval C thing) l) q = (Ok vs, q1)).
  { rewrite <- R1. clear. revert q. induction l as [|e l IH]; intro q; [reflexivity|]. cbn [pmapM]. rewrite !run_pbind. destruct (run w (eval C thing e) q) as [[v|x] q1]; [cbn [run ok]; rewrite !run_pbind, IH; reflexivity|reflexivity]. }
  rewrite !run_pbind, R. cbn [run ok]. rewrite run_pbind. cbn [run from_value]. rewrite (from_fields ts vs F1). cbn [rmap]. bind1 A q1 y q2 R2 S2 F2.
  unfold vbool, op_in. cbn [run from_value]. rewrite (from_fields ts vs F1). eexists. split; [reflexivity|exact I].
Qed.
Lemma ev_among_set : forall w thing l ts a t, evs w thing l ts -> ev w thing a t -> ev w thing (EIn (ESet l) a) TBool.
Proof.
  intros w thing l ts a t L A. apply ev_intro. intros q S. cbn [eval]. destruct (evs_run w thing (fun v => if hashable v then ok v else raise PType) l ts) with (q := q) as [vs [q1 [R1 [S1 F1]]]]; [intros t' v F; rewrite (field_hash t' v F); reflexivity|exact L|exact S|].
  rewrite !run_pbind, R1. cbn [run ok]. rewrite run_pbind.
  assert (G : exists ts', from_value (new_set (mk_set vs)) = Ok (TSet ts' true)).
  { destruct (fields_of (o_set_order (mk_set vs))) as [us U].
    - intros v K. apply (hash_fields ts vs F1). apply mk_set_In. eapply Permutation_in; [apply o_set_order_perm|exact K].
    - unfold new_set. cbn [from_value]. rewrite (from_fields us _ U). eexists. reflexivity. }
  destruct G as [ts' G]. cbn [run]. rewrite G. bind1 A q1 y q2 R2 S2 F2. unfold vbool, op_in. cbn [run]. rewrite G. unfold new_set. cbn [rbind dt_eqb orb]. clear - F2.
  assert (K : exists b, py_in y (VSet (o_set_order (mk_set vs))) = Ok b) by (cbn [py_in]; rewrite (field_hash t y F2); destruct y; eexists; reflexivity).
  destruct K as [b K]. exists (VBool b). split; [|exact I]. cbn in *. rewrite K. reflexivity.
Qed.
Ltac attr1 := unfold resolve_attr; cbn [from_value];
  match goal with |- context [get_attr ?t ?n] => let g := eval vm_compute in (get_attr t n) in change (get_attr t n) with g end;
  cbn [rbind attr_fun py_len rmap coerce from_value attr_type]; try (destruct (is_compat _ _) eqn:IC; [|discriminate IC]).
Lemma attr_field : forall t n u v, In (t, n, u) sure_attrs -> field t v -> exists r, resolve_attr v (s n) = Ok r /\ field u r.
Proof.
  intros t n u v H F. unfold sure_attrs in H.
  repeat (destruct H as [H|H]; [injection H as <- <- <-; destruct v; no F; try (attr1; (eexists; split; [reflexivity|first [exact I|discriminate]]))|]); try destruct H.
  - attr1. eexists. split; [reflexivity|]. destruct tz; exact F.
  - destruct d; [| |exfalso; apply F; reflexivity]; (attr1; cbn [float_op coerce rbind from_value attr_type]; eexists; split; [reflexivity|discriminate]).
  - destruct d; [| |exfalso; apply F; reflexivity]; (attr1; cbn [float_op coerce rbind from_value attr_type]; eexists; split; [reflexivity|discriminate]).
  - attr1. eexists. split; [reflexivity|exact F].
Qed.
Lemma ev_attr : forall w thing a t n u sf, In (t, n, u) sure_attrs -> ev w thing a t -> ev w thing (EAttr a (s n) sf) u.
Proof.
  intros w thing a t n u sf H A. apply ev_intro. intros q S. cbn [eval]. bind1 A q x q1 R1 S1 F1. rewrite (field_nonnull t x F1). cbn [andb]. destruct (attr_field t n u x H F1) as [r [E F]]. rewrite E. unfold nval. rewrite (field_new _ _ u r F). exists r. split; [reflexivity|exact F].
Qed.
Lemma ev_sym : forall w thing n t, complete C m w thing -> assoc n m = Some t -> ev w thing (ESym n false t) t.
Proof.
  intros w thing n t K A. apply ev_intro. intros q S. destruct (K n t A (s_log q)) as [v [v' [E1 [E2 F]]]]. cbn [eval]. rewrite run_pthen. unfold resolve. rewrite run_pbind. cbn [run act step_op]. rewrite S. cbn [find_scope].
  cbn [run actr step_op]. rewrite E1. rewrite run_pbind. cbn [run ok]. rewrite run_pbind. unfold nval. cbn [run]. rewrite E2. cbn [run]. rewrite (field_sym n t v' F). exists v'. split; [reflexivity|exact F].
Qed.

(** the constructed expression: of the type, a literal if it is constant, and evaluating to a field *)
Record sure (e : expr) (t : dtype) : Prop := {
  su_type : rtype e = t;
  su_field : scalar_field t;
  su_stable : reduce C e = ok e;
  su_const : is_reduced e = true -> exists v, e = ELit v /\ field t v;
  su_ev : forall w thing, complete C m w thing -> ev w thing e t }.
Lemma sure_lit : forall t v, field t v -> sure (ELit v) t.
Proof.
  intros t v F. split; [unfold rtype, lit_type; rewrite (field_type t v F); reflexivity|exact (field_scalar t v F)|reflexivity|intros _; exists v; split; [reflexivity|exact F]|intros; apply ev_lit; exact F].
Qed.
(** construction of an operator: folded to a literal, or kept *)
Definition made (p : prog expr) (t : dtype) : Prop := forall w q, s_scopes q = [] -> exists e q', run w p q = (Ok e, q') /\ s_scopes q' = [] /\ sure e t.
Lemma made_fold : forall e t, (forall w, ev w VNull e t) -> made (fold C e) t.
Proof.
  intros e t H w q S. destruct (H w q S) as [v [q' [R [S' F]]]]. exists (ELit v), q'. unfold fold. rewrite run_pbind, R. cbn [run]. rewrite (field_lit t v F). split; [reflexivity|]. split; [exact S'|apply sure_lit; exact F].
Qed.
Lemma made_value : forall e t, (forall w, ev w VNull e t) -> made (do! v := eval C VNull e in ok (ELit v)) t.
Proof.
  intros e t H w q S. destruct (H w q S) as [v [q' [R [S' F]]]]. exists (ELit v), q'. rewrite run_pbind, R. cbn [run ok]. split; [reflexivity|]. split; [exact S'|apply sure_lit; exact F].
Qed.
Lemma made_ok : forall e t, sure e t -> made (ok e) t.
Proof. intros e t H w q S. exists e, q. split; [reflexivity|]. split; assumption. Qed.
Lemma const_ev : forall e t, sure e t -> is_reduced e = true -> forall w thing, ev w thing e t.
Proof. intros e t H K w thing. destruct (su_const e t H K) as [v [-> F]]. apply ev_lit. exact F. Qed.
Lemma made_bin : forall o a b t u r, sure a t -> sure b u -> scalar_field r -> bin_type o t u = r ->
  (forall w thing, ev w thing a t -> ev w thing b u -> ev w thing (EBin o a b) r) -> made (reduce C (EBin o a b)) r.
Proof.
  intros o a b t u r A B Sr T H. cbn [reduce]. destruct (is_reduced a && is_reduced b) eqn:E.
  - apply andb_true_iff in E as [E1 E2]. apply made_fold. intro w. apply H; [eapply const_ev; eassumption|eapply const_ev; eassumption].
  - apply made_ok. split; [cbn [rtype]; rewrite (su_type a t A), (su_type b u B); exact T|exact Sr|cbn [reduce]; rewrite E; reflexivity|discriminate|]. intros w thing K. apply H; [apply (su_ev a t A)|apply (su_ev b u B)]; exact K.
Qed.
Lemma made_bind : forall n t (f : expr -> prog expr) r, made (build C n) t -> (forall e, sure e t -> made (f e) r) -> made (pbind (build C n) f) r.
Proof. intros n t f r H K w q S. destruct (H w q S) as [e [q1 [R [S1 E]]]]. rewrite run_pbind, R. apply (K e E w q1 S1). Qed.
Lemma made_check : forall (c : result unit) p r, c = Ok tt -> made p r -> made (do! _ := Ret c in p) r.
Proof. intros c p r -> H w q S. rewrite run_pbind. cbn [run]. apply H. exact S. Qed.
Lemma made_list : forall l ts, Forall2 (fun n t => made (build C n) t) l ts -> forall w q, s_scopes q = [] -> exists es q', run w (pmapM (build C) l) q = (Ok es, q') /\ s_scopes q' = [] /\ Forall2 sure es ts.
Proof.
  intros l ts H. induction H as [|n t l ts Hn Hl IH]; intros w q S; cbn [pmapM]; [exists [], q; split; [reflexivity|]; split; [exact S|constructor]|].
  destruct (Hn w q S) as [e [q1 [R1 [S1 E1]]]]. destruct (IH w q1 S1) as [es [q2 [R2 [S2 E2]]]]. exists (e :: es), q2. rewrite run_pbind, R1, run_pbind, R2. split; [reflexivity|]. split; [exact S2|constructor; assumption].
Qed.
Lemma sures_ev : forall es ts, Forall2 sure es ts -> (forall w thing, complete C m w thing -> evs w thing es ts) /\ (forallb is_reduced es = true -> forall w thing, evs w thing es ts).
Proof.
  intros es ts H. induction H as [|e t es ts He Hl [IH1 IH2]]; [split; intros; constructor|]. split.
  - intros w thing K. constructor; [apply (su_ev e t He); exact K|apply IH1; exact K].
  - intros E w thing. cbn [forallb] in E. apply andb_true_iff in E as [E1 E2]. constructor; [eapply const_ev; eassumption|apply IH2; exact E2].
Qed.
Lemma made_in : forall c es a ts t, Forall2 sure es ts -> sure a t -> (c = EArr es \/ c = ESet es) -> (forall w thing, evs w thing es ts -> ev w thing a t -> ev w thing (EIn c a) TBool) -> made (reduce C (EIn c a)) TBool.
Proof.
  intros c es a ts t L A Hc H. destruct (sures_ev es ts L) as [L1 L2]. assert (Rc : is_reduced c = forallb is_reduced es) by (destruct Hc as [->| ->]; reflexivity).
  cbn [reduce]. destruct (is_reduced c && is_reduced a) eqn:E.
  - apply andb_true_iff in E as [E1 E2]. apply made_value. intro w. apply H; [apply L2; congruence|eapply const_ev; eassumption].
  - apply made_ok. split; [reflexivity|cbn; tauto|cbn [reduce]; rewrite E; reflexivity|discriminate|]. intros w thing K. apply H; [apply L1|apply (su_ev a t A)]; exact K.
Qed.
Definition members (n : dnode) : list dnode := match n with DArr l | DSet l => l | _ => [] end.
Lemma op_ok : forall o t, comparable t -> In o [BAndL; BOrL; BEq; BNe] -> operand_ok o t = true.
Proof. intros o t K O. cbn in K, O. intuition (subst; reflexivity). Qed.
Lemma comparable_scalar : forall t, comparable t -> scalar_field t.
Proof. intros t K. cbn in *. tauto. Qed.
Lemma made_seq : forall l ts (f : list expr -> expr) (g : expr -> prog expr) r, Forall2 (fun n t => made (build C n) t) l ts -> (forall es, Forall2 sure es ts -> made (g (f es)) r) -> made (do! x := (do! es := pmapM (build C) l in ok (f es)) in g x) r.
Proof. intros l ts f g r H K w q S. destruct (made_list l ts H w q S) as [es [q1 [R [S1 E]]]]. rewrite run_pbind, run_pbind, R. cbn [run ok]. apply (K es E w q1 S1). Qed.
Lemma dt_eqb_scalar : forall t, scalar_field t -> dt_eqb t t = true.
Proof. intros t H. cbn in H. intuition (subst; reflexivity). Qed.
Lemma sure_attr_type : forall t n u, In (t, n, u) sure_attrs -> (forall sf, check_attr t (s n) sf = Ok tt) /\ (forall sf, attr_rtype t (s n) sf = u) /\ scalar_field u.
Proof. intros t n u H. unfold sure_attrs in H. repeat (destruct H as [H|H]; [injection H as <- <- <-; split; [intro sf; destruct sf; reflexivity|split; [intro sf; destruct sf; reflexivity|cbn; tauto]]|]). destruct H. Qed.
Lemma made_attr : forall x t n u sf, sure x t -> In (t, n, u) sure_attrs -> made (reduce C (EAttr x (s n) sf)) u.
Proof.
  intros x t n u sf X H. destruct (sure_attr_type t n u H) as [_ [Ru Su]]. cbn [reduce]. destruct (is_reduced x) eqn:E.
  - intros w q S. destruct (made_fold (EAttr x (s n) sf) u) with (w := w) (q := q) as [e [q1 [R [S1 F1]]]]; [intro w0; eapply ev_attr; [exact H|eapply const_ev; eassumption]|exact S|].
    exists e, q1. rewrite run_pbind, R. cbn [run ok]. split; [|split; assumption]. f_equal. f_equal. destruct e; try reflexivity. rewrite (su_type _ _ F1).
    cbn in Su. intuition (subst; reflexivity).
  - apply made_ok. split; [cbn [rtype]; rewrite (su_type x t X); apply Ru|exact Su|cbn [reduce]; rewrite E; reflexivity|discriminate|]. intros w thing K. eapply ev_attr; [exact H|apply (su_ev x t X); exact K].
Qed.
Lemma made_if : forall x y z u t, sure x u -> sure y t -> sure z t -> made (reduce C (ETern x y z)) t.
Proof.
  intros x y z u t X Y Z. cbn [reduce]. destruct (is_reduced x) eqn:E.
  - destruct (lit_truthy x); [rewrite (su_stable y t Y)|rewrite (su_stable z t Z)]; apply made_ok; assumption.
  - apply made_ok. split; [cbn [rtype]; rewrite (su_type y t Y), (su_type z t Z); unfold tern_type; rewrite (dt_eqb_scalar t (su_field y t Y)); try reflexivity|exact (su_field y t Y)|cbn [reduce]; rewrite E; reflexivity|discriminate|].
    intros w thing K. eapply ev_if; [apply (su_ev x u X)|apply (su_ev y t Y)|apply (su_ev z t Z)]; exact K.
Qed.
Lemma made_not : forall x t, sure x t -> made (reduce C (EUn UNot x)) TBool.
Proof.
  intros x t X. cbn [reduce]. destruct (is_reduced x) eqn:E.
  - apply made_value. intro w. eapply ev_not. eapply const_ev; eassumption.
  - apply made_ok. split; [reflexivity|cbn; tauto|cbn [reduce]; rewrite E; reflexivity|discriminate|]. intros w thing K. eapply ev_not. apply (su_ev x t X). exact K.
Qed.
Lemma made_sym : forall n t, assoc n m = Some t -> scalar_field t -> made (build C (DSym n false)) t.
Proof.
  intros n t A K w q S. exists (ESym n false t). eexists. cbn [build]. rewrite run_pbind, run_act. cbn [step_op]. rewrite run_pbind. unfold resolve_type. rewrite run_pbind, run_act. cbn [step_op].
  change (s_scopes (add_sym n q)) with (s_scopes q). rewrite S. cbn [find_scope]. rewrite Htypes. unfold type_resolver_of. rewrite A. cbn [run ok]. split; [reflexivity|]. split; [exact S|].
  split; [reflexivity|exact K|reflexivity|discriminate|]. intros w' thing Kc. apply ev_sym; assumption.
Qed.
Theorem build_sure : forall n, (forall t, typed C m n t -> made (build C n) t) /\ (forall ts, Forall2 (typed C m) (members n) ts -> Forall2 (fun n t => made (build C n) t) (members n) ts).
Proof.
  assert (ML : forall l, Forall (fun n => (forall t, typed C m n t -> made (build C n) t) /\ (forall ts, Forall2 (typed C m) (members n) ts -> Forall2 (fun n t => made (build C n) t) (members n) ts)) l ->
            forall ts, Forall2 (typed C m) l ts -> Forall2 (fun n t => made (build C n) t) l ts).
  { intros l H ts K. induction K as [|n t l ts Kn Kl IH]; [constructor|]. inversion H as [|? ? [H1 _] H2]; subst. constructor; [apply H1; exact Kn|apply IH; exact H2]. }
  induction n as [v|t|t|t|l IH|l IH|l IH|o a b IHa IHb|r v i c IHr IHi IHc|c a IHc IHm|o nm sf IHo|c i sf IHc IHi|c a b sf IHc IHa IHb|nm bi|f l IHf IHl|c a b IHc IHa IHb|o e IHe] using dnode_ind';
    (split; [|try (intros ts K; inversion K; subst; constructor; fail); try (exact (ML l IH))]); intros T K; inversion K; subst; cbn [build].
  - apply made_ok, sure_lit. exact I.
  - apply made_ok, sure_lit. exact I.
  - apply made_ok, sure_lit. exact I.
  - match goal with H : parse_float _ = Ok _ |- _ => rewrite H end. apply made_ok, sure_lit. assumption.
  - match goal with H : parse_datetime _ _ = Ok _ |- _ => rewrite H end. apply made_ok, sure_lit. exact I.
  - match goal with H : parse_timedelta _ = Ok _ |- _ => rewrite H end. apply made_ok, sure_lit. exact I.
  - eapply made_bind; [apply IHa; eassumption|]. intros x Hx. eapply made_bind; [apply IHb; eassumption|]. intros y Hy.
    match goal with O : In o _ |- _ => rename O into HO end. match goal with H : comparable t |- _ => rename H into Kt end. match goal with H : comparable u |- _ => rename H into Ku end.
    apply made_check; [unfold check_bin; rewrite (su_type x t Hx), (su_type y u Hy), (op_ok o t Kt HO), (op_ok o u Ku HO); repeat destruct HO as [<-|HO]; try (destruct HO); reflexivity|].
    eapply made_bin; [exact Hx|exact Hy|cbn; tauto|repeat destruct HO as [<-|HO]; try (destruct HO); reflexivity|]. intros w thing A B. eapply ev_logic; eassumption.
  - eapply made_bind; [apply IHa; eassumption|]. intros x Hx. eapply made_bind; [apply IHb; eassumption|]. intros y Hy.
    match goal with H : comparable t |- _ => rename H into Kt end.
    apply made_check; [unfold check_bin; rewrite (su_type x t Hx), (su_type y t Hy); repeat destruct Kt as [<-|Kt]; try (destruct Kt); reflexivity|].
    eapply made_bin; [exact Hx|exact Hy|cbn; tauto|reflexivity|]. intros w thing A B. eapply ev_order; eassumption.
  - eapply made_bind; [apply IHa; eassumption|]. intros x Hx. change (do! y := build C (DLit (VStr p)) in do! _ := Ret (check_bin C (BFuzzy sr ng) x y) in reduce C (EBin (BFuzzy sr ng) x y)) with (do! _ := Ret (check_bin C (BFuzzy sr ng) x (ELit (VStr p))) in reduce C (EBin (BFuzzy sr ng) x (ELit (VStr p)))).
    apply made_check; [unfold check_bin; rewrite (su_type x _ Hx); cbn [operand_ok rtype]; change (operand_ok (BFuzzy sr ng) TString) with true; cbn [lit_type from_value]; unfold compile_ok; match goal with H : o_re_ok _ _ = true |- _ => rewrite H end; reflexivity|].
    apply made_bin with (t := TString) (u := TString); [exact Hx|apply sure_lit; exact I|cbn; tauto|reflexivity|]. intros w thing A _. eapply ev_match; eassumption.
  - eapply made_bind; [apply IHa; eassumption|]. intros x Hx. eapply made_bind; [apply IHb; eassumption|]. intros y Hy.
    match goal with H : In T _ |- _ => rename H into Kt end.
    apply made_check; [unfold check_bin; rewrite (su_type x _ Hx), (su_type y _ Hy); repeat destruct Kt as [<-|Kt]; try (destruct Kt); reflexivity|].
    eapply made_bin; [exact Hx|exact Hy|exact (su_field x T Hx)|repeat destruct Kt as [<-|Kt]; try (destruct Kt); reflexivity|]. intros w thing A B. eapply ev_concat; eassumption.
  - eapply made_bind; [apply IHc; eassumption|]. intros x Hx. eapply made_bind; [apply IHm; eassumption|]. intros y Hy.
    match goal with H : In t _ |- _ => rename H into Kt end.
    apply made_check; [rewrite (su_type x _ Hx), (su_type y _ Hy); repeat destruct Kt as [<-|Kt]; try (destruct Kt); reflexivity|].
    cbn [reduce]. destruct (is_reduced x && is_reduced y) eqn:E.
    + apply andb_true_iff in E as [E1 E2]. apply made_value. intro w. eapply ev_within; [exact Kt|eapply const_ev; eassumption|eapply const_ev; eassumption].
    + apply made_ok. split; [reflexivity|cbn; tauto|cbn [reduce]; rewrite E; reflexivity|discriminate|]. intros w thing Kc. eapply ev_within; [exact Kt|apply (su_ev x t Hx); exact Kc|apply (su_ev y t Hy); exact Kc].
  - destruct IHc as [_ IHl]. cbn [members] in IHl. cbn [build]. eapply made_seq; [apply IHl; eassumption|]. intros es L. eapply made_bind; [apply IHm; eassumption|]. intros y Hy.
    apply made_check; [reflexivity|]. eapply made_in; [exact L|exact Hy|left; reflexivity|]. intros w thing A B. eapply ev_among_array; eassumption.
  - destruct IHc as [_ IHl]. cbn [members] in IHl. cbn [build]. eapply made_seq; [apply IHl; eassumption|]. intros es L. eapply made_bind; [apply IHm; eassumption|]. intros y Hy.
    apply made_check; [reflexivity|]. eapply made_in; [exact L|exact Hy|right; reflexivity|]. intros w thing A B. eapply ev_among_set; eassumption.
  - eapply made_bind; [apply IHo; eassumption|]. intros x Hx. match goal with H : In _ sure_attrs |- _ => rename H into HA end.
    apply made_check; [rewrite (su_type x _ Hx); apply (sure_attr_type _ _ _ HA)|]. eapply made_attr; eassumption.
  - apply made_sym; assumption.
  - eapply made_bind; [apply IHc; eassumption|]. intros x Hx. eapply made_bind; [apply IHa; eassumption|]. intros y Hy. eapply made_bind; [apply IHb; eassumption|]. intros z Hz. eapply made_if; eassumption.
  - eapply made_bind; [apply IHe; eassumption|]. intros x Hx. eapply made_not; eassumption.
Qed.
End Safe.

(** ** C83 *)
(** a rule about typed fields is accepted *)
Theorem C83_accepted : forall {Orc : Oracle} C m n t w q, c_types C = type_resolver_of m -> typed C m n t -> s_scopes q = [] ->
  exists e q', run w (rule_new C n) q = (Ok e, q') /\ rtype e = t /\ s_scopes q' = [].
Proof.
  intros Orc C m n t w q H K S. destruct (proj1 (build_sure C m H n) t K w q S) as [e [q' [R [S' E]]]]. exists e, q'. split; [exact R|]. split; [exact (su_type C m e t E)|exact S'].
Qed.
(** and evaluates, to a field of its type, for every thing that has the declared fields *)
Theorem C83_never_fails : forall {Orc : Oracle} C m n t w0 q0 e q1, c_types C = type_resolver_of m -> typed C m n t -> s_scopes q0 = [] -> run w0 (rule_new C n) q0 = (Ok e, q1) ->
  forall w thing q, complete C m w thing -> exists v, fst (run w (rule_evaluate C e thing) q) = Ok v /\ field t v /\ fst (run w (rule_matches C e thing) q) = Ok (truthy v).
Proof.
  intros Orc C m n t w0 q0 e q1 H K S R w thing q Kc. destruct (proj1 (build_sure C m H n) t K w0 q0 S) as [e' [q' [R' [S' E]]]]. unfold rule_new in R. rewrite R in R'. injection R' as <- <-.
  destruct (su_ev C m e t E w thing Kc (set_dc (c_dec C) (set_groups VNull (set_scopes [] q))) eq_refl) as [v [q2 [Rv [_ F]]]]. exists v.
  assert (G : run w (rule_evaluate C e thing) q = (Ok v, set_dc (s_dc q) q2)) by (rewrite run_rule_evaluate, Rv; reflexivity).
  rewrite G. split; [reflexivity|]. split; [exact F|]. rewrite run_rule_matches, G. reflexivity.
Qed.
(** filtering things that have the declared fields never raises *)
Theorem C83_filter : forall {Orc : Oracle} C m n t w0 q0 e q1, c_types C = type_resolver_of m -> typed C m n t -> s_scopes q0 = [] -> run w0 (rule_new C n) q0 = (Ok e, q1) ->
  forall w things q, (forall x, In x things -> complete C m w x) -> exists kept, fst (run w (rule_filter C e things) q) = Ok (kept, None).
Proof.
  intros Orc C m n t w0 q0 e q1 H K S R w things. induction things as [|x r IH]; intros q Kc; [exists []; reflexivity|].
  destruct (C83_never_fails C m n t w0 q0 e q1 H K S R w x q (Kc x (or_introl eq_refl))) as [v [_ [_ M]]].
  cbn [rule_filter]. rewrite run_pthen. destruct (run w (rule_matches C e x) q) as [rm q2]. cbn [fst] in M. subst rm.
  destruct (IH q2 (fun y I => Kc y (or_intror I))) as [kept G]. rewrite run_pbind. destruct (run w (rule_filter C e r) q2) as [rr q3]. cbn [fst] in G. subst rr. cbn [run ok fst snd]. destruct (truthy v); eexists; reflexivity.
Qed.
Print Assumptions C83_accepted.
Print Assumptions C83_never_fails.
Print Assumptions C83_filter.

(** ** Examples, and the hypotheses are needed *)
Definition c83_types : list (str * dtype) := [(s "n", TFloat); (s "name", TString); (s "on", TBool)].
Definition c83_ctx : ctx := demo_ctx (type_resolver_of c83_types).
(** on and (n > 2 or name.as_lower + "!" in ["luke!", "leia!"]) and not (name =~ "Da") and (on ? name.length : n) < 9 *)
Definition c83_rule : dnode := DBin BAndL (DSym (s "on") false) (DBin BAndL
  (DBin BOrL (DBin (BCmp Cgt) (DSym (s "n") false) (DFloat (s "2"))) (DIn (DArr [DLit (VStr (s "luke!")); DLit (VStr (s "leia!"))]) (DBin BAdd (DAttr (DSym (s "name") false) (s "as_lower") false) (DLit (VStr (s "!"))))))
  (DBin BAndL (DUn UNot (DBin (BFuzzy false false) (DSym (s "name") false) (DLit (VStr (s "Da")))))
              (DBin (BCmp Clt) (DTern (DSym (s "on") false) (DAttr (DSym (s "name") false) (s "length") false) (DSym (s "n") false)) (DFloat (s "9"))))).
Lemma c83_typed : typed c83_ctx c83_types c83_rule TBool.
Proof.
  assert (Fn : typed c83_ctx c83_types (DSym (s "n") false) TFloat) by (apply T_field; [vm_compute; reflexivity|cbn; tauto]).
  assert (Fm : typed c83_ctx c83_types (DSym (s "name") false) TString) by (apply T_field; [vm_compute; reflexivity|cbn; tauto]).
  assert (Fo : typed c83_ctx c83_types (DSym (s "on") false) TBool) by (apply T_field; [vm_compute; reflexivity|cbn; tauto]).
  assert (F2 : typed c83_ctx c83_types (DFloat (s "2")) TFloat) by (eapply T_num; [vm_compute; reflexivity|discriminate]).
  assert (F9 : typed c83_ctx c83_types (DFloat (s "9")) TFloat) by (eapply T_num; [vm_compute; reflexivity|discriminate]).
  assert (CB : comparable TBool) by (cbn; tauto). assert (CF : comparable TFloat) by (cbn; tauto).
  unfold c83_rule. eapply T_logic; [cbn; tauto|exact Fo| |exact CB|exact CB]. eapply T_logic; [cbn; tauto| | |exact CB|exact CB].
  - eapply T_logic; [cbn; tauto| | |exact CB|exact CB].
    + eapply T_order; [exact Fn|exact F2|exact CF].
    + eapply T_among_array with (ts := [TString; TString]); [constructor; [apply T_text|constructor; [apply T_text|constructor]]|]. apply T_concat with (t := TString); [|apply T_text|cbn; tauto]. eapply T_attr; [exact Fm|unfold sure_attrs; cbn; tauto].
  - eapply T_logic; [cbn; tauto| | |exact CB|exact CB].
    + eapply T_not. apply T_match; [exact Fm|reflexivity].
    + eapply T_order; [|exact F9|exact CF]. eapply T_if; [exact Fo| |exact Fn]. eapply T_attr; [exact Fm|unfold sure_attrs; cbn; tauto].
Qed.
Lemma c83_complete : complete c83_ctx c83_types demo_world demo_thing.
Proof.
  intros n t A log. unfold c83_types in A. cbn [assoc] in A.
  repeat match type of A with (if str_eqb n ?k then _ else _) = _ => destruct (str_eqb n k) eqn:E; [apply str_eqb_eq in E; subst n; injection A as <-; eexists _, _; split; [vm_compute; reflexivity|split; [vm_compute; reflexivity|first [exact I|discriminate]]]|clear E] end. discriminate A.
Qed.
Example C83_example : exists e, fst (run demo_world (rule_new c83_ctx c83_rule) demo_st) = Ok e /\ rtype e = TBool /\ fst (run demo_world (rule_matches c83_ctx e demo_thing) demo_st) = Ok true.
Proof. eexists. split; [vm_compute; reflexivity|]. split; vm_compute; reflexivity. Qed.

(** the rule (if the context accepts it) raises this exception for this thing *)
Definition raises (nd : dnode) (thing : value) (x : exn) : Prop :=
  match run demo_world (rule_new c83_ctx nd) demo_st with (Ok e, _) => fst (run demo_world (rule_evaluate c83_ctx e thing) demo_st) = Err x | _ => False end.
Definition c83_order : dnode := DBin (BCmp Clt) (DSym (s "n") false) (DFloat (s "3")).
(** a field that is NaN makes n < 3 raise decimal.InvalidOperation, which is not an error of the engine; a field that is
    null makes it raise an evaluation error; a field of another type makes it raise a symbol type error *)
Theorem C83_nan_refuted : typed c83_ctx c83_types c83_order TBool /\ raises c83_order (VDict [(VStr (s "n"), VDec DNaN)]) PInvalidOp /\
  raises c83_order (VDict [(VStr (s "n"), VNull)]) XEval /\ raises c83_order (VDict [(VStr (s "n"), VStr (s "3"))]) (XSymType (s "n")).
Proof.
  split; [eapply T_order; [apply T_field; [vm_compute; reflexivity|cbn; tauto]|eapply T_num; [vm_compute; reflexivity|discriminate]|cbn; tauto]|].
  split; [|split]; vm_compute; reflexivity.
Qed.
(** arithmetic is not among the typed rules: n / (n - 3) is accepted and fails for a complete thing *)
Theorem C83_arithmetic_refuted : raises (DBin (BArith TDiv) (DSym (s "n") false) (DBin BSub (DSym (s "n") false) (DFloat (s "3")))) demo_thing XEval.
Proof. vm_compute. reflexivity. Qed.
(** neither is == between bytes: a typed field of bytes is refused at construction *)
Theorem C83_bytes_refuted : fst (run demo_world (rule_new (demo_ctx (type_resolver_of [(s "b", TBytes)])) (DBin BEq (DSym (s "b") false) (DLit (VBytes [])))) demo_st) = Err XEval.
Proof. vm_compute. reflexivity. Qed.
