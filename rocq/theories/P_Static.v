(** * Theorems about the checks made when a rule is constructed (C58), FUNCTION definitions (C59) and datetime texts (C60) *)
From Coq Require Import Lia String.
From Verif Require Import Base Dec Value DType DTypeFacts Types Ops EqFacts CoerceFacts TypesFacts ParseUtil Attr Prog Ast Eval Build Engine
  ProgFacts StateFacts DecFacts Demo Post P_Aware P_Sound P_Names.
Open Scope list_scope.
Open Scope Z_scope.

(** ** Specification: the documented operand types (docs/source/types.rst, syntax.rst) *)

(** An operand is either of a known type or unknown until evaluation. *)
Definition could_be (t g : dtype) : Prop := t = TUndef \/ dt_eqb t g = true.

Inductive equatable : dtype -> Prop :=
| eq_bool : equatable TBool | eq_dt : equatable TDatetime | eq_td : equatable TTimedelta | eq_float : equatable TFloat
| eq_null : equatable TNull | eq_string : equatable TString
| eq_array : forall m n, equatable (TArray m n) | eq_set : forall m n, equatable (TSet m n)
| eq_map : forall k v n, equatable (TMap k v n).

Inductive orderable : dtype -> Prop :=
| or_bool : orderable TBool | or_dt : orderable TDatetime | or_td : orderable TTimedelta | or_float : orderable TFloat
| or_null : orderable TNull | or_string : orderable TString | or_array : forall m n, orderable (TArray m n).

Definition text_or_null (t : dtype) : Prop := t = TString \/ t = TNull.

Inductive takes : binop -> dtype -> dtype -> Prop :=
| tk_add_num : takes BAdd TFloat TFloat
| tk_add_str : takes BAdd TString TString
| tk_add_bytes : takes BAdd TBytes TBytes
| tk_add_dt_td : takes BAdd TDatetime TTimedelta
| tk_add_td_dt : takes BAdd TTimedelta TDatetime
| tk_add_td_td : takes BAdd TTimedelta TTimedelta
| tk_sub_num : takes BSub TFloat TFloat
| tk_sub_dt_dt : takes BSub TDatetime TDatetime
| tk_sub_dt_td : takes BSub TDatetime TTimedelta
| tk_sub_td_td : takes BSub TTimedelta TTimedelta
| tk_arith : forall o, takes (BArith o) TFloat TFloat
| tk_bit_num : forall o, takes (BBit o) TFloat TFloat
| tk_bit_set : forall o m n m' n', o <> BShl -> o <> BShr -> takes (BBit o) (TSet m n) (TSet m' n')
| tk_logic : forall o t u, In o [BAndL; BOrL; BEq; BNe] -> equatable t -> equatable u -> takes o t u
| tk_cmp : forall o t u, orderable t -> dt_eqb t u = true -> takes (BCmp o) t u
| tk_fuzzy : forall a b t u, text_or_null t -> text_or_null u -> takes (BFuzzy a b) t u.

(** The operation is possible with the operand types that are known. *)
Definition admissible (o : binop) (t u : dtype) : Prop := exists g h, takes o g h /\ could_be t g /\ could_be u h.

(** A number literal that is not a natural number is no operand of a bitwise operator, and a pattern literal has to be a
    regular expression. *)
Definition natural_literal (e : expr) : Prop := forall d, e = ELit (VDec d) -> exists z, denotes d z /\ 0 <= z < float_bound.

Definition literals_fit {Orc : Oracle} (C : ctx) (o : binop) (x y : expr) : Prop :=
  match o with
  | BBit _ => natural_literal x /\ natural_literal y
  | BFuzzy _ _ => forall p, y = ELit (VStr p) -> o_re_ok (c_flags C) p = true
  | _ => True
  end.

(** [c in m]: text contains text, bytes contain bytes, collections may contain anything. *)
Inductive may_contain : dtype -> dtype -> Prop :=
| mc_unknown : forall m, may_contain TUndef m
| mc_string : forall m, could_be m TString -> may_contain TString m
| mc_bytes : forall m, could_be m TBytes -> may_contain TBytes m
| mc_array : forall t n m, may_contain (TArray t n) m
| mc_set : forall t n m, may_contain (TSet t n) m
| mc_map : forall k v n m, may_contain (TMap k v n) m.

(** the documented attributes of a type *)
Definition type_attrs (t : dtype) : list str :=
  match t with
  | TArray _ _ => map s ["ends_with"; "is_empty"; "length"; "starts_with"; "to_ary"; "to_set"]
  | TBytes => map s ["ends_with"; "is_empty"; "length"; "starts_with"; "to_ary"; "to_set"; "decode"]
  | TDatetime =>
      map s ["date"; "day"; "hour"; "microsecond"; "millisecond"; "minute"; "month"; "second"; "to_epoch"; "weekday"; "year"; "zone_name"]
  | TFloat => map s ["ceiling"; "floor"; "is_nan"; "to_flt"; "to_str"; "to_int"]
  | TMap _ _ _ => map s ["is_empty"; "keys"; "length"; "values"]
  | TSet _ _ => map s ["is_empty"; "length"; "to_ary"; "to_set"]
  | TString => map s ["as_lower"; "as_upper"; "encode"; "ends_with"; "to_ary"; "to_flt"; "to_set"; "to_str"; "to_int"; "is_empty"; "length"; "starts_with"]
  | TTimedelta => map s ["days"; "seconds"; "microseconds"; "total_seconds"]
  | _ => []
  end%string.

Inductive may_have : dtype -> str -> bool -> Prop :=
| mh_unknown : forall n sf, may_have TUndef n sf
| mh_null : forall n, may_have TNull n true
| mh_map : forall k v nb n sf, may_have (TMap k v nb) n sf
| mh_attr : forall t n sf, In n (type_attrs t) -> may_have t n sf.

(** [c[i]] and [c&[i]] *)
Inductive may_index : dtype -> dtype -> bool -> Prop :=
| mi_unknown : forall i sf, may_index TUndef i sf
| mi_null : forall i, may_index TNull i true
| mi_string : forall i sf, could_be i TFloat -> may_index TString i sf
| mi_bytes : forall i sf, could_be i TFloat -> may_index TBytes i sf
| mi_array : forall t n i sf, could_be i TFloat -> may_index (TArray t n) i sf
| mi_map : forall k v n i sf g, instance k g -> instance i g -> may_index (TMap k v n) i sf
| mi_map_safe : forall k v n i, may_index (TMap k v n) i true.

(** [c[a:b]] and [c&[a:b]] *)
Inductive may_slice : dtype -> bool -> Prop :=
| ms_unknown : forall sf, may_slice TUndef sf
| ms_null : may_slice TNull true
| ms_string : forall sf, may_slice TString sf
| ms_bytes : forall sf, may_slice TBytes sf
| ms_array : forall t n sf, may_slice (TArray t n) sf.

(** [... for x in c] *)
Inductive may_iterate : dtype -> Prop :=
| mit_unknown : may_iterate TUndef
| mit_array : forall t n, may_iterate (TArray t n)
| mit_set : forall t n, may_iterate (TSet t n)
| mit_map : forall k v n, may_iterate (TMap k v n).

(** ** C58 *)
Section C58.
Context (Orc : Oracle) (C : ctx) (w : world).


Lemma known : forall t g, could_be t g -> match g with TArray _ _ | TSet _ _ | TMap _ _ _ | TFun _ _ _ _ => True | _ => t = TUndef \/ t = g end.
Proof. intros t g [->|H]; destruct g; auto; right; destruct t; try discriminate H; reflexivity. Qed.
Lemma could_refl : forall t, could_be t t.
Proof. intro t. right. apply dt_eqb_refl. Qed.
Lemma could_undef : forall g, could_be TUndef g.
Proof. left. reflexivity. Qed.
Hint Resolve could_refl could_undef : core.

Lemma equatable_ok : forall o t, In o [BAndL; BOrL; BEq; BNe] -> (operand_ok o t = true <-> exists g, equatable g /\ could_be t g).
Proof.
  intros o t Ho. assert (E : operand_ok o t = operand_ok BEq t) by (destruct Ho as [<-|[<-|[<-|[<-|[]]]]]; reflexivity). rewrite E. clear o Ho E. split.
  - intro H. destruct t; try discriminate H; try (eexists; split; [|apply could_refl]; constructor); [exists TNull; split; [constructor|auto]].
  - intros [g [E [->|H]]]; [reflexivity|]. destruct E; destruct t; try discriminate H; try reflexivity; cbn [operand_ok compatible_types existsb is_compat is_undef orb t_array t_set t_mapping]; rewrite ?is_compat_undef_l; reflexivity.
Qed.
Lemma orderable_ok : forall o t, operand_ok (BCmp o) t = true <-> exists g, orderable g /\ could_be t g.
Proof.
  intros o t. split.
  - intro H. destruct t; try discriminate H; try (eexists; split; [|apply could_refl]; constructor); [exists TNull; split; [constructor|auto]].
  - intros [g [E [->|H]]]; [reflexivity|]. destruct E; destruct t; try discriminate H; reflexivity.
Qed.

Lemma types_ok : forall o t u,
  admissible o t u <->
  operand_ok o t && operand_ok o u = true /\
  match o with
  | BAdd => exists r, add_type t u = Ok r
  | BSub => exists r, sub_type t u = Ok r
  | BBit _ => is_undef t = true \/ is_undef u = true \/ same_class t u = true
  | BCmp _ => is_undef t = true \/ is_undef u = true \/ dt_eqb t u = true
  | _ => True
  end.
Proof.
  assert (D : forall o t u g h, takes o g h -> could_be t g -> could_be u h -> admissible o t u) by (intros; exists g, h; auto).
  intros o t u. split.
  - intros [g [h [K [T U]]]]. destruct K.
    1-12: apply known in T, U; destruct T, U; subst; try (destruct o); cbn; eauto.
    + destruct T as [->|T], U as [->|U]; destruct o; try contradiction; try (destruct t; try discriminate T); try (destruct u; try discriminate U); cbn; auto.
    + rewrite (proj2 (equatable_ok o t H)) by eauto. rewrite (proj2 (equatable_ok o u H)) by eauto. split; [reflexivity|]. destruct H as [<-|[<-|[<-|[<-|[]]]]]; exact I.
    + rewrite (proj2 (orderable_ok o t)) by eauto. rewrite (proj2 (orderable_ok o u)). 2:{ destruct U as [->|U]; [eexists; split; [exact H|auto]|]. exists t0. split; [exact H|]. right. apply dt_eqb_trans with u0; [exact U|]. rewrite dt_eqb_sym. assumption. }
      split; [reflexivity|]. destruct T as [->|T]; [auto|]. destruct U as [->|U]; [auto|]. right. right. apply dt_eqb_trans with t0; [exact T|]. apply dt_eqb_trans with u0; [assumption|]. rewrite dt_eqb_sym. exact U.
    + destruct H as [->| ->], H0 as [->| ->]; apply known in T, U; destruct T, U; subst; cbn; auto.
  - intros [K L]. apply andb_true_iff in K as [K1 K2]. destruct o.
    + destruct t; try discriminate K1; destruct u; try discriminate K2; destruct L as [r L]; try discriminate L;
        first [apply (D _ _ _ _ _ tk_add_num); auto; fail | apply (D _ _ _ _ _ tk_add_str); auto; fail | apply (D _ _ _ _ _ tk_add_bytes); auto; fail | apply (D _ _ _ _ _ tk_add_dt_td); auto; fail | apply (D _ _ _ _ _ tk_add_td_dt); auto; fail | apply (D _ _ _ _ _ tk_add_td_td); auto; fail].
    + destruct t; try discriminate K1; destruct u; try discriminate K2; destruct L as [r L]; try discriminate L;
        first [apply (D _ _ _ _ _ tk_sub_num); auto; fail | apply (D _ _ _ _ _ tk_sub_dt_dt); auto; fail | apply (D _ _ _ _ _ tk_sub_dt_td); auto; fail | apply (D _ _ _ _ _ tk_sub_td_td); auto; fail].
    + destruct t; try discriminate K1; destruct u; try discriminate K2; apply (D _ _ _ _ _ (tk_arith o)); auto.
    + destruct t; try (destruct o; discriminate K1); destruct u; try (destruct o; discriminate K2); try (destruct L as [L|[L|L]]; discriminate L);
      try (apply (D _ _ _ _ _ (tk_bit_num o)); auto; fail).
      all: assert (o <> BShl) by (intros ->; first [discriminate K1|discriminate K2]); assert (o <> BShr) by (intros ->; first [discriminate K1|discriminate K2]).
      all: eapply D; [apply tk_bit_set; assumption| |]; first [apply (could_undef (TSet TUndef true))|apply could_refl].
    + apply equatable_ok in K1 as [g [E1 T]]; [|cbn; tauto]; apply equatable_ok in K2 as [h [E2 U]]; [|cbn; tauto]; exists g, h; (split; [apply tk_logic; [cbn; tauto|assumption|assumption]|auto]).
    + apply equatable_ok in K1 as [g [E1 T]]; [|cbn; tauto]; apply equatable_ok in K2 as [h [E2 U]]; [|cbn; tauto]; exists g, h; (split; [apply tk_logic; [cbn; tauto|assumption|assumption]|auto]).
    + apply equatable_ok in K1 as [g [E1 T]]; [|cbn; tauto]; apply equatable_ok in K2 as [h [E2 U]]; [|cbn; tauto]; exists g, h; (split; [apply tk_logic; [cbn; tauto|assumption|assumption]|auto]).
    + apply equatable_ok in K1 as [g [E1 T]]; [|cbn; tauto]; apply equatable_ok in K2 as [h [E2 U]]; [|cbn; tauto]; exists g, h; (split; [apply tk_logic; [cbn; tauto|assumption|assumption]|auto]).
    + destruct (orderable_ok o t) as [O1 _]. destruct (O1 K1) as [g [E1 T]]. destruct (orderable_ok o u) as [O2 _]. destruct (O2 K2) as [h [E2 U]].
      destruct T as [->|T].
      * exists h, h. split; [apply tk_cmp; [exact E2|apply dt_eqb_refl]|]. split; [auto|exact U].
      * destruct U as [->|U]; [exists g, g; split; [apply tk_cmp; [exact E1|apply dt_eqb_refl]|split; [right; exact T|auto]]|].
        exists g, g. split; [apply tk_cmp; [exact E1|apply dt_eqb_refl]|]. split; [right; exact T|]. right.
        destruct L as [L|[L|L]]; [destruct t; try discriminate L; destruct E1; discriminate T|destruct u; try discriminate L; destruct E2; discriminate U|].
        apply dt_eqb_trans with t; [rewrite dt_eqb_sym; exact L|exact T].
    + destruct t; try discriminate K1; destruct u; try discriminate K2; first [exists TNull, TNull; split; [apply tk_fuzzy; unfold text_or_null; auto|auto; fail] | exists TNull, TString; split; [apply tk_fuzzy; unfold text_or_null; auto|auto; fail] | exists TString, TNull; split; [apply tk_fuzzy; unfold text_or_null; auto|auto; fail] | exists TString, TString; split; [apply tk_fuzzy; unfold text_or_null; auto|auto; fail]].
Qed.

Lemma nat_operand_spec : forall n q x q1, written n -> run w (build C n) q = (Ok x, q1) ->
  nat_operand x = Ok tt /\ natural_literal x \/ nat_operand x = Err XEval /\ ~ natural_literal x.
Proof.
  intros n q x q1 W B. assert (L := build_lits C n W w q x q1 B). unfold nat_operand.
  assert (Z : (forall d, x <> ELit (VDec d)) -> natural_literal x) by (intros N d ->; destruct (N d eq_refl)).
  destruct x as [v| | | | | | | | | | | | | |]; try (left; split; [reflexivity|apply Z; discriminate]).
  destruct v as [|b|d|z|f|t|b|w0 tz|d|u|l|l|l|l|l|l|n0|f|m v|n0]; try (left; split; [|apply Z; discriminate]; cbn [rtype lit_type from_value dt_eqb]; try reflexivity).
  - cbn [rtype lit_type from_value dt_eqb]. change (dt_eqb TFloat TFloat) with true. cbv iota. unfold assert_natural. unfold is_natural_number. destruct (integer_number_total d) as [b I].
    destruct (is_natural_number (VDec d)) as [[]|y] eqn:E.
    + left. unfold is_natural_number in E. rewrite E. split; [reflexivity|]. intros d' H. injection H as <-. apply natural_number_iff. exact E.
    + right. assert (E' := E). unfold is_natural_number in E'. rewrite E'. split; [reflexivity|]. intro H. specialize (H d eq_refl). apply natural_number_iff in H. rewrite H in E. discriminate E.
    + exfalso. unfold is_natural_number in E. rewrite I in E. cbn [rbind] in E. discriminate E.
  - exfalso. destruct L as [L _]. specialize (L (VInt z) (Pa_self _)). inversion L; contradiction.
  - exfalso. destruct L as [L _]. specialize (L (VFlt f) (Pa_self _)). inversion L; contradiction.
  - unfold lit_type; cbn [from_value]; repeat match goal with |- context [rbind ?r _] => destruct r; cbn [rbind] | |- context [rmap _ ?r] => destruct r; cbn [rmap] end;
    unfold mk_mapping; repeat match goal with |- context [if ?b then Err _ else Ok _] => destruct b end; reflexivity.
  - unfold lit_type; cbn [from_value]; repeat match goal with |- context [rbind ?r _] => destruct r; cbn [rbind] | |- context [rmap _ ?r] => destruct r; cbn [rmap] end;
    unfold mk_mapping; repeat match goal with |- context [if ?b then Err _ else Ok _] => destruct b end; reflexivity.
  - unfold lit_type; cbn [from_value]; repeat match goal with |- context [rbind ?r _] => destruct r; cbn [rbind] | |- context [rmap _ ?r] => destruct r; cbn [rmap] end;
    unfold mk_mapping; repeat match goal with |- context [if ?b then Err _ else Ok _] => destruct b end; reflexivity.
  - unfold lit_type; cbn [from_value]; repeat match goal with |- context [rbind ?r _] => destruct r; cbn [rbind] | |- context [rmap _ ?r] => destruct r; cbn [rmap] end;
    unfold mk_mapping; repeat match goal with |- context [if ?b then Err _ else Ok _] => destruct b end; reflexivity.
  - unfold lit_type; cbn [from_value]; repeat match goal with |- context [rbind ?r _] => destruct r; cbn [rbind] | |- context [rmap _ ?r] => destruct r; cbn [rmap] end;
    unfold mk_mapping; repeat match goal with |- context [if ?b then Err _ else Ok _] => destruct b end; reflexivity.
Qed.

Lemma run_step2 : forall (A B : Type) (p : prog A) (f : A -> prog B) q a q1, run w p q = (Ok a, q1) -> run w (pbind p f) q = run w (f a) q1.
Proof. intros A B p f q a q1 H. rewrite run_pbind, H. reflexivity. Qed.

Section Operator.
Context (o : binop) (a b : dnode) (q : st) (x y : expr) (q1 q2 : st).
Context (WA : written a) (WB : written b) (BA : run w (build C a) q = (Ok x, q1)) (BB : run w (build C b) q1 = (Ok y, q2)).

Lemma build_bin : run w (build C (DBin o a b)) q = run w (do! _ := Ret (check_bin C o x y) in reduce C (EBin o x y)) q2.
Proof. cbn [build]. rewrite (run_step2 _ _ _ _ _ _ _ BA), (run_step2 _ _ _ _ _ _ _ BB). reflexivity. Qed.

Lemma check_bin_spec :
  (admissible o (rtype x) (rtype y) -> literals_fit C o x y -> check_bin C o x y = Ok tt) /\
  (~ admissible o (rtype x) (rtype y) -> check_bin C o x y = Err XEval) /\
  (admissible o (rtype x) (rtype y) -> ~ literals_fit C o x y ->
     check_bin C o x y = Err (match o with BFuzzy _ _ => XSynRegex | _ => XEval end)).
Proof.
  assert (T := types_ok o (rtype x) (rtype y)). unfold check_bin.
  destruct (operand_ok o (rtype x) && operand_ok o (rtype y)).
  2:{ split; [|split; [reflexivity|]]; intros A; apply T in A as [A _]; discriminate A. }
  destruct o; cbn [literals_fit].
  - destruct (add_type (rtype x) (rtype y)) as [r|e] eqn:E.
    + split; [reflexivity|]. split; [|intros _ []; exact I]. intro N. destruct N. apply T. eauto.
    + assert (e = XEval). { unfold add_type in E. repeat match type of E with (if ?b then _ else _) = _ => destruct b end; congruence. }
      subst e. split; [|split; [reflexivity|intros _ []; exact I]]. intro A. apply T in A as [_ [r A]]. discriminate A.
  - destruct (sub_type (rtype x) (rtype y)) as [r|e] eqn:E.
    + split; [reflexivity|]. split; [|intros _ []; exact I]. intro N. destruct N. apply T. eauto.
    + assert (e = XEval). { unfold sub_type in E. repeat match type of E with (if ?b then _ else _) = _ => destruct b end; congruence. }
      subst e. split; [|split; [reflexivity|intros _ []; exact I]]. intro A. apply T in A as [_ [r A]]. discriminate A.
  - split; [reflexivity|]. split; [|intros _ []; exact I]. intro N. destruct N. apply T. auto.
  - destruct (is_undef (rtype x)) eqn:U1, (is_undef (rtype y)) eqn:U2, (same_class (rtype x) (rtype y)) eqn:U3; cbn [andb negb]; try
    (split; [intros A; apply T in A as [_ [A|[A|A]]]; discriminate A|split; [reflexivity|intros A; apply T in A as [_ [A|[A|A]]]; discriminate A]]).
    all: destruct (nat_operand_spec a q x q1 WA BA) as [[-> N1]|[-> N1]]; cbn [rbind];
      [destruct (nat_operand_spec b q1 y q2 WB BB) as [[-> N2]|[-> N2]]|];
      (split; [intros A [L1 L2]; first [reflexivity|contradiction]|]; split; [intro N; destruct N; apply T; auto|intros A L; first [reflexivity|destruct L; auto]]).
  - split; [reflexivity|]. split; [|intros _ []; exact I]. intro N. destruct N. apply T. auto.
  - split; [reflexivity|]. split; [|intros _ []; exact I]. intro N. destruct N. apply T. auto.
  - split; [reflexivity|]. split; [|intros _ []; exact I]. intro N. destruct N. apply T. auto.
  - split; [reflexivity|]. split; [|intros _ []; exact I]. intro N. destruct N. apply T. auto.
  - destruct (is_undef (rtype x)) eqn:U1, (is_undef (rtype y)) eqn:U2, (dt_eqb (rtype x) (rtype y)) eqn:U3; cbn [andb negb];
      try (split; [intros A; apply T in A as [_ [A|[A|A]]]; discriminate A|split; [reflexivity|intros _ []; exact I]]);
      (split; [reflexivity|]; split; [|intros _ []; exact I]; intro N; destruct N; apply T; auto).
  - assert (N : ~ admissible (BFuzzy search neg) (rtype x) (rtype y) -> False) by (intro N; destruct N; apply T; auto).
    unfold compile_ok. destruct y as [v| | | | | | | | | | | | | |];
      try (split; [reflexivity|]; split; [intro K; destruct (N K)|intros _ []; intros; discriminate]).
    destruct v; try (split; [reflexivity|]; split; [intro K; destruct (N K)|intros _ []; intros; discriminate]).
    destruct (o_re_ok (c_flags C) t) eqn:R.
    + split; [reflexivity|]. split; [intro K; destruct (N K)|]. intros _ []. intros p H. injection H as <-. exact R.
    + split; [intros _ L; rewrite (L t eq_refl) in R; discriminate R|]. split; [intro K; destruct (N K)|reflexivity].
Qed.

(** An operation whose known operand types can never fit is refused with an EvaluationError, whether or not the operands are
    literals; the second operand has been constructed, nothing has been evaluated. *)
Theorem C58_operator_rejected : ~ admissible o (rtype x) (rtype y) -> run w (build C (DBin o a b)) q = (Err XEval, q2).
Proof. intro N. rewrite build_bin, run_pbind. cbn [run]. rewrite (proj1 (proj2 check_bin_spec) N). reflexivity. Qed.

(** A literal operand of a bitwise operator that is not a natural number, or a literal pattern that is not a regular expression,
    is refused too. *)
Theorem C58_literal_rejected : admissible o (rtype x) (rtype y) -> ~ literals_fit C o x y ->
  run w (build C (DBin o a b)) q = (Err (match o with BFuzzy _ _ => XSynRegex | _ => XEval end), q2).
Proof. intros A N. rewrite build_bin, run_pbind. cbn [run]. rewrite (proj2 (proj2 check_bin_spec) A N). reflexivity. Qed.

(** Everything else is accepted: with at least one operand that is not a literal, the result is the operation on the two operands
    as they were constructed; two literals are evaluated at once. *)
Theorem C58_operator_accepted : admissible o (rtype x) (rtype y) -> literals_fit C o x y ->
  run w (build C (DBin o a b)) q = (if is_reduced x && is_reduced y then run w (fold C (EBin o x y)) q2 else (Ok (EBin o x y), q2)).
Proof.
  intros A L. rewrite build_bin, run_pbind. cbn [run]. rewrite (proj1 check_bin_spec A L). cbn [run reduce]. destruct (is_reduced x && is_reduced y); reflexivity.
Qed.
End Operator.

(** Operands that are symbols with declared types: the rule [n op m] is accepted exactly when the operation is possible with the
    declared types. *)
Theorem C58_symbols : forall o n m t u q, s_scopes q = [] -> c_types C n = Ok t -> c_types C m = Ok u ->
  (admissible o t u -> exists q', run w (build C (DBin o (DSym n false) (DSym m false))) q = (Ok (EBin o (ESym n false t) (ESym m false u)), q')) /\
  (~ admissible o t u -> exists q', run w (build C (DBin o (DSym n false) (DSym m false))) q = (Err XEval, q')).
Proof.
  intros o n m t u q S T U.
  assert (B : forall n t q, s_scopes q = [] -> c_types C n = Ok t -> exists q', run w (build C (DSym n false)) q = (Ok (ESym n false t), q') /\ s_scopes q' = []).
  { clear. intros n t q S T. exists (add_sym n q). split; [|exact S]. cbn [build]. rewrite run_pbind, run_act. cbn [step_op]. rewrite run_pbind. unfold resolve_type. rewrite run_pbind, run_act. cbn [step_op s_scopes].
    match goal with |- context [find_scope ?l _] => replace l with (@nil asg) by (symmetry; exact S) end. cbn [find_scope run]. rewrite T. reflexivity. }
  destruct (B n t q S T) as [q1 [B1 S1]]. destruct (B m u q1 S1 U) as [q2 [B2 _]].
  assert (W : forall k, written (DSym k false)) by (intros k v D; inversion D).
  split; intro A; exists q2.
  - rewrite (C58_operator_accepted o _ _ q _ _ q1 q2 (W n) (W m) B1 B2); [reflexivity|exact A|]. destruct o; cbn; auto; [split; intros d H; discriminate H|intros p H; discriminate H].
  - exact (C58_operator_rejected o _ _ q _ _ q1 q2 (W n) (W m) B1 B2 A).
Qed.

(** *** Membership *)
Lemma check_in_spec : forall c m, may_contain c m /\ check_in c m = Ok tt \/ ~ may_contain c m /\ check_in c m = Err XEval.
Proof.
  intros c m. unfold check_in.
  destruct c; cbn [dt_eqb orb is_undef negb andb is_scalar];
    try (left; split; [constructor|reflexivity]; fail); try (right; split; [intro H; inversion H|reflexivity]; fail);
    (destruct m; cbn [is_undef dt_eqb negb andb];
     first [left; split; [constructor; first [left; reflexivity|right; reflexivity]|reflexivity]
           |right; split; [intro H; inversion H; match goal with K : could_be _ _ |- _ => destruct K as [K|K]; discriminate K end|reflexivity]]).
Qed.

Theorem C58_membership : forall c m q x q1 y q2, run w (build C c) q = (Ok x, q1) -> run w (build C m) q1 = (Ok y, q2) ->
  (may_contain (rtype x) (rtype y) -> is_reduced x && is_reduced y = false -> run w (build C (DIn c m)) q = (Ok (EIn x y), q2)) /\
  (~ may_contain (rtype x) (rtype y) -> run w (build C (DIn c m)) q = (Err XEval, q2)).
Proof.
  intros c m q x q1 y q2 B1 B2. cbn [build]. rewrite (run_step2 _ _ _ _ _ _ _ B1), (run_step2 _ _ _ _ _ _ _ B2), run_pbind. cbn [run].
  destruct (check_in_spec (rtype x) (rtype y)) as [[A ->]|[A ->]]; split; intros H; try contradiction.
  - intro R. cbn [reduce]. rewrite R. reflexivity.
  - reflexivity.
Qed.

(** *** Attributes *)
Lemma attr_table_spec : forall t name, is_undef t = false ->
  match attr_table attr_map t with Some tab => In name (map fst tab) <-> In name (type_attrs t) | None => type_attrs t = [] end.
Proof.
  intros t name.
  assert (S : forall l l' : list str, (forallb (fun x => str_mem x l') l && forallb (fun x => str_mem x l) l' = true) -> In name l <-> In name l').
  { intros l l' P. apply andb_true_iff in P as [P1 P2]. rewrite forallb_forall in P1, P2. split; intro I0; [apply P1 in I0|apply P2 in I0]; apply existsb_exists in I0 as [x [Hx E]]; apply str_eqb_eq in E; subst; exact Hx. }
  intro U. destruct t; try discriminate U; match goal with |- match ?x with Some _ => _ | None => _ end => let y := eval cbn in x in change x with y; cbv iota end; try reflexivity; apply S; vm_compute; reflexivity.
Qed.

Lemma check_attr_spec : forall t name sf, may_have t name sf /\ check_attr t name sf = Ok tt \/
  ~ may_have t name sf /\ exists sg, check_attr t name sf = Err (XAttrRes name sg).
Proof.
  intros t name sf. unfold check_attr.
  destruct (is_undef t) eqn:U; [destruct t; try discriminate U; left; split; [constructor|reflexivity]|]. cbn [orb].
  destruct (dt_eqb t TNull && sf) eqn:N.
  { apply andb_true_iff in N as [N ->]. destruct t; try discriminate N. left. split; [constructor|reflexivity]. }
  assert (K := attr_table_spec t name U). unfold resolve_attr_type, get_attr.
  assert (AT : forall a, (exists tab, attr_table attr_map t = Some tab /\ assoc name tab = Some a) -> exists r, attr_type a t = Ok r).
  { intros a [tab [Ht Ha]]. clear -Ht Ha U.
    assert (G : forall l, assoc name l = Some a -> forallb (fun na => match attr_type (snd na) t with Ok _ => true | Err _ => false end) l = true -> exists r, attr_type a t = Ok r).
    { clear. intros l H F. rewrite forallb_forall in F. (* *) induction l as [|[k v] l IH]; [discriminate|]. cbn in H. destruct (str_eqb name k).
      - injection H as ->. specialize (F (k, a) (or_introl eq_refl)). cbn [snd] in F. destruct (attr_type a t); [eauto|discriminate F].
      - apply IH; [exact H|]. intros y Hy. apply F. right. exact Hy. }
    apply (G tab Ha). destruct t; try discriminate U; cbn in Ht; try discriminate Ht; injection Ht as <-; reflexivity. }
  destruct (attr_table attr_map t) as [tab|] eqn:ET.
  - destruct (assoc name tab) as [a|] eqn:EA.
    + left. assert (In name (type_attrs t)) by (apply K; apply P_Names.assoc_In; eauto). split; [apply mh_attr; assumption|]. cbn [rbind].
      destruct (AT a) as [r ->]; [eauto|]. reflexivity.
    + assert (NI : ~ In name (type_attrs t)) by (intro I0; apply K in I0; apply P_Names.assoc_In in I0 as [a I0]; congruence). cbn [rbind].
      destruct (is_map_t t) eqn:M; [destruct t; try discriminate M; left; split; [constructor|reflexivity]|].
      right. split; [|eauto]. intro H. inversion H; subst; try discriminate; contradiction.
  - cbn [rbind]. destruct (is_map_t t) eqn:M; [destruct t; try discriminate M; left; split; [constructor|reflexivity]|].
    right. split; [|eauto]. intro H. inversion H; subst; try discriminate. rewrite K in H0. destruct H0.
Qed.

Theorem C58_attribute : forall n name sf q x q1, run w (build C n) q = (Ok x, q1) ->
  (may_have (rtype x) name sf -> is_reduced x = false -> run w (build C (DAttr n name sf)) q = (Ok (EAttr x name sf), q1)) /\
  (~ may_have (rtype x) name sf -> exists sg, run w (build C (DAttr n name sf)) q = (Err (XAttrRes name sg), q1)).
Proof.
  intros n name sf q x q1 B. cbn [build]. rewrite (run_step2 _ _ _ _ _ _ _ B), run_pbind. cbn [run].
  destruct (check_attr_spec (rtype x) name sf) as [[A ->]|[A [sg ->]]]; split; intros H; try contradiction.
  - intro R. cbn [reduce]. rewrite R. reflexivity.
  - exists sg. reflexivity.
Qed.

(** *** Items and slices *)
Lemma check_item_spec : forall c i sf, may_index c i sf /\ check_item c i sf = Ok tt \/
  ~ may_index c i sf /\ check_item c i sf = Err (if is_map_t c then XLookup else XEval).
Proof.
  intros c i sf.
  assert (F : could_be i TFloat /\ is_compat i TFloat = true \/ ~ could_be i TFloat /\ is_compat i TFloat = false).
  { destruct i; first [left; split; [first [left; reflexivity|right; reflexivity]|reflexivity]|right; split; [intros [H|H]; discriminate H|reflexivity]]. }
  destruct c; cbn [check_item is_map_t].
  all: try (left; split; [constructor|reflexivity]; fail).
  all: try (right; split; [intro H; inversion H|reflexivity]; fail).
  all: try (destruct F as [[F ->]|[F ->]]; [left; split; [constructor; exact F|reflexivity]|right; split; [intro H; inversion H; contradiction|reflexivity]]).
  - destruct sf; [left; split; [constructor|reflexivity]|right; split; [intro H; inversion H|reflexivity]].
  - destruct sf; [left; split; [apply mi_map_safe|reflexivity]|]. cbn [orb].
    match goal with |- context [is_compat ?a ?b] => destruct (is_compat a b) eqn:E end.
    + left. split; [|reflexivity]. apply is_compat_spec in E as [g [I1 I2]]. eapply mi_map; eassumption.
    + right. split; [|reflexivity]. intro H. inversion H; subst.
      match type of E with is_compat ?a ?b = _ => assert (is_compat a b = true) by (apply is_compat_spec; eauto) end. congruence.
Qed.

(** [c[i]] is refused with an EvaluationError, or with a LookupError when the container is a mapping that cannot have the key;
    [m&[k]] with such a key is the literal null. *)
Theorem C58_item : forall c i sf q x q1 y q2, run w (build C c) q = (Ok x, q1) -> run w (build C i) q1 = (Ok y, q2) ->
  (may_index (rtype x) (rtype y) sf -> is_reduced x && is_reduced y = false ->
     (forall k v n, rtype x = TMap k v n -> exists g, instance k g /\ instance (rtype y) g) ->
     run w (build C (DItem c i sf)) q = (Ok (EItem x y sf), q2)) /\
  (forall k v n, rtype x = TMap k v n -> ~ (exists g, instance k g /\ instance (rtype y) g) ->
     run w (build C (DItem c i true)) q = (Ok (ELit VNull), q2)) /\
  (~ may_index (rtype x) (rtype y) sf ->
     run w (build C (DItem c i sf)) q = (Err (match rtype x with TMap _ _ _ => XLookup | _ => XEval end), q2)).
Proof.
  intros c i sf q x q1 y q2 B1 B2. cbn [build]. rewrite !(run_step2 _ _ _ _ _ _ _ B1), !(run_step2 _ _ _ _ _ _ _ B2), !run_pbind. cbn [run].
  split; [|split].
  - intros M R K. destruct (check_item_spec (rtype x) (rtype y) sf) as [[A ->]|[A _]]; [|contradiction].
    cbn [reduce]. replace (match rtype x with TMap k _ _ => sf && negb (is_compat (rtype y) k) | _ => false end) with false.
    + rewrite R. reflexivity.
    + destruct (rtype x); try reflexivity. destruct (K _ _ _ eq_refl) as [g [I1 I2]]. assert (E : is_compat (rtype y) d1 = true) by (apply is_compat_spec; eauto). rewrite E. destruct sf; reflexivity.
  - intros k v n E K. rewrite E. cbn [check_item orb run reduce]. rewrite E.
    assert (Q : is_compat (rtype y) k = false). { destruct (is_compat (rtype y) k) eqn:Q; [|reflexivity]. destruct K. apply is_compat_spec in Q as [g [I1 I2]]. eauto. }
    rewrite Q. reflexivity.
  - intro M. destruct (check_item_spec (rtype x) (rtype y) sf) as [[A _]|[_ ->]]; [contradiction|]. destruct (rtype x); reflexivity.
Qed.

Theorem C58_slice : forall c a b sf q x q1 y q2 z q3,
  run w (opt_build (build C) a) q = (Ok x, q1) -> run w (opt_build (build C) b) q1 = (Ok y, q2) -> run w (build C c) q2 = (Ok z, q3) ->
  let e := ESlice z (match x with Some e => e | None => ELit (VDec (dec_of_Z 0)) end) (match y with Some e => e | None => ELit VNull end) sf in
  (may_slice (rtype z) sf -> is_reduced z && match x with Some e => is_reduced e | None => true end && match y with Some e => is_reduced e | None => true end = false ->
     run w (build C (DSlice c a b sf)) q = (Ok e, q3)) /\
  (~ may_slice (rtype z) sf -> run w (build C (DSlice c a b sf)) q = (Err XEval, q3)).
Proof.
  intros c a b sf q x q1 y q2 z q3 B1 B2 B3. cbv zeta. cbn [build]. unfold opt_build in B1, B2.
  rewrite (run_step2 _ _ _ _ _ _ _ B1), (run_step2 _ _ _ _ _ _ _ B2), (run_step2 _ _ _ _ _ _ _ B3), run_pbind. cbn [run].
  assert (K : may_slice (rtype z) sf /\ check_slice (rtype z) sf = Ok tt \/ ~ may_slice (rtype z) sf /\ check_slice (rtype z) sf = Err XEval).
  { destruct (rtype z); cbn [check_slice]; try (left; split; [constructor|reflexivity]; fail); try (right; split; [intro H; inversion H|reflexivity]; fail).
    destruct sf; [left; split; [constructor|reflexivity]|right; split; [intro H; inversion H|reflexivity]]. }
  destruct K as [[A ->]|[A ->]]; split; intros H; try contradiction.
  - intro R. cbn [reduce]. unfold mk_lit_slice. destruct x, y; cbn [is_reduced] in *; rewrite ?andb_true_r in *; rewrite R; reflexivity.
  - reflexivity.
Qed.

(** *** Comprehensions: the iterable is checked before the condition and the result are constructed *)
Theorem C58_iterable : forall r v it cond q x q1, run w (build C it) q = (Ok x, q1) -> ~ may_iterate (rtype x) ->
  run w (build C (DComp r v it cond)) q = (Err XEval, q1).
Proof.
  intros r v it cond q x q1 B N. cbn [build]. rewrite (run_step2 _ _ _ _ _ _ _ B).
  destruct (rtype x) eqn:E; try (destruct N; constructor; fail); reflexivity.
Qed.
Theorem C58_iterable_accepted : forall r v it cond q x q1, run w (build C it) q = (Ok x, q1) -> may_iterate (rtype x) ->
  exists t, run w (build C (DComp r v it cond)) q =
    run w (do! cr := with_scope {| a_name := v; a_val := v_undefined; a_type := Some t |}
             (do! c := opt_build (build C) cond in do! e := build C r in ok (c, e)) in ok (EComp (snd cr) v x (fst cr))) q1 /\
    match rtype x with TArray m _ | TSet m _ => t = m | TMap k _ _ => t = k | _ => t = TUndef end.
Proof.
  intros r v it cond q x q1 B N. cbn [build]. rewrite (run_step2 _ _ _ _ _ _ _ B). inversion N; cbn; eexists; split; reflexivity.
Qed.

(** *** Unary minus on a literal needs a number or a timedelta; on anything else the check waits for the evaluation *)
Theorem C58_minus : forall n q x q1, run w (build C n) q = (Ok x, q1) ->
  (is_reduced x = false -> run w (build C (DUn UMinus n)) q = (Ok (EUn UMinus x), q1)) /\
  (is_reduced x = true -> (forall d, x <> ELit (VDec d)) -> (forall u, x <> ELit (VTd u)) -> run w (build C (DUn UMinus n)) q = (Err XEval, q1)).
Proof.
  intros n q x q1 B. cbn [build]. rewrite (run_step2 _ _ _ _ _ _ _ B). cbn [reduce]. split; intro R; rewrite R; [reflexivity|]. intros N1 N2.
  destruct x as [v| | | | | | | | | | | | | |]; try reflexivity. destruct v; try reflexivity; exfalso; [eapply N1|eapply N2]; reflexivity.
Qed.
End C58.

Print Assumptions C58_operator_rejected.
Print Assumptions C58_literal_rejected.
Print Assumptions C58_operator_accepted.
Print Assumptions C58_symbols.
Print Assumptions C58_membership.
Print Assumptions C58_attribute.
Print Assumptions C58_item.
Print Assumptions C58_slice.
Print Assumptions C58_iterable.
Print Assumptions C58_iterable_accepted.
Print Assumptions C58_minus.

(** One context with declared types: s < s accepted, s < n refused, u < n accepted; m["a"] accepted, m[1] refused, m&[1] null;
    n & 1.5 refused, n & 2 accepted. *)
Definition typed (n : str) : result dtype :=
  if str_eqb n (s "n") then Ok TFloat else if str_eqb n (s "t") then Ok TString
  else if str_eqb n (s "m") then Ok (TMap TString TFloat true) else Ok TUndef.
Definition dsym (n : string) : dnode := DSym (s n) false.
Definition built (n : dnode) : result expr := fst (run demo_world (build (demo_ctx typed) n) demo_st).
Definition accepted (n : dnode) : bool := match built n with Ok _ => true | Err _ => false end.
Example C58_example :
  accepted (DBin (BCmp Clt) (dsym "t") (dsym "t")) = true /\ built (DBin (BCmp Clt) (dsym "t") (dsym "n")) = Err XEval /\
  accepted (DBin (BCmp Clt) (dsym "u") (dsym "n")) = true /\ accepted (DItem (dsym "m") (DLit (VStr (s "a"))) false) = true /\
  built (DItem (dsym "m") (DFloat (s "1")) false) = Err XLookup /\ built (DItem (dsym "m") (DFloat (s "1")) true) = Ok (ELit VNull) /\
  built (DBin (BBit BAnd) (dsym "n") (DFloat (s "1.5"))) = Err XEval /\ accepted (DBin (BBit BAnd) (dsym "n") (DFloat (s "2"))) = true /\
  built (DIn (dsym "n") (dsym "u")) = Err XEval /\ accepted (DAttr (dsym "t") (s "length") false) = true /\
  accepted (DAttr (dsym "n") (s "length") false) = false /\ built (DSlice (dsym "m") None None true) = Err XEval /\
  built (DComp (dsym "x") (s "x") (dsym "n") None) = Err XEval.
Proof. vm_compute. repeat split; reflexivity. Qed.

(** BYTES values can be added but not compared for equality, FUNCTION values neither: the documented operand types of == leave
    them out. *)
Theorem C58_bytes_equality_refuted : forall t, ~ admissible BEq TBytes t.
Proof.
  intros t [g [h [K [T _]]]]. destruct T as [T|T]; [discriminate T|]. inversion K; subst. match goal with E : equatable g |- _ => destruct E; discriminate T end.
Qed.
Print Assumptions C58_bytes_equality_refuted.

(** ** C33: FUNCTION definitions *)

(** DataType.FUNCTION(...) with n argument types: a minimum above n is a ValueError, without a minimum all n are required; a call
    is then refused exactly when its number of arguments is outside [minimum, n] or an argument cannot have its type. *)
Theorem C33_definition : forall nm ret l mn,
  let least := match mn with Some m => m | None => Z.of_nat (length l) end in
  (least > Z.of_nat (length l) -> mk_function nm ret (Some l) mn = Err PValue) /\
  (least <= Z.of_nat (length l) -> exists t, mk_function nm ret (Some l) mn = Ok t /\
     forall ts, validate t (map Ok ts) = Ok tt <->
       least <= Z.of_nat (length ts) <= Z.of_nat (length l) /\
       forall i a p, nth_error ts i = Some a -> nth_error l i = Some p -> exists g, instance a g /\ instance p g).
Proof.
  intros nm ret l mn least. split; intro H; unfold mk_function; fold least.
  - replace (Z.of_nat (length l) <? least) with true by (symmetry; apply Z.ltb_lt; lia). reflexivity.
  - replace (Z.of_nat (length l) <? least) with false by (symmetry; apply Z.ltb_ge; lia). eexists. split; [reflexivity|].
    intro ts. cbn [validate]. rewrite map_length.
    destruct (Z.of_nat (length ts) <? least) eqn:L1; [split; [discriminate|intros [K _]; apply Z.ltb_lt in L1; lia]|].
    destruct (Z.of_nat (length l) <? Z.of_nat (length ts)) eqn:L2; [split; [discriminate|intros [K _]; apply Z.ltb_lt in L2; lia]|].
    apply Z.ltb_ge in L1, L2.
    assert (K : forall l ts, check_args (map Ok ts) l = Ok tt <-> forall i a p, nth_error ts i = Some a -> nth_error l i = Some p -> exists g, instance a g /\ instance p g).
    { clear. induction l as [|p l IH]; intros ts; destruct ts as [|a ts]; cbn [check_args map];
        try (split; [intros _ [] ? ? H1 H2; discriminate|reflexivity]).
      cbn [rbind]. destruct (is_compat a p) eqn:E.
      - rewrite IH. split; intros H [|i] a' p' H1 H2; cbn in *.
        + injection H1 as <-. injection H2 as <-. apply is_compat_spec. exact E.
        + eapply H; eassumption.
        + apply (H 1%nat _ _ H1 H2).
        + apply (H (Datatypes.S (Datatypes.S i)) _ _ H1 H2).
      - split; [discriminate|]. intro H. specialize (H O a p eq_refl eq_refl). apply is_compat_spec in H. congruence. }
    rewrite K. split; [intro F; split; [lia|exact F]|intros [_ F]; exact F].
Qed.
Print Assumptions C33_definition.
Example C33_definition_example : exists t, mk_function None TFloat (Some [TString; TFloat]) None = Ok t /\
  validate t (map Ok [TString; TUndef]) = Ok tt /\ validate t (map Ok [TString]) = Err XFunCall /\ mk_function None TFloat (Some [TString]) (Some 2) = Err PValue.
Proof. eexists. repeat split; reflexivity. Qed.

(** ** C24: datetime texts *)

(** A datetime text, in a literal d"..." or given to $parse_datetime, denotes the moment the ISO-8601 parser reads: an offset
    written in the text is kept, a text without one gets the context's default time zone (for
    $parse_datetime the zone of context.builtins, which is the same unless they were replaced, C73_timezone); a text that is none is refused. *)
Theorem C24_datetime_text : forall (Orc : Oracle) C w q text,
  (forall m z, o_isoparse text = Some (m, Some z) ->
     run w (build C (DDatetime text)) q = (Ok (ELit (VDt m (Some z))), q) /\
     run w (apply_first_order C BFparse_datetime [VStr text]) q = (Ok (VDt m (Some z)), q)) /\
  (forall m, o_isoparse text = Some (m, None) ->
     run w (build C (DDatetime text)) q = (Ok (ELit (VDt m (Some (c_tz C)))), q) /\
     run w (apply_first_order C BFparse_datetime [VStr text]) q = (Ok (VDt m (Some (c_btz C))), q)) /\
  (o_isoparse text = None ->
     run w (build C (DDatetime text)) q = (Err XSynDatetime, q) /\
     run w (apply_first_order C BFparse_datetime [VStr text]) q = (Err XSynDatetime, q)).
Proof.
  intros Orc C w q text. split; [|split]; intros; cbn [build apply_first_order]; unfold parse_datetime; rewrite H; split; reflexivity.
Qed.
Print Assumptions C24_datetime_text.
