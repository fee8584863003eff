(** * C61: every expression can be written as a text that is read and parsed back to it *)
From Coq Require Import List NArith Bool Arith Lia.
From Verif Require Import Base Dec Value DType Types Ops ParseUtil Attr Prog Ast Eval Build StrLit P_StrLit.
From Verif Require Import GrammarTab Grammar GrammarSpec GrammarCheck GrammarFacts GrammarSem P_Grammar P_Print Lexer LexSpec LexFacts LexSteps P_Lexer.
Import ListNotations.
Local Open Scope N_scope.

(** ** Which trees can be written as a text
    Those that can be spelled in tokens (P_Print.writable), if the texts in their leaves are the texts of tokens. *)
Definition free_name (n : str) : Prop := (forall k, ~ In (k, n) keywords) /\ ~ In n future.
Inductive textual : dnode -> Prop :=
| X_lit v : textual (DLit v)
| X_float t : numeral t \/ t = s "nan" \/ t = s "inf" -> textual (DFloat t)
| X_datetime t : body 34 t \/ body 39 t -> textual (DDatetime t)
| X_timedelta t : body 34 t \/ body 39 t -> textual (DTimedelta t)
| X_arr l : Forall textual l -> textual (DArr l)
| X_set l : Forall textual l -> textual (DSet l)
| X_map l : Forall (fun kv => textual (fst kv) /\ textual (snd kv)) l -> textual (DMap l)
| X_bin o a b : textual a -> textual b -> textual (DBin o a b)
| X_comp r v i c : textual r -> LexSpec.symbol v -> free_name v -> textual i -> (forall e, c = Some e -> textual e) -> textual (DComp r v i c)
| X_in c m : textual c -> textual m -> textual (DIn c m)
| X_attr o n sf : textual o -> name n -> free_name n -> textual (DAttr o n sf)
| X_item c i sf : textual c -> textual i -> textual (DItem c i sf)
| X_slice c a b sf : textual c -> (forall e, a = Some e -> textual e) -> (forall e, b = Some e -> textual e) -> textual (DSlice c a b sf)
| X_sym n : name n -> free_name n -> textual (DSym n false)
| X_builtin n : name n -> textual (DSym n true)
| X_call f l : textual f -> Forall textual l -> textual (DCall f l)
| X_tern c a b : textual c -> textual a -> textual b -> textual (DTern c a b)
| X_un o e : textual e -> textual (DUn o e).

(** ** The text: one space between two tokens, but none around the dot of an attribute and none before a safe bracket *)
Fixpoint bodyb (q : N) (b : str) : bool :=
  match b with
  | [] => true
  | c :: r => if c =? 92 then match r with [] => false | d :: r' => negb (d =? 10) && bodyb q r' end
              else negb (c =? 10) && negb (c =? q) && bodyb q r
  end.
Definition between_quotes (b : str) : str := let q := if bodyb 34 b then 34 else 39 in q :: b ++ [q].
Definition written (k : token) : str :=
  match kind k with
  | T_BYTES => 98 :: Grammar.text k
  | T_DATETIME => 100 :: between_quotes (Grammar.text k)
  | T_TIMEDELTA => 116 :: between_quotes (Grammar.text k)
  | _ => Grammar.text k
  end.
Definition dot (k : token) : bool := match kind k with T_ATTR | T_ATTR_SAFE => true | _ => false end.
Definition safe_bracket (k : token) : bool := match kind k with T_LBRACKET => is_safe k | _ => false end.
Definition gap (k : token) (r : list token) : str :=
  match r with [] => [] | k' :: _ => if dot k || dot k' || safe_bracket k' then [] else [32] end.
Fixpoint text_of (l : list token) : str := match l with [] => [] | k :: r => written k ++ gap k r ++ text_of r end.

(** ** Reading it back *)
Lemma bodyb_iff q b : q <> 92 -> bodyb q b = true <-> body q b.
Proof.
  intros Q. split.
  - assert (H : forall n b, (length b <= n)%nat -> bodyb q b = true -> body q b).
    { induction n as [|n IH]; intros [|c r] L H; cbn [length] in L; try (apply BNil); try lia. cbn [bodyb] in H. destruct (N.eqb_spec c 92) as [->|N].
      - destruct r as [|d r]; [discriminate H|]. apply andb_true_iff in H as [H1 H2]. apply negb_true_iff, N.eqb_neq in H1. cbn [length] in L. apply BEscape; [exact H1|apply IH; [lia|exact H2]].
      - apply andb_true_iff in H as [H H3]. apply andb_true_iff in H as [H1 H2]. apply negb_true_iff, N.eqb_neq in H1, H2. apply BChar; [exact N|exact H1|exact H2|apply IH; [lia|exact H3]]. }
    apply (H (length b) b). lia.
  - induction 1 as [|c x N1 N2 N3 _ IH|c x N1 _ IH]; [reflexivity| |]; cbn [bodyb].
    + apply N.eqb_neq in N1, N2, N3. rewrite N1, N2, N3. exact IH.
    + rewrite N.eqb_refl. apply N.eqb_neq in N1. rewrite N1. exact IH.
Qed.
Lemma between_body b : body 34 b \/ body 39 b -> exists q, In q quotes /\ body q b /\ between_quotes b = q :: b ++ [q].
Proof.
  intros H. unfold between_quotes. destruct (bodyb 34 b) eqn:E.
  - exists 34. split; [left; reflexivity|]. split; [apply bodyb_iff in E; [exact E|discriminate]|reflexivity].
  - exists 39. split; [right; left; reflexivity|]. split; [|reflexivity]. destruct H as [H|H]; [|exact H]. apply bodyb_iff in H; [congruence|discriminate].
Qed.

Definition closing : token := mkToken T_RPAREN (s ")").
Definition safe_open : token := mkToken T_LBRACKET (s "&[").
Inductive fine : list token -> Prop :=
| fine_nil : fine []
| fine_tok k l : spelled (Some k) (written k) -> fine l -> fine (k :: l)
| fine_attr (sf : bool) n l : name n -> fine (mkToken T_SYMBOL n :: l) ->
    fine (closing :: (if sf then mkToken T_ATTR_SAFE (s "&.") else mkToken T_ATTR (s ".")) :: mkToken T_SYMBOL n :: l)
| fine_bracket l : fine l -> fine (closing :: safe_open :: l).
Lemma fine_app l1 l2 : fine l1 -> fine l2 -> fine (l1 ++ l2).
Proof. induction 1; intros F2; cbn [app]; [exact F2|constructor 2|constructor 3|constructor 4]; auto. Qed.
Lemma spelled_kind k x : spelled (Some k) x -> dot k = false /\ safe_bracket k = false /\ kind k <> T_COMMENT.
Proof.
  intros H. inversion H as [k' y I|k' y I| |y I K F|y I|q b Q B|q b Q B|q b Q B|q b Q B|q b Q B]; subst; try (repeat split; discriminate); vm_compute in I.
  - repeat (destruct I as [[= <- <-]|I]; [vm_compute; repeat split; discriminate|]). destruct I.
  - repeat (destruct I as [[= <- <-]|I]; [vm_compute; repeat split; discriminate|]). destruct I.
Qed.

Section S.
Variable space : N -> bool.
Hypothesis paren_solid : space 41 = false.
Notation reads := (LexSpec.reads space).

Lemma longest_end pv x : longest space pv x [].
Proof. intros o y r E _. rewrite app_nil_r in E. rewrite E, app_length. lia. Qed.
Lemma longest_end_blank pv k x after : after = [] \/ (exists v, after = 32 :: v) -> here space pv (Some k) x [] -> kind k <> T_COMMENT -> longest space pv x after.
Proof.
  intros H Hh NC. destruct H as [-> |(v & ->)]; [apply longest_end|].
  apply (longest_blank space pv k x [] [] 32 v Hh (longest_end _ _)); [constructor|exact NC|left; reflexivity].
Qed.
Lemma longest_closing pv v : longest space pv (s ")") v.
Proof.
  intros o y r E Hy. apply here_form in Hy. destruct (form_nonempty _ _ _ _ Hy) as (c & z & ->). cbn [s app] in E. assert (c = 41) as -> by (vm_compute in E; congruence).
  apply form_op in Hy; [|cbn; auto 25]. destruct Hy as [I|(A & _)]; [|discriminate A]. vm_compute in I.
  repeat (destruct I as [I|I]; [try discriminate I; injection I as <-; vm_compute; lia|]). destruct I.
Qed.
Lemma longest_attr (sf : bool) pv c v : letter c -> longest space pv (if sf then s "&." else s ".") (c :: v).
Proof.
  intros Hc o y r E Hy. apply here_form in Hy. destruct (form_nonempty _ _ _ _ Hy) as (d & z & ->). destruct sf.
  - assert (d = 38) as -> by (vm_compute in E; congruence). apply form_amp in Hy. destruct Hy as [->|(_ & [[-> _]| ->])]; vm_compute; lia.
  - assert (d = 46) as -> by (vm_compute in E; congruence). apply form_dot in Hy. destruct Hy as [N|(-> & _)]; [exfalso|vm_compute; lia].
    change (46 :: c :: v = 46 :: z ++ r) in E. injection E as E.
    inversion N as [| | |x0 e D X E0|x0 z0 e D X Y E0|z0 e D X E0]; subst.
    + destruct D as [d y Hd _]. cbn in E0. injection E0 as E0 _. unfold digit in Hd. lia.
    + destruct D as [d y Hd _]. cbn in E0. injection E0 as E0 _. unfold digit in Hd. lia.
    + destruct D as [d y Hd _]. cbn in E. injection E as E _. unfold digit, letter in *. lia.
Qed.
(** what follows a token that is not before a dot or safe bracket *)
Lemma gap_cases k l : dot k = false -> (match l with [] => True | k' :: _ => dot k' = false /\ safe_bracket k' = false end) ->
  gap k l ++ text_of l = [] \/ exists v, gap k l ++ text_of l = 32 :: v.
Proof.
  intros Dk H. destruct l as [|k' l]; [left; reflexivity|right]. destruct H as [A B]. unfold gap. rewrite Dk, A, B. cbn [orb app]. eauto.
Qed.
Lemma reads_gap pv k l : (forall pv', reads pv' (text_of l) l) -> reads pv (gap k l ++ text_of l) l.
Proof.
  intros H. unfold gap. destruct l as [|k' l]; [constructor|]. destruct (dot k || dot k' || safe_bracket k'); [apply H|]. cbn [app]. constructor; [left; reflexivity|apply H].
Qed.
Lemma fine_head l : fine l -> match l with [] => True | k' :: _ => dot k' = false /\ safe_bracket k' = false end.
Proof. intros [|k r H _|sf n r _ _|r _]; try (split; reflexivity). destruct (spelled_kind _ _ H) as (A & B & _). auto. Qed.
Lemma fine_reads l : fine l -> forall pv, reads pv (text_of l) l.
Proof.
  induction 1 as [|k l Sp F IH|sf n l Nm F IH|l F IH]; intros pv.
  - constructor.
  - cbn [text_of]. destruct (spelled_kind _ _ Sp) as (Dk & _ & NC). constructor; [constructor; exact Sp| |].
    + eapply longest_end_blank; [apply (gap_cases k l Dk), (fine_head l F)|constructor; exact Sp|exact NC].
    + apply reads_gap. exact IH.
  - set (A := if sf then mkToken T_ATTR_SAFE (s "&.") else mkToken T_ATTR (s ".")). set (X := mkToken T_SYMBOL n :: l) in *.
    assert (EX : exists c v, text_of X = c :: v /\ letter c).
    { destruct Nm as [c x Hc _]. exists c, (x ++ gap (mkToken T_SYMBOL (c :: x)) l ++ text_of l). split; [reflexivity|exact Hc]. }
    destruct EX as (c & v & Ev & Hc).
    assert (ET : text_of (closing :: A :: X) = s ")" ++ (if sf then s "&." else s ".") ++ text_of X).
    { unfold A, X. destruct sf; reflexivity. }
    rewrite ET. constructor; [apply H_spelled; apply S_operator; cbn; tauto|apply longest_closing|].
    change (last_of pv (s ")")) with (Some 41). assert (So : solid space (Some 41)) by (exists 41; auto).
    assert (Nd : named (text_of X)) by (exists c, v; auto).
    constructor; [|rewrite Ev; apply longest_attr; exact Hc|apply IH]. unfold A. destruct sf; [apply H_attr_safe|apply H_attr]; assumption.
  - assert (ET : text_of (closing :: safe_open :: l) = s ")" ++ s "&[" ++ gap safe_open l ++ text_of l) by reflexivity.
    rewrite ET. constructor; [apply H_spelled; apply S_operator; cbn; tauto|apply longest_closing|].
    change (last_of pv (s ")")) with (Some 41). assert (So : solid space (Some 41)) by (exists 41; auto).
    constructor; [apply H_bracket_safe; exact So| |apply reads_gap; exact IH].
    eapply (longest_end_blank _ safe_open); [apply (gap_cases safe_open l eq_refl), (fine_head l F)|apply H_bracket_safe; exact So|discriminate].
Qed.
End S.

(** ** The spelling of a tree is such a sequence *)
Lemma fine_node p l : Forall (fun t => fine (yield t)) l -> fine (yield (Node p l)).
Proof. intros H. cbn [yield]. induction H as [|t l Ht _ IH]; cbn [flat_map]; [constructor|]. apply fine_app; assumption. Qed.
Lemma fine_one k : spelled (Some k) (written k) -> fine (yield (Leaf k)).
Proof. intros H. cbn [yield]. constructor 2; [exact H|constructor]. Qed.
Ltac op_tok := apply fine_one, S_operator; vm_compute; tauto.
Ltac kw_tok := apply fine_one, S_keyword; vm_compute; tauto.
Lemma fine_group t : fine (yield t) -> fine (yield (group t)).
Proof. intros H. apply fine_node. constructor; [op_tok|]. constructor; [exact H|]. constructor; [op_tok|constructor]. Qed.
Lemma fine_object t : fine (yield t) -> fine (yield (object t)).
Proof. intros H. apply fine_node. constructor; [exact H|constructor]. Qed.
Lemma fine_paren t : fine (yield t) -> fine (yield (paren t)).
Proof. intros H. apply fine_object, fine_group, H. Qed.
Lemma fine_members one more l : Forall (fun t => fine (yield t)) l -> fine (yield (members one more l)).
Proof.
  intros H. unfold members. destruct H as [|x r Hx Hr]; [constructor|].
  assert (G : forall acc, fine (yield acc) -> fine (yield (fold_left (fun acc y => Node more [acc; comma; y]) r acc))).
  { induction Hr as [|y r Hy _ IH]; intros acc Ha; cbn [fold_left]; [exact Ha|]. apply IH. apply fine_node. constructor; [exact Ha|]. constructor; [op_tok|]. constructor; [exact Hy|constructor]. }
  apply G. apply fine_node. constructor; [exact Hx|constructor].
Qed.
Lemma fine_symbol v : LexSpec.symbol v -> free_name v -> spelled (Some (mkToken T_SYMBOL v)) (written (mkToken T_SYMBOL v)).
Proof. intros S [K F]. apply S_symbol; assumption. Qed.
Lemma body_hex q l : q < 48 -> Forall is_hex l -> forall r, body q r -> body q (l ++ r).
Proof.
  intros Q. induction 1 as [|c l H _ IH]; intros r B; cbn [app]; [exact B|]. unfold is_hex in H. apply BChar; [lia|lia|lia|apply IH, B].
Qed.
Lemma body_string t : body 34 (string_body t).
Proof.
  unfold string_body. induction t as [|c t IH]; cbn [flat_map]; [constructor|]. cbn [app]. apply BEscape; [lia|]. apply body_hex; [lia|apply hex_of_hex|exact IH].
Qed.
Lemma body_bytes t : body 34 (bytes_body t).
Proof.
  unfold bytes_body. induction t as [|c t IH]; cbn [flat_map]; [constructor|]. cbn [app]. apply BEscape; [lia|]. apply body_hex; [lia|apply hex_of_hex|exact IH].
Qed.
Lemma fine_lit v : fine (yield (lit_tree v)).
Proof.
  assert (Nl : fine (yield (object (Node 45 [word T_NULL (s "null")])))) by (apply fine_object, fine_node; constructor; [kw_tok|constructor]).
  destruct v as [|b| | | |t|b| | | | | | | | | | | | |]; try exact Nl; cbn [lit_tree].
  - destruct b; (apply fine_node; constructor; [kw_tok|constructor]).
  - apply fine_object, fine_node. constructor; [|constructor]. apply fine_one. apply (S_string 34); [left; reflexivity|apply body_string].
  - apply fine_object, fine_node. constructor; [|constructor]. apply fine_one. apply (S_bytes 34); [left; reflexivity|apply body_bytes].
Qed.
Lemma fine_float t : numeral t \/ t = s "nan" \/ t = s "inf" -> fine (yield (float_tree t)).
Proof.
  intros H. unfold float_tree. destruct (str_eqb t (s "nan")) eqn:E1; [|destruct (str_eqb t (s "inf")) eqn:E2].
  - apply str_eqb_eq in E1. subst. apply fine_node. constructor; [kw_tok|constructor].
  - apply str_eqb_eq in E2. subst. apply fine_node. constructor; [kw_tok|constructor].
  - apply fine_node. constructor; [|constructor]. apply fine_one. apply S_number. destruct H as [H|[->| ->]]; [exact H|discriminate E1|discriminate E2].
Qed.
Lemma Forall_textual {A} (f : A -> dnode) (l : list A) : Forall (fun d => textual (f d) -> fine (yield (spell (f d)))) l -> Forall (fun x => textual (f x)) l ->
  Forall (fun t => fine (yield t)) (map (fun x => paren (spell (f x))) l).
Proof. induction 1 as [|x l H _ IH]; intros W; cbn [map]; [constructor|]. inversion W; subst. constructor; [apply fine_paren; auto|auto]. Qed.
Lemma group_front p t l : yield (Node p (group t :: l)) = (yield lp ++ yield t) ++ closing :: flat_map yield l.
Proof. cbn [yield flat_map group lp rp app]. rewrite ?app_nil_r, <- ?app_assoc. reflexivity. Qed.
Lemma fine_indexed p t (sf : bool) l : fine (yield t) -> Forall (fun t => fine (yield t)) l -> fine (yield (Node p (group t :: lbk sf :: l))).
Proof.
  intros H F. destruct sf; [|apply fine_node; constructor; [apply fine_group, H|constructor; [op_tok|exact F]]].
  rewrite group_front. apply fine_app; [apply fine_app; [op_tok|exact H]|]. cbn [flat_map]. change (yield (lbk true)) with [safe_open]. cbn [app].
  apply fine_bracket. exact (fine_node p l F).
Qed.
Ltac leaf := first [op_tok | kw_tok | apply fine_paren; assumption | apply fine_group; assumption | assumption].
Ltac kids := repeat (constructor; [leaf|]); constructor.
Lemma spell_fine d : textual d -> fine (yield (spell d)).
Proof.
  induction d as [v|t|t|t|l IH|l IH|l IH|o a b IHa IHb|r v i c IHr IHi IHc|c m IHc IHm|o nm sf IHo|c i sf IHc IHi|c a b sf IHc IHa IHb|nm bi|f l IHf IHl|c a b IHc IHa IHb|o e IHe] using dnode_ind';
  intros W; inversion W as [v'|t' Wt|t' Wt|t' Wt|l' Wl|l' Wl|l' Wl|o' a' b' Wa Wb|r' v' i' c' Wr Wv Wf Wi Wc|c' m' Wc Wm|o' n' sf' Wo Wn Wf|c' i' sf' Wc Wi|c' a' b' sf' Wc Wa Wb|n' Wn Wf|n' Wn|f' l' Wf Wl|c' a' b' Wc Wa Wb|o' e' We]; subst; clear W.
  - apply fine_lit.
  - apply fine_float, Wt.
  - destruct (between_body t Wt) as (q & Q & B & E). apply fine_object, fine_node. constructor; [|constructor]. apply fine_one. unfold written. cbn [kind Grammar.text]. rewrite E. apply S_datetime; assumption.
  - destruct (between_body t Wt) as (q & Q & B & E). apply fine_object, fine_node. constructor; [|constructor]. apply fine_one. unfold written. cbn [kind Grammar.text]. rewrite E. apply S_timedelta; assumption.
  - pose proof (fine_members 54 55 _ (Forall_textual (fun x => x) l IH Wl)) as M. destruct l as [|x l]; cbn [spell]; apply fine_object, fine_node; kids.
  - pose proof (fine_members 54 55 _ (Forall_textual (fun x => x) l IH Wl)) as M. cbn [spell]; apply fine_object, fine_node; kids.
  - assert (M : fine (yield (members 60 61 (map (fun kv => match kv with (k, v) => Node 59 [paren (spell k); colon; paren (spell v)] end) l)))).
    { apply fine_members. induction IH as [|[k v] l [H1 H2] _ IH]; cbn [map]; [constructor|]. inversion Wl as [|? ? [W1 W2] Wl']; subst. cbn [fst snd] in *. constructor; [|exact (IH Wl')].
      specialize (H1 W1). specialize (H2 W2). apply fine_node. kids. }
    destruct l as [|x l]; cbn [spell]; apply fine_object, fine_node; kids.
  - specialize (IHa Wa). specialize (IHb Wb). cbn [spell].
    destruct o; repeat match goal with o : arith |- _ => destruct o | o : bitop |- _ => destruct o | o : cop |- _ => destruct o | b : bool |- _ => destruct b end; cbn [binop_tok]; apply fine_node; kids.
  - specialize (IHr Wr). specialize (IHi Wi). assert (V : fine (yield (Leaf (mkToken T_SYMBOL v)))) by (apply fine_one, fine_symbol; assumption).
    destruct c as [c|]; cbn [opt_D] in *; [specialize (IHc (Wc c eq_refl))|]; cbn [spell]; apply fine_object, fine_node; kids.
  - specialize (IHc Wc). specialize (IHm Wm). cbn [spell]. apply fine_node. kids.
  - specialize (IHo Wo). assert (V : fine [mkToken T_SYMBOL nm]) by (constructor 2; [apply fine_symbol; [constructor; exact Wn|exact Wf]|constructor]).
    destruct sf; cbn [spell]; apply fine_object; rewrite group_front; (apply fine_app; [apply fine_app; [op_tok|exact IHo]|]).
    + exact (fine_attr true nm [] Wn V).
    + exact (fine_attr false nm [] Wn V).
  - specialize (IHc Wc). specialize (IHi Wi). cbn [spell]. apply fine_object, fine_indexed; [exact IHc|kids].
  - specialize (IHc Wc). destruct a as [a|], b as [b|]; cbn [opt_D] in *; try specialize (IHa (Wa _ eq_refl)); try specialize (IHb (Wb _ eq_refl));
    cbn [spell]; (apply fine_object, fine_indexed; [exact IHc|kids]).
  - apply fine_object, fine_node. constructor; [|constructor]. apply fine_one, fine_symbol; [constructor; exact Wn|exact Wf].
  - apply fine_object, fine_node. constructor; [|constructor]. apply fine_one, fine_symbol; [constructor; exact Wn|]. split; [|intros I; vm_compute in I; repeat (destruct I as [I|I]; [discriminate I|]); destruct I].
    intros k I. vm_compute in I. repeat (destruct I as [I|I]; [discriminate I|]). destruct I.
  - specialize (IHf Wf). pose proof (fine_members 54 55 _ (Forall_textual (fun x => x) l IHl Wl)) as M. destruct l as [|x l]; cbn [spell]; apply fine_object, fine_node; kids.
  - specialize (IHc Wc). specialize (IHa Wa). specialize (IHb Wb). cbn [spell]. apply fine_node. kids.
  - specialize (IHe We). destruct o; cbn [spell]; apply fine_node; kids.
Qed.

(** ** Only such trees are ever read *)
Definition tok_ok (k : token) : Prop :=
  match kind k with
  | T_SYMBOL => LexSpec.symbol (Grammar.text k) /\ free_name (Grammar.text k)
  | T_FLOAT => numeral (Grammar.text k)
  | T_FLOAT_NAN => Grammar.text k = s "nan"
  | T_FLOAT_INF => Grammar.text k = s "inf"
  | T_DATETIME | T_TIMEDELTA => body 34 (Grammar.text k) \/ body 39 (Grammar.text k)
  | _ => True
  end.
Definition seq_ok (l : list token) : Prop :=
  Forall tok_ok l /\ forall l1 a b l2, l = l1 ++ a :: b :: l2 -> dot a = true -> kind b = T_SYMBOL -> name (Grammar.text b).
Lemma seq_ok_app l1 l2 : seq_ok (l1 ++ l2) -> seq_ok l1 /\ seq_ok l2.
Proof.
  intros [F A]. apply Forall_app in F as [F1 F2]. split; (split; [assumption|]); intros u a b v E.
  - apply (A u a b (v ++ l2)). rewrite E, <- app_assoc. reflexivity.
  - apply (A (l1 ++ u) a b v). rewrite E, <- app_assoc. reflexivity.
Qed.
Lemma spelled_ok k x : spelled (Some k) x -> tok_ok k.
Proof.
  intros H. inversion H as [k' y I|k' y I| |y I K F|y I|q b Q B|q b Q B|q b Q B|q b Q B|q b Q B]; subst.
  - vm_compute in I. repeat (destruct I as [[= <- <-]|I]; [exact Logic.I|]). destruct I.
  - vm_compute in I. repeat (destruct I as [[= <- <-]|I]; [first [exact Logic.I|reflexivity]|]). destruct I.
  - split; [exact I|split; assumption].
  - exact I.
  - exact Logic.I.
  - exact Logic.I.
  - exact Logic.I.
  - unfold tok_ok. cbn [kind Grammar.text]. destruct Q as [<-|[<-|[]]]; auto.
  - unfold tok_ok. cbn [kind Grammar.text]. destruct Q as [<-|[<-|[]]]; auto.
Qed.
Section Image.
Variable space : N -> bool.
Notation reads := (LexSpec.reads space).
Notation here := (LexSpec.here space).
Lemma here_ok pv k x r : here pv (Some k) x r -> tok_ok k.
Proof. intros H. inversion H as [o y a Sp| | | |]; subst; [exact (spelled_ok _ _ Sp)|exact I..]. Qed.
Lemma here_dot pv k x r : here pv (Some k) x r -> dot k = true -> named r.
Proof. intros H D. inversion H as [o y a Sp| | | |]; subst; try discriminate D; try assumption. destruct (spelled_kind _ _ Sp) as [A _]. congruence. Qed.
Lemma here_symbol pv k x r : here pv (Some k) x r -> kind k = T_SYMBOL -> x = Grammar.text k /\ LexSpec.symbol x.
Proof.
  intros H E. inversion H as [o y a Sp| | | |]; subst; try discriminate E.
  inversion Sp as [k' y I|k' y I| |y I K F|y I|q b Q B|q b Q B|q b Q B|q b Q B|q b Q B]; subst; try discriminate E; auto; exfalso; cbn [kind] in E; subst k';
  vm_compute in I; repeat (destruct I as [I|I]; [discriminate I|]); destruct I.
Qed.
Lemma reads_ok pv t l : reads pv t l -> seq_ok l.
Proof.
  induction 1 as [pv|pv c t l Hb R IH|pv k x after l Hh Lg R [F A]]; [|exact IH|].
  - split; [constructor|]. intros l1 a b l2 E. destruct l1; discriminate E.
  - split; [constructor; [exact (here_ok _ _ _ _ Hh)|exact F]|]. intros [|k1 l1] a b l2 E Da Kb; cbn [app] in E.
    + injection E as -> ->. destruct (here_dot _ _ _ _ Hh Da) as (c & u & -> & Hc).
      destruct (reads_inv _ _ _ _ R) as [[[=] _]|[(? & ? & [= <- <-] & Hb & _)|(k2 & x2 & r2 & l' & E & [= <- <-] & H2 & _)]].
      * exfalso. unfold blank, letter in *. lia.
      * destruct (here_symbol _ _ _ _ H2 Kb) as [-> S]. inversion S as [y N E2|y N E2]; [exact N|exfalso]. rewrite <- E2 in E. cbn [app] in E. injection E as -> _. unfold letter in Hc. lia.
    + injection E as -> ->. exact (A l1 a b l2 eq_refl Da Kb).
Qed.
Variable uname : str -> option N.
Definition wt (v : sval) : Prop :=
  match v with
  | STok k => tok_ok k
  | SNode d => textual d
  | SNodes l => Forall textual l
  | SPair k v => textual k /\ textual v
  | SPairs l => Forall (fun kv => textual (fst kv) /\ textual (snd kv)) l
  end.
Inductive value_of : GrammarTab.symbol -> sval -> Prop :=
| VO_tok k x : kind k = x -> value_of (T x) (STok k)
| VO_nt n v : value_of (NT n) v.
Ltac invF := repeat match goal with
  | H : Forall _ (_ :: _) |- _ => inversion H; clear H; subst
  | H : Forall2 _ (_ :: _) _ |- _ => inversion H; clear H; subst
  | H : Forall2 _ [] _ |- _ => inversion H; clear H; subst
  | H : value_of (T _) _ |- _ => inversion H; clear H; subst
  | H : value_of (NT _) _ |- _ => clear H
  end.
Ltac opts := intros ? EE; try discriminate EE; injection EE as <-; assumption.
Lemma action_t p vs : In p (map N.of_nat (seq 0 69)) -> Forall2 value_of (rhs p) vs -> Forall wt vs ->
  (p = 3 \/ p = 4 -> forall o a n, vs = [o; STok a; STok n] -> name (Grammar.text n)) ->
  forall v, nth (N.to_nat p) (actions uname) (fun _ => bad) vs = Ok v -> wt v.
Proof.
  intros Hq L F A v. vm_compute in Hq.
  repeat (destruct Hq as [<-|Hq]; [
    match type of L with Forall2 _ (rhs ?p) _ => let r := eval vm_compute in (rhs p) in change (rhs p) with r in L end;
    match goal with |- context [nth (N.to_nat ?p) _ _] => let r := eval vm_compute in (N.to_nat p) in change (N.to_nat p) with r end;
    cbn [nth actions]|]); [..|destruct Hq].
  all: invF.
  all: unfold a_first, a_attr, a_tern, a_bin, a_in, a_group, a_un, a_lit, a_coll, a_map, a_comp, a_members, a_pair, a_item, a_slice, a_call, bad, node.
  all: try match goal with |- a_symbol _ = _ -> _ => unfold a_symbol, bad, node end.
  all: try match goal with |- a_text _ _ = _ -> _ => unfold a_text, bad end.
  all: repeat match goal with |- context [match ?x with STok _ => _ | SNode _ => _ | SNodes _ => _ | SPair _ _ => _ | SPairs _ => _ end] => destruct x end; try discriminate.
  all: cbn [wt] in *.
  all: try (intros [= <-]; cbn [wt];
    repeat match goal with H : _ /\ _ |- _ => destruct H end;
    first [assumption
          | constructor; solve [assumption | exact I | opts]
          | constructor; constructor; assumption
          | constructor; [assumption|constructor]
          | apply Forall_app; split; [assumption|constructor; [assumption|constructor]]
          | constructor; [split; assumption|constructor]
          | apply Forall_app; split; [assumption|constructor; [split; assumption|constructor]]
          | split; assumption ]; fail).
  all: repeat match goal with H : tok_ok ?k, K : kind ?k = _ |- _ => unfold tok_ok in H; rewrite K in H end.
  all: repeat match goal with H : True |- _ => clear H end.
  - intros [= <-]. cbn [wt]. match goal with H : LexSpec.symbol _ /\ _ |- _ => destruct H end. apply X_attr; [assumption| |assumption]. eapply A; [left; reflexivity|reflexivity].
  - intros [= <-]. cbn [wt]. match goal with H : LexSpec.symbol _ /\ _ |- _ => destruct H end. apply X_attr; [assumption| |assumption]. eapply A; [right; reflexivity|reflexivity].
  - match goal with H : LexSpec.symbol _ /\ _ |- _ => destruct H as [S Fr] end. destruct (Grammar.text k) as [|c r] eqn:Et; [discriminate|]. destruct (N.eqb_spec c 36) as [->|N]; intros [= <-]; cbn [wt].
    + constructor. inversion S as [y Ny|y Ny]; [inversion Ny; subst; unfold letter in *; lia|exact Ny].
    + constructor; [|exact Fr]. inversion S as [y Ny|y Ny]; [exact Ny|]. congruence.
  - intros H. apply rmap_Ok in H as (y & H & ->). apply rmap_Ok in H as (b & H & ->). cbn [wt]. constructor.
  - intros [= <-]. constructor. assumption.
  - intros [= <-]. constructor. assumption.
  - intros [= <-]. constructor. auto.
  - intros [= <-]. constructor. auto.
  - intros [= <-]. constructor. auto.
  - intros H. apply rmap_Ok in H as (y & H & ->). apply rmap_Ok in H as (b & H & ->). cbn [wt]. constructor.
  - intros [= <-]. cbn [wt]. match goal with H : LexSpec.symbol _ /\ _ |- _ => destruct H end. constructor; try assumption. intros ? [=].
  - intros [= <-]. cbn [wt]. match goal with H : LexSpec.symbol _ /\ _ |- _ => destruct H end. constructor; try assumption. opts.
Qed.
Lemma derives_value x t v : derives x t -> sem uname t = Ok v -> value_of x v.
Proof.
  intros D. destruct D as [k Hk|p l Hp F]; intros H; [|constructor]. injection H as <-. constructor. reflexivity.
Qed.
Lemma sem_t t : forall x v, derives x t -> seq_ok (yield t) -> sem uname t = Ok v -> wt v.
Proof.
  induction t as [t|p l IH] using tree_ind'; intros x v D Y H.
  - injection H as <-. destruct Y as [Y _]. inversion Y; assumption.
  - apply derives_node in D as (-> & Hp & D). rewrite sem_node in H.
    destruct (rmapM (sem uname) l) as [vs|e] eqn:E; [|discriminate H]. cbn [rbind] in H.
    refine (action_t p vs _ _ _ _ v H).
    + apply in_prods_iff in Hp. exact Hp.
    + clear - D E. revert vs E. induction D as [|a c xs l Dc _ IHl]; intros vs E; cbn [rmapM] in E; [injection E as <-; constructor|].
      destruct (sem uname c) as [u|] eqn:Ec; [|discriminate E]. cbn [rbind] in E. destruct (rmapM (sem uname) l) as [ws|]; [|discriminate E]. injection E as <-.
      constructor; [exact (derives_value _ _ _ Dc Ec)|exact (IHl ws eq_refl)].
    + clear - IH D E Y. cbn [yield] in Y. revert vs E. induction D as [|a c xs l Dc _ IHl]; intros vs E; cbn [rmapM] in E; [injection E as <-; constructor|].
      inversion IH as [|? ? Hc Hl]; subst. cbn [flat_map] in Y. apply seq_ok_app in Y as [Y1 Y2].
      destruct (sem uname c) as [u|] eqn:Ec; [|discriminate E]. cbn [rbind] in E. destruct (rmapM (sem uname) l) as [ws|]; [|discriminate E]. injection E as <-.
      constructor; [exact (Hc _ _ Dc Y1 eq_refl)|exact (IHl Hl Y2 ws eq_refl)].
    + intros P o a n ->. clear - P D E Y.
      assert (R : exists k nt, dot (mkToken k []) = true /\ rhs p = [NT nt; T k; T T_SYMBOL]).
      { destruct P as [->| ->]; [exists T_ATTR|exists T_ATTR_SAFE]; eexists; split; reflexivity. }
      destruct R as (k & nt & Dk & Er).
      rewrite Er in D. inversion D as [|? c1 ? ? D1 F1]; subst. inversion F1 as [|? c2 ? ? D2 F2]; subst. inversion F2 as [|? c3 ? ? D3 F3]; subst. inversion F3; subst.
      inversion D2 as [k2 N2 E2|]; subst. inversion D3 as [k3 N3 E3|]; subst. cbn [rmapM] in E. rewrite !sem_leaf in E. destruct (sem uname c1); [|discriminate E]. cbn [rbind] in E. injection E as <- <- <-.
      cbn [yield flat_map] in Y. destruct Y as [_ Y]. apply (Y (yield c1) k2 k3 []); [reflexivity|exact Dk|congruence].
Qed.
End Image.

(** ** The theorems *)
Section T.
Variable space : N -> bool.
Hypothesis paren_solid : space 41 = false.
(** Every writable tree whose names, numbers and texts are such is the meaning of its text. *)
Theorem C61_round_trip : forall uname d, writable d -> textual d -> parse_text space uname (text_of (spelling d)) = Ok d.
Proof.
  intros uname d W X. destruct (C52_round_trip uname d W) as [_ P]. unfold parse_text.
  assert (E : Lexer.tokenize space (text_of (spelling d)) = Ok (spelling d)).
  { apply C59_reads. apply fine_reads; [exact paren_solid|]. apply fine_node. constructor; [apply spell_fine, X|constructor]. }
  rewrite E. exact P.
Qed.
(** Nothing else is ever the meaning of a text. *)
Theorem C61_expressions : forall uname, (forall n c, uname n = Some c -> c < 1114112) ->
  forall d, writable d /\ textual d <-> exists t, parse_text space uname t = Ok d.
Proof.
  intros uname U d. split.
  - intros [W X]. exists (text_of (spelling d)). apply C61_round_trip; assumption.
  - intros (t & H). unfold parse_text in H. destruct (Lexer.tokenize space t) as [l|] eqn:E; [|discriminate H]. cbn [rbind] in H.
    destruct (C59_tokens _ _ _ E) as [R _]. split; [apply (C52_expression_trees uname U); eauto|].
    unfold parse_tokens in H. destruct (parse l) as [tr| |] eqn:Ep; try discriminate H.
    apply C50_exactly_derivations in Ep; [|exact R]. destruct Ep as (D & Y & _).
    destruct (sem uname tr) as [v|] eqn:Es; [|discriminate H]. cbn [rbind] in H. destruct v; try discriminate H. injection H as ->.
    apply C59_reads, reads_ok in E. rewrite <- Y in E. exact (sem_t uname tr _ _ D E Es).
Qed.
(** So every text that parses can be rewritten, fully parenthesised and with canonical blanks, without changing its meaning... *)
Theorem C61_respelling : forall uname, (forall n c, uname n = Some c -> c < 1114112) ->
  forall t d, parse_text space uname t = Ok d -> parse_text space uname (text_of (spelling d)) = Ok d.
Proof. intros uname U t d H. assert (K : writable d /\ textual d) by (apply (C61_expressions uname U); eauto). apply C61_round_trip; apply K. Qed.
(** ... and different expressions have different texts. *)
Theorem C61_distinct : forall d d', writable d -> textual d -> writable d' -> textual d' -> text_of (spelling d) = text_of (spelling d') -> d = d'.
Proof.
  intros d d' W X W' X' E. pose proof (C61_round_trip (fun _ => None) d W X) as A. pose proof (C61_round_trip (fun _ => None) d' W' X') as B. congruence.
Qed.
End T.
(** ** A concrete case *)
Example C61_example : writable sample /\ textual sample /\
  parse_text ascii_space (fun _ => None) (text_of (spelling sample)) = Ok sample /\
  parse_text ascii_space (fun _ => None) (s "x.name =~ 'a""' and not 1 in [y for y in ys if y]") = Ok sample.
Proof.
  split; [exact (proj1 C52_example)|]. split; [|split; vm_compute; reflexivity].
  apply (C61_expressions ascii_space eq_refl (fun _ => None)); [discriminate|]. exists (s "x.name =~ 'a""' and not 1 in [y for y in ys if y]"). vm_compute. reflexivity.
Qed.
