(** * Theorems about the builtin functions (C37, C38, C39) *)
From Coq Require Import QArith Qabs Lia String.
From Verif Require Import Base Dec Value DType DTypeFacts Types Ops Attr EqFacts CoerceFacts TypesFacts DecFacts OrdFacts Prog Ast Eval Build Engine Demo P_Compare P_Ops P_Eval P_Calls P_Attrs P_Decimal DecRound Truth.
Open Scope list_scope.
Open Scope Z_scope.

(** ** Specification vocabulary *)

(** [t] contains [sep] *)
Definition contains (sep t : str) : Prop := exists a b, t = a ++ sep ++ b.
(** [p] is what stands before the leftmost [sep] of [p ++ sep ++ r] *)
Definition leftmost (sep p r : str) : Prop := forall a b, p ++ sep ++ r = a ++ sep ++ b -> (length p <= length a)%nat.

Definition one_less (k : option nat) : option nat := match k with Some n => Some (n - 1)%nat | None => None end.

(** splitting [t] at [sep] from the left, at most [k] times ([None]: no limit) *)
Inductive splits (sep : str) : option nat -> str -> list str -> Prop :=
| Sp_last : forall k t, k = Some O \/ ~ contains sep t -> splits sep k t [t]
| Sp_cons : forall k p r ps, k <> Some O -> leftmost sep p r -> splits sep (one_less k) r ps -> splits sep k (p ++ sep ++ r) (p :: ps).

(** [sep.join(ps)] *)
Fixpoint join (sep : str) (ps : list str) : str :=
  match ps with [] => [] | [p] => p | p :: r => p ++ sep ++ join sep r end.

(** splitting into runs of non-whitespace from the left, at most [k] splits *)
Inductive words (sp : N -> bool) : option nat -> str -> list str -> Prop :=
| Wd_nil : forall k t, Forall (fun c => sp c = true) t -> words sp k t []
| Wd_rest : forall s c r, Forall (fun c => sp c = true) s -> sp c = false -> words sp (Some O) (s ++ c :: r) [c :: r]
| Wd_word : forall k s p r ws, k <> Some O -> Forall (fun c => sp c = true) s -> p <> [] -> Forall (fun c => sp c = false) p ->
    (r = [] \/ exists c r', r = c :: r' /\ sp c = true) -> words sp (one_less k) r ws -> words sp k (s ++ p ++ r) (p :: ws).

(** ** The specification implies the familiar facts *)
Theorem C37_join : forall sep k t ps, splits sep k t ps -> join sep ps = t.
Proof.
  intros sep k t ps H. induction H as [|k p r ps K L S IH]; [reflexivity|]. destruct ps as [|p' ps]; [inversion S|]. cbn [join]. cbn [join] in IH. rewrite IH. reflexivity.
Qed.
Theorem C37_pieces_free : forall sep t ps, sep <> [] -> splits sep None t ps -> forall p, In p ps -> ~ contains sep p.
Proof.
  intros sep t ps N H. remember (@None nat) as k eqn:K. induction H as [k t E|k p r ps E L S IH]; intros x I.
  - destruct I as [<-|[]]. destruct E as [E|E]; [congruence|exact E].
  - destruct I as [<-|I]; [|apply IH; [rewrite K; reflexivity|exact I]]. intros [a [b ->]]. assert (X := L a (b ++ sep ++ r)). rewrite <- !app_assoc in X. specialize (X eq_refl). rewrite !app_length in X. destruct sep; [congruence|cbn in X; lia].
Qed.
Theorem C37_limit : forall sep n t ps, splits sep (Some n) t ps -> (1 <= length ps <= n + 1)%nat /\ ((length ps < n + 1)%nat -> sep <> [] -> forall p, In p ps -> ~ contains sep p).
Proof.
  intros sep n t ps H. remember (Some n) as k eqn:K. revert n K. induction H as [k t E|k p r ps E L S IH]; intros n ->.
  - cbn. split; [lia|]. intros B NE x [<-|[]]. destruct E as [E|E]; [injection E as ->; lia|exact E].
  - destruct n as [|n]; [congruence|]. cbn [one_less] in IH. replace (Datatypes.S n - 1)%nat with n in IH by lia. destruct (IH n eq_refl) as [A B]. cbn [length]. split; [lia|]. intros C NE x [<-|I]; [|apply B; [lia|exact NE|exact I]].
    intros [a [b ->]]. assert (X := L a (b ++ sep ++ r)). rewrite <- !app_assoc in X. specialize (X eq_refl). rewrite !app_length in X. destruct sep; [congruence|cbn in X; lia].
Qed.
Theorem C37_words : forall sp t ws, words sp None t ws ->
  concat ws = filter (fun c => negb (sp c)) t /\ forall p, In p ws -> p <> [] /\ Forall (fun c => sp c = false) p.
Proof.
  assert (FA : forall (f : N -> bool) l, Forall (fun c => f c = true) l -> filter f l = l). { intros f l. induction 1 as [|c l C H IH]; [reflexivity|]. cbn. rewrite C, IH. reflexivity. }
  assert (FN : forall (f : N -> bool) l, Forall (fun c => f c = false) l -> filter f l = []). { intros f l. induction 1 as [|c l C H IH]; [reflexivity|]. cbn. rewrite C. exact IH. }
  intros sp t ws H. remember (@None nat) as k eqn:K. induction H as [k t E|s c r S C|k s p r ws E S P NS R W IH]; [|discriminate|].
  - split; [|intros p []]. cbn. rewrite FN; [reflexivity|]. eapply Forall_impl; [|exact E]. intros c B. cbn in B. rewrite B. reflexivity.
  - subst k. destruct (IH eq_refl) as [A B]. split.
    + cbn [concat]. rewrite A, !filter_app. rewrite (FN _ s), (FA _ p); [reflexivity| |]; eapply Forall_impl; try eassumption; intros c X; cbn in X; rewrite X; reflexivity.
    + intros x [<-|I]; [split; assumption|apply B; exact I].
Qed.
Theorem C37_words_limit : forall sp n t ws, words sp (Some n) t ws -> (length ws <= n + 1)%nat.
Proof.
  intros sp n t ws H. remember (Some n) as k eqn:K. revert n K. induction H as [k t E|s c r S C|k s p r ws E S P NS R W IH]; intros n K.
  - cbn. lia.
  - injection K as <-. cbn. lia.
  - subst k. destruct n as [|n]; [congruence|]. cbn [one_less] in IH. specialize (IH _ eq_refl). cbn [length]. lia.
Qed.

(** ** The implementation meets the specification *)
Lemma is_prefix_iff : forall p t, is_prefix p t = true <-> exists r, t = p ++ r.
Proof.
  induction p as [|x p IH]; intros t; cbn [is_prefix]; [split; [intros _; exists t; reflexivity|reflexivity]|]. destruct t as [|y t]; [split; [discriminate|intros [r E]; discriminate]|].
  rewrite andb_true_iff, N.eqb_eq, IH. split; [intros [-> [r ->]]; exists r; reflexivity|intros [r E]; injection E as -> ->; split; [reflexivity|exists r; reflexivity]].
Qed.
Lemma split_skip : forall sep k a cur r, split_sep sep k (length a) cur (a ++ r) = split_sep sep k 0 cur r.
Proof. intros sep k a. induction a as [|c a IH]; intros cur r; [reflexivity|]. cbn [length app split_sep]. apply IH. Qed.
Lemma split_stop : forall sep t cur, split_sep sep (Some O) 0 cur t = [rev cur ++ t].
Proof. intros sep. induction t as [|c t IH]; intro cur; cbn [split_sep limit_zero negb andb]; [rewrite app_nil_r; reflexivity|]. rewrite IH. cbn [rev]. rewrite <- app_assoc. reflexivity. Qed.

Lemma app_same_length : forall (A : Type) (a b c d : list A), a ++ b = c ++ d -> length a = length c -> a = c /\ b = d.
Proof. induction a as [|x a IH]; intros b [|y c] d E L; cbn in *; try discriminate; [auto|]. injection E as -> E. injection L as L. destruct (IH b c d E L) as [-> ->]. auto. Qed.

Lemma split_sep_splits : forall sep n t k cur, sep <> [] -> (length t <= n)%nat -> (forall a b, rev cur ++ t = a ++ sep ++ b -> (length cur <= length a)%nat) ->
  splits sep k (rev cur ++ t) (split_sep sep k 0 cur t).
Proof.
  intros sep. induction n as [|n IH]; intros t k cur NE B I.
  - destruct t; [|cbn in B; lia]. cbn [split_sep]. rewrite app_nil_r in *. apply Sp_last. right. intros [a [b E]]. specialize (I a b E). apply (f_equal (@length N)) in E. rewrite rev_length, !app_length in E. destruct sep; [congruence|cbn in E; lia].
  - destruct t as [|c t].
    + cbn [split_sep]. rewrite app_nil_r in *. apply Sp_last. right. intros [a [b E]]. specialize (I a b E). apply (f_equal (@length N)) in E. rewrite rev_length, !app_length in E. destruct sep; [congruence|cbn in E; lia].
    + cbn [split_sep]. destruct (limit_zero k) eqn:K; cbn [negb andb].
      * destruct k as [[|m]|]; try discriminate. rewrite split_stop. cbn [rev]. rewrite <- app_assoc. apply Sp_last. left. reflexivity.
      * assert (K0 : k <> Some O) by (intros ->; discriminate). destruct (is_prefix sep (c :: t)) eqn:P.
        -- apply is_prefix_iff in P as [r E]. rewrite E. destruct sep as [|x sep]; [congruence|]. injection E as -> ->. cbn [length]. replace (Datatypes.S (length sep) - 1)%nat with (length sep) by lia. rewrite split_skip.
           apply Sp_cons; [exact K0| |].
           ++ intros a b E. rewrite rev_length. apply (I a b). exact E.
           ++ assert (X : splits (x :: sep) (one_less k) (rev [] ++ r) (split_sep (x :: sep) (one_less k) 0 [] r)). { apply IH; [exact NE| |intros; cbn; lia]. rewrite ?app_length in B; cbn in B; rewrite ?app_length in B. lia. }
              cbn in X. replace (limit_dec k) with (one_less k); [exact X|]. destruct k as [m|]; [|reflexivity]. cbn. f_equal. lia.
        -- replace (rev cur ++ c :: t) with (rev (c :: cur) ++ t) by (cbn [rev]; rewrite <- app_assoc; reflexivity). apply IH; [exact NE|cbn in B; lia|].
           intros a b E. replace (rev (c :: cur) ++ t) with (rev cur ++ c :: t) in E by (cbn [rev]; rewrite <- app_assoc; reflexivity). assert (L := I a b E). cbn [length].
           destruct (Nat.eq_dec (length cur) (length a)) as [L2|L2]; [|lia]. exfalso. apply app_same_length in E; [|rewrite rev_length; exact L2]. destruct E as [_ E]. assert (X : is_prefix sep (c :: t) = true) by (apply is_prefix_iff; exists b; exact E). congruence.
Qed.
Lemma split_sep_ok : forall sep k t, sep <> [] -> splits sep k t (split_sep sep k 0 [] t).
Proof. intros. apply (split_sep_splits sep (length t) t k []); [assumption|lia|intros; cbn; lia]. Qed.

Lemma split_ws_word : forall sp t k p, exists w r, t = w ++ r /\ Forall (fun c => sp c = false) w /\ (r = [] \/ exists c r', r = c :: r' /\ sp c = true) /\ split_ws sp k (Some p) t = (rev p ++ w) :: split_ws sp (limit_dec k) None r.
Proof.
  intros sp t. induction t as [|c t IH]; intros k p.
  - exists [], []. split; [reflexivity|]. split; [constructor|]. split; [left; reflexivity|]. cbn. rewrite app_nil_r. reflexivity.
  - cbn [split_ws]. destruct (sp c) eqn:C.
    + exists [], (c :: t). split; [reflexivity|]. split; [constructor|]. split; [right; eauto|]. cbn [split_ws]. rewrite C, app_nil_r. reflexivity.
    + destruct (IH k (c :: p)) as [w [r [E [F [R X]]]]]. exists (c :: w), r. split; [rewrite E; reflexivity|]. split; [constructor; assumption|]. split; [exact R|]. etransitivity; [exact X|]. cbn [rev]. rewrite <- app_assoc. reflexivity.
Qed.
Lemma words_space : forall sp c k t ws, sp c = true -> words sp k t ws -> words sp k (c :: t) ws.
Proof.
  intros sp c k t ws C H. destruct H as [k t E|s c' r S C'|k s p r ws E S P NS R W].
  - apply Wd_nil. constructor; assumption.
  - apply (Wd_rest sp (c :: s)); [constructor; assumption|exact C'].
  - apply (Wd_word sp k (c :: s)); try assumption. constructor; assumption.
Qed.
Lemma split_ws_ok : forall sp n t k, (length t <= n)%nat -> words sp k t (split_ws sp k None t).
Proof.
  intros sp. induction n as [|n IH]; intros t k B.
  - destruct t; [|cbn in B; lia]. apply Wd_nil. constructor.
  - destruct t as [|c t]; [apply Wd_nil; constructor|]. cbn [split_ws]. destruct (sp c) eqn:C; [apply words_space; [exact C|apply IH; cbn in B; lia]|].
    destruct (limit_zero k) eqn:K.
    + destruct k as [[|m]|]; try discriminate. apply (Wd_rest sp []); [constructor|exact C].
    + destruct (split_ws_word sp t k [c]) as [w [r [E [F [R X]]]]]. replace (split_ws sp k (Some [c]) t) with ((c :: w) :: split_ws sp (limit_dec k) None r) by (symmetry; exact X). rewrite E. change (c :: w ++ r) with ([] ++ (c :: w) ++ r). apply Wd_word; [intros ->; discriminate|constructor|discriminate|constructor; assumption|exact R|].
      replace (one_less k) with (limit_dec k) by (destruct k as [m|]; [cbn; f_equal; lia|reflexivity]). apply IH. subst t. cbn in B. rewrite app_length in B. lia.
Qed.

(** ** Calling a builtin of the default set *)
Lemma homogeneous : forall l t, Forall (fun v => from_value v = Ok t) l -> t <> TNull -> canon t -> exists m, from_value (VArr l) = Ok (TArray m true) /\ is_compat m t = true.
Proof.
  intros l t F N K. assert (E : rmapM from_value l = Ok (map (fun _ => t) l)). { apply rmapM_ok_iff. induction F; constructor; auto. }
  cbn [from_value]. rewrite E. cbn [rmap]. eexists. split; [reflexivity|]. destruct l as [|v l]; [reflexivity|].
  assert (A : forall u, In u (map (fun _ => t) (v :: l)) -> u = t) by (intros u I; apply in_map_iff in I as [x [<- _]]; reflexivity).
  rewrite (member_type_same (map (fun _ => t) (v :: l)) t); [apply is_compat_refl| |left; reflexivity|exact N|intros u I _; apply A; exact I]. apply Forall_forall. intros u I. rewrite (A u I). exact K.
Qed.

(** [$name], as the parser types it *)
Definition builtin (name : string) : expr := ESym (s name) true (match assoc (s name) default_types with Some t => t | None => TUndef end).

Section Call.
Context (Orc : Oracle) (C : ctx) (thing : value) (w : world).
Hypothesis HB : c_bvals C = default_values.
Notation yields := (P_Ops.yields C thing w). Notation fails := (P_Ops.fails C thing w). Notation yields_all := (P_Eval.yields_all C thing w).

Lemma builtin_yields : forall name b nm ret ps mn q, assoc (s name) default_values = Some (BVconst (VBFun b)) -> assoc (s name) default_types = Some (TFun nm ret ps mn) -> yields q (builtin name) (VBFun b) q.
Proof.
  intros name b nm ret ps mn q V T. unfold P_Ops.yields, builtin. rewrite T. cbn [eval]. rewrite run_pthen. unfold resolve. rewrite HB, V. cbn [run ok pbind pthen nval]. unfold new_value. cbn [coerce rmap set_tz]. unfold sym_check. cbn [is_undef from_value rbind]. reflexivity.
Qed.

Lemma builtin_run : forall name b nm ret ps mn args vs q q2, assoc (s name) default_values = Some (BVconst (VBFun b)) -> assoc (s name) default_types = Some (TFun nm ret ps mn) ->
  yields_all q args vs q2 -> supported_args vs -> accepts ps mn vs ->
  run w (eval C thing (ECall (builtin name) args)) q = let '(r, q3) := run w (apply_fun C (VBFun b) vs) q2 in (outcome Orc C ret r, q3).
Proof.
  intros name b nm ret ps mn args vs q q2 V T Ha S A. apply (C33_accepted Orc C thing w (builtin name) args nm ret ps mn q (VBFun b) q vs q2); [unfold builtin; rewrite T; reflexivity|eapply builtin_yields; eassumption|reflexivity|exact Ha|exact S|exact A].
Qed.

(** arguments given by position *)
Definition fits (ps : list dtype) (mn : Z) (vs : list value) : Prop :=
  mn <= Z.of_nat (length vs) /\ (length vs <= length ps)%nat /\ forall i v p, nth_error vs i = Some v -> nth_error ps i = Some p -> exists t, from_value v = Ok t /\ is_compat t p = true.
Lemma fits_accepts : forall ps mn vs, fits ps mn vs -> supported_args vs /\ accepts (Some ps) (Some mn) vs.
Proof.
  intros ps mn vs [A [B F]]. split.
  - intros v I. apply In_nth_error in I as [i I]. assert (L : (i < length ps)%nat) by (assert (X := proj1 (nth_error_Some vs i) ltac:(congruence)); lia). destruct (nth_error ps i) as [p|] eqn:P; [|apply nth_error_None in P; lia].
    destruct (F i v p I P) as [t [T _]]. eauto.
  - split; [intros m E; injection E as <-; exact A|]. intros l E. injection E as <-. split; assumption.
Qed.
Ltac args_fit := split; [cbn; lia|split; [cbn; lia|]]; intros [|[|[|i]]] v p Hv Hp; cbn in Hv, Hp; try discriminate; try (destruct i; discriminate);
  injection Hv as <-; injection Hp as <-; eexists; split; reflexivity.
Ltac brun name b V A X := let S1 := fresh in let A1 := fresh in destruct (fits_accepts _ _ _ A) as [S1 A1];
  assert (X := builtin_run name b _ _ _ _ _ _ _ _ eq_refl eq_refl V S1 A1); clear S1 A1; cbn [apply_fun apply_flat apply_first_order run] in X.

(** a list of values of one type that are already engine values is returned as it is *)
Lemma outcome_arr : forall t rs vs, Forall2 (fun r v => coerce true r = Ok v) rs vs -> Forall (fun v => from_value v = Ok t) vs -> t <> TNull -> canon t ->
  outcome Orc C (TArray t true) (Ok (VArr rs)) = Ok (VArr vs) /\ outcome Orc C (TArray t true) (Ok (VList rs)) = Ok (VArr vs).
Proof.
  intros t rs vs F T N K. destruct (homogeneous vs t T N K) as [m [E M]]. apply rmapM_ok_iff in F.
  unfold outcome, new_value. cbn [coerce]. rewrite F. cbn [rbind]. rewrite E. cbn [rmap set_tz rbind]. rewrite E. cbn [rbind is_compat]. rewrite M. split; reflexivity.
Qed.
Lemma outcome_strs : forall ps, outcome Orc C (TArray TString true) (Ok (VArr (map VStr ps))) = Ok (VArr (map VStr ps)).
Proof.
  intro ps. apply (outcome_arr TString); [induction ps; constructor; [reflexivity|assumption]|apply Forall_forall; intros v J; apply in_map_iff in J as [t [<- _]]; reflexivity|discriminate|exact I].
Qed.

(** ** C37: $split *)
Theorem C37_split_sep : forall args q t sep q2, yields_all q args [VStr t; VStr sep] q2 -> sep <> [] ->
  exists ps, yields q (ECall (builtin "split") args) (VArr (map VStr ps)) q2 /\ splits sep None t ps.
Proof.
  intros args q t sep q2 H NE. assert (A : fits [TString; TString; TFloat] 1 [VStr t; VStr sep]) by args_fit. brun "split"%string BFsplit H A X.
  exists (split_sep sep None 0 [] t). split; [|apply split_sep_ok; exact NE]. unfold P_Ops.yields. rewrite X. cbn [b_split rbind]. destruct sep as [|x sep]; [congruence|]. f_equal. apply outcome_strs.
Qed.
(** with a limit: a natural number ... *)
Theorem C37_split_limit : forall args q t sep n k q2, yields_all q args [VStr t; VStr sep; VDec n] q2 -> sep <> [] -> denotes n k -> 0 <= k < float_bound ->
  exists ps, yields q (ECall (builtin "split") args) (VArr (map VStr ps)) q2 /\ splits sep (Some (Z.to_nat k)) t ps.
Proof.
  intros args q t sep n k q2 H NE D B. assert (A : fits [TString; TString; TFloat] 1 [VStr t; VStr sep; VDec n]) by args_fit. brun "split"%string BFsplit H A X.
  exists (split_sep sep (Some (Z.to_nat k)) 0 [] t). split; [|apply split_sep_ok; exact NE]. unfold P_Ops.yields. rewrite X. cbn [b_split].
  rewrite (proj2 (natural_number_iff n)) by (exists k; split; [exact D|exact B]). cbn [rbind]. rewrite (to_int_denotes n k D). destruct sep as [|x sep]; [congruence|]. f_equal. apply outcome_strs.
Qed.
(** ... anything else is refused *)
Theorem C37_split_bad_limit : forall args q t sep n q2, yields_all q args [VStr t; VStr sep; VDec n] q2 -> (~ exists k, denotes n k /\ 0 <= k < float_bound) ->
  fails q (ECall (builtin "split") args) XFunCall q2.
Proof.
  intros args q t sep n q2 H D. assert (A : fits [TString; TString; TFloat] 1 [VStr t; VStr sep; VDec n]) by args_fit. brun "split"%string BFsplit H A X.
  unfold P_Ops.fails. rewrite X. cbn [b_split]. destruct (natural_number_total n) as [[] E]; [apply natural_number_iff in E; contradiction|]. rewrite E. reflexivity.
Qed.
(** an empty separator is refused *)
Theorem C37_split_empty_sep : forall args q t q2, yields_all q args [VStr t; VStr []] q2 -> fails q (ECall (builtin "split") args) XFunCall q2.
Proof. intros args q t q2 H. assert (A : fits [TString; TString; TFloat] 1 [VStr t; VStr []]) by args_fit. brun "split"%string BFsplit H A X. unfold P_Ops.fails. rewrite X. reflexivity. Qed.
(** without a separator: the maximal runs of non-whitespace *)
Theorem C37_split_words : forall args q t q2, yields_all q args [VStr t] q2 ->
  exists ws, yields q (ECall (builtin "split") args) (VArr (map VStr ws)) q2 /\ words o_space None t ws.
Proof.
  intros args q t q2 H. assert (A : fits [TString; TString; TFloat] 1 [VStr t]) by args_fit. brun "split"%string BFsplit H A X.
  exists (split_ws o_space None None t). split; [|apply (split_ws_ok o_space (length t)); lia]. unfold P_Ops.yields. rewrite X. cbn [b_split rbind]. f_equal. apply outcome_strs.
Qed.

(** ** C38: $range *)

(** [x] has not reached [stop] when counting by [step] *)
Definition before (step x stop : Z) : Prop := if step <? 0 then stop < x else x < stop.
(** [l] is start, start + step, ... as long as that is before stop *)
Definition progression (start stop step : Z) (l : list Z) : Prop :=
  exists n, l = map (fun k => start + Z.of_nat k * step) (seq 0 n) /\ forall k, (k < n)%nat <-> before step (start + Z.of_nat k * step) stop.

Lemma range_up_map : forall n a st i, range_up n (a + Z.of_nat i * st) st = map (fun k => a + Z.of_nat k * st) (seq i n).
Proof. induction n as [|n IH]; intros a st i; [reflexivity|]. cbn [range_up seq map]. f_equal. rewrite <- IH. f_equal. lia. Qed.
Lemma py_range_ok : forall a b st, st <> 0 -> progression a b st (py_range a b st).
Proof.
  intros a b st N. exists (Z.to_nat (range_len a b st)). split; [unfold py_range; rewrite <- range_up_map; f_equal; lia|]. intro k. unfold before, range_len.
  destruct (Z.ltb_spec st 0) as [L|L]; destruct (Z.ltb_spec 0 st) as [L'|L']; try lia.
  - destruct (Z.ltb_spec b a) as [G|G]; [|rewrite Z2Nat.inj_0; split; [lia|nia]].
    assert (D := Z.div_mod (a - b - 1) (- st) ltac:(lia)). assert (M := Z.mod_pos_bound (a - b - 1) (- st) ltac:(lia)). assert (P : 0 <= (a - b - 1) / - st) by (apply Z.div_pos; lia). set (d := (a - b - 1) / - st) in *. set (m := (a - b - 1) mod - st) in *. clearbody d m. split; intro X; [assert (Z.of_nat k <= d) by lia; nia|]. apply Nat2Z.inj_lt. rewrite Z2Nat.id by lia. nia.
  - destruct (Z.ltb_spec a b) as [G|G]; [|rewrite Z2Nat.inj_0; split; [lia|nia]].
    assert (D := Z.div_mod (b - a - 1) st ltac:(lia)). assert (M := Z.mod_pos_bound (b - a - 1) st ltac:(lia)). assert (P : 0 <= (b - a - 1) / st) by (apply Z.div_pos; lia). set (d := (b - a - 1) / st) in *. set (m := (b - a - 1) mod st) in *. clearbody d m. split; intro X; [assert (Z.of_nat k <= d) by lia; nia|]. apply Nat2Z.inj_lt. rewrite Z2Nat.id by lia. nia.
Qed.

(** an integer the engine accepts as one: below about 1.8e308 *)
Definition engine_int (d : dec) (z : Z) : Prop := denotes d z /\ Z.abs z < float_bound.
Lemma engine_int_ok : forall d z, engine_int d z -> is_integer_number (VDec d) = Ok true /\ to_int (VDec d) = z /\ truthy (VDec d) = negb (z =? 0).
Proof.
  intros d z [D B]. split; [apply integer_number_iff; exists z; split; assumption|]. split; [apply to_int_denotes; exact D|]. destruct D as [qv [E Q]]. destruct d as [n c e| |]; try discriminate. injection E as <-. cbn [truthy is_zero]. f_equal.
  assert (Z0 : (c =? 0)%N = true <-> z = 0).
  { rewrite N.eqb_eq. assert (P := q10_pos e). split; intro X.
    - subst c. unfold dec_q in Q. rewrite signed_0, q0 in Q. change 0%Q with (inject_Z 0) in Q. apply (proj1 (inject_Z_injective _ _)) in Q. lia.
    - subst z. unfold dec_q in Q. apply Qmult_integral in Q as [Q|Q]; [|rewrite Q in P; discriminate P]. change 0%Q with (inject_Z 0) in Q. apply (proj1 (inject_Z_injective _ _)) in Q. unfold signed in Q. destruct n; lia. }
  destruct (N.eqb_spec c 0) as [X|X], (Z.eqb_spec z 0) as [Y|Y]; try reflexivity; exfalso; [apply Y, Z0; reflexivity|assert (false = true) by (apply Z0; exact Y); discriminate].
Qed.
Definition decs (l : list Z) : value := VArr (map (fun z => VDec (dec_of_Z z)) l).
Lemma outcome_ints : forall l, outcome Orc C (TArray TFloat true) (Ok (VList (map VInt l))) = Ok (decs l).
Proof.
  intro l. unfold decs. apply (outcome_arr TFloat); [induction l; constructor; [reflexivity|assumption]|apply Forall_forall; intros v J; apply in_map_iff in J as [t [<- _]]; reflexivity|discriminate|exact I].
Qed.

Theorem C38_range_stop : forall args q x stop q2, yields_all q args [VDec x] q2 -> engine_int x stop ->
  exists l, yields q (ECall (builtin "range") args) (decs l) q2 /\ progression 0 stop 1 l.
Proof.
  intros args q x stop q2 H I1. assert (A : fits [TFloat; TFloat; TFloat] 1 [VDec x]) by args_fit. brun "range"%string BFrange H A X. destruct (engine_int_ok x stop I1) as [E1 [E2 _]].
  exists (py_range 0 stop 1). split; [|apply py_range_ok; lia]. unfold P_Ops.yields. rewrite X. cbn [b_range]. rewrite E1. cbn [rbind negb]. rewrite E2. f_equal. apply outcome_ints.
Qed.
Theorem C38_range_start_stop_partial : forall args q x y start stop q2, yields_all q args [VDec x; VDec y] q2 -> engine_int x start -> engine_int y stop -> stop <> 0 ->
  exists l, yields q (ECall (builtin "range") args) (decs l) q2 /\ progression start stop 1 l.
Proof.
  intros args q x y start stop q2 H I1 I2 NZ. assert (A : fits [TFloat; TFloat; TFloat] 1 [VDec x; VDec y]) by args_fit. brun "range"%string BFrange H A X. destruct (engine_int_ok x start I1) as [E1 [E2 _]]. destruct (engine_int_ok y stop I2) as [F1 [F2 F3]].
  exists (py_range start stop 1). split; [|apply py_range_ok; lia]. unfold P_Ops.yields. rewrite X. cbn [b_range]. rewrite E1. cbn [rbind negb]. rewrite F3. destruct (Z.eqb_spec stop 0); [contradiction|]. cbn [negb]. rewrite F1. cbn [rbind negb]. rewrite E2, F2. f_equal. apply outcome_ints.
Qed.
Theorem C38_range_step_partial : forall args q x y z start stop step q2, yields_all q args [VDec x; VDec y; VDec z] q2 -> engine_int x start -> engine_int y stop -> engine_int z step -> stop <> 0 -> step <> 0 ->
  exists l, yields q (ECall (builtin "range") args) (decs l) q2 /\ progression start stop step l.
Proof.
  intros args q x y z start stop step q2 H I1 I2 I3 NZ NS. assert (A : fits [TFloat; TFloat; TFloat] 1 [VDec x; VDec y; VDec z]) by args_fit. brun "range"%string BFrange H A X. destruct (engine_int_ok x start I1) as [E1 [E2 _]]. destruct (engine_int_ok y stop I2) as [F1 [F2 F3]]. destruct (engine_int_ok z step I3) as [G1 [G2 G3]].
  exists (py_range start stop step). split; [|apply py_range_ok; lia]. unfold P_Ops.yields. rewrite X. cbn [b_range]. rewrite E1. cbn [rbind negb]. rewrite F3. destruct (Z.eqb_spec stop 0); [contradiction|]. cbn [negb]. rewrite F1. cbn [rbind negb]. rewrite G3. destruct (Z.eqb_spec step 0); [contradiction|]. cbn [negb]. rewrite G1. cbn [rbind negb]. rewrite E2, F2, G2. f_equal. apply outcome_ints.
Qed.
(** what the code does for a zero stop (the start is taken as the stop) and a zero step (taken as 1) *)
Theorem C38_zero_stop : forall args q x y start rest q2, yields_all q args ([VDec x; VDec y] ++ rest) q2 -> engine_int x start -> engine_int y 0 -> (rest = [] \/ exists z, rest = [VDec z]) ->
  exists l, yields q (ECall (builtin "range") args) (decs l) q2 /\ progression 0 start 1 l.
Proof.
  intros args q x y start rest q2 H I1 I2 R. assert (A : fits [TFloat; TFloat; TFloat] 1 ([VDec x; VDec y] ++ rest)) by (destruct R as [->|[z ->]]; args_fit). brun "range"%string BFrange H A X. destruct (engine_int_ok x start I1) as [E1 [E2 _]]. destruct (engine_int_ok y 0 I2) as [_ [_ F3]].
  exists (py_range 0 start 1). split; [|apply py_range_ok; lia]. unfold P_Ops.yields. rewrite X. cbn [app]. destruct R as [->|[z ->]]; cbn [b_range]; rewrite E1; cbn [rbind negb]; rewrite F3; cbn [Z.eqb negb]; rewrite E2; f_equal; apply outcome_ints.
Qed.
Theorem C38_zero_step : forall args q x y z start stop q2, yields_all q args [VDec x; VDec y; VDec z] q2 -> engine_int x start -> engine_int y stop -> engine_int z 0 -> stop <> 0 ->
  exists l, yields q (ECall (builtin "range") args) (decs l) q2 /\ progression start stop 1 l.
Proof.
  intros args q x y z start stop q2 H I1 I2 I3 NZ. assert (A : fits [TFloat; TFloat; TFloat] 1 [VDec x; VDec y; VDec z]) by args_fit. brun "range"%string BFrange H A X. destruct (engine_int_ok x start I1) as [E1 [E2 _]]. destruct (engine_int_ok y stop I2) as [F1 [F2 F3]]. destruct (engine_int_ok z 0 I3) as [_ [_ G3]].
  exists (py_range start stop 1). split; [|apply py_range_ok; lia]. unfold P_Ops.yields. rewrite X. cbn [b_range]. rewrite E1. cbn [rbind negb]. rewrite F3. destruct (Z.eqb_spec stop 0); [contradiction|]. cbn [negb]. rewrite F1. cbn [rbind negb]. rewrite G3. cbn [Z.eqb negb]. rewrite E2, F2. f_equal. apply outcome_ints.
Qed.
(** a non-integer start, stop, or step raises FunctionCallError *)
Definition not_int (d : dec) : Prop := ~ exists z, engine_int d z.
Lemma not_int_ok : forall d, not_int d -> is_integer_number (VDec d) = Ok false /\ truthy (VDec d) = true.
Proof.
  intros d N. split.
  - destruct (integer_number_total d) as [[] E]; [|exact E]. exfalso. apply N. apply integer_number_iff in E. exact E.
  - cbn [truthy]. destruct (is_zero d) eqn:Z; [|reflexivity]. exfalso. apply N. destruct d as [n c e| |]; try discriminate. cbn in Z. apply N.eqb_eq in Z. subst c. exists 0. split; [|unfold float_bound; lia]. exists (dec_q n 0 e). split; [reflexivity|]. unfold dec_q. rewrite signed_0. apply q0.
Qed.
Theorem C38_non_integer : forall args q x y z start stop q2,
  (forall rest, yields_all q args (VDec x :: rest) q2 -> (length rest <= 2)%nat -> (forall v, In v rest -> exists d, v = VDec d) -> not_int x -> fails q (ECall (builtin "range") args) XFunCall q2) /\
  (yields_all q args [VDec x; VDec y] q2 \/ yields_all q args [VDec x; VDec y; VDec z] q2 -> engine_int x start -> not_int y -> fails q (ECall (builtin "range") args) XFunCall q2) /\
  (yields_all q args [VDec x; VDec y; VDec z] q2 -> engine_int x start -> engine_int y stop -> stop <> 0 -> not_int z -> fails q (ECall (builtin "range") args) XFunCall q2).
Proof.
  intros args q x y z start stop q2. split; [|split].
  - intros rest H L R N. destruct (not_int_ok x N) as [E _]. destruct rest as [|v1 [|v2 [|? ?]]]; [| | |cbn in L; lia].
    + assert (A : fits [TFloat; TFloat; TFloat] 1 [VDec x]) by args_fit. brun "range"%string BFrange H A X. unfold P_Ops.fails. rewrite X. cbn [b_range]. rewrite E. reflexivity.
    + destruct (R v1 (or_introl eq_refl)) as [d1 ->]. assert (A : fits [TFloat; TFloat; TFloat] 1 [VDec x; VDec d1]) by args_fit. brun "range"%string BFrange H A X. unfold P_Ops.fails. rewrite X. cbn [b_range]. rewrite E. reflexivity.
    + destruct (R v1 (or_introl eq_refl)) as [d1 ->]. destruct (R v2 (or_intror (or_introl eq_refl))) as [d2 ->]. assert (A : fits [TFloat; TFloat; TFloat] 1 [VDec x; VDec d1; VDec d2]) by args_fit. brun "range"%string BFrange H A X. unfold P_Ops.fails. rewrite X. cbn [b_range]. rewrite E. reflexivity.
  - intros H I1 N. destruct (engine_int_ok x start I1) as [E1 _]. destruct (not_int_ok y N) as [F1 F2]. destruct H as [H|H].
    + assert (A : fits [TFloat; TFloat; TFloat] 1 [VDec x; VDec y]) by args_fit. brun "range"%string BFrange H A X. unfold P_Ops.fails. rewrite X. cbn [b_range]. rewrite E1. cbn [rbind negb]. rewrite F2, F1. reflexivity.
    + assert (A : fits [TFloat; TFloat; TFloat] 1 [VDec x; VDec y; VDec z]) by args_fit. brun "range"%string BFrange H A X. unfold P_Ops.fails. rewrite X. cbn [b_range]. rewrite E1. cbn [rbind negb]. rewrite F2, F1. reflexivity.
  - intros H I1 I2 NZ N. destruct (engine_int_ok x start I1) as [E1 _]. destruct (engine_int_ok y stop I2) as [F1 [_ F3]]. destruct (not_int_ok z N) as [G1 G2]. assert (A : fits [TFloat; TFloat; TFloat] 1 [VDec x; VDec y; VDec z]) by args_fit. brun "range"%string BFrange H A X. unfold P_Ops.fails. rewrite X. cbn [b_range]. rewrite E1. cbn [rbind negb]. rewrite F3. destruct (Z.eqb_spec stop 0); [contradiction|]. cbn [negb]. rewrite F1. cbn [rbind negb]. rewrite G2, G1. reflexivity.
Qed.

(** ** C39: aggregates *)

(** $any and $all: some / every member counts as true (not [falsy], Truth.v) *)
Lemma arr_fits : forall l t, from_value (VArr l) = Ok t -> fits [t_array] 1 [VArr l].
Proof.
  intros l t T. split; [cbn; lia|]. split; [cbn; lia|]. intros [|i] v p Hv Hp; cbn in Hv, Hp; [|destruct i; discriminate]. injection Hv as <-. injection Hp as <-. exists t. split; [exact T|].
  cbn [from_value] in T. destruct (rmapM from_value l); [|discriminate]. injection T as <-. apply is_compat_undef_r.
Qed.
Lemma outcome_bool_b : forall b, outcome Orc C TBool (Ok (VBool b)) = Ok (VBool b).
Proof. reflexivity. Qed.
Theorem C39_any : forall args q l t q2, yields_all q args [VArr l] q2 -> from_value (VArr l) = Ok t ->
  exists b, yields q (ECall (builtin "any") args) (VBool b) q2 /\ (b = true <-> exists x, In x l /\ ~ falsy x).
Proof. intros args q l t q2 H T. assert (A := arr_fits l t T). brun "any"%string BFany H A X. exists (existsb truthy l). split; [exact X|]. rewrite existsb_exists. split; intros [x [I T2]]; exists x; (split; [exact I|apply truthy_true; exact T2]). Qed.
Theorem C39_all : forall args q l t q2, yields_all q args [VArr l] q2 -> from_value (VArr l) = Ok t ->
  exists b, yields q (ECall (builtin "all") args) (VBool b) q2 /\ (b = true <-> forall x, In x l -> ~ falsy x).
Proof. intros args q l t q2 H T. assert (A := arr_fits l t T). brun "all"%string BFall H A X. exists (forallb truthy l). split; [exact X|]. rewrite forallb_forall. split; intros T2 x I; apply truthy_true, T2, I. Qed.

Lemma decs_fit : forall ds, fits [TArray TFloat true] 1 [VArr (map VDec ds)].
Proof.
  intro ds. destruct (homogeneous (map VDec ds) TFloat) as [m [E K]]; [apply Forall_forall; intros v J; apply in_map_iff in J as [d [<- _]]; reflexivity|discriminate|exact I|].
  split; [cbn; lia|]. split; [cbn; lia|]. intros [|i] v p Hv Hp; cbn in Hv, Hp; [|destruct i; discriminate]. injection Hv as <-. injection Hp as <-. eexists. split; [exact E|]. exact K.
Qed.

(** $max and $min of numbers return a member that no member exceeds / undercuts *)
Definition exceeds (a b : dec) : Prop := dcmp a b = Some Gt.
Lemma dcmp_total : forall a b, a <> DNaN -> b <> DNaN -> exists c, dcmp a b = Some c.
Proof. intros [n c e|n|] [n' c' e'|n'|] A B; try congruence; unfold dcmp; cbn; eauto. Qed.
Lemma extremum_ok : forall (o : cop) g, g <> Eq -> (forall c, cop_of o c = true <-> c = g) -> forall ds best, (forall d, In d (best :: ds) -> d <> DNaN) ->
  exists m, extremum o (VDec best) (map VDec ds) = Ok (VDec m) /\ In m (best :: ds) /\ forall d, In d (best :: ds) -> dcmp d m <> Some g.
Proof.
  intros o g NE HG. induction ds as [|d ds IH]; intros best N.
  - exists best. split; [reflexivity|]. split; [left; reflexivity|]. intros d [<-|[]]. unfold dcmp. rewrite xcmp_refl by (destruct best; cbn; try discriminate; exfalso; apply (N DNaN); [left; reflexivity|reflexivity]). intro X. injection X as X. apply NE. symmetry. exact X.
  - cbn [map extremum]. destruct (dcmp_total d best (N d (or_intror (or_introl eq_refl))) (N best (or_introl eq_refl))) as [c X]. cbn [py_ord num_x]. assert (X' := X). unfold dcmp in X'. rewrite X'. cbn [rbind]. destruct (cop_of o c) eqn:CO.
    + apply HG in CO. subst c. destruct (IH d) as [m [A [B D]]]; [intros x J; apply N; destruct J as [<-|J]; [right; left; reflexivity|right; right; exact J]|]. exists m. split; [exact A|]. split; [destruct B as [<-|B]; [right; left; reflexivity|right; right; exact B]|].
      intros x [<-|J]; [|apply D; exact J]. assert (Dd := D d (or_introl eq_refl)). assert (MN : m <> DNaN) by (apply N; destruct B as [<-|B]; [right; left; reflexivity|right; right; exact B]).
      destruct (dcmp_total d m (N d (or_intror (or_introl eq_refl))) MN) as [c2 Y]. assert (Z : dcmp best d = Some (CompOpp g)) by (unfold dcmp in *; rewrite xcmp_antisym, X'; reflexivity).
      unfold dcmp in *. assert (CH : chain (CompOpp g) c2 = Some (CompOpp g)) by (destruct g, c2; try reflexivity; congruence). rewrite (xcmp_chain _ _ _ _ _ _ Z Y CH). clear - NE; intro W; injection W as W; destruct g; cbn in W; (discriminate W || (apply NE; reflexivity)).
    + destruct (IH best) as [m [A [B D]]]; [intros x J; apply N; destruct J as [<-|J]; [left; reflexivity|right; right; exact J]|]. exists m. split; [exact A|]. split; [destruct B as [<-|B]; [left; reflexivity|right; right; exact B]|].
      intros x [<-|[<-|J]]; [apply D; left; reflexivity| |apply D; right; exact J]. assert (Db := D best (or_introl eq_refl)). assert (MN : m <> DNaN) by (apply N; destruct B as [<-|B]; [left; reflexivity|right; right; exact B]).
      destruct (dcmp_total best m (N best (or_introl eq_refl)) MN) as [c2 Y]. assert (CN : c <> g) by (intro E; apply HG in E; congruence).
      unfold dcmp in *. assert (CH : exists r, chain c c2 = Some r /\ r <> g) by (destruct g, c, c2; cbn; try congruence; (eexists; split; [reflexivity|congruence])). destruct CH as [r [CH RN]]. rewrite (xcmp_chain _ _ _ _ _ _ X Y CH). intro W. injection W as W. contradiction.
Qed.
Theorem C39_max : forall args q ds q2, yields_all q args [VArr (map VDec ds)] q2 -> ds <> [] -> ~ In DNaN ds ->
  exists m, yields q (ECall (builtin "max") args) (VDec m) q2 /\ In m ds /\ forall d, In d ds -> ~ exceeds d m.
Proof.
  intros args q ds q2 H NE NN. assert (A := decs_fit ds). brun "max"%string BFmax H A X. destruct ds as [|d ds]; [congruence|].
  destruct (extremum_ok Cgt Gt) with (ds := ds) (best := d) as [m [E [J B]]]; [discriminate|intros []; cbn; split; congruence|intros x J ->; contradiction|].
  exists m. split; [|split; assumption]. unfold P_Ops.yields. rewrite X. cbn [map py_iter rbind]. rewrite E. reflexivity.
Qed.
Theorem C39_min : forall args q ds q2, yields_all q args [VArr (map VDec ds)] q2 -> ds <> [] -> ~ In DNaN ds ->
  exists m, yields q (ECall (builtin "min") args) (VDec m) q2 /\ In m ds /\ forall d, In d ds -> ~ exceeds m d.
Proof.
  intros args q ds q2 H NE NN. assert (A := decs_fit ds). brun "min"%string BFmin H A X. destruct ds as [|d ds]; [congruence|].
  destruct (extremum_ok Clt Lt) with (ds := ds) (best := d) as [m [E [J B]]]; [discriminate|intros []; cbn; split; congruence|intros x J ->; contradiction|].
  exists m. split; [|split; [exact J|]].
  - unfold P_Ops.yields. rewrite X. cbn [map py_iter rbind]. rewrite E. reflexivity.
  - intros x I1 G. apply (B x I1). unfold exceeds, dcmp in *. rewrite xcmp_antisym, G. reflexivity.
Qed.
Theorem C39_extremum_empty : forall args q q2, yields_all q args [VArr []] q2 ->
  fails q (ECall (builtin "max") args) XFunCall q2 /\ fails q (ECall (builtin "min") args) XFunCall q2.
Proof.
  intros args q q2 H. assert (A := decs_fit []). split; unfold P_Ops.fails; [brun "max"%string BFmax H A X|brun "min"%string BFmin H A X]; exact X.
Qed.

(** $sum adds from left to right, starting at 0, rounding after every addition *)
Inductive sums (dc : dctx) : Q -> list Q -> Q -> Prop :=
| Su_nil : forall a, sums dc a [] a
| Su_cons : forall a x a' l r, correctly_rounded dc (a + x) a' -> sums dc a' l r -> sums dc a (x :: l) r.
Fixpoint total (l : list Q) : Q := match l with [] => 0%Q | x :: r => (x + total r)%Q end.

Lemma sum_step : forall dc acc d a x, dctx_ok dc -> (acc = VInt 0 /\ (a == 0)%Q \/ exists z, acc = VDec z /\ number z a) -> number d x ->
  (exists z s, sum_add dc acc (VDec d) = Ok (VDec z) /\ number z s /\ correctly_rounded dc (a + x) s) \/
  (exists e, sum_add dc acc (VDec d) = Err e /\ (largest dc < Qabs (a + x))%Q).
Proof.
  intros dc acc d a x K HA D.
  assert (HZ : exists z, sum_add dc acc (VDec d) = rdec (dadd dc z d) /\ number z a).
  { destruct HA as [[-> Z]|[z [-> Z]]]; [exists (dec_of_Z 0)|exists z]; (split; [reflexivity|]); [|exact Z]. exists false, 0%N, 0. split; [reflexivity|]. rewrite Z. reflexivity. }
  destruct HZ as [z [E Z]]. rewrite E. destruct (dadd_fix dc z d a x Z D) as [n [c [e [F Q]]]]. rewrite F. assert (X := dfix_number dc n c e (a + x) K Q). destruct (dfix dc n c e) as [r|y].
  - left. destruct X as [s0 [N R]]. exists r, s0. auto.
  - right. exists y. destruct X as [_ L]. auto.
Qed.
Lemma sum_ok : forall dc, dctx_ok dc -> forall ds xs acc a, Forall2 number ds xs -> (acc = VInt 0 /\ (a == 0)%Q \/ exists z, acc = VDec z /\ number z a) ->
  (exists v r, sum_list dc acc (map VDec ds) = Ok v /\ sums dc a xs r /\ (v = VInt 0 /\ (r == 0)%Q \/ exists z, v = VDec z /\ number z r)) \/
  (exists e l1 x l2 b, sum_list dc acc (map VDec ds) = Err e /\ xs = l1 ++ x :: l2 /\ sums dc a l1 b /\ (largest dc < Qabs (b + x))%Q).
Proof.
  intros dc K ds xs acc a F. revert acc a. induction F as [|d x ds xs D F IH]; intros acc a HA.
  - left. exists acc, a. split; [reflexivity|]. split; [constructor|exact HA].
  - cbn [map sum_list]. destruct (sum_step dc acc d a x K HA D) as [[z [s0 [E [N R]]]]|[e [E L]]]; rewrite E; cbn [rbind].
    + destruct (IH (VDec z) s0) as [[v [r [E2 [S2 V]]]]|[e [l1 [y [l2 [b [E2 [X [S2 L]]]]]]]]]; [right; exists z; auto| |].
      * left. exists v, r. split; [exact E2|]. split; [econstructor; eassumption|exact V].
      * right. exists e, (x :: l1), y, l2, b. split; [exact E2|]. split; [rewrite X; reflexivity|]. split; [econstructor; eassumption|exact L].
    + right. exists e, [], x, xs, a. split; [reflexivity|]. split; [reflexivity|]. split; [constructor|exact L].
Qed.
Theorem C39_sum : forall args q ds xs q2, yields_all q args [VArr (map VDec ds)] q2 -> Forall2 number ds xs -> dctx_ok (s_dc q2) ->
  (exists z r, yields q (ECall (builtin "sum") args) (VDec z) q2 /\ number z r /\ sums (s_dc q2) 0 xs r) \/
  (fails q (ECall (builtin "sum") args) XFunCall q2 /\ exists l1 x l2 b, xs = l1 ++ x :: l2 /\ sums (s_dc q2) 0 l1 b /\ (largest (s_dc q2) < Qabs (b + x))%Q).
Proof.
  intros args q ds xs q2 H F K. assert (A := decs_fit ds). brun "sum"%string BFsum H A X. rewrite run_pbind in X. cbn [run act step_op py_iter rbind] in X.
  destruct (sum_ok (s_dc q2) K ds xs (VInt 0) 0%Q F) as [[v [r [E [S1 V]]]]|[e [l1 [x [l2 [b [E [Y [S1 L]]]]]]]]]; [left; split; reflexivity| |].
  - left. unfold P_Ops.yields. rewrite X, E. destruct V as [[-> Z]|[z [-> Z]]].
    + exists (dec_of_Z 0), r. split; [reflexivity|]. split; [|exact S1]. exists false, 0%N, 0. split; [reflexivity|]. rewrite Z. reflexivity.
    + exists z, r. split; [reflexivity|]. split; assumption.
  - right. unfold P_Ops.fails. rewrite X, E. split; [reflexivity|]. exists l1, x, l2, b. auto.
Qed.
(** if no partial sum needs rounding the result is the exact sum *)
Theorem C39_sum_exact : forall dc xs r, sums dc 0 xs r -> (forall l1 l2, xs = l1 ++ l2 -> representable dc (total l1)) -> (r == total xs)%Q.
Proof.
  intros dc xs r H R.
  assert (G : forall a l r, sums dc a l r -> forall p, (a == total p)%Q -> (forall l1 l2, l = l1 ++ l2 -> representable dc (total (p ++ l1))) -> (r == total (p ++ l))%Q).
  { clear. intros a l r H. induction H as [a|a x a' l r C S IH]; intros p E R; [rewrite app_nil_r; exact E|].
    assert (T : forall l1 l2, (total (l1 ++ l2) == total l1 + total l2)%Q) by (induction l1 as [|y l1 IHl]; intro l2; cbn; [ring|rewrite IHl; ring]).
    assert (E2 : (a' == total (p ++ [x]))%Q). { rewrite T. cbn [total]. rewrite <- E. setoid_replace (a + (x + 0))%Q with (a + x)%Q by ring. apply (rounded_exact dc (a + x) a' C). assert (Y := R [x] l eq_refl). destruct Y as [n [c [e [Y B]]]]. exists n, c, e. split; [|exact B]. rewrite <- Y, T. cbn [total]. rewrite E. ring. }
    replace (p ++ x :: l) with ((p ++ [x]) ++ l) by (rewrite <- app_assoc; reflexivity). apply IH; [exact E2|]. intros l1 l2 ->. rewrite <- app_assoc. apply (R (x :: l1) l2). reflexivity. }
  apply (G 0%Q xs r H []); [reflexivity|]. intros l1 l2 E. apply (R l1 l2 E).
Qed.

(** $map and $filter: one call per member, in order *)
Inductive called (g : value) : st -> list value -> list value -> st -> Prop :=
| Ca_nil : forall q, called g q [] [] q
| Ca_cons : forall q x r q1 l rs q2, run w (apply_fun C g [x]) q = (Ok r, q1) -> called g q1 l rs q2 -> called g q (x :: l) (r :: rs) q2.

Lemma apply_single : forall g x, apply_fun C g [x] = apply_flat C g [x].
Proof. intros [] x; try reflexivity. destruct f; reflexivity. Qed.
Lemma called_map : forall g q l rs q2, called g q l rs q2 -> run w (pmapM (fun x => apply_flat C g [x]) l) q = (Ok rs, q2).
Proof. intros g q l rs q2 H. induction H as [|q x r q1 l rs q2 E H IH]; [reflexivity|]. cbn [pmapM]. rewrite apply_single in E. rewrite run_pbind, E, run_pbind, IH. reflexivity. Qed.

Definition is_fun (v : value) : Prop := callable v = true.
Lemma hof_fits : forall g l t, is_fun g -> from_value (VArr l) = Ok t -> fits [t_function; t_array] 2 [g; VArr l].
Proof.
  intros g l t G T. split; [cbn; lia|]. split; [cbn; lia|]. intros [|[|i]] v p Hv Hp; cbn in Hv, Hp; [| |destruct i; discriminate]; injection Hv as <-; injection Hp as <-.
  - exists t_function. split; [destruct g; try discriminate; reflexivity|reflexivity].
  - exists t. split; [exact T|]. cbn [from_value] in T. destruct (rmapM from_value l); [|discriminate]. injection T as <-. apply is_compat_undef_r.
Qed.
Lemma outcome_any_arr : forall rs vs t, Forall2 (fun r v => coerce true r = Ok v) rs vs -> from_value (VArr vs) = Ok t -> outcome Orc C t_array (Ok (VArr rs)) = Ok (VArr vs).
Proof.
  intros rs vs t F T. apply rmapM_ok_iff in F. unfold outcome, new_value. cbn [coerce]. rewrite F. cbn [rbind]. rewrite T. cbn [rmap set_tz rbind]. rewrite T. cbn [rbind].
  cbn [from_value] in T. destruct (rmapM from_value vs); [|discriminate]. injection T as <-. cbn [t_array is_compat]. rewrite is_compat_undef_r. reflexivity.
Qed.
Theorem C39_map : forall args q g l t q2 rs q3 vs t', yields_all q args [g; VArr l] q2 -> is_fun g -> from_value (VArr l) = Ok t ->
  called g q2 l rs q3 -> Forall2 (fun r v => coerce true r = Ok v) rs vs -> from_value (VArr vs) = Ok t' ->
  yields q (ECall (builtin "map") args) (VArr vs) q3.
Proof.
  intros args q g l t q2 rs q3 vs t' H G T CA F T'. assert (A := hof_fits g l t G T). brun "map"%string BFmap H A X. cbn [py_iter] in X. rewrite run_pbind in X. cbn [run] in X. rewrite run_pbind, (called_map g q2 l rs q3 CA) in X. cbn [run ok] in X.
  unfold P_Ops.yields. rewrite X. f_equal. apply (outcome_any_arr rs vs t' F T').
Qed.

(** the members whose call answered something truthy, in order *)
Fixpoint kept (l rs : list value) : list value := match l, rs with x :: l', r :: rs' => if truthy r then x :: kept l' rs' else kept l' rs' | _, _ => [] end.
Theorem C39_filter : forall args q g l t q2 rs q3, yields_all q args [g; VArr l] q2 -> is_fun g -> from_value (VArr l) = Ok t -> Forall (fun x => coerce true x = Ok x) l ->
  called g q2 l rs q3 -> yields q (ECall (builtin "filter") args) (VArr (kept l rs)) q3.
Proof.
  intros args q g l t q2 rs q3 H G T N CA. assert (A := hof_fits g l t G T). brun "filter"%string BFfilter H A X. cbn [py_iter] in X. rewrite run_pbind in X. cbn [run] in X.
  assert (E : run w (pmapM (fun x => do! b := (match g with VNull => ok x | _ => apply_flat C g [x] end) in ok (truthy b, x)) l) q2 = (Ok (combine (map truthy rs) l), q3)).
  { clear - CA G. induction CA as [|q x r q1 l rs q2 E H IH]; [reflexivity|]. cbn [pmapM]. rewrite apply_single in E. rewrite run_pbind.
    assert (E2 : run w (do! b := (match g with VNull => ok x | _ => apply_flat C g [x] end) in ok (truthy b, x)) q = (Ok (truthy r, x), q1)) by (rewrite run_pbind; destruct g; try discriminate G; rewrite E; reflexivity).
    rewrite E2, run_pbind, IH. reflexivity. }
  rewrite run_pbind, E in X. cbn [run ok] in X. unfold P_Ops.yields. rewrite X. f_equal.
  assert (K : map snd (filter fst (combine (map truthy rs) l)) = kept l rs). { clear - CA. induction CA as [|q x r q1 l rs q2 E H IH]; [reflexivity|]. cbn. destruct (truthy r); cbn; rewrite IH; reflexivity. }
  rewrite K. assert (SUB : forall x, In x (kept l rs) -> In x l). { clear. revert rs. induction l as [|y l IH]; intros [|r rs] x J; try contradiction. cbn in J. destruct (truthy r); [destruct J as [<-|J]; [left; reflexivity|]|]; right; eapply IH; exact J. }
  rewrite Forall_forall in N. assert (T' : exists t', from_value (VArr (kept l rs)) = Ok t').
  { cbn [from_value] in T |- *. destruct (rmapM from_value l) as [ts|] eqn:R; [|discriminate]. apply rmapM_ok_iff in R. assert (Z : forall k, (forall x, In x k -> In x l) -> exists us, rmapM from_value k = Ok us).
    { induction k as [|x k IH]; intro S; [exists []; reflexivity|]. destruct (IH (fun y J => S y (or_intror J))) as [us U]. destruct (Forall2_In_l _ _ _ _ _ _ R (S x (or_introl eq_refl))) as [u [_ Hu]]. exists (u :: us). cbn [rmapM]. rewrite Hu. cbn [rbind]. rewrite U. reflexivity. }
    destruct (Z _ SUB) as [us U]. rewrite U. eexists. reflexivity. }
  destruct T' as [t' T']. apply (outcome_any_arr _ _ t'); [|exact T']. assert (Z : forall k, (forall x, In x k -> In x l) -> Forall2 (fun r v => coerce true r = Ok v) k k) by (induction k as [|x k IH]; intro S; constructor; [apply N; apply S; left; reflexivity|apply IH; intros y J; apply S; right; exact J]). apply Z. exact SUB.
Qed.

(** the first call that raises ends both, as FunctionCallError, with no further call *)
Theorem C39_call_error : forall args q g l1 x l2 t q2 rs q3 e q4, yields_all q args [g; VArr (l1 ++ x :: l2)] q2 -> is_fun g -> from_value (VArr (l1 ++ x :: l2)) = Ok t ->
  called g q2 l1 rs q3 -> run w (apply_fun C g [x]) q3 = (Err e, q4) ->
  fails q (ECall (builtin "map") args) XFunCall q4 /\ fails q (ECall (builtin "filter") args) XFunCall q4.
Proof.
  intros args q g l1 x l2 t q2 rs q3 e q4 H G T CA E. assert (A := hof_fits g _ t G T). rewrite apply_single in E. split; unfold P_Ops.fails.
  - brun "map"%string BFmap H A X. cbn [py_iter] in X. rewrite run_pbind in X. cbn [run] in X.
    assert (M : run w (pmapM (fun x => apply_flat C g [x]) (l1 ++ x :: l2)) q2 = (Err e, q4)). { clear - CA E. induction CA as [|q y r q1 l rs q2 F H IH]; [cbn [app pmapM]; rewrite run_pbind, E; reflexivity|]. cbn [app pmapM]. rewrite apply_single in F. rewrite run_pbind, F, run_pbind, (IH E). reflexivity. }
    rewrite run_pbind, M in X. exact X.
  - brun "filter"%string BFfilter H A X. cbn [py_iter] in X. rewrite run_pbind in X. cbn [run] in X.
    assert (M : run w (pmapM (fun x => do! b := (match g with VNull => ok x | _ => apply_flat C g [x] end) in ok (truthy b, x)) (l1 ++ x :: l2)) q2 = (Err e, q4)).
    { clear - CA E G. induction CA as [|q y r q1 l rs q2 F H IH].
      - cbn [app pmapM]. rewrite run_pbind. assert (E2 : run w (do! b := (match g with VNull => ok x | _ => apply_flat C g [x] end) in ok (truthy b, x)) q = (Err e, q4)) by (rewrite run_pbind; destruct g; try discriminate G; rewrite E; reflexivity). rewrite E2. reflexivity.
      - cbn [app pmapM]. rewrite apply_single in F. rewrite run_pbind. assert (E2 : run w (do! b := (match g with VNull => ok y | _ => apply_flat C g [y] end) in ok (truthy b, y)) q = (Ok (truthy r, y), q1)) by (rewrite run_pbind; destruct g; try discriminate G; rewrite F; reflexivity). rewrite E2, run_pbind, (IH E). reflexivity. }
    rewrite run_pbind, M in X. exact X.
Qed.
(** for a Python function each of these calls is one entry of the event log, in member order *)
Theorem C39_calls_logged : forall n q l rs q2, called (VFun n) q l rs q2 ->
  s_log q2 = rev (map (fun xr => EvUser n [fst xr] (Ok (snd xr))) (combine l rs)) ++ s_log q.
Proof.
  intros n q l rs q2 H. induction H as [|q x r q1 l rs q2 E H IH]; [reflexivity|]. rewrite IH. cbn [combine map rev]. rewrite <- app_assoc. f_equal. cbn in E. injection E as E1 <-. cbn. rewrite E1. reflexivity.
Qed.
End Call.

(** The claim about $range fails for a zero stop or step: $range(3, 0, -1) is not 3, 2, 1 and $range(1, 3, 0) does not raise. *)
Theorem C38_zero_refuted : exists l,
  yields untyped_ctx VNull demo_world demo_st (ECall (builtin "range") [ELit (num 3); ELit (num 0); ELit (num (-1))]) (decs l) demo_st /\ ~ progression 3 0 (-1) l /\
  yields untyped_ctx VNull demo_world demo_st (ECall (builtin "range") [ELit (num 1); ELit (num 3); ELit (num 0)]) (decs [1; 2]) demo_st.
Proof.
  exists [0; 1; 2]. split; [vm_compute; reflexivity|]. split; [|vm_compute; reflexivity]. intros [n [E H]]. destruct n as [|n]; [discriminate|]. cbn in E. injection E as E _. discriminate.
Qed.

Example C37_example : splits (s ",") (Some 1%nat) (s "a,b,c") [s "a"; s "b,c"] /\ splits (s "aa") None (s "aaab") [s ""; s "ab"].
Proof.
  split; [exact (split_sep_ok (s ",") (Some 1%nat) (s "a,b,c") ltac:(discriminate))|exact (split_sep_ok (s "aa") None (s "aaab") ltac:(discriminate))].
Qed.
Example C38_example : progression 1 8 3 [1; 4; 7] /\ engine_int (dec_of_Z 8) 8 /\ not_int (DFin false 15 (-1)).
Proof.
  split; [exact (py_range_ok 1 8 3 ltac:(lia))|]. split; [split; [apply denotes_of_Z|unfold float_bound; lia]|]. intros [z H]. apply engine_int_ok in H as [H _]. vm_compute in H. discriminate.
Qed.
Example C39_example : yields untyped_ctx VNull demo_world demo_st (ECall (builtin "sum") [EArr [ELit (num 1); ELit (num 2)]]) (num 3) demo_st
  /\ exists q', yields untyped_ctx VNull demo_world demo_st (ECall (builtin "filter") [ELit (VFun 0%N); EArr [ELit (num 0); ELit (num 2)]]) (VArr [num 2]) q'.
Proof. split; [vm_compute; reflexivity|]. eexists. vm_compute. reflexivity. Qed.
