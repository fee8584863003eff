(** * Theorems about attributes of values: sequences, datetimes, numbers, hex (C36, C53, C54, C57) *)
From Coq Require Import QArith Qabs Permutation Lia String.
From Verif Require Import Base Dec Value DType DTypeFacts Types Ops EqFacts CoerceFacts TypesFacts DecFacts Flt FltFacts ParseUtil Attr Prog Ast Eval Build Engine
  ProgFacts StateFacts Post Refine Demo Codec CodecFacts P_Compare P_Ops P_Eval P_Names P_Calls.
Open Scope list_scope.
Open Scope Z_scope.

Section Attrs.
Context (Orc : Oracle) (C : ctx) (thing : value) (w : world).
Notation yields := (yields C thing w). Notation fails := (fails C thing w). Notation yields_all := (yields_all C thing w).

Lemma attr_ok : forall o name safe q v q1 u u', yields q o v q1 -> is_null v = false -> resolve_attr v name = Ok u -> new_value (c_tz C) false u = Ok u' ->
  yields q (EAttr o name safe) u' q1.
Proof. unfold P_Ops.yields. intros o name safe q v q1 u u' H N R V. cbn [eval]. rewrite run_pbind, H, N. cbn [andb]. rewrite R. unfold nval. cbn [run]. rewrite V. reflexivity. Qed.

(** the call [f(a)] is let through: untyped, or typed with agreeing arguments *)
Definition passes (f : expr) (vs : list value) : Prop :=
  rtype f = TUndef \/ exists nm ret ps mn, rtype f = TFun nm ret ps mn /\ supported_args vs /\ accepts ps mn vs.
Definition returns (f : expr) : dtype := match rtype f with TFun _ r _ _ => r | _ => TUndef end.

Lemma call_run : forall f args q fv q1 vs q2, passes f vs -> yields q f fv q1 -> callable fv = true -> yields_all q1 args vs q2 ->
  run w (eval C thing (ECall f args)) q = let '(r, q3) := run w (apply_fun C fv vs) q2 in (outcome Orc C (returns f) r, q3).
Proof.
  intros f args q fv q1 vs q2 P Hf Cf Ha. destruct P as [U|[nm [ret [ps [mn [Tf [S A]]]]]]].
  - unfold P_Ops.yields in Hf. cbn [eval rtype]. rewrite run_pbind, Hf, Cf, run_pbind, (yields_all_run _ _ _ _ _ _ _ _ Ha). unfold returns. rewrite U. cbn [is_undef]. rewrite run_pbind. cbn [run].
    rewrite run_pbind, run_pthen. destruct (run w (apply_fun C fv vs) q2) as [[v|x] q3]; cbn [outcome]; [|reflexivity]. cbn [run ok]. rewrite run_pbind. unfold nval. cbn [run].
    destruct (new_value (c_tz C) true v) as [v'|x]; [|reflexivity]. rewrite run_pbind. cbn [run rbind]. destruct (from_value v') as [t|x]; [|reflexivity]. cbn [rbind].
    destruct (is_compat t TUndef); reflexivity.
  - unfold returns. rewrite Tf. apply (C33_accepted Orc C thing w f args nm ret ps mn q fv q1 vs q2); assumption.
Qed.

(** ** C36: starts_with, ends_with, length, is_empty *)

(** sequences and their elements; [eqv] is the equality the engine uses on the elements *)
Inductive seq_of : value -> list value -> Prop :=
| Sq_str : forall t, seq_of (VStr t) (map (fun c => VStr [c]) t)
| Sq_bytes : forall b, seq_of (VBytes b) (map (fun c => VInt (Z.of_N c)) b)
| Sq_arr : forall l, seq_of (VArr l) l.

Definition same_kind (a b : value) : Prop := match a, b with VStr _, VStr _ | VBytes _, VBytes _ | VArr _, VArr _ => True | _, _ => False end.
Definition agree (l l' : list value) : Prop := Forall2 (fun x y => py_eq x y = true) l l'.

Lemma seq_len : forall v l, seq_of v l -> py_len v = Ok (Z.of_nat (length l)).
Proof. intros v l H. inversion H; subst; cbn; rewrite ?map_length; reflexivity. Qed.

Lemma slice_first : forall A (l : list A) n, 0 <= n -> seq_slice l None (Some n) = firstn (Z.to_nat n) l.
Proof.
  intros A l n H. unfold seq_slice, clamp_index. destruct (Z.ltb_spec n 0); [lia|]. cbn [skipn Z.to_nat]. replace (Z.min n (Z.of_nat (length l)) - 0) with (Z.min n (Z.of_nat (length l))) by lia.
  destruct (Z.le_ge_cases n (Z.of_nat (length l))); [rewrite Z.min_l by lia; reflexivity|]. rewrite Z.min_r by lia. rewrite Nat2Z.id, firstn_all, firstn_all2; [reflexivity|lia].
Qed.
Lemma slice_last : forall A (l : list A) n, 0 < n -> seq_slice l (Some (- n)) None = skipn (length l - Z.to_nat n) l.
Proof.
  intros A l n H. unfold seq_slice, clamp_index. destruct (Z.ltb_spec (- n) 0); [|lia].
  replace (Z.to_nat (Z.max 0 (Z.of_nat (length l) + - n))) with (length l - Z.to_nat n)%nat by lia. apply firstn_all2. rewrite skipn_length. lia.
Qed.

Lemma py_eq_arr : forall a b, py_eq (VArr a) (VArr b) = true <-> agree a b.
Proof.
  unfold agree. cbn. induction a as [|x a IH]; intros [|y b]; split; intro H; try discriminate; try constructor; try (inversion H; fail); try reflexivity.
  - apply andb_true_iff in H as [H _]. exact H.
  - apply andb_true_iff in H as [_ H]. apply IH. exact H.
  - inversion H; subst. apply andb_true_iff. split; [assumption|apply IH; assumption].
Qed.
Lemma agree_str : forall a b, agree (map (fun c => VStr [c]) a) (map (fun c => VStr [c]) b) <-> a = b.
Proof.
  unfold agree. induction a as [|x a IH]; intros [|y b]; cbn; split; intro H; try discriminate; try (inversion H; fail); try constructor.
  - inversion H; subst. f_equal; [|apply IH; assumption]. cbn in H3. destruct (N.eqb x y) eqn:E; [apply N.eqb_eq; exact E|discriminate].
  - inversion H; subst. cbn. rewrite N.eqb_refl. reflexivity.
  - inversion H; subst. apply IH. reflexivity.
Qed.
Lemma agree_bytes : forall a b, agree (map (fun c => VInt (Z.of_N c)) a) (map (fun c => VInt (Z.of_N c)) b) <-> a = b.
Proof.
  unfold agree. induction a as [|x a IH]; intros [|y b]; cbn; split; intro H; try discriminate; try (inversion H; fail); try constructor.
  - inversion H; subst. f_equal; [|apply IH; assumption]. cbn in H3. unfold Qcompare in H3. cbn in H3. rewrite !Z.mul_1_r in H3. destruct (Z.compare_spec (Z.of_N x) (Z.of_N y)); try discriminate. lia.
  - inversion H; subst. cbn. unfold Qcompare. cbn. rewrite Z.compare_refl. reflexivity.
  - inversion H; subst. apply IH. reflexivity.
Qed.

(** [self[i:j] == arg] in terms of the elements *)
Lemma slice_eq : forall v l u m i j, seq_of v l -> seq_of u m -> same_kind v u ->
  exists x, py_getslice v i j = Ok x /\ (py_eq x u = true <-> agree (seq_slice l i j) m).
Proof.
  assert (SM : forall A B (f : A -> B) l i j, seq_slice (map f l) i j = map f (seq_slice l i j)).
  { intros. unfold seq_slice. rewrite map_length, skipn_map, firstn_map. reflexivity. }
  intros v l u m i j Hv Hu K. inversion Hv; subst; inversion Hu; subst; try contradiction; eexists; (split; [reflexivity|]).
  - rewrite SM, agree_str. cbn. apply str_eqb_eq.
  - rewrite SM, agree_bytes. cbn. apply str_eqb_eq.
  - apply py_eq_arr.
Qed.

Lemma agree_app : forall l1 l2 m, agree l1 m -> exists l', l1 ++ l2 = l' ++ l2 /\ agree l' m.
Proof. eauto. Qed.
Lemma agree_length : forall l m, agree l m -> length l = length m.
Proof. intros l m H. unfold agree in H. induction H; cbn; congruence. Qed.

Lemma starts_iff : forall l m, agree (firstn (length m) l) m <-> exists p r, l = p ++ r /\ agree p m.
Proof.
  intros l m. split.
  - intro H. exists (firstn (length m) l), (skipn (length m) l). rewrite firstn_skipn. auto.
  - intros [p [r [-> H]]]. rewrite <- (agree_length _ _ H), firstn_app, Nat.sub_diag, firstn_O, app_nil_r, firstn_all. exact H.
Qed.
Lemma ends_iff : forall l m, m <> [] -> (agree (skipn (length l - length m) l) m <-> exists r p, l = r ++ p /\ agree p m).
Proof.
  intros l m N. split.
  - intro H. exists (firstn (length l - length m) l), (skipn (length l - length m) l). rewrite firstn_skipn. auto.
  - intros [r [p [-> H]]]. rewrite <- (agree_length _ _ H), app_length. replace (length r + length p - length p)%nat with (length r) by lia.
    rewrite skipn_app, Nat.sub_diag, skipn_all. exact H.
Qed.

Lemma outcome_bool : forall ret b, is_compat TBool ret = true -> outcome Orc C ret (Ok (VBool b)) = Ok (VBool b).
Proof. intros ret b H. unfold outcome. cbn [new_value coerce from_value rmap set_tz rbind]. unfold new_value. cbn [coerce from_value rmap set_tz rbind]. rewrite H. reflexivity. Qed.

(** what the attributes of a sequence are *)
Lemma seq_attr : forall v l t, seq_of v l -> from_value v = Ok t ->
  resolve_attr v (s "starts_with") = Ok (VMeth Mstarts_with v) /\ resolve_attr v (s "ends_with") = Ok (VMeth Mends_with v) /\
  resolve_attr v (s "length") = Ok (VDec (dec_of_Z (Z.of_nat (length l)))) /\ resolve_attr v (s "is_empty") = Ok (VBool (Z.of_nat (length l) =? 0)).
Proof.
  intros v l t H T. unfold resolve_attr. rewrite T. inversion H; subst; cbn [from_value] in T; [| |destruct (rmapM from_value l); [|discriminate]; cbn [rmap] in T];
    inversion T; subst; repeat split; cbn; rewrite ?map_length; reflexivity.
Qed.

(** s.starts_with(p), for strings, bytes and arrays: true iff the elements of s are those of p followed by anything *)
Theorem C36_starts_with : forall o a safe q v q1 u q2 l m t, yields q o v q1 -> yields q1 a u q2 -> seq_of v l -> seq_of u m -> same_kind v u -> from_value v = Ok t ->
  let f := EAttr o (s "starts_with") safe in passes f [u] -> is_compat TBool (returns f) = true ->
  exists b, yields q (ECall f [a]) (VBool b) q2 /\ (b = true <-> exists p r, l = p ++ r /\ agree p m).
Proof.
  intros o a safe q v q1 u q2 l m t Ho Ha Sv Su K T f P R. destruct (seq_attr v l t Sv T) as [E _].
  assert (Hf : yields q f (VMeth Mstarts_with v) q1) by (eapply (attr_ok o _ safe q v q1 _ _ Ho); [inversion Sv; reflexivity|exact E|reflexivity]).
  assert (Hs : yields_all q1 [a] [u] q2) by (econstructor; [exact Ha|constructor]).
  assert (X := call_run f [a] q (VMeth Mstarts_with v) q1 [u] q2 P Hf eq_refl Hs). cbn [apply_fun apply_flat run meth_call] in X.
  destruct (slice_eq v l u m None (Some (Z.of_nat (length m))) Sv Su K) as [x [G Q]]. rewrite (seq_len u m Su) in X. cbn [rbind] in X. rewrite G in X. cbn [rbind] in X.
  rewrite outcome_bool in X by exact R. exists (py_eq x u). split; [exact X|]. rewrite Q, slice_first by lia. rewrite Nat2Z.id. apply starts_iff.
Qed.

(** s.ends_with(p) for non-empty p *)
Theorem C36_ends_with_partial : forall o a safe q v q1 u q2 l m t, yields q o v q1 -> yields q1 a u q2 -> seq_of v l -> seq_of u m -> same_kind v u -> from_value v = Ok t ->
  let f := EAttr o (s "ends_with") safe in passes f [u] -> is_compat TBool (returns f) = true -> m <> [] ->
  exists b, yields q (ECall f [a]) (VBool b) q2 /\ (b = true <-> exists r p, l = r ++ p /\ agree p m).
Proof.
  intros o a safe q v q1 u q2 l m t Ho Ha Sv Su K T f P R N. destruct (seq_attr v l t Sv T) as [_ [E _]].
  assert (Hf : yields q f (VMeth Mends_with v) q1) by (eapply (attr_ok o _ safe q v q1 _ _ Ho); [inversion Sv; reflexivity|exact E|reflexivity]).
  assert (Hs : yields_all q1 [a] [u] q2) by (econstructor; [exact Ha|constructor]).
  assert (X := call_run f [a] q (VMeth Mends_with v) q1 [u] q2 P Hf eq_refl Hs). cbn [apply_fun apply_flat run meth_call] in X.
  destruct (slice_eq v l u m (Some (- Z.of_nat (length m))) None Sv Su K) as [x [G Q]]. rewrite (seq_len u m Su) in X. cbn [rbind] in X. rewrite G in X. cbn [rbind] in X.
  rewrite outcome_bool in X by exact R. exists (py_eq x u). split; [exact X|]. rewrite Q, slice_last by (destruct m; [congruence|cbn; lia]). rewrite Nat2Z.id. apply ends_iff. exact N.
Qed.

(** length and is_empty of a sequence; sets and mappings below *)
Theorem C36_length : forall o safe q v q1 l t, yields q o v q1 -> seq_of v l -> from_value v = Ok t ->
  yields q (EAttr o (s "length") safe) (VDec (dec_of_Z (Z.of_nat (length l)))) q1 /\
  exists b, yields q (EAttr o (s "is_empty") safe) (VBool b) q1 /\ (b = true <-> l = []).
Proof.
  intros o safe q v q1 l t Ho Sv T. destruct (seq_attr v l t Sv T) as [_ [_ [E1 E2]]]. assert (N : is_null v = false) by (inversion Sv; reflexivity). split.
  - eapply (attr_ok o _ safe q v q1 _ _ Ho N E1). reflexivity.
  - eexists. split; [eapply (attr_ok o _ safe q v q1 _ _ Ho N E2); reflexivity|]. rewrite Z.eqb_eq. destruct l; cbn; split; intro; try reflexivity; try lia; discriminate.
Qed.
Theorem C36_length_set : forall o safe q l q1 t, yields q o (VSet l) q1 -> from_value (VSet l) = Ok t ->
  yields q (EAttr o (s "length") safe) (VDec (dec_of_Z (Z.of_nat (length l)))) q1 /\
  exists b, yields q (EAttr o (s "is_empty") safe) (VBool b) q1 /\ (b = true <-> l = []).
Proof.
  intros o safe q l q1 t Ho T.
  assert (E1 : resolve_attr (VSet l) (s "length") = Ok (VDec (dec_of_Z (Z.of_nat (length l))))) by (unfold resolve_attr; rewrite T; cbn [from_value] in T; destruct (rmapM from_value l); [|discriminate]; cbn [rmap] in T; inversion T; reflexivity).
  assert (E2 : resolve_attr (VSet l) (s "is_empty") = Ok (VBool (Z.of_nat (length l) =? 0))) by (unfold resolve_attr; rewrite T; cbn [from_value] in T; destruct (rmapM from_value l); [|discriminate]; cbn [rmap] in T; inversion T; reflexivity).
  split; [eapply (attr_ok o _ safe q _ q1 _ _ Ho eq_refl E1); reflexivity|]. eexists. split; [eapply (attr_ok o _ safe q _ q1 _ _ Ho eq_refl E2); reflexivity|].
  rewrite Z.eqb_eq. destruct l; cbn; split; intro; try reflexivity; try lia; discriminate.
Qed.
Theorem C36_length_map : forall o safe q l q1 t, yields q o (VMap l) q1 -> from_value (VMap l) = Ok t ->
  yields q (EAttr o (s "length") safe) (VDec (dec_of_Z (Z.of_nat (length l)))) q1 /\
  exists b, yields q (EAttr o (s "is_empty") safe) (VBool b) q1 /\ (b = true <-> l = []).
Proof.
  intros o safe q l q1 t Ho T.
  assert (E : exists k v, t = TMap k v true).
  { cbn [from_value] in T. destruct (rmapM (fun kv => from_value (fst kv)) l); [|discriminate]. cbn [rbind] in T. destruct (rmapM (fun kv => from_value (snd kv)) l); [|discriminate]. cbn [rbind] in T.
    unfold mk_mapping in T. destruct (_ && _) in T; [discriminate|]. inversion T; eauto. }
  destruct E as [k [v ->]].
  assert (E1 : resolve_attr (VMap l) (s "length") = Ok (VDec (dec_of_Z (Z.of_nat (length l))))) by (unfold resolve_attr; rewrite T; reflexivity).
  assert (E2 : resolve_attr (VMap l) (s "is_empty") = Ok (VBool (Z.of_nat (length l) =? 0))) by (unfold resolve_attr; rewrite T; reflexivity).
  split; [eapply (attr_ok o _ safe q _ q1 _ _ Ho eq_refl E1); reflexivity|]. eexists. split; [eapply (attr_ok o _ safe q _ q1 _ _ Ho eq_refl E2); reflexivity|].
  rewrite Z.eqb_eq. destruct l; cbn; split; intro; try reflexivity; try lia; discriminate.
Qed.
End Attrs.
Print Assumptions C36_starts_with.
Print Assumptions C36_ends_with_partial.
Print Assumptions C36_length.

(** The empty suffix: "abc".ends_with("") is false (the slice [-0:] is everything), so the full claim about ends_with fails. *)
Theorem C36_ends_with_refuted :
  let call := ECall (EAttr (sym "name") (s "ends_with") false) [ELit (VStr [])] in
  fst (run demo_world (eval untyped_ctx demo_thing call) demo_st) = Ok (VBool false) /\ (exists r, s "Luke" = r ++ []).
Proof. split; [vm_compute; reflexivity|]. exists (s "Luke"). symmetry. apply app_nil_r. Qed.
Print Assumptions C36_ends_with_refuted.

Example C36_example :
  let call m a := fst (run demo_world (eval untyped_ctx demo_thing (ECall (EAttr (sym "name") (s m) false) [ELit (VStr (s a))])) demo_st) in
  let lit := EAttr (ELit (VStr (s "abc"))) (s "starts_with") false in
  call "starts_with"%string "Lu"%string = Ok (VBool true) /\ call "starts_with"%string ""%string = Ok (VBool true) /\ call "ends_with"%string "ke"%string = Ok (VBool true) /\ call "ends_with"%string "Lu"%string = Ok (VBool false) /\
  passes demo_orc lit [VStr (s "ab")] /\ is_compat TBool (returns demo_orc lit) = true.
Proof.
  cbv zeta. do 4 (split; [vm_compute; reflexivity|]). split; [|reflexivity]. right. eexists _, _, _, _. split; [reflexivity|]. split.
  - intros v [<-|[]]. eexists; reflexivity.
  - split; [intros m H; inversion H; cbn; lia|]. intros l H. inversion H; subst. split; [cbn; lia|]. intros [|[|i]] v p Hv Hp; cbn in Hv, Hp; try discriminate.
    inversion Hv; inversion Hp; subst. exists TString. split; reflexivity.
Qed.

(** ** C53: fields of datetimes and durations *)

(** The proleptic Gregorian calendar, independent of the code's algorithm. *)
Definition leap_year (y : Z) : bool := (y mod 4 =? 0) && (negb (y mod 100 =? 0) || (y mod 400 =? 0)).
Definition month_length (y m : Z) : Z :=
  match m with 2 => if leap_year y then 29 else 28 | 4 | 6 | 9 | 11 => 30 | _ => 31 end.
(** days of the months before [m], of the years before [y] *)
Definition month_start (y m : Z) : Z := fold_right Z.add 0 (map (fun k => month_length y (Z.of_nat k)) (seq 1 (Z.to_nat (m - 1)))).
Definition year_start (y : Z) : Z := 365 * (y - 1) + (y - 1) / 4 - (y - 1) / 100 + (y - 1) / 400.
(** microseconds since 0001-01-01 00:00 *)
Definition moment (y m d h mi sc us : Z) : Z :=
  ((((year_start y + month_start y m + (d - 1)) * 24 + h) * 60 + mi) * 60 + sc) * 1000000 + us.

(** the month part, for all 366 days and both kinds of years *)
Definition month_part (leap : bool) (n : Z) : Z * Z :=
  let month := (n + 50) / 32 in let prec := days_before_month leap month in
  if n <? prec then (month - 1, n - (prec - days_in_month leap (month - 1)) + 1) else (month, n - prec + 1).
Definition len_l (leap : bool) (m : Z) : Z := match m with 2 => if leap then 29 else 28 | 4 | 6 | 9 | 11 => 30 | _ => 31 end.
Definition start_l (leap : bool) (m : Z) : Z := fold_right Z.add 0 (map (fun k => len_l leap (Z.of_nat k)) (seq 1 (Z.to_nat (m - 1)))).
Definition month_good (leap : bool) (n : Z) : bool :=
  let '(m, d) := month_part leap n in (1 <=? m) && (m <=? 12) && (1 <=? d) && (d <=? len_l leap m) && (start_l leap m + (d - 1) =? n).
Lemma month_all : forall (leap : bool) n, 0 <= n < (if leap then 366 else 365) -> month_good leap n = true.
Proof.
  assert (A : forallb (fun k => month_good true (Z.of_nat k)) (seq 0 366) && forallb (fun k => month_good false (Z.of_nat k)) (seq 0 365) = true) by (vm_compute; reflexivity).
  apply andb_true_iff in A as [A B]. rewrite forallb_forall in A, B. intros leap n H. rewrite <- (Z2Nat.id n) by lia. destruct leap; [apply A|apply B]; apply in_seq; lia.
Qed.
Lemma len_year : forall y m, month_length y m = len_l (leap_year y) m. Proof. reflexivity. Qed.
Lemma start_year : forall y m, month_start y m = start_l (leap_year y) m. Proof. reflexivity. Qed.

Lemma ord2ymd_spec : forall n, 0 <= n < 3652059 -> let '(y, m, d) := ord2ymd n in
  1 <= y <= 9999 /\ 1 <= m <= 12 /\ 1 <= d <= month_length y m /\ year_start y + month_start y m + (d - 1) = n.
Proof.
  intros n H. unfold ord2ymd. cbv zeta.
  set (n400 := n / 146097). set (r1 := n mod 146097). set (n100 := r1 / 36524). set (r2 := r1 mod 36524). set (n4 := r2 / 1461). set (r3 := r2 mod 1461). set (n1 := r3 / 365). set (r4 := r3 mod 365).
  assert (E1 : n = 146097 * n400 + r1 /\ 0 <= r1 < 146097) by (unfold n400, r1; split; [apply Z.div_mod; lia|apply Z.mod_pos_bound; lia]).
  assert (E2 : r1 = 36524 * n100 + r2 /\ 0 <= r2 < 36524) by (unfold n100, r2; split; [apply Z.div_mod; lia|apply Z.mod_pos_bound; lia]).
  assert (E3 : r2 = 1461 * n4 + r3 /\ 0 <= r3 < 1461) by (unfold n4, r3; split; [apply Z.div_mod; lia|apply Z.mod_pos_bound; lia]).
  assert (E4 : r3 = 365 * n1 + r4 /\ 0 <= r4 < 365) by (unfold n1, r4; split; [apply Z.div_mod; lia|apply Z.mod_pos_bound; lia]).
  clearbody n400 r1 n100 r2 n4 r3 n1 r4.
  assert (B1 : 0 <= n400 <= 24) by lia. assert (B2 : 0 <= n100 <= 4) by lia. assert (B3 : 0 <= n4 <= 24) by lia. assert (B4 : 0 <= n1 <= 4) by lia.
  destruct ((n1 =? 4) || (n100 =? 4)) eqn:Q.
  - apply orb_true_iff in Q. rewrite !Z.eqb_eq in Q. set (y := n400 * 400 + 1 + n100 * 100 + n4 * 4 + n1 - 1).
    assert (Y : leap_year y = true /\ year_start y + 365 = n /\ 1 <= y <= 9999).
    { unfold leap_year, year_start. subst y. destruct Q as [Q|Q].
      - assert (n100 <= 3) by lia. assert (n4 <> 24 \/ n100 = 3) by lia.
        split; [|split; [Z.div_mod_to_equations; lia|lia]].
        apply andb_true_iff. split; [apply Z.eqb_eq; Z.div_mod_to_equations; lia|]. apply orb_true_iff. rewrite negb_true_iff, Z.eqb_neq, Z.eqb_eq. Z.div_mod_to_equations; lia.
      - assert (n4 = 0 /\ n1 = 0 /\ r4 = 0) by lia. split; [|split; [Z.div_mod_to_equations; lia|lia]].
        apply andb_true_iff. split; [apply Z.eqb_eq; Z.div_mod_to_equations; lia|]. apply orb_true_iff. rewrite negb_true_iff, Z.eqb_neq, Z.eqb_eq. Z.div_mod_to_equations; lia. }
    destruct Y as [Y1 [Y2 Y3]]. rewrite start_year, len_year, Y1. replace (start_l true 12) with 335 by reflexivity. cbn [len_l]. lia.
  - apply orb_false_iff in Q as [Q1 Q2]. apply Z.eqb_neq in Q1. apply Z.eqb_neq in Q2.
    set (y := n400 * 400 + 1 + n100 * 100 + n4 * 4 + n1). set (lp := (n1 =? 3) && (negb (n4 =? 24) || (n100 =? 3))).
    assert (Y : leap_year y = lp).
    { unfold leap_year, lp, y. apply Bool.eq_true_iff_eq. rewrite !andb_true_iff, !orb_true_iff, !negb_true_iff, !Z.eqb_eq, !Z.eqb_neq. Z.div_mod_to_equations; lia. }
    assert (YS : year_start y + r4 = n /\ 1 <= y <= 9999) by (unfold year_start, y; Z.div_mod_to_equations; lia).
    assert (M := month_all lp r4 ltac:(destruct lp; lia)). unfold month_good, month_part in M. cbv zeta in M.
    destruct (r4 <? days_before_month lp ((r4 + 50) / 32)); rewrite !andb_true_iff, !Z.leb_le, Z.eqb_eq in M; rewrite start_year, len_year, Y; lia.
Qed.

Section C53.
Context (Orc : Oracle) (C : ctx) (thing : value) (w : world).
Notation yields := (yields C thing w). 
Definition nat_value (z : Z) : value := VDec (dec_of_Z z).

Theorem C53_datetime : forall o safe q t z q1, yields q o (VDt t (Some z)) q1 -> 0 <= t < 3652059 * 86400000000 ->
  exists y m d h mi sc us,
    (forall name x, In (name, x) [("year", y); ("month", m); ("day", d); ("hour", h); ("minute", mi); ("second", sc); ("microsecond", us)]%string ->
       yields q (EAttr o (s name) safe) (nat_value x) q1) /\
    1 <= y <= 9999 /\ 1 <= m <= 12 /\ 1 <= d <= month_length y m /\ 0 <= h <= 23 /\ 0 <= mi <= 59 /\ 0 <= sc <= 59 /\ 0 <= us <= 999999 /\
    t = moment y m d h mi sc us.
Proof.
  intros o safe q t z q1 H R. assert (D : 0 <= dt_days t < 3652059) by (unfold dt_days, us_per_day; Z.div_mod_to_equations; lia).
  assert (S := ord2ymd_spec (dt_days t) D). destruct (ord2ymd (dt_days t)) as [[y m] d] eqn:E. destruct S as [S1 [S2 [S3 S4]]].
  exists y, m, d, (dt_hour t), (dt_minute t), (dt_second t), (dt_microsecond t). split.
  - intros name x Hn. assert (A : resolve_attr (VDt t (Some z)) (s name) = Ok (nat_value x)).
    { cbn [In] in Hn. repeat destruct Hn as [Hn|Hn]; try contradiction; inversion Hn; subst; unfold resolve_attr; cbn - [ord2ymd dt_days dt_hour dt_minute dt_second dt_microsecond dec_of_Z];
        rewrite ?E; reflexivity. }
    eapply attr_ok; [exact H|reflexivity|exact A|reflexivity].
  - split; [exact S1|]. split; [exact S2|]. split; [exact S3|]. unfold moment. rewrite S4. unfold dt_hour, dt_minute, dt_second, dt_microsecond, dt_time, dt_days, us_per_day in *.
    Z.div_mod_to_equations; lia.
Qed.

(** different fields (in their ranges), different datetime *)
Theorem C53_unique : forall y m d h mi sc us y' m' d' h' mi' sc' us',
  1 <= y -> 1 <= m <= 12 -> 1 <= d <= month_length y m -> 0 <= h <= 23 -> 0 <= mi <= 59 -> 0 <= sc <= 59 -> 0 <= us <= 999999 ->
  1 <= y' -> 1 <= m' <= 12 -> 1 <= d' <= month_length y' m' -> 0 <= h' <= 23 -> 0 <= mi' <= 59 -> 0 <= sc' <= 59 -> 0 <= us' <= 999999 ->
  moment y m d h mi sc us = moment y' m' d' h' mi' sc' us' -> (y, m, d, h, mi, sc, us) = (y', m', d', h', mi', sc', us').
Proof.
  assert (ST : forall y m, 1 <= m <= 12 -> month_start y m = match m with 2 => 31 | 3 => 59 | 4 => 90 | 5 => 120 | 6 => 151 | 7 => 181 | 8 => 212 | 9 => 243 | 10 => 273 | 11 => 304 | 12 => 334 | _ => 0 end + (if (2 <? m) && leap_year y then 1 else 0)).
  { intros y m H. rewrite start_year. destruct (leap_year y); assert (m = 1 \/ m = 2 \/ m = 3 \/ m = 4 \/ m = 5 \/ m = 6 \/ m = 7 \/ m = 8 \/ m = 9 \/ m = 10 \/ m = 11 \/ m = 12) as K by lia;
      repeat destruct K as [->|K]; try reflexivity; subst; reflexivity. }
  assert (IN : forall y m d, 1 <= m <= 12 -> 1 <= d <= month_length y m -> 0 <= month_start y m + (d - 1) < (if leap_year y then 366 else 365)).
  { intros y m d H1 H2. rewrite (ST y m H1). unfold month_length in H2. assert (m = 1 \/ m = 2 \/ m = 3 \/ m = 4 \/ m = 5 \/ m = 6 \/ m = 7 \/ m = 8 \/ m = 9 \/ m = 10 \/ m = 11 \/ m = 12) as K by lia;
      destruct (leap_year y); clear -H2 K; repeat destruct K as [->|K]; subst; cbn [Z.ltb Z.compare Pos.compare Pos.compare_cont andb] in *; lia. }
  assert (YN : forall y, year_start (y + 1) = year_start y + (if leap_year y then 366 else 365)).
  { intro y. unfold year_start, leap_year. destruct ((y mod 4 =? 0) && (negb (y mod 100 =? 0) || (y mod 400 =? 0))) eqn:E.
    - rewrite andb_true_iff, orb_true_iff, negb_true_iff, !Z.eqb_eq, Z.eqb_neq in E. Z.div_mod_to_equations; lia.
    - rewrite andb_false_iff, orb_false_iff, negb_false_iff, Z.eqb_eq, !Z.eqb_neq in E. Z.div_mod_to_equations; lia. }
  assert (YM : forall y y', y < y' -> year_start (y + 1) <= year_start y') by (intros y y' H; unfold year_start; Z.div_mod_to_equations; lia).
  intros y m d h mi sc us y' m' d' h' mi' sc' us' Hy Hm Hd Hh Hi Hs Hu Hy' Hm' Hd' Hh' Hi' Hs' Hu' E. unfold moment in E.
  assert (E0 : us = us' /\ sc = sc' /\ mi = mi' /\ h = h' /\ year_start y + (month_start y m + (d - 1)) = year_start y' + (month_start y' m' + (d' - 1))).
  { assert (G : forall A B, ((((B * 24 + h) * 60 + mi) * 60 + sc) * 1000000 + us = (((A * 24 + h') * 60 + mi') * 60 + sc') * 1000000 + us') ->
      us = us' /\ sc = sc' /\ mi = mi' /\ h = h' /\ B = A).
    { clear -Hh Hi Hs Hu Hh' Hi' Hs' Hu'. intros A B E.
      assert (E1 : us = us' /\ ((B * 24 + h) * 60 + mi) * 60 + sc = ((A * 24 + h') * 60 + mi') * 60 + sc') by lia. destruct E1 as [-> E1].
      assert (E2 : sc = sc' /\ (B * 24 + h) * 60 + mi = (A * 24 + h') * 60 + mi') by lia. destruct E2 as [-> E2].
      assert (E3 : mi = mi' /\ B * 24 + h = A * 24 + h') by lia. lia. }
    apply G in E. lia. }
  destruct E0 as [-> [-> [-> [-> E0]]]]. assert (I1 := IN y m d Hm Hd). assert (I2 := IN y' m' d' Hm' Hd').
  assert (y = y').
  { destruct (Z.lt_trichotomy y y') as [L|[L|L]]; [|exact L|]; exfalso; apply YM in L; rewrite YN in L; lia. }
  subst y'. assert (E1 : month_start y m + d = month_start y m' + d') by lia. clear E0 E.
  assert (m = m' /\ d = d'); [|destruct H; subst; reflexivity].
  rewrite (ST y m Hm), (ST y m' Hm') in E1. unfold month_length in Hd, Hd'.
  assert (m = 1 \/ m = 2 \/ m = 3 \/ m = 4 \/ m = 5 \/ m = 6 \/ m = 7 \/ m = 8 \/ m = 9 \/ m = 10 \/ m = 11 \/ m = 12) as K by lia.
  assert (m' = 1 \/ m' = 2 \/ m' = 3 \/ m' = 4 \/ m' = 5 \/ m' = 6 \/ m' = 7 \/ m' = 8 \/ m' = 9 \/ m' = 10 \/ m' = 11 \/ m' = 12) as K' by lia.
  clear -E1 Hd Hd' K K'. destruct (leap_year y); repeat destruct K as [->|K]; subst; repeat destruct K' as [->|K']; subst; cbn [Z.ltb Z.compare Pos.compare Pos.compare_cont andb] in *; split; lia.
Qed.

(** .date is the same day (in the same zone) at midnight *)
Theorem C53_date : forall o safe q t z q1, yields q o (VDt t (Some z)) q1 ->
  exists t', yields q (EAttr o (s "date") safe) (VDt t' (Some z)) q1 /\ t' mod 86400000000 = 0 /\ t' <= t < t' + 86400000000.
Proof.
  intros o safe q t z q1 H. exists (t - dt_time t). split; [eapply attr_ok; [exact H|reflexivity|reflexivity|reflexivity]|].
  unfold dt_time, us_per_day. Z.div_mod_to_equations; lia.
Qed.

(** .millisecond is microsecond / 1000, exactly *)
Theorem C53_millisecond : forall o safe q t z q1, yields q o (VDt t (Some z)) q1 ->
  exists us n c e, yields q (EAttr o (s "microsecond") safe) (nat_value us) q1 /\ yields q (EAttr o (s "millisecond") safe) (VDec (DFin n c e)) q1 /\
    0 <= us < 1000000 /\ (dec_q n c e == us # 1000)%Q.
Proof.
  intros o safe q t z q1 H. assert (R : 0 <= dt_microsecond t < 1000000) by (unfold dt_microsecond; apply Z.mod_pos_bound; reflexivity).
  destruct (flt_div_exact (dt_microsecond t) 1000 3) as (m & e & n & c & j & E & V); [reflexivity|lia|lia|]. exists (dt_microsecond t), n, c, j.
  split; [eapply attr_ok; try exact H; reflexivity|]. split; [|split; [exact R|exact V]].
  eapply (attr_ok Orc C thing w o (s "millisecond") safe q (VDt t (Some z)) q1 (VDec _)); [exact H|reflexivity| |reflexivity]. unfold resolve_attr. cbn [from_value]. change (get_attr TDatetime (s "millisecond")) with (@Ok attr a_millisecond). cbn [rbind attr_fun]. rewrite E. reflexivity.
Qed.

(** .weekday: a calendar is an assignment of names to days in which the seven names follow one another and 1 January 2000 is a Saturday;
    there is only one, and [day_name] (Zeller's congruence, from the year, month and day alone) computes it *)
Definition day_name (y m d : Z) : string :=
  let '(y, m) := if m <=? 2 then (y - 1, m + 12) else (y, m) in
  match (d + 13 * (m + 1) / 5 + y + y / 4 - y / 100 + y / 400) mod 7 with
  | 0 => "Saturday" | 1 => "Sunday" | 2 => "Monday" | 3 => "Tuesday" | 4 => "Wednesday" | 5 => "Thursday" | _ => "Friday" end%string.
Definition next_name (n : string) : string :=
  match n with
  | "Monday" => "Tuesday" | "Tuesday" => "Wednesday" | "Wednesday" => "Thursday" | "Thursday" => "Friday" | "Friday" => "Saturday"
  | "Saturday" => "Sunday" | "Sunday" => "Monday" | _ => "" end%string.

Lemma zeller : forall y m d, 1 <= m <= 12 -> 1 <= d <= month_length y m ->
  weekday_name (year_start y + month_start y m + (d - 1)) = s (day_name y m d).
Proof.
  intros y m d Hm Hd. unfold day_name.
  assert (ST : month_start y m = match m with 2 => 31 | 3 => 59 | 4 => 90 | 5 => 120 | 6 => 151 | 7 => 181 | 8 => 212 | 9 => 243 | 10 => 273 | 11 => 304 | 12 => 334 | _ => 0 end + (if (2 <? m) && leap_year y then 1 else 0)).
  { rewrite start_year. destruct (leap_year y); assert (m = 1 \/ m = 2 \/ m = 3 \/ m = 4 \/ m = 5 \/ m = 6 \/ m = 7 \/ m = 8 \/ m = 9 \/ m = 10 \/ m = 11 \/ m = 12) as K by lia;
      repeat destruct K as [->|K]; try reflexivity; subst; reflexivity. }
  rewrite ST. clear ST.
  assert (LY : (if leap_year y then 1 else 0) = y / 4 - y / 100 + y / 400 - ((y - 1) / 4 - (y - 1) / 100 + (y - 1) / 400)).
  { unfold leap_year. destruct ((y mod 4 =? 0) && (negb (y mod 100 =? 0) || (y mod 400 =? 0))) eqn:E.
    - rewrite andb_true_iff, orb_true_iff, negb_true_iff, !Z.eqb_eq, Z.eqb_neq in E. Z.div_mod_to_equations; lia.
    - rewrite andb_false_iff, orb_false_iff, negb_false_iff, Z.eqb_eq, !Z.eqb_neq in E. Z.div_mod_to_equations; lia. }
  assert (W : forall a b, (a + 2) mod 7 = b mod 7 -> weekday_name a = s match b mod 7 with
    | 0 => "Saturday" | 1 => "Sunday" | 2 => "Monday" | 3 => "Tuesday" | 4 => "Wednesday" | 5 => "Thursday" | _ => "Friday" end%string).
  { intros a b E. rewrite <- E. unfold weekday_name. assert (B := Z.mod_pos_bound a 7 eq_refl). rewrite <- Zplus_mod_idemp_l.
    assert (K : a mod 7 = 0 \/ a mod 7 = 1 \/ a mod 7 = 2 \/ a mod 7 = 3 \/ a mod 7 = 4 \/ a mod 7 = 5 \/ a mod 7 = 6) by lia.
    repeat destruct K as [->|K]; try reflexivity. rewrite K. reflexivity. }
  assert (M : forall k, (if (2 <? k) && leap_year y then 1 else 0) = if 2 <? k then y / 4 - y / 100 + y / 400 - ((y - 1) / 4 - (y - 1) / 100 + (y - 1) / 400) else 0)
    by (intro k; destruct (2 <? k); [cbn [andb]; rewrite LY; reflexivity|reflexivity]).
  rewrite M. clear M LY Hd. unfold year_start.
  assert (K : m = 1 \/ m = 2 \/ m = 3 \/ m = 4 \/ m = 5 \/ m = 6 \/ m = 7 \/ m = 8 \/ m = 9 \/ m = 10 \/ m = 11 \/ m = 12) by lia.
  repeat destruct K as [->|K]; try subst m; cbn [Z.leb Z.ltb Z.compare Pos.compare Pos.compare_cont]; apply W;
    generalize (y / 4) (y / 100) (y / 400) ((y - 1) / 4) ((y - 1) / 100) ((y - 1) / 400); clear; intros a b c a1 b1 c1;
    match goal with |- context [13 * ?x / 5] => let v := eval vm_compute in (13 * x / 5) in change (13 * x / 5) with v end; Z.div_mod_to_equations; lia.
Qed.


Theorem C53_weekday : forall o safe q t z q1, yields q o (VDt t z) q1 -> 0 <= t < 3652059 * 86400000000 ->
  exists y m d, 1 <= m <= 12 /\ 1 <= d <= month_length y m /\ moment y m d 0 0 0 0 <= t < moment y m d 24 0 0 0 /\
    yields q (EAttr o (s "weekday") safe) (VStr (s (day_name y m d))) q1.
Proof.
  intros o safe q t z q1 H R. assert (D : 0 <= dt_days t < 3652059) by (unfold dt_days, us_per_day; Z.div_mod_to_equations; lia).
  assert (S := ord2ymd_spec (dt_days t) D). destruct (ord2ymd (dt_days t)) as [[y m] d] eqn:E. destruct S as [S1 [S2 [S3 S4]]].
  exists y, m, d. split; [exact S2|]. split; [exact S3|]. split.
  - unfold moment. rewrite S4. unfold dt_days, us_per_day. Z.div_mod_to_equations; lia.
  - rewrite <- (zeller y m d S2 S3), S4. eapply attr_ok; [exact H|reflexivity|reflexivity|reflexivity].
Qed.
(** the names follow one another: a day later the name is the next one *)
Theorem C53_weekday_next : forall o o' safe q t z z' q1 q1', yields q o (VDt t z) q1 -> yields q o' (VDt (t + 86400000000) z') q1' ->
  exists n, n <> ""%string /\ yields q (EAttr o (s "weekday") safe) (VStr (s n)) q1 /\ yields q (EAttr o' (s "weekday") safe) (VStr (s (next_name n))) q1'.
Proof.
  intros o o' safe q t z z' q1 q1' H H'.
  assert (W : forall d, exists n, n <> ""%string /\ weekday_name d = s n /\ weekday_name (d + 1) = s (next_name n)).
  { intro d. unfold weekday_name. rewrite <- Zplus_mod_idemp_l. assert (B := Z.mod_pos_bound d 7 eq_refl).
    assert (K : d mod 7 = 0 \/ d mod 7 = 1 \/ d mod 7 = 2 \/ d mod 7 = 3 \/ d mod 7 = 4 \/ d mod 7 = 5 \/ d mod 7 = 6) by lia.
    repeat destruct K as [->|K]; [exists "Monday"%string|exists "Tuesday"%string|exists "Wednesday"%string|exists "Thursday"%string|exists "Friday"%string|exists "Saturday"%string|rewrite K; exists "Sunday"%string];
      (split; [discriminate|split; reflexivity]). }
  destruct (W (dt_days t)) as (n & N0 & W1 & W2). exists n. split; [exact N0|]. rewrite <- W1, <- W2. replace (dt_days t + 1) with (dt_days (t + 86400000000)).
  - split; (eapply attr_ok; [eassumption|reflexivity|reflexivity|reflexivity]).
  - unfold dt_days, us_per_day. Z.div_mod_to_equations; lia.
Qed.

(** durations *)
Theorem C53_timedelta : forall o safe q u q1, yields q o (VTd u) q1 ->
  exists d sc us, yields q (EAttr o (s "days") safe) (nat_value d) q1 /\ yields q (EAttr o (s "seconds") safe) (nat_value sc) q1 /\ yields q (EAttr o (s "microseconds") safe) (nat_value us) q1 /\
    0 <= sc < 86400 /\ 0 <= us < 1000000 /\ u = (d * 86400 + sc) * 1000000 + us.
Proof.
  intros o safe q u q1 H. exists (td_days u), (td_seconds u), (td_microseconds u). repeat (split; [eapply attr_ok; [exact H|reflexivity|reflexivity|reflexivity]|]).
  unfold td_days, td_seconds, td_microseconds, us_per_day. Z.div_mod_to_equations; lia.
Qed.
End C53.

(** ** C68: seconds since the epoch, total seconds *)
Section C68.
Context (Orc : Oracle) (C : ctx) (thing : value) (w : world).
Notation yields := (yields C thing w).
(** the microseconds from 1970-01-01T00:00Z to the wall-clock time [t] (in microseconds since 0001-01-01T00:00) of zone [z] *)
Definition since_epoch (t : Z) (z : N) : Z := t - utcoff z t - 62135596800000000.
(** a number of seconds *)
Definition secs (us : Z) : Q := us # 1000000.

Lemma run_to_epoch : forall o safe q t z q1, yields q o (VDt t (Some z)) q1 -> yields q (EAttr o (s "to_epoch") safe) (VDec (flt_dec (flt_div (since_epoch t z) 1000000))) q1.
Proof.
  intros o safe q t z q1 H. eapply (attr_ok Orc C thing w o (s "to_epoch") safe q (VDt t (Some z)) q1 (VDec _)); [exact H|reflexivity| |reflexivity]. unfold resolve_attr. cbn [from_value]. change (get_attr TDatetime (s "to_epoch")) with (@Ok attr a_to_epoch). cbn [rbind attr_fun].
  change epoch with 62135596800000000. unfold utc. fold (since_epoch t z). destruct (flt_div (since_epoch t z) 1000000) as [m e d|n|]; reflexivity.
Qed.
Lemma run_total_seconds : forall o safe q u q1, yields q o (VTd u) q1 -> yields q (EAttr o (s "total_seconds") safe) (VDec (flt_dec (flt_div u 1000000))) q1.
Proof.
  intros o safe q u q1 H. eapply (attr_ok Orc C thing w o (s "total_seconds") safe q (VTd u) q1 (VDec _)); [exact H|reflexivity| |reflexivity]. unfold resolve_attr. cbn [from_value]. change (get_attr TTimedelta (s "total_seconds")) with (@Ok attr a_total_seconds). cbn [rbind attr_fun].
  destruct (flt_div u 1000000) as [m e d|n|]; reflexivity.
Qed.

(** exact from 1827 to 2112 *)
Theorem C68_epoch : forall o safe q t z q1, yields q o (VDt t (Some z)) q1 -> Z.abs (since_epoch t z) < 2 ^ 52 ->
  exists n c e, yields q (EAttr o (s "to_epoch") safe) (VDec (DFin n c e)) q1 /\ (dec_q n c e == secs (since_epoch t z))%Q.
Proof.
  intros o safe q t z q1 H B. assert (R := run_to_epoch o safe q t z q1 H). destruct (flt_div_exact (since_epoch t z) 1000000 6) as (m & e & n & c & j & E & V); [reflexivity|lia|exact B|].
  rewrite E in R. exists n, c, j. split; [exact R|exact V].
Qed.
(** everywhere within a relative error of 2^-51 *)
Theorem C68_epoch_near : forall o safe q t z q1, yields q o (VDt t (Some z)) q1 -> Z.abs (since_epoch t z) < 2 ^ 100 ->
  exists n c e, yields q (EAttr o (s "to_epoch") safe) (VDec (DFin n c e)) q1 /\ (Qabs (dec_q n c e - secs (since_epoch t z)) * inject_Z (2 ^ 51) <= Qabs (secs (since_epoch t z)))%Q.
Proof.
  intros o safe q t z q1 H B. assert (R := run_to_epoch o safe q t z q1 H). destruct (flt_div_near (since_epoch t z) 1000000) as (m & e & n & c & j & E & V); [reflexivity|eapply Z.lt_trans; [exact B|reflexivity]|].
  rewrite E in R. exists n, c, j. split; [exact R|exact V].
Qed.
(** so equal epochs mean the same instant, and a later instant has a larger epoch, whatever the zones *)
Theorem C68_epoch_order : forall o o' safe safe' q q' t t' z z' q1 q1', yields q o (VDt t (Some z)) q1 -> yields q' o' (VDt t' (Some z')) q1' ->
  Z.abs (since_epoch t z) < 2 ^ 52 -> Z.abs (since_epoch t' z') < 2 ^ 52 ->
  exists n c e n' c' e', yields q (EAttr o (s "to_epoch") safe) (VDec (DFin n c e)) q1 /\ yields q' (EAttr o' (s "to_epoch") safe') (VDec (DFin n' c' e')) q1' /\
    ((dec_q n c e == dec_q n' c' e')%Q <-> t - utcoff z t = t' - utcoff z' t') /\ ((dec_q n c e < dec_q n' c' e')%Q <-> t - utcoff z t < t' - utcoff z' t').
Proof.
  intros o o' safe safe' q q' t t' z z' q1 q1' H H' B B'. destruct (C68_epoch o safe q t z q1 H B) as (n & c & e & R & V). destruct (C68_epoch o' safe' q' t' z' q1' H' B') as (n' & c' & e' & R' & V').
  exists n, c, e, n', c', e'. split; [exact R|]. split; [exact R'|]. rewrite V, V'. unfold secs, since_epoch, Qeq, Qlt. cbn [Qnum Qden]. split; split; lia.
Qed.
(** total_seconds: exact up to 142 years, and everywhere within a relative error of 2^-51 *)
Theorem C68_total_seconds : forall o safe q u q1, yields q o (VTd u) q1 -> Z.abs u < 2 ^ 52 ->
  exists n c e, yields q (EAttr o (s "total_seconds") safe) (VDec (DFin n c e)) q1 /\ (dec_q n c e == secs u)%Q.
Proof.
  intros o safe q u q1 H B. assert (R := run_total_seconds o safe q u q1 H). destruct (flt_div_exact u 1000000 6) as (m & e & n & c & j & E & V); [reflexivity|lia|exact B|].
  rewrite E in R. exists n, c, j. split; [exact R|exact V].
Qed.
Theorem C68_total_seconds_near : forall o safe q u q1, yields q o (VTd u) q1 -> Z.abs u < 2 ^ 100 ->
  exists n c e, yields q (EAttr o (s "total_seconds") safe) (VDec (DFin n c e)) q1 /\ (Qabs (dec_q n c e - secs u) * inject_Z (2 ^ 51) <= Qabs (secs u))%Q.
Proof.
  intros o safe q u q1 H B. assert (R := run_total_seconds o safe q u q1 H). destruct (flt_div_near u 1000000) as (m & e & n & c & j & E & V); [reflexivity|eapply Z.lt_trans; [exact B|reflexivity]|].
  rewrite E in R. exists n, c, j. split; [exact R|exact V].
Qed.
End C68.
Print Assumptions C68_epoch.
Print Assumptions C68_epoch_near.
Print Assumptions C68_epoch_order.
Print Assumptions C68_total_seconds.
Print Assumptions C68_total_seconds_near.
(** 2021-06-05T12:34:56.789012; -1.5 seconds; 9011520000.000001 seconds, beyond the bound, gain a microsecond *)
Example C68_example : let at_ v n := fst (run demo_world (eval untyped_ctx VNull (EAttr (ELit v) (s n) false)) demo_st) in
  since_epoch demo_orc 63758493296789012 0 = 1622896496789012 /\ Z.abs 1622896496789012 < 2 ^ 52 /\
  at_ (VDt 63758493296789012 (Some 0%N)) "to_epoch"%string = Ok (VDec (DFin false 1622896496789012 (-6))) /\
  at_ (VDt 63758493296789012 (Some 0%N)) "millisecond"%string = Ok (VDec (DFin false 789012 (-3))) /\
  at_ (VTd (-1500000)) "total_seconds"%string = Ok (VDec (DFin true 15 (-1))) /\
  at_ (VTd 9011520000000001) "total_seconds"%string = Ok (VDec (DFin false 9011520000000002 (-6))).
Proof. cbv zeta. repeat split; vm_compute; reflexivity. Qed.
Print Assumptions C53_datetime.
Print Assumptions C53_unique.
Print Assumptions C53_timedelta.
Print Assumptions C53_weekday.
Print Assumptions C53_weekday_next.
Example C53_weekday_example : day_name 2000 1 1 = "Saturday"%string /\ day_name 1970 1 1 = "Thursday"%string /\ day_name 2024 2 29 = "Thursday"%string /\
  fst (run demo_world (eval untyped_ctx VNull (EAttr (ELit (VDt (moment 2000 1 1 23 59 59 999999) (Some 1%N))) (s "weekday") false)) demo_st) = Ok (VStr (s "Saturday")).
Proof. repeat split; vm_compute; reflexivity. Qed.
Example C53_example : moment 2024 2 29 23 59 58 7 = 63844847998000007 /\ 0 <= 63844847998000007 < 3652059 * 86400000000 /\
  fst (run demo_world (eval untyped_ctx VNull (EAttr (ELit (VDt 63844847998000007 (Some 1%N))) (s "day") false)) demo_st) = Ok (num 29) /\
  fst (run demo_world (eval untyped_ctx VNull (EAttr (ELit (VTd (-1))) (s "days") false)) demo_st) = Ok (num (-1)).
Proof. split; [reflexivity|]. split; [lia|]. split; vm_compute; reflexivity. Qed.

(** ** C70: upper and lower case *)
(** [e] is [n] with some of its small letters replaced by capitals *)
Definition cased (e n : str) : Prop := Forall2 (fun a b => a = b \/ (97 <= b <= 122 /\ a + 32 = b))%N e n.
Lemma py_lower_ascii : forall (Orc : Oracle) t, Forall (fun c => (c < 128)%N) t -> py_lower t = map (fun c => if (65 <=? c) && (c <=? 90) then c + 32 else c)%N t.
Proof. intros Orc t H. unfold py_lower. replace (forallb (fun c => c <? 128)%N t) with true; [reflexivity|]. symmetry. apply forallb_forall. intros c Hc. rewrite Forall_forall in H. apply N.ltb_lt. apply H. exact Hc. Qed.
Lemma py_upper_ascii : forall (Orc : Oracle) t, Forall (fun c => (c < 128)%N) t -> py_upper t = map (fun c => if (97 <=? c) && (c <=? 122) then c - 32 else c)%N t.
Proof. intros Orc t H. unfold py_upper. replace (forallb (fun c => c <? 128)%N t) with true; [reflexivity|]. symmetry. apply forallb_forall. intros c Hc. rewrite Forall_forall in H. apply N.ltb_lt. apply H. exact Hc. Qed.
Lemma cased_lower : forall (Orc : Oracle) e n, cased e n -> Forall (fun c => c < 128 /\ ~ 65 <= c <= 90)%N n -> py_lower e = n.
Proof.
  intros Orc e n H F. rewrite py_lower_ascii.
  - induction H as [|a b e n Hab H IH]; [reflexivity|]. inversion F as [|? ? [F1 F2] F3]; subst. cbn [map]. f_equal; [|apply IH; exact F3].
    destruct (N.leb_spec 65 a), (N.leb_spec a 90); cbn [andb]; lia.
  - induction H as [|a b e n Hab H IH]; [constructor|]. inversion F as [|? ? [F1 F2] F3]; subst. constructor; [lia|apply IH; exact F3].
Qed.
Lemma plain_text : forall n, forallb (fun c => (c <? 128) && negb ((65 <=? c) && (c <=? 90)))%N n = true -> Forall (fun c => c < 128 /\ ~ 65 <= c <= 90)%N n.
Proof.
  intros n H. apply Forall_forall. intros c Hc. rewrite forallb_forall in H. specialize (H c Hc). apply andb_true_iff in H as [H1 H2]. apply N.ltb_lt in H1. split; [exact H1|].
  intros [K1 K2]. apply N.leb_le in K1. apply N.leb_le in K2. rewrite K1, K2 in H2. discriminate H2.
Qed.

Section C70.
Context (Orc : Oracle) (C : ctx) (thing : value) (w : world).
Notation yields := (yields C thing w).
(** the letter cases of the Latin alphabet *)
Definition capital (c : N) : Prop := (65 <= c <= 90)%N.
Definition small (c : N) : Prop := (97 <= c <= 122)%N.
(** each position: the capital's small letter 32 code points on, everything else unchanged *)
Definition lowered (c d : N) : Prop := (capital c /\ d = c + 32)%N \/ (~ capital c /\ d = c).
Definition raised (c d : N) : Prop := (small c /\ c = d + 32)%N \/ (~ small c /\ d = c).

Theorem C70_as_lower : forall o safe q t q1, yields q o (VStr t) q1 -> Forall (fun c => (c < 128)%N) t ->
  exists r, yields q (EAttr o (s "as_lower") safe) (VStr r) q1 /\ Forall2 lowered t r.
Proof.
  intros o safe q t q1 H A. exists (py_lower t). split; [eapply attr_ok; [exact H|reflexivity|reflexivity|reflexivity]|].
  rewrite py_lower_ascii by exact A. clear H A. induction t as [|c t IH]; [constructor|]. constructor; [|exact IH]. unfold lowered, capital.
  destruct (N.leb_spec 65 c), (N.leb_spec c 90); cbn [andb]; lia.
Qed.
Theorem C70_as_upper : forall o safe q t q1, yields q o (VStr t) q1 -> Forall (fun c => (c < 128)%N) t ->
  exists r, yields q (EAttr o (s "as_upper") safe) (VStr r) q1 /\ Forall2 raised t r.
Proof.
  intros o safe q t q1 H A. exists (py_upper t). split; [eapply attr_ok; [exact H|reflexivity|reflexivity|reflexivity]|].
  rewrite py_upper_ascii by exact A. clear H A. induction t as [|c t IH]; [constructor|]. constructor; [|exact IH]. unfold raised, small.
  destruct (N.leb_spec 97 c), (N.leb_spec c 122); cbn [andb]; lia.
Qed.
(** two ASCII texts have the same as_lower exactly if they have the same as_upper: both mean equal but for the case of letters *)
Theorem C70_case_insensitive : forall t t' l l' u u', Forall2 lowered t l -> Forall2 lowered t' l' -> Forall2 raised t u -> Forall2 raised t' u' -> (l = l' <-> u = u').
Proof.
  unfold lowered, raised, capital, small.
  assert (E : forall (a : N) (x : str) b y, (a :: x = b :: y <-> a = b /\ x = y)) by (intros; split; [intro K; inversion K; auto|intros [-> ->]; reflexivity]).
  intros t t' l l' u u' L. revert t' l' u u'. induction L as [|c d t l D L IH]; intros t' l' u u' L' U U'; inversion U; subst; inversion L'; subst; inversion U'; subst; try (split; reflexivity); try (split; discriminate).
  rewrite !E. match goal with |- ?d1 = ?d2 /\ l = ?x <-> ?u1 = ?u2 /\ ?b = ?e => assert (K : l = x <-> b = e) by (eapply IH; eassumption); assert (K1 : d1 = d2 <-> u1 = u2) by (clear K IH; lia) end. tauto.
Qed.
(** as_lower and as_upper change nothing twice *)
Theorem C70_idempotent : forall t r r', (Forall2 lowered t r -> Forall2 lowered r r' -> r' = r) /\ (Forall2 raised t r -> Forall2 raised r r' -> r' = r).
Proof.
  unfold lowered, raised, capital, small. intros t r r'. split; (intro H; revert r'; induction H as [|c d t r D H IH]; intros r' H'; inversion H'; subst; [reflexivity|]; f_equal; [lia|apply IH; assumption]).
Qed.
End C70.
Print Assumptions C70_as_lower.
Print Assumptions C70_as_upper.
Print Assumptions C70_case_insensitive.
Print Assumptions C70_idempotent.
Example C70_example :
  let at_ n := fst (run demo_world (eval untyped_ctx VNull (EAttr (ELit (VStr (s "Az [`{ 09"))) (s n) false)) demo_st) in
  at_ "as_lower"%string = Ok (VStr (s "az [`{ 09")) /\ at_ "as_upper"%string = Ok (VStr (s "AZ [`{ 09")).
Proof. cbv zeta. split; vm_compute; reflexivity. Qed.

(** ** C57: hexadecimal *)
Section C57.
Context (Orc : Oracle) (C : ctx) (thing : value) (w : world).
Notation yields := (yields C thing w). Notation fails := (fails C thing w). Notation yields_all := (yields_all C thing w).

(** the character [c] is a hexadecimal digit of value [d] *)
Definition hex_digit (c d : N) : Prop :=
  (48 <= c <= 57 /\ d = c - 48)%N \/ (97 <= c <= 102 /\ d = c - 87)%N \/ (65 <= c <= 70 /\ d = c - 55)%N.
(** the text spells the bytes, two digits each *)
Inductive spells : str -> list N -> Prop :=
| Sp_nil : spells [] []
| Sp_cons : forall c1 c2 d1 d2 r l, hex_digit c1 d1 -> hex_digit c2 d2 -> spells r l -> spells (c1 :: c2 :: r) ((16 * d1 + d2)%N :: l).
(** the encoding names, in any case *)
Definition hex_name (e : str) : Prop := cased e (s "hex") \/ cased e (s "base16").

Lemma xdigit_iff : forall c d, xdigit_val c = Some d <-> hex_digit c d.
Proof.
  intros c d. unfold xdigit_val, hex_digit, in_range.
  destruct (N.leb_spec 48 c), (N.leb_spec c 57); cbn [andb]; try (split; [intro K; inversion K; lia|intros; f_equal; lia]);
  destruct (N.leb_spec 97 c), (N.leb_spec c 102); cbn [andb]; try (split; [intro K; inversion K; lia|intros; f_equal; lia]);
  destruct (N.leb_spec 65 c), (N.leb_spec c 70); cbn [andb]; (split; [intro K; inversion K; lia|intros; try (f_equal; lia); lia]).
Qed.

Lemma a2b_iff : forall t b, a2b_hex t = Some b <-> spells t b.
Proof.
  assert (G : forall n t, (length t <= n)%nat -> forall b, a2b_hex t = Some b <-> spells t b).
  { induction n as [|n IH]; intros t L b; [destruct t; [|cbn in L; lia]|]; [split; [intro H; inversion H; constructor|intro H; inversion H; reflexivity]|].
    destruct t as [|c1 [|c2 r]].
    - split; [intro H; inversion H; constructor|intro H; inversion H; reflexivity].
    - split; intro H; [discriminate|inversion H].
    - cbn [a2b_hex]. assert (IHr := IH r ltac:(cbn in L; lia)). split.
      + intro H. destruct (xdigit_val c1) as [d1|] eqn:E1; [|discriminate]. destruct (xdigit_val c2) as [d2|] eqn:E2; [|discriminate]. destruct (a2b_hex r) as [l|] eqn:E; [|discriminate]. inversion H; subst.
        rewrite (N.mul_comm d1 16). constructor; [apply xdigit_iff; assumption..|apply IHr; reflexivity].
      + intro H. inversion H as [|? ? d1 d2 ? l H1 H2 H3]; subst. apply xdigit_iff in H1. apply xdigit_iff in H2. apply IHr in H3. rewrite H1, H2, H3, (N.mul_comm 16 d1). reflexivity. }
  intros t b. apply (G (length t)). lia.
Qed.

Lemma b2a_spells : forall b, Forall (fun x => (x < 256)%N) b -> spells (b2a_hex b) b.
Proof.
  assert (HC : forall d, (d < 16)%N -> hex_digit (hex_char d) d) by (intros d H; unfold hex_char, hex_digit; destruct (N.ltb_spec d 10); lia).
  induction b as [|x b IH]; intro H; [constructor|]. inversion H; subst. cbn [b2a_hex]. rewrite (N.div_mod x 16) at 3 by lia. constructor.
  - apply HC. apply N.div_lt_upper_bound; lia.
  - apply HC. apply N.mod_lt. lia.
  - apply IH. assumption.
Qed.

Lemma spells_fun : forall t b b', spells t b -> spells t b' -> b = b'.
Proof. intros t b b' H H'. apply a2b_iff in H. apply a2b_iff in H'. congruence. Qed.

Lemma spells_ascii : forall t b, spells t b -> Forall (fun c => (c < 128)%N) t.
Proof. intros t b H. induction H as [|c1 c2 d1 d2 r l H1 H2 H IH]; constructor; [unfold hex_digit in H1; lia|constructor; [unfold hex_digit in H2; lia|exact IH]]. Qed.

(** spelling something is being an even number of hex digits *)
Theorem C57_spells_iff : forall t, (exists b, spells t b) <-> Nat.Even (length t) /\ Forall (fun c => exists d, hex_digit c d) t.
Proof.
  intro t. split.
  - intros [b H]. induction H as [|c1 c2 d1 d2 r l H1 H2 H [IH1 IH2]]; [split; [exists O; reflexivity|constructor]|]. split; [|constructor; [eauto|constructor; [eauto|exact IH2]]].
    destruct IH1 as [n E]. exists (S n). cbn. lia.
  - intros [[n E] F]. revert t E F. induction n as [|n IH]; intros [|c1 [|c2 r]] E F; cbn in E; try lia; [exists []; constructor|].
    inversion F as [|? ? [d1 H1] F1]; subst. inversion F1 as [|? ? [d2 H2] F2]; subst. destruct (IH r) as [l H]; [lia|exact F2|]. eexists. constructor; eassumption.
Qed.

Lemma hex_cond : forall e, hex_name e -> str_eqb (py_lower e) (s "base16") || str_eqb (py_lower e) (s "hex") = true.
Proof. intros e [H|H]; rewrite (cased_lower Orc e _ H) by (apply plain_text; reflexivity); [rewrite orb_true_r|]; reflexivity. Qed.

(** b.decode("hex") is two digits per byte, spelling b *)
Theorem C57_decode : forall o a safe q b q1 e q2, yields q o (VBytes b) q1 -> yields q1 a (VStr e) q2 -> hex_name e ->
  let f := EAttr o (s "decode") safe in passes Orc f [VStr e] -> is_compat TString (returns Orc f) = true ->
  exists t, yields q (ECall f [a]) (VStr t) q2 /\ (Forall (fun x => (x < 256)%N) b -> spells t b).
Proof.
  intros o a safe q b q1 e q2 Ho Ha HN f P R.
  assert (Hf : yields q f (VMeth Mdecode (VBytes b)) q1) by (eapply attr_ok; [exact Ho|reflexivity|reflexivity|reflexivity]).
  assert (Hs : yields_all q1 [a] [VStr e] q2) by (econstructor; [exact Ha|constructor]).
  assert (X := call_run Orc C thing w f [a] q (VMeth Mdecode (VBytes b)) q1 [VStr e] q2 P Hf eq_refl Hs). cbn [apply_fun apply_flat run meth_call] in X. rewrite (hex_cond e HN) in X.
  exists (b2a_hex b). split; [|apply b2a_spells]. unfold P_Ops.yields. rewrite X. unfold outcome, new_value. cbn [coerce from_value rmap set_tz rbind]. rewrite R. reflexivity.
Qed.

(** t.encode("hex") is the bytes t spells; FunctionCallError exactly if it spells none *)
Theorem C57_encode : forall o a safe q t q1 e q2, yields q o (VStr t) q1 -> yields q1 a (VStr e) q2 -> hex_name e ->
  let f := EAttr o (s "encode") safe in passes Orc f [VStr e] -> is_compat TBytes (returns Orc f) = true ->
  (forall b, spells t b -> yields q (ECall f [a]) (VBytes b) q2) /\ ((~ exists b, spells t b) -> fails q (ECall f [a]) XFunCall q2).
Proof.
  intros o a safe q t q1 e q2 Ho Ha HN f P R.
  assert (Hf : yields q f (VMeth Mencode (VStr t)) q1) by (eapply attr_ok; [exact Ho|reflexivity|reflexivity|reflexivity]).
  assert (Hs : yields_all q1 [a] [VStr e] q2) by (econstructor; [exact Ha|constructor]).
  assert (X := call_run Orc C thing w f [a] q (VMeth Mencode (VStr t)) q1 [VStr e] q2 P Hf eq_refl Hs). cbn [apply_fun apply_flat run meth_call] in X. rewrite (hex_cond e HN) in X. split.
  - intros b S. rewrite (utf8_encode_ascii t (spells_ascii t b S)) in X. cbn [rbind] in X. apply a2b_iff in S. rewrite S in X. unfold P_Ops.yields. rewrite X. unfold outcome, new_value. cbn [coerce from_value rmap set_tz rbind]. rewrite R. reflexivity.
  - intro N. destruct (utf8_encode t) as [u|x] eqn:U; cbn [rbind] in X; [|apply utf8_encode_err in U; subst x; exact X].
    destruct (a2b_hex u) as [b|] eqn:E; [|exact X]. exfalso. apply N. exists b. apply a2b_iff in E. rewrite (utf8_encode_only_ascii t u U (spells_ascii u b E)). exact E.
Qed.

(** b.decode("hex").encode("hex") is b again *)
Theorem C57_round_trip : forall o a a' safe safe' q b q1 e q2 e' q3, yields q o (VBytes b) q1 -> yields q1 a (VStr e) q2 -> yields q2 a' (VStr e') q3 -> hex_name e -> hex_name e' ->
  Forall (fun x => (x < 256)%N) b ->
  let f := EAttr o (s "decode") safe in let g := EAttr (ECall f [a]) (s "encode") safe' in
  passes Orc f [VStr e] -> is_compat TString (returns Orc f) = true -> passes Orc g [VStr e'] -> is_compat TBytes (returns Orc g) = true ->
  yields q (ECall g [a']) (VBytes b) q3.
Proof.
  intros o a a' safe safe' q b q1 e q2 e' q3 Ho Ha Ha' HN HN' B f g P R P' R'. destruct (C57_decode o a safe q b q1 e q2 Ho Ha HN P R) as [t [Ht S]].
  apply (C57_encode (ECall f [a]) a' safe' q t q2 e' q3 Ht Ha' HN' P' R'). apply S. exact B.
Qed.
End C57.
Print Assumptions C57_round_trip.
Print Assumptions C57_encode.
Example C57_example : let f b := EAttr (ELit (VBytes b)) (s "decode") false in let h := ELit (VStr (s "hex")) in
  let enc t := fst (run demo_world (eval untyped_ctx VNull (ECall (EAttr (ELit (VStr (s t))) (s "encode") false) [h])) demo_st) in
  hex_name (s "hEx") /\ passes demo_orc (f [10; 255]%N) [VStr (s "hex")] /\
  fst (run demo_world (eval untyped_ctx VNull (ECall (f [10; 255]%N) [h])) demo_st) = Ok (VStr (s "0aff")) /\
  enc "0AfF"%string = Ok (VBytes [10; 255]%N) /\ enc "0af"%string = Err XFunCall /\ enc "zz"%string = Err XFunCall.
Proof.
  cbv zeta. split; [left; repeat constructor; cbn; lia|]. split; [|vm_compute; repeat split]. right. eexists _, _, _, _. split; [reflexivity|]. split; [intros v [<-|[]]; eexists; reflexivity|].
  split; [intros m H; inversion H; cbn; lia|]. intros l H. inversion H; subst. split; [cbn; lia|]. intros [|[|i]] v p Hv Hp; cbn in Hv, Hp; try discriminate.
  inversion Hv; inversion Hp; subst. exists TString. split; reflexivity.
Qed.
