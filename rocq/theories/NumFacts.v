(** * NumFacts: digits, number literals and str(Decimal) *)
From Coq Require Import Lia String.
From Verif Require Import Base Dec Value DType Types Ops ParseUtil.
Open Scope N_scope.

Lemma of_digits_aux : forall b ds acc, fold_left (fun acc d => acc * b + d) ds acc = acc * b ^ N.of_nat (length ds) + of_digits b ds.
Proof.
  intros b. unfold of_digits. induction ds as [|d ds IH]; intro acc; [cbn; rewrite N.mul_1_r, N.add_0_r; reflexivity|].
  cbn [fold_left length]. rewrite IH, (IH (0 * b + d)), Nat2N.inj_succ, N.pow_succ_r'. rewrite N.mul_0_l, N.add_0_l, N.mul_add_distr_r. rewrite N.add_assoc. f_equal. f_equal. rewrite N.mul_assoc. reflexivity.
Qed.
Lemma of_digits_app : forall b l m, of_digits b (l ++ m) = of_digits b l * b ^ N.of_nat (length m) + of_digits b m.
Proof. intros. unfold of_digits at 1. rewrite fold_left_app. apply of_digits_aux. Qed.
Lemma of_digits_cons : forall b d l, of_digits b (d :: l) = d * b ^ N.of_nat (length l) + of_digits b l.
Proof. intros. change (d :: l) with ([d] ++ l). rewrite of_digits_app. reflexivity. Qed.
Lemma of_digits_zeros : forall b n, of_digits b (repeat 0 n) = 0.
Proof. intros b n. induction n as [|n IH]; [reflexivity|]. cbn [repeat]. rewrite of_digits_cons, IH. reflexivity. Qed.

Definition dig (ds : list N) : Prop := Forall (fun d => d < 10) ds.

Lemma digits_aux_spec : forall f n acc, n < 2 ^ N.of_nat f -> exists ds, digits_aux f n acc = (ds ++ acc)%list /\ dig ds /\ of_digits 10 ds = n /\ ds <> [] /\ (hd 1 ds = 0 -> ds = [0]).
Proof.
  induction f as [|f IH]; intros n acc H; cbn [digits_aux].
  - cbn in H. assert (n = 0) by lia. subst. exists [0]. repeat split; [constructor; [lia|constructor]|discriminate].
  - destruct (N.ltb_spec n 10) as [L|L]; [exists [n]; repeat split; [constructor; [lia|constructor]|discriminate|cbn; intros ->; reflexivity]|].
    assert (B : n / 10 < 2 ^ N.of_nat f). { apply N.div_lt_upper_bound; [lia|]. rewrite Nat2N.inj_succ, N.pow_succ_r' in H. lia. }
    destruct (IH (n / 10) (n mod 10 :: acc) B) as [ds [E [D [V [NE Z]]]]]. exists (ds ++ [n mod 10])%list. rewrite E, <- app_assoc. repeat split.
    + apply Forall_app. split; [exact D|]. constructor; [apply N.mod_lt; lia|constructor].
    + rewrite of_digits_app, V. cbn. rewrite (N.div_mod n 10) at 3 by lia. lia.
    + destruct ds; discriminate.
    + intro K. exfalso. destruct ds as [|d ds]; [congruence|]. cbn in K. subst d. rewrite (Z eq_refl) in V. cbn in V. symmetry in V. apply N.div_small_iff in V; lia.
Qed.
Lemma digits_spec : forall n, dig (digits n) /\ of_digits 10 (digits n) = n /\ digits n <> [] /\ (hd 1 (digits n) = 0 -> digits n = [0]).
Proof.
  intro n. unfold digits. destruct (digits_aux_spec (N.to_nat (N.size n)) n []) as [ds [E R]]; [rewrite N2Nat.id; apply N.size_gt|]. rewrite E, app_nil_r. exact R.
Qed.

(** a digit reader that reads ASCII digits as such and no other ASCII character *)
Definition reads_digits (val : N -> option N) : Prop :=
  (forall d, d < 10 -> val (d + 48) = Some d) /\ val 46 = None /\ val 69 = None /\ val 43 = None /\ val 45 = None.
Lemma digit_val_reads : reads_digits digit_val.
Proof. repeat split. intros d H. unfold digit_val, in_range. destruct (N.leb_spec 48 (d + 48)); [|lia]. destruct (N.leb_spec (d + 48) 57); [|lia]. cbn. f_equal. lia. Qed.
Lemma udigit_reads : forall (Orc : Oracle), reads_digits udigit.
Proof. intro Orc. destruct digit_val_reads as [A _]. repeat split. intros d H. unfold udigit. rewrite (A d H). reflexivity. Qed.

Lemma span_chars : forall val, reads_digits val -> forall ds r, dig ds -> match r with c :: _ => val c = None | [] => True end -> span_digits val (digit_chars ds ++ r) = (ds, r).
Proof.
  intros val [V _]. induction ds as [|d ds IH]; intros r D H.
  - cbn. destruct r; [reflexivity|]. cbn. rewrite H. reflexivity.
  - inversion D; subst. cbn [digit_chars map app span_digits]. rewrite V by assumption. change (map (fun d0 => d0 + 48) ds) with (digit_chars ds). rewrite IH by assumption. reflexivity.
Qed.

Definition frac_text (f : option (list N)) : str := match f with Some l => 46 :: digit_chars l | None => [] end.
Definition exp_text (x : option Z) : str := match x with Some z => 69 :: z_str_signed z | None => [] end.
Definition num_text (ip : list N) (f : option (list N)) (x : option Z) : str := (digit_chars ip ++ frac_text f ++ exp_text x)%list.

Lemma scan_exp_text : forall val, reads_digits val -> forall x, scan_exp val (exp_text x) = Some (option_map (fun z => ((z <? 0)%Z, digits (Z.abs_N z))) x).
Proof.
  intros val R [z|]; [|reflexivity]. destruct (digits_spec (Z.abs_N z)) as [D [_ [N _]]]. cbn [exp_text scan_exp option_map]. change ((69 =? 69) || (69 =? 101)) with true. cbv iota. unfold z_str_signed.
  assert (S : span_digits val (digit_chars (digits (Z.abs_N z))) = (digits (Z.abs_N z), [])).
  { rewrite <- (app_nil_r (digit_chars _)). apply span_chars; auto. }
  destruct (z <? 0)%Z; cbn [N.eqb Pos.eqb]; rewrite S; revert N; generalize (digits (Z.abs_N z)); intros [|d l] N; congruence || reflexivity.
Qed.

Lemma scan_num_text : forall val, reads_digits val -> forall ip f x, dig ip -> ip <> [] -> match f with Some l => dig l | None => True end ->
  scan_num val (num_text ip f x) = Some {| n_int := ip; n_frac := f; n_exp := option_map (fun z => ((z <? 0)%Z, digits (Z.abs_N z))) x |}.
Proof.
  intros val R ip f x D N F. unfold scan_num, num_text. assert (NE : nonempty ip = true) by (destruct ip; [congruence|reflexivity]).
  rewrite span_chars; auto.
  - destruct f as [l|]; cbn [frac_text app].
    + change (46 =? 46) with true. cbv iota. rewrite span_chars; auto; [|destruct x; [apply R|exact I]]. rewrite NE. cbn [orb]. rewrite (scan_exp_text val R x). reflexivity.
    + destruct x as [z|]; [|rewrite NE; reflexivity]. assert (E := scan_exp_text val R (Some z)). cbn [exp_text] in *. change (69 =? 46) with false. cbv iota. rewrite NE, E. reflexivity.
  - destruct f; cbn; [apply R|]. destruct x; cbn; [apply R|exact I].
Qed.

Lemma digit_chars_app : forall l m, digit_chars (l ++ m) = (digit_chars l ++ digit_chars m)%list.
Proof. intros. apply map_app. Qed.
Lemma digit_chars_zeros : forall n, digit_chars (repeat 0 n) = repeat 48 n.
Proof. intro n. unfold digit_chars. induction n; cbn; congruence. Qed.

(** str(Decimal) always has the shape of a number literal that spells the same coefficient and exponent. *)
Lemma dec_str_text : forall neg c e, exists ip f x,
  dec_str neg c e = ((if neg then [45] else []) ++ num_text ip f x)%list /\ dig ip /\ ip <> [] /\ match f with Some l => dig l | None => True end /\
  (hd 1 ip = 0 -> ip = [0]) /\
  of_digits 10 (ip ++ match f with Some l => l | None => [] end) = c /\
  (match x with Some z => z | None => 0 end - Z.of_nat (length (match f with Some l => l | None => [] end)))%Z = e /\
  (e = 0%Z -> f = None /\ x = None /\ ip = digits c) /\ (e <> 0%Z -> f <> None \/ x <> None).
Proof.
  intros neg c e. destruct (digits_spec c) as [D [V [NE H0]]]. unfold dec_str. remember (digits c) as ds eqn:Eds.
  assert (LN : length (digit_chars ds) = length ds) by (apply map_length). rewrite LN.
  assert (L1 : (1 <= length ds)%nat) by (destruct ds; [congruence|cbn; lia]).
  set (n := Z.of_nat (length ds)). set (left := (e + n)%Z). cbv zeta.
  set (dot := if ((e <=? 0) && (-6 <? left))%Z then left else 1%Z).
  set (x := if (left =? dot)%Z then None else Some (left - dot)%Z).
  assert (EX : (if (left =? dot)%Z then [] else 69 :: z_str_signed (left - dot)) = exp_text x) by (unfold x; destruct (left =? dot)%Z; reflexivity).
  assert (XV : (match x with Some z => z | None => 0 end = left - dot)%Z) by (unfold x; destruct (Z.eqb_spec left dot); lia).
  rewrite EX.
  assert (DotCase : (e <= 0 /\ -6 < left /\ dot = left)%Z \/ (~ (e <= 0 /\ -6 < left) /\ dot = 1)%Z).
  { unfold dot. destruct (Z.leb_spec e 0), (Z.ltb_spec (-6) left); cbn [andb]; lia. }
  clearbody dot. 
  destruct (Z.leb_spec dot 0) as [Dl|Dl]; [|destruct (Z.leb_spec n dot) as [Dn|Dn]].
  - exists [0], (Some (repeat 0 (Z.to_nat (- dot)) ++ ds)%list), x. repeat split.
    + unfold num_text. cbn [frac_text]. rewrite digit_chars_app, digit_chars_zeros. cbn. reflexivity.
    + constructor; [lia|constructor].
    + discriminate.
    + apply Forall_app. split; [|exact D]. apply Forall_forall. intros y Hy. apply repeat_spec in Hy. rewrite Hy. lia.
    + cbn [app]. rewrite of_digits_cons, of_digits_app, of_digits_zeros, V. lia.
    + rewrite XV, app_length, repeat_length. unfold left, n in *. lia.
    + unfold left, n in *. lia.
    + unfold left, n in *. lia.
    + unfold left, n in *. lia.
    + intro. left. discriminate.
  - assert (Z : Z.to_nat (dot - n) = 0%nat) by (unfold left, n in *; lia). exists ds, None, x. rewrite Z. cbn [repeat]. rewrite app_nil_r. repeat split; auto.
    + rewrite app_nil_r. exact V.
    + rewrite XV. cbn. unfold left, n in *. lia.
    + unfold x. destruct (Z.eqb_spec left dot); [reflexivity|]. exfalso. unfold left, n in *. lia.
    + intro Ne. right. unfold x. destruct (Z.eqb_spec left dot); [|discriminate]. exfalso. unfold left, n in *. lia.
  - exists (firstn (Z.to_nat dot) ds), (Some (skipn (Z.to_nat dot) ds)), x. unfold dig in D. repeat split.
    + unfold num_text. cbn [frac_text]. unfold digit_chars. rewrite firstn_map, skipn_map. reflexivity.
    + rewrite <- (firstn_skipn (Z.to_nat dot) ds) in D. apply Forall_app in D. apply D.
    + intro K. apply (f_equal (@length N)) in K. rewrite firstn_length in K. cbn in K. unfold n in *. lia.
    + rewrite <- (firstn_skipn (Z.to_nat dot) ds) in D. apply Forall_app in D. apply D.
    + intro K. exfalso. destruct ds as [|d r]; [congruence|]. destruct (Z.to_nat dot) as [|k] eqn:Ek; [lia|]. cbn in K. subst d. specialize (H0 eq_refl). inversion H0; subst r. cbn in n. unfold n in *. lia.
    + rewrite firstn_skipn. exact V.
    + rewrite XV, skipn_length. unfold left, n in *. lia.
    + unfold left, n in *. lia.
    + unfold left, n in *. lia.
    + unfold left, n in *. lia.
    + intro. left. discriminate.
Qed.
