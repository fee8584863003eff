(** * Theorems about number and duration texts and number attributes (C47, C48, C54) *)
From Coq Require Import QArith Qabs Qpower Lqa Lia String.
From Verif Require Import Base Dec Value DType DTypeFacts Types Ops EqFacts CoerceFacts TypesFacts DecFacts Flt ParseUtil NumFacts FltFacts Attr Prog Ast Eval Build Engine
  ProgFacts StateFacts Post Refine Demo P_Compare P_Ops P_Eval P_Names P_Calls P_Attrs.
Open Scope list_scope.
Open Scope N_scope.

(** ** Specification: positional notation *)
Fixpoint positional (b : N) (ds : list N) : N := match ds with [] => 0 | d :: r => d * b ^ N.of_nat (length r) + positional b r end.
Lemma of_digits_positional : forall b ds, of_digits b ds = positional b ds.
Proof. intros b. induction ds as [|d ds IH]; [reflexivity|]. rewrite of_digits_cons, IH. reflexivity. Qed.

(** digits [.digits] [e[+-]digits] *)
Record numeral := { nm_int : list N; nm_frac : option (list N); nm_exp : option (N * option bool * list N) }.
Definition opt_list {A} (o : option (list A)) : list A := match o with Some l => l | None => [] end.
Definition sign_text (o : option bool) : str := match o with Some true => [45] | Some false => [43] | None => [] end.
Definition numeral_text (n : numeral) : str :=
  (digit_chars (nm_int n) ++ match nm_frac n with Some l => 46 :: digit_chars l | None => [] end ++
   match nm_exp n with Some (c, sg, l) => c :: sign_text sg ++ digit_chars l | None => [] end)%list.
Definition numeral_ok (n : numeral) : Prop :=
  Forall (fun d => d < 10) (nm_int n ++ opt_list (nm_frac n)) /\ nm_int n ++ opt_list (nm_frac n) <> [] /\
  match nm_exp n with Some (c, _, l) => (c = 69 \/ c = 101) /\ Forall (fun d => d < 10) l /\ l <> [] | None => True end.
Definition exponent (n : numeral) : Z :=
  match nm_exp n with
  | Some (_, Some true, l) => - Z.of_N (positional 10 l)
  | Some (_, _, l) => Z.of_N (positional 10 l)
  | None => 0
  end%Z.
Definition numeral_value (n : numeral) : Q :=
  (inject_Z (Z.of_N (positional 10 (nm_int n ++ opt_list (nm_frac n)))) * (10 # 1) ^ (exponent n - Z.of_nat (length (opt_list (nm_frac n)))))%Q.

Section Num.
Context (Orc : Oracle).
(** visible ASCII characters are not white space *)
Definition plain_space : Prop := forall c, 33 <= c < 127 -> o_space c = false.

Lemma lstrip_keep : forall c r, o_space c = false -> lstrip (c :: r) = c :: r.
Proof. intros c r H. cbn. rewrite H. reflexivity. Qed.
Lemma strip_keep : forall t, Forall (fun c => o_space c = false) t -> strip t = t.
Proof.
  intros t F. unfold strip. assert (A : lstrip t = t) by (destruct F; [reflexivity|apply lstrip_keep; assumption]). rewrite A.
  assert (B : lstrip (rev t) = rev t). { assert (G := Forall_rev F). destruct G; [reflexivity|apply lstrip_keep; assumption]. }
  rewrite B. apply rev_involutive.
Qed.
Lemma strip_spec : forall t, exists a b, t = a ++ strip t ++ b /\ Forall (fun c => o_space c = true) a /\ Forall (fun c => o_space c = true) b /\
  (match strip t with c :: _ => o_space c = false | [] => True end) /\ (match rev (strip t) with c :: _ => o_space c = false | [] => True end).
Proof.
  assert (L : forall t, exists a, t = a ++ lstrip t /\ Forall (fun c => o_space c = true) a /\ match lstrip t with c :: _ => o_space c = false | [] => True end).
  { induction t as [|c t [a [E [F H]]]]; [exists []; repeat split; constructor|]. cbn. destruct (o_space c) eqn:S.
    - exists (c :: a). split; [cbn; congruence|]. split; [constructor; assumption|exact H].
    - exists []. repeat split; [constructor|exact S]. }
  intro t. destruct (L t) as [a [E [F H]]]. destruct (L (rev (lstrip t))) as [b [E' [F' H']]]. exists a, (rev b). unfold strip.
  assert (X : lstrip t = rev (lstrip (rev (lstrip t))) ++ rev b). { rewrite <- rev_app_distr, <- E', rev_involutive. reflexivity. }
  rewrite <- X. split; [exact E|]. split; [exact F|]. split; [apply Forall_rev; exact F'|]. rewrite rev_involutive. split; [|exact H'].
  destruct (rev (lstrip (rev (lstrip t)))) as [|c r] eqn:R; [exact I|]. rewrite X in H. exact H.
Qed.

Lemma chars_plain : forall ds, dig ds -> Forall (fun c => 33 <= c < 127 /\ c <> 95) (digit_chars ds).
Proof. intros ds D. unfold digit_chars. apply Forall_map. eapply Forall_impl; [|exact D]. cbn. intros. lia. Qed.

Lemma span_all : forall val, reads_digits val -> forall ds, dig ds -> span_digits val (digit_chars ds) = (ds, []).
Proof. intros val R ds D. rewrite <- (app_nil_r (digit_chars ds)). apply span_chars; auto. Qed.

Lemma scan_numeral : forall val, reads_digits val -> val 101 = None -> forall n, numeral_ok n ->
  scan_num val (numeral_text n) = Some {| n_int := nm_int n; n_frac := nm_frac n;
    n_exp := match nm_exp n with Some (_, sg, l) => Some (match sg with Some true => true | _ => false end, l) | None => None end |}.
Proof.
  intros val R R101 [ip fp ex] [D [NE X]]. cbn in *. apply Forall_app in D as [D1 D2]. unfold scan_num, numeral_text. cbn [nm_int nm_frac nm_exp].
  set (xt := match ex with Some (c, sg, l) => c :: sign_text sg ++ digit_chars l | None => [] end).
  assert (SX : scan_exp val xt = Some (match ex with Some (_, sg, l) => Some (match sg with Some true => true | _ => false end, l) | None => None end)).
  { unfold xt. destruct ex as [[[c sg] l]|]; [|reflexivity]. destruct X as [C [Dl Nl]]. unfold scan_exp.
    assert (CE : (c =? 69) || (c =? 101) = true) by (destruct C; subst; reflexivity). rewrite CE.
    destruct l as [|d l]; [congruence|]. assert (SP := span_all val R (d :: l) Dl).
    destruct sg as [[|]|]; cbn [sign_text app]; [change (45 =? 43) with false; change (45 =? 45) with true|change (43 =? 43) with true|]; cbv iota; try (rewrite SP; reflexivity).
    cbn [digit_chars map] in *. inversion Dl; subst. destruct (N.eqb_spec (d + 48) 43); [lia|]. destruct (N.eqb_spec (d + 48) 45); [lia|]. rewrite SP. reflexivity. }
  assert (XC : match xt with c :: _ => val c = None /\ c <> 46 | [] => True end).
  { unfold xt. destruct ex as [[[c sg] l]|]; [|exact I]. destruct X as [[->| ->] _]; (split; [apply R || exact R101|discriminate]). }
  rewrite span_chars; auto.
  2:{ destruct fp; [apply R|]. cbn [app]. destruct xt; [exact I|apply XC]. }
  destruct fp as [l|]; cbn [app].
  - change (46 =? 46) with true. cbv iota. rewrite span_chars; auto; [|destruct xt; [exact I|apply XC]].
    assert (Q : nonempty ip || nonempty l = true) by (cbn [opt_list] in NE; destruct ip; [destruct l; [cbn in NE; congruence|reflexivity]|reflexivity]). rewrite Q, SX. reflexivity.
  - cbn [opt_list] in NE. rewrite app_nil_r in NE. assert (Q : nonempty ip = true) by (destruct ip; [congruence|reflexivity]). rewrite Q.
    destruct xt as [|c r] eqn:E.
    + destruct ex as [[[c sg] l]|]; [discriminate|]. reflexivity.
    + destruct XC as [_ NC]. destruct (N.eqb_spec c 46); [congruence|]. rewrite SX. reflexivity.
Qed.

Lemma numeral_plain : forall n, numeral_ok n -> Forall (fun c => 33 <= c < 127 /\ c <> 95) (numeral_text n).
Proof.
  intros [ip fp ex] [D [NE X]]. cbn in *. apply Forall_app in D as [D1 D2]. unfold numeral_text. cbn. apply Forall_app. split; [apply chars_plain; exact D1|]. apply Forall_app. split.
  - destruct fp; [|constructor]. constructor; [lia|apply chars_plain; exact D2].
  - destruct ex as [[[c sg] l]|]; [|constructor]. destruct X as [C [Dl _]]. constructor; [destruct C; subst; lia|]. apply Forall_app. split; [|apply chars_plain; exact Dl].
    destruct sg as [[|]|]; repeat constructor; lia.
Qed.

Lemma dec_of_numeral : plain_space -> forall (neg : bool) n, numeral_ok n ->
  dec_of_str ((if neg then [45] else []) ++ numeral_text n) = Some (DFin neg (positional 10 (nm_int n ++ opt_list (nm_frac n))) (exponent n - Z.of_nat (length (opt_list (nm_frac n))))).
Proof.
  intros PS neg n OK. assert (P := numeral_plain n OK). unfold dec_of_str.
  assert (P' : Forall (fun c => 33 <= c < 127 /\ c <> 95) ((if neg then [45] else []) ++ numeral_text n)). { destruct neg; [constructor; [lia|exact P]|exact P]. }
  rewrite strip_keep by (eapply Forall_impl; [|exact P']; cbn; intros c [B _]; apply PS; exact B).
  assert (FI : forall t, Forall (fun c => 33 <= c < 127 /\ c <> 95) t -> filter (fun c => negb (c =? 95)) t = t).
  { induction t as [|c t IH]; intro F; [reflexivity|]. inversion F as [|? ? [_ B] F']; subst. cbn. destruct (N.eqb_spec c 95); [congruence|]. cbn. rewrite IH by exact F'. reflexivity. }
  rewrite FI by exact P'. clear FI P P'.
  assert (SC := scan_numeral udigit (udigit_reads Orc) eq_refl n OK).
  assert (V : forall neg', numlit_dec neg' {| n_int := nm_int n; n_frac := nm_frac n; n_exp := match nm_exp n with Some (_, sg, l) => Some (match sg with Some true => true | _ => false end, l) | None => None end |}
     = DFin neg' (positional 10 (nm_int n ++ opt_list (nm_frac n))) (exponent n - Z.of_nat (length (opt_list (nm_frac n))))).
  { intro neg'. unfold numlit_dec. rewrite of_digits_positional. unfold frac_digits, exp_val, exponent, opt_list. cbn. destruct (nm_exp n) as [[[c sg] l]|]; [|reflexivity]. rewrite of_digits_positional. destruct sg as [[|]|]; reflexivity. }
  destruct neg; cbn [app].
  - change (45 =? 43) with false. change (45 =? 45) with true. cbv iota. rewrite SC, V. reflexivity.
  - assert (S0 : match numeral_text n with c :: r => if c =? 43 then (false, r) else if c =? 45 then (true, r) else (false, numeral_text n) | [] => (false, numeral_text n) end = (false, numeral_text n)).
    { unfold numeral_text. destruct OK as [D [NE X]]. destruct (nm_int n) as [|d r]; cbn [digit_chars map app].
      - destruct (nm_frac n); [reflexivity|]. cbn in NE. congruence.
      - inversion D; subst. destruct (N.eqb_spec (d + 48) 43); [lia|]. destruct (N.eqb_spec (d + 48) 45); [lia|]. reflexivity. }
    match goal with |- match ?x with pair _ _ => _ end = _ => assert (S1 : x = (false, numeral_text n)) by exact S0; rewrite S1 end. rewrite SC, V. reflexivity.
Qed.

(** ** C47 *)

(** a decimal numeral without superfluous leading zeros denotes exactly the number written *)
Theorem C47_decimal : plain_space -> forall n, numeral_ok n -> (match nm_int n with 0 :: _ :: _ => False | _ => True end) ->
  exists c e, parse_float (numeral_text n) = Ok (DFin false c e) /\ (dec_q false c e == numeral_value n)%Q.
Proof.
  intros PS n OK NZ. exists (positional 10 (nm_int n ++ opt_list (nm_frac n))), (exponent n - Z.of_nat (length (opt_list (nm_frac n))))%Z.
  split; [|unfold dec_q, numeral_value, signed; reflexivity].
  assert (E := dec_of_numeral PS false n OK). cbn [app] in E. unfold parse_float. rewrite E.
  assert (B : forall lo hi, (forall d, d < 10 -> in_range lo hi (d + 48) = true -> True) -> True) by (intros; exact I). clear B.
  assert (H : match numeral_text n with c :: d :: _ => (c =? 48) && in_range 48 57 d = false /\ (c =? 48) && ((d =? 98) || (d =? 111) || (d =? 120)) = false | _ => True end).
  { unfold numeral_text. destruct OK as [D [NE X]]. destruct (nm_int n) as [|d [|d2 r]]; cbn [digit_chars map app].
    - destruct (nm_frac n) as [[|f l]|]; cbn [digit_chars map app]; [|split; reflexivity|].
      + cbn in NE. congruence.
      + cbn in NE. congruence.
    - destruct (nm_frac n) as [l|]; cbn [app].
      + cbn [N.eqb Pos.eqb in_range N.leb N.compare Pos.compare Pos.compare_cont]. change (in_range 48 57 46) with false. rewrite !andb_false_r. split; reflexivity.
      + destruct (nm_exp n) as [[[c sg] l]|]; [|exact I]. destruct X as [[->| ->] _]; cbn [app]; (change (in_range 48 57 69) with false || change (in_range 48 57 101) with false); rewrite !andb_false_r; split; reflexivity.
    - assert (d <> 0). { intros ->. exact NZ. } inversion D as [|? ? D1 D2]; subst. destruct (N.eqb_spec (d + 48) 48); [lia|]. split; reflexivity. }
  destruct (numeral_text n) as [|c [|d r]]; [reflexivity|reflexivity|]. destruct H as [-> ->]. reflexivity.
Qed.

(** 0x, 0o and 0b literals denote the integer in that base *)
Definition base_letter (c b : N) : Prop := (c = 98 /\ b = 2) \/ (c = 111 /\ b = 8) \/ (c = 120 /\ b = 16).
Lemma span_xdigits : forall b ds cs, Forall2 hex_digit cs ds -> Forall (fun d => d < b) ds -> span_digits (small_digit b) cs = (ds, []).
Proof.
  intros b ds cs H. induction H as [|c d cs ds H1 H IH]; intro F; [reflexivity|]. inversion F; subst. cbn [span_digits]. unfold small_digit at 1.
  assert (X : xdigit_val c = Some d). { apply xdigit_iff. exact H1. } rewrite X. destruct (N.ltb_spec d b); [|lia]. rewrite IH by assumption. reflexivity.
Qed.
Theorem C47_based : forall c b cs ds, base_letter c b -> Forall2 hex_digit cs ds -> Forall (fun d => d < b) ds -> ds <> [] ->
  parse_float (48 :: c :: cs) = Ok (DFin false (positional b ds) 0).
Proof.
  intros c b cs ds B H F NE. unfold parse_float, scan_base. rewrite <- of_digits_positional. assert (X := span_xdigits b ds cs H F).
  assert (Y : forall A (a z : A), match ds with [] => z | _ :: _ => a end = a) by (intros; destruct ds; [congruence|reflexivity]).
  destruct B as [[-> ->]|[[-> ->]|[-> ->]]]; cbn [N.eqb Pos.eqb andb orb]; [change (in_range 48 57 98) with false|change (in_range 48 57 111) with false|change (in_range 48 57 120) with false];
    cbv iota; rewrite X; destruct ds; try congruence; reflexivity.
Qed.

(** superfluous leading zeros are rejected *)
Theorem C47_leading_zero : forall d r, d < 10 -> parse_float (48 :: (d + 48) :: r) = Err XSynFloat.
Proof.
  intros d r H. unfold parse_float. assert (X : in_range 48 57 (d + 48) = true). { unfold in_range. destruct (N.leb_spec 48 (d + 48)); [|lia]. destruct (N.leb_spec (d + 48) 57); [reflexivity|lia]. }
  rewrite X. reflexivity.
Qed.

(** nothing but FloatSyntaxError is ever raised *)
Theorem C47_error : forall t x, parse_float t = Err x -> x = XSynFloat.
Proof.
  intros t x H. unfold parse_float in H. cbv zeta in H. match type of H with (if ?b then _ else _) = _ => destruct b end; [congruence|]. match type of H with (if ?b then _ else _) = _ => destruct b end.
  - destruct (scan_base t); [discriminate|]. destruct (o_pylit t); congruence.
  - destruct (dec_of_str t); congruence.
Qed.

(** What is accepted besides: the value is always the one spelled. [udigit] reads decimal digits of any script. *)
Inductive udigits : str -> list N -> Prop :=
| ud_nil : udigits [] []
| ud_cons : forall c d cs ds, udigit c = Some d -> udigits cs ds -> udigits (c :: cs) (d :: ds).
Inductive spells_number : str -> bool -> dec -> Prop :=
| sn_num : forall ic ip fo xo neg,
    udigits ic ip ->
    match fo with Some (fc, fp) => udigits fc fp | None => True end ->
    ip ++ match fo with Some (_, fp) => fp | None => [] end <> [] ->
    match xo with Some (c, _, xc, xs) => (c = 69 \/ c = 101) /\ udigits xc xs /\ xs <> [] | None => True end ->
    spells_number (ic ++ match fo with Some (fc, _) => 46 :: fc | None => [] end ++ match xo with Some (c, sg, xc, _) => c :: sign_text sg ++ xc | None => [] end) neg
      (DFin neg (positional 10 (ip ++ match fo with Some (_, fp) => fp | None => [] end))
         (match xo with Some (_, Some true, _, xs) => - Z.of_N (positional 10 xs) | Some (_, _, _, xs) => Z.of_N (positional 10 xs) | None => 0 end -
          Z.of_nat (length match fo with Some (_, fp) => fp | None => [] end)))
| sn_inf : forall u neg, map lower_ascii u = s "inf" \/ map lower_ascii u = s "infinity" -> spells_number u neg (DInf neg)
| sn_nan : forall u ds r neg, map lower_ascii u = (s "nan" ++ ds) \/ map lower_ascii u = (s "snan" ++ ds) -> udigits ds r -> spells_number u neg DNaN.
(** surrounding white space, underscores and one sign are allowed *)
Definition decimal_text (t : str) (d : dec) : Prop := exists a b core sg u,
  t = a ++ core ++ b /\ Forall (fun c => o_space c = true) a /\ Forall (fun c => o_space c = true) b /\
  filter (fun c => negb (c =? 95)) core = sign_text sg ++ u /\ spells_number u (match sg with Some true => true | _ => false end) d.

Lemma span_sound : forall t ds r, span_digits udigit t = (ds, r) -> exists cs, t = cs ++ r /\ udigits cs ds.
Proof.
  induction t as [|c t IH]; intros ds r H; cbn in H; [inversion H; exists []; split; [reflexivity|constructor]|].
  destruct (udigit c) as [d|] eqn:E; [|inversion H; exists []; split; [reflexivity|constructor]].
  destruct (span_digits udigit t) as [ds' r'] eqn:S. inversion H; subst. destruct (IH _ _ eq_refl) as [cs [-> U]]. exists (c :: cs). split; [reflexivity|constructor; assumption].
Qed.
Lemma scan_exp_sound : forall t x, scan_exp udigit t = Some x ->
  match x with None => t = [] | Some (neg, xs) => exists c sg xc, t = c :: sign_text sg ++ xc /\ (c = 69 \/ c = 101) /\ udigits xc xs /\ xs <> [] /\ neg = match sg with Some true => true | _ => false end end.
Proof.
  intros [|c t] x H; cbn [scan_exp] in H; [inversion H; reflexivity|]. destruct (_ || _) eqn:C; [|discriminate].
  assert (CC : c = 69 \/ c = 101). { apply orb_true_iff in C as [C|C]; apply N.eqb_eq in C; auto. }
  assert (K : forall sg u, match span_digits udigit u with ((_ :: _) as ds, []) => Some (Some (match sg with Some true => true | _ => false end, ds)) | _ => None end = Some x ->
     match x with None => False | Some (neg, xs) => exists xc, u = xc /\ udigits xc xs /\ xs <> [] /\ neg = match sg with Some true => true | _ => false end end).
  { intros sg u K. destruct (span_digits udigit u) as [[|d ds] [|y r]] eqn:S; try discriminate. inversion K; subst. apply span_sound in S as [cs [-> U]]. rewrite app_nil_r. exists cs. repeat split; [exact U|discriminate]. }
  assert (G : exists sg u, t = sign_text sg ++ u /\ match span_digits udigit u with ((_ :: _) as ds, []) => Some (Some (match sg with Some true => true | _ => false end, ds)) | _ => None end = Some x).
  { destruct t as [|y t]; [exists None, []; auto|]. destruct (N.eqb_spec y 43) as [->|]; [exists (Some false), t; auto|]. destruct (N.eqb_spec y 45) as [->|]; [exists (Some true), t; auto|exists None, (y :: t); auto]. }
  destruct G as [sg [u [-> G]]]. apply K in G. destruct x as [[neg xs]|]; [|contradiction]. destruct G as [xc [-> [U [NE ->]]]]. exists c, sg, xc. auto.
Qed.
Lemma scan_num_sound : forall u n neg, scan_num udigit u = Some n -> spells_number u neg (numlit_dec neg n).
Proof.
  intros u n neg H. unfold scan_num in H. destruct (span_digits udigit u) as [ip r] eqn:S1. apply span_sound in S1 as [ic [-> U1]].
  assert (X : forall fo ex t, scan_exp udigit t = Some ex -> match fo with Some (fc, fp) => udigits fc fp | None => True end -> ip ++ match fo with Some (_, fp) => fp | None => [] end <> [] ->
    spells_number (ic ++ match fo with Some (fc, _) => 46 :: fc | None => [] end ++ t) neg (numlit_dec neg {| n_int := ip; n_frac := match fo with Some (_, fp) => Some fp | None => None end; n_exp := ex |})).
  { intros fo ex t E F NE. apply scan_exp_sound in E. unfold numlit_dec, frac_digits, exp_val. cbn [n_int n_frac n_exp]. rewrite of_digits_positional.
    replace (match match fo with Some (_, fp) => Some fp | None => None end with Some f => f | None => [] end) with (match fo with Some (_, fp) => fp | None => [] end) by (destruct fo as [[? ?]|]; reflexivity).
    destruct ex as [[ng xs]|].
    - destruct E as [c [sg [xc [-> [CC [U [NX ->]]]]]]]. rewrite of_digits_positional. assert (SN := sn_num ic ip fo (Some (c, sg, xc, xs)) neg U1 F NE (conj CC (conj U NX))). cbv zeta. destruct sg as [[|]|]; exact SN.
    - subst t. exact (sn_num ic ip fo None neg U1 F NE I). }
  destruct r as [|c r].
  - destruct (nonempty ip) eqn:NE; [|discriminate]. inversion H; subst. apply (X None None []); [reflexivity|exact I|rewrite app_nil_r; destruct ip; [discriminate|intro; discriminate]].
  - destruct (N.eqb_spec c 46) as [->|].
    + destruct (span_digits udigit r) as [fp r''] eqn:S2. apply span_sound in S2 as [fc [-> U2]]. destruct (_ || _) eqn:NE; [|discriminate]. destruct (scan_exp udigit r'') as [e|] eqn:SE; [|discriminate]. inversion H; subst.
      apply (X (Some (fc, fp)) e r'' SE U2). destruct ip; [destruct fp; [discriminate|intro; discriminate]|intro; discriminate].
    + destruct (nonempty ip) eqn:NE; [|discriminate]. destruct (scan_exp udigit (c :: r)) as [e|] eqn:SE; [|discriminate]. inversion H; subst. apply (X None e (c :: r) SE I).
      rewrite app_nil_r. destruct ip; [discriminate|intro; discriminate].
Qed.
Lemma is_prefix_iff : forall p t, is_prefix p t = true <-> exists r, t = p ++ r.
Proof.
  induction p as [|x p IH]; intros t; cbn; [split; [eauto|reflexivity]|]. destruct t as [|y t]; [split; [discriminate|intros [r E]; discriminate]|]. rewrite andb_true_iff, IH, N.eqb_eq. split.
  - intros [-> [r ->]]. eauto.
  - intros [r E]. inversion E; subst. eauto.
Qed.
(** everything accepted is such a text (or a based literal), and the value is the number it spells *)
Theorem C47_only : forall t d, parse_float t = Ok d ->
  decimal_text t d \/ (exists c b cs ds, base_letter c b /\ t = 48 :: c :: cs /\ Forall2 hex_digit cs ds /\ Forall (fun x => x < b) ds /\ ds <> [] /\ d = DFin false (positional b ds) 0)
  \/ (exists c b cs, base_letter c b /\ t = 48 :: c :: cs /\ o_pylit t = Some d).
Proof.
  intros t d H. unfold parse_float in H. cbv zeta in H. match type of H with (if ?b then _ else _) = _ => destruct b end; [discriminate|].
  destruct (match t with c :: d :: _ => (c =? 48) && ((d =? 98) || (d =? 111) || (d =? 120)) | _ => false end) eqn:BL.
  - right. destruct t as [|z [|c cs]]; [discriminate|discriminate|]. apply andb_true_iff in BL as [Z BL]. apply N.eqb_eq in Z. subst z.
    assert (L : exists b, base_letter c b /\ (if c =? 98 then Some 2 else if c =? 111 then Some 8 else if c =? 120 then Some 16 else None) = Some b).
    { unfold base_letter. destruct (N.eqb_spec c 98) as [->|]; [exists 2; auto|]. destruct (N.eqb_spec c 111) as [->|]; [exists 8; auto|]. destruct (N.eqb_spec c 120) as [->|]; [exists 16; auto|discriminate]. }
    destruct L as [b [L LE]]. destruct (scan_base (48 :: c :: cs)) as [n|] eqn:SB.
    + left. inversion H; subst d. unfold scan_base in SB. change (48 =? 48) with true in SB. cbv iota zeta in SB. rewrite LE in SB. destruct (span_digits (small_digit b) cs) as [[|x ds] [|y r]] eqn:S; try discriminate.
      assert (SD : forall cs ds, span_digits (small_digit b) cs = (ds, []) -> Forall2 hex_digit cs ds /\ Forall (fun x => x < b) ds).
      { clear. induction cs as [|c cs IH]; intros ds S; cbn in S; [inversion S; split; constructor|]. unfold small_digit at 1 in S. destruct (xdigit_val c) as [d|] eqn:X; [|discriminate]. destruct (N.ltb_spec d b); [|discriminate].
        destruct (span_digits (small_digit b) cs) as [ds' r]. inversion S; subst. destruct (IH _ eq_refl). split; constructor; auto. apply xdigit_iff. exact X. }
      apply SD in S as [S1 S2]. exists c, b, cs, (x :: ds). rewrite <- of_digits_positional. inversion SB. repeat split; auto. discriminate.
    + right. destruct (o_pylit _) as [d'|] eqn:O; [|discriminate]. inversion H; subst. exists c, b, cs. auto.
  - left. destruct (dec_of_str t) as [d'|] eqn:E; [|discriminate]. inversion H; subst d'. clear H BL. unfold dec_of_str in E. destruct (strip_spec t) as [a [b [T [A [B _]]]]].
    set (core := strip t) in *. set (f := filter (fun c => negb (c =? 95)) core) in *.
    assert (G : exists sg u, f = sign_text sg ++ u /\ match f with c :: r => if c =? 43 then (false, r) else if c =? 45 then (true, r) else (false, f) | [] => (false, f) end = (match sg with Some true => true | _ => false end, u)).
    { destruct f as [|c r]; [exists None, []; auto|]. destruct (N.eqb_spec c 43) as [->|]; [exists (Some false), r; auto|]. destruct (N.eqb_spec c 45) as [->|]; [exists (Some true), r; auto|exists None, (c :: r); auto]. }
    destruct G as [sg [u [F1 F2]]]. rewrite F2 in E. exists a, b, core, sg, u. split; [exact T|]. split; [exact A|]. split; [exact B|]. split; [exact F1|].
    set (neg := match sg with Some true => true | _ => false end) in *. clearbody neg. destruct (scan_num udigit u) as [n|] eqn:SN.
    + inversion E. apply scan_num_sound. exact SN.
    + destruct (str_eqb _ _ || str_eqb _ _) eqn:I; cbv zeta in E.
      * inversion E. constructor. apply orb_true_iff in I as [I|I]; apply str_eqb_eq in I; auto.
      * set (l := map lower_ascii u) in *.
        match type of E with (if is_prefix _ ?m then _ else _) = _ => remember m as l' eqn:EL end. destruct (is_prefix (s "nan") l') eqn:PN; [|discriminate]. apply is_prefix_iff in PN as [r PN]. rewrite PN in E. rewrite PN in EL.
        change (skipn 3 (s "nan" ++ r)) with r in E. destruct (span_digits udigit r) as [ds [|y r']] eqn:SD; [|discriminate]. inversion E. apply span_sound in SD as [cs [-> U]]. 
        rewrite app_nil_r in EL. apply (sn_nan u cs ds); [|exact U]. fold l. destruct l as [|c l0]; [discriminate|]. destruct (N.eqb_spec c 115) as [->|]; [right; rewrite <- EL; reflexivity|left; symmetry; exact EL].
Qed.

(** the literal in a rule is parsed by the same function *)
Theorem C47_literal : forall C w q t, run w (build C (DFloat t)) q = (match parse_float t with Ok d => Ok (ELit (VDec d)) | Err x => Err x end, q).
Proof. intros. cbn. destruct (parse_float t); reflexivity. Qed.
End Num.
Print Assumptions C47_only.
Example C47_example : let n := {| nm_int := [1; 2]; nm_frac := Some [5]; nm_exp := Some (101, Some true, [3]) |} in
  numeral_ok n /\ numeral_text n = s "12.5e-3" /\ plain_space demo_orc /\ parse_float (numeral_text n) = Ok (DFin false 125 (-4)) /\
  parse_float (s "0xfF") = Ok (DFin false 255 0) /\ parse_float (s "0b12") = Err XSynFloat /\ parse_float (s "007") = Err XSynFloat /\ parse_float (s "1e") = Err XSynFloat /\
  parse_float (s " -1_0 ") = Ok (DFin true 10 0).
Proof.
  cbv zeta. split; [split; [repeat constructor; lia|split; [discriminate|split; [auto|split; [repeat constructor; lia|discriminate]]]]|]. split; [reflexivity|]. split; [|repeat split].
  intros c H. cbn. destruct (N.eqb_spec c 32); [lia|reflexivity].
Qed.

(** ** C48: durations *)

(** one component: digits, optionally a decimal point or comma and digits, and the unit *)
Definition comp := option (list N * option (N * list N)).
Definition comp_ok (c : comp) : Prop :=
  match c with
  | Some (ds, fr) => dig ds /\ ds <> [] /\ match fr with Some (p, fs) => (p = 44 \/ p = 46) /\ dig fs /\ fs <> [] | None => True end
  | None => True
  end.
Definition comp_text (unit : N) (c : comp) : str :=
  match c with
  | Some (ds, fr) => digit_chars ds ++ match fr with Some (p, fs) => p :: digit_chars fs | None => [] end ++ [unit]
  | None => []
  end.
Definition comp_read (c : comp) : option (N * option (list N)) :=
  match c with Some (ds, fr) => Some (positional 10 ds, match fr with Some (_, fs) => Some fs | None => None end) | None => None end.
(** P[nW][nD][T[nH][nM][nS]] *)
Record duration := { du_w : comp; du_d : comp; du_t : option (comp * comp * comp) }.
Definition duration_text (u : duration) : str :=
  80 :: comp_text 87 (du_w u) ++ comp_text 68 (du_d u) ++
  match du_t u with Some (h, m, x) => 84 :: comp_text 72 h ++ comp_text 77 m ++ comp_text 83 x | None => [] end.
Definition duration_ok (u : duration) : Prop :=
  comp_ok (du_w u) /\ comp_ok (du_d u) /\ (match du_t u with Some (h, m, x) => comp_ok h /\ comp_ok m /\ comp_ok x | None => True end) /\
  (du_w u <> None \/ du_d u <> None \/ du_t u <> None).
Definition parts (u : duration) : list comp := du_w u :: du_d u :: match du_t u with Some (h, m, x) => [h; m; x] | None => [None; None; None] end.
(** a whole number of the unit *)
Definition whole (c : comp) : Prop := match c with Some (_, Some _) => False | _ => True end.
Definition amount (c : comp) : Z := match c with Some (ds, _) => Z.of_N (positional 10 ds) | None => 0%Z end.
Definition seconds (u : duration) : Z :=
  match parts u with [w; d; h; m; x] => (604800 * amount w + 86400 * amount d + 3600 * amount h + 60 * amount m + amount x)%Z | _ => 0%Z end.
(** the number written by a component, and the microseconds written by a duration *)
Definition comp_value (c : comp) : Q :=
  match c with Some (ds, fr) => numeral_value {| nm_int := ds; nm_frac := option_map snd fr; nm_exp := None |} | None => 0%Q end.
Definition microseconds (u : duration) : Q :=
  match parts u with
  | [w; d; h; m; x] => (604800000000 * comp_value w + 86400000000 * comp_value d + 3600000000 * comp_value h + 60000000 * comp_value m + 1000000 * comp_value x)%Q
  | _ => 0%Q
  end.

Definition unit_ok (u : N) : Prop := digit_val u = None /\ u <> 44 /\ u <> 46.
Lemma digit_none : forall c, digit_val c = None -> forall ds, dig ds -> forall r, span_digits digit_val (digit_chars ds ++ c :: r) = (ds, c :: r).
Proof. intros c H ds D r. apply span_chars; auto using digit_val_reads. Qed.
Lemma scan_comp_hit : forall u, unit_ok u -> forall c r, comp_ok c -> c <> None -> scan_comp u (comp_text u c ++ r) = (comp_read c, r).
Proof.
  intros u [U [U1 U2]] [[ds fr]|] r OK NE; [|congruence]. destruct OK as [D [N F]]. cbn [comp_text comp_read]. unfold scan_comp. rewrite <- !of_digits_positional.
  destruct ds as [|d ds]; [congruence|]. destruct fr as [[p fs]|].
  - destruct F as [P [Df Nf]]. rewrite <- app_assoc. cbn [app]. rewrite <- app_assoc. cbn [app]. rewrite digit_none; auto; [|destruct P; subst; reflexivity].
    destruct (N.eqb_spec p u); [destruct P; congruence|]. assert (PP : (p =? 44) || (p =? 46) = true) by (destruct P; subst; reflexivity). rewrite PP.
    rewrite digit_none; auto. destruct fs as [|f fs]; [congruence|]. rewrite N.eqb_refl. reflexivity.
  - rewrite <- app_assoc. cbn [app]. rewrite digit_none; auto. rewrite N.eqb_refl. reflexivity.
Qed.
(** text that does not begin with a digit, or begins with a component of another unit, is not touched *)
Lemma scan_comp_nodigit : forall u t, match t with c :: _ => digit_val c = None | [] => True end -> scan_comp u t = (None, t).
Proof. intros u [|c t] H; [reflexivity|]. unfold scan_comp. cbn. rewrite H. reflexivity. Qed.
Lemma scan_comp_other : forall u u', unit_ok u -> unit_ok u' -> u <> u' -> forall c r, comp_ok c -> c <> None -> scan_comp u (comp_text u' c ++ r) = (None, comp_text u' c ++ r).
Proof.
  intros u u' [U [U1 U2]] [V [V1 V2]] NE [[ds fr]|] r OK NN; [|congruence]. destruct OK as [D [N F]]. cbn [comp_text]. unfold scan_comp.
  destruct ds as [|d ds]; [congruence|]. destruct fr as [[p fs]|].
  - destruct F as [P [Df Nf]]. rewrite <- !app_assoc. cbn [app]. rewrite digit_none; auto; [|destruct P; subst; reflexivity].
    destruct (N.eqb_spec p u); [destruct P; congruence|]. assert (PP : (p =? 44) || (p =? 46) = true) by (destruct P; subst; reflexivity). rewrite PP.
    rewrite digit_none; auto. destruct fs as [|f fs]; [congruence|]. destruct (N.eqb_spec u' u); [congruence|]. reflexivity.
  - rewrite <- !app_assoc. cbn [app]. rewrite digit_none; auto. destruct (N.eqb_spec u' u); [congruence|]. destruct (N.eqb_spec u' 44); [congruence|]. destruct (N.eqb_spec u' 46); [congruence|]. reflexivity.
Qed.

(** a list of components with their units, then a rest that does not begin with a digit *)
Fixpoint comps_text (l : list (N * comp)) : str := match l with [] => [] | (u, c) :: r => comp_text u c ++ comps_text r end.
Lemma scan_comp_list : forall u c l r, unit_ok u -> comp_ok c -> Forall (fun uc => unit_ok (fst uc) /\ comp_ok (snd uc) /\ fst uc <> u) l ->
  match r with x :: _ => digit_val x = None | [] => True end ->
  scan_comp u (comp_text u c ++ comps_text l ++ r) = (comp_read c, comps_text l ++ r).
Proof.
  intros u c l r U OK F R. destruct c as [p|]; [apply scan_comp_hit; auto; discriminate|]. cbn [comp_text app comp_read].
  induction F as [|[u' c'] l [U' [OK' NE]] F IH]; cbn [comps_text app]; [apply scan_comp_nodigit; exact R|]. cbn in *. rewrite <- app_assoc.
  destruct c' as [p|]; [apply scan_comp_other; auto; discriminate|]. cbn [comp_text app]. exact IH.
Qed.

Lemma scan_comp_sound : forall u t c r, unit_ok u -> scan_comp u t = (c, r) -> exists k, comp_ok k /\ c = comp_read k /\ t = comp_text u k ++ r.
Proof.
  intros u t c r U H. assert (SS : forall t ds r, span_digits digit_val t = (ds, r) -> t = digit_chars ds ++ r /\ dig ds).
  { clear. induction t as [|c t IH]; intros ds r H; cbn in H; [inversion H; split; [reflexivity|constructor]|]. destruct (digit_val c) as [d|] eqn:E; [|inversion H; split; [reflexivity|constructor]].
    destruct (span_digits digit_val t) as [ds' r']. inversion H; subst. destruct (IH _ _ eq_refl) as [-> D]. unfold digit_val, in_range in E. destruct (N.leb_spec 48 c); [|discriminate]. destruct (N.leb_spec c 57); [|discriminate].
    inversion E; subst. split; [cbn; f_equal; lia|constructor; [lia|exact D]]. }
  assert (NONE : (None : option (N * option (list N)), t) = (c, r) -> exists k, comp_ok k /\ c = comp_read k /\ t = comp_text u k ++ r).
  { intro K. inversion K; subst. exists None. split; [exact I|auto]. }
  unfold scan_comp in H. destruct (span_digits digit_val t) as [ds r1] eqn:S. destruct ds as [|d ds]; [auto|]. destruct r1 as [|y r1]; [auto|]. destruct (SS _ _ _ S) as [-> D].
  destruct (N.eqb_spec y u) as [->|].
  - inversion H; subst. exists (Some (d :: ds, None)). cbn [comp_ok comp_read comp_text]. rewrite <- of_digits_positional. repeat split; auto; [discriminate|]. rewrite <- app_assoc. reflexivity.
  - destruct (_ || _) eqn:P; [|auto]. destruct (span_digits digit_val r1) as [fs r2] eqn:S2. destruct fs as [|f fs]; [auto|]. destruct r2 as [|y2 r2]; [auto|]. destruct (N.eqb_spec y2 u) as [->|]; [|auto].
    destruct (SS _ _ _ S2) as [-> D2]. inversion H; subst. exists (Some (d :: ds, Some (y, f :: fs))). cbn [comp_ok comp_read comp_text]. rewrite <- of_digits_positional.
    assert (PP : y = 44 \/ y = 46) by (apply orb_true_iff in P as [P|P]; apply N.eqb_eq in P; auto). repeat split; auto; try discriminate. cbn. rewrite <- !app_assoc. cbn. rewrite <- app_assoc. reflexivity.
Qed.

Section Dur.
Context (Orc : Oracle).
Lemma units : unit_ok 87 /\ unit_ok 68 /\ unit_ok 72 /\ unit_ok 77 /\ unit_ok 83 /\ unit_ok 84.
Proof. repeat split; discriminate. Qed.

Lemma parse_shape : forall u tail, duration_ok u -> tail = [] \/ tail = [10] ->
  parse_timedelta (duration_text u ++ tail) = match timedelta_us (map comp_dec (map comp_read (parts u))) with Some us => mk_td us | None => Err POverflow end.
Proof.
  intros [w d t] tail [Kw [Kd [Kt NE]]] TL. destruct units as [U1 [U2 [U3 [U4 [U5 U6]]]]]. cbn [du_w du_d du_t] in *. unfold duration_text, parts. cbn [du_w du_d du_t map]. unfold parse_timedelta. cbn [app].
  assert (DT : match tail with x :: _ => digit_val x = None | [] => True end) by (destruct TL; subst; reflexivity || exact I).
  assert (AE : at_end tail = true) by (destruct TL; subst; reflexivity).
  set (tt_ := match t with Some (h, m, x) => 84 :: comp_text 72 h ++ comp_text 77 m ++ comp_text 83 x | None => [] end).
  assert (NEND : at_end ((comp_text 87 w ++ comp_text 68 d ++ tt_) ++ tail) = false).
  { assert (CN : forall un c r, comp_ok c -> c <> None -> at_end (comp_text un c ++ r) = false).
    { intros un [[ds fr]|] r OK N0; [|congruence]. destruct OK as [D [N1 _]]. destruct ds as [|x ds]; [congruence|]. cbn. destruct (map _ ds); destruct fr as [[p fs]|]; cbn; try reflexivity; destruct (map _ fs); reflexivity. }
    rewrite <- !app_assoc. destruct w as [w|]; [apply CN; [exact Kw|discriminate]|]. cbn [comp_text app]. destruct d as [d|]; [apply CN; [exact Kd|discriminate]|]. cbn [comp_text app].
    destruct t as [[[h m] x]|]; [|destruct NE as [NE|[NE|NE]]; congruence]. unfold tt_. cbn [app]. destruct ((comp_text 72 h ++ comp_text 77 m ++ comp_text 83 x) ++ tail); reflexivity. }
  rewrite NEND. change (80 =? 80) with true. cbn [andb negb]. rewrite <- !app_assoc.
  assert (TT : match tt_ ++ tail with x :: _ => digit_val x = None | [] => True end). { unfold tt_. destruct t as [[[h m] x]|]; [reflexivity|exact DT]. }
  assert (E1 := scan_comp_list 87 w [(68, d)] (tt_ ++ tail) U1 Kw ltac:(constructor; [cbn; repeat split; auto; discriminate|constructor]) TT). cbn [comps_text] in E1. rewrite app_nil_r in E1. rewrite E1.
  assert (E2 := scan_comp_list 68 d [] (tt_ ++ tail) U2 Kd ltac:(constructor) TT). cbn [comps_text app] in E2. rewrite E2.
  destruct t as [[[h m] x]|]; unfold tt_ in *; cbn [app map].
  - destruct Kt as [Kh [Km Kx]]. change (84 =? 84) with true. cbv iota. rewrite <- !app_assoc.
    assert (E3 := scan_comp_list 72 h [(77, m); (83, x)] tail U3 Kh ltac:(repeat constructor; cbn; auto; discriminate) DT). cbn [comps_text] in E3. rewrite app_nil_r, <- app_assoc in E3. rewrite E3.
    assert (E4 := scan_comp_list 77 m [(83, x)] tail U4 Km ltac:(repeat constructor; cbn; auto; discriminate) DT). cbn [comps_text] in E4. rewrite app_nil_r in E4. rewrite E4.
    assert (E5 := scan_comp_list 83 x [] tail U5 Kx ltac:(constructor) DT). cbn [comps_text app] in E5. rewrite E5. rewrite AE. reflexivity.
  - destruct TL as [->| ->]; cbn [at_end]; [reflexivity|]. change (10 =? 84) with false. cbv iota. cbn [at_end]. change (10 =? 10) with true. reflexivity.
Qed.

Lemma parts_five : forall u, exists w d h m x, parts u = [w; d; h; m; x].
Proof. intros [w d [[[h m] x]|]]; do 5 eexists; reflexivity. Qed.
Lemma comp_dec_value : forall c, (inject_Z (Z.of_N (fst (comp_dec (comp_read c)))) * (10 # 1) ^ snd (comp_dec (comp_read c)) == comp_value c)%Q.
Proof.
  intros [[ds [[p fs]|]]|]; cbn [comp_read comp_dec fst snd comp_value option_map]; unfold numeral_value; cbn [nm_int nm_frac nm_exp opt_list exponent].
  - rewrite <- !of_digits_positional, of_digits_app. reflexivity.
  - rewrite app_nil_r. reflexivity.
  - reflexivity.
Qed.
Lemma written_microseconds : forall u, (written_us (map comp_dec (map comp_read (parts u))) == microseconds u)%Q.
Proof.
  intros u. unfold microseconds. destruct (parts_five u) as (w & d & h & m & x & E). rewrite E. unfold written_us, factors. cbn [map combine fold_right fst snd]. rewrite !comp_dec_value.
  change (inject_Z 604800000000) with 604800000000%Q. change (inject_Z 86400000000) with 86400000000%Q. change (inject_Z 3600000000) with 3600000000%Q. change (inject_Z 60000000) with 60000000%Q. change (inject_Z 1000000) with 1000000%Q. ring.
Qed.

(** whole components of any size: the duration written, in seconds; an out-of-range duration raises OverflowError (not an EngineError) *)
Theorem C48_value : forall u, duration_ok u -> Forall whole (parts u) ->
  parse_timedelta (duration_text u) = if td_ok (seconds u * 1000000) then Ok (VTd (seconds u * 1000000)) else Err POverflow.
Proof.
  intros u OK W. assert (H := parse_shape u [] OK (or_introl eq_refl)). rewrite app_nil_r in H. rewrite H. clear H.
  unfold seconds. destruct (parts_five u) as (w & d & h & m & x & E). rewrite E in *. clear E. inversion W as [|? ? Ww W1]; subst. inversion W1 as [|? ? Wd W2]; subst. inversion W2 as [|? ? Wh W3]; subst. inversion W3 as [|? ? Wm W4]; subst. inversion W4 as [|? ? Wx _]; subst.
  assert (V : forall c, whole c -> comp_dec (comp_read c) = (Z.to_N (amount c), 0%Z)). { intros [[ds [[fr fs]|]]|] Hc; cbn [comp_read whole comp_dec amount] in *; [contradiction|rewrite N2Z.id; reflexivity|reflexivity]. }
  assert (A : forall c, (0 <= amount c)%Z). { intros [[ds fr]|]; cbn; lia. }
  cbn [map]. rewrite !V by assumption. pose proof (A w). pose proof (A d). pose proof (A h). pose proof (A m). pose proof (A x).
  assert (T := timedelta_whole (Z.to_N (amount w)) (Z.to_N (amount d)) (Z.to_N (amount h)) (Z.to_N (amount m)) (Z.to_N (amount x))). cbv zeta in T. rewrite !Z2N.id in T by assumption.
  replace ((604800 * amount w + 86400 * amount d + 3600 * amount h + 60 * amount m + amount x) * 1000000)%Z with (amount w * 604800000000 + amount d * 86400000000 + amount h * 3600000000 + amount m * 60000000 + amount x * 1000000)%Z by ring.
  set (T0 := (amount w * 604800000000 + amount d * 86400000000 + amount h * 3600000000 + amount m * 60000000 + amount x * 1000000)%Z) in *. clearbody T0.
  assert (BIG : forall z, (2 ^ 52 * 1000000 <= z)%Z -> td_ok z = false). { intros z Z. unfold td_ok, us_per_day. apply andb_false_iff. right. apply Z.ltb_ge. lia. }
  destruct T as [->|[B [->|(z & -> & Z)]]]; [reflexivity|rewrite BIG by exact B; reflexivity|]. unfold mk_td. rewrite !BIG by assumption. reflexivity.
Qed.
(** fractions, up to 2^50 microseconds (35 years): a whole number of microseconds is exact, anything else is rounded to a neighbouring microsecond *)
Theorem C48_microseconds : forall u z, duration_ok u -> (microseconds u < inject_Z (2 ^ 50))%Q -> (microseconds u == inject_Z z)%Q ->
  parse_timedelta (duration_text u) = Ok (VTd z).
Proof.
  intros u z OK L Z. assert (H := parse_shape u [] OK (or_introl eq_refl)). rewrite app_nil_r in H. rewrite H. clear H. rewrite <- written_microseconds in L, Z.
  assert (Z0 : (0 <= z)%Z). { rewrite Zle_Qle, <- Z. unfold written_us. destruct (parts_five u) as (w & d & h & m & x & ->). cbn [map factors combine fold_right fst snd].
    repeat (apply (Qplus_le_compat 0 _ 0); [apply Qmult_le_0_compat; [apply Qmult_le_0_compat; [change 0%Q with (inject_Z 0); rewrite <- Zle_Qle; lia|apply Qlt_le_weak, Qpower_0_lt; reflexivity]|discriminate]|]). apply Qle_refl. }
  destruct (parts_five u) as (w & d & h & m & x & E). rewrite E in *. cbn [map] in *. destruct (timedelta_near _ _ _ _ _ L) as (y & -> & _ & X). rewrite (X z Z). unfold mk_td.
  rewrite Z, <- Zlt_Qlt in L. assert (O : td_ok z = true) by (unfold td_ok, us_per_day; apply andb_true_iff; split; [apply Z.leb_le|apply Z.ltb_lt]; lia). rewrite O. reflexivity.
Qed.
Theorem C48_fraction : forall u, duration_ok u -> (microseconds u < inject_Z (2 ^ 50))%Q ->
  exists z, parse_timedelta (duration_text u) = Ok (VTd z) /\ (Qabs (inject_Z z - microseconds u) < 1)%Q.
Proof.
  intros u OK L. assert (H := parse_shape u [] OK (or_introl eq_refl)). rewrite app_nil_r in H. rewrite H. clear H. assert (Wu := written_microseconds u). rewrite <- Wu in L.
  destruct (parts_five u) as (w & d & h & m & x & E). rewrite E in *. cbn [map] in *. destruct (timedelta_near _ _ _ _ _ L) as (y & -> & X & _). exists y. rewrite <- Wu. split; [|exact X]. unfold mk_td.
  assert (O : td_ok y = true); [|rewrite O; reflexivity].
  assert (W0 : (0 <= microseconds u)%Q). { rewrite <- Wu. unfold written_us. cbn [factors combine fold_right fst snd].
    repeat (apply (Qplus_le_compat 0 _ 0); [apply Qmult_le_0_compat; [apply Qmult_le_0_compat; [change 0%Q with (inject_Z 0); rewrite <- Zle_Qle; lia|apply Qlt_le_weak, Qpower_0_lt; reflexivity]|discriminate]|]). apply Qle_refl. }
  rewrite <- Wu in W0. apply Qlt_le_weak, Qabs_Qle_condition in X as [X1 X2]. assert (Y1 : (inject_Z (-1) <= inject_Z y)%Q) by (change (inject_Z (-1)) with (-1)%Q; lra). assert (Y2 : (inject_Z y <= inject_Z (2 ^ 50 + 1))%Q) by (change (inject_Z (2 ^ 50 + 1)) with (inject_Z (2 ^ 50) + 1)%Q; change (inject_Z (2 ^ 50)) with 1125899906842624%Q in *; change (inject_Z (2^50 + 1)) with 1125899906842625%Q; lra).
  rewrite <- Zle_Qle in Y1, Y2. unfold td_ok, us_per_day. apply andb_true_iff. split; [apply Z.leb_le|apply Z.ltb_lt]; lia.
Qed.
(** and without any bound: the components are rounded to floats (a relative error of 2^-53), the sum is not *)
Theorem C48_close : forall u, duration_ok u ->
  (exists z, parse_timedelta (duration_text u) = Ok (VTd z) /\ (Qabs (inject_Z z - microseconds u) <= microseconds u * (1 # 9007199254740992) + (2 # 3))%Q) \/
  (parse_timedelta (duration_text u) = Err POverflow /\ (1000000000 * 86400000000 <= microseconds u * (1 + (1 # 9007199254740992)) + (2 # 3))%Q).
Proof.
  intros u OK. assert (H := parse_shape u [] OK (or_introl eq_refl)). rewrite app_nil_r in H. rewrite H. clear H. assert (Wu := written_microseconds u).
  destruct (parts_five u) as (w & d & h & m & x & E). rewrite E in *. cbn [map] in *. destruct (timedelta_close (comp_dec (comp_read w)) (comp_dec (comp_read d)) (comp_dec (comp_read h)) (comp_dec (comp_read m)) (comp_dec (comp_read x))) as [(y & -> & X)|[-> B]]; rewrite Wu in *.
  - unfold mk_td. destruct (td_ok y) eqn:TO; [left; exists y; split; [reflexivity|exact X]|]. right. split; [reflexivity|].
    assert (W0 : (0 <= microseconds u)%Q). { rewrite <- Wu. unfold written_us. cbn [factors combine fold_right fst snd].
      repeat (apply (Qplus_le_compat 0 _ 0); [apply Qmult_le_0_compat; [apply Qmult_le_0_compat; [change 0%Q with (inject_Z 0); rewrite <- Zle_Qle; lia|apply Qlt_le_weak, Qpower_0_lt; reflexivity]|discriminate]|]). apply Qle_refl. }
    apply Qabs_Qle_condition in X as [X1 X2]. set (M := microseconds u) in *. clearbody M. assert (Y1 : (inject_Z (-1) < inject_Z y)%Q) by (change (inject_Z (-1)) with (-1)%Q; lra). rewrite <- Zlt_Qlt in Y1.
    assert (Y2 : (86400000000000000000 <= y)%Z). { unfold td_ok, us_per_day in TO. apply andb_false_iff in TO as [TO|TO]; [apply Z.leb_gt in TO; lia|apply Z.ltb_ge in TO; lia]. }
    rewrite Zle_Qle in Y2. change (inject_Z 86400000000000000000) with 86400000000000000000%Q in Y2. lra.
  - right. split; [reflexivity|]. set (M := microseconds u) in *. clearbody M. assert (Y : (86400000000000000000 <= (2 # 1) ^ 1023)%Q) by (vm_compute; discriminate). lra.
Qed.

(** every other text raises TimedeltaSyntaxError; a final newline is tolerated *)
Theorem C48_only : forall t, (forall u, duration_ok u -> t <> duration_text u /\ t <> duration_text u ++ [10]) -> parse_timedelta t = Err XSynTimedelta.
Proof.
  intros t H. unfold parse_timedelta. destruct t as [|p r0]; [reflexivity|]. destruct (_ && _) eqn:P; [|reflexivity]. apply andb_true_iff in P as [P NE]. apply N.eqb_eq in P. subst p. apply negb_true_iff in NE.
  destruct units as [U1 [U2 [U3 [U4 [U5 U6]]]]].
  destruct (scan_comp 87 r0) as [cw r1] eqn:S1. apply scan_comp_sound in S1 as [w [Kw [-> ->]]]; [|exact U1].
  destruct (scan_comp 68 r1) as [cd r2] eqn:S2. apply scan_comp_sound in S2 as [d [Kd [-> ->]]]; [|exact U2].
  assert (X : exists t r, (match r2 with x :: r3 => if x =? 84 then let '(h, r4) := scan_comp 72 r3 in let '(m, r5) := scan_comp 77 r4 in let '(sc, r6) := scan_comp 83 r5 in (h, m, sc, r6) else (None, None, None, r2) | [] => (None, None, None, r2) end)
     = (match t with Some (h, m, x) => (comp_read h, comp_read m, comp_read x, r) | None => (None, None, None, r) end) /\
     (match t with Some (h, m, x) => comp_ok h /\ comp_ok m /\ comp_ok x | None => True end) /\ r2 = match t with Some (h, m, x) => 84 :: comp_text 72 h ++ comp_text 77 m ++ comp_text 83 x | None => [] end ++ r).
  { destruct r2 as [|x r3]; [exists None, []; auto|]. destruct (N.eqb_spec x 84) as [->|]; [|exists None, (x :: r3); auto].
    destruct (scan_comp 72 r3) as [ch r4] eqn:S3. apply scan_comp_sound in S3 as [h [Kh [-> ->]]]; [|exact U3]. destruct (scan_comp 77 r4) as [cm r5] eqn:S4. apply scan_comp_sound in S4 as [m [Km [-> ->]]]; [|exact U4].
    destruct (scan_comp 83 r5) as [cx r6] eqn:S5. apply scan_comp_sound in S5 as [x [Kx [-> ->]]]; [|exact U5]. exists (Some (h, m, x)), r6. cbn [app]. rewrite <- !app_assoc. auto. }
  destruct X as [t [r [E [Kt ->]]]].
  assert (G : at_end r = true -> False).
  { intro AE. set (u := {| du_w := w; du_d := d; du_t := t |}).
    assert (OK : duration_ok u). { unfold duration_ok, u. cbn. repeat split; auto. destruct w; [left; discriminate|]. destruct d; [right; left; discriminate|]. destruct t; [right; right; discriminate|]. exfalso. cbn in NE. rewrite AE in NE. discriminate. }
    destruct (H u OK) as [H1 H2]. unfold duration_text, u in H1, H2. cbn [du_w du_d du_t] in H1, H2.
    assert (R : r = [] \/ r = [10]). { destruct r as [|c [|? ?]]; cbn in AE; [auto|apply N.eqb_eq in AE; subst; auto|discriminate]. }
    destruct R as [->| ->]; [apply H1|apply H2]; rewrite ?app_nil_r; cbn [app]; rewrite <- ?app_assoc; reflexivity. }
  match goal with |- match ?X0 with pair _ _ => _ end = _ => assert (E2 : X0 = (match t with Some (h, m, x) => (comp_read h, comp_read m, comp_read x, r) | None => (None, None, None, r) end)) by exact E; rewrite E2 end.
  destruct t as [[[h m] x]|]; destruct (at_end r); (contradiction G; reflexivity) || reflexivity.
Qed.
(** the literal in a rule is parsed by the same function *)
Theorem C48_literal : forall C w q t, run w (build C (DTimedelta t)) q = (match parse_timedelta t with Ok v => Ok (ELit v) | Err x => Err x end, q).
Proof. intros. cbn. destruct (parse_timedelta t); reflexivity. Qed.
End Dur.
Print Assumptions C48_only.
Print Assumptions C48_value.
Print Assumptions C48_microseconds.
Print Assumptions C48_fraction.
Print Assumptions C48_close.
Example C48_example : let u := {| du_w := None; du_d := Some ([1; 0], None); du_t := Some (Some ([2], None), None, Some ([3; 0], None)) |} in
  duration_ok u /\ Forall whole (parts u) /\ duration_text u = s "P10DT2H30S" /\ seconds u = (10 * 86400 + 2 * 3600 + 30)%Z /\ td_ok (seconds u * 1000000) = true /\
  parse_timedelta (s "P1DT2H3") = Err XSynTimedelta /\ parse_timedelta (s "P1H") = Err XSynTimedelta /\ parse_timedelta (s "PT1S1M") = Err XSynTimedelta /\ parse_timedelta (s "P") = Err XSynTimedelta.
Proof.
  cbv zeta. split; [repeat split; try (repeat constructor; lia); try discriminate; right; left; discriminate|]. split; [repeat constructor; vm_compute; reflexivity|]. repeat split; vm_compute; reflexivity.
Qed.

(** one day and a half, 0.1 seconds; a third of a day is rounded; 12345678.1234567 days, which are 1066666589866658880 microseconds, lose twenty *)
Example C48_fraction_example : let u := {| du_w := None; du_d := Some ([1], Some (46, [5])); du_t := Some (None, None, Some ([0], Some (44, [1]))) |} in
  duration_ok u /\ duration_text u = s "P1.5DT0,1S" /\ (microseconds u == inject_Z 129600100000)%Q /\ (microseconds u < inject_Z (2 ^ 50))%Q /\
  parse_timedelta (s "P1.5DT0,1S") = Ok (VTd 129600100000) /\ parse_timedelta (s "P0.3333333333333333D") = Ok (VTd 28800000000) /\
  parse_timedelta (s "P12345678.1234567D") = Ok (VTd 1066666589866658860) /\ parse_timedelta (s ("P1" ++ "00000000000000000000D")) = Err POverflow.
Proof.
  cbv zeta. split; [repeat split; try (repeat constructor; lia); try discriminate; try (right; left; discriminate); auto|]. split; [reflexivity|]. split; [vm_compute; reflexivity|]. split; [vm_compute; reflexivity|]. repeat split; vm_compute; reflexivity.
Qed.

(** ** C54: floor, ceiling, to_int, to_str, to_flt *)
Section C54.
Context (Orc : Oracle) (C : ctx) (thing : value) (w : world).
Notation yields := (yields C thing w). Notation fails := (fails C thing w). Notation yields_all := (yields_all C thing w).
Open Scope Z_scope.

Theorem C54_floor : forall o safe q n c e q1, yields q o (VDec (DFin n c e)) q1 ->
  exists z, yields q (EAttr o (s "floor") safe) (VDec (dec_of_Z z)) q1 /\ (inject_Z z <= dec_q n c e)%Q /\ (dec_q n c e < inject_Z (z + 1))%Q.
Proof.
  intros o safe q n c e q1 H. exists (dfloor n c e). split; [|apply dfloor_spec]. eapply attr_ok; [exact H|reflexivity|reflexivity|reflexivity].
Qed.
Theorem C54_ceiling : forall o safe q n c e q1, yields q o (VDec (DFin n c e)) q1 ->
  exists z, yields q (EAttr o (s "ceiling") safe) (VDec (dec_of_Z z)) q1 /\ (inject_Z (z - 1) < dec_q n c e)%Q /\ (dec_q n c e <= inject_Z z)%Q.
Proof.
  intros o safe q n c e q1 H. exists (dceil n c e). split; [|apply dceil_spec]. eapply attr_ok; [exact H|reflexivity|reflexivity|reflexivity].
Qed.
(** floor and ceiling coincide exactly for integers *)
Theorem C54_floor_is_ceiling : forall o safe q n c e q1 f g, yields q o (VDec (DFin n c e)) q1 ->
  yields q (EAttr o (s "floor") safe) (VDec (dec_of_Z f)) q1 -> yields q (EAttr o (s "ceiling") safe) (VDec (dec_of_Z g)) q1 ->
  (f = g <-> exists z, (dec_q n c e == inject_Z z)%Q).
Proof.
  intros o safe q n c e q1 f g H Hf Hg. destruct (C54_floor o safe q n c e q1 H) as [f' [Hf' [F1 F2]]]. destruct (C54_ceiling o safe q n c e q1 H) as [g' [Hg' [G1 G2]]].
  assert (DI : forall a b, dec_of_Z a = dec_of_Z b -> a = b). { intros a b E. apply (denotes_inj (dec_of_Z a)); [apply denotes_of_Z|rewrite E; apply denotes_of_Z]. }
  unfold P_Ops.yields in *. assert (f = f') by (apply DI; congruence). assert (g = g') by (apply DI; congruence). subst f' g'. split.
  - intros ->. exists g. apply Qle_antisym; assumption.
  - intros [z E]. rewrite E in *. rewrite <- Zle_Qle in F1, G2. rewrite <- Zlt_Qlt in F2, G1. lia.
Qed.
(** infinities and nan are their own floor and ceiling *)
Theorem C54_non_finite : forall o safe q d q1, yields q o (VDec d) q1 -> (match d with DFin _ _ _ => False | _ => True end) ->
  yields q (EAttr o (s "floor") safe) (VDec d) q1 /\ yields q (EAttr o (s "ceiling") safe) (VDec d) q1.
Proof. intros o safe q [n c e|n|] q1 H F; try contradiction; split; (eapply attr_ok; [exact H|reflexivity|reflexivity|reflexivity]). Qed.

(** is_nan: true for NaN only *)
Theorem C54_is_nan : forall o safe q d q1, yields q o (VDec d) q1 -> exists b, yields q (EAttr o (s "is_nan") safe) (VBool b) q1 /\ (b = true <-> d = DNaN).
Proof.
  intros o safe q d q1 H. exists (match d with DNaN => true | _ => false end). split; [|destruct d; split; congruence].
  eapply attr_ok; [exact H|reflexivity|reflexivity|destruct d; reflexivity].
Qed.

(** to_int: the number itself if it is an integer of float magnitude, EvaluationError if it is none *)
Lemma run_to_int : forall o safe q d q1, yields q o (VDec d) q1 ->
  run w (eval C thing (EAttr o (s "to_int") safe)) q = (match is_integer_number (VDec d) with Ok true => Ok (VDec d) | Ok false => Err XEval | Err x => Err x end, q1).
Proof.
  intros o safe q d q1 H. unfold P_Ops.yields in H. cbn [eval]. rewrite run_pbind, H. cbn [is_null andb]. unfold resolve_attr. cbn [from_value]. change (get_attr TFloat (s "to_int")) with (@Ok attr a_flt_to_int). cbn [rbind attr_fun].
  destruct (integer_number_total d) as [b ->]. cbn [rbind]. destruct b; [|reflexivity]. cbn [rbind coerce from_value rmap attr_type is_compat]. unfold nval, new_value. reflexivity.
Qed.
Theorem C54_to_int : forall o safe q d q1, yields q o (VDec d) q1 ->
  ((exists z, denotes d z /\ Z.abs z < float_bound) -> yields q (EAttr o (s "to_int") safe) (VDec d) q1) /\
  ((~ exists z, denotes d z) -> fails q (EAttr o (s "to_int") safe) XEval q1).
Proof.
  intros o safe q d q1 H. split; intro I; assert (R := run_to_int o safe q d q1 H).
  - apply integer_number_iff in I. rewrite I in R. exact R.
  - destruct (integer_number_total d) as [b B]. rewrite B in R. destruct b; [|exact R]. apply integer_number_iff in B as [z [D _]]. exfalso. eauto.
Qed.
(** integers too large for a float are refused *)
Theorem C54_to_int_huge_refuted : forall o safe q z q1, yields q o (VDec (dec_of_Z z)) q1 -> float_bound <= Z.abs z ->
  denotes (dec_of_Z z) z /\ fails q (EAttr o (s "to_int") safe) XEval q1.
Proof.
  intros o safe q z q1 H L. split; [apply denotes_of_Z|]. assert (R := run_to_int o safe q _ q1 H). destruct (integer_number_total (dec_of_Z z)) as [b B]. rewrite B in R. destruct b; [|exact R]. exfalso.
  apply integer_number_iff in B as [z' [D B]]. assert (z = z') by (eapply denotes_inj; [apply denotes_of_Z|exact D]). subst. apply Z.lt_nge in B. contradiction.
Qed.

(** str(Decimal) as a numeral *)
Lemma dec_str_numeral : forall n c e, exists m, numeral_ok m /\ dec_str n c e = (if n then [45%N] else []) ++ numeral_text m /\
  positional 10 (nm_int m ++ opt_list (nm_frac m)) = c /\ exponent m - Z.of_nat (length (opt_list (nm_frac m))) = e /\ (hd 1%N (nm_int m) = 0%N -> nm_int m = [0%N]) /\ nm_int m <> [] /\
  (e = 0 -> m = {| nm_int := digits c; nm_frac := None; nm_exp := None |}) /\ (e <> 0 -> nm_frac m <> None \/ nm_exp m <> None).
Proof.
  intros n c e. destruct (dec_str_text n c e) as [ip [f [x [E [D [NE [F [H0 [V [X [Z NZ]]]]]]]]]]].
  exists {| nm_int := ip; nm_frac := f; nm_exp := match x with Some z => Some (69%N, Some (z <? 0), digits (Z.abs_N z)) | None => None end |}. cbn [nm_int nm_frac nm_exp].
  split. { unfold numeral_ok. cbn [nm_int nm_frac nm_exp]. split; [|split].
    - apply Forall_app. split; [exact D|]. destruct f; [exact F|constructor].
    - destruct ip; [congruence|discriminate].
    - destruct x as [z|]; [|exact I]. destruct (digits_spec (Z.abs_N z)) as [A [_ [B _]]]. auto. }
  split. { rewrite E. f_equal. unfold num_text, numeral_text, frac_text, exp_text, z_str_signed. cbn [nm_int nm_frac nm_exp]. f_equal. f_equal. destruct x as [z|]; [|reflexivity]. destruct (z <? 0); reflexivity. }
  split; [rewrite <- of_digits_positional; exact V|].
  split. { rewrite <- X. unfold exponent. cbn [nm_exp]. unfold opt_list. f_equal. destruct x as [z|]; [|reflexivity]. rewrite <- of_digits_positional. destruct (digits_spec (Z.abs_N z)) as [_ [-> _]]. rewrite N2Z.inj_abs_N. destruct (Z.ltb_spec z 0); lia. }
  split; [exact H0|]. split; [exact NE|]. split.
  - intro Z0. destruct (Z Z0) as [-> [-> ->]]. reflexivity.
  - intro Z0. destruct (NZ Z0) as [K|K]; [left; exact K|right]. destruct x; [discriminate|congruence].
Qed.
Lemma run_to_str : forall o safe q n c e q1, yields q o (VDec (DFin n c e)) q1 -> yields q (EAttr o (s "to_str") safe) (VStr (dec_str n c e)) q1.
Proof. intros. eapply attr_ok; [eassumption|reflexivity|reflexivity|reflexivity]. Qed.

(** to_str spells exactly the number: sign and numeral *)
Theorem C54_to_str : forall o safe q n c e q1, yields q o (VDec (DFin n c e)) q1 ->
  exists m, numeral_ok m /\ yields q (EAttr o (s "to_str") safe) (VStr ((if n then [45%N] else []) ++ numeral_text m)) q1 /\
    (dec_q n c e == (if n then - numeral_value m else numeral_value m))%Q.
Proof.
  intros o safe q n c e q1 H. destruct (dec_str_numeral n c e) as [m [OK [E [V [X _]]]]]. exists m. split; [exact OK|]. split; [rewrite <- E; apply run_to_str; exact H|].
  unfold numeral_value, dec_q, signed. rewrite V, X. destruct n; [rewrite inject_Z_opp; ring|reflexivity].
Qed.
(** so $parse_float(x.to_str) is x again, digit by digit *)
Theorem C54_parse_to_str : plain_space Orc -> forall n c e, parse_float (dec_str n c e) = Ok (DFin n c e).
Proof.
  intros PS n c e. destruct (dec_str_numeral n c e) as [m [OK [E [V [X [H0 [NE [Z NZ]]]]]]]]. assert (D := dec_of_numeral Orc PS n m OK). rewrite <- E, V, X in D. unfold parse_float. rewrite D.
  destruct n.
  - rewrite E. cbn [app]. destruct (numeral_text m); reflexivity.
  - rewrite E. cbn [app]. unfold numeral_text. destruct OK as [DG [_ XO]]. destruct (nm_int m) as [|d [|d2 r]] eqn:I; [congruence| |].
    + cbn [digit_chars map app]. destruct (nm_frac m) as [l|]; cbn [app].
      * change (in_range 48 57 46) with false. rewrite !andb_false_r. reflexivity.
      * destruct (nm_exp m) as [[[k sg] l]|]; cbn [app]; [|reflexivity]. destruct XO as [[->| ->] _]; (change (in_range 48 57 69) with false || change (in_range 48 57 101) with false); rewrite !andb_false_r; reflexivity.
    + assert (d <> 0%N). { intros ->. specialize (H0 eq_refl). discriminate. } cbn [digit_chars map app]. destruct (N.eqb_spec (d + 48) 48); [lia|]. reflexivity.
Qed.

(** to_str then to_flt: exact for natural numbers written without exponent; otherwise the text, which spells x exactly, is read by Python's float literals *)
Lemma scan_float_numeral : forall m, numeral_ok m -> scan_float (numeral_text m) = Some (FTdec {| n_int := nm_int m; n_frac := nm_frac m; n_exp := match nm_exp m with Some (_, sg, l) => Some (match sg with Some true => true | _ => false end, l) | None => None end |}).
Proof.
  intros m OK. unfold scan_float. rewrite (scan_numeral digit_val digit_val_reads eq_refl m OK).
  assert (B : scan_base (numeral_text m) = None); [|rewrite B; reflexivity]. unfold numeral_text. destruct OK as [D [NN X]]. destruct (nm_int m) as [|d [|d2 r]]; cbn [digit_chars map app].
  - destruct (nm_frac m) as [l|]; [|exfalso; apply NN; reflexivity]. cbn [app scan_base]. match goal with |- match ?t with _ => _ end = _ => destruct t; reflexivity end.
  - destruct (nm_frac m) as [l|]; cbn [app]; [unfold scan_base; cbn [N.eqb Pos.eqb]; destruct (_ =? 48)%N; reflexivity|].
    destruct (nm_exp m) as [[[k sg] l]|]; cbn [app]; [|reflexivity]. destruct X as [[->| ->] _]; unfold scan_base; cbn [N.eqb Pos.eqb]; destruct (_ =? 48)%N; reflexivity.
  - inversion D as [|? ? D1 D2]; subst. inversion D2; subst. unfold scan_base. destruct (_ =? 48)%N; [|reflexivity]. destruct (N.eqb_spec (d2 + 48) 98); [lia|]. destruct (N.eqb_spec (d2 + 48) 111); [lia|]. destruct (N.eqb_spec (d2 + 48) 120); [lia|]. reflexivity.
Qed.
Definition leading_zero (m : numeral) : Prop := nm_frac m = None /\ nm_exp m = None /\ (exists d r, nm_int m = 0%N :: d :: r) /\ positional 10 (nm_int m) <> 0%N.
Lemma to_flt_both : plain_space Orc -> forall m, numeral_ok m ->
  (~ leading_zero m -> string_to_flt (numeral_text m) = Ok (match nm_frac m, nm_exp m with None, None => VInt (Z.of_N (positional 10 (nm_int m)))
    | _, _ => VFlt (flt_of_dec (positional 10 (nm_int m ++ opt_list (nm_frac m))) (exponent m - Z.of_nat (length (opt_list (nm_frac m))))) end)) /\
  (leading_zero m -> string_to_flt (numeral_text m) = Err PSyntax).
Proof.
  intros PS m OK. split; intros LZ.
  all: unfold string_to_flt; rewrite (strip_keep Orc) by (eapply Forall_impl; [|exact (numeral_plain m OK)]; cbn; intros c [B _]; apply PS; exact B).
  all: assert (P : exists d r, numeral_text m = d :: r /\ (d = 46 \/ (48 <= d < 58))%N) by (destruct OK as [D [NN _]]; unfold numeral_text; destruct (nm_int m) as [|d r]; [destruct (nm_frac m) as [l|]; [cbn; eauto|exfalso; apply NN; reflexivity]|inversion D; subst; cbn; do 2 eexists; split; [reflexivity|right; lia]]).
  all: assert (IP : is_prefix (s "inf") (match numeral_text m with c :: r => if (c =? 45)%N then r else numeral_text m | [] => numeral_text m end) = false) by
    (destruct P as [d [r [-> L]]]; destruct (N.eqb_spec d 45); [lia|]; change (s "inf") with (105%N :: [110; 102]%N); cbn [is_prefix]; destruct (N.eqb_spec 105 d) as [Q|Q]; [lia|]; reflexivity).
  all: match goal with |- (if is_prefix _ ?m then _ else _) = _ => assert (IP2 : is_prefix (s "inf") m = false) by exact IP; rewrite IP2 end.
  all: rewrite (scan_float_numeral m OK); unfold frac_digits, exp_val, leading_zero in *; cbn [n_frac n_exp n_int].
  - rewrite !of_digits_positional. fold (opt_list (nm_frac m)). destruct (nm_frac m) as [l|] eqn:F; [|destruct (nm_exp m) as [[[k sg] l]|] eqn:X].
    + f_equal. f_equal. f_equal. unfold exponent. destruct (nm_exp m) as [[[k sg] l']|]; [|reflexivity]. rewrite of_digits_positional. destruct sg as [[|]|]; reflexivity.
    + f_equal. f_equal. f_equal. unfold exponent. rewrite X. rewrite of_digits_positional. destruct sg as [[|]|]; reflexivity.
    + destruct (nm_int m) as [|d [|d2 r]] eqn:NI; [rewrite ?of_digits_positional; reflexivity|destruct d; rewrite ?of_digits_positional; reflexivity|]. destruct d; [|rewrite ?of_digits_positional; reflexivity].
      destruct (N.eqb_spec (positional 10 (0%N :: d2 :: r)) 0) as [Z|Z]; [rewrite Z; reflexivity|]. exfalso. apply LZ. split; [reflexivity|]. split; [reflexivity|]. split; [eauto|exact Z].
  - destruct LZ as (-> & -> & (d & r & E) & NZ). rewrite E in *. rewrite of_digits_positional. destruct (N.eqb_spec (positional 10 (0%N :: d :: r)) 0); [contradiction|reflexivity].
Qed.

Lemma to_flt_numeral : plain_space Orc -> forall m, numeral_ok m -> ~ leading_zero m ->
  string_to_flt (numeral_text m) = Ok (match nm_frac m, nm_exp m with None, None => VInt (Z.of_N (positional 10 (nm_int m)))
    | _, _ => VFlt (flt_of_dec (positional 10 (nm_int m ++ opt_list (nm_frac m))) (exponent m - Z.of_nat (length (opt_list (nm_frac m))))) end).
Proof. intros PS m OK. apply (to_flt_both PS m OK). Qed.
Lemma to_flt_leading_zero : plain_space Orc -> forall m, numeral_ok m -> leading_zero m -> string_to_flt (numeral_text m) = Err PSyntax.
Proof. intros PS m OK. apply (to_flt_both PS m OK). Qed.

Lemma str_to_flt : forall o safe q t q1 v, yields q o (VStr t) q1 -> string_to_flt t = Ok v -> (exists z, v = VInt z) \/ (exists f, v = VFlt f) \/ (exists d, v = VDec d) ->
  yields q (EAttr o (s "to_flt") safe) (VDec (match v with VInt z => dec_of_Z z | VFlt f => flt_dec f | VDec d => d | _ => DNaN end)) q1.
Proof.
  intros o safe q t q1 v H E K. eapply (attr_ok Orc C thing w o (s "to_flt") safe q (VStr t) q1 (VDec _)); [exact H|reflexivity| |reflexivity]. unfold resolve_attr. cbn [from_value]. change (get_attr TString (s "to_flt")) with (@Ok attr a_str_to_flt). cbn [rbind attr_fun]. rewrite E.
  destruct K as [[z ->]|[[f ->]|[d ->]]]; reflexivity.
Qed.

Theorem C54_round_trip_natural : plain_space Orc -> forall o safe safe' q c q1, yields q o (VDec (DFin false c 0)) q1 ->
  yields q (EAttr (EAttr o (s "to_str") safe) (s "to_flt") safe') (VDec (DFin false c 0)) q1.
Proof.
  intros PS o safe safe' q c q1 H. destruct (dec_str_numeral false c 0) as [m [OK [E [V [X [H0 [NE [Z _]]]]]]]]. specialize (Z eq_refl). assert (LZ : ~ leading_zero m) by (intros (_ & _ & (d & r & E') & _); rewrite E' in H0; specialize (H0 eq_refl); discriminate H0). assert (F := to_flt_numeral PS m OK LZ). cbn [app] in E. rewrite <- E in F. rewrite Z in F. cbn [nm_frac nm_exp nm_int] in F.
  assert (P : positional 10 (digits c) = c) by (rewrite <- of_digits_positional; apply digits_spec). rewrite P in F.
  assert (Y := str_to_flt (EAttr o (s "to_str") safe) safe' q _ q1 _ (run_to_str o safe q false c 0 q1 H) F (or_introl (ex_intro _ _ eq_refl))). cbv beta iota in Y.
  replace (dec_of_Z (Z.of_N c)) with (DFin false c 0) in Y; [exact Y|]. unfold dec_of_Z. f_equal; [symmetry; apply Z.ltb_ge; lia|lia].
Qed.
(** s.to_flt for the numeral [m]: an integer of any size exactly; with a fraction or an exponent the nearest float, printed shortest,
    which is the number itself up to 2^52 (15 digits); leading zeros are refused by Python (SyntaxError) *)
Theorem C54_to_flt_integer : plain_space Orc -> forall o safe q m q1, numeral_ok m -> ~ leading_zero m -> nm_frac m = None -> nm_exp m = None -> yields q o (VStr (numeral_text m)) q1 ->
  yields q (EAttr o (s "to_flt") safe) (VDec (DFin false (positional 10 (nm_int m)) 0)) q1.
Proof.
  intros PS o safe q m q1 OK LZ F X H. assert (G := to_flt_numeral PS m OK LZ). rewrite F, X in G. assert (Y := str_to_flt o safe q _ q1 _ H G (or_introl (ex_intro _ _ eq_refl))). cbv beta iota in Y.
  replace (dec_of_Z (Z.of_N (positional 10 (nm_int m)))) with (DFin false (positional 10 (nm_int m)) 0) in Y; [exact Y|]. unfold dec_of_Z. f_equal; [symmetry; apply Z.ltb_ge; lia|lia].
Qed.
Theorem C54_to_flt : plain_space Orc -> forall o safe q m q1, numeral_ok m -> nm_frac m <> None \/ nm_exp m <> None -> yields q o (VStr (numeral_text m)) q1 ->
  (positional 10 (nm_int m ++ opt_list (nm_frac m)) < 2 ^ 52)%N -> -299 <= exponent m - Z.of_nat (length (opt_list (nm_frac m))) <= 290 ->
  exists c e, yields q (EAttr o (s "to_flt") safe) (VDec (DFin false c e)) q1 /\ (dec_q false c e == numeral_value m)%Q.
Proof.
  intros PS o safe q m q1 OK FX H B E. assert (LZ : ~ leading_zero m) by (intros (F & X & _); destruct FX; congruence). assert (G := to_flt_numeral PS m OK LZ).
  set (cc := positional 10 (nm_int m ++ opt_list (nm_frac m))) in *. set (ee := exponent m - Z.of_nat (length (opt_list (nm_frac m)))) in *.
  assert (G' : string_to_flt (numeral_text m) = Ok (VFlt (flt_of_dec cc ee))). { rewrite G. destruct (nm_frac m), (nm_exp m); try reflexivity. destruct FX; congruence. }
  destruct (mk_flt_exact false (q10 (Z.of_N cc) ee) (Z.of_N cc) ee) as (mm & e2 & c & k & R & V); [lia|exact E|apply q10_spec|]. exists c, k.
  assert (Y := str_to_flt o safe q _ q1 _ H G' (or_intror (or_introl (ex_intro _ _ eq_refl)))). cbv beta iota in Y. unfold flt_of_dec in Y. rewrite R in Y. split; [exact Y|]. rewrite V, q10_spec. reflexivity.
Qed.
Theorem C54_to_flt_near : plain_space Orc -> forall o safe q m q1, numeral_ok m -> nm_frac m <> None \/ nm_exp m <> None -> yields q o (VStr (numeral_text m)) q1 ->
  ((2 # 1) ^ (-1022) <= numeral_value m < (2 # 1) ^ 1023)%Q ->
  exists c e, yields q (EAttr o (s "to_flt") safe) (VDec (DFin false c e)) q1 /\ (Qabs (dec_q false c e - numeral_value m) * inject_Z (2 ^ 51) <= numeral_value m)%Q.
Proof.
  intros PS o safe q m q1 OK FX H [L U]. assert (LZ : ~ leading_zero m) by (intros (F & X & _); destruct FX; congruence). assert (G := to_flt_numeral PS m OK LZ).
  assert (NV : (q10 (Z.of_N (positional 10 (nm_int m ++ opt_list (nm_frac m)))) (exponent m - Z.of_nat (length (opt_list (nm_frac m)))) == numeral_value m)%Q) by (rewrite q10_spec; reflexivity).
  set (cc := positional 10 (nm_int m ++ opt_list (nm_frac m))) in *. set (ee := exponent m - Z.of_nat (length (opt_list (nm_frac m)))) in *.
  assert (G' : string_to_flt (numeral_text m) = Ok (VFlt (flt_of_dec cc ee))). { rewrite G. destruct (nm_frac m), (nm_exp m); try reflexivity. destruct FX; congruence. }
  rewrite <- NV in L, U. destruct (mk_flt_near false _ L U) as (mm & e2 & c & k & R & V). exists c, k.
  assert (Y := str_to_flt o safe q _ q1 _ H G' (or_intror (or_introl (ex_intro _ _ eq_refl)))). cbv beta iota in Y. unfold flt_of_dec in Y. rewrite R in Y. split; [exact Y|]. rewrite <- NV. exact V.
Qed.
Theorem C54_to_flt_leading_zero : plain_space Orc -> forall o safe q m q1, numeral_ok m -> leading_zero m -> yields q o (VStr (numeral_text m)) q1 -> fails q (EAttr o (s "to_flt") safe) PSyntax q1.
Proof.
  intros PS o safe q m q1 OK LZ H. unfold P_Ops.yields in H. unfold P_Ops.fails. cbn [eval]. rewrite run_pbind, H. cbn [is_null andb]. unfold resolve_attr. cbn [from_value]. change (get_attr TString (s "to_flt")) with (@Ok attr a_str_to_flt). cbn [rbind attr_fun].
  rewrite (to_flt_leading_zero PS m OK LZ). reflexivity.
Qed.

(** to_str then to_flt gives back the number, up to 2^52 *)
Lemma no_leading_zero : forall m, (hd 1%N (nm_int m) = 0%N -> nm_int m = [0%N]) -> ~ leading_zero m.
Proof. intros m H (_ & _ & (d & r & E) & _). rewrite E in H. specialize (H eq_refl). discriminate H. Qed.
Theorem C54_round_trip : plain_space Orc -> forall o safe safe' q c e q1, yields q o (VDec (DFin false c e)) q1 -> (c < 2 ^ 52)%N -> -299 <= e <= 290 ->
  exists c' e', yields q (EAttr (EAttr o (s "to_str") safe) (s "to_flt") safe') (VDec (DFin false c' e')) q1 /\ (dec_q false c' e' == dec_q false c e)%Q.
Proof.
  intros PS o safe safe' q c e q1 H B R. destruct (Z.eq_dec e 0) as [->|E0]; [exists c, 0; split; [apply C54_round_trip_natural; assumption|reflexivity]|].
  destruct (dec_str_numeral false c e) as [m [OK [E [V [X [H0 [NE [_ Z]]]]]]]]. specialize (Z E0). cbn [app] in E.
  destruct (C54_to_flt PS (EAttr o (s "to_str") safe) safe' q m q1 OK Z) as (c' & e' & Y & W); [rewrite <- E; apply run_to_str; exact H|rewrite V; exact B|rewrite X; exact R|].
  exists c', e'. split; [exact Y|]. rewrite W. unfold numeral_value, dec_q, signed. rewrite V, X. reflexivity.
Qed.
Theorem C54_round_trip_near : plain_space Orc -> forall o safe safe' q c e q1, yields q o (VDec (DFin false c e)) q1 -> ((2 # 1) ^ (-1022) <= dec_q false c e < (2 # 1) ^ 1023)%Q ->
  exists c' e', yields q (EAttr (EAttr o (s "to_str") safe) (s "to_flt") safe') (VDec (DFin false c' e')) q1 /\ (Qabs (dec_q false c' e' - dec_q false c e) * inject_Z (2 ^ 51) <= dec_q false c e)%Q.
Proof.
  intros PS o safe safe' q c e q1 H R. destruct (Z.eq_dec e 0) as [->|E0].
  { exists c, 0. split; [apply C54_round_trip_natural; assumption|]. setoid_replace (dec_q false c 0 - dec_q false c 0)%Q with 0%Q by ring. change (Qabs 0) with 0%Q. rewrite Qmult_0_l. destruct R as [R _]. assert (X : (0 < (2 # 1) ^ (-1022))%Q) by reflexivity. lra. }
  destruct (dec_str_numeral false c e) as [m [OK [E [V [X [H0 [NE [_ Z]]]]]]]]. specialize (Z E0). cbn [app] in E.
  assert (NV : (numeral_value m == dec_q false c e)%Q) by (unfold numeral_value, dec_q, signed; rewrite V, X; reflexivity). rewrite <- NV in R.
  destruct (C54_to_flt_near PS (EAttr o (s "to_str") safe) safe' q m q1 OK Z) as (c' & e' & Y & W); [rewrite <- E; apply run_to_str; exact H|exact R|].
  exists c', e'. split; [exact Y|]. rewrite <- NV. exact W.
Qed.
(** numbers with more digits than a float are not given back *)
Theorem C54_round_trip_refuted : plain_space Orc ->
  forall o safe safe' q q1, yields q o (VDec (DFin false 123456789012345678 (-1))) q1 ->
  yields q (EAttr (EAttr o (s "to_str") safe) (s "to_flt") safe') (VDec (DFin false 12345678901234568 0)) q1.
Proof.
  intros PS o safe safe' q q1 H. destruct (dec_str_numeral false 123456789012345678 (-1)) as [m [OK [E [V [X [H0 [NE [_ Z]]]]]]]]. specialize (Z ltac:(discriminate)). cbn [app] in E.
  assert (G := to_flt_numeral PS m OK (no_leading_zero m H0)). rewrite V, X in G.
  assert (G' : string_to_flt (numeral_text m) = Ok (VFlt (flt_of_dec 123456789012345678 (-1)))). { rewrite G. destruct (nm_frac m), (nm_exp m); try reflexivity. destruct Z; congruence. }
  assert (Y := str_to_flt (EAttr o (s "to_str") safe) safe' q (numeral_text m) q1 _ ltac:(rewrite <- E; apply run_to_str; exact H) G' (or_intror (or_introl (ex_intro _ _ eq_refl)))).
  assert (F : flt_dec (flt_of_dec 123456789012345678 (-1)) = DFin false 12345678901234568 0) by (vm_compute; reflexivity). cbv beta iota in Y. rewrite F in Y. exact Y.
Qed.
End C54.
Print Assumptions C54_round_trip.
Print Assumptions C54_round_trip_near.
Print Assumptions C54_round_trip_refuted.
Print Assumptions C54_to_flt_integer.
Print Assumptions C54_to_flt.
Print Assumptions C54_to_flt_near.
Print Assumptions C54_to_flt_leading_zero.
Print Assumptions C54_is_nan.
Print Assumptions C54_to_int.
Print Assumptions C54_parse_to_str.
Example C54_example : let at_ d n := fst (run demo_world (eval untyped_ctx VNull (EAttr (ELit (VDec d)) (s n) false)) demo_st) in
  at_ (DFin true 25 (-1)) "floor"%string = Ok (num (-3)) /\ at_ (DFin true 25 (-1)) "ceiling"%string = Ok (num (-2)) /\ at_ (DFin false 250 (-1)) "to_int"%string = Ok (VDec (DFin false 250 (-1))) /\
  at_ (DFin false 255 (-1)) "to_int"%string = Err XEval /\ at_ (DFin false 12 (-10)) "to_str"%string = Ok (VStr (s "1.2E-9")) /\
  fst (run demo_world (eval untyped_ctx VNull (EAttr (EAttr (ELit (num 120)) (s "to_str") false) (s "to_flt") false)) demo_st) = Ok (num 120) /\
  fst (run demo_world (eval untyped_ctx VNull (EAttr (EAttr (ELit (num (-5))) (s "to_str") false) (s "to_flt") false)) demo_st) = Ok (VDec DNaN) /\
  fst (run demo_world (eval untyped_ctx VNull (EAttr (EAttr (ELit (VDec (DFin false 150 (-2)))) (s "to_str") false) (s "to_flt") false)) demo_st) = Ok (VDec (DFin false 15 (-1))) /\
  fst (run demo_world (eval untyped_ctx VNull (EAttr (ELit (VStr (s "0.1"))) (s "to_flt") false)) demo_st) = Ok (VDec (DFin false 1 (-1))) /\
  fst (run demo_world (eval untyped_ctx VNull (EAttr (ELit (VStr (s "007"))) (s "to_flt") false)) demo_st) = Err PSyntax.
Proof. cbv zeta. repeat split; vm_compute; reflexivity. Qed.
