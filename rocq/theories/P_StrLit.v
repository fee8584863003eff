(** * C49: string literals *)
From Verif Require Import Base StrLit.
Local Open Scope N_scope.

(** ** Specification *)
(** Unicode text *)
Definition text (l : str) : Prop := Forall (fun c => c < 1114112) l.
(** what a lexed body looks like: no line break, every backslash followed by another character *)
Inductive lexed : str -> Prop :=
| Lx_nil : lexed []
| Lx_char : forall c r, c <> 92 -> c <> 10 -> lexed r -> lexed (c :: r)
| Lx_esc : forall c r, c <> 10 -> lexed r -> lexed (92 :: c :: r).
(** the characters that follow a backslash are printable ASCII, other than N (which introduces a character name) *)
Inductive ascii_escapes : str -> Prop :=
| Ae_nil : ascii_escapes []
| Ae_char : forall c r, c <> 92 -> ascii_escapes r -> ascii_escapes (c :: r)
| Ae_esc : forall c r, 32 <= c < 127 -> c <> 78 -> ascii_escapes r -> ascii_escapes (92 :: c :: r).

Definition is_hex (c : N) : Prop := 48 <= c <= 57 \/ 65 <= c <= 70 \/ 97 <= c <= 102.
Definition is_oct (c : N) : Prop := 48 <= c <= 55.
(** the number written with digits of the given base *)
Definition digit (c : N) : N := if c <=? 57 then c - 48 else if c <=? 70 then c - 55 else c - 87.
Definition number (base : N) (l : str) : N := fold_left (fun v c => base * v + digit c) l 0.
(** letter, number of digits *)
Inductive hex_kind : N -> nat -> Prop := Hk_x : hex_kind 120 2 | Hk_u : hex_kind 117 4 | Hk_U : hex_kind 85 8.
(** the letters a b f n r t v, the backslash and the two quotes *)
Definition named : list (N * N) := [(97, 7); (98, 8); (102, 12); (110, 10); (114, 13); (116, 9); (118, 11); (92, 92); (39, 39); (34, 34)].
(** characters with a meaning after a backslash *)
Definition meaningful (c : N) : Prop := In c (map fst named) \/ is_oct c \/ (exists n, hex_kind c n) \/ c = 78.

Inductive spells : str -> str -> Prop :=
| Sp_nil : spells [] []
| Sp_char : forall c r v, c <> 92 -> spells r v -> spells (c :: r) (c :: v)
| Sp_named : forall c x r v, In (c, x) named -> spells r v -> spells (92 :: c :: r) (x :: v)
| Sp_oct : forall ds r v, (1 <= length ds <= 3)%nat -> Forall is_oct ds -> (length ds = 3%nat \/ forall d t, r = d :: t -> ~ is_oct d) -> spells r v -> spells (92 :: ds ++ r) (number 8 ds :: v)
| Sp_hex : forall k n ds r v, hex_kind k n -> length ds = n -> Forall is_hex ds -> number 16 ds < 1114112 -> spells r v -> spells (92 :: k :: ds ++ r) (number 16 ds :: v)
| Sp_other : forall c r v, 32 <= c < 127 -> ~ meaningful c -> spells r v -> spells (92 :: c :: r) (92 :: c :: v).
(** a hexadecimal escape with too few digits or beyond Unicode *)
Inductive bad_escape : str -> Prop :=
| Be_short : forall k n ds r, hex_kind k n -> Forall is_hex ds -> (length ds < n)%nat -> (forall d t, r = d :: t -> ~ is_hex d) -> bad_escape (92 :: k :: ds ++ r)
| Be_large : forall k n ds r, hex_kind k n -> length ds = n -> Forall is_hex ds -> 1114112 <= number 16 ds -> bad_escape (92 :: k :: ds ++ r).
(** such an escape after something well formed *)
Definition malformed (body : str) : Prop := exists p v r, body = p ++ r /\ spells p v /\ bad_escape r.

(** ** Proofs *)
(** the collapsed encoding, character by character *)
Fixpoint col (l : str) : str :=
  match l with
  | [] => []
  | c :: r => if c =? 92 then match r with [] => [92] | e :: r' => 92 :: (if e =? 92 then [92] else enc_char e) ++ col r' end
              else enc_char c ++ col r
  end.
Lemma collapse_nb : forall a r, a <> 92 -> collapse (a :: r) = a :: collapse r.
Proof. intros a r H. cbn. apply N.eqb_neq in H. rewrite H. reflexivity. Qed.
Lemma hex_char_nb : forall d, hex_char d <> 92.
Proof. intros d. unfold hex_char. destruct (d <? 10) eqn:E; [apply N.ltb_lt in E|apply N.ltb_ge in E]; lia. Qed.
Lemma collapse_hex : forall n x l, collapse (hex_of n x ++ l) = hex_of n x ++ collapse l.
Proof. induction n as [|n IH]; intros x l; [reflexivity|]. cbn [hex_of]. rewrite <- !app_assoc, IH. cbn [app]. rewrite collapse_nb by apply hex_char_nb. reflexivity. Qed.
Lemma collapse_esc : forall a r, a <> 92 -> collapse (92 :: a :: r) = 92 :: a :: collapse r.
Proof. intros a r H. cbn [collapse]. rewrite N.eqb_refl. assert (E := H). apply N.eqb_neq in E. rewrite E. reflexivity. Qed.
Lemma collapse_enc : forall c l, c <> 92 -> collapse (enc_char c ++ l) = enc_char c ++ collapse l.
Proof.
  intros c l H. unfold enc_char. apply N.eqb_neq in H. rewrite H. apply N.eqb_neq in H.
  destruct (c =? 9); [cbn [app]; rewrite collapse_esc by discriminate; reflexivity|]. destruct (c =? 10); [cbn [app]; rewrite collapse_esc by discriminate; reflexivity|]. destruct (c =? 13); [cbn [app]; rewrite collapse_esc by discriminate; reflexivity|].
  destruct ((32 <=? c) && (c <? 127)); [apply collapse_nb; exact H|].
  destruct (c <? 256); [|destruct (c <? 65536)]; cbn [app]; rewrite collapse_esc by discriminate; rewrite collapse_hex; reflexivity.
Qed.
Lemma encode_cons : forall c l, encode_escape (c :: l) = enc_char c ++ encode_escape l.
Proof. reflexivity. Qed.
Lemma col_ok : forall n l, (length l <= n)%nat -> collapse (encode_escape l) = col l.
Proof.
  induction n as [|n IH]; intros [|c l] L; cbn [length] in L; try lia; try reflexivity. rewrite encode_cons. cbn [col]. destruct (c =? 92) eqn:C.
  - apply N.eqb_eq in C. subst c. unfold enc_char at 1. cbn [N.eqb Pos.eqb app]. destruct l as [|e l]; [reflexivity|]. rewrite encode_cons. cbn [collapse]. rewrite N.eqb_refl. f_equal. destruct (e =? 92) eqn:E.
    + apply N.eqb_eq in E. subst e. change (enc_char 92) with [92; 92]. cbn [app collapse]. rewrite N.eqb_refl. cbn [app]. f_equal. apply IH. cbn in L. lia.
    + apply N.eqb_neq in E. rewrite collapse_enc by exact E. f_equal. apply IH. cbn in L. lia.
  - apply N.eqb_neq in C. rewrite collapse_enc by exact C. f_equal. apply IH. lia.
Qed.

Section dec.
Variable uname : str -> option N.
Notation dec := (decode_escape uname).
Lemma hex_val_char : forall d, d < 16 -> hex_val (hex_char d) = Some d.
Proof.
  intros d H. unfold hex_char, hex_val. destruct (d <? 10) eqn:E.
  - apply N.ltb_lt in E. assert (A : (48 <=? 48 + d) && (48 + d <=? 57) = true) by (apply andb_true_iff; split; apply N.leb_le; lia). rewrite A. f_equal. lia.
  - apply N.ltb_ge in E. assert (A : (48 <=? 87 + d) && (87 + d <=? 57) = false) by (apply andb_false_iff; right; apply N.leb_gt; lia). assert (B : (97 <=? 87 + d) && (87 + d <=? 102) = true) by (apply andb_true_iff; split; apply N.leb_le; lia). rewrite A, B. f_equal. lia.
Qed.
(** reading a list of hexadecimal digits *)
Lemma dec_hex : forall ds vs v n r, Forall2 (fun c d => hex_val c = Some d) ds vs -> length ds = S n ->
  dec (Hex v (S n)) (ds ++ r) = (let x := fold_left (fun a d => 16 * a + d) vs v in if x <? 1114112 then rmap (cons x) (dec Normal r) else Err PUnicode).
Proof.
  intros ds vs v n r H. revert v n. induction H as [|c d ds vs H F IH]; intros v n L; [discriminate|]. cbn [app decode_escape fold_left]. rewrite H. destruct n as [|n].
  - destruct ds; [|discriminate]. inversion F; subst. reflexivity.
  - apply IH. cbn in L. lia.
Qed.
Lemma dec_hex_short : forall ds v n r, Forall (fun c => exists d, hex_val c = Some d) ds -> (length ds <= n)%nat -> (forall c t, r = c :: t -> hex_val c = None) -> dec (Hex v (S n)) (ds ++ r) = Err PUnicode.
Proof.
  intros ds v n r H. revert v n. induction H as [|c ds [d H] F IH]; intros v n L B.
  - cbn [app]. destruct r as [|c t]; [reflexivity|]. cbn [decode_escape]. rewrite (B c t eq_refl). reflexivity.
  - cbn [app decode_escape]. rewrite H. destruct n as [|n]; [cbn in L; lia|]. apply IH; [cbn in L; lia|exact B].
Qed.
Lemma hex_of_vals : forall n x v, (x < 16 ^ N.of_nat n) -> exists vs, Forall2 (fun c d => hex_val c = Some d) (hex_of n x) vs /\ fold_left (fun a d => 16 * a + d) vs v = 16 ^ N.of_nat n * v + x /\ length (hex_of n x) = n.
Proof.
  induction n as [|n IH]; intros x v H.
  - exists []. split; [constructor|]. split; [|reflexivity]. change (16 ^ N.of_nat 0) with 1 in *. cbn [fold_left]. lia.
  - rewrite Nat2N.inj_succ, N.pow_succ_r' in *. destruct (IH (x / 16) v) as [vs [A [B C]]]; [apply N.div_lt_upper_bound; lia|]. exists (vs ++ [x mod 16]). cbn [hex_of]. split; [|split].
    + apply Forall2_app; [exact A|]. constructor; [apply hex_val_char; apply N.mod_lt; discriminate|constructor].
    + rewrite fold_left_app. cbn [fold_left]. rewrite B. assert (X := N.div_mod x 16). nia.
    + rewrite app_length, C. cbn. lia.
Qed.
Lemma dec_plain : forall c r, c <> 92 -> dec Normal (c :: r) = rmap (cons c) (dec Normal r).
Proof. intros c r H. cbn [decode_escape]. apply N.eqb_neq in H. rewrite H. reflexivity. Qed.
(** an encoded character decodes to itself *)
Lemma dec_enc : forall c r, c <> 92 -> c < 1114112 -> dec Normal (enc_char c ++ r) = rmap (cons c) (dec Normal r).
Proof.
  intros c r H U. unfold enc_char. assert (E := H). apply N.eqb_neq in E. rewrite E.
  destruct (c =? 9) eqn:E9; [apply N.eqb_eq in E9; subst; reflexivity|]. destruct (c =? 10) eqn:E10; [apply N.eqb_eq in E10; subst; reflexivity|]. destruct (c =? 13) eqn:E13; [apply N.eqb_eq in E13; subst; reflexivity|].
  destruct ((32 <=? c) && (c <? 127)); [apply dec_plain; exact H|].
  assert (G : forall (k : N) (n : nat), (k = 120 /\ n = 2%nat \/ k = 117 /\ n = 4%nat \/ k = 85 /\ n = 8%nat) -> c < 16 ^ N.of_nat n -> dec Normal ((92 :: k :: hex_of n c) ++ r) = rmap (cons c) (dec Normal r)).
  { intros k n K L. destruct (hex_of_vals n c 0 L) as [vs [A [B C]]]. assert (X : dec Normal ((92 :: k :: hex_of n c) ++ r) = dec (Hex 0 n) (hex_of n c ++ r)) by (destruct K as [[-> ->]|[[-> ->]|[-> ->]]]; reflexivity).
    rewrite X. destruct n as [|n]; [lia|]. rewrite (dec_hex _ vs 0 n r A C). cbv zeta. rewrite B. replace (16 ^ N.of_nat (S n) * 0 + c) with c by lia. apply N.ltb_lt in U. rewrite U. reflexivity. }
  destruct (c <? 256) eqn:L1; [apply N.ltb_lt in L1; apply (G 120 2%nat); [auto|exact L1]|]. destruct (c <? 65536) eqn:L2; [apply N.ltb_lt in L2; apply (G 117 4%nat); [auto|exact L2]|].
  apply (G 85 8%nat); [auto|]. change (16 ^ N.of_nat 8) with 4294967296. lia.
Qed.
Lemma enc_ascii : forall c, 32 <= c < 127 -> c <> 92 -> enc_char c = [c].
Proof.
  intros c H N. unfold enc_char. apply N.eqb_neq in N. rewrite N. replace (c =? 9) with false by (symmetry; apply N.eqb_neq; lia). replace (c =? 10) with false by (symmetry; apply N.eqb_neq; lia). replace (c =? 13) with false by (symmetry; apply N.eqb_neq; lia).
  replace ((32 <=? c) && (c <? 127)) with true; [reflexivity|]. symmetry. apply andb_true_iff. split; [apply N.leb_le|apply N.ltb_lt]; lia.
Qed.

(** ** Digits *)
Lemma hex_val_digit : forall c, is_hex c -> hex_val c = Some (digit c).
Proof.
  intros c H. unfold hex_val, digit, is_hex in *.
  destruct (48 <=? c) eqn:E1, (c <=? 57) eqn:E2, (97 <=? c) eqn:E3, (c <=? 102) eqn:E4, (65 <=? c) eqn:E5, (c <=? 70) eqn:E6; cbn; try reflexivity; exfalso;
  rewrite ?N.leb_le, ?N.leb_gt in *; lia.
Qed.
Lemma hex_val_none : forall c, ~ is_hex c -> hex_val c = None.
Proof.
  intros c H. unfold hex_val, is_hex in *.
  destruct (48 <=? c) eqn:E1, (c <=? 57) eqn:E2, (97 <=? c) eqn:E3, (c <=? 102) eqn:E4, (65 <=? c) eqn:E5, (c <=? 70) eqn:E6; cbn; try reflexivity; exfalso; apply H;
  rewrite ?N.leb_le, ?N.leb_gt in *; lia.
Qed.
Lemma oct_val_digit : forall c, is_oct c -> oct_val c = Some (digit c).
Proof. intros c H. unfold oct_val, digit, is_oct in *. destruct (48 <=? c) eqn:E1, (c <=? 55) eqn:E2, (c <=? 57) eqn:E3; cbn; try reflexivity; exfalso; rewrite ?N.leb_le, ?N.leb_gt in *; lia. Qed.
Lemma oct_val_none : forall c, ~ is_oct c -> oct_val c = None.
Proof. intros c H. unfold oct_val, is_oct in *. destruct (48 <=? c) eqn:E1, (c <=? 55) eqn:E2; cbn; try reflexivity; exfalso; apply H; rewrite ?N.leb_le, ?N.leb_gt in *; lia. Qed.
Lemma hex_ascii : forall c, is_hex c -> 32 <= c < 127 /\ c <> 92.
Proof. intros c [H|[H|H]]; split; lia. Qed.
Lemma oct_ascii : forall c, is_oct c -> 32 <= c < 127 /\ c <> 92.
Proof. intros c H. unfold is_oct in H. split; lia. Qed.
Lemma is_hex_dec : forall c, {is_hex c} + {~ is_hex c}.
Proof. intro c. destruct (hex_val c) as [d|] eqn:E; [left|right; intro H; rewrite (hex_val_digit c H) in E; discriminate]. unfold hex_val, is_hex in *. destruct (48 <=? c) eqn:E1, (c <=? 57) eqn:E2, (97 <=? c) eqn:E3, (c <=? 102) eqn:E4, (65 <=? c) eqn:E5, (c <=? 70) eqn:E6; cbn in E; try discriminate; rewrite ?N.leb_le, ?N.leb_gt in *; lia. Qed.
Lemma is_oct_dec : forall c, {is_oct c} + {~ is_oct c}.
Proof. intro c. unfold is_oct. destruct (48 <=? c) eqn:E1, (c <=? 55) eqn:E2; rewrite ?N.leb_le, ?N.leb_gt in *; [left; lia|right; lia..]. Qed.

Lemma col_ascii : forall c r, 32 <= c < 127 -> c <> 92 -> col (c :: r) = c :: col r.
Proof. intros c r A B. cbn [col]. assert (E := B). apply N.eqb_neq in E. rewrite E, enc_ascii by assumption. reflexivity. Qed.
Lemma col_list : forall ds r, Forall (fun c => 32 <= c < 127 /\ c <> 92) ds -> col (ds ++ r) = ds ++ col r.
Proof. intros ds r H. induction H as [|c ds [A B] H IH]; [reflexivity|]. cbn [app]. rewrite col_ascii, IH by assumption. reflexivity. Qed.
Lemma col_esc : forall c r, 32 <= c < 127 -> col (92 :: c :: r) = 92 :: c :: col r.
Proof. intros c r A. cbn [col]. rewrite N.eqb_refl. destruct (c =? 92) eqn:E; [apply N.eqb_eq in E; subst; reflexivity|]. apply N.eqb_neq in E. rewrite enc_ascii by assumption. reflexivity. Qed.
(** the first character of what follows: unchanged or a backslash *)
Lemma col_head : forall r x t, col r = x :: t -> x = 92 \/ exists t', r = x :: t'.
Proof.
  intros [|c r] x t H; [discriminate|]. cbn [col] in H. destruct (c =? 92) eqn:E; [destruct r; injection H as <- _; left; reflexivity|].
  unfold enc_char in H. rewrite E in H. destruct (c =? 9); [injection H as <- _; left; reflexivity|]. destruct (c =? 10); [injection H as <- _; left; reflexivity|]. destruct (c =? 13); [injection H as <- _; left; reflexivity|].
  destruct ((32 <=? c) && (c <? 127)); [injection H as <- _; right; eauto|]. destruct (c <? 256); [injection H as <- _; left; reflexivity|]. destruct (c <? 65536); injection H as <- _; left; reflexivity.
Qed.
Lemma Forall_hex : forall ds, Forall is_hex ds -> Forall (fun c => 32 <= c < 127 /\ c <> 92) ds /\ Forall2 (fun c d => hex_val c = Some d) ds (map digit ds).
Proof. intros ds H. induction H as [|c ds H F [A B]]; [split; constructor|]. split; constructor; try assumption; [apply hex_ascii; exact H|apply hex_val_digit; exact H]. Qed.
Lemma fold_digits : forall b ds v, fold_left (fun a d => b * a + d) (map digit ds) v = fold_left (fun a c => b * a + digit c) ds v.
Proof. intros b. induction ds as [|c ds IH]; intro v; [reflexivity|]. apply IH. Qed.

Lemma dec_oct : forall ds v n r, Forall is_oct ds -> (length ds <= n)%nat -> (length ds = n \/ forall x t, r = x :: t -> ~ is_oct x) ->
  dec (Oct v n) (ds ++ r) = rmap (cons (fold_left (fun a c => 8 * a + digit c) ds v)) (dec Normal r).
Proof.
  induction ds as [|c ds IH]; intros v n r F L B.
  - cbn [app fold_left]. destruct r as [|x t]; [reflexivity|]. cbn [decode_escape]. destruct n as [|n]; [reflexivity|]. rewrite oct_val_none; [reflexivity|]. destruct B as [B|B]; [discriminate|apply (B x t eq_refl)].
  - inversion F; subst. cbn [app decode_escape fold_left length] in *. destruct n as [|n]; [lia|]. rewrite oct_val_digit by assumption. apply IH; [assumption|lia|]. destruct B as [B|B]; [left; lia|right; exact B].
Qed.
Lemma dec_named : forall c x r, In (c, x) named -> dec Normal (92 :: c :: r) = rmap (cons x) (dec Normal r).
Proof. intros c x r H. cbn in H. repeat (destruct H as [H|H]; [injection H as <- <-; reflexivity|]). destruct H. Qed.
Lemma dec_other : forall c r, 32 <= c -> ~ meaningful c -> dec Normal (92 :: c :: r) = rmap (fun t => 92 :: c :: t) (dec Normal r).
Proof.
  intros c r L H. cbn [decode_escape]. rewrite N.eqb_refl. assert (NE : forall k, meaningful k -> (c =? k) = false) by (intros k K; apply N.eqb_neq; intro E; subst; contradiction).
  assert (NN : forall k x, In (k, x) named -> (c =? k) = false). { intros k x I. apply NE. left. apply in_map_iff. exists (k, x). split; [reflexivity|exact I]. }
  replace (c =? 10) with false by (symmetry; apply N.eqb_neq; lia). rewrite (NE 120), (NE 117), (NE 85), (NE 78) by (right; right; (left; eexists; constructor) || (right; reflexivity)).
  unfold simple_escape. rewrite (NN 92 92), (NN 39 39), (NN 34 34), (NN 98 8), (NN 102 12), (NN 116 9), (NN 110 10), (NN 114 13), (NN 118 11), (NN 97 7) by (cbn; auto 12).
  rewrite oct_val_none; [reflexivity|]. intro O. apply H. right. left. exact O.
Qed.
Lemma dec_hex_kind : forall k n r, hex_kind k n -> exists m, n = S m /\ dec Normal (92 :: k :: r) = dec (Hex 0 n) r.
Proof. intros k n r H. destruct H; eexists; split; reflexivity. Qed.

Lemma spells_dec : forall p v r, spells p v -> text p -> (forall x t, r = x :: t -> x = 92) -> dec Normal (col (p ++ r)) = rmap (app v) (dec Normal (col r)).
Proof.
  intros p v r H. induction H as [|c p v C H IH|c x p v I H IH|ds p v L F B H IH|k n ds p v K L F U H IH|c p v A M H IH]; intros T R.
  - cbn [app]. destruct (dec Normal (col r)); reflexivity.
  - inversion T; subst. cbn [app]. cbn [col]. assert (E := C). apply N.eqb_neq in E. rewrite E, dec_enc, IH by assumption. destruct (dec Normal (col r)); reflexivity.
  - inversion T as [|? ? _ T2]; subst. inversion T2 as [|? ? _ T3]; subst. cbn [app]. rewrite col_esc; [|cbn in I; repeat (destruct I as [I|I]; [injection I as <- _; lia|]); destruct I]. rewrite (dec_named c x _ I), IH by assumption. destruct (dec Normal (col r)); reflexivity.
  - inversion T as [|? ? _ T2]; subst. apply Forall_app in T2 as [_ T3]. destruct ds as [|d ds]; [cbn in L; lia|]. inversion F as [|? ? Fd Fs]; subst. destruct (oct_ascii d Fd) as [DA DB].
    cbn [app]. rewrite col_esc by exact DA. rewrite <- app_assoc, col_list by (eapply Forall_impl; [|exact Fs]; intros; apply oct_ascii; assumption).
    assert (X : dec Normal (92 :: d :: ds ++ col (p ++ r)) = dec (Oct (digit d) 2) (ds ++ col (p ++ r))).
    { cbn [decode_escape]. rewrite N.eqb_refl. unfold is_oct in Fd. repeat match goal with |- context [d =? ?k] => replace (d =? k) with false by (symmetry; apply N.eqb_neq; lia) end.
      unfold simple_escape. repeat match goal with |- context [d =? ?k] => replace (d =? k) with false by (symmetry; apply N.eqb_neq; lia) end. rewrite (oct_val_digit d Fd). reflexivity. }
    rewrite X, dec_oct; [|exact Fs|cbn in L; lia|].
    + rewrite IH by assumption. cbn [number fold_left]. destruct (dec Normal (col r)); cbn [rmap]; [|reflexivity]. unfold number. cbn [fold_left]. reflexivity.
    + destruct B as [B|B]; [left; cbn in B; lia|]. right. intros x t Ex. apply col_head in Ex as [->|[t' Ex]]; [unfold is_oct; lia|]. destruct p as [|p0 p]; [|injection Ex as -> _; apply (B x p eq_refl)]. cbn in Ex. rewrite (R x t' Ex). unfold is_oct; lia.
  - inversion T as [|? ? _ T2]; subst. inversion T2 as [|? ? _ T3]; subst. apply Forall_app in T3 as [_ T4]. destruct (Forall_hex ds F) as [F1 F2].
    cbn [app]. rewrite col_esc by (destruct K; lia). rewrite <- app_assoc, col_list by exact F1. destruct (dec_hex_kind k _ (ds ++ col (p ++ r)) K) as [m [E X]]. rewrite X. rewrite E. rewrite (dec_hex ds (map digit ds) 0 m _ F2 E). cbv zeta. rewrite fold_digits. fold (number 16 ds).
    apply N.ltb_lt in U. rewrite U, IH by assumption. destruct (dec Normal (col r)); reflexivity.
  - inversion T as [|? ? _ T2]; subst. inversion T2 as [|? ? _ T3]; subst. cbn [app]. rewrite col_esc, dec_other, IH by (assumption || lia). destruct (dec Normal (col r)); reflexivity.
Qed.
Lemma bad_dec : forall r, bad_escape r -> text r -> dec Normal (col r) = Err PUnicode.
Proof.
  intros r [k n ds t K F L B|k n ds t K L F U] T; destruct (Forall_hex ds F) as [F1 F2]; rewrite col_esc by (destruct K; lia); rewrite col_list by exact F1; destruct (dec_hex_kind k _ (ds ++ col t) K) as [m [E X]]; rewrite X, E.
  - apply dec_hex_short; [eapply Forall_impl; [|exact F]; intros c H; exists (digit c); apply hex_val_digit; exact H|lia|]. intros c t0 Ec. apply col_head in Ec as [->|[t' ->]]; [reflexivity|]. apply hex_val_none. apply (B c t' eq_refl).
  - rewrite (dec_hex ds (map digit ds) 0 m _ F2) by lia. cbv zeta. rewrite fold_digits. fold (number 16 ds). apply N.ltb_ge in U. rewrite U. reflexivity.
Qed.

(** ** Theorems *)
(** a literal without backslash is its body *)
Theorem C49_plain : forall body, text body -> ~ In 92 body -> string_value uname body = Ok body.
Proof.
  intros body T N. unfold string_value. rewrite (col_ok _ _ (le_n _)). assert (S : spells body body) by (clear T; induction body as [|c r IH]; constructor; [intro; subst; apply N; left; reflexivity|apply IH; intro H; apply N; right; exact H]).
  assert (X := spells_dec body body [] S T ltac:(intros; discriminate)). rewrite app_nil_r in X. rewrite X. cbn. rewrite app_nil_r. reflexivity.
Qed.
(** escape sequences mean what they say *)
Theorem C49_escapes : forall body v, text body -> spells body v -> string_value uname body = Ok v.
Proof.
  intros body v T S. unfold string_value. rewrite (col_ok _ _ (le_n _)). assert (X := spells_dec body v [] S T ltac:(intros; discriminate)). rewrite app_nil_r in X. rewrite X. cbn. rewrite app_nil_r. reflexivity.
Qed.
(** a malformed escape is a StringSyntaxError *)
Theorem C49_malformed : forall body, text body -> malformed body -> string_value uname body = Err XSynString.
Proof.
  intros body T [p [v [r [-> [S B]]]]]. apply Forall_app in T as [T1 T2]. unfold string_value. rewrite (col_ok _ _ (le_n _)). rewrite (spells_dec p v r S T1).
  - rewrite (bad_dec r B T2). reflexivity.
  - intros x t E. destruct B; injection E as <- _; reflexivity.
Qed.
(** nothing else can go wrong, whatever the text *)
Theorem C49_only_syntax_error : forall body x, string_value uname body = Err x -> x = XSynString.
Proof.
  assert (G : forall l st x, dec st l = Err x -> x = PUnicode).
  { assert (RM : forall A B (f : A -> B) r x, rmap f r = Err x -> r = Err x) by (intros A B f [a0|e0] x; cbn; congruence).
    induction l as [|c r IH]; intros st x H; cbn [decode_escape] in H; [destruct st; congruence|].
    assert (PL : forall x, (if c =? 92 then dec Esc r else rmap (cons c) (dec Normal r)) = Err x -> x = PUnicode) by (intros y Y; destruct (c =? 92); [eapply IH; exact Y|apply RM in Y; eapply IH; exact Y]).
    destruct st.
    - apply PL. exact H.
    - destruct (c =? 10); [eapply IH; exact H|]. destruct (c =? 120); [eapply IH; exact H|]. destruct (c =? 117); [eapply IH; exact H|]. destruct (c =? 85); [eapply IH; exact H|]. destruct (c =? 78); [eapply IH; exact H|]. destruct (simple_escape c); [apply RM in H; eapply IH; exact H|]. destruct (oct_val c); [eapply IH; exact H|apply RM in H; eapply IH; exact H].
    - destruct more; [apply RM in H; apply PL; exact H|]. destruct (oct_val c); [eapply IH; exact H|apply RM in H; apply PL; exact H].
    - destruct (hex_val c); [|congruence]. destruct more as [|[|more]]; [| |eapply IH; exact H]; (destruct (_ <? _); [apply RM in H; eapply IH; exact H|congruence]).
    - destruct (c =? 123); [eapply IH; exact H|congruence].
    - destruct (c =? 125); [|eapply IH; exact H]. destruct (uname (rev acc)); [apply RM in H; eapply IH; exact H|congruence]. }
  intros body x H. unfold string_value in H. destruct (dec Normal _) as [v|y] eqn:E; [discriminate|]. apply G in E. subst y. congruence.
Qed.
Lemma take_digits : forall (P : N -> Prop), (forall c, {P c} + {~ P c}) -> forall n r, exists ds t, r = ds ++ t /\ Forall P ds /\ (length ds <= n)%nat /\ (length ds = n \/ forall x t', t = x :: t' -> ~ P x).
Proof.
  intros P D. induction n as [|n IH]; intros r; [exists [], r; split; [reflexivity|]; split; [constructor|]; split; [cbn; lia|left; reflexivity]|]. destruct r as [|c r]; [exists [], []; split; [reflexivity|]; split; [constructor|]; split; [cbn; lia|right; intros; discriminate]|].
  destruct (D c) as [H|H]; [|exists [], (c :: r); split; [reflexivity|]; split; [constructor|]; split; [cbn; lia|right; intros x t' E; injection E as <- _; exact H]].
  destruct (IH r) as [ds [t [-> [F [L B]]]]]. exists (c :: ds), t. split; [reflexivity|]. split; [constructor; assumption|]. split; [cbn; lia|]. destruct B as [B|B]; [left; cbn; lia|right; exact B].
Qed.
Lemma ascii_tail : forall ds r, Forall (fun c => c <> 92) ds -> ascii_escapes (ds ++ r) -> ascii_escapes r.
Proof. intros ds r H. induction H as [|c ds H F IH]; intro A; [exact A|]. apply IH. cbn in A. inversion A; subst; [assumption|congruence]. Qed.
(** so every lexed body whose escapes are ASCII is covered: either it is spelled out or it is malformed *)
Theorem C49_covered : forall body, ascii_escapes body -> (exists v, spells body v) \/ malformed body.
Proof.
  intro body. assert (G : forall n body, (length body <= n)%nat -> ascii_escapes body -> (exists v, spells body v) \/ malformed body); [|apply (G _ _ (le_n _))].
  assert (EXT : forall p r, (forall v, spells r v -> exists v', spells (p ++ r) v') -> (forall p' v r', r = p' ++ r' -> spells p' v -> bad_escape r' -> exists v', spells (p ++ p') v') -> ((exists v, spells r v) \/ malformed r) -> (exists v, spells (p ++ r) v) \/ malformed (p ++ r)).
  { intros p r H1 H2 [[v S]|[p' [v [r' [E [S B]]]]]]; [left; eauto|]. right. destruct (H2 p' v r' E S B) as [v' S']. exists (p ++ p'), v', r'. subst r. rewrite app_assoc. auto. }
  induction n as [|n IH]; intros b L A; [destruct b; [left; exists []; constructor|cbn in L; lia]|].
  destruct A as [|c r C A|c r C NN A]; [left; exists []; constructor| |].
  - apply (EXT [c] r); [intros v S; exists (c :: v); constructor; assumption|intros p' v r' _ S _; exists (c :: v); constructor; assumption|apply IH; [cbn in L; lia|exact A]].
  - destruct (in_dec N.eq_dec c (map fst named)) as [I|NI].
    { apply in_map_iff in I as [[c' x] [E I]]. cbn in E. subst c'. apply (EXT [92; c] r); [intros v S; exists (x :: v); apply Sp_named; assumption|intros p' v r' _ S _; exists (x :: v); apply Sp_named; assumption|apply IH; [cbn in L; lia|exact A]]. }
    destruct (is_oct_dec c) as [O|NO].
    { destruct (take_digits is_oct is_oct_dec 2 r) as [ds [t [-> [F [LD B]]]]]. assert (At : ascii_escapes t) by (eapply ascii_tail; [|exact A]; eapply Forall_impl; [|exact F]; intros d Hd; apply oct_ascii; exact Hd).
      change (92 :: c :: ds ++ t) with ((92 :: (c :: ds)) ++ t). apply EXT; [| |apply IH; [cbn in L; rewrite app_length in L; lia|exact At]].
      - intros v S. exists (number 8 (c :: ds) :: v). apply (Sp_oct (c :: ds)); [cbn; lia|constructor; assumption| |exact S]. destruct B as [B|B]; [left; cbn; lia|right; exact B].
      - intros p' v r' E S Bd. exists (number 8 (c :: ds) :: v). apply (Sp_oct (c :: ds)); [cbn; lia|constructor; assumption| |exact S]. destruct B as [B|B]; [left; cbn; lia|]. right. intros d t' Ep. apply (B d (t' ++ r')). rewrite E, Ep. reflexivity. }
    assert (HK : (exists k, hex_kind c k) \/ ~ exists k, hex_kind c k). { destruct (N.eq_dec c 120) as [->|N1]; [left; eexists; constructor|]. destruct (N.eq_dec c 117) as [->|N2]; [left; eexists; constructor|]. destruct (N.eq_dec c 85) as [->|N3]; [left; eexists; constructor|]. right. intros [k K]. destruct K; congruence. }
    destruct HK as [[k K]|NK].
    { destruct (take_digits is_hex is_hex_dec k r) as [ds [t [-> [F [LD B]]]]]. assert (At : ascii_escapes t) by (eapply ascii_tail; [|exact A]; eapply Forall_impl; [|exact F]; intros d Hd; apply hex_ascii; exact Hd).
      destruct (Nat.eq_dec (length ds) k) as [LE|LN].
      - destruct (N.lt_ge_cases (number 16 ds) 1114112) as [U|U].
        + change (92 :: c :: ds ++ t) with ((92 :: c :: ds) ++ t). apply EXT; [| |apply IH; [cbn in L; rewrite app_length in L; lia|exact At]]; intros; exists (number 16 ds :: v); apply (Sp_hex c k ds); assumption.
        + right. exists [], [], (92 :: c :: ds ++ t). split; [reflexivity|]. split; [constructor|]. apply (Be_large c k); assumption.
      - right. exists [], [], (92 :: c :: ds ++ t). split; [reflexivity|]. split; [constructor|]. apply (Be_short c k); [exact K|exact F|lia|]. destruct B as [B|B]; [contradiction|exact B]. }
    assert (M : ~ meaningful c) by (intros [X|[X|[X|X]]]; contradiction).
    apply (EXT [92; c] r); [intros v S; exists (92 :: c :: v); apply Sp_other; assumption|intros p' v r' _ S _; exists (92 :: c :: v); apply Sp_other; assumption|apply IH; [cbn in L; lia|exact A]].
Qed.
End dec.

(** ** Deviation: a backslash before a character the encoder escapes (here e with acute accent) is not kept *)
Theorem C49_non_ascii_escape_refuted : forall uname, string_value uname [92; 233] = Ok [92; 120; 101; 57] /\ ~ meaningful 233.
Proof. intro uname. split; [vm_compute; reflexivity|]. intros [H|[H|[[n H]|H]]]; [cbn in H; lia|unfold is_oct in H; lia|inversion H|discriminate]. Qed.

Example C49_example : spells (s "a\tb\x41\101\q") (s "a" ++ [9] ++ s "bAA\q") /\ malformed (s "ab\x4") /\ ascii_escapes (s "a\tb\x41") /\ text [233; 128512].
Proof.
  split; [|split; [|split]].
  - apply Sp_char; [discriminate|]. apply (Sp_named 116 9); [cbn; auto 10|]. apply Sp_char; [discriminate|]. apply (Sp_hex 120 2 [52; 49]); [constructor|reflexivity|repeat constructor; unfold is_hex; lia|reflexivity|].
    apply (Sp_oct [49; 48; 49]); [cbn; lia|repeat constructor; unfold is_oct; lia|left; reflexivity|]. apply (Sp_other 113); [lia| |constructor]. intros [H|[H|[[n H]|H]]]; [cbn in H; lia|unfold is_oct in H; lia|inversion H|discriminate].
  - exists (s "ab"), (s "ab"), (s "\x4"). split; [reflexivity|]. split; [repeat constructor; discriminate|]. apply (Be_short 120 2 [52] []); [constructor|repeat constructor; unfold is_hex; lia|cbn; lia|discriminate].
  - vm_compute. apply Ae_char; [discriminate|]. apply Ae_esc; [lia|discriminate|]. apply Ae_char; [discriminate|]. apply Ae_esc; [lia|discriminate|]. apply Ae_char; [discriminate|]. apply Ae_char; [discriminate|]. apply Ae_nil.
  - repeat constructor.
Qed.
