(** * CodecFacts: what Codec.v computes *)
From Verif Require Import Base Codec.
From Coq Require Import Zify ZifyN ZifyBool.
Local Open Scope N_scope.
Ltac Zify.zify_post_hook ::= Z.to_euclidean_division_equations.

(** ** UTF-8 (RFC 3629): a code point and its bytes *)
(* utf8_point: specification *)
Inductive utf8_point : N -> list N -> Prop :=
| U1 : forall c, c < 128 -> utf8_point c [c]
| U2 : forall x y, x < 32 -> y < 64 -> 128 <= x * 64 + y -> utf8_point (x * 64 + y) [192 + x; 128 + y]
| U3 : forall x y z, x < 16 -> y < 64 -> z < 64 -> let v := x * 4096 + y * 64 + z in 2048 <= v -> v < 55296 \/ 57344 <= v ->
    utf8_point v [224 + x; 128 + y; 128 + z]
| U4 : forall x y z u, x < 8 -> y < 64 -> z < 64 -> u < 64 -> let v := x * 262144 + y * 4096 + z * 64 + u in 65536 <= v -> v <= 1114111 ->
    utf8_point v [240 + x; 128 + y; 128 + z; 128 + u].
(* utf8: specification: the encoding of a text is that of its code points, one after the other *)
Inductive utf8 : str -> list N -> Prop :=
| Un : utf8 [] []
| Uc : forall c l t b, utf8_point c l -> utf8 t b -> utf8 (c :: t) (l ++ b).

Lemma utf8_char_spec : forall c l, c < 1114112 -> utf8_char c = Ok l <-> utf8_point c l.
Proof.
  intros c l B. unfold utf8_char, surrogate. split.
  - destruct (N.ltb_spec c 128); [intros [= <-]; constructor; lia|].
    destruct (N.ltb_spec c 2048).
    { intros [= <-]. replace c with (c / 64 * 64 + c mod 64) at 1 by lia. constructor; lia. }
    destruct (N.ltb_spec c 65536).
    { destruct ((55296 <=? c) && (c <? 57344)) eqn:S; [discriminate|]. intros [= <-].
      replace c with (c / 4096 * 4096 + c / 64 mod 64 * 64 + c mod 64) at 1 by lia. constructor; lia. }
    intros [= <-]. replace c with (c / 262144 * 262144 + c / 4096 mod 64 * 4096 + c / 64 mod 64 * 64 + c mod 64) at 1 by lia. constructor; lia.
  - intro H. inversion H; subst; clear H.
    + destruct (N.ltb_spec c 128); [reflexivity|lia].
    + destruct (N.ltb_spec (x * 64 + y) 128); [lia|]. destruct (N.ltb_spec (x * 64 + y) 2048); [|lia]. do 2 f_equal; [lia|f_equal; lia].
    + subst v. destruct (N.ltb_spec (x * 4096 + y * 64 + z) 128); [lia|]. destruct (N.ltb_spec (x * 4096 + y * 64 + z) 2048); [lia|].
      destruct (N.ltb_spec (x * 4096 + y * 64 + z) 65536); [|lia].
      replace ((55296 <=? x * 4096 + y * 64 + z) && (x * 4096 + y * 64 + z <? 57344)) with false by lia.
      repeat f_equal; lia.
    + subst v. destruct (N.ltb_spec (x * 262144 + y * 4096 + z * 64 + u) 128); [lia|].
      destruct (N.ltb_spec (x * 262144 + y * 4096 + z * 64 + u) 2048); [lia|].
      destruct (N.ltb_spec (x * 262144 + y * 4096 + z * 64 + u) 65536); [lia|].
      repeat f_equal; lia.
Qed.

Lemma utf8_char_err : forall c x, utf8_char c = Err x -> x = PUnicode.
Proof. intros c x. unfold utf8_char. repeat match goal with |- context [if ?b then _ else _] => destruct b end; congruence. Qed.

(* is_text: str of code points *)
Definition is_text (t : str) : Prop := Forall (fun c => c < 1114112) t.

Lemma utf8_encode_spec : forall t b, is_text t -> utf8_encode t = Ok b <-> utf8 t b.
Proof.
  intros t b B. revert b. induction B as [|c t Hc B IH]; intro b; cbn [utf8_encode].
  - split; [intros [= <-]; constructor|intro H; inversion H; reflexivity].
  - split.
    + destruct (utf8_char c) as [l|] eqn:E; cbn [rbind]; [|discriminate]. destruct (utf8_encode t) as [b'|] eqn:E'; cbn [rmap]; [|discriminate].
      intros [= <-]. constructor; [apply utf8_char_spec; assumption|apply IH; reflexivity].
    + intro H. inversion H as [|c' l t' b' Hl Ht]; subst. apply utf8_char_spec in Hl; [|assumption]. apply IH in Ht. rewrite Hl. cbn [rbind]. rewrite Ht. reflexivity.
Qed.
Lemma utf8_encode_err : forall t x, utf8_encode t = Err x -> x = PUnicode.
Proof.
  induction t as [|c t IH]; cbn [utf8_encode]; intros x H; [discriminate|]. destruct (utf8_char c) as [l|y] eqn:E; cbn [rbind] in H.
  - destruct (utf8_encode t) as [b|y]; cbn [rmap] in H; [discriminate|]. injection H as <-. apply IH. reflexivity.
  - injection H as <-. apply (utf8_char_err c). exact E.
Qed.

Lemma utf8_decode_point : forall c l r, utf8_point c l -> utf8_decode (l ++ r) = rmap (cons c) (utf8_decode r).
Proof.
  intros c l r H. destruct H; cbn [app utf8_decode].
  - destruct (N.ltb_spec c 128); [reflexivity|lia].
  - destruct (N.ltb_spec (192 + x) 128); [lia|]. unfold cont. replace ((128 <=? 128 + y) && (128 + y <? 192)) with true by lia. cbn [negb].
    replace ((194 <=? 192 + x) && (192 + x <? 224)) with true by lia. repeat f_equal; lia.
  - subst v. destruct (N.ltb_spec (224 + x) 128); [lia|]. unfold cont. replace ((128 <=? 128 + y) && (128 + y <? 192)) with true by lia. cbn [negb].
    replace ((194 <=? 224 + x) && (224 + x <? 224)) with false by lia. replace ((128 <=? 128 + z) && (128 + z <? 192)) with true by lia. cbn [negb].
    replace ((224 <=? 224 + x) && (224 + x <? 240)) with true by lia. cbv zeta.
    replace ((224 + x - 224) * 4096 + (128 + y - 128) * 64 + (128 + z - 128)) with (x * 4096 + y * 64 + z) by lia. unfold surrogate.
    destruct ((x * 4096 + y * 64 + z <? 2048) || (55296 <=? x * 4096 + y * 64 + z) && (x * 4096 + y * 64 + z <? 57344)) eqn:E; [lia|reflexivity].
  - subst v. destruct (N.ltb_spec (240 + x) 128); [lia|]. unfold cont. replace ((128 <=? 128 + y) && (128 + y <? 192)) with true by lia. cbn [negb].
    replace ((194 <=? 240 + x) && (240 + x <? 224)) with false by lia. replace ((128 <=? 128 + z) && (128 + z <? 192)) with true by lia. cbn [negb].
    replace ((224 <=? 240 + x) && (240 + x <? 240)) with false by lia. replace ((128 <=? 128 + u) && (128 + u <? 192)) with true by lia. cbn [negb].
    replace ((240 <=? 240 + x) && (240 + x <? 245)) with true by lia. cbv zeta.
    replace ((240 + x - 240) * 262144 + (128 + y - 128) * 4096 + (128 + z - 128) * 64 + (128 + u - 128)) with (x * 262144 + y * 4096 + z * 64 + u) by lia.
    destruct ((x * 262144 + y * 4096 + z * 64 + u <? 65536) || (1114111 <? x * 262144 + y * 4096 + z * 64 + u)) eqn:E; [lia|reflexivity].
Qed.

Lemma utf8_decode_complete : forall t b, utf8 t b -> utf8_decode b = Ok t.
Proof. intros t b H. induction H as [|c l t b Hc H IH]; [reflexivity|]. rewrite (utf8_decode_point c l b Hc), IH. reflexivity. Qed.

Lemma utf8_decode_sound : forall n b t, (length b <= n)%nat -> utf8_decode b = Ok t -> utf8 t b.
Proof.
  induction n as [|n IH]; intros [|x r] t L H; cbn [length] in L; try lia; try (injection H as <-; constructor).
  cbn [utf8_decode] in H. destruct (N.ltb_spec x 128) as [Hx|Hx].
  { destruct (utf8_decode r) as [t'|] eqn:E; cbn [rmap] in H; [|discriminate]. injection H as <-. change (x :: r) with ([x] ++ r). constructor; [constructor; exact Hx|apply IH; [lia|exact E]]. }
  destruct r as [|y r1]; [discriminate|]. cbn [length] in L. destruct (cont y) eqn:Cy; cbn [negb] in H; [|discriminate]. unfold cont in Cy.
  destruct ((194 <=? x) && (x <? 224)) eqn:X2.
  { destruct (utf8_decode r1) as [t'|] eqn:E; cbn [rmap] in H; [|discriminate]. injection H as <-. change (x :: y :: r1) with ([x; y] ++ r1). constructor; [|apply IH; [lia|exact E]].
    replace x with (192 + (x - 192)) at 2 by lia. replace y with (128 + (y - 128)) at 2 by lia. constructor; lia. }
  destruct r1 as [|z r2]; [discriminate|]. cbn [length] in L. destruct (cont z) eqn:Cz; cbn [negb] in H; [|discriminate]. unfold cont in Cz.
  destruct ((224 <=? x) && (x <? 240)) eqn:X3; cbv zeta in H.
  { destruct ((_ <? 2048) || surrogate _) eqn:V; [discriminate|]. unfold surrogate in V.
    destruct (utf8_decode r2) as [t'|] eqn:E; cbn [rmap] in H; [|discriminate]. injection H as <-. change (x :: y :: z :: r2) with ([x; y; z] ++ r2). constructor; [|apply IH; [lia|exact E]].
    replace x with (224 + (x - 224)) at 2 by lia. replace y with (128 + (y - 128)) at 2 by lia. replace z with (128 + (z - 128)) at 2 by lia. constructor; lia. }
  destruct r2 as [|u r3]; [discriminate|]. cbn [length] in L. destruct (cont u) eqn:Cu; cbn [negb] in H; [|discriminate]. unfold cont in Cu.
  destruct ((240 <=? x) && (x <? 245)) eqn:X4; cbv zeta in H; [|discriminate].
  destruct ((_ <? 65536) || (1114111 <? _)) eqn:V; [discriminate|].
  destruct (utf8_decode r3) as [t'|] eqn:E; cbn [rmap] in H; [|discriminate]. injection H as <-. change (x :: y :: z :: u :: r3) with ([x; y; z; u] ++ r3). constructor; [|apply IH; [lia|exact E]].
  replace x with (240 + (x - 240)) at 2 by lia. replace y with (128 + (y - 128)) at 2 by lia. replace z with (128 + (z - 128)) at 2 by lia. replace u with (128 + (u - 128)) at 2 by lia. constructor; lia.
Qed.

Lemma utf8_decode_spec : forall b t, utf8_decode b = Ok t <-> utf8 t b.
Proof. intros b t. split; [apply (utf8_decode_sound (length b)); lia|apply utf8_decode_complete]. Qed.
Lemma utf8_decode_err : forall n b x, (length b <= n)%nat -> utf8_decode b = Err x -> x = PUnicode.
Proof.
  induction n as [|n IH]; intros [|a r] x L H; cbn [length] in L; try lia; try discriminate H.
  assert (R : forall v r', (length r' < length (a :: r))%nat -> rmap (cons v) (utf8_decode r') = Err x -> x = PUnicode).
  { intros v r' Hl E. destruct (utf8_decode r') eqn:E'; cbn [rmap] in E; [discriminate|]. injection E as <-. apply (IH r'); [cbn [length] in Hl; lia|exact E']. }
  cbn [utf8_decode] in H. cbv zeta in H.
  repeat match type of H with
         | context [if ?b then _ else _] => destruct b
         | context [match ?r with [] => _ | _ => _ end] => destruct r
         end; try congruence; try (eapply R; [|exact H]; cbn [length]; lia).
Qed.

Lemma utf8_text : forall t b, utf8 t b -> is_text t.
Proof. intros t b H. induction H as [|c l t b Hc H IH]; constructor; [|exact IH]. destruct Hc; try subst v; lia. Qed.
Lemma utf8_bytes : forall t b, utf8 t b -> Forall (fun x => x < 256) b.
Proof. intros t b H. induction H as [|c l t b Hc H IH]; [constructor|]. apply Forall_app. split; [|exact IH]. destruct Hc; try subst v; repeat constructor; lia. Qed.
Lemma utf8_fun : forall t b b', utf8 t b -> utf8 t b' -> b = b'.
Proof. intros t b b' H H'. assert (T := utf8_text _ _ H). apply utf8_encode_spec in H; [|exact T]. apply utf8_encode_spec in H'; [|exact T]. congruence. Qed.
Lemma utf8_inj : forall t t' b, utf8 t b -> utf8 t' b -> t = t'.
Proof. intros t t' b H H'. apply utf8_decode_spec in H. apply utf8_decode_spec in H'. congruence. Qed.
Lemma utf8_exists : forall t, is_text t -> (exists b, utf8 t b) <-> Forall (fun c => ~ (55296 <= c < 57344)) t.
Proof.
  intros t T. split.
  - intros [b H]. clear T. induction H as [|c l t b Hc H IH]; constructor; [|exact IH]. destruct Hc; try subst v; lia.
  - induction T as [|c t Hc T IH]; intro H; [exists []; constructor|]. inversion H as [|? ? Hs Ht]; subst. destruct (IH Ht) as [b Hb].
    destruct (utf8_char c) as [l|] eqn:E.
    + exists (l ++ b). constructor; [apply utf8_char_spec; assumption|exact Hb].
    + exfalso. unfold utf8_char, surrogate in E. destruct (c <? 128); [discriminate|]. destruct (c <? 2048); [discriminate|]. destruct (c <? 65536); [|discriminate].
      destruct ((55296 <=? c) && (c <? 57344)) eqn:S; [lia|discriminate].
Qed.
(** ASCII text is its own encoding *)
Lemma utf8_ascii : forall t, Forall (fun c => c < 128) t -> utf8 t t.
Proof. intros t H. induction H as [|c t Hc H IH]; [constructor|]. change (c :: t) with ([c] ++ t) at 2. constructor; [constructor; exact Hc|exact IH]. Qed.
Lemma utf8_encode_ascii : forall t, Forall (fun c => c < 128) t -> utf8_encode t = Ok t.
Proof. intros t H. apply utf8_encode_spec; [eapply Forall_impl; [|exact H]; cbn; lia|]. apply utf8_ascii. exact H. Qed.
Lemma Ok_inj : forall A (a b : A), Ok a = Ok b -> a = b.
Proof. intros A a b H. injection H. auto. Qed.
(** bytes that are ASCII come from the same text *)
Lemma utf8_char_ascii : forall c l, utf8_char c = Ok l -> Forall (fun x => x < 128) l -> l = [c] /\ c < 128.
Proof.
  intros c l H F. unfold utf8_char in H. destruct (N.ltb_spec c 128); [injection H as <-; auto|]. exfalso.
  destruct (c <? 2048); [apply Ok_inj in H; subst l; apply Forall_inv in F; cbv beta in F; lia|]. destruct (c <? 65536).
  - destruct (surrogate c); [discriminate|apply Ok_inj in H; subst l; apply Forall_inv in F; cbv beta in F; lia].
  - apply Ok_inj in H; subst l; apply Forall_inv in F; cbv beta in F; lia.
Qed.
Lemma utf8_encode_only_ascii : forall t b, utf8_encode t = Ok b -> Forall (fun x => x < 128) b -> t = b.
Proof.
  induction t as [|c t IH]; cbn [utf8_encode]; intros b H F; [injection H as <-; reflexivity|].
  destruct (utf8_char c) as [l|] eqn:E; cbn [rbind] in H; [|discriminate]. destruct (utf8_encode t) as [b'|]; cbn [rmap] in H; [|discriminate]. injection H as <-.
  apply Forall_app in F as [F1 F2]. destruct (utf8_char_ascii c l E F1) as [-> _]. cbn [app]. f_equal. apply IH; [reflexivity|exact F2].
Qed.

(** ** base64 (RFC 4648, section 4) *)
(* b64_alphabet: specification *)
Definition b64_alphabet : str := s "ABCDEFGHIJKLMNOPQRSTUVWXYZabcdefghijklmnopqrstuvwxyz0123456789+/".
(* b64_digit: specification: [c] is the character at position [d] of the alphabet *)
Definition b64_digit (c d : N) : Prop := nth_error b64_alphabet (N.to_nat d) = Some c.
(* base64: specification: three bytes are one number written with four digits to base 64; one or two bytes at the end are padded with
   zero bits to the next digit and with = to four characters *)
Inductive base64 : list N -> str -> Prop :=
| B0 : base64 [] []
| B1 : forall x c1 c2 d1 d2, x < 256 -> b64_digit c1 d1 -> b64_digit c2 d2 -> x * 16 = d1 * 64 + d2 -> base64 [x] [c1; c2; 61; 61]
| B2 : forall x y c1 c2 c3 d1 d2 d3, x < 256 -> y < 256 -> b64_digit c1 d1 -> b64_digit c2 d2 -> b64_digit c3 d3 ->
    (x * 256 + y) * 4 = (d1 * 64 + d2) * 64 + d3 -> base64 [x; y] [c1; c2; c3; 61]
| B3 : forall x y z c1 c2 c3 c4 d1 d2 d3 d4 b t, x < 256 -> y < 256 -> z < 256 -> b64_digit c1 d1 -> b64_digit c2 d2 -> b64_digit c3 d3 -> b64_digit c4 d4 ->
    (x * 256 + y) * 256 + z = ((d1 * 64 + d2) * 64 + d3) * 64 + d4 -> base64 b t -> base64 (x :: y :: z :: b) (c1 :: c2 :: c3 :: c4 :: t).

Lemma b64_table : forallb (fun d => match nth_error b64_alphabet (N.to_nat d) with Some c => (c =? b64_char d) && negb (c =? 61) && (match b64_val c with Some v => v =? d | None => false end) | None => false end)
  (map N.of_nat (seq 0 64)) = true.
Proof. vm_compute. reflexivity. Qed.
Lemma b64_entry : forall d, d < 64 -> exists c, b64_digit c d /\ c = b64_char d /\ c <> 61 /\ b64_val c = Some d.
Proof.
  intros d H. assert (T := b64_table). rewrite forallb_forall in T. specialize (T d). cbv beta in T. unfold b64_digit.
  destruct (nth_error b64_alphabet (N.to_nat d)) as [c|].
  - exists c. assert (X : In d (map N.of_nat (seq 0 64))).
    { rewrite <- (N2Nat.id d). apply in_map. apply in_seq. lia. }
    specialize (T X). apply andb_prop in T as [T V]. apply andb_prop in T as [T1 T2]. apply N.eqb_eq in T1. apply negb_true_iff in T2. apply N.eqb_neq in T2.
    destruct (b64_val c) as [v|]; [|discriminate]. apply N.eqb_eq in V. subst v. auto.
  - discriminate T. rewrite <- (N2Nat.id d). apply in_map. apply in_seq. lia.
Qed.
Lemma b64_digit_lt : forall c d, b64_digit c d -> d < 64.
Proof. intros c d H. assert (L : (N.to_nat d < length b64_alphabet)%nat) by (apply nth_error_Some; unfold b64_digit in H; congruence). change (length b64_alphabet) with 64%nat in L. lia. Qed.
Lemma b64_digit_val : forall c d, b64_digit c d -> c <> 61 /\ b64_val c = Some d.
Proof. intros c d H. destruct (b64_entry d (b64_digit_lt c d H)) as [c' [H' [_ [N V]]]]. unfold b64_digit in *. rewrite H in H'. injection H' as <-. auto. Qed.
Lemma b64_char_digit : forall d, d < 64 -> b64_digit (b64_char d) d.
Proof. intros d H. destruct (b64_entry d H) as [c [D [-> _]]]. exact D. Qed.
Lemma b64_val_digit : forall c d, b64_val c = Some d -> b64_digit c d /\ c <> 61.
Proof.
  intros c d H. assert (L : d < 64 /\ c = b64_char d /\ c <> 61).
  { unfold b64_val in H. unfold b64_char.
    destruct ((65 <=? c) && (c <=? 90)) eqn:E1; [assert (d = c - 65) by congruence; subst d; replace (c - 65 <? 26) with true by lia; lia|].
    destruct ((97 <=? c) && (c <=? 122)) eqn:E2; [assert (d = c - 71) by congruence; subst d; replace (c - 71 <? 26) with false by lia; replace (c - 71 <? 52) with true by lia; lia|].
    destruct ((48 <=? c) && (c <=? 57)) eqn:E3; [assert (d = c + 4) by congruence; subst d; replace (c + 4 <? 26) with false by lia; replace (c + 4 <? 52) with false by lia; replace (c + 4 <? 62) with true by lia; lia|].
    destruct (N.eqb_spec c 43); [assert (d = 62) by congruence; subst; cbn; lia|]. destruct (N.eqb_spec c 47); [assert (d = 63) by congruence; subst; cbn; lia|]. discriminate. }
  destruct L as [L [-> N]]. split; [apply b64_char_digit; exact L|exact N].
Qed.

Lemma b64_encode_spec_n : forall n b, (length b <= n)%nat -> Forall (fun x => x < 256) b -> base64 b (b64_encode b).
Proof.
  induction n as [|n IH]; intros b L F; [destruct b; [constructor|cbn in L; lia]|].
  destruct b as [|x [|y [|z r]]]; cbn [b64_encode].
  - constructor.
  - apply Forall_inv in F. cbv beta in F. eapply B1; try apply b64_char_digit; lia.
  - assert (Fx := Forall_inv F). apply Forall_inv_tail in F. apply Forall_inv in F. cbv beta in F, Fx. eapply B2; try apply b64_char_digit; lia.
  - assert (Fx := Forall_inv F). apply Forall_inv_tail in F. assert (Fy := Forall_inv F). apply Forall_inv_tail in F. assert (Fz := Forall_inv F). apply Forall_inv_tail in F. cbv beta in Fx, Fy, Fz.
    eapply B3; try apply b64_char_digit; try lia. apply IH; [cbn [length] in L; lia|exact F].
Qed.
Lemma b64_encode_spec : forall b, Forall (fun x => x < 256) b -> base64 b (b64_encode b).
Proof. intros b F. apply (b64_encode_spec_n (length b)); [lia|exact F]. Qed.

(** one step of the decoder *)
Lemma a2b_digit : forall q l p c d r, b64_digit c d -> a2b_base64 q l p (c :: r) =
  if q =? 0 then a2b_base64 1 d 0 r
  else if q =? 1 then rmap (cons (l * 4 + d / 16)) (a2b_base64 2 (d mod 16) 0 r)
  else if q =? 2 then rmap (cons (l * 16 + d / 4)) (a2b_base64 3 (d mod 4) 0 r)
  else rmap (cons (l * 64 + d)) (a2b_base64 0 0 0 r).
Proof. intros q l p c d r H. destruct (b64_digit_val c d H) as [N V]. cbn [a2b_base64]. apply N.eqb_neq in N. rewrite N, V. reflexivity. Qed.

Lemma a2b_base64_spec : forall b t, base64 b t -> forall p, a2b_base64 0 0 p t = Ok b.
Proof.
  intros b t H. induction H as [|x c1 c2 d1 d2 Hx H1 H2 E|x y c1 c2 c3 d1 d2 d3 Hx Hy H1 H2 H3 E|x y z c1 c2 c3 c4 d1 d2 d3 d4 b t Hx Hy Hz H1 H2 H3 H4 E H IH]; intro p.
  - reflexivity.
  - assert (L1 := b64_digit_lt _ _ H1). assert (L2 := b64_digit_lt _ _ H2). rewrite (a2b_digit _ _ _ _ _ _ H1). cbn [N.eqb]. rewrite (a2b_digit _ _ _ _ _ _ H2).
    cbn [N.eqb Pos.eqb]. replace (d1 * 4 + d2 / 16) with x by lia. reflexivity.
  - assert (L1 := b64_digit_lt _ _ H1). assert (L2 := b64_digit_lt _ _ H2). assert (L3 := b64_digit_lt _ _ H3). rewrite (a2b_digit _ _ _ _ _ _ H1). cbn [N.eqb]. rewrite (a2b_digit _ _ _ _ _ _ H2).
    cbn [N.eqb Pos.eqb]. rewrite (a2b_digit _ _ _ _ _ _ H3). cbn [N.eqb Pos.eqb]. replace (d1 * 4 + d2 / 16) with x by lia. replace (d2 mod 16 * 16 + d3 / 4) with y by lia. reflexivity.
  - assert (L1 := b64_digit_lt _ _ H1). assert (L2 := b64_digit_lt _ _ H2). assert (L3 := b64_digit_lt _ _ H3). assert (L4 := b64_digit_lt _ _ H4). rewrite (a2b_digit _ _ _ _ _ _ H1). cbn [N.eqb]. rewrite (a2b_digit _ _ _ _ _ _ H2).
    cbn [N.eqb Pos.eqb]. rewrite (a2b_digit _ _ _ _ _ _ H3). cbn [N.eqb Pos.eqb]. rewrite (a2b_digit _ _ _ _ _ _ H4). cbn [N.eqb Pos.eqb]. rewrite (IH 0).
    replace (d1 * 4 + d2 / 16) with x by lia. replace (d2 mod 16 * 16 + d3 / 4) with y by lia. replace (d3 mod 4 * 64 + d4) with z by lia. reflexivity.
Qed.

(** characters that are neither digits nor = do not matter *)
(* b64_relevant: specification *)
Definition b64_relevant (c : N) : bool := (c =? 61) || match b64_val c with Some _ => true | None => false end.
Lemma a2b_filter : forall t q l p, a2b_base64 q l p t = a2b_base64 q l p (filter b64_relevant t).
Proof.
  induction t as [|c t IH]; intros q l p; [reflexivity|]. cbn [filter]. unfold b64_relevant at 1. destruct (N.eqb_spec c 61) as [->|N]; cbn [orb].
  - cbn [a2b_base64]. rewrite !N.eqb_refl. destruct (2 <=? q); [destruct (4 <=? q + (p + 1)); [reflexivity|apply IH]|apply IH].
  - apply N.eqb_neq in N. destruct (b64_val c) as [d|] eqn:V.
    + cbn [a2b_base64]. rewrite N, V. rewrite <- !IH. reflexivity.
    + cbn [a2b_base64]. rewrite N, V. apply IH.
Qed.
Lemma a2b_err : forall t q l p x, a2b_base64 q l p t = Err x -> x = PBinascii.
Proof.
  assert (R : forall (v : N) r x, rmap (cons v) r = Err x -> (forall y, r = Err y -> y = PBinascii) -> x = PBinascii).
  { intros v [l|y] x H K; cbn [rmap] in H; [discriminate|]. injection H as <-. apply K. reflexivity. }
  induction t as [|c t IH]; intros q l p x H; cbn [a2b_base64] in H; [destruct (q =? 0); congruence|].
  repeat match type of H with
         | (if ?b then _ else _) = _ => destruct b
         | match b64_val c with _ => _ end = _ => destruct (b64_val c)
         end; try congruence; try (eapply IH; exact H); (eapply R; [exact H|intros y Hy; eapply IH; exact Hy]).
Qed.
(** without padding the number of digits decides *)
Lemma a2b_nopad : forall t q l p, q < 4 -> Forall (fun c => c <> 61) t ->
  (exists b, a2b_base64 q l p t = Ok b) <-> ((N.to_nat q + length (filter b64_relevant t)) mod 4 = 0)%nat.
Proof.
  induction t as [|c t IH]; intros q l p Q F; cbn [a2b_base64 filter length].
  - destruct (N.eqb_spec q 0) as [->|N]; split; intro H.
    + reflexivity.
    + eexists; reflexivity.
    + destruct H as [b H]; discriminate H.
    + exfalso. rewrite Nat.add_0_r, Nat.mod_small in H by lia. lia.
  - inversion F as [|? ? Nc F']; subst. unfold b64_relevant at 1. apply N.eqb_neq in Nc. rewrite Nc. cbn [orb].
    assert (R : forall (v : N) r, (exists b, rmap (cons v) r = Ok b) <-> exists b, r = Ok b).
    { intros v [b|x]; cbn [rmap]; split; intros [b' E]; try discriminate E; eexists; reflexivity. }
    destruct (b64_val c) as [d|] eqn:V; [|apply IH; assumption]. cbn [length].
    destruct (N.eqb_spec q 0) as [->|N0]; [rewrite IH by (lia || assumption); replace (N.to_nat 1 + length (filter b64_relevant t))%nat with (N.to_nat 0 + S (length (filter b64_relevant t)))%nat by lia; reflexivity|].
    destruct (N.eqb_spec q 1) as [->|N1]; [rewrite R, IH by (lia || assumption); replace (N.to_nat 2 + length (filter b64_relevant t))%nat with (N.to_nat 1 + S (length (filter b64_relevant t)))%nat by lia; reflexivity|].
    destruct (N.eqb_spec q 2) as [->|N2]; [rewrite R, IH by (lia || assumption); replace (N.to_nat 3 + length (filter b64_relevant t))%nat with (N.to_nat 2 + S (length (filter b64_relevant t)))%nat by lia; reflexivity|].
    rewrite R, IH by (lia || assumption). assert (q = 3) by lia. subst q.
    replace (N.to_nat 3 + S (length (filter b64_relevant t)))%nat with (length (filter b64_relevant t) + 1 * 4)%nat by lia. rewrite Nat.mod_add by lia. reflexivity.
Qed.

(** ** ASCII and Latin-1 *)
Lemma narrow_spec : forall n t b, narrow n t = Ok b <-> b = t /\ Forall (fun c => c < n) t.
Proof.
  intros n t b. unfold narrow. destruct (forallb (fun c => c <? n) t) eqn:E.
  - split; [intros [= <-]; split; [reflexivity|]|intros [-> _]; reflexivity]. rewrite forallb_forall in E. apply Forall_forall. intros c H. apply N.ltb_lt. apply E. exact H.
  - split; [discriminate|]. intros [_ F]. exfalso. assert (forallb (fun c => c <? n) t = true); [|congruence]. apply forallb_forall. rewrite Forall_forall in F. intros c H. apply N.ltb_lt. apply F. exact H.
Qed.
Lemma narrow_err : forall n t x, narrow n t = Err x -> x = PUnicode.
Proof. intros n t x. unfold narrow. destruct (forallb _ t); congruence. Qed.
