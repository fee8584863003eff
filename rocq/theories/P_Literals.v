(** * C67: a rule that is a single literal evaluates to the value the literal denotes *)
From Coq Require Import List NArith ZArith QArith Bool Arith Lia.
From Verif Require Import Base Dec Value DType Types Ops ParseUtil Attr Prog Ast Eval Build Engine ProgFacts StateFacts StrLit P_StrLit.
From Verif Require Import CodecFacts P_Attrs NumFacts.
From Verif Require Import GrammarTab Grammar GrammarSpec GrammarSem P_Grammar Lexer LexSpec P_Lexer RuleText P_Numbers Demo.
Import ListNotations.
Local Open Scope N_scope.

(** ** Specification: the bytes between the quotes of a bytes literal
    [is_oct], [is_hex], [number] (positional value of the digits) and [named] (the one-character escapes) are those of P_StrLit.v *)
Inductive bspells : str -> list N -> Prop :=
| B_end : bspells [] []
| B_plain c r v : c < 128 -> ~ In c [92; 0; 10; 13] -> bspells r v -> bspells (c :: r) (c :: v)                          (* a character stands for itself *)
| B_named c x r v : In (c, x) P_StrLit.named -> bspells r v -> bspells (92 :: c :: r) (x :: v)                            (* \n, \t, \\ ... *)
| B_oct ds r v : (1 <= length ds <= 3)%nat -> Forall is_oct ds -> (length ds = 3%nat \/ forall x t, r = x :: t -> ~ is_oct x) ->
    bspells r v -> bspells (92 :: ds ++ r) (P_StrLit.number 8 ds mod 256 :: v)                                            (* \0 .. \777: the lowest eight bits *)
| B_hex a b r v : is_hex a -> is_hex b -> bspells r v -> bspells (92 :: 120 :: a :: b :: r) (P_StrLit.number 16 [a; b] :: v) (* \x00 .. \xff *)
| B_line c r v : In c [10; 13] -> bspells r v -> bspells (92 :: c :: r) v                                                 (* a backslash before a line break joins the lines *)
| B_other c r v : c < 128 -> ~ In c [0; 10; 13; 120] -> ~ In c (map fst P_StrLit.named) -> ~ is_oct c -> bspells r v ->
    bspells (92 :: c :: r) (92 :: c :: v).                                                                                (* any other escape is kept as it is *)

(** ** The decoder *)
Lemma om {A B} (f : A -> B) x y : option_map f x = Some y <-> exists a, x = Some a /\ f a = y.
Proof. destruct x as [z|]; cbn; split; [intros [= <-]; exists z; auto|intros (a0 & [= ->] & <-); reflexivity|discriminate|intros (a0 & H0 & _); discriminate H0]. Qed.
Lemma in4 (c a b d e : N) : ~ In c [a; b; d; e] <-> c <> a /\ c <> b /\ c <> d /\ c <> e.
Proof. cbn. split; [intro H; repeat split; intros ->; tauto|intros (A & B & D & F) [X|[X|[X|[X|[]]]]]; congruence]. Qed.
Lemma simple_named c x : simple_escape c = Some x <-> In (c, x) P_StrLit.named.
Proof.
  split.
  - unfold simple_escape. repeat (match goal with |- context[if N.eqb c ?k then _ else _] => destruct (N.eqb_spec c k); [subst; intros [= <-]; cbn; auto 20|] end). discriminate.
  - cbn. intros H. repeat destruct H as [H|H]; try (injection H as <- <-; reflexivity). contradiction.
Qed.
Lemma simple_none c : simple_escape c = None <-> ~ In c (map fst P_StrLit.named).
Proof.
  split.
  - intros H I. apply in_map_iff in I as ([c' x] & E & I). cbn in E. subst c'. apply simple_named in I. congruence.
  - intros H. destruct (simple_escape c) as [x|] eqn:E; [|reflexivity]. exfalso. apply H. apply simple_named in E. apply in_map_iff. exists (c, x). auto.
Qed.
Lemma named_chars c : In c (map fst P_StrLit.named) -> ~ In c [0; 10; 13; 120] /\ ~ is_oct c /\ c < 128.
Proof. cbn. unfold is_oct. intros H. repeat destruct H as [H|H]; try contradiction; subst c; (split; [intros X; repeat destruct X as [X|X]; try discriminate X; contradiction|split; [intros X|]; lia]). Qed.

(** plain text, with the escape of an octal number that may have ended here *)
Definition plain (c : N) (r : str) : option (list N) :=
  if c =? 92 then decode_bytes BEsc r
  else if (c =? 0) || (c =? 10) || (c =? 13) || (127 <? c) then None
  else option_map (cons c) (decode_bytes BNormal r).
Lemma normal_cons c r : decode_bytes BNormal (c :: r) = plain c r. Proof. reflexivity. Qed.
Lemma oct_end v n r : (n = O \/ forall x t, r = x :: t -> ~ is_oct x) -> decode_bytes (BOct v n) r = option_map (cons (v mod 256)) (decode_bytes BNormal r).
Proof.
  intros H. destruct r as [|c r]; [reflexivity|]. rewrite normal_cons. destruct n as [|n]; [reflexivity|]. destruct H as [H|H]; [discriminate H|].
  cbn [decode_bytes]. rewrite (oct_val_none c) by (eapply H; reflexivity). reflexivity.
Qed.
Lemma oct_run ds : Forall is_oct ds -> forall v n r, (length ds <= n)%nat -> decode_bytes (BOct v n) (ds ++ r) = decode_bytes (BOct (fold_left (fun v c => 8 * v + P_StrLit.digit c) ds v) (n - length ds)) r.
Proof.
  induction 1 as [|c ds O F IH]; intros v n r L; cbn [length app fold_left] in *; [rewrite Nat.sub_0_r; reflexivity|]. destruct n as [|n]; [lia|].
  cbn [decode_bytes]. rewrite (oct_val_digit c O). rewrite IH by lia. reflexivity.
Qed.
Lemma esc_oct ds r : (1 <= length ds <= 3)%nat -> Forall is_oct ds -> (length ds = 3%nat \/ forall x t, r = x :: t -> ~ is_oct x) ->
  decode_bytes BNormal (92 :: ds ++ r) = option_map (cons (P_StrLit.number 8 ds mod 256)) (decode_bytes BNormal r).
Proof.
  intros L F E. destruct F as [|c ds O F]; [cbn in L; lia|]. cbn [length] in L, E. rewrite normal_cons. unfold plain. cbn [N.eqb Pos.eqb app].
  assert (NL : (c =? 10) || (c =? 13) = false /\ c =? 120 = false). { unfold is_oct in O. split; [apply orb_false_iff; split|]; apply N.eqb_neq; lia. }
  cbn [decode_bytes]. destruct NL as [-> ->]. replace (simple_escape c) with (@None N). 2:{ symmetry. apply simple_none. intros I. apply named_chars in I. tauto. }
  rewrite (oct_val_digit c O). rewrite oct_run by (assumption || lia). rewrite oct_end.
  - unfold P_StrLit.number. cbn [fold_left]. rewrite N.mul_0_r, N.add_0_l. reflexivity.
  - destruct E as [E|E]; [left; lia|right; exact E].
Qed.
Lemma esc_hex a b r : is_hex a -> is_hex b -> decode_bytes BNormal (92 :: 120 :: a :: b :: r) = option_map (cons (P_StrLit.number 16 [a; b])) (decode_bytes BNormal r).
Proof. intros A B. cbn [decode_bytes N.eqb Pos.eqb orb]. rewrite (hex_val_digit a A), (hex_val_digit b B). unfold P_StrLit.number. cbn [fold_left]. rewrite N.mul_0_r, N.add_0_l. reflexivity. Qed.
Lemma esc_line c r : In c [10; 13] -> decode_bytes BNormal (92 :: c :: r) = decode_bytes BNormal r.
Proof. intros [<-|[<-|[]]]; reflexivity. Qed.
Lemma esc_named c x r : In (c, x) P_StrLit.named -> decode_bytes BNormal (92 :: c :: r) = option_map (cons x) (decode_bytes BNormal r).
Proof.
  intros I. assert (J : In c (map fst P_StrLit.named)) by (apply in_map_iff; exists (c, x); auto). apply named_chars in J as (J & _ & _). apply in4 in J as (A0 & A1 & A2 & A3).
  cbn [decode_bytes N.eqb Pos.eqb]. apply N.eqb_neq in A1, A2, A3. rewrite A1, A2, A3. cbn [orb]. apply simple_named in I. rewrite I. reflexivity.
Qed.
Lemma esc_other c r : ~ In c [10; 13; 120] -> ~ In c (map fst P_StrLit.named) -> ~ is_oct c ->
  decode_bytes BNormal (92 :: c :: r) = if (c =? 0) || (127 <? c) then None else option_map (fun t => 92 :: c :: t) (decode_bytes BNormal r).
Proof.
  intros A B D. assert (A1 : c =? 10 = false) by (apply N.eqb_neq; intros ->; apply A; cbn; auto). assert (A2 : c =? 13 = false) by (apply N.eqb_neq; intros ->; apply A; cbn; auto).
  assert (A3 : c =? 120 = false) by (apply N.eqb_neq; intros ->; apply A; cbn; auto).
  cbn [decode_bytes N.eqb Pos.eqb]. rewrite A1, A2, A3. cbn [orb]. apply simple_none in B. rewrite B. rewrite (oct_val_none c D). reflexivity.
Qed.
Lemma spelled_bytes body v : bspells body v -> decode_bytes BNormal body = Some v.
Proof.
  induction 1 as [|c r v L N _ IH|c x r v I _ IH|ds r v L F E _ IH|a b r v A B _ IH|c r v I _ IH|c r v L N I O _ IH].
  - reflexivity.
  - rewrite normal_cons. unfold plain. apply in4 in N as (A & B & D & E). apply N.eqb_neq in A, B, D, E. rewrite A, B, D, E. destruct (N.ltb_spec 127 c); [lia|]. cbn [orb]. rewrite IH. reflexivity.
  - rewrite (esc_named c x r I), IH. reflexivity.
  - rewrite (esc_oct ds r L F E), IH. reflexivity.
  - rewrite (esc_hex a b r A B), IH. reflexivity.
  - rewrite (esc_line c r I). exact IH.
  - apply in4 in N as (A & B & D & E). rewrite esc_other; [|cbn; intros [X|[X|[X|[]]]]; congruence|exact I|exact O]. apply N.eqb_neq in A. rewrite A. destruct (N.ltb_spec 127 c); [lia|]. cbn [orb]. rewrite IH. reflexivity.
Qed.
Lemma bytes_spelled n : forall body v, (length body <= n)%nat -> decode_bytes BNormal body = Some v -> bspells body v.
Proof.
  induction n as [|n IH]; intros body v L H.
  - destruct body; [|cbn in L; lia]. injection H as <-. constructor.
  - destruct body as [|c r]; [injection H as <-; constructor|]. cbn [length] in L. destruct (N.eq_dec c 92) as [->|N92].
    + destruct r as [|c r]; [discriminate H|]. cbn [length] in L.
      destruct (in_dec N.eq_dec c [10; 13]) as [I|NL]; [rewrite (esc_line c r I) in H; apply B_line; [exact I|apply IH; [lia|exact H]]|].
      destruct (N.eq_dec c 120) as [->|N120].
      { destruct r as [|a [|b r]]; [discriminate H| |].
        - exfalso. cbn in H. destruct (hex_val a); discriminate H.
        - cbn [length] in L. destruct (is_hex_dec a) as [A|A]; [|exfalso; cbn [decode_bytes N.eqb Pos.eqb orb] in H; rewrite (hex_val_none a A) in H; discriminate H].
          destruct (is_hex_dec b) as [B|B]; [|exfalso; cbn [decode_bytes N.eqb Pos.eqb orb] in H; rewrite (hex_val_digit a A), (hex_val_none b B) in H; discriminate H].
          rewrite (esc_hex a b r A B) in H. apply om in H as (w & H & <-). apply B_hex; [exact A|exact B|apply IH; [lia|exact H]]. }
      destruct (in_dec N.eq_dec c (map fst P_StrLit.named)) as [I|NN].
      { apply in_map_iff in I as ([c' x] & E & I). cbn in E. subst c'. rewrite (esc_named c x r I) in H. apply om in H as (w & H & <-). apply B_named; [exact I|apply IH; [lia|exact H]]. }
      destruct (is_oct_dec c) as [O|NO].
      { destruct (take_digits is_oct is_oct_dec 2 r) as (ds & t & -> & F & LD & E). change (92 :: c :: ds ++ t) with (92 :: (c :: ds) ++ t) in H |- *.
        assert (L3 : (1 <= length (c :: ds) <= 3)%nat) by (cbn; lia). assert (F3 : Forall is_oct (c :: ds)) by (constructor; assumption).
        assert (E3 : length (c :: ds) = 3%nat \/ forall x t', t = x :: t' -> ~ is_oct x) by (destruct E as [E|E]; [left; cbn; lia|right; exact E]).
        rewrite (esc_oct (c :: ds) t L3 F3 E3) in H. apply om in H as (w & H & <-). apply B_oct; [exact L3|exact F3|exact E3|apply IH; [rewrite app_length in L; lia|exact H]]. }
      rewrite esc_other in H; [|cbn in *; intuition congruence|exact NN|exact NO].
      destruct (N.eqb_spec c 0) as [->|N0]; [discriminate H|]. destruct (N.ltb_spec 127 c) as [Z|Z]; [discriminate H|]. cbn [orb] in H. apply om in H as (w & H & <-).
      apply B_other; [lia|cbn in *; intuition congruence|exact NN|exact NO|apply IH; [lia|exact H]].
    + rewrite normal_cons in H. unfold plain in H. apply N.eqb_neq in N92 as N92'. rewrite N92' in H.
      destruct (N.eqb_spec c 0) as [->|N0]; [discriminate H|]. destruct (N.eqb_spec c 10) as [->|N10]; [discriminate H|]. destruct (N.eqb_spec c 13) as [->|N13]; [discriminate H|].
      destruct (N.ltb_spec 127 c) as [Z|Z]; [discriminate H|]. cbn [orb] in H. apply om in H as (w & H & <-). apply B_plain; [lia|cbn; intuition congruence|apply IH; [lia|exact H]].
Qed.
Lemma bytes_value_iff body v : bytes_value body = Ok v <-> bspells body v.
Proof.
  unfold bytes_value. split.
  - destruct (decode_bytes BNormal body) as [b|] eqn:E; [|discriminate]. intros [= <-]. exact (bytes_spelled _ _ _ (le_n _) E).
  - intros H. rewrite (spelled_bytes _ _ H). reflexivity.
Qed.

(** ** A rule that is one literal *)
Section L.
Context (Orc : Oracle) (space : N -> bool) (uname : str -> option N) (C : ctx) (w : world).
(** Rule(t, context=C).evaluate(thing) *)
Definition outcome (t : str) (thing : value) (q : st) : result value :=
  fst (run w (pbind (rule_of_text space uname C t) (fun e => rule_evaluate C e thing)) q).

Lemma one_token k x : spelled (Some k) x -> tokenize space x = Ok [k].
Proof.
  intros H. apply C59_reads. rewrite <- (app_nil_r x). apply R_token; [apply H_spelled, H| |apply R_end].
  intros o y r E _. rewrite app_nil_r in E. rewrite E, app_length. lia.
Qed.
Lemma text_outcome t d thing q : parse_text space uname t = Ok d ->
  outcome t thing q = match run w (build C d) q with (Ok e, q') => fst (run w (rule_evaluate C e thing) q') | (Err x, _) => Err x end.
Proof. intros H. unfold outcome. rewrite run_pbind. unfold rule_of_text. rewrite H. unfold rule_new. destruct (run w (build C d) q) as [[e|x] q']; reflexivity. Qed.
Lemma text_fails t x thing q : parse_text space uname t = Err x -> outcome t thing q = Err x.
Proof. intros H. unfold outcome. rewrite run_pbind. unfold rule_of_text. rewrite H. reflexivity. Qed.
Lemma literal_value v thing q : fst (run w (rule_evaluate C (ELit v) thing) q) = Ok v.
Proof. rewrite run_rule_evaluate. reflexivity. Qed.
Lemma literal_outcome t k (r : result value) thing q : tokenize space t = Ok [k] ->
  (forall v, r = Ok v -> exists d, parse_tokens uname [k] = Ok d /\ run w (build C d) q = (Ok (ELit v), q)) ->
  (forall x, r = Err x -> parse_tokens uname [k] = Err x \/ exists d, parse_tokens uname [k] = Ok d /\ run w (build C d) q = (Err x, q)) ->
  outcome t thing q = r.
Proof.
  intros T H1 H2. assert (P : parse_text space uname t = parse_tokens uname [k]) by (unfold parse_text; rewrite T; reflexivity).
  destruct r as [v|x].
  - destruct (H1 v eq_refl) as (d & E & B). rewrite (text_outcome t d) by (rewrite P; exact E). rewrite B. apply literal_value.
  - destruct (H2 x eq_refl) as [E|(d & E & B)]; [apply text_fails; rewrite P; exact E|]. rewrite (text_outcome t d) by (rewrite P; exact E). rewrite B. reflexivity.
Qed.

Lemma quoted_body q b : unquote (q :: b ++ [q]) = b.
Proof. cbn [unquote]. apply removelast_last. Qed.
Lemma run_ret (A : Type) (r : result A) q : run w (Ret r) q = (r, q). Proof. destruct r; reflexivity. Qed.
Lemma object_tokens k p : parse [k] = Accepted (Node 1 [Node 5 [Node p [Leaf k]]]) -> parse_tokens uname [k] =
  match nth (N.to_nat p) (actions uname) (fun _ => bad) [STok k] with Ok (SNode d) => Ok d | Ok _ => Err PType | Err x => Err x end.
Proof.
  intros E. unfold parse_tokens. rewrite E. cbn [sem rmapM rbind].
  change (nth (N.to_nat 1) (actions uname) (fun _ => bad)) with a_first. change (nth (N.to_nat 5) (actions uname) (fun _ => bad)) with a_first.
  destruct (nth (N.to_nat p) (actions uname) (fun _ => bad) [STok k]) as [[]|]; reflexivity.
Qed.
Lemma string_tokens x : parse_tokens uname [mkToken T_STRING x] = rmap (fun b => DLit (VStr b)) (string_value uname (unquote x)).
Proof.
  rewrite (object_tokens _ 48) by (vm_compute; reflexivity). change (nth (N.to_nat 48) (actions uname) (fun _ => bad)) with (a_text (fun t => rmap (fun v => DLit (VStr v)) (string_value uname (unquote t)))).
  cbn [a_text Grammar.text]. destruct (string_value uname (unquote x)); reflexivity.
Qed.
Lemma bytes_tokens x : parse_tokens uname [mkToken T_BYTES x] = rmap (fun b => DLit (VBytes b)) (bytes_value (unquote x)).
Proof.
  rewrite (object_tokens _ 39) by (vm_compute; reflexivity). change (nth (N.to_nat 39) (actions uname) (fun _ => bad)) with (a_text (fun t => rmap (fun v => DLit (VBytes v)) (bytes_value (unquote t)))).
  cbn [a_text Grammar.text]. destruct (bytes_value (unquote x)); reflexivity.
Qed.
Lemma datetime_tokens x : parse_tokens uname [mkToken T_DATETIME x] = Ok (DDatetime x). Proof. vm_compute. reflexivity. Qed.
Lemma timedelta_tokens x : parse_tokens uname [mkToken T_TIMEDELTA x] = Ok (DTimedelta x). Proof. vm_compute. reflexivity. Qed.
Lemma float_tokens k x : In k [T_FLOAT; T_FLOAT_NAN; T_FLOAT_INF] -> parse_tokens uname [mkToken k x] = Ok (DFloat x).
Proof. intros [<-|[<-|[<-|[]]]]; vm_compute; reflexivity. Qed.

(** *** bytes *)
Theorem C67_bytes : forall q b, In q quotes -> body q b -> forall thing s0,
  (forall v, outcome (98 :: q :: b ++ [q]) thing s0 = Ok (VBytes v) <-> bspells b v) /\
  ((~ exists v, bspells b v) <-> outcome (98 :: q :: b ++ [q]) thing s0 = Err XSynBytes).
Proof.
  intros q b Q B thing s0.
  assert (O : outcome (98 :: q :: b ++ [q]) thing s0 = rmap VBytes (bytes_value b)).
  { eapply literal_outcome; [apply one_token, S_bytes; assumption| |]; rewrite bytes_tokens, quoted_body.
    - intros v H. destruct (bytes_value b) as [u|]; [|discriminate H]. injection H as <-. eexists. split; reflexivity.
    - intros x H. left. destruct (bytes_value b) as [u|]; [discriminate H|]. injection H as <-. reflexivity. }
  rewrite O. split.
  - intros v. rewrite <- bytes_value_iff. destruct (bytes_value b) as [u|x]; cbn; [split; intros [= ->]; reflexivity|split; discriminate].
  - split.
    + intros N. destruct (bytes_value b) as [u|x] eqn:E; [exfalso; apply N; exists u; apply bytes_value_iff, E|]. apply bytes_error in E. subst x. reflexivity.
    + intros E [v V]. apply bytes_value_iff in V. rewrite V in E. discriminate E.
Qed.
Theorem C67_bytes_range : forall b v, bspells b v -> Forall (fun x => x < 256) v.
Proof.
  induction 1 as [|c r v L N _ IH|c x r v I _ IH|ds r v L F E _ IH|a b r v A B _ IH|c r v I _ IH|c r v L N I O _ IH]; [constructor| | | | |exact IH|]; (constructor; [|first [exact IH|constructor; [lia|exact IH]]]).
  - lia.
  - cbn in I. repeat destruct I as [I|I]; try contradiction; injection I as <- <-; lia.
  - apply N.mod_lt. discriminate.
  - unfold P_StrLit.number. cbn [fold_left]. unfold P_StrLit.digit, is_hex in *. destruct (N.leb_spec a 57), (N.leb_spec b 57), (N.leb_spec a 70), (N.leb_spec b 70); lia.
  - lia.
Qed.

(** *** strings: with or without the prefix s, single or double quotes *)
Theorem C67_string : forall q b pre, In q quotes -> body q b -> In pre [[]; [115]] -> P_StrLit.text b -> forall thing s0,
  (~ In 92 b -> outcome (pre ++ q :: b ++ [q]) thing s0 = Ok (VStr b)) /\
  (forall v, P_StrLit.spells b v -> outcome (pre ++ q :: b ++ [q]) thing s0 = Ok (VStr v)) /\
  (malformed b -> outcome (pre ++ q :: b ++ [q]) thing s0 = Err XSynString).
Proof.
  intros q b pre Q B P T thing s0.
  assert (O : outcome (pre ++ q :: b ++ [q]) thing s0 = rmap VStr (string_value uname b)).
  { apply (literal_outcome _ (mkToken T_STRING (q :: b ++ [q]))).
    - apply one_token. destruct P as [<-|[<-|[]]]; [apply (S_string q b)|apply (S_string_s q b)]; assumption.
    - rewrite string_tokens, quoted_body. intros v H. destruct (string_value uname b) as [u|]; [|discriminate H]. injection H as <-. eexists. split; reflexivity.
    - rewrite string_tokens, quoted_body. intros x H. left. destruct (string_value uname b) as [u|]; [discriminate H|]. injection H as <-. reflexivity. }
  rewrite O. split; [|split].
  - intros N. rewrite C49_plain by assumption. reflexivity.
  - intros v S. rewrite (C49_escapes uname b v T S). reflexivity.
  - intros M. rewrite (C49_malformed uname b T M). reflexivity.
Qed.

(** *** numbers *)
Lemma float_outcome t k thing s0 : In k [T_FLOAT; T_FLOAT_NAN; T_FLOAT_INF] -> spelled (Some (mkToken k t)) t -> outcome t thing s0 = rmap VDec (parse_float t).
Proof.
  intros K S. eapply literal_outcome; [apply one_token, S| |]; rewrite (float_tokens k t K).
  - intros v H. exists (DFloat t). split; [reflexivity|]. cbn [build]. rewrite run_ret. destruct (parse_float t); [|discriminate H]. injection H as <-. reflexivity.
  - intros x H. right. exists (DFloat t). split; [reflexivity|]. cbn [build]. rewrite run_ret. destruct (parse_float t); [discriminate H|]. injection H as <-. reflexivity.
Qed.
Lemma digit_chars_digits ds : Forall (fun d => d < 10) ds -> Forall LexSpec.digit (digit_chars ds).
Proof. intros H. unfold digit_chars. apply Forall_map. eapply Forall_impl; [|exact H]. cbn. unfold LexSpec.digit. intros. lia. Qed.
Lemma digit_chars_digits1 ds : Forall (fun d => d < 10) ds -> ds <> [] -> digits (digit_chars ds).
Proof. intros H N. apply digit_chars_digits in H. destruct ds as [|d ds]; [congruence|]. cbn in *. inversion H; subst. constructor; assumption. Qed.
Lemma numeral_lexed n : numeral_ok n -> LexSpec.numeral (numeral_text n).
Proof.
  intros (D & NE & X). unfold numeral_text. apply Forall_app in D as [D1 D2].
  assert (XE : LexSpec.exponent (match nm_exp n with Some (c, sg, l) => c :: sign_text sg ++ digit_chars l | None => [] end)).
  { destruct (nm_exp n) as [[[c sg] l]|]; [|constructor]. destruct X as (Cc & Dl & Nl). apply (Exp c (sign_text sg) (digit_chars l)).
    - cbn. destruct Cc as [->| ->]; auto.
    - destruct sg as [[|]|]; cbn; auto.
    - apply digit_chars_digits1; assumption. }
  destruct (nm_frac n) as [l|].
  - destruct (nm_int n) as [|d ds] eqn:EI.
    + cbn [digit_chars map app]. apply Fraction; [apply digit_chars_digits1; [exact D2|exact NE]|exact XE].
    + cbn [app]. rewrite <- EI in *. apply Point; [apply digit_chars_digits1; [exact D1|congruence]|apply digit_chars_digits; exact D2|exact XE].
  - cbn [app opt_list] in *. rewrite app_nil_r in NE. apply Whole; [apply digit_chars_digits1; assumption|exact XE].
Qed.
Theorem C67_number : plain_space Orc -> forall n, numeral_ok n -> (match nm_int n with 0 :: _ :: _ => False | _ => True end) -> forall thing s0,
  exists c e, outcome (numeral_text n) thing s0 = Ok (VDec (DFin false c e)) /\ (dec_q false c e == numeral_value n)%Q.
Proof.
  intros PS n OK NZ thing s0. destruct (C47_decimal Orc PS n OK NZ) as (c & e & E & V). exists c, e. split; [|exact V].
  rewrite (float_outcome _ T_FLOAT) by (cbn; auto || apply S_number, numeral_lexed, OK). rewrite E. reflexivity.
Qed.
Theorem C67_leading_zero : forall d r thing s0, d < 10 -> LexSpec.numeral (48 :: (d + 48) :: r) -> outcome (48 :: (d + 48) :: r) thing s0 = Err XSynFloat.
Proof. intros d r thing s0 D N. rewrite (float_outcome _ T_FLOAT) by (cbn; auto || apply S_number, N). rewrite C47_leading_zero by exact D. reflexivity. Qed.
Lemma hex_digit_char c d : hex_digit c d -> (d < 16) /\ LexSpec.hexdigit c /\ (d < 8 -> 48 <= c <= 55) /\ (d < 2 -> c = 48 \/ c = 49).
Proof. unfold hex_digit, LexSpec.hexdigit, LexSpec.digit. intros H. lia. Qed.
Theorem C67_based : forall c b cs ds thing s0, base_letter c b -> Forall2 hex_digit cs ds -> Forall (fun d => d < b) ds -> ds <> [] ->
  outcome (48 :: c :: cs) thing s0 = Ok (VDec (DFin false (positional b ds) 0)).
Proof.
  intros c b cs ds thing s0 B H F NE. assert (L : LexSpec.numeral (48 :: c :: cs)).
  { assert (HC : Forall (fun x => exists d, hex_digit x d /\ d < b) cs). { clear -H F. induction H; [constructor|]. inversion F; subst. constructor; eauto. }
    destruct cs as [|x cs]; [inversion H; subst; congruence|].
    destruct B as [[-> ->]|[[-> ->]|[-> ->]]]; [apply Binary|apply Octal|apply Hex]; (eapply Forall_impl; [|exact HC]); cbn; intros y (d & Hd & Ld); apply hex_digit_char in Hd; tauto. }
  rewrite (float_outcome _ T_FLOAT) by (cbn; auto || apply S_number, L). rewrite (C47_based Orc c b cs ds B H F NE). reflexivity.
Qed.

(** *** the keywords *)
Theorem C67_keywords : forall thing s0,
  outcome (s "true") thing s0 = Ok (VBool true) /\ outcome (s "false") thing s0 = Ok (VBool false) /\ outcome (s "null") thing s0 = Ok VNull /\
  (plain_space Orc -> outcome (s "inf") thing s0 = Ok (VDec (DInf false)) /\ outcome (s "nan") thing s0 = Ok (VDec DNaN)).
Proof.
  intros thing s0.
  assert (K : forall k x v, In (k, x) keywords -> parse_tokens uname [mkToken k x] = Ok (DLit v) -> outcome x thing s0 = Ok v).
  { intros k x v I P. eapply literal_outcome; [apply one_token, S_keyword; exact I| |discriminate]. intros u [= <-]. exists (DLit v). split; [exact P|reflexivity]. }
  split; [|split; [|split]].
  - apply (K T_TRUE); [cbn; auto 20|vm_compute; reflexivity].
  - apply (K T_FALSE); [cbn; auto 20|vm_compute; reflexivity].
  - apply (K T_NULL); [cbn; auto 20|vm_compute; reflexivity].
  - intros PS. split.
    + rewrite (float_outcome _ T_FLOAT_INF) by (cbn; auto || apply S_keyword; cbn; auto 20). unfold parse_float, dec_of_str. rewrite (strip_keep Orc (s "inf")) by (cbn [s]; repeat (apply Forall_cons; [apply PS; cbn; lia|]); apply Forall_nil). reflexivity.
    + rewrite (float_outcome _ T_FLOAT_NAN) by (cbn; auto || apply S_keyword; cbn; auto 20). unfold parse_float, dec_of_str. rewrite (strip_keep Orc (s "nan")) by (cbn [s]; repeat (apply Forall_cons; [apply PS; cbn; lia|]); apply Forall_nil). reflexivity.
Qed.

(** *** dates and durations *)
Theorem C67_datetime : forall q b, In q quotes -> body q b -> forall thing s0,
  outcome (100 :: q :: b ++ [q]) thing s0 = match o_isoparse b with
    | Some (m, Some z) => Ok (VDt m (Some z)) | Some (m, None) => Ok (VDt m (Some (c_tz C))) | None => Err XSynDatetime end.
Proof.
  intros q b Q B thing s0. eapply literal_outcome; [apply one_token, S_datetime; assumption| |]; rewrite datetime_tokens; cbn [build]; unfold parse_datetime.
  - intros v H. eexists. split; [reflexivity|]. cbn [build]. unfold parse_datetime. destruct (o_isoparse b) as [[m [z|]]|]; inversion H; reflexivity.
  - intros x H. right. eexists. split; [reflexivity|]. cbn [build]. unfold parse_datetime. destruct (o_isoparse b) as [[m [z|]]|]; inversion H; reflexivity.
Qed.
Lemma timedelta_outcome q b thing s0 : In q quotes -> body q b -> outcome (116 :: q :: b ++ [q]) thing s0 = parse_timedelta b.
Proof.
  intros Q B. eapply literal_outcome; [apply one_token, S_timedelta; assumption| |]; rewrite timedelta_tokens; cbn [build].
  - intros v H. eexists. split; [reflexivity|]. cbn [build]. rewrite H. reflexivity.
  - intros x H. right. eexists. split; [reflexivity|]. cbn [build]. rewrite H. reflexivity.
Qed.
Lemma simple_body q t : In q quotes -> Forall (fun c => ~ In c [92; 10; 34; 39]) t -> body q t.
Proof. intros Q. induction 1 as [|c t H _ IH]; [constructor|]. apply in4 in H as (A & B & D & E). apply BChar; [exact A|exact B| |exact IH]. destruct Q as [<-|[<-|[]]]; congruence. Qed.
Lemma comp_simple u c : comp_ok c -> In u [87; 68; 72; 77; 83] -> Forall (fun c => ~ In c [92; 10; 34; 39]) (comp_text u c).
Proof.
  intros K U. assert (D : forall ds, dig ds -> Forall (fun c => ~ In c [92; 10; 34; 39]) (digit_chars ds)).
  { intros ds H. unfold digit_chars. apply Forall_map. eapply Forall_impl; [|exact H]. cbn. intros a L [X|[X|[X|[X|[]]]]]; lia. }
  destruct c as [[ds fr]|]; [|constructor]. destruct K as (K1 & _ & K2). cbn [comp_text]. apply Forall_app. split; [apply D, K1|]. apply Forall_app. split.
  - destruct fr as [[p fs]|]; [|constructor]. destruct K2 as (P & F & _). constructor; [destruct P; subst; cbn; intros [X|[X|[X|[X|[]]]]]; discriminate X|apply D, F].
  - constructor; [|constructor]. cbn in U. repeat destruct U as [U|U]; try contradiction; subst; cbn; intros [X|[X|[X|[X|[]]]]]; discriminate X.
Qed.
Lemma duration_body q u : In q quotes -> duration_ok u -> body q (duration_text u).
Proof.
  intros Q (W & D & T & _). apply simple_body; [exact Q|]. unfold duration_text. constructor; [cbn; intros [X|[X|[X|[X|[]]]]]; discriminate X|].
  apply Forall_app. split; [apply comp_simple; cbn; auto|]. apply Forall_app. split; [apply comp_simple; cbn; auto|].
  destruct (du_t u) as [[[h m] x]|]; [|constructor]. destruct T as (T1 & T2 & T3). constructor; [cbn; intros [X|[X|[X|[X|[]]]]]; discriminate X|].
  apply Forall_app. split; [apply comp_simple; cbn; auto|]. apply Forall_app. split; apply comp_simple; cbn; auto 10.
Qed.
Theorem C67_timedelta : forall q u, In q quotes -> duration_ok u -> Forall whole (parts u) -> forall thing s0,
  outcome (116 :: q :: duration_text u ++ [q]) thing s0 = if td_ok (seconds u * 1000000) then Ok (VTd (seconds u * 1000000)) else Err POverflow.
Proof. intros q u Q K W thing s0. rewrite timedelta_outcome by (assumption || apply duration_body; assumption). apply C48_value; assumption. Qed.
Theorem C67_timedelta_fraction : forall q u z, In q quotes -> duration_ok u -> (microseconds u < inject_Z (2 ^ 50))%Q -> (microseconds u == inject_Z z)%Q -> forall thing s0,
  outcome (116 :: q :: duration_text u ++ [q]) thing s0 = Ok (VTd z).
Proof. intros q u z Q K L Z thing s0. rewrite timedelta_outcome by (assumption || apply duration_body; assumption). apply C48_microseconds; assumption. Qed.
Theorem C67_timedelta_malformed : forall q b, In q quotes -> body q b -> (forall u, duration_ok u -> b <> duration_text u /\ b <> duration_text u ++ [10]) -> forall thing s0,
  outcome (116 :: q :: b ++ [q]) thing s0 = Err XSynTimedelta.
Proof. intros q b Q B N thing s0. rewrite timedelta_outcome by assumption. apply C48_only. exact N. Qed.
End L.
Print Assumptions C67_bytes.
Print Assumptions C67_bytes_range.
Print Assumptions C67_string.
Print Assumptions C67_number.
Print Assumptions C67_based.
Print Assumptions C67_leading_zero.
Print Assumptions C67_keywords.
Print Assumptions C67_datetime.
Print Assumptions C67_timedelta.
Print Assumptions C67_timedelta_fraction.
Print Assumptions C67_timedelta_malformed.

(** concrete rules *)
Definition demo_outcome (t : str) : result value := outcome demo_orc ascii_space (fun _ => None) untyped_ctx demo_world t VNull demo_st.
Example C67_example :
  demo_outcome (s "b'a\x41\101\n\q'") = Ok (VBytes [97; 65; 65; 10; 92; 113]) /\ demo_outcome (s "b'\xg1'") = Err XSynBytes /\
  demo_outcome (s "s""it's""") = Ok (VStr (s "it's")) /\ demo_outcome (s "12.5e-3") = Ok (VDec (DFin false 125 (-4))) /\ demo_outcome (s "0xfF") = Ok (VDec (DFin false 255 0)) /\
  demo_outcome (s "007") = Err XSynFloat /\ demo_outcome (s "inf") = Ok (VDec (DInf false)) /\ demo_outcome (s "t'P1DT2H'") = Ok (VTd 93600000000) /\ demo_outcome (s "t'P'") = Err XSynTimedelta /\
  body 39 (s "a\x41\101\n\q") /\ bspells (s "a\x41\101\n\q") [97; 65; 65; 10; 92; 113].
Proof.
  repeat (split; [vm_compute; reflexivity|]). split.
  - repeat (first [apply BNil|apply BEscape; [discriminate|]|apply BChar; [discriminate|discriminate|discriminate|]]).
  - apply bytes_value_iff. vm_compute. reflexivity.
Qed.
