(** * C59-C61: reading the text of a rule *)
From Coq Require Import List NArith Bool Arith Lia.
From Verif Require Import Base Dec Value DType Types Ops ParseUtil Attr Prog Ast Eval Build StrLit P_StrLit.
From Verif Require Import Grammar GrammarSpec GrammarFacts GrammarSem P_Grammar P_Print Lexer LexSpec LexFacts LexSteps.
Import ListNotations.
Local Open Scope N_scope.

Section S.
Variable space : N -> bool.
Notation tokenize := (tokenize space).
Notation reads := (reads space).
Notation here := (here space).

Lemma matched_app pv t x pv' t' : t = x ++ t' -> matched (pv, t) (pv', t') = x.
Proof.
  intros ->. unfold matched. cbn [snd]. rewrite app_length. replace (length x + length t' - length t')%nat with (length x) by lia.
  rewrite firstn_app, Nat.sub_diag, firstn_all. cbn [firstn]. apply app_nil_r.
Qed.
(** the written form determines the token *)
Definition classify (x : str) : option token :=
  let sym := match symbol_action x with Ok o => o | Err _ => None end in
  match x with
  | [] => None
  | c :: r =>
      if existsb (N.eqb c) op_chars then option_map (fun kx => mkToken (fst kx) x) (find (fun kx => str_eqb x (snd kx)) operators)
      else if existsb (N.eqb c) quotes then Some (mkToken T_STRING x)
      else if digit_c c || (c =? 46) then Some (mkToken T_FLOAT x)
      else match r with
           | q :: b => if existsb (N.eqb q) quotes
                       then Some (if c =? 115 then mkToken T_STRING r else if c =? 98 then mkToken T_BYTES r
                                  else if c =? 100 then mkToken T_DATETIME (removelast b) else mkToken T_TIMEDELTA (removelast b))
                       else sym
           | [] => sym
           end
  end.
Lemma existsb_in c l : existsb (N.eqb c) l = true <-> In c l.
Proof.
  rewrite existsb_exists. split; [intros (k & I & E); apply N.eqb_eq in E; subst; exact I|]. intros I. exists c. split; [exact I|apply N.eqb_refl].
Qed.
Lemma existsb_notin c l : ~ In c l -> existsb (N.eqb c) l = false.
Proof. intros H. destruct (existsb (N.eqb c) l) eqn:E; [apply existsb_in in E; contradiction|reflexivity]. Qed.
Lemma letter_notin c : letter c \/ c = 36 -> ~ In c op_chars /\ ~ In c quotes /\ digit_c c || (c =? 46) = false.
Proof.
  intros H. split; [|split].
  - intros J. pose proof (op_not _ J) as (NL & _ & NE). cbn in NE. destruct H; [contradiction|subst; tauto].
  - intros [<-|[<-|[]]]; unfold letter in H; lia.
  - apply orb_false_iff. split; [|apply N.eqb_neq; unfold letter in H; lia]. destruct (digit_c c) eqn:D; [|reflexivity]. apply digit_iff in D. unfold letter, digit in *. lia.
Qed.
Lemma classify_symbol x o : symbol x -> (match symbol_action x with Ok o => o | Err _ => None end) = o -> classify x = o.
Proof.
  intros S <-. unfold classify. destruct x as [|c r]; [inversion S; subst; match goal with H : name [] |- _ => inversion H end|].
  destruct (letter_notin c (symbol_head _ _ S)) as (A & B & C). rewrite (existsb_notin _ _ A), (existsb_notin _ _ B), C.
  destruct r as [|q b]; [reflexivity|]. replace (existsb (N.eqb q) quotes) with false; [reflexivity|]. symmetry. apply existsb_notin. intros Q.
  assert (X : alnum q) by (inversion S as [? N|? N]; subst; inversion N as [? ? L F]; subst; [inversion F; assumption|left; exact L]).
  unfold alnum, letter, digit in X. destruct Q as [<-|[<-|[]]]; lia.
Qed.
Lemma quote_facts q : In q quotes -> ~ In q op_chars /\ existsb (N.eqb q) quotes = true.
Proof.
  intros Q. split; [|apply existsb_in, Q]. intros J. pose proof (op_not _ J) as (_ & _ & NE). cbn in NE. destruct Q as [<-|[<-|[]]]; tauto.
Qed.
Lemma classify_spelled o x : spelled o x -> classify x = o.
Proof.
  intros [k y I|k y I|y I|y I K F|y I|q b Q B|q b Q B|q b Q B|q b Q B|q b Q B].
  - vm_compute in I. repeat (destruct I as [[= <- <-]|I]; [reflexivity|]). destruct I.
  - apply classify_symbol; [exact (keyword_symbol _ _ I)|]. vm_compute in I. repeat (destruct I as [[= <- <-]|I]; [reflexivity|]). destruct I.
  - apply classify_symbol; [exact (future_symbol _ I)|]. vm_compute in I. repeat (destruct I as [<-|I]; [reflexivity|]). destruct I.
  - apply classify_symbol; [exact I|]. unfold symbol_action. destruct (existsb (str_eqb y) future_words) eqn:E.
    + exfalso. apply F. apply existsb_exists in E as (z & J & E). apply str_eqb_eq in E. subst. exact J.
    + pose proof (assoc_keywords y) as A. destruct (Base.assoc y reserved_words) as [k|]; [destruct (K k A)|reflexivity].
  - unfold classify. destruct y as [|c r]; [inversion I; subst; try discriminate; match goal with D : digits _, E : _ = [] |- _ => destruct D; discriminate E end|].
    pose proof (numeral_head _ _ I) as H. rewrite (existsb_notin c op_chars), (existsb_notin c quotes).
    + replace (digit_c c || (c =? 46)) with true; [reflexivity|]. symmetry. apply orb_true_iff. destruct H as [H| ->]; [left; apply digit_iff, H|right; reflexivity].
    + intros [<-|[<-|[]]]; unfold digit in H; lia.
    + intros J. pose proof (op_not _ J) as (_ & ND & NE). cbn in NE. destruct H; [contradiction|subst; tauto].
  - destruct (quote_facts q Q) as [A E]. unfold classify. rewrite (existsb_notin _ _ A), E. reflexivity.
  - destruct (quote_facts q Q) as [A E]. cbn -[quotes existsb]. rewrite E. reflexivity.
  - destruct (quote_facts q Q) as [A E]. cbn -[quotes existsb]. rewrite E. reflexivity.
  - destruct (quote_facts q Q) as [A E]. cbn -[quotes existsb]. rewrite E. rewrite removelast_last. reflexivity.
  - destruct (quote_facts q Q) as [A E]. cbn -[quotes existsb]. rewrite E. rewrite removelast_last. reflexivity.
Qed.
Lemma here_unique pv o o' x r : here pv o x r -> here pv o' x r -> o = o'.
Proof.
  assert (N1 : forall o, ~ spelled o [46]).
  { intros o1 H. assert (F : form space None [46] []) by (apply here_form with (o := o1); constructor; exact H).
    destruct (form_dot _ _ _ _ F) as [N|(_ & (c & Ec & _) & _)]; [|discriminate Ec]. inversion N as [| | |x0 e D X E|x0 z e D X Y E|z e D X E]; subst.
    - destruct D as [c y Hc _]. cbn in E. injection E as -> _. unfold digit in Hc. lia.
    - destruct D as [c y Hc _]. cbn in E. injection E as -> _. unfold digit in Hc. lia.
    - destruct D. discriminate. }
  assert (N2 : forall o z, In z [46; 91] -> ~ spelled o [38; z]).
  { intros o1 z Hz H. assert (F : form space None [38; z] []) by (apply here_form with (o := o1); constructor; exact H).
    destruct (form_amp _ _ _ _ F) as [Ec|((c & Ec & _) & _)]; discriminate Ec. }
  assert (N3 : forall o x, ~ spelled o (35 :: x)).
  { intros o1 z H. assert (F : form space None (35 :: z) [35]) by (apply here_form with (o := o1); constructor; exact H). destruct (form_hash _ _ _ _ F) as [_ [X|X]]; discriminate X. }
  intros H H'. destruct H as [o1 x r Sp|r S1 S2|r S1 S2|r S1|x r S1 S2]; inversion H' as [o2 x2 r2 Sp2| | | |]; subst; try reflexivity; try congruence;
    try (exfalso; first [exact (N1 _ Sp)|exact (N1 _ Sp2)|refine (N2 _ _ _ Sp); cbn; auto; fail|refine (N2 _ _ _ Sp2); cbn; auto; fail|exact (N3 _ _ Sp)|exact (N3 _ _ Sp2)]).
  rewrite <- (classify_spelled _ _ Sp). apply classify_spelled. exact Sp2.
Qed.
(** ** The main induction *)
Lemma blank_cases c : blank c \/ ((c =? 32) || (c =? 9) = false /\ c <> 10).
Proof.
  unfold blank. destruct (N.eqb_spec c 32); [auto|]. destruct (N.eqb_spec c 9); [auto|]. destruct (N.eq_dec c 10); [auto|]. right. auto.
Qed.
Lemma reads_inv pv t l : reads pv t l -> (t = [] /\ l = []) \/ (exists c t', t = c :: t' /\ blank c /\ reads (Some c) t' l) \/
  (exists k x r l', t = x ++ r /\ l = k :: l' /\ here pv (Some k) x r /\ longest space pv x r /\ reads (last_of pv x) r l').
Proof. intros [|? c t' l' Hb R|? k x r l' Hh Lg R]; [auto|right; left; eauto|right; right; eauto 10]. Qed.
Lemma reads_blank pv c t l : blank c -> reads pv (c :: t) l <-> reads (Some c) t l.
Proof.
  intros Hb. split; [|intros H; apply R_blank; assumption]. intros H. destruct (reads_inv _ _ _ H) as [[[=] _]|[(? & ? & [= <- <-] & _ & R)|(k & x & r & l' & Eq & -> & Hh & _)]]; [exact R|]. exfalso.
  destruct (form_nonempty _ _ _ _ (here_form _ _ _ _ _ Hh)) as (d & z & ->). cbn [app] in Eq. injection Eq as -> _. destruct (form_starter _ _ _ _ _ (here_form _ _ _ _ _ Hh)) as [Hs H10].
  destruct Hb as [->|[->|]]; [discriminate Hs|discriminate Hs|contradiction].
Qed.
Lemma reads_newlines t l : reads (Some 10) t l <-> reads (Some 10) (rest (is 10) t) l.
Proof.
  induction t as [|c t IH]; [reflexivity|]. cbn [rest]. unfold is at 1. destruct (N.eqb_spec c 10) as [->|N]; [|reflexivity]. rewrite reads_blank by (unfold blank; auto). exact IH.
Qed.
Lemma rest_le f t : (length (rest f t) <= length t)%nat.
Proof. rewrite (run_rest f t) at 2. rewrite app_length. lia. Qed.
Lemma tokens_spec : forall n pv t, (length t <= n)%nat ->
  match tokens_from space n (pv, t) with
  | Ok l => reads pv t l /\ forall l', reads pv t l' -> l' = l
  | Err x => x = XSynRule /\ forall l, ~ reads pv t l
  end.
Proof.
  induction n as [|n IH]; intros pv t L.
  - destruct t; [|cbn in L; lia]. cbn. split; [constructor|]. intros l' H. destruct (reads_inv _ _ _ H) as [[_ ->]|[(? & ? & [=] & _)|(k & x & r & l0 & Eq & -> & Hh & _)]]; [reflexivity|].
    destruct (form_nonempty _ _ _ _ (here_form _ _ _ _ _ Hh)) as (d & z & ->). discriminate Eq.
  - destruct t as [|c t].
    { cbn. split; [constructor|]. intros l' H. destruct (reads_inv _ _ _ H) as [[_ ->]|[(? & ? & [=] & _)|(k & x & r & l0 & Eq & -> & Hh & _)]]; [reflexivity|].
      destruct (form_nonempty _ _ _ _ (here_form _ _ _ _ _ Hh)) as (d & z & ->). discriminate Eq. }
    cbn [length] in L. cbn [tokens_from snd].
    destruct (blank_cases c) as [Hb|[Nb N10]].
    + destruct ((c =? 32) || (c =? 9)) eqn:E.
      * pose proof (IH (Some c) t ltac:(lia)) as X. destruct (tokens_from space n (Some c, t)) as [l|x].
        -- destruct X as [R U]. split; [apply R_blank; assumption|]. intros l' H. apply U. apply (reads_blank pv c t l' Hb). exact H.
        -- destruct X as [Ex U]. split; [exact Ex|]. intros l' H. apply (U l'). apply (reads_blank pv c t l' Hb). exact H.
      * assert (c = 10) as -> by (destruct Hb as [->|[->|]]; [discriminate E|discriminate E|assumption]).
        rewrite step_newline. cbn [rbind]. pose proof (rest_le (is 10) t) as Lr.
        pose proof (IH (Some 10) (rest (is 10) t) ltac:(lia)) as X. destruct (tokens_from space n (Some 10, rest (is 10) t)) as [l|x]; cbn [rbind].
        -- destruct X as [R U]. split; [apply (reads_blank pv 10 t l Hb), reads_newlines, R|]. intros l' H. apply U. apply (proj1 (reads_newlines t l')). apply (reads_blank pv 10 t l' Hb). exact H.
        -- destruct X as [Ex U]. split; [exact Ex|]. intros l' H. apply (U l'). apply (proj1 (reads_newlines t l')). apply (reads_blank pv 10 t l' Hb). exact H.
    + rewrite Nb. pose proof (step_all space pv c t N10) as St. unfold step_ok in St. destruct (first_rule (lex_rules space) (pv, c :: t)) as [[[pv' t'] a]|].
      * destruct St as (x & o & E & Ep & Hh & Ha & Lg). cbn [fst snd] in E, Ep, Hh.
        assert (NE : x <> []) by (destruct (form_nonempty _ _ _ _ (here_form _ _ _ _ _ Hh)) as (d & z & ->); discriminate).
        rewrite (matched_app _ _ x _ _ E), Ha.
        (* any other reading takes the same form *)
        assert (Inv : forall l', reads pv (c :: t) l' -> exists k l'', o = Some k /\ l' = k :: l'' /\ reads pv' t' l'').
        { intros l' H. destruct (reads_inv _ _ _ H) as [[[=] _]|[(? & ? & [= <- <-] & Hb' & _)|(k & y & r & l0 & Eq & -> & Hh' & Lg' & R')]].
          { exfalso. destruct Hb' as [->|[->|]]; [discriminate Nb|discriminate Nb|contradiction]. }
          assert (E2 : y ++ r = x ++ t') by congruence.
          pose proof (Lg y r Eq (here_form _ _ _ _ _ Hh')) as L1. assert (L2 := Lg' o x t' E2 Hh).
          assert (y = x) as -> by (apply (f_equal (firstn (length x))) in E2; rewrite !firstn_app, (firstn_all2 y), firstn_all, Nat.sub_diag in E2 by lia;
            replace (length x - length y)%nat with O in E2 by lia; cbn [firstn] in E2; rewrite !app_nil_r in E2; exact E2).
          apply app_inv_head in E2. subst r. exists k, l0. split; [exact (here_unique _ _ _ _ _ Hh Hh')|]. split; [reflexivity|rewrite Ep; exact R']. }
        destruct o as [k|]; cbn [outcome rbind].
        -- assert (Lt : (length t' <= n)%nat) by (apply (f_equal (@length N)) in E; rewrite app_length in E; cbn [length] in E; destruct x; [congruence|cbn [length] in E; lia]).
           pose proof (IH pv' t' Lt) as X. destruct (tokens_from space n (pv', t')) as [l|e]; cbn [rbind].
           ++ destruct X as [R U]. split.
              ** rewrite E. apply R_token; [exact Hh| |rewrite <- Ep; exact R]. intros o' y r E' Hy. apply (Lg y r); [congruence|exact (here_form _ _ _ _ _ Hy)].
              ** intros l' H. destruct (Inv l' H) as (k' & l'' & [= <-] & -> & R'). f_equal. exact (U _ R').
           ++ destruct X as [Ex U]. split; [exact Ex|]. intros l' H. destruct (Inv l' H) as (k' & l'' & _ & -> & R'). exact (U _ R').
        -- split; [reflexivity|]. intros l' H. destruct (Inv l' H) as (k' & l'' & [=] & _).
      * split; [reflexivity|]. intros l' H. destruct (reads_inv _ _ _ H) as [[[=] _]|[(? & ? & [= <- <-] & Hb' & _)|(k & y & r & l0 & Eq & -> & Hh' & Lg' & R')]].
        { destruct Hb' as [->|[->|]]; [discriminate Nb|discriminate Nb|contradiction]. }
        exact (St y r Eq (here_form _ _ _ _ _ Hh')).
Qed.

(** ** C59: what a text reads as *)
(** The tokens of a text are those of its reading (LexSpec.v): blanks are skipped, and the longest written form that starts
    at a position is taken. *)
Theorem C59_reads : forall t l, tokenize t = Ok l <-> reads None t l.
Proof.
  intros t l. pose proof (tokens_spec (length t) None t (le_n _)) as X. change (tokens_from space (length t) (None, t)) with (tokenize t) in X. destruct (tokenize t) as [l0|x].
  - destruct X as [R U]. split; [intros [= <-]; exact R|]. intros H. rewrite (U _ H). reflexivity.
  - destruct X as [_ U]. split; [discriminate|]. intros H. destruct (U _ H).
Qed.
(** A text that has no reading is a RuleSyntaxError; nothing else is raised. *)
Theorem C59_error : forall t x, tokenize t = Err x -> x = XSynRule /\ ~ exists l, reads None t l.
Proof.
  intros t x H. pose proof (tokens_spec (length t) None t (le_n _)) as X. change (tokens_from space (length t) (None, t)) with (tokenize t) in X. rewrite H in X. destruct X as [-> U]. split; [reflexivity|]. intros [l R]. exact (U l R).
Qed.
Theorem C59_total : forall t, (exists l, tokenize t = Ok l /\ reads None t l) \/ (tokenize t = Err XSynRule /\ ~ exists l, reads None t l).
Proof.
  intros t. destruct (tokenize t) as [l|x] eqn:E; [left|right].
  - exists l. split; [reflexivity|apply C59_reads, E].
  - destruct (C59_error t x E) as [-> N]. auto.
Qed.
Theorem C59_unique : forall t l l', reads None t l -> reads None t l' -> l = l'.
Proof. intros t l l' H H'. apply C59_reads in H, H'. congruence. Qed.

(** Nothing of the text is lost: it consists of the written forms of the tokens, in order, and of blanks. *)
Inductive consists : str -> list token -> Prop :=
| C_end : consists [] []
| C_blank c t l : blank c -> consists t l -> consists (c :: t) l
| C_token k x t l : (exists before after, here before (Some k) x after) -> consists t l -> consists (x ++ t) (k :: l).
Theorem C59_lossless : forall t l, tokenize t = Ok l -> consists t l.
Proof. intros t l H. apply C59_reads in H. induction H; [constructor|constructor; assumption|constructor; eauto]. Qed.

(** The tokens are ones that the parser expects. *)
Lemma here_kind pv k x r : here pv (Some k) x r -> kind k <> T_end /\ (kind k = T_SYMBOL -> Grammar.text k <> []).
Proof.
  intros H. inversion H as [o y a Sp| | | |]; subst; cbn; try (split; [discriminate|discriminate]).
  inversion Sp as [k' y I|k' y I|y I|y I K F|y I|q b Q B|q b Q B|q b Q B|q b Q B|q b Q B]; subst; cbn [kind Grammar.text]; try (split; discriminate).
  - vm_compute in I. repeat (destruct I as [[= <- <-]|I]; [split; discriminate|]). destruct I.
  - vm_compute in I. repeat (destruct I as [[= <- <-]|I]; [split; discriminate|]). destruct I.
  - split; [discriminate|]. intros _ ->. inversion I; subst. match goal with H : name [] |- _ => inversion H end.
Qed.
Theorem C59_tokens : forall t l, tokenize t = Ok l -> real l /\ named_tokens l.
Proof.
  intros t l H. apply C59_reads in H. unfold real, named_tokens. induction H as [|pv c t l _ _ IH|pv k x r l Hh _ _ [A B]]; [split; constructor|exact IH|].
  destruct (here_kind _ _ _ _ Hh) as [K1 K2]. split; constructor; assumption.
Qed.
(** Therefore a text is either parsed, or one of the engine's syntax errors is raised. *)
Theorem C59_parse : forall uname t, match parse_text space uname t with
  | Ok d => exists l, reads None t l /\ parse_tokens uname l = Ok d
  | Err x => x = XSynRule \/ literal_error x
  end.
Proof.
  intros uname t. unfold parse_text. destruct (tokenize t) as [l|x] eqn:E; cbn [rbind].
  - destruct (C59_tokens t l E) as [R N]. pose proof (C50_parser uname l R N) as P. destruct (parse_tokens uname l) as [d|x] eqn:Ep.
    + exists l. split; [apply C59_reads, E|exact Ep].
    + destruct P as [[-> _]|[P _]]; auto.
  - left. exact (proj1 (C59_error t x E)).
Qed.

(** ** C60: blanks separate *)
Lemma symbol_chars x c : symbol x -> In c x -> alnum c \/ c = 36.
Proof.
  assert (A : forall y, name y -> In c y -> alnum c).
  { intros y [d z L F] [<-|I]; [left; exact L|]. rewrite Forall_forall in F. exact (F c I). }
  intros [y N|y N] I; [left; exact (A y N I)|]. destruct I as [<-|I]; [right; reflexivity|left; exact (A y N I)].
Qed.
Definition number_char (c : N) : Prop := alnum c \/ c = 46 \/ c = 43 \/ c = 45.
Lemma digits_chars x : digits x -> Forall number_char x.
Proof. intros [c y H F]. constructor; [left; right; exact H|]. eapply Forall_impl; [|exact F]. intros d Hd. left. right. exact Hd. Qed.
Lemma exponent_chars x : exponent x -> Forall number_char x.
Proof.
  intros [|e sg y He Hs D]; [constructor|]. constructor; [left; left; unfold letter; destruct He as [<-|[<-|[]]]; lia|].
  apply Forall_app. split; [|exact (digits_chars _ D)]. destruct Hs as [<-|[<-|[<-|[]]]]; [constructor|constructor; [right; right; left; reflexivity|constructor]|constructor; [right; right; right; reflexivity|constructor]].
Qed.
Lemma numeral_chars x : numeral x -> Forall number_char x.
Proof.
  assert (Dg : forall c, digit c -> number_char c) by (intros c H; left; right; exact H).
  intros [c y F|c y F|c y F|y e D E|y z e D Z E|y e D E].
  - constructor; [apply Dg; unfold digit; lia|]. constructor; [left; left; unfold letter; lia|]. eapply Forall_impl; [|exact F]. cbn beta. intros d Hd. apply Dg. unfold digit. lia.
  - constructor; [apply Dg; unfold digit; lia|]. constructor; [left; left; unfold letter; lia|]. eapply Forall_impl; [|exact F]. cbn beta. intros d Hd. apply Dg. unfold digit. lia.
  - constructor; [apply Dg; unfold digit; lia|]. constructor; [left; left; unfold letter; lia|]. eapply Forall_impl; [|exact F]. cbn beta. intros d Hd. unfold hexdigit, number_char, alnum, letter, digit in *. lia.
  - apply Forall_app. split; [apply digits_chars, D|apply exponent_chars, E].
  - apply Forall_app. split; [apply digits_chars, D|]. constructor; [unfold number_char; auto|]. apply Forall_app. split; [eapply Forall_impl; [|exact Z]; exact Dg|apply exponent_chars, E].
  - constructor; [unfold number_char; auto|]. apply Forall_app. split; [apply digits_chars, D|apply exponent_chars, E].
Qed.
(** only quoted texts and comments contain blanks *)
Lemma form_with_blank pv y r c : form space pv y r -> In c y -> blank c ->
  (exists pre q b, y = pre ++ q :: b ++ [q] /\ In pre [[]; [115]; [98]; [100]; [116]] /\ In q quotes /\ body q b) \/ (exists z, y = 35 :: z).
Proof.
  intros F I Hb. destruct F as [k y r J|y r H|y r H|pre q b r J Q B|r S N|r S N|r S|x r Hx Hr]; [exfalso|exfalso|exfalso|left; eauto 8|exfalso|exfalso|exfalso|right; eauto].
  - vm_compute in J. unfold blank in Hb. repeat (destruct J as [[= <- <-]|J]; [cbn in I; lia|]). destruct J.
  - apply (symbol_chars _ _ H) in I. unfold blank, alnum, letter, digit in *. lia.
  - apply numeral_chars in H. rewrite Forall_forall in H. apply H in I. unfold blank, number_char, alnum, letter, digit in *. lia.
  - unfold blank in Hb. cbn in I. lia.
  - unfold blank in Hb. cbn in I. lia.
  - unfold blank in Hb. cbn in I. lia.
Qed.
Lemma here_hash pv k x r : here pv (Some k) (35 :: x) r -> kind k = T_COMMENT.
Proof.
  intros H. inversion H as [o y a Sp| | | |]; subst; [|reflexivity]. exfalso.
  assert (F : form space None (35 :: x) [35]) by (apply here_form with (o := Some k); constructor; exact Sp). destruct (form_hash _ _ _ _ F) as [_ [X|X]]; discriminate X.
Qed.
Lemma quoted_spelled pre q b : In pre [[]; [115]; [98]; [100]; [116]] -> In q quotes -> body q b -> exists o, spelled o (pre ++ q :: b ++ [q]).
Proof.
  intros I Q B. repeat (destruct I as [<-|I]); [..|destruct I]; cbn [app]; eexists; [apply S_string|apply S_string_s|apply S_bytes|apply S_datetime|apply S_timedelta]; assumption.
Qed.
Lemma blank_not c : blank c -> ~ letter c /\ ~ In c quotes /\ ~ alnum c.
Proof. unfold blank, alnum, letter, digit, quotes. cbn [In]. intros H. split; [lia|split; lia]. Qed.
Lemma longest_blank pv k x after l c v : here pv (Some k) x after -> longest space pv x after -> reads (last_of pv x) after l ->
  kind k <> T_COMMENT -> blank c -> longest space pv x (after ++ c :: v).
Proof.
  intros Hh Lg R NC Hb o y r E Hy. destruct (le_lt_dec (length y) (length x)) as [|Lt]; [assumption|exfalso].
  pose proof (here_form _ _ _ _ _ Hh) as Fx. pose proof (here_form _ _ _ _ _ Hy) as Fy.
  destruct (form_nonempty _ _ _ _ Fx) as (x0 & x1 & Ex). destruct (form_nonempty _ _ _ _ Fy) as (y0 & y1 & Ey).
  assert (y0 = x0) as -> by (rewrite Ex, Ey in E; cbn in E; congruence).
  assert (N35 : x0 <> 35) by (intros ->; rewrite Ex in Hh; exact (NC (here_hash _ _ _ _ Hh))).
  destruct (blank_not c Hb) as (Bl & Bq & Ba).
  rewrite app_assoc in E. apply app_eq_app in E as (w & [[E1 E2]|[E1 E2]]).
  - assert (X : here pv o y w).
    { assert (Hd : hd 0 y = x0) by (rewrite Ey; reflexivity). clear Ey. inversion Hy as [o' y' r' Sp|r' S N|r' S N|r' S|z r' S N]; subst.
      - constructor. exact Sp.
      - exfalso. cbn in Lt. lia.
      - apply H_attr_safe; [exact S|]. destruct w as [|d w]; [|destruct N as (e & u & E3 & Le); injection E3 as -> _; exists e, w; auto].
        exfalso. destruct N as (e & u & E3 & Le). cbn in E3. injection E3 as -> _. contradiction.
      - apply H_bracket_safe. exact S.
      - exfalso. cbn in N35. congruence. }
    pose proof (Lg o y w E1 X). lia.
  - destruct w as [|d w]; [rewrite app_nil_r in E1|].
    { cbn [app] in E2. subst r. assert (X : here pv o y []).
      { assert (Hd : hd 0 y = x0) by (rewrite Ey; reflexivity). clear Ey E1. inversion Hy as [o' y' r' Sp|r' S N|r' S N|r' S|z r' S N]; subst.
        - constructor. exact Sp.
        - exfalso. cbn in Lt. lia.
        - exfalso. destruct N as (e & u & E3 & Le). injection E3 as -> _. contradiction.
        - apply H_bracket_safe. exact S.
        - exfalso. cbn in N35. congruence. }
      assert (Y : x ++ after = y ++ []) by (rewrite app_nil_r; congruence). pose proof (Lg o y [] Y X). lia. }
    cbn [app] in E2. injection E2 as <- E2. assert (I : In c y) by (rewrite E1; apply in_or_app; right; left; reflexivity).
    destruct (form_with_blank _ _ _ _ Fy I Hb) as [(pre & q & b & E3 & J & Q & B)|(z & E3)]; [|congruence].
    destruct (quotes_not q Q) as [Q1 _]. destruct (pre_letter pre J) as [->|(c0 & -> & J0)].
    + cbn [app] in E3. assert (x0 = q) as -> by congruence. rewrite Ex in Fx. destruct (form_quote _ _ _ _ _ Q Fx) as (b1 & E4 & B1). subst x1 x.
      assert (E5 : b ++ [q] = b1 ++ q :: after ++ c :: w).
      { rewrite E3 in E1. cbn [app] in E1. injection E1 as E1. rewrite <- !app_assoc in E1. exact E1. }
      pose proof (body_unique q b b1 _ _ Q1 B B1 E5). subst b1. rewrite E3 in Lt. lia.
    + cbn [app] in E3. assert (x0 = c0) as -> by congruence. rewrite Ex in Fx. pose proof (pre_is_letter _ J0) as L0.
      destruct (form_letter _ _ _ _ _ (or_introl L0) Fx) as [Sy|(q' & b1 & E4 & _ & Q' & B1)].
      * destruct x1 as [|d x1].
        2:{ rewrite E3, Ex in E1. cbn [app] in E1. injection E1 as <- _. destruct (symbol_chars _ q Sy) as [A| ->]; [right; left; reflexivity|unfold alnum, letter, digit in A; destruct Q as [<-|[<-|[]]]; lia|].
            destruct Q as [Q|[Q|[]]]; discriminate Q. }
        rewrite E3, Ex in E1. cbn [app] in E1. injection E1 as E1.
        destruct after as [|a after]; [cbn [app] in E1; injection E1 as -> _; contradiction|]. cbn [app] in E1. injection E1 as <- E1.
        destruct (reads_inv _ _ _ R) as [[[=] _]|[(? & ? & [= <- _] & Hb2 & _)|(k2 & x2 & r2 & l2 & E5 & _ & Hh2 & _)]].
        { destruct (blank_not _ Hb2) as (_ & X & _). contradiction. }
        pose proof (here_form _ _ _ _ _ Hh2) as F2. destruct (form_nonempty _ _ _ _ F2) as (d & x3 & ->). cbn [app] in E5. injection E5 as <- E5.
        destruct (form_quote _ _ _ _ _ Q F2) as (b2 & -> & B2). rewrite <- app_assoc in E5. cbn [app] in E5.
        assert (E6 : b ++ q :: [] = b2 ++ q :: r2 ++ c :: w) by (rewrite E1, E5, <- app_assoc; reflexivity).
        pose proof (body_unique q b b2 _ _ Q1 B B2 E6). subst b2. destruct (quoted_spelled [c0] q b J Q B) as [o' So].
        assert (Y : x ++ q :: after = ([c0] ++ q :: b ++ [q]) ++ r2) by (rewrite Ex, E5; cbn [app]; rewrite <- app_assoc; reflexivity).
        pose proof (Lg o' _ _ Y (H_spelled _ _ _ _ _ So)) as L3. rewrite Ex in L3. cbn in L3. lia.
      * rewrite E4 in Ex. rewrite E3, Ex in E1. cbn [app] in E1. injection E1 as <- E1. rewrite <- !app_assoc in E1. cbn [app] in E1.
        pose proof (body_unique q b b1 _ _ Q1 B B1 E1). subst b1. rewrite E3, Ex in Lt. lia.
Qed.
(** what precedes a text matters only in so far as it is white space or not *)
Lemma last_of_nonempty pv pv' c x : last_of pv (c :: x) = last_of pv' (c :: x).
Proof. rewrite !last_of_cons. reflexivity. Qed.
Lemma here_context pv pv' o x r : (solid space pv <-> solid space pv') -> here pv o x r -> here pv' o x r.
Proof. intros S H. destruct H; constructor; try assumption; apply S; assumption. Qed.
Lemma reads_context pv pv' t l : (solid space pv <-> solid space pv') -> reads pv t l -> reads pv' t l.
Proof.
  intros S H. destruct H as [|pv c t l Hb R|pv k x r l Hh Lg R]; [constructor|constructor; assumption|].
  constructor; [exact (here_context _ _ _ _ _ S Hh)| |].
  - intros o y r' E Hy. apply (Lg o y r' E). apply (here_context pv' pv); [symmetry; exact S|exact Hy].
  - destruct (form_nonempty _ _ _ _ (here_form _ _ _ _ _ Hh)) as (c & z & ->). rewrite (last_of_nonempty pv' pv). exact R.
Qed.
Definition no_comment (l : list token) : Prop := Forall (fun k => kind k <> T_COMMENT) l.
Lemma reads_concat pv u l1 c v l2 : reads pv u l1 -> no_comment l1 -> blank c -> reads (Some c) v l2 -> reads pv (u ++ c :: v) (l1 ++ l2).
Proof.
  intros H. induction H as [pv|pv d t l Hd R IH|pv k x after l Hh Lg R IH]; intros NC Hb Rv.
  - cbn [app]. constructor; assumption.
  - cbn [app]. constructor; [exact Hd|]. apply IH; assumption.
  - inversion NC as [|? ? NCk NCl]; subst. cbn [app]. rewrite <- app_assoc. constructor; [|exact (longest_blank _ _ _ _ _ _ _ Hh Lg R NCk Hb)|apply IH; assumption].
    inversion Hh as [o y a Sp|a S N|a S N|a S|z a S N]; subst.
    + constructor. exact Sp.
    + apply H_attr; [exact S|]. destruct N as (e & w & -> & Le). cbn [app]. exists e, (w ++ c :: v). auto.
    + apply H_attr_safe; [exact S|]. destruct N as (e & w & -> & Le). cbn [app]. exists e, (w ++ c :: v). auto.
    + apply H_bracket_safe. exact S.
    + exfalso. apply NCk. reflexivity.
Qed.
Hypothesis blank_space : forall c, blank c -> space c = true.
Lemma solid_blank c : blank c -> (solid space None <-> solid space (Some c)).
Proof. intros H. unfold solid. split; intros (d & E & S); [discriminate E|]. injection E as <-. rewrite (blank_space c H) in S. discriminate S. Qed.
(** Texts that are separated by a blank are read separately (a comment would swallow the rest of its line). *)
Theorem C60_separated : forall u v l1 l2 c, tokenize u = Ok l1 -> no_comment l1 -> blank c -> tokenize v = Ok l2 -> tokenize (u ++ c :: v) = Ok (l1 ++ l2).
Proof.
  intros u v l1 l2 c Hu NC Hb Hv. apply C59_reads in Hu, Hv. apply C59_reads. apply reads_concat; [exact Hu|exact NC|exact Hb|].
  apply (reads_context None); [apply solid_blank, Hb|exact Hv].
Qed.
Theorem C60_blank : forall bs, Forall blank bs -> tokenize bs = Ok [].
Proof.
  intros bs F. apply C59_reads. generalize (@None N). induction F as [|c bs H _ IH]; intros pv; [constructor|]. constructor; [exact H|apply IH].
Qed.
(** The number and the kind of the blanks do not matter, neither between two texts nor around a text. *)
Theorem C60_blanks : forall u v l1 l2 c bs, tokenize u = Ok l1 -> no_comment l1 -> blank c -> Forall blank bs -> tokenize v = Ok l2 ->
  tokenize (u ++ c :: bs ++ v) = Ok (l1 ++ l2).
Proof.
  intros u v l1 l2 c bs Hu NC Hb Hbs Hv. apply C60_separated; [exact Hu|exact NC|exact Hb|]. clear - blank_space Hbs Hv. induction Hbs as [|d bs Hd _ IH]; [exact Hv|].
  exact (C60_separated [] (bs ++ v) [] l2 d eq_refl (Forall_nil _) Hd IH).
Qed.
Theorem C60_around : forall t l b1 b2, tokenize t = Ok l -> Forall blank b1 -> Forall blank b2 -> no_comment l \/ b2 = [] -> tokenize (b1 ++ t ++ b2) = Ok l.
Proof.
  intros t l b1 b2 H F1 F2 NC. assert (K : tokenize (t ++ b2) = Ok l).
  { destruct NC as [NC| ->]; [|rewrite app_nil_r; exact H]. destruct F2 as [|c b2 Hc F2]; [rewrite app_nil_r; exact H|].
    rewrite <- (app_nil_r l). rewrite <- (app_nil_r b2). apply C60_blanks; [exact H|exact NC|exact Hc|exact F2|reflexivity]. }
  destruct F1 as [|c b1 Hc F1]; [exact K|]. exact (C60_blanks [] (t ++ b2) [] l c b1 eq_refl (Forall_nil _) Hc F1 K).
Qed.
(** A comment at the end is one token... *)
Theorem C60_comment : forall t l c x, tokenize t = Ok l -> no_comment l -> blank c -> Forall (fun d => d <> 10) x ->
  tokenize (t ++ c :: 35 :: x) = Ok (l ++ [mkToken T_COMMENT (35 :: x)]).
Proof.
  intros t l c x H NC Hb Fx. apply C60_separated; [exact H|exact NC|exact Hb|]. apply C59_reads. rewrite <- (app_nil_r (35 :: x)) at 1.
  constructor; [apply H_comment; auto| |constructor]. intros o y r E Hy. rewrite app_nil_r in E. apply (f_equal (@length N)) in E. rewrite app_length in E. lia.
Qed.
(** ... but a comment with anything but one newline after its line is an error. *)
Theorem C60_comment_refuted : forall x v, Forall (fun d => d <> 10) x -> v <> [] -> tokenize (35 :: x ++ 10 :: v) = Err XSynRule.
Proof.
  intros x v Fx Nv. destruct (C59_total (35 :: x ++ 10 :: v)) as [(l & _ & R)|[E _]]; [exfalso|exact E].
  destruct (reads_inv _ _ _ R) as [[[=] _]|[(d & ? & E & Hb & _)|(k & y & r & l' & E & _ & Hh & _)]].
  - injection E as <- _. unfold blank in Hb. lia.
  - pose proof (here_form _ _ _ _ _ Hh) as F. destruct (form_nonempty _ _ _ _ F) as (d & z & ->). cbn [app] in E. injection E as <- E. destruct (form_hash _ _ _ _ F) as [Fz Hr].
    apply app_eq_app in E as (w & [[E1 E2]|[E1 E2]]).
    + destruct w as [|d w].
      * cbn [app] in E2. destruct Hr as [->| ->]; [discriminate E2|]. injection E2 as E2. congruence.
      * destruct Hr as [-> | ->]; [discriminate E2|]. injection E2 as -> E2. destruct w; discriminate E2.
    + destruct w as [|d w]; [cbn [app] in E2; subst r; destruct Hr as [Hr|Hr]; [discriminate Hr|injection Hr as Hr; congruence]|].
      injection E2 as <- _. subst z. apply Forall_app in Fz as [_ Fz]. inversion Fz; subst. congruence.
Qed.
(** A comment is not part of the expression: with or without it the same expression is read. *)
Lemma parse_tokens_comment uname l d x : real l -> no_comment l -> parse_tokens uname l = Ok d -> parse_tokens uname (l ++ [mkToken T_COMMENT x]) = Ok d.
Proof.
  intros R NC H. unfold parse_tokens in H. destruct (parse l) as [t| |] eqn:E; try discriminate H.
  apply C50_exactly_derivations in E; [|exact R]. destruct E as (D & Y & G).
  apply derives_nt in D as (p & ts & -> & L & Hp & F). pose proof (statement_shape p Hp L) as Sh. destruct Sh as [[-> Er]|[-> Er]]; rewrite Er in F.
  - inversion F as [|? e ? ? De F']; subst. inversion F'; subst. inversion G as [|? ? Ge]; subst. inversion Ge as [|? ? Ge0 _]; subst.
    rewrite sem_node in H. cbn [rmapM] in H. destruct (sem uname e) as [v|] eqn:Es; [|discriminate H]. cbn [rbind] in H.
    change (nth (N.to_nat 1) (actions uname) (fun _ => bad)) with a_first in H. destruct v as [|d0| | |]; try discriminate H. injection H as ->.
    set (TR := Node 2 [e; Leaf (mkToken T_COMMENT x)]).
    assert (A : parse (yield (Node 1 [e]) ++ [mkToken T_COMMENT x]) = Accepted TR).
    { apply C50_exactly_derivations; [apply Forall_app; split; [exact R|constructor; [discriminate|constructor]]|]. split; [|split].
      - change (NT N_statement) with (NT (lhs 2)). constructor; [vm_compute; lia|]. replace (rhs 2) with [NT N_expression; T T_COMMENT] by reflexivity. constructor; [exact De|]. constructor; [|constructor].
        change (T T_COMMENT) with (T (kind (mkToken T_COMMENT x))). constructor. discriminate.
      - cbn [yield flat_map]. rewrite !app_nil_r. reflexivity.
      - apply grouped_node; [constructor; [exact Ge0|constructor; [constructor|constructor]]| |].
        + cbn [adj]. split; [|split; exact I]. intros q _. unfold closes. destruct (operator q); reflexivity.
        + intros l1 c E _ y Hy. change [e; Leaf (mkToken T_COMMENT x)] with ([e] ++ [Leaf (mkToken T_COMMENT x)]) in E. apply app_inj_tail in E as [_ <-]. destruct Hy. }
    unfold parse_tokens. rewrite A. unfold TR. rewrite sem_node. cbn [rmapM]. rewrite Es. cbn [rbind]. rewrite sem_leaf. reflexivity.
  - exfalso. inversion F as [|? e ? ? De F']; subst. inversion F' as [|? c ? ? Dc F'']; subst. inversion F''; subst.
    inversion Dc as [tk Hk Hk2|]; subst. unfold no_comment in NC. cbn [yield flat_map] in NC. apply Forall_app in NC as [_ NC]. inversion NC; subst. congruence.
Qed.
Theorem C60_comment_ignored : forall uname t l d c x, tokenize t = Ok l -> no_comment l -> blank c -> Forall (fun d => d <> 10) x ->
  parse_text space uname t = Ok d -> parse_text space uname (t ++ c :: 35 :: x) = Ok d.
Proof.
  intros uname t l d c x H NC Hb Fx P. unfold parse_text in *. rewrite H in P. rewrite (C60_comment t l c x H NC Hb Fx). cbn [rbind] in *.
  apply parse_tokens_comment; [exact (proj1 (C59_tokens t l H))|exact NC|exact P].
Qed.
(** Blanks around a text do not change the expression. *)
Theorem C60_parse_around : forall uname t l b1 b2, tokenize t = Ok l -> no_comment l \/ b2 = [] -> Forall blank b1 -> Forall blank b2 ->
  parse_text space uname (b1 ++ t ++ b2) = parse_text space uname t.
Proof. intros uname t l b1 b2 H NC F1 F2. unfold parse_text. rewrite H, (C60_around t l b1 b2 H F1 F2 NC). reflexivity. Qed.
End S.

(** ** A concrete case: the white space characters of the ASCII range *)
Definition ascii_space (c : N) : bool := existsb (N.eqb c) [9; 10; 11; 12; 13; 28; 29; 30; 31; 32].
Lemma ascii_space_blank : forall c, blank c -> ascii_space c = true.
Proof. intros c [->|[->| ->]]; reflexivity. Qed.
Example C59_example : exists l, tokenize ascii_space (s "a.b and x&[1] != 0x1F or .5e-3**2 =~~ s'a\'b' # why") = Ok l /\
  map kind l = [T_SYMBOL; T_ATTR; T_SYMBOL; T_AND; T_SYMBOL; T_LBRACKET; T_FLOAT; T_RBRACKET; T_NE; T_FLOAT; T_OR; T_FLOAT; T_POW; T_FLOAT; T_EQ_FZS; T_STRING; T_COMMENT].
Proof. eexists. split; vm_compute; reflexivity. Qed.
Example C59_example_error : tokenize ascii_space (s "a @ b") = Err XSynRule /\ tokenize ascii_space (s "while") = Err XSynRule /\ tokenize ascii_space (s "'a") = Err XSynRule.
Proof. repeat split; vm_compute; reflexivity. Qed.
Example C60_example : exists l d, tokenize ascii_space (s "name.first + 'x'") = Ok l /\ no_comment l /\
  parse_text ascii_space (fun _ => None) (s "name.first + 'x'") = Ok d /\ parse_text ascii_space (fun _ => None) (s "name.first + 'x' # a comment") = Ok d.
Proof.
  do 2 eexists. split; [vm_compute; reflexivity|]. split; [repeat constructor; discriminate|]. split; vm_compute; reflexivity.
Qed.
Example C60_example_refuted : tokenize ascii_space (s "a" ++ 10 :: s "+ b") = Ok [mkToken T_SYMBOL (s "a"); mkToken T_ADD (s "+"); mkToken T_SYMBOL (s "b")] /\
  tokenize ascii_space (s "a # one" ++ 10 :: s "+ b") = Err XSynRule.
Proof. split; vm_compute; reflexivity. Qed.
