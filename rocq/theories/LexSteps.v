(** * LexSteps: one step of the lexer takes the longest written form that starts at a position *)
From Coq Require Import List NArith Bool Arith Lia.
From Verif Require Import Base Dec Value DType Types Ops ParseUtil Attr Prog Ast Eval Build StrLit P_StrLit.
From Verif Require Import Grammar GrammarSpec GrammarSem P_Print Lexer LexSpec LexFacts.
Import ListNotations.
Local Open Scope N_scope.

Section S.
Variable space : N -> bool.
Notation rules := (lex_rules space).
Notation here := (here space).
Notation form := (form space).
Notation step_ok := (step_ok space).
Notation candidates := (candidates space).

(** ** Finding the rule *)
Lemma first_best r a l pv t x t' : best r pv t x t' -> first_rule ((r, a) :: l) (pv, t) = Some ((last_of pv x, t'), a).
Proof. intros [_ [ps H]]. cbn [first_rule]. rewrite H. reflexivity. Qed.
Lemma first_skip r a l pv t : matches r (pv, t) = [] -> first_rule ((r, a) :: l) (pv, t) = first_rule l (pv, t).
Proof. intros H. cbn [first_rule]. rewrite H. reflexivity. Qed.
Lemma range_in a n c : N.of_nat a <= c -> c < N.of_nat (a + n) -> In c (map N.of_nat (seq a n)).
Proof. intros A B. apply in_map_iff. exists (N.to_nat c). split; [lia|apply in_seq; lia]. Qed.
Lemma digit_in c : digit c -> In c (map N.of_nat (seq 48 10)).
Proof. intros [A B]. apply range_in; cbn; lia. Qed.
Lemma letter_in c : letter c -> In c (map N.of_nat (seq 97 26) ++ map N.of_nat (seq 65 26) ++ [95]).
Proof.
  intros [H|[H| ->]]; apply in_or_app; [left; apply range_in; cbn; lia|right; apply in_or_app..]; [left; apply range_in; cbn; lia|right; left; reflexivity].
Qed.
Definition float_rule : re * action := (r_float, plain T_FLOAT).
Definition symbol_rule : re * action := (Seq (Opt (ch 36)) r_name, symbol_action).
Definition string_rule : re * action :=
  (Seq (Opt (ch 115)) r_quoted, fun x => Ok (Some (mkToken T_STRING (match x with c :: r => if c =? 115 then r else x | [] => x end)))).
Definition bytes_rule : re * action := (Seq (ch 98) r_quoted, fun x => Ok (Some (mkToken T_BYTES (skipn 1 x)))).
Definition datetime_rule : re * action := (Seq (ch 100) r_quoted, fun x => Ok (Some (mkToken T_DATETIME (removelast (skipn 2 x))))).
Definition timedelta_rule : re * action := (Seq (ch 116) r_quoted, fun x => Ok (Some (mkToken T_TIMEDELTA (removelast (skipn 2 x))))).
Lemma candidates_digit c : digit c -> candidates c = [float_rule].
Proof. intros H. apply digit_in in H. cbn [seq map N.of_nat Pos.of_succ_nat Pos.succ] in H. repeat (destruct H as [<-|H]; [reflexivity|]). destruct H. Qed.
Definition prefix_rule (c : N) : list (re * action) :=
  if c =? 98 then [bytes_rule] else if c =? 100 then [datetime_rule] else if c =? 116 then [timedelta_rule] else if c =? 115 then [string_rule] else [].
Lemma candidates_letter c : letter c -> candidates c = prefix_rule c ++ [symbol_rule].
Proof. intros H. apply letter_in in H. cbn [app seq map N.of_nat Pos.of_succ_nat Pos.succ] in H. repeat (destruct H as [<-|H]; [reflexivity|]). destruct H. Qed.
(** every other character starts nothing *)
Definition starter (c : N) : bool := letter_c c || digit_c c || existsb (N.eqb c) (op_chars ++ [36; 34; 39; 46; 35; 10]).
Lemma candidates_none c : starter c = false -> candidates c = [].
Proof.
  unfold starter. intros H. apply orb_false_iff in H as [H E]. apply orb_false_iff in H as [L D].
  assert (Ex : forall k, In k (op_chars ++ [36; 34; 39; 46; 35; 10]) -> is k c = false).
  { intros k Hk. unfold is. destruct (c =? k) eqn:Q; [|reflexivity]. assert (existsb (N.eqb c) (op_chars ++ [36; 34; 39; 46; 35; 10]) = true) by (apply existsb_exists; eauto). congruence. }
  assert (Lx : forall k, letter_c k = true -> is k c = false) by (intros k Hk; unfold is; apply N.eqb_neq; intros ->; congruence).
  assert (Dx : is 48 c = false) by (unfold is; apply N.eqb_neq; intros ->; discriminate D).
  assert (E36 : is 36 c = false) by (apply Ex; cbn; auto 40).
  assert (E34 : is 34 c = false) by (apply Ex; cbn; auto 40).
  assert (E39 : is 39 c = false) by (apply Ex; cbn; auto 40).
  assert (E46 : is 46 c = false) by (apply Ex; cbn; auto 40).
  assert (E35 : is 35 c = false) by (apply Ex; cbn; auto 40).
  assert (E10 : is 10 c = false) by (apply Ex; cbn; auto 40).
  assert (Q : starts r_quoted c = false) by (cbn [r_quoted starts ch nullable]; rewrite E34, E39; reflexivity).
  assert (NM : starts r_name c = false) by (cbn [r_name starts nullable]; rewrite L; reflexivity).
  assert (FL : starts r_float c = false) by (cbn [r_float starts nullable ch Plus Opt]; rewrite Dx, D, E46; reflexivity).
  assert (S : forall k (f : re), letter_c k = true -> starts (Seq (ch k) f) c = false) by (intros k f Hk; cbn [starts ch nullable]; rewrite (Lx k Hk); reflexivity).
  assert (O : forall k (f : re), In k (op_chars ++ [36; 34; 39; 46; 35; 10]) -> starts (Seq (ch k) f) c = false) by (intros k f Hk; cbn [starts ch nullable]; rewrite (Ex k Hk); reflexivity).
  assert (O1 : forall k, In k (op_chars ++ [36; 34; 39; 46; 35; 10]) -> starts (ch k) c = false) by (intros k Hk; cbn [starts ch]; exact (Ex k Hk)).
  assert (OP : forall (l : list (re * action)), forallb (fun ra => negb (starts (fst ra) c)) l = true -> filter (fun ra => starts (fst ra) c) l = []).
  { induction l as [|[r a] l IH]; cbn [forallb filter fst]; [reflexivity|]. intros X. apply andb_prop in X as [A B]. destruct (starts r c); [discriminate A|auto]. }
  apply OP. unfold lex_rules. cbn [forallb fst].
  repeat (apply andb_true_intro; split; [|]); try reflexivity; apply negb_true_iff.
  all: try exact FL.
  all: try solve [apply S; reflexivity].
  all: try solve [apply O; cbn; auto 40].
  all: try solve [apply O1; cbn; auto 40].
  - cbn [starts Opt ch nullable orb andb]. rewrite (Lx 115) by reflexivity. exact Q.
  - cbn [starts Opt ch nullable orb andb]. rewrite E36. exact NM.
  - cbn [starts Opt ch nullable orb andb]. rewrite (Ex 38), (Ex 91) by (cbn; auto 40). reflexivity.
Qed.

(** ** What may start with each character *)
Lemma op_head k y : In (k, y) operators -> exists c z, y = c :: z /\ In c op_chars.
Proof. intros I. vm_compute in I. repeat (destruct I as [[= <- <-]|I]); [..|destruct I]; (eexists; eexists; split; [reflexivity|vm_compute; auto 40]). Qed.
Lemma op_not c : In c op_chars -> ~ letter c /\ ~ digit c /\ ~ In c [36; 34; 39; 46; 35; 10].
Proof.
  intros H. unfold letter, digit. repeat (destruct H as [<-|H]; [split; [lia|]; split; [lia|]; intros X; cbn in X; repeat (destruct X as [X|X]; [discriminate X|]); exact X|]). destruct H.
Qed.
Lemma pre_letter (pre : list N) : In pre [[]; [115]; [98]; [100]; [116]] -> pre = [] \/ exists c, pre = [c] /\ In c [115; 98; 100; 116].
Proof. intros H. repeat (destruct H as [<-|H]); [..|destruct H]; cbn; eauto 8. Qed.
Lemma pre_is_letter c : In c [115; 98; 100; 116] -> letter c.
Proof. intros H. unfold letter. repeat (destruct H as [<-|H]; [lia|]). destruct H. Qed.
Lemma form_digit pv c y r : digit c -> form pv (c :: y) r -> numeral (c :: y).
Proof.
  intros Hc F. inversion F as [k y' r' I|y' r' H|y' r' H|pre q b r' I Q B E| |r' S N|r' S|x r' Hx Hr]; subst; try assumption; exfalso; try (unfold digit in Hc; lia).
  - destruct (op_head _ _ I) as (d & z & [= <- <-] & J). apply op_not in J. tauto.
  - apply symbol_head in H. unfold letter, digit in *. lia.
  - apply pre_letter in I as [->|(d & -> & J)]; cbn [app] in E; injection E as <- _; [destruct Q as [<-|[<-|[]]]; unfold digit in Hc; lia|].
    apply pre_is_letter in J. unfold letter, digit in *. lia.
Qed.
Lemma form_letter pv c y r : letter c \/ c = 36 -> form pv (c :: y) r ->
  symbol (c :: y) \/ (exists q b, c :: y = c :: q :: b ++ [q] /\ In c [115; 98; 100; 116] /\ In q quotes /\ body q b).
Proof.
  intros Hc F. inversion F as [k y' r' I|y' r' H|y' r' H|pre q b r' I Q B E| |r' S N|r' S|x r' Hx Hr]; subst; auto; try (exfalso; unfold letter in Hc; lia).
  - exfalso. destruct (op_head _ _ I) as (d & z & [= <- <-] & J). apply op_not in J. cbn in J. destruct Hc; [tauto|]. subst. tauto.
  - exfalso. apply numeral_head in H. unfold letter, digit in *. lia.
  - apply pre_letter in I as [->|(d & -> & J)]; cbn [app] in E; injection E as <- <-; [exfalso; destruct Q as [<-|[<-|[]]]; unfold letter in Hc; lia|]. right. exists q, b. auto.
Qed.
Lemma form_quote pv c y r : In c quotes -> form pv (c :: y) r -> exists b, y = b ++ [c] /\ body c b.
Proof.
  intros Hc F. assert (Nc : ~ letter c /\ ~ digit c /\ c <> 36 /\ c <> 46 /\ c <> 35 /\ c <> 38 /\ ~ In c op_chars).
  { destruct Hc as [<-|[<-|[]]]; unfold letter, digit; (repeat (split; [lia|])); intros X; cbn in X; repeat (destruct X as [X|X]; [discriminate X|]); exact X. }
  destruct Nc as (N1 & N2 & N3 & N4 & N5 & N6 & N7).
  inversion F as [k y' r' I|y' r' H|y' r' H|pre q b r' I Q B E| |r' S N|r' S|x r' Hx Hr]; subst; try contradiction.
  - exfalso. destruct (op_head _ _ I) as (d & z & [= <- <-] & J). contradiction.
  - exfalso. apply symbol_head in H. tauto.
  - exfalso. apply numeral_head in H. tauto.
  - apply pre_letter in I as [->|(d & -> & J)]; cbn [app] in E; injection E as <- <-; [eauto|]. apply pre_is_letter in J. contradiction.
Qed.

(** ** Names *)
Lemma assoc_keywords x : match Base.assoc x reserved_words with Some k => In (k, x) keywords | None => forall k, ~ In (k, x) keywords end.
Proof.
  assert (A : forall x k, In (x, k) reserved_words -> In (k, x) keywords).
  { intros y k I. unfold reserved_words in I. repeat (destruct I as [[= <- <-]|I]); [..|destruct I]; unfold keywords; cbn [In]; auto 20. }
  assert (B : forall x k, In (k, x) keywords -> Base.assoc x reserved_words = Some k).
  { intros y k I. unfold keywords in I. repeat (destruct I as [[= <- <-]|I]); [..|destruct I]; reflexivity. }
  destruct (Base.assoc x reserved_words) as [k|] eqn:E; [exact (A _ _ (Base.assoc_In _ _ _ _ E))|]. intros k I. rewrite (B _ _ I) in E. discriminate E.
Qed.
Lemma symbol_outcome x : symbol x -> exists o, spelled o x /\ symbol_action x = outcome o.
Proof.
  intros H. unfold symbol_action. destruct (existsb (str_eqb x) future_words) eqn:F.
  - exists None. split; [|reflexivity]. apply S_future. apply existsb_exists in F as (y & I & E). apply str_eqb_eq in E. subst. exact I.
  - pose proof (assoc_keywords x) as K. destruct (Base.assoc x reserved_words) as [k|].
    + exists (Some (mkToken k x)). split; [apply S_keyword, K|reflexivity].
    + exists (Some (mkToken T_SYMBOL x)). split; [|reflexivity]. apply S_symbol; [exact H|exact K|]. intros I.
      assert (existsb (str_eqb x) future_words = true) by (apply existsb_exists; exists x; split; [exact I|apply str_eqb_refl]). congruence.
Qed.
Lemma step_digit pv c t : digit c -> step_ok pv c t.
Proof.
  intros Hc. unfold LexFacts.step_ok. rewrite first_rule_candidates, (candidates_digit c Hc). destruct (best_number pv c t Hc) as (x & t' & B & Nx & L).
  unfold float_rule. rewrite (first_best _ _ _ _ _ _ _ B). exists x, (Some (mkToken T_FLOAT x)). destruct B as [E _]. cbn [fst snd]. split; [exact E|]. split; [reflexivity|].
  split; [constructor; apply S_number, Nx|]. split; [reflexivity|]. intros y r Ey F. apply (L y r Ey). destruct (form_nonempty _ _ _ _ F) as (d & z & ->). injection Ey as -> _.
  exact (form_digit _ _ _ _ Hc F).
Qed.
(** the rule for names, after the rules for prefixed texts have failed *)
Lemma symbol_wins pv c t : letter c -> (forall q b r, t = q :: b ++ q :: r -> In c [115; 98; 100; 116] -> In q quotes -> ~ body q b) ->
  match first_rule [symbol_rule] (pv, c :: t) with
  | None => False
  | Some (p', a) => exists x o, c :: t = x ++ snd p' /\ fst p' = last_of pv x /\ here pv o x (snd p') /\ a x = outcome o /\
                                forall y r, c :: t = y ++ r -> form pv y r -> (length y <= length x)%nat
  end.
Proof.
  intros Hc NQ. assert (B : best (Seq (Opt (ch 36)) r_name) pv (c :: t) ([] ++ c :: run name_c t) (rest name_c t)).
  { apply (best_seq _ _ _ _ [] (c :: t)); [|apply best_name, Hc]. apply best_right; [|apply best_eps]. apply none_chr. unfold is. apply N.eqb_neq. unfold letter in Hc. lia. }
  unfold symbol_rule. rewrite (first_best _ _ _ _ _ _ _ B). cbn [app] in *. pose proof (name_run c t Hc) as Nm.
  destruct (symbol_outcome _ (Symbol _ Nm)) as (o & So & Ao). exists (c :: run name_c t), o. destruct B as [E _]. cbn [fst snd]. split; [exact E|]. split; [reflexivity|].
  split; [constructor; exact So|]. split; [exact Ao|]. intros y r Ey F. destruct (form_nonempty _ _ _ _ F) as (d & z & ->). assert (d = c) as -> by (cbn in Ey; congruence).
  destruct (form_letter _ _ _ _ (or_introl Hc) F) as [Sy|(q & b & E2 & J & Q & Bd)].
  - inversion Sy as [? Ny|? Ny]; subst; [exact (name_prefix _ _ _ _ Ey Ny)|]. unfold letter in Hc. lia.
  - exfalso. rewrite E2 in Ey. cbn [app] in Ey. injection Ey as Ey. rewrite <- app_assoc in Ey. exact (NQ _ _ _ Ey J Q Bd).
Qed.
(** a prefixed text *)
Lemma prefixed_longest pv c q b t' : In c [115; 98; 100; 116] -> In q quotes -> body q b ->
  forall y r, c :: q :: b ++ q :: t' = y ++ r -> form pv y r -> (length y <= length (c :: q :: b ++ [q]))%nat.
Proof.
  intros J Q Bd y r Ey F. destruct (form_nonempty _ _ _ _ F) as (d & z & ->). assert (d = c) as -> by (cbn in Ey; congruence). pose proof (pre_is_letter _ J) as Hc.
  destruct (form_letter _ _ _ _ (or_introl Hc) F) as [Sy|(q' & b' & E2 & _ & Q' & Bd')].
  - inversion Sy as [? Ny E|? Ny]; subst; [|unfold letter in Hc; lia]. inversion Ny as [d x _ Fx]; subst. cbn [app] in Ey. injection Ey as Ey.
    destruct z as [|d z]; [cbn; lia|]. exfalso. cbn [app] in Ey. injection Ey as <- _. inversion Fx as [|? ? A _]; subst. unfold alnum, letter, digit in A. destruct Q as [<-|[<-|[]]]; lia.
  - injection E2 as ->. cbn [app] in Ey. injection Ey as <- Ey. rewrite <- app_assoc in Ey. cbn [app] in Ey. destruct (quotes_not q Q) as [Q1 _].
    rewrite (body_unique q b b' t' r Q1 Bd Bd' Ey). cbn [length]. lia.
Qed.

Lemma none_quoted pv t : (forall q b r, t = q :: b ++ q :: r -> In q quotes -> ~ body q b) -> matches r_quoted (pv, t) = [].
Proof.
  intros H. destruct t as [|q t]; [reflexivity|]. destruct (N.eq_dec q 34) as [->|N1]; [|destruct (N.eq_dec q 39) as [->|N2]].
  - destruct (quoted_cases pv 34 t) as [(b & t' & [E _] & B)|[N _]]; [cbn; auto| |exact N]. exfalso. cbn [app] in E. injection E as E. rewrite <- app_assoc in E. cbn [app] in E. subst t. exact (H 34 b t' eq_refl (or_introl eq_refl) B).
  - destruct (quoted_cases pv 39 t) as [(b & t' & [E _] & B)|[N _]]; [cbn; auto| |exact N]. exfalso. cbn [app] in E. injection E as E. rewrite <- app_assoc in E. cbn [app] in E. subst t. exact (H 39 b t' eq_refl (or_intror (or_introl eq_refl)) B).
  - apply none_alt; apply none_seq, none_chr; unfold is; apply N.eqb_neq; assumption.
Qed.
Lemma best_quoted pv q b r : In q quotes -> body q b -> best r_quoted pv (q :: b ++ q :: r) (q :: b ++ [q]) r.
Proof.
  intros Q B. destruct (quotes_not q Q) as [Q1 _]. destruct (quoted_cases pv q (b ++ q :: r) Q) as [(b' & t' & Be & B')|[_ N]]; [|destruct (N b r eq_refl B)].
  destruct Be as [E R]. pose proof E as E0. cbn [app] in E0. injection E0 as E0. rewrite <- app_assoc in E0. cbn [app] in E0. pose proof (body_unique q b b' r t' Q1 B B' E0) as <-.
  apply app_inv_head in E0. injection E0 as <-. split; [exact E|exact R].
Qed.
Lemma quoted_dec t : (exists q b r, t = q :: b ++ q :: r /\ In q quotes /\ body q b) \/ (forall q b r, t = q :: b ++ q :: r -> In q quotes -> ~ body q b).
Proof.
  destruct t as [|q t]; [right; discriminate|].
  assert (D : In q quotes \/ ~ In q quotes) by (destruct (N.eq_dec q 34) as [->|N1]; [left; cbn; auto|destruct (N.eq_dec q 39) as [->|N2]; [left; cbn; auto|right; intros [E|[E|[]]]; congruence]]).
  destruct D as [Q|NQ]; [|right; intros q' b r [= <- _] Q; contradiction].
  destruct (quoted_cases None q t Q) as [(b & t' & [E _] & B)|[_ N]].
  - left. exists q, b, t'. cbn [app] in E. rewrite <- app_assoc in E. auto.
  - right. intros q' b r [= <- E] _. exact (N b r E).
Qed.
Lemma skip_quoted (c q : N) b : skipn 1 (c :: q :: b ++ [q]) = q :: b ++ [q] /\ removelast (skipn 2 (c :: q :: b ++ [q])) = b.
Proof. cbn [skipn]. split; [reflexivity|apply removelast_last]. Qed.
Lemma step_letter pv c t : letter c -> step_ok pv c t.
Proof.
  intros Hc. unfold LexFacts.step_ok. rewrite first_rule_candidates, (candidates_letter c Hc).
  assert (W : (forall q b r, t = q :: b ++ q :: r -> In c [115; 98; 100; 116] -> In q quotes -> ~ body q b) ->
    match first_rule [symbol_rule] (pv, c :: t) with
    | None => forall y r, c :: t = y ++ r -> ~ form pv y r
    | Some (p', a) => exists x o, c :: t = x ++ snd p' /\ fst p' = last_of pv x /\ here pv o x (snd p') /\ a x = outcome o /\
                                forall y r, c :: t = y ++ r -> form pv y r -> (length y <= length x)%nat
    end) by (intros H; pose proof (symbol_wins pv c t Hc H) as K; destruct (first_rule [symbol_rule] (pv, c :: t)) as [[p' a]|]; [exact K|destruct K]).
  destruct (quoted_dec t) as [(q & b & r & -> & Q & B)|NQ].
  - assert (P : forall y r0, c :: q :: b ++ q :: r = y ++ r0 -> In c [115; 98; 100; 116] -> form pv y r0 -> (length y <= length (c :: q :: b ++ [q]))%nat) by
      (intros y r0 E J F; exact (prefixed_longest pv c q b r J Q B y r0 E F)).
    assert (Bq : forall k, k = c -> best (Seq (ch k) r_quoted) pv (c :: q :: b ++ q :: r) ([c] ++ q :: b ++ [q]) r).
    { intros k ->. apply (best_seq _ _ _ _ [c] (q :: b ++ q :: r)); [apply best_chr; unfold is; apply N.eqb_refl|apply best_quoted; assumption]. }
    assert (Ex : c :: q :: b ++ q :: r = (c :: q :: b ++ [q]) ++ r) by (cbn [app]; rewrite <- app_assoc; reflexivity).
    destruct (skip_quoted c q b) as [S1 S2].
    unfold prefix_rule. destruct (N.eqb_spec c 98) as [->|N1]; [|destruct (N.eqb_spec c 100) as [->|N2]; [|destruct (N.eqb_spec c 116) as [->|N3]; [|destruct (N.eqb_spec c 115) as [->|N4]]]].
    + unfold bytes_rule. cbn [app]. rewrite (first_best _ _ _ _ _ _ _ (Bq 98 eq_refl)). cbn [fst snd app]. eexists. eexists. split; [exact Ex|]. split; [reflexivity|].
      split; [constructor; exact (S_bytes q b Q B)|]. split; [rewrite S1; reflexivity|]. intros y r0 E F. apply (P y r0 E); [cbn; auto|exact F].
    + unfold datetime_rule. cbn [app]. rewrite (first_best _ _ _ _ _ _ _ (Bq 100 eq_refl)). cbn [fst snd app]. eexists. eexists. split; [exact Ex|]. split; [reflexivity|].
      split; [constructor; exact (S_datetime q b Q B)|]. split; [rewrite S2; reflexivity|]. intros y r0 E F. apply (P y r0 E); [cbn; auto|exact F].
    + unfold timedelta_rule. cbn [app]. rewrite (first_best _ _ _ _ _ _ _ (Bq 116 eq_refl)). cbn [fst snd app]. eexists. eexists. split; [exact Ex|]. split; [reflexivity|].
      split; [constructor; exact (S_timedelta q b Q B)|]. split; [rewrite S2; reflexivity|]. intros y r0 E F. apply (P y r0 E); [cbn; auto|exact F].
    + unfold string_rule. cbn [app]. assert (Bs : best (Seq (Opt (ch 115)) r_quoted) pv (115 :: q :: b ++ q :: r) ([115] ++ q :: b ++ [q]) r).
      { apply (best_seq _ _ _ _ [115] (q :: b ++ q :: r)); [apply best_left, best_chr; reflexivity|apply best_quoted; assumption]. }
      rewrite (first_best _ _ _ _ _ _ _ Bs). cbn [fst snd app]. eexists. eexists. split; [exact Ex|]. split; [reflexivity|].
      split; [constructor; exact (S_string_s q b Q B)|]. split; [reflexivity|]. intros y r0 E F. apply (P y r0 E); [cbn; auto|exact F].
    + cbn [app]. apply W. intros q' b' r' _ J. exfalso. destruct J as [J|[J|[J|[J|[]]]]]; congruence.
  - assert (NS : forall k, matches (Seq (ch k) r_quoted) (pv, c :: t) = []).
    { intros k. apply none_seq2. intros [pv' t'] I. cbn in I. destruct (is k c); [|destruct I]. destruct I as [[= <- <-]|[]]. apply none_quoted, NQ. }
    assert (NO : c = 115 -> matches (Seq (Opt (ch 115)) r_quoted) (pv, c :: t) = []).
    { intros ->. apply none_seq2. intros [pv' t'] I. cbn in I. destruct I as [[= <- <-]|[[= <- <-]|[]]]; [apply none_quoted, NQ|reflexivity]. }
    assert (W' := W (fun q b r E _ Q => NQ q b r E Q)). unfold prefix_rule.
    destruct (N.eqb_spec c 98) as [->|N1]; [|destruct (N.eqb_spec c 100) as [->|N2]; [|destruct (N.eqb_spec c 116) as [->|N3]; [|destruct (N.eqb_spec c 115) as [->|N4]]]]; cbn [app].
    + unfold bytes_rule. rewrite first_skip by apply NS. exact W'.
    + unfold datetime_rule. rewrite first_skip by apply NS. exact W'.
    + unfold timedelta_rule. rewrite first_skip by apply NS. exact W'.
    + unfold string_rule. rewrite first_skip by (apply NO; reflexivity). exact W'.
    + exact W'.
Qed.
Lemma step_dollar pv t : step_ok pv 36 t.
Proof.
  unfold LexFacts.step_ok. rewrite first_rule_candidates. change (candidates 36) with [symbol_rule]. unfold symbol_rule.
  destruct t as [|c t]; [|destruct (letter_c c) eqn:L].
  - cbn. intros y r E F. destruct (form_nonempty _ _ _ _ F) as (d & z & ->). assert (d = 36) as -> by (cbn in E; congruence).
    destruct (form_letter _ _ _ _ (or_intror eq_refl) F) as [Sy|(q & b & E2 & J & _)].
    + inversion Sy as [? Ny|? Ny]; subst; inversion Ny; subst; [unfold letter in *; lia|discriminate E].
    + cbn in J. repeat (destruct J as [J|J]; [discriminate J|]). exact J.
  - apply letter_iff in L. assert (B : best (Seq (Opt (ch 36)) r_name) pv (36 :: c :: t) ([36] ++ c :: run name_c t) (rest name_c t)).
    { apply (best_seq _ _ _ _ [36] (c :: t)); [apply best_left, best_chr; reflexivity|apply best_name, L]. }
    rewrite (first_best _ _ _ _ _ _ _ B). cbn [app] in *. pose proof (name_run c t L) as Nm.
    destruct (symbol_outcome _ (Builtin _ Nm)) as (o & So & Ao). exists (36 :: c :: run name_c t), o. destruct B as [E _]. cbn [fst snd]. split; [exact E|]. split; [reflexivity|].
    split; [constructor; exact So|]. split; [exact Ao|]. intros y r Ey F. destruct (form_nonempty _ _ _ _ F) as (d & z & ->). assert (d = 36) as -> by (cbn in Ey; congruence).
    destruct (form_letter _ _ _ _ (or_intror eq_refl) F) as [Sy|(q & b & E2 & J & _)].
    + inversion Sy as [? Ny|? Ny]; subst; [inversion Ny; subst; unfold letter in *; lia|]. cbn [app] in Ey. injection Ey as Ey. cbn [length]. apply le_n_S. exact (name_prefix _ _ _ _ Ey Ny).
    + exfalso. cbn in J. repeat (destruct J as [J|J]; [discriminate J|]). exact J.
  - assert (N : matches (Seq (Opt (ch 36)) r_name) (pv, 36 :: c :: t) = []).
    { apply none_seq2. intros [pv' t'] [[= <- <-]|[[= <- <-]|[]]]; apply none_name; intros (d & u & [= <- <-] & H); [apply letter_iff in H; congruence|unfold letter in H; lia]. }
    rewrite first_skip by exact N. cbn. intros y r E F. destruct (form_nonempty _ _ _ _ F) as (d & z & ->). assert (d = 36) as -> by (cbn in E; congruence).
    destruct (form_letter _ _ _ _ (or_intror eq_refl) F) as [Sy|(q & b & E2 & J & _)].
    + inversion Sy as [? Ny|? Ny]; subst; inversion Ny as [d x Hd _]; subst; [unfold letter in *; lia|]. cbn in E. injection E as <- _. apply letter_iff in Hd. congruence.
    + cbn in J. repeat (destruct J as [J|J]; [discriminate J|]). exact J.
Qed.
Lemma step_quote pv q t : In q quotes -> step_ok pv q t.
Proof.
  intros Q. unfold LexFacts.step_ok. rewrite first_rule_candidates. replace (candidates q) with [string_rule] by (destruct Q as [<-|[<-|[]]]; reflexivity). unfold string_rule.
  assert (Nq : is 115 q = false) by (destruct Q as [<-|[<-|[]]]; reflexivity). destruct (quotes_not q Q) as [Q1 _].
  destruct (quoted_cases pv q t Q) as [(b & t' & Be & B)|[N K]].
  - assert (Bs : best (Seq (Opt (ch 115)) r_quoted) pv (q :: t) ([] ++ q :: b ++ [q]) t').
    { apply (best_seq _ _ _ _ [] (q :: t)); [|exact Be]. apply best_right; [apply none_chr, Nq|apply best_eps]. }
    rewrite (first_best _ _ _ _ _ _ _ Bs). cbn [app fst snd]. exists (q :: b ++ [q]). eexists. destruct Bs as [E _]. split; [exact E|]. split; [reflexivity|].
    split; [constructor; exact (S_string q b Q B)|]. split.
    + unfold is in Nq. rewrite Nq. reflexivity.
    + intros y r Ey F. destruct (form_nonempty _ _ _ _ F) as (d & z & ->). assert (d = q) as -> by (cbn in Ey; congruence).
      destruct (form_quote _ _ _ _ Q F) as (b' & -> & B'). cbn [app] in E, Ey. injection E as E. injection Ey as Ey. rewrite <- app_assoc in E, Ey. rewrite Ey in E. cbn [app] in E.
      rewrite (body_unique q b' b r t' Q1 B' B E). lia.
  - assert (Nn : matches (Seq (Opt (ch 115)) r_quoted) (pv, q :: t) = []).
    { apply none_seq2. intros p I. cbn in I. rewrite Nq in I. destruct I as [<-|[]]. exact N. }
    rewrite first_skip by exact Nn. cbn. intros y r E F. destruct (form_nonempty _ _ _ _ F) as (d & z & ->). assert (d = q) as -> by (cbn in E; congruence).
    destruct (form_quote _ _ _ _ Q F) as (b & -> & B). cbn [app] in E. injection E as E. rewrite <- app_assoc in E. exact (K b r E B).
Qed.

(** ** Dots, ampersands, comments *)
Lemma solid_dec pv : (match pv with Some c => solid_c space c | None => false end = true /\ solid space pv) \/
                     (match pv with Some c => solid_c space c | None => false end = false /\ ~ solid space pv).
Proof.
  unfold solid, solid_c. destruct pv as [c|].
  - destruct (space c) eqn:E; [right|left]; (split; [reflexivity|]); [intros (d & [= <-] & H); congruence|eauto].
  - right. split; [reflexivity|]. intros (d & [=] & _).
Qed.
Lemma matches_behind pv t : matches (Behind (solid_c space)) (pv, t) = if match pv with Some c => solid_c space c | None => false end then [(pv, t)] else [].
Proof. destruct pv; reflexivity. Qed.
Lemma named_dec t : (named t /\ exists c u, t = c :: u /\ letter_c c = true) \/ (~ named t /\ match t with c :: _ => letter_c c = false | [] => True end).
Proof.
  destruct t as [|c u]; [right; split; [intros (c & u & [=] & _)|exact I]|]. destruct (letter_c c) eqn:E; [left|right]; (split; [|try (eauto)]).
  - exists c, u. split; [reflexivity|apply letter_iff, E].
  - intros (d & v & [= <- <-] & H). apply letter_iff in H. congruence.
Qed.
Lemma form_dot pv y r : form pv (46 :: y) r -> numeral (46 :: y) \/ (y = [] /\ solid space pv /\ named r).
Proof.
  intros F. inversion F as [k y' r' I|y' r' H|y' r' H|pre q b r' I Q B E|r' S N|r' S N|r' S|x r' Hx Hr]; subst; auto; exfalso.
  - destruct (op_head _ _ I) as (d & z & [= <- <-] & J). apply op_not in J. cbn in J. tauto.
  - apply symbol_head in H. unfold letter in H. lia.
  - apply pre_letter in I as [->|(d & -> & J)]; cbn [app] in E; injection E as E _; [destruct Q as [<-|[<-|[]]]; discriminate E|]. subst. apply pre_is_letter in J. unfold letter in J. lia.
Qed.
Lemma step_dot pv t : step_ok pv 46 t.
Proof.
  unfold LexFacts.step_ok. rewrite first_rule_candidates.
  change (candidates 46) with [float_rule; (Seq (Behind (solid_c space)) (Seq (ch 46) (Ahead r_name)), plain T_ATTR)]. unfold float_rule.
  assert (D : (exists d u, t = d :: u /\ digit d) \/ (forall d u, t = d :: u -> ~ digit d)).
  { destruct t as [|d u]; [right; discriminate|]. destruct (digit_c d) eqn:E; [left|right]; [exists d, u; split; [reflexivity|apply digit_iff, E]|].
    intros d' u' [= <- <-] H. apply digit_iff in H. congruence. }
  destruct D as [(d & u & -> & Hd)|Nd].
  - destruct (best_point pv d u Hd) as (x & t' & B & Nx & L). rewrite (first_best _ _ _ _ _ _ _ B). exists x, (Some (mkToken T_FLOAT x)). destruct B as [E _]. cbn [fst snd].
    split; [exact E|]. split; [reflexivity|]. split; [constructor; apply S_number, Nx|]. split; [reflexivity|]. intros y r Ey F.
    destruct (form_nonempty _ _ _ _ F) as (c & z & ->). assert (c = 46) as -> by (cbn in Ey; congruence). destruct (form_dot _ _ _ F) as [Ny|(-> & _)]; [exact (L _ _ Ey Ny)|].
    destruct x as [|c x]; [inversion Nx; subst; try discriminate; match goal with D : digits _, E : _ = [] |- _ => destruct D; discriminate E end|cbn; lia].
  - assert (Nf : matches r_float (pv, 46 :: t) = []).
    { destruct t as [|d u]; [reflexivity|]. apply none_point. exact (Nd d u eq_refl). }
    rewrite first_skip by exact Nf.
    assert (Nn : forall z r, 46 :: t = (46 :: z) ++ r -> ~ numeral (46 :: z)).
    { intros z r E Ny. destruct (numeral_cases _ Ny) as [(k & f & d & x & _ & [=] & _)|[(x & e & Ex & Dx & _)|[(x & z' & e & Ex & Dx & _)|(z' & e & [= ->] & Dz & _)]]].
      - destruct Dx as [c x Hc _]. cbn in Ex. injection Ex as <- _. unfold digit in Hc. lia.
      - destruct Dx as [c x Hc _]. cbn in Ex. injection Ex as <- _. unfold digit in Hc. lia.
      - destruct Dz as [c z Hc _]. cbn in E. injection E as E. exact (Nd _ _ E Hc). }
    destruct (solid_dec pv) as [[Sb Sp]|[Sb Sp]]; [destruct (named_dec t) as [[Na (c & u & -> & Lc)]|[Na Ln]]|].
    + assert (B : best (Seq (Behind (solid_c space)) (Seq (ch 46) (Ahead r_name))) pv (46 :: c :: u) ([] ++ [46] ++ []) (c :: u)).
      { apply (best_seq _ _ _ _ [] (46 :: c :: u)); [split; [reflexivity|rewrite matches_behind, Sb; eauto]|]. apply (best_seq _ _ _ _ [46] (c :: u)); [apply best_chr; reflexivity|].
        split; [reflexivity|]. rewrite ahead_name, Lc. eauto. }
      rewrite (first_best _ _ _ _ _ _ _ B). cbn [app fst snd]. exists [46]. eexists. split; [reflexivity|]. split; [reflexivity|]. split; [apply H_attr; assumption|]. split; [reflexivity|].
      intros y r Ey F. destruct (form_nonempty _ _ _ _ F) as (d & z & ->). assert (d = 46) as -> by (cbn in Ey; congruence).
      destruct (form_dot _ _ _ F) as [Ny|(-> & _)]; [destruct (Nn _ _ Ey Ny)|cbn; lia].
    + assert (N : matches (Seq (Behind (solid_c space)) (Seq (ch 46) (Ahead r_name))) (pv, 46 :: t) = []).
      { apply none_seq2. rewrite matches_behind, Sb. intros p [<-|[]]. apply none_seq2. intros p [<-|[]]. rewrite ahead_name. destruct t; [reflexivity|rewrite Ln; reflexivity]. }
      rewrite first_skip by exact N. cbn. intros y r Ey F. destruct (form_nonempty _ _ _ _ F) as (d & z & ->). assert (d = 46) as -> by (cbn in Ey; congruence).
      destruct (form_dot _ _ _ F) as [Ny|(-> & _ & Nr)]; [exact (Nn _ _ Ey Ny)|]. cbn in Ey. injection Ey as <-. contradiction.
    + assert (N : matches (Seq (Behind (solid_c space)) (Seq (ch 46) (Ahead r_name))) (pv, 46 :: t) = []) by (apply none_seq; rewrite matches_behind, Sb; reflexivity).
      rewrite first_skip by exact N. cbn. intros y r Ey F. destruct (form_nonempty _ _ _ _ F) as (d & z & ->). assert (d = 46) as -> by (cbn in Ey; congruence).
      destruct (form_dot _ _ _ F) as [Ny|(-> & Sp' & Nr)]; [exact (Nn _ _ Ey Ny)|contradiction].
Qed.
Lemma form_amp pv y r : form pv (38 :: y) r -> y = [] \/ (solid space pv /\ ((y = [46] /\ named r) \/ y = [91])).
Proof.
  intros F. apply form_op in F; [|cbn; auto 10]. destruct F as [I|(_ & S & H)]; [left|right; auto].
  vm_compute in I. repeat (destruct I as [I|I]; [try discriminate I; injection I as <-; reflexivity|]). destruct I.
Qed.
Lemma step_amp pv t : step_ok pv 38 t.
Proof.
  unfold LexFacts.step_ok. rewrite first_rule_candidates.
  change (candidates 38) with [(Seq (Behind (solid_c space)) (Seq (ch 38) (Seq (ch 46) (Ahead r_name))), plain T_ATTR_SAFE);
    (Seq (Opt (Seq (Behind (solid_c space)) (ch 38))) (ch 91), plain T_LBRACKET); (ch 38, plain T_BWAND)].
  assert (L1 : forall x, (1 <= length x)%nat -> (solid space pv -> forall u, t = 46 :: u -> ~ named u) -> (solid space pv -> forall u, t <> 91 :: u) ->
    forall y r, 38 :: t = y ++ r -> form pv y r -> (length y <= length (x : list N))%nat).
  { intros x Lx H1 H2 y r Ey F. destruct (form_nonempty _ _ _ _ F) as (d & z & ->). assert (d = 38) as -> by (cbn in Ey; congruence).
    destruct (form_amp _ _ _ F) as [->|(S & [[-> Nr]| ->])]; [cbn; lia|exfalso..]; cbn in Ey; injection Ey as Ey; [exact (H1 S _ Ey Nr)|exact (H2 S _ Ey)]. }
  assert (L2 : forall x, (2 <= length x)%nat -> forall y r, 38 :: t = y ++ r -> form pv y r -> (length y <= length (x : list N))%nat).
  { intros x Lx y r Ey F. destruct (form_nonempty _ _ _ _ F) as (d & z & ->). assert (d = 38) as -> by (cbn in Ey; congruence).
    destruct (form_amp _ _ _ F) as [->|(S & [[-> Nr]| ->])]; cbn; lia. }
  destruct (solid_dec pv) as [[Sb Sp]|[Sb Sp]].
  - assert (D : (exists u, t = 46 :: u /\ named u) \/ (forall u, t = 46 :: u -> ~ named u)).
    { destruct t as [|d u]; [right; discriminate|]. destruct (N.eq_dec d 46) as [->|N]; [|right; congruence]. destruct (named_dec u) as [[Na _]|[Na _]]; [left; eauto|right; intros u' [= <-]; exact Na]. }
    destruct D as [(u & -> & Na)|Na].
    + destruct Na as (c & v & -> & Lc). assert (B : best (Seq (Behind (solid_c space)) (Seq (ch 38) (Seq (ch 46) (Ahead r_name)))) pv (38 :: 46 :: c :: v) ([] ++ [38] ++ [46] ++ []) (c :: v)).
      { apply (best_seq _ _ _ _ [] (38 :: 46 :: c :: v)); [split; [reflexivity|rewrite matches_behind, Sb; eauto]|]. apply (best_seq _ _ _ _ [38] (46 :: c :: v)); [apply best_chr; reflexivity|].
        apply (best_seq _ _ _ _ [46] (c :: v)); [apply best_chr; reflexivity|]. split; [reflexivity|]. rewrite ahead_name, (proj2 (letter_iff c) Lc). eauto. }
      rewrite (first_best _ _ _ _ _ _ _ B). cbn [app fst snd]. exists [38; 46]. eexists. split; [reflexivity|]. split; [reflexivity|].
      split; [apply H_attr_safe; [assumption|exists c, v; auto]|]. split; [reflexivity|]. apply L2. cbn. lia.
    + assert (N : matches (Seq (Behind (solid_c space)) (Seq (ch 38) (Seq (ch 46) (Ahead r_name)))) (pv, 38 :: t) = []).
      { apply none_seq2. rewrite matches_behind, Sb. intros p [<-|[]]. apply none_seq2. intros p [<-|[]]. destruct t as [|d u]; [reflexivity|]. destruct (N.eq_dec d 46) as [->|Nd].
        - apply none_seq2. intros p [<-|[]]. rewrite ahead_name. destruct u as [|c v]; [reflexivity|]. destruct (letter_c c) eqn:E; [|reflexivity]. exfalso. apply (Na _ eq_refl). exists c, v. split; [reflexivity|apply letter_iff, E].
        - apply none_seq, none_chr. unfold is. apply N.eqb_neq, Nd. }
      rewrite first_skip by exact N. destruct t as [|d u]; [|destruct (N.eq_dec d 91) as [->|Nd]].
      * assert (N2 : matches (Seq (Opt (Seq (Behind (solid_c space)) (ch 38))) (ch 91)) (pv, [38]) = []).
        { apply none_seq2. unfold Opt. cbn -[matches]. change (matches (Alt (Seq (Behind (solid_c space)) (ch 38)) Eps) (pv, [38])) with (flat_map (matches (ch 38)) (matches (Behind (solid_c space)) (pv, [38])) ++ [(pv, [38])]).
          rewrite matches_behind, Sb. cbn. intros p [<-|[<-|[]]]; reflexivity. }
        rewrite first_skip by exact N2. cbn. exists [38]. eexists. split; [reflexivity|]. split; [reflexivity|]. split; [constructor; apply S_operator; cbn; auto 35|]. split; [reflexivity|]. apply L1; [cbn; lia|intros _; exact Na|discriminate].
      * assert (B : best (Seq (Opt (Seq (Behind (solid_c space)) (ch 38))) (ch 91)) pv (38 :: 91 :: u) (([] ++ [38]) ++ [91]) u).
        { apply (best_seq _ _ _ _ ([] ++ [38]) (91 :: u)); [|apply best_chr; reflexivity]. apply best_left. apply (best_seq _ _ _ _ [] (38 :: 91 :: u)); [split; [reflexivity|rewrite matches_behind, Sb; eauto]|apply best_chr; reflexivity]. }
        rewrite (first_best _ _ _ _ _ _ _ B). cbn [app fst snd]. exists [38; 91]. eexists. split; [reflexivity|]. split; [reflexivity|]. split; [apply H_bracket_safe; assumption|]. split; [reflexivity|]. apply L2. cbn. lia.
      * assert (N2 : matches (Seq (Opt (Seq (Behind (solid_c space)) (ch 38))) (ch 91)) (pv, 38 :: d :: u) = []).
        { apply none_seq2. unfold Opt. change (matches (Alt (Seq (Behind (solid_c space)) (ch 38)) Eps) (pv, 38 :: d :: u)) with (flat_map (matches (ch 38)) (matches (Behind (solid_c space)) (pv, 38 :: d :: u)) ++ [(pv, 38 :: d :: u)]).
          rewrite matches_behind, Sb. cbn. intros p [<-|[<-|[]]]; [cbn; unfold is; destruct (N.eqb_spec d 91); [contradiction|reflexivity]|reflexivity]. }
        rewrite first_skip by exact N2. cbn. exists [38]. eexists. split; [reflexivity|]. split; [reflexivity|]. split; [constructor; apply S_operator; cbn; auto 35|]. split; [reflexivity|]. apply L1; [cbn; lia|intros _; exact Na|congruence].
  - assert (N : matches (Seq (Behind (solid_c space)) (Seq (ch 38) (Seq (ch 46) (Ahead r_name)))) (pv, 38 :: t) = []) by (apply none_seq; rewrite matches_behind, Sb; reflexivity).
    rewrite first_skip by exact N.
    assert (N2 : matches (Seq (Opt (Seq (Behind (solid_c space)) (ch 38))) (ch 91)) (pv, 38 :: t) = []).
    { apply none_seq2. unfold Opt. change (matches (Alt (Seq (Behind (solid_c space)) (ch 38)) Eps) (pv, 38 :: t)) with (flat_map (matches (ch 38)) (matches (Behind (solid_c space)) (pv, 38 :: t)) ++ [(pv, 38 :: t)]).
      rewrite matches_behind, Sb. cbn. intros p [<-|[]]; reflexivity. }
    rewrite first_skip by exact N2. cbn. exists [38]. eexists. split; [reflexivity|]. split; [reflexivity|]. split; [constructor; apply S_operator; cbn; auto 35|]. split; [reflexivity|]. apply L1; [cbn; lia|intros; contradiction|intros; contradiction].
Qed.
Lemma form_hash pv y r : form pv (35 :: y) r -> Forall (fun c => c <> 10) y /\ (r = [] \/ r = [10]).
Proof.
  intros F. inversion F as [k y' r' I|y' r' H|y' r' H|pre q b r' I Q B E|r' S N|r' S N|r' S|x r' Hx Hr]; subst; auto; exfalso.
  - destruct (op_head _ _ I) as (d & z & [= <- <-] & J). apply op_not in J. cbn in J. tauto.
  - apply symbol_head in H. unfold letter in H. lia.
  - apply numeral_head in H. unfold digit in H. lia.
  - apply pre_letter in I as [->|(d & -> & J)]; cbn [app] in E; injection E as E _; [destruct Q as [<-|[<-|[]]]; discriminate E|]. subst. apply pre_is_letter in J. unfold letter in J. lia.
Qed.
Lemma dot_iff c : dot_c c = true <-> c <> 10.
Proof. unfold dot_c. rewrite negb_true_iff. apply N.eqb_neq. Qed.
Lemma matches_eol pv t : matches Eol (pv, t) = match t with [] => [(pv, t)] | [c] => if c =? 10 then [(pv, t)] else [] | _ => [] end.
Proof. destruct t as [|c [|d t]]; reflexivity. Qed.
Lemma step_hash pv t : step_ok pv 35 t.
Proof.
  unfold LexFacts.step_ok. rewrite first_rule_candidates.
  change (candidates 35) with [(Seq (ch 35) (Seq (Many true (Chr dot_c)) Eol), plain T_COMMENT)].
  assert (R : Forall (fun c => c <> 10) (run dot_c t)) by (apply (Forall_iff _ _ _ dot_iff), run_all).
  assert (D : (rest dot_c t = [] \/ rest dot_c t = [10]) \/ (exists d e u, rest dot_c t = d :: e :: u)).
  { pose proof (rest_head dot_c t) as H. destruct (rest dot_c t) as [|d [|e u]]; eauto. left. right. f_equal. unfold dot_c in H. apply negb_false_iff, N.eqb_eq in H. exact H. }
  destruct D as [D|(d & e & u & D)].
  - assert (B : best (Seq (ch 35) (Seq (Many true (Chr dot_c)) Eol)) pv (35 :: t) ([35] ++ run dot_c t ++ []) (rest dot_c t)).
    { apply (best_seq _ _ _ _ [35] t); [apply best_chr; reflexivity|]. apply (best_seq _ _ _ _ _ (rest dot_c t)); [apply best_many|]. split; [reflexivity|].
      rewrite matches_eol. destruct D as [-> | ->]; [|cbn]; unfold last_of; cbn; eauto. }
    rewrite (first_best _ _ _ _ _ _ _ B). rewrite app_nil_r in *. cbn [app fst snd]. exists (35 :: run dot_c t). eexists. destruct B as [E _]. split; [exact E|]. split; [reflexivity|].
    split; [apply H_comment; assumption|]. split; [reflexivity|]. intros y r Ey F. destruct (form_nonempty _ _ _ _ F) as (c & z & ->). assert (c = 35) as -> by (cbn in Ey; congruence).
    destruct (form_hash _ _ _ F) as [Fz _]. cbn in Ey. injection Ey as Ey. cbn [length]. apply le_n_S. apply (run_longest _ _ _ _ Ey). apply (Forall_iff _ _ _ dot_iff), Fz.
  - assert (N : matches (Seq (ch 35) (Seq (Many true (Chr dot_c)) Eol)) (pv, 35 :: t) = []).
    { apply none_seq2. intros p [<-|[]]. apply none_seq2. intros [pv' t'] I. change (In (pv', t') (iter true (matches (Chr dot_c)) (length t) (Some 35, t))) in I. destruct (iter_run dot_c (length t) (Some 35) t (le_n _)) as (ps & H & K).
      rewrite H in I. rewrite matches_eol.
      destruct I as [[= <- <-]|I]; [rewrite D; reflexivity|]. destruct (K _ I) as (c & v & E & Hc). cbn [snd] in E. subst t'. destruct v; [|reflexivity]. apply dot_iff in Hc. destruct (N.eqb_spec c 10); [contradiction|reflexivity]. }
    rewrite first_skip by exact N. cbn. intros y r Ey F. destruct (form_nonempty _ _ _ _ F) as (c & z & ->). assert (c = 35) as -> by (cbn in Ey; congruence).
    destruct (form_hash _ _ _ F) as [Fz Hr]. cbn in Ey. injection Ey as Ey. destruct (run_prefix dot_c t z r Ey) as [[-> ->]|(k & w & -> & Hk & L)]; [apply (Forall_iff _ _ _ dot_iff), Fz| |].
    + rewrite D in Hr. destruct Hr; discriminate.
    + destruct Hr as [Hr|Hr]; [discriminate Hr|]. injection Hr as -> _. discriminate Hk.
Qed.
(** ** Nothing starts here *)
Lemma form_starter pv c y r : form pv (c :: y) r -> starter c = true /\ c <> 10.
Proof.
  assert (A : forall k, In k (op_chars ++ [36; 34; 39; 46; 35]) -> starter k = true /\ k <> 10).
  { intros k Hk. cbn [op_chars app] in Hk. repeat (destruct Hk as [<-|Hk]; [split; [reflexivity|discriminate]|]). destruct Hk. }
  assert (Lt : forall k, letter k -> starter k = true /\ k <> 10) by (intros k Hk; split; [unfold starter; rewrite (proj2 (letter_iff k) Hk); reflexivity|unfold letter in Hk; lia]).
  assert (Dg : forall k, digit k -> starter k = true /\ k <> 10) by (intros k Hk; split; [unfold starter; rewrite (proj2 (digit_iff k) Hk), orb_true_r; reflexivity|unfold digit in Hk; lia]).
  intros F. inversion F as [k y' r' I|y' r' H|y' r' H|pre q b r' I Q B E|r' S N|r' S N|r' S|x r' Hx Hr]; subst.
  - destruct (op_head _ _ I) as (d & z & [= <- <-] & J). apply A, in_or_app. left. exact J.
  - destruct (symbol_head _ _ H) as [L| ->]; [auto|apply A; cbn; auto 40].
  - destruct (numeral_head _ _ H) as [L| ->]; [auto|apply A; cbn; auto 40].
  - apply pre_letter in I as [->|(d & -> & J)]; cbn [app] in E; injection E as <- _; [destruct Q as [<-|[<-|[]]]; apply A; cbn; auto 40|apply Lt, pre_is_letter, J].
  - apply A; cbn; auto 40.
  - apply A; cbn; auto 40.
  - apply A; cbn; auto 40.
  - apply A; cbn; auto 40.
Qed.
Lemma step_all pv c t : c <> 10 -> step_ok pv c t.
Proof.
  intros N10. destruct (starter c) eqn:S.
  - unfold starter in S. apply orb_true_iff in S as [S|S]; [apply orb_true_iff in S as [S|S]; [apply step_letter, letter_iff, S|apply step_digit, digit_iff, S]|].
    apply existsb_exists in S as (k & I & E). apply N.eqb_eq in E. subst k. apply in_app_or in I as [I|I].
    + destruct (N.eq_dec c 38) as [->|N38]; [apply step_amp|]. apply step_plain_op. cbn [op_chars plain_ops In] in *. repeat (destruct I as [I|I]; [first [congruence|auto 40]|]). destruct I.
    + destruct I as [<-|[<-|[<-|[<-|[<-|[<-|[]]]]]]]; [apply step_dollar|apply step_quote; cbn; auto|apply step_quote; cbn; auto|apply step_dot|apply step_hash|congruence].
  - unfold LexFacts.step_ok. rewrite first_rule_candidates, candidates_none by exact S. cbn. intros y r E F. destruct (form_nonempty _ _ _ _ F) as (d & z & ->).
    assert (d = c) as -> by (cbn in E; congruence). destruct (form_starter _ _ _ _ F) as [X _]. congruence.
Qed.
Lemma step_newline pv t : first_rule rules (pv, 10 :: t) = Some ((Some 10, rest (is 10) t), fun _ => Ok None).
Proof.
  rewrite first_rule_candidates. change (candidates 10) with [(Plus (ch 10), (fun _ => Ok None) : action)].
  rewrite (first_best _ _ _ _ _ _ _ (best_plus (is 10) pv 10 t eq_refl)). do 3 f_equal. rewrite last_of_cons.
  pose proof (run_all (is 10) t) as R. induction (run (is 10) t) as [|c l IH]; [reflexivity|]. inversion R as [|? ? Hc Rl]; subst. rewrite last_of_cons. apply N.eqb_eq in Hc. subst. exact (IH Rl).
Qed.
End S.
