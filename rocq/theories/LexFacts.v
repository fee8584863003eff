(** * LexFacts: the regular expressions of the lexer, and the written forms of the tokens *)
From Coq Require Import List NArith Bool Arith Lia.
From Verif Require Import Base Dec Value DType Types Ops ParseUtil Attr Prog Ast Eval Build StrLit P_StrLit.
From Verif Require Import Grammar GrammarSpec GrammarSem P_Print Lexer LexSpec.
Import ListNotations.
Local Open Scope N_scope.

(** ** Regular expressions that cannot start with a character *)
Fixpoint nullable (r : re) : bool :=
  match r with Chr _ => false | Seq a b => nullable a && nullable b | Alt a b => nullable a || nullable b | _ => true end.
Fixpoint starts (r : re) (c : N) : bool :=
  match r with
  | Chr f => f c
  | Seq a b => starts a c || (nullable a && starts b c)
  | Alt a b => starts a c || starts b c
  | Many _ a => starts a c
  | _ => false
  end.
Lemma starts_sound c t pv : forall r p', starts r c = false -> In p' (matches r (pv, c :: t)) -> p' = (pv, c :: t) /\ nullable r = true.
Proof.
  induction r as [f| |a IHa b IHb|a IHa b IHb|g a IHa|f|a IHa|]; intros p' St H; cbn [matches starts nullable snd fst] in *.
  - rewrite St in H. destruct H.
  - destruct H as [<-|[]]. auto.
  - apply orb_false_iff in St as [Sa Sb]. apply in_flat_map in H as (p1 & H1 & H2). destruct (IHa _ Sa H1) as [-> Na]. rewrite Na in Sb. cbn [andb] in Sb.
    destruct (IHb _ Sb H2) as [-> Nb]. rewrite Na, Nb. auto.
  - apply orb_false_iff in St as [Sa Sb]. apply in_app_or in H as [H|H]; [destruct (IHa _ Sa H) as [-> N]|destruct (IHb _ Sb H) as [-> N]]; rewrite N; auto using orb_true_r.
  - split; [|reflexivity]. remember (length (c :: t)) as n eqn:En. clear En. destruct n as [|n]; cbn [iter] in H.
    + destruct g; [destruct H as [<-|[]]|destruct H as [<-|[]]]; reflexivity.
    + match type of H with context [filter ?f ?l] => assert (E : filter f l = []) end.
      { destruct (filter _ _) as [|q l] eqn:F; [reflexivity|]. exfalso. assert (I : In q (q :: l)) by (left; reflexivity). rewrite <- F in I. apply filter_In in I as [I L].
        destruct (IHa _ St I) as [-> _]. cbn [snd] in L. rewrite Nat.ltb_irrefl in L. discriminate L. }
      rewrite E in H. cbn [flat_map app] in H. destruct g; destruct H as [<-|[]]; reflexivity.
  - destruct pv as [d|]; [|destruct H]. destruct (f d); [|destruct H]. destruct H as [<-|[]]. auto.
  - destruct (matches a (pv, c :: t)); [destruct H|]. destruct H as [<-|[]]. auto.
  - destruct t; [|destruct H]. destruct (c =? 10); [|destruct H]. destruct H as [<-|[]]. auto.
Qed.
Lemma starts_none r c t pv : starts r c = false -> nullable r = false -> matches r (pv, c :: t) = [].
Proof.
  intros A B. destruct (matches r (pv, c :: t)) as [|p l] eqn:E; [reflexivity|]. exfalso.
  destruct (starts_sound c t pv r p A) as [_ C]; [rewrite E; left; reflexivity|]. congruence.
Qed.

Section S.
Variable space : N -> bool.
Notation rules := (lex_rules space).
Notation here := (here space).
Notation longest := (longest space).
Notation reads := (reads space).

Lemma rules_not_nullable : forallb (fun ra => negb (nullable (fst ra))) rules = true.
Proof. reflexivity. Qed.
Lemma first_rule_filter c t pv : forall l, forallb (fun ra : re * action => negb (nullable (fst ra))) l = true ->
  first_rule l (pv, c :: t) = first_rule (filter (fun ra => starts (fst ra) c) l) (pv, c :: t).
Proof.
  induction l as [|[r a] l IH]; intros F; [reflexivity|]. cbn [forallb fst] in F. apply andb_prop in F as [N F].
  cbn [first_rule filter fst]. destruct (starts r c) eqn:St.
  - cbn [first_rule]. destruct (matches r (pv, c :: t)); [apply IH; exact F|reflexivity].
  - rewrite starts_none; [apply IH; exact F|exact St|]. destruct (nullable r); [discriminate N|reflexivity].
Qed.
Definition candidates (c : N) : list (re * action) := filter (fun ra => starts (fst ra) c) rules.
Lemma first_rule_candidates c t pv : first_rule rules (pv, c :: t) = first_rule (candidates c) (pv, c :: t).
Proof. apply first_rule_filter, rules_not_nullable. Qed.

(** ** What a token may start with *)
Lemma keyword_symbol k x : In (k, x) keywords -> symbol x.
Proof.
  intros H. vm_compute in H. constructor. repeat (destruct H as [[= <- <-]|H]); [..|destruct H];
    (constructor; [|repeat apply Forall_cons; try apply Forall_nil]; unfold alnum, letter; lia).
Qed.
Lemma future_symbol x : In x future -> symbol x.
Proof.
  intros H. vm_compute in H. constructor. repeat (destruct H as [<-|H]); [..|destruct H];
    (constructor; [|repeat apply Forall_cons; try apply Forall_nil]; unfold alnum, letter; lia).
Qed.
Lemma symbol_head c y : symbol (c :: y) -> letter c \/ c = 36.
Proof. intros H. inversion H as [? N|]; subst; [|auto]. inversion N; subst. auto. Qed.
Lemma numeral_head c y : numeral (c :: y) -> digit c \/ c = 46.
Proof.
  intros H. inversion H as [| | |x e D|x z e D|]; subst; unfold digit; try lia; inversion D as [d ? Hd ? E]; subst; cbn [app] in *; left;
    match goal with E : _ :: _ = _ :: _ |- _ => injection E as <- _; exact Hd end.
Qed.

Inductive form (pv : option N) : str -> str -> Prop :=
| F_op k y r : In (k, y) operators -> form pv y r
| F_symbol y r : symbol y -> form pv y r
| F_number y r : numeral y -> form pv y r
| F_quoted pre q b r : In pre [[]; [115]; [98]; [100]; [116]] -> In q quotes -> body q b -> form pv (pre ++ q :: b ++ [q]) r
| F_attr r : solid space pv -> named r -> form pv [46] r
| F_attr_safe r : solid space pv -> named r -> form pv [38; 46] r
| F_bracket r : solid space pv -> form pv [38; 91] r
| F_comment x r : Forall (fun c => c <> 10) x -> r = [] \/ r = [10] -> form pv (35 :: x) r.
Lemma here_form pv o y r : here pv o y r -> form pv y r.
Proof.
  intros [o' x a Sp| | | |x a Hx Ha]; [|constructor 5|constructor 6|constructor 7|constructor 8]; try assumption.
  destruct Sp as [k x I|k x I|x I|x I _ _|x I|q b Q B|q b Q B|q b Q B|q b Q B|q b Q B].
  - exact (F_op _ _ _ _ I).
  - apply F_symbol, (keyword_symbol _ _ I).
  - apply F_symbol, (future_symbol _ I).
  - apply F_symbol, I.
  - apply F_number, I.
  - refine (F_quoted pv [] q b a _ Q B); cbn; auto.
  - refine (F_quoted pv [115] q b a _ Q B); cbn; auto.
  - refine (F_quoted pv [98] q b a _ Q B); cbn; auto.
  - refine (F_quoted pv [100] q b a _ Q B); cbn; auto 6.
  - refine (F_quoted pv [116] q b a _ Q B); cbn; auto 7.
Qed.
Lemma form_nonempty pv y r : form pv y r -> exists c z, y = c :: z.
Proof.
  intros [k y' r' I|y' r' H|y' r' H|pre q b r' I _ _| | | |]; eauto.
  - vm_compute in I. repeat (destruct I as [[= <- <-]|I]); [..|destruct I]; eauto.
  - destruct H as [x N|]; eauto. inversion N. eauto.
  - destruct H as [| | |x e D|x z e D|]; eauto; inversion D; cbn; eauto.
  - destruct pre; cbn; eauto.
Qed.
(** the characters that only start operators *)
Definition op_chars : list N := [42; 47; 60; 62; 61; 33; 38; 124; 94; 40; 41; 63; 58; 43; 45; 37; 44; 91; 93; 123; 125].
Lemma form_op pv c y r : In c op_chars -> form pv (c :: y) r ->
  In (c :: y) (map snd operators) \/ (c = 38 /\ solid space pv /\ ((y = [46] /\ named r) \/ y = [91])).
Proof.
  intros Hc F. inversion F as [k y' r' I|y' r' H|y' r' H|pre q b r' I Q B E| |r' S N|r' S|x r' Hx Hr]; subst.
  - left. exact (in_map snd _ _ I).
  - exfalso. apply symbol_head in H. unfold letter in H. repeat (destruct Hc as [<-|Hc]; [lia|]). destruct Hc.
  - exfalso. apply numeral_head in H. unfold digit in H. repeat (destruct Hc as [<-|Hc]; [lia|]). destruct Hc.
  - exfalso. assert (X : In c [34; 39; 115; 98; 100; 116]).
    { repeat (destruct I as [<-|I]); [..|destruct I]; injection E as <- _; [destruct Q as [<-|[<-|[]]]|..]; cbn; auto 7. }
    repeat (destruct Hc as [<-|Hc]; [cbn in X; repeat (destruct X as [X|X]; [discriminate X|]); destruct X|]). destruct Hc.
  - exfalso. repeat (destruct Hc as [Hc|Hc]; [discriminate Hc|]). destruct Hc.
  - right. auto.
  - right. auto.
  - exfalso. repeat (destruct Hc as [Hc|Hc]; [discriminate Hc|]). destruct Hc.
Qed.

(** ** One step *)
Definition outcome (o : option token) : result (option token) := match o with Some k => Ok (Some k) | None => Err XSynRule end.
Definition step_ok (pv : option N) (c : N) (t : list N) : Prop :=
  match first_rule rules (pv, c :: t) with
  | None => forall y r, c :: t = y ++ r -> ~ form pv y r
  | Some (p', a) => exists x o, c :: t = x ++ snd p' /\ fst p' = last_of pv x /\ here pv o x (snd p') /\ a x = outcome o /\
                                forall y r, c :: t = y ++ r -> form pv y r -> (length y <= length x)%nat
  end.

Ltac chars :=
  unfold is in *;
  repeat match goal with
         | H : (_ =? _) = true |- _ => apply N.eqb_eq in H
         | H : (_ =? _) = false |- _ => apply N.eqb_neq in H
         end.
(** no longer operator starts here *)
Ltac op_longest :=
  let y := fresh "y" in let r := fresh "r" in let E := fresh "E" in let F := fresh "F" in let I := fresh "I" in
  intros y r E F; destruct (form_nonempty _ _ _ F) as (? & ? & ->); cbn [app] in E; injection E as <- E;
  apply form_op in F; [|cbn; auto 25];
  destruct F as [I|(? & ? & [[-> ?]| ->])]; [vm_compute in I; repeat (destruct I as [I|I]; [try discriminate I; injection I as <-|]); [..|destruct I]|..];
  cbn [length app] in *; try lia; try (exfalso; congruence).
Ltac op_leaf n :=
  match goal with |- exists x o, ?t = x ++ _ /\ _ => exists (firstn n t) end;
  cbn [firstn]; eexists; split; [reflexivity|]; split; [reflexivity|]; split; [constructor; apply S_operator; cbn; auto 35|];
  split; [reflexivity|op_longest].
Ltac op_split :=
  cbn -[last_of];
  repeat match goal with
         | |- context [match ?t with [] => _ | _ :: _ => _ end] => is_var t; destruct t; cbn -[last_of]
         | |- context [match ?t with Some _ => _ | None => _ end] => is_var t; destruct t; cbn -[last_of]
         | |- context [if ?a || ?b then _ else _] => let B := fresh "B" in destruct a eqn:B; cbn -[last_of]
         | |- context [if ?b then _ else _] => let B := fresh "B" in destruct b eqn:B; cbn -[last_of]
         end; chars; subst.
Definition plain_ops : list N := [42; 47; 60; 62; 61; 33; 124; 94; 40; 41; 63; 58; 43; 45; 37; 44; 91; 93; 123; 125].
Lemma step_plain_op pv c t : In c plain_ops -> step_ok pv c t.
Proof.
  intros H. unfold step_ok. rewrite first_rule_candidates.
  cbn [In plain_ops] in H. repeat (destruct H as [<-|H]); [..|destruct H].
  all: op_split.
  all: try solve [first [op_leaf 1%nat|op_leaf 2%nat|op_leaf 3%nat]].
  all: try solve [op_longest].
Qed.
End S.

(** ** What a regular expression prefers *)
Definition best (r : re) (pv : option N) (t x t' : list N) : Prop := t = x ++ t' /\ exists ps, matches r (pv, t) = (last_of pv x, t') :: ps.
Lemma last_of_cons pv c x : last_of pv (c :: x) = last_of (Some c) x.
Proof. unfold last_of. cbn [rev]. destruct (rev x); reflexivity. Qed.
Lemma last_of_app pv x y : last_of pv (x ++ y) = last_of (last_of pv x) y.
Proof. revert pv. induction x as [|c x IH]; intros pv; [reflexivity|]. cbn [app]. rewrite !last_of_cons. apply IH. Qed.
Lemma best_seq a b pv t x t' y t'' : best a pv t x t' -> best b (last_of pv x) t' y t'' -> best (Seq a b) pv t (x ++ y) t''.
Proof.
  intros [-> [ps H]] [-> [qs K]]. split; [apply app_assoc|]. cbn [matches]. rewrite H. cbn [flat_map]. rewrite K. cbn [app]. rewrite last_of_app. eauto.
Qed.
Lemma best_left a b pv t x t' : best a pv t x t' -> best (Alt a b) pv t x t'.
Proof. intros [-> [ps H]]. split; [reflexivity|]. cbn [matches]. rewrite H. cbn [app]. eauto. Qed.
Lemma best_right a b pv t x t' : matches a (pv, t) = [] -> best b pv t x t' -> best (Alt a b) pv t x t'.
Proof. intros N [-> [ps H]]. split; [reflexivity|]. cbn [matches]. rewrite N, H. cbn [app]. eauto. Qed.
Lemma best_eps pv t : best Eps pv t [] t.
Proof. split; [reflexivity|]. cbn. eauto. Qed.
Lemma best_chr (f : N -> bool) pv c t : f c = true -> best (Chr f) pv (c :: t) [c] t.
Proof. intros H. split; [reflexivity|]. cbn. rewrite H. eauto. Qed.
Lemma none_seq a b pv t : matches a (pv, t) = [] -> matches (Seq a b) (pv, t) = [].
Proof. cbn [matches]. intros ->. reflexivity. Qed.
Lemma none_seq2 a b pv t : (forall p, In p (matches a (pv, t)) -> matches b p = []) -> matches (Seq a b) (pv, t) = [].
Proof.
  cbn [matches]. induction (matches a (pv, t)) as [|p l IH]; intros H; [reflexivity|]. cbn [flat_map]. rewrite H by (left; reflexivity).
  apply IH. intros q Hq. apply H. right. exact Hq.
Qed.
Lemma none_alt a b pv t : matches a (pv, t) = [] -> matches b (pv, t) = [] -> matches (Alt a b) (pv, t) = [].
Proof. cbn [matches]. intros -> ->. reflexivity. Qed.
Lemma none_chr (f : N -> bool) pv c t : f c = false -> matches (Chr f) (pv, c :: t) = [].
Proof. cbn. intros ->. reflexivity. Qed.

(** *** Runs of a class of characters *)
Fixpoint run (f : N -> bool) (t : list N) : list N := match t with c :: r => if f c then c :: run f r else [] | [] => [] end.
Fixpoint rest (f : N -> bool) (t : list N) : list N := match t with c :: r => if f c then rest f r else t | [] => [] end.
Lemma run_rest f t : t = run f t ++ rest f t.
Proof. induction t as [|c t IH]; [reflexivity|]. cbn [run rest]. destruct (f c); [cbn [app]; congruence|reflexivity]. Qed.
Lemma run_all f t : Forall (fun c => f c = true) (run f t).
Proof. induction t as [|c t IH]; cbn [run]; [constructor|]. destruct (f c) eqn:E; constructor; auto. Qed.
Lemma rest_head f t : match rest f t with c :: _ => f c = false | [] => True end.
Proof. induction t as [|c t IH]; cbn [rest]; [exact I|]. destruct (f c) eqn:E; auto. Qed.
Lemma iter_run f : forall n pv t, (length t <= n)%nat -> exists ps, iter true (matches (Chr f)) n (pv, t) = (last_of pv (run f t), rest f t) :: ps /\
  forall p, In p ps -> exists c t', snd p = c :: t' /\ f c = true.
Proof.
  induction n as [|n IH]; intros pv t L.
  - destruct t; [|cbn in L; lia]. cbn. eexists; split; [reflexivity|intros p []].
  - cbn [iter]. destruct t as [|c t]; [cbn; eexists; split; [reflexivity|intros p []]|]. cbn [snd run rest].
    change (matches (Chr f) (pv, c :: t)) with (if f c then [(Some c, t)] else []). destruct (f c) eqn:E.
    + cbn [filter snd length]. replace (length t <? S (length t))%nat with true by (symmetry; apply Nat.ltb_lt; lia). cbn [flat_map].
      destruct (IH (Some c) t) as (ps & -> & Hps); [cbn in L; lia|]. rewrite app_nil_r. cbn [app]. rewrite last_of_cons. eexists; split; [reflexivity|].
      intros p Hp. apply in_app_or in Hp as [Hp|[<-|[]]]; [auto|]. cbn [snd]. eauto.
    + cbn [filter flat_map app]. eexists; split; [reflexivity|intros p []].
Qed.
Lemma best_many f pv t : best (Many true (Chr f)) pv t (run f t) (rest f t).
Proof. split; [apply run_rest|]. cbn [matches snd]. destruct (iter_run f (length t) pv t (le_n _)) as (ps & H & _). eauto. Qed.
Lemma best_plus f pv c t : f c = true -> best (Plus (Chr f)) pv (c :: t) (c :: run f t) (rest f t).
Proof. intros H. apply (best_seq _ _ _ _ [c] t (run f t)); [apply best_chr; exact H|]. apply best_many. Qed.
(** a prefix of such characters is the run, or shorter and the next character is also one *)
Lemma run_prefix f t u w : t = u ++ w -> Forall (fun c => f c = true) u ->
  (u = run f t /\ w = rest f t) \/ (exists c w', w = c :: w' /\ f c = true /\ (S (length u) <= length (run f t))%nat).
Proof.
  intros -> F. induction F as [|c u Hc F IH].
  - cbn [app]. destruct w as [|c w]; [left; split; reflexivity|]. cbn [run rest]. destruct (f c) eqn:E; [right|left; auto].
    exists c, w. cbn [length]. split; [reflexivity|]. split; [exact E|lia].
  - cbn [app run rest]. rewrite Hc. destruct IH as [[Eu Ew]|(d & w' & -> & Hd & L)]; [left; split; congruence|].
    right. exists d, w'. cbn [length]. split; [reflexivity|]. split; [exact Hd|lia].
Qed.
Lemma run_longest f t u w : t = u ++ w -> Forall (fun c => f c = true) u -> (length u <= length (run f t))%nat.
Proof. intros E F. destruct (run_prefix f t u w E F) as [[-> _]|(c & w' & _ & _ & L)]; lia. Qed.

(** *** Classes of characters *)
Lemma in_range_iff a b c : in_range a b c = true <-> a <= c <= b.
Proof. unfold in_range. rewrite andb_true_iff, !N.leb_le. reflexivity. Qed.
Lemma digit_iff c : digit_c c = true <-> digit c.
Proof. apply in_range_iff. Qed.
Lemma letter_iff c : letter_c c = true <-> letter c.
Proof. unfold letter_c, letter. rewrite !orb_true_iff, !in_range_iff, N.eqb_eq. tauto. Qed.
Lemma alnum_iff c : name_c c = true <-> alnum c.
Proof. unfold name_c, alnum. rewrite orb_true_iff, letter_iff, digit_iff. reflexivity. Qed.
Lemma hex_iff c : hex_c c = true <-> hexdigit c.
Proof. unfold hex_c, hexdigit. rewrite !orb_true_iff, !in_range_iff, digit_iff. tauto. Qed.
Lemma Forall_iff {A} (P Q : A -> Prop) l : (forall x, P x <-> Q x) -> Forall P l <-> Forall Q l.
Proof. intros H. split; intros F; (eapply Forall_impl; [|exact F]); intros x Hx; apply H; exact Hx. Qed.

(** *** Names *)
Lemma best_name pv c t : letter c -> best r_name pv (c :: t) (c :: run name_c t) (rest name_c t).
Proof. intros H. apply (best_seq _ _ _ _ [c] t (run name_c t)); [apply best_chr, letter_iff, H|apply best_many]. Qed.
Lemma none_name pv t : ~ named t -> matches r_name (pv, t) = [].
Proof.
  intros H. apply none_seq. destruct t as [|c t]; [reflexivity|]. apply none_chr. destruct (letter_c c) eqn:E; [|reflexivity].
  exfalso. apply H. exists c, t. split; [reflexivity|apply letter_iff, E].
Qed.
Lemma ahead_name pv t : matches (Ahead r_name) (pv, t) = match t with c :: _ => if letter_c c then [(pv, t)] else [] | [] => [] end.
Proof.
  destruct t as [|c t]; [reflexivity|]. destruct (letter_c c) eqn:E.
  - destruct (best_name pv c t) as [_ [ps H]]; [apply letter_iff, E|]. change (matches (Ahead r_name) (pv, c :: t)) with (match matches r_name (pv, c :: t) with [] => [] | _ => [(pv, c :: t)] end).
    rewrite H. reflexivity.
  - change (matches (Ahead r_name) (pv, c :: t)) with (match matches r_name (pv, c :: t) with [] => [] | _ => [(pv, c :: t)] end).
    rewrite none_name; [reflexivity|]. intros (d & u & [= <- <-] & L). apply letter_iff in L. congruence.
Qed.
Lemma name_run c t : letter c -> name (c :: run name_c t).
Proof. intros H. constructor; [exact H|]. apply (Forall_iff _ _ _ alnum_iff). apply run_all. Qed.
Lemma name_prefix c t y r : c :: t = y ++ r -> name y -> (length y <= S (length (run name_c t)))%nat.
Proof.
  intros E N. destruct N as [d x _ F]. cbn [app] in E. injection E as <- E. cbn [length]. apply le_n_S. apply (run_longest name_c t x r E). apply (Forall_iff _ _ _ alnum_iff). exact F.
Qed.

(** *** Quoted texts *)
Definition inner_step (p : pos) : list pos := matches (Alt (Chr (fun c => negb (c =? 92) && negb (c =? 10))) (Seq (ch 92) (Chr dot_c))) p.
Lemma scan_body q : q <> 92 -> q <> 10 -> forall n pv t, (length t <= n)%nat ->
  (exists b t' ps, t = b ++ q :: t' /\ body q b /\ flat_map (matches (ch q)) (iter false inner_step n (pv, t)) = (Some q, t') :: ps) \/
  (flat_map (matches (ch q)) (iter false inner_step n (pv, t)) = [] /\ forall b r, t = b ++ q :: r -> ~ body q b).
Proof.
  intros Q1 Q2. induction n as [n IH] using lt_wf_ind. intros pv t L. destruct t as [|c t].
  - right. split; [|intros b r E; destruct b; discriminate E]. destruct n; reflexivity.
  - destruct n as [|n]; [cbn in L; lia|]. cbn [iter flat_map]. destruct (N.eqb_spec c q) as [->|Nq].
    + left. exists [], t. unfold ch at 1. cbn [matches snd]. unfold is. rewrite N.eqb_refl. cbn [app]. eexists. split; [reflexivity|]. split; [constructor|reflexivity].
    + replace (matches (ch q) (pv, c :: t)) with (@nil pos) by (cbn; unfold is; destruct (N.eqb_spec c q); [contradiction|reflexivity]).
      cbn [app]. destruct (N.eqb_spec c 92) as [->|N92].
      * destruct t as [|d t].
        { right. split; [reflexivity|]. intros b r E B. destruct b as [|e [|e2 b]]; cbn in E; try congruence. }
        destruct (N.eqb_spec d 10) as [->|N10].
        { right. split; [reflexivity|]. intros b r E B. inversion B as [|e x X1 X2 X3 X4 Eb|e x He Bx Eb]; subst; cbn [app] in E; try congruence. }
        assert (Es : inner_step (pv, 92 :: d :: t) = [(Some d, t)]).
        { unfold inner_step. cbn. unfold dot_c. destruct (N.eqb_spec d 10); [contradiction|reflexivity]. }
        rewrite Es. cbn [filter snd length]. replace (length t <? S (S (length t)))%nat with true by (symmetry; apply Nat.ltb_lt; lia). cbn [flat_map]. rewrite app_nil_r.
        destruct (IH n (Nat.lt_succ_diag_r n) (Some d) t) as [(b & t' & ps & -> & B & H)|[H K]]; [cbn in L; lia| |].
        -- left. exists (92 :: d :: b), t', ps. split; [reflexivity|]. split; [constructor; assumption|exact H].
        -- right. split; [exact H|]. intros b r E B. inversion B as [|e x X1 X2 X3 X4 Eb|e x He Bx Eb]; subst; cbn [app] in E; [congruence|congruence|]. injection E as <- E. exact (K x r E Bx).
      * destruct (N.eqb_spec c 10) as [->|N10].
        { right. split; [reflexivity|]. intros b r E B. inversion B as [|e x X1 X2 X3 X4 Eb|e x He Bx Eb]; subst; cbn [app] in E; congruence. }
        assert (Es : inner_step (pv, c :: t) = [(Some c, t)]).
        { unfold inner_step. cbn. unfold is. destruct (N.eqb_spec c 92); [contradiction|]. destruct (N.eqb_spec c 10); [contradiction|reflexivity]. }
        rewrite Es. cbn [filter snd length]. replace (length t <? S (length t))%nat with true by (symmetry; apply Nat.ltb_lt; lia). cbn [flat_map]. rewrite app_nil_r.
        destruct (IH n (Nat.lt_succ_diag_r n) (Some c) t) as [(b & t' & ps & -> & B & H)|[H K]]; [cbn in L; lia| |].
        -- left. exists (c :: b), t', ps. split; [reflexivity|]. split; [constructor; assumption|exact H].
        -- right. split; [exact H|]. intros b r E B. inversion B as [|e x X1 _ _ Bx Eb|e x He Bx Eb]; subst; cbn [app] in E; [congruence| |congruence]. injection E as <- E. exact (K x r E Bx).
Qed.
Lemma body_unique q b b' r r' : q <> 92 -> body q b -> body q b' -> b ++ q :: r = b' ++ q :: r' -> b = b'.
Proof.
  intros Q B. revert b'. induction B as [|c x N1 N2 N3 B IH|c x N1 B IH]; intros b' B' E.
  - destruct B' as [|c' x' M1 M2 M3 B'|c' x' M1 B']; [reflexivity| |]; cbn [app] in E; congruence.
  - destruct B' as [|c' x' M1 M2 M3 B'|c' x' M1 B']; cbn [app] in E; [congruence| |congruence]. injection E as <- E. f_equal. exact (IH _ B' E).
  - destruct B' as [|c' x' M1 M2 M3 B'|c' x' M1 B']; cbn [app] in E; [congruence|congruence|]. injection E as <- E. do 2 f_equal. exact (IH _ B' E).
Qed.
Lemma quotes_not q : In q quotes -> q <> 92 /\ q <> 10.
Proof. intros [<-|[<-|[]]]; split; discriminate. Qed.
Lemma quoted_cases pv q t : In q quotes ->
  (exists b t', best r_quoted pv (q :: t) (q :: b ++ [q]) t' /\ body q b) \/
  (matches r_quoted (pv, q :: t) = [] /\ forall b r, t = b ++ q :: r -> ~ body q b).
Proof.
  intros Q. destruct (quotes_not q Q) as [Q1 Q2].
  assert (E : matches r_quoted (pv, q :: t) = flat_map (matches (ch q)) (iter false inner_step (length t) (Some q, t))).
  { destruct Q as [<-|[<-|[]]]; unfold r_quoted.
    - change (matches (Seq (ch 34) (Seq r_inner (ch 34))) (pv, 34 :: t) ++ matches (Seq (ch 39) (Seq r_inner (ch 39))) (pv, 34 :: t) = flat_map (matches (ch 34)) (iter false inner_step (length t) (Some 34, t))).
      rewrite (none_seq (ch 39)) by reflexivity. rewrite app_nil_r. change (matches (Seq (ch 34) (Seq r_inner (ch 34))) (pv, 34 :: t)) with (flat_map (matches (Seq r_inner (ch 34))) [(Some 34, t)]).
      cbn [flat_map]. rewrite app_nil_r. reflexivity.
    - change (matches (Seq (ch 34) (Seq r_inner (ch 34))) (pv, 39 :: t) ++ matches (Seq (ch 39) (Seq r_inner (ch 39))) (pv, 39 :: t) = flat_map (matches (ch 39)) (iter false inner_step (length t) (Some 39, t))).
      rewrite (none_seq (ch 34)) by reflexivity. cbn [app]. change (matches (Seq (ch 39) (Seq r_inner (ch 39))) (pv, 39 :: t)) with (flat_map (matches (Seq r_inner (ch 39))) [(Some 39, t)]).
      cbn [flat_map]. rewrite app_nil_r. reflexivity. }
  destruct (scan_body q Q1 Q2 (length t) (Some q) t (le_n _)) as [(b & t' & ps & -> & B & H)|[H K]].
  - left. exists b, t'. split; [|exact B]. split; [cbn [app]; rewrite <- app_assoc; reflexivity|]. exists ps. rewrite E, H. f_equal. f_equal.
    unfold last_of. cbn [rev]. rewrite rev_app_distr. reflexivity.
  - right. split; [rewrite E; exact H|exact K].
Qed.

(** *** Numbers *)
Lemma digits_run c t : digit c -> digits (c :: run digit_c t).
Proof. intros H. constructor; [exact H|]. apply (Forall_iff _ _ _ digit_iff), run_all. Qed.
Lemma digits_all x : digits x -> Forall (fun c => digit_c c = true) x.
Proof. intros [c x' H F]. apply (Forall_iff _ _ _ digit_iff). constructor; assumption. Qed.
Lemma Forall_digits x : Forall digit x -> Forall (fun c => digit_c c = true) x.
Proof. apply (Forall_iff _ _ _ digit_iff). Qed.
Lemma exponent_head e : exponent e -> e = [] \/ exists c x, e = c :: x /\ (c = 101 \/ c = 69).
Proof. intros [|c sg x [<-|[<-|[]]] _ _]; eauto 6. Qed.
Lemma none_exp pv t : ~ (exists e r, t = e ++ r /\ exponent e /\ e <> []) -> matches r_exp (pv, t) = [].
Proof.
  intros H. unfold r_exp. destruct t as [|c t]; [reflexivity|]. destruct ((c =? 101) || (c =? 69)) eqn:C; [|apply none_seq, none_chr, C].
  change (matches (Seq (Chr (fun k => (k =? 101) || (k =? 69))) (Seq (Opt (Chr (fun k => (k =? 43) || (k =? 45)))) (Plus (Chr digit_c)))) (pv, c :: t))
    with (flat_map (matches (Seq (Opt (Chr (fun k => (k =? 43) || (k =? 45)))) (Plus (Chr digit_c)))) (if (c =? 101) || (c =? 69) then [(Some c, t)] else [])).
  rewrite C. cbn [flat_map]. rewrite app_nil_r.
  assert (Hc : In c [101; 69]) by (apply orb_true_iff in C as [C|C]; apply N.eqb_eq in C as ->; cbn; auto).
  assert (ND : forall sg d u, In sg [[]; [43]; [45]] -> t = sg ++ d :: u -> digit_c d = false).
  { intros sg d u Hs E. destruct (digit_c d) eqn:D; [|reflexivity]. exfalso. apply H. exists (c :: sg ++ [d]), u. split; [|split; [|discriminate]].
    - rewrite E. cbn [app]. rewrite <- app_assoc. reflexivity.
    - constructor; [exact Hc|exact Hs|constructor; [apply digit_iff, D|constructor]]. }
  apply none_seq2. intros [pv' t'] I. apply none_seq.
  unfold Opt in I. change (matches (Alt (Chr (fun k => (k =? 43) || (k =? 45))) Eps) (Some c, t)) with
    (match t with c0 :: t0 => if (c0 =? 43) || (c0 =? 45) then [(Some c0, t0)] else [] | [] => [] end ++ [(Some c, t)]) in I.
  apply in_app_or in I as [I|[[= <- <-]|[]]].
  - destruct t as [|c0 t0]; [destruct I|]. destruct ((c0 =? 43) || (c0 =? 45)) eqn:C0; [|destruct I]. destruct I as [[= <- <-]|[]].
    destruct t0 as [|d u]; [reflexivity|]. apply none_chr. apply (ND [c0] d u); [|reflexivity]. apply orb_true_iff in C0 as [C0|C0]; apply N.eqb_eq in C0 as ->; cbn; auto.
  - destruct t as [|d u]; [reflexivity|]. apply none_chr. apply (ND [] d u); [cbn; auto|reflexivity].
Qed.
Lemma best_exp pv t : exists e t', best (Opt r_exp) pv t e t' /\ exponent e /\ forall y r, t = y ++ r -> exponent y -> (length y <= length e)%nat.
Proof.
  assert (D : (exists c sg d u, t = c :: sg ++ d :: u /\ In c [101; 69] /\ In sg [[]; [43]; [45]] /\ digit_c d = true) \/ ~ (exists e r, t = e ++ r /\ exponent e /\ e <> [])).
  { destruct t as [|c t]; [right; intros (e & r & E & _ & N); destruct e; [congruence|discriminate E]|].
    destruct ((c =? 101) || (c =? 69)) eqn:C.
    2:{ right. intros (e & r & E & X & N). destruct (exponent_head _ X) as [->|(d & x & -> & Hd)]; [congruence|]. injection E as <- _. destruct Hd as [->| ->]; discriminate C. }
    assert (Hc : In c [101; 69]) by (apply orb_true_iff in C as [C|C]; apply N.eqb_eq in C as ->; cbn; auto).
    destruct t as [|d u].
    { right. intros (e & r & E & X & N). destruct X as [|c' sg x _ _ Dx]; [congruence|]. cbn in E. injection E as _ E. destruct Dx. destruct sg; discriminate E. }
    destruct (digit_c d) eqn:D; [left; exists c, [], d, u; cbn; auto 7|].
    destruct ((d =? 43) || (d =? 45)) eqn:G.
    2:{ right. intros (e & r & E & X & N). destruct X as [|c' sg x _ Hs Dx]; [congruence|]. cbn in E. injection E as _ E. destruct Dx as [d' x Hd _].
        destruct Hs as [<-|[<-|[<-|[]]]]; cbn [app] in E; injection E as -> _; [apply digit_iff in Hd; congruence|discriminate G|discriminate G]. }
    assert (Hs : In [d] [[]; [43]; [45]]) by (apply orb_true_iff in G as [G|G]; apply N.eqb_eq in G as ->; cbn; auto).
    destruct u as [|d2 u].
    { right. intros (e & r & E & X & N). destruct X as [|c' sg x _ Hs' Dx]; [congruence|]. cbn in E. injection E as _ E. destruct Dx as [d' x Hd _].
      destruct Hs' as [<-|[<-|[<-|[]]]]; cbn [app] in E; [|discriminate E|discriminate E]. injection E as -> _. apply digit_iff in Hd. congruence. }
    destruct (digit_c d2) eqn:D2; [left; exists c, [d], d2, u; auto|].
    right. intros (e & r & E & X & N). destruct X as [|c' sg x _ Hs' Dx]; [congruence|]. cbn in E. injection E as _ E. destruct Dx as [d' x Hd _]. apply digit_iff in Hd.
    destruct Hs' as [<-|[<-|[<-|[]]]]; cbn [app] in E; congruence. }
  destruct D as [(c & sg & d & u & -> & Hc & Hs & Hd)|Nn].
  - exists ((c :: sg) ++ d :: run digit_c u), (rest digit_c u). split; [|split].
    + apply best_left. unfold r_exp. refine (best_seq _ _ _ _ [c] (sg ++ d :: u) (sg ++ d :: run digit_c u) _ _ _).
      * apply best_chr. destruct Hc as [<-|[<-|[]]]; reflexivity.
      * apply (best_seq _ _ _ _ sg (d :: u)); [|apply best_plus, Hd]. destruct Hs as [<-|[<-|[<-|[]]]].
        -- cbn [app]. apply best_right; [|apply best_eps]. apply none_chr. apply digit_iff in Hd. unfold digit in Hd. apply orb_false_iff. split; apply N.eqb_neq; lia.
        -- apply best_left, best_chr. reflexivity.
        -- apply best_left, best_chr. reflexivity.
    + apply Exp; [exact Hc|exact Hs|apply digits_run, digit_iff, Hd].
    + intros y r E Y. destruct Y as [|c' sg' x' _ Hs' Dx]; [cbn; lia|]. cbn [app] in E. injection E as _ E. rewrite <- app_assoc in E.
      assert (sg' = sg /\ d :: u = x' ++ r) as [-> Ex].
      { destruct Dx as [d' x' Hd' _]. apply digit_iff in Hd. unfold digit in *. destruct Hs as [<-|[<-|[<-|[]]]], Hs' as [<-|[<-|[<-|[]]]]; cbn [app] in E; try (split; [reflexivity|cbn [app]; congruence]);
          apply (f_equal (hd 0)) in E; cbn [hd] in E; exfalso; lia. }
      cbn [length app]. rewrite !app_length. cbn [length]. pose proof (run_longest digit_c (d :: u) x' r Ex (digits_all _ Dx)) as L. cbn [run] in L. rewrite Hd in L. cbn [length] in L. lia.
  - exists [], t. split; [|split; [constructor|]].
    + apply best_right; [apply none_exp, Nn|apply best_eps].
    + intros y r E Y. destruct y; [cbn; lia|]. exfalso. apply Nn. exists (n :: y), r. split; [exact E|split; [exact Y|discriminate]].
Qed.

Definition r_frac : re := Opt (Seq (ch 46) (Many true (Chr digit_c))).
Definition r_dec : re := Seq (Plus (Chr digit_c)) (Seq r_frac (Opt r_exp)).
Lemma best_dec pv c t : digit c -> exists x t', best r_dec pv (c :: t) x t' /\ numeral x /\
  (forall y e r, c :: t = (y ++ e) ++ r -> digits y -> exponent e -> (length (y ++ e) <= length x)%nat) /\
  (forall y z e r, c :: t = (y ++ 46 :: z ++ e) ++ r -> digits y -> Forall digit z -> exponent e -> (length (y ++ 46%N :: z ++ e) <= length x)%nat).
Proof.
  intros Hc. pose proof (proj2 (digit_iff c) Hc) as Hcb. remember (rest digit_c t) as t1 eqn:Et1.
  pose proof (rest_head digit_c t) as Hh. rewrite <- Et1 in Hh.
  assert (Dr := digits_run c t Hc).
  assert (Hd : (exists t2, t1 = 46 :: t2) \/ (forall t2, t1 <> 46 :: t2)).
  { destruct t1 as [|k t2]; [right; discriminate|]. destruct (N.eq_dec k 46) as [->|N]; [left; eauto|right; congruence]. }
  (* the digits of a candidate: all of them, or it stops there *)
  assert (K : forall y w, c :: t = y ++ w -> digits y -> (y = c :: run digit_c t /\ w = t1) \/ (exists k w', w = k :: w' /\ digit k /\ (length y <= length (run digit_c t))%nat)).
  { intros y w E D. destruct (run_prefix digit_c (c :: t) y w E (digits_all _ D)) as [[-> ->]|(k & w' & -> & Hk & L)].
    - left. cbn [run rest]. rewrite Hcb. split; [reflexivity|symmetry; exact Et1].
    - right. exists k, w'. split; [reflexivity|]. split; [apply digit_iff, Hk|]. cbn [run] in L. rewrite Hcb in L. cbn [length] in L. lia. }
  destruct Hd as [[t2 ->]|Nd].
  - destruct (best_exp (last_of (last_of pv (c :: run digit_c t)) (46 :: run digit_c t2)) (rest digit_c t2)) as (e & t' & Be & He & Le).
    pose proof (rest_head digit_c t2) as Hh2.
    exists ((c :: run digit_c t) ++ (46 :: run digit_c t2) ++ e), t'. split; [|split; [|split]].
    + apply (best_seq _ _ _ _ _ (46 :: t2)); [rewrite Et1; apply best_plus, Hcb|]. apply (best_seq _ _ _ _ _ (rest digit_c t2)); [|exact Be].
      apply best_left. apply (best_seq _ _ _ _ [46] t2 (run digit_c t2)); [apply best_chr; reflexivity|apply best_many].
    + cbn [app]. apply (Point (c :: run digit_c t) (run digit_c t2) e Dr); [|exact He]. apply (Forall_iff _ _ _ digit_iff), run_all.
    + intros y e' r E Dy He'. rewrite <- app_assoc in E. destruct (K _ _ E Dy) as [[-> E2]|(k & w' & E2 & Hk & L)];
        (destruct (exponent_head _ He') as [->|(q & x & -> & Hq)]; [rewrite app_nil_r, app_length; cbn [length]; lia|]); cbn [app] in E2; exfalso.
      * injection E2 as -> _. lia.
      * injection E2 as -> _. unfold digit in Hk. lia.
    + intros y z e' r E Dy Fz He'. rewrite <- app_assoc in E. destruct (K _ _ E Dy) as [[-> E2]|(k & w' & E2 & Hk & L)]; cbn [app] in E2.
      2:{ exfalso. injection E2 as <- _. unfold digit in Hk. lia. }
      injection E2 as E2. symmetry in E2. rewrite <- app_assoc in E2. rewrite !app_length. cbn [length app]. rewrite !app_length.
      destruct (run_prefix digit_c t2 z (e' ++ r) E2 (Forall_digits _ Fz)) as [[-> E3]|(k & w' & E3 & Hk & L)].
      * symmetry in E3. pose proof (Le _ _ E3 He'). lia.
      * destruct (exponent_head _ He') as [->|(q & x & -> & Hq)]; [cbn [length]; lia|]. exfalso. cbn [app] in E3. injection E3 as -> _. apply digit_iff in Hk. unfold digit in Hk. lia.
  - destruct (best_exp (last_of (last_of pv (c :: run digit_c t)) []) t1) as (e & t' & Be & He & Le).
    exists ((c :: run digit_c t) ++ [] ++ e), t'. split; [|split; [|split]].
    + apply (best_seq _ _ _ _ _ t1); [rewrite Et1; apply best_plus, Hcb|]. apply (best_seq _ _ _ _ [] t1); [|exact Be].
      apply best_right; [|apply best_eps]. apply none_seq. destruct t1 as [|k t2]; [reflexivity|]. apply none_chr. unfold is. apply N.eqb_neq. intros ->. exact (Nd t2 eq_refl).
    + cbn [app]. apply (Whole (c :: run digit_c t) e Dr He).
    + intros y e' r E Dy He'. rewrite <- app_assoc in E. rewrite !app_length. cbn [length app]. destruct (K _ _ E Dy) as [[-> E2]|(k & w' & E2 & Hk & L)].
      * symmetry in E2. pose proof (Le _ _ E2 He'). cbn [length]. lia.
      * destruct (exponent_head _ He') as [->|(q & x & -> & Hq)]; [cbn [length]; lia|]. exfalso. cbn [app] in E2. injection E2 as -> _. unfold digit in Hk. lia.
    + intros y z e' r E Dy Fz He'. exfalso. rewrite <- app_assoc in E. destruct (K _ _ E Dy) as [[-> E2]|(k & w' & E2 & Hk & L)]; cbn [app] in E2.
      * exact (Nd _ (eq_sym E2)).
      * injection E2 as <- _. unfold digit in Hk. lia.
Qed.

Definition bases : list (N * (N -> bool)) := [(98, fun c => (c =? 48) || (c =? 49)); (111, in_range 48 55); (120, hex_c)].
Definition r_base : re :=
  Seq (ch 48) (Alt (Seq (ch 98) (Plus (Chr (fun c => (c =? 48) || (c =? 49))))) (Alt (Seq (ch 111) (Plus (Chr (in_range 48 55)))) (Seq (ch 120) (Plus (Chr hex_c))))).
Lemma based_numeral k f d x : In (k, f) bases -> numeral (48 :: k :: d :: x) <-> Forall (fun c => f c = true) (d :: x).
Proof.
  intros B. split.
  - intros H. inversion H as [c y F E|c y F E|c y F E|y e D He E|y z e D Fz He E|]; subst.
    + destruct B as [[= <-]|[B|[B|[]]]]; [|discriminate B|discriminate B]. eapply Forall_impl; [|exact F]. intros a [->| ->]; reflexivity.
    + destruct B as [B|[[= <-]|[B|[]]]]; [discriminate B| |discriminate B]. eapply Forall_impl; [|exact F]. intros a Ha. apply in_range_iff, Ha.
    + destruct B as [B|[B|[[= <-]|[]]]]; [discriminate B|discriminate B|]. eapply Forall_impl; [|exact F]. intros a Ha. apply hex_iff, Ha.
    + exfalso. assert (Nk : ~ digit k /\ k <> 101 /\ k <> 69) by (unfold digit; destruct B as [[= <- _]|[[= <- _]|[[= <- _]|[]]]]; lia). destruct Nk as (N1 & N2 & N3).
      destruct D as [c y Hc F]. cbn [app] in E. injection E as -> E. destruct y as [|c2 y]; cbn [app] in E.
      * destruct (exponent_head _ He) as [->|(q & w & -> & Hq)]; [discriminate E|]. injection E as -> _. destruct Hq; contradiction.
      * injection E as -> _. inversion F; subst. contradiction.
    + exfalso. assert (Nk : ~ digit k /\ k <> 46) by (unfold digit; destruct B as [[= <- _]|[[= <- _]|[[= <- _]|[]]]]; lia). destruct Nk as (N1 & N2).
      destruct D as [c y Hc F]. cbn [app] in E. injection E as -> E. destruct y as [|c2 y]; cbn [app] in E; injection E as E _; [congruence|].
      inversion F; subst. contradiction.
  - intros F. destruct B as [[= <- <-]|[[= <- <-]|[[= <- <-]|[]]]]; constructor; (eapply Forall_impl; [|exact F]); cbn beta; intros a Ha.
    + apply orb_true_iff in Ha as [Ha|Ha]; apply N.eqb_eq in Ha; auto.
    + apply in_range_iff, Ha.
    + apply hex_iff, Ha.
Qed.
Lemma numeral_cases y : numeral y -> (exists k f d x, In (k, f) bases /\ y = 48 :: k :: d :: x /\ Forall (fun c => f c = true) (d :: x)) \/
  (exists x e, y = x ++ e /\ digits x /\ exponent e) \/ (exists x z e, y = x ++ 46 :: z ++ e /\ digits x /\ Forall digit z /\ exponent e) \/
  (exists z e, y = 46 :: z ++ e /\ digits z /\ exponent e).
Proof.
  intros H. destruct H as [c y F|c y F|c y F|x e D He|x z e D Fz He|z e D He]; [| | |right; left; eauto 6|right; right; left; eauto 8|right; right; right; eauto 6]; left.
  - exists 98, (fun c => (c =? 48) || (c =? 49)), c, y. split; [cbn; auto|]. split; [reflexivity|]. eapply Forall_impl; [|exact F]. intros a [->| ->]; reflexivity.
  - exists 111, (in_range 48 55), c, y. split; [cbn; auto|]. split; [reflexivity|]. eapply Forall_impl; [|exact F]. intros a Ha. apply in_range_iff, Ha.
  - exists 120, hex_c, c, y. split; [cbn; auto|]. split; [reflexivity|]. eapply Forall_impl; [|exact F]. intros a Ha. apply hex_iff, Ha.
Qed.
Lemma best_base pv k f d u : In (k, f) bases -> f d = true -> best r_base pv (48 :: k :: d :: u) ([48] ++ [k] ++ d :: run f u) (rest f u).
Proof.
  intros B Hd. apply (best_seq _ _ _ _ [48] (k :: d :: u)); [apply best_chr; reflexivity|].
  destruct B as [[= <- <-]|[[= <- <-]|[[= <- <-]|[]]]].
  - apply best_left. apply (best_seq _ _ _ _ [98] (d :: u)); [apply best_chr; reflexivity|apply best_plus, Hd].
  - apply best_right; [apply none_seq, none_chr; reflexivity|]. apply best_left. apply (best_seq _ _ _ _ [111] (d :: u)); [apply best_chr; reflexivity|apply best_plus, Hd].
  - apply best_right; [apply none_seq, none_chr; reflexivity|]. apply best_right; [apply none_seq, none_chr; reflexivity|].
    apply (best_seq _ _ _ _ [120] (d :: u)); [apply best_chr; reflexivity|apply best_plus, Hd].
Qed.
Lemma none_based pv k f t : (forall d u, t = k :: d :: u -> f d = false) -> matches (Seq (ch k) (Plus (Chr f))) (pv, t) = [].
Proof.
  intros H. apply none_seq2. intros [pv' t'] I. destruct t as [|c t]; [destruct I|]. cbn in I. unfold is in I. destruct (N.eqb_spec c k) as [->|]; [|destruct I].
  destruct I as [[= <- <-]|[]]. apply none_seq. destruct t as [|d u]; [reflexivity|]. apply none_chr. exact (H d u eq_refl).
Qed.
Lemma none_base pv t : (forall k f d u, In (k, f) bases -> t = 48 :: k :: d :: u -> f d = false) -> matches r_base (pv, t) = [].
Proof.
  intros H. apply none_seq2. intros [pv' t'] I. destruct t as [|c t]; [destruct I|]. cbn in I. unfold is in I. destruct (N.eqb_spec c 48) as [->|]; [|destruct I].
  destruct I as [[= <- <-]|[]]. repeat apply none_alt; apply none_based; intros d u ->; [exact (H 98 _ d u (or_introl eq_refl) eq_refl)|exact (H 111 _ d u (or_intror (or_introl eq_refl)) eq_refl)|exact (H 120 _ d u (or_intror (or_intror (or_introl eq_refl))) eq_refl)].
Qed.
Lemma best_number pv c t : digit c -> exists x t', best r_float pv (c :: t) x t' /\ numeral x /\
  forall y r, c :: t = y ++ r -> numeral y -> (length y <= length x)%nat.
Proof.
  intros Hc.
  assert (D : (exists k f d u, In (k, f) bases /\ c :: t = 48 :: k :: d :: u /\ f d = true) \/ (forall k f d u, In (k, f) bases -> c :: t = 48 :: k :: d :: u -> f d = false)).
  { destruct (N.eq_dec c 48) as [->|N]; [|right; intros; congruence]. destruct t as [|k [|d u]]; [right; intros; discriminate|right; intros; discriminate|].
    assert (X : (exists f, In (k, f) bases /\ f d = true) \/ (forall f, In (k, f) bases -> f d = false)).
    { destruct (N.eq_dec k 98) as [->|N1]; [|destruct (N.eq_dec k 111) as [->|N2]; [|destruct (N.eq_dec k 120) as [->|N3]]].
      - destruct ((d =? 48) || (d =? 49)) eqn:Q; [left; eexists; split; [left; reflexivity|exact Q]|right]. intros f [[= <-]|[I|[I|[]]]]; [exact Q|discriminate I|discriminate I].
      - destruct (in_range 48 55 d) eqn:Q; [left; eexists; split; [right; left; reflexivity|exact Q]|right]. intros f [I|[[= <-]|[I|[]]]]; [discriminate I|exact Q|discriminate I].
      - destruct (hex_c d) eqn:Q; [left; eexists; split; [right; right; left; reflexivity|exact Q]|right]. intros f [I|[I|[[= <-]|[]]]]; [discriminate I|discriminate I|exact Q].
      - right. intros f [I|[I|[I|[]]]]; injection I as I _; congruence. }
    destruct X as [(f & I & Q)|X]; [left; exists k, f, d, u; auto|right]. intros k' f d' u' I [= <- <- <-]. exact (X f I). }
  destruct D as [(k & f & d & u & B & E0 & Hd)|Nb].
  - rewrite E0. exists ([48] ++ [k] ++ d :: run f u), (rest f u). split; [apply best_left, best_base; assumption|]. split.
    + cbn [app]. apply (based_numeral k f d (run f u) B). constructor; [exact Hd|apply run_all].
    + intros y r E Ny. destruct (numeral_cases y Ny) as [(k' & f' & d' & x & B' & -> & F)|[(x & e & -> & Dx & He)|[(x & z & e & -> & Dx & Fz & He)|(z & e & -> & Dz & He)]]].
      * cbn [app] in E. injection E as <- <- E. assert (f' = f) as -> by (destruct B as [[= <- <-]|[[= <- <-]|[[= <- <-]|[]]]]; destruct B' as [[= <-]|[[= <-]|[[= <-]|[]]]]; reflexivity).
        cbn [length app]. do 3 apply le_n_S. exact (run_longest f u x r E (Forall_inv_tail F)).
      * assert (L : (length (x ++ e) <= 1)%nat); [|cbn [length app]; lia].
        assert (Nk : ~ digit k /\ k <> 101 /\ k <> 69) by (unfold digit; destruct B as [[= <- _]|[[= <- _]|[[= <- _]|[]]]]; lia). destruct Nk as (N1 & N2 & N3).
        destruct Dx as [c0 x Hc0 Fx]. cbn [app] in E. injection E as <- E. destruct x as [|c2 x]; cbn [app] in E.
        -- destruct (exponent_head _ He) as [->|(q & w & -> & Hq)]; [cbn; lia|]. cbn [app] in E. injection E as <- _. destruct Hq; contradiction.
        -- exfalso. injection E as <- _. inversion Fx; subst. contradiction.
      * exfalso. assert (Nk : ~ digit k /\ k <> 46) by (unfold digit; destruct B as [[= <- _]|[[= <- _]|[[= <- _]|[]]]]; lia). destruct Nk as (N1 & N2).
        destruct Dx as [c0 x Hc0 Fx]. cbn [app] in E. injection E as <- E. destruct x as [|c2 x]; cbn [app] in E; injection E as E _; [congruence|]. subst. inversion Fx; subst. contradiction.
      * exfalso. discriminate E.
  - destruct (best_dec pv c t Hc) as (x & t' & Bx & Nx & L1 & L2). exists x, t'. split; [|split; [exact Nx|]].
    + apply best_right; [apply none_base, Nb|]. apply best_left. exact Bx.
    + intros y r E Ny. destruct (numeral_cases y Ny) as [(k' & f' & d' & z & B' & -> & F)|[(z & e & -> & Dx & He)|[(z & w & e & -> & Dx & Fz & He)|(z & e & -> & Dz & He)]]].
      * exfalso. cbn [app] in E. pose proof (Nb k' f' d' _ B' E) as Q. inversion F; subst. congruence.
      * exact (L1 _ _ _ E Dx He).
      * exact (L2 _ _ _ _ E Dx Fz He).
      * exfalso. injection E as -> _. unfold digit in Hc. lia.
Qed.
(** a number that starts with its point *)
Lemma best_point pv d t : digit d -> exists x t', best r_float pv (46 :: d :: t) x t' /\ numeral x /\
  forall y r, 46 :: d :: t = y ++ r -> numeral y -> (length y <= length x)%nat.
Proof.
  intros Hd. pose proof (proj2 (digit_iff d) Hd) as Hdb.
  destruct (best_exp (last_of (last_of pv [46]) (d :: run digit_c t)) (rest digit_c t)) as (e & t' & Be & He & Le).
  exists ([46] ++ (d :: run digit_c t) ++ e), t'. split; [|split].
  - apply best_right; [apply none_seq, none_chr; reflexivity|]. apply best_right; [apply none_seq, none_seq, none_chr; reflexivity|].
    apply (best_seq _ _ _ _ [46] (d :: t)); [apply best_chr; reflexivity|]. apply (best_seq _ _ _ _ _ (rest digit_c t)); [apply best_plus, Hdb|exact Be].
  - apply (Fraction (d :: run digit_c t) e); [apply digits_run, Hd|exact He].
  - intros y r E Ny. destruct (numeral_cases y Ny) as [(k' & f' & d' & z & B' & -> & F)|[(z & e' & -> & Dx & _)|[(z & w & e' & -> & Dx & _)|(z & e' & -> & Dz & He')]]].
    + discriminate E.
    + exfalso. destruct Dx as [c0 x H0 _]. cbn [app] in E. injection E as E _. unfold digit in H0. lia.
    + exfalso. destruct Dx as [c0 x H0 _]. cbn [app] in E. injection E as E _. unfold digit in H0. lia.
    + cbn [app] in E. injection E as E. rewrite <- app_assoc in E. cbn [length app]. rewrite !app_length.
      destruct (run_prefix digit_c (d :: t) z (e' ++ r) E (digits_all _ Dz)) as [[-> E3]|(k & w' & E3 & Hk & L)]; cbn [run rest] in *; rewrite Hdb in *.
      * symmetry in E3. pose proof (Le _ _ E3 He'). cbn [length]. lia.
      * cbn [length] in L. destruct (exponent_head _ He') as [->|(q & x & -> & Hq)]; [cbn [length]; lia|]. exfalso. cbn [app] in E3. injection E3 as -> _. apply digit_iff in Hk. unfold digit in Hk. lia.
Qed.
Lemma none_point pv d t : ~ digit d -> matches r_float (pv, 46 :: d :: t) = [].
Proof.
  intros N. apply none_alt; [apply none_seq, none_chr; reflexivity|]. apply none_alt; [apply none_seq, none_seq, none_chr; reflexivity|].
  apply none_seq2. intros [pv' t'] [[= <- <-]|[]]. apply none_seq, none_seq, none_chr. destruct (digit_c d) eqn:E; [|reflexivity]. apply digit_iff in E. contradiction.
Qed.
