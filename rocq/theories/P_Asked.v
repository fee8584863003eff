(** * Theorems about how often the resolver is asked (C78) *)
From Coq Require Import String Lia.
From Verif Require Import Base Dec Value DType Types Ops EqFacts ParseUtil Attr Prog Ast Eval Build Engine ProgFacts StateFacts Post Demo.
Open Scope list_scope.
Open Scope nat_scope.

(** ** Specification *)
Section C78spec.
Variable x : str.

(** Where the text of a rule names [x], as a plain symbol or as an attribute.  [b]: inside a comprehension over the variable [x], where
    the name stands for the element.  Of the two branches of a conditional only one is evaluated.  Nothing is counted for $builtins. *)
Definition once (b : bool) (n : str) : nat := if b then 0 else if str_eqb x n then 1 else 0.
Definition inner (b : bool) (v : str) : bool := b || str_eqb x v.
Definition total {A} (f : A -> nat) (l : list A) : nat := fold_right (fun a k => f a + k) 0 l.
Definition perhaps {A} (f : A -> nat) (o : option A) : nat := match o with Some a => f a | None => 0 end.
Fixpoint mentions (b : bool) (n : dnode) : nat :=
  match n with
  | DLit _ | DFloat _ | DDatetime _ | DTimedelta _ => 0
  | DArr l | DSet l => total (mentions b) l
  | DMap l => total (fun kv => mentions b (fst kv) + mentions b (snd kv)) l
  | DBin _ a c => mentions b a + mentions b c
  | DComp r v i c => mentions b i + (mentions (inner b v) r + perhaps (mentions (inner b v)) c)
  | DIn a c | DItem a c _ => mentions b a + mentions b c
  | DAttr o n _ => mentions b o + once b n
  | DSlice a c d _ => mentions b a + (perhaps (mentions b) c + perhaps (mentions b) d)
  | DSym n bi => if bi then 0 else once b n
  | DCall f l => mentions b f + total (mentions b) l
  | DTern c a d => mentions b c + Nat.max (mentions b a) (mentions b d)
  | DUn _ a => mentions b a
  end.
(** the mentions of [x] that are repeated for every element of a comprehension *)
Fixpoint repeated (b : bool) (n : dnode) : nat :=
  match n with
  | DLit _ | DFloat _ | DDatetime _ | DTimedelta _ | DSym _ _ => 0
  | DArr l | DSet l => total (repeated b) l
  | DMap l => total (fun kv => repeated b (fst kv) + repeated b (snd kv)) l
  | DBin _ a c => repeated b a + repeated b c
  | DComp r v i c => repeated b i + (mentions (inner b v) r + perhaps (mentions (inner b v)) c)
  | DIn a c | DItem a c _ => repeated b a + repeated b c
  | DAttr o _ _ => repeated b o
  | DSlice a c d _ => repeated b a + (perhaps (repeated b) c + perhaps (repeated b) d)
  | DCall f l => repeated b f + total (repeated b) l
  | DTern c a d => repeated b c + (repeated b a + repeated b d)
  | DUn _ a => repeated b a
  end.

(** how often the resolver has been asked for [x] *)
Definition is_ask (e : event) : bool := match e with EvResolve _ n _ => str_eqb x n | _ => false end.
Definition asks (q : st) : nat := List.length (filter is_ask (s_log q)).

(** ** Proof *)
Fixpoint occ (b : bool) (e : expr) : nat :=
  match e with
  | ELit _ | EFun _ _ => 0
  | EArr l | ESet l => total (occ b) l
  | EMap l => total (fun kv => occ b (fst kv) + occ b (snd kv)) l
  | EBin _ a c => occ b a + occ b c
  | EComp r v i c => occ b i + (occ (inner b v) r + perhaps (occ (inner b v)) c)
  | EIn a c | EItem a c _ => occ b a + occ b c
  | EAttr o n _ => occ b o + once b n
  | ESlice a c d _ => occ b a + (occ b c + occ b d)
  | ESym n bi _ => if bi then 0 else once b n
  | ECall f l => occ b f + total (occ b) l
  | ETern c a d => occ b c + Nat.max (occ b a) (occ b d)
  | EUn _ a => occ b a
  end.
Fixpoint rep (b : bool) (e : expr) : nat :=
  match e with
  | ELit _ | EFun _ _ | ESym _ _ _ => 0
  | EArr l | ESet l => total (rep b) l
  | EMap l => total (fun kv => rep b (fst kv) + rep b (snd kv)) l
  | EBin _ a c => rep b a + rep b c
  | EComp r v i c => rep b i + (occ (inner b v) r + perhaps (occ (inner b v)) c)
  | EIn a c | EItem a c _ => rep b a + rep b c
  | EAttr o _ _ => rep b o
  | ESlice a c d _ => rep b a + (rep b c + rep b d)
  | ECall f l => rep b f + total (rep b) l
  | ETern c a d => rep b c + (rep b a + rep b d)
  | EUn _ a => rep b a
  end.

Definition taken (l : list asg) : bool := match find_scope l x with Some _ => true | None => false end.
Definition lim (b : bool) (k : nat) {A} (p : prog A) : Prop :=
  forall w q, taken (s_scopes q) = b -> s_scopes (snd (run w p q)) = s_scopes q /\ asks (snd (run w p q)) <= asks q + k.

Lemma lim_le : forall b k k' A (p : prog A), k <= k' -> lim b k p -> lim b k' p.
Proof. intros b k k' A p L H w q T. destruct (H w q T). split; [assumption|lia]. Qed.
Lemma lim_ret : forall b k A (r : result A), lim b k (Ret r).
Proof. intros b k A r w q _. cbn. split; [reflexivity|lia]. Qed.
Lemma lim_then : forall b k k' A B (p : prog A) (f : result A -> prog B), lim b k p -> (forall r, lim b k' (f r)) -> lim b (k + k') (pthen p f).
Proof.
  intros b k k' A B p f H K w q T. rewrite run_pthen. destruct (H w q T) as [H1 H2]. destruct (run w p q) as [r q1]. cbn [snd] in *.
  destruct (K r w q1) as [K1 K2]; [congruence|]. split; [congruence|lia].
Qed.
Lemma lim_then_post : forall b k k' A B (p : prog A) (f : result A -> prog B) (Q : A -> Prop), lim b k p -> post p Q -> (forall a, Q a -> lim b k' (f (Ok a))) -> (forall y, lim b k' (f (Err y))) -> lim b (k + k') (pthen p f).
Proof.
  intros b k k' A B p f Q H P K K' w q T. rewrite run_pthen. destruct (H w q T) as [H1 H2]. destruct (run w p q) as [[a|y] q1] eqn:E; cbn [snd] in *.
  - destruct (K a (P _ _ _ _ E) w q1) as [K1 K2]; [congruence|]. split; [congruence|lia].
  - destruct (K' y w q1) as [K1 K2]; [congruence|]. split; [congruence|lia].
Qed.
Lemma lim_bind : forall b k k' A B (p : prog A) (f : A -> prog B), lim b k p -> (forall a, lim b k' (f a)) -> lim b (k + k') (pbind p f).
Proof. intros. apply lim_then; [assumption|]. intros [a|y]; [auto|apply lim_ret]. Qed.
Lemma lim_bind_post : forall b k k' A B (p : prog A) (f : A -> prog B) (Q : A -> Prop), lim b k p -> post p Q -> (forall a, Q a -> lim b k' (f a)) -> lim b (k + k') (pbind p f).
Proof. intros. eapply lim_then_post; [eassumption|eassumption|assumption|intros; apply lim_ret]. Qed.
Lemma lim_bind0 : forall b k A B (p : prog A) (f : A -> prog B), lim b 0 p -> (forall a, lim b k (f a)) -> lim b k (pbind p f).
Proof. intros b k A B p f H K. exact (lim_bind b 0 k A B p f H K). Qed.
Lemma lim_bindr : forall b k A B (p : prog A) (f : A -> prog B), lim b k p -> (forall a, lim b 0 (f a)) -> lim b k (pbind p f).
Proof. intros b k A B p f H K. apply (lim_le b (k + 0)); [lia|]. exact (lim_bind b k 0 A B p f H K). Qed.
Lemma taken_snoc : forall l a, taken (l ++ [a]) = inner (taken l) (a_name a).
Proof.
  intros l a. unfold taken, inner. induction l as [|c l IH]; cbn [app find_scope]; [destruct (str_eqb x (a_name a)); reflexivity|]. destruct (str_eqb x (a_name c)); [reflexivity|exact IH].
Qed.
Lemma lim_scope : forall b k A a (p : prog A), lim (inner b (a_name a)) k p -> lim b k (with_scope a p).
Proof.
  intros b k A a p H w q T. unfold with_scope. rewrite run_pbind, run_act. cbn [step_op]. rewrite run_pthen.
  destruct (H w (set_scopes (s_scopes q ++ [a]) q)) as [H1 H2]; [cbn [s_scopes set_scopes]; rewrite taken_snoc, T; reflexivity|].
  destruct (run w p _) as [r q1]. cbn [snd s_scopes set_scopes] in H1, H2. rewrite run_pbind, run_act. cbn [step_op]. rewrite H1.
  change (asks (set_scopes (s_scopes q ++ [a]) q)) with (asks q) in H2.
  destruct (s_scopes q ++ [a]) eqn:E; [destruct (s_scopes q); discriminate E|]. rewrite <- E, removelast_snoc. cbn. split; [reflexivity|]. exact H2.
Qed.
Lemma lim_op : forall b o, base_op o -> lim b 0 (act o).
Proof. intros b o H w q T. rewrite run_act. destruct o; try contradiction; cbn; split; try reflexivity; unfold asks; cbn; lia. Qed.
Lemma lim_pmapM : forall b A B (f : A -> prog B) g l, (forall a, In a l -> lim b (g a) (f a)) -> lim b (total g l) (pmapM f l).
Proof.
  intros b A B f g l. induction l as [|a l IH]; intro H; [apply lim_ret|]. cbn [pmapM total fold_right]. apply lim_bind; [apply H; left; reflexivity|]. intro v.
  apply lim_bindr; [apply IH; intros; apply H; right; assumption|]. intro; apply lim_ret.
Qed.

Section Eval.
Context {Orc : Oracle} (C : ctx) (thing : value).

(** calling a function never asks the resolver *)
Definition quiet A (p : prog A) (Q : A -> Prop) : Prop := (forall b, lim b 0 p) /\ post p Q.
Lemma lim_apply : forall b f args, lim b 0 (apply_fun C f args).
Proof.
  intros b f args. apply (fun H : quiet value (apply_fun C f args) tt_post => proj1 H b).
  apply (G_apply C quiet).
  - intros A r Q H. split; [intro; apply lim_ret|apply post_ret; exact H].
  - intros A B p Q g R [H1 H2] Ho He. split.
    + intro b'. apply (lim_then_post b' 0 0 A B p g Q); [apply H1|exact H2|intros a Ha; apply (Ho a Ha)|intro y; apply (He y)].
    + eapply post_then; [exact H2|intros a Ha; apply (Ho a Ha)|intro y; apply (He y)].
  - intros o H. split; [intro; apply lim_op; exact H|intros w q a q' _; exact I].
Qed.
Lemma lim_resolve : forall b t n (bi : bool), lim b (if bi then 0 else once b n) (resolve C t n bi).
Proof.
  intros b t n bi. unfold resolve. destruct bi.
  - destruct (assoc n (c_bvals C)) as [[v| | | |g]|]; try apply lim_ret.
    + apply lim_bind0; [apply (lim_op b (ONow (c_btz C))); exact I|]. intro. apply lim_bind0; [apply (lim_op b (ONow (c_btz C))); exact I|]. intro. apply lim_ret.
    + apply lim_bind0; [apply (lim_op b (ONow (c_btz C))); exact I|]. intro. apply lim_bind0; [apply (lim_op b (ONow (c_btz C))); exact I|]. intro. apply lim_ret.
    + apply (lim_op b OGetG). exact I.
    + assert (A : lim b 0 (actr (OUser g []) (fun r : result value => r))).
      { intros w q T. cbn. split; [reflexivity|]. unfold asks. cbn. lia. }
      apply (lim_then b 0 0); [exact A|]. intros [v|[]]; try apply lim_ret. exact A.
  - intros w q T. rewrite run_pbind, run_act. cbn [step_op]. unfold once. unfold taken in T. destruct (str_eqb x n) eqn:E.
    + apply str_eqb_eq in E. subst n. destruct (find_scope (s_scopes q) x); subst b.
      * cbn. split; [reflexivity|lia].
      * cbn. split; [reflexivity|]. unfold asks. cbn. destruct (str_eqb x x); cbn; lia.
    + assert (Z : (if b then 0 else 0) = 0) by (destruct b; reflexivity). rewrite Z. destruct (find_scope (s_scopes q) n).
      * cbn. split; [reflexivity|lia].
      * cbn. split; [reflexivity|]. unfold asks. cbn. rewrite E. lia.
Qed.
Lemma lim_fuzzy : forall b sr ng pre u v, lim b 0 (fuzzy_match C sr ng pre u v).
Proof.
  intros b sr ng pre u v. unfold fuzzy_match. destruct u; try apply lim_ret; destruct v; try apply lim_ret.
  - apply lim_bind0; [apply lim_ret|]. intro. apply lim_ret.
  - apply lim_bind0; [apply lim_ret|]. intro. destruct (o_re (c_flags C) sr t0 t) as [gs|]; [|apply lim_ret]. apply lim_bind0; [|intro; apply lim_ret].
    apply (lim_op b (OSetG (VArr (map group_val gs)))). exact I.
Qed.
(** the entries of a mapping: of equal keys only one value is evaluated *)
Inductive lims (b : bool) : nat -> list (value * prog value) -> Prop :=
| lims_nil : forall k, lims b k []
| lims_cons : forall k1 k2 k kp l, lim b k1 (snd kp) -> lims b k2 l -> k1 + k2 <= k -> lims b k (kp :: l).
Lemma lims_put : forall b l k, lims b k l -> forall key k' p, lim b k' p -> lims b (k' + k) (dict_put l key p).
Proof.
  intros b l k H. induction H as [k|k1 k2 k [k0 p0] l H1 H2 IH L]; intros key k' p P; cbn [dict_put].
  - apply (lims_cons b k' 0); [exact P|constructor|lia].
  - destruct (py_eq k0 key).
    + apply (lims_cons b k' k2); [exact P|exact H2|lia].
    + apply (lims_cons b k1 (k' + k2)); [exact H1|apply IH; exact P|lia].
Qed.
Lemma lims_mk : forall b (g : expr * expr -> nat) l ks, Forall2 (fun kv kp => lim b (g kv) (snd kp)) l ks -> lims b (total g l) (mk_dict ks).
Proof.
  intros b g l ks H. unfold mk_dict.
  assert (X : forall m k, lims b k m -> lims b (k + total g l) (fold_left (fun m kv => dict_put m (fst kv) (snd kv)) ks m)).
  { induction H as [|kv kp l ks Hp H IH]; intros m k M; cbn [fold_left total fold_right].
    - rewrite Nat.add_0_r. exact M.
    - assert (Y := IH _ _ (lims_put b m k M (fst kp) _ _ Hp)). unfold total in Y. replace (k + (g kv + fold_right (fun a k => g a + k) 0 l)) with (g kv + k + fold_right (fun a k => g a + k) 0 l) by lia. exact Y. }
  exact (X [] 0 (lims_nil b 0)).
Qed.
Lemma lims_run : forall b k l, lims b k l -> lim b k (pmapM (fun kp : value * prog value => do! v := snd kp in ok (fst kp, v)) l).
Proof.
  intros b k l H. induction H as [k|k1 k2 k kp l H1 H2 IH L]; [apply lim_ret|]. apply (lim_le b (k1 + k2)); [exact L|]. cbn [pmapM].
  apply lim_bind; [apply lim_bindr; [exact H1|intro; apply lim_ret]|]. intro. apply lim_bindr; [exact IH|]. intro. apply lim_ret.
Qed.
Lemma lim_comp : forall b var c body l, match c with Some c => lim (inner b var) 0 c | None => True end -> lim (inner b var) 0 body -> lim b 0 (comp_loop var c body l).
Proof.
  intros b var c body l Hc Hb. induction l as [|v l IH]; [apply lim_ret|]. cbn [comp_loop]. apply lim_bind0.
  - apply lim_scope. cbn [a_name]. apply lim_bind0.
    + destruct c; [apply lim_bind0; [exact Hc|intro; apply lim_ret]|apply lim_ret].
    + intros []; [apply lim_bind0; [exact Hb|intro; apply lim_ret]|apply lim_ret].
  - intro o. apply lim_bind0; [exact IH|]. intro. apply lim_ret.
Qed.
Lemma total_0 : forall A (f : A -> nat) l a, total f l = 0 -> In a l -> f a = 0.
Proof. intros A f l a. induction l as [|c l IH]; intros H []; cbn in H; [subst; lia|apply IH; [unfold total; lia|assumption]]. Qed.
Lemma occ_rep : forall e b, occ b e = 0 -> rep b e = 0.
Proof.
  assert (X : forall A (f g : A -> nat) l, Forall (fun a => f a = 0 -> g a = 0) l -> total f l = 0 -> total g l = 0).
  { intros A f g l H. induction H as [|a l Ha H IH]; intro Z; [reflexivity|]. cbn in *. unfold total in *. rewrite Ha, IH by lia. reflexivity. }
  induction e as [v|v t|l IH|l IH|l IH|o a c IHa IHb|r n i c IHr IHi IHc|c m IHc IHm|o n sf IHo|c i sf IHc IHi|c a d sf IHc IHa IHb|n bi t|f l IHf IHl|c a d IHc IHa IHb|o e IHe] using expr_ind';
    intros b H; cbn [occ rep] in *; try lia.
  - eapply X; [|exact H]. eapply Forall_impl; [|exact IH]. intros a K. apply K.
  - eapply X; [|exact H]. eapply Forall_impl; [|exact IH]. intros a K. apply K.
  - eapply X; [|exact H]. eapply Forall_impl; [|exact IH]. cbn beta. intros a [K1 K2] Z. rewrite K1, K2 by lia. reflexivity.
  - rewrite IHa, IHb by lia. reflexivity.
  - rewrite IHi by lia. lia.
  - rewrite IHc, IHm by lia. reflexivity.
  - apply IHo. lia.
  - rewrite IHc, IHi by lia. reflexivity.
  - rewrite IHc, IHa, IHb by lia. reflexivity.
  - rewrite IHf by lia. rewrite (X expr (occ b) (rep b)); [reflexivity| |lia]. eapply Forall_impl; [|exact IHl]. intros a K. apply K.
  - rewrite IHc, IHa, IHb by lia. reflexivity.
  - apply IHe. exact H.
Qed.
Theorem lim_eval : forall e b, rep b e = 0 -> lim b (occ b e) (eval C thing e).
Proof.
  induction e as [v|v t|l IH|l IH|l IH|o a c IHa IHb|r n i c IHr IHi IHc|c m IHc IHm|o n sf IHo|c i sf IHc IHi|c a d sf IHc IHa IHb|n bi t|f l IHf IHl|c a d IHc IHa IHb|o e IHe] using expr_ind';
    intros b R; cbn [occ rep] in *; cbn [eval].
  - apply lim_ret.
  - apply lim_ret.
  - apply lim_bindr; [|intro; apply lim_ret]. apply lim_pmapM. rewrite Forall_forall in IH. intros e He. apply IH; [exact He|]. eapply total_0; eassumption.
  - apply lim_bindr; [|intro; apply lim_ret]. apply lim_pmapM. rewrite Forall_forall in IH. intros e He. apply lim_bindr; [apply IH; [exact He|eapply total_0; eassumption]|].
    intro v. destruct (hashable v); apply lim_ret.
  - rewrite Forall_forall in IH. assert (T : total (fun kv => occ b (fst kv) + occ b (snd kv)) l = total (fun kv => occ b (fst kv)) l + total (fun kv => occ b (snd kv)) l).
    { clear. induction l as [|kv l IH]; cbn; [reflexivity|]. unfold total in *. lia. }
    rewrite T. assert (Z : forall kv, In kv l -> rep b (fst kv) = 0 /\ rep b (snd kv) = 0) by (intros kv K; assert (Y := total_0 _ _ _ _ R K); cbn in Y; lia).
    apply (lim_bind_post _ _ _ _ _ _ _ (Forall2 (fun kv (kp : value * prog value) => lim b (occ b (snd kv)) (snd kp)) l)).
    + apply lim_pmapM. intros kv K. apply lim_bindr; [apply IH; [exact K|apply Z; exact K]|]. intro. apply lim_bind0; [apply lim_ret|]. intro. apply lim_ret.
    + apply post_pmapM. intros kv K. apply post_bind_any. intro. apply post_bind_any. intro. apply post_ok. cbn [snd]. apply IH; [exact K|apply Z; exact K].
    + intros ks K. apply lim_bindr; [|intro; apply lim_ret]. apply lims_run. apply (lims_mk b (fun kv => occ b (snd kv)) l ks K).
  - assert (Ha := IHa b ltac:(lia)). assert (Hc := IHb b ltac:(lia)). clear IHa IHb.
    destruct o; try (apply lim_bind; [exact Ha|]; intro u).
    + apply lim_bindr; [exact Hc|]. intro. apply lim_bind0; [apply (lim_op b OGetDc); exact I|]. intro. apply lim_ret.
    + apply lim_bindr; [exact Hc|]. intro. apply lim_bind0; [apply (lim_op b OGetDc); exact I|]. intro. apply lim_ret.
    + destruct (is_numeric u); [|apply lim_ret]. apply lim_bindr; [exact Hc|]. intro v. destruct (is_numeric v); [|apply lim_ret]. apply lim_bind0; [apply (lim_op b OGetDc); exact I|]. intro. apply lim_ret.
    + apply lim_bind0; [apply lim_ret|]. intro. destruct (dt_eqb _ _); [apply lim_bind0; [apply lim_ret|]; intro; apply lim_bindr; [exact Hc|]; intro; apply lim_ret|].
      destruct (is_set_t _); [|apply lim_ret]. apply lim_bindr; [exact Hc|]. intro. apply lim_ret.
    + destruct (truthy u); [|apply lim_ret]. apply lim_bindr; [exact Hc|]. intro. apply lim_ret.
    + destruct (truthy u); [apply lim_ret|]. apply lim_bindr; [exact Hc|]. intro. apply lim_ret.
    + apply lim_bindr; [exact Hc|]. intro. apply lim_ret.
    + apply lim_bindr; [exact Hc|]. intro. apply lim_ret.
    + apply lim_bindr; [exact Hc|]. intro. apply lim_ret.
    + destruct u; try apply lim_ret; (apply lim_bindr; [exact Hc|]; intro; apply lim_fuzzy).
  - assert (Z : rep b i = 0 /\ occ (inner b n) r = 0 /\ match c with Some c => occ (inner b n) c = 0 | None => True end) by (destruct c; cbn [perhaps] in R; lia).
    destruct Z as [Z1 [Z2 Z3]]. rewrite Z2. assert (Z4 : perhaps (occ (inner b n)) c = 0) by (destruct c; [exact Z3|reflexivity]). rewrite Z4.
    apply lim_bind; [apply IHi; exact Z1|]. intro v. apply lim_bind0; [apply lim_ret|]. intro t. destruct (is_iterable t); [|apply lim_ret].
    apply lim_bind0; [|intro; apply lim_ret]. apply lim_comp.
    + destruct c as [c|]; [|exact I]. rewrite <- Z3. apply IHc. apply occ_rep. exact Z3.
    + rewrite <- Z2. apply IHr. apply occ_rep. exact Z2.
  - apply lim_bind; [apply IHc; lia|]. intro u. apply lim_bind0; [apply lim_ret|]. intro. apply lim_bindr; [apply IHm; lia|]. intro. apply lim_ret.
  - apply lim_bind; [apply IHo; exact R|]. intro v. destruct (is_null v && sf); [apply lim_ret|]. destruct (resolve_attr v n) as [u|[]]; try apply lim_ret.
    apply (lim_le b (once b n + 0)); [lia|]. apply lim_then; [exact (lim_resolve b v n false)|]. intros [u|[]]; try apply lim_ret. destruct (c_default C); apply lim_ret.
  - apply lim_bind; [apply IHc; lia|]. intro u. destruct (is_null u); [destruct sf; apply lim_ret|]. apply lim_bindr; [apply IHi; lia|]. intro k. apply lim_bind0; [apply lim_ret|]. intros [].
    destruct (py_getitem u k) as [v|[]]; try apply lim_ret. destruct sf; apply lim_ret.
  - apply lim_bind; [apply IHc; lia|]. intro u. destruct (is_null u); [destruct sf; apply lim_ret|]. apply lim_bind; [apply IHa; lia|]. intro v. apply lim_bind0; [apply lim_ret|]. intro.
    apply lim_bindr; [apply IHb; lia|]. intro. apply lim_bind0; [apply lim_ret|]. intro. apply lim_bind0; [apply lim_ret|]. intro. apply lim_ret.
  - apply (lim_le b ((if bi then 0 else once b n) + 0)); [lia|]. apply lim_then; [apply lim_resolve|]. intro y. apply lim_bind0; [|intro; apply lim_bind0; [apply lim_ret|intro; apply lim_ret]].
    destruct y as [v|[]]; try apply lim_ret. destruct (c_default C); apply lim_ret.
  - apply lim_bind; [apply IHf; lia|]. intro fv. destruct (callable fv); [|apply lim_ret]. apply lim_bindr.
    + apply lim_pmapM. rewrite Forall_forall in IHl. intros e He. apply IHl; [exact He|]. eapply total_0; [|exact He]. lia.
    + intro vs. apply lim_bind0; [apply lim_ret|]. intro. apply lim_bind0; [apply (lim_then b 0 0); [apply lim_apply|intros [|]; apply lim_ret]|]. intro r.
      apply lim_bind0; [apply lim_ret|]. intro v. apply lim_bind0; [apply lim_ret|]. intro t. destruct (is_compat _ _); apply lim_ret.
  - apply lim_bind; [apply IHc; lia|]. intro u. destruct (truthy u); [apply (lim_le b (occ b a)); [lia|apply IHa; lia]|apply (lim_le b (occ b d)); [lia|apply IHb; lia]].
  - assert (He := IHe b R). destruct o.
    + apply lim_bindr; [exact He|]. intro. apply lim_ret.
    + apply lim_bindr; [exact He|]. intro. apply lim_bind0; [apply (lim_op b OGetDc); exact I|]. intro. apply lim_ret.
Qed.

(** ** Construction only removes occurrences *)
Definition less (k r : nat) (b : bool) (e : expr) : Prop := occ b e <= k /\ rep b e <= r.
Lemma less_lit : forall b v, less 0 0 b (ELit v).
Proof. intros. split; cbn; lia. Qed.
Lemma lit_less : forall b v e, lit_of v = Ok e -> less 0 0 b e.
Proof.
  intros b v e H. apply lit_of_asked in H.
  assert (X : forall e b, asked e = [] -> occ b e = 0).
  { clear. assert (T : forall A (f : A -> list str) (g : A -> nat) l, Forall (fun a => f a = [] -> g a = 0) l -> flat_map f l = [] -> total g l = 0).
    { intros A f g l H. induction H as [|a l Ha H IH]; intro Z; [reflexivity|]. cbn in Z. apply app_eq_nil in Z as [Z1 Z2]. cbn. rewrite (Ha Z1). apply IH. exact Z2. }
    induction e as [v|v t|l IH|l IH|l IH|o a c IHa IHb|r n i c IHr IHi IHc|c m IHc IHm|o n sf IHo|c i sf IHc IHi|c a d sf IHc IHa IHb|n bi t|f l IHf IHl|c a d IHc IHa IHb|o e IHe] using expr_ind';
      intros b H; cbn [asked occ] in *; try reflexivity; try discriminate H;
      repeat match goal with H : _ ++ _ = [] |- _ => apply app_eq_nil in H as [? H] end.
    - eapply T; [|exact H]. eapply Forall_impl; [|exact IH]. intros a K. apply K.
    - eapply T; [|exact H]. eapply Forall_impl; [|exact IH]. intros a K. apply K.
    - eapply T; [|exact H]. eapply Forall_impl; [|exact IH]. cbn beta. intros a [K1 K2] Z. apply app_eq_nil in Z as [Z1 Z2]. rewrite K1, K2 by assumption. reflexivity.
    - rewrite IHa, IHb by assumption. reflexivity.
    - rewrite IHi, IHr by assumption. destruct c; cbn [perhaps]; [rewrite (IHc _ H)|]; reflexivity.
    - rewrite IHc, IHm by assumption. reflexivity.
    - rewrite IHc, IHi by assumption. reflexivity.
    - rewrite IHc, IHa, IHb by assumption. reflexivity.
    - destruct bi; [reflexivity|discriminate H].
    - rewrite IHf by assumption. eapply T; [|exact H]. eapply Forall_impl; [|exact IHl]. intros a K. apply K.
    - rewrite IHc, IHa, IHb by assumption. reflexivity.
    - apply IHe. exact H. }
  split; [rewrite (X e b H); lia|]. rewrite (occ_rep e b (X e b H)). lia.
Qed.
Lemma less_le : forall k r k' r' b e, less k r b e -> k <= k' -> r <= r' -> less k' r' b e.
Proof. intros k r k' r' b e [H1 H2] L1 L2. split; lia. Qed.
Lemma less_0 : forall k r b e, less 0 0 b e -> less k r b e.
Proof. intros k r b e H. apply (less_le 0 0); [exact H|lia|lia]. Qed.
Lemma fold_less : forall k r b e, post (fold C e) (less k r b).
Proof. intros k r b e. apply post_bind_any. intro v. apply post_ret. intros a H. apply less_0. eapply lit_less. exact H. Qed.
Lemma reduce_less : forall e b k r, less k r b e -> post (reduce C e) (less k r b).
Proof.
  induction e as [v|v t|l IH|l IH|l IH|o a c IHa IHb|r n i c IHr IHi IHc|c m IHc IHm|o n sf IHo|c i sf IHc IHi|c a d sf IHc IHa IHb|n bi t|f l IHf IHl|c a d IHc IHa IHb|o e IHe] using expr_ind';
    intros b k0 r0 L; cbn [reduce]; try (apply post_ok; exact L).
  - destruct (_ && _); [apply fold_less|apply post_ok; exact L].
  - destruct (_ && _); [|apply post_ok; exact L]. apply post_bind_any. intro v. apply post_ok. apply less_0, less_lit.
  - destruct (is_reduced o); [|apply post_ok; exact L]. eapply post_bind; [apply fold_less|]. intros l Hl. apply post_ok. destruct l; try exact Hl. destruct (_ && _); [split; cbn; lia|exact Hl].
  - destruct (match rtype c with TMap _ _ _ => _ | _ => false end); [apply post_ok; apply less_0, less_lit|]. destruct (_ && _); [apply fold_less|apply post_ok; exact L].
  - destruct (_ && _); [apply fold_less|apply post_ok; exact L].
  - destruct (_ && _); [apply fold_less|apply post_ok; exact L].
  - destruct (is_reduced c); [|apply post_ok; exact L]. destruct L as [L1 L2]. cbn [occ rep] in L1, L2. destruct (lit_truthy c); [apply IHa; split; lia|apply IHb; split; lia].
  - destruct o; (destruct (is_reduced e); [|apply post_ok; exact L]).
    + apply post_bind_any. intro v. apply post_ok. apply less_0, less_lit.
    + destruct e as [v| | | | | | | | | | | | | | ]; try apply post_raise. destruct v; try apply post_raise; (apply post_bind_any; intro; apply post_ok; apply less_0, less_lit).
Qed.
Lemma built_list : forall b l, Forall (fun n => forall b, post (build C n) (less (mentions b n) (repeated b n) b)) l ->
  post (pmapM (build C) l) (fun es => total (occ b) es <= total (mentions b) l /\ total (rep b) es <= total (repeated b) l).
Proof.
  intros b l H. induction H as [|n l Hn H IH]; [apply post_ok; cbn; lia|]. cbn [pmapM]. eapply post_bind; [apply (Hn b)|]. intros e [E1 E2]. eapply post_bind; [exact IH|]. intros es [I1 I2].
  apply post_ok. cbn. unfold total in *. lia.
Qed.
Definition less_opt (k r : nat) (b : bool) (o : option expr) : Prop := perhaps (occ b) o <= k /\ perhaps (rep b) o <= r.
Lemma built_opt : forall b o, opt_D (fun n => forall b, post (build C n) (less (mentions b n) (repeated b n) b)) o ->
  post (match o with Some n => do! e := build C n in ok (Some e) | None => ok None end) (less_opt (perhaps (mentions b) o) (perhaps (repeated b) o) b).
Proof. intros b [n|] H; [|apply post_ok; split; cbn; lia]. eapply post_bind; [apply (H b)|]. intros e [E1 E2]. apply post_ok. split; assumption. Qed.
Theorem build_less : forall n b, post (build C n) (less (mentions b n) (repeated b n) b).
Proof.
  induction n as [v|t|t|t|l IH|l IH|l IH|o a c IHa IHb|r v i c IHr IHi IHc|c m IHc IHm|o nm sf IHo|c i sf IHc IHi|c a d sf IHc IHa IHb|nm bi|f l IHf IHl|c a d IHc IHa IHb|o a IHx] using dnode_ind'; intros b; cbn [mentions repeated build].
  - apply post_ok. apply less_lit.
  - apply post_ret. intros a H. apply rmap_ok in H as [d [_ ->]]. apply less_lit.
  - apply post_ret. intros a H. apply rmap_ok in H as [d [_ ->]]. apply less_lit.
  - apply post_ret. intros a H. apply rmap_ok in H as [d [_ ->]]. apply less_lit.
  - eapply post_bind; [apply (built_list b l IH)|]. intros es H. apply post_ok. exact H.
  - eapply post_bind; [apply (built_list b l IH)|]. intros es H. apply post_ok. exact H.
  - apply (post_bind _ _ _ _ (fun es => total (fun kv => occ b (fst kv) + occ b (snd kv)) es <= total (fun kv => mentions b (fst kv) + mentions b (snd kv)) l /\ total (fun kv => rep b (fst kv) + rep b (snd kv)) es <= total (fun kv => repeated b (fst kv) + repeated b (snd kv)) l)).
    + induction IH as [|kv l [Hk Hv] H IH]; [apply post_ok; cbn; lia|]. cbn [pmapM]. eapply (post_bind _ _ _ _ (fun kv' => less (mentions b (fst kv)) (repeated b (fst kv)) b (fst kv') /\ less (mentions b (snd kv)) (repeated b (snd kv)) b (snd kv'))).
      * eapply post_bind; [apply (Hk b)|]. intros k K1. eapply post_bind; [apply (Hv b)|]. intros v V1. apply post_ok. split; assumption.
      * intros e [[E1 E2] [E3 E4]]. eapply post_bind; [apply IH|]. intros es [I1 I2]. apply post_ok. cbn. unfold total in *. lia.
    + intros es H. apply post_bind_any. intro u. apply post_ok. exact H.
  - eapply post_bind; [apply (IHa b)|]. intros e [E1 E2]. eapply post_bind; [apply (IHb b)|]. intros e' [F1 F2]. apply post_bind_any. intro u. apply reduce_less. split; cbn [occ rep]; lia.
  - eapply post_bind; [apply (IHi b)|]. intros e [E1 E2]. destruct (_ && _); [apply post_raise|].
    apply (post_bind _ _ _ _ (fun ce => perhaps (occ (inner b v)) (fst ce) <= perhaps (mentions (inner b v)) c /\ occ (inner b v) (snd ce) <= mentions (inner b v) r)).
    + apply post_scope. eapply post_bind; [apply (built_opt (inner b v) c IHc)|]. intros c' [C1 _]. eapply post_bind; [apply (IHr (inner b v))|]. intros e' [F1 _]. apply post_ok. split; assumption.
    + intros [c' e'] [C1 F1]. apply post_ok. cbn [fst snd] in *. split; cbn [occ rep]; lia.
  - eapply post_bind; [apply (IHc b)|]. intros e [E1 E2]. eapply post_bind; [apply (IHm b)|]. intros e' [F1 F2]. apply post_bind_any. intro u. apply reduce_less. split; cbn [occ rep]; lia.
  - eapply post_bind; [apply (IHo b)|]. intros e [E1 E2]. apply post_bind_any. intro u. apply reduce_less. split; cbn [occ rep]; lia.
  - eapply post_bind; [apply (IHc b)|]. intros e [E1 E2]. eapply post_bind; [apply (IHi b)|]. intros e' [F1 F2]. apply post_bind_any. intro u. apply reduce_less. split; cbn [occ rep]; lia.
  - eapply post_bind; [apply (built_opt b a IHa)|]. intros a' [A1 A2]. eapply post_bind; [apply (built_opt b d IHb)|]. intros d' [D1 D2]. eapply post_bind; [apply (IHc b)|]. intros e [E1 E2]. apply post_bind_any. intro u.
    apply reduce_less. destruct a', d'; cbn [perhaps mk_lit_slice] in *; split; cbn [occ rep]; lia.
  - apply post_bind_any. intro u. apply post_bind_any. intro t. apply post_ok. split; cbn [occ rep]; lia.
  - eapply post_bind; [apply (IHf b)|]. intros e [E1 E2]. eapply post_bind; [apply (built_list b l IHl)|]. intros es [S1 S2]. apply post_bind_any. intro u. apply reduce_less. split; cbn [occ rep]; lia.
  - eapply post_bind; [apply (IHc b)|]. intros e [E1 E2]. eapply post_bind; [apply (IHa b)|]. intros e' [F1 F2]. eapply post_bind; [apply (IHb b)|]. intros e2 [G1 G2]. apply reduce_less. split; cbn [occ rep]; lia.
  - eapply post_bind; [apply (IHx b)|]. intros e [E1 E2]. apply reduce_less. split; cbn [occ rep]; lia.
Qed.
End Eval.
End C78spec.

(** ** C78: the resolver is asked for a name at most once for each time the rule's text mentions it

    The rule is compiled from [n]; [x] does not occur inside the body or condition of a comprehension, where it would be asked again for
    every element, unless it is the comprehension's own variable. *)
Theorem C78_asked_once_per_mention : forall (Orc : Oracle) C n w0 q0 e q1, run w0 (rule_new C n) q0 = (Ok e, q1) ->
  forall x, repeated x false n = 0 -> forall w thing q,
  asks x (snd (run w (rule_evaluate C e thing) q)) <= asks x q + mentions x false n /\
  asks x (snd (run w (rule_matches C e thing) q)) <= asks x q + mentions x false n.
Proof.
  intros Orc C n w0 q0 e q1 HB x R w thing q.
  assert (L : less x (mentions x false n) (repeated x false n) false e) by (eapply (build_less x C n false); exact HB).
  destruct L as [L1 L2]. assert (E := lim_eval x C thing e false ltac:(lia) w (set_dc (c_dec C) (set_groups VNull (set_scopes [] q))) eq_refl). destruct E as [_ E].
  rewrite run_rule_matches, run_rule_evaluate. destruct (run w (eval C thing e) _) as [[r|r] p]; cbn [snd] in *;
  change (asks x (set_dc (c_dec C) (set_groups VNull (set_scopes [] q)))) with (asks x q) in E;
  change (asks x (set_dc (s_dc q) p)) with (asks x p); lia.
Qed.

(** filter: at most so often for every member of the input *)
Theorem C78_filter : forall (Orc : Oracle) C n w0 q0 e q1, run w0 (rule_new C n) q0 = (Ok e, q1) ->
  forall x, repeated x false n = 0 -> forall w things q,
  asks x (snd (run w (rule_filter C e things) q)) <= asks x q + List.length things * mentions x false n.
Proof.
  intros Orc C n w0 q0 e q1 HB x R w things. induction things as [|v l IH]; intro q; [cbn; lia|]. cbn [rule_filter List.length].
  rewrite run_pthen. destruct (C78_asked_once_per_mention Orc C n w0 q0 e q1 HB x R w v q) as [_ E]. destruct (run w (rule_matches C e v) q) as [[m|y] p]; cbn [snd] in E.
  - rewrite run_pbind. specialize (IH p). destruct (run w (rule_filter C e l) p) as [[r|y] p2]; cbn [snd run ok] in *; lia.
  - cbn [run ok snd]. lia.
Qed.

(** a name the rule does not mention is never asked for, and neither is the variable of a comprehension in its body *)
Lemma mentions_repeated : forall v n b, mentions v b n = 0 -> repeated v b n = 0.
Proof.
  intro v. assert (X : forall A (f g : A -> nat) l, Forall (fun a => f a = 0 -> g a = 0) l -> total f l = 0 -> total g l = 0).
  { intros A f g l H. induction H as [|a l Ha H IH]; intro Z; [reflexivity|]. cbn in *. unfold total in *. rewrite Ha, IH by lia. reflexivity. }
  assert (P : forall o b, opt_D (fun n => forall b, mentions v b n = 0 -> repeated v b n = 0) o -> perhaps (mentions v b) o = 0 -> perhaps (repeated v b) o = 0) by (intros [o|] b H Z; [apply H; exact Z|reflexivity]).
  induction n as [u|t|t|t|l IH|l IH|l IH|o a c IHa IHb|r n i c IHr IHi IHc|c m IHc IHm|o nm sf IHo|c i sf IHc IHi|c a d sf IHc IHa IHb|nm bi|f l IHf IHl|c a d IHc IHa IHb|o a IHx] using dnode_ind'; intros b H; cbn [mentions repeated] in *; try reflexivity.
  - eapply X; [|exact H]. eapply Forall_impl; [|exact IH]. intros a K. apply K.
  - eapply X; [|exact H]. eapply Forall_impl; [|exact IH]. intros a K. apply K.
  - eapply X; [|exact H]. eapply Forall_impl; [|exact IH]. cbn beta. intros a [K1 K2] Z. rewrite K1, K2 by lia. reflexivity.
  - rewrite IHa, IHb by lia. reflexivity.
  - rewrite IHi by lia. lia.
  - rewrite IHc, IHm by lia. reflexivity.
  - apply IHo. lia.
  - rewrite IHc, IHi by lia. reflexivity.
  - rewrite IHc, (P a), (P d) by (assumption || lia). reflexivity.
  - rewrite IHf by lia. rewrite (X dnode (mentions v b) (repeated v b)); [reflexivity| |lia]. eapply Forall_impl; [|exact IHl]. intros a K. apply K.
  - rewrite IHc, IHa, IHb by lia. reflexivity.
  - apply IHx. exact H.
Qed.
Theorem C78_not_mentioned : forall (Orc : Oracle) C n w0 q0 e q1, run w0 (rule_new C n) q0 = (Ok e, q1) ->
  forall x, mentions x false n = 0 -> forall w thing q, asks x (snd (run w (rule_evaluate C e thing) q)) <= asks x q.
Proof.
  intros Orc C n w0 q0 e q1 HB x M w thing q. destruct (C78_asked_once_per_mention Orc C n w0 q0 e q1 HB x (mentions_repeated x n false M) w thing q) as [H _]. lia.
Qed.
Theorem C78_own_variable : forall (Orc : Oracle) C r v i c w0 q0 e q1, run w0 (rule_new C (DComp r v i c)) q0 = (Ok e, q1) ->
  mentions v false i = 0 -> forall w thing q, asks v (snd (run w (rule_evaluate C e thing) q)) <= asks v q.
Proof.
  intros Orc C r v i c w0 q0 e q1 HB M. apply (C78_not_mentioned Orc C _ w0 q0 e q1 HB). clear HB. cbn [mentions]. rewrite M. assert (I : inner v false v = true) by (unfold inner; cbn; apply str_eqb_eq; reflexivity). rewrite I.
  assert (Z : forall n, mentions v true n = 0).
  { clear. assert (T : forall l, Forall (fun n => mentions v true n = 0) l -> total (mentions v true) l = 0) by (intros l H; induction H as [|a l Ha H IH]; [reflexivity|cbn; rewrite Ha; exact IH]).
    assert (P : forall o, opt_D (fun n => mentions v true n = 0) o -> perhaps (mentions v true) o = 0) by (intros [o|] H; [exact H|reflexivity]).
    assert (J : forall n, inner v true n = true) by reflexivity.
    induction n as [u|t|t|t|l IH|l IH|l IH|o a c IHa IHb|r n i c IHr IHi IHc|c m IHc IHm|o nm sf IHo|c i sf IHc IHi|c a d sf IHc IHa IHb|nm bi|f l IHf IHl|c a d IHc IHa IHb|o a IHx] using dnode_ind'; cbn [mentions once]; rewrite ?J; try rewrite (P _ IHa); try rewrite (P _ IHb); try rewrite (P _ IHc); try rewrite (T _ IHl); try rewrite (T _ IH); try lia.
    - induction IH as [|kv l [Hk Hv] H IH]; [reflexivity|]. cbn. rewrite Hk, Hv. exact IH.
    - destruct bi; reflexivity. }
  rewrite Z. destruct c as [c|]; cbn [perhaps]; rewrite ?Z; lia.
Qed.
Print Assumptions C78_asked_once_per_mention.
Print Assumptions C78_filter.
Print Assumptions C78_not_mentioned.
Print Assumptions C78_own_variable.

(** [name == "Luke" and [x for x in xs if x > 1] == [2] and name == name]: name is mentioned and asked
    three times (nothing is remembered), xs once, and x never. *)
Definition asked_rule : dnode :=
  DBin BAndL (DBin BAndL (DBin BEq (DSym (s "name") false) (DLit (VStr (s "Luke"))))
    (DBin BEq (DComp (DSym (s "x") false) (s "x") (DSym (s "xs") false) (Some (DBin (BCmp Cgt) (DSym (s "x") false) (DFloat (s "1"))))) (DArr [DFloat (s "2")])))
    (DBin BEq (DSym (s "name") false) (DSym (s "name") false)).
Definition asked_world : world := default_world (fun _ _ _ => Ok VNull) (fun _ _ => 63000000000000000%Z) (fun _ _ => VInt 4).
Definition asked_thing : value := VDict [(VStr (s "name"), VStr (s "Luke")); (VStr (s "xs"), VList [VInt 1; VInt 2])].
Example C78_example : exists e q, run asked_world (rule_new untyped_ctx asked_rule) demo_st = (Ok e, q) /\
  map (fun x => (repeated (s x) false asked_rule, mentions (s x) false asked_rule)) ["name"; "xs"; "x"]%string = [(0, 3); (0, 1); (0, 0)] /\
  fst (run asked_world (rule_matches untyped_ctx e asked_thing) demo_st) = Ok true /\
  map (fun x => asks (s x) (snd (run asked_world (rule_matches untyped_ctx e asked_thing) demo_st))) ["name"; "xs"; "x"]%string = [3; 1; 0].
Proof. eexists _, _. split; [vm_compute; reflexivity|]. split; [reflexivity|]. split; vm_compute; reflexivity. Qed.

(** A name in the body of a comprehension is asked for again for every element: [[n for x in xs]] mentions n once and asks twice. *)
Definition loop_rule : dnode := DComp (DSym (s "n") false) (s "x") (DSym (s "xs") false) None.
Definition loop_thing : value := VDict [(VStr (s "n"), VInt 5); (VStr (s "xs"), VList [VInt 1; VInt 2])].
Theorem C78_comprehension_refuted : exists e q, run asked_world (rule_new untyped_ctx loop_rule) demo_st = (Ok e, q) /\
  mentions (s "n") false loop_rule = 1 /\ repeated (s "n") false loop_rule = 1 /\
  asks (s "n") (snd (run asked_world (rule_evaluate untyped_ctx e loop_thing) demo_st)) = 2.
Proof. eexists _, _. split; [vm_compute; reflexivity|]. split; [reflexivity|]. split; [reflexivity|]. vm_compute. reflexivity. Qed.
Print Assumptions C78_comprehension_refuted.
