(** * Theorems about the names of comprehension variables (C86) *)
From Coq Require Import Lia String.
From Verif Require Import Base Dec Value DType DTypeFacts Types TypesFacts EqFacts CoerceFacts Ops ParseUtil Attr Prog Ast Eval Build Engine ProgFacts StateFacts Post P_Ops P_Sound P_Aware P_Construct P_Erase Demo.
Open Scope list_scope.
Open Scope Z_scope.

Section Alpha.
Variables (x y : str).
(** ** Specification: the comprehension variables x renamed to y *)
Definition rn (n : str) : str := if str_eqb n x then y else n.
(** bound: the expression is inside of a comprehension over x *)
Fixpoint alpha (bound : bool) (e : expr) : expr :=
  match e with
  | ESym n false t => ESym (if bound then rn n else n) false t
  | ELit _ | EFun _ _ | ESym _ _ _ => e
  | EArr l => EArr (map (alpha bound) l)
  | ESet l => ESet (map (alpha bound) l)
  | EMap l => EMap (map (fun kv => (alpha bound (fst kv), alpha bound (snd kv))) l)
  | EBin o a b => EBin o (alpha bound a) (alpha bound b)
  | EComp r v i c => let inside := bound || str_eqb v x in EComp (alpha inside r) (rn v) (alpha bound i) (match c with Some z => Some (alpha inside z) | None => None end)
  | EIn c m => EIn (alpha bound c) (alpha bound m)
  | EAttr o n sf => EAttr (alpha bound o) n sf
  | EItem c i sf => EItem (alpha bound c) (alpha bound i) sf
  | ESlice c a b sf => ESlice (alpha bound c) (alpha bound a) (alpha bound b) sf
  | ECall f l => ECall (alpha bound f) (map (alpha bound) l)
  | ETern c a b => ETern (alpha bound c) (alpha bound a) (alpha bound b)
  | EUn o z => EUn o (alpha bound z)
  end.
(** the same on rules as written *)
Fixpoint dalpha (bound : bool) (n : dnode) : dnode :=
  match n with
  | DSym n false => DSym (if bound then rn n else n) false
  | DLit _ | DFloat _ | DDatetime _ | DTimedelta _ | DSym _ _ => n
  | DArr l => DArr (map (dalpha bound) l)
  | DSet l => DSet (map (dalpha bound) l)
  | DMap l => DMap (map (fun kv => (dalpha bound (fst kv), dalpha bound (snd kv))) l)
  | DBin o a b => DBin o (dalpha bound a) (dalpha bound b)
  | DComp r v i c => let inside := bound || str_eqb v x in DComp (dalpha inside r) (rn v) (dalpha bound i) (match c with Some z => Some (dalpha inside z) | None => None end)
  | DIn c m => DIn (dalpha bound c) (dalpha bound m)
  | DAttr o n sf => DAttr (dalpha bound o) n sf
  | DItem c i sf => DItem (dalpha bound c) (dalpha bound i) sf
  | DSlice c a b sf => DSlice (dalpha bound c) (match a with Some z => Some (dalpha bound z) | None => None end) (match b with Some z => Some (dalpha bound z) | None => None end) sf
  | DCall f l => DCall (dalpha bound f) (map (dalpha bound) l)
  | DTern c a b => DTern (dalpha bound c) (dalpha bound a) (dalpha bound b)
  | DUn o z => DUn o (dalpha bound z)
  end.
(** y is new, and neither x nor y is read as an attribute (which would find the variable, finding of C31) *)
Definition free_of (e : expr) : Prop := match e with ESym n false _ => n <> y | EComp _ v _ _ => v <> y | EAttr _ n _ => n <> x /\ n <> y | _ => True end.
Definition fresh (e : expr) : Prop := forall z, part z e -> free_of z.
Definition dfree_of (n : dnode) : Prop := match n with DSym n false => n <> y | DComp _ v _ _ => v <> y | DAttr _ n _ => n <> x /\ n <> y | _ => True end.
Definition dfresh (n : dnode) : Prop := forall z, dpart z n -> dfree_of z.
(** errors name the variable *)
Definition same_err (e e' : exn) : Prop := e = e' \/ (e = XSymType x /\ e' = XSymType y).

(** ** Threads with the variables renamed *)
Definition ra (a : asg) : asg := {| a_name := rn (a_name a); a_val := a_val a; a_type := a_type a |}.
Definition related (b : bool) (q q' : st) : Prop :=
  s_scopes q' = map ra (s_scopes q) /\ (b = true -> exists a, In a (s_scopes q) /\ a_name a = x) /\ (b = false -> forall a, In a (s_scopes q) -> a_name a <> x) /\
  (forall a, In a (s_scopes q) -> a_name a <> y) /\ s_groups q = s_groups q' /\ s_dc q = s_dc q' /\ s_log q = s_log q'.
Definition rel (b : bool) {A} (R : A -> A -> Prop) (p p' : prog A) : Prop := forall w q q', related b q q' ->
  match run w p q, run w p' q' with
  | (Ok a, q1), (Ok a', q1') => R a a' /\ related b q1 q1'
  | (Err e, q1), (Err e', q1') => same_err e e' /\ related b q1 q1'
  | _, _ => False
  end.
(** the very same outcome *)
Definition alk (b : bool) {A} (p p' : prog A) : Prop := forall w q q', related b q q' ->
  fst (run w p q) = fst (run w p' q') /\ related b (snd (run w p q)) (snd (run w p' q')).
Lemma alk_rel : forall b A (p p' : prog A), alk b p p' -> rel b eq p p'.
Proof.
  intros b A p p' H w q q' S. destruct (H w q q' S) as [E T]. destruct (run w p q) as [r q1], (run w p' q') as [r' q1']. cbn [fst snd] in *. subst r'. destruct r; (split; [|exact T]); [reflexivity|left; reflexivity].
Qed.
Lemma alk_ret : forall b A (r : result A), alk b (Ret r) (Ret r).
Proof. intros b A r w q q' S. split; [reflexivity|exact S]. Qed.
Lemma alk_then : forall b A B (p p' : prog A) (f f' : result A -> prog B), alk b p p' -> (forall r, alk b (f r) (f' r)) -> alk b (pthen p f) (pthen p' f').
Proof.
  intros b A B p p' f f' H K w q q' S. rewrite !run_pthen. destruct (H w q q' S) as [E T]. destruct (run w p q) as [r q1], (run w p' q') as [r' q1']. cbn [fst snd] in *. subst r'. apply K. exact T.
Qed.
Lemma alk_bind : forall b A B (p p' : prog A) (f f' : A -> prog B), alk b p p' -> (forall r, alk b (f r) (f' r)) -> alk b (pbind p f) (pbind p' f').
Proof. intros. apply alk_then; [assumption|]. intros [a|e]; [auto|apply alk_ret]. Qed.
Lemma alk_act : forall b o, match o with OScopes | OPush _ | OPop | OReset => False | _ => True end -> alk b (act o) (act o).
Proof.
  intros b o H w q q' S. destruct S as [S1 [S2 [S3 [S4 [S5 [S6 S7]]]]]]. destruct o; try contradiction; cbn; rewrite ?S5, ?S6, ?S7; (split; [reflexivity|]); unfold related; cbn; rewrite ?S5, ?S6, ?S7; auto 10.
Qed.
Lemma quiet_alk : forall b A (p : prog A), quiet p -> alk b p p.
Proof.
  intros b A p H. induction H as [r|o k Ho _ IH]; [apply alk_ret|]. change (alk b (pbind (act o) k) (pbind (act o) k)). apply alk_bind; [|exact IH]. apply alk_act. destruct o; try exact I; contradiction.
Qed.
Lemma rel_ret : forall b A (R : A -> A -> Prop) a a', R a a' -> rel b R (ok a) (ok a').
Proof. intros b A R a a' H w q q' S. cbn. auto. Qed.
Lemma rel_res : forall b A (r : result A), rel b eq (Ret r) (Ret r).
Proof. intros. apply alk_rel, alk_ret. Qed.
Lemma rel_raise : forall b A (R : A -> A -> Prop) e, rel b R (raise e) (raise e).
Proof. intros b A R e w q q' S. cbn. split; [left; reflexivity|exact S]. Qed.
Lemma rel_bind : forall b A B (R : A -> A -> Prop) (Q : B -> B -> Prop) p p' f f', rel b R p p' -> (forall a a', R a a' -> rel b Q (f a) (f' a')) -> rel b Q (pbind p f) (pbind p' f').
Proof.
  intros b A B R Q p p' f f' H K w q q' S. rewrite !run_pbind. specialize (H w q q' S). destruct (run w p q) as [[a|e] q1], (run w p' q') as [[a'|e'] q1']; try contradiction.
  - destruct H as [Ha T]. apply (K a a' Ha w q1 q1' T).
  - exact H.
Qed.
Lemma rel_same : forall b A B (Q : B -> B -> Prop) (p : prog A) p' f f', rel b eq p p' -> (forall a, rel b Q (f a) (f' a)) -> rel b Q (pbind p f) (pbind p' f').
Proof. intros b A B Q p p' f f' H K. eapply rel_bind; [exact H|]. intros a a' <-. apply K. Qed.
Lemma rel_then : forall b A B (R : B -> B -> Prop) (p p' : prog A) f f', alk b p p' -> (forall r, rel b R (f r) (f' r)) -> rel b R (pthen p f) (pthen p' f').
Proof.
  intros b A B R p p' f f' H K w q q' S. rewrite !run_pthen. destruct (H w q q' S) as [E T]. destruct (run w p q) as [r q1], (run w p' q') as [r' q1']. cbn [fst snd] in *. subst r'. apply K. exact T.
Qed.
Lemma rel_check : forall b A T (r : result T) (R : A -> A -> Prop) p p', rel b R p p' -> rel b R (do! _ := Ret r in p) (do! _ := Ret r in p').
Proof. intros b A T r R p p' H. apply rel_same; [apply rel_res|]. intro. exact H. Qed.
Lemma rel_pmapM : forall b A A' B (R : B -> B -> Prop) (f : A -> prog B) (f' : A' -> prog B) (g : A -> A') l, (forall a, In a l -> rel b R (f a) (f' (g a))) -> rel b (Forall2 R) (pmapM f l) (pmapM f' (map g l)).
Proof.
  intros b A A' B R f f' g l. induction l as [|a l IH]; intro H; [apply rel_ret; constructor|]. cbn [map pmapM]. eapply rel_bind; [apply H; left; reflexivity|]. intros u u' Hu.
  eapply rel_bind; [apply IH; intros; apply H; right; assumption|]. intros us us' Hus. apply rel_ret. constructor; assumption.
Qed.
Lemma Forall2_eq : forall A (l l' : list A), Forall2 eq l l' -> l = l'.
Proof. induction 1; congruence. Qed.
Lemma rel_map_eq : forall b A A' B (f : A -> prog B) (f' : A' -> prog B) (g : A -> A') l, (forall a, In a l -> rel b eq (f a) (f' (g a))) -> rel b eq (pmapM f l) (pmapM f' (map g l)).
Proof.
  intros b A A' B f f' g l H w q q' S. assert (K := rel_pmapM b A A' B eq f f' g l H w q q' S). destruct (run w (pmapM f l) q) as [[a|e] q1], (run w (pmapM f' (map g l)) q') as [[a'|e'] q1']; try exact K.
  destruct K as [K T]. split; [apply Forall2_eq; exact K|exact T].
Qed.
Lemma rel_scope : forall b A (R : A -> A -> Prop) a (p p' : prog A), a_name a <> y -> keeps s_scopes p -> keeps s_scopes p' -> rel (b || str_eqb (a_name a) x) R p p' -> rel b R (with_scope a p) (with_scope (ra a) p').
Proof.
  intros b A R a p p' Ny K K' H w q q' S. rewrite !run_with_scope.
  assert (S1 : related (b || str_eqb (a_name a) x) (set_scopes (s_scopes q ++ [a]) q) (set_scopes (s_scopes q' ++ [ra a]) q')).
  { destruct S as [S1 [S2 [S3 [S4 S]]]]. unfold related. cbn. repeat split; try apply S.
    - rewrite S1, map_app. reflexivity.
    - intro E. apply orb_true_iff in E as [E|E]; [destruct (S2 E) as [z [Hz Ez]]; exists z; split; [apply in_or_app; left; exact Hz|exact Ez]|]. exists a. split; [apply in_or_app; right; left; reflexivity|]. apply str_eqb_eq. exact E.
    - intros E z Hz. apply orb_false_iff in E as [E1 E2]. apply in_app_or in Hz as [Hz|[<-|[]]]; [apply S3; assumption|]. intro E. rewrite E in E2. rewrite (proj2 (str_eqb_eq x x) eq_refl) in E2. discriminate E2.
    - intros z Hz. apply in_app_or in Hz as [Hz|[<-|[]]]; [apply S4; assumption|exact Ny]. }
  assert (Z := K w (set_scopes (s_scopes q ++ [a]) q)). assert (Z' := K' w (set_scopes (s_scopes q' ++ [ra a]) q')). specialize (H w _ _ S1).
  assert (N : forall l (z : asg), exists u v, l ++ [z] = u :: v) by (intros [|u l] z; cbn; eauto).
  destruct (N (s_scopes q) a) as [u [v E]], (N (s_scopes q') (ra a)) as [u' [v' E']].
  destruct (run w p _) as [r q1], (run w p' _) as [r' q1']; cbn [snd set_scopes s_scopes] in *. rewrite Z, Z', E, E', <- E, <- E', !removelast_last.
  assert (T : forall (P : Prop), P /\ related (b || str_eqb (a_name a) x) q1 q1' -> P /\ related b (set_scopes (s_scopes q) q1) (set_scopes (s_scopes q') q1')).
  { intros P [HP [_ [_ [_ [_ T]]]]]. split; [exact HP|]. destruct S as [T1 [T2 [T3 [T4 _]]]]. unfold related. cbn. auto. }
  destruct r, r'; try contradiction; apply T; exact H.
Qed.

(** ** Evaluation *)
Lemma rn_y : forall n, n <> y -> rn n = y -> n = x.
Proof. intros n N E. unfold rn in E. destruct (str_eqb n x) eqn:K; [apply str_eqb_eq; exact K|contradiction]. Qed.
Lemma rn_x : rn x = y.
Proof. unfold rn. rewrite (proj2 (str_eqb_eq x x) eq_refl). reflexivity. Qed.
Lemma rn_other : forall n, n <> x -> rn n = n.
Proof. intros n N. unfold rn. destruct (str_eqb n x) eqn:K; [apply str_eqb_eq in K; contradiction|reflexivity]. Qed.
Lemma rn_inj : forall n m, n <> y -> m <> y -> rn n = rn m -> n = m.
Proof.
  intros n m Nn Nm E. unfold rn in E. destruct (str_eqb n x) eqn:K, (str_eqb m x) eqn:L; try apply str_eqb_eq in K; try apply str_eqb_eq in L; congruence.
Qed.
Lemma str_eqb_neq : forall a b, a <> b -> str_eqb a b = false.
Proof. intros a b N. destruct (str_eqb a b) eqn:E; [apply str_eqb_eq in E; contradiction|reflexivity]. Qed.
Lemma find_ra : forall l n, n <> y -> (forall a, In a l -> a_name a <> y) -> find_scope (map ra l) (rn n) = match find_scope l n with Some a => Some (ra a) | None => None end.
Proof.
  intros l n N. induction l as [|a l IH]; intro H; [reflexivity|]. cbn [map find_scope ra a_name]. destruct (str_eqb n (a_name a)) eqn:E.
  - apply str_eqb_eq in E. rewrite <- E. rewrite (proj2 (str_eqb_eq (rn n) (rn n)) eq_refl). reflexivity.
  - rewrite str_eqb_neq; [apply IH; intros z Hz; apply H; right; exact Hz|]. intro K. apply rn_inj in K; [|exact N|apply H; left; reflexivity]. subst n. rewrite (proj2 (str_eqb_eq (a_name a) (a_name a)) eq_refl) in E. discriminate E.
Qed.
Lemma find_absent : forall l n, (forall a, In a l -> a_name a <> n) -> find_scope l n = None.
Proof.
  induction l as [|a l IH]; intros n H; [reflexivity|]. cbn [find_scope]. rewrite str_eqb_neq; [apply IH; intros z Hz; apply H; right; exact Hz|]. intro K. exact (H a (or_introl eq_refl) (eq_sym K)).
Qed.
Lemma find_present : forall l n a, In a l -> a_name a = n -> exists z, find_scope l n = Some z.
Proof.
  induction l as [|u l IH]; intros n a I E; [destruct I|]. cbn [find_scope]. destruct (str_eqb n (a_name u)) eqn:K; [eauto|]. destruct I as [->|I]; [|eapply IH; eassumption]. rewrite E, (proj2 (str_eqb_eq n n) eq_refl) in K. discriminate K.
Qed.
(** what a name finds: the name is renamed when it is bound *)
Lemma find_related : forall b q q' n, related b q q' -> n <> y ->
  match find_scope (s_scopes q) n, find_scope (s_scopes q') (if b then rn n else n) with
  | Some a, Some a' => a' = ra a
  | None, None => b = true -> n <> x
  | _, _ => False
  end.
Proof.
  intros b q q' n [S1 [S2 [S3 [S4 _]]]] N. rewrite S1. destruct b.
  - rewrite find_ra by assumption. destruct (find_scope (s_scopes q) n) eqn:E; [reflexivity|]. intros _ ->. destruct (S2 eq_refl) as [a [Ia Ea]]. destruct (find_present _ _ _ Ia Ea) as [z Z]. congruence.
  - destruct (str_eqb n x) eqn:E.
    + apply str_eqb_eq in E. subst n. rewrite find_absent by (apply S3; reflexivity). rewrite find_absent; [intro K; discriminate K|]. intros a Ia K. apply in_map_iff in Ia as [z [<- Iz]]. cbn in K.
      rewrite rn_other in K by (apply S3; [reflexivity|exact Iz]). exact (S3 eq_refl _ Iz K).
    + assert (Nx : n <> x) by (intros ->; rewrite (proj2 (str_eqb_eq x x) eq_refl) in E; discriminate E). assert (F := find_ra (s_scopes q) n N S4). rewrite (rn_other n Nx) in F. rewrite F. destruct (find_scope (s_scopes q) n); [reflexivity|intro K; discriminate K].
Qed.

Section Eval.
Context {Orc : Oracle} (C : ctx) (thing : value).
Lemma alk_resolve : forall b t n, n <> y -> alk b (resolve C t n false) (resolve C t (if b then rn n else n) false).
Proof.
  intros b t n N w q q' S. unfold resolve. rewrite !run_pbind. cbn. assert (F := find_related b q q' n S N). destruct (find_scope (s_scopes q) n) as [a|], (find_scope (s_scopes q') _) as [a'|]; try contradiction; cbn.
  - subst a'. split; [reflexivity|exact S].
  - assert (E : (if b then rn n else n) = n) by (destruct b; [apply rn_other, F; reflexivity|reflexivity]). rewrite E.
    destruct S as [S1 [S2 [S3 [S4 [S5 [S6 S7]]]]]]. rewrite S7. unfold related. cbn. rewrite S7. auto 10.
Qed.
Lemma alk_builtin : forall b t n, alk b (resolve C t n true) (resolve C t n true).
Proof.
  intros b t n. unfold resolve. destruct (assoc n (c_bvals C)) as [[v| | | |g]|]; try apply alk_ret.
  - apply alk_bind; [exact (alk_act b (ONow _) I)|]. intro. apply alk_bind; [exact (alk_act b (ONow _) I)|]. intro. apply alk_ret.
  - apply alk_bind; [exact (alk_act b (ONow _) I)|]. intro. apply alk_bind; [exact (alk_act b (ONow _) I)|]. intro. apply alk_ret.
  - exact (alk_act b OGetG I).
  - assert (G : alk b (actr (OUser g []) (fun r => r)) (actr (OUser g []) (fun r => r))).
    { intros w q q' [S1 [S2 [S3 [S4 [S5 [S6 S7]]]]]]. cbn. rewrite S7. split; [reflexivity|]. unfold related. cbn. rewrite S7. auto 10. }
    apply alk_then; [exact G|]. intros [a|[]]; try apply alk_ret. exact G.
Qed.
Lemma rel_act : forall b o, match o with OScopes | OPush _ | OPop | OReset => False | _ => True end -> rel b eq (act o) (act o).
Proof. intros b o H. apply alk_rel, alk_act, H. Qed.
Lemma rel_fuzzy : forall b sr ng pre u v, rel b eq (fuzzy_match C sr ng pre u v) (fuzzy_match C sr ng pre u v).
Proof.
  intros b sr ng pre u v. unfold fuzzy_match. destruct u; try apply rel_res; destruct v; try apply rel_res.
  - apply rel_same; [apply rel_res|]. intro. apply rel_res.
  - apply rel_same; [apply rel_res|]. intro. destruct (o_re (c_flags C) sr _ _) as [gs|]; [|apply rel_res]. apply rel_same; [apply rel_act; exact I|intro; apply rel_res].
Qed.
Lemma rel_comp_loop : forall b var c c' p p', var <> y -> match c, c' with Some c, Some c' => keeps s_scopes c /\ keeps s_scopes c' /\ rel (b || str_eqb var x) eq c c' | None, None => True | _, _ => False end ->
  keeps s_scopes p -> keeps s_scopes p' -> rel (b || str_eqb var x) eq p p' -> forall l, rel b eq (comp_loop var c p l) (comp_loop (rn var) c' p' l).
Proof.
  intros b var c c' p p' Nv Hc Kb Kb' Hb. induction l as [|z l IH]; [apply rel_res|]. cbn [comp_loop]. apply rel_same.
  - apply (rel_scope b _ eq {| a_name := var; a_val := z; a_type := None |}); [exact Nv| | |].
    + apply keeps_pbind; [destruct c as [c|]; [apply keeps_pbind; [destruct c'; [apply Hc|destruct Hc]|]; intro; apply keeps_ret|apply keeps_ret]|]. intros []; [apply keeps_pbind; [exact Kb|]; intro; apply keeps_ret|apply keeps_ret].
    + apply keeps_pbind; [destruct c' as [c'|]; [apply keeps_pbind; [destruct c; [apply Hc|destruct Hc]|]; intro; apply keeps_ret|apply keeps_ret]|]. intros []; [apply keeps_pbind; [exact Kb'|]; intro; apply keeps_ret|apply keeps_ret].
    + cbn [a_name]. apply rel_same; [destruct c, c'; try (exact (False_ind _ Hc)); [apply rel_same; [apply Hc|intro; apply rel_res]|apply rel_res]|].
      intros []; [apply rel_same; [exact Hb|intro; apply rel_res]|apply rel_res].
  - intro o. apply rel_same; [exact IH|]. intro. apply rel_res.
Qed.
Definition rentries (b : bool) : list (value * prog value) -> list (value * prog value) -> Prop := Forall2 (fun e e' => fst e = fst e' /\ rel b eq (snd e) (snd e')).
Lemma rentries_put : forall b m m' k p p', rentries b m m' -> rel b eq p p' -> rentries b (dict_put m k p) (dict_put m' k p').
Proof.
  intros b m m' k p p' H Hp. induction H as [|[a u] [a' u'] m m' [E Hb] H IH]; cbn.
  - constructor; [split; [reflexivity|exact Hp]|constructor].
  - cbn in E, Hb. subst a'. destruct (py_eq a k); constructor; try assumption; split; try reflexivity; assumption.
Qed.
Lemma rentries_mk : forall b l l', rentries b l l' -> rentries b (mk_dict l) (mk_dict l').
Proof.
  intros b l l' H. unfold mk_dict. assert (Gen : forall m m', rentries b m m' -> rentries b (fold_left (fun m kv => dict_put m (fst kv) (snd kv)) l m) (fold_left (fun m kv => dict_put m (fst kv) (snd kv)) l' m')).
  { induction H as [|[a u] [a' u'] l l' [E Hb] H IH]; intros m m' Hm; [exact Hm|]. cbn in *. subst a'. apply IH. apply rentries_put; assumption. }
  apply Gen. constructor.
Qed.
Lemma alpha_str_lit : forall b e, is_str_lit (alpha b e) = is_str_lit e.
Proof. intros b []; try reflexivity. destruct builtin; reflexivity. Qed.
Lemma alpha_rtype : forall e b, rtype (alpha b e) = rtype e.
Proof.
  induction e as [v|v t|l IH|l IH|l IH|o a c IHa IHb|r v i c IHr IHi IHc|c m IHc IHm|o n sf IHo|c i sf IHc IHi|c a d sf IHc IHa IHb|n bi t|f l IHf IHl|c a d IHc IHa IHb|o e IHe] using expr_ind'; intro b; cbn [alpha rtype]; rewrite ?IHa, ?IHb, ?IHc, ?IHo, ?IHf, ?IHr; try reflexivity.
  - do 2 f_equal. rewrite map_map. apply map_ext_in. intros a Ha. rewrite Forall_forall in IH. apply IH. exact Ha.
  - do 2 f_equal. rewrite map_map. apply map_ext_in. intros a Ha. rewrite Forall_forall in IH. apply IH. exact Ha.
  - rewrite Forall_forall in IH. f_equal; f_equal; rewrite map_map; apply map_ext_in; intros a Ha; apply IH; exact Ha.
  - destruct bi; reflexivity.
  - destruct o; [reflexivity|]. apply IHe.
Qed.
Ltac fz F := let z := fresh in let P := fresh in intros z P; apply F.
Lemma rel_symcheck : forall b n t v, n <> y -> rel b eq (Ret (sym_check n t v)) (Ret (sym_check (if b then rn n else n) t v)).
Proof.
  intros b n t v N w q q' S. destruct b; [|apply (rel_res false _ (sym_check n t v) w q q' S)]. destruct (str_eqb n x) eqn:E.
  - apply str_eqb_eq in E. subst n. rewrite rn_x. cbn [run]. unfold sym_check. destruct (is_undef t); [split; [reflexivity|exact S]|]. destruct (from_value v); cbn [rbind]; [|split; [left; reflexivity|exact S]].
    assert (G : same_err (XSymType x) (XSymType y)) by (right; split; reflexivity). repeat match goal with |- context [if ?c then _ else _] => destruct c end; (split; [first [reflexivity|exact G]|exact S]).
  - rewrite rn_other by (intros ->; rewrite (proj2 (str_eqb_eq x x) eq_refl) in E; discriminate E). apply (rel_res true _ (sym_check n t v) w q q' S).
Qed.
Theorem eval_alpha : forall e b, fresh e -> rel b eq (eval C thing e) (eval C thing (alpha b e)).
Proof.
  assert (Ke : forall e, keeps s_scopes (eval C thing e)) by (intros e w q; apply eval_scopes).
  assert (Sub : forall z e, part z e -> fresh e -> fresh z) by (intros z e P F u Pu; apply F; eapply part_trans; eassumption).
  induction e as [v|v t|l IH|l IH|l IH|o a c IHa IHb|r v i c IHr IHi IHc|c m IHc IHm|o n sf IHo|c i sf IHc IHi|c a d sf IHc IHa IHb|n bi t|f l IHf IHl|c a d IHc IHa IHb|o e IHe] using expr_ind'; intros b F; cbn [alpha]; try apply rel_res.
  - rewrite Forall_forall in IH. cbn [eval]. apply rel_same; [|intro; apply rel_res]. apply rel_map_eq. intros e He. apply IH; [exact He|]. eapply Sub; [|exact F]. eapply Pa_arr; [exact He|constructor].
  - rewrite Forall_forall in IH. cbn [eval]. apply rel_same; [|intro; apply rel_res]. apply rel_map_eq. intros e He. apply rel_same; [apply IH; [exact He|]; eapply Sub; [|exact F]; eapply Pa_set; [exact He|constructor]|]. intro v. destruct (hashable v); apply rel_res.
  - rewrite Forall_forall in IH. cbn [eval]. apply (rel_bind _ _ _ (rentries b)).
    + apply (rel_pmapM b _ _ _ (fun a a' => fst a = fst a' /\ rel b eq (snd a) (snd a'))). intros [k v] Hn. destruct (IH _ Hn) as [I1 I2]. cbn [fst snd] in *.
      apply rel_same; [apply I1; eapply Sub; [|exact F]; eapply Pa_key; [exact Hn|constructor]|]. intro u. apply rel_same; [apply rel_res|]. intro u'. apply rel_ret. split; [reflexivity|]. apply I2. eapply Sub; [|exact F]. eapply Pa_val; [exact Hn|constructor].
    + intros ks ks' E. apply rel_same; [|intro; apply rel_res]. apply rentries_mk in E. clear - E. induction E as [|[a p] [a' p'] l l' [E1 E2] E IH]; [apply rel_res|]. cbn [fst snd] in *. subst a'. cbn [pmapM fst snd].
      apply rel_same; [apply rel_same; [exact E2|]; intro; apply rel_res|]. intro. apply rel_same; [exact IH|]. intro. apply rel_res.
  - assert (Ha : rel b eq (eval C thing a) (eval C thing (alpha b a))) by (apply IHa; eapply Sub; [|exact F]; apply Pa_left; constructor). assert (Hb : rel b eq (eval C thing c) (eval C thing (alpha b c))) by (apply IHb; eapply Sub; [|exact F]; apply Pa_right; constructor).
    destruct o; cbn [eval]; rewrite ?alpha_str_lit; (apply rel_same; [exact Ha|]; intro u).
    + apply rel_same; [exact Hb|]. intro. apply rel_same; [apply rel_act; exact I|intro; apply rel_res].
    + apply rel_same; [exact Hb|]. intro. apply rel_same; [apply rel_act; exact I|intro; apply rel_res].
    + destruct (is_numeric u); [|apply rel_res]. apply rel_same; [exact Hb|]. intro v. destruct (is_numeric v); [|apply rel_res]. apply rel_same; [apply rel_act; exact I|intro; apply rel_res].
    + apply rel_same; [apply rel_res|]. intro. destruct (dt_eqb _ _); [apply rel_check; apply rel_same; [exact Hb|]; intro; apply rel_res|].
      destruct (is_set_t _); [|apply rel_res]. apply rel_same; [exact Hb|]. intro. apply rel_res.
    + destruct (truthy u); [|apply rel_res]. apply rel_same; [exact Hb|]. intro. apply rel_res.
    + destruct (truthy u); [apply rel_res|]. apply rel_same; [exact Hb|]. intro. apply rel_res.
    + apply rel_same; [exact Hb|]. intro. apply rel_res.
    + apply rel_same; [exact Hb|]. intro. apply rel_res.
    + apply rel_same; [exact Hb|]. intro. apply rel_res.
    + destruct u; try apply rel_res; (apply rel_same; [exact Hb|]; intro; apply rel_fuzzy).
  - cbn [eval]. apply rel_same; [apply IHi; eapply Sub; [|exact F]; apply Pa_cit; constructor|]. intro u. apply rel_same; [apply rel_res|]. intro t. destruct (is_iterable t); [|apply rel_res].
    apply rel_same; [|intro; apply rel_res]. apply rel_comp_loop; [exact (F _ (Pa_self _))| |apply Ke|apply Ke|apply IHr; eapply Sub; [|exact F]; apply Pa_cres; constructor].
    destruct c as [c|]; [|exact I]. split; [apply Ke|]. split; [apply Ke|]. apply IHc. eapply Sub; [|exact F]. apply Pa_ccond; constructor.
  - cbn [eval]. apply rel_same; [apply IHc; eapply Sub; [|exact F]; apply Pa_inc; constructor|]. intro u. apply rel_check. apply rel_same; [apply IHm; eapply Sub; [|exact F]; apply Pa_inm; constructor|]. intro. apply rel_res.
  - destruct (F _ (Pa_self _)) as [Nx Ny]. cbn [eval]. apply rel_same; [apply IHo; eapply Sub; [|exact F]; apply Pa_attr; constructor|]. intro v. destruct (is_null v && sf); [apply rel_res|]. destruct (resolve_attr v n) as [r|[]]; try apply rel_res.
    apply alk_rel. apply alk_then; [assert (K := alk_resolve b v n Ny); rewrite rn_other in K by exact Nx; destruct b; exact K|]. intros [z|[]]; try apply alk_ret. destruct (c_default C); apply alk_ret.
  - cbn [eval]. apply rel_same; [apply IHc; eapply Sub; [|exact F]; apply Pa_itc; constructor|]. intro u. destruct (is_null u); [destruct sf; apply rel_res|]. apply rel_same; [apply IHi; eapply Sub; [|exact F]; apply Pa_iti; constructor|]. intro k. apply alk_rel, alk_bind; [apply alk_ret|]. intro. destruct (py_getitem _ _) as [v|[]]; try apply alk_ret. destruct sf; apply alk_ret.
  - cbn [eval]. apply rel_same; [apply IHc; eapply Sub; [|exact F]; apply Pa_slc; constructor|]. intro u. destruct (is_null u); [destruct sf; apply rel_res|]. apply rel_same; [apply IHa; eapply Sub; [|exact F]; apply Pa_sla; constructor|]. intro.
    apply rel_same; [apply rel_res|]. intro. apply rel_same; [apply IHb; eapply Sub; [|exact F]; apply Pa_slb; constructor|]. intro. apply alk_rel. apply alk_bind; [apply alk_ret|]. intro. apply alk_bind; [apply alk_ret|]. intro. apply alk_ret.
  - assert (A := F _ (Pa_self _)). destruct bi; cbn [eval].
    + apply alk_rel. apply alk_then; [apply alk_builtin|]. intro r0. apply alk_bind; [destruct r0 as [z|[]]; try apply alk_ret; destruct (c_default C); apply alk_ret|]. intro. apply alk_bind; [apply alk_ret|]. intro. apply alk_ret.
    + cbn [free_of] in A. apply rel_then; [apply alk_resolve; exact A|]. intro r0. apply rel_same; [apply alk_rel; destruct r0 as [z|[]]; try apply alk_ret; destruct (c_default C); apply alk_ret|].
      intro v. apply rel_same; [apply rel_res|]. intro v'. apply rel_symcheck. exact A.
  - rewrite Forall_forall in IHl. cbn [eval]. apply rel_same; [apply IHf; eapply Sub; [|exact F]; apply Pa_callf; constructor|]. intro fv. destruct (callable fv); [|apply rel_res].
    apply rel_same; [apply rel_map_eq; intros e He; apply IHl; [exact He|]; eapply Sub; [|exact F]; eapply Pa_callx; [exact He|constructor]|]. intro vs. rewrite alpha_rtype. apply rel_check.
    apply rel_same; [apply alk_rel, alk_then; [apply quiet_alk, apply_quiet|]; intros [z|z]; apply alk_ret|]. intro r0. apply rel_same; [apply rel_res|]. intro v. apply rel_same; [apply rel_res|]. intro t. cbn [rtype]. rewrite alpha_rtype. destruct (is_compat t _); apply rel_res.
  - cbn [eval]. apply rel_same; [apply IHc; eapply Sub; [|exact F]; apply Pa_tc; constructor|]. intro u. destruct (truthy u); [apply IHa; eapply Sub; [|exact F]; apply Pa_ta; constructor|apply IHb; eapply Sub; [|exact F]; apply Pa_tb; constructor].
  - assert (He : rel b eq (eval C thing e) (eval C thing (alpha b e))) by (apply IHe; eapply Sub; [|exact F]; apply Pa_un; constructor). destruct o; cbn [eval]; (apply rel_same; [exact He|]; intro u); [apply rel_res|]. apply rel_same; [apply rel_act; exact I|intro; apply rel_res].
Qed.
End Eval.

(** ** Construction *)
Lemma alpha_is_reduced : forall e b, is_reduced (alpha b e) = is_reduced e.
Proof.
  induction e as [v|v t|l IH|l IH|l IH|o a c IHa IHb|r v i c IHr IHi IHc|c m IHc IHm|o n sf IHo|c i sf IHc IHi|c a d sf IHc IHa IHb|n bi t|f l IHf IHl|c a d IHc IHa IHb|o e IHe] using expr_ind'; intro b; try reflexivity; cbn [is_reduced alpha].
  - induction IH as [|a l Ha F IH]; [reflexivity|]. cbn [map forallb]. rewrite Ha, IH. reflexivity.
  - induction IH as [|a l Ha F IH]; [reflexivity|]. cbn [map forallb]. rewrite Ha, IH. reflexivity.
  - induction IH as [|a l [Ha Hb] F IH]; [reflexivity|]. cbn [map forallb fst snd]. rewrite Ha, Hb, IH. reflexivity.
  - destruct bi; reflexivity.
Qed.
Lemma reduced_alpha : forall e b, is_reduced e = true -> alpha b e = e.
Proof.
  induction e as [v|v t|l IH|l IH|l IH|o a c IHa IHb|r v i c IHr IHi IHc|c m IHc IHm|o n sf IHo|c i sf IHc IHi|c a d sf IHc IHa IHb|n bi t|f l IHf IHl|c a d IHc IHa IHb|o e IHe] using expr_ind'; intros b H; try discriminate H; try reflexivity; cbn [is_reduced alpha] in *; f_equal; rewrite forallb_forall in H; rewrite Forall_forall in IH.
  - rewrite <- (map_id l) at 2. apply map_ext_in. intros a Ha. apply IH; auto.
  - rewrite <- (map_id l) at 2. apply map_ext_in. intros a Ha. apply IH; auto.
  - rewrite <- (map_id l) at 2. apply map_ext_in. intros [k v] Ha. specialize (H _ Ha). apply andb_true_iff in H as [H1 H2]. destruct (IH _ Ha) as [I1 I2]. cbn [fst snd] in *. rewrite I1, I2 by assumption. reflexivity.
Qed.
Lemma reduced_fresh : forall e, is_reduced e = true -> fresh e.
Proof. intros e H z P. apply (reduced_part _ _ P) in H. destruct z; try exact I; discriminate H. Qed.
Lemma fresh_sub : forall z e, part z e -> fresh e -> fresh z.
Proof. intros z e P F u Pu. apply F. eapply part_trans; eassumption. Qed.
Lemma dfresh_sub : forall z n, dpart z n -> dfresh n -> dfresh z.
Proof. intros z e P F u Pu. apply F. eapply dpart_trans; eassumption. Qed.
(** renamed *)
Definition Rn (b : bool) (e e' : expr) : Prop := e' = alpha b e /\ fresh e.
Lemma Rn_red : forall b e, is_reduced e = true -> Rn b e e.
Proof. intros b e H. split; [symmetry; apply reduced_alpha; exact H|apply reduced_fresh; exact H]. Qed.
Section Build.
Context {Orc : Oracle} (C : ctx).
Lemma rel_lit_of : forall b v, rel b (fun l l' => l = l' /\ is_reduced l = true) (Ret (lit_of v)) (Ret (lit_of v)).
Proof. intros b v w q q' S. cbn [run]. destruct (lit_of v) eqn:E; [split; [split; [reflexivity|eapply lit_of_reduced; exact E]|exact S]|split; [left; reflexivity|exact S]]. Qed.
Lemma rel_fold0 : forall b e, fresh e -> rel b (fun l l' => l = l' /\ is_reduced l = true) (fold C e) (fold C (alpha b e)).
Proof. intros b e F. unfold fold. apply rel_same; [apply eval_alpha; exact F|]. intro v. apply rel_lit_of. Qed.
Lemma rel_impl : forall b A (R Q : A -> A -> Prop) p p', rel b R p p' -> (forall a a', R a a' -> Q a a') -> rel b Q p p'.
Proof. intros b A R Q p p' H K w q q' S. specialize (H w q q' S). destruct (run w p q) as [[a|e] q1], (run w p' q') as [[a'|e'] q1']; try exact H. destruct H as [H T]. split; [apply K; exact H|exact T]. Qed.
Lemma rel_fold : forall b e, fresh e -> rel b (Rn b) (fold C e) (fold C (alpha b e)).
Proof. intros b e F. eapply rel_impl; [apply rel_fold0; exact F|]. intros l l' [<- H]. apply Rn_red. exact H. Qed.
Lemma rel_lit : forall b e, fresh e -> rel b (Rn b) (do! v := eval C VNull e in ok (ELit v)) (do! v := eval C VNull (alpha b e) in ok (ELit v)).
Proof. intros b e F. apply rel_same; [apply eval_alpha; exact F|]. intro v. apply rel_ret. apply Rn_red. reflexivity. Qed.
Lemma rel_reduce : forall e b, fresh e -> rel b (Rn b) (reduce C e) (reduce C (alpha b e)).
Proof.
  induction e as [v|v t|l IH|l IH|l IH|o a c IHa IHb|r v i c IHr IHi IHc|c m IHc IHm|o n sf IHo|c i sf IHc IHi|c a d sf IHc IHa IHb|n bi t|f l IHf IHl|c a d IHc IHa IHb|o e IHe] using expr_ind'; intros b F;
    assert (G : forall e, fresh e -> rel b (Rn b) (ok e) (ok (alpha b e))) by (intros e0 F0; apply rel_ret; split; [reflexivity|exact F0]).
  - apply (G _ F).
  - apply (G _ F).
  - apply (G _ F).
  - apply (G _ F).
  - apply (G _ F).
  - assert (K := rel_fold b _ F). assert (G' := G _ F). cbn [alpha reduce] in *. rewrite !alpha_is_reduced. destruct (_ && _); assumption.
  - apply (G _ F).
  - assert (K := rel_lit b _ F). assert (G' := G _ F). cbn [alpha reduce] in *. rewrite !alpha_is_reduced. destruct (_ && _); assumption.
  - assert (K := rel_fold0 b _ F). assert (G' := G _ F). assert (T := alpha_rtype (EAttr o n sf) b). cbn [alpha reduce] in *. rewrite !alpha_is_reduced. destruct (is_reduced o); [|exact G'].
    eapply rel_bind; [exact K|]. intros l l' [<- Rl]. apply rel_ret. rewrite T. destruct l; try (apply Rn_red; exact Rl). destruct (_ && _); apply Rn_red; reflexivity.
  - assert (K := rel_fold b _ F). assert (G' := G _ F). cbn [alpha reduce] in *. rewrite !alpha_is_reduced, !alpha_rtype. match goal with |- rel _ _ (if ?z then _ else _) _ => destruct z end; [apply rel_ret, Rn_red; reflexivity|]. destruct (_ && _); assumption.
  - assert (K := rel_fold b _ F). assert (G' := G _ F). cbn [alpha reduce] in *. rewrite !alpha_is_reduced. destruct (_ && _); assumption.
  - assert (G' := G _ F). cbn [alpha reduce] in *. destruct bi; exact G'.
  - assert (K := rel_fold b _ F). assert (G' := G _ F). cbn [alpha reduce] in *. rewrite !alpha_is_reduced.
    assert (L : forallb is_reduced (map (alpha b) l) = forallb is_reduced l) by (clear; induction l as [|z l IH]; [reflexivity|]; cbn [map forallb]; rewrite alpha_is_reduced, IH; reflexivity). rewrite L. destruct (_ && _); assumption.
  - assert (G' := G _ F). cbn [alpha reduce] in *. rewrite !alpha_is_reduced. destruct (is_reduced c) eqn:E; [|exact G']. rewrite (reduced_alpha c b E). destruct (lit_truthy c); [apply IHa; eapply fresh_sub; [|exact F]; apply Pa_ta; constructor|apply IHb; eapply fresh_sub; [|exact F]; apply Pa_tb; constructor].
  - assert (K := rel_lit b _ F). assert (G' := G _ F). destruct (is_reduced e) eqn:E.
    + destruct o; cbn [alpha reduce] in *; rewrite ?(reduced_alpha e b E) in *; rewrite E; [exact K|]. destruct e as [[]| | | | | | | | | | | | | |]; try apply rel_raise; exact K.
    + destruct o; cbn [alpha reduce] in *; rewrite alpha_is_reduced, E; exact G'.
Qed.
Lemma Rn_list : forall b es es', Forall2 (Rn b) es es' -> es' = map (alpha b) es /\ (forall e, In e es -> fresh e).
Proof. intros b es es' H. induction H as [|a c l l' [E N] H [I1 I2]]; [split; [reflexivity|intros e []]|]. split; [cbn; congruence|]. intros e [<-|K]; auto. Qed.
Definition Rno (b : bool) (o o' : option expr) : Prop := match o, o' with Some e, Some e' => Rn b e e' | None, None => True | _, _ => False end.
Lemma rel_opt : forall b o, opt_D (fun n => forall b, dfresh n -> rel b (Rn b) (build C n) (build C (dalpha b n))) o -> opt_D dfresh o ->
  rel b (Rno b) (match o with Some n => do! e := build C n in ok (Some e) | None => ok None end) (match (match o with Some z => Some (dalpha b z) | None => None end) with Some n => do! e := build C n in ok (Some e) | None => ok None end).
Proof. intros b [n|] H U; [|apply rel_ret; exact I]. eapply rel_bind; [apply H; exact U|]. intros a a' Ha. apply rel_ret. exact Ha. Qed.
Lemma nat_alpha : forall e b, nat_operand (alpha b e) = nat_operand e.
Proof. intros e b. destruct e as [| | | | | | | | | | |n0 [|] t0| | |]; try reflexivity. Qed.
Lemma check_bin_alpha : forall o a c b, check_bin C o (alpha b a) (alpha b c) = check_bin C o a c.
Proof. intros o a c b. unfold check_bin. rewrite !alpha_rtype, ?nat_alpha. destruct o; try reflexivity; rewrite ?nat_alpha; try reflexivity; destruct c as [| | | | | | | | | | |n0 [|] t0| | |]; reflexivity. Qed.
Ltac sub F := eapply dfresh_sub; [|exact F].
Ltac nz := let z := fresh "z" in let P := fresh "P" in intros z P; inversion P; subst; [exact I|..];
  match goal with K : part z ?u, N : fresh ?u |- _ => exact (N _ K) end.
Theorem build_alpha : forall n b, dfresh n -> rel b (Rn b) (build C n) (build C (dalpha b n)).
Proof.
  induction n as [v|t|t|t|l IH|l IH|l IH|o a c IHa IHb|r v i c IHr IHi IHc|c m IHc IHm|o nm sf IHo|c i sf IHc IHi|c a d sf IHc IHa IHb|nm bi|g l IHf IHl|c a d IHc IHa IHb|o e IHe] using dnode_ind';
    intros b F; cbn [dalpha].
  - apply rel_ret, Rn_red. reflexivity.
  - intros w q q' S. cbn. destruct (parse_float t); cbn; (split; [|exact S]); [apply Rn_red; reflexivity|left; reflexivity].
  - intros w q q' S. cbn. destruct (parse_datetime t (c_tz C)); cbn; (split; [|exact S]); [apply Rn_red; reflexivity|left; reflexivity].
  - intros w q q' S. cbn. destruct (parse_timedelta t); cbn; (split; [|exact S]); [apply Rn_red; reflexivity|left; reflexivity].
  - rewrite Forall_forall in IH. cbn [build]. eapply rel_bind; [apply (rel_pmapM b _ _ _ (Rn b)); intros n Hn; apply IH; [exact Hn|sub F; eapply Dp_arr; [exact Hn|constructor]]|].
    intros es es' H. apply Rn_list in H as [-> H2]. apply rel_ret. split; [reflexivity|]. intros z P. inversion P; subst; [exact I|eapply H2; eassumption].
  - rewrite Forall_forall in IH. cbn [build]. eapply rel_bind; [apply (rel_pmapM b _ _ _ (Rn b)); intros n Hn; apply IH; [exact Hn|sub F; eapply Dp_set; [exact Hn|constructor]]|].
    intros es es' H. apply Rn_list in H as [-> H2]. apply rel_ret. split; [reflexivity|]. intros z P. inversion P; subst; [exact I|eapply H2; eassumption].
  - rewrite Forall_forall in IH. cbn [build]. eapply (rel_bind _ _ _ (Forall2 (fun kv kv' => Rn b (fst kv) (fst kv') /\ Rn b (snd kv) (snd kv')))).
    + apply (rel_pmapM b _ _ _ (fun kv kv' => Rn b (fst kv) (fst kv') /\ Rn b (snd kv) (snd kv'))). intros [k v] Hn. destruct (IH _ Hn) as [I1 I2]. cbn [fst snd] in *. eapply rel_bind; [apply I1; sub F; eapply Dp_key; [exact Hn|constructor]|]. intros a a' Ha.
      eapply rel_bind; [apply I2; sub F; eapply Dp_val; [exact Hn|constructor]|]. intros u u' Hb. apply rel_ret. split; assumption.
    + intros es es' H.
      assert (G : es' = map (fun kv => (alpha b (fst kv), alpha b (snd kv))) es /\ (forall k v, In (k, v) es -> fresh k /\ fresh v)).
      { clear - H. induction H as [|[k v] [k' v'] l l' [[E1 N1] [E2 N2]] H [I1 I2]]; [split; [reflexivity|intros k v []]|]. cbn [map fst snd] in *. split; [congruence|]. intros k0 v0 [E|K]; [injection E as <- <-; auto|eauto]. }
      destruct G as [-> G2].
      assert (E1 : map (fun kv => rtype (fst kv)) (map (fun kv => (alpha b (fst kv), alpha b (snd kv))) es) = map (fun kv => rtype (fst kv)) es) by (rewrite map_map; apply map_ext; intro; apply alpha_rtype).
      assert (E2 : map (fun kv => rtype (snd kv)) (map (fun kv => (alpha b (fst kv), alpha b (snd kv))) es) = map (fun kv => rtype (snd kv)) es) by (rewrite map_map; apply map_ext; intro; apply alpha_rtype).
      rewrite E1, E2. apply rel_check. apply rel_ret. split; [reflexivity|]. intros z P. inversion P; subst; [exact I| |]; match goal with K : In _ es |- _ => apply G2 in K as [K1 K2] end; [apply K1|apply K2]; assumption.
  - cbn [build]. eapply rel_bind; [apply IHa; sub F; apply Dp_l; constructor|]. intros u ? [-> Nx]. eapply rel_bind; [apply IHb; sub F; apply Dp_r; constructor|]. intros v ? [-> Ny].
    rewrite check_bin_alpha. apply rel_check. apply (rel_reduce (EBin o u v) b). nz.
  - assert (Nv := F _ (Dp_self _)). cbn [dfree_of] in Nv. cbn [build]. eapply rel_bind; [apply IHi; sub F; apply Dp_ci; constructor|]. intros u ? [-> Nx]. rewrite alpha_rtype. destruct (_ && _); [apply rel_raise|].
    apply (rel_bind _ _ _ (fun p p' => Rno (b || str_eqb v x) (fst p) (fst p') /\ Rn (b || str_eqb v x) (snd p) (snd p'))).
    + assert (Kb : forall (e : dnode), keeps s_scopes (build C e)) by (intros e w q; apply build_scopes).
      assert (Ko : forall (o : option dnode), keeps s_scopes (match o with Some n => do! e := build C n in ok (Some e) | None => ok None end)).
      { intros [n|]; [|apply keeps_ret]. apply keeps_pbind; [apply Kb|]. intro. apply keeps_ret. }
      match goal with |- rel _ _ (with_scope ?a _) _ => apply (rel_scope b _ _ a) end; [exact Nv| | |].
      * apply keeps_pbind; [apply Ko|]. intro. apply keeps_pbind; [apply Kb|]. intro. apply keeps_ret.
      * apply keeps_pbind; [apply Ko|]. intro. apply keeps_pbind; [apply Kb|]. intro. apply keeps_ret.
      * cbn [a_name]. eapply rel_bind; [apply rel_opt; [exact IHc|destruct c; [sub F; apply Dp_cc; constructor|exact I]]|]. intros oc oc' Hc.
        eapply rel_bind; [apply IHr; sub F; apply Dp_cr; constructor|]. intros e e' He. apply rel_ret. split; assumption.
    + intros [oc e] [oc' e'] [Hc [He Ne]]. apply rel_ret. cbn [fst snd] in *. unfold Rno in Hc. subst e'. destruct oc as [p|], oc' as [p'|]; try contradiction.
      * destruct Hc as [-> Np]. split; [reflexivity|]. intros z P. inversion P; subst; [exact Nv|..]; match goal with K : part z ?k, N : fresh ?k |- _ => exact (N _ K) end.
      * split; [reflexivity|]. intros z P. inversion P; subst; [exact Nv|..]; match goal with K : part z ?k, N : fresh ?k |- _ => exact (N _ K) end.
  - cbn [build]. eapply rel_bind; [apply IHc; sub F; apply Dp_inc; constructor|]. intros u ? [-> Nx]. eapply rel_bind; [apply IHm; sub F; apply Dp_inm; constructor|]. intros v ? [-> Ny].
    rewrite !alpha_rtype. apply rel_check. apply (rel_reduce (EIn u v) b). nz.
  - assert (Nv := F _ (Dp_self _)). cbn [dfree_of] in Nv. cbn [build]. eapply rel_bind; [apply IHo; sub F; apply Dp_attr; constructor|]. intros u ? [-> Nx]. rewrite alpha_rtype. apply rel_check. apply (rel_reduce (EAttr u nm sf) b).
    intros z P. inversion P; subst; [exact Nv|]. match goal with K : part z ?k, N : fresh ?k |- _ => exact (N _ K) end.
  - cbn [build]. eapply rel_bind; [apply IHc; sub F; apply Dp_itc; constructor|]. intros u ? [-> Nx]. eapply rel_bind; [apply IHi; sub F; apply Dp_iti; constructor|]. intros v ? [-> Ny].
    rewrite !alpha_rtype. apply rel_check. apply (rel_reduce (EItem u v sf) b). nz.
  - cbn [build]. eapply rel_bind; [apply rel_opt; [exact IHa|destruct a; [sub F; apply Dp_sla; constructor|exact I]]|]. intros oa oa' Ha.
    eapply rel_bind; [apply rel_opt; [exact IHb|destruct d; [sub F; apply Dp_slb; constructor|exact I]]|]. intros ob ob' Hb.
    eapply rel_bind; [apply IHc; sub F; apply Dp_slc; constructor|]. intros z ? [-> Nz]. rewrite alpha_rtype. apply rel_check.
    assert (L : forall o o' d, Rno b o o' -> Rn b (mk_lit_slice o d) (mk_lit_slice o' (d : value))) by (intros [p|] [p'|] d0 K; try contradiction; [exact K|apply Rn_red; reflexivity]).
    destruct (L _ _ (VDec (dec_of_Z 0)) Ha) as [E1 N1], (L _ _ VNull Hb) as [E2 N2]. rewrite E1, E2. apply (rel_reduce (ESlice z (mk_lit_slice oa (VDec (dec_of_Z 0))) (mk_lit_slice ob VNull) sf) b). nz.
  - assert (Nv := F _ (Dp_self _)). cbn [dfree_of] in Nv. destruct bi.
    + cbn [build]. apply rel_same; [exact (rel_act b (OSym nm) I)|]. intro u. unfold resolve_type. apply rel_same; [apply rel_res|]. intro t. apply rel_ret. split; [reflexivity|]. intros z P. inversion P; subst. exact I.
    + cbn [build]. eapply (rel_bind _ _ _ (fun _ _ => True)).
      * intros w q q' S. cbn. split; [exact I|]. destruct S as [S1 S]. split; [exact S1|exact S].
      * intros u u' _. unfold resolve_type. apply (rel_bind _ _ _ eq).
        -- intros w q q' S. rewrite !run_pbind. cbn. assert (K := find_related b q q' nm S Nv). destruct (find_scope (s_scopes q) nm) as [a|], (find_scope (s_scopes q') _) as [a'|]; try contradiction.
           ++ subst a'. cbn [ra a_type]. destruct (a_type a); cbn; (split; [|exact S]); [reflexivity|left; reflexivity].
           ++ assert (E : (if b then rn nm else nm) = nm) by (destruct b; [apply rn_other, K; reflexivity|reflexivity]). rewrite E. cbn. destruct (c_types C nm); (split; [|exact S]); [reflexivity|left; reflexivity].
        -- intros t ? <-. apply rel_ret. split; [reflexivity|]. intros z P. inversion P; subst. exact Nv.
  - rewrite Forall_forall in IHl. cbn [build]. eapply rel_bind; [apply IHf; sub F; apply Dp_callf; constructor|]. intros u ? [-> Nx].
    eapply rel_bind; [apply (rel_pmapM b _ _ _ (Rn b)); intros n Hn; apply IHl; [exact Hn|sub F; eapply Dp_callx; [exact Hn|constructor]]|]. intros es ? H. apply Rn_list in H as [-> H2].
    rewrite alpha_rtype. assert (E : map (fun e => Ok (rtype e)) (map (alpha b) es) = map (fun e => @Ok dtype (rtype e)) es) by (rewrite map_map; apply map_ext; intro; rewrite alpha_rtype; reflexivity). rewrite E.
    apply rel_check. apply (rel_reduce (ECall u es) b). intros z P. inversion P; subst; [exact I|apply Nx; assumption|eapply H2; eassumption].
  - cbn [build]. eapply rel_bind; [apply IHc; sub F; apply Dp_tc; constructor|]. intros u ? [-> Nx]. eapply rel_bind; [apply IHa; sub F; apply Dp_ta; constructor|]. intros v ? [-> Ny]. eapply rel_bind; [apply IHb; sub F; apply Dp_tb; constructor|]. intros z ? [-> Nz].
    apply (rel_reduce (ETern u v z) b). nz.
  - cbn [build]. eapply rel_bind; [apply IHe; sub F; apply Dp_un; constructor|]. intros u ? [-> Nx]. apply (rel_reduce (EUn o u) b). nz.
Qed.
End Build.
End Alpha.

(** * C86 *)
Section C86.
Context (Orc : Oracle) (C : ctx) (x y : str).
Lemma start : forall q, s_scopes q = [] -> related x y false q q.
Proof. intros q E. unfold related. rewrite E. repeat split; try reflexivity; try (intro H; discriminate H); repeat intro; match goal with H : In _ [] |- _ => destruct H end. Qed.
(** ** The name of a comprehension variable does not matter

    All comprehensions over x are made comprehensions over y, with the occurrences of x in their results and conditions.  When y is not
    used in the expression and neither name is read as an attribute, the value is the same and so is everything else that happened:
    the state of the thread and the calls of resolver, functions, clock and random; an error is the same one, up to the name in a
    symbol type error. *)
Theorem C86_same_outcome : forall e w thing q, fresh x y e ->
  let '(r, q1) := run w (rule_evaluate C e thing) q in let '(r', q1') := run w (rule_evaluate C (alpha x y false e) thing) q in
  match r, r' with Ok v, Ok v' => v = v' | Err z, Err z' => same_err x y z z' | _, _ => False end /\ q1 = q1'.
Proof.
  intros e w thing q F. rewrite !run_rule_evaluate. set (q5 := set_dc (c_dec C) (set_groups VNull (set_scopes [] q))).
  assert (K := eval_alpha x y C thing e false F w q5 q5 (start q5 eq_refl)). assert (Y := eval_syms C thing e w q5). assert (Y' := eval_syms C thing (alpha x y false e) w q5).
  assert (Z := eval_scopes C thing e w q5). assert (Z' := eval_scopes C thing (alpha x y false e) w q5).
  destruct (run w (eval C thing e) q5) as [r q1], (run w (eval C thing (alpha x y false e)) q5) as [r' q1']. cbn [snd] in *.
  assert (G : related x y false q1 q1' -> set_dc (s_dc q) q1 = set_dc (s_dc q) q1') by (intros [_ [_ [_ [_ [E1 [_ E2]]]]]]; destruct q1, q1'; unfold set_dc; cbn in *; congruence).
  destruct r, r'; try contradiction; destruct K as [K T]; auto.
Qed.
(** ** and the renamed text constructs the renamed rule *)
Theorem C86_same_rule : forall n w q, dfresh x y n -> s_scopes q = [] ->
  match run w (rule_new C n) q, run w (rule_new C (dalpha x y false n)) q with
  | (Ok e, q1), (Ok e', q1') => e' = alpha x y false e /\ fresh x y e /\ rtype e' = rtype e /\ s_log q1 = s_log q1'
  | (Err z, q1), (Err z', q1') => same_err x y z z' /\ s_log q1 = s_log q1'
  | _, _ => False
  end.
Proof.
  intros n w q F S. assert (K := build_alpha x y C n false F w q q (start q S)). unfold rule_new. destruct (run w (build C n) q) as [[e|z] q1], (run w (build C (dalpha x y false n)) q) as [[e'|z'] q1']; try exact K.
  - destruct K as [[-> N] [_ [_ [_ [_ [_ [_ T]]]]]]]. repeat split; [exact N|apply alpha_rtype|exact T].
  - destruct K as [K [_ [_ [_ [_ [_ [_ T]]]]]]]. auto.
Qed.
(** ** together *)
Theorem C86_renamed_rule : forall n w q e q1, dfresh x y n -> s_scopes q = [] -> run w (rule_new C n) q = (Ok e, q1) ->
  exists e' q1', run w (rule_new C (dalpha x y false n)) q = (Ok e', q1') /\
    forall w2 thing q2 r q3, run w2 (rule_evaluate C e thing) q2 = (r, q3) ->
      exists r', run w2 (rule_evaluate C e' thing) q2 = (r', q3) /\ match r, r' with Ok v, Ok v' => v = v' | Err z, Err z' => same_err x y z z' | _, _ => False end.
Proof.
  intros n w q e q1 F S B. assert (K := C86_same_rule n w q F S). rewrite B in K. destruct (run w (rule_new C (dalpha x y false n)) q) as [[e'|z] q1']; [|destruct K]. destruct K as [-> [N _]].
  exists (alpha x y false e), q1'. split; [reflexivity|]. intros w2 thing q2 r q3 E. assert (G := C86_same_outcome e w2 thing q2 N). rewrite E in G.
  destruct (run w2 (rule_evaluate C (alpha x y false e) thing) q2) as [r' q3']. destruct G as [G <-]. exists r'. split; [reflexivity|exact G].
Qed.
End C86.

(** ** Instances *)
Local Open Scope string_scope.
Local Open Scope list_scope.
Definition dsym (n : string) : dnode := DSym (s n) false.
(** [[v + w for w in xs if w] for v in xs if v] *)
Definition nested : dnode := DComp (DComp (DBin BAdd (dsym "v") (dsym "w")) (s "w") (dsym "xs") (Some (dsym "w"))) (s "v") (dsym "xs") (Some (dsym "v")).
Definition renamed : dnode := DComp (DComp (DBin BAdd (dsym "u") (dsym "w")) (s "w") (dsym "xs") (Some (dsym "w"))) (s "u") (dsym "xs") (Some (dsym "u")).
Ltac parts := repeat match goal with H : dpart _ _ |- _ => inversion H; subst; clear H | H : In _ _ |- _ => destruct H as [<-|H]; [|try destruct H] end.
Example C86_example :
  dfresh (s "v") (s "u") nested /\ dalpha (s "v") (s "u") false nested = renamed /\
  exists e q1 v q2, run demo_world (rule_new untyped_ctx nested) demo_st = (Ok e, q1) /\ run demo_world (rule_evaluate untyped_ctx e demo_thing) demo_st = (Ok v, q2) /\
    v = VArr [VArr [num 2; num 3]; VArr [num 3; num 4]].
Proof.
  split; [intros z P; unfold nested, dsym in P; parts; cbn [dfree_of]; try exact I; intro E; discriminate E|]. split; [reflexivity|].
  eexists _, _, _, _. split; [vm_compute; reflexivity|]. split; vm_compute; reflexivity.
Qed.
(** the conditions matter: a name in use is captured, and an attribute of that name reads the variable *)
Definition captured : dnode := DComp (DBin BAdd (dsym "v") (dsym "n")) (s "v") (DArr [DFloat (s "1")]) None.
Theorem C86_capture_refuted :
  exists e e' q1 q1', run demo_world (rule_new untyped_ctx captured) demo_st = (Ok e, q1) /\ run demo_world (rule_new untyped_ctx (dalpha (s "v") (s "n") false captured)) demo_st = (Ok e', q1') /\
    fst (run demo_world (rule_evaluate untyped_ctx e demo_thing) demo_st) = Ok (VArr [num 4]) /\ fst (run demo_world (rule_evaluate untyped_ctx e' demo_thing) demo_st) = Ok (VArr [num 2]).
Proof. eexists _, _, _, _. split; [vm_compute; reflexivity|]. split; [vm_compute; reflexivity|]. split; vm_compute; reflexivity. Qed.
(** [name.v for v in [1]] is [1], [name.u for u in [1]] likewise, but [name.v for u in [1]] is an error *)
Definition attribute : dnode := DComp (DAttr (dsym "name") (s "v") false) (s "v") (DArr [DFloat (s "1")]) None.
Theorem C86_attribute_refuted :
  exists e e' q1 q1' z, run demo_world (rule_new untyped_ctx attribute) demo_st = (Ok e, q1) /\ run demo_world (rule_new untyped_ctx (dalpha (s "v") (s "u") false attribute)) demo_st = (Ok e', q1') /\
    fst (run demo_world (rule_evaluate untyped_ctx e demo_thing) demo_st) = Ok (VArr [num 1]) /\ fst (run demo_world (rule_evaluate untyped_ctx e' demo_thing) demo_st) = Err z.
Proof. eexists _, _, _, _, _. split; [vm_compute; reflexivity|]. split; [vm_compute; reflexivity|]. split; vm_compute; reflexivity. Qed.
Print Assumptions C86_same_outcome.
Print Assumptions C86_same_rule.
Print Assumptions C86_renamed_rule.
