(** * Post: partial correctness of programs: what every successful run returns *)
From Verif Require Import Base Dec Value DType Types Ops ParseUtil Attr Prog Ast Eval Build ProgFacts StateFacts.

Definition post {A} (p : prog A) (Q : A -> Prop) : Prop := forall w q a q', run w p q = (Ok a, q') -> Q a.

Lemma post_ret : forall A (r : result A) (Q : A -> Prop), (forall a, r = Ok a -> Q a) -> post (Ret r) Q.
Proof. intros A r Q H w q a q' R. cbn in R. inversion R; subst. auto. Qed.
Lemma post_ok : forall A (a : A) (Q : A -> Prop), Q a -> post (ok a) Q.
Proof. intros A a Q H w q b q' R. cbn in R. inversion R; subst. exact H. Qed.
Lemma post_raise : forall A x (Q : A -> Prop), post (raise x) Q.
Proof. intros A x Q w q b q' R. cbn in R. inversion R. Qed.
Lemma post_bind : forall A B (p : prog A) (f : A -> prog B) P Q, post p P -> (forall a, P a -> post (f a) Q) -> post (pbind p f) Q.
Proof. intros A B p f P Q Hp Hf w q b q' R. apply run_pbind_ok in R as [a [q1 [R1 R2]]]. eapply Hf; [eapply Hp; exact R1|exact R2]. Qed.
Lemma post_bind_any : forall A B (p : prog A) (f : A -> prog B) Q, (forall a, post (f a) Q) -> post (pbind p f) Q.
Proof. intros A B p f Q Hf. apply (post_bind A B p f (fun _ => True)); [intros w q a q' _; exact I|auto]. Qed.
Lemma post_then : forall A B (p : prog A) (f : result A -> prog B) (P : A -> Prop) Q, post p P ->
  (forall a, P a -> post (f (Ok a)) Q) -> (forall x, post (f (Err x)) Q) -> post (pthen p f) Q.
Proof.
  intros A B p f P Q Hp Ho He w q b q' R. rewrite run_pthen in R. destruct (run w p q) as [[a|x] q1] eqn:E.
  - eapply Ho; [eapply Hp; exact E|exact R].
  - eapply He. exact R.
Qed.
Lemma post_impl : forall A (p : prog A) (P Q : A -> Prop), (forall a, P a -> Q a) -> post p P -> post p Q.
Proof. intros A p P Q H Hp w q a q' R. apply H. eapply Hp. exact R. Qed.
Lemma post_any : forall A (p : prog A), post p (fun _ => True).
Proof. intros A p w q a q' _. exact I. Qed.
Lemma post_pmapM : forall A B (f : A -> prog B) (P : A -> B -> Prop) l, (forall a, In a l -> post (f a) (P a)) -> post (pmapM f l) (Forall2 P l).
Proof.
  intros A B f P l. induction l as [|a l IH]; intro H.
  - apply post_ok. constructor.
  - cbn [pmapM]. eapply post_bind; [apply H; left; reflexivity|]. intros b Hb. eapply post_bind; [apply IH; intros; apply H; right; assumption|].
    intros bs Hbs. apply post_ok. constructor; assumption.
Qed.
Lemma post_scope : forall A a (p : prog A) Q, post p Q -> post (with_scope a p) Q.
Proof.
  intros A a p Q Hp. unfold with_scope. apply post_bind_any. intro u. eapply post_then; [exact Hp| |].
  - intros b Hb. apply post_bind_any. intros [[]|x]; [apply post_ok; exact Hb|apply post_raise].
  - intro x. apply post_bind_any. intros [u'|x']; [intros w q a' q' R; cbn in R; inversion R|apply post_raise].
Qed.
Lemma post_comp_loop : forall var cond body (Q : value -> Prop), post body Q -> forall l, post (comp_loop var cond body l) (Forall Q).
Proof.
  intros var cond body Q H. induction l as [|x l IH]; [apply post_ok; constructor|]. cbn [comp_loop].
  apply (post_bind _ _ _ _ (fun o => match o with Some v => Q v | None => True end)).
  - apply post_scope. apply post_bind_any. intros []; [|apply post_ok; exact I]. eapply post_bind; [exact H|]. intros v Hv. apply post_ok. exact Hv.
  - intros o Ho. eapply post_bind; [exact IH|]. intros vs Hvs. apply post_ok. destruct o; [constructor; assumption|assumption].
Qed.
Lemma rbind_ok : forall A B (r : result A) (f : A -> result B) b, rbind r f = Ok b -> exists a, r = Ok a /\ f a = Ok b.
Proof. intros A B [a|x] f b H; [exists a; auto|discriminate]. Qed.
Lemma rmap_ok : forall A B (f : A -> B) (r : result A) b, rmap f r = Ok b -> exists a, r = Ok a /\ b = f a.
Proof. intros A B f [a|x] b H; [exists a; inversion H; auto|discriminate]. Qed.
