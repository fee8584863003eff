(** * Truth: which values count as false *)
From Coq Require Import QArith Lia.
From Verif Require Import Base Dec Value DecFacts.
Open Scope Z_scope.

(** ** Specification *)
(** null, false, a number equal to zero, an empty text, bytes or collection, and a duration of no length *)
Inductive falsy : value -> Prop :=
| Fy_null : falsy VNull
| Fy_false : falsy (VBool false)
| Fy_decimal : forall n c e, (dec_q n c e == 0)%Q -> falsy (VDec (DFin n c e))
| Fy_int : falsy (VInt 0)
| Fy_float : forall m e d, (inject_Z m * (2 # 1) ^ e == 0)%Q -> falsy (VFlt (FFin m e d))
| Fy_text : falsy (VStr [])
| Fy_bytes : falsy (VBytes [])
| Fy_duration : falsy (VTd 0)
| Fy_array : falsy (VArr [])
| Fy_list : falsy (VList [])
| Fy_range : falsy (VRange [])
| Fy_set : falsy (VSet [])
| Fy_mapping : falsy (VMap [])
| Fy_dict : falsy (VDict []).

(** ** Proof *)
Lemma nonempty_nil : forall {A} (l : list A), nonempty l = false -> l = [].
Proof. intros A [|? ?] H; [reflexivity|discriminate H]. Qed.
Lemma dec_zero_iff : forall n c e, (dec_q n c e == 0)%Q <-> c = 0%N.
Proof.
  intros n c e. unfold dec_q. assert (P := q10_pos e). split; intro H.
  - apply Qmult_integral in H as [H|H]; [|rewrite H in P; discriminate P]. change 0%Q with (inject_Z 0) in H. apply (proj1 (inject_Z_injective _ _)) in H. unfold signed in H. destruct n; lia.
  - subst c. unfold signed. destruct n; cbn; ring.
Qed.
Lemma truthy_false : forall v, truthy v = false <-> falsy v.
Proof.
  intro v. split.
  - destruct v; cbn [truthy]; intro H; try discriminate H; try (apply nonempty_nil in H; subst; constructor).
    + constructor.
    + subst. constructor.
    + apply negb_false_iff in H. destruct d as [n c e| |]; try discriminate H. cbn in H. apply N.eqb_eq in H. subst c. constructor. apply dec_zero_iff. reflexivity.
    + apply negb_false_iff, Z.eqb_eq in H. subst. constructor.
    + destruct f; try discriminate H. cbn in H. apply negb_false_iff, Qeq_bool_iff in H. constructor. exact H.
    + apply negb_false_iff, Z.eqb_eq in H. subst. constructor.
  - intro H. destruct H as [| |n c e H| |m e d H| | | | | | | | |]; try reflexivity.
    + cbn [truthy is_zero]. apply dec_zero_iff in H. subst. reflexivity.
    + cbn. apply Qeq_bool_iff in H. rewrite H. reflexivity.
Qed.
Lemma truthy_true : forall v, truthy v = true <-> ~ falsy v.
Proof. intro v. rewrite <- truthy_false. destruct (truthy v); split; intro H; congruence. Qed.
