(** * Base: exceptions as values, results, strings and list helpers.

    Models /repo/lib/rule_engine/errors.py:47-311 (the exception class hierarchy) and the Python built-in exceptions
    that can escape from the modelled code.  Payloads (messages, offending values) are dropped except for the symbol
    name and the suggestion, which callers can observe and which the code inspects (ast.py:812-822). *)
From Coq Require Export List Arith ZArith NArith Bool Lia.
From Coq Require String Ascii.
Export String.StringSyntax.
Export ListNotations.
Open Scope bool_scope.

(** Text is a list of Unicode code points. *)
(* str: Python str; rule text engine.py:588 *)
Definition str := list N.

(** Turn a Coq string literal into text (only used for constants such as attribute names). *)
(* s: notation for the constants of the code, such as the attribute names engine.py:205-402 *)
Fixpoint s (x : String.string) : str :=
  match x with String.EmptyString => [] | String.String a r => Ascii.N_of_ascii a :: s r end.
Arguments s x%string_scope.

(* str_eqb: str.__eq__, used e.g. at engine.py:187 *)
Fixpoint str_eqb (a b : str) : bool :=
  match a, b with
  | [], [] => true
  | x :: a', y :: b' => (x =? y)%N && str_eqb a' b'
  | _, _ => false
  end.

Lemma str_eqb_eq : forall a b, str_eqb a b = true <-> a = b.
Proof.
  induction a as [|x a IH]; destruct b as [|y b]; cbn; split; intro H; try discriminate; try reflexivity.
  - apply andb_true_iff in H. destruct H as [H1 H2]. apply N.eqb_eq in H1. apply IH in H2. congruence.
  - inversion H; subst. rewrite N.eqb_refl. cbn. apply IH. reflexivity.
Qed.

Lemma str_eqb_refl : forall a, str_eqb a a = true.
Proof. intro a. apply str_eqb_eq. reflexivity. Qed.

Lemma str_eqb_neq : forall a b, str_eqb a b = false <-> a <> b.
Proof.
  intros a b. destruct (str_eqb a b) eqn:E.
  - apply str_eqb_eq in E. split; [discriminate|]. intro H. contradiction.
  - split; [|reflexivity]. intros _ H. apply str_eqb_eq in H. congruence.
Qed.

Lemma str_eqb_sym : forall a b, str_eqb a b = str_eqb b a.
Proof.
  intros a b. destruct (str_eqb a b) eqn:E; symmetry.
  - apply str_eqb_eq in E. subst. apply str_eqb_refl.
  - apply str_eqb_neq in E. apply str_eqb_neq. congruence.
Qed.

(* str_dec: str.__eq__, used e.g. at engine.py:187 *)
Definition str_dec : forall a b : str, {a = b} + {a <> b} := list_eq_dec N.eq_dec.

(** errors.py:47-311, plus the native exceptions the code can let through. *)
Inductive exn : Type :=
(* EngineError and its subclasses *)
| XEngine                                   (* EngineError                errors.py:47  *)
| XEval                                     (* EvaluationError            errors.py:59  *)
| XAttrRes (name : str) (sug : option str)  (* AttributeResolutionError   errors.py:172 *)
| XAttrType (name : str)                    (* AttributeTypeError         errors.py:201 *)
| XLookup                                   (* LookupError                errors.py:231 *)
| XSymRes (name : str) (sug : option str)   (* SymbolResolutionError      errors.py:249 *)
| XSymType (name : str)                     (* SymbolTypeError            errors.py:276 *)
| XFunCall                                  (* FunctionCallError          errors.py:301 *)
| XSyntax                                   (* SyntaxError                errors.py:66  *)
| XSynBytes | XSynString | XSynDatetime | XSynFloat | XSynTimedelta | XSynRegex | XSynRule
(* native Python exceptions *)
| PType | PValue | PKey | PIndex | PAttribute
| PInvalidOp      (* decimal.InvalidOperation (an ArithmeticError) *)
| PDivZero        (* decimal.DivisionByZero / ZeroDivisionError (ArithmeticError) *)
| PDecOverflow    (* decimal.Overflow (an ArithmeticError) *)
| POverflow       (* OverflowError (an ArithmeticError) *)
| PSyntax         (* the builtin SyntaxError, raised by ast.literal_eval *)
| PUnicode        (* UnicodeError, a ValueError *)
| PLookup         (* builtin LookupError (unknown codec) *)
| PBinascii       (* binascii.Error, a ValueError *)
| POther (n : N). (* anything a callback may raise *)

(** [issubclass(type(x), EngineError)] *)
(* is_engine: errors.py:47-311 *)
Definition is_engine (x : exn) : bool :=
  match x with
  | XEngine | XEval | XAttrRes _ _ | XAttrType _ | XLookup | XSymRes _ _ | XSymType _ | XFunCall
  | XSyntax | XSynBytes | XSynString | XSynDatetime | XSynFloat | XSynTimedelta | XSynRegex | XSynRule => true
  | _ => false
  end.

(** [issubclass(type(x), EvaluationError)]: errors.py:172,201,231,249,276,301 all derive from EvaluationError. *)
Definition is_evaluation (x : exn) : bool :=
  match x with
  | XEval | XAttrRes _ _ | XAttrType _ | XLookup | XSymRes _ _ | XSymType _ | XFunCall => true
  | _ => false
  end.

(** [issubclass(type(x), SyntaxError)] of errors.py:66-169. *)
Definition is_syntax (x : exn) : bool :=
  match x with
  | XSyntax | XSynBytes | XSynString | XSynDatetime | XSynFloat | XSynTimedelta | XSynRegex | XSynRule => true
  | _ => false
  end.

(** [issubclass(type(x), ArithmeticError)] (builtin). *)
(* is_arithmetic: used by no handler of /repo; C43 leaks, ast.py:430-509 *)
Definition is_arithmetic (x : exn) : bool :=
  match x with PInvalidOp | PDivZero | PDecOverflow | POverflow => true | _ => false end.

(* result: outcome of a Python call: the try statements engine.py:629-633, ast.py:1096-1102 *)
Inductive result (A : Type) : Type := Ok (a : A) | Err (x : exn).
Arguments Ok {A} a.
Arguments Err {A} x.

(* rbind: sequencing; exceptions propagate except at the try statements ast.py:647-649, 812-826, 893-907, 1096-1102 *)
Definition rbind {A B} (r : result A) (k : A -> result B) : result B :=
  match r with Ok a => k a | Err x => Err x end.
(* rmap: sequencing *)
Definition rmap {A B} (f : A -> B) (r : result A) : result B :=
  match r with Ok a => Ok (f a) | Err x => Err x end.
(* is_ok: sequencing *)
Definition is_ok {A} (r : result A) : bool := match r with Ok _ => true | Err _ => false end.

Declare Scope result_scope.
Notation "'let!' x ':=' r 'in' k" := (rbind r (fun x => k))
  (at level 200, x name, r at level 100, k at level 200, right associativity) : result_scope.
Open Scope result_scope.

(** Left-to-right evaluation of a list of fallible computations. *)
Section rmapM.
  Context {A B : Type} (f : A -> result B).
  (* rmapM: generator expressions such as ast.py:212, 1088 *)
  Fixpoint rmapM (l : list A) : result (list B) :=
    match l with
    | [] => Ok []
    | a :: r => rbind (f a) (fun b => rbind (rmapM r) (fun bs => Ok (b :: bs)))
    end.
End rmapM.

Lemma rmapM_ok_iff : forall A B (f : A -> result B) l l',
  rmapM f l = Ok l' <-> Forall2 (fun a b => f a = Ok b) l l'.
Proof.
  intros A B f. induction l as [|a l IH]; intro l'; cbn.
  - split; intro H; inversion H; subst; constructor.
  - split.
    + intro H. destruct (f a) as [b|x] eqn:Ef; cbn in H; [|discriminate].
      destruct (rmapM f l) as [bs|x] eqn:El; cbn in H; [|discriminate].
      inversion H; subst. constructor; [exact Ef|]. apply IH. reflexivity.
    + intro H. inversion H as [|? b ? bs Hb Hbs]; subst. rewrite Hb. cbn.
      apply IH in Hbs. rewrite Hbs. reflexivity.
Qed.

Lemma rmapM_ext : forall A B (f g : A -> result B) l,
  (forall a, In a l -> f a = g a) -> rmapM f l = rmapM g l.
Proof.
  intros A B f g. induction l as [|a l IH]; intro H; cbn; [reflexivity|].
  rewrite (H a (or_introl eq_refl)). destruct (g a); cbn; [|reflexivity].
  rewrite IH; [reflexivity|]. intros b Hb. apply H. right. exact Hb.
Qed.

Lemma rmapM_length : forall A B (f : A -> result B) l l', rmapM f l = Ok l' -> length l' = length l.
Proof.
  intros A B f l l' H. apply rmapM_ok_iff in H. induction H as [|a b l l' Hab Hl IH]; cbn; [reflexivity|].
  rewrite IH. reflexivity.
Qed.

(** Association lists keyed by text. *)
(* assoc: dict lookup by name: engine.py:187, builtins.py:138 *)
Fixpoint assoc {A} (k : str) (l : list (str * A)) : option A :=
  match l with
  | [] => None
  | (k', v) :: r => if str_eqb k k' then Some v else assoc k r
  end.

Lemma assoc_In : forall A k (l : list (str * A)) v, assoc k l = Some v -> In (k, v) l.
Proof.
  intros A k. induction l as [|[k' v'] l IH]; cbn; intros v H; [discriminate|].
  destruct (str_eqb k k') eqn:E.
  - apply str_eqb_eq in E. inversion H; subst. left. reflexivity.
  - right. apply IH. exact H.
Qed.

(* str_mem: dict membership by name: engine.py:87, 92 *)
Definition str_mem (k : str) (l : list str) : bool := existsb (str_eqb k) l.

Lemma str_mem_In : forall k l, str_mem k l = true <-> In k l.
Proof.
  intros k l. unfold str_mem. rewrite existsb_exists. split.
  - intros [x [Hin E]]. apply str_eqb_eq in E. subst. exact Hin.
  - intro H. exists k. split; [exact H|apply str_eqb_refl].
Qed.
