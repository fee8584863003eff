(** * Prog: evaluation steps

    Evaluating or building a rule is a program that interacts with its surroundings only through the operations [op]:
    the thread-local storage of the context (engine.py:404-417), the decimal context of the thread, context.symbols,
    and the callbacks (resolver, user functions, clock, random numbers).  [prog] is the tree of these interactions;
    [run] executes it for one thread, Threads.v interleaves several. *)
From Verif Require Import Base Dec Value DType Types Ops.

(** ast.py:79-93 Assignment.  [a_val] is errors.UNDEFINED ([v_undefined]) while building. *)
Record asg := { a_name : str; a_val : value; a_type : option dtype }.

(** Calls to the outside, with their answers. *)
(* event: calls of the resolver engine.py:541, of functions ast.py:1097, of the clock builtins.py:159 and of random builtins.py:57-62 *)
Inductive event :=
| EvResolve (thing : value) (name : str) (r : result value)
| EvUser (f : N) (args : list value) (r : result value)
| EvNow (tz : N) (w : Z)
| EvRandom (bound : option Z) (v : value).

(** The callbacks.  Each may depend on everything that happened before (arbitrary nondeterminism, internal state). *)
(* world: engine.py:495 (resolver), ast.py:1097 (functions), builtins.py:159 (clock), 57-62 (random) *)
Record world := {
  w_resolve : list event -> value -> str -> result value;   (* the resolver of the Context *)
  w_user : list event -> N -> list value -> result value;   (* calling a Python function *)
  w_now : list event -> N -> Z;                             (* datetime.now(tz), wall clock microseconds *)
  w_random : list event -> option Z -> value                (* random.randint(0, n) / random.random() *)
}.

(** Thread state: _ThreadLocalStorage of the context (engine.py:404-417), the current decimal context, and, as ghost
    state, the callbacks made so far; context.symbols as the list of names added. *)
Record st := {
  s_scopes : list asg;         (* assignment_scopes, bottom (oldest) first; every scope of the code has one entry *)
  s_groups : value;            (* regex_groups *)
  s_dc : dctx;                 (* decimal.getcontext() *)
  s_syms : list str;           (* context.symbols *)
  s_log : list event           (* most recent first *)
}.

(* op: each constructor cites its line *)
Inductive op :=
| OPush (a : asg)                        (* assignment_scopes.append   engine.py:505 *)
| OPop                                   (* assignment_scopes.pop      engine.py:509 *)
| OScopes                                (* reading assignment_scopes  engine.py:536, 573 *)
| OGetG                                  (* regex_groups               engine.py:53 *)
| OSetG (v : value)                      (* ast.py:666 *)
| OReset                                 (* _ThreadLocalStorage.reset  engine.py:415-417 *)
| OGetDc                                 (* decimal.getcontext() *)
| OSetDc (dc : dctx)                     (* decimal.setcontext, by decimal.localcontext *)
| OSym (name : str)                      (* context.symbols.add        ast.py:1015 *)
| OResolve (thing : value) (name : str)
| OUser (f : N) (args : list value)
| ONow (tz : N)
| ORandom (bound : option Z).

Definition ans (o : op) : Type :=
  match o with
  | OPush _ | OSetG _ | OReset | OSetDc _ | OSym _ => unit
  | OPop => result unit
  | OScopes => list asg
  | OGetG => value
  | OGetDc => dctx
  | OResolve _ _ | OUser _ _ => result value
  | ONow _ => Z
  | ORandom _ => value
  end.

Inductive prog (A : Type) : Type :=
| Ret (r : result A)
| Step (o : op) (k : ans o -> prog A).
Arguments Ret {A} r.
Arguments Step {A} o k.

(** Continue with the outcome, whether value or exception. *)
(* pthen: try statements: engine.py:629-633, ast.py:1096-1102 *)
Fixpoint pthen {A B} (p : prog A) (f : result A -> prog B) : prog B :=
  match p with
  | Ret r => f r
  | Step o k => Step o (fun a => pthen (k a) f)
  end.

(* ok: return *)
Definition ok {A} (a : A) : prog A := Ret (Ok a).
(* raise: raise *)
Definition raise {A} (x : exn) : prog A := Ret (Err x).
(* pbind: sequencing *)
Definition pbind {A B} (p : prog A) (f : A -> prog B) : prog B :=
  pthen p (fun r => match r with Ok a => f a | Err x => Ret (Err x) end).
(* act: one operation of [op] *)
Definition act (o : op) : prog (ans o) := Step o (fun a => Ret (Ok a)).
(** an operation whose answer may be an exception *)
(* actr: one operation of [op] *)
Definition actr (o : op) (conv : ans o -> result value) : prog value := Step o (fun a => Ret (conv a)).

Notation "'do!' x ':=' p 'in' k" := (pbind p (fun x => k))
  (at level 200, x name, p at level 100, k at level 200, right associativity).
Notation "'do!' '_' ':=' p 'in' k" := (pbind p (fun _ => k))
  (at level 200, p at level 100, k at level 200, right associativity).
Notation "'lift' r" := (Ret r) (at level 10, only parsing).

(** Evaluate a list of programs from left to right. *)
Section pmapM.
  Context {A B : Type} (f : A -> prog B).
  (* pmapM: generator expressions such as ast.py:212, 1088 *)
  Fixpoint pmapM (l : list A) : prog (list B) :=
    match l with
    | [] => ok []
    | a :: r => do! b := f a in do! bs := pmapM r in ok (b :: bs)
    end.
End pmapM.

(** [with context.assignments(a): body] (engine.py:497-510): the scope is popped on every exit; popping an empty deque
    raises IndexError, which replaces the outcome. *)
Definition with_scope {A} (a : asg) (body : prog A) : prog A :=
  do! _ := act (OPush a) in
  pthen body (fun r =>
  do! e := act OPop in
  match e with Ok _ => Ret r | Err x => raise x end).

(** ** Execution by one thread *)
(* log: bookkeeping of the callbacks called *)
Definition log (e : event) (q : st) : st :=
  {| s_scopes := s_scopes q; s_groups := s_groups q; s_dc := s_dc q; s_syms := s_syms q; s_log := e :: s_log q |}.
(* set_scopes: engine.py:497-510 *)
Definition set_scopes (l : list asg) (q : st) : st :=
  {| s_scopes := l; s_groups := s_groups q; s_dc := s_dc q; s_syms := s_syms q; s_log := s_log q |}.
(* set_groups: ast.py:666, engine.py:415-417 *)
Definition set_groups (v : value) (q : st) : st :=
  {| s_scopes := s_scopes q; s_groups := v; s_dc := s_dc q; s_syms := s_syms q; s_log := s_log q |}.
(* set_dc: engine.py:645 *)
Definition set_dc (dc : dctx) (q : st) : st :=
  {| s_scopes := s_scopes q; s_groups := s_groups q; s_dc := dc; s_syms := s_syms q; s_log := s_log q |}.
(* add_sym: ast.py:1015 *)
Definition add_sym (n : str) (q : st) : st :=
  {| s_scopes := s_scopes q; s_groups := s_groups q; s_dc := s_dc q; s_syms := n :: s_syms q; s_log := s_log q |}.

(* st_init: engine.py:411-413 *)
Definition st_init (dc : dctx) : st :=
  {| s_scopes := []; s_groups := VNull; s_dc := dc; s_syms := []; s_log := [] |}.

(* step_op: each case models the line cited at its constructor of [op] *)
Definition step_op (w : world) (o : op) (q : st) : ans o * st :=
  match o as o0 return ans o0 * st with
  | OPush a => (tt, set_scopes (s_scopes q ++ [a]) q)
  | OPop => match s_scopes q with
            | [] => (Err PIndex, q)
            | _ :: _ => (Ok tt, set_scopes (removelast (s_scopes q)) q)
            end
  | OScopes => (s_scopes q, q)
  | OGetG => (s_groups q, q)
  | OSetG v => (tt, set_groups v q)
  | OReset => (tt, set_groups VNull (set_scopes [] q))
  | OGetDc => (s_dc q, q)
  | OSetDc dc => (tt, set_dc dc q)
  | OSym n => (tt, add_sym n q)
  | OResolve t n => let r := w_resolve w (s_log q) t n in (r, log (EvResolve t n r) q)
  | OUser f l => let r := w_user w (s_log q) f l in (r, log (EvUser f l r) q)
  | ONow tz => let r := w_now w (s_log q) tz in (r, log (EvNow tz r) q)
  | ORandom b => let r := w_random w (s_log q) b in (r, log (EvRandom b r) q)
  end.

(* run: execution of one call, such as engine.py:635-646 *)
Fixpoint run {A} (w : world) (p : prog A) (q : st) : result A * st :=
  match p with
  | Ret r => (r, q)
  | Step o k => let '(a, q') := step_op w o q in run w (k a) q'
  end.

Lemma run_pthen : forall A B w (p : prog A) (f : result A -> prog B) q,
  run w (pthen p f) q = let '(r, q') := run w p q in run w (f r) q'.
Proof.
  intros A B w p f. induction p as [r|o k IH]; intro q; cbn; [reflexivity|].
  destruct (step_op w o q) as [a q']. apply IH.
Qed.

Lemma run_pbind : forall A B w (p : prog A) (f : A -> prog B) q,
  run w (pbind p f) q =
  match run w p q with (Ok a, q') => run w (f a) q' | (Err x, q') => (Err x, q') end.
Proof.
  intros. unfold pbind. rewrite run_pthen. destruct (run w p q) as [[a|x] q']; reflexivity.
Qed.

Lemma run_ret : forall A w (r : result A) q, run w (Ret r) q = (r, q).
Proof. reflexivity. Qed.
Lemma run_ok : forall A w (a : A) q, run w (ok a) q = (Ok a, q).
Proof. reflexivity. Qed.
Lemma run_raise : forall A w x q, run w (@raise A x) q = (Err x, q).
Proof. reflexivity. Qed.
Lemma run_act : forall w o q, run w (act o) q = (let '(a, q') := step_op w o q in (Ok a, q')).
Proof. intros. cbn. destruct (step_op w o q). reflexivity. Qed.

Lemma run_with_scope : forall A w a (body : prog A) q,
  run w (with_scope a body) q =
  let '(r, q') := run w body (set_scopes (s_scopes q ++ [a]) q) in
  match s_scopes q' with
  | [] => (Err PIndex, q')
  | _ :: _ => (r, set_scopes (removelast (s_scopes q')) q')
  end.
Proof.
  intros. unfold with_scope. rewrite run_pbind, run_act. cbn [step_op]. rewrite run_pthen.
  destruct (run w body _) as [r q']. rewrite run_pbind, run_act. cbn [step_op].
  destruct (s_scopes q') eqn:E; reflexivity.
Qed.
