(** * Threads: several threads using one Context, and several threads using one Parser

    Part 1 interleaves the programs of Prog.v over a shared memory.  The storage of engine.py:404-417 hangs off a
    threading.local, i.e. it is looked up by the identity of the running thread (engine.py:512-516); the decimal context
    is per thread (decimal.getcontext, decimal.localcontext); context.symbols is one set for all threads.
    Simplification: one operation of Prog.v is one atomic step (the operations only touch data of the own thread, except
    set.add, which is atomic in CPython); creating the storage on first use is a step of its own.

    Part 2 is parser/base.py:55-82. *)
From Verif Require Import Base Dec Value DType Types Ops Prog.

(** ** 1. Evaluation *)
(* tid: threading.get_ident *)
Definition tid := nat.

(* mem: engine.py:404-417, 512-516 *)
Record mem := {
  m_tls : tid -> option (list asg * value);   (* threading.local().storage: assignment_scopes, regex_groups *)
  m_dc : tid -> dctx;                         (* the current decimal context of each thread *)
  m_syms : list str;                          (* context.symbols, shared *)
  m_log : list (tid * event)                  (* ghost: all callbacks made, most recent first *)
}.

(** the callbacks may look at everything that happened on all threads *)
(* callbacks: engine.py:495, ast.py:1097 *)
Record callbacks := {
  cb_resolve : list (tid * event) -> tid -> value -> str -> result value;
  cb_user : list (tid * event) -> tid -> N -> list value -> result value;
  cb_now : list (tid * event) -> tid -> N -> Z;
  cb_random : list (tid * event) -> tid -> option Z -> value
}.

(* upd: threading.local of engine.py:479 *)
Definition upd {A} (f : tid -> A) (t : tid) (a : A) : tid -> A := fun t' => if Nat.eqb t' t then a else f t'.

(** engine.py:512-516: a new storage object is empty *)
Definition storage (t : tid) (m : mem) : list asg * value := match m_tls m t with Some x => x | None => ([], VNull) end.
Definition put (t : tid) (x : list asg * value) (m : mem) : mem :=
  {| m_tls := upd (m_tls m) t (Some x); m_dc := m_dc m; m_syms := m_syms m; m_log := m_log m |}.
Definition mlog (t : tid) (e : event) (m : mem) : mem :=
  {| m_tls := m_tls m; m_dc := m_dc m; m_syms := m_syms m; m_log := (t, e) :: m_log m |}.

(** one operation of thread [t]; the lines are those cited at [op] in Prog.v *)
(* mem_step: the lines cited at [op] in Prog.v *)
Definition mem_step (cb : callbacks) (t : tid) (o : op) (m : mem) : ans o * mem :=
  match o as o0 return ans o0 * mem with
  | OPush a => (tt, put t (fst (storage t m) ++ [a], snd (storage t m)) m)
  | OPop => match fst (storage t m) with
            | [] => (Err PIndex, put t (storage t m) m)
            | _ :: _ => (Ok tt, put t (removelast (fst (storage t m)), snd (storage t m)) m)
            end
  | OScopes => (fst (storage t m), put t (storage t m) m)
  | OGetG => (snd (storage t m), m)
  | OSetG v => (tt, put t (fst (storage t m), v) m)
  | OReset => (tt, put t ([], VNull) m)
  | OGetDc => (m_dc m t, m)
  | OSetDc dc => (tt, {| m_tls := m_tls m; m_dc := upd (m_dc m) t dc; m_syms := m_syms m; m_log := m_log m |})
  | OSym n => (tt, {| m_tls := m_tls m; m_dc := m_dc m; m_syms := n :: m_syms m; m_log := m_log m |})
  | OResolve x n => let r := cb_resolve cb (m_log m) t x n in (r, mlog t (EvResolve x n r) m)
  | OUser f l => let r := cb_user cb (m_log m) t f l in (r, mlog t (EvUser f l r) m)
  | ONow tz => let r := cb_now cb (m_log m) t tz in (r, mlog t (EvNow tz r) m)
  | ORandom b => let r := cb_random cb (m_log m) t b in (r, mlog t (EvRandom b r) m)
  end.

Section Machine.
  Context {A : Type} (cb : callbacks).
  (* conf: engine.py:635-646 on several threads *)
  Definition conf := (mem * (tid -> prog A))%type.
  (** any thread that has not finished may make the next step *)
  (* tstep: engine.py:635-646 on several threads *)
  Inductive tstep : conf -> conf -> Prop :=
  | T_op : forall m ps t o k a m', ps t = Step o k -> mem_step cb t o m = (a, m') -> tstep (m, ps) (m', upd ps t (k a))
  | T_create : forall m ps t o k, ps t = Step o k -> m_tls m t = None -> tstep (m, ps) (put t ([], VNull) m, ps).
  (* reach: engine.py:635-646 on several threads *)
  Inductive reach : conf -> conf -> Prop :=
  | R_refl : forall c, reach c c
  | R_step : forall c1 c2 c3, reach c1 c2 -> tstep c2 c3 -> reach c1 c3.
End Machine.

(** ** 2. Parsing: parser/base.py:55-82 with one shared parser object.
    A call is the sequence of what the reductions do: [Some n] builds a deferred node (parser/__init__.py:253-564, each
    reading self.context), [None] raises (p_error, a lexer error or a malformed literal).  The node stack belongs to the
    shared ply parser object. *)
Record job := { j_ctx : nat; j_acts : list (option nat) }.
Definition pnode := (nat * option nat)%type.          (* the node and the context it was bound to *)
(* outcome: parser/base.py:63-82 *)
Inductive outcome := Parsed (ns : list pnode) | Raised.
(* pc: parser/base.py:75-82 *)
Inductive pc :=
| Away                                                 (* not in parse *)
| Locked (j : job)                                     (* base.py:76 passed *)
| Bound (j : job)                                      (* base.py:77 passed *)
| Running (j : job) (acts : list (option nat))         (* inside self._parser.parse, base.py:79 *)
| Parsed_ (ns : list pnode)                            (* result computed; base.py:80 next *)
| Leaving (o : outcome).                               (* leaving the with block *)
(* pshared: parser/base.py:51-56, 75-80 *)
Record pshared := { p_lock : option tid; p_ctx : option nat; p_stack : list pnode }.
(* pthread: parser/base.py:63-82 *)
Record pthread := { t_todo : list job; t_pc : pc; t_outs : list outcome }.
(* pconf: parser/base.py:63-82 on several threads *)
Definition pconf := (pshared * (tid -> pthread))%type.
(* at_pc: parser/base.py:75-82 *)
Definition at_pc (th : pthread) (c : pc) : pthread := {| t_todo := t_todo th; t_pc := c; t_outs := t_outs th |}.

(* pstep: parser/base.py:75-82 *)
Inductive pstep : pconf -> pconf -> Prop :=
| P_acquire : forall sh ths t j r, t_pc (ths t) = Away -> t_todo (ths t) = j :: r -> p_lock sh = None ->
    pstep (sh, ths) ({| p_lock := Some t; p_ctx := p_ctx sh; p_stack := p_stack sh |},
                     upd ths t {| t_todo := r; t_pc := Locked j; t_outs := t_outs (ths t) |})
| P_bind : forall sh ths t j, t_pc (ths t) = Locked j ->
    pstep (sh, ths) ({| p_lock := p_lock sh; p_ctx := Some (j_ctx j); p_stack := p_stack sh |}, upd ths t (at_pc (ths t) (Bound j)))
| P_begin : forall sh ths t j, t_pc (ths t) = Bound j ->
    pstep (sh, ths) ({| p_lock := p_lock sh; p_ctx := p_ctx sh; p_stack := [] |}, upd ths t (at_pc (ths t) (Running j (j_acts j))))
| P_node : forall sh ths t j n l, t_pc (ths t) = Running j (Some n :: l) ->
    pstep (sh, ths) ({| p_lock := p_lock sh; p_ctx := p_ctx sh; p_stack := p_stack sh ++ [(n, p_ctx sh)] |}, upd ths t (at_pc (ths t) (Running j l)))
| P_raise : forall sh ths t j l, t_pc (ths t) = Running j (None :: l) ->
    pstep (sh, ths) (sh, upd ths t (at_pc (ths t) (Leaving Raised)))
| P_result : forall sh ths t j, t_pc (ths t) = Running j [] ->
    pstep (sh, ths) (sh, upd ths t (at_pc (ths t) (Parsed_ (p_stack sh))))
| P_clear : forall sh ths t ns, t_pc (ths t) = Parsed_ ns ->
    pstep (sh, ths) ({| p_lock := p_lock sh; p_ctx := None; p_stack := p_stack sh |}, upd ths t (at_pc (ths t) (Leaving (Parsed ns))))
| P_release : forall sh ths t o, t_pc (ths t) = Leaving o ->
    pstep (sh, ths) ({| p_lock := None; p_ctx := p_ctx sh; p_stack := p_stack sh |},
                     upd ths t {| t_todo := t_todo (ths t); t_pc := Away; t_outs := t_outs (ths t) ++ [o] |}).
(* preach: parser/base.py:63-82 on several threads *)
Inductive preach : pconf -> pconf -> Prop :=
| PR_refl : forall c, preach c c
| PR_step : forall c1 c2 c3, preach c1 c2 -> pstep c2 c3 -> preach c1 c3.
