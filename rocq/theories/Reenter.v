(** * Reenter: callbacks that evaluate and construct rules themselves

    A resolver or a function called by a rule may evaluate other rules, or construct them, before it answers.  One thread, any number of
    Contexts: each Context has its own storage for the thread (engine.py:479, 512-516) and its own set of symbols, all share the current
    decimal context of the thread (decimal.localcontext in engine.py:645).
    Simplification: clock and random source do not evaluate rules; one operation of Prog.v is one step. *)
From Verif Require Import Base Dec Value DType Types Ops ParseUtil Attr Prog Ast Eval Build Engine.
Open Scope list_scope.

(** What a callback does: it answers, or evaluates (engine.py:635) or constructs (engine.py:588) a rule on Context [c] and continues with the
    outcome. *)
(* callback: engine.py:495 (resolver), ast.py:1097 (functions) *)
Inductive callback :=
| Cb_answer (r : result value)
| Cb_evaluate (c : nat) (e : expr) (thing : value) (k : result value -> callback)
| Cb_construct (c : nat) (n : dnode) (k : result expr -> callback).

(** One Context, as seen by the thread *)
(* store: engine.py:404-417, 463 *)
Record store := { r_scopes : list asg; r_groups : value; r_syms : list str }.
(* gst: all Contexts and the decimal context of the thread; ghost: the callbacks made on each Context, most recent first, and whether a
   Context was entered by a callback of its own evaluation *)
Record gst := { g_store : nat -> store; g_dc : dctx; g_log : list (nat * event); g_again : bool }.
(* nworld: engine.py:495, ast.py:1097, builtins.py:57-62, 159 *)
Record nworld := {
  n_resolve : list (nat * event) -> nat -> value -> str -> callback;
  n_user : list (nat * event) -> nat -> N -> list value -> callback;
  n_now : list (nat * event) -> nat -> N -> Z;
  n_random : list (nat * event) -> nat -> option Z -> value
}.

(* set_store: engine.py:512-516 *)
Definition set_store (c : nat) (x : store) (g : gst) : gst :=
  {| g_store := fun d => if Nat.eqb d c then x else g_store g d; g_dc := g_dc g; g_log := g_log g; g_again := g_again g |}.
(* glog: bookkeeping of the callbacks called *)
Definition glog (c : nat) (e : event) (g : gst) : gst :=
  {| g_store := g_store g; g_dc := g_dc g; g_log := (c, e) :: g_log g; g_again := g_again g |}.
(* enter: bookkeeping of re-entered Contexts *)
Definition enter (busy : list nat) (c : nat) (g : gst) : gst :=
  {| g_store := g_store g; g_dc := g_dc g; g_log := g_log g; g_again := g_again g || existsb (Nat.eqb c) busy |}.

Section Run.
Context {Orc : Oracle} (Cs : nat -> ctx) (nw : nworld).

(** an operation that runs no callback; the lines are those cited at [op] in Prog.v *)
(* own_step: the lines cited at [op] in Prog.v *)
Definition own_step (c : nat) (o : op) (g : gst) : option (ans o * gst) :=
  let x := g_store g c in
  match o as o0 return option (ans o0 * gst) with
  | OPush a => Some (tt, set_store c {| r_scopes := r_scopes x ++ [a]; r_groups := r_groups x; r_syms := r_syms x |} g)
  | OPop => Some (match r_scopes x with
                  | [] => (Err PIndex, g)
                  | _ :: _ => (Ok tt, set_store c {| r_scopes := removelast (r_scopes x); r_groups := r_groups x; r_syms := r_syms x |} g)
                  end)
  | OScopes => Some (r_scopes x, g)
  | OGetG => Some (r_groups x, g)
  | OSetG v => Some (tt, set_store c {| r_scopes := r_scopes x; r_groups := v; r_syms := r_syms x |} g)
  | OReset => Some (tt, set_store c {| r_scopes := []; r_groups := VNull; r_syms := r_syms x |} g)
  | OGetDc => Some (g_dc g, g)
  | OSetDc dc => Some (tt, {| g_store := g_store g; g_dc := dc; g_log := g_log g; g_again := g_again g |})
  | OSym n => Some (tt, set_store c {| r_scopes := r_scopes x; r_groups := r_groups x; r_syms := n :: r_syms x |} g)
  | ONow tz => let r := n_now nw (g_log g) c tz in Some (r, glog c (EvNow tz r) g)
  | ORandom b => let r := n_random nw (g_log g) c b in Some (r, glog c (EvRandom b r) g)
  | OResolve _ _ | OUser _ _ => None
  end.

(** Executing the program [p] on Context [c] while evaluations on the Contexts [busy] (with [c]) are under way.  [n] bounds the number of
    steps: no result means that the program did not end within them. *)
(* nrun, cbrun: engine.py:588-599, 635-646 *)
Fixpoint nrun (n : nat) {A} (busy : list nat) (c : nat) (p : prog A) (g : gst) {struct n} : option (result A * gst) :=
  match n with
  | O => None
  | S m =>
      match p with
      | Ret r => Some (r, g)
      | Step o k =>
          match o as o0 return (ans o0 -> prog A) -> option (result A * gst) with
          | OResolve t nm => fun k =>
              match cbrun m busy (n_resolve nw (g_log g) c t nm) g with
              | Some (r, g') => nrun m busy c (k r) (glog c (EvResolve t nm r) g')
              | None => None
              end
          | OUser f l => fun k =>
              match cbrun m busy (n_user nw (g_log g) c f l) g with
              | Some (r, g') => nrun m busy c (k r) (glog c (EvUser f l r) g')
              | None => None
              end
          | o0 => fun k => match own_step c o0 g with Some (a, g') => nrun m busy c (k a) g' | None => None end
          end k
      end
  end
with cbrun (n : nat) (busy : list nat) (cb : callback) (g : gst) {struct n} : option (result value * gst) :=
  match n with
  | O => None
  | S m =>
      match cb with
      | Cb_answer r => Some (r, g)
      | Cb_evaluate c e thing k =>
          match nrun m (c :: busy) c (rule_evaluate (Cs c) e thing) (enter busy c g) with
          | Some (r, g') => cbrun m busy (k r) g'
          | None => None
          end
      | Cb_construct c n k =>
          match nrun m (c :: busy) c (rule_new (Cs c) n) (enter busy c g) with
          | Some (r, g') => cbrun m busy (k r) g'
          | None => None
          end
      end
  end.
End Run.
