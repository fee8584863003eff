(** * Generator: Rule.filter as the lazy generator it is (engine.py:607-614) *)
From Verif Require Import Base Dec Value DType Types Ops Attr Prog Ast Eval Build Engine.

(** What the iterator over [things] answers at its n-th call: it may go on for ever, and it may raise.
    Simplification: the iterator is a function of the position only; it does not use the engine. *)
(* item: engine.py:614 "for thing in things" *)
Inductive item := Item (v : value) | End | Broken (x : exn).
(* source: engine.py:607 things *)
Definition source := nat -> item.

(** The suspended generator: the position of its source, and whether it has ended. *)
(* gen: engine.py:614, a Python generator object *)
Record gen := { g_pos : nat; g_done : bool }.
(** Calling filter runs none of its body. *)
(* filter_new: engine.py:607 *)
Definition filter_new : gen := {| g_pos := 0; g_done := false |}.
(* answer: the outcomes of next() *)
Inductive answer := Yields (v : value) | Stops | Raises (x : exn).

Section Generator.
Context {Orc : Oracle} (C : ctx) (e : expr) (w : world) (src : source).

(** One call of next(): [next g q a g' q'].  A call need not return if the source is endless.
    Simplification: a StopIteration raised by a callback (which Python turns into RuntimeError) counts as the exception it is. *)
(* next: engine.py:614 *)
Inductive next : gen -> st -> answer -> gen -> st -> Prop :=
| N_done : forall g q, g_done g = true -> next g q Stops g q
| N_end : forall g q, g_done g = false -> src (g_pos g) = End -> next g q Stops {| g_pos := g_pos g; g_done := true |} q
| N_broken : forall g q x, g_done g = false -> src (g_pos g) = Broken x -> next g q (Raises x) {| g_pos := g_pos g; g_done := true |} q
| N_match : forall g q v q', g_done g = false -> src (g_pos g) = Item v -> run w (rule_matches C e v) q = (Ok true, q') ->
    next g q (Yields v) {| g_pos := S (g_pos g); g_done := false |} q'
| N_skip : forall g q v q1 a g' q', g_done g = false -> src (g_pos g) = Item v -> run w (rule_matches C e v) q = (Ok false, q1) ->
    next {| g_pos := S (g_pos g); g_done := false |} q1 a g' q' -> next g q a g' q'
| N_error : forall g q v x q', g_done g = false -> src (g_pos g) = Item v -> run w (rule_matches C e v) q = (Err x, q') ->
    next g q (Raises x) {| g_pos := S (g_pos g); g_done := true |} q'.

(** A consumer: calls of next() with anything happening in between.  What happens in between is an arbitrary new state: the same
    thread may have evaluated other rules of the Context, or resumed other generators, and have changed its decimal context. *)
(* consumes: any program using the generator *)
Inductive consumes : gen -> st -> list answer -> gen -> Prop :=
| Co_nil : forall g q, consumes g q [] g
| Co_next : forall g q a g1 q1 q2 l g', next g q a g1 q1 -> consumes g1 q2 l g' -> consumes g q (a :: l) g'.
End Generator.
