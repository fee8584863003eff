(** * Getattr: the resolver for objects with attributes (engine.py:57-73) *)
From Verif Require Import Base Dec Value DType Types Ops ParseUtil Attr Prog Ast Eval Build Engine.

(** Python's view of an object: getattr(object, name), which may run code of the object (a property, __getattr__), and dir(object).
    resolve_attribute calls getattr twice, the first time through hasattr; the calls are distinguished by [second], and may answer
    differently. *)
(* pyobj: engine.py:71-73 hasattr, getattr, dir *)
Record pyobj := {
  py_getattr : list event -> bool -> value -> str -> result value;
  py_dir : value -> list str
}.

Section Getattr.
Context {Orc : Oracle} (P : pyobj).

(** engine.py:57-73.  hasattr is False exactly if getattr raises AttributeError; any other exception propagates. *)
(* resolve_attribute: engine.py:57-73 *)
Definition resolve_attribute (l : list event) (thing : value) (name : str) : result value :=
  match py_getattr P l false thing name with
  | Err PAttribute => Err (XSymRes name (o_suggest name (py_dir P thing)))
  | Err x => Err x
  | Ok _ => py_getattr P l true thing name
  end.

(** Context(resolver=resolve_attribute) *)
(* attribute_world: engine.py:452-495 with resolver=resolve_attribute *)
Definition attribute_world (usr : list event -> N -> list value -> result value) (now : list event -> N -> Z)
    (rnd : list event -> option Z -> value) : world :=
  {| w_resolve := resolve_attribute; w_user := usr; w_now := now; w_random := rnd |}.
End Getattr.
