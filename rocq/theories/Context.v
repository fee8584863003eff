(** * Context: constructing a Context (engine.py:101-114, 424-495) *)
From Coq Require Import String.
From Verif Require Import Base Dec Value DType Types Ops ParseUtil Attr Prog Ast Eval Build Engine.
Open Scope Z_scope.

(** The default_timezone argument: a text, a tzinfo object, or anything else. *)
(* tz_arg: engine.py:469-477 *)
Inductive tz_arg := TzText (t : str) | TzInfo (z : N) | TzOther.

(** The type_resolver argument: None, a mapping from names to definitions or example values, or a callback.
    Simplification: the keys of the mapping are texts (others are never asked for). *)
(* types_arg: engine.py:491-494 *)
Inductive types_arg := TypesNone | TypesDict (m : list (str * (dtype + value))) | TypesFun (f : str -> result dtype).

(** The keyword arguments of Context; [a_dec] and the creating thread's decimal context are objects, given by their number. *)
(* context_args: engine.py:424-433 *)
Record context_args := {
  a_flags : Z;
  a_types : types_arg;
  a_tz : tz_arg;
  a_default : option value;
  a_dec : option N
}.

(** The default arguments *)
(* no_args: engine.py:424-433 *)
Definition no_args : context_args := {| a_flags := 0; a_types := TypesNone; a_tz := TzText (s "local"); a_default := None; a_dec := None |}.

(** What construction leaves: everything but the decimal context, which is a reference to an object. *)
(* context: engine.py:462-495 *)
Record context := { x_flags : Z; x_tz : N; x_default : option value; x_dec : N; x_types : str -> result dtype }.

Section Context.
Context {Orc : Oracle}.
Variables (tz_local tz_utc : N).    (* dateutil.tz.tzlocal(), dateutil.tz.tzutc() *)

(* tz_of: engine.py:469-477 *)
Definition tz_of (a : tz_arg) : result N :=
  match a with
  | TzText t =>
      let l := py_lower t in
      if str_eqb l (s "local") then Ok tz_local
      else if str_eqb l (s "utc") then Ok tz_utc
      else Err PValue
  | TzInfo z => Ok z
  | TzOther => Err PType
  end.

(* types_of: engine.py:101-114, 491-494 *)
Definition types_of (a : types_arg) : result (str -> result dtype) :=
  match a with
  | TypesNone => Ok (fun _ => Ok TUndef)
  | TypesDict m => rmap type_resolver_of (type_map_of m)
  | TypesFun f => Ok f
  end.

(** [cur] is the current decimal context object of the creating thread *)
(* context_new: engine.py:424-495 *)
Definition context_new (cur : N) (a : context_args) : result context :=
  rbind (tz_of (a_tz a)) (fun z =>
  rbind (types_of (a_types a)) (fun f =>
  Ok {| x_flags := a_flags a; x_tz := z; x_default := a_default a; x_dec := match a_dec a with Some d => d | None => cur end; x_types := f |})).

(** The context as a rule sees it while [heap] gives the settings of the decimal context objects (Rule.evaluate copies the
    object it refers to: engine.py:645, decimal.localcontext) *)
(* seen: engine.py:482-495, 645 *)
Definition seen (x : context) (heap : N -> dctx) : ctx :=
  {| c_flags := x_flags x; c_tz := x_tz x; c_default := x_default x; c_dec := heap (x_dec x); c_types := x_types x;
     c_bvals := default_values; c_btypes := default_types; c_btz := x_tz x |}.
End Context.
