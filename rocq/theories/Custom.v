(** * Custom: changing the builtin symbols (builtins.py:100-214; docs: "Changing Builtin Symbols") *)
From Verif Require Import Base Dec Value DType Types Ops Attr Prog Ast Eval Build Engine.
Open Scope Z_scope.

(** dict.update: keys keep their first position, the later value wins *)
(* sput: builtins.py:181, 212 *)
Fixpoint sput {A} (l : list (str * A)) (k : str) (v : A) : list (str * A) :=
  match l with [] => [(k, v)] | (k', v') :: r => if str_eqb k k' then (k', v) :: r else (k', v') :: sput r k v end.
(* supdate: builtins.py:181, 212 *)
Definition supdate {A} (l m : list (str * A)) : list (str * A) := fold_left (fun l kv => sput l (fst kv) (snd kv)) m l.

(** The arguments: values are constants (also functions and mappings, which become namespaces: a Builtins object is read as the
    mapping it is, builtins.py:138-149) or generators.  Simplification:
    generators inside namespaces are not modelled. *)
(* builtins: builtins.py:100-124 *)
Record builtins := { b_values : list (str * bval); b_types : list (str * dtype); b_tz : N }.
(* builtins_new: builtins.py:104-124 Builtins.__init__ *)
Definition builtins_new (tz_local : N) (values : list (str * bval)) (types : list (str * dtype)) (timezone : option N) : builtins :=
  {| b_values := values; b_types := types; b_tz := match timezone with Some z => z | None => tz_local end |}.

(** builtins.py:161-180: the defaults without re_groups *)
(* own_values: builtins.py:161-180 *)
Definition own_values : list (str * bval) := removelast default_values.
(* own_types: builtins.py:182-211 *)
Definition own_types : list (str * dtype) := removelast default_types.
(* from_defaults: builtins.py:156-214 *)
Definition from_defaults (tz_local : N) (values : list (str * bval)) (types : list (str * dtype)) (timezone : option N) : builtins :=
  builtins_new tz_local (supdate own_values values) (supdate own_types types) timezone.

(** context.builtins = b *)
(* with_builtins: engine.py:484-489, documentation *)
Definition with_builtins (C : ctx) (b : builtins) : ctx :=
  {| c_flags := c_flags C; c_tz := c_tz C; c_default := c_default C; c_dec := c_dec C; c_types := c_types C; c_bvals := b_values b; c_btypes := b_types b; c_btz := b_tz b |}.

(** engine.py:484-488: the standard context is made this way *)
Example standard_builtins : forall tz_local z,
  from_defaults tz_local [(s "re_groups", BVgroups)] [(s "re_groups", TArray TString true)] (Some z) = {| b_values := default_values; b_types := default_types; b_tz := z |}.
Proof. reflexivity. Qed.
