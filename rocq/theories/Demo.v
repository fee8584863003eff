(** * Demo: one concrete context, world and set of library answers, used only to show that the hypotheses of the
    theorems can be met *)
From Coq Require Import Permutation String.
From Verif Require Import Base Dec Value DType Types Ops ParseUtil Attr Prog Ast Eval Build Engine.
Open Scope list_scope.
Open Scope Z_scope.

Definition demo_tz : TzDb := {| utcoff := fun _ _ => 0; tz_fold := fun _ _ => false |}.

(** "regular expressions" that are literal text followed by an optional group: a pattern matches itself as a prefix (infix
    when searching); the rest of the text is group 1 *)
Definition demo_re (fl : Z) (search : bool) (p t : str) : option (list (option str)) :=
  if is_prefix p t then Some [Some (skipn (length p) t)]
  else if search && is_infix p t then Some [None] else None.

#[export] Instance demo_orc : Oracle := {|
  o_tz := demo_tz;
  o_set_order := fun l => l;
  o_set_order_perm := fun l => Permutation_refl l;
  o_re_ok := fun _ p => negb (str_eqb p (s "["));
  o_re := demo_re;
  o_lower := fun t => t; o_upper := fun t => t;
  o_space := fun c => (c =? 32)%N; o_digit := fun _ => None;
  o_decode := fun _ b => Ok b; o_encode := fun _ t => Ok t;
  o_isoparse := fun _ => None; o_pylit := fun _ => None;
  o_pow := fun _ _ _ => None; o_timestamp := fun _ => FNaN; o_tzname := fun _ _ => None;
  o_suggest := fun _ l => match l with [] => None | x :: _ => Some x end
|}.

(** decimal.getcontext() of a fresh thread *)
Definition demo_dc : dctx := dctx_default.

Definition demo_ctx (types : str -> result dtype) : ctx :=
  {| c_flags := 0; c_tz := 1%N; c_default := None; c_dec := demo_dc; c_types := types;
     c_bvals := default_values; c_btypes := default_types; c_btz := 1%N |}.
Definition untyped_ctx : ctx := demo_ctx (fun _ => Ok TUndef).

Definition demo_world : world :=
  default_world (fun _ _ args => match args with [v] => Ok v | _ => Err PType end) (fun _ _ => 63000000000000000) (fun _ _ => VInt 4).

Definition num (z : Z) : value := VDec (dec_of_Z z).
Definition sym (n : string) : expr := ESym (s n) false TUndef.
Definition demo_thing : value :=
  VDict [(VStr (s "n"), VInt 3); (VStr (s "name"), VStr (s "Luke")); (VStr (s "xs"), VList [VInt 1; VInt 2; VNull]);
         (VStr (s "on"), VBool true)].
Definition demo_st : st := st_init demo_dc.
