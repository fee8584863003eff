(** * Ast: expression nodes and their result types (ast.py) *)
From Verif Require Import Base Dec Value DType Types Ops Attr Prog.
Open Scope Z_scope.

(** builtin values (builtins.py:156-183, engine.py:484-488): constants or BuiltinValueGenerators, of which [BVgen g] is one written
    by the user: calling it is calling the user's function g (its only argument, the Builtins object, is left out).  Namespaces (nested
    mappings of builtins, builtins.py:126-133, 138-148) are constants; generators inside namespaces are not modelled. *)
Inductive bval := BVconst (v : value) | BVnow | BVtoday | BVgroups | BVgen (g : N).

(** engine.py:419-495 Context; the resolver callback is part of [world]. *)
Record ctx := {
  c_flags : Z;                             (* regex_flags *)
  c_tz : N;                                (* default_timezone *)
  c_default : option value;                (* default_value; None = UNDEFINED *)
  c_dec : dctx;                            (* decimal_context *)
  c_types : str -> result dtype;           (* type_resolver *)
  c_bvals : list (str * bval);             (* builtins *)
  c_btypes : list (str * dtype);
  c_btz : N                                (* builtins.timezone; default_timezone unless context.builtins was replaced *)
}.

(* binop: ast.py:409-672 *)
Inductive binop :=
| BAdd | BSub | BArith (o : arith) | BBit (o : bitop) | BAndL | BOrL
| BEq | BNe | BCmp (o : cop) | BFuzzy (search neg : bool).
(* unop: ast.py:1217-1275 *)
Inductive unop := UNot | UMinus.

(* expr: ast.py:153-1275 *)
Inductive expr : Type :=
| ELit (v : value)                                        (* scalar literal expressions, ast.py:235-343 *)
| EFun (v : value) (t : dtype)                            (* FunctionExpression with a specialised type, ast.py:828-834 *)
| EArr (l : list expr)                                    (* ArrayExpression *)
| ESet (l : list expr)                                    (* SetExpression *)
| EMap (l : list (expr * expr))                           (* MappingExpression *)
| EBin (o : binop) (a b : expr)                           (* LeftOperatorRightExpressionBase subclasses *)
| EComp (res : expr) (var : str) (it : expr) (cond : option expr)
| EIn (c m : expr)
| EAttr (o : expr) (name : str) (safe : bool)
| EItem (c i : expr) (safe : bool)
| ESlice (c a b : expr) (safe : bool)
| ESym (name : str) (builtin : bool) (t : dtype)
| ECall (f : expr) (args : list expr)
| ETern (c a b : expr)
| EUn (o : unop) (e : expr).

(* opt_P: proof principle *)
Definition opt_P (P : expr -> Prop) (o : option expr) : Prop := match o with Some e => P e | None => True end.

Section expr_ind.
  Variable P : expr -> Prop.
  Hypothesis Hlit : forall v, P (ELit v).
  Hypothesis Hfun : forall v t, P (EFun v t).
  Hypothesis Harr : forall l, Forall P l -> P (EArr l).
  Hypothesis Hset : forall l, Forall P l -> P (ESet l).
  Hypothesis Hmap : forall l, Forall (fun kv => P (fst kv) /\ P (snd kv)) l -> P (EMap l).
  Hypothesis Hbin : forall o a b, P a -> P b -> P (EBin o a b).
  Hypothesis Hcomp : forall r v i c, P r -> P i -> opt_P P c -> P (EComp r v i c).
  Hypothesis Hin : forall c m, P c -> P m -> P (EIn c m).
  Hypothesis Hattr : forall o n sf, P o -> P (EAttr o n sf).
  Hypothesis Hitem : forall c i sf, P c -> P i -> P (EItem c i sf).
  Hypothesis Hslice : forall c a b sf, P c -> P a -> P b -> P (ESlice c a b sf).
  Hypothesis Hsym : forall n b t, P (ESym n b t).
  Hypothesis Hcall : forall f l, P f -> Forall P l -> P (ECall f l).
  Hypothesis Htern : forall c a b, P c -> P a -> P b -> P (ETern c a b).
  Hypothesis Hun : forall o e, P e -> P (EUn o e).
  (* expr_ind: proof principle *)
  Fixpoint expr_ind' (e : expr) : P e :=
    let fix all (l : list expr) : Forall P l :=
      match l with [] => Forall_nil _ | x :: r => Forall_cons _ (expr_ind' x) (all r) end in
    let fix allp (l : list (expr * expr)) : Forall (fun kv => P (fst kv) /\ P (snd kv)) l :=
      match l with
      | [] => Forall_nil _
      | x :: r => Forall_cons _ (conj (expr_ind' (fst x)) (expr_ind' (snd x))) (allp r)
      end in
    match e with
    | ELit v => Hlit v
    | EFun v t => Hfun v t
    | EArr l => Harr l (all l)
    | ESet l => Hset l (all l)
    | EMap l => Hmap l (allp l)
    | EBin o a b => Hbin o a b (expr_ind' a) (expr_ind' b)
    | EComp r v i c => Hcomp r v i c (expr_ind' r) (expr_ind' i)
                         (match c as c0 return opt_P P c0 with Some x => expr_ind' x | None => I end)
    | EIn c m => Hin c m (expr_ind' c) (expr_ind' m)
    | EAttr o n sf => Hattr o n sf (expr_ind' o)
    | EItem c i sf => Hitem c i sf (expr_ind' c) (expr_ind' i)
    | ESlice c a b sf => Hslice c a b sf (expr_ind' c) (expr_ind' a) (expr_ind' b)
    | ESym n b t => Hsym n b t
    | ECall f l => Hcall f l (expr_ind' f) (all l)
    | ETern c a b => Htern c a b (expr_ind' c) (expr_ind' a) (expr_ind' b)
    | EUn o e => Hun o e (expr_ind' e)
    end.
End expr_ind.

(** ast.py:65-71 _is_reduced, 214-216, 313-316 *)
Fixpoint is_reduced (e : expr) : bool :=
  match e with
  | ELit _ | EFun _ _ => true
  | EArr l | ESet l => forallb is_reduced l
  | EMap l => forallb (fun kv => is_reduced (fst kv) && is_reduced (snd kv)) l
  | _ => false
  end.

(** type of a scalar literal expression; [TUndef] never occurs for the literals the parser or folding creates *)
(* lit_type: ast.py:153-343 *)
Definition lit_type (v : value) : dtype := match from_value v with Ok t => t | Err _ => TUndef end.

(** ast.py:414-428 *)
Definition add_type (a b : dtype) : result dtype :=
  if negb (is_undef a) && negb (is_undef b) then
    if dt_eqb a TDatetime then (if dt_eqb b TTimedelta then Ok a else Err XEval)
    else if dt_eqb a TTimedelta then (if dt_eqb b TDatetime || dt_eqb b TTimedelta then Ok b else Err XEval)
    else if dt_eqb a b then Ok a else Err XEval
  else Ok TUndef.

(** ast.py:456-473 *)
Definition sub_type (a b : dtype) : result dtype :=
  if negb (is_undef a) && negb (is_undef b) then
    if dt_eqb a TDatetime then
      (if dt_eqb b TDatetime then Ok TTimedelta else if dt_eqb b TTimedelta then Ok TDatetime else Err XEval)
    else if dt_eqb a TTimedelta then (if dt_eqb b TTimedelta then Ok a else Err XEval)
    else if dt_eqb a b then Ok a else Err XEval
  else Ok TUndef.

(** [a.__class__ != b.__class__]: scalar types share _DataTypeDef (types.py:179-382) *)
Definition same_class (a b : dtype) : bool :=
  match a, b with
  | TUndef, TUndef => true
  | TArray _ _, TArray _ _ | TSet _ _, TSet _ _ | TMap _ _ _, TMap _ _ _ | TFun _ _ _ _, TFun _ _ _ _ => true
  | (TUndef | TArray _ _ | TSet _ _ | TMap _ _ _ | TFun _ _ _ _), _ => false
  | _, (TUndef | TArray _ _ | TSet _ _ | TMap _ _ _ | TFun _ _ _ _) => false
  | _, _ => true
  end.

(** ast.py:517-532 (the result type part) *)
Definition bit_type (o : bitop) (a b : dtype) : dtype :=
  if is_set_t a || is_set_t b then t_set
  else if dt_eqb a TFloat || dt_eqb b TFloat then TFloat
  else if is_shift o then TFloat else TUndef.

Definition ok_or {A} (d : A) (r : result A) : A := match r with Ok a => a | Err _ => d end.

Definition bin_type (o : binop) (a b : dtype) : dtype :=
  match o with
  | BAdd => ok_or TUndef (add_type a b)
  | BSub => ok_or TUndef (sub_type a b)
  | BArith _ => TFloat
  | BBit o => bit_type o a b
  | _ => TBool
  end.

(** ast.py:844-881 *)
Definition item_type (c : dtype) : dtype :=
  match c with TBytes => TFloat | TString => TString | TArray m _ => m | TMap _ v _ => v | _ => TUndef end.
(** ast.py:927-956 *)
Definition slice_type (c : dtype) : dtype :=
  match c with TBytes => TBytes | TString => TString | TArray _ _ => c | _ => TUndef end.
(** ast.py:1175-1191 *)
Definition tern_type (a b : dtype) : dtype :=
  if dt_eqb a b then a else if is_array_t a && is_array_t b then t_array else TUndef.

Section RType.
Context {Orc : Oracle}.

(** ast.py:769-792 *)
Definition attr_rtype (t : dtype) (name : str) (safe : bool) : dtype :=
  if is_undef t || (dt_eqb t TNull && safe) then TUndef else ok_or TUndef (resolve_attr_type t name).

(** The result_type attribute of a constructed node. *)
(* rtype: the result_type attributes, ast.py:139-1275 *)
Fixpoint rtype (e : expr) : dtype :=
  match e with
  | ELit v => lit_type v
  | EFun _ t => t
  | EArr l => TArray (member_type (map rtype l)) true
  | ESet l => TSet (member_type (map rtype l)) true
  | EMap l => TMap (member_type (map (fun kv => rtype (fst kv)) l)) (member_type (map (fun kv => rtype (snd kv)) l)) true
  | EBin o a b => bin_type o (rtype a) (rtype b)
  | EComp r _ _ _ => TArray (rtype r) true
  | EIn _ _ => TBool
  | EAttr o n sf => attr_rtype (rtype o) n sf
  | EItem c _ _ => item_type (rtype c)
  | ESlice c _ _ _ => slice_type (rtype c)
  | ESym _ _ t => t
  | ECall f _ => match rtype f with TFun _ r _ _ => r | _ => TUndef end
  | ETern _ a b => tern_type (rtype a) (rtype b)
  | EUn UNot _ => TBool
  | EUn UMinus e => rtype e
  end.
End RType.
