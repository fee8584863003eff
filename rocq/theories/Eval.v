(** * Eval: builtin functions (builtins.py) and evaluation of nodes (ast.py) *)
From Verif Require Import Base Dec Value DType Types Ops ParseUtil Attr Prog Ast.
Open Scope Z_scope.

Section Eval.
Context {Orc : Oracle} (C : ctx).

(** ** Builtin functions (builtins.py:48-84, 156-183) *)

(** [sum(l)]: 0 + l[0] + l[1] + ... *)
(* sum_add: builtins.py:172 *)
Definition sum_add (dc : dctx) (acc x : value) : result value :=
  match acc, x with
  | VInt a, VInt b => Ok (VInt (a + b))
  | VInt a, VBool b => Ok (VInt (a + bool_z b))
  | VDec a, VBool b => rdec (dadd dc a (dec_of_Z (bool_z b)))
  | _, _ => if is_numeric x then rdec (dadd dc (as_dec acc) (as_dec x)) else Err PType
  end.
(* sum_list: builtins.py:172 *)
Fixpoint sum_list (dc : dctx) (acc : value) (l : list value) : result value :=
  match l with [] => Ok acc | x :: r => rbind (sum_add dc acc x) (fun a => sum_list dc a r) end.

(** [max(l)] ([o] = Cgt) and [min(l)] ([o] = Clt): the first extremal element *)
(* extremum: builtins.py:174-175 *)
Fixpoint extremum (o : cop) (best : value) (l : list value) : result value :=
  match l with
  | [] => Ok best
  | x :: r => rbind (py_ord o x best) (fun b => extremum o (if b then x else best) r)
  end.

(** [abs(v)] *)
(* py_abs: builtins.py:169 *)
Definition py_abs (dc : dctx) (v : value) : result value :=
  match v with
  | VDec d => rdec (dabs dc d)
  | VInt z => Ok (VInt (Z.abs z))
  | VBool b => Ok (VInt (bool_z b))
  | VFlt (FFin m e d) => Ok (VFlt (FFin (Z.abs m) e (match d with DFin _ c x => DFin false c x | _ => d end)))
  | VFlt (FInf _) => Ok (VFlt (FInf false))
  | VFlt FNaN => Ok v
  | VTd u => mk_td (Z.abs u)
  | _ => Err PType
  end.

(** [range(a, b, st)] for [st <> 0] *)
(* range_up: builtins.py:64-75 *)
Fixpoint range_up (n : nat) (a st : Z) : list Z :=
  match n with O => [] | S m => a :: range_up m (a + st) st end.
(* range_len: builtins.py:64-75 *)
Definition range_len (a b st : Z) : Z :=
  if 0 <? st then (if a <? b then (b - a - 1) / st + 1 else 0)
  else (if b <? a then (a - b - 1) / (- st) + 1 else 0).
(* py_range: builtins.py:64-75 *)
Definition py_range (a b st : Z) : list Z := range_up (Z.to_nat (range_len a b st)) a st.

(** builtins.py:64-75 _builtin_range *)
Definition b_range (args : list value) : result value :=
  let go (start : value) (stop step : option value) : result value :=
    let tr v := match v with Some x => truthy x | None => false end in
    rbind (is_integer_number start) (fun b =>
    if negb b then Err XFunCall
    else match stop with
         | Some sp =>
             if truthy sp then
               rbind (is_integer_number sp) (fun b =>
               if negb b then Err XFunCall
               else match step with
                    | Some se =>
                        if truthy se then
                          rbind (is_integer_number se) (fun b =>
                          if negb b then Err XFunCall
                          else Ok (VList (map VInt (py_range (to_int start) (to_int sp) (to_int se)))))
                        else Ok (VList (map VInt (py_range (to_int start) (to_int sp) 1)))
                    | None => Ok (VList (map VInt (py_range (to_int start) (to_int sp) 1)))
                    end)
             else Ok (VList (map VInt (py_range 0 (to_int start) 1)))
         | None => Ok (VList (map VInt (py_range 0 (to_int start) 1)))
         end) in
  match args with
  | [a] => go a None None
  | [a; b] => go a (Some b) None
  | [a; b; c] => go a (Some b) (Some c)
  | _ => Err PType
  end.

(** [str.split(sep, maxsplit)] for a non-empty separator; [None] = unlimited.  [skip] characters of a separator
    already recognised are still to be dropped; [cur] is the current piece, reversed. *)
(* limit_dec: builtins.py:77-84 *)
Definition limit_dec (k : option nat) : option nat := match k with Some n => Some (pred n) | None => None end.
(* limit_zero: builtins.py:77-84 *)
Definition limit_zero (k : option nat) : bool := match k with Some O => true | _ => false end.
(* split_sep: builtins.py:77-84 *)
Fixpoint split_sep (sep : str) (k : option nat) (skip : nat) (cur t : str) : list str :=
  match t with
  | [] => [rev cur]
  | c :: r =>
      match skip with
      | S m => split_sep sep k m cur r
      | O => if negb (limit_zero k) && is_prefix sep t
             then rev cur :: split_sep sep (limit_dec k) (length sep - 1) [] r
             else split_sep sep k O (c :: cur) r
      end
  end.

(** [str.split(None, maxsplit)]: runs of non-whitespace; after maxsplit pieces the (left-stripped) rest is one
    piece. *)
(* split_ws: builtins.py:77-84 *)
Fixpoint split_ws (sp : N -> bool) (k : option nat) (cur : option str) (t : str) : list str :=
  match t with
  | [] => match cur with Some p => [rev p] | None => [] end
  | c :: r =>
      match cur with
      | Some p => if sp c then rev p :: split_ws sp (limit_dec k) None r else split_ws sp k (Some (c :: p)) r
      | None => if sp c then split_ws sp k None r
                else if limit_zero k then [t]
                else split_ws sp k (Some [c]) r
      end
  end.

(* bytes_space: builtins.py:77-84 *)
Definition bytes_space (c : N) : bool := ((c =? 32) || in_range 9 13 c)%N.

(** builtins.py:77-84 _builtins_split *)
Definition b_split (args : list value) : result value :=
  let go (str_ : value) (sep : value) (maxs : value) : result value :=
    rbind (match maxs with
           | VNull => Ok None
           | _ => rbind (is_natural_number maxs) (fun b => if b then Ok (Some (Z.to_nat (to_int maxs))) else Err XFunCall)
           end) (fun k =>
    match str_, sep with
    | VStr t, VNull => Ok (VArr (map VStr (split_ws o_space k None t)))
    | VStr t, VStr [] => Err PValue
    | VStr t, VStr p => Ok (VArr (map VStr (split_sep p k 0 [] t)))
    | VBytes t, VNull => Ok (VArr (map VBytes (split_ws bytes_space k None t)))
    | VBytes t, VBytes [] => Err PValue
    | VBytes t, VBytes p => Ok (VArr (map VBytes (split_sep p k 0 [] t)))
    | _, _ => Err PType
    end) in
  match args with
  | [a] => go a VNull VNull
  | [a; b] => go a b VNull
  | [a; b; c] => go a b c
  | _ => Err PType
  end.

Definition callable (v : value) : bool :=
  match v with VFun _ | VBFun _ | VMeth _ _ => true | _ => false end.

(** builtins.py:57-62 _builtin_random *)
Definition b_random (args : list value) : prog value :=
  match args with
  | [] => act (ORandom None)
  | [b] =>
      if truthy b then
        do! n := Ret (is_natural_number b) in
        if n then act (ORandom (Some (to_int b))) else raise XFunCall
      else act (ORandom None)
  | _ => raise PType
  end.

(** Calling a builtin that does not call functions itself. *)
(* apply_first_order: builtins.py:48-84, 161-183 *)
Definition apply_first_order (f : bfun) (args : list value) : prog value :=
  match f, args with
  | BFabs, [v] => do! dc := act OGetDc in Ret (py_abs dc v)
  | BFany, [v] => Ret (rmap (fun l => VBool (existsb truthy l)) (py_iter v))
  | BFall, [v] => Ret (rmap (fun l => VBool (forallb truthy l)) (py_iter v))
  | BFsum, [v] => do! dc := act OGetDc in Ret (rbind (py_iter v) (sum_list dc (VInt 0)))
  | BFmax, [v] => Ret (rbind (py_iter v) (fun l => match l with [] => Err PValue | x :: r => extremum Cgt x r end))
  | BFmin, [v] => Ret (rbind (py_iter v) (fun l => match l with [] => Err PValue | x :: r => extremum Clt x r end))
  | BFparse_datetime, [VStr t] => Ret (parse_datetime t (c_btz C))
  | BFparse_float, [VStr t] => Ret (rmap VDec (parse_float t))
  | BFparse_timedelta, [VStr t] => Ret (parse_timedelta t)
  | BFrandom, _ => b_random args
  | BFrange, _ => Ret (b_range args)
  | BFsplit, _ => Ret (b_split args)
  | _, _ => raise PType
  end.

(** [f( *args)] where [f] is not map or filter called with two arguments (those need two arguments, so map and filter
    applied element-wise by another map or filter raise TypeError). *)
(* apply_flat: ast.py:1097, builtins.py:48-84 *)
Definition apply_flat (f : value) (args : list value) : prog value :=
  match f with
  | VFun n => actr (OUser n args) (fun r => r)
  | VBFun b => apply_first_order b args
  | VMeth m self => match args with [a] => Ret (meth_call m self a) | _ => raise PType end
  | _ => raise PType
  end.

(** builtins.py:48-55 and all other calls.  [filter(None, l)] keeps the truthy members. *)
Definition apply_fun (f : value) (args : list value) : prog value :=
  match f, args with
  | VBFun BFmap, [g; it] =>
      do! l := Ret (py_iter it) in
      do! r := pmapM (fun x => apply_flat g [x]) l in ok (VArr r)
  | VBFun BFfilter, [g; it] =>
      do! l := Ret (py_iter it) in
      do! r := pmapM (fun x => do! b := (match g with VNull => ok x | _ => apply_flat g [x] end) in ok (truthy b, x)) l in
      ok (VArr (map snd (filter fst r)))
  | _, _ => apply_flat f args
  end.

(** ** Symbols *)

(* find_scope: engine.py:536-538 *)
Fixpoint find_scope (l : list asg) (name : str) : option asg :=
  match l with [] => None | a :: r => if str_eqb name (a_name a) then Some a else find_scope r name end.

(** engine.py:518-541 Context.resolve; the builtin branch is Builtins.__getitem__ (builtins.py:138-149) through resolve_item
    (engine.py:75-89).  resolve_item first tests [name in thing]; Builtins inherits [in] from collections.abc.Mapping, which reads
    the item and turns a KeyError into False.  So every generator is called twice, and the value of the second call counts. *)
(* resolve: engine.py:518-541, 75-89, builtins.py:138-149 *)
Definition resolve (thing : value) (name : str) (builtin : bool) : prog value :=
  if builtin then
    match assoc name (c_bvals C) with
    | None => raise (XSymRes name (o_suggest name (map fst (c_bvals C))))
    | Some (BVconst v) => ok v
    | Some BVnow => do! _ := act (ONow (c_btz C)) in do! w := act (ONow (c_btz C)) in ok (VDt w (Some (c_btz C)))
    | Some BVtoday => do! _ := act (ONow (c_btz C)) in do! w := act (ONow (c_btz C)) in ok (VDt (w - dt_time w) (Some (c_btz C)))
    | Some BVgroups => act OGetG
    | Some (BVgen g) =>
        pthen (actr (OUser g []) (fun r => r)) (fun r =>
          match r with
          | Ok _ => actr (OUser g []) (fun r => r)
          | Err PKey => raise (XSymRes name (o_suggest name (map fst (c_bvals C))))
          | Err x => raise x
          end)
    end
  else
    do! l := act OScopes in
    match find_scope l name with
    | Some a => ok (a_val a)
    | None => actr (OResolve thing name) (fun r => r)
    end.

Definition nullable_of (t : dtype) : bool :=
  match t with TArray _ n | TSet _ n | TMap _ _ n => n | _ => true end.
Definition value_type (t : dtype) : dtype := match t with TArray m _ | TSet m _ | TMap _ m _ => m | _ => TUndef end.
Definition is_null (v : value) : bool := match v with VNull => true | _ => false end.

(** ast.py:1036-1059 *)
Definition sym_check (name : str) (t : dtype) (v : value) : result value :=
  if is_undef t then Ok v
  else
    rbind (from_value v) (fun vt =>
    let last := if dt_eqb vt TNull then Ok v else Err (XSymType name) in
    if is_compat vt t then
      if is_scalar t then Ok v
      else if is_undef (value_type t) then Ok v
      else if negb (dt_eqb (value_type t) TNull) && negb (nullable_of t) && existsb is_null (elems v)
           then Err (XSymType name)
      else if dt_eqb (value_type t) (value_type vt) then Ok v
      else last
    else last).

(** ** Calls: ast.py:1108-1132 _validate_function; argument types are computed one by one *)
Fixpoint check_args (ts : list (result dtype)) (ps : list dtype) : result unit :=
  match ts, ps with
  | t :: ts', p :: ps' => rbind t (fun a => if is_compat a p then check_args ts' ps' else Err XFunCall)
  | _, _ => Ok tt
  end.
Definition validate (ft : dtype) (ts : list (result dtype)) : result unit :=
  match ft with
  | TFun _ _ ps mn =>
      let n := Z.of_nat (length ts) in
      if match mn with Some m => n <? m | None => false end then Err XFunCall
      else match ps with
           | None => Ok tt
           | Some l => if Z.of_nat (length l) <? n then Err XFunCall else check_args ts l
           end
  | _ => Err XEval
  end.

(** ** Regex operators (ast.py:643-672) *)
Definition compile_ok (p : str) : result unit := if o_re_ok (c_flags C) p then Ok tt else Err XSynRegex.

Definition group_val (g : option str) : value := match g with Some t => VStr t | None => VNull end.

(** [pre] tells that the pattern was compiled when the node was constructed *)
(* fuzzy_match: ast.py:650-667 *)
Definition fuzzy_match (search neg pre : bool) (left right : value) : prog value :=
  match left with
  | VStr _ | VNull =>
      match right with
      | VStr p =>
          do! _ := Ret (if pre then Ok tt else compile_ok p) in
          match left with
          | VStr t =>
              match o_re (c_flags C) search p t with
              | Some gs => do! _ := act (OSetG (VArr (map group_val gs))) in ok (VBool (negb neg))
              | None => ok (VBool neg)
              end
          | _ => ok (VBool neg)
          end
      | VNull => ok (VBool (xorb neg (is_null left)))
      | _ => raise XEval
      end
  | _ => raise XEval
  end.

(* is_str_lit: ast.py:638-641 *)
Definition is_str_lit (e : expr) : bool := match e with ELit (VStr _) => true | _ => false end.

(* opt_index: ast.py:969-985 *)
Definition opt_index (v : value) : result (option Z) :=
  match v with VNull => Ok None | _ => rbind (assert_integer v) (fun _ => Ok (Some (to_int v))) end.

(* vbool: ast.py:568-625 *)
Definition vbool (r : result bool) : prog value := Ret (rmap VBool r).

(** ast.py:801-826: which suggestion survives *)
Definition merge_sug (name : str) (a b : option str) : option str :=
  match a, b with
  | Some x, Some y => o_suggest name [x; y]
  | Some x, None => Some x
  | None, y => y
  end.

Definition nval (ver : bool) (v : value) : prog value := Ret (new_value (c_tz C) ver v).

(** One entry of a mapping literal: ast.py:301-312 *)
Definition map_key (k : value) : result value :=
  rbind (from_value k) (fun t =>
  if is_compound t && negb (is_array_t t) then Err XEngine
  else if hashable k then Ok k else Err PType).

(** The loop of ast.py:702-712 *)
Fixpoint comp_loop (var : str) (cond : option (prog value)) (body : prog value) (l : list value) : prog (list value) :=
  match l with
  | [] => ok []
  | x :: r =>
      do! o := with_scope {| a_name := var; a_val := x; a_type := None |}
                 (do! b := (match cond with None => ok true | Some c => do! v := c in ok (truthy v) end) in
                  if b then (do! v := body in ok (Some v)) else ok None) in
      do! vs := comp_loop var cond body r in
      ok (match o with Some v => v :: vs | None => vs end)
  end.

Section Expr.
Variable thing : value.

Fixpoint eval (e : expr) : prog value :=
  match e with
  | ELit v => ok v                                                                        (* ast.py:198-199 *)
  | EFun v _ => ok v
  | EArr l => do! vs := pmapM eval l in ok (VArr vs)                                      (* ast.py:211-212 *)
  | ESet l =>                                                                             (* ast.py:211-212; members
      are evaluated in source order here, CPython uses the order of a set of node objects *)
      do! vs := pmapM (fun e => do! v := eval e in if hashable v then ok v else raise PType) l in
      ok (new_set (mk_set vs))
  | EMap l =>                                                                             (* ast.py:301-312 *)
      do! ks := pmapM (fun kv => do! k := eval (fst kv) in do! k' := Ret (map_key k) in ok (k', eval (snd kv))) l in
      do! m := pmapM (fun kp : value * prog value => do! v := snd kp in ok (fst kp, v)) (mk_dict ks) in
      ok (VMap m)
  | EBin o a b =>
      match o with
      | BAdd => do! x := eval a in do! y := eval b in do! dc := act OGetDc in Ret (op_add dc x y)
      | BSub => do! x := eval a in do! y := eval b in do! dc := act OGetDc in Ret (op_sub dc x y)
      | BArith o =>                                                                       (* ast.py:492-503 *)
          do! x := eval a in
          if is_numeric x then
            do! y := eval b in
            if is_numeric y then (do! dc := act OGetDc in Ret (op_arith o dc x y)) else raise XEval
          else raise XEval
      | BBit o =>                                                                         (* ast.py:534-552 *)
          do! x := eval a in
          do! t := Ret (from_value x) in
          if dt_eqb t TFloat then
            do! _ := Ret (assert_natural x) in do! y := eval b in Ret (op_bit_float o x y)
          else if is_set_t t then do! y := eval b in Ret (op_bit_set o x y)
          else raise XEval
      | BAndL => do! x := eval a in                                                       (* ast.py:568-569 *)
          if truthy x then (do! y := eval b in ok (VBool (truthy y))) else ok (VBool false)
      | BOrL => do! x := eval a in                                                        (* ast.py:571-572 *)
          if truthy x then ok (VBool true) else (do! y := eval b in ok (VBool (truthy y)))
      | BEq => do! x := eval a in do! y := eval b in ok (VBool (op_eq x y))
      | BNe => do! x := eval a in do! y := eval b in ok (VBool (op_ne x y))
      | BCmp o => do! x := eval a in do! y := eval b in vbool (op_ord o x y)
      | BFuzzy search neg =>                                                              (* ast.py:650-667 *)
          do! x := eval a in
          match x with
          | VStr _ | VNull => do! y := eval b in fuzzy_match search neg (is_str_lit b) x y
          | _ => raise XEval
          end
      end
  | EComp r var it cond =>                                                                (* ast.py:702-712 *)
      do! v := eval it in
      do! t := Ret (from_value v) in
      if is_iterable t then
        do! vs := comp_loop var (match cond with Some c => Some (eval c) | None => None end) (eval r) (elems v) in
        ok (VArr vs)
      else raise XEval
  | EIn c m =>                                                                            (* ast.py:745-752 *)
      do! x := eval c in
      do! _ := Ret (from_value x) in
      do! y := eval m in vbool (op_in x y)
  | EAttr o name safe =>                                                                  (* ast.py:801-826 *)
      do! v := eval o in
      if is_null v && safe then ok VNull
      else
        match resolve_attr v name with
        | Ok r => nval false r
        | Err (XAttrRes _ sug) =>
            pthen (resolve v name false) (fun r =>
            match r with
            | Ok x => nval false x
            | Err (XSymRes _ sug') =>
                match c_default C with
                | Some d => nval false d
                | None => raise (XAttrRes name (merge_sug name sug sug'))
                end
            | Err x => raise x
            end)
        | Err x => raise x
        end
  | EItem c i safe =>                                                                     (* ast.py:890-907 *)
      do! x := eval c in
      if is_null x then (if safe then ok VNull else raise XEval)
      else
        do! k := eval i in
        do! _ := Ret (if is_sequence x then assert_integer k else Ok tt) in
        match py_getitem x k with
        | Ok v => nval false v
        | Err XLookup => if safe then ok VNull else raise XLookup
        | Err x => raise x
        end
  | ESlice c a b safe =>                                                                  (* ast.py:969-985 *)
      do! x := eval c in
      if is_null x then (if safe then ok VNull else raise XEval)
      else
        do! va := eval a in
        do! i := Ret (opt_index va) in
        do! vb := eval b in
        do! j := Ret (opt_index vb) in
        do! v := Ret (py_getslice x i j) in
        Ret (coerce false v)
  | ESym name bi t =>                                                                     (* ast.py:1026-1059 *)
      pthen (resolve thing name bi) (fun r =>
      do! v := match r with
               | Ok v => ok v
               | Err (XSymRes n sg) => match c_default C with Some d => ok d | None => raise (XSymRes n sg) end
               | Err x => raise x
               end in
      do! v' := nval false v in
      Ret (sym_check name t v'))
  | ECall f args =>                                                                       (* ast.py:1084-1106 *)
      do! fv := eval f in
      if callable fv then
        do! vs := pmapM eval args in
        do! _ := Ret (if is_undef (rtype f) then Ok tt else validate (rtype f) (map from_value vs)) in
        do! r := pthen (apply_fun fv vs) (fun r => match r with Ok v => ok v | Err _ => raise XFunCall end) in
        do! v := nval true r in
        do! t := Ret (from_value v) in
        if is_compat t (rtype e) then ok v else raise XFunCall
      else raise XEval
  | ETern c a b => do! x := eval c in if truthy x then eval a else eval b                 (* ast.py:1198-1200 *)
  | EUn UNot e => do! x := eval e in ok (VBool (negb (truthy x)))                         (* ast.py:1251-1254 *)
  | EUn UMinus e => do! x := eval e in do! dc := act OGetDc in Ret (op_neg dc x)          (* ast.py:1256-1262 *)
  end.
End Expr.
End Eval.
