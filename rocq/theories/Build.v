(** * Build: constructors, build and reduce (constant folding) of nodes (ast.py), Context.resolve_type (engine.py) *)
From Verif Require Import Base Dec Value DType Types Ops ParseUtil Attr Prog Ast Eval.
Open Scope Z_scope.

(** The deferred tree produced by the grammar actions (parser/__init__.py:42-57, 256-564).  Bytes and string literals
    are already decoded; numbers, datetimes and timedeltas are still text. *)
Inductive dnode : Type :=
| DLit (v : value)                         (* TRUE, FALSE, NULL, BYTES, STRING *)
| DFloat (t : str) | DDatetime (t : str) | DTimedelta (t : str)
| DArr (l : list dnode)
| DSet (l : list dnode)
| DMap (l : list (dnode * dnode))
| DBin (o : binop) (a b : dnode)
| DComp (r : dnode) (var : str) (it : dnode) (cond : option dnode)
| DIn (c m : dnode)
| DAttr (o : dnode) (name : str) (safe : bool)
| DItem (c i : dnode) (safe : bool)
| DSlice (c : dnode) (a b : option dnode) (safe : bool)
| DSym (name : str) (builtin : bool)
| DCall (f : dnode) (args : list dnode)
| DTern (c a b : dnode)
| DUn (o : unop) (e : dnode).

(* opt_D: proof principle *)
Definition opt_D (P : dnode -> Prop) (o : option dnode) : Prop := match o with Some e => P e | None => True end.

Section dnode_ind.
  Variable P : dnode -> Prop.
  Hypothesis Hlit : forall v, P (DLit v).
  Hypothesis Hfloat : forall t, P (DFloat t).
  Hypothesis Hdt : forall t, P (DDatetime t).
  Hypothesis Htd : forall t, P (DTimedelta t).
  Hypothesis Harr : forall l, Forall P l -> P (DArr l).
  Hypothesis Hset : forall l, Forall P l -> P (DSet l).
  Hypothesis Hmap : forall l, Forall (fun kv => P (fst kv) /\ P (snd kv)) l -> P (DMap l).
  Hypothesis Hbin : forall o a b, P a -> P b -> P (DBin o a b).
  Hypothesis Hcomp : forall r v i c, P r -> P i -> opt_D P c -> P (DComp r v i c).
  Hypothesis Hin : forall c m, P c -> P m -> P (DIn c m).
  Hypothesis Hattr : forall o n sf, P o -> P (DAttr o n sf).
  Hypothesis Hitem : forall c i sf, P c -> P i -> P (DItem c i sf).
  Hypothesis Hslice : forall c a b sf, P c -> opt_D P a -> opt_D P b -> P (DSlice c a b sf).
  Hypothesis Hsym : forall n b, P (DSym n b).
  Hypothesis Hcall : forall f l, P f -> Forall P l -> P (DCall f l).
  Hypothesis Htern : forall c a b, P c -> P a -> P b -> P (DTern c a b).
  Hypothesis Hun : forall o e, P e -> P (DUn o e).
  (* dnode_ind: proof principle *)
  Fixpoint dnode_ind' (e : dnode) : P e :=
    let fix all (l : list dnode) : Forall P l :=
      match l with [] => Forall_nil _ | x :: r => Forall_cons _ (dnode_ind' x) (all r) end in
    let fix allp (l : list (dnode * dnode)) : Forall (fun kv => P (fst kv) /\ P (snd kv)) l :=
      match l with
      | [] => Forall_nil _
      | x :: r => Forall_cons _ (conj (dnode_ind' (fst x)) (dnode_ind' (snd x))) (allp r)
      end in
    let opt (c : option dnode) : opt_D P c :=
      match c as c0 return opt_D P c0 with Some x => dnode_ind' x | None => I end in
    match e with
    | DLit v => Hlit v
    | DFloat t => Hfloat t
    | DDatetime t => Hdt t
    | DTimedelta t => Htd t
    | DArr l => Harr l (all l)
    | DSet l => Hset l (all l)
    | DMap l => Hmap l (allp l)
    | DBin o a b => Hbin o a b (dnode_ind' a) (dnode_ind' b)
    | DComp r v i c => Hcomp r v i c (dnode_ind' r) (dnode_ind' i) (opt c)
    | DIn c m => Hin c m (dnode_ind' c) (dnode_ind' m)
    | DAttr o n sf => Hattr o n sf (dnode_ind' o)
    | DItem c i sf => Hitem c i sf (dnode_ind' c) (dnode_ind' i)
    | DSlice c a b sf => Hslice c a b sf (dnode_ind' c) (opt a) (opt b)
    | DSym n b => Hsym n b
    | DCall f l => Hcall f l (dnode_ind' f) (all l)
    | DTern c a b => Htern c a b (dnode_ind' c) (dnode_ind' a) (dnode_ind' b)
    | DUn o e => Hun o e (dnode_ind' e)
    end.
End dnode_ind.

(** compatible_types of the operator classes (ast.py:351, 411, 453, 490, 515, 559, 598, 637) *)
Definition compatible_types (o : binop) : list dtype :=
  match o with
  | BAdd => [TBytes; TFloat; TString; TDatetime; TTimedelta]
  | BSub => [TFloat; TDatetime; TTimedelta]
  | BArith _ => [TFloat]
  | BBit o => if is_shift o then [TFloat] else [TFloat; t_set]
  | BAndL | BOrL | BEq | BNe =>
      [t_array; TBool; TDatetime; TTimedelta; TFloat; t_mapping; TNull; t_set; TString]
  | BCmp _ => [t_array; TBool; TDatetime; TTimedelta; TFloat; TNull; TString]
  | BFuzzy _ _ => [TNull; TString]
  end.

(** ast.py:384-389 _assert_type_is_compatible *)
Definition operand_ok (o : binop) (t : dtype) : bool :=
  is_undef t || existsb (fun d => is_compat d t) (compatible_types o).

Section Build.
Context {Orc : Oracle} (C : ctx).

(** _assert_is_natural_number on a reduced operand (ast.py:522-528); only number literals have type FLOAT *)
Definition nat_operand (e : expr) : result unit :=
  match e with ELit v => if dt_eqb (rtype e) TFloat then assert_natural v else Ok tt | _ => Ok tt end.

(** Constructor checks of the operator classes: ast.py:358-389, 414-428, 456-473, 517-532, 599-603, 638-641 *)
Definition check_bin (o : binop) (a b : expr) : result unit :=
  if operand_ok o (rtype a) && operand_ok o (rtype b) then
    match o with
    | BAdd => rmap (fun _ => tt) (add_type (rtype a) (rtype b))
    | BSub => rmap (fun _ => tt) (sub_type (rtype a) (rtype b))
    | BBit _ =>
        if negb (is_undef (rtype a)) && negb (is_undef (rtype b)) && negb (same_class (rtype a) (rtype b))
        then Err XEval
        else rbind (nat_operand a) (fun _ => nat_operand b)
    | BCmp _ =>
        if negb (is_undef (rtype a)) && negb (is_undef (rtype b)) && negb (dt_eqb (rtype a) (rtype b))
        then Err XEval else Ok tt
    | BFuzzy _ _ => match b with ELit (VStr p) => compile_ok C p | _ => Ok tt end
    | _ => Ok tt
    end
  else Err XEval.

(** ast.py:728-736 *)
Definition check_in (c m : dtype) : result unit :=
  if dt_eqb c TBytes || dt_eqb c TString then
    (if negb (is_undef m) && negb (dt_eqb m c) then Err XEval else Ok tt)
  else if negb (is_undef c) && is_scalar c then Err XEval else Ok tt.

(** ast.py:769-792 *)
Definition check_attr (t : dtype) (name : str) (safe : bool) : result unit :=
  if is_undef t || (dt_eqb t TNull && safe) then Ok tt
  else match resolve_attr_type t name with
       | Ok _ => Ok tt
       | Err (XAttrRes n sg) => if is_map_t t then Ok tt else Err (XAttrRes n sg)
       | Err x => Err x
       end.

(** ast.py:844-881 *)
Definition check_item (c i : dtype) (safe : bool) : result unit :=
  match c with
  | TBytes | TString | TArray _ _ => if is_compat i TFloat then Ok tt else Err XEval
  | TMap k _ _ => if safe || is_compat i k then Ok tt else Err XLookup
  | TSet _ _ => Err XEval
  | TUndef => Ok tt
  | TNull => if safe then Ok tt else Err XEval
  | _ => Err XEval
  end.

(** ast.py:927-956 *)
Definition check_slice (c : dtype) (safe : bool) : result unit :=
  match c with
  | TBytes | TString | TArray _ _ | TUndef => Ok tt
  | TNull => if safe then Ok tt else Err XEval
  | _ => Err XEval
  end.

(** ast.py:172-196 LiteralExpressionBase.from_value *)
Fixpoint lit_of (v : value) : result expr :=
  rbind (from_value v) (fun _ =>
  match v with
  | VArr l | VList l => rmap EArr (rmapM lit_of l)
  | VRange l => Ok (EArr (map (fun z => ELit (VDec (dec_of_Z z))) l))
  | VSet l => rmap ESet (rmapM lit_of l)
  | VMap l | VDict l =>
      rmap EMap (rmapM (fun kv => rbind (lit_of (fst kv)) (fun k => rbind (lit_of (snd kv)) (fun w => Ok (k, w)))) l)
  | _ => rmap ELit (coerce true v)
  end).

(** evaluate(None) of a reducible node, as a literal *)
(* fold: ast.py:397-400, 909-915, 987-990, 1079-1082 *)
Definition fold (e : expr) : prog expr := do! v := eval C VNull e in Ret (lit_of v).

(** truth of [self.condition.value] (ast.py:1204) for a reduced condition: the number of members for collections *)
Definition lit_truthy (e : expr) : bool :=
  match e with
  | ELit v | EFun v _ => truthy v
  | EArr l | ESet l => nonempty l
  | EMap l => nonempty l
  | _ => false
  end.

(** the reduce methods (ast.py:115-123, 397-400, 754-757, 828-834, 909-915, 987-990, 1079-1082, 1202-1206, 1264-1275) *)
Fixpoint reduce (e : expr) : prog expr :=
  match e with
  | EBin _ a b => if is_reduced a && is_reduced b then fold e else ok e
  | EIn c m => if is_reduced c && is_reduced m then (do! v := eval C VNull e in ok (ELit v)) else ok e
  | EAttr o _ _ =>
      if is_reduced o then
        do! l := fold e in
        ok (match l with
            | ELit v => if dt_eqb (rtype l) t_function && is_compat (rtype e) t_function then EFun v (rtype e) else l
            | _ => l
            end)
      else ok e
  | EItem c i safe =>
      if match rtype c with TMap k _ _ => safe && negb (is_compat (rtype i) k) | _ => false end
      then ok (ELit VNull)
      else if is_reduced c && is_reduced i then fold e else ok e
  | ESlice c a b _ => if is_reduced c && is_reduced a && is_reduced b then fold e else ok e
  | ECall f args => if is_reduced f && forallb is_reduced args then fold e else ok e
  | ETern c a b => if is_reduced c then (if lit_truthy c then reduce a else reduce b) else ok e
  | EUn UNot x => if is_reduced x then (do! v := eval C VNull e in ok (ELit v)) else ok e
  | EUn UMinus x =>
      if is_reduced x then
        match x with
        | ELit (VDec _) | ELit (VTd _) => do! v := eval C VNull e in ok (ELit v)
        | _ => raise XEval
        end
      else ok e
  | _ => ok e
  end.

(** engine.py:560-576 Context.resolve_type.  A scope entry without a type only exists while evaluating; a
    SymbolExpression then has no result_type (AttributeError). *)
Definition resolve_type (name : str) (builtin : bool) : prog dtype :=
  if builtin then ok (match assoc name (c_btypes C) with Some t => t | None => TUndef end)
  else
    do! l := act OScopes in
    match find_scope l name with
    | Some a => match a_type a with Some t => ok t | None => raise PAttribute end
    | None => Ret (c_types C name)
    end.

Definition mk_lit_slice (o : option expr) (d : value) : expr := match o with Some e => e | None => ELit d end.

Definition opt_build (build : dnode -> prog expr) (o : option dnode) : prog (option expr) :=
  match o with Some n => do! e := build n in ok (Some e) | None => ok None end.

(** _DeferredAstNode.build and the build methods *)
(* build: each case cites its build method; parser/__init__.py:55-57 *)
Fixpoint build (n : dnode) : prog expr :=
  match n with
  | DLit v => ok (ELit v)
  | DFloat t => Ret (rmap (fun d => ELit (VDec d)) (parse_float t))                          (* ast.py:273-275 *)
  | DDatetime t => Ret (rmap ELit (parse_datetime t (c_tz C)))                               (* ast.py:250-253 *)
  | DTimedelta t => Ret (rmap ELit (parse_timedelta t))                                      (* ast.py:262-264 *)
  | DArr l => do! es := pmapM build l in ok (EArr es)                                        (* ast.py:231-233 *)
  | DSet l => do! es := pmapM build l in ok (ESet es)                                        (* ast.py:334-337 *)
  | DMap l =>                                                                                (* ast.py:295-299 *)
      do! es := pmapM (fun kv => do! k := build (fst kv) in do! v := build (snd kv) in ok (k, v)) l in
      do! _ := Ret (mk_mapping (member_type (map (fun kv => rtype (fst kv)) es))
                               (member_type (map (fun kv => rtype (snd kv)) es)) true) in
      ok (EMap es)
  | DBin o a b =>                                                                            (* ast.py:380-382 *)
      do! x := build a in do! y := build b in
      do! _ := Ret (check_bin o x y) in reduce (EBin o x y)
  | DComp r var it cond =>                                                                   (* ast.py:687-697 *)
      do! i := build it in
      if negb (is_undef (rtype i)) && negb (is_iterable (rtype i)) then raise XEval
      else
        let t := match iterable_type (rtype i) with Some m => m | None => TUndef end in
        do! cr := with_scope {| a_name := var; a_val := v_undefined; a_type := Some t |}
                    (do! c := (match cond with Some c => do! e := build c in ok (Some e) | None => ok None end) in
                     do! e := build r in ok (c, e)) in
        ok (EComp (snd cr) var i (fst cr))
  | DIn c m =>                                                                               (* ast.py:738-740 *)
      do! x := build c in do! y := build m in
      do! _ := Ret (check_in (rtype x) (rtype y)) in reduce (EIn x y)
  | DAttr o name safe =>                                                                     (* ast.py:794-796 *)
      do! x := build o in
      do! _ := Ret (check_attr (rtype x) name safe) in reduce (EAttr x name safe)
  | DItem c i safe =>                                                                        (* ast.py:883-885 *)
      do! x := build c in do! y := build i in
      do! _ := Ret (check_item (rtype x) (rtype y) safe) in reduce (EItem x y safe)
  | DSlice c a b safe =>                                                                     (* ast.py:958-964 *)
      do! x := (match a with Some n => do! e := build n in ok (Some e) | None => ok None end) in
      do! y := (match b with Some n => do! e := build n in ok (Some e) | None => ok None end) in
      do! z := build c in
      do! _ := Ret (check_slice (rtype z) safe) in
      reduce (ESlice z (mk_lit_slice x (VDec (dec_of_Z 0))) (mk_lit_slice y VNull) safe)
  | DSym name bi =>                                                                          (* ast.py:1007-1021 *)
      do! _ := act (OSym name) in
      do! t := resolve_type name bi in ok (ESym name bi t)
  | DCall f args =>                                                                          (* ast.py:1066-1082 *)
      do! x := build f in
      do! es := pmapM build args in
      do! _ := Ret (if is_undef (rtype x) then Ok tt else validate (rtype x) (map (fun e => Ok (rtype e)) es)) in
      reduce (ECall x es)
  | DTern c a b =>                                                                           (* ast.py:1194-1196 *)
      do! x := build c in do! y := build a in do! z := build b in reduce (ETern x y z)
  | DUn o e => do! x := build e in reduce (EUn o x)                                          (* ast.py:1241-1243 *)
  end.

(** The expression as written: the same construction without reduce.  Used to state what folding preserves; the code
    has no such mode.  The variable of a comprehension has the type it has in the real construction ([build it]): the
    iterable is built once more to find it. *)
(* plain: specification: the build methods ast.py:231-1243 without reduce *)
Fixpoint plain (n : dnode) : prog expr :=
  match n with
  | DLit v => ok (ELit v)
  | DFloat t => Ret (rmap (fun d => ELit (VDec d)) (parse_float t))
  | DDatetime t => Ret (rmap ELit (parse_datetime t (c_tz C)))
  | DTimedelta t => Ret (rmap ELit (parse_timedelta t))
  | DArr l => do! es := pmapM plain l in ok (EArr es)
  | DSet l => do! es := pmapM plain l in ok (ESet es)
  | DMap l =>
      do! es := pmapM (fun kv => do! k := plain (fst kv) in do! v := plain (snd kv) in ok (k, v)) l in ok (EMap es)
  | DBin o a b => do! x := plain a in do! y := plain b in ok (EBin o x y)
  | DComp r var it cond =>
      do! b := build it in
      do! i := plain it in
      do! cr := with_scope {| a_name := var; a_val := v_undefined;
                              a_type := Some (match iterable_type (rtype b) with Some m => m | None => TUndef end) |}
                  (do! c := (match cond with Some c => do! e := plain c in ok (Some e) | None => ok None end) in
                   do! e := plain r in ok (c, e)) in
      ok (EComp (snd cr) var i (fst cr))
  | DIn c m => do! x := plain c in do! y := plain m in ok (EIn x y)
  | DAttr o name safe => do! x := plain o in ok (EAttr x name safe)
  | DItem c i safe => do! x := plain c in do! y := plain i in ok (EItem x y safe)
  | DSlice c a b safe =>
      do! x := (match a with Some n => do! e := plain n in ok (Some e) | None => ok None end) in
      do! y := (match b with Some n => do! e := plain n in ok (Some e) | None => ok None end) in
      do! z := plain c in
      ok (ESlice z (mk_lit_slice x (VDec (dec_of_Z 0))) (mk_lit_slice y VNull) safe)
  | DSym name bi => do! _ := act (OSym name) in do! t := resolve_type name bi in ok (ESym name bi t)
  | DCall f args => do! x := plain f in do! es := pmapM plain args in ok (ECall x es)
  | DTern c a b => do! x := plain c in do! y := plain a in do! z := plain b in ok (ETern x y z)
  | DUn o e => do! x := plain e in ok (EUn o x)
  end.
End Build.
