(** * Types: DataType.from_value, coerce_value and the number predicates (types.py:55-177, 411-560) *)
From Verif Require Import Base Dec Value DType.
From Coq Require Import QArith.
Open Scope Z_scope.

(** types.py:153-177 iterable_member_value_type, on the member types in iteration order: collect them in a set, remove
    NULL, answer the only remaining one or UNDEFINED. *)
Definition dt_add (acc : list dtype) (t : dtype) : list dtype := if existsb (dt_eqb t) acc then acc else acc ++ [t].
Definition member_type (l : list dtype) : dtype :=
  match filter (fun t => negb (dt_eqb t TNull)) (fold_left dt_add l []) with
  | [t] => t
  | _ => TUndef
  end.

(** types.py:525-560 DataType.from_value *)
Fixpoint from_value (v : value) : result dtype :=
  match v with
  | VBool _ => Ok TBool
  | VBytes _ => Ok TBytes
  | VDt _ _ | VDate _ => Ok TDatetime
  | VTd _ => Ok TTimedelta
  | VDec _ | VFlt _ | VInt _ => Ok TFloat
  | VNull => Ok TNull
  | VSet l => rmap (fun ts => TSet (member_type ts) true) (rmapM from_value l)
  | VStr _ => Ok TString
  | VMap l | VDict l =>
      rbind (rmapM (fun kv => from_value (fst kv)) l) (fun ks =>
      rbind (rmapM (fun kv => from_value (snd kv)) l) (fun vs =>
      mk_mapping (member_type ks) (member_type vs) true))
  | VArr l | VList l => rmap (fun ts => TArray (member_type ts) true) (rmapM from_value l)
  | VRange l => Ok (TArray (member_type (map (fun _ => TFloat) l)) true)
  | VFun _ | VBFun _ | VMeth _ _ => Ok t_function
  | VObj _ => Err PType
  end.

(** types.py:55-58 _to_decimal: [Decimal(repr(value))].  (CPython's limit on int-to-str conversion of more than 4300
    digits is not modelled.) *)
Definition flt_dec (f : flt) : dec := match f with FFin _ _ d => d | FInf n => DInf n | FNaN => DNaN end.

Definition us_per_day : Z := 86400000000.

Section Coerce.
Context {tz : TzDb}.

(** types.py:60-88 coerce_value.  [ver] is verify_type. *)
Fixpoint coerce (ver : bool) (v : value) : result value :=
  let fin (v' : value) : result value := if ver then rmap (fun _ => v') (from_value v') else Ok v' in
  match v with
  | VArr l | VList l => rbind (rmapM (coerce ver) l) (fun l' => fin (VArr l'))
  | VRange l => fin (VArr (map (fun z => VDec (dec_of_Z z)) l))
  | VDate d => fin (VDt (d * us_per_day) None)
  | VFlt f => fin (VDec (flt_dec f))
  | VInt z => fin (VDec (dec_of_Z z))
  | VMap l | VDict l =>
      rbind (rmapM (fun kv =>
               rbind (coerce ver (fst kv)) (fun k =>
               rbind (coerce ver (snd kv)) (fun w =>
               if hashable k then Ok (k, w) else Err PType))) l)
        (fun l' => fin (VMap (mk_dict l')))
  | _ => fin v
  end.
End Coerce.

(** ** Number predicates (types.py:90-151) *)

(** types.py:138-151 is_numeric *)
Definition is_numeric (v : value) : bool := match v with VDec _ | VFlt _ | VInt _ => true | _ => false end.

(** [math.isfinite(x)] converts to a C double: magnitudes from 2^1024 - 2^970 on become inf (Decimal) or raise
    OverflowError (int). *)
(* float_bound: types.py:90-151 *)
Definition float_bound : Z := 2 ^ 1024 - 2 ^ 970.

(* isfinite: types.py:90-151 *)
Definition isfinite (v : value) : result bool :=
  match v with
  | VDec (DFin _ c e) => Ok (match Qcompare (dec_q false c e) (inject_Z float_bound) with Lt => true | _ => false end)
  | VDec _ => Ok false
  | VInt z => if Z.abs z <? float_bound then Ok true else Err POverflow
  | VFlt (FFin _ _ _) => Ok true
  | VFlt _ => Ok false
  | _ => Err PType
  end.

(** types.py:122-136 is_real_number *)
Definition is_real_number (v : value) : result bool := if is_numeric v then isfinite v else Ok false.

(** [math.floor(x)] and [int(x)] of a finite number *)
(* flt_floor: types.py:103 *)
Definition flt_floor (m e : Z) : Z := if 0 <=? e then m * 2 ^ e else m / 2 ^ (- e).
(* num_floor: types.py:103 *)
Definition num_floor (v : value) : Z :=
  match v with
  | VDec (DFin n c e) => dfloor n c e
  | VInt z => z
  | VFlt (FFin m e _) => flt_floor m e
  | _ => 0
  end.
(* to_int: ast.py:544-546 *)
Definition to_int (v : value) : Z :=
  match v with
  | VDec (DFin n c e) => dtrunc n c e
  | VInt z => z
  | VFlt (FFin m e _) => if 0 <=? e then m * 2 ^ e else Z.quot m (2 ^ (- e))
  | _ => 0
  end.

(* xnum_is: types.py:103, 118 *)
Definition xnum_is (z : Z) (x : option xnum) : bool :=
  match x with Some (XQ q) => Qeq_bool (inject_Z z) q | _ => false end.

(** types.py:90-106 is_integer_number *)
Definition is_integer_number (v : value) : result bool :=
  rbind (is_real_number v) (fun b =>
  Ok (b && xnum_is (num_floor v) (num_x v))).

(** types.py:107-120 is_natural_number *)
Definition is_natural_number (v : value) : result bool :=
  rbind (is_integer_number v) (fun b =>
  Ok (b && match num_x v with Some (XQ q) => negb (match Qcompare q 0 with Lt => true | _ => false end) | _ => false end)).

(** ** Independent specification of the data type of a value (documentation of DataType: scalars by kind, containers by
    the common type of their non-null members). *)
(* has_type: specification of types.py:525-560 *)
Inductive has_type : value -> dtype -> Prop :=
| Ht_null : has_type VNull TNull
| Ht_bool : forall b, has_type (VBool b) TBool
| Ht_dec : forall d, has_type (VDec d) TFloat
| Ht_int : forall z, has_type (VInt z) TFloat
| Ht_flt : forall f, has_type (VFlt f) TFloat
| Ht_str : forall t, has_type (VStr t) TString
| Ht_bytes : forall b, has_type (VBytes b) TBytes
| Ht_dt : forall w z, has_type (VDt w z) TDatetime
| Ht_date : forall d, has_type (VDate d) TDatetime
| Ht_td : forall u, has_type (VTd u) TTimedelta
| Ht_arr : forall l m, members_type l m -> has_type (VArr l) (TArray m true)
| Ht_list : forall l m, members_type l m -> has_type (VList l) (TArray m true)
| Ht_range : forall l, has_type (VRange l) (TArray (if nonempty l then TFloat else TUndef) true)
| Ht_set : forall l m, members_type l m -> has_type (VSet l) (TSet m true)
| Ht_map : forall l k m, members_type (map fst l) k -> members_type (map snd l) m -> has_type (VMap l) (TMap k m true)
| Ht_dict : forall l k m, members_type (map fst l) k -> members_type (map snd l) m -> has_type (VDict l) (TMap k m true)
| Ht_fun : forall n, has_type (VFun n) t_function
| Ht_bfun : forall f, has_type (VBFun f) t_function
| Ht_meth : forall m v, has_type (VMeth m v) t_function
(** [members_type l m]: all members have a type, and [m] is the type shared by all non-null members, or UNDEFINED if
    there is none (no non-null member, or two of different types). *)
with members_type : list value -> dtype -> Prop :=
| Mt_same : forall l m x,
    In x l -> x <> VNull -> (forall y, In y l -> y <> VNull -> has_type y m) -> members_type l m
| Mt_none : forall l, (forall y, In y l -> y = VNull) -> members_type l TUndef
| Mt_mixed : forall l x y a b,
    (forall z, In z l -> exists t, has_type z t) ->
    In x l -> In y l -> x <> VNull -> y <> VNull -> has_type x a -> has_type y b -> a <> b -> members_type l TUndef.

(** Values made only of supported Python types. *)
(* supported: specification of types.py:60-88 *)
Inductive supported : value -> Prop :=
| Su_null : supported VNull
| Su_bool : forall b, supported (VBool b)
| Su_dec : forall d, supported (VDec d)
| Su_int : forall z, supported (VInt z)
| Su_flt : forall f, supported (VFlt f)
| Su_str : forall t, supported (VStr t)
| Su_bytes : forall b, supported (VBytes b)
| Su_dt : forall w z, supported (VDt w z)
| Su_date : forall d, supported (VDate d)
| Su_td : forall u, supported (VTd u)
| Su_arr : forall l, (forall x, In x l -> supported x) -> supported (VArr l)
| Su_list : forall l, (forall x, In x l -> supported x) -> supported (VList l)
| Su_range : forall l, supported (VRange l)
| Su_set : forall l, (forall x, In x l -> supported x) -> supported (VSet l)
| Su_map : forall l, (forall k x, In (k, x) l -> supported k /\ supported x) -> supported (VMap l)
| Su_dict : forall l, (forall k x, In (k, x) l -> supported k /\ supported x) -> supported (VDict l)
| Su_fun : forall n, supported (VFun n)
| Su_bfun : forall f, supported (VBFun f)
| Su_meth : forall m v, supported (VMeth m v).

(** Every Python dict has hashable keys; every Python set has hashable members (at any depth of the object). *)
(* py_ok: specification: values Python can build *)
Inductive py_ok : value -> Prop :=
| Po_scalar : forall v,
    match v with VArr _ | VList _ | VSet _ | VMap _ | VDict _ => False | _ => True end -> py_ok v
| Po_arr : forall l, (forall x, In x l -> py_ok x) -> py_ok (VArr l)
| Po_list : forall l, (forall x, In x l -> py_ok x) -> py_ok (VList l)
| Po_set : forall l, (forall x, In x l -> py_ok x /\ hashable x = true) -> py_ok (VSet l)
| Po_map : forall l, (forall k x, In (k, x) l -> py_ok k /\ hashable k = true /\ py_ok x) -> py_ok (VMap l)
| Po_dict : forall l, (forall k x, In (k, x) l -> py_ok k /\ hashable k = true /\ py_ok x) -> py_ok (VDict l).

(** The engine's normal form: no native number, date, list, range or dict outside of sets. *)
(* normal: specification of types.py:60-88 *)
Inductive normal : value -> Prop :=
| No_null : normal VNull
| No_bool : forall b, normal (VBool b)
| No_dec : forall d, normal (VDec d)
| No_str : forall t, normal (VStr t)
| No_bytes : forall b, normal (VBytes b)
| No_dt : forall w z, normal (VDt w z)
| No_td : forall u, normal (VTd u)
| No_arr : forall l, (forall x, In x l -> normal x) -> normal (VArr l)
| No_set : forall l, normal (VSet l)
| No_map : forall l, (forall k x, In (k, x) l -> normal k /\ normal x) -> normal (VMap l)
| No_fun : forall n, normal (VFun n)
| No_bfun : forall f, normal (VBFun f)
| No_meth : forall m v, normal (VMeth m v)
| No_obj : forall n, normal (VObj n).
