(** * Value: the universe of Python objects the engine handles

    One type represents both the native objects a caller hands over (int, float, list, range, dict, date, arbitrary
    objects) and the engine's own values (Decimal, tuple, OrderedDict, datetime, ...), because the code works on both
    (types.py:60-88, 525-560). *)
From Verif Require Import Base Dec.
From Coq Require Import QArith.
Open Scope Z_scope.

(** Builtin functions of builtins.py:161-183 (those that are functions). *)
Inductive bfun :=
| BFabs | BFany | BFall | BFsum | BFmap | BFmax | BFmin | BFfilter
| BFparse_datetime | BFparse_float | BFparse_timedelta | BFrandom | BFrange | BFsplit.

(** Bound methods returned by attributes: engine.py:205-219 decode, 308-325 encode, 360-365 ends_with,
    375-380 starts_with. *)
Inductive meth := Mdecode | Mencode | Mstarts_with | Mends_with.

(** A native float: its exact value fm * 2^fe, and the decimal denoted by CPython's [repr] of it
    (types.py:58 converts through [repr]).  Special floats are inf and nan. *)
Inductive flt := FFin (fm fe : Z) (frepr : dec) | FInf (neg : bool) | FNaN.

Inductive value : Type :=
| VNull
| VBool (b : bool)
| VDec (d : dec)                       (* decimal.Decimal *)
| VInt (z : Z)                         (* native int *)
| VFlt (f : flt)                       (* native float *)
| VStr (t : str)
| VBytes (b : list N)
| VDt (w : Z) (tz : option N)          (* datetime: wall clock microseconds since 0001-01-01, tzinfo identity *)
| VDate (days : Z)                     (* native date: days since 0001-01-01 *)
| VTd (us : Z)                         (* timedelta in microseconds *)
| VArr (l : list value)                (* tuple *)
| VList (l : list value)               (* native list *)
| VRange (l : list Z)                  (* native range, by its elements *)
| VSet (l : list value)                (* set, as its elements in some order *)
| VMap (l : list (value * value))      (* OrderedDict *)
| VDict (l : list (value * value))     (* native dict *)
| VFun (n : N)                         (* a user supplied callable *)
| VBFun (f : bfun)
| VMeth (m : meth) (self : value)      (* functools.partial of a method on [self] *)
| VObj (n : N).                        (* any other object; [VObj 0] is errors.UNDEFINED (errors.py:33-45) *)

Definition v_undefined : value := VObj 0.

(** ** Induction principle with hypotheses for container members *)
Section value_ind.
  Variable P : value -> Prop.
  Hypothesis Hnull : P VNull.
  Hypothesis Hbool : forall b, P (VBool b).
  Hypothesis Hdec : forall d, P (VDec d).
  Hypothesis Hint : forall z, P (VInt z).
  Hypothesis Hflt : forall f, P (VFlt f).
  Hypothesis Hstr : forall t, P (VStr t).
  Hypothesis Hbytes : forall b, P (VBytes b).
  Hypothesis Hdt : forall w tz, P (VDt w tz).
  Hypothesis Hdate : forall d, P (VDate d).
  Hypothesis Htd : forall u, P (VTd u).
  Hypothesis Harr : forall l, Forall P l -> P (VArr l).
  Hypothesis Hlist : forall l, Forall P l -> P (VList l).
  Hypothesis Hrange : forall l, P (VRange l).
  Hypothesis Hset : forall l, Forall P l -> P (VSet l).
  Hypothesis Hmap : forall l, Forall (fun kv => P (fst kv) /\ P (snd kv)) l -> P (VMap l).
  Hypothesis Hdict : forall l, Forall (fun kv => P (fst kv) /\ P (snd kv)) l -> P (VDict l).
  Hypothesis Hfun : forall n, P (VFun n).
  Hypothesis Hbfun : forall f, P (VBFun f).
  Hypothesis Hmeth : forall m v, P v -> P (VMeth m v).
  Hypothesis Hobj : forall n, P (VObj n).

  (* value_ind: proof principle *)
  Fixpoint value_ind' (v : value) : P v :=
    let fix all (l : list value) : Forall P l :=
      match l with [] => Forall_nil _ | x :: r => Forall_cons _ (value_ind' x) (all r) end in
    let fix allp (l : list (value * value)) : Forall (fun kv => P (fst kv) /\ P (snd kv)) l :=
      match l with
      | [] => Forall_nil _
      | x :: r => Forall_cons _ (conj (value_ind' (fst x)) (value_ind' (snd x))) (allp r)
      end in
    match v with
    | VNull => Hnull | VBool b => Hbool b | VDec d => Hdec d | VInt z => Hint z | VFlt f => Hflt f
    | VStr t => Hstr t | VBytes b => Hbytes b | VDt w tz => Hdt w tz | VDate d => Hdate d | VTd u => Htd u
    | VArr l => Harr l (all l) | VList l => Hlist l (all l) | VRange l => Hrange l | VSet l => Hset l (all l)
    | VMap l => Hmap l (allp l) | VDict l => Hdict l (allp l)
    | VFun n => Hfun n | VBFun f => Hbfun f | VMeth m v' => Hmeth m v' (value_ind' v') | VObj n => Hobj n
    end.
End value_ind.

(** ** The time zone database: UTC offset in microseconds of zone [n] at wall clock time [w]
    (Python: [tzinfo.utcoffset(dt)] with fold = 0; datetimes with fold = 1 are not modelled), and whether that offset
    would be another one for fold = 1 (repeated or skipped wall clock times, PEP 495). *)
(* TzDb: datetime.tzinfo of engine.py:469-480 *)
Class TzDb := { utcoff : N -> Z -> Z; tz_fold : N -> Z -> bool }.

(** Python's numeric tower: bool, int, float and Decimal compare by numeric value. *)
(* flt_x: ast.py:579-625 *)
Definition flt_x (f : flt) : xnum :=
  match f with FFin m e _ => XQ (inject_Z m * (2 # 1) ^ e)%Q | FInf n => XInf n | FNaN => XNaN end.

(* num_x: ast.py:579-625 *)
Definition num_x (v : value) : option xnum :=
  match v with
  | VBool b => Some (XQ (inject_Z (if b then 1 else 0)))
  | VInt z => Some (XQ (inject_Z z))
  | VFlt f => Some (flt_x f)
  | VDec d => Some (dec_x d)
  | _ => None
  end.

(* is_eq: ast.py:579-591 *)
Definition is_eq (c : option comparison) : bool := match c with Some Eq => true | _ => false end.

(* bfun_eqb: identity of the functions of builtins.py:161-183 *)
Definition bfun_eqb (a b : bfun) : bool :=
  match a, b with
  | BFabs, BFabs | BFany, BFany | BFall, BFall | BFsum, BFsum | BFmap, BFmap | BFmax, BFmax | BFmin, BFmin
  | BFfilter, BFfilter | BFparse_datetime, BFparse_datetime | BFparse_float, BFparse_float
  | BFparse_timedelta, BFparse_timedelta | BFrandom, BFrandom | BFrange, BFrange | BFsplit, BFsplit => true
  | _, _ => false
  end.

Section Eq.
Context {tz : TzDb}.

(* utc: aware datetimes, ast.py:146-151 *)
Definition utc (w : Z) (z : N) : Z := w - utcoff z w.

(** datetime.__eq__: in different zones, a time whose offset depends on fold is never equal (PEP 495,
    _datetimemodule.c pep495_eq_exception) *)
(* dtm_eqb: ast.py:579-591 *)
Definition dtm_eqb (w1 : Z) (z1 : option N) (w2 : Z) (z2 : option N) : bool :=
  match z1, z2 with
  | None, None => w1 =? w2
  | Some a, Some b => if (a =? b)%N then w1 =? w2 else (utc w1 a =? utc w2 b) && negb (tz_fold a w1) && negb (tz_fold b w2)
  | _, _ => false
  end.

(** Python's [==].  Containers compare members with [==] (CPython's identity shortcut is not modelled: it only matters
    for NaN).  tuple/list compare element-wise, sets by mutual membership, two OrderedDicts including their order,
    dicts regardless of order.  Bound method objects are created afresh on each access, hence never equal. *)
(* py_eq: ast.py:579-591, 745-752 *)
Fixpoint py_eq (v w : value) {struct v} : bool :=
  let fix list_eq (a b : list value) : bool :=
    match a, b with
    | [], [] => true
    | x :: a', y :: b' => py_eq x y && list_eq a' b'
    | _, _ => false
    end in
  let fix pairs_eq (a b : list (value * value)) : bool :=
    match a, b with
    | [], [] => true
    | (k, x) :: a', (k', y) :: b' => py_eq k k' && py_eq x y && pairs_eq a' b'
    | _, _ => false
    end in
  let fix all_in (a b : list value) : bool :=
    match a with [] => true | x :: a' => existsb (py_eq x) b && all_in a' b end in
  let fix all_pairs_in (a b : list (value * value)) : bool :=
    match a with
    | [] => true
    | (k, x) :: a' => existsb (fun kv => py_eq k (fst kv) && py_eq x (snd kv)) b && all_pairs_in a' b
    end in
  match v, w with
  | VNull, VNull => true
  | (VBool _ | VInt _ | VFlt _ | VDec _), (VBool _ | VInt _ | VFlt _ | VDec _) =>
      match num_x v, num_x w with Some a, Some b => is_eq (xcmp a b) | _, _ => false end
  | VStr a, VStr b => str_eqb a b
  | VBytes a, VBytes b => str_eqb a b
  | VDt w1 z1, VDt w2 z2 => dtm_eqb w1 z1 w2 z2
  | VDate a, VDate b => a =? b
  | VTd a, VTd b => a =? b
  | VArr a, VArr b => list_eq a b
  | VList a, VList b => list_eq a b
  | VRange a, VRange b => if list_eq_dec Z.eq_dec a b then true else false
  | VSet a, VSet b => (length a =? length b)%nat && all_in a b
  | VMap a, VMap b => pairs_eq a b
  | VDict a, VDict b | VDict a, VMap b | VMap a, VDict b => (length a =? length b)%nat && all_pairs_in a b
  | VFun a, VFun b => (a =? b)%N
  | VBFun a, VBFun b => bfun_eqb a b
  | VObj a, VObj b => (a =? b)%N
  | _, _ => false
  end.

(** Membership by [==] (hash lookups agree with [==] because Python's hashes are consistent with it). *)
(* py_mem: ast.py:745-752 *)
Definition py_mem (x : value) (l : list value) : bool := existsb (fun y => py_eq y x) l.

(** [set(iterable)]: the first of several equal elements stays. *)
(* set_add: ast.py:327-337, engine.py:400-402 *)
Definition set_add (acc : list value) (x : value) : list value := if py_mem x acc then acc else acc ++ [x].
(* mk_set: ast.py:327-337, engine.py:400-402 *)
Definition mk_set (l : list value) : list value := fold_left set_add l [].

(** [d[k] = v] on an (ordered) dict: an existing equal key keeps its position and its key object. *)
(* dict_put: ast.py:301-312 *)
Fixpoint dict_put {A} (m : list (value * A)) (k : value) (a : A) : list (value * A) :=
  match m with
  | [] => [(k, a)]
  | (k', a') :: r => if py_eq k' k then (k', a) :: r else (k', a') :: dict_put r k a
  end.
(* mk_dict: ast.py:301-312 *)
Definition mk_dict {A} (l : list (value * A)) : list (value * A) :=
  fold_left (fun m kv => dict_put m (fst kv) (snd kv)) l [].
(* dict_get: ast.py:890-907, engine.py:89 *)
Fixpoint dict_get {A} (m : list (value * A)) (k : value) : option A :=
  match m with [] => None | (k', a) :: r => if py_eq k' k then Some a else dict_get r k end.

End Eq.

(** [hash(v)] succeeds *)
(* hashable: ast.py:301-312, 548-552 *)
Fixpoint hashable (v : value) : bool :=
  match v with
  | VArr l => forallb hashable l
  | VList _ | VSet _ | VMap _ | VDict _ => false
  | _ => true
  end.

(** [bool(v)] *)
(* num_truthy: engine.py:657, ast.py:568-572 *)
Definition num_truthy (x : xnum) : bool := match x with XQ q => negb (Qeq_bool q 0) | _ => true end.
(* nonempty: engine.py:657, ast.py:568-572 *)
Definition nonempty {A} (l : list A) : bool := match l with [] => false | _ => true end.
(* truthy: engine.py:657, ast.py:568-572, 1198-1200 *)
Definition truthy (v : value) : bool :=
  match v with
  | VNull => false
  | VBool b => b
  | VDec d => negb (is_zero d)
  | VInt z => negb (z =? 0)
  | VFlt f => num_truthy (flt_x f)
  | VStr t => nonempty t
  | VBytes b => nonempty b
  | VTd u => negb (u =? 0)
  | VArr l | VList l | VSet l => nonempty l
  | VRange l => nonempty l
  | VMap l | VDict l => nonempty l
  | _ => true
  end.

(** [type(v)], as far as [type(a) is type(b)] (ast.py:582,589,622) can tell. *)
Inductive pytag :=
| GNone | GBool | GDecimal | GInt | GFloat | GStr | GBytes | GDatetime | GDate | GTimedelta | GTuple | GList | GRange
| GSet | GODict | GDict | GFunction | GBuiltinFunction | GPartial | GObj (n : N).
Definition pytag_eqb (a b : pytag) : bool :=
  match a, b with
  | GNone, GNone | GBool, GBool | GDecimal, GDecimal | GInt, GInt | GFloat, GFloat | GStr, GStr | GBytes, GBytes
  | GDatetime, GDatetime | GDate, GDate | GTimedelta, GTimedelta | GTuple, GTuple | GList, GList | GRange, GRange
  | GSet, GSet | GODict, GODict | GDict, GDict | GFunction, GFunction | GBuiltinFunction, GBuiltinFunction
  | GPartial, GPartial => true
  | GObj a, GObj b => (a =? b)%N
  | _, _ => false
  end.
(** abs, any, all, sum, max, min are C builtins; parse_datetime is a functools.partial (builtins.py:177). *)
Definition pytag_of (v : value) : pytag :=
  match v with
  | VNull => GNone | VBool _ => GBool | VDec _ => GDecimal | VInt _ => GInt | VFlt _ => GFloat | VStr _ => GStr
  | VBytes _ => GBytes | VDt _ _ => GDatetime | VDate _ => GDate | VTd _ => GTimedelta | VArr _ => GTuple
  | VList _ => GList | VRange _ => GRange | VSet _ => GSet | VMap _ => GODict | VDict _ => GDict
  | VFun _ => GFunction
  | VBFun (BFabs | BFany | BFall | BFsum | BFmax | BFmin) => GBuiltinFunction
  | VBFun BFparse_datetime => GPartial
  | VBFun _ => GFunction
  | VMeth _ _ => GPartial
  | VObj n => GObj n
  end.
