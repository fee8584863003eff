(** * Ops: operator bodies of ast.py and the Python primitives they delegate to, as functions on values

    Everything the code delegates to the outside world is a field of [Oracle]; theorems quantify over all oracles. *)
From Verif Require Import Base Dec Value DType Types.
From Coq Require Import QArith Permutation.
Open Scope Z_scope.

(** ** The outside world (pure part) *)
(* Oracle: library functions called by ast.py:643-667, engine.py:205-402, parser/utilities.py:55-115, suggestions.py:36-102 *)
Class Oracle := {
  o_tz : TzDb;                                             (* tzinfo.utcoffset *)
  o_set_order : list value -> list value;                  (* iteration order of a freshly built set *)
  o_set_order_perm : forall l, Permutation (o_set_order l) l;
  o_re_ok : Z -> str -> bool;                              (* re.compile(pattern, flags) succeeds *)
  o_re : Z -> bool -> str -> str -> option (list (option str));
     (* flags, search instead of match?, pattern, subject -> match.groups() *)
  o_lower : str -> str;                                    (* str.lower of text that is not ASCII *)
  o_upper : str -> str;                                    (* str.upper of text that is not ASCII *)
  o_space : N -> bool;                                     (* str.isspace *)
  o_digit : N -> option N;                                 (* decimal value of a non-ASCII Unicode digit (Nd) *)
  o_decode : str -> list N -> result str;                  (* bytes.decode(codec), codecs not in Codec.v *)
  o_encode : str -> str -> result (list N);                (* str.encode(codec), codecs not in Codec.v *)
  o_isoparse : str -> option (Z * option N);               (* dateutil.parser.isoparse *)
  o_pylit : str -> option dec;                             (* Decimal(ast.literal_eval(s)) for an s starting with
                                                              0b, 0o or 0x that is not a plain integer literal *)
  o_pow : dctx -> dec -> dec -> option dec;                (* Decimal.__pow__; None = an ArithmeticError *)
  o_timestamp : Z -> flt;                                  (* datetime.timestamp of a naive datetime (system zone) *)
  o_tzname : option N -> Z -> option str;                  (* datetime.tzname *)
  o_suggest : str -> list str -> option str                (* suggestions.suggest_symbol; modelled in Suggest.v *)
}.
#[export] Existing Instance o_tz.

(** str.lower and str.upper: ASCII text letter by letter; text with other characters is up to the Unicode tables *)
(* py_lower: engine.py:211, 302, 314, 470 *)
Definition py_lower {Orc : Oracle} (t : str) : str :=
  if forallb (fun c => c <? 128)%N t then map (fun c => if (65 <=? c) && (c <=? 90) then c + 32 else c)%N t else o_lower t.
(* py_upper: engine.py:306 *)
Definition py_upper {Orc : Oracle} (t : str) : str :=
  if forallb (fun c => c <? 128)%N t then map (fun c => if (97 <=? c) && (c <=? 122) then c - 32 else c)%N t else o_upper t.

(** ** Ordering *)
(* cop: ast.py:627-630 *)
Inductive cop := Clt | Cle | Cgt | Cge.

(* cop_of: ast.py:627-630 *)
Definition cop_of (o : cop) (c : comparison) : bool :=
  match o, c with
  | Clt, Lt | Cle, Lt | Cle, Eq | Cge, Eq | Cge, Gt | Cgt, Gt => true
  | _, _ => false
  end.

(** Lexicographic comparison of str and bytes by code points. *)
(* str_cmp: ast.py:618-625 *)
Fixpoint str_cmp (a b : str) : comparison :=
  match a, b with
  | [], [] => Eq
  | [], _ :: _ => Lt
  | _ :: _, [] => Gt
  | x :: a', y :: b' => match (x ?= y)%N with Eq => str_cmp a' b' | c => c end
  end.

(* bool_z: ast.py:618-625 *)
Definition bool_z (b : bool) : Z := if b then 1 else 0.

(* is_dec: ast.py:618-625 *)
Definition is_dec (v : value) : bool := match v with VDec _ => true | _ => false end.

Section Ops.
Context {Orc : Oracle}.

(** datetime.__lt__ and friends: naive and aware datetimes do not compare. *)
(* dtm_cmp: ast.py:618-625 *)
Definition dtm_cmp (w1 : Z) (z1 : option N) (w2 : Z) (z2 : option N) : option comparison :=
  match z1, z2 with
  | None, None => Some (w1 ?= w2)
  | Some a, Some b => Some (if (a =? b)%N then w1 ?= w2 else utc w1 a ?= utc w2 b)
  | _, _ => None
  end.

(* subset: ast.py:618-625 *)
Definition subset (a b : list value) : bool := forallb (fun x => py_mem x b) a.

(** Python's [<], [<=], [>], [>=] on native values.  Decimal raises InvalidOperation when ordering NaN; comparing a
    Decimal with a float NaN converts the float first. *)
(* py_ord: ast.py:618-625 *)
Fixpoint py_ord (o : cop) (v w : value) {struct v} : result bool :=
  let fix lists (a b : list value) : result bool :=
    match a, b with
    | [], [] => Ok (cop_of o Eq)
    | [], _ :: _ => Ok (cop_of o Lt)
    | _ :: _, [] => Ok (cop_of o Gt)
    | x :: a', y :: b' => if py_eq x y then lists a' b' else py_ord o x y
    end in
  match v, w with
  | (VBool _ | VInt _ | VFlt _ | VDec _), (VBool _ | VInt _ | VFlt _ | VDec _) =>
      match num_x v, num_x w with
      | Some a, Some b =>
          match xcmp a b with
          | Some c => Ok (cop_of o c)
          | None => if is_dec v || is_dec w then Err PInvalidOp else Ok false
          end
      | _, _ => Err PType
      end
  | VStr a, VStr b | VBytes a, VBytes b => Ok (cop_of o (str_cmp a b))
  | VDt w1 z1, VDt w2 z2 =>
      match dtm_cmp w1 z1 w2 z2 with Some c => Ok (cop_of o c) | None => Err PType end
  | VDate a, VDate b => Ok (cop_of o (a ?= b))
  | VTd a, VTd b => Ok (cop_of o (a ?= b))
  | VArr a, VArr b | VList a, VList b => lists a b
  | VSet a, VSet b =>
      Ok (match o with
          | Cle => subset a b
          | Cge => subset b a
          | Clt => subset a b && (length a <? length b)%nat
          | Cgt => subset b a && (length b <? length a)%nat
          end)
  | _, _ => Err PType
  end.

(** ** Comparison (ast.py:577-630) *)

(** ast.py:579-584, 586-591: ComparisonExpression._op_eq / _op_ne *)
Definition op_eq (l r : value) : bool := if pytag_eqb (pytag_of l) (pytag_of r) then py_eq l r else false.
Definition op_ne (l r : value) : bool := if pytag_eqb (pytag_of l) (pytag_of r) then negb (py_eq l r) else true.

(** the Python operator handed to __op_arithmetic_values: an ordering or operator.ne *)
(* aop: ast.py:605-630 *)
Inductive aop := AOrd (o : cop) | ANe.
(* aop_reflexive: ast.py:605-630 *)
Definition aop_reflexive (o : aop) : bool := match o with AOrd Cle | AOrd Cge => true | _ => false end.
(* aop_native: ast.py:605-630 *)
Definition aop_native (o : aop) (l r : value) : result bool :=
  match o with AOrd c => py_ord c l r | ANe => Ok (negb (py_eq l r)) end.

(** ast.py:605-625: __op_arithmetic_arrays and __op_arithmetic_values *)
Fixpoint cmp_values (o : aop) (l r : value) {struct l} : result bool :=
  let fix cmp_arrays (a b : list value) (n m : Z) : result bool :=
    match a, b with
    | x :: a', y :: b' =>
        rbind (cmp_values ANe x y) (fun ne => if ne then cmp_values o x y else cmp_arrays a' b' n m)
    | _, _ => if n =? m then Ok (aop_reflexive o) else aop_native o (VInt n) (VInt m)
    end in
  match l, r with
  | VNull, VNull => Ok (aop_reflexive o)
  | VArr a, VArr b => cmp_arrays a b (Z.of_nat (length a)) (Z.of_nat (length b))
  | _, _ => if pytag_eqb (pytag_of l) (pytag_of r) then aop_native o l r else Err XEval
  end.

Definition op_ord (o : cop) (l r : value) : result bool := cmp_values (AOrd o) l r.

(** ** Addition and subtraction (ast.py:430-445, 475-486) *)
Definition dt_max : Z := 3652059 * us_per_day.                 (* datetime.max + 1 microsecond *)
(* td_ok: results of ast.py:430-445, 475-486 *)
Definition td_ok (u : Z) : bool := (- 999999999 * us_per_day <=? u) && (u <? 1000000000 * us_per_day).
(* mk_td: results of ast.py:430-445, 475-486 *)
Definition mk_td (u : Z) : result value := if td_ok u then Ok (VTd u) else Err POverflow.
(* mk_dt: results of ast.py:430-445, 475-486 *)
Definition mk_dt (w : Z) (z : option N) : result value :=
  if (0 <=? w) && (w <? dt_max) then Ok (VDt w z) else Err POverflow.

(** The Decimal of a number.  (By eval_normal only Decimals reach the arithmetic operators; native numbers are
    converted to keep the function total.) *)
(* as_dec: ast.py:430-509 *)
Definition as_dec (v : value) : dec :=
  match v with VDec d => d | VInt z => dec_of_Z z | VFlt f => flt_dec f | _ => DNaN end.

(* rdec: ast.py:430-509 *)
Definition rdec (r : result dec) : result value := rmap VDec r.

(* is_bytes: ast.py:45-47 *)
Definition is_bytes (v : value) : bool := match v with VBytes _ => true | _ => false end.
(* is_str: ast.py:61-63 *)
Definition is_str (v : value) : bool := match v with VStr _ => true | _ => false end.
(* op_add: ast.py:430-445 *)
Definition op_add (dc : dctx) (l r : value) : result value :=
  match l with
  | VDt w z => match r with VTd u => mk_dt (w + u) z | _ => Err XEval end
  | VTd u => match r with VTd u' => mk_td (u + u') | VDt w z => mk_dt (w + u) z | _ => Err XEval end
  | VBytes a => match r with VBytes b => Ok (VBytes (a ++ b)) | _ => Err PType end
  | VStr a => if is_bytes r then Err XEval else match r with VStr b => Ok (VStr (a ++ b)) | _ => Err PType end
  | _ => if is_bytes r || is_str r then Err XEval
         else if is_numeric l && is_numeric r then rdec (dadd dc (as_dec l) (as_dec r)) else Err XEval
  end.

(* op_sub: ast.py:475-486 *)
Definition op_sub (dc : dctx) (l r : value) : result value :=
  match l with
  | VDt w z =>
      match r with
      | VTd u => mk_dt (w - u) z
      | VDt w' z' =>
          match z, z' with
          | None, None => mk_td (w - w')
          | Some a, Some b => mk_td (if (a =? b)%N then w - w' else utc w a - utc w' b)
          | _, _ => Err PType
          end
      | _ => Err XEval
      end
  | VTd u => match r with VTd u' => mk_td (u - u') | _ => Err XEval end
  | _ => if is_numeric l && is_numeric r then rdec (dsub dc (as_dec l) (as_dec r)) else Err XEval
  end.

(** ** Arithmetic (ast.py:488-509) *)
Inductive arith := Mul | TDiv | FDiv | Mod | Pow.

Definition dec_arith (o : arith) (dc : dctx) (a b : dec) : result dec :=
  match o with
  | Mul => dmul dc a b
  | TDiv => dtruediv dc a b
  | FDiv => dfloordiv dc a b
  | Mod => dmod dc a b
  | Pow => match o_pow dc a b with Some d => Ok d | None => Err PInvalidOp end
  end.

(** the try/except of ast.py:497-503 *)
Definition op_arith (o : arith) (dc : dctx) (l r : value) : result value :=
  match dec_arith o dc (as_dec l) (as_dec r) with
  | Ok d => Ok (VDec d)
  | Err x => if is_arithmetic x then Err XEval else Err x
  end.

(** ** Bitwise operators (ast.py:534-564) *)
Inductive bitop := BAnd | BOr | BXor | BShl | BShr.
Definition is_shift (o : bitop) : bool := match o with BShl | BShr => true | _ => false end.

Definition z_bitop (o : bitop) (a b : Z) : Z :=
  match o with
  | BAnd => Z.land a b | BOr => Z.lor a b | BXor => Z.lxor a b
  | BShl => Z.shiftl a b | BShr => Z.shiftr a b
  end.

(** set & | ^; the shift operators are not defined on sets (TypeError).  CPython's intersection walks the smaller set (the
    right one on a tie), so which of two equal members survives depends on the sizes. *)
(* set_bitop: ast.py:548-556 *)
Definition set_bitop (o : bitop) (a b : list value) : result (list value) :=
  match o with
  | BAnd => Ok (if (length a <? length b)%nat then filter (fun x => py_mem x b) a else filter (fun x => py_mem x a) b)
  | BOr => Ok (a ++ filter (fun x => negb (py_mem x a)) b)
  | BXor => Ok (filter (fun x => negb (py_mem x b)) a ++ filter (fun x => negb (py_mem x a)) b)
  | _ => Err PType
  end.

(** [set(...)] with CPython's iteration order *)
(* new_set: ast.py:548-552, 211-212 *)
Definition new_set (l : list value) : value := VSet (o_set_order l).

(** _assert_is_natural_number / _assert_is_integer_number (ast.py:49-55) on one value *)
Definition assert_natural (v : value) : result unit :=
  rbind (is_natural_number v) (fun b => if b then Ok tt else Err XEval).
Definition assert_integer (v : value) : result unit :=
  rbind (is_integer_number v) (fun b => if b then Ok tt else Err XEval).

(** ast.py:542-546 once both operands are known *)
Definition op_bit_float (o : bitop) (l r : value) : result value :=
  rbind (assert_natural r) (fun _ => Ok (VDec (dec_of_Z (z_bitop o (to_int l) (to_int r))))).

(** ast.py:548-552 *)
Definition op_bit_set (o : bitop) (l r : value) : result value :=
  rbind (from_value r) (fun t =>
  if is_compat t t_set then
    match l, r with
    | VSet a, VSet b => rmap new_set (set_bitop o a b)
    | _, _ => Err PType
    end
  else Err XEval).

(** ** Membership (ast.py:745-752) *)
Fixpoint is_prefix (p t : str) : bool :=
  match p, t with
  | [], _ => true
  | x :: p', y :: t' => (x =? y)%N && is_prefix p' t'
  | _, _ => false
  end.
Fixpoint is_infix (p t : str) : bool :=
  is_prefix p t || match t with [] => false | _ :: t' => is_infix p t' end.

(** Python's [m in c] *)
(* py_in: ast.py:745-752 *)
Definition py_in (m c : value) : result bool :=
  match c with
  | VStr t => match m with VStr p => Ok (is_infix p t) | _ => Err PType end
  | VBytes t => match m with VBytes p => Ok (is_infix p t) | _ => Err PType end
  | VArr l | VList l => Ok (py_mem m l)
  | VSet l => match m with
              | VSet _ => Ok (py_mem m l)    (* set.__contains__ retries an unhashable set as a frozenset *)
              | _ => if hashable m then Ok (py_mem m l) else Err PType
              end
  | VMap l | VDict l => if hashable m then Ok (py_mem m (map fst l)) else Err PType
  | _ => Err PType
  end.

(* op_in: ast.py:745-752 *)
Definition op_in (c m : value) : result bool :=
  rbind (from_value c) (fun tc =>
  if dt_eqb tc TBytes || dt_eqb tc TString then
    rbind (from_value m) (fun tm => if dt_eqb tm tc then py_in m c else Err XEval)
  else py_in m c).

(** ** Item access (ast.py:890-907) and slices (ast.py:969-985) *)
Definition norm_index (n i : Z) : option nat :=
  let j := if i <? 0 then n + i else i in
  if (0 <=? j) && (j <? n) then Some (Z.to_nat j) else None.

Definition seq_get {A} (l : list A) (i : Z) : option A :=
  match norm_index (Z.of_nat (length l)) i with Some j => nth_error l j | None => None end.

(** [operator.getitem]; [Err XLookup] stands for IndexError and KeyError *)
(* py_getitem: ast.py:890-907 *)
Definition py_getitem (c k : value) : result value :=
  match c with
  | VBytes b => match seq_get b (to_int k) with Some x => Ok (VInt (Z.of_N x)) | None => Err XLookup end
  | VStr t => match seq_get t (to_int k) with Some x => Ok (VStr [x]) | None => Err XLookup end
  | VArr l => match seq_get l (to_int k) with Some x => Ok x | None => Err XLookup end
  | VMap l | VDict l =>
      if hashable k then match dict_get l k with Some x => Ok x | None => Err XLookup end else Err PType
  | _ => Err PType
  end.

(* is_sequence: ast.py:890-907 *)
Definition is_sequence (v : value) : bool := match v with VBytes _ | VStr _ | VArr _ => true | _ => false end.

(** PySlice_AdjustIndices with step 1 *)
(* clamp_index: ast.py:969-985 *)
Definition clamp_index (n i : Z) : Z := if i <? 0 then Z.max 0 (n + i) else Z.min i n.
(* seq_slice: ast.py:969-985 *)
Definition seq_slice {A} (l : list A) (a b : option Z) : list A :=
  let n := Z.of_nat (length l) in
  let i := match a with Some i => clamp_index n i | None => 0 end in
  let j := match b with Some j => clamp_index n j | None => n end in
  firstn (Z.to_nat (j - i)) (skipn (Z.to_nat i) l).

(* py_getslice: ast.py:969-985 *)
Definition py_getslice (c : value) (a b : option Z) : result value :=
  match c with
  | VBytes t => Ok (VBytes (seq_slice t a b))
  | VStr t => Ok (VStr (seq_slice t a b))
  | VArr l => Ok (VArr (seq_slice l a b))
  | VList l => Ok (VList (seq_slice l a b))
  | VRange l => Ok (VRange (seq_slice l a b))
  | _ => Err PType
  end.

(** ** Unary minus (ast.py:1256-1262) *)
Definition op_neg (dc : dctx) (v : value) : result value :=
  match v with
  | VTd u => mk_td (- u)
  | _ => if is_numeric v then rdec (dneg dc (as_dec v)) else Err XEval
  end.

(** ** Members of an iterable, in iteration order (for ... in value) *)
(* elems: ast.py:702-712 *)
Definition elems (v : value) : list value :=
  match v with
  | VArr l | VList l | VSet l => l
  | VRange l => map VInt l
  | VMap l | VDict l => map fst l
  | _ => []
  end.

(** ** ExpressionBase._new_value (ast.py:146-151) *)
Definition set_tz (tz : N) (v : value) : value := match v with VDt w None => VDt w (Some tz) | _ => v end.
Definition new_value (tz : N) (ver : bool) (v : value) : result value := rmap (set_tz tz) (coerce ver v).

End Ops.
