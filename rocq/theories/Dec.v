(** * Dec: decimal.Decimal

    The engine represents FLOAT values by [decimal.Decimal] (types.py:55-58, 444).  This file models the arithmetic the
    operators of ast.py:444,486,488-509,1251-1262 delegate to, following CPython's reference implementation
    (Lib/_pydecimal.py: _fix, __add__, __mul__, __truediv__, _divide, __neg__, _cmp).

    Simplifications: NaNs carry no payload and are quiet; the context's traps are the default ones (InvalidOperation,
    DivisionByZero and Overflow raise, the others do not); clamp = 0; [_normalize] of __add__ (an optimisation that does
    not change the rounded result) is omitted, sums are formed exactly and then rounded. *)
From Verif Require Import Base.
From Coq Require Import QArith Qabs Qpower Lqa.
Open Scope Z_scope.

Inductive dec : Type :=
| DFin (neg : bool) (c : N) (e : Z)   (* (-1)^neg * c * 10^e *)
| DInf (neg : bool)
| DNaN.

(* rounding: decimal.Context of engine.py:490, 645 *)
Inductive rounding :=
| RHalfEven | RHalfUp | RHalfDown | RUp | RDown | RCeiling | RFloor | R05Up.

(** decimal.Context: precision, rounding, Emin, Emax. *)
(* dctx: engine.py:490, 645 *)
Record dctx := { prec : Z; rmode : rounding; emin : Z; emax : Z }.

(** decimal.DefaultContext *)
(* dctx_default: engine.py:490 (decimal.getcontext() of a fresh thread) *)
Definition dctx_default : dctx := {| prec := 28; rmode := RHalfEven; emin := -999999; emax := 999999 |}.

(** What decimal.Context accepts (prec >= 1, Emin <= 0 <= Emax). *)
(* dctx_ok: engine.py:490 *)
Definition dctx_ok (dc : dctx) : Prop := 1 <= prec dc /\ emin dc <= 0 <= emax dc.

(* etiny: decimal.Context.Etiny, used by the operations of ast.py:444, 486, 488-509 *)
Definition etiny (dc : dctx) := emin dc - prec dc + 1.
(* etop: decimal.Context.Etop, used by the operations of ast.py:444, 486, 488-509 *)
Definition etop (dc : dctx) := emax dc - prec dc + 1.

(** [len(str(c))] *)
(* ndig_aux: decimal primitive of ast.py:488-509 *)
Fixpoint ndig_aux (fuel : nat) (c : N) : Z :=
  match fuel with
  | O => 1
  | S f => if (c <? 10)%N then 1 else 1 + ndig_aux f (c / 10)%N
  end.
(* ndig: decimal primitive of ast.py:488-509 *)
Definition ndig (c : N) : Z := ndig_aux (N.to_nat (N.size c)) c.

(* pow10: decimal primitive of ast.py:488-509 *)
Definition pow10 (k : Z) : N := Z.to_N (10 ^ k).

(** _pydecimal.py _round_*: does dropping the digits [r] (out of 10^k) after [q] round away from zero? *)
Definition round_away (m : rounding) (neg : bool) (q r p : N) : bool :=
  match m with
  | RDown => false
  | RUp => negb (r =? 0)%N
  | RHalfEven => (p <? 2 * r)%N || ((2 * r =? p)%N && N.odd q)
  | RHalfUp => (p <=? 2 * r)%N
  | RHalfDown => (p <? 2 * r)%N
  | RCeiling => negb (r =? 0)%N && negb neg
  | RFloor => negb (r =? 0)%N && neg
  | R05Up => negb (r =? 0)%N && ((q mod 10 =? 0)%N || (q mod 10 =? 5)%N)
  end.

(** _pydecimal.py _fix *)
Definition dfix (dc : dctx) (neg : bool) (c : N) (e : Z) : result dec :=
  if (c =? 0)%N then Ok (DFin neg 0 (Z.min (Z.max e (etiny dc)) (emax dc)))
  else
    let exp_min := ndig c + e - prec dc in
    if etop dc <? exp_min then Err PDecOverflow
    else
      let exp_min := Z.max exp_min (etiny dc) in
      if e <? exp_min then
        let p := pow10 (exp_min - e) in
        let q := (c / p)%N in
        let r := (c mod p)%N in
        let coeff := if round_away (rmode dc) neg q r p then (q + 1)%N else q in
        let '(coeff, exp_min) :=
          if round_away (rmode dc) neg q r p && (prec dc <? ndig coeff)
          then ((coeff / 10)%N, exp_min + 1) else (coeff, exp_min) in
        if etop dc <? exp_min then Err PDecOverflow else Ok (DFin neg coeff exp_min)
      else Ok (DFin neg c e).

Definition dfix_dec (dc : dctx) (d : dec) : result dec :=
  match d with DFin n c e => dfix dc n c e | _ => Ok d end.

Definition signed (neg : bool) (c : N) : Z := if neg then - Z.of_N c else Z.of_N c.

Definition is_zero (d : dec) : bool := match d with DFin _ c _ => (c =? 0)%N | _ => false end.

Definition is_floor (m : rounding) : bool := match m with RFloor => true | _ => false end.

(** _pydecimal.py __add__ *)
Definition dadd (dc : dctx) (a b : dec) : result dec :=
  match a, b with
  | DNaN, _ | _, DNaN => Ok DNaN
  | DInf n1, DInf n2 => if Bool.eqb n1 n2 then Ok a else Err PInvalidOp
  | DInf _, _ => Ok a
  | _, DInf _ => Ok b
  | DFin n1 c1 e1, DFin n2 c2 e2 =>
      let e := Z.min e1 e2 in
      let z := signed n1 c1 * 10 ^ (e1 - e) + signed n2 c2 * 10 ^ (e2 - e) in
      if z =? 0 then
        let neg :=
          if (c1 =? 0)%N && (c2 =? 0)%N
          then (n1 && n2) || (is_floor (rmode dc) && negb (Bool.eqb n1 n2))
          else is_floor (rmode dc) && negb (Bool.eqb n1 n2) in
        dfix dc neg 0 e
      else dfix dc (z <? 0) (Z.abs_N z) e
  end.

(** copy_negate *)
(* dnegate: decimal primitive of ast.py:486, 1256-1262 *)
Definition dnegate (d : dec) : dec :=
  match d with DFin n c e => DFin (negb n) c e | DInf n => DInf (negb n) | DNaN => DNaN end.

(** _pydecimal.py __sub__: [self.__add__(other.copy_negate())] *)
Definition dsub (dc : dctx) (a b : dec) : result dec := dadd dc a (dnegate b).

(** _pydecimal.py __mul__ *)
Definition dmul (dc : dctx) (a b : dec) : result dec :=
  match a, b with
  | DNaN, _ | _, DNaN => Ok DNaN
  | DInf n1, DInf n2 => Ok (DInf (xorb n1 n2))
  | DInf n1, DFin n2 c2 _ => if (c2 =? 0)%N then Err PInvalidOp else Ok (DInf (xorb n1 n2))
  | DFin n1 c1 _, DInf n2 => if (c1 =? 0)%N then Err PInvalidOp else Ok (DInf (xorb n1 n2))
  | DFin n1 c1 e1, DFin n2 c2 e2 => dfix dc (xorb n1 n2) (c1 * c2) (e1 + e2)
  end.

(** strip trailing zeros while the exponent is below [ideal] (loop at the end of __truediv__) *)
(* strip_zeros: decimal primitive of ast.py:507 *)
Fixpoint strip_zeros (fuel : nat) (c : N) (e ideal : Z) : N * Z :=
  match fuel with
  | O => (c, e)
  | S f => if (e <? ideal) && (c mod 10 =? 0)%N then strip_zeros f (c / 10)%N (e + 1) ideal else (c, e)
  end.

(** _pydecimal.py __truediv__ *)
Definition dtruediv (dc : dctx) (a b : dec) : result dec :=
  match a, b with
  | DNaN, _ | _, DNaN => Ok DNaN
  | DInf _, DInf _ => Err PInvalidOp
  | DInf n1, DFin n2 _ _ => Ok (DInf (xorb n1 n2))
  | DFin n1 _ _, DInf n2 => Ok (DFin (xorb n1 n2) 0 (etiny dc))
  | DFin n1 c1 e1, DFin n2 c2 e2 =>
      if (c2 =? 0)%N then (if (c1 =? 0)%N then Err PInvalidOp else Err PDivZero)
      else if (c1 =? 0)%N then dfix dc (xorb n1 n2) 0 (e1 - e2)
      else
        let shift := ndig c2 - ndig c1 + prec dc + 1 in
        let e := e1 - e2 - shift in
        let num := if 0 <=? shift then (c1 * pow10 shift)%N else c1 in
        let den := if 0 <=? shift then c2 else (c2 * pow10 (- shift))%N in
        let q := (num / den)%N in
        let r := (num mod den)%N in
        if (r =? 0)%N then
          let '(c, e') := strip_zeros (Z.to_nat (e1 - e2 - e)) q e (e1 - e2) in
          dfix dc (xorb n1 n2) c e'
        else dfix dc (xorb n1 n2) (if (q mod 5 =? 0)%N then (q + 1)%N else q) e
  end.

Definition adjusted (c : N) (e : Z) : Z := e + ndig c - 1.

(** _pydecimal.py _divide for a finite dividend and a finite non-zero divisor: integer quotient and remainder.
    [None] is DivisionImpossible (an InvalidOperation). The early exit for [expdiff <= -2] is folded into the general
    formula: there the quotient is 0 and the remainder is the dividend (rescaled to the ideal exponent, which only
    pads zeros because the ideal exponent is not above the dividend's). *)
Definition ddivide (dc : dctx) (n1 : bool) (c1 : N) (e1 : Z) (n2 : bool) (c2 : N) (e2 : Z) : option (N * N * Z) :=
  let ideal := Z.min e1 e2 in
  if (c1 =? 0)%N then Some (0%N, 0%N, ideal)
  else if adjusted c1 e1 - adjusted c2 e2 <=? -2 then Some (0%N, (c1 * pow10 (e1 - ideal))%N, ideal)
  else if adjusted c1 e1 - adjusted c2 e2 <=? prec dc then
    let i1 := (c1 * pow10 (e1 - ideal))%N in
    let i2 := (c2 * pow10 (e2 - ideal))%N in
    let q := (i1 / i2)%N in
    if (q <? pow10 (prec dc))%N then Some (q, (i1 mod i2)%N, ideal) else None
  else None.

(** _pydecimal.py __floordiv__ *)
Definition dfloordiv (dc : dctx) (a b : dec) : result dec :=
  match a, b with
  | DNaN, _ | _, DNaN => Ok DNaN
  | DInf _, DInf _ => Err PInvalidOp
  | DInf n1, DFin n2 _ _ => Ok (DInf (xorb n1 n2))
  | DFin n1 _ _, DInf n2 => Ok (DFin (xorb n1 n2) 0 0)
  | DFin n1 c1 e1, DFin n2 c2 e2 =>
      if (c2 =? 0)%N then (if (c1 =? 0)%N then Err PInvalidOp else Err PDivZero)
      else match ddivide dc n1 c1 e1 n2 c2 e2 with
           | Some (q, _, _) => Ok (DFin (xorb n1 n2) q 0)
           | None => Err PInvalidOp
           end
  end.

(** _pydecimal.py __mod__ *)
Definition dmod (dc : dctx) (a b : dec) : result dec :=
  match a, b with
  | DNaN, _ | _, DNaN => Ok DNaN
  | DInf _, _ => Err PInvalidOp
  | DFin n1 c1 e1, DInf _ => dfix dc n1 c1 e1
  | DFin n1 c1 e1, DFin n2 c2 e2 =>
      if (c2 =? 0)%N then Err PInvalidOp
      else match ddivide dc n1 c1 e1 n2 c2 e2 with
           | Some (_, r, e) => dfix dc n1 r e
           | None => Err PInvalidOp
           end
  end.

(** _pydecimal.py __neg__ *)
Definition dneg (dc : dctx) (a : dec) : result dec :=
  match a with
  | DFin n c e => if (c =? 0)%N && negb (is_floor (rmode dc)) then dfix dc false c e else dfix dc (negb n) c e
  | _ => Ok (dnegate a)
  end.

(** _pydecimal.py __pos__ and __abs__ *)
Definition dpos (dc : dctx) (a : dec) : result dec :=
  match a with
  | DFin n c e => if (c =? 0)%N && negb (is_floor (rmode dc)) then dfix dc false c e else dfix dc n c e
  | _ => Ok a
  end.
Definition dabs (dc : dctx) (a : dec) : result dec :=
  match a with
  | DFin true _ _ | DInf true => dneg dc a
  | DNaN => Ok DNaN
  | _ => dpos dc a
  end.

(** ** Numeric meaning *)
(* dec_q: specification *)
Definition dec_q (n : bool) (c : N) (e : Z) : Q := (inject_Z (signed n c) * (10 # 1) ^ e)%Q.

(** Extended numbers: what Python's numeric tower compares. *)
(* xnum: operands of ast.py:579-625 *)
Inductive xnum := XQ (q : Q) | XInf (neg : bool) | XNaN.

(* dec_x: operands of ast.py:579-625 *)
Definition dec_x (d : dec) : xnum :=
  match d with DFin n c e => XQ (dec_q n c e) | DInf n => XInf n | DNaN => XNaN end.

(** Comparison of two numbers; [None] when one is NaN. *)
(* xcmp: ast.py:579-625 *)
Definition xcmp (a b : xnum) : option comparison :=
  match a, b with
  | XNaN, _ | _, XNaN => None
  | XInf n, XInf m => Some (if Bool.eqb n m then Eq else if n then Lt else Gt)
  | XInf n, XQ _ => Some (if n then Lt else Gt)
  | XQ _, XInf m => Some (if m then Gt else Lt)
  | XQ p, XQ q => Some (Qcompare p q)
  end.

(* dcmp: ast.py:579-625 *)
Definition dcmp (a b : dec) : option comparison := xcmp (dec_x a) (dec_x b).

(* is_nan: engine.py:97, 279-280 *)
Definition is_nan (d : dec) : bool := match d with DNaN => true | _ => false end.
(* is_inf: engine.py:97 *)
Definition is_inf (d : dec) : bool := match d with DInf _ => true | _ => false end.

(** [math.floor(d)] / [int(d)] for a finite decimal *)
(* dfloor: engine.py:275-276, types.py:103 *)
Definition dfloor (n : bool) (c : N) (e : Z) : Z :=
  if 0 <=? e then signed n c * 10 ^ e else signed n c / 10 ^ (- e).
(* dceil: engine.py:271-272 *)
Definition dceil (n : bool) (c : N) (e : Z) : Z :=
  if 0 <=? e then signed n c * 10 ^ e else - ((- signed n c) / 10 ^ (- e)).
(* dtrunc: int(value): ast.py:544-546, 895, builtins.py:64-75 *)
Definition dtrunc (n : bool) (c : N) (e : Z) : Z :=
  if 0 <=? e then signed n c * 10 ^ e else Z.quot (signed n c) (10 ^ (- e)).

(* dec_of_Z: types.py:55-58 *)
Definition dec_of_Z (z : Z) : dec := DFin (z <? 0) (Z.abs_N z) 0.

(** ** Computation tests (not proofs of anything general) *)
Example t_add : dadd dctx_default (DFin false 1 (-1)) (DFin false 2 (-1)) = Ok (DFin false 3 (-1)).
Proof. reflexivity. Qed.
Example t_div : dtruediv dctx_default (DFin false 1 0) (DFin false 3 0)
  = Ok (DFin false 3333333333333333333333333333 (-28)).
Proof. vm_compute. reflexivity. Qed.
Example t_div2 : dtruediv dctx_default (DFin false 10 0) (DFin false 4 0) = Ok (DFin false 25 (-1)).
Proof. vm_compute. reflexivity. Qed.
Example t_mod : dmod dctx_default (DFin true 7 0) (DFin false 3 0) = Ok (DFin true 1 0).
Proof. vm_compute. reflexivity. Qed.
Example t_fdiv : dfloordiv dctx_default (DFin true 7 0) (DFin false 2 0) = Ok (DFin true 3 0).
Proof. vm_compute. reflexivity. Qed.
