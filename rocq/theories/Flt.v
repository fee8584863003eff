(** * Flt: IEEE 754 binary64 numbers, as far as the engine computes with native floats

    The code computes with floats in six places: float literals read by literal_eval (engine.py:327-335), float(str) and
    timedelta(float, ...) (parser/utilities.py:105-115), datetime.timestamp (engine.py:223), timedelta.total_seconds (engine.py:358),
    the division by 1000 (engine.py:243), and repr(float) (types.py:58).  All of these are correctly rounded (to nearest, ties to even)
    in CPython on IEEE hardware, and repr gives the shortest digits that read back as the same float, and of those the nearest. *)
From Coq Require Import QArith ZArith List Bool.
From Verif Require Import Base Dec Value.
Import ListNotations.
Open Scope Z_scope.

(** b^t <= p/q *)
(* pow_le: float rounding, see above *)
Definition pow_le (b t p q : Z) : bool := if 0 <=? t then b ^ t * q <=? p else q <=? p * b ^ (- t).
(** the largest t with 2^t <= p/q, and with 10^t <= p/q *)
(* flog2: float rounding, see above *)
Definition flog2 (p q : Z) : Z := let t := Z.log2 p - Z.log2 q in if pow_le 2 t p q then t else t - 1.
(* flog10: float repr, types.py:58 *)
Definition flog10 (p q : Z) : Z := let t := ndig (Z.to_N p) - ndig (Z.to_N q) in if pow_le 10 t p q then t else t - 1.
(** p/q divided by b^e *)
(* scaled: float rounding, see above *)
Definition scaled (b e p q : Z) : Z * Z := if 0 <=? e then (p, q * b ^ e) else (p * b ^ (- e), q).
(** the integer nearest to p/q, the even one of two *)
(* nearest_even: float rounding, see above *)
Definition nearest_even (p q : Z) : Z :=
  let k := p / q in
  match 2 * (p mod q) ?= q with Lt => k | Gt => k + 1 | Eq => if Z.even k then k else k + 1 end.

(** the float nearest to v > 0, as m * 2^e with m < 2^53 and e >= -1074 (no upper bound on e here) *)
(* round64: float rounding, see above *)
Definition round64 (v : Q) : Z * Z :=
  let v := Qred v in let p := Qnum v in let q := Zpos (Qden v) in
  let e := Z.max (-1074) (flog2 p q - 52) in
  let '(a, b) := scaled 2 e p q in
  let m := nearest_even a b in
  if m =? 2 ^ 53 then (2 ^ 52, e + 1) else (m, e).

(** c * 10^k *)
(* q10: float repr, types.py:58 *)
Definition q10 (c k : Z) : Q := if 0 <=? k then inject_Z (c * 10 ^ k) else c # Z.to_pos (10 ^ (- k)).
(* q2: float value *)
Definition q2 (m e : Z) : Q := if 0 <=? e then inject_Z (m * 2 ^ e) else m # Z.to_pos (2 ^ (- e)).

(** ** repr *)
(** n digits that read back as m * 2^e *)
(* repr_digits: types.py:58 repr(float), Python/dtoa.c mode 0 *)
Definition repr_digits (m e n : Z) : option (Z * Z) :=
  let x := q2 m e in let p := Qnum x in let q := Zpos (Qden x) in
  let k := flog10 p q - n + 1 in
  let '(a, b) := scaled 10 k p q in
  let lo := a / b in
  let ok c := (0 <? c) && (let '(m', e') := round64 (q10 c k) in (m' =? m) && (e' =? e)) in
  match ok lo, ok (lo + 1) with
  | true, true => Some (match 2 * (a mod b) ?= b with Lt => lo | Gt => lo + 1 | Eq => if Z.even lo then lo else lo + 1 end, k)
  | true, false => Some (lo, k)
  | false, true => Some (lo + 1, k)
  | false, false => None
  end.
(** as few digits as possible; seventeen are always enough (if they were not, the last case would be taken) *)
(* shortest: types.py:58 repr(float), Python/dtoa.c mode 0 *)
Fixpoint shortest (fuel : nat) (m e n : Z) : Z * Z :=
  match repr_digits m e n with
  | Some r => r
  | None =>
      match fuel with
      | O => let x := q2 m e in let p := Qnum x in let q := Zpos (Qden x) in
             let k := flog10 p q - n + 1 in let '(a, b) := scaled 10 k p q in (nearest_even a b, k)
      | S f => shortest f m e (n + 1)
      end
  end.
(* drop_zeros: types.py:58 repr(float) *)
Fixpoint drop_zeros (fuel : nat) (c k : Z) : Z * Z :=
  match fuel with O => (c, k) | S f => if c mod 10 =? 0 then drop_zeros f (c / 10) (k + 1) else (c, k) end.
(** Decimal(repr(x)): a whole number below 1e16 is written with a final ".0" *)
(* repr_dec: types.py:58, Python/pystrtod.c format_float_short *)
Definition repr_dec (neg : bool) (m e : Z) : dec :=
  let '(c, k) := shortest 16 m e 1 in
  let '(c, k) := drop_zeros 20 c k in
  if (0 <=? k) && (ndig (Z.to_N c) + k <=? 16) then DFin neg (Z.to_N (c * 10 ^ k * 10)) (-1) else DFin neg (Z.to_N c) k.

(** the float nearest to -v or v (v >= 0) *)
(* mk_flt: float rounding, see above *)
Definition mk_flt (neg : bool) (v : Q) : flt :=
  if Qnum v =? 0 then FFin 0 0 (DFin neg 0 (-1))
  else let '(m, e) := round64 v in
       if m =? 0 then FFin 0 0 (DFin neg 0 (-1))
       else if 971 <? e then FInf neg
       else FFin (if neg then - m else m) e (repr_dec neg m e).

(** int / int; the quotients of the engine are far from overflow *)
(* flt_div: engine.py:243 microsecond / 1000; engine.py:223, 358: total_seconds is microseconds / 10**6 *)
Definition flt_div (a : Z) (b : positive) : flt := mk_flt (a <? 0) (Z.abs a # b).
(** the float written as c * 10^e *)
(* flt_of_dec: engine.py:335 literal_eval; parser/utilities.py:107 float(str) *)
Definition flt_of_dec (c : N) (e : Z) : flt := mk_flt false (q10 (Z.of_N c) e).

(** ** datetime.timedelta(seconds=float, ...): Modules/_datetimemodule.c accum and delta_new *)
(** the integer part and the fraction of a float *)
(* modf64: C's modf in accum *)
Definition modf64 (v : Q) : Z * Q := let p := Qnum v in let q := Zpos (Qden v) in (p / q, p mod q # Qden v).
(** the value of the float nearest to v >= 0 *)
(* rnd64: C's float operations in accum *)
Definition rnd64 (v : Q) : Q := if Qnum v =? 0 then 0%Q else let '(m, e) := round64 v in q2 m e.
(** one component: the whole units exactly, the fraction of a unit in floats; what is left below a microsecond is collected *)
(* accum: Modules/_datetimemodule.c accum, called by parser/utilities.py:109-115 *)
Definition accum (st : Z * Q) (x : Q) (factor : Z) : Z * Q :=
  let '(sum, rest) := st in
  let '(i, f) := modf64 x in
  if Qnum f =? 0 then (sum + i * factor, rest)
  else let '(i', f') := modf64 (rnd64 (inject_Z factor * f)) in (sum + i * factor + i', rnd64 (rest + f')).
(** the microseconds left over are rounded to the nearest whole, ties to an even sum *)
(* add_left: Modules/_datetimemodule.c delta_new *)
Definition add_left (st : Z * Q) : Z :=
  let '(sum, rest) := st in
  let '(i, f) := modf64 rest in
  match 2 * Qnum f ?= Zpos (Qden f) with Lt => sum + i | Gt => sum + i + 1 | Eq => if Z.even (sum + i) then sum + i else sum + i + 1 end.
(** None: a component too large for a float (PyLong_FromDouble(inf) raises OverflowError) *)
(* timedelta_us: parser/utilities.py:105-115; the components are weeks, days, hours, minutes, seconds as decimals c * 10^e *)
Definition timedelta_us (l : list (N * Z)) : option Z :=
  match l with
  | [w; d; h; m; sc] =>
      let fl x := flt_of_dec (fst x) (snd x) in
      let val x := match fl x with FFin m e _ => Some (q2 m e) | _ => None end in
      match val w, val d, val h, val m, val sc with
      | Some w, Some d, Some h, Some m, Some sc =>
          Some (add_left (accum (accum (accum (accum (accum (0, 0%Q) sc 1000000) m 60000000) h 3600000000) d 86400000000) w 604800000000))
      | _, _, _, _, _ => None
      end
  | _ => None
  end.
