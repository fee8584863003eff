(** * Attr: the attributes of values (engine.py:116-402) *)
From Verif Require Import Base Dec Value DType Types Flt Ops ParseUtil Codec.
Open Scope Z_scope.

(** ** Calendar (CPython Lib/datetime.py _ord2ymd, on days since 0001-01-01) *)
Definition days_before_month (leap : bool) (m : Z) : Z :=
  nth (Z.to_nat m) [0; 0; 31; 59; 90; 120; 151; 181; 212; 243; 273; 304; 334] 0 + (if (2 <? m) && leap then 1 else 0).
Definition days_in_month (leap : bool) (m : Z) : Z :=
  if (m =? 2) && leap then 29 else nth (Z.to_nat m) [0; 31; 28; 31; 30; 31; 30; 31; 31; 30; 31; 30; 31] 0.

Definition ord2ymd (day : Z) : Z * Z * Z :=
  let n400 := day / 146097 in let n := day mod 146097 in
  let n100 := n / 36524 in let n := n mod 36524 in
  let n4 := n / 1461 in let n := n mod 1461 in
  let n1 := n / 365 in let n := n mod 365 in
  let year := n400 * 400 + 1 + n100 * 100 + n4 * 4 + n1 in
  if (n1 =? 4) || (n100 =? 4) then (year - 1, 12, 31)
  else
    let leap := (n1 =? 3) && (negb (n4 =? 24) || (n100 =? 3)) in
    let month := (n + 50) / 32 in
    let prec := days_before_month leap month in
    if n <? prec then
      let month := month - 1 in (year, month, n - (prec - days_in_month leap month) + 1)
    else (year, month, n - prec + 1).

Definition dt_days (w : Z) : Z := w / us_per_day.
Definition dt_time (w : Z) : Z := w mod us_per_day.
Definition dt_hour (w : Z) : Z := dt_time w / 3600000000.
Definition dt_minute (w : Z) : Z := dt_time w / 60000000 mod 60.
Definition dt_second (w : Z) : Z := dt_time w / 1000000 mod 60.
Definition dt_microsecond (w : Z) : Z := dt_time w mod 1000000.
(** strftime('%A') in the C locale (Python's LC_TIME unless the program calls locale.setlocale); 0001-01-01 is a Monday *)
(* weekday_name: engine.py:257-259 *)
Definition weekday_name (day : Z) : str :=
  nth (Z.to_nat (day mod 7)) [s "Monday"; s "Tuesday"; s "Wednesday"; s "Thursday"; s "Friday"; s "Saturday"; s "Sunday"] [].
Definition td_days (u : Z) : Z := u / us_per_day.
Definition td_seconds (u : Z) : Z := u mod us_per_day / 1000000.
Definition td_microseconds (u : Z) : Z := u mod 1000000.

(** ** Hex codec (binascii.b2a_hex / a2b_hex) *)
(* hex_char: engine.py:210-219, 313-325 *)
Definition hex_char (d : N) : N := (if d <? 10 then d + 48 else d + 87)%N.
(* b2a_hex: engine.py:210-219 *)
Fixpoint b2a_hex (b : list N) : str :=
  match b with [] => [] | x :: r => hex_char (x / 16)%N :: hex_char (x mod 16)%N :: b2a_hex r end.
(* a2b_hex: engine.py:313-325 *)
Fixpoint a2b_hex (t : str) : option (list N) :=
  match t with
  | [] => Some []
  | a :: b :: r =>
      match xdigit_val a, xdigit_val b, a2b_hex r with
      | Some x, Some y, Some l => Some ((x * 16 + y)%N :: l)
      | _, _, _ => None
      end
  | [_] => None
  end.

(** ** Attribute names and tables *)
(* attr: engine.py:205-402 *)
Inductive attr :=
| a_decode | a_to_epoch | a_date | a_day | a_hour | a_microsecond | a_millisecond | a_minute | a_month | a_second
| a_weekday | a_year | a_zone_name | a_ceiling | a_floor | a_is_nan | a_flt_to_flt | a_flt_to_int | a_keys | a_values
| a_as_lower | a_as_upper | a_encode | a_str_to_flt | a_str_to_int | a_days | a_seconds | a_microseconds
| a_total_seconds | a_ends_with | a_is_empty | a_length | a_starts_with | a_to_ary | a_to_str | a_to_set.

(** _AttributeResolver.attribute.type_map (engine.py:155-167), in registration order of the decorators
    (engine.py:205-402): both the order of the types and, per type, of the names. *)
Definition attr_map : list (dtype * list (str * attr)) :=
  [ (TBytes, [ (s "decode", a_decode); (s "ends_with", a_ends_with); (s "is_empty", a_is_empty);
               (s "length", a_length); (s "starts_with", a_starts_with); (s "to_ary", a_to_ary);
               (s "to_set", a_to_set) ]);
    (TDatetime, [ (s "to_epoch", a_to_epoch); (s "date", a_date); (s "day", a_day); (s "hour", a_hour);
                  (s "microsecond", a_microsecond); (s "millisecond", a_millisecond); (s "minute", a_minute);
                  (s "month", a_month); (s "second", a_second); (s "weekday", a_weekday); (s "year", a_year);
                  (s "zone_name", a_zone_name) ]);
    (TFloat, [ (s "ceiling", a_ceiling); (s "floor", a_floor); (s "is_nan", a_is_nan); (s "to_flt", a_flt_to_flt);
               (s "to_int", a_flt_to_int); (s "to_str", a_to_str) ]);
    (t_mapping, [ (s "keys", a_keys); (s "values", a_values); (s "is_empty", a_is_empty); (s "length", a_length) ]);
    (TString, [ (s "as_lower", a_as_lower); (s "as_upper", a_as_upper); (s "encode", a_encode);
                (s "to_flt", a_str_to_flt); (s "to_int", a_str_to_int); (s "ends_with", a_ends_with);
                (s "is_empty", a_is_empty); (s "length", a_length); (s "starts_with", a_starts_with);
                (s "to_ary", a_to_ary); (s "to_str", a_to_str); (s "to_set", a_to_set) ]);
    (TTimedelta, [ (s "days", a_days); (s "seconds", a_seconds); (s "microseconds", a_microseconds);
                   (s "total_seconds", a_total_seconds) ]);
    (t_array, [ (s "ends_with", a_ends_with); (s "is_empty", a_is_empty); (s "length", a_length);
                (s "starts_with", a_starts_with); (s "to_ary", a_to_ary); (s "to_set", a_to_set) ]);
    (t_set, [ (s "is_empty", a_is_empty); (s "length", a_length); (s "to_ary", a_to_ary); (s "to_set", a_to_set) ]) ].

(** engine.py:184-193: the table of the first compatible type *)
Fixpoint attr_table (m : list (dtype * list (str * attr))) (t : dtype) : option (list (str * attr)) :=
  match m with
  | [] => None
  | (k, tab) :: r => if is_compat k t then Some tab else attr_table r t
  end.

(** types of the returned functions *)
(* t_fn1: engine.py:205, 308, 360, 375 *)
Definition t_fn1 (name : str) (ret arg : dtype) : dtype := TFun (Some name) ret (Some [arg]) (Some 1).

(** object_type.value_type, for the types that have one *)
(* value_type_of: engine.py:116-131 *)
Definition value_type_of (t : dtype) : result dtype :=
  match t with TArray m _ | TSet m _ | TMap _ m _ => Ok m | _ => Err PAttribute end.

(** _AttributeResolverFunction.resolve_type (engine.py:116-152) *)
Definition attr_type (a : attr) (t : dtype) : result dtype :=
  match a with
  | a_decode => Ok (t_fn1 (s "decode") TString TString)
  | a_encode => Ok (t_fn1 (s "encode") TBytes TString)
  | a_date => Ok TDatetime
  | a_to_epoch | a_day | a_hour | a_microsecond | a_millisecond | a_minute | a_month | a_second | a_year
  | a_ceiling | a_floor | a_flt_to_flt | a_flt_to_int | a_str_to_flt | a_str_to_int
  | a_days | a_seconds | a_microseconds | a_total_seconds | a_length => Ok TFloat
  | a_weekday | a_zone_name | a_as_lower | a_as_upper | a_to_str => Ok TString
  | a_is_nan | a_is_empty => Ok TBool
  | a_keys | a_values => Ok t_array
  | a_ends_with => Ok (t_fn1 (s "ends_with") TBool t)
  | a_starts_with => Ok (t_fn1 (s "starts_with") TBool t)
  | a_to_ary =>
      if dt_eqb t TBytes then Ok (TArray TFloat true)
      else if dt_eqb t TString then Ok (TArray TString true)
      else rmap (fun m => TArray m true) (value_type_of t)
  | a_to_set =>
      if dt_eqb t TBytes then Ok (TSet TFloat true)
      else if dt_eqb t TString then Ok (TSet TString true)
      else rmap (fun m => TSet m true) (value_type_of t)
  end.

(** [len(v)] *)
(* py_len: engine.py:367-373 *)
Definition py_len (v : value) : result Z :=
  match v with
  | VStr l | VBytes l => Ok (Z.of_nat (length l))
  | VArr l | VList l | VSet l => Ok (Z.of_nat (length l))
  | VRange l => Ok (Z.of_nat (length l))
  | VMap l | VDict l => Ok (Z.of_nat (length l))
  | _ => Err PType
  end.

(** [tuple(v)] *)
(* py_iter: engine.py:382-384 *)
Definition py_iter (v : value) : result (list value) :=
  match v with
  | VStr t => Ok (map (fun c => VStr [c]) t)
  | VBytes b => Ok (map (fun c => VInt (Z.of_N c)) b)
  | VArr l | VList l | VSet l => Ok l
  | VRange l => Ok (map VInt l)
  | VMap l | VDict l => Ok (map fst l)
  | _ => Err PType
  end.

Section Attr.
Context {Orc : Oracle}.

(** [set(l)] *)
(* py_set: engine.py:400-402 *)
Definition py_set (l : list value) : result value :=
  if forallb hashable l then Ok (new_set (mk_set l)) else Err PType.

(** engine.py:96-99, 270-280 on Decimal *)
Definition float_op (f : bool -> N -> Z -> Z) (d : dec) : value :=
  match d with DFin n c e => VInt (f n c e) | _ => VDec d end.

(** 1970-01-01T00:00 in microseconds since 0001-01-01: datetime.timestamp of an aware datetime is (self - epoch).total_seconds() *)
(* epoch: engine.py:223 *)
Definition epoch : Z := 719162 * us_per_day.

(** the attribute functions (engine.py:205-402) *)
Definition attr_fun (a : attr) (v : value) : result value :=
  match a, v with
  | a_decode, _ => Ok (VMeth Mdecode v)
  | a_encode, _ => Ok (VMeth Mencode v)
  | a_ends_with, _ => Ok (VMeth Mends_with v)
  | a_starts_with, _ => Ok (VMeth Mstarts_with v)
  | a_to_epoch, VDt w (Some z) => Ok (VFlt (flt_div (utc w z - epoch) 1000000))    (* (self - epoch).total_seconds() *)
  | a_to_epoch, VDt w None => Ok (VFlt (o_timestamp w))
  | a_date, VDt w z => Ok (VDt (w - dt_time w) z)
  | a_day, VDt w _ => Ok (VInt (snd (ord2ymd (dt_days w))))
  | a_month, VDt w _ => Ok (VInt (snd (fst (ord2ymd (dt_days w)))))
  | a_year, VDt w _ => Ok (VInt (fst (fst (ord2ymd (dt_days w)))))
  | a_hour, VDt w _ => Ok (VInt (dt_hour w))
  | a_minute, VDt w _ => Ok (VInt (dt_minute w))
  | a_second, VDt w _ => Ok (VInt (dt_second w))
  | a_microsecond, VDt w _ => Ok (VInt (dt_microsecond w))
  | a_millisecond, VDt w _ => Ok (VFlt (flt_div (dt_microsecond w) 1000))
  | a_weekday, VDt w _ => Ok (VStr (weekday_name (dt_days w)))
  | a_zone_name, VDt w z => Ok (match o_tzname z w with Some n => VStr n | None => VNull end)
  | a_ceiling, VDec d => Ok (float_op dceil d)
  | a_floor, VDec d => Ok (float_op dfloor d)
  | a_is_nan, VDec d => Ok (VBool (is_nan d))
  | a_flt_to_flt, VDec d => Ok v
  | a_flt_to_int, VDec d => rbind (is_integer_number v) (fun b => if b then Ok v else Err XEval)
  | a_keys, (VMap l | VDict l) => Ok (VArr (map fst l))
  | a_values, (VMap l | VDict l) => Ok (VArr (map snd l))
  | a_as_lower, VStr t => Ok (VStr (py_lower t))
  | a_as_upper, VStr t => Ok (VStr (py_upper t))
  | a_str_to_flt, VStr t => string_to_flt t
  | a_str_to_int, VStr t =>
      rbind (string_to_flt t) (fun r => rbind (is_integer_number r) (fun b => if b then Ok r else Err XEval))
  | a_days, VTd u => Ok (VInt (td_days u))
  | a_seconds, VTd u => Ok (VInt (td_seconds u))
  | a_microseconds, VTd u => Ok (VInt (td_microseconds u))
  | a_total_seconds, VTd u => Ok (VFlt (flt_div u 1000000))
  | a_is_empty, _ => rmap (fun n => VBool (n =? 0)) (py_len v)
  | a_length, _ => rmap VInt (py_len v)
  | a_to_ary, _ => rmap VArr (py_iter v)
  | a_to_set, _ => rbind (py_iter v) py_set
  | a_to_str, VStr _ => Ok v
  | a_to_str, VDec d =>
      Ok (VStr (match d with
                | DNaN => s "nan"
                | DInf true => s "-inf"
                | DInf false => s "inf"
                | DFin n c e => dec_str n c e
                end))
  | _, _ => Err PAttribute
  end.

(** engine.py:184-193 _get_resolver; the error carries the suggestion *)
Definition get_attr (t : dtype) (name : str) : result attr :=
  match attr_table attr_map t with
  | None => Err (XAttrRes name None)
  | Some tab =>
      match assoc name tab with
      | Some a => Ok a
      | None => Err (XAttrRes name (o_suggest name (map fst tab)))
      end
  end.

(** engine.py:195-203 resolve_type *)
Definition resolve_attr_type (t : dtype) (name : str) : result dtype :=
  rbind (get_attr t name) (fun a => attr_type a t).

(** engine.py:169-182 __call__.  Note the type resolver is given the type of the attribute's value here. *)
Definition resolve_attr (obj : value) (name : str) : result value :=
  match from_value obj with
  | Err PType => Err (XAttrRes name None)
  | Err x => Err x
  | Ok t =>
      rbind (get_attr t name) (fun a =>
      rbind (attr_fun a obj) (fun v =>
      rbind (coerce true v) (fun v' =>
      rbind (from_value v') (fun vt =>
      rbind (attr_type a vt) (fun et =>
      if is_compat et vt then Ok v' else Err (XAttrType name))))))
  end.

(** bytes.decode(encoding) and str.encode(encoding): engine.py:217, 323 *)
Definition py_decode (e : str) (b : list N) : result str :=
  match codec_of e with Some c => codec_decode c b | None => o_decode e b end.
Definition py_encode (e : str) (t : str) : result (list N) :=
  match codec_of e with Some c => codec_encode c t | None => o_encode e t end.

(** The bound methods (engine.py:205-219, 308-325, 360-365, 375-380) *)
Definition meth_call (m : meth) (self arg : value) : result value :=
  match m with
  | Mdecode =>
      match self, arg with
      | VBytes b, VStr enc =>
          let e := py_lower enc in
          if str_eqb e (s "base16") || str_eqb e (s "hex") then Ok (VStr (b2a_hex b))
          else if str_eqb e (s "base64") then Ok (VStr (b64_encode b))
          else match py_decode e b with
               | Ok t => Ok (VStr t)
               | Err PLookup => Err XFunCall
               | Err x => Err x
               end
      | _, _ => Err PType
      end
  | Mencode =>
      match self, arg with
      | VStr t, VStr enc =>
          let e := py_lower enc in
          if str_eqb e (s "base16") || str_eqb e (s "hex") then
            match rbind (utf8_encode t) (fun b => match a2b_hex b with Some l => Ok l | None => Err PBinascii end) with
            | Ok b => Ok (VBytes b) | Err PBinascii => Err XFunCall | Err x => Err x end
          else if str_eqb e (s "base64") then
            match rbind (utf8_encode t) (a2b_base64 0 0 0) with
            | Ok b => Ok (VBytes b) | Err PBinascii => Err XFunCall | Err x => Err x end
          else match py_encode e t with
               | Ok b => Ok (VBytes b)
               | Err PLookup => Err XFunCall
               | Err x => Err x
               end
      | _, _ => Err PType
      end
  | Mends_with =>
      rbind (py_len arg) (fun n =>
      rbind (py_getslice self (Some (- n)) None) (fun v => Ok (VBool (py_eq v arg))))
  | Mstarts_with =>
      rbind (py_len arg) (fun n =>
      rbind (py_getslice self None (Some n)) (fun v => Ok (VBool (py_eq v arg))))
  end.

End Attr.

Example t_ymd : ord2ymd 0 = (1, 1, 1) /\ ord2ymd 3652058 = (9999, 12, 31) /\ ord2ymd 738519 = (2022, 12, 31).
Proof. repeat split. Qed.
