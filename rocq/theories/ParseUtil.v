(** * ParseUtil: parser/utilities.py (parse_datetime, parse_float, parse_timedelta) and number formatting

    Regular expressions of the code are transcribed as scanners for the same language. *)
From Verif Require Import Base Dec Value DType Types Flt Ops.
Open Scope N_scope.

Definition ch (a : Ascii.ascii) : N := Ascii.N_of_ascii a.
Definition in_range (lo hi c : N) : bool := (lo <=? c) && (c <=? hi).
Definition digit_val (c : N) : option N := if in_range 48 57 c then Some (c - 48) else None.   (* [0-9] *)

(** value of a digit in bases up to 16: [0-9a-fA-F] *)
(* xdigit_val: parser/__init__.py:133 *)
Definition xdigit_val (c : N) : option N :=
  if in_range 48 57 c then Some (c - 48)
  else if in_range 97 102 c then Some (c - 87)
  else if in_range 65 70 c then Some (c - 55)
  else None.

(** the longest run of characters with a digit value, and the rest *)
(* span_digits: parser/__init__.py:133 *)
Fixpoint span_digits (val : N -> option N) (t : str) : list N * str :=
  match t with
  | c :: r => match val c with
              | Some d => let '(ds, r') := span_digits val r in (d :: ds, r')
              | None => ([], t)
              end
  | [] => ([], [])
  end.

(** number written by a list of digits in base [b] *)
(* of_digits: parser/utilities.py:71-87 *)
Definition of_digits (b : N) (ds : list N) : N := fold_left (fun acc d => acc * b + d) ds 0.

(** ** Decimal strings:  int part, optional fraction, optional exponent *)
(* numlit: parser/__init__.py:133 *)
Record numlit := { n_int : list N; n_frac : option (list N); n_exp : option (bool * list N) }.

(* frac_digits: parser/__init__.py:133 *)
Definition frac_digits (n : numlit) : list N := match n_frac n with Some f => f | None => [] end.
(* exp_val: parser/__init__.py:133 *)
Definition exp_val (n : numlit) : Z :=
  match n_exp n with
  | Some (neg, ds) => let z := Z.of_N (of_digits 10 ds) in if neg then Z.opp z else z
  | None => 0%Z
  end.
(** The Decimal a numeric string denotes: coefficient and exponent are kept as written (no rounding). *)
(* numlit_dec: parser/utilities.py:71-87 *)
Definition numlit_dec (neg : bool) (n : numlit) : dec :=
  DFin neg (of_digits 10 (n_int n ++ frac_digits n)) (exp_val n - Z.of_nat (length (frac_digits n)))%Z.

(* scan_exp: parser/__init__.py:133 *)
Definition scan_exp (val : N -> option N) (t : str) : option (option (bool * list N)) :=
  match t with
  | [] => Some None
  | c :: r =>
      if (c =? 69) || (c =? 101) then                                  (* [eE] *)
        let '(neg, r') := match r with
                          | x :: r' => if x =? 43 then (false, r') else if x =? 45 then (true, r') else (false, r)
                          | [] => (false, r)
                          end in
        match span_digits val r' with
        | ((_ :: _) as ds, []) => Some (Some (neg, ds))
        | _ => None
        end
      else None
  end.

(** \d*(\.\d* )?([eE][+-]?\d+)? with at least one digit before the exponent, matching the whole string *)
(* scan_num: parser/__init__.py:133 *)
Definition scan_num (val : N -> option N) (t : str) : option numlit :=
  let '(ip, r) := span_digits val t in
  match r with
  | c :: r' =>
      if c =? 46 then                                                   (* . *)
        let '(fp, r'') := span_digits val r' in
        if nonempty ip || nonempty fp
        then match scan_exp val r'' with
             | Some e => Some {| n_int := ip; n_frac := Some fp; n_exp := e |}
             | None => None
             end
        else None
      else if nonempty ip
           then match scan_exp val r with
                | Some e => Some {| n_int := ip; n_frac := None; n_exp := e |}
                | None => None
                end
           else None
  | [] => if nonempty ip then Some {| n_int := ip; n_frac := None; n_exp := None |} else None
  end.

(** 0b[01]+ | 0o[0-7]+ | 0x[0-9a-fA-F]+, matching the whole string *)
(* small_digit: parser/__init__.py:133 *)
Definition small_digit (b : N) (c : N) : option N :=
  match xdigit_val c with Some d => if d <? b then Some d else None | None => None end.
(* scan_base: parser/__init__.py:133 *)
Definition scan_base (t : str) : option N :=
  match t with
  | z :: c :: r =>
      if z =? 48 then
        let base := if c =? 98 then Some 2 else if c =? 111 then Some 8 else if c =? 120 then Some 16 else None in
        match base with
        | Some b => match span_digits (small_digit b) r with
                    | ((_ :: _) as ds, []) => Some (of_digits b ds)
                    | _ => None
                    end
        | None => None
        end
      else None
  | _ => None
  end.

(** The FLOAT token (parser/__init__.py:133), matched against a whole string. *)
Inductive float_tok := FTint (n : N) | FTdec (n : numlit).
Definition scan_float (t : str) : option float_tok :=
  match scan_base t with
  | Some n => Some (FTint n)
  | None => match scan_num digit_val t with Some n => Some (FTdec n) | None => None end
  end.

Definition lower_ascii (c : N) : N := if in_range 65 90 c then c + 32 else c.

Section ParseUtil.
Context {Orc : Oracle}.

(** str.strip() *)
(* lstrip: Decimal(str), parser/utilities.py:71-87 *)
Fixpoint lstrip (t : str) : str := match t with c :: r => if o_space c then lstrip r else t | [] => [] end.
(* strip: Decimal(str), parser/utilities.py:71-87 *)
Definition strip (t : str) : str := rev (lstrip (rev (lstrip t))).

(** Decimal(str) (CPython _decimal.c): surrounding whitespace and underscores are dropped, Unicode decimal digits
    count, then sign, number / inf / infinity / nan / snan with diagnostic digits.  Simplifications: NaN payloads and
    the signalling bit are dropped; the implementation limits of exponents (10^18) are not modelled. *)
(* udigit: engine.py:327-335 *)
Definition udigit (c : N) : option N :=
  match digit_val c with Some d => Some d | None => if c <? 128 then None else o_digit c end.
(* dec_of_str: engine.py:327-335, parser/utilities.py:71-87 *)
Definition dec_of_str (t : str) : option dec :=
  let t := filter (fun c => negb (c =? 95)) (strip t) in
  let '(neg, u) := match t with
                   | c :: r => if c =? 43 then (false, r) else if c =? 45 then (true, r) else (false, t)
                   | [] => (false, t)
                   end in
  match scan_num udigit u with
  | Some n => Some (numlit_dec neg n)
  | None =>
      let l := map lower_ascii u in
      if str_eqb l (s "inf") || str_eqb l (s "infinity") then Some (DInf neg)
      else
        let l' := match l with c :: r => if c =? 115 then r else l | [] => l end in
        if is_prefix (s "nan") l' then
          match span_digits udigit (skipn 3 l') with (_, []) => Some DNaN | _ => None end
        else None
  end.

(** parser/utilities.py:71-87 parse_float *)
Definition parse_float (t : str) : result dec :=
  let bad := match t with c :: d :: _ => (c =? 48) && in_range 48 57 d | _ => false end in        (* ^0[0-9] *)
  if bad then Err XSynFloat
  else
    let based := match t with
                 | c :: d :: _ => (c =? 48) && ((d =? 98) || (d =? 111) || (d =? 120))           (* ^0[box] *)
                 | _ => false end in
    if based then
      match scan_base t with
      | Some n => Ok (DFin false n 0)
      | None => match o_pylit t with Some d => Ok d | None => Err XSynFloat end
      end
    else match dec_of_str t with Some d => Ok d | None => Err XSynFloat end.

(** parser/utilities.py:55-69 parse_datetime *)
Definition parse_datetime (t : str) (tz : N) : result value :=
  match o_isoparse t with
  | Some (w, Some z) => Ok (VDt w (Some z))
  | Some (w, None) => Ok (VDt w (Some tz))
  | None => Err XSynDatetime
  end.

(** parser/utilities.py:43-53: [0-9]+([,.][0-9]+)?<unit>  — the number and what follows the unit *)
Definition scan_comp (unit : N) (t : str) : option (N * option (list N)) * str :=
  match span_digits digit_val t with
  | ((_ :: _) as ds, c :: r) =>
      if c =? unit then (Some (of_digits 10 ds, None), r)
      else if (c =? 44) || (c =? 46) then
        match span_digits digit_val r with
        | ((_ :: _) as fs, c' :: r') => if c' =? unit then (Some (of_digits 10 ds, Some fs), r') else (None, t)
        | _ => (None, t)
        end
      else (None, t)
  | _ => (None, t)
  end.

(** parser/utilities.py:103-107: the component as the decimal c * 10^e that float() reads; an absent one is "0" *)
(* comp_dec: parser/utilities.py:103-107 *)
Definition comp_dec (c : option (N * option (list N))) : N * Z :=
  match c with
  | None => (0, 0%Z)
  | Some (n, None) => (n, 0%Z)
  | Some (n, Some fs) => (n * 10 ^ N.of_nat (length fs) + of_digits 10 fs, (- Z.of_nat (length fs))%Z)
  end.

(** parser/utilities.py:89-115 parse_timedelta.  [$] also matches before a final newline; [P(?!\b)] rejects a P that ends
    the text (or its last line). *)
Definition at_end (r : str) : bool := match r with [] => true | [c] => c =? 10 | _ => false end.
Definition parse_timedelta (t : str) : result value :=
  match t with
  | p :: r0 =>
      if (p =? 80) && negb (at_end r0) then
        let '(w, r1) := scan_comp 87 r0 in
        let '(d, r2) := scan_comp 68 r1 in
        let '(h, m, sc, r) :=
          match r2 with
          | x :: r3 =>
              if x =? 84 then
                let '(h, r4) := scan_comp 72 r3 in
                let '(m, r5) := scan_comp 77 r4 in
                let '(sc, r6) := scan_comp 83 r5 in (h, m, sc, r6)
              else (None, None, None, r2)
          | [] => (None, None, None, r2)
          end in
        if at_end r then
          match timedelta_us (map comp_dec [w; d; h; m; sc]) with
          | Some us => mk_td us
          | None => Err POverflow
          end
        else Err XSynTimedelta
      else Err XSynTimedelta
  | [] => Err XSynTimedelta
  end.

(** engine.py:327-335 string_to_flt.  literal_eval yields an int or a float; the caller coerces it to Decimal. *)
Definition string_to_flt (t : str) : result value :=
  let u := strip t in
  let u' := match u with c :: r => if c =? 45 then r else u | [] => u end in
  if is_prefix (s "inf") u' then                                        (* re.match(r'-?inf', value) *)
    match dec_of_str u with Some d => Ok (VDec d) | None => Err PInvalidOp end
  else
    match scan_float u with
    | None => Ok (VDec DNaN)
    | Some (FTint n) => Ok (VInt (Z.of_N n))
    | Some (FTdec n) =>
        match n_frac n, n_exp n with
        | None, None =>
            match n_int n with
            | 0 :: _ :: _ => if of_digits 10 (n_int n) =? 0 then Ok (VInt 0) else Err PSyntax  (* e.g. 007 *)
            | ds => Ok (VInt (Z.of_N (of_digits 10 ds)))
            end
        | _, _ => Ok (VFlt (flt_of_dec (of_digits 10 (n_int n ++ frac_digits n)) (exp_val n - Z.of_nat (length (frac_digits n)))))
        end
    end.

End ParseUtil.

(** ** str(Decimal) (_pydecimal.py __str__) *)
Fixpoint digits_aux (fuel : nat) (n : N) (acc : list N) : list N :=
  match fuel with
  | O => n :: acc
  | S f => if n <? 10 then n :: acc else digits_aux f (n / 10) (n mod 10 :: acc)
  end.
Definition digits (n : N) : list N := digits_aux (N.to_nat (N.size n)) n [].
Definition digit_chars (l : list N) : str := map (fun d => d + 48) l.
Definition z_str_signed (z : Z) : str :=                                (* "%+d" *)
  (if (z <? 0)%Z then 45 else 43) :: digit_chars (digits (Z.abs_N z)).

(* dec_str: engine.py:386-398 *)
Definition dec_str (neg : bool) (c : N) (e : Z) : str :=
  let ds := digit_chars (digits c) in
  let n := Z.of_nat (length ds) in
  let left := (e + n)%Z in
  let dot := if ((e <=? 0) && (-6 <? left))%Z then left else 1%Z in
  let '(ip, fp) :=
    if (dot <=? 0)%Z then (s "0", 46 :: repeat 48 (Z.to_nat (- dot)) ++ ds)
    else if (n <=? dot)%Z then (ds ++ repeat 48 (Z.to_nat (dot - n)), [])
    else (firstn (Z.to_nat dot) ds, 46 :: skipn (Z.to_nat dot) ds) in
  (if neg then [45] else []) ++ ip ++ fp ++ (if (left =? dot)%Z then [] else 69 :: z_str_signed (left - dot)).

Example t_str1 : dec_str false 123 (-2) = s "1.23". Proof. reflexivity. Qed.
Example t_str2 : dec_str true 12 5 = s "-1.2E+6". Proof. reflexivity. Qed.
Example t_str3 : dec_str false 0 (-7) = s "0E-7". Proof. reflexivity. Qed.
Example t_str4 : dec_str false 5 (-3) = s "0.005". Proof. reflexivity. Qed.
Example t_base : scan_base (s "0x1F") = Some 31. Proof. reflexivity. Qed.
Example t_exp : scan_num digit_val (s "1.5e-12") = Some {| n_int := [1]; n_frac := Some [5]; n_exp := Some (true, [1; 2]) |}. Proof. reflexivity. Qed.
Example t_comp : scan_comp 83 (s "12.34S") = (Some (12, Some [3; 4]), []). Proof. reflexivity. Qed.
