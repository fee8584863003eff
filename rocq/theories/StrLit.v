(** * StrLit: the value of a string literal, parser/__init__.py:454-463 (p_expression_string)

    value = codecs.encode(body, 'unicode-escape').decode()
    value = value.replace('\\\\', '\\')
    value = codecs.decode(value, 'unicode-escape')

    The two codecs and str.replace are CPython code, modelled here after the documentation; \N{...} is looked up by the
    oracle [uname] (unicodedata).  Code points are numbers below 0x110000. *)
From Verif Require Import Base.
Local Open Scope N_scope.

(** hexadecimal digits, lower case as written by the encoder *)
(* hex_char: parser/__init__.py:454-463 *)
Definition hex_char (d : N) : N := if d <? 10 then 48 + d else 87 + d.
(* hex_of: parser/__init__.py:454-463 *)
Fixpoint hex_of (n : nat) (x : N) : str := match n with O => [] | S n' => hex_of n' (x / 16) ++ [hex_char (x mod 16)] end.
(** the value of a hexadecimal digit, either case *)
(* hex_val: parser/__init__.py:454-463 *)
Definition hex_val (c : N) : option N :=
  if (48 <=? c) && (c <=? 57) then Some (c - 48)
  else if (97 <=? c) && (c <=? 102) then Some (c - 87)
  else if (65 <=? c) && (c <=? 70) then Some (c - 55)
  else None.
(* oct_val: parser/__init__.py:454-463 *)
Definition oct_val (c : N) : option N := if (48 <=? c) && (c <=? 55) then Some (c - 48) else None.

(** codecs.encode(..., 'unicode-escape') *)
(* enc_char: parser/__init__.py:454-463 *)
Definition enc_char (c : N) : str :=
  if c =? 92 then [92; 92]
  else if c =? 9 then [92; 116]
  else if c =? 10 then [92; 110]
  else if c =? 13 then [92; 114]
  else if (32 <=? c) && (c <? 127) then [c]
  else if c <? 256 then 92 :: 120 :: hex_of 2 c
  else if c <? 65536 then 92 :: 117 :: hex_of 4 c
  else 92 :: 85 :: hex_of 8 c.
(* encode_escape: parser/__init__.py:454-463 *)
Definition encode_escape (l : str) : str := flat_map enc_char l.

(** str.replace of two backslashes by one: left to right, not overlapping *)
(* collapse: parser/__init__.py:454-463 *)
Fixpoint collapse (l : str) : str :=
  match l with
  | [] => []
  | a :: r =>
      if a =? 92
      then match r with
           | b :: r' => if b =? 92 then 92 :: collapse r' else 92 :: collapse r
           | [] => [92]
           end
      else a :: collapse r
  end.

(** codecs.decode(..., 'unicode-escape') as an automaton *)
(* dstate: parser/__init__.py:454-463 *)
Inductive dstate := Normal | Esc | Oct (v : N) (more : nat) | Hex (v : N) (more : nat) | NOpen | NName (acc : str).
(* simple_escape: parser/__init__.py:454-463 *)
Definition simple_escape (c : N) : option N :=
  if c =? 92 then Some 92 else if c =? 39 then Some 39 else if c =? 34 then Some 34
  else if c =? 98 then Some 8 else if c =? 102 then Some 12 else if c =? 116 then Some 9 else if c =? 110 then Some 10
  else if c =? 114 then Some 13 else if c =? 118 then Some 11 else if c =? 97 then Some 7
  else None.
Section decode.
  Variable uname : str -> option N.
  (* decode_escape: parser/__init__.py:454-463 *)
  Fixpoint decode_escape (st : dstate) (l : str) : result str :=
    match l with
    | [] => match st with Normal => Ok [] | Oct v _ => Ok [v] | _ => Err PUnicode end
    | c :: r =>
        let plain := if c =? 92 then decode_escape Esc r else rmap (cons c) (decode_escape Normal r) in
        match st with
        | Normal => plain
        | Oct v O => rmap (cons v) plain
        | Oct v (S n) => match oct_val c with Some d => decode_escape (Oct (8 * v + d) n) r | None => rmap (cons v) plain end
        | Hex v n =>
            match hex_val c with
            | None => Err PUnicode
            | Some d =>
                let v' := 16 * v + d in
                match n with
                | S (S n') => decode_escape (Hex v' (S n')) r
                | _ => if v' <? 1114112 then rmap (cons v') (decode_escape Normal r) else Err PUnicode
                end
            end
        | Esc =>
            if c =? 10 then decode_escape Normal r
            else if c =? 120 then decode_escape (Hex 0 2) r
            else if c =? 117 then decode_escape (Hex 0 4) r
            else if c =? 85 then decode_escape (Hex 0 8) r
            else if c =? 78 then decode_escape NOpen r
            else match simple_escape c with
                 | Some v => rmap (cons v) (decode_escape Normal r)
                 | None => match oct_val c with
                           | Some d => decode_escape (Oct d 2) r
                           | None => rmap (fun t => 92 :: c :: t) (decode_escape Normal r)
                           end
                 end
        | NOpen => if c =? 123 then decode_escape (NName []) r else Err PUnicode
        | NName acc =>
            if c =? 125
            then match uname (rev acc) with Some v => rmap (cons v) (decode_escape Normal r) | None => Err PUnicode end
            else decode_escape (NName (c :: acc)) r
        end
    end.

  (** parser/__init__.py:454-463; [body] is the token without its quotes *)
  Definition string_value (body : str) : result str :=
    match decode_escape Normal (collapse (encode_escape body)) with
    | Ok v => Ok v
    | Err PUnicode => Err XSynString
    | Err x => Err x
    end.
End decode.
