(** * Codec: base64 and the text codecs behind bytes.decode and str.encode

    The code calls binascii.b2a_base64 / a2b_base64 and bytes.decode / str.encode (engine.py:210-219, 313-325); this file models
    CPython's functions for the standard codecs UTF-8, ASCII and Latin-1 with strict error handling.  Other codec names are left to
    the oracle of Ops.v. *)
From Verif Require Import Base.
Local Open Scope N_scope.

(** ** base64 (RFC 4648, the standard alphabet) *)
(** the character of a 6-bit group: A-Z a-z 0-9 + / *)
(* b64_char: binascii.b2a_base64, engine.py:215 *)
Definition b64_char (d : N) : N :=
  if d <? 26 then 65 + d else if d <? 52 then 71 + d else if d <? 62 then d - 4 else if d =? 62 then 43 else 47.
(* b64_val: binascii.a2b_base64, engine.py:319 *)
Definition b64_val (c : N) : option N :=
  if (65 <=? c) && (c <=? 90) then Some (c - 65)
  else if (97 <=? c) && (c <=? 122) then Some (c - 71)
  else if (48 <=? c) && (c <=? 57) then Some (c + 4)
  else if c =? 43 then Some 62
  else if c =? 47 then Some 63
  else None.

(** binascii.b2a_base64(b).decode().strip(): the newline b2a_base64 appends is stripped again *)
(* b64_encode: engine.py:215 *)
Fixpoint b64_encode (b : list N) : str :=
  match b with
  | [] => []
  | [x] => [b64_char (x / 4); b64_char (x mod 4 * 16); 61; 61]
  | [x; y] => [b64_char (x / 4); b64_char (x mod 4 * 16 + y / 16); b64_char (y mod 16 * 4); 61]
  | x :: y :: z :: r => b64_char (x / 4) :: b64_char (x mod 4 * 16 + y / 16) :: b64_char (y mod 16 * 4 + z / 64) :: b64_char (z mod 64) :: b64_encode r
  end.

(** binascii.a2b_base64 in its default, lenient mode: characters outside the alphabet are skipped; [q] is the position in the group of
    four, [l] the bits left over from the last character, [p] the number of consecutive padding characters.  A complete padding ends the data. *)
(* a2b_base64: binascii.a2b_base64, engine.py:319 *)
Fixpoint a2b_base64 (q l p : N) (t : list N) : result (list N) :=
  match t with
  | [] => if q =? 0 then Ok [] else Err PBinascii
  | c :: r =>
      if c =? 61 then
        if 2 <=? q then (if 4 <=? q + (p + 1) then Ok [] else a2b_base64 q l (p + 1) r) else a2b_base64 q l p r
      else
        match b64_val c with
        | None => a2b_base64 q l p r
        | Some d =>
            if q =? 0 then a2b_base64 1 d 0 r
            else if q =? 1 then rmap (cons (l * 4 + d / 16)) (a2b_base64 2 (d mod 16) 0 r)
            else if q =? 2 then rmap (cons (l * 16 + d / 4)) (a2b_base64 3 (d mod 4) 0 r)
            else rmap (cons (l * 64 + d)) (a2b_base64 0 0 0 r)
        end
  end.

(** ** UTF-8 *)
(* surrogate: code points that UTF-8 refuses *)
Definition surrogate (c : N) : bool := (55296 <=? c) && (c <? 57344).
(* utf8_char: str.encode, engine.py:317, 319, 323 *)
Definition utf8_char (c : N) : result (list N) :=
  if c <? 128 then Ok [c]
  else if c <? 2048 then Ok [192 + c / 64; 128 + c mod 64]
  else if c <? 65536 then if surrogate c then Err PUnicode else Ok [224 + c / 4096; 128 + c / 64 mod 64; 128 + c mod 64]
  else Ok [240 + c / 262144; 128 + c / 4096 mod 64; 128 + c / 64 mod 64; 128 + c mod 64].
(* utf8_encode: str.encode('utf-8'), engine.py:317, 319, 323 *)
Fixpoint utf8_encode (t : str) : result (list N) :=
  match t with
  | [] => Ok []
  | c :: r => rbind (utf8_char c) (fun l => rmap (app l) (utf8_encode r))
  end.
(* cont: a continuation byte, 10xxxxxx *)
Definition cont (x : N) : bool := (128 <=? x) && (x <? 192).
(* utf8_decode: bytes.decode('utf-8'), engine.py:217 *)
Fixpoint utf8_decode (b : list N) : result str :=
  match b with
  | [] => Ok []
  | x :: r =>
      if x <? 128 then rmap (cons x) (utf8_decode r)
      else match r with
      | [] => Err PUnicode
      | y :: r1 =>
          if negb (cont y) then Err PUnicode
          else if (194 <=? x) && (x <? 224) then rmap (cons ((x - 192) * 64 + (y - 128))) (utf8_decode r1)
          else match r1 with
          | [] => Err PUnicode
          | z :: r2 =>
              if negb (cont z) then Err PUnicode
              else if (224 <=? x) && (x <? 240) then
                let v := (x - 224) * 4096 + (y - 128) * 64 + (z - 128) in
                if (v <? 2048) || surrogate v then Err PUnicode else rmap (cons v) (utf8_decode r2)
              else match r2 with
              | [] => Err PUnicode
              | u :: r3 =>
                  if negb (cont u) then Err PUnicode
                  else if (240 <=? x) && (x <? 245) then
                    let v := (x - 240) * 262144 + (y - 128) * 4096 + (z - 128) * 64 + (u - 128) in
                    if (v <? 65536) || (1114111 <? v) then Err PUnicode else rmap (cons v) (utf8_decode r3)
                  else Err PUnicode
              end
          end
      end
  end.

(** ** ASCII and Latin-1: one byte per character, code points below [n] *)
(* narrow: str.encode and bytes.decode with 'ascii' ([n] = 128) and 'latin-1' ([n] = 256), engine.py:217, 323 *)
Definition narrow (n : N) (t : list N) : result (list N) := if forallb (fun c => c <? n) t then Ok t else Err PUnicode.

(** ** Codec names (encodings.aliases), lower case *)
(* codec: engine.py:217, 323 *)
Inductive codec := Utf8 | Ascii | Latin1.
(* codec_of: the spellings of the names, engine.py:217, 323 *)
Definition codec_of (e : str) : option codec :=
  if existsb (str_eqb e) [s "utf-8"; s "utf8"; s "utf_8"; s "u8"] then Some Utf8
  else if existsb (str_eqb e) [s "ascii"; s "us-ascii"; s "us_ascii"; s "646"] then Some Ascii
  else if existsb (str_eqb e) [s "latin-1"; s "latin1"; s "latin_1"; s "iso-8859-1"; s "iso8859-1"; s "l1"] then Some Latin1
  else None.
(* codec_encode: engine.py:323 *)
Definition codec_encode (c : codec) (t : str) : result (list N) :=
  match c with Utf8 => utf8_encode t | Ascii => narrow 128 t | Latin1 => narrow 256 t end.
(* codec_decode: engine.py:217 *)
Definition codec_decode (c : codec) (b : list N) : result str :=
  match c with Utf8 => utf8_decode b | Ascii => narrow 128 b | Latin1 => narrow 256 b end.

Example t_b64 : b64_encode (s "any carnal pleas") = s "YW55IGNhcm5hbCBwbGVhcw==". Proof. reflexivity. Qed.
Example t_a2b : a2b_base64 0 0 0 (s "YW55IGNh cm5hbCBwbGVhcw==garbage") = Ok (s "any carnal pleas"). Proof. reflexivity. Qed.
Example t_utf8 : utf8_encode [8364; 128512] = Ok [226; 130; 172; 240; 159; 152; 128]. Proof. reflexivity. Qed.
Example t_utf8d : utf8_decode [226; 130; 172; 240; 159; 152; 128] = Ok [8364; 128512]. Proof. reflexivity. Qed.
Example t_overlong : utf8_decode [192; 128] = Err PUnicode /\ utf8_decode [237; 160; 128] = Err PUnicode. Proof. split; reflexivity. Qed.
