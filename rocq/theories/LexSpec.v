(** * LexSpec: what a rule text reads as, independently of the regular expressions (C59-C61)

    A text is read from left to right: blanks are skipped, and otherwise the longest written form of a token that starts
    here is taken.  A name that is reserved for future use is not a token, and stops the reading. *)
From Coq Require Import List NArith Bool.
From Verif Require Import Base Grammar.
Import ListNotations.
Local Open Scope N_scope.

(** ** Characters *)
Definition blank (c : N) : Prop := c = 32 \/ c = 9 \/ c = 10.                 (* space, tab, newline *)
Definition digit (c : N) : Prop := 48 <= c <= 57.
Definition letter (c : N) : Prop := 97 <= c <= 122 \/ 65 <= c <= 90 \/ c = 95.
Definition alnum (c : N) : Prop := letter c \/ digit c.
Definition hexdigit (c : N) : Prop := digit c \/ 97 <= c <= 102 \/ 65 <= c <= 70.

(** ** Names, numbers, quoted texts *)
Inductive name : str -> Prop := Name c x : letter c -> Forall alnum x -> name (c :: x).
Inductive symbol : str -> Prop := Symbol x : name x -> symbol x | Builtin x : name x -> symbol (36 :: x).

Inductive digits : str -> Prop := Digits c x : digit c -> Forall digit x -> digits (c :: x).
Inductive exponent : str -> Prop :=
| NoExp : exponent []
| Exp e sg x : In e [101; 69] -> In sg [[]; [43]; [45]] -> digits x -> exponent (e :: sg ++ x).
Inductive numeral : str -> Prop :=
| Binary c x : Forall (fun c => c = 48 \/ c = 49) (c :: x) -> numeral (48 :: 98 :: c :: x)
| Octal c x : Forall (fun c => 48 <= c <= 55) (c :: x) -> numeral (48 :: 111 :: c :: x)
| Hex c x : Forall hexdigit (c :: x) -> numeral (48 :: 120 :: c :: x)
| Whole x e : digits x -> exponent e -> numeral (x ++ e)
| Point x y e : digits x -> Forall digit y -> exponent e -> numeral (x ++ 46 :: y ++ e)
| Fraction y e : digits y -> exponent e -> numeral (46 :: y ++ e).

(** what may stand between the quotes [q]: no newline, a backslash only with the character after it, no quote [q] but
    after a backslash *)
Inductive body (q : N) : str -> Prop :=
| BNil : body q []
| BChar c x : c <> 92 -> c <> 10 -> c <> q -> body q x -> body q (c :: x)
| BEscape c x : c <> 10 -> body q x -> body q (92 :: c :: x).
Definition quotes : list N := [34; 39].

(** ** The written forms of the tokens *)
Definition operators : list (tok * str) :=
  [ (T_MUL, s "*"); (T_POW, s "**"); (T_TDIV, s "/"); (T_FDIV, s "//"); (T_LT, s "<"); (T_LE, s "<="); (T_BWLSH, s "<<");
    (T_GT, s ">"); (T_GE, s ">="); (T_BWRSH, s ">>"); (T_EQ_FZM, s "=~"); (T_EQ_FZS, s "=~~"); (T_NE_FZM, s "!~"); (T_NE_FZS, s "!~~");
    (T_EQ, s "=="); (T_NE, s "!="); (T_BWAND, s "&"); (T_BWOR, s "|"); (T_BWXOR, s "^"); (T_LPAREN, s "("); (T_RPAREN, s ")");
    (T_QMARK, s "?"); (T_COLON, s ":"); (T_ADD, s "+"); (T_SUB, s "-"); (T_MOD, s "%"); (T_COMMA, s ",");
    (T_LBRACKET, s "["); (T_RBRACKET, s "]"); (T_LBRACE, s "{"); (T_RBRACE, s "}") ].
Definition keywords : list (tok * str) :=
  [ (T_TRUE, s "true"); (T_FALSE, s "false"); (T_FLOAT_INF, s "inf"); (T_FLOAT_NAN, s "nan"); (T_NULL, s "null");
    (T_AND, s "and"); (T_IN, s "in"); (T_OR, s "or"); (T_NOT, s "not"); (T_FOR, s "for"); (T_IF, s "if") ].
Definition future : list str := [s "elif"; s "else"; s "while"].

(** [spelled o x]: [x] is how [o] is written: a token with its value, or (None) a name that is reserved for future use *)
Inductive spelled : option token -> str -> Prop :=
| S_operator k x : In (k, x) operators -> spelled (Some (mkToken k x)) x
| S_keyword k x : In (k, x) keywords -> spelled (Some (mkToken k x)) x
| S_future x : In x future -> spelled None x
| S_symbol x : symbol x -> (forall k, ~ In (k, x) keywords) -> ~ In x future -> spelled (Some (mkToken T_SYMBOL x)) x
| S_number x : numeral x -> spelled (Some (mkToken T_FLOAT x)) x
| S_string q b : In q quotes -> body q b -> spelled (Some (mkToken T_STRING (q :: b ++ [q]))) (q :: b ++ [q])
| S_string_s q b : In q quotes -> body q b -> spelled (Some (mkToken T_STRING (q :: b ++ [q]))) (115 :: q :: b ++ [q])
| S_bytes q b : In q quotes -> body q b -> spelled (Some (mkToken T_BYTES (q :: b ++ [q]))) (98 :: q :: b ++ [q])
| S_datetime q b : In q quotes -> body q b -> spelled (Some (mkToken T_DATETIME b)) (100 :: q :: b ++ [q])
| S_timedelta q b : In q quotes -> body q b -> spelled (Some (mkToken T_TIMEDELTA b)) (116 :: q :: b ++ [q]).

(** ** In a text
    The character before and the text after the written form matter for four forms: a dot and a safe dot are read as
    attribute access only between a non-blank character and a name, a safe bracket must follow a non-blank character, and a comment
    must reach to the end of the text (a final newline may follow it). *)
Section Reading.
Variable space : N -> bool.         (* the white space characters *)
Definition solid (before : option N) : Prop := exists c, before = Some c /\ space c = false.
Definition named (after : str) : Prop := exists c t, after = c :: t /\ letter c.

Inductive here (before : option N) : option token -> str -> str -> Prop :=
| H_spelled o x after : spelled o x -> here before o x after
| H_attr after : solid before -> named after -> here before (Some (mkToken T_ATTR (s "."))) (s ".") after
| H_attr_safe after : solid before -> named after -> here before (Some (mkToken T_ATTR_SAFE (s "&."))) (s "&.") after
| H_bracket_safe after : solid before -> here before (Some (mkToken T_LBRACKET (s "&["))) (s "&[") after
| H_comment x after : Forall (fun c => c <> 10) x -> after = [] \/ after = [10] -> here before (Some (mkToken T_COMMENT (35 :: x))) (35 :: x) after.

(** the last character of [x], or [before] *)
Definition last_of (before : option N) (x : str) : option N := match rev x with [] => before | c :: _ => Some c end.
Definition longest (before : option N) (x after : str) : Prop :=
  forall o y r, x ++ after = y ++ r -> here before o y r -> (length y <= length x)%nat.

Inductive reads : option N -> str -> list token -> Prop :=
| R_end before : reads before [] []
| R_blank before c t l : blank c -> reads (Some c) t l -> reads before (c :: t) l
| R_token before k x after l : here before (Some k) x after -> longest before x after ->
    reads (last_of before x) after l -> reads before (x ++ after) (k :: l).
End Reading.
