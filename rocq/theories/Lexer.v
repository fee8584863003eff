(** * Lexer: the tokens of a rule text, parser/__init__.py:91-136 and 179-250 (the t_ members), as run by ply/lex.py

    ply builds one list of regular expressions from the t_ members: the functions in the order of their definition, then the
    strings by decreasing length of the expression, and takes the first that matches at the current position (it may not
    match the longest text).  Characters of t_ignore are skipped; where nothing matches, t_error raises.
    The expressions below are transcribed one by one, and matched with the backtracking semantics of Python's re module
    (alternatives from left to right, greedy and lazy repetition).
    Simplifications: the back reference (?P=quote) is written as one alternative per quote character; the numbers of lines
    (t_newline) are not counted; ply hands out the tokens one at a time while parsing, here the whole text is tokenized first (when
    a lexical error follows a syntax error, both are RuleSyntaxErrors). *)
From Coq Require Import List NArith Bool Arith.
From Verif Require Import Base Dec Value DType Types Ops ParseUtil Attr Prog Ast Eval Build StrLit.
From Verif Require Import Grammar GrammarSem.
Import ListNotations.
Local Open Scope N_scope.

(** ** Regular expressions *)
(* re: regular expressions of parser/__init__.py:109-247 *)
Inductive re :=
| Chr (f : N -> bool)              (* one character of a class *)
| Eps
| Seq (a b : re)
| Alt (a b : re)
| Many (greedy : bool) (a : re)    (* a* and a*? *)
| Behind (f : N -> bool)           (* (?<=c) *)
| Ahead (a : re)                   (* (?=a) *)
| Eol.                             (* $ without the MULTILINE flag *)

(** a position in the text: the character before it, and the text after it *)
(* pos: regular expressions of parser/__init__.py:109-247 *)
Definition pos : Type := option N * list N.

(** all the ways to repeat [f], in the order in which they are tried; an iteration must consume something *)
(* iter: regular expressions of parser/__init__.py:109-247 *)
Fixpoint iter (greedy : bool) (f : pos -> list pos) (n : nat) (p : pos) : list pos :=
  let more := match n with
              | O => []
              | S n' => flat_map (iter greedy f n') (filter (fun p' => (length (snd p') <? length (snd p))%nat) (f p))
              end in
  if greedy then more ++ [p] else p :: more.

(** the positions where a match may end, the preferred one first *)
(* matches: regular expressions of parser/__init__.py:109-247 *)
Fixpoint matches (r : re) (p : pos) : list pos :=
  match r with
  | Chr f => match snd p with c :: t => if f c then [(Some c, t)] else [] | [] => [] end
  | Eps => [p]
  | Seq a b => flat_map (matches b) (matches a p)
  | Alt a b => matches a p ++ matches b p
  | Many g a => iter g (matches a) (length (snd p)) p
  | Behind f => match fst p with Some c => if f c then [p] else [] | None => [] end
  | Ahead a => match matches a p with [] => [] | _ => [p] end
  | Eol => match snd p with [] => [p] | [c] => if c =? 10 then [p] else [] | _ => [] end
  end.

(* Opt: regular expressions of parser/__init__.py:109-247 *)
Definition Opt (a : re) : re := Alt a Eps.
(* Plus: regular expressions of parser/__init__.py:109-247 *)
Definition Plus (a : re) : re := Seq a (Many true a).
(* is: regular expressions of parser/__init__.py:109-247 *)
Definition is (c d : N) : bool := d =? c.
(* ch: regular expressions of parser/__init__.py:109-247 *)
Definition ch (c : N) : re := Chr (is c).
(* Lit: regular expressions of parser/__init__.py:109-247 *)
Fixpoint Lit (t : str) : re := match t with [] => Eps | [c] => ch c | c :: r => Seq (ch c) (Lit r) end.

(* digit_c: regular expressions of parser/__init__.py:109-247 *)
Definition digit_c (c : N) : bool := in_range 48 57 c.                                        (* [0-9] *)
(* letter_c: regular expressions of parser/__init__.py:109-247 *)
Definition letter_c (c : N) : bool := in_range 97 122 c || in_range 65 90 c || (c =? 95).      (* [a-zA-Z_] *)
(* name_c: regular expressions of parser/__init__.py:109-247 *)
Definition name_c (c : N) : bool := letter_c c || digit_c c.                                   (* [a-zA-Z0-9_] *)
(* hex_c: regular expressions of parser/__init__.py:109-247 *)
Definition hex_c (c : N) : bool := digit_c c || in_range 97 102 c || in_range 65 70 c.         (* [0-9a-fA-F] *)
(* dot_c: regular expressions of parser/__init__.py:109-247 *)
Definition dot_c (c : N) : bool := negb (c =? 10).                                             (* . *)

Section Lexer.
Variable space : N -> bool.        (* what \s matches: str.isspace *)
(* solid_c: regular expressions of parser/__init__.py:109-247 *)
Definition solid_c (c : N) : bool := negb (space c).                                           (* \S *)

(** ** The tokens *)
(* r_name: parser/__init__.py:235 *)
Definition r_name : re := Seq (Chr letter_c) (Many true (Chr name_c)).
(* lines 214, 219, 224, 229: a quote, lazily characters that are neither a backslash nor a newline or a backslash with any
   character but a newline, and the same quote *)
(* r_inner: parser/__init__.py:214, 219, 224, 229 *)
Definition r_inner : re := Many false (Alt (Chr (fun c => negb (c =? 92) && negb (c =? 10))) (Seq (ch 92) (Chr dot_c))).
(* r_quoted: parser/__init__.py:214, 219, 224, 229 *)
Definition r_quoted : re := Alt (Seq (ch 34) (Seq r_inner (ch 34))) (Seq (ch 39) (Seq r_inner (ch 39))).
(* t_FLOAT, line 133 *)
(* r_exp: parser/__init__.py:133 *)
Definition r_exp : re := Seq (Chr (fun c => (c =? 101) || (c =? 69))) (Seq (Opt (Chr (fun c => (c =? 43) || (c =? 45)))) (Plus (Chr digit_c))).
(* r_float: parser/__init__.py:133 *)
Definition r_float : re :=
  Alt (Seq (ch 48) (Alt (Seq (ch 98) (Plus (Chr (fun c => (c =? 48) || (c =? 49)))))
                   (Alt (Seq (ch 111) (Plus (Chr (in_range 48 55))))
                        (Seq (ch 120) (Plus (Chr hex_c))))))
 (Alt (Seq (Plus (Chr digit_c)) (Seq (Opt (Seq (ch 46) (Many true (Chr digit_c)))) (Opt r_exp)))
      (Seq (ch 46) (Seq (Plus (Chr digit_c)) (Opt r_exp)))).

(** lines 91-107 *)
(* reserved_words: parser/__init__.py:91-107 *)
Definition reserved_words : list (str * tok) :=
  [ (s "true", T_TRUE); (s "false", T_FALSE); (s "inf", T_FLOAT_INF); (s "nan", T_FLOAT_NAN); (s "null", T_NULL);
    (s "and", T_AND); (s "in", T_IN); (s "or", T_OR); (s "not", T_NOT); (s "for", T_FOR); (s "if", T_IF) ].
(* future_words: parser/__init__.py:91-107 *)
Definition future_words : list str := [s "elif"; s "else"; s "while"].

(** what happens with the matched text: a token, nothing, or an exception *)
(* action: parser/__init__.py:179-250 *)
Definition action : Type := str -> result (option token).
(* plain: parser/__init__.py:109-136 *)
Definition plain (k : tok) : action := fun x => Ok (Some (mkToken k x)).
(** lines 179-211: the kind depends on the text *)
(* by_text: parser/__init__.py:179-211 *)
Definition by_text (short : str) (k1 k2 : tok) : action := fun x => Ok (Some (mkToken (if str_eqb x short then k1 else k2) x)).
(* by_char: parser/__init__.py:179-211 *)
Definition by_char (k0 : tok) (c1 : N) (k1 k2 : tok) : action := fun x =>
  Ok (Some (mkToken (match x with [_; c] => if c =? c1 then k1 else k2 | _ => k0 end) x)).
(* symbol_action: parser/__init__.py:234-239 *)
Definition symbol_action : action := fun x =>                                              (* lines 236-239 *)
  if existsb (str_eqb x) future_words then Err XSynRule
  else Ok (Some (mkToken (match assoc x reserved_words with Some k => k | None => T_SYMBOL end) x)).

(* lex_rules: parser/__init__.py:109-247 *)
Definition lex_rules : list (re * action) :=
  [ (Seq (ch 42) (Opt (ch 42)), by_text (s "*") T_MUL T_POW);                              (* 179 t_POW *)
    (Seq (ch 47) (Opt (ch 47)), by_text (s "/") T_TDIV T_FDIV);                            (* 185 t_FDIV *)
    (Seq (ch 60) (Opt (Chr (fun c => (c =? 61) || (c =? 60)))), by_char T_LT 61 T_LE T_BWLSH);   (* 191 t_LT *)
    (Seq (ch 62) (Opt (Chr (fun c => (c =? 61) || (c =? 62)))), by_char T_GT 61 T_GE T_BWRSH);   (* 196 t_GT *)
    (Seq (ch 61) (Seq (ch 126) (Opt (ch 126))), by_text (s "=~") T_EQ_FZM T_EQ_FZS);       (* 201 t_EQ_FZS *)
    (Seq (ch 33) (Seq (ch 126) (Opt (ch 126))), by_text (s "!~") T_NE_FZM T_NE_FZS);       (* 207 t_NE_FZS *)
    (Seq (ch 98) r_quoted, fun x => Ok (Some (mkToken T_BYTES (skipn 1 x))));              (* 213 t_BYTES *)
    (Seq (ch 100) r_quoted, fun x => Ok (Some (mkToken T_DATETIME (removelast (skipn 2 x)))));   (* 218 t_DATETIME *)
    (Seq (ch 116) r_quoted, fun x => Ok (Some (mkToken T_TIMEDELTA (removelast (skipn 2 x)))));  (* 223 t_TIMEDELTA *)
    (Seq (Opt (ch 115)) r_quoted,                                                          (* 228 t_STRING *)
       fun x => Ok (Some (mkToken T_STRING (match x with c :: r => if c =? 115 then r else x | [] => x end))));
    (Seq (Opt (ch 36)) r_name, symbol_action);                                             (* 234 t_SYMBOL *)
    (Seq (ch 35) (Seq (Many true (Chr dot_c)) Eol), plain T_COMMENT);                      (* 241 t_COMMENT *)
    (Plus (ch 10), fun _ => Ok None);                                                      (* 245 t_newline *)
    (r_float, plain T_FLOAT);                                                              (* 133 t_FLOAT *)
    (Seq (Behind solid_c) (Seq (ch 38) (Seq (ch 46) (Ahead r_name))), plain T_ATTR_SAFE);  (* 136 t_ATTR_SAFE *)
    (Seq (Behind solid_c) (Seq (ch 46) (Ahead r_name)), plain T_ATTR);                     (* 135 t_ATTR *)
    (Seq (Opt (Seq (Behind solid_c) (ch 38))) (ch 91), plain T_LBRACKET);                  (* 129 t_LBRACKET *)
    (ch 38, plain T_BWAND); (ch 124, plain T_BWOR); (ch 94, plain T_BWXOR);                (* 116-132: two characters each *)
    (ch 40, plain T_LPAREN); (ch 41, plain T_RPAREN);
    (Lit (s "=="), plain T_EQ); (Lit (s "!="), plain T_NE);
    (ch 63, plain T_QMARK); (ch 58, plain T_COLON); (ch 43, plain T_ADD); (ch 45, plain T_SUB); (ch 37, plain T_MOD);
    (ch 44, plain T_COMMA); (ch 93, plain T_RBRACKET); (ch 123, plain T_LBRACE); (ch 125, plain T_RBRACE) ].

(** the first rule that matches: the text matched, the position after it, and the outcome of its action *)
(* first_rule: ply.lex on parser/__init__.py:109-250 *)
Fixpoint first_rule (l : list (re * action)) (p : pos) : option (pos * action) :=
  match l with
  | [] => None
  | (r, a) :: l' => match matches r p with p' :: _ => Some (p', a) | [] => first_rule l' p end
  end.
(* matched: ply.lex on parser/__init__.py:109-250 *)
Definition matched (p p' : pos) : str := firstn (length (snd p) - length (snd p')) (snd p).

(** ply/lex.py Lexer.token, until the end of the text; every step consumes a character, so the length of the text is enough
    fuel (P_Lexer.v) *)
Fixpoint tokens_from (n : nat) (p : pos) : result (list token) :=
  match n with
  | O => Ok []
  | S n' =>
      match snd p with
      | [] => Ok []
      | c :: t =>
          if (c =? 32) || (c =? 9) then tokens_from n' (Some c, t)                          (* t_ignore, line 114 *)
          else match first_rule lex_rules p with
               | None => Err XSynRule                                                       (* t_error, lines 249-250 *)
               | Some (p', a) =>
                   rbind (a (matched p p')) (fun o =>
                   rbind (tokens_from n' p') (fun l => Ok (match o with Some k => k :: l | None => l end)))
               end
      end
  end.
(* tokenize: ply.lex on parser/__init__.py:109-250, called at parser/base.py:79 *)
Definition tokenize (t : str) : result (list token) := tokens_from (length t) (None, t).

(** parser/base.py:63-82 up to the construction of the nodes *)
Definition parse_text (uname : str -> option N) (t : str) : result dnode := rbind (tokenize t) (parse_tokens uname).
End Lexer.
