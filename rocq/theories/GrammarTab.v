(* GENERATED by /verif/tools/gen_grammar.py from /repo/lib/rule_engine/parser/parsetab.py - do not edit.

   Models: parsetab.py lines 8-10 (_lr_signature: the token list), 12-20 (_lr_action_items, the ACTION table),
   24-32 (_lr_goto_items, the GOTO table) and 34-104 (_lr_productions), copied entry by entry.  The signature of
   that file is the grammar of parser/__init__.py lines 253-560, so ply uses these tables as they are. *)
From Coq Require Import List NArith.
Import ListNotations.
Open Scope N_scope.

(* The token kinds: parser/__init__.py 109-113 (tokens), and the end marker of ply. *)
Inductive tok : Type :=
| T_ADD
| T_AND
| T_ATTR
| T_ATTR_SAFE
| T_BWAND
| T_BWLSH
| T_BWOR
| T_BWRSH
| T_BWXOR
| T_BYTES
| T_COLON
| T_COMMA
| T_COMMENT
| T_DATETIME
| T_EQ
| T_EQ_FZM
| T_EQ_FZS
| T_FALSE
| T_FDIV
| T_FLOAT
| T_FLOAT_INF
| T_FLOAT_NAN
| T_FOR
| T_GE
| T_GT
| T_IF
| T_IN
| T_LBRACE
| T_LBRACKET
| T_LE
| T_LPAREN
| T_LT
| T_MOD
| T_MUL
| T_NE
| T_NE_FZM
| T_NE_FZS
| T_NOT
| T_NULL
| T_OR
| T_POW
| T_QMARK
| T_RBRACE
| T_RBRACKET
| T_RPAREN
| T_STRING
| T_SUB
| T_SYMBOL
| T_TDIV
| T_TIMEDELTA
| T_TRUE
| T_end.

Definition tok_index (t : tok) : N :=
  match t with
  | T_ADD => 0
  | T_AND => 1
  | T_ATTR => 2
  | T_ATTR_SAFE => 3
  | T_BWAND => 4
  | T_BWLSH => 5
  | T_BWOR => 6
  | T_BWRSH => 7
  | T_BWXOR => 8
  | T_BYTES => 9
  | T_COLON => 10
  | T_COMMA => 11
  | T_COMMENT => 12
  | T_DATETIME => 13
  | T_EQ => 14
  | T_EQ_FZM => 15
  | T_EQ_FZS => 16
  | T_FALSE => 17
  | T_FDIV => 18
  | T_FLOAT => 19
  | T_FLOAT_INF => 20
  | T_FLOAT_NAN => 21
  | T_FOR => 22
  | T_GE => 23
  | T_GT => 24
  | T_IF => 25
  | T_IN => 26
  | T_LBRACE => 27
  | T_LBRACKET => 28
  | T_LE => 29
  | T_LPAREN => 30
  | T_LT => 31
  | T_MOD => 32
  | T_MUL => 33
  | T_NE => 34
  | T_NE_FZM => 35
  | T_NE_FZS => 36
  | T_NOT => 37
  | T_NULL => 38
  | T_OR => 39
  | T_POW => 40
  | T_QMARK => 41
  | T_RBRACE => 42
  | T_RBRACKET => 43
  | T_RPAREN => 44
  | T_STRING => 45
  | T_SUB => 46
  | T_SYMBOL => 47
  | T_TDIV => 48
  | T_TIMEDELTA => 49
  | T_TRUE => 50
  | T_end => 51
  end.

Definition all_toks : list tok :=
  [T_ADD; T_AND; T_ATTR; T_ATTR_SAFE; T_BWAND; T_BWLSH; T_BWOR; T_BWRSH; T_BWXOR; T_BYTES; T_COLON; T_COMMA; T_COMMENT; T_DATETIME; T_EQ; T_EQ_FZM; T_EQ_FZS; T_FALSE; T_FDIV; T_FLOAT; T_FLOAT_INF; T_FLOAT_NAN; T_FOR; T_GE; T_GT; T_IF; T_IN; T_LBRACE; T_LBRACKET; T_LE; T_LPAREN; T_LT; T_MOD; T_MUL; T_NE; T_NE_FZM; T_NE_FZS; T_NOT; T_NULL; T_OR; T_POW; T_QMARK; T_RBRACE; T_RBRACKET; T_RPAREN; T_STRING; T_SUB; T_SYMBOL; T_TDIV; T_TIMEDELTA; T_TRUE; T_end].

(* The nonterminals of the grammar. *)
Inductive nonterm : Type := NStart | N_statement | N_expression | N_object | N_ary_members | N_map_member | N_map_members.

Definition nonterm_index (n : nonterm) : N :=
  match n with NStart => 0 | N_statement => 1 | N_expression => 2 | N_object => 3 | N_ary_members => 4 | N_map_member => 5 | N_map_members => 6 end.

Definition all_nonterms : list nonterm := [NStart; N_statement; N_expression; N_object; N_ary_members; N_map_member; N_map_members].

Inductive symbol : Type := T (t : tok) | NT (n : nonterm).

(* parsetab.py 34-104: production number i is the i-th entry (the line of parser/__init__.py is in the comment). *)
Definition productions : list (nonterm * list symbol) :=
  [ (NStart, [NT N_statement]) (* 0 *)
  ; (N_statement, [NT N_expression]) (* 1: p_statement_expr, line 257 *)
  ; (N_statement, [NT N_expression; T T_COMMENT]) (* 2: p_statement_expr, line 258 *)
  ; (N_object, [NT N_object; T T_ATTR; T T_SYMBOL]) (* 3: p_expression_getattr, line 267 *)
  ; (N_object, [NT N_object; T T_ATTR_SAFE; T T_SYMBOL]) (* 4: p_expression_getattr, line 268 *)
  ; (N_expression, [NT N_object]) (* 5: p_expression_object, line 275 *)
  ; (N_expression, [NT N_expression; T T_QMARK; NT N_expression; T T_COLON; NT N_expression]) (* 6: p_expression_ternary, line 281 *)
  ; (N_expression, [NT N_expression; T T_MOD; NT N_expression]) (* 7: p_expression_arithmetic, line 288 *)
  ; (N_expression, [NT N_expression; T T_MUL; NT N_expression]) (* 8: p_expression_arithmetic, line 289 *)
  ; (N_expression, [NT N_expression; T T_FDIV; NT N_expression]) (* 9: p_expression_arithmetic, line 290 *)
  ; (N_expression, [NT N_expression; T T_TDIV; NT N_expression]) (* 10: p_expression_arithmetic, line 291 *)
  ; (N_expression, [NT N_expression; T T_POW; NT N_expression]) (* 11: p_expression_arithmetic, line 292 *)
  ; (N_expression, [NT N_expression; T T_ADD; NT N_expression]) (* 12: p_expression_add, line 300 *)
  ; (N_expression, [NT N_expression; T T_SUB; NT N_expression]) (* 13: p_expression_sub, line 308 *)
  ; (N_expression, [NT N_expression; T T_BWAND; NT N_expression]) (* 14: p_expression_bitwise, line 316 *)
  ; (N_expression, [NT N_expression; T T_BWOR; NT N_expression]) (* 15: p_expression_bitwise, line 317 *)
  ; (N_expression, [NT N_expression; T T_BWXOR; NT N_expression]) (* 16: p_expression_bitwise, line 318 *)
  ; (N_expression, [NT N_expression; T T_BWLSH; NT N_expression]) (* 17: p_expression_bitwise_shift, line 326 *)
  ; (N_expression, [NT N_expression; T T_BWRSH; NT N_expression]) (* 18: p_expression_bitwise_shift, line 327 *)
  ; (N_expression, [NT N_expression; T T_IN; NT N_expression]) (* 19: p_expression_contains, line 335 *)
  ; (N_expression, [NT N_expression; T T_NOT; T T_IN; NT N_expression]) (* 20: p_expression_contains, line 336 *)
  ; (N_expression, [NT N_expression; T T_EQ; NT N_expression]) (* 21: p_expression_comparison, line 348 *)
  ; (N_expression, [NT N_expression; T T_NE; NT N_expression]) (* 22: p_expression_comparison, line 349 *)
  ; (N_expression, [NT N_expression; T T_GT; NT N_expression]) (* 23: p_expression_arithmetic_comparison, line 357 *)
  ; (N_expression, [NT N_expression; T T_GE; NT N_expression]) (* 24: p_expression_arithmetic_comparison, line 358 *)
  ; (N_expression, [NT N_expression; T T_LT; NT N_expression]) (* 25: p_expression_arithmetic_comparison, line 359 *)
  ; (N_expression, [NT N_expression; T T_LE; NT N_expression]) (* 26: p_expression_arithmetic_comparison, line 360 *)
  ; (N_expression, [NT N_expression; T T_EQ_FZM; NT N_expression]) (* 27: p_expression_fuzzy_comparison, line 368 *)
  ; (N_expression, [NT N_expression; T T_EQ_FZS; NT N_expression]) (* 28: p_expression_fuzzy_comparison, line 369 *)
  ; (N_expression, [NT N_expression; T T_NE_FZM; NT N_expression]) (* 29: p_expression_fuzzy_comparison, line 370 *)
  ; (N_expression, [NT N_expression; T T_NE_FZS; NT N_expression]) (* 30: p_expression_fuzzy_comparison, line 371 *)
  ; (N_expression, [NT N_expression; T T_AND; NT N_expression]) (* 31: p_expression_logic, line 379 *)
  ; (N_expression, [NT N_expression; T T_OR; NT N_expression]) (* 32: p_expression_logic, line 380 *)
  ; (N_object, [T T_LPAREN; NT N_expression; T T_RPAREN]) (* 33: p_expression_group, line 387 *)
  ; (N_expression, [T T_NOT; NT N_expression]) (* 34: p_expression_negate, line 391 *)
  ; (N_object, [T T_SYMBOL]) (* 35: p_expression_symbol, line 395 *)
  ; (N_expression, [T T_SUB; NT N_expression]) (* 36: p_expression_uminus, line 404 *)
  ; (N_expression, [T T_TRUE]) (* 37: p_expression_boolean, line 411 *)
  ; (N_expression, [T T_FALSE]) (* 38: p_expression_boolean, line 412 *)
  ; (N_object, [T T_BYTES]) (* 39: p_expression_bytes, line 417 *)
  ; (N_object, [T T_DATETIME]) (* 40: p_expression_datetime, line 425 *)
  ; (N_object, [T T_TIMEDELTA]) (* 41: p_expression_timedelta, line 429 *)
  ; (N_expression, [T T_FLOAT]) (* 42: p_expression_float, line 434 *)
  ; (N_expression, [T T_FLOAT_NAN]) (* 43: p_expression_float, line 435 *)
  ; (N_expression, [T T_FLOAT_INF]) (* 44: p_expression_float, line 436 *)
  ; (N_object, [T T_NULL]) (* 45: p_expression_null, line 442 *)
  ; (N_object, [T T_LBRACE; NT N_ary_members; T T_RBRACE]) (* 46: p_expression_set, line 448 *)
  ; (N_object, [T T_LBRACE; NT N_ary_members; T T_COMMA; T T_RBRACE]) (* 47: p_expression_set, line 449 *)
  ; (N_object, [T T_STRING]) (* 48: p_expression_string, line 454 *)
  ; (N_object, [T T_LBRACKET; T T_RBRACKET]) (* 49: p_expression_array, line 463 *)
  ; (N_object, [T T_LBRACKET; NT N_ary_members; T T_RBRACKET]) (* 50: p_expression_array, line 464 *)
  ; (N_object, [T T_LBRACKET; NT N_ary_members; T T_COMMA; T T_RBRACKET]) (* 51: p_expression_array, line 465 *)
  ; (N_object, [T T_LBRACKET; NT N_expression; T T_FOR; T T_SYMBOL; T T_IN; NT N_expression; T T_RBRACKET]) (* 52: p_expression_array_comprehension, line 474 *)
  ; (N_object, [T T_LBRACKET; NT N_expression; T T_FOR; T T_SYMBOL; T T_IN; NT N_expression; T T_IF; NT N_expression; T T_RBRACKET]) (* 53: p_expression_array_comprehension, line 475 *)
  ; (N_ary_members, [NT N_expression]) (* 54: p_expression_array_members, line 484 *)
  ; (N_ary_members, [NT N_ary_members; T T_COMMA; NT N_expression]) (* 55: p_expression_array_members, line 485 *)
  ; (N_object, [T T_LBRACE; T T_RBRACE]) (* 56: p_expression_mapping, line 497 *)
  ; (N_object, [T T_LBRACE; NT N_map_members; T T_RBRACE]) (* 57: p_expression_mapping, line 498 *)
  ; (N_object, [T T_LBRACE; NT N_map_members; T T_COMMA; T T_RBRACE]) (* 58: p_expression_mapping, line 499 *)
  ; (N_map_member, [NT N_expression; T T_COLON; NT N_expression]) (* 59: p_expression_mapping_member, line 508 *)
  ; (N_map_members, [NT N_map_member]) (* 60: p_expression_mapping_members, line 514 *)
  ; (N_map_members, [NT N_map_members; T T_COMMA; NT N_map_member]) (* 61: p_expression_mapping_members, line 515 *)
  ; (N_object, [NT N_object; T T_LBRACKET; NT N_expression; T T_RBRACKET]) (* 62: p_expression_getitem, line 521 *)
  ; (N_object, [NT N_object; T T_LBRACKET; T T_COLON; T T_RBRACKET]) (* 63: p_expression_getslice, line 528 *)
  ; (N_object, [NT N_object; T T_LBRACKET; T T_COLON; NT N_expression; T T_RBRACKET]) (* 64: p_expression_getslice, line 529 *)
  ; (N_object, [NT N_object; T T_LBRACKET; NT N_expression; T T_COLON; T T_RBRACKET]) (* 65: p_expression_getslice, line 530 *)
  ; (N_object, [NT N_object; T T_LBRACKET; NT N_expression; T T_COLON; NT N_expression; T T_RBRACKET]) (* 66: p_expression_getslice, line 531 *)
  ; (N_object, [NT N_expression; T T_LPAREN; T T_RPAREN]) (* 67: p_expression_function_call, line 550 *)
  ; (N_object, [NT N_expression; T T_LPAREN; NT N_ary_members; T T_RPAREN]) (* 68: p_expression_function_call, line 551 *) ].

(* An entry of the ACTION table: positive = shift, negative = reduce, 0 = accept, None = nonassoc error. *)
Inductive action : Type := AShift (s : N) | AReduce (p : N) | AAcc | AErr.

Definition lr_action : list (list (tok * action)) :=
  [ [(T_BYTES, AShift 13); (T_DATETIME, AShift 14); (T_FALSE, AShift 7); (T_FLOAT, AShift 8); (T_FLOAT_INF, AShift 10); (T_FLOAT_NAN, AShift 9); (T_LBRACE, AShift 17); (T_LBRACKET, AShift 19); (T_LPAREN, AShift 12); (T_NOT, AShift 5); (T_NULL, AShift 16); (T_STRING, AShift 18); (T_SUB, AShift 4); (T_SYMBOL, AShift 11); (T_TIMEDELTA, AShift 15); (T_TRUE, AShift 6)]
  ; [(T_end, AAcc)]
  ; [(T_ADD, AShift 27); (T_AND, AShift 46); (T_BWAND, AShift 29); (T_BWLSH, AShift 32); (T_BWOR, AShift 30); (T_BWRSH, AShift 33); (T_BWXOR, AShift 31); (T_COMMENT, AShift 20); (T_EQ, AShift 36); (T_EQ_FZM, AShift 42); (T_EQ_FZS, AShift 43); (T_FDIV, AShift 24); (T_GE, AShift 39); (T_GT, AShift 38); (T_IN, AShift 34); (T_LE, AShift 41); (T_LPAREN, AShift 48); (T_LT, AShift 40); (T_MOD, AShift 22); (T_MUL, AShift 23); (T_NE, AShift 37); (T_NE_FZM, AShift 44); (T_NE_FZS, AShift 45); (T_NOT, AShift 35); (T_OR, AShift 47); (T_POW, AShift 26); (T_QMARK, AShift 21); (T_SUB, AShift 28); (T_TDIV, AShift 25); (T_end, AReduce 1)]
  ; [(T_ADD, AReduce 5); (T_AND, AReduce 5); (T_ATTR, AShift 49); (T_ATTR_SAFE, AShift 50); (T_BWAND, AReduce 5); (T_BWLSH, AReduce 5); (T_BWOR, AReduce 5); (T_BWRSH, AReduce 5); (T_BWXOR, AReduce 5); (T_COLON, AReduce 5); (T_COMMA, AReduce 5); (T_COMMENT, AReduce 5); (T_EQ, AReduce 5); (T_EQ_FZM, AReduce 5); (T_EQ_FZS, AReduce 5); (T_FDIV, AReduce 5); (T_FOR, AReduce 5); (T_GE, AReduce 5); (T_GT, AReduce 5); (T_IF, AReduce 5); (T_IN, AReduce 5); (T_LBRACKET, AShift 51); (T_LE, AReduce 5); (T_LPAREN, AReduce 5); (T_LT, AReduce 5); (T_MOD, AReduce 5); (T_MUL, AReduce 5); (T_NE, AReduce 5); (T_NE_FZM, AReduce 5); (T_NE_FZS, AReduce 5); (T_NOT, AReduce 5); (T_OR, AReduce 5); (T_POW, AReduce 5); (T_QMARK, AReduce 5); (T_RBRACE, AReduce 5); (T_RBRACKET, AReduce 5); (T_RPAREN, AReduce 5); (T_SUB, AReduce 5); (T_TDIV, AReduce 5); (T_end, AReduce 5)]
  ; [(T_BYTES, AShift 13); (T_DATETIME, AShift 14); (T_FALSE, AShift 7); (T_FLOAT, AShift 8); (T_FLOAT_INF, AShift 10); (T_FLOAT_NAN, AShift 9); (T_LBRACE, AShift 17); (T_LBRACKET, AShift 19); (T_LPAREN, AShift 12); (T_NOT, AShift 5); (T_NULL, AShift 16); (T_STRING, AShift 18); (T_SUB, AShift 4); (T_SYMBOL, AShift 11); (T_TIMEDELTA, AShift 15); (T_TRUE, AShift 6)]
  ; [(T_BYTES, AShift 13); (T_DATETIME, AShift 14); (T_FALSE, AShift 7); (T_FLOAT, AShift 8); (T_FLOAT_INF, AShift 10); (T_FLOAT_NAN, AShift 9); (T_LBRACE, AShift 17); (T_LBRACKET, AShift 19); (T_LPAREN, AShift 12); (T_NOT, AShift 5); (T_NULL, AShift 16); (T_STRING, AShift 18); (T_SUB, AShift 4); (T_SYMBOL, AShift 11); (T_TIMEDELTA, AShift 15); (T_TRUE, AShift 6)]
  ; [(T_ADD, AReduce 37); (T_AND, AReduce 37); (T_BWAND, AReduce 37); (T_BWLSH, AReduce 37); (T_BWOR, AReduce 37); (T_BWRSH, AReduce 37); (T_BWXOR, AReduce 37); (T_COLON, AReduce 37); (T_COMMA, AReduce 37); (T_COMMENT, AReduce 37); (T_EQ, AReduce 37); (T_EQ_FZM, AReduce 37); (T_EQ_FZS, AReduce 37); (T_FDIV, AReduce 37); (T_FOR, AReduce 37); (T_GE, AReduce 37); (T_GT, AReduce 37); (T_IF, AReduce 37); (T_IN, AReduce 37); (T_LE, AReduce 37); (T_LPAREN, AReduce 37); (T_LT, AReduce 37); (T_MOD, AReduce 37); (T_MUL, AReduce 37); (T_NE, AReduce 37); (T_NE_FZM, AReduce 37); (T_NE_FZS, AReduce 37); (T_NOT, AReduce 37); (T_OR, AReduce 37); (T_POW, AReduce 37); (T_QMARK, AReduce 37); (T_RBRACE, AReduce 37); (T_RBRACKET, AReduce 37); (T_RPAREN, AReduce 37); (T_SUB, AReduce 37); (T_TDIV, AReduce 37); (T_end, AReduce 37)]
  ; [(T_ADD, AReduce 38); (T_AND, AReduce 38); (T_BWAND, AReduce 38); (T_BWLSH, AReduce 38); (T_BWOR, AReduce 38); (T_BWRSH, AReduce 38); (T_BWXOR, AReduce 38); (T_COLON, AReduce 38); (T_COMMA, AReduce 38); (T_COMMENT, AReduce 38); (T_EQ, AReduce 38); (T_EQ_FZM, AReduce 38); (T_EQ_FZS, AReduce 38); (T_FDIV, AReduce 38); (T_FOR, AReduce 38); (T_GE, AReduce 38); (T_GT, AReduce 38); (T_IF, AReduce 38); (T_IN, AReduce 38); (T_LE, AReduce 38); (T_LPAREN, AReduce 38); (T_LT, AReduce 38); (T_MOD, AReduce 38); (T_MUL, AReduce 38); (T_NE, AReduce 38); (T_NE_FZM, AReduce 38); (T_NE_FZS, AReduce 38); (T_NOT, AReduce 38); (T_OR, AReduce 38); (T_POW, AReduce 38); (T_QMARK, AReduce 38); (T_RBRACE, AReduce 38); (T_RBRACKET, AReduce 38); (T_RPAREN, AReduce 38); (T_SUB, AReduce 38); (T_TDIV, AReduce 38); (T_end, AReduce 38)]
  ; [(T_ADD, AReduce 42); (T_AND, AReduce 42); (T_BWAND, AReduce 42); (T_BWLSH, AReduce 42); (T_BWOR, AReduce 42); (T_BWRSH, AReduce 42); (T_BWXOR, AReduce 42); (T_COLON, AReduce 42); (T_COMMA, AReduce 42); (T_COMMENT, AReduce 42); (T_EQ, AReduce 42); (T_EQ_FZM, AReduce 42); (T_EQ_FZS, AReduce 42); (T_FDIV, AReduce 42); (T_FOR, AReduce 42); (T_GE, AReduce 42); (T_GT, AReduce 42); (T_IF, AReduce 42); (T_IN, AReduce 42); (T_LE, AReduce 42); (T_LPAREN, AReduce 42); (T_LT, AReduce 42); (T_MOD, AReduce 42); (T_MUL, AReduce 42); (T_NE, AReduce 42); (T_NE_FZM, AReduce 42); (T_NE_FZS, AReduce 42); (T_NOT, AReduce 42); (T_OR, AReduce 42); (T_POW, AReduce 42); (T_QMARK, AReduce 42); (T_RBRACE, AReduce 42); (T_RBRACKET, AReduce 42); (T_RPAREN, AReduce 42); (T_SUB, AReduce 42); (T_TDIV, AReduce 42); (T_end, AReduce 42)]
  ; [(T_ADD, AReduce 43); (T_AND, AReduce 43); (T_BWAND, AReduce 43); (T_BWLSH, AReduce 43); (T_BWOR, AReduce 43); (T_BWRSH, AReduce 43); (T_BWXOR, AReduce 43); (T_COLON, AReduce 43); (T_COMMA, AReduce 43); (T_COMMENT, AReduce 43); (T_EQ, AReduce 43); (T_EQ_FZM, AReduce 43); (T_EQ_FZS, AReduce 43); (T_FDIV, AReduce 43); (T_FOR, AReduce 43); (T_GE, AReduce 43); (T_GT, AReduce 43); (T_IF, AReduce 43); (T_IN, AReduce 43); (T_LE, AReduce 43); (T_LPAREN, AReduce 43); (T_LT, AReduce 43); (T_MOD, AReduce 43); (T_MUL, AReduce 43); (T_NE, AReduce 43); (T_NE_FZM, AReduce 43); (T_NE_FZS, AReduce 43); (T_NOT, AReduce 43); (T_OR, AReduce 43); (T_POW, AReduce 43); (T_QMARK, AReduce 43); (T_RBRACE, AReduce 43); (T_RBRACKET, AReduce 43); (T_RPAREN, AReduce 43); (T_SUB, AReduce 43); (T_TDIV, AReduce 43); (T_end, AReduce 43)]
  ; [(T_ADD, AReduce 44); (T_AND, AReduce 44); (T_BWAND, AReduce 44); (T_BWLSH, AReduce 44); (T_BWOR, AReduce 44); (T_BWRSH, AReduce 44); (T_BWXOR, AReduce 44); (T_COLON, AReduce 44); (T_COMMA, AReduce 44); (T_COMMENT, AReduce 44); (T_EQ, AReduce 44); (T_EQ_FZM, AReduce 44); (T_EQ_FZS, AReduce 44); (T_FDIV, AReduce 44); (T_FOR, AReduce 44); (T_GE, AReduce 44); (T_GT, AReduce 44); (T_IF, AReduce 44); (T_IN, AReduce 44); (T_LE, AReduce 44); (T_LPAREN, AReduce 44); (T_LT, AReduce 44); (T_MOD, AReduce 44); (T_MUL, AReduce 44); (T_NE, AReduce 44); (T_NE_FZM, AReduce 44); (T_NE_FZS, AReduce 44); (T_NOT, AReduce 44); (T_OR, AReduce 44); (T_POW, AReduce 44); (T_QMARK, AReduce 44); (T_RBRACE, AReduce 44); (T_RBRACKET, AReduce 44); (T_RPAREN, AReduce 44); (T_SUB, AReduce 44); (T_TDIV, AReduce 44); (T_end, AReduce 44)]
  ; [(T_ADD, AReduce 35); (T_AND, AReduce 35); (T_ATTR, AReduce 35); (T_ATTR_SAFE, AReduce 35); (T_BWAND, AReduce 35); (T_BWLSH, AReduce 35); (T_BWOR, AReduce 35); (T_BWRSH, AReduce 35); (T_BWXOR, AReduce 35); (T_COLON, AReduce 35); (T_COMMA, AReduce 35); (T_COMMENT, AReduce 35); (T_EQ, AReduce 35); (T_EQ_FZM, AReduce 35); (T_EQ_FZS, AReduce 35); (T_FDIV, AReduce 35); (T_FOR, AReduce 35); (T_GE, AReduce 35); (T_GT, AReduce 35); (T_IF, AReduce 35); (T_IN, AReduce 35); (T_LBRACKET, AReduce 35); (T_LE, AReduce 35); (T_LPAREN, AReduce 35); (T_LT, AReduce 35); (T_MOD, AReduce 35); (T_MUL, AReduce 35); (T_NE, AReduce 35); (T_NE_FZM, AReduce 35); (T_NE_FZS, AReduce 35); (T_NOT, AReduce 35); (T_OR, AReduce 35); (T_POW, AReduce 35); (T_QMARK, AReduce 35); (T_RBRACE, AReduce 35); (T_RBRACKET, AReduce 35); (T_RPAREN, AReduce 35); (T_SUB, AReduce 35); (T_TDIV, AReduce 35); (T_end, AReduce 35)]
  ; [(T_BYTES, AShift 13); (T_DATETIME, AShift 14); (T_FALSE, AShift 7); (T_FLOAT, AShift 8); (T_FLOAT_INF, AShift 10); (T_FLOAT_NAN, AShift 9); (T_LBRACE, AShift 17); (T_LBRACKET, AShift 19); (T_LPAREN, AShift 12); (T_NOT, AShift 5); (T_NULL, AShift 16); (T_STRING, AShift 18); (T_SUB, AShift 4); (T_SYMBOL, AShift 11); (T_TIMEDELTA, AShift 15); (T_TRUE, AShift 6)]
  ; [(T_ADD, AReduce 39); (T_AND, AReduce 39); (T_ATTR, AReduce 39); (T_ATTR_SAFE, AReduce 39); (T_BWAND, AReduce 39); (T_BWLSH, AReduce 39); (T_BWOR, AReduce 39); (T_BWRSH, AReduce 39); (T_BWXOR, AReduce 39); (T_COLON, AReduce 39); (T_COMMA, AReduce 39); (T_COMMENT, AReduce 39); (T_EQ, AReduce 39); (T_EQ_FZM, AReduce 39); (T_EQ_FZS, AReduce 39); (T_FDIV, AReduce 39); (T_FOR, AReduce 39); (T_GE, AReduce 39); (T_GT, AReduce 39); (T_IF, AReduce 39); (T_IN, AReduce 39); (T_LBRACKET, AReduce 39); (T_LE, AReduce 39); (T_LPAREN, AReduce 39); (T_LT, AReduce 39); (T_MOD, AReduce 39); (T_MUL, AReduce 39); (T_NE, AReduce 39); (T_NE_FZM, AReduce 39); (T_NE_FZS, AReduce 39); (T_NOT, AReduce 39); (T_OR, AReduce 39); (T_POW, AReduce 39); (T_QMARK, AReduce 39); (T_RBRACE, AReduce 39); (T_RBRACKET, AReduce 39); (T_RPAREN, AReduce 39); (T_SUB, AReduce 39); (T_TDIV, AReduce 39); (T_end, AReduce 39)]
  ; [(T_ADD, AReduce 40); (T_AND, AReduce 40); (T_ATTR, AReduce 40); (T_ATTR_SAFE, AReduce 40); (T_BWAND, AReduce 40); (T_BWLSH, AReduce 40); (T_BWOR, AReduce 40); (T_BWRSH, AReduce 40); (T_BWXOR, AReduce 40); (T_COLON, AReduce 40); (T_COMMA, AReduce 40); (T_COMMENT, AReduce 40); (T_EQ, AReduce 40); (T_EQ_FZM, AReduce 40); (T_EQ_FZS, AReduce 40); (T_FDIV, AReduce 40); (T_FOR, AReduce 40); (T_GE, AReduce 40); (T_GT, AReduce 40); (T_IF, AReduce 40); (T_IN, AReduce 40); (T_LBRACKET, AReduce 40); (T_LE, AReduce 40); (T_LPAREN, AReduce 40); (T_LT, AReduce 40); (T_MOD, AReduce 40); (T_MUL, AReduce 40); (T_NE, AReduce 40); (T_NE_FZM, AReduce 40); (T_NE_FZS, AReduce 40); (T_NOT, AReduce 40); (T_OR, AReduce 40); (T_POW, AReduce 40); (T_QMARK, AReduce 40); (T_RBRACE, AReduce 40); (T_RBRACKET, AReduce 40); (T_RPAREN, AReduce 40); (T_SUB, AReduce 40); (T_TDIV, AReduce 40); (T_end, AReduce 40)]
  ; [(T_ADD, AReduce 41); (T_AND, AReduce 41); (T_ATTR, AReduce 41); (T_ATTR_SAFE, AReduce 41); (T_BWAND, AReduce 41); (T_BWLSH, AReduce 41); (T_BWOR, AReduce 41); (T_BWRSH, AReduce 41); (T_BWXOR, AReduce 41); (T_COLON, AReduce 41); (T_COMMA, AReduce 41); (T_COMMENT, AReduce 41); (T_EQ, AReduce 41); (T_EQ_FZM, AReduce 41); (T_EQ_FZS, AReduce 41); (T_FDIV, AReduce 41); (T_FOR, AReduce 41); (T_GE, AReduce 41); (T_GT, AReduce 41); (T_IF, AReduce 41); (T_IN, AReduce 41); (T_LBRACKET, AReduce 41); (T_LE, AReduce 41); (T_LPAREN, AReduce 41); (T_LT, AReduce 41); (T_MOD, AReduce 41); (T_MUL, AReduce 41); (T_NE, AReduce 41); (T_NE_FZM, AReduce 41); (T_NE_FZS, AReduce 41); (T_NOT, AReduce 41); (T_OR, AReduce 41); (T_POW, AReduce 41); (T_QMARK, AReduce 41); (T_RBRACE, AReduce 41); (T_RBRACKET, AReduce 41); (T_RPAREN, AReduce 41); (T_SUB, AReduce 41); (T_TDIV, AReduce 41); (T_end, AReduce 41)]
  ; [(T_ADD, AReduce 45); (T_AND, AReduce 45); (T_ATTR, AReduce 45); (T_ATTR_SAFE, AReduce 45); (T_BWAND, AReduce 45); (T_BWLSH, AReduce 45); (T_BWOR, AReduce 45); (T_BWRSH, AReduce 45); (T_BWXOR, AReduce 45); (T_COLON, AReduce 45); (T_COMMA, AReduce 45); (T_COMMENT, AReduce 45); (T_EQ, AReduce 45); (T_EQ_FZM, AReduce 45); (T_EQ_FZS, AReduce 45); (T_FDIV, AReduce 45); (T_FOR, AReduce 45); (T_GE, AReduce 45); (T_GT, AReduce 45); (T_IF, AReduce 45); (T_IN, AReduce 45); (T_LBRACKET, AReduce 45); (T_LE, AReduce 45); (T_LPAREN, AReduce 45); (T_LT, AReduce 45); (T_MOD, AReduce 45); (T_MUL, AReduce 45); (T_NE, AReduce 45); (T_NE_FZM, AReduce 45); (T_NE_FZS, AReduce 45); (T_NOT, AReduce 45); (T_OR, AReduce 45); (T_POW, AReduce 45); (T_QMARK, AReduce 45); (T_RBRACE, AReduce 45); (T_RBRACKET, AReduce 45); (T_RPAREN, AReduce 45); (T_SUB, AReduce 45); (T_TDIV, AReduce 45); (T_end, AReduce 45)]
  ; [(T_BYTES, AShift 13); (T_DATETIME, AShift 14); (T_FALSE, AShift 7); (T_FLOAT, AShift 8); (T_FLOAT_INF, AShift 10); (T_FLOAT_NAN, AShift 9); (T_LBRACE, AShift 17); (T_LBRACKET, AShift 19); (T_LPAREN, AShift 12); (T_NOT, AShift 5); (T_NULL, AShift 16); (T_RBRACE, AShift 56); (T_STRING, AShift 18); (T_SUB, AShift 4); (T_SYMBOL, AShift 11); (T_TIMEDELTA, AShift 15); (T_TRUE, AShift 6)]
  ; [(T_ADD, AReduce 48); (T_AND, AReduce 48); (T_ATTR, AReduce 48); (T_ATTR_SAFE, AReduce 48); (T_BWAND, AReduce 48); (T_BWLSH, AReduce 48); (T_BWOR, AReduce 48); (T_BWRSH, AReduce 48); (T_BWXOR, AReduce 48); (T_COLON, AReduce 48); (T_COMMA, AReduce 48); (T_COMMENT, AReduce 48); (T_EQ, AReduce 48); (T_EQ_FZM, AReduce 48); (T_EQ_FZS, AReduce 48); (T_FDIV, AReduce 48); (T_FOR, AReduce 48); (T_GE, AReduce 48); (T_GT, AReduce 48); (T_IF, AReduce 48); (T_IN, AReduce 48); (T_LBRACKET, AReduce 48); (T_LE, AReduce 48); (T_LPAREN, AReduce 48); (T_LT, AReduce 48); (T_MOD, AReduce 48); (T_MUL, AReduce 48); (T_NE, AReduce 48); (T_NE_FZM, AReduce 48); (T_NE_FZS, AReduce 48); (T_NOT, AReduce 48); (T_OR, AReduce 48); (T_POW, AReduce 48); (T_QMARK, AReduce 48); (T_RBRACE, AReduce 48); (T_RBRACKET, AReduce 48); (T_RPAREN, AReduce 48); (T_SUB, AReduce 48); (T_TDIV, AReduce 48); (T_end, AReduce 48)]
  ; [(T_BYTES, AShift 13); (T_DATETIME, AShift 14); (T_FALSE, AShift 7); (T_FLOAT, AShift 8); (T_FLOAT_INF, AShift 10); (T_FLOAT_NAN, AShift 9); (T_LBRACE, AShift 17); (T_LBRACKET, AShift 19); (T_LPAREN, AShift 12); (T_NOT, AShift 5); (T_NULL, AShift 16); (T_RBRACKET, AShift 60); (T_STRING, AShift 18); (T_SUB, AShift 4); (T_SYMBOL, AShift 11); (T_TIMEDELTA, AShift 15); (T_TRUE, AShift 6)]
  ; [(T_end, AReduce 2)]
  ; [(T_BYTES, AShift 13); (T_DATETIME, AShift 14); (T_FALSE, AShift 7); (T_FLOAT, AShift 8); (T_FLOAT_INF, AShift 10); (T_FLOAT_NAN, AShift 9); (T_LBRACE, AShift 17); (T_LBRACKET, AShift 19); (T_LPAREN, AShift 12); (T_NOT, AShift 5); (T_NULL, AShift 16); (T_STRING, AShift 18); (T_SUB, AShift 4); (T_SYMBOL, AShift 11); (T_TIMEDELTA, AShift 15); (T_TRUE, AShift 6)]
  ; [(T_BYTES, AShift 13); (T_DATETIME, AShift 14); (T_FALSE, AShift 7); (T_FLOAT, AShift 8); (T_FLOAT_INF, AShift 10); (T_FLOAT_NAN, AShift 9); (T_LBRACE, AShift 17); (T_LBRACKET, AShift 19); (T_LPAREN, AShift 12); (T_NOT, AShift 5); (T_NULL, AShift 16); (T_STRING, AShift 18); (T_SUB, AShift 4); (T_SYMBOL, AShift 11); (T_TIMEDELTA, AShift 15); (T_TRUE, AShift 6)]
  ; [(T_BYTES, AShift 13); (T_DATETIME, AShift 14); (T_FALSE, AShift 7); (T_FLOAT, AShift 8); (T_FLOAT_INF, AShift 10); (T_FLOAT_NAN, AShift 9); (T_LBRACE, AShift 17); (T_LBRACKET, AShift 19); (T_LPAREN, AShift 12); (T_NOT, AShift 5); (T_NULL, AShift 16); (T_STRING, AShift 18); (T_SUB, AShift 4); (T_SYMBOL, AShift 11); (T_TIMEDELTA, AShift 15); (T_TRUE, AShift 6)]
  ; [(T_BYTES, AShift 13); (T_DATETIME, AShift 14); (T_FALSE, AShift 7); (T_FLOAT, AShift 8); (T_FLOAT_INF, AShift 10); (T_FLOAT_NAN, AShift 9); (T_LBRACE, AShift 17); (T_LBRACKET, AShift 19); (T_LPAREN, AShift 12); (T_NOT, AShift 5); (T_NULL, AShift 16); (T_STRING, AShift 18); (T_SUB, AShift 4); (T_SYMBOL, AShift 11); (T_TIMEDELTA, AShift 15); (T_TRUE, AShift 6)]
  ; [(T_BYTES, AShift 13); (T_DATETIME, AShift 14); (T_FALSE, AShift 7); (T_FLOAT, AShift 8); (T_FLOAT_INF, AShift 10); (T_FLOAT_NAN, AShift 9); (T_LBRACE, AShift 17); (T_LBRACKET, AShift 19); (T_LPAREN, AShift 12); (T_NOT, AShift 5); (T_NULL, AShift 16); (T_STRING, AShift 18); (T_SUB, AShift 4); (T_SYMBOL, AShift 11); (T_TIMEDELTA, AShift 15); (T_TRUE, AShift 6)]
  ; [(T_BYTES, AShift 13); (T_DATETIME, AShift 14); (T_FALSE, AShift 7); (T_FLOAT, AShift 8); (T_FLOAT_INF, AShift 10); (T_FLOAT_NAN, AShift 9); (T_LBRACE, AShift 17); (T_LBRACKET, AShift 19); (T_LPAREN, AShift 12); (T_NOT, AShift 5); (T_NULL, AShift 16); (T_STRING, AShift 18); (T_SUB, AShift 4); (T_SYMBOL, AShift 11); (T_TIMEDELTA, AShift 15); (T_TRUE, AShift 6)]
  ; [(T_BYTES, AShift 13); (T_DATETIME, AShift 14); (T_FALSE, AShift 7); (T_FLOAT, AShift 8); (T_FLOAT_INF, AShift 10); (T_FLOAT_NAN, AShift 9); (T_LBRACE, AShift 17); (T_LBRACKET, AShift 19); (T_LPAREN, AShift 12); (T_NOT, AShift 5); (T_NULL, AShift 16); (T_STRING, AShift 18); (T_SUB, AShift 4); (T_SYMBOL, AShift 11); (T_TIMEDELTA, AShift 15); (T_TRUE, AShift 6)]
  ; [(T_BYTES, AShift 13); (T_DATETIME, AShift 14); (T_FALSE, AShift 7); (T_FLOAT, AShift 8); (T_FLOAT_INF, AShift 10); (T_FLOAT_NAN, AShift 9); (T_LBRACE, AShift 17); (T_LBRACKET, AShift 19); (T_LPAREN, AShift 12); (T_NOT, AShift 5); (T_NULL, AShift 16); (T_STRING, AShift 18); (T_SUB, AShift 4); (T_SYMBOL, AShift 11); (T_TIMEDELTA, AShift 15); (T_TRUE, AShift 6)]
  ; [(T_BYTES, AShift 13); (T_DATETIME, AShift 14); (T_FALSE, AShift 7); (T_FLOAT, AShift 8); (T_FLOAT_INF, AShift 10); (T_FLOAT_NAN, AShift 9); (T_LBRACE, AShift 17); (T_LBRACKET, AShift 19); (T_LPAREN, AShift 12); (T_NOT, AShift 5); (T_NULL, AShift 16); (T_STRING, AShift 18); (T_SUB, AShift 4); (T_SYMBOL, AShift 11); (T_TIMEDELTA, AShift 15); (T_TRUE, AShift 6)]
  ; [(T_BYTES, AShift 13); (T_DATETIME, AShift 14); (T_FALSE, AShift 7); (T_FLOAT, AShift 8); (T_FLOAT_INF, AShift 10); (T_FLOAT_NAN, AShift 9); (T_LBRACE, AShift 17); (T_LBRACKET, AShift 19); (T_LPAREN, AShift 12); (T_NOT, AShift 5); (T_NULL, AShift 16); (T_STRING, AShift 18); (T_SUB, AShift 4); (T_SYMBOL, AShift 11); (T_TIMEDELTA, AShift 15); (T_TRUE, AShift 6)]
  ; [(T_BYTES, AShift 13); (T_DATETIME, AShift 14); (T_FALSE, AShift 7); (T_FLOAT, AShift 8); (T_FLOAT_INF, AShift 10); (T_FLOAT_NAN, AShift 9); (T_LBRACE, AShift 17); (T_LBRACKET, AShift 19); (T_LPAREN, AShift 12); (T_NOT, AShift 5); (T_NULL, AShift 16); (T_STRING, AShift 18); (T_SUB, AShift 4); (T_SYMBOL, AShift 11); (T_TIMEDELTA, AShift 15); (T_TRUE, AShift 6)]
  ; [(T_BYTES, AShift 13); (T_DATETIME, AShift 14); (T_FALSE, AShift 7); (T_FLOAT, AShift 8); (T_FLOAT_INF, AShift 10); (T_FLOAT_NAN, AShift 9); (T_LBRACE, AShift 17); (T_LBRACKET, AShift 19); (T_LPAREN, AShift 12); (T_NOT, AShift 5); (T_NULL, AShift 16); (T_STRING, AShift 18); (T_SUB, AShift 4); (T_SYMBOL, AShift 11); (T_TIMEDELTA, AShift 15); (T_TRUE, AShift 6)]
  ; [(T_BYTES, AShift 13); (T_DATETIME, AShift 14); (T_FALSE, AShift 7); (T_FLOAT, AShift 8); (T_FLOAT_INF, AShift 10); (T_FLOAT_NAN, AShift 9); (T_LBRACE, AShift 17); (T_LBRACKET, AShift 19); (T_LPAREN, AShift 12); (T_NOT, AShift 5); (T_NULL, AShift 16); (T_STRING, AShift 18); (T_SUB, AShift 4); (T_SYMBOL, AShift 11); (T_TIMEDELTA, AShift 15); (T_TRUE, AShift 6)]
  ; [(T_BYTES, AShift 13); (T_DATETIME, AShift 14); (T_FALSE, AShift 7); (T_FLOAT, AShift 8); (T_FLOAT_INF, AShift 10); (T_FLOAT_NAN, AShift 9); (T_LBRACE, AShift 17); (T_LBRACKET, AShift 19); (T_LPAREN, AShift 12); (T_NOT, AShift 5); (T_NULL, AShift 16); (T_STRING, AShift 18); (T_SUB, AShift 4); (T_SYMBOL, AShift 11); (T_TIMEDELTA, AShift 15); (T_TRUE, AShift 6)]
  ; [(T_IN, AShift 77)]
  ; [(T_BYTES, AShift 13); (T_DATETIME, AShift 14); (T_FALSE, AShift 7); (T_FLOAT, AShift 8); (T_FLOAT_INF, AShift 10); (T_FLOAT_NAN, AShift 9); (T_LBRACE, AShift 17); (T_LBRACKET, AShift 19); (T_LPAREN, AShift 12); (T_NOT, AShift 5); (T_NULL, AShift 16); (T_STRING, AShift 18); (T_SUB, AShift 4); (T_SYMBOL, AShift 11); (T_TIMEDELTA, AShift 15); (T_TRUE, AShift 6)]
  ; [(T_BYTES, AShift 13); (T_DATETIME, AShift 14); (T_FALSE, AShift 7); (T_FLOAT, AShift 8); (T_FLOAT_INF, AShift 10); (T_FLOAT_NAN, AShift 9); (T_LBRACE, AShift 17); (T_LBRACKET, AShift 19); (T_LPAREN, AShift 12); (T_NOT, AShift 5); (T_NULL, AShift 16); (T_STRING, AShift 18); (T_SUB, AShift 4); (T_SYMBOL, AShift 11); (T_TIMEDELTA, AShift 15); (T_TRUE, AShift 6)]
  ; [(T_BYTES, AShift 13); (T_DATETIME, AShift 14); (T_FALSE, AShift 7); (T_FLOAT, AShift 8); (T_FLOAT_INF, AShift 10); (T_FLOAT_NAN, AShift 9); (T_LBRACE, AShift 17); (T_LBRACKET, AShift 19); (T_LPAREN, AShift 12); (T_NOT, AShift 5); (T_NULL, AShift 16); (T_STRING, AShift 18); (T_SUB, AShift 4); (T_SYMBOL, AShift 11); (T_TIMEDELTA, AShift 15); (T_TRUE, AShift 6)]
  ; [(T_BYTES, AShift 13); (T_DATETIME, AShift 14); (T_FALSE, AShift 7); (T_FLOAT, AShift 8); (T_FLOAT_INF, AShift 10); (T_FLOAT_NAN, AShift 9); (T_LBRACE, AShift 17); (T_LBRACKET, AShift 19); (T_LPAREN, AShift 12); (T_NOT, AShift 5); (T_NULL, AShift 16); (T_STRING, AShift 18); (T_SUB, AShift 4); (T_SYMBOL, AShift 11); (T_TIMEDELTA, AShift 15); (T_TRUE, AShift 6)]
  ; [(T_BYTES, AShift 13); (T_DATETIME, AShift 14); (T_FALSE, AShift 7); (T_FLOAT, AShift 8); (T_FLOAT_INF, AShift 10); (T_FLOAT_NAN, AShift 9); (T_LBRACE, AShift 17); (T_LBRACKET, AShift 19); (T_LPAREN, AShift 12); (T_NOT, AShift 5); (T_NULL, AShift 16); (T_STRING, AShift 18); (T_SUB, AShift 4); (T_SYMBOL, AShift 11); (T_TIMEDELTA, AShift 15); (T_TRUE, AShift 6)]
  ; [(T_BYTES, AShift 13); (T_DATETIME, AShift 14); (T_FALSE, AShift 7); (T_FLOAT, AShift 8); (T_FLOAT_INF, AShift 10); (T_FLOAT_NAN, AShift 9); (T_LBRACE, AShift 17); (T_LBRACKET, AShift 19); (T_LPAREN, AShift 12); (T_NOT, AShift 5); (T_NULL, AShift 16); (T_STRING, AShift 18); (T_SUB, AShift 4); (T_SYMBOL, AShift 11); (T_TIMEDELTA, AShift 15); (T_TRUE, AShift 6)]
  ; [(T_BYTES, AShift 13); (T_DATETIME, AShift 14); (T_FALSE, AShift 7); (T_FLOAT, AShift 8); (T_FLOAT_INF, AShift 10); (T_FLOAT_NAN, AShift 9); (T_LBRACE, AShift 17); (T_LBRACKET, AShift 19); (T_LPAREN, AShift 12); (T_NOT, AShift 5); (T_NULL, AShift 16); (T_STRING, AShift 18); (T_SUB, AShift 4); (T_SYMBOL, AShift 11); (T_TIMEDELTA, AShift 15); (T_TRUE, AShift 6)]
  ; [(T_BYTES, AShift 13); (T_DATETIME, AShift 14); (T_FALSE, AShift 7); (T_FLOAT, AShift 8); (T_FLOAT_INF, AShift 10); (T_FLOAT_NAN, AShift 9); (T_LBRACE, AShift 17); (T_LBRACKET, AShift 19); (T_LPAREN, AShift 12); (T_NOT, AShift 5); (T_NULL, AShift 16); (T_STRING, AShift 18); (T_SUB, AShift 4); (T_SYMBOL, AShift 11); (T_TIMEDELTA, AShift 15); (T_TRUE, AShift 6)]
  ; [(T_BYTES, AShift 13); (T_DATETIME, AShift 14); (T_FALSE, AShift 7); (T_FLOAT, AShift 8); (T_FLOAT_INF, AShift 10); (T_FLOAT_NAN, AShift 9); (T_LBRACE, AShift 17); (T_LBRACKET, AShift 19); (T_LPAREN, AShift 12); (T_NOT, AShift 5); (T_NULL, AShift 16); (T_STRING, AShift 18); (T_SUB, AShift 4); (T_SYMBOL, AShift 11); (T_TIMEDELTA, AShift 15); (T_TRUE, AShift 6)]
  ; [(T_BYTES, AShift 13); (T_DATETIME, AShift 14); (T_FALSE, AShift 7); (T_FLOAT, AShift 8); (T_FLOAT_INF, AShift 10); (T_FLOAT_NAN, AShift 9); (T_LBRACE, AShift 17); (T_LBRACKET, AShift 19); (T_LPAREN, AShift 12); (T_NOT, AShift 5); (T_NULL, AShift 16); (T_STRING, AShift 18); (T_SUB, AShift 4); (T_SYMBOL, AShift 11); (T_TIMEDELTA, AShift 15); (T_TRUE, AShift 6)]
  ; [(T_BYTES, AShift 13); (T_DATETIME, AShift 14); (T_FALSE, AShift 7); (T_FLOAT, AShift 8); (T_FLOAT_INF, AShift 10); (T_FLOAT_NAN, AShift 9); (T_LBRACE, AShift 17); (T_LBRACKET, AShift 19); (T_LPAREN, AShift 12); (T_NOT, AShift 5); (T_NULL, AShift 16); (T_STRING, AShift 18); (T_SUB, AShift 4); (T_SYMBOL, AShift 11); (T_TIMEDELTA, AShift 15); (T_TRUE, AShift 6)]
  ; [(T_BYTES, AShift 13); (T_DATETIME, AShift 14); (T_FALSE, AShift 7); (T_FLOAT, AShift 8); (T_FLOAT_INF, AShift 10); (T_FLOAT_NAN, AShift 9); (T_LBRACE, AShift 17); (T_LBRACKET, AShift 19); (T_LPAREN, AShift 12); (T_NOT, AShift 5); (T_NULL, AShift 16); (T_STRING, AShift 18); (T_SUB, AShift 4); (T_SYMBOL, AShift 11); (T_TIMEDELTA, AShift 15); (T_TRUE, AShift 6)]
  ; [(T_BYTES, AShift 13); (T_DATETIME, AShift 14); (T_FALSE, AShift 7); (T_FLOAT, AShift 8); (T_FLOAT_INF, AShift 10); (T_FLOAT_NAN, AShift 9); (T_LBRACE, AShift 17); (T_LBRACKET, AShift 19); (T_LPAREN, AShift 12); (T_NOT, AShift 5); (T_NULL, AShift 16); (T_RPAREN, AShift 91); (T_STRING, AShift 18); (T_SUB, AShift 4); (T_SYMBOL, AShift 11); (T_TIMEDELTA, AShift 15); (T_TRUE, AShift 6)]
  ; [(T_SYMBOL, AShift 93)]
  ; [(T_SYMBOL, AShift 94)]
  ; [(T_BYTES, AShift 13); (T_COLON, AShift 96); (T_DATETIME, AShift 14); (T_FALSE, AShift 7); (T_FLOAT, AShift 8); (T_FLOAT_INF, AShift 10); (T_FLOAT_NAN, AShift 9); (T_LBRACE, AShift 17); (T_LBRACKET, AShift 19); (T_LPAREN, AShift 12); (T_NOT, AShift 5); (T_NULL, AShift 16); (T_STRING, AShift 18); (T_SUB, AShift 4); (T_SYMBOL, AShift 11); (T_TIMEDELTA, AShift 15); (T_TRUE, AShift 6)]
  ; [(T_ADD, AReduce 36); (T_AND, AReduce 36); (T_BWAND, AReduce 36); (T_BWLSH, AReduce 36); (T_BWOR, AReduce 36); (T_BWRSH, AReduce 36); (T_BWXOR, AReduce 36); (T_COLON, AReduce 36); (T_COMMA, AReduce 36); (T_COMMENT, AReduce 36); (T_EQ, AReduce 36); (T_EQ_FZM, AReduce 36); (T_EQ_FZS, AReduce 36); (T_FDIV, AReduce 36); (T_FOR, AReduce 36); (T_GE, AReduce 36); (T_GT, AReduce 36); (T_IF, AReduce 36); (T_IN, AReduce 36); (T_LE, AReduce 36); (T_LPAREN, AShift 48); (T_LT, AReduce 36); (T_MOD, AReduce 36); (T_MUL, AReduce 36); (T_NE, AReduce 36); (T_NE_FZM, AReduce 36); (T_NE_FZS, AReduce 36); (T_NOT, AReduce 36); (T_OR, AReduce 36); (T_POW, AReduce 36); (T_QMARK, AReduce 36); (T_RBRACE, AReduce 36); (T_RBRACKET, AReduce 36); (T_RPAREN, AReduce 36); (T_SUB, AReduce 36); (T_TDIV, AReduce 36); (T_end, AReduce 36)]
  ; [(T_ADD, AShift 27); (T_AND, AReduce 34); (T_BWAND, AShift 29); (T_BWLSH, AShift 32); (T_BWOR, AShift 30); (T_BWRSH, AShift 33); (T_BWXOR, AShift 31); (T_COLON, AReduce 34); (T_COMMA, AReduce 34); (T_COMMENT, AReduce 34); (T_EQ, AShift 36); (T_EQ_FZM, AShift 42); (T_EQ_FZS, AShift 43); (T_FDIV, AShift 24); (T_FOR, AReduce 34); (T_GE, AShift 39); (T_GT, AShift 38); (T_IF, AReduce 34); (T_IN, AShift 34); (T_LE, AShift 41); (T_LPAREN, AShift 48); (T_LT, AShift 40); (T_MOD, AShift 22); (T_MUL, AShift 23); (T_NE, AShift 37); (T_NE_FZM, AShift 44); (T_NE_FZS, AShift 45); (T_NOT, AShift 35); (T_OR, AReduce 34); (T_POW, AShift 26); (T_QMARK, AShift 21); (T_RBRACE, AReduce 34); (T_RBRACKET, AReduce 34); (T_RPAREN, AReduce 34); (T_SUB, AShift 28); (T_TDIV, AShift 25); (T_end, AReduce 34)]
  ; [(T_ADD, AShift 27); (T_AND, AShift 46); (T_BWAND, AShift 29); (T_BWLSH, AShift 32); (T_BWOR, AShift 30); (T_BWRSH, AShift 33); (T_BWXOR, AShift 31); (T_EQ, AShift 36); (T_EQ_FZM, AShift 42); (T_EQ_FZS, AShift 43); (T_FDIV, AShift 24); (T_GE, AShift 39); (T_GT, AShift 38); (T_IN, AShift 34); (T_LE, AShift 41); (T_LPAREN, AShift 48); (T_LT, AShift 40); (T_MOD, AShift 22); (T_MUL, AShift 23); (T_NE, AShift 37); (T_NE_FZM, AShift 44); (T_NE_FZS, AShift 45); (T_NOT, AShift 35); (T_OR, AShift 47); (T_POW, AShift 26); (T_QMARK, AShift 21); (T_RPAREN, AShift 97); (T_SUB, AShift 28); (T_TDIV, AShift 25)]
  ; [(T_COMMA, AShift 99); (T_RBRACE, AShift 98)]
  ; [(T_ADD, AReduce 56); (T_AND, AReduce 56); (T_ATTR, AReduce 56); (T_ATTR_SAFE, AReduce 56); (T_BWAND, AReduce 56); (T_BWLSH, AReduce 56); (T_BWOR, AReduce 56); (T_BWRSH, AReduce 56); (T_BWXOR, AReduce 56); (T_COLON, AReduce 56); (T_COMMA, AReduce 56); (T_COMMENT, AReduce 56); (T_EQ, AReduce 56); (T_EQ_FZM, AReduce 56); (T_EQ_FZS, AReduce 56); (T_FDIV, AReduce 56); (T_FOR, AReduce 56); (T_GE, AReduce 56); (T_GT, AReduce 56); (T_IF, AReduce 56); (T_IN, AReduce 56); (T_LBRACKET, AReduce 56); (T_LE, AReduce 56); (T_LPAREN, AReduce 56); (T_LT, AReduce 56); (T_MOD, AReduce 56); (T_MUL, AReduce 56); (T_NE, AReduce 56); (T_NE_FZM, AReduce 56); (T_NE_FZS, AReduce 56); (T_NOT, AReduce 56); (T_OR, AReduce 56); (T_POW, AReduce 56); (T_QMARK, AReduce 56); (T_RBRACE, AReduce 56); (T_RBRACKET, AReduce 56); (T_RPAREN, AReduce 56); (T_SUB, AReduce 56); (T_TDIV, AReduce 56); (T_end, AReduce 56)]
  ; [(T_COMMA, AShift 101); (T_RBRACE, AShift 100)]
  ; [(T_ADD, AShift 27); (T_AND, AShift 46); (T_BWAND, AShift 29); (T_BWLSH, AShift 32); (T_BWOR, AShift 30); (T_BWRSH, AShift 33); (T_BWXOR, AShift 31); (T_COLON, AShift 102); (T_COMMA, AReduce 54); (T_EQ, AShift 36); (T_EQ_FZM, AShift 42); (T_EQ_FZS, AShift 43); (T_FDIV, AShift 24); (T_GE, AShift 39); (T_GT, AShift 38); (T_IN, AShift 34); (T_LE, AShift 41); (T_LPAREN, AShift 48); (T_LT, AShift 40); (T_MOD, AShift 22); (T_MUL, AShift 23); (T_NE, AShift 37); (T_NE_FZM, AShift 44); (T_NE_FZS, AShift 45); (T_NOT, AShift 35); (T_OR, AShift 47); (T_POW, AShift 26); (T_QMARK, AShift 21); (T_RBRACE, AReduce 54); (T_SUB, AShift 28); (T_TDIV, AShift 25)]
  ; [(T_COMMA, AReduce 60); (T_RBRACE, AReduce 60)]
  ; [(T_ADD, AReduce 49); (T_AND, AReduce 49); (T_ATTR, AReduce 49); (T_ATTR_SAFE, AReduce 49); (T_BWAND, AReduce 49); (T_BWLSH, AReduce 49); (T_BWOR, AReduce 49); (T_BWRSH, AReduce 49); (T_BWXOR, AReduce 49); (T_COLON, AReduce 49); (T_COMMA, AReduce 49); (T_COMMENT, AReduce 49); (T_EQ, AReduce 49); (T_EQ_FZM, AReduce 49); (T_EQ_FZS, AReduce 49); (T_FDIV, AReduce 49); (T_FOR, AReduce 49); (T_GE, AReduce 49); (T_GT, AReduce 49); (T_IF, AReduce 49); (T_IN, AReduce 49); (T_LBRACKET, AReduce 49); (T_LE, AReduce 49); (T_LPAREN, AReduce 49); (T_LT, AReduce 49); (T_MOD, AReduce 49); (T_MUL, AReduce 49); (T_NE, AReduce 49); (T_NE_FZM, AReduce 49); (T_NE_FZS, AReduce 49); (T_NOT, AReduce 49); (T_OR, AReduce 49); (T_POW, AReduce 49); (T_QMARK, AReduce 49); (T_RBRACE, AReduce 49); (T_RBRACKET, AReduce 49); (T_RPAREN, AReduce 49); (T_SUB, AReduce 49); (T_TDIV, AReduce 49); (T_end, AReduce 49)]
  ; [(T_COMMA, AShift 104); (T_RBRACKET, AShift 103)]
  ; [(T_ADD, AShift 27); (T_AND, AShift 46); (T_BWAND, AShift 29); (T_BWLSH, AShift 32); (T_BWOR, AShift 30); (T_BWRSH, AShift 33); (T_BWXOR, AShift 31); (T_COMMA, AReduce 54); (T_EQ, AShift 36); (T_EQ_FZM, AShift 42); (T_EQ_FZS, AShift 43); (T_FDIV, AShift 24); (T_FOR, AShift 105); (T_GE, AShift 39); (T_GT, AShift 38); (T_IN, AShift 34); (T_LE, AShift 41); (T_LPAREN, AShift 48); (T_LT, AShift 40); (T_MOD, AShift 22); (T_MUL, AShift 23); (T_NE, AShift 37); (T_NE_FZM, AShift 44); (T_NE_FZS, AShift 45); (T_NOT, AShift 35); (T_OR, AShift 47); (T_POW, AShift 26); (T_QMARK, AShift 21); (T_RBRACKET, AReduce 54); (T_SUB, AShift 28); (T_TDIV, AShift 25)]
  ; [(T_ADD, AShift 27); (T_AND, AShift 46); (T_BWAND, AShift 29); (T_BWLSH, AShift 32); (T_BWOR, AShift 30); (T_BWRSH, AShift 33); (T_BWXOR, AShift 31); (T_COLON, AShift 106); (T_EQ, AShift 36); (T_EQ_FZM, AShift 42); (T_EQ_FZS, AShift 43); (T_FDIV, AShift 24); (T_GE, AShift 39); (T_GT, AShift 38); (T_IN, AShift 34); (T_LE, AShift 41); (T_LPAREN, AShift 48); (T_LT, AShift 40); (T_MOD, AShift 22); (T_MUL, AShift 23); (T_NE, AShift 37); (T_NE_FZM, AShift 44); (T_NE_FZS, AShift 45); (T_NOT, AShift 35); (T_OR, AShift 47); (T_POW, AShift 26); (T_QMARK, AShift 21); (T_SUB, AShift 28); (T_TDIV, AShift 25)]
  ; [(T_ADD, AReduce 7); (T_AND, AReduce 7); (T_BWAND, AReduce 7); (T_BWLSH, AReduce 7); (T_BWOR, AReduce 7); (T_BWRSH, AReduce 7); (T_BWXOR, AReduce 7); (T_COLON, AReduce 7); (T_COMMA, AReduce 7); (T_COMMENT, AReduce 7); (T_EQ, AReduce 7); (T_EQ_FZM, AReduce 7); (T_EQ_FZS, AReduce 7); (T_FDIV, AReduce 7); (T_FOR, AReduce 7); (T_GE, AReduce 7); (T_GT, AReduce 7); (T_IF, AReduce 7); (T_IN, AReduce 7); (T_LE, AReduce 7); (T_LPAREN, AShift 48); (T_LT, AReduce 7); (T_MOD, AReduce 7); (T_MUL, AReduce 7); (T_NE, AReduce 7); (T_NE_FZM, AReduce 7); (T_NE_FZS, AReduce 7); (T_NOT, AReduce 7); (T_OR, AReduce 7); (T_POW, AShift 26); (T_QMARK, AReduce 7); (T_RBRACE, AReduce 7); (T_RBRACKET, AReduce 7); (T_RPAREN, AReduce 7); (T_SUB, AReduce 7); (T_TDIV, AReduce 7); (T_end, AReduce 7)]
  ; [(T_ADD, AReduce 8); (T_AND, AReduce 8); (T_BWAND, AReduce 8); (T_BWLSH, AReduce 8); (T_BWOR, AReduce 8); (T_BWRSH, AReduce 8); (T_BWXOR, AReduce 8); (T_COLON, AReduce 8); (T_COMMA, AReduce 8); (T_COMMENT, AReduce 8); (T_EQ, AReduce 8); (T_EQ_FZM, AReduce 8); (T_EQ_FZS, AReduce 8); (T_FDIV, AReduce 8); (T_FOR, AReduce 8); (T_GE, AReduce 8); (T_GT, AReduce 8); (T_IF, AReduce 8); (T_IN, AReduce 8); (T_LE, AReduce 8); (T_LPAREN, AShift 48); (T_LT, AReduce 8); (T_MOD, AReduce 8); (T_MUL, AReduce 8); (T_NE, AReduce 8); (T_NE_FZM, AReduce 8); (T_NE_FZS, AReduce 8); (T_NOT, AReduce 8); (T_OR, AReduce 8); (T_POW, AShift 26); (T_QMARK, AReduce 8); (T_RBRACE, AReduce 8); (T_RBRACKET, AReduce 8); (T_RPAREN, AReduce 8); (T_SUB, AReduce 8); (T_TDIV, AReduce 8); (T_end, AReduce 8)]
  ; [(T_ADD, AReduce 9); (T_AND, AReduce 9); (T_BWAND, AReduce 9); (T_BWLSH, AReduce 9); (T_BWOR, AReduce 9); (T_BWRSH, AReduce 9); (T_BWXOR, AReduce 9); (T_COLON, AReduce 9); (T_COMMA, AReduce 9); (T_COMMENT, AReduce 9); (T_EQ, AReduce 9); (T_EQ_FZM, AReduce 9); (T_EQ_FZS, AReduce 9); (T_FDIV, AReduce 9); (T_FOR, AReduce 9); (T_GE, AReduce 9); (T_GT, AReduce 9); (T_IF, AReduce 9); (T_IN, AReduce 9); (T_LE, AReduce 9); (T_LPAREN, AShift 48); (T_LT, AReduce 9); (T_MOD, AReduce 9); (T_MUL, AReduce 9); (T_NE, AReduce 9); (T_NE_FZM, AReduce 9); (T_NE_FZS, AReduce 9); (T_NOT, AReduce 9); (T_OR, AReduce 9); (T_POW, AShift 26); (T_QMARK, AReduce 9); (T_RBRACE, AReduce 9); (T_RBRACKET, AReduce 9); (T_RPAREN, AReduce 9); (T_SUB, AReduce 9); (T_TDIV, AReduce 9); (T_end, AReduce 9)]
  ; [(T_ADD, AReduce 10); (T_AND, AReduce 10); (T_BWAND, AReduce 10); (T_BWLSH, AReduce 10); (T_BWOR, AReduce 10); (T_BWRSH, AReduce 10); (T_BWXOR, AReduce 10); (T_COLON, AReduce 10); (T_COMMA, AReduce 10); (T_COMMENT, AReduce 10); (T_EQ, AReduce 10); (T_EQ_FZM, AReduce 10); (T_EQ_FZS, AReduce 10); (T_FDIV, AReduce 10); (T_FOR, AReduce 10); (T_GE, AReduce 10); (T_GT, AReduce 10); (T_IF, AReduce 10); (T_IN, AReduce 10); (T_LE, AReduce 10); (T_LPAREN, AShift 48); (T_LT, AReduce 10); (T_MOD, AReduce 10); (T_MUL, AReduce 10); (T_NE, AReduce 10); (T_NE_FZM, AReduce 10); (T_NE_FZS, AReduce 10); (T_NOT, AReduce 10); (T_OR, AReduce 10); (T_POW, AShift 26); (T_QMARK, AReduce 10); (T_RBRACE, AReduce 10); (T_RBRACKET, AReduce 10); (T_RPAREN, AReduce 10); (T_SUB, AReduce 10); (T_TDIV, AReduce 10); (T_end, AReduce 10)]
  ; [(T_ADD, AReduce 11); (T_AND, AReduce 11); (T_BWAND, AReduce 11); (T_BWLSH, AReduce 11); (T_BWOR, AReduce 11); (T_BWRSH, AReduce 11); (T_BWXOR, AReduce 11); (T_COLON, AReduce 11); (T_COMMA, AReduce 11); (T_COMMENT, AReduce 11); (T_EQ, AReduce 11); (T_EQ_FZM, AReduce 11); (T_EQ_FZS, AReduce 11); (T_FDIV, AReduce 11); (T_FOR, AReduce 11); (T_GE, AReduce 11); (T_GT, AReduce 11); (T_IF, AReduce 11); (T_IN, AReduce 11); (T_LE, AReduce 11); (T_LPAREN, AShift 48); (T_LT, AReduce 11); (T_MOD, AReduce 11); (T_MUL, AReduce 11); (T_NE, AReduce 11); (T_NE_FZM, AReduce 11); (T_NE_FZS, AReduce 11); (T_NOT, AReduce 11); (T_OR, AReduce 11); (T_POW, AReduce 11); (T_QMARK, AReduce 11); (T_RBRACE, AReduce 11); (T_RBRACKET, AReduce 11); (T_RPAREN, AReduce 11); (T_SUB, AReduce 11); (T_TDIV, AReduce 11); (T_end, AReduce 11)]
  ; [(T_ADD, AReduce 12); (T_AND, AReduce 12); (T_BWAND, AReduce 12); (T_BWLSH, AShift 32); (T_BWOR, AReduce 12); (T_BWRSH, AShift 33); (T_BWXOR, AReduce 12); (T_COLON, AReduce 12); (T_COMMA, AReduce 12); (T_COMMENT, AReduce 12); (T_EQ, AReduce 12); (T_EQ_FZM, AReduce 12); (T_EQ_FZS, AReduce 12); (T_FDIV, AShift 24); (T_FOR, AReduce 12); (T_GE, AReduce 12); (T_GT, AReduce 12); (T_IF, AReduce 12); (T_IN, AReduce 12); (T_LE, AReduce 12); (T_LPAREN, AShift 48); (T_LT, AReduce 12); (T_MOD, AShift 22); (T_MUL, AShift 23); (T_NE, AReduce 12); (T_NE_FZM, AReduce 12); (T_NE_FZS, AReduce 12); (T_NOT, AReduce 12); (T_OR, AReduce 12); (T_POW, AShift 26); (T_QMARK, AReduce 12); (T_RBRACE, AReduce 12); (T_RBRACKET, AReduce 12); (T_RPAREN, AReduce 12); (T_SUB, AReduce 12); (T_TDIV, AShift 25); (T_end, AReduce 12)]
  ; [(T_ADD, AReduce 13); (T_AND, AReduce 13); (T_BWAND, AReduce 13); (T_BWLSH, AShift 32); (T_BWOR, AReduce 13); (T_BWRSH, AShift 33); (T_BWXOR, AReduce 13); (T_COLON, AReduce 13); (T_COMMA, AReduce 13); (T_COMMENT, AReduce 13); (T_EQ, AReduce 13); (T_EQ_FZM, AReduce 13); (T_EQ_FZS, AReduce 13); (T_FDIV, AShift 24); (T_FOR, AReduce 13); (T_GE, AReduce 13); (T_GT, AReduce 13); (T_IF, AReduce 13); (T_IN, AReduce 13); (T_LE, AReduce 13); (T_LPAREN, AShift 48); (T_LT, AReduce 13); (T_MOD, AShift 22); (T_MUL, AShift 23); (T_NE, AReduce 13); (T_NE_FZM, AReduce 13); (T_NE_FZS, AReduce 13); (T_NOT, AReduce 13); (T_OR, AReduce 13); (T_POW, AShift 26); (T_QMARK, AReduce 13); (T_RBRACE, AReduce 13); (T_RBRACKET, AReduce 13); (T_RPAREN, AReduce 13); (T_SUB, AReduce 13); (T_TDIV, AShift 25); (T_end, AReduce 13)]
  ; [(T_ADD, AShift 27); (T_AND, AReduce 14); (T_BWAND, AReduce 14); (T_BWLSH, AShift 32); (T_BWOR, AReduce 14); (T_BWRSH, AShift 33); (T_BWXOR, AReduce 14); (T_COLON, AReduce 14); (T_COMMA, AReduce 14); (T_COMMENT, AReduce 14); (T_EQ, AShift 36); (T_EQ_FZM, AShift 42); (T_EQ_FZS, AShift 43); (T_FDIV, AShift 24); (T_FOR, AReduce 14); (T_GE, AShift 39); (T_GT, AShift 38); (T_IF, AReduce 14); (T_IN, AShift 34); (T_LE, AShift 41); (T_LPAREN, AShift 48); (T_LT, AShift 40); (T_MOD, AShift 22); (T_MUL, AShift 23); (T_NE, AShift 37); (T_NE_FZM, AShift 44); (T_NE_FZS, AShift 45); (T_NOT, AReduce 14); (T_OR, AReduce 14); (T_POW, AShift 26); (T_QMARK, AShift 21); (T_RBRACE, AReduce 14); (T_RBRACKET, AReduce 14); (T_RPAREN, AReduce 14); (T_SUB, AShift 28); (T_TDIV, AShift 25); (T_end, AReduce 14)]
  ; [(T_ADD, AShift 27); (T_AND, AReduce 15); (T_BWAND, AShift 29); (T_BWLSH, AShift 32); (T_BWOR, AReduce 15); (T_BWRSH, AShift 33); (T_BWXOR, AShift 31); (T_COLON, AReduce 15); (T_COMMA, AReduce 15); (T_COMMENT, AReduce 15); (T_EQ, AShift 36); (T_EQ_FZM, AShift 42); (T_EQ_FZS, AShift 43); (T_FDIV, AShift 24); (T_FOR, AReduce 15); (T_GE, AShift 39); (T_GT, AShift 38); (T_IF, AReduce 15); (T_IN, AShift 34); (T_LE, AShift 41); (T_LPAREN, AShift 48); (T_LT, AShift 40); (T_MOD, AShift 22); (T_MUL, AShift 23); (T_NE, AShift 37); (T_NE_FZM, AShift 44); (T_NE_FZS, AShift 45); (T_NOT, AReduce 15); (T_OR, AReduce 15); (T_POW, AShift 26); (T_QMARK, AShift 21); (T_RBRACE, AReduce 15); (T_RBRACKET, AReduce 15); (T_RPAREN, AReduce 15); (T_SUB, AShift 28); (T_TDIV, AShift 25); (T_end, AReduce 15)]
  ; [(T_ADD, AShift 27); (T_AND, AReduce 16); (T_BWAND, AShift 29); (T_BWLSH, AShift 32); (T_BWOR, AReduce 16); (T_BWRSH, AShift 33); (T_BWXOR, AReduce 16); (T_COLON, AReduce 16); (T_COMMA, AReduce 16); (T_COMMENT, AReduce 16); (T_EQ, AShift 36); (T_EQ_FZM, AShift 42); (T_EQ_FZS, AShift 43); (T_FDIV, AShift 24); (T_FOR, AReduce 16); (T_GE, AShift 39); (T_GT, AShift 38); (T_IF, AReduce 16); (T_IN, AShift 34); (T_LE, AShift 41); (T_LPAREN, AShift 48); (T_LT, AShift 40); (T_MOD, AShift 22); (T_MUL, AShift 23); (T_NE, AShift 37); (T_NE_FZM, AShift 44); (T_NE_FZS, AShift 45); (T_NOT, AReduce 16); (T_OR, AReduce 16); (T_POW, AShift 26); (T_QMARK, AShift 21); (T_RBRACE, AReduce 16); (T_RBRACKET, AReduce 16); (T_RPAREN, AReduce 16); (T_SUB, AShift 28); (T_TDIV, AShift 25); (T_end, AReduce 16)]
  ; [(T_ADD, AReduce 17); (T_AND, AReduce 17); (T_BWAND, AReduce 17); (T_BWLSH, AReduce 17); (T_BWOR, AReduce 17); (T_BWRSH, AReduce 17); (T_BWXOR, AReduce 17); (T_COLON, AReduce 17); (T_COMMA, AReduce 17); (T_COMMENT, AReduce 17); (T_EQ, AReduce 17); (T_EQ_FZM, AReduce 17); (T_EQ_FZS, AReduce 17); (T_FDIV, AShift 24); (T_FOR, AReduce 17); (T_GE, AReduce 17); (T_GT, AReduce 17); (T_IF, AReduce 17); (T_IN, AReduce 17); (T_LE, AReduce 17); (T_LPAREN, AShift 48); (T_LT, AReduce 17); (T_MOD, AShift 22); (T_MUL, AShift 23); (T_NE, AReduce 17); (T_NE_FZM, AReduce 17); (T_NE_FZS, AReduce 17); (T_NOT, AReduce 17); (T_OR, AReduce 17); (T_POW, AShift 26); (T_QMARK, AReduce 17); (T_RBRACE, AReduce 17); (T_RBRACKET, AReduce 17); (T_RPAREN, AReduce 17); (T_SUB, AReduce 17); (T_TDIV, AShift 25); (T_end, AReduce 17)]
  ; [(T_ADD, AReduce 18); (T_AND, AReduce 18); (T_BWAND, AReduce 18); (T_BWLSH, AReduce 18); (T_BWOR, AReduce 18); (T_BWRSH, AReduce 18); (T_BWXOR, AReduce 18); (T_COLON, AReduce 18); (T_COMMA, AReduce 18); (T_COMMENT, AReduce 18); (T_EQ, AReduce 18); (T_EQ_FZM, AReduce 18); (T_EQ_FZS, AReduce 18); (T_FDIV, AShift 24); (T_FOR, AReduce 18); (T_GE, AReduce 18); (T_GT, AReduce 18); (T_IF, AReduce 18); (T_IN, AReduce 18); (T_LE, AReduce 18); (T_LPAREN, AShift 48); (T_LT, AReduce 18); (T_MOD, AShift 22); (T_MUL, AShift 23); (T_NE, AReduce 18); (T_NE_FZM, AReduce 18); (T_NE_FZS, AReduce 18); (T_NOT, AReduce 18); (T_OR, AReduce 18); (T_POW, AShift 26); (T_QMARK, AReduce 18); (T_RBRACE, AReduce 18); (T_RBRACKET, AReduce 18); (T_RPAREN, AReduce 18); (T_SUB, AReduce 18); (T_TDIV, AShift 25); (T_end, AReduce 18)]
  ; [(T_ADD, AShift 27); (T_AND, AReduce 19); (T_BWAND, AReduce 19); (T_BWLSH, AShift 32); (T_BWOR, AReduce 19); (T_BWRSH, AShift 33); (T_BWXOR, AReduce 19); (T_COLON, AReduce 19); (T_COMMA, AReduce 19); (T_COMMENT, AReduce 19); (T_EQ, AErr); (T_EQ_FZM, AErr); (T_EQ_FZS, AErr); (T_FDIV, AShift 24); (T_FOR, AReduce 19); (T_GE, AErr); (T_GT, AErr); (T_IF, AReduce 19); (T_IN, AErr); (T_LE, AErr); (T_LPAREN, AShift 48); (T_LT, AErr); (T_MOD, AShift 22); (T_MUL, AShift 23); (T_NE, AErr); (T_NE_FZM, AErr); (T_NE_FZS, AErr); (T_NOT, AReduce 19); (T_OR, AReduce 19); (T_POW, AShift 26); (T_QMARK, AReduce 19); (T_RBRACE, AReduce 19); (T_RBRACKET, AReduce 19); (T_RPAREN, AReduce 19); (T_SUB, AShift 28); (T_TDIV, AShift 25); (T_end, AReduce 19)]
  ; [(T_BYTES, AShift 13); (T_DATETIME, AShift 14); (T_FALSE, AShift 7); (T_FLOAT, AShift 8); (T_FLOAT_INF, AShift 10); (T_FLOAT_NAN, AShift 9); (T_LBRACE, AShift 17); (T_LBRACKET, AShift 19); (T_LPAREN, AShift 12); (T_NOT, AShift 5); (T_NULL, AShift 16); (T_STRING, AShift 18); (T_SUB, AShift 4); (T_SYMBOL, AShift 11); (T_TIMEDELTA, AShift 15); (T_TRUE, AShift 6)]
  ; [(T_ADD, AShift 27); (T_AND, AReduce 21); (T_BWAND, AReduce 21); (T_BWLSH, AShift 32); (T_BWOR, AReduce 21); (T_BWRSH, AShift 33); (T_BWXOR, AReduce 21); (T_COLON, AReduce 21); (T_COMMA, AReduce 21); (T_COMMENT, AReduce 21); (T_EQ, AErr); (T_EQ_FZM, AErr); (T_EQ_FZS, AErr); (T_FDIV, AShift 24); (T_FOR, AReduce 21); (T_GE, AErr); (T_GT, AErr); (T_IF, AReduce 21); (T_IN, AErr); (T_LE, AErr); (T_LPAREN, AShift 48); (T_LT, AErr); (T_MOD, AShift 22); (T_MUL, AShift 23); (T_NE, AErr); (T_NE_FZM, AErr); (T_NE_FZS, AErr); (T_NOT, AReduce 21); (T_OR, AReduce 21); (T_POW, AShift 26); (T_QMARK, AReduce 21); (T_RBRACE, AReduce 21); (T_RBRACKET, AReduce 21); (T_RPAREN, AReduce 21); (T_SUB, AShift 28); (T_TDIV, AShift 25); (T_end, AReduce 21)]
  ; [(T_ADD, AShift 27); (T_AND, AReduce 22); (T_BWAND, AReduce 22); (T_BWLSH, AShift 32); (T_BWOR, AReduce 22); (T_BWRSH, AShift 33); (T_BWXOR, AReduce 22); (T_COLON, AReduce 22); (T_COMMA, AReduce 22); (T_COMMENT, AReduce 22); (T_EQ, AErr); (T_EQ_FZM, AErr); (T_EQ_FZS, AErr); (T_FDIV, AShift 24); (T_FOR, AReduce 22); (T_GE, AErr); (T_GT, AErr); (T_IF, AReduce 22); (T_IN, AErr); (T_LE, AErr); (T_LPAREN, AShift 48); (T_LT, AErr); (T_MOD, AShift 22); (T_MUL, AShift 23); (T_NE, AErr); (T_NE_FZM, AErr); (T_NE_FZS, AErr); (T_NOT, AReduce 22); (T_OR, AReduce 22); (T_POW, AShift 26); (T_QMARK, AReduce 22); (T_RBRACE, AReduce 22); (T_RBRACKET, AReduce 22); (T_RPAREN, AReduce 22); (T_SUB, AShift 28); (T_TDIV, AShift 25); (T_end, AReduce 22)]
  ; [(T_ADD, AShift 27); (T_AND, AReduce 23); (T_BWAND, AReduce 23); (T_BWLSH, AShift 32); (T_BWOR, AReduce 23); (T_BWRSH, AShift 33); (T_BWXOR, AReduce 23); (T_COLON, AReduce 23); (T_COMMA, AReduce 23); (T_COMMENT, AReduce 23); (T_EQ, AErr); (T_EQ_FZM, AErr); (T_EQ_FZS, AErr); (T_FDIV, AShift 24); (T_FOR, AReduce 23); (T_GE, AErr); (T_GT, AErr); (T_IF, AReduce 23); (T_IN, AErr); (T_LE, AErr); (T_LPAREN, AShift 48); (T_LT, AErr); (T_MOD, AShift 22); (T_MUL, AShift 23); (T_NE, AErr); (T_NE_FZM, AErr); (T_NE_FZS, AErr); (T_NOT, AReduce 23); (T_OR, AReduce 23); (T_POW, AShift 26); (T_QMARK, AReduce 23); (T_RBRACE, AReduce 23); (T_RBRACKET, AReduce 23); (T_RPAREN, AReduce 23); (T_SUB, AShift 28); (T_TDIV, AShift 25); (T_end, AReduce 23)]
  ; [(T_ADD, AShift 27); (T_AND, AReduce 24); (T_BWAND, AReduce 24); (T_BWLSH, AShift 32); (T_BWOR, AReduce 24); (T_BWRSH, AShift 33); (T_BWXOR, AReduce 24); (T_COLON, AReduce 24); (T_COMMA, AReduce 24); (T_COMMENT, AReduce 24); (T_EQ, AErr); (T_EQ_FZM, AErr); (T_EQ_FZS, AErr); (T_FDIV, AShift 24); (T_FOR, AReduce 24); (T_GE, AErr); (T_GT, AErr); (T_IF, AReduce 24); (T_IN, AErr); (T_LE, AErr); (T_LPAREN, AShift 48); (T_LT, AErr); (T_MOD, AShift 22); (T_MUL, AShift 23); (T_NE, AErr); (T_NE_FZM, AErr); (T_NE_FZS, AErr); (T_NOT, AReduce 24); (T_OR, AReduce 24); (T_POW, AShift 26); (T_QMARK, AReduce 24); (T_RBRACE, AReduce 24); (T_RBRACKET, AReduce 24); (T_RPAREN, AReduce 24); (T_SUB, AShift 28); (T_TDIV, AShift 25); (T_end, AReduce 24)]
  ; [(T_ADD, AShift 27); (T_AND, AReduce 25); (T_BWAND, AReduce 25); (T_BWLSH, AShift 32); (T_BWOR, AReduce 25); (T_BWRSH, AShift 33); (T_BWXOR, AReduce 25); (T_COLON, AReduce 25); (T_COMMA, AReduce 25); (T_COMMENT, AReduce 25); (T_EQ, AErr); (T_EQ_FZM, AErr); (T_EQ_FZS, AErr); (T_FDIV, AShift 24); (T_FOR, AReduce 25); (T_GE, AErr); (T_GT, AErr); (T_IF, AReduce 25); (T_IN, AErr); (T_LE, AErr); (T_LPAREN, AShift 48); (T_LT, AErr); (T_MOD, AShift 22); (T_MUL, AShift 23); (T_NE, AErr); (T_NE_FZM, AErr); (T_NE_FZS, AErr); (T_NOT, AReduce 25); (T_OR, AReduce 25); (T_POW, AShift 26); (T_QMARK, AReduce 25); (T_RBRACE, AReduce 25); (T_RBRACKET, AReduce 25); (T_RPAREN, AReduce 25); (T_SUB, AShift 28); (T_TDIV, AShift 25); (T_end, AReduce 25)]
  ; [(T_ADD, AShift 27); (T_AND, AReduce 26); (T_BWAND, AReduce 26); (T_BWLSH, AShift 32); (T_BWOR, AReduce 26); (T_BWRSH, AShift 33); (T_BWXOR, AReduce 26); (T_COLON, AReduce 26); (T_COMMA, AReduce 26); (T_COMMENT, AReduce 26); (T_EQ, AErr); (T_EQ_FZM, AErr); (T_EQ_FZS, AErr); (T_FDIV, AShift 24); (T_FOR, AReduce 26); (T_GE, AErr); (T_GT, AErr); (T_IF, AReduce 26); (T_IN, AErr); (T_LE, AErr); (T_LPAREN, AShift 48); (T_LT, AErr); (T_MOD, AShift 22); (T_MUL, AShift 23); (T_NE, AErr); (T_NE_FZM, AErr); (T_NE_FZS, AErr); (T_NOT, AReduce 26); (T_OR, AReduce 26); (T_POW, AShift 26); (T_QMARK, AReduce 26); (T_RBRACE, AReduce 26); (T_RBRACKET, AReduce 26); (T_RPAREN, AReduce 26); (T_SUB, AShift 28); (T_TDIV, AShift 25); (T_end, AReduce 26)]
  ; [(T_ADD, AShift 27); (T_AND, AReduce 27); (T_BWAND, AReduce 27); (T_BWLSH, AShift 32); (T_BWOR, AReduce 27); (T_BWRSH, AShift 33); (T_BWXOR, AReduce 27); (T_COLON, AReduce 27); (T_COMMA, AReduce 27); (T_COMMENT, AReduce 27); (T_EQ, AErr); (T_EQ_FZM, AErr); (T_EQ_FZS, AErr); (T_FDIV, AShift 24); (T_FOR, AReduce 27); (T_GE, AErr); (T_GT, AErr); (T_IF, AReduce 27); (T_IN, AErr); (T_LE, AErr); (T_LPAREN, AShift 48); (T_LT, AErr); (T_MOD, AShift 22); (T_MUL, AShift 23); (T_NE, AErr); (T_NE_FZM, AErr); (T_NE_FZS, AErr); (T_NOT, AReduce 27); (T_OR, AReduce 27); (T_POW, AShift 26); (T_QMARK, AReduce 27); (T_RBRACE, AReduce 27); (T_RBRACKET, AReduce 27); (T_RPAREN, AReduce 27); (T_SUB, AShift 28); (T_TDIV, AShift 25); (T_end, AReduce 27)]
  ; [(T_ADD, AShift 27); (T_AND, AReduce 28); (T_BWAND, AReduce 28); (T_BWLSH, AShift 32); (T_BWOR, AReduce 28); (T_BWRSH, AShift 33); (T_BWXOR, AReduce 28); (T_COLON, AReduce 28); (T_COMMA, AReduce 28); (T_COMMENT, AReduce 28); (T_EQ, AErr); (T_EQ_FZM, AErr); (T_EQ_FZS, AErr); (T_FDIV, AShift 24); (T_FOR, AReduce 28); (T_GE, AErr); (T_GT, AErr); (T_IF, AReduce 28); (T_IN, AErr); (T_LE, AErr); (T_LPAREN, AShift 48); (T_LT, AErr); (T_MOD, AShift 22); (T_MUL, AShift 23); (T_NE, AErr); (T_NE_FZM, AErr); (T_NE_FZS, AErr); (T_NOT, AReduce 28); (T_OR, AReduce 28); (T_POW, AShift 26); (T_QMARK, AReduce 28); (T_RBRACE, AReduce 28); (T_RBRACKET, AReduce 28); (T_RPAREN, AReduce 28); (T_SUB, AShift 28); (T_TDIV, AShift 25); (T_end, AReduce 28)]
  ; [(T_ADD, AShift 27); (T_AND, AReduce 29); (T_BWAND, AReduce 29); (T_BWLSH, AShift 32); (T_BWOR, AReduce 29); (T_BWRSH, AShift 33); (T_BWXOR, AReduce 29); (T_COLON, AReduce 29); (T_COMMA, AReduce 29); (T_COMMENT, AReduce 29); (T_EQ, AErr); (T_EQ_FZM, AErr); (T_EQ_FZS, AErr); (T_FDIV, AShift 24); (T_FOR, AReduce 29); (T_GE, AErr); (T_GT, AErr); (T_IF, AReduce 29); (T_IN, AErr); (T_LE, AErr); (T_LPAREN, AShift 48); (T_LT, AErr); (T_MOD, AShift 22); (T_MUL, AShift 23); (T_NE, AErr); (T_NE_FZM, AErr); (T_NE_FZS, AErr); (T_NOT, AReduce 29); (T_OR, AReduce 29); (T_POW, AShift 26); (T_QMARK, AReduce 29); (T_RBRACE, AReduce 29); (T_RBRACKET, AReduce 29); (T_RPAREN, AReduce 29); (T_SUB, AShift 28); (T_TDIV, AShift 25); (T_end, AReduce 29)]
  ; [(T_ADD, AShift 27); (T_AND, AReduce 30); (T_BWAND, AReduce 30); (T_BWLSH, AShift 32); (T_BWOR, AReduce 30); (T_BWRSH, AShift 33); (T_BWXOR, AReduce 30); (T_COLON, AReduce 30); (T_COMMA, AReduce 30); (T_COMMENT, AReduce 30); (T_EQ, AErr); (T_EQ_FZM, AErr); (T_EQ_FZS, AErr); (T_FDIV, AShift 24); (T_FOR, AReduce 30); (T_GE, AErr); (T_GT, AErr); (T_IF, AReduce 30); (T_IN, AErr); (T_LE, AErr); (T_LPAREN, AShift 48); (T_LT, AErr); (T_MOD, AShift 22); (T_MUL, AShift 23); (T_NE, AErr); (T_NE_FZM, AErr); (T_NE_FZS, AErr); (T_NOT, AReduce 30); (T_OR, AReduce 30); (T_POW, AShift 26); (T_QMARK, AReduce 30); (T_RBRACE, AReduce 30); (T_RBRACKET, AReduce 30); (T_RPAREN, AReduce 30); (T_SUB, AShift 28); (T_TDIV, AShift 25); (T_end, AReduce 30)]
  ; [(T_ADD, AShift 27); (T_AND, AReduce 31); (T_BWAND, AShift 29); (T_BWLSH, AShift 32); (T_BWOR, AShift 30); (T_BWRSH, AShift 33); (T_BWXOR, AShift 31); (T_COLON, AReduce 31); (T_COMMA, AReduce 31); (T_COMMENT, AReduce 31); (T_EQ, AShift 36); (T_EQ_FZM, AShift 42); (T_EQ_FZS, AShift 43); (T_FDIV, AShift 24); (T_FOR, AReduce 31); (T_GE, AShift 39); (T_GT, AShift 38); (T_IF, AReduce 31); (T_IN, AShift 34); (T_LE, AShift 41); (T_LPAREN, AShift 48); (T_LT, AShift 40); (T_MOD, AShift 22); (T_MUL, AShift 23); (T_NE, AShift 37); (T_NE_FZM, AShift 44); (T_NE_FZS, AShift 45); (T_NOT, AShift 35); (T_OR, AReduce 31); (T_POW, AShift 26); (T_QMARK, AShift 21); (T_RBRACE, AReduce 31); (T_RBRACKET, AReduce 31); (T_RPAREN, AReduce 31); (T_SUB, AShift 28); (T_TDIV, AShift 25); (T_end, AReduce 31)]
  ; [(T_ADD, AShift 27); (T_AND, AShift 46); (T_BWAND, AShift 29); (T_BWLSH, AShift 32); (T_BWOR, AShift 30); (T_BWRSH, AShift 33); (T_BWXOR, AShift 31); (T_COLON, AReduce 32); (T_COMMA, AReduce 32); (T_COMMENT, AReduce 32); (T_EQ, AShift 36); (T_EQ_FZM, AShift 42); (T_EQ_FZS, AShift 43); (T_FDIV, AShift 24); (T_FOR, AReduce 32); (T_GE, AShift 39); (T_GT, AShift 38); (T_IF, AReduce 32); (T_IN, AShift 34); (T_LE, AShift 41); (T_LPAREN, AShift 48); (T_LT, AShift 40); (T_MOD, AShift 22); (T_MUL, AShift 23); (T_NE, AShift 37); (T_NE_FZM, AShift 44); (T_NE_FZS, AShift 45); (T_NOT, AShift 35); (T_OR, AReduce 32); (T_POW, AShift 26); (T_QMARK, AShift 21); (T_RBRACE, AReduce 32); (T_RBRACKET, AReduce 32); (T_RPAREN, AReduce 32); (T_SUB, AShift 28); (T_TDIV, AShift 25); (T_end, AReduce 32)]
  ; [(T_ADD, AShift 27); (T_AND, AShift 46); (T_BWAND, AShift 29); (T_BWLSH, AShift 32); (T_BWOR, AShift 30); (T_BWRSH, AShift 33); (T_BWXOR, AShift 31); (T_COMMA, AReduce 54); (T_EQ, AShift 36); (T_EQ_FZM, AShift 42); (T_EQ_FZS, AShift 43); (T_FDIV, AShift 24); (T_GE, AShift 39); (T_GT, AShift 38); (T_IN, AShift 34); (T_LE, AShift 41); (T_LPAREN, AShift 48); (T_LT, AShift 40); (T_MOD, AShift 22); (T_MUL, AShift 23); (T_NE, AShift 37); (T_NE_FZM, AShift 44); (T_NE_FZS, AShift 45); (T_NOT, AShift 35); (T_OR, AShift 47); (T_POW, AShift 26); (T_QMARK, AShift 21); (T_RPAREN, AReduce 54); (T_SUB, AShift 28); (T_TDIV, AShift 25)]
  ; [(T_ADD, AReduce 67); (T_AND, AReduce 67); (T_ATTR, AReduce 67); (T_ATTR_SAFE, AReduce 67); (T_BWAND, AReduce 67); (T_BWLSH, AReduce 67); (T_BWOR, AReduce 67); (T_BWRSH, AReduce 67); (T_BWXOR, AReduce 67); (T_COLON, AReduce 67); (T_COMMA, AReduce 67); (T_COMMENT, AReduce 67); (T_EQ, AReduce 67); (T_EQ_FZM, AReduce 67); (T_EQ_FZS, AReduce 67); (T_FDIV, AReduce 67); (T_FOR, AReduce 67); (T_GE, AReduce 67); (T_GT, AReduce 67); (T_IF, AReduce 67); (T_IN, AReduce 67); (T_LBRACKET, AReduce 67); (T_LE, AReduce 67); (T_LPAREN, AReduce 67); (T_LT, AReduce 67); (T_MOD, AReduce 67); (T_MUL, AReduce 67); (T_NE, AReduce 67); (T_NE_FZM, AReduce 67); (T_NE_FZS, AReduce 67); (T_NOT, AReduce 67); (T_OR, AReduce 67); (T_POW, AReduce 67); (T_QMARK, AReduce 67); (T_RBRACE, AReduce 67); (T_RBRACKET, AReduce 67); (T_RPAREN, AReduce 67); (T_SUB, AReduce 67); (T_TDIV, AReduce 67); (T_end, AReduce 67)]
  ; [(T_COMMA, AShift 109); (T_RPAREN, AShift 108)]
  ; [(T_ADD, AReduce 3); (T_AND, AReduce 3); (T_ATTR, AReduce 3); (T_ATTR_SAFE, AReduce 3); (T_BWAND, AReduce 3); (T_BWLSH, AReduce 3); (T_BWOR, AReduce 3); (T_BWRSH, AReduce 3); (T_BWXOR, AReduce 3); (T_COLON, AReduce 3); (T_COMMA, AReduce 3); (T_COMMENT, AReduce 3); (T_EQ, AReduce 3); (T_EQ_FZM, AReduce 3); (T_EQ_FZS, AReduce 3); (T_FDIV, AReduce 3); (T_FOR, AReduce 3); (T_GE, AReduce 3); (T_GT, AReduce 3); (T_IF, AReduce 3); (T_IN, AReduce 3); (T_LBRACKET, AReduce 3); (T_LE, AReduce 3); (T_LPAREN, AReduce 3); (T_LT, AReduce 3); (T_MOD, AReduce 3); (T_MUL, AReduce 3); (T_NE, AReduce 3); (T_NE_FZM, AReduce 3); (T_NE_FZS, AReduce 3); (T_NOT, AReduce 3); (T_OR, AReduce 3); (T_POW, AReduce 3); (T_QMARK, AReduce 3); (T_RBRACE, AReduce 3); (T_RBRACKET, AReduce 3); (T_RPAREN, AReduce 3); (T_SUB, AReduce 3); (T_TDIV, AReduce 3); (T_end, AReduce 3)]
  ; [(T_ADD, AReduce 4); (T_AND, AReduce 4); (T_ATTR, AReduce 4); (T_ATTR_SAFE, AReduce 4); (T_BWAND, AReduce 4); (T_BWLSH, AReduce 4); (T_BWOR, AReduce 4); (T_BWRSH, AReduce 4); (T_BWXOR, AReduce 4); (T_COLON, AReduce 4); (T_COMMA, AReduce 4); (T_COMMENT, AReduce 4); (T_EQ, AReduce 4); (T_EQ_FZM, AReduce 4); (T_EQ_FZS, AReduce 4); (T_FDIV, AReduce 4); (T_FOR, AReduce 4); (T_GE, AReduce 4); (T_GT, AReduce 4); (T_IF, AReduce 4); (T_IN, AReduce 4); (T_LBRACKET, AReduce 4); (T_LE, AReduce 4); (T_LPAREN, AReduce 4); (T_LT, AReduce 4); (T_MOD, AReduce 4); (T_MUL, AReduce 4); (T_NE, AReduce 4); (T_NE_FZM, AReduce 4); (T_NE_FZS, AReduce 4); (T_NOT, AReduce 4); (T_OR, AReduce 4); (T_POW, AReduce 4); (T_QMARK, AReduce 4); (T_RBRACE, AReduce 4); (T_RBRACKET, AReduce 4); (T_RPAREN, AReduce 4); (T_SUB, AReduce 4); (T_TDIV, AReduce 4); (T_end, AReduce 4)]
  ; [(T_ADD, AShift 27); (T_AND, AShift 46); (T_BWAND, AShift 29); (T_BWLSH, AShift 32); (T_BWOR, AShift 30); (T_BWRSH, AShift 33); (T_BWXOR, AShift 31); (T_COLON, AShift 111); (T_EQ, AShift 36); (T_EQ_FZM, AShift 42); (T_EQ_FZS, AShift 43); (T_FDIV, AShift 24); (T_GE, AShift 39); (T_GT, AShift 38); (T_IN, AShift 34); (T_LE, AShift 41); (T_LPAREN, AShift 48); (T_LT, AShift 40); (T_MOD, AShift 22); (T_MUL, AShift 23); (T_NE, AShift 37); (T_NE_FZM, AShift 44); (T_NE_FZS, AShift 45); (T_NOT, AShift 35); (T_OR, AShift 47); (T_POW, AShift 26); (T_QMARK, AShift 21); (T_RBRACKET, AShift 110); (T_SUB, AShift 28); (T_TDIV, AShift 25)]
  ; [(T_BYTES, AShift 13); (T_DATETIME, AShift 14); (T_FALSE, AShift 7); (T_FLOAT, AShift 8); (T_FLOAT_INF, AShift 10); (T_FLOAT_NAN, AShift 9); (T_LBRACE, AShift 17); (T_LBRACKET, AShift 19); (T_LPAREN, AShift 12); (T_NOT, AShift 5); (T_NULL, AShift 16); (T_RBRACKET, AShift 112); (T_STRING, AShift 18); (T_SUB, AShift 4); (T_SYMBOL, AShift 11); (T_TIMEDELTA, AShift 15); (T_TRUE, AShift 6)]
  ; [(T_ADD, AReduce 33); (T_AND, AReduce 33); (T_ATTR, AReduce 33); (T_ATTR_SAFE, AReduce 33); (T_BWAND, AReduce 33); (T_BWLSH, AReduce 33); (T_BWOR, AReduce 33); (T_BWRSH, AReduce 33); (T_BWXOR, AReduce 33); (T_COLON, AReduce 33); (T_COMMA, AReduce 33); (T_COMMENT, AReduce 33); (T_EQ, AReduce 33); (T_EQ_FZM, AReduce 33); (T_EQ_FZS, AReduce 33); (T_FDIV, AReduce 33); (T_FOR, AReduce 33); (T_GE, AReduce 33); (T_GT, AReduce 33); (T_IF, AReduce 33); (T_IN, AReduce 33); (T_LBRACKET, AReduce 33); (T_LE, AReduce 33); (T_LPAREN, AReduce 33); (T_LT, AReduce 33); (T_MOD, AReduce 33); (T_MUL, AReduce 33); (T_NE, AReduce 33); (T_NE_FZM, AReduce 33); (T_NE_FZS, AReduce 33); (T_NOT, AReduce 33); (T_OR, AReduce 33); (T_POW, AReduce 33); (T_QMARK, AReduce 33); (T_RBRACE, AReduce 33); (T_RBRACKET, AReduce 33); (T_RPAREN, AReduce 33); (T_SUB, AReduce 33); (T_TDIV, AReduce 33); (T_end, AReduce 33)]
  ; [(T_ADD, AReduce 46); (T_AND, AReduce 46); (T_ATTR, AReduce 46); (T_ATTR_SAFE, AReduce 46); (T_BWAND, AReduce 46); (T_BWLSH, AReduce 46); (T_BWOR, AReduce 46); (T_BWRSH, AReduce 46); (T_BWXOR, AReduce 46); (T_COLON, AReduce 46); (T_COMMA, AReduce 46); (T_COMMENT, AReduce 46); (T_EQ, AReduce 46); (T_EQ_FZM, AReduce 46); (T_EQ_FZS, AReduce 46); (T_FDIV, AReduce 46); (T_FOR, AReduce 46); (T_GE, AReduce 46); (T_GT, AReduce 46); (T_IF, AReduce 46); (T_IN, AReduce 46); (T_LBRACKET, AReduce 46); (T_LE, AReduce 46); (T_LPAREN, AReduce 46); (T_LT, AReduce 46); (T_MOD, AReduce 46); (T_MUL, AReduce 46); (T_NE, AReduce 46); (T_NE_FZM, AReduce 46); (T_NE_FZS, AReduce 46); (T_NOT, AReduce 46); (T_OR, AReduce 46); (T_POW, AReduce 46); (T_QMARK, AReduce 46); (T_RBRACE, AReduce 46); (T_RBRACKET, AReduce 46); (T_RPAREN, AReduce 46); (T_SUB, AReduce 46); (T_TDIV, AReduce 46); (T_end, AReduce 46)]
  ; [(T_BYTES, AShift 13); (T_DATETIME, AShift 14); (T_FALSE, AShift 7); (T_FLOAT, AShift 8); (T_FLOAT_INF, AShift 10); (T_FLOAT_NAN, AShift 9); (T_LBRACE, AShift 17); (T_LBRACKET, AShift 19); (T_LPAREN, AShift 12); (T_NOT, AShift 5); (T_NULL, AShift 16); (T_RBRACE, AShift 114); (T_STRING, AShift 18); (T_SUB, AShift 4); (T_SYMBOL, AShift 11); (T_TIMEDELTA, AShift 15); (T_TRUE, AShift 6)]
  ; [(T_ADD, AReduce 57); (T_AND, AReduce 57); (T_ATTR, AReduce 57); (T_ATTR_SAFE, AReduce 57); (T_BWAND, AReduce 57); (T_BWLSH, AReduce 57); (T_BWOR, AReduce 57); (T_BWRSH, AReduce 57); (T_BWXOR, AReduce 57); (T_COLON, AReduce 57); (T_COMMA, AReduce 57); (T_COMMENT, AReduce 57); (T_EQ, AReduce 57); (T_EQ_FZM, AReduce 57); (T_EQ_FZS, AReduce 57); (T_FDIV, AReduce 57); (T_FOR, AReduce 57); (T_GE, AReduce 57); (T_GT, AReduce 57); (T_IF, AReduce 57); (T_IN, AReduce 57); (T_LBRACKET, AReduce 57); (T_LE, AReduce 57); (T_LPAREN, AReduce 57); (T_LT, AReduce 57); (T_MOD, AReduce 57); (T_MUL, AReduce 57); (T_NE, AReduce 57); (T_NE_FZM, AReduce 57); (T_NE_FZS, AReduce 57); (T_NOT, AReduce 57); (T_OR, AReduce 57); (T_POW, AReduce 57); (T_QMARK, AReduce 57); (T_RBRACE, AReduce 57); (T_RBRACKET, AReduce 57); (T_RPAREN, AReduce 57); (T_SUB, AReduce 57); (T_TDIV, AReduce 57); (T_end, AReduce 57)]
  ; [(T_BYTES, AShift 13); (T_DATETIME, AShift 14); (T_FALSE, AShift 7); (T_FLOAT, AShift 8); (T_FLOAT_INF, AShift 10); (T_FLOAT_NAN, AShift 9); (T_LBRACE, AShift 17); (T_LBRACKET, AShift 19); (T_LPAREN, AShift 12); (T_NOT, AShift 5); (T_NULL, AShift 16); (T_RBRACE, AShift 116); (T_STRING, AShift 18); (T_SUB, AShift 4); (T_SYMBOL, AShift 11); (T_TIMEDELTA, AShift 15); (T_TRUE, AShift 6)]
  ; [(T_BYTES, AShift 13); (T_DATETIME, AShift 14); (T_FALSE, AShift 7); (T_FLOAT, AShift 8); (T_FLOAT_INF, AShift 10); (T_FLOAT_NAN, AShift 9); (T_LBRACE, AShift 17); (T_LBRACKET, AShift 19); (T_LPAREN, AShift 12); (T_NOT, AShift 5); (T_NULL, AShift 16); (T_STRING, AShift 18); (T_SUB, AShift 4); (T_SYMBOL, AShift 11); (T_TIMEDELTA, AShift 15); (T_TRUE, AShift 6)]
  ; [(T_ADD, AReduce 50); (T_AND, AReduce 50); (T_ATTR, AReduce 50); (T_ATTR_SAFE, AReduce 50); (T_BWAND, AReduce 50); (T_BWLSH, AReduce 50); (T_BWOR, AReduce 50); (T_BWRSH, AReduce 50); (T_BWXOR, AReduce 50); (T_COLON, AReduce 50); (T_COMMA, AReduce 50); (T_COMMENT, AReduce 50); (T_EQ, AReduce 50); (T_EQ_FZM, AReduce 50); (T_EQ_FZS, AReduce 50); (T_FDIV, AReduce 50); (T_FOR, AReduce 50); (T_GE, AReduce 50); (T_GT, AReduce 50); (T_IF, AReduce 50); (T_IN, AReduce 50); (T_LBRACKET, AReduce 50); (T_LE, AReduce 50); (T_LPAREN, AReduce 50); (T_LT, AReduce 50); (T_MOD, AReduce 50); (T_MUL, AReduce 50); (T_NE, AReduce 50); (T_NE_FZM, AReduce 50); (T_NE_FZS, AReduce 50); (T_NOT, AReduce 50); (T_OR, AReduce 50); (T_POW, AReduce 50); (T_QMARK, AReduce 50); (T_RBRACE, AReduce 50); (T_RBRACKET, AReduce 50); (T_RPAREN, AReduce 50); (T_SUB, AReduce 50); (T_TDIV, AReduce 50); (T_end, AReduce 50)]
  ; [(T_BYTES, AShift 13); (T_DATETIME, AShift 14); (T_FALSE, AShift 7); (T_FLOAT, AShift 8); (T_FLOAT_INF, AShift 10); (T_FLOAT_NAN, AShift 9); (T_LBRACE, AShift 17); (T_LBRACKET, AShift 19); (T_LPAREN, AShift 12); (T_NOT, AShift 5); (T_NULL, AShift 16); (T_RBRACKET, AShift 120); (T_STRING, AShift 18); (T_SUB, AShift 4); (T_SYMBOL, AShift 11); (T_TIMEDELTA, AShift 15); (T_TRUE, AShift 6)]
  ; [(T_SYMBOL, AShift 121)]
  ; [(T_BYTES, AShift 13); (T_DATETIME, AShift 14); (T_FALSE, AShift 7); (T_FLOAT, AShift 8); (T_FLOAT_INF, AShift 10); (T_FLOAT_NAN, AShift 9); (T_LBRACE, AShift 17); (T_LBRACKET, AShift 19); (T_LPAREN, AShift 12); (T_NOT, AShift 5); (T_NULL, AShift 16); (T_STRING, AShift 18); (T_SUB, AShift 4); (T_SYMBOL, AShift 11); (T_TIMEDELTA, AShift 15); (T_TRUE, AShift 6)]
  ; [(T_ADD, AShift 27); (T_AND, AReduce 20); (T_BWAND, AReduce 20); (T_BWLSH, AShift 32); (T_BWOR, AReduce 20); (T_BWRSH, AShift 33); (T_BWXOR, AReduce 20); (T_COLON, AReduce 20); (T_COMMA, AReduce 20); (T_COMMENT, AReduce 20); (T_EQ, AErr); (T_EQ_FZM, AErr); (T_EQ_FZS, AErr); (T_FDIV, AShift 24); (T_FOR, AReduce 20); (T_GE, AErr); (T_GT, AErr); (T_IF, AReduce 20); (T_IN, AErr); (T_LE, AErr); (T_LPAREN, AShift 48); (T_LT, AErr); (T_MOD, AShift 22); (T_MUL, AShift 23); (T_NE, AErr); (T_NE_FZM, AErr); (T_NE_FZS, AErr); (T_NOT, AReduce 20); (T_OR, AReduce 20); (T_POW, AShift 26); (T_QMARK, AReduce 20); (T_RBRACE, AReduce 20); (T_RBRACKET, AReduce 20); (T_RPAREN, AReduce 20); (T_SUB, AShift 28); (T_TDIV, AShift 25); (T_end, AReduce 20)]
  ; [(T_ADD, AReduce 68); (T_AND, AReduce 68); (T_ATTR, AReduce 68); (T_ATTR_SAFE, AReduce 68); (T_BWAND, AReduce 68); (T_BWLSH, AReduce 68); (T_BWOR, AReduce 68); (T_BWRSH, AReduce 68); (T_BWXOR, AReduce 68); (T_COLON, AReduce 68); (T_COMMA, AReduce 68); (T_COMMENT, AReduce 68); (T_EQ, AReduce 68); (T_EQ_FZM, AReduce 68); (T_EQ_FZS, AReduce 68); (T_FDIV, AReduce 68); (T_FOR, AReduce 68); (T_GE, AReduce 68); (T_GT, AReduce 68); (T_IF, AReduce 68); (T_IN, AReduce 68); (T_LBRACKET, AReduce 68); (T_LE, AReduce 68); (T_LPAREN, AReduce 68); (T_LT, AReduce 68); (T_MOD, AReduce 68); (T_MUL, AReduce 68); (T_NE, AReduce 68); (T_NE_FZM, AReduce 68); (T_NE_FZS, AReduce 68); (T_NOT, AReduce 68); (T_OR, AReduce 68); (T_POW, AReduce 68); (T_QMARK, AReduce 68); (T_RBRACE, AReduce 68); (T_RBRACKET, AReduce 68); (T_RPAREN, AReduce 68); (T_SUB, AReduce 68); (T_TDIV, AReduce 68); (T_end, AReduce 68)]
  ; [(T_BYTES, AShift 13); (T_DATETIME, AShift 14); (T_FALSE, AShift 7); (T_FLOAT, AShift 8); (T_FLOAT_INF, AShift 10); (T_FLOAT_NAN, AShift 9); (T_LBRACE, AShift 17); (T_LBRACKET, AShift 19); (T_LPAREN, AShift 12); (T_NOT, AShift 5); (T_NULL, AShift 16); (T_STRING, AShift 18); (T_SUB, AShift 4); (T_SYMBOL, AShift 11); (T_TIMEDELTA, AShift 15); (T_TRUE, AShift 6)]
  ; [(T_ADD, AReduce 62); (T_AND, AReduce 62); (T_ATTR, AReduce 62); (T_ATTR_SAFE, AReduce 62); (T_BWAND, AReduce 62); (T_BWLSH, AReduce 62); (T_BWOR, AReduce 62); (T_BWRSH, AReduce 62); (T_BWXOR, AReduce 62); (T_COLON, AReduce 62); (T_COMMA, AReduce 62); (T_COMMENT, AReduce 62); (T_EQ, AReduce 62); (T_EQ_FZM, AReduce 62); (T_EQ_FZS, AReduce 62); (T_FDIV, AReduce 62); (T_FOR, AReduce 62); (T_GE, AReduce 62); (T_GT, AReduce 62); (T_IF, AReduce 62); (T_IN, AReduce 62); (T_LBRACKET, AReduce 62); (T_LE, AReduce 62); (T_LPAREN, AReduce 62); (T_LT, AReduce 62); (T_MOD, AReduce 62); (T_MUL, AReduce 62); (T_NE, AReduce 62); (T_NE_FZM, AReduce 62); (T_NE_FZS, AReduce 62); (T_NOT, AReduce 62); (T_OR, AReduce 62); (T_POW, AReduce 62); (T_QMARK, AReduce 62); (T_RBRACE, AReduce 62); (T_RBRACKET, AReduce 62); (T_RPAREN, AReduce 62); (T_SUB, AReduce 62); (T_TDIV, AReduce 62); (T_end, AReduce 62)]
  ; [(T_BYTES, AShift 13); (T_DATETIME, AShift 14); (T_FALSE, AShift 7); (T_FLOAT, AShift 8); (T_FLOAT_INF, AShift 10); (T_FLOAT_NAN, AShift 9); (T_LBRACE, AShift 17); (T_LBRACKET, AShift 19); (T_LPAREN, AShift 12); (T_NOT, AShift 5); (T_NULL, AShift 16); (T_RBRACKET, AShift 124); (T_STRING, AShift 18); (T_SUB, AShift 4); (T_SYMBOL, AShift 11); (T_TIMEDELTA, AShift 15); (T_TRUE, AShift 6)]
  ; [(T_ADD, AReduce 63); (T_AND, AReduce 63); (T_ATTR, AReduce 63); (T_ATTR_SAFE, AReduce 63); (T_BWAND, AReduce 63); (T_BWLSH, AReduce 63); (T_BWOR, AReduce 63); (T_BWRSH, AReduce 63); (T_BWXOR, AReduce 63); (T_COLON, AReduce 63); (T_COMMA, AReduce 63); (T_COMMENT, AReduce 63); (T_EQ, AReduce 63); (T_EQ_FZM, AReduce 63); (T_EQ_FZS, AReduce 63); (T_FDIV, AReduce 63); (T_FOR, AReduce 63); (T_GE, AReduce 63); (T_GT, AReduce 63); (T_IF, AReduce 63); (T_IN, AReduce 63); (T_LBRACKET, AReduce 63); (T_LE, AReduce 63); (T_LPAREN, AReduce 63); (T_LT, AReduce 63); (T_MOD, AReduce 63); (T_MUL, AReduce 63); (T_NE, AReduce 63); (T_NE_FZM, AReduce 63); (T_NE_FZS, AReduce 63); (T_NOT, AReduce 63); (T_OR, AReduce 63); (T_POW, AReduce 63); (T_QMARK, AReduce 63); (T_RBRACE, AReduce 63); (T_RBRACKET, AReduce 63); (T_RPAREN, AReduce 63); (T_SUB, AReduce 63); (T_TDIV, AReduce 63); (T_end, AReduce 63)]
  ; [(T_ADD, AShift 27); (T_AND, AShift 46); (T_BWAND, AShift 29); (T_BWLSH, AShift 32); (T_BWOR, AShift 30); (T_BWRSH, AShift 33); (T_BWXOR, AShift 31); (T_EQ, AShift 36); (T_EQ_FZM, AShift 42); (T_EQ_FZS, AShift 43); (T_FDIV, AShift 24); (T_GE, AShift 39); (T_GT, AShift 38); (T_IN, AShift 34); (T_LE, AShift 41); (T_LPAREN, AShift 48); (T_LT, AShift 40); (T_MOD, AShift 22); (T_MUL, AShift 23); (T_NE, AShift 37); (T_NE_FZM, AShift 44); (T_NE_FZS, AShift 45); (T_NOT, AShift 35); (T_OR, AShift 47); (T_POW, AShift 26); (T_QMARK, AShift 21); (T_RBRACKET, AShift 125); (T_SUB, AShift 28); (T_TDIV, AShift 25)]
  ; [(T_ADD, AReduce 47); (T_AND, AReduce 47); (T_ATTR, AReduce 47); (T_ATTR_SAFE, AReduce 47); (T_BWAND, AReduce 47); (T_BWLSH, AReduce 47); (T_BWOR, AReduce 47); (T_BWRSH, AReduce 47); (T_BWXOR, AReduce 47); (T_COLON, AReduce 47); (T_COMMA, AReduce 47); (T_COMMENT, AReduce 47); (T_EQ, AReduce 47); (T_EQ_FZM, AReduce 47); (T_EQ_FZS, AReduce 47); (T_FDIV, AReduce 47); (T_FOR, AReduce 47); (T_GE, AReduce 47); (T_GT, AReduce 47); (T_IF, AReduce 47); (T_IN, AReduce 47); (T_LBRACKET, AReduce 47); (T_LE, AReduce 47); (T_LPAREN, AReduce 47); (T_LT, AReduce 47); (T_MOD, AReduce 47); (T_MUL, AReduce 47); (T_NE, AReduce 47); (T_NE_FZM, AReduce 47); (T_NE_FZS, AReduce 47); (T_NOT, AReduce 47); (T_OR, AReduce 47); (T_POW, AReduce 47); (T_QMARK, AReduce 47); (T_RBRACE, AReduce 47); (T_RBRACKET, AReduce 47); (T_RPAREN, AReduce 47); (T_SUB, AReduce 47); (T_TDIV, AReduce 47); (T_end, AReduce 47)]
  ; [(T_ADD, AShift 27); (T_AND, AShift 46); (T_BWAND, AShift 29); (T_BWLSH, AShift 32); (T_BWOR, AShift 30); (T_BWRSH, AShift 33); (T_BWXOR, AShift 31); (T_COMMA, AReduce 55); (T_EQ, AShift 36); (T_EQ_FZM, AShift 42); (T_EQ_FZS, AShift 43); (T_FDIV, AShift 24); (T_GE, AShift 39); (T_GT, AShift 38); (T_IN, AShift 34); (T_LE, AShift 41); (T_LPAREN, AShift 48); (T_LT, AShift 40); (T_MOD, AShift 22); (T_MUL, AShift 23); (T_NE, AShift 37); (T_NE_FZM, AShift 44); (T_NE_FZS, AShift 45); (T_NOT, AShift 35); (T_OR, AShift 47); (T_POW, AShift 26); (T_QMARK, AShift 21); (T_RBRACE, AReduce 55); (T_RBRACKET, AReduce 55); (T_RPAREN, AReduce 55); (T_SUB, AShift 28); (T_TDIV, AShift 25)]
  ; [(T_ADD, AReduce 58); (T_AND, AReduce 58); (T_ATTR, AReduce 58); (T_ATTR_SAFE, AReduce 58); (T_BWAND, AReduce 58); (T_BWLSH, AReduce 58); (T_BWOR, AReduce 58); (T_BWRSH, AReduce 58); (T_BWXOR, AReduce 58); (T_COLON, AReduce 58); (T_COMMA, AReduce 58); (T_COMMENT, AReduce 58); (T_EQ, AReduce 58); (T_EQ_FZM, AReduce 58); (T_EQ_FZS, AReduce 58); (T_FDIV, AReduce 58); (T_FOR, AReduce 58); (T_GE, AReduce 58); (T_GT, AReduce 58); (T_IF, AReduce 58); (T_IN, AReduce 58); (T_LBRACKET, AReduce 58); (T_LE, AReduce 58); (T_LPAREN, AReduce 58); (T_LT, AReduce 58); (T_MOD, AReduce 58); (T_MUL, AReduce 58); (T_NE, AReduce 58); (T_NE_FZM, AReduce 58); (T_NE_FZS, AReduce 58); (T_NOT, AReduce 58); (T_OR, AReduce 58); (T_POW, AReduce 58); (T_QMARK, AReduce 58); (T_RBRACE, AReduce 58); (T_RBRACKET, AReduce 58); (T_RPAREN, AReduce 58); (T_SUB, AReduce 58); (T_TDIV, AReduce 58); (T_end, AReduce 58)]
  ; [(T_COMMA, AReduce 61); (T_RBRACE, AReduce 61)]
  ; [(T_ADD, AShift 27); (T_AND, AShift 46); (T_BWAND, AShift 29); (T_BWLSH, AShift 32); (T_BWOR, AShift 30); (T_BWRSH, AShift 33); (T_BWXOR, AShift 31); (T_COLON, AShift 102); (T_EQ, AShift 36); (T_EQ_FZM, AShift 42); (T_EQ_FZS, AShift 43); (T_FDIV, AShift 24); (T_GE, AShift 39); (T_GT, AShift 38); (T_IN, AShift 34); (T_LE, AShift 41); (T_LPAREN, AShift 48); (T_LT, AShift 40); (T_MOD, AShift 22); (T_MUL, AShift 23); (T_NE, AShift 37); (T_NE_FZM, AShift 44); (T_NE_FZS, AShift 45); (T_NOT, AShift 35); (T_OR, AShift 47); (T_POW, AShift 26); (T_QMARK, AShift 21); (T_SUB, AShift 28); (T_TDIV, AShift 25)]
  ; [(T_ADD, AShift 27); (T_AND, AShift 46); (T_BWAND, AShift 29); (T_BWLSH, AShift 32); (T_BWOR, AShift 30); (T_BWRSH, AShift 33); (T_BWXOR, AShift 31); (T_COMMA, AReduce 59); (T_EQ, AShift 36); (T_EQ_FZM, AShift 42); (T_EQ_FZS, AShift 43); (T_FDIV, AShift 24); (T_GE, AShift 39); (T_GT, AShift 38); (T_IN, AShift 34); (T_LE, AShift 41); (T_LPAREN, AShift 48); (T_LT, AShift 40); (T_MOD, AShift 22); (T_MUL, AShift 23); (T_NE, AShift 37); (T_NE_FZM, AShift 44); (T_NE_FZS, AShift 45); (T_NOT, AShift 35); (T_OR, AShift 47); (T_POW, AShift 26); (T_QMARK, AShift 21); (T_RBRACE, AReduce 59); (T_SUB, AShift 28); (T_TDIV, AShift 25)]
  ; [(T_ADD, AReduce 51); (T_AND, AReduce 51); (T_ATTR, AReduce 51); (T_ATTR_SAFE, AReduce 51); (T_BWAND, AReduce 51); (T_BWLSH, AReduce 51); (T_BWOR, AReduce 51); (T_BWRSH, AReduce 51); (T_BWXOR, AReduce 51); (T_COLON, AReduce 51); (T_COMMA, AReduce 51); (T_COMMENT, AReduce 51); (T_EQ, AReduce 51); (T_EQ_FZM, AReduce 51); (T_EQ_FZS, AReduce 51); (T_FDIV, AReduce 51); (T_FOR, AReduce 51); (T_GE, AReduce 51); (T_GT, AReduce 51); (T_IF, AReduce 51); (T_IN, AReduce 51); (T_LBRACKET, AReduce 51); (T_LE, AReduce 51); (T_LPAREN, AReduce 51); (T_LT, AReduce 51); (T_MOD, AReduce 51); (T_MUL, AReduce 51); (T_NE, AReduce 51); (T_NE_FZM, AReduce 51); (T_NE_FZS, AReduce 51); (T_NOT, AReduce 51); (T_OR, AReduce 51); (T_POW, AReduce 51); (T_QMARK, AReduce 51); (T_RBRACE, AReduce 51); (T_RBRACKET, AReduce 51); (T_RPAREN, AReduce 51); (T_SUB, AReduce 51); (T_TDIV, AReduce 51); (T_end, AReduce 51)]
  ; [(T_IN, AShift 126)]
  ; [(T_ADD, AShift 27); (T_AND, AReduce 6); (T_BWAND, AReduce 6); (T_BWLSH, AShift 32); (T_BWOR, AReduce 6); (T_BWRSH, AShift 33); (T_BWXOR, AReduce 6); (T_COLON, AReduce 6); (T_COMMA, AReduce 6); (T_COMMENT, AReduce 6); (T_EQ, AShift 36); (T_EQ_FZM, AShift 42); (T_EQ_FZS, AShift 43); (T_FDIV, AShift 24); (T_FOR, AReduce 6); (T_GE, AShift 39); (T_GT, AShift 38); (T_IF, AReduce 6); (T_IN, AShift 34); (T_LE, AShift 41); (T_LPAREN, AShift 48); (T_LT, AShift 40); (T_MOD, AShift 22); (T_MUL, AShift 23); (T_NE, AShift 37); (T_NE_FZM, AShift 44); (T_NE_FZS, AShift 45); (T_NOT, AReduce 6); (T_OR, AReduce 6); (T_POW, AShift 26); (T_QMARK, AShift 21); (T_RBRACE, AReduce 6); (T_RBRACKET, AReduce 6); (T_RPAREN, AReduce 6); (T_SUB, AShift 28); (T_TDIV, AShift 25); (T_end, AReduce 6)]
  ; [(T_ADD, AShift 27); (T_AND, AShift 46); (T_BWAND, AShift 29); (T_BWLSH, AShift 32); (T_BWOR, AShift 30); (T_BWRSH, AShift 33); (T_BWXOR, AShift 31); (T_EQ, AShift 36); (T_EQ_FZM, AShift 42); (T_EQ_FZS, AShift 43); (T_FDIV, AShift 24); (T_GE, AShift 39); (T_GT, AShift 38); (T_IN, AShift 34); (T_LE, AShift 41); (T_LPAREN, AShift 48); (T_LT, AShift 40); (T_MOD, AShift 22); (T_MUL, AShift 23); (T_NE, AShift 37); (T_NE_FZM, AShift 44); (T_NE_FZS, AShift 45); (T_NOT, AShift 35); (T_OR, AShift 47); (T_POW, AShift 26); (T_QMARK, AShift 21); (T_RBRACKET, AShift 127); (T_SUB, AShift 28); (T_TDIV, AShift 25)]
  ; [(T_ADD, AReduce 65); (T_AND, AReduce 65); (T_ATTR, AReduce 65); (T_ATTR_SAFE, AReduce 65); (T_BWAND, AReduce 65); (T_BWLSH, AReduce 65); (T_BWOR, AReduce 65); (T_BWRSH, AReduce 65); (T_BWXOR, AReduce 65); (T_COLON, AReduce 65); (T_COMMA, AReduce 65); (T_COMMENT, AReduce 65); (T_EQ, AReduce 65); (T_EQ_FZM, AReduce 65); (T_EQ_FZS, AReduce 65); (T_FDIV, AReduce 65); (T_FOR, AReduce 65); (T_GE, AReduce 65); (T_GT, AReduce 65); (T_IF, AReduce 65); (T_IN, AReduce 65); (T_LBRACKET, AReduce 65); (T_LE, AReduce 65); (T_LPAREN, AReduce 65); (T_LT, AReduce 65); (T_MOD, AReduce 65); (T_MUL, AReduce 65); (T_NE, AReduce 65); (T_NE_FZM, AReduce 65); (T_NE_FZS, AReduce 65); (T_NOT, AReduce 65); (T_OR, AReduce 65); (T_POW, AReduce 65); (T_QMARK, AReduce 65); (T_RBRACE, AReduce 65); (T_RBRACKET, AReduce 65); (T_RPAREN, AReduce 65); (T_SUB, AReduce 65); (T_TDIV, AReduce 65); (T_end, AReduce 65)]
  ; [(T_ADD, AReduce 64); (T_AND, AReduce 64); (T_ATTR, AReduce 64); (T_ATTR_SAFE, AReduce 64); (T_BWAND, AReduce 64); (T_BWLSH, AReduce 64); (T_BWOR, AReduce 64); (T_BWRSH, AReduce 64); (T_BWXOR, AReduce 64); (T_COLON, AReduce 64); (T_COMMA, AReduce 64); (T_COMMENT, AReduce 64); (T_EQ, AReduce 64); (T_EQ_FZM, AReduce 64); (T_EQ_FZS, AReduce 64); (T_FDIV, AReduce 64); (T_FOR, AReduce 64); (T_GE, AReduce 64); (T_GT, AReduce 64); (T_IF, AReduce 64); (T_IN, AReduce 64); (T_LBRACKET, AReduce 64); (T_LE, AReduce 64); (T_LPAREN, AReduce 64); (T_LT, AReduce 64); (T_MOD, AReduce 64); (T_MUL, AReduce 64); (T_NE, AReduce 64); (T_NE_FZM, AReduce 64); (T_NE_FZS, AReduce 64); (T_NOT, AReduce 64); (T_OR, AReduce 64); (T_POW, AReduce 64); (T_QMARK, AReduce 64); (T_RBRACE, AReduce 64); (T_RBRACKET, AReduce 64); (T_RPAREN, AReduce 64); (T_SUB, AReduce 64); (T_TDIV, AReduce 64); (T_end, AReduce 64)]
  ; [(T_BYTES, AShift 13); (T_DATETIME, AShift 14); (T_FALSE, AShift 7); (T_FLOAT, AShift 8); (T_FLOAT_INF, AShift 10); (T_FLOAT_NAN, AShift 9); (T_LBRACE, AShift 17); (T_LBRACKET, AShift 19); (T_LPAREN, AShift 12); (T_NOT, AShift 5); (T_NULL, AShift 16); (T_STRING, AShift 18); (T_SUB, AShift 4); (T_SYMBOL, AShift 11); (T_TIMEDELTA, AShift 15); (T_TRUE, AShift 6)]
  ; [(T_ADD, AReduce 66); (T_AND, AReduce 66); (T_ATTR, AReduce 66); (T_ATTR_SAFE, AReduce 66); (T_BWAND, AReduce 66); (T_BWLSH, AReduce 66); (T_BWOR, AReduce 66); (T_BWRSH, AReduce 66); (T_BWXOR, AReduce 66); (T_COLON, AReduce 66); (T_COMMA, AReduce 66); (T_COMMENT, AReduce 66); (T_EQ, AReduce 66); (T_EQ_FZM, AReduce 66); (T_EQ_FZS, AReduce 66); (T_FDIV, AReduce 66); (T_FOR, AReduce 66); (T_GE, AReduce 66); (T_GT, AReduce 66); (T_IF, AReduce 66); (T_IN, AReduce 66); (T_LBRACKET, AReduce 66); (T_LE, AReduce 66); (T_LPAREN, AReduce 66); (T_LT, AReduce 66); (T_MOD, AReduce 66); (T_MUL, AReduce 66); (T_NE, AReduce 66); (T_NE_FZM, AReduce 66); (T_NE_FZS, AReduce 66); (T_NOT, AReduce 66); (T_OR, AReduce 66); (T_POW, AReduce 66); (T_QMARK, AReduce 66); (T_RBRACE, AReduce 66); (T_RBRACKET, AReduce 66); (T_RPAREN, AReduce 66); (T_SUB, AReduce 66); (T_TDIV, AReduce 66); (T_end, AReduce 66)]
  ; [(T_ADD, AShift 27); (T_AND, AShift 46); (T_BWAND, AShift 29); (T_BWLSH, AShift 32); (T_BWOR, AShift 30); (T_BWRSH, AShift 33); (T_BWXOR, AShift 31); (T_EQ, AShift 36); (T_EQ_FZM, AShift 42); (T_EQ_FZS, AShift 43); (T_FDIV, AShift 24); (T_GE, AShift 39); (T_GT, AShift 38); (T_IF, AShift 130); (T_IN, AShift 34); (T_LE, AShift 41); (T_LPAREN, AShift 48); (T_LT, AShift 40); (T_MOD, AShift 22); (T_MUL, AShift 23); (T_NE, AShift 37); (T_NE_FZM, AShift 44); (T_NE_FZS, AShift 45); (T_NOT, AShift 35); (T_OR, AShift 47); (T_POW, AShift 26); (T_QMARK, AShift 21); (T_RBRACKET, AShift 129); (T_SUB, AShift 28); (T_TDIV, AShift 25)]
  ; [(T_ADD, AReduce 52); (T_AND, AReduce 52); (T_ATTR, AReduce 52); (T_ATTR_SAFE, AReduce 52); (T_BWAND, AReduce 52); (T_BWLSH, AReduce 52); (T_BWOR, AReduce 52); (T_BWRSH, AReduce 52); (T_BWXOR, AReduce 52); (T_COLON, AReduce 52); (T_COMMA, AReduce 52); (T_COMMENT, AReduce 52); (T_EQ, AReduce 52); (T_EQ_FZM, AReduce 52); (T_EQ_FZS, AReduce 52); (T_FDIV, AReduce 52); (T_FOR, AReduce 52); (T_GE, AReduce 52); (T_GT, AReduce 52); (T_IF, AReduce 52); (T_IN, AReduce 52); (T_LBRACKET, AReduce 52); (T_LE, AReduce 52); (T_LPAREN, AReduce 52); (T_LT, AReduce 52); (T_MOD, AReduce 52); (T_MUL, AReduce 52); (T_NE, AReduce 52); (T_NE_FZM, AReduce 52); (T_NE_FZS, AReduce 52); (T_NOT, AReduce 52); (T_OR, AReduce 52); (T_POW, AReduce 52); (T_QMARK, AReduce 52); (T_RBRACE, AReduce 52); (T_RBRACKET, AReduce 52); (T_RPAREN, AReduce 52); (T_SUB, AReduce 52); (T_TDIV, AReduce 52); (T_end, AReduce 52)]
  ; [(T_BYTES, AShift 13); (T_DATETIME, AShift 14); (T_FALSE, AShift 7); (T_FLOAT, AShift 8); (T_FLOAT_INF, AShift 10); (T_FLOAT_NAN, AShift 9); (T_LBRACE, AShift 17); (T_LBRACKET, AShift 19); (T_LPAREN, AShift 12); (T_NOT, AShift 5); (T_NULL, AShift 16); (T_STRING, AShift 18); (T_SUB, AShift 4); (T_SYMBOL, AShift 11); (T_TIMEDELTA, AShift 15); (T_TRUE, AShift 6)]
  ; [(T_ADD, AShift 27); (T_AND, AShift 46); (T_BWAND, AShift 29); (T_BWLSH, AShift 32); (T_BWOR, AShift 30); (T_BWRSH, AShift 33); (T_BWXOR, AShift 31); (T_EQ, AShift 36); (T_EQ_FZM, AShift 42); (T_EQ_FZS, AShift 43); (T_FDIV, AShift 24); (T_GE, AShift 39); (T_GT, AShift 38); (T_IN, AShift 34); (T_LE, AShift 41); (T_LPAREN, AShift 48); (T_LT, AShift 40); (T_MOD, AShift 22); (T_MUL, AShift 23); (T_NE, AShift 37); (T_NE_FZM, AShift 44); (T_NE_FZS, AShift 45); (T_NOT, AShift 35); (T_OR, AShift 47); (T_POW, AShift 26); (T_QMARK, AShift 21); (T_RBRACKET, AShift 132); (T_SUB, AShift 28); (T_TDIV, AShift 25)]
  ; [(T_ADD, AReduce 53); (T_AND, AReduce 53); (T_ATTR, AReduce 53); (T_ATTR_SAFE, AReduce 53); (T_BWAND, AReduce 53); (T_BWLSH, AReduce 53); (T_BWOR, AReduce 53); (T_BWRSH, AReduce 53); (T_BWXOR, AReduce 53); (T_COLON, AReduce 53); (T_COMMA, AReduce 53); (T_COMMENT, AReduce 53); (T_EQ, AReduce 53); (T_EQ_FZM, AReduce 53); (T_EQ_FZS, AReduce 53); (T_FDIV, AReduce 53); (T_FOR, AReduce 53); (T_GE, AReduce 53); (T_GT, AReduce 53); (T_IF, AReduce 53); (T_IN, AReduce 53); (T_LBRACKET, AReduce 53); (T_LE, AReduce 53); (T_LPAREN, AReduce 53); (T_LT, AReduce 53); (T_MOD, AReduce 53); (T_MUL, AReduce 53); (T_NE, AReduce 53); (T_NE_FZM, AReduce 53); (T_NE_FZS, AReduce 53); (T_NOT, AReduce 53); (T_OR, AReduce 53); (T_POW, AReduce 53); (T_QMARK, AReduce 53); (T_RBRACE, AReduce 53); (T_RBRACKET, AReduce 53); (T_RPAREN, AReduce 53); (T_SUB, AReduce 53); (T_TDIV, AReduce 53); (T_end, AReduce 53)] ].

Definition lr_goto : list (list (nonterm * N)) :=
  [ [(N_expression, 2); (N_object, 3); (N_statement, 1)]
  ; []
  ; []
  ; []
  ; [(N_expression, 52); (N_object, 3)]
  ; [(N_expression, 53); (N_object, 3)]
  ; []
  ; []
  ; []
  ; []
  ; []
  ; []
  ; [(N_expression, 54); (N_object, 3)]
  ; []
  ; []
  ; []
  ; []
  ; [(N_ary_members, 55); (N_expression, 58); (N_map_member, 59); (N_map_members, 57); (N_object, 3)]
  ; []
  ; [(N_ary_members, 61); (N_expression, 62); (N_object, 3)]
  ; []
  ; [(N_expression, 63); (N_object, 3)]
  ; [(N_expression, 64); (N_object, 3)]
  ; [(N_expression, 65); (N_object, 3)]
  ; [(N_expression, 66); (N_object, 3)]
  ; [(N_expression, 67); (N_object, 3)]
  ; [(N_expression, 68); (N_object, 3)]
  ; [(N_expression, 69); (N_object, 3)]
  ; [(N_expression, 70); (N_object, 3)]
  ; [(N_expression, 71); (N_object, 3)]
  ; [(N_expression, 72); (N_object, 3)]
  ; [(N_expression, 73); (N_object, 3)]
  ; [(N_expression, 74); (N_object, 3)]
  ; [(N_expression, 75); (N_object, 3)]
  ; [(N_expression, 76); (N_object, 3)]
  ; []
  ; [(N_expression, 78); (N_object, 3)]
  ; [(N_expression, 79); (N_object, 3)]
  ; [(N_expression, 80); (N_object, 3)]
  ; [(N_expression, 81); (N_object, 3)]
  ; [(N_expression, 82); (N_object, 3)]
  ; [(N_expression, 83); (N_object, 3)]
  ; [(N_expression, 84); (N_object, 3)]
  ; [(N_expression, 85); (N_object, 3)]
  ; [(N_expression, 86); (N_object, 3)]
  ; [(N_expression, 87); (N_object, 3)]
  ; [(N_expression, 88); (N_object, 3)]
  ; [(N_expression, 89); (N_object, 3)]
  ; [(N_ary_members, 92); (N_expression, 90); (N_object, 3)]
  ; []
  ; []
  ; [(N_expression, 95); (N_object, 3)]
  ; []
  ; []
  ; []
  ; []
  ; []
  ; []
  ; []
  ; []
  ; []
  ; []
  ; []
  ; []
  ; []
  ; []
  ; []
  ; []
  ; []
  ; []
  ; []
  ; []
  ; []
  ; []
  ; []
  ; []
  ; []
  ; [(N_expression, 107); (N_object, 3)]
  ; []
  ; []
  ; []
  ; []
  ; []
  ; []
  ; []
  ; []
  ; []
  ; []
  ; []
  ; []
  ; []
  ; []
  ; []
  ; []
  ; []
  ; []
  ; [(N_expression, 113); (N_object, 3)]
  ; []
  ; []
  ; [(N_expression, 115); (N_object, 3)]
  ; []
  ; [(N_expression, 118); (N_map_member, 117); (N_object, 3)]
  ; [(N_expression, 119); (N_object, 3)]
  ; []
  ; [(N_expression, 115); (N_object, 3)]
  ; []
  ; [(N_expression, 122); (N_object, 3)]
  ; []
  ; []
  ; [(N_expression, 115); (N_object, 3)]
  ; []
  ; [(N_expression, 123); (N_object, 3)]
  ; []
  ; []
  ; []
  ; []
  ; []
  ; []
  ; []
  ; []
  ; []
  ; []
  ; []
  ; []
  ; []
  ; []
  ; [(N_expression, 128); (N_object, 3)]
  ; []
  ; []
  ; []
  ; [(N_expression, 131); (N_object, 3)]
  ; []
  ; [] ].

(* Untrusted annotations: the items (production, position of the dot, look-ahead set as a bit mask). *)
Definition lr_items : list (list (N * N * N)) :=
  [ [(0,0,2251799813685248); (1,0,2251799813685248); (2,0,2251799813685248); (3,0,2607766527398399); (4,0,2607766527398399); (5,0,2607766258962931); (6,0,2607766258962931); (7,0,2607766258962931); (8,0,2607766258962931); (9,0,2607766258962931); (10,0,2607766258962931); (11,0,2607766258962931); (12,0,2607766258962931); (13,0,2607766258962931); (14,0,2607766258962931); (15,0,2607766258962931); (16,0,2607766258962931); (17,0,2607766258962931); (18,0,2607766258962931); (19,0,2607766258962931); (20,0,2607766258962931); (21,0,2607766258962931); (22,0,2607766258962931); (23,0,2607766258962931); (24,0,2607766258962931); (25,0,2607766258962931); (26,0,2607766258962931); (27,0,2607766258962931); (28,0,2607766258962931); (29,0,2607766258962931); (30,0,2607766258962931); (31,0,2607766258962931); (32,0,2607766258962931); (33,0,2607766527398399); (34,0,2607766258962931); (35,0,2607766527398399); (36,0,2607766258962931); (37,0,2607766258962931); (38,0,2607766258962931); (39,0,2607766527398399); (40,0,2607766527398399); (41,0,2607766527398399); (42,0,2607766258962931); (43,0,2607766258962931); (44,0,2607766258962931); (45,0,2607766527398399); (46,0,2607766527398399); (47,0,2607766527398399); (48,0,2607766527398399); (49,0,2607766527398399); (50,0,2607766527398399); (51,0,2607766527398399); (52,0,2607766527398399); (53,0,2607766527398399); (56,0,2607766527398399); (57,0,2607766527398399); (58,0,2607766527398399); (62,0,2607766527398399); (63,0,2607766527398399); (64,0,2607766527398399); (65,0,2607766527398399); (66,0,2607766527398399); (67,0,2607766527398399); (68,0,2607766527398399)]
  ; [(0,1,2251799813685248)]
  ; [(1,1,2251799813685248); (2,1,2251799813685248); (6,1,2607766258962931); (7,1,2607766258962931); (8,1,2607766258962931); (9,1,2607766258962931); (10,1,2607766258962931); (11,1,2607766258962931); (12,1,2607766258962931); (13,1,2607766258962931); (14,1,2607766258962931); (15,1,2607766258962931); (16,1,2607766258962931); (17,1,2607766258962931); (18,1,2607766258962931); (19,1,2607766258962931); (20,1,2607766258962931); (21,1,2607766258962931); (22,1,2607766258962931); (23,1,2607766258962931); (24,1,2607766258962931); (25,1,2607766258962931); (26,1,2607766258962931); (27,1,2607766258962931); (28,1,2607766258962931); (29,1,2607766258962931); (30,1,2607766258962931); (31,1,2607766258962931); (32,1,2607766258962931); (67,1,2607766527398399); (68,1,2607766527398399)]
  ; [(3,1,2638552890727935); (4,1,2638552890727935); (5,1,2638552622292467); (62,1,2638552890727935); (63,1,2638552890727935); (64,1,2638552890727935); (65,1,2638552890727935); (66,1,2638552890727935)]
  ; [(3,0,2638552890727935); (4,0,2638552890727935); (5,0,2638552622292467); (6,0,2638552622292467); (7,0,2638552622292467); (8,0,2638552622292467); (9,0,2638552622292467); (10,0,2638552622292467); (11,0,2638552622292467); (12,0,2638552622292467); (13,0,2638552622292467); (14,0,2638552622292467); (15,0,2638552622292467); (16,0,2638552622292467); (17,0,2638552622292467); (18,0,2638552622292467); (19,0,2638552622292467); (20,0,2638552622292467); (21,0,2638552622292467); (22,0,2638552622292467); (23,0,2638552622292467); (24,0,2638552622292467); (25,0,2638552622292467); (26,0,2638552622292467); (27,0,2638552622292467); (28,0,2638552622292467); (29,0,2638552622292467); (30,0,2638552622292467); (31,0,2638552622292467); (32,0,2638552622292467); (33,0,2638552890727935); (34,0,2638552622292467); (35,0,2638552890727935); (36,0,2638552622292467); (36,1,2638552622292467); (37,0,2638552622292467); (38,0,2638552622292467); (39,0,2638552890727935); (40,0,2638552890727935); (41,0,2638552890727935); (42,0,2638552622292467); (43,0,2638552622292467); (44,0,2638552622292467); (45,0,2638552890727935); (46,0,2638552890727935); (47,0,2638552890727935); (48,0,2638552890727935); (49,0,2638552890727935); (50,0,2638552890727935); (51,0,2638552890727935); (52,0,2638552890727935); (53,0,2638552890727935); (56,0,2638552890727935); (57,0,2638552890727935); (58,0,2638552890727935); (62,0,2638552890727935); (63,0,2638552890727935); (64,0,2638552890727935); (65,0,2638552890727935); (66,0,2638552890727935); (67,0,2638552890727935); (68,0,2638552890727935)]
  ; [(3,0,2638552890727935); (4,0,2638552890727935); (5,0,2638552622292467); (6,0,2638552622292467); (7,0,2638552622292467); (8,0,2638552622292467); (9,0,2638552622292467); (10,0,2638552622292467); (11,0,2638552622292467); (12,0,2638552622292467); (13,0,2638552622292467); (14,0,2638552622292467); (15,0,2638552622292467); (16,0,2638552622292467); (17,0,2638552622292467); (18,0,2638552622292467); (19,0,2638552622292467); (20,0,2638552622292467); (21,0,2638552622292467); (22,0,2638552622292467); (23,0,2638552622292467); (24,0,2638552622292467); (25,0,2638552622292467); (26,0,2638552622292467); (27,0,2638552622292467); (28,0,2638552622292467); (29,0,2638552622292467); (30,0,2638552622292467); (31,0,2638552622292467); (32,0,2638552622292467); (33,0,2638552890727935); (34,0,2638552622292467); (34,1,2638552622292467); (35,0,2638552890727935); (36,0,2638552622292467); (37,0,2638552622292467); (38,0,2638552622292467); (39,0,2638552890727935); (40,0,2638552890727935); (41,0,2638552890727935); (42,0,2638552622292467); (43,0,2638552622292467); (44,0,2638552622292467); (45,0,2638552890727935); (46,0,2638552890727935); (47,0,2638552890727935); (48,0,2638552890727935); (49,0,2638552890727935); (50,0,2638552890727935); (51,0,2638552890727935); (52,0,2638552890727935); (53,0,2638552890727935); (56,0,2638552890727935); (57,0,2638552890727935); (58,0,2638552890727935); (62,0,2638552890727935); (63,0,2638552890727935); (64,0,2638552890727935); (65,0,2638552890727935); (66,0,2638552890727935); (67,0,2638552890727935); (68,0,2638552890727935)]
  ; [(37,1,2638552622292467)]
  ; [(38,1,2638552622292467)]
  ; [(42,1,2638552622292467)]
  ; [(43,1,2638552622292467)]
  ; [(44,1,2638552622292467)]
  ; [(35,1,2638552890727935)]
  ; [(3,0,373558899753471); (4,0,373558899753471); (5,0,373558631318003); (6,0,373558631318003); (7,0,373558631318003); (8,0,373558631318003); (9,0,373558631318003); (10,0,373558631318003); (11,0,373558631318003); (12,0,373558631318003); (13,0,373558631318003); (14,0,373558631318003); (15,0,373558631318003); (16,0,373558631318003); (17,0,373558631318003); (18,0,373558631318003); (19,0,373558631318003); (20,0,373558631318003); (21,0,373558631318003); (22,0,373558631318003); (23,0,373558631318003); (24,0,373558631318003); (25,0,373558631318003); (26,0,373558631318003); (27,0,373558631318003); (28,0,373558631318003); (29,0,373558631318003); (30,0,373558631318003); (31,0,373558631318003); (32,0,373558631318003); (33,0,373558899753471); (33,1,2638552890727935); (34,0,373558631318003); (35,0,373558899753471); (36,0,373558631318003); (37,0,373558631318003); (38,0,373558631318003); (39,0,373558899753471); (40,0,373558899753471); (41,0,373558899753471); (42,0,373558631318003); (43,0,373558631318003); (44,0,373558631318003); (45,0,373558899753471); (46,0,373558899753471); (47,0,373558899753471); (48,0,373558899753471); (49,0,373558899753471); (50,0,373558899753471); (51,0,373558899753471); (52,0,373558899753471); (53,0,373558899753471); (56,0,373558899753471); (57,0,373558899753471); (58,0,373558899753471); (62,0,373558899753471); (63,0,373558899753471); (64,0,373558899753471); (65,0,373558899753471); (66,0,373558899753471); (67,0,373558899753471); (68,0,373558899753471)]
  ; [(39,1,2638552890727935)]
  ; [(40,1,2638552890727935)]
  ; [(41,1,2638552890727935)]
  ; [(45,1,2638552890727935)]
  ; [(3,0,360364760223231); (4,0,360364760223231); (5,0,360364491787763); (6,0,360364491787763); (7,0,360364491787763); (8,0,360364491787763); (9,0,360364491787763); (10,0,360364491787763); (11,0,360364491787763); (12,0,360364491787763); (13,0,360364491787763); (14,0,360364491787763); (15,0,360364491787763); (16,0,360364491787763); (17,0,360364491787763); (18,0,360364491787763); (19,0,360364491787763); (20,0,360364491787763); (21,0,360364491787763); (22,0,360364491787763); (23,0,360364491787763); (24,0,360364491787763); (25,0,360364491787763); (26,0,360364491787763); (27,0,360364491787763); (28,0,360364491787763); (29,0,360364491787763); (30,0,360364491787763); (31,0,360364491787763); (32,0,360364491787763); (33,0,360364760223231); (34,0,360364491787763); (35,0,360364760223231); (36,0,360364491787763); (37,0,360364491787763); (38,0,360364491787763); (39,0,360364760223231); (40,0,360364760223231); (41,0,360364760223231); (42,0,360364491787763); (43,0,360364491787763); (44,0,360364491787763); (45,0,360364760223231); (46,0,360364760223231); (46,1,2638552890727935); (47,0,360364760223231); (47,1,2638552890727935); (48,0,360364760223231); (49,0,360364760223231); (50,0,360364760223231); (51,0,360364760223231); (52,0,360364760223231); (53,0,360364760223231); (54,0,4398046513152); (55,0,4398046513152); (56,0,360364760223231); (56,1,2638552890727935); (57,0,360364760223231); (57,1,2638552890727935); (58,0,360364760223231); (58,1,2638552890727935); (59,0,4398046513152); (60,0,4398046513152); (61,0,4398046513152); (62,0,360364760223231); (63,0,360364760223231); (64,0,360364760223231); (65,0,360364760223231); (66,0,360364760223231); (67,0,360364760223231); (68,0,360364760223231)]
  ; [(48,1,2638552890727935)]
  ; [(3,0,364762810927615); (4,0,364762810927615); (5,0,364762542492147); (6,0,364762542492147); (7,0,364762542492147); (8,0,364762542492147); (9,0,364762542492147); (10,0,364762542492147); (11,0,364762542492147); (12,0,364762542492147); (13,0,364762542492147); (14,0,364762542492147); (15,0,364762542492147); (16,0,364762542492147); (17,0,364762542492147); (18,0,364762542492147); (19,0,364762542492147); (20,0,364762542492147); (21,0,364762542492147); (22,0,364762542492147); (23,0,364762542492147); (24,0,364762542492147); (25,0,364762542492147); (26,0,364762542492147); (27,0,364762542492147); (28,0,364762542492147); (29,0,364762542492147); (30,0,364762542492147); (31,0,364762542492147); (32,0,364762542492147); (33,0,364762810927615); (34,0,364762542492147); (35,0,364762810927615); (36,0,364762542492147); (37,0,364762542492147); (38,0,364762542492147); (39,0,364762810927615); (40,0,364762810927615); (41,0,364762810927615); (42,0,364762542492147); (43,0,364762542492147); (44,0,364762542492147); (45,0,364762810927615); (46,0,364762810927615); (47,0,364762810927615); (48,0,364762810927615); (49,0,364762810927615); (49,1,2638552890727935); (50,0,364762810927615); (50,1,2638552890727935); (51,0,364762810927615); (51,1,2638552890727935); (52,0,364762810927615); (52,1,2638552890727935); (53,0,364762810927615); (53,1,2638552890727935); (54,0,8796093024256); (55,0,8796093024256); (56,0,364762810927615); (57,0,364762810927615); (58,0,364762810927615); (62,0,364762810927615); (63,0,364762810927615); (64,0,364762810927615); (65,0,364762810927615); (66,0,364762810927615); (67,0,364762810927615); (68,0,364762810927615)]
  ; [(2,2,2251799813685248)]
  ; [(3,0,355966713710079); (4,0,355966713710079); (5,0,355966445274611); (6,0,355966445274611); (6,2,2638552622292467); (7,0,355966445274611); (8,0,355966445274611); (9,0,355966445274611); (10,0,355966445274611); (11,0,355966445274611); (12,0,355966445274611); (13,0,355966445274611); (14,0,355966445274611); (15,0,355966445274611); (16,0,355966445274611); (17,0,355966445274611); (18,0,355966445274611); (19,0,355966445274611); (20,0,355966445274611); (21,0,355966445274611); (22,0,355966445274611); (23,0,355966445274611); (24,0,355966445274611); (25,0,355966445274611); (26,0,355966445274611); (27,0,355966445274611); (28,0,355966445274611); (29,0,355966445274611); (30,0,355966445274611); (31,0,355966445274611); (32,0,355966445274611); (33,0,355966713710079); (34,0,355966445274611); (35,0,355966713710079); (36,0,355966445274611); (37,0,355966445274611); (38,0,355966445274611); (39,0,355966713710079); (40,0,355966713710079); (41,0,355966713710079); (42,0,355966445274611); (43,0,355966445274611); (44,0,355966445274611); (45,0,355966713710079); (46,0,355966713710079); (47,0,355966713710079); (48,0,355966713710079); (49,0,355966713710079); (50,0,355966713710079); (51,0,355966713710079); (52,0,355966713710079); (53,0,355966713710079); (56,0,355966713710079); (57,0,355966713710079); (58,0,355966713710079); (62,0,355966713710079); (63,0,355966713710079); (64,0,355966713710079); (65,0,355966713710079); (66,0,355966713710079); (67,0,355966713710079); (68,0,355966713710079)]
  ; [(3,0,2638552890727935); (4,0,2638552890727935); (5,0,2638552622292467); (6,0,2638552622292467); (7,0,2638552622292467); (7,2,2638552622292467); (8,0,2638552622292467); (9,0,2638552622292467); (10,0,2638552622292467); (11,0,2638552622292467); (12,0,2638552622292467); (13,0,2638552622292467); (14,0,2638552622292467); (15,0,2638552622292467); (16,0,2638552622292467); (17,0,2638552622292467); (18,0,2638552622292467); (19,0,2638552622292467); (20,0,2638552622292467); (21,0,2638552622292467); (22,0,2638552622292467); (23,0,2638552622292467); (24,0,2638552622292467); (25,0,2638552622292467); (26,0,2638552622292467); (27,0,2638552622292467); (28,0,2638552622292467); (29,0,2638552622292467); (30,0,2638552622292467); (31,0,2638552622292467); (32,0,2638552622292467); (33,0,2638552890727935); (34,0,2638552622292467); (35,0,2638552890727935); (36,0,2638552622292467); (37,0,2638552622292467); (38,0,2638552622292467); (39,0,2638552890727935); (40,0,2638552890727935); (41,0,2638552890727935); (42,0,2638552622292467); (43,0,2638552622292467); (44,0,2638552622292467); (45,0,2638552890727935); (46,0,2638552890727935); (47,0,2638552890727935); (48,0,2638552890727935); (49,0,2638552890727935); (50,0,2638552890727935); (51,0,2638552890727935); (52,0,2638552890727935); (53,0,2638552890727935); (56,0,2638552890727935); (57,0,2638552890727935); (58,0,2638552890727935); (62,0,2638552890727935); (63,0,2638552890727935); (64,0,2638552890727935); (65,0,2638552890727935); (66,0,2638552890727935); (67,0,2638552890727935); (68,0,2638552890727935)]
  ; [(3,0,2638552890727935); (4,0,2638552890727935); (5,0,2638552622292467); (6,0,2638552622292467); (7,0,2638552622292467); (8,0,2638552622292467); (8,2,2638552622292467); (9,0,2638552622292467); (10,0,2638552622292467); (11,0,2638552622292467); (12,0,2638552622292467); (13,0,2638552622292467); (14,0,2638552622292467); (15,0,2638552622292467); (16,0,2638552622292467); (17,0,2638552622292467); (18,0,2638552622292467); (19,0,2638552622292467); (20,0,2638552622292467); (21,0,2638552622292467); (22,0,2638552622292467); (23,0,2638552622292467); (24,0,2638552622292467); (25,0,2638552622292467); (26,0,2638552622292467); (27,0,2638552622292467); (28,0,2638552622292467); (29,0,2638552622292467); (30,0,2638552622292467); (31,0,2638552622292467); (32,0,2638552622292467); (33,0,2638552890727935); (34,0,2638552622292467); (35,0,2638552890727935); (36,0,2638552622292467); (37,0,2638552622292467); (38,0,2638552622292467); (39,0,2638552890727935); (40,0,2638552890727935); (41,0,2638552890727935); (42,0,2638552622292467); (43,0,2638552622292467); (44,0,2638552622292467); (45,0,2638552890727935); (46,0,2638552890727935); (47,0,2638552890727935); (48,0,2638552890727935); (49,0,2638552890727935); (50,0,2638552890727935); (51,0,2638552890727935); (52,0,2638552890727935); (53,0,2638552890727935); (56,0,2638552890727935); (57,0,2638552890727935); (58,0,2638552890727935); (62,0,2638552890727935); (63,0,2638552890727935); (64,0,2638552890727935); (65,0,2638552890727935); (66,0,2638552890727935); (67,0,2638552890727935); (68,0,2638552890727935)]
  ; [(3,0,2638552890727935); (4,0,2638552890727935); (5,0,2638552622292467); (6,0,2638552622292467); (7,0,2638552622292467); (8,0,2638552622292467); (9,0,2638552622292467); (9,2,2638552622292467); (10,0,2638552622292467); (11,0,2638552622292467); (12,0,2638552622292467); (13,0,2638552622292467); (14,0,2638552622292467); (15,0,2638552622292467); (16,0,2638552622292467); (17,0,2638552622292467); (18,0,2638552622292467); (19,0,2638552622292467); (20,0,2638552622292467); (21,0,2638552622292467); (22,0,2638552622292467); (23,0,2638552622292467); (24,0,2638552622292467); (25,0,2638552622292467); (26,0,2638552622292467); (27,0,2638552622292467); (28,0,2638552622292467); (29,0,2638552622292467); (30,0,2638552622292467); (31,0,2638552622292467); (32,0,2638552622292467); (33,0,2638552890727935); (34,0,2638552622292467); (35,0,2638552890727935); (36,0,2638552622292467); (37,0,2638552622292467); (38,0,2638552622292467); (39,0,2638552890727935); (40,0,2638552890727935); (41,0,2638552890727935); (42,0,2638552622292467); (43,0,2638552622292467); (44,0,2638552622292467); (45,0,2638552890727935); (46,0,2638552890727935); (47,0,2638552890727935); (48,0,2638552890727935); (49,0,2638552890727935); (50,0,2638552890727935); (51,0,2638552890727935); (52,0,2638552890727935); (53,0,2638552890727935); (56,0,2638552890727935); (57,0,2638552890727935); (58,0,2638552890727935); (62,0,2638552890727935); (63,0,2638552890727935); (64,0,2638552890727935); (65,0,2638552890727935); (66,0,2638552890727935); (67,0,2638552890727935); (68,0,2638552890727935)]
  ; [(3,0,2638552890727935); (4,0,2638552890727935); (5,0,2638552622292467); (6,0,2638552622292467); (7,0,2638552622292467); (8,0,2638552622292467); (9,0,2638552622292467); (10,0,2638552622292467); (10,2,2638552622292467); (11,0,2638552622292467); (12,0,2638552622292467); (13,0,2638552622292467); (14,0,2638552622292467); (15,0,2638552622292467); (16,0,2638552622292467); (17,0,2638552622292467); (18,0,2638552622292467); (19,0,2638552622292467); (20,0,2638552622292467); (21,0,2638552622292467); (22,0,2638552622292467); (23,0,2638552622292467); (24,0,2638552622292467); (25,0,2638552622292467); (26,0,2638552622292467); (27,0,2638552622292467); (28,0,2638552622292467); (29,0,2638552622292467); (30,0,2638552622292467); (31,0,2638552622292467); (32,0,2638552622292467); (33,0,2638552890727935); (34,0,2638552622292467); (35,0,2638552890727935); (36,0,2638552622292467); (37,0,2638552622292467); (38,0,2638552622292467); (39,0,2638552890727935); (40,0,2638552890727935); (41,0,2638552890727935); (42,0,2638552622292467); (43,0,2638552622292467); (44,0,2638552622292467); (45,0,2638552890727935); (46,0,2638552890727935); (47,0,2638552890727935); (48,0,2638552890727935); (49,0,2638552890727935); (50,0,2638552890727935); (51,0,2638552890727935); (52,0,2638552890727935); (53,0,2638552890727935); (56,0,2638552890727935); (57,0,2638552890727935); (58,0,2638552890727935); (62,0,2638552890727935); (63,0,2638552890727935); (64,0,2638552890727935); (65,0,2638552890727935); (66,0,2638552890727935); (67,0,2638552890727935); (68,0,2638552890727935)]
  ; [(3,0,2638552890727935); (4,0,2638552890727935); (5,0,2638552622292467); (6,0,2638552622292467); (7,0,2638552622292467); (8,0,2638552622292467); (9,0,2638552622292467); (10,0,2638552622292467); (11,0,2638552622292467); (11,2,2638552622292467); (12,0,2638552622292467); (13,0,2638552622292467); (14,0,2638552622292467); (15,0,2638552622292467); (16,0,2638552622292467); (17,0,2638552622292467); (18,0,2638552622292467); (19,0,2638552622292467); (20,0,2638552622292467); (21,0,2638552622292467); (22,0,2638552622292467); (23,0,2638552622292467); (24,0,2638552622292467); (25,0,2638552622292467); (26,0,2638552622292467); (27,0,2638552622292467); (28,0,2638552622292467); (29,0,2638552622292467); (30,0,2638552622292467); (31,0,2638552622292467); (32,0,2638552622292467); (33,0,2638552890727935); (34,0,2638552622292467); (35,0,2638552890727935); (36,0,2638552622292467); (37,0,2638552622292467); (38,0,2638552622292467); (39,0,2638552890727935); (40,0,2638552890727935); (41,0,2638552890727935); (42,0,2638552622292467); (43,0,2638552622292467); (44,0,2638552622292467); (45,0,2638552890727935); (46,0,2638552890727935); (47,0,2638552890727935); (48,0,2638552890727935); (49,0,2638552890727935); (50,0,2638552890727935); (51,0,2638552890727935); (52,0,2638552890727935); (53,0,2638552890727935); (56,0,2638552890727935); (57,0,2638552890727935); (58,0,2638552890727935); (62,0,2638552890727935); (63,0,2638552890727935); (64,0,2638552890727935); (65,0,2638552890727935); (66,0,2638552890727935); (67,0,2638552890727935); (68,0,2638552890727935)]
  ; [(3,0,2638552890727935); (4,0,2638552890727935); (5,0,2638552622292467); (6,0,2638552622292467); (7,0,2638552622292467); (8,0,2638552622292467); (9,0,2638552622292467); (10,0,2638552622292467); (11,0,2638552622292467); (12,0,2638552622292467); (12,2,2638552622292467); (13,0,2638552622292467); (14,0,2638552622292467); (15,0,2638552622292467); (16,0,2638552622292467); (17,0,2638552622292467); (18,0,2638552622292467); (19,0,2638552622292467); (20,0,2638552622292467); (21,0,2638552622292467); (22,0,2638552622292467); (23,0,2638552622292467); (24,0,2638552622292467); (25,0,2638552622292467); (26,0,2638552622292467); (27,0,2638552622292467); (28,0,2638552622292467); (29,0,2638552622292467); (30,0,2638552622292467); (31,0,2638552622292467); (32,0,2638552622292467); (33,0,2638552890727935); (34,0,2638552622292467); (35,0,2638552890727935); (36,0,2638552622292467); (37,0,2638552622292467); (38,0,2638552622292467); (39,0,2638552890727935); (40,0,2638552890727935); (41,0,2638552890727935); (42,0,2638552622292467); (43,0,2638552622292467); (44,0,2638552622292467); (45,0,2638552890727935); (46,0,2638552890727935); (47,0,2638552890727935); (48,0,2638552890727935); (49,0,2638552890727935); (50,0,2638552890727935); (51,0,2638552890727935); (52,0,2638552890727935); (53,0,2638552890727935); (56,0,2638552890727935); (57,0,2638552890727935); (58,0,2638552890727935); (62,0,2638552890727935); (63,0,2638552890727935); (64,0,2638552890727935); (65,0,2638552890727935); (66,0,2638552890727935); (67,0,2638552890727935); (68,0,2638552890727935)]
  ; [(3,0,2638552890727935); (4,0,2638552890727935); (5,0,2638552622292467); (6,0,2638552622292467); (7,0,2638552622292467); (8,0,2638552622292467); (9,0,2638552622292467); (10,0,2638552622292467); (11,0,2638552622292467); (12,0,2638552622292467); (13,0,2638552622292467); (13,2,2638552622292467); (14,0,2638552622292467); (15,0,2638552622292467); (16,0,2638552622292467); (17,0,2638552622292467); (18,0,2638552622292467); (19,0,2638552622292467); (20,0,2638552622292467); (21,0,2638552622292467); (22,0,2638552622292467); (23,0,2638552622292467); (24,0,2638552622292467); (25,0,2638552622292467); (26,0,2638552622292467); (27,0,2638552622292467); (28,0,2638552622292467); (29,0,2638552622292467); (30,0,2638552622292467); (31,0,2638552622292467); (32,0,2638552622292467); (33,0,2638552890727935); (34,0,2638552622292467); (35,0,2638552890727935); (36,0,2638552622292467); (37,0,2638552622292467); (38,0,2638552622292467); (39,0,2638552890727935); (40,0,2638552890727935); (41,0,2638552890727935); (42,0,2638552622292467); (43,0,2638552622292467); (44,0,2638552622292467); (45,0,2638552890727935); (46,0,2638552890727935); (47,0,2638552890727935); (48,0,2638552890727935); (49,0,2638552890727935); (50,0,2638552890727935); (51,0,2638552890727935); (52,0,2638552890727935); (53,0,2638552890727935); (56,0,2638552890727935); (57,0,2638552890727935); (58,0,2638552890727935); (62,0,2638552890727935); (63,0,2638552890727935); (64,0,2638552890727935); (65,0,2638552890727935); (66,0,2638552890727935); (67,0,2638552890727935); (68,0,2638552890727935)]
  ; [(3,0,2638552890727935); (4,0,2638552890727935); (5,0,2638552622292467); (6,0,2638552622292467); (7,0,2638552622292467); (8,0,2638552622292467); (9,0,2638552622292467); (10,0,2638552622292467); (11,0,2638552622292467); (12,0,2638552622292467); (13,0,2638552622292467); (14,0,2638552622292467); (14,2,2638552622292467); (15,0,2638552622292467); (16,0,2638552622292467); (17,0,2638552622292467); (18,0,2638552622292467); (19,0,2638552622292467); (20,0,2638552622292467); (21,0,2638552622292467); (22,0,2638552622292467); (23,0,2638552622292467); (24,0,2638552622292467); (25,0,2638552622292467); (26,0,2638552622292467); (27,0,2638552622292467); (28,0,2638552622292467); (29,0,2638552622292467); (30,0,2638552622292467); (31,0,2638552622292467); (32,0,2638552622292467); (33,0,2638552890727935); (34,0,2638552622292467); (35,0,2638552890727935); (36,0,2638552622292467); (37,0,2638552622292467); (38,0,2638552622292467); (39,0,2638552890727935); (40,0,2638552890727935); (41,0,2638552890727935); (42,0,2638552622292467); (43,0,2638552622292467); (44,0,2638552622292467); (45,0,2638552890727935); (46,0,2638552890727935); (47,0,2638552890727935); (48,0,2638552890727935); (49,0,2638552890727935); (50,0,2638552890727935); (51,0,2638552890727935); (52,0,2638552890727935); (53,0,2638552890727935); (56,0,2638552890727935); (57,0,2638552890727935); (58,0,2638552890727935); (62,0,2638552890727935); (63,0,2638552890727935); (64,0,2638552890727935); (65,0,2638552890727935); (66,0,2638552890727935); (67,0,2638552890727935); (68,0,2638552890727935)]
  ; [(3,0,2638552890727935); (4,0,2638552890727935); (5,0,2638552622292467); (6,0,2638552622292467); (7,0,2638552622292467); (8,0,2638552622292467); (9,0,2638552622292467); (10,0,2638552622292467); (11,0,2638552622292467); (12,0,2638552622292467); (13,0,2638552622292467); (14,0,2638552622292467); (15,0,2638552622292467); (15,2,2638552622292467); (16,0,2638552622292467); (17,0,2638552622292467); (18,0,2638552622292467); (19,0,2638552622292467); (20,0,2638552622292467); (21,0,2638552622292467); (22,0,2638552622292467); (23,0,2638552622292467); (24,0,2638552622292467); (25,0,2638552622292467); (26,0,2638552622292467); (27,0,2638552622292467); (28,0,2638552622292467); (29,0,2638552622292467); (30,0,2638552622292467); (31,0,2638552622292467); (32,0,2638552622292467); (33,0,2638552890727935); (34,0,2638552622292467); (35,0,2638552890727935); (36,0,2638552622292467); (37,0,2638552622292467); (38,0,2638552622292467); (39,0,2638552890727935); (40,0,2638552890727935); (41,0,2638552890727935); (42,0,2638552622292467); (43,0,2638552622292467); (44,0,2638552622292467); (45,0,2638552890727935); (46,0,2638552890727935); (47,0,2638552890727935); (48,0,2638552890727935); (49,0,2638552890727935); (50,0,2638552890727935); (51,0,2638552890727935); (52,0,2638552890727935); (53,0,2638552890727935); (56,0,2638552890727935); (57,0,2638552890727935); (58,0,2638552890727935); (62,0,2638552890727935); (63,0,2638552890727935); (64,0,2638552890727935); (65,0,2638552890727935); (66,0,2638552890727935); (67,0,2638552890727935); (68,0,2638552890727935)]
  ; [(3,0,2638552890727935); (4,0,2638552890727935); (5,0,2638552622292467); (6,0,2638552622292467); (7,0,2638552622292467); (8,0,2638552622292467); (9,0,2638552622292467); (10,0,2638552622292467); (11,0,2638552622292467); (12,0,2638552622292467); (13,0,2638552622292467); (14,0,2638552622292467); (15,0,2638552622292467); (16,0,2638552622292467); (16,2,2638552622292467); (17,0,2638552622292467); (18,0,2638552622292467); (19,0,2638552622292467); (20,0,2638552622292467); (21,0,2638552622292467); (22,0,2638552622292467); (23,0,2638552622292467); (24,0,2638552622292467); (25,0,2638552622292467); (26,0,2638552622292467); (27,0,2638552622292467); (28,0,2638552622292467); (29,0,2638552622292467); (30,0,2638552622292467); (31,0,2638552622292467); (32,0,2638552622292467); (33,0,2638552890727935); (34,0,2638552622292467); (35,0,2638552890727935); (36,0,2638552622292467); (37,0,2638552622292467); (38,0,2638552622292467); (39,0,2638552890727935); (40,0,2638552890727935); (41,0,2638552890727935); (42,0,2638552622292467); (43,0,2638552622292467); (44,0,2638552622292467); (45,0,2638552890727935); (46,0,2638552890727935); (47,0,2638552890727935); (48,0,2638552890727935); (49,0,2638552890727935); (50,0,2638552890727935); (51,0,2638552890727935); (52,0,2638552890727935); (53,0,2638552890727935); (56,0,2638552890727935); (57,0,2638552890727935); (58,0,2638552890727935); (62,0,2638552890727935); (63,0,2638552890727935); (64,0,2638552890727935); (65,0,2638552890727935); (66,0,2638552890727935); (67,0,2638552890727935); (68,0,2638552890727935)]
  ; [(3,0,2638552890727935); (4,0,2638552890727935); (5,0,2638552622292467); (6,0,2638552622292467); (7,0,2638552622292467); (8,0,2638552622292467); (9,0,2638552622292467); (10,0,2638552622292467); (11,0,2638552622292467); (12,0,2638552622292467); (13,0,2638552622292467); (14,0,2638552622292467); (15,0,2638552622292467); (16,0,2638552622292467); (17,0,2638552622292467); (17,2,2638552622292467); (18,0,2638552622292467); (19,0,2638552622292467); (20,0,2638552622292467); (21,0,2638552622292467); (22,0,2638552622292467); (23,0,2638552622292467); (24,0,2638552622292467); (25,0,2638552622292467); (26,0,2638552622292467); (27,0,2638552622292467); (28,0,2638552622292467); (29,0,2638552622292467); (30,0,2638552622292467); (31,0,2638552622292467); (32,0,2638552622292467); (33,0,2638552890727935); (34,0,2638552622292467); (35,0,2638552890727935); (36,0,2638552622292467); (37,0,2638552622292467); (38,0,2638552622292467); (39,0,2638552890727935); (40,0,2638552890727935); (41,0,2638552890727935); (42,0,2638552622292467); (43,0,2638552622292467); (44,0,2638552622292467); (45,0,2638552890727935); (46,0,2638552890727935); (47,0,2638552890727935); (48,0,2638552890727935); (49,0,2638552890727935); (50,0,2638552890727935); (51,0,2638552890727935); (52,0,2638552890727935); (53,0,2638552890727935); (56,0,2638552890727935); (57,0,2638552890727935); (58,0,2638552890727935); (62,0,2638552890727935); (63,0,2638552890727935); (64,0,2638552890727935); (65,0,2638552890727935); (66,0,2638552890727935); (67,0,2638552890727935); (68,0,2638552890727935)]
  ; [(3,0,2638552890727935); (4,0,2638552890727935); (5,0,2638552622292467); (6,0,2638552622292467); (7,0,2638552622292467); (8,0,2638552622292467); (9,0,2638552622292467); (10,0,2638552622292467); (11,0,2638552622292467); (12,0,2638552622292467); (13,0,2638552622292467); (14,0,2638552622292467); (15,0,2638552622292467); (16,0,2638552622292467); (17,0,2638552622292467); (18,0,2638552622292467); (18,2,2638552622292467); (19,0,2638552622292467); (20,0,2638552622292467); (21,0,2638552622292467); (22,0,2638552622292467); (23,0,2638552622292467); (24,0,2638552622292467); (25,0,2638552622292467); (26,0,2638552622292467); (27,0,2638552622292467); (28,0,2638552622292467); (29,0,2638552622292467); (30,0,2638552622292467); (31,0,2638552622292467); (32,0,2638552622292467); (33,0,2638552890727935); (34,0,2638552622292467); (35,0,2638552890727935); (36,0,2638552622292467); (37,0,2638552622292467); (38,0,2638552622292467); (39,0,2638552890727935); (40,0,2638552890727935); (41,0,2638552890727935); (42,0,2638552622292467); (43,0,2638552622292467); (44,0,2638552622292467); (45,0,2638552890727935); (46,0,2638552890727935); (47,0,2638552890727935); (48,0,2638552890727935); (49,0,2638552890727935); (50,0,2638552890727935); (51,0,2638552890727935); (52,0,2638552890727935); (53,0,2638552890727935); (56,0,2638552890727935); (57,0,2638552890727935); (58,0,2638552890727935); (62,0,2638552890727935); (63,0,2638552890727935); (64,0,2638552890727935); (65,0,2638552890727935); (66,0,2638552890727935); (67,0,2638552890727935); (68,0,2638552890727935)]
  ; [(3,0,2638552890727935); (4,0,2638552890727935); (5,0,2638552622292467); (6,0,2638552622292467); (7,0,2638552622292467); (8,0,2638552622292467); (9,0,2638552622292467); (10,0,2638552622292467); (11,0,2638552622292467); (12,0,2638552622292467); (13,0,2638552622292467); (14,0,2638552622292467); (15,0,2638552622292467); (16,0,2638552622292467); (17,0,2638552622292467); (18,0,2638552622292467); (19,0,2638552622292467); (19,2,2638552622292467); (20,0,2638552622292467); (21,0,2638552622292467); (22,0,2638552622292467); (23,0,2638552622292467); (24,0,2638552622292467); (25,0,2638552622292467); (26,0,2638552622292467); (27,0,2638552622292467); (28,0,2638552622292467); (29,0,2638552622292467); (30,0,2638552622292467); (31,0,2638552622292467); (32,0,2638552622292467); (33,0,2638552890727935); (34,0,2638552622292467); (35,0,2638552890727935); (36,0,2638552622292467); (37,0,2638552622292467); (38,0,2638552622292467); (39,0,2638552890727935); (40,0,2638552890727935); (41,0,2638552890727935); (42,0,2638552622292467); (43,0,2638552622292467); (44,0,2638552622292467); (45,0,2638552890727935); (46,0,2638552890727935); (47,0,2638552890727935); (48,0,2638552890727935); (49,0,2638552890727935); (50,0,2638552890727935); (51,0,2638552890727935); (52,0,2638552890727935); (53,0,2638552890727935); (56,0,2638552890727935); (57,0,2638552890727935); (58,0,2638552890727935); (62,0,2638552890727935); (63,0,2638552890727935); (64,0,2638552890727935); (65,0,2638552890727935); (66,0,2638552890727935); (67,0,2638552890727935); (68,0,2638552890727935)]
  ; [(20,2,2638552622292467)]
  ; [(3,0,2638552890727935); (4,0,2638552890727935); (5,0,2638552622292467); (6,0,2638552622292467); (7,0,2638552622292467); (8,0,2638552622292467); (9,0,2638552622292467); (10,0,2638552622292467); (11,0,2638552622292467); (12,0,2638552622292467); (13,0,2638552622292467); (14,0,2638552622292467); (15,0,2638552622292467); (16,0,2638552622292467); (17,0,2638552622292467); (18,0,2638552622292467); (19,0,2638552622292467); (20,0,2638552622292467); (21,0,2638552622292467); (21,2,2638552622292467); (22,0,2638552622292467); (23,0,2638552622292467); (24,0,2638552622292467); (25,0,2638552622292467); (26,0,2638552622292467); (27,0,2638552622292467); (28,0,2638552622292467); (29,0,2638552622292467); (30,0,2638552622292467); (31,0,2638552622292467); (32,0,2638552622292467); (33,0,2638552890727935); (34,0,2638552622292467); (35,0,2638552890727935); (36,0,2638552622292467); (37,0,2638552622292467); (38,0,2638552622292467); (39,0,2638552890727935); (40,0,2638552890727935); (41,0,2638552890727935); (42,0,2638552622292467); (43,0,2638552622292467); (44,0,2638552622292467); (45,0,2638552890727935); (46,0,2638552890727935); (47,0,2638552890727935); (48,0,2638552890727935); (49,0,2638552890727935); (50,0,2638552890727935); (51,0,2638552890727935); (52,0,2638552890727935); (53,0,2638552890727935); (56,0,2638552890727935); (57,0,2638552890727935); (58,0,2638552890727935); (62,0,2638552890727935); (63,0,2638552890727935); (64,0,2638552890727935); (65,0,2638552890727935); (66,0,2638552890727935); (67,0,2638552890727935); (68,0,2638552890727935)]
  ; [(3,0,2638552890727935); (4,0,2638552890727935); (5,0,2638552622292467); (6,0,2638552622292467); (7,0,2638552622292467); (8,0,2638552622292467); (9,0,2638552622292467); (10,0,2638552622292467); (11,0,2638552622292467); (12,0,2638552622292467); (13,0,2638552622292467); (14,0,2638552622292467); (15,0,2638552622292467); (16,0,2638552622292467); (17,0,2638552622292467); (18,0,2638552622292467); (19,0,2638552622292467); (20,0,2638552622292467); (21,0,2638552622292467); (22,0,2638552622292467); (22,2,2638552622292467); (23,0,2638552622292467); (24,0,2638552622292467); (25,0,2638552622292467); (26,0,2638552622292467); (27,0,2638552622292467); (28,0,2638552622292467); (29,0,2638552622292467); (30,0,2638552622292467); (31,0,2638552622292467); (32,0,2638552622292467); (33,0,2638552890727935); (34,0,2638552622292467); (35,0,2638552890727935); (36,0,2638552622292467); (37,0,2638552622292467); (38,0,2638552622292467); (39,0,2638552890727935); (40,0,2638552890727935); (41,0,2638552890727935); (42,0,2638552622292467); (43,0,2638552622292467); (44,0,2638552622292467); (45,0,2638552890727935); (46,0,2638552890727935); (47,0,2638552890727935); (48,0,2638552890727935); (49,0,2638552890727935); (50,0,2638552890727935); (51,0,2638552890727935); (52,0,2638552890727935); (53,0,2638552890727935); (56,0,2638552890727935); (57,0,2638552890727935); (58,0,2638552890727935); (62,0,2638552890727935); (63,0,2638552890727935); (64,0,2638552890727935); (65,0,2638552890727935); (66,0,2638552890727935); (67,0,2638552890727935); (68,0,2638552890727935)]
  ; [(3,0,2638552890727935); (4,0,2638552890727935); (5,0,2638552622292467); (6,0,2638552622292467); (7,0,2638552622292467); (8,0,2638552622292467); (9,0,2638552622292467); (10,0,2638552622292467); (11,0,2638552622292467); (12,0,2638552622292467); (13,0,2638552622292467); (14,0,2638552622292467); (15,0,2638552622292467); (16,0,2638552622292467); (17,0,2638552622292467); (18,0,2638552622292467); (19,0,2638552622292467); (20,0,2638552622292467); (21,0,2638552622292467); (22,0,2638552622292467); (23,0,2638552622292467); (23,2,2638552622292467); (24,0,2638552622292467); (25,0,2638552622292467); (26,0,2638552622292467); (27,0,2638552622292467); (28,0,2638552622292467); (29,0,2638552622292467); (30,0,2638552622292467); (31,0,2638552622292467); (32,0,2638552622292467); (33,0,2638552890727935); (34,0,2638552622292467); (35,0,2638552890727935); (36,0,2638552622292467); (37,0,2638552622292467); (38,0,2638552622292467); (39,0,2638552890727935); (40,0,2638552890727935); (41,0,2638552890727935); (42,0,2638552622292467); (43,0,2638552622292467); (44,0,2638552622292467); (45,0,2638552890727935); (46,0,2638552890727935); (47,0,2638552890727935); (48,0,2638552890727935); (49,0,2638552890727935); (50,0,2638552890727935); (51,0,2638552890727935); (52,0,2638552890727935); (53,0,2638552890727935); (56,0,2638552890727935); (57,0,2638552890727935); (58,0,2638552890727935); (62,0,2638552890727935); (63,0,2638552890727935); (64,0,2638552890727935); (65,0,2638552890727935); (66,0,2638552890727935); (67,0,2638552890727935); (68,0,2638552890727935)]
  ; [(3,0,2638552890727935); (4,0,2638552890727935); (5,0,2638552622292467); (6,0,2638552622292467); (7,0,2638552622292467); (8,0,2638552622292467); (9,0,2638552622292467); (10,0,2638552622292467); (11,0,2638552622292467); (12,0,2638552622292467); (13,0,2638552622292467); (14,0,2638552622292467); (15,0,2638552622292467); (16,0,2638552622292467); (17,0,2638552622292467); (18,0,2638552622292467); (19,0,2638552622292467); (20,0,2638552622292467); (21,0,2638552622292467); (22,0,2638552622292467); (23,0,2638552622292467); (24,0,2638552622292467); (24,2,2638552622292467); (25,0,2638552622292467); (26,0,2638552622292467); (27,0,2638552622292467); (28,0,2638552622292467); (29,0,2638552622292467); (30,0,2638552622292467); (31,0,2638552622292467); (32,0,2638552622292467); (33,0,2638552890727935); (34,0,2638552622292467); (35,0,2638552890727935); (36,0,2638552622292467); (37,0,2638552622292467); (38,0,2638552622292467); (39,0,2638552890727935); (40,0,2638552890727935); (41,0,2638552890727935); (42,0,2638552622292467); (43,0,2638552622292467); (44,0,2638552622292467); (45,0,2638552890727935); (46,0,2638552890727935); (47,0,2638552890727935); (48,0,2638552890727935); (49,0,2638552890727935); (50,0,2638552890727935); (51,0,2638552890727935); (52,0,2638552890727935); (53,0,2638552890727935); (56,0,2638552890727935); (57,0,2638552890727935); (58,0,2638552890727935); (62,0,2638552890727935); (63,0,2638552890727935); (64,0,2638552890727935); (65,0,2638552890727935); (66,0,2638552890727935); (67,0,2638552890727935); (68,0,2638552890727935)]
  ; [(3,0,2638552890727935); (4,0,2638552890727935); (5,0,2638552622292467); (6,0,2638552622292467); (7,0,2638552622292467); (8,0,2638552622292467); (9,0,2638552622292467); (10,0,2638552622292467); (11,0,2638552622292467); (12,0,2638552622292467); (13,0,2638552622292467); (14,0,2638552622292467); (15,0,2638552622292467); (16,0,2638552622292467); (17,0,2638552622292467); (18,0,2638552622292467); (19,0,2638552622292467); (20,0,2638552622292467); (21,0,2638552622292467); (22,0,2638552622292467); (23,0,2638552622292467); (24,0,2638552622292467); (25,0,2638552622292467); (25,2,2638552622292467); (26,0,2638552622292467); (27,0,2638552622292467); (28,0,2638552622292467); (29,0,2638552622292467); (30,0,2638552622292467); (31,0,2638552622292467); (32,0,2638552622292467); (33,0,2638552890727935); (34,0,2638552622292467); (35,0,2638552890727935); (36,0,2638552622292467); (37,0,2638552622292467); (38,0,2638552622292467); (39,0,2638552890727935); (40,0,2638552890727935); (41,0,2638552890727935); (42,0,2638552622292467); (43,0,2638552622292467); (44,0,2638552622292467); (45,0,2638552890727935); (46,0,2638552890727935); (47,0,2638552890727935); (48,0,2638552890727935); (49,0,2638552890727935); (50,0,2638552890727935); (51,0,2638552890727935); (52,0,2638552890727935); (53,0,2638552890727935); (56,0,2638552890727935); (57,0,2638552890727935); (58,0,2638552890727935); (62,0,2638552890727935); (63,0,2638552890727935); (64,0,2638552890727935); (65,0,2638552890727935); (66,0,2638552890727935); (67,0,2638552890727935); (68,0,2638552890727935)]
  ; [(3,0,2638552890727935); (4,0,2638552890727935); (5,0,2638552622292467); (6,0,2638552622292467); (7,0,2638552622292467); (8,0,2638552622292467); (9,0,2638552622292467); (10,0,2638552622292467); (11,0,2638552622292467); (12,0,2638552622292467); (13,0,2638552622292467); (14,0,2638552622292467); (15,0,2638552622292467); (16,0,2638552622292467); (17,0,2638552622292467); (18,0,2638552622292467); (19,0,2638552622292467); (20,0,2638552622292467); (21,0,2638552622292467); (22,0,2638552622292467); (23,0,2638552622292467); (24,0,2638552622292467); (25,0,2638552622292467); (26,0,2638552622292467); (26,2,2638552622292467); (27,0,2638552622292467); (28,0,2638552622292467); (29,0,2638552622292467); (30,0,2638552622292467); (31,0,2638552622292467); (32,0,2638552622292467); (33,0,2638552890727935); (34,0,2638552622292467); (35,0,2638552890727935); (36,0,2638552622292467); (37,0,2638552622292467); (38,0,2638552622292467); (39,0,2638552890727935); (40,0,2638552890727935); (41,0,2638552890727935); (42,0,2638552622292467); (43,0,2638552622292467); (44,0,2638552622292467); (45,0,2638552890727935); (46,0,2638552890727935); (47,0,2638552890727935); (48,0,2638552890727935); (49,0,2638552890727935); (50,0,2638552890727935); (51,0,2638552890727935); (52,0,2638552890727935); (53,0,2638552890727935); (56,0,2638552890727935); (57,0,2638552890727935); (58,0,2638552890727935); (62,0,2638552890727935); (63,0,2638552890727935); (64,0,2638552890727935); (65,0,2638552890727935); (66,0,2638552890727935); (67,0,2638552890727935); (68,0,2638552890727935)]
  ; [(3,0,2638552890727935); (4,0,2638552890727935); (5,0,2638552622292467); (6,0,2638552622292467); (7,0,2638552622292467); (8,0,2638552622292467); (9,0,2638552622292467); (10,0,2638552622292467); (11,0,2638552622292467); (12,0,2638552622292467); (13,0,2638552622292467); (14,0,2638552622292467); (15,0,2638552622292467); (16,0,2638552622292467); (17,0,2638552622292467); (18,0,2638552622292467); (19,0,2638552622292467); (20,0,2638552622292467); (21,0,2638552622292467); (22,0,2638552622292467); (23,0,2638552622292467); (24,0,2638552622292467); (25,0,2638552622292467); (26,0,2638552622292467); (27,0,2638552622292467); (27,2,2638552622292467); (28,0,2638552622292467); (29,0,2638552622292467); (30,0,2638552622292467); (31,0,2638552622292467); (32,0,2638552622292467); (33,0,2638552890727935); (34,0,2638552622292467); (35,0,2638552890727935); (36,0,2638552622292467); (37,0,2638552622292467); (38,0,2638552622292467); (39,0,2638552890727935); (40,0,2638552890727935); (41,0,2638552890727935); (42,0,2638552622292467); (43,0,2638552622292467); (44,0,2638552622292467); (45,0,2638552890727935); (46,0,2638552890727935); (47,0,2638552890727935); (48,0,2638552890727935); (49,0,2638552890727935); (50,0,2638552890727935); (51,0,2638552890727935); (52,0,2638552890727935); (53,0,2638552890727935); (56,0,2638552890727935); (57,0,2638552890727935); (58,0,2638552890727935); (62,0,2638552890727935); (63,0,2638552890727935); (64,0,2638552890727935); (65,0,2638552890727935); (66,0,2638552890727935); (67,0,2638552890727935); (68,0,2638552890727935)]
  ; [(3,0,2638552890727935); (4,0,2638552890727935); (5,0,2638552622292467); (6,0,2638552622292467); (7,0,2638552622292467); (8,0,2638552622292467); (9,0,2638552622292467); (10,0,2638552622292467); (11,0,2638552622292467); (12,0,2638552622292467); (13,0,2638552622292467); (14,0,2638552622292467); (15,0,2638552622292467); (16,0,2638552622292467); (17,0,2638552622292467); (18,0,2638552622292467); (19,0,2638552622292467); (20,0,2638552622292467); (21,0,2638552622292467); (22,0,2638552622292467); (23,0,2638552622292467); (24,0,2638552622292467); (25,0,2638552622292467); (26,0,2638552622292467); (27,0,2638552622292467); (28,0,2638552622292467); (28,2,2638552622292467); (29,0,2638552622292467); (30,0,2638552622292467); (31,0,2638552622292467); (32,0,2638552622292467); (33,0,2638552890727935); (34,0,2638552622292467); (35,0,2638552890727935); (36,0,2638552622292467); (37,0,2638552622292467); (38,0,2638552622292467); (39,0,2638552890727935); (40,0,2638552890727935); (41,0,2638552890727935); (42,0,2638552622292467); (43,0,2638552622292467); (44,0,2638552622292467); (45,0,2638552890727935); (46,0,2638552890727935); (47,0,2638552890727935); (48,0,2638552890727935); (49,0,2638552890727935); (50,0,2638552890727935); (51,0,2638552890727935); (52,0,2638552890727935); (53,0,2638552890727935); (56,0,2638552890727935); (57,0,2638552890727935); (58,0,2638552890727935); (62,0,2638552890727935); (63,0,2638552890727935); (64,0,2638552890727935); (65,0,2638552890727935); (66,0,2638552890727935); (67,0,2638552890727935); (68,0,2638552890727935)]
  ; [(3,0,2638552890727935); (4,0,2638552890727935); (5,0,2638552622292467); (6,0,2638552622292467); (7,0,2638552622292467); (8,0,2638552622292467); (9,0,2638552622292467); (10,0,2638552622292467); (11,0,2638552622292467); (12,0,2638552622292467); (13,0,2638552622292467); (14,0,2638552622292467); (15,0,2638552622292467); (16,0,2638552622292467); (17,0,2638552622292467); (18,0,2638552622292467); (19,0,2638552622292467); (20,0,2638552622292467); (21,0,2638552622292467); (22,0,2638552622292467); (23,0,2638552622292467); (24,0,2638552622292467); (25,0,2638552622292467); (26,0,2638552622292467); (27,0,2638552622292467); (28,0,2638552622292467); (29,0,2638552622292467); (29,2,2638552622292467); (30,0,2638552622292467); (31,0,2638552622292467); (32,0,2638552622292467); (33,0,2638552890727935); (34,0,2638552622292467); (35,0,2638552890727935); (36,0,2638552622292467); (37,0,2638552622292467); (38,0,2638552622292467); (39,0,2638552890727935); (40,0,2638552890727935); (41,0,2638552890727935); (42,0,2638552622292467); (43,0,2638552622292467); (44,0,2638552622292467); (45,0,2638552890727935); (46,0,2638552890727935); (47,0,2638552890727935); (48,0,2638552890727935); (49,0,2638552890727935); (50,0,2638552890727935); (51,0,2638552890727935); (52,0,2638552890727935); (53,0,2638552890727935); (56,0,2638552890727935); (57,0,2638552890727935); (58,0,2638552890727935); (62,0,2638552890727935); (63,0,2638552890727935); (64,0,2638552890727935); (65,0,2638552890727935); (66,0,2638552890727935); (67,0,2638552890727935); (68,0,2638552890727935)]
  ; [(3,0,2638552890727935); (4,0,2638552890727935); (5,0,2638552622292467); (6,0,2638552622292467); (7,0,2638552622292467); (8,0,2638552622292467); (9,0,2638552622292467); (10,0,2638552622292467); (11,0,2638552622292467); (12,0,2638552622292467); (13,0,2638552622292467); (14,0,2638552622292467); (15,0,2638552622292467); (16,0,2638552622292467); (17,0,2638552622292467); (18,0,2638552622292467); (19,0,2638552622292467); (20,0,2638552622292467); (21,0,2638552622292467); (22,0,2638552622292467); (23,0,2638552622292467); (24,0,2638552622292467); (25,0,2638552622292467); (26,0,2638552622292467); (27,0,2638552622292467); (28,0,2638552622292467); (29,0,2638552622292467); (30,0,2638552622292467); (30,2,2638552622292467); (31,0,2638552622292467); (32,0,2638552622292467); (33,0,2638552890727935); (34,0,2638552622292467); (35,0,2638552890727935); (36,0,2638552622292467); (37,0,2638552622292467); (38,0,2638552622292467); (39,0,2638552890727935); (40,0,2638552890727935); (41,0,2638552890727935); (42,0,2638552622292467); (43,0,2638552622292467); (44,0,2638552622292467); (45,0,2638552890727935); (46,0,2638552890727935); (47,0,2638552890727935); (48,0,2638552890727935); (49,0,2638552890727935); (50,0,2638552890727935); (51,0,2638552890727935); (52,0,2638552890727935); (53,0,2638552890727935); (56,0,2638552890727935); (57,0,2638552890727935); (58,0,2638552890727935); (62,0,2638552890727935); (63,0,2638552890727935); (64,0,2638552890727935); (65,0,2638552890727935); (66,0,2638552890727935); (67,0,2638552890727935); (68,0,2638552890727935)]
  ; [(3,0,2638552890727935); (4,0,2638552890727935); (5,0,2638552622292467); (6,0,2638552622292467); (7,0,2638552622292467); (8,0,2638552622292467); (9,0,2638552622292467); (10,0,2638552622292467); (11,0,2638552622292467); (12,0,2638552622292467); (13,0,2638552622292467); (14,0,2638552622292467); (15,0,2638552622292467); (16,0,2638552622292467); (17,0,2638552622292467); (18,0,2638552622292467); (19,0,2638552622292467); (20,0,2638552622292467); (21,0,2638552622292467); (22,0,2638552622292467); (23,0,2638552622292467); (24,0,2638552622292467); (25,0,2638552622292467); (26,0,2638552622292467); (27,0,2638552622292467); (28,0,2638552622292467); (29,0,2638552622292467); (30,0,2638552622292467); (31,0,2638552622292467); (31,2,2638552622292467); (32,0,2638552622292467); (33,0,2638552890727935); (34,0,2638552622292467); (35,0,2638552890727935); (36,0,2638552622292467); (37,0,2638552622292467); (38,0,2638552622292467); (39,0,2638552890727935); (40,0,2638552890727935); (41,0,2638552890727935); (42,0,2638552622292467); (43,0,2638552622292467); (44,0,2638552622292467); (45,0,2638552890727935); (46,0,2638552890727935); (47,0,2638552890727935); (48,0,2638552890727935); (49,0,2638552890727935); (50,0,2638552890727935); (51,0,2638552890727935); (52,0,2638552890727935); (53,0,2638552890727935); (56,0,2638552890727935); (57,0,2638552890727935); (58,0,2638552890727935); (62,0,2638552890727935); (63,0,2638552890727935); (64,0,2638552890727935); (65,0,2638552890727935); (66,0,2638552890727935); (67,0,2638552890727935); (68,0,2638552890727935)]
  ; [(3,0,2638552890727935); (4,0,2638552890727935); (5,0,2638552622292467); (6,0,2638552622292467); (7,0,2638552622292467); (8,0,2638552622292467); (9,0,2638552622292467); (10,0,2638552622292467); (11,0,2638552622292467); (12,0,2638552622292467); (13,0,2638552622292467); (14,0,2638552622292467); (15,0,2638552622292467); (16,0,2638552622292467); (17,0,2638552622292467); (18,0,2638552622292467); (19,0,2638552622292467); (20,0,2638552622292467); (21,0,2638552622292467); (22,0,2638552622292467); (23,0,2638552622292467); (24,0,2638552622292467); (25,0,2638552622292467); (26,0,2638552622292467); (27,0,2638552622292467); (28,0,2638552622292467); (29,0,2638552622292467); (30,0,2638552622292467); (31,0,2638552622292467); (32,0,2638552622292467); (32,2,2638552622292467); (33,0,2638552890727935); (34,0,2638552622292467); (35,0,2638552890727935); (36,0,2638552622292467); (37,0,2638552622292467); (38,0,2638552622292467); (39,0,2638552890727935); (40,0,2638552890727935); (41,0,2638552890727935); (42,0,2638552622292467); (43,0,2638552622292467); (44,0,2638552622292467); (45,0,2638552890727935); (46,0,2638552890727935); (47,0,2638552890727935); (48,0,2638552890727935); (49,0,2638552890727935); (50,0,2638552890727935); (51,0,2638552890727935); (52,0,2638552890727935); (53,0,2638552890727935); (56,0,2638552890727935); (57,0,2638552890727935); (58,0,2638552890727935); (62,0,2638552890727935); (63,0,2638552890727935); (64,0,2638552890727935); (65,0,2638552890727935); (66,0,2638552890727935); (67,0,2638552890727935); (68,0,2638552890727935)]
  ; [(3,0,373558899755519); (4,0,373558899755519); (5,0,373558631320051); (6,0,373558631320051); (7,0,373558631320051); (8,0,373558631320051); (9,0,373558631320051); (10,0,373558631320051); (11,0,373558631320051); (12,0,373558631320051); (13,0,373558631320051); (14,0,373558631320051); (15,0,373558631320051); (16,0,373558631320051); (17,0,373558631320051); (18,0,373558631320051); (19,0,373558631320051); (20,0,373558631320051); (21,0,373558631320051); (22,0,373558631320051); (23,0,373558631320051); (24,0,373558631320051); (25,0,373558631320051); (26,0,373558631320051); (27,0,373558631320051); (28,0,373558631320051); (29,0,373558631320051); (30,0,373558631320051); (31,0,373558631320051); (32,0,373558631320051); (33,0,373558899755519); (34,0,373558631320051); (35,0,373558899755519); (36,0,373558631320051); (37,0,373558631320051); (38,0,373558631320051); (39,0,373558899755519); (40,0,373558899755519); (41,0,373558899755519); (42,0,373558631320051); (43,0,373558631320051); (44,0,373558631320051); (45,0,373558899755519); (46,0,373558899755519); (47,0,373558899755519); (48,0,373558899755519); (49,0,373558899755519); (50,0,373558899755519); (51,0,373558899755519); (52,0,373558899755519); (53,0,373558899755519); (54,0,17592186046464); (55,0,17592186046464); (56,0,373558899755519); (57,0,373558899755519); (58,0,373558899755519); (62,0,373558899755519); (63,0,373558899755519); (64,0,373558899755519); (65,0,373558899755519); (66,0,373558899755519); (67,0,373558899755519); (67,2,2638552890727935); (68,0,373558899755519); (68,2,2638552890727935)]
  ; [(3,2,2638552890727935)]
  ; [(4,2,2638552890727935)]
  ; [(3,0,364762806732287); (4,0,364762806732287); (5,0,364762538296819); (6,0,364762538296819); (7,0,364762538296819); (8,0,364762538296819); (9,0,364762538296819); (10,0,364762538296819); (11,0,364762538296819); (12,0,364762538296819); (13,0,364762538296819); (14,0,364762538296819); (15,0,364762538296819); (16,0,364762538296819); (17,0,364762538296819); (18,0,364762538296819); (19,0,364762538296819); (20,0,364762538296819); (21,0,364762538296819); (22,0,364762538296819); (23,0,364762538296819); (24,0,364762538296819); (25,0,364762538296819); (26,0,364762538296819); (27,0,364762538296819); (28,0,364762538296819); (29,0,364762538296819); (30,0,364762538296819); (31,0,364762538296819); (32,0,364762538296819); (33,0,364762806732287); (34,0,364762538296819); (35,0,364762806732287); (36,0,364762538296819); (37,0,364762538296819); (38,0,364762538296819); (39,0,364762806732287); (40,0,364762806732287); (41,0,364762806732287); (42,0,364762538296819); (43,0,364762538296819); (44,0,364762538296819); (45,0,364762806732287); (46,0,364762806732287); (47,0,364762806732287); (48,0,364762806732287); (49,0,364762806732287); (50,0,364762806732287); (51,0,364762806732287); (52,0,364762806732287); (53,0,364762806732287); (56,0,364762806732287); (57,0,364762806732287); (58,0,364762806732287); (62,0,364762806732287); (62,2,2638552890727935); (63,0,364762806732287); (63,2,2638552890727935); (64,0,364762806732287); (64,2,2638552890727935); (65,0,364762806732287); (65,2,2638552890727935); (66,0,364762806732287); (66,2,2638552890727935); (67,0,364762806732287); (68,0,364762806732287)]
  ; [(6,1,2638552622292467); (7,1,2638552622292467); (8,1,2638552622292467); (9,1,2638552622292467); (10,1,2638552622292467); (11,1,2638552622292467); (12,1,2638552622292467); (13,1,2638552622292467); (14,1,2638552622292467); (15,1,2638552622292467); (16,1,2638552622292467); (17,1,2638552622292467); (18,1,2638552622292467); (19,1,2638552622292467); (20,1,2638552622292467); (21,1,2638552622292467); (22,1,2638552622292467); (23,1,2638552622292467); (24,1,2638552622292467); (25,1,2638552622292467); (26,1,2638552622292467); (27,1,2638552622292467); (28,1,2638552622292467); (29,1,2638552622292467); (30,1,2638552622292467); (31,1,2638552622292467); (32,1,2638552622292467); (36,2,2638552622292467); (67,1,2638552890727935); (68,1,2638552890727935)]
  ; [(6,1,2638552622292467); (7,1,2638552622292467); (8,1,2638552622292467); (9,1,2638552622292467); (10,1,2638552622292467); (11,1,2638552622292467); (12,1,2638552622292467); (13,1,2638552622292467); (14,1,2638552622292467); (15,1,2638552622292467); (16,1,2638552622292467); (17,1,2638552622292467); (18,1,2638552622292467); (19,1,2638552622292467); (20,1,2638552622292467); (21,1,2638552622292467); (22,1,2638552622292467); (23,1,2638552622292467); (24,1,2638552622292467); (25,1,2638552622292467); (26,1,2638552622292467); (27,1,2638552622292467); (28,1,2638552622292467); (29,1,2638552622292467); (30,1,2638552622292467); (31,1,2638552622292467); (32,1,2638552622292467); (34,2,2638552622292467); (67,1,2638552890727935); (68,1,2638552890727935)]
  ; [(6,1,373558631318003); (7,1,373558631318003); (8,1,373558631318003); (9,1,373558631318003); (10,1,373558631318003); (11,1,373558631318003); (12,1,373558631318003); (13,1,373558631318003); (14,1,373558631318003); (15,1,373558631318003); (16,1,373558631318003); (17,1,373558631318003); (18,1,373558631318003); (19,1,373558631318003); (20,1,373558631318003); (21,1,373558631318003); (22,1,373558631318003); (23,1,373558631318003); (24,1,373558631318003); (25,1,373558631318003); (26,1,373558631318003); (27,1,373558631318003); (28,1,373558631318003); (29,1,373558631318003); (30,1,373558631318003); (31,1,373558631318003); (32,1,373558631318003); (33,2,2638552890727935); (67,1,373558899753471); (68,1,373558899753471)]
  ; [(46,2,2638552890727935); (47,2,2638552890727935); (55,1,4398046513152)]
  ; [(56,2,2638552890727935)]
  ; [(57,2,2638552890727935); (58,2,2638552890727935); (61,1,4398046513152)]
  ; [(6,1,360364491787763); (7,1,360364491787763); (8,1,360364491787763); (9,1,360364491787763); (10,1,360364491787763); (11,1,360364491787763); (12,1,360364491787763); (13,1,360364491787763); (14,1,360364491787763); (15,1,360364491787763); (16,1,360364491787763); (17,1,360364491787763); (18,1,360364491787763); (19,1,360364491787763); (20,1,360364491787763); (21,1,360364491787763); (22,1,360364491787763); (23,1,360364491787763); (24,1,360364491787763); (25,1,360364491787763); (26,1,360364491787763); (27,1,360364491787763); (28,1,360364491787763); (29,1,360364491787763); (30,1,360364491787763); (31,1,360364491787763); (32,1,360364491787763); (54,1,4398046513152); (59,1,4398046513152); (67,1,360364760223231); (68,1,360364760223231)]
  ; [(60,1,4398046513152)]
  ; [(49,2,2638552890727935)]
  ; [(50,2,2638552890727935); (51,2,2638552890727935); (55,1,8796093024256)]
  ; [(6,1,364762542492147); (7,1,364762542492147); (8,1,364762542492147); (9,1,364762542492147); (10,1,364762542492147); (11,1,364762542492147); (12,1,364762542492147); (13,1,364762542492147); (14,1,364762542492147); (15,1,364762542492147); (16,1,364762542492147); (17,1,364762542492147); (18,1,364762542492147); (19,1,364762542492147); (20,1,364762542492147); (21,1,364762542492147); (22,1,364762542492147); (23,1,364762542492147); (24,1,364762542492147); (25,1,364762542492147); (26,1,364762542492147); (27,1,364762542492147); (28,1,364762542492147); (29,1,364762542492147); (30,1,364762542492147); (31,1,364762542492147); (32,1,364762542492147); (52,2,2638552890727935); (53,2,2638552890727935); (54,1,8796093024256); (67,1,364762810927615); (68,1,364762810927615)]
  ; [(6,1,355966445274611); (6,3,2638552622292467); (7,1,355966445274611); (8,1,355966445274611); (9,1,355966445274611); (10,1,355966445274611); (11,1,355966445274611); (12,1,355966445274611); (13,1,355966445274611); (14,1,355966445274611); (15,1,355966445274611); (16,1,355966445274611); (17,1,355966445274611); (18,1,355966445274611); (19,1,355966445274611); (20,1,355966445274611); (21,1,355966445274611); (22,1,355966445274611); (23,1,355966445274611); (24,1,355966445274611); (25,1,355966445274611); (26,1,355966445274611); (27,1,355966445274611); (28,1,355966445274611); (29,1,355966445274611); (30,1,355966445274611); (31,1,355966445274611); (32,1,355966445274611); (67,1,355966713710079); (68,1,355966713710079)]
  ; [(6,1,2638552622292467); (7,1,2638552622292467); (7,3,2638552622292467); (8,1,2638552622292467); (9,1,2638552622292467); (10,1,2638552622292467); (11,1,2638552622292467); (12,1,2638552622292467); (13,1,2638552622292467); (14,1,2638552622292467); (15,1,2638552622292467); (16,1,2638552622292467); (17,1,2638552622292467); (18,1,2638552622292467); (19,1,2638552622292467); (20,1,2638552622292467); (21,1,2638552622292467); (22,1,2638552622292467); (23,1,2638552622292467); (24,1,2638552622292467); (25,1,2638552622292467); (26,1,2638552622292467); (27,1,2638552622292467); (28,1,2638552622292467); (29,1,2638552622292467); (30,1,2638552622292467); (31,1,2638552622292467); (32,1,2638552622292467); (67,1,2638552890727935); (68,1,2638552890727935)]
  ; [(6,1,2638552622292467); (7,1,2638552622292467); (8,1,2638552622292467); (8,3,2638552622292467); (9,1,2638552622292467); (10,1,2638552622292467); (11,1,2638552622292467); (12,1,2638552622292467); (13,1,2638552622292467); (14,1,2638552622292467); (15,1,2638552622292467); (16,1,2638552622292467); (17,1,2638552622292467); (18,1,2638552622292467); (19,1,2638552622292467); (20,1,2638552622292467); (21,1,2638552622292467); (22,1,2638552622292467); (23,1,2638552622292467); (24,1,2638552622292467); (25,1,2638552622292467); (26,1,2638552622292467); (27,1,2638552622292467); (28,1,2638552622292467); (29,1,2638552622292467); (30,1,2638552622292467); (31,1,2638552622292467); (32,1,2638552622292467); (67,1,2638552890727935); (68,1,2638552890727935)]
  ; [(6,1,2638552622292467); (7,1,2638552622292467); (8,1,2638552622292467); (9,1,2638552622292467); (9,3,2638552622292467); (10,1,2638552622292467); (11,1,2638552622292467); (12,1,2638552622292467); (13,1,2638552622292467); (14,1,2638552622292467); (15,1,2638552622292467); (16,1,2638552622292467); (17,1,2638552622292467); (18,1,2638552622292467); (19,1,2638552622292467); (20,1,2638552622292467); (21,1,2638552622292467); (22,1,2638552622292467); (23,1,2638552622292467); (24,1,2638552622292467); (25,1,2638552622292467); (26,1,2638552622292467); (27,1,2638552622292467); (28,1,2638552622292467); (29,1,2638552622292467); (30,1,2638552622292467); (31,1,2638552622292467); (32,1,2638552622292467); (67,1,2638552890727935); (68,1,2638552890727935)]
  ; [(6,1,2638552622292467); (7,1,2638552622292467); (8,1,2638552622292467); (9,1,2638552622292467); (10,1,2638552622292467); (10,3,2638552622292467); (11,1,2638552622292467); (12,1,2638552622292467); (13,1,2638552622292467); (14,1,2638552622292467); (15,1,2638552622292467); (16,1,2638552622292467); (17,1,2638552622292467); (18,1,2638552622292467); (19,1,2638552622292467); (20,1,2638552622292467); (21,1,2638552622292467); (22,1,2638552622292467); (23,1,2638552622292467); (24,1,2638552622292467); (25,1,2638552622292467); (26,1,2638552622292467); (27,1,2638552622292467); (28,1,2638552622292467); (29,1,2638552622292467); (30,1,2638552622292467); (31,1,2638552622292467); (32,1,2638552622292467); (67,1,2638552890727935); (68,1,2638552890727935)]
  ; [(6,1,2638552622292467); (7,1,2638552622292467); (8,1,2638552622292467); (9,1,2638552622292467); (10,1,2638552622292467); (11,1,2638552622292467); (11,3,2638552622292467); (12,1,2638552622292467); (13,1,2638552622292467); (14,1,2638552622292467); (15,1,2638552622292467); (16,1,2638552622292467); (17,1,2638552622292467); (18,1,2638552622292467); (19,1,2638552622292467); (20,1,2638552622292467); (21,1,2638552622292467); (22,1,2638552622292467); (23,1,2638552622292467); (24,1,2638552622292467); (25,1,2638552622292467); (26,1,2638552622292467); (27,1,2638552622292467); (28,1,2638552622292467); (29,1,2638552622292467); (30,1,2638552622292467); (31,1,2638552622292467); (32,1,2638552622292467); (67,1,2638552890727935); (68,1,2638552890727935)]
  ; [(6,1,2638552622292467); (7,1,2638552622292467); (8,1,2638552622292467); (9,1,2638552622292467); (10,1,2638552622292467); (11,1,2638552622292467); (12,1,2638552622292467); (12,3,2638552622292467); (13,1,2638552622292467); (14,1,2638552622292467); (15,1,2638552622292467); (16,1,2638552622292467); (17,1,2638552622292467); (18,1,2638552622292467); (19,1,2638552622292467); (20,1,2638552622292467); (21,1,2638552622292467); (22,1,2638552622292467); (23,1,2638552622292467); (24,1,2638552622292467); (25,1,2638552622292467); (26,1,2638552622292467); (27,1,2638552622292467); (28,1,2638552622292467); (29,1,2638552622292467); (30,1,2638552622292467); (31,1,2638552622292467); (32,1,2638552622292467); (67,1,2638552890727935); (68,1,2638552890727935)]
  ; [(6,1,2638552622292467); (7,1,2638552622292467); (8,1,2638552622292467); (9,1,2638552622292467); (10,1,2638552622292467); (11,1,2638552622292467); (12,1,2638552622292467); (13,1,2638552622292467); (13,3,2638552622292467); (14,1,2638552622292467); (15,1,2638552622292467); (16,1,2638552622292467); (17,1,2638552622292467); (18,1,2638552622292467); (19,1,2638552622292467); (20,1,2638552622292467); (21,1,2638552622292467); (22,1,2638552622292467); (23,1,2638552622292467); (24,1,2638552622292467); (25,1,2638552622292467); (26,1,2638552622292467); (27,1,2638552622292467); (28,1,2638552622292467); (29,1,2638552622292467); (30,1,2638552622292467); (31,1,2638552622292467); (32,1,2638552622292467); (67,1,2638552890727935); (68,1,2638552890727935)]
  ; [(6,1,2638552622292467); (7,1,2638552622292467); (8,1,2638552622292467); (9,1,2638552622292467); (10,1,2638552622292467); (11,1,2638552622292467); (12,1,2638552622292467); (13,1,2638552622292467); (14,1,2638552622292467); (14,3,2638552622292467); (15,1,2638552622292467); (16,1,2638552622292467); (17,1,2638552622292467); (18,1,2638552622292467); (19,1,2638552622292467); (20,1,2638552622292467); (21,1,2638552622292467); (22,1,2638552622292467); (23,1,2638552622292467); (24,1,2638552622292467); (25,1,2638552622292467); (26,1,2638552622292467); (27,1,2638552622292467); (28,1,2638552622292467); (29,1,2638552622292467); (30,1,2638552622292467); (31,1,2638552622292467); (32,1,2638552622292467); (67,1,2638552890727935); (68,1,2638552890727935)]
  ; [(6,1,2638552622292467); (7,1,2638552622292467); (8,1,2638552622292467); (9,1,2638552622292467); (10,1,2638552622292467); (11,1,2638552622292467); (12,1,2638552622292467); (13,1,2638552622292467); (14,1,2638552622292467); (15,1,2638552622292467); (15,3,2638552622292467); (16,1,2638552622292467); (17,1,2638552622292467); (18,1,2638552622292467); (19,1,2638552622292467); (20,1,2638552622292467); (21,1,2638552622292467); (22,1,2638552622292467); (23,1,2638552622292467); (24,1,2638552622292467); (25,1,2638552622292467); (26,1,2638552622292467); (27,1,2638552622292467); (28,1,2638552622292467); (29,1,2638552622292467); (30,1,2638552622292467); (31,1,2638552622292467); (32,1,2638552622292467); (67,1,2638552890727935); (68,1,2638552890727935)]
  ; [(6,1,2638552622292467); (7,1,2638552622292467); (8,1,2638552622292467); (9,1,2638552622292467); (10,1,2638552622292467); (11,1,2638552622292467); (12,1,2638552622292467); (13,1,2638552622292467); (14,1,2638552622292467); (15,1,2638552622292467); (16,1,2638552622292467); (16,3,2638552622292467); (17,1,2638552622292467); (18,1,2638552622292467); (19,1,2638552622292467); (20,1,2638552622292467); (21,1,2638552622292467); (22,1,2638552622292467); (23,1,2638552622292467); (24,1,2638552622292467); (25,1,2638552622292467); (26,1,2638552622292467); (27,1,2638552622292467); (28,1,2638552622292467); (29,1,2638552622292467); (30,1,2638552622292467); (31,1,2638552622292467); (32,1,2638552622292467); (67,1,2638552890727935); (68,1,2638552890727935)]
  ; [(6,1,2638552622292467); (7,1,2638552622292467); (8,1,2638552622292467); (9,1,2638552622292467); (10,1,2638552622292467); (11,1,2638552622292467); (12,1,2638552622292467); (13,1,2638552622292467); (14,1,2638552622292467); (15,1,2638552622292467); (16,1,2638552622292467); (17,1,2638552622292467); (17,3,2638552622292467); (18,1,2638552622292467); (19,1,2638552622292467); (20,1,2638552622292467); (21,1,2638552622292467); (22,1,2638552622292467); (23,1,2638552622292467); (24,1,2638552622292467); (25,1,2638552622292467); (26,1,2638552622292467); (27,1,2638552622292467); (28,1,2638552622292467); (29,1,2638552622292467); (30,1,2638552622292467); (31,1,2638552622292467); (32,1,2638552622292467); (67,1,2638552890727935); (68,1,2638552890727935)]
  ; [(6,1,2638552622292467); (7,1,2638552622292467); (8,1,2638552622292467); (9,1,2638552622292467); (10,1,2638552622292467); (11,1,2638552622292467); (12,1,2638552622292467); (13,1,2638552622292467); (14,1,2638552622292467); (15,1,2638552622292467); (16,1,2638552622292467); (17,1,2638552622292467); (18,1,2638552622292467); (18,3,2638552622292467); (19,1,2638552622292467); (20,1,2638552622292467); (21,1,2638552622292467); (22,1,2638552622292467); (23,1,2638552622292467); (24,1,2638552622292467); (25,1,2638552622292467); (26,1,2638552622292467); (27,1,2638552622292467); (28,1,2638552622292467); (29,1,2638552622292467); (30,1,2638552622292467); (31,1,2638552622292467); (32,1,2638552622292467); (67,1,2638552890727935); (68,1,2638552890727935)]
  ; [(6,1,2638552622292467); (7,1,2638552622292467); (8,1,2638552622292467); (9,1,2638552622292467); (10,1,2638552622292467); (11,1,2638552622292467); (12,1,2638552622292467); (13,1,2638552622292467); (14,1,2638552622292467); (15,1,2638552622292467); (16,1,2638552622292467); (17,1,2638552622292467); (18,1,2638552622292467); (19,1,2638552622292467); (19,3,2638552622292467); (20,1,2638552622292467); (21,1,2638552622292467); (22,1,2638552622292467); (23,1,2638552622292467); (24,1,2638552622292467); (25,1,2638552622292467); (26,1,2638552622292467); (27,1,2638552622292467); (28,1,2638552622292467); (29,1,2638552622292467); (30,1,2638552622292467); (31,1,2638552622292467); (32,1,2638552622292467); (67,1,2638552890727935); (68,1,2638552890727935)]
  ; [(3,0,2638552890727935); (4,0,2638552890727935); (5,0,2638552622292467); (6,0,2638552622292467); (7,0,2638552622292467); (8,0,2638552622292467); (9,0,2638552622292467); (10,0,2638552622292467); (11,0,2638552622292467); (12,0,2638552622292467); (13,0,2638552622292467); (14,0,2638552622292467); (15,0,2638552622292467); (16,0,2638552622292467); (17,0,2638552622292467); (18,0,2638552622292467); (19,0,2638552622292467); (20,0,2638552622292467); (20,3,2638552622292467); (21,0,2638552622292467); (22,0,2638552622292467); (23,0,2638552622292467); (24,0,2638552622292467); (25,0,2638552622292467); (26,0,2638552622292467); (27,0,2638552622292467); (28,0,2638552622292467); (29,0,2638552622292467); (30,0,2638552622292467); (31,0,2638552622292467); (32,0,2638552622292467); (33,0,2638552890727935); (34,0,2638552622292467); (35,0,2638552890727935); (36,0,2638552622292467); (37,0,2638552622292467); (38,0,2638552622292467); (39,0,2638552890727935); (40,0,2638552890727935); (41,0,2638552890727935); (42,0,2638552622292467); (43,0,2638552622292467); (44,0,2638552622292467); (45,0,2638552890727935); (46,0,2638552890727935); (47,0,2638552890727935); (48,0,2638552890727935); (49,0,2638552890727935); (50,0,2638552890727935); (51,0,2638552890727935); (52,0,2638552890727935); (53,0,2638552890727935); (56,0,2638552890727935); (57,0,2638552890727935); (58,0,2638552890727935); (62,0,2638552890727935); (63,0,2638552890727935); (64,0,2638552890727935); (65,0,2638552890727935); (66,0,2638552890727935); (67,0,2638552890727935); (68,0,2638552890727935)]
  ; [(6,1,2638552622292467); (7,1,2638552622292467); (8,1,2638552622292467); (9,1,2638552622292467); (10,1,2638552622292467); (11,1,2638552622292467); (12,1,2638552622292467); (13,1,2638552622292467); (14,1,2638552622292467); (15,1,2638552622292467); (16,1,2638552622292467); (17,1,2638552622292467); (18,1,2638552622292467); (19,1,2638552622292467); (20,1,2638552622292467); (21,1,2638552622292467); (21,3,2638552622292467); (22,1,2638552622292467); (23,1,2638552622292467); (24,1,2638552622292467); (25,1,2638552622292467); (26,1,2638552622292467); (27,1,2638552622292467); (28,1,2638552622292467); (29,1,2638552622292467); (30,1,2638552622292467); (31,1,2638552622292467); (32,1,2638552622292467); (67,1,2638552890727935); (68,1,2638552890727935)]
  ; [(6,1,2638552622292467); (7,1,2638552622292467); (8,1,2638552622292467); (9,1,2638552622292467); (10,1,2638552622292467); (11,1,2638552622292467); (12,1,2638552622292467); (13,1,2638552622292467); (14,1,2638552622292467); (15,1,2638552622292467); (16,1,2638552622292467); (17,1,2638552622292467); (18,1,2638552622292467); (19,1,2638552622292467); (20,1,2638552622292467); (21,1,2638552622292467); (22,1,2638552622292467); (22,3,2638552622292467); (23,1,2638552622292467); (24,1,2638552622292467); (25,1,2638552622292467); (26,1,2638552622292467); (27,1,2638552622292467); (28,1,2638552622292467); (29,1,2638552622292467); (30,1,2638552622292467); (31,1,2638552622292467); (32,1,2638552622292467); (67,1,2638552890727935); (68,1,2638552890727935)]
  ; [(6,1,2638552622292467); (7,1,2638552622292467); (8,1,2638552622292467); (9,1,2638552622292467); (10,1,2638552622292467); (11,1,2638552622292467); (12,1,2638552622292467); (13,1,2638552622292467); (14,1,2638552622292467); (15,1,2638552622292467); (16,1,2638552622292467); (17,1,2638552622292467); (18,1,2638552622292467); (19,1,2638552622292467); (20,1,2638552622292467); (21,1,2638552622292467); (22,1,2638552622292467); (23,1,2638552622292467); (23,3,2638552622292467); (24,1,2638552622292467); (25,1,2638552622292467); (26,1,2638552622292467); (27,1,2638552622292467); (28,1,2638552622292467); (29,1,2638552622292467); (30,1,2638552622292467); (31,1,2638552622292467); (32,1,2638552622292467); (67,1,2638552890727935); (68,1,2638552890727935)]
  ; [(6,1,2638552622292467); (7,1,2638552622292467); (8,1,2638552622292467); (9,1,2638552622292467); (10,1,2638552622292467); (11,1,2638552622292467); (12,1,2638552622292467); (13,1,2638552622292467); (14,1,2638552622292467); (15,1,2638552622292467); (16,1,2638552622292467); (17,1,2638552622292467); (18,1,2638552622292467); (19,1,2638552622292467); (20,1,2638552622292467); (21,1,2638552622292467); (22,1,2638552622292467); (23,1,2638552622292467); (24,1,2638552622292467); (24,3,2638552622292467); (25,1,2638552622292467); (26,1,2638552622292467); (27,1,2638552622292467); (28,1,2638552622292467); (29,1,2638552622292467); (30,1,2638552622292467); (31,1,2638552622292467); (32,1,2638552622292467); (67,1,2638552890727935); (68,1,2638552890727935)]
  ; [(6,1,2638552622292467); (7,1,2638552622292467); (8,1,2638552622292467); (9,1,2638552622292467); (10,1,2638552622292467); (11,1,2638552622292467); (12,1,2638552622292467); (13,1,2638552622292467); (14,1,2638552622292467); (15,1,2638552622292467); (16,1,2638552622292467); (17,1,2638552622292467); (18,1,2638552622292467); (19,1,2638552622292467); (20,1,2638552622292467); (21,1,2638552622292467); (22,1,2638552622292467); (23,1,2638552622292467); (24,1,2638552622292467); (25,1,2638552622292467); (25,3,2638552622292467); (26,1,2638552622292467); (27,1,2638552622292467); (28,1,2638552622292467); (29,1,2638552622292467); (30,1,2638552622292467); (31,1,2638552622292467); (32,1,2638552622292467); (67,1,2638552890727935); (68,1,2638552890727935)]
  ; [(6,1,2638552622292467); (7,1,2638552622292467); (8,1,2638552622292467); (9,1,2638552622292467); (10,1,2638552622292467); (11,1,2638552622292467); (12,1,2638552622292467); (13,1,2638552622292467); (14,1,2638552622292467); (15,1,2638552622292467); (16,1,2638552622292467); (17,1,2638552622292467); (18,1,2638552622292467); (19,1,2638552622292467); (20,1,2638552622292467); (21,1,2638552622292467); (22,1,2638552622292467); (23,1,2638552622292467); (24,1,2638552622292467); (25,1,2638552622292467); (26,1,2638552622292467); (26,3,2638552622292467); (27,1,2638552622292467); (28,1,2638552622292467); (29,1,2638552622292467); (30,1,2638552622292467); (31,1,2638552622292467); (32,1,2638552622292467); (67,1,2638552890727935); (68,1,2638552890727935)]
  ; [(6,1,2638552622292467); (7,1,2638552622292467); (8,1,2638552622292467); (9,1,2638552622292467); (10,1,2638552622292467); (11,1,2638552622292467); (12,1,2638552622292467); (13,1,2638552622292467); (14,1,2638552622292467); (15,1,2638552622292467); (16,1,2638552622292467); (17,1,2638552622292467); (18,1,2638552622292467); (19,1,2638552622292467); (20,1,2638552622292467); (21,1,2638552622292467); (22,1,2638552622292467); (23,1,2638552622292467); (24,1,2638552622292467); (25,1,2638552622292467); (26,1,2638552622292467); (27,1,2638552622292467); (27,3,2638552622292467); (28,1,2638552622292467); (29,1,2638552622292467); (30,1,2638552622292467); (31,1,2638552622292467); (32,1,2638552622292467); (67,1,2638552890727935); (68,1,2638552890727935)]
  ; [(6,1,2638552622292467); (7,1,2638552622292467); (8,1,2638552622292467); (9,1,2638552622292467); (10,1,2638552622292467); (11,1,2638552622292467); (12,1,2638552622292467); (13,1,2638552622292467); (14,1,2638552622292467); (15,1,2638552622292467); (16,1,2638552622292467); (17,1,2638552622292467); (18,1,2638552622292467); (19,1,2638552622292467); (20,1,2638552622292467); (21,1,2638552622292467); (22,1,2638552622292467); (23,1,2638552622292467); (24,1,2638552622292467); (25,1,2638552622292467); (26,1,2638552622292467); (27,1,2638552622292467); (28,1,2638552622292467); (28,3,2638552622292467); (29,1,2638552622292467); (30,1,2638552622292467); (31,1,2638552622292467); (32,1,2638552622292467); (67,1,2638552890727935); (68,1,2638552890727935)]
  ; [(6,1,2638552622292467); (7,1,2638552622292467); (8,1,2638552622292467); (9,1,2638552622292467); (10,1,2638552622292467); (11,1,2638552622292467); (12,1,2638552622292467); (13,1,2638552622292467); (14,1,2638552622292467); (15,1,2638552622292467); (16,1,2638552622292467); (17,1,2638552622292467); (18,1,2638552622292467); (19,1,2638552622292467); (20,1,2638552622292467); (21,1,2638552622292467); (22,1,2638552622292467); (23,1,2638552622292467); (24,1,2638552622292467); (25,1,2638552622292467); (26,1,2638552622292467); (27,1,2638552622292467); (28,1,2638552622292467); (29,1,2638552622292467); (29,3,2638552622292467); (30,1,2638552622292467); (31,1,2638552622292467); (32,1,2638552622292467); (67,1,2638552890727935); (68,1,2638552890727935)]
  ; [(6,1,2638552622292467); (7,1,2638552622292467); (8,1,2638552622292467); (9,1,2638552622292467); (10,1,2638552622292467); (11,1,2638552622292467); (12,1,2638552622292467); (13,1,2638552622292467); (14,1,2638552622292467); (15,1,2638552622292467); (16,1,2638552622292467); (17,1,2638552622292467); (18,1,2638552622292467); (19,1,2638552622292467); (20,1,2638552622292467); (21,1,2638552622292467); (22,1,2638552622292467); (23,1,2638552622292467); (24,1,2638552622292467); (25,1,2638552622292467); (26,1,2638552622292467); (27,1,2638552622292467); (28,1,2638552622292467); (29,1,2638552622292467); (30,1,2638552622292467); (30,3,2638552622292467); (31,1,2638552622292467); (32,1,2638552622292467); (67,1,2638552890727935); (68,1,2638552890727935)]
  ; [(6,1,2638552622292467); (7,1,2638552622292467); (8,1,2638552622292467); (9,1,2638552622292467); (10,1,2638552622292467); (11,1,2638552622292467); (12,1,2638552622292467); (13,1,2638552622292467); (14,1,2638552622292467); (15,1,2638552622292467); (16,1,2638552622292467); (17,1,2638552622292467); (18,1,2638552622292467); (19,1,2638552622292467); (20,1,2638552622292467); (21,1,2638552622292467); (22,1,2638552622292467); (23,1,2638552622292467); (24,1,2638552622292467); (25,1,2638552622292467); (26,1,2638552622292467); (27,1,2638552622292467); (28,1,2638552622292467); (29,1,2638552622292467); (30,1,2638552622292467); (31,1,2638552622292467); (31,3,2638552622292467); (32,1,2638552622292467); (67,1,2638552890727935); (68,1,2638552890727935)]
  ; [(6,1,2638552622292467); (7,1,2638552622292467); (8,1,2638552622292467); (9,1,2638552622292467); (10,1,2638552622292467); (11,1,2638552622292467); (12,1,2638552622292467); (13,1,2638552622292467); (14,1,2638552622292467); (15,1,2638552622292467); (16,1,2638552622292467); (17,1,2638552622292467); (18,1,2638552622292467); (19,1,2638552622292467); (20,1,2638552622292467); (21,1,2638552622292467); (22,1,2638552622292467); (23,1,2638552622292467); (24,1,2638552622292467); (25,1,2638552622292467); (26,1,2638552622292467); (27,1,2638552622292467); (28,1,2638552622292467); (29,1,2638552622292467); (30,1,2638552622292467); (31,1,2638552622292467); (32,1,2638552622292467); (32,3,2638552622292467); (67,1,2638552890727935); (68,1,2638552890727935)]
  ; [(6,1,373558631320051); (7,1,373558631320051); (8,1,373558631320051); (9,1,373558631320051); (10,1,373558631320051); (11,1,373558631320051); (12,1,373558631320051); (13,1,373558631320051); (14,1,373558631320051); (15,1,373558631320051); (16,1,373558631320051); (17,1,373558631320051); (18,1,373558631320051); (19,1,373558631320051); (20,1,373558631320051); (21,1,373558631320051); (22,1,373558631320051); (23,1,373558631320051); (24,1,373558631320051); (25,1,373558631320051); (26,1,373558631320051); (27,1,373558631320051); (28,1,373558631320051); (29,1,373558631320051); (30,1,373558631320051); (31,1,373558631320051); (32,1,373558631320051); (54,1,17592186046464); (67,1,373558899755519); (68,1,373558899755519)]
  ; [(67,3,2638552890727935)]
  ; [(55,1,17592186046464); (68,3,2638552890727935)]
  ; [(3,3,2638552890727935)]
  ; [(4,3,2638552890727935)]
  ; [(6,1,364762538296819); (7,1,364762538296819); (8,1,364762538296819); (9,1,364762538296819); (10,1,364762538296819); (11,1,364762538296819); (12,1,364762538296819); (13,1,364762538296819); (14,1,364762538296819); (15,1,364762538296819); (16,1,364762538296819); (17,1,364762538296819); (18,1,364762538296819); (19,1,364762538296819); (20,1,364762538296819); (21,1,364762538296819); (22,1,364762538296819); (23,1,364762538296819); (24,1,364762538296819); (25,1,364762538296819); (26,1,364762538296819); (27,1,364762538296819); (28,1,364762538296819); (29,1,364762538296819); (30,1,364762538296819); (31,1,364762538296819); (32,1,364762538296819); (62,3,2638552890727935); (65,3,2638552890727935); (66,3,2638552890727935); (67,1,364762806732287); (68,1,364762806732287)]
  ; [(3,0,364762806731263); (4,0,364762806731263); (5,0,364762538295795); (6,0,364762538295795); (7,0,364762538295795); (8,0,364762538295795); (9,0,364762538295795); (10,0,364762538295795); (11,0,364762538295795); (12,0,364762538295795); (13,0,364762538295795); (14,0,364762538295795); (15,0,364762538295795); (16,0,364762538295795); (17,0,364762538295795); (18,0,364762538295795); (19,0,364762538295795); (20,0,364762538295795); (21,0,364762538295795); (22,0,364762538295795); (23,0,364762538295795); (24,0,364762538295795); (25,0,364762538295795); (26,0,364762538295795); (27,0,364762538295795); (28,0,364762538295795); (29,0,364762538295795); (30,0,364762538295795); (31,0,364762538295795); (32,0,364762538295795); (33,0,364762806731263); (34,0,364762538295795); (35,0,364762806731263); (36,0,364762538295795); (37,0,364762538295795); (38,0,364762538295795); (39,0,364762806731263); (40,0,364762806731263); (41,0,364762806731263); (42,0,364762538295795); (43,0,364762538295795); (44,0,364762538295795); (45,0,364762806731263); (46,0,364762806731263); (47,0,364762806731263); (48,0,364762806731263); (49,0,364762806731263); (50,0,364762806731263); (51,0,364762806731263); (52,0,364762806731263); (53,0,364762806731263); (56,0,364762806731263); (57,0,364762806731263); (58,0,364762806731263); (62,0,364762806731263); (63,0,364762806731263); (63,3,2638552890727935); (64,0,364762806731263); (64,3,2638552890727935); (65,0,364762806731263); (66,0,364762806731263); (67,0,364762806731263); (68,0,364762806731263)]
  ; [(33,3,2638552890727935)]
  ; [(46,3,2638552890727935)]
  ; [(3,0,360364760222207); (4,0,360364760222207); (5,0,360364491786739); (6,0,360364491786739); (7,0,360364491786739); (8,0,360364491786739); (9,0,360364491786739); (10,0,360364491786739); (11,0,360364491786739); (12,0,360364491786739); (13,0,360364491786739); (14,0,360364491786739); (15,0,360364491786739); (16,0,360364491786739); (17,0,360364491786739); (18,0,360364491786739); (19,0,360364491786739); (20,0,360364491786739); (21,0,360364491786739); (22,0,360364491786739); (23,0,360364491786739); (24,0,360364491786739); (25,0,360364491786739); (26,0,360364491786739); (27,0,360364491786739); (28,0,360364491786739); (29,0,360364491786739); (30,0,360364491786739); (31,0,360364491786739); (32,0,360364491786739); (33,0,360364760222207); (34,0,360364491786739); (35,0,360364760222207); (36,0,360364491786739); (37,0,360364491786739); (38,0,360364491786739); (39,0,360364760222207); (40,0,360364760222207); (41,0,360364760222207); (42,0,360364491786739); (43,0,360364491786739); (44,0,360364491786739); (45,0,360364760222207); (46,0,360364760222207); (47,0,360364760222207); (47,3,2638552890727935); (48,0,360364760222207); (49,0,360364760222207); (50,0,360364760222207); (51,0,360364760222207); (52,0,360364760222207); (53,0,360364760222207); (55,2,4398046513152); (56,0,360364760222207); (57,0,360364760222207); (58,0,360364760222207); (62,0,360364760222207); (63,0,360364760222207); (64,0,360364760222207); (65,0,360364760222207); (66,0,360364760222207); (67,0,360364760222207); (68,0,360364760222207)]
  ; [(57,3,2638552890727935)]
  ; [(3,0,355966713710079); (4,0,355966713710079); (5,0,355966445274611); (6,0,355966445274611); (7,0,355966445274611); (8,0,355966445274611); (9,0,355966445274611); (10,0,355966445274611); (11,0,355966445274611); (12,0,355966445274611); (13,0,355966445274611); (14,0,355966445274611); (15,0,355966445274611); (16,0,355966445274611); (17,0,355966445274611); (18,0,355966445274611); (19,0,355966445274611); (20,0,355966445274611); (21,0,355966445274611); (22,0,355966445274611); (23,0,355966445274611); (24,0,355966445274611); (25,0,355966445274611); (26,0,355966445274611); (27,0,355966445274611); (28,0,355966445274611); (29,0,355966445274611); (30,0,355966445274611); (31,0,355966445274611); (32,0,355966445274611); (33,0,355966713710079); (34,0,355966445274611); (35,0,355966713710079); (36,0,355966445274611); (37,0,355966445274611); (38,0,355966445274611); (39,0,355966713710079); (40,0,355966713710079); (41,0,355966713710079); (42,0,355966445274611); (43,0,355966445274611); (44,0,355966445274611); (45,0,355966713710079); (46,0,355966713710079); (47,0,355966713710079); (48,0,355966713710079); (49,0,355966713710079); (50,0,355966713710079); (51,0,355966713710079); (52,0,355966713710079); (53,0,355966713710079); (56,0,355966713710079); (57,0,355966713710079); (58,0,355966713710079); (58,3,2638552890727935); (59,0,4398046513152); (61,2,4398046513152); (62,0,355966713710079); (63,0,355966713710079); (64,0,355966713710079); (65,0,355966713710079); (66,0,355966713710079); (67,0,355966713710079); (68,0,355966713710079)]
  ; [(3,0,360364760222207); (4,0,360364760222207); (5,0,360364491786739); (6,0,360364491786739); (7,0,360364491786739); (8,0,360364491786739); (9,0,360364491786739); (10,0,360364491786739); (11,0,360364491786739); (12,0,360364491786739); (13,0,360364491786739); (14,0,360364491786739); (15,0,360364491786739); (16,0,360364491786739); (17,0,360364491786739); (18,0,360364491786739); (19,0,360364491786739); (20,0,360364491786739); (21,0,360364491786739); (22,0,360364491786739); (23,0,360364491786739); (24,0,360364491786739); (25,0,360364491786739); (26,0,360364491786739); (27,0,360364491786739); (28,0,360364491786739); (29,0,360364491786739); (30,0,360364491786739); (31,0,360364491786739); (32,0,360364491786739); (33,0,360364760222207); (34,0,360364491786739); (35,0,360364760222207); (36,0,360364491786739); (37,0,360364491786739); (38,0,360364491786739); (39,0,360364760222207); (40,0,360364760222207); (41,0,360364760222207); (42,0,360364491786739); (43,0,360364491786739); (44,0,360364491786739); (45,0,360364760222207); (46,0,360364760222207); (47,0,360364760222207); (48,0,360364760222207); (49,0,360364760222207); (50,0,360364760222207); (51,0,360364760222207); (52,0,360364760222207); (53,0,360364760222207); (56,0,360364760222207); (57,0,360364760222207); (58,0,360364760222207); (59,2,4398046513152); (62,0,360364760222207); (63,0,360364760222207); (64,0,360364760222207); (65,0,360364760222207); (66,0,360364760222207); (67,0,360364760222207); (68,0,360364760222207)]
  ; [(50,3,2638552890727935)]
  ; [(3,0,364762806733311); (4,0,364762806733311); (5,0,364762538297843); (6,0,364762538297843); (7,0,364762538297843); (8,0,364762538297843); (9,0,364762538297843); (10,0,364762538297843); (11,0,364762538297843); (12,0,364762538297843); (13,0,364762538297843); (14,0,364762538297843); (15,0,364762538297843); (16,0,364762538297843); (17,0,364762538297843); (18,0,364762538297843); (19,0,364762538297843); (20,0,364762538297843); (21,0,364762538297843); (22,0,364762538297843); (23,0,364762538297843); (24,0,364762538297843); (25,0,364762538297843); (26,0,364762538297843); (27,0,364762538297843); (28,0,364762538297843); (29,0,364762538297843); (30,0,364762538297843); (31,0,364762538297843); (32,0,364762538297843); (33,0,364762806733311); (34,0,364762538297843); (35,0,364762806733311); (36,0,364762538297843); (37,0,364762538297843); (38,0,364762538297843); (39,0,364762806733311); (40,0,364762806733311); (41,0,364762806733311); (42,0,364762538297843); (43,0,364762538297843); (44,0,364762538297843); (45,0,364762806733311); (46,0,364762806733311); (47,0,364762806733311); (48,0,364762806733311); (49,0,364762806733311); (50,0,364762806733311); (51,0,364762806733311); (51,3,2638552890727935); (52,0,364762806733311); (53,0,364762806733311); (55,2,8796093024256); (56,0,364762806733311); (57,0,364762806733311); (58,0,364762806733311); (62,0,364762806733311); (63,0,364762806733311); (64,0,364762806733311); (65,0,364762806733311); (66,0,364762806733311); (67,0,364762806733311); (68,0,364762806733311)]
  ; [(52,3,2638552890727935); (53,3,2638552890727935)]
  ; [(3,0,2638552890727935); (4,0,2638552890727935); (5,0,2638552622292467); (6,0,2638552622292467); (6,4,2638552622292467); (7,0,2638552622292467); (8,0,2638552622292467); (9,0,2638552622292467); (10,0,2638552622292467); (11,0,2638552622292467); (12,0,2638552622292467); (13,0,2638552622292467); (14,0,2638552622292467); (15,0,2638552622292467); (16,0,2638552622292467); (17,0,2638552622292467); (18,0,2638552622292467); (19,0,2638552622292467); (20,0,2638552622292467); (21,0,2638552622292467); (22,0,2638552622292467); (23,0,2638552622292467); (24,0,2638552622292467); (25,0,2638552622292467); (26,0,2638552622292467); (27,0,2638552622292467); (28,0,2638552622292467); (29,0,2638552622292467); (30,0,2638552622292467); (31,0,2638552622292467); (32,0,2638552622292467); (33,0,2638552890727935); (34,0,2638552622292467); (35,0,2638552890727935); (36,0,2638552622292467); (37,0,2638552622292467); (38,0,2638552622292467); (39,0,2638552890727935); (40,0,2638552890727935); (41,0,2638552890727935); (42,0,2638552622292467); (43,0,2638552622292467); (44,0,2638552622292467); (45,0,2638552890727935); (46,0,2638552890727935); (47,0,2638552890727935); (48,0,2638552890727935); (49,0,2638552890727935); (50,0,2638552890727935); (51,0,2638552890727935); (52,0,2638552890727935); (53,0,2638552890727935); (56,0,2638552890727935); (57,0,2638552890727935); (58,0,2638552890727935); (62,0,2638552890727935); (63,0,2638552890727935); (64,0,2638552890727935); (65,0,2638552890727935); (66,0,2638552890727935); (67,0,2638552890727935); (68,0,2638552890727935)]
  ; [(6,1,2638552622292467); (7,1,2638552622292467); (8,1,2638552622292467); (9,1,2638552622292467); (10,1,2638552622292467); (11,1,2638552622292467); (12,1,2638552622292467); (13,1,2638552622292467); (14,1,2638552622292467); (15,1,2638552622292467); (16,1,2638552622292467); (17,1,2638552622292467); (18,1,2638552622292467); (19,1,2638552622292467); (20,1,2638552622292467); (20,4,2638552622292467); (21,1,2638552622292467); (22,1,2638552622292467); (23,1,2638552622292467); (24,1,2638552622292467); (25,1,2638552622292467); (26,1,2638552622292467); (27,1,2638552622292467); (28,1,2638552622292467); (29,1,2638552622292467); (30,1,2638552622292467); (31,1,2638552622292467); (32,1,2638552622292467); (67,1,2638552890727935); (68,1,2638552890727935)]
  ; [(68,4,2638552890727935)]
  ; [(3,0,373558899755519); (4,0,373558899755519); (5,0,373558631320051); (6,0,373558631320051); (7,0,373558631320051); (8,0,373558631320051); (9,0,373558631320051); (10,0,373558631320051); (11,0,373558631320051); (12,0,373558631320051); (13,0,373558631320051); (14,0,373558631320051); (15,0,373558631320051); (16,0,373558631320051); (17,0,373558631320051); (18,0,373558631320051); (19,0,373558631320051); (20,0,373558631320051); (21,0,373558631320051); (22,0,373558631320051); (23,0,373558631320051); (24,0,373558631320051); (25,0,373558631320051); (26,0,373558631320051); (27,0,373558631320051); (28,0,373558631320051); (29,0,373558631320051); (30,0,373558631320051); (31,0,373558631320051); (32,0,373558631320051); (33,0,373558899755519); (34,0,373558631320051); (35,0,373558899755519); (36,0,373558631320051); (37,0,373558631320051); (38,0,373558631320051); (39,0,373558899755519); (40,0,373558899755519); (41,0,373558899755519); (42,0,373558631320051); (43,0,373558631320051); (44,0,373558631320051); (45,0,373558899755519); (46,0,373558899755519); (47,0,373558899755519); (48,0,373558899755519); (49,0,373558899755519); (50,0,373558899755519); (51,0,373558899755519); (52,0,373558899755519); (53,0,373558899755519); (55,2,17592186046464); (56,0,373558899755519); (57,0,373558899755519); (58,0,373558899755519); (62,0,373558899755519); (63,0,373558899755519); (64,0,373558899755519); (65,0,373558899755519); (66,0,373558899755519); (67,0,373558899755519); (68,0,373558899755519)]
  ; [(62,4,2638552890727935)]
  ; [(3,0,364762806731263); (4,0,364762806731263); (5,0,364762538295795); (6,0,364762538295795); (7,0,364762538295795); (8,0,364762538295795); (9,0,364762538295795); (10,0,364762538295795); (11,0,364762538295795); (12,0,364762538295795); (13,0,364762538295795); (14,0,364762538295795); (15,0,364762538295795); (16,0,364762538295795); (17,0,364762538295795); (18,0,364762538295795); (19,0,364762538295795); (20,0,364762538295795); (21,0,364762538295795); (22,0,364762538295795); (23,0,364762538295795); (24,0,364762538295795); (25,0,364762538295795); (26,0,364762538295795); (27,0,364762538295795); (28,0,364762538295795); (29,0,364762538295795); (30,0,364762538295795); (31,0,364762538295795); (32,0,364762538295795); (33,0,364762806731263); (34,0,364762538295795); (35,0,364762806731263); (36,0,364762538295795); (37,0,364762538295795); (38,0,364762538295795); (39,0,364762806731263); (40,0,364762806731263); (41,0,364762806731263); (42,0,364762538295795); (43,0,364762538295795); (44,0,364762538295795); (45,0,364762806731263); (46,0,364762806731263); (47,0,364762806731263); (48,0,364762806731263); (49,0,364762806731263); (50,0,364762806731263); (51,0,364762806731263); (52,0,364762806731263); (53,0,364762806731263); (56,0,364762806731263); (57,0,364762806731263); (58,0,364762806731263); (62,0,364762806731263); (63,0,364762806731263); (64,0,364762806731263); (65,0,364762806731263); (65,4,2638552890727935); (66,0,364762806731263); (66,4,2638552890727935); (67,0,364762806731263); (68,0,364762806731263)]
  ; [(63,4,2638552890727935)]
  ; [(6,1,364762538295795); (7,1,364762538295795); (8,1,364762538295795); (9,1,364762538295795); (10,1,364762538295795); (11,1,364762538295795); (12,1,364762538295795); (13,1,364762538295795); (14,1,364762538295795); (15,1,364762538295795); (16,1,364762538295795); (17,1,364762538295795); (18,1,364762538295795); (19,1,364762538295795); (20,1,364762538295795); (21,1,364762538295795); (22,1,364762538295795); (23,1,364762538295795); (24,1,364762538295795); (25,1,364762538295795); (26,1,364762538295795); (27,1,364762538295795); (28,1,364762538295795); (29,1,364762538295795); (30,1,364762538295795); (31,1,364762538295795); (32,1,364762538295795); (64,4,2638552890727935); (67,1,364762806731263); (68,1,364762806731263)]
  ; [(47,4,2638552890727935)]
  ; [(6,1,386752770853363); (7,1,386752770853363); (8,1,386752770853363); (9,1,386752770853363); (10,1,386752770853363); (11,1,386752770853363); (12,1,386752770853363); (13,1,386752770853363); (14,1,386752770853363); (15,1,386752770853363); (16,1,386752770853363); (17,1,386752770853363); (18,1,386752770853363); (19,1,386752770853363); (20,1,386752770853363); (21,1,386752770853363); (22,1,386752770853363); (23,1,386752770853363); (24,1,386752770853363); (25,1,386752770853363); (26,1,386752770853363); (27,1,386752770853363); (28,1,386752770853363); (29,1,386752770853363); (30,1,386752770853363); (31,1,386752770853363); (32,1,386752770853363); (55,3,30786325579776); (67,1,386753039288831); (68,1,386753039288831)]
  ; [(58,4,2638552890727935)]
  ; [(61,3,4398046513152)]
  ; [(6,1,355966445274611); (7,1,355966445274611); (8,1,355966445274611); (9,1,355966445274611); (10,1,355966445274611); (11,1,355966445274611); (12,1,355966445274611); (13,1,355966445274611); (14,1,355966445274611); (15,1,355966445274611); (16,1,355966445274611); (17,1,355966445274611); (18,1,355966445274611); (19,1,355966445274611); (20,1,355966445274611); (21,1,355966445274611); (22,1,355966445274611); (23,1,355966445274611); (24,1,355966445274611); (25,1,355966445274611); (26,1,355966445274611); (27,1,355966445274611); (28,1,355966445274611); (29,1,355966445274611); (30,1,355966445274611); (31,1,355966445274611); (32,1,355966445274611); (59,1,4398046513152); (67,1,355966713710079); (68,1,355966713710079)]
  ; [(6,1,360364491786739); (7,1,360364491786739); (8,1,360364491786739); (9,1,360364491786739); (10,1,360364491786739); (11,1,360364491786739); (12,1,360364491786739); (13,1,360364491786739); (14,1,360364491786739); (15,1,360364491786739); (16,1,360364491786739); (17,1,360364491786739); (18,1,360364491786739); (19,1,360364491786739); (20,1,360364491786739); (21,1,360364491786739); (22,1,360364491786739); (23,1,360364491786739); (24,1,360364491786739); (25,1,360364491786739); (26,1,360364491786739); (27,1,360364491786739); (28,1,360364491786739); (29,1,360364491786739); (30,1,360364491786739); (31,1,360364491786739); (32,1,360364491786739); (59,3,4398046513152); (67,1,360364760222207); (68,1,360364760222207)]
  ; [(51,4,2638552890727935)]
  ; [(52,4,2638552890727935); (53,4,2638552890727935)]
  ; [(6,1,2638552622292467); (6,5,2638552622292467); (7,1,2638552622292467); (8,1,2638552622292467); (9,1,2638552622292467); (10,1,2638552622292467); (11,1,2638552622292467); (12,1,2638552622292467); (13,1,2638552622292467); (14,1,2638552622292467); (15,1,2638552622292467); (16,1,2638552622292467); (17,1,2638552622292467); (18,1,2638552622292467); (19,1,2638552622292467); (20,1,2638552622292467); (21,1,2638552622292467); (22,1,2638552622292467); (23,1,2638552622292467); (24,1,2638552622292467); (25,1,2638552622292467); (26,1,2638552622292467); (27,1,2638552622292467); (28,1,2638552622292467); (29,1,2638552622292467); (30,1,2638552622292467); (31,1,2638552622292467); (32,1,2638552622292467); (67,1,2638552890727935); (68,1,2638552890727935)]
  ; [(6,1,364762538295795); (7,1,364762538295795); (8,1,364762538295795); (9,1,364762538295795); (10,1,364762538295795); (11,1,364762538295795); (12,1,364762538295795); (13,1,364762538295795); (14,1,364762538295795); (15,1,364762538295795); (16,1,364762538295795); (17,1,364762538295795); (18,1,364762538295795); (19,1,364762538295795); (20,1,364762538295795); (21,1,364762538295795); (22,1,364762538295795); (23,1,364762538295795); (24,1,364762538295795); (25,1,364762538295795); (26,1,364762538295795); (27,1,364762538295795); (28,1,364762538295795); (29,1,364762538295795); (30,1,364762538295795); (31,1,364762538295795); (32,1,364762538295795); (66,5,2638552890727935); (67,1,364762806731263); (68,1,364762806731263)]
  ; [(65,5,2638552890727935)]
  ; [(64,5,2638552890727935)]
  ; [(3,0,364762840285695); (4,0,364762840285695); (5,0,364762571850227); (6,0,364762571850227); (7,0,364762571850227); (8,0,364762571850227); (9,0,364762571850227); (10,0,364762571850227); (11,0,364762571850227); (12,0,364762571850227); (13,0,364762571850227); (14,0,364762571850227); (15,0,364762571850227); (16,0,364762571850227); (17,0,364762571850227); (18,0,364762571850227); (19,0,364762571850227); (20,0,364762571850227); (21,0,364762571850227); (22,0,364762571850227); (23,0,364762571850227); (24,0,364762571850227); (25,0,364762571850227); (26,0,364762571850227); (27,0,364762571850227); (28,0,364762571850227); (29,0,364762571850227); (30,0,364762571850227); (31,0,364762571850227); (32,0,364762571850227); (33,0,364762840285695); (34,0,364762571850227); (35,0,364762840285695); (36,0,364762571850227); (37,0,364762571850227); (38,0,364762571850227); (39,0,364762840285695); (40,0,364762840285695); (41,0,364762840285695); (42,0,364762571850227); (43,0,364762571850227); (44,0,364762571850227); (45,0,364762840285695); (46,0,364762840285695); (47,0,364762840285695); (48,0,364762840285695); (49,0,364762840285695); (50,0,364762840285695); (51,0,364762840285695); (52,0,364762840285695); (52,5,2638552890727935); (53,0,364762840285695); (53,5,2638552890727935); (56,0,364762840285695); (57,0,364762840285695); (58,0,364762840285695); (62,0,364762840285695); (63,0,364762840285695); (64,0,364762840285695); (65,0,364762840285695); (66,0,364762840285695); (67,0,364762840285695); (68,0,364762840285695)]
  ; [(66,6,2638552890727935)]
  ; [(6,1,364762571850227); (7,1,364762571850227); (8,1,364762571850227); (9,1,364762571850227); (10,1,364762571850227); (11,1,364762571850227); (12,1,364762571850227); (13,1,364762571850227); (14,1,364762571850227); (15,1,364762571850227); (16,1,364762571850227); (17,1,364762571850227); (18,1,364762571850227); (19,1,364762571850227); (20,1,364762571850227); (21,1,364762571850227); (22,1,364762571850227); (23,1,364762571850227); (24,1,364762571850227); (25,1,364762571850227); (26,1,364762571850227); (27,1,364762571850227); (28,1,364762571850227); (29,1,364762571850227); (30,1,364762571850227); (31,1,364762571850227); (32,1,364762571850227); (52,6,2638552890727935); (53,6,2638552890727935); (67,1,364762840285695); (68,1,364762840285695)]
  ; [(52,7,2638552890727935)]
  ; [(3,0,364762806731263); (4,0,364762806731263); (5,0,364762538295795); (6,0,364762538295795); (7,0,364762538295795); (8,0,364762538295795); (9,0,364762538295795); (10,0,364762538295795); (11,0,364762538295795); (12,0,364762538295795); (13,0,364762538295795); (14,0,364762538295795); (15,0,364762538295795); (16,0,364762538295795); (17,0,364762538295795); (18,0,364762538295795); (19,0,364762538295795); (20,0,364762538295795); (21,0,364762538295795); (22,0,364762538295795); (23,0,364762538295795); (24,0,364762538295795); (25,0,364762538295795); (26,0,364762538295795); (27,0,364762538295795); (28,0,364762538295795); (29,0,364762538295795); (30,0,364762538295795); (31,0,364762538295795); (32,0,364762538295795); (33,0,364762806731263); (34,0,364762538295795); (35,0,364762806731263); (36,0,364762538295795); (37,0,364762538295795); (38,0,364762538295795); (39,0,364762806731263); (40,0,364762806731263); (41,0,364762806731263); (42,0,364762538295795); (43,0,364762538295795); (44,0,364762538295795); (45,0,364762806731263); (46,0,364762806731263); (47,0,364762806731263); (48,0,364762806731263); (49,0,364762806731263); (50,0,364762806731263); (51,0,364762806731263); (52,0,364762806731263); (53,0,364762806731263); (53,7,2638552890727935); (56,0,364762806731263); (57,0,364762806731263); (58,0,364762806731263); (62,0,364762806731263); (63,0,364762806731263); (64,0,364762806731263); (65,0,364762806731263); (66,0,364762806731263); (67,0,364762806731263); (68,0,364762806731263)]
  ; [(6,1,364762538295795); (7,1,364762538295795); (8,1,364762538295795); (9,1,364762538295795); (10,1,364762538295795); (11,1,364762538295795); (12,1,364762538295795); (13,1,364762538295795); (14,1,364762538295795); (15,1,364762538295795); (16,1,364762538295795); (17,1,364762538295795); (18,1,364762538295795); (19,1,364762538295795); (20,1,364762538295795); (21,1,364762538295795); (22,1,364762538295795); (23,1,364762538295795); (24,1,364762538295795); (25,1,364762538295795); (26,1,364762538295795); (27,1,364762538295795); (28,1,364762538295795); (29,1,364762538295795); (30,1,364762538295795); (31,1,364762538295795); (32,1,364762538295795); (53,8,2638552890727935); (67,1,364762806731263); (68,1,364762806731263)]
  ; [(53,9,2638552890727935)] ].
