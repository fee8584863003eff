(** * Rules from text: Rule(text, context) and Rule.is_valid(text, context) *)
From Verif Require Import Base Dec Value DType Types Ops ParseUtil Attr Prog Ast Eval Build Engine GrammarSem Lexer.

Section RuleText.
Context {Orc : Oracle} (space : N -> bool) (uname : str -> option N) (C : ctx).

(** engine.py:588-599 Rule.__init__ with parser/base.py:63-82 ParserBase.parse: the text is parsed into a tree of deferred nodes,
    which is then built.  [space] and [uname] are the library's str.isspace and unicodedata.lookup.  The mutex around the first phase
    is not part of this definition: the lexer and the parser keep no state between calls, and the mutex makes sure they are not shared *)
Definition rule_of_text (t : str) : prog expr :=
  match parse_text space uname t with Ok n => rule_new C n | Err x => raise x end.

(** engine.py:616-633 Rule.is_valid *)
Definition text_is_valid (t : str) : prog bool :=
  pthen (rule_of_text t) (fun r =>
  match r with Ok _ => ok true | Err x => if is_engine x then ok false else raise x end).
End RuleText.
