(** * Grammar: ply's LALR(1) parser (ply/yacc.py LRParser.parseopt_notrack) driven by the project's tables
    (parser/parsetab.py, copied into GrammarTab.v)

    ParserBase.parse (parser/base.py:63-82) hands the text to ply, which pulls tokens from the lexer one at a time and
    drives the tables below.  Here the input is the sequence of tokens; the lexer is not part of this file.  The result
    is the derivation tree; the grammar actions that turn it into deferred nodes are in GrammarSem.v. *)
From Coq Require Import List NArith Bool Lia.
From Verif Require Export GrammarTab.
Import ListNotations.
Open Scope N_scope.

Definition tok_eqb (a b : tok) : bool := tok_index a =? tok_index b.
Definition nonterm_eqb (a b : nonterm) : bool := nonterm_index a =? nonterm_index b.

(** A token: its kind and its text (ply: LexToken.type and LexToken.value). *)
(* token: ply.lex tokens of parser/__init__.py:60-250 *)
Record token := mkToken { kind : tok; text : list N }.

(** A derivation tree: a token, or a production number with one subtree per symbol of its right hand side. *)
(* tree: ply.yacc on the grammar of parser/__init__.py:256-564, called at parser/base.py:79 *)
Inductive tree := Leaf (t : token) | Node (p : N) (l : list tree).

(* prod_of: ply.yacc on the grammar of parser/__init__.py:256-564, called at parser/base.py:79 *)
Definition prod_of (p : N) : nonterm * list symbol := nth (N.to_nat p) productions (NStart, []).
(* lhs: ply.yacc on the grammar of parser/__init__.py:256-564, called at parser/base.py:79 *)
Definition lhs (p : N) : nonterm := fst (prod_of p).
(* rhs: ply.yacc on the grammar of parser/__init__.py:256-564, called at parser/base.py:79 *)
Definition rhs (p : N) : list symbol := snd (prod_of p).

(* lookup: ply.yacc on the grammar of parser/__init__.py:256-564, called at parser/base.py:79 *)
Fixpoint lookup {A B} (eqb : A -> A -> bool) (k : A) (l : list (A * B)) : option B :=
  match l with [] => None | (k', v) :: r => if eqb k k' then Some v else lookup eqb k r end.

(* row: ply.yacc on the grammar of parser/__init__.py:256-564, called at parser/base.py:79 *)
Definition row (s : N) : list (tok * action) := nth (N.to_nat s) lr_action [].
(** ply 3.11 yacc.py set_defaulted_states: a state whose only entry is one reduction is reduced without a look-ahead *)
Definition defaulted (s : N) : option N :=
  match row s with [(_, AReduce p)] => Some p | _ => None end.
Definition act_of (s : N) (a : tok) : action :=
  match defaulted s with
  | Some p => AReduce p
  | None => match lookup tok_eqb a (row s) with Some x => x | None => AErr end
  end.
Definition goto_of (s : N) (n : nonterm) : option N := lookup nonterm_eqb n (nth (N.to_nat s) lr_goto []).

(** The stack, top first: each symbol pushed (as its tree) with the state entered by pushing it; below it is state 0. *)
(* stack: ply.yacc on the grammar of parser/__init__.py:256-564, called at parser/base.py:79 *)
Definition stack := list (N * tree).
(* top: ply.yacc on the grammar of parser/__init__.py:256-564, called at parser/base.py:79 *)
Definition top (st : stack) : N := match st with [] => 0 | (s, _) :: _ => s end.

(* outcome: ply.yacc on the grammar of parser/__init__.py:256-564, called at parser/base.py:79 *)
Inductive outcome :=
| Accepted (t : tree)        (* the value of the statement symbol *)
| SyntaxError                (* p_error, parser/__init__.py:253-254: RuleSyntaxError *)
| Stuck.                     (* a Python exception inside ply: reduction of a short stack, or no GOTO entry *)
(* next: ply.yacc on the grammar of parser/__init__.py:256-564, called at parser/base.py:79 *)
Inductive next := Continue (st : stack) (inp : list token) | Done (o : outcome).

(** symstack[-plen:] and what is below *)
(* pop: ply.yacc on the grammar of parser/__init__.py:256-564, called at parser/base.py:79 *)
Fixpoint pop (n : nat) (st : stack) (acc : list tree) : option (list tree * stack) :=
  match n with
  | O => Some (acc, st)
  | S n' => match st with [] => None | (_, t) :: r => pop n' r (t :: acc) end
  end.

(* look: ply.yacc on the grammar of parser/__init__.py:256-564, called at parser/base.py:79 *)
Definition look (inp : list token) : tok := match inp with [] => T_end | t :: _ => kind t end.

(** One iteration of ply's main loop *)
(* step: ply.yacc on the grammar of parser/__init__.py:256-564, called at parser/base.py:79 *)
Definition step (st : stack) (inp : list token) : next :=
  match act_of (top st) (look inp) with
  | AShift s => match inp with t :: r => Continue ((s, Leaf t) :: st) r | [] => Done Stuck end
  | AReduce p =>
      match pop (length (rhs p)) st [] with
      | Some (ts, st') => match goto_of (top st') (lhs p) with
                          | Some s => Continue ((s, Node p ts) :: st') inp
                          | None => Done Stuck
                          end
      | None => Done Stuck
      end
  | AAcc => match st with (_, t) :: _ => Done (Accepted t) | [] => Done Stuck end
  | AErr => Done SyntaxError
  end.

(* loop: ply.yacc on the grammar of parser/__init__.py:256-564, called at parser/base.py:79 *)
Fixpoint loop (n : nat) (st : stack) (inp : list token) : option outcome :=
  match n with
  | O => None
  | S n' => match step st inp with Continue st' inp' => loop n' st' inp' | Done o => Some o end
  end.

(** The machine's result: some number of iterations reaches [o].  (The loop is deterministic, so there is at most one.) *)
(* parses_to: ply.yacc on the grammar of parser/__init__.py:256-564, called at parser/base.py:79 *)
Definition parses_to (inp : list token) (o : outcome) : Prop := exists n, loop n [] inp = Some o.

(** The same as a function: GrammarFacts.v proves that this many iterations are always enough. *)
(* parse: ply.yacc on the grammar of parser/__init__.py:256-564, called at parser/base.py:79 *)
Definition parse (inp : list token) : outcome :=
  match loop (6 * length inp + 1)%nat [] inp with Some o => o | None => Stuck end.
