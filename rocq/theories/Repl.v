(** * Repl: the interactive loop of debug_repl.py *)
From Coq Require Import String.
From Verif Require Import Base Dec Value DType Types Ops ParseUtil Attr Prog Ast Eval Build Engine GrammarSem Lexer RuleText.
Open Scope list_scope.

Section Repl.
Context {Orc : Oracle} (space word : N -> bool) (uname : str -> option N) (C : ctx) (thing : value).

(* skip_space: the \s* of debug_repl.py:110 *)
Fixpoint skip_space (t : str) : str := match t with c :: r => if space c then skip_space r else t | [] => [] end.
(* after: a literal part of the pattern of debug_repl.py:110 *)
Fixpoint after (p t : str) : option str :=
  match p, t with
  | [], _ => Some t
  | a :: p', c :: t' => if (a =? c)%N then after p' t' else None
  | _ :: _, [] => None
  end.
(* take_word: the \w* at the start of a text, debug_repl.py:110 *)
Fixpoint take_word (t : str) : str := match t with c :: r => if word c then c :: take_word r else [] | [] => [] end.
(** debug_repl.py:110-112: re.match(r'\s*#!\s*debug\s*=\s*(\w+)', line); [word] is what \w matches.  The parts of the pattern start with
    different characters, so that matching needs no backtracking *)
Definition directive (t : str) : option bool :=
  match after (s "#!") (skip_space t) with
  | None => None
  | Some r =>
      match after (s "debug") (skip_space r) with
      | None => None
      | Some r =>
          match after (s "=") (skip_space r) with
          | None => None
          | Some r =>
              match take_word (skip_space r) with
              | [] => None
              | g => Some (negb (str_eqb (py_lower g) (s "false")))
              end
          end
      end
  end.

(** what is printed for a line: a directive is confirmed, a result, an engine error by class and message with a hint, and any other
    exception as a traceback.  [trace]: a traceback is printed as well.  Regular expression and function details are left out. *)
(* answer: debug_repl.py:111-141 *)
Inductive answer :=
| Debugging (on : bool)
| Result (v : value)
| Failed (x : exn) (hint : option str) (trace : bool)
| Crashed (x : exn).
(* hint_of: debug_repl.py:121-122 *)
Definition hint_of (x : exn) : option str :=
  match x with XAttrRes _ (Some (c :: r)) | XSymRes _ (Some (c :: r)) => Some (c :: r) | _ => None end.
(* answer_to: debug_repl.py:116-141 *)
Definition answer_to (debugging : bool) (r : result value) : answer :=
  match r with
  | Ok v => Result v
  | Err x => if is_engine x then Failed x (hint_of x) debugging else Crashed x
  end.
(* evaluate_text: debug_repl.py:117-118 *)
Definition evaluate_text (t : str) : prog value := do! e := rule_of_text space uname C t in rule_evaluate C e thing.
(** debug_repl.py:104-141: the loop, for the lines typed until the end of the input *)
Fixpoint repl (debugging : bool) (lines : list str) : prog (list answer) :=
  match lines with
  | [] => ok []
  | t :: r =>
      match directive t with
      | Some b => do! l := repl b r in ok (Debugging b :: l)
      | None => pthen (evaluate_text t) (fun o => do! l := repl debugging r in ok (answer_to debugging o :: l))
      end
  end.
End Repl.
