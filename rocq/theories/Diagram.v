(** * Diagram: to_graphviz (ast.py, engine.py) *)
From Coq Require Import String.
From Verif Require Import Base Dec Value DType Types Ops Attr Prog Ast.
Local Open Scope string_scope.
Local Open Scope nat_scope.
Local Open Scope list_scope.

(** Statements of the dot language that are added to the digraph (digraph.node, digraph.edge).  The names of nodes are
    object identities (str(id(self))); every build method creates new objects, so no object occurs at two places of the
    tree, and a node is named here by its place: the list of child numbers from the node up to the statement, [[]].
    Simplified: a label is the class name and the attribute shown with it, not their text (the text is the class name
    and the repr of the attribute). *)
Inductive shown := Value (v : value) | Kind (t : string) | Variable_ (n : str) | Name (n : str) | Text (t : str).
Definition place : Type := list nat.
Inductive elabel := NoLabel | Label (t : string) | Argument (n : nat).
Inductive stmt := Node (p : place) (class : string) (detail : option shown) | Edge (p c : place) (l : elabel).

(** class of a scalar literal: ast.py:235-343.  Literals of arrays, sets and mappings are other nodes. *)
(* literal_class: ast.py:235-343 *)
Definition literal_class (v : value) : string :=
  match v with
  | VNull => "NullExpression" | VBool _ => "BooleanExpression" | VDec _ | VInt _ | VFlt _ => "FloatExpression"
  | VStr _ => "StringExpression" | VBytes _ => "BytesExpression" | VDt _ _ | VDate _ => "DatetimeExpression"
  | VTd _ => "TimedeltaExpression" | VFun _ | VBFun _ | VMeth _ _ => "FunctionExpression"
  | VArr _ | VList _ | VRange _ => "ArrayExpression" | VSet _ => "SetExpression" | VMap _ | VDict _ => "MappingExpression" | VObj _ => "FunctionExpression"
  end.

(** class and type of an operator node: the operator names of parser/__init__.py:70-98 in lower case (ast.py:373-375) and the
    classes that define the _op_ methods (ast.py:409-672) *)
(* operator_class: ast.py:409, 447, 488, 511, 558, 566, 577, 593, 632 *)
Definition operator_class (o : binop) : string :=
  match o with
  | BAdd => "AddExpression" | BSub => "SubtractExpression" | BArith _ => "ArithmeticExpression"
  | BBit BShl | BBit BShr => "BitwiseShiftExpression" | BBit _ => "BitwiseExpression"
  | BAndL | BOrL => "LogicExpression" | BEq | BNe => "ComparisonExpression"
  | BCmp _ => "ArithmeticComparisonExpression" | BFuzzy _ _ => "FuzzyComparisonExpression"
  end.
(* operator_type: ast.py:430, 475, 505-509, 554-556, 563-564, 568-571, 579-586, 627-630, 669-672 *)
Definition operator_type (o : binop) : string :=
  match o with
  | BAdd => "add" | BSub => "sub"
  | BArith FDiv => "fdiv" | BArith TDiv => "tdiv" | BArith Mod => "mod" | BArith Mul => "mul" | BArith Pow => "pow"
  | BBit BAnd => "bwand" | BBit BOr => "bwor" | BBit BXor => "bwxor" | BBit BShl => "bwlsh" | BBit BShr => "bwrsh"
  | BAndL => "and" | BOrL => "or" | BEq => "eq" | BNe => "ne"
  | BCmp Cge => "ge" | BCmp Cgt => "gt" | BCmp Cle => "le" | BCmp Clt => "lt"
  | BFuzzy false false => "eq_fzm" | BFuzzy true false => "eq_fzs" | BFuzzy false true => "ne_fzm" | BFuzzy true true => "ne_fzs"
  end.
(* unary_type: ast.py:1254-1262 *)
Definition unary_type (o : unop) : string := match o with UNot => "not" | UMinus => "uminus" end.

(** the to_graphviz methods of expressions.  The members of a set literal are drawn in source order (CPython: iteration order
    of a set of nodes). *)
(* draw: ast.py:99-100, 201-205, 218-222, 402-407, 714-722, 759-764, 836-839, 917-922, 992-999, 1061-1062, 1134-1140, 1207-1214, 1277-1280 *)
Fixpoint draw (p : place) (e : expr) {struct e} : list stmt :=
  let fix members (i : nat) (l : list expr) : list stmt :=
    match l with [] => [] | x :: r => draw (i :: p) x ++ [Edge p (i :: p) NoLabel] ++ members (S i) r end in
  let fix arguments (i : nat) (l : list expr) : list stmt :=
    match l with [] => [] | x :: r => draw (i :: p) x ++ [Edge p (i :: p) (Argument i)] ++ arguments (S i) r end in
  match e with
  | ELit v => [Node p (literal_class v) (Some (Value v))]
  | EFun v _ => [Node p "FunctionExpression" (Some (Value v))]
  | EArr l => Node p "ArrayExpression" None :: members 0 l
  | ESet l => Node p "SetExpression" None :: members 0 l
  | EMap _ => [Node p "MappingExpression" None]          (* MappingExpression inherits the method of scalar literals *)
  | EBin o a b =>
      [Node p (operator_class o) (Some (Kind (operator_type o)))] ++ draw (0 :: p) a ++ draw (1 :: p) b ++
      [Edge p (0 :: p) (Label "left"); Edge p (1 :: p) (Label "right")]
  | EComp r v i c =>
      [Node p "ComprehensionExpression" (Some (Variable_ v))] ++ draw (0 :: p) r ++ [Edge p (0 :: p) (Label "result")] ++
      draw (1 :: p) i ++ [Edge p (1 :: p) (Label "iterable")] ++
      match c with Some x => draw (2 :: p) x ++ [Edge p (2 :: p) (Label "condition")] | None => [] end
  | EIn c m =>
      [Node p "ContainsExpression" None] ++ draw (0 :: p) c ++ draw (1 :: p) m ++
      [Edge p (0 :: p) (Label "container"); Edge p (1 :: p) (Label "member")]
  | EAttr o n _ => [Node p "GetAttributeExpression" (Some (Name n))] ++ draw (0 :: p) o ++ [Edge p (0 :: p) NoLabel]
  | EItem c i _ =>
      [Node p "GetItemExpression" None] ++ draw (0 :: p) c ++ draw (1 :: p) i ++
      [Edge p (0 :: p) (Label "container"); Edge p (1 :: p) (Label "item")]
  | ESlice c a b _ =>
      [Node p "GetSliceExpression" None] ++ draw (0 :: p) c ++ draw (1 :: p) a ++ draw (2 :: p) b ++
      [Edge p (0 :: p) (Label "container"); Edge p (1 :: p) (Label "start"); Edge p (2 :: p) (Label "stop")]
  | ESym n _ _ => [Node p "SymbolExpression" (Some (Name n))]
  | ECall f l =>
      [Node p "FunctionCallExpression" None] ++ draw (0 :: p) f ++ [Edge p (0 :: p) (Label "function")] ++ arguments 1 l
  | ETern c a b =>
      [Node p "TernaryExpression" None] ++ draw (0 :: p) c ++ draw (1 :: p) a ++ draw (2 :: p) b ++
      [Edge p (0 :: p) (Label "condition"); Edge p (1 :: p) (Label "true case"); Edge p (2 :: p) (Label "false case")]
  | EUn o x => [Node p "UnaryExpression" (Some (Kind (unary_type o)))] ++ draw (0 :: p) x ++ [Edge p (0 :: p) NoLabel]
  end.

(** the place of the statement, of its expression and of its comment *)
Definition top : place := [].
Definition comment_place : place := [1%nat].
(** engine.py:659-669 Rule.to_graphviz, ast.py:1163-1168, 133-134 *)
Definition rule_diagram (e : expr) (comment : option str) : list stmt :=
  [Node top "Statement" None] ++ draw [0%nat] e ++ [Edge top [0%nat] NoLabel] ++
  match comment with Some t => [Node comment_place "Comment" (Some (Text t))] | None => [] end.
