(** * GrammarSpec: what "the parse of a token sequence" means, independently of the parsing machine and its tables

    Derivation trees of the published grammar (parser/__init__.py:253-564, the docstrings of the p_ functions) and the
    published precedence table (parser/__init__.py:143-162). *)
From Coq Require Import List NArith Bool Lia.
From Verif Require Export Grammar.
Import ListNotations.
Open Scope N_scope.

(** ** Derivations *)
Inductive derives : symbol -> tree -> Prop :=
| der_token t : kind t <> T_end -> derives (T (kind t)) (Leaf t)
| der_prod p l : (N.to_nat p < length productions)%nat -> Forall2 derives (rhs p) l -> derives (NT (lhs p)) (Node p l).

(** the token sequence a tree stands for *)
Fixpoint yield (t : tree) : list token :=
  match t with Leaf t => [t] | Node _ l => flat_map yield l end.

(** ** Precedence
    parser/__init__.py:143-162, here from lowest to highest as ply receives it *)
Inductive assoc := Left | Right | NonAssoc.
Inductive level_op := Op (t : tok) | UMinus.
Definition levels : list (assoc * list level_op) :=
  [ (Left, [Op T_OR]);
    (Left, [Op T_AND]);
    (Right, [Op T_NOT]);
    (Left, [Op T_BWOR]);
    (Left, [Op T_BWXOR]);
    (Left, [Op T_BWAND]);
    (Right, [Op T_QMARK; Op T_COLON]);
    (NonAssoc, [Op T_EQ; Op T_NE; Op T_EQ_FZM; Op T_EQ_FZS; Op T_NE_FZM; Op T_NE_FZS; Op T_GE; Op T_GT; Op T_LE; Op T_LT; Op T_IN]);
    (Left, [Op T_ADD; Op T_SUB]);
    (Left, [Op T_BWLSH; Op T_BWRSH]);
    (Left, [Op T_MUL; Op T_TDIV; Op T_FDIV; Op T_MOD]);
    (Left, [Op T_POW]);
    (Right, [UMinus]);
    (Left, [Op T_ATTR; Op T_ATTR_SAFE]);
    (NonAssoc, [Op T_LPAREN; Op T_RPAREN]) ].

Definition level_op_eqb (a b : level_op) : bool :=
  match a, b with Op x, Op y => tok_eqb x y | UMinus, UMinus => true | _, _ => false end.
Fixpoint find_level (i : nat) (ls : list (assoc * list level_op)) (o : level_op) : option (nat * assoc) :=
  match ls with
  | [] => None
  | (a, os) :: r => if existsb (level_op_eqb o) os then Some (i, a) else find_level (S i) r o
  end.
Definition level (o : level_op) : option (nat * assoc) := find_level 0 levels o.

(** The tokens that continue an operand: the binary operators, [?] of the ternary, [not] of [not in], the call. *)
Definition infix (t : tok) : bool :=
  match t with
  | T_OR | T_AND | T_NOT | T_BWOR | T_BWXOR | T_BWAND | T_QMARK | T_EQ | T_NE | T_EQ_FZM | T_EQ_FZS | T_NE_FZM
  | T_NE_FZS | T_GE | T_GT | T_LE | T_LT | T_IN | T_ADD | T_SUB | T_BWLSH | T_BWRSH | T_MUL | T_TDIV | T_FDIV | T_MOD
  | T_POW | T_LPAREN => true
  | _ => false
  end.

(** The operator of a production [expression : ... expression], whose operand on the right is open: its last terminal,
    except for the unary minus ([%prec UMINUS]). *)
Fixpoint last_terminal (l : list symbol) (acc : option tok) : option tok :=
  match l with [] => acc | T t :: r => last_terminal r (Some t) | NT _ :: r => last_terminal r acc end.
Definition operator (p : N) : option level_op :=
  match lhs p, rhs p, last (rhs p) (T T_end) with
  | N_expression, [T T_SUB; NT N_expression], _ => Some UMinus
  | N_expression, l, NT N_expression => option_map Op (last_terminal l None)
  | _, _, _ => None
  end.

(** [closes p x]: in [... p-operand x ...] the phrase built by [p] ends before [x] (it binds tighter than [x]).
    [extends p x]: there [x] takes the operand instead.  At a nonassociative level neither holds. *)
Definition closes (p : N) (x : tok) : bool :=
  match operator p with
  | Some o => if infix x then
                match level o, level (Op x) with
                | Some (i, a), Some (j, _) => Nat.ltb j i || (Nat.eqb i j && match a with Left => true | _ => false end)
                | _, _ => false
                end
              else true
  | None => true
  end.
Definition extends (p : N) (x : tok) : bool :=
  match operator p with
  | Some o => if infix x then
                match level o, level (Op x) with
                | Some (i, a), Some (j, _) => Nat.ltb i j || (Nat.eqb i j && match a with Right => true | _ => false end)
                | _, _ => false
                end
              else true
  | None => true
  end.

(** the productions whose phrase ends where the tree ends, outermost first *)
Fixpoint right_edge (t : tree) : list N :=
  match t with
  | Leaf _ => []
  | Node p l =>
      p :: (fix go (l : list tree) : list N :=
              match l with [] => [] | [c] => right_edge c | _ :: r => go r end) l
  end.
(** the tokens that follow an operand which begins where the tree begins *)
Fixpoint left_edge (t : tree) : list tok :=
  match t with
  | Node _ ((Node _ _ as c) :: Leaf x :: _) => kind x :: left_edge c
  | Node _ ((Node _ _ as c) :: _) => left_edge c
  | _ => []
  end.

(** A tree groups its operands as the precedence table says: an operand on the left of a token is closed before it, and
    in the right operand of an operator every operator reached from its left edge takes its operand from it. *)
Inductive grouped : tree -> Prop :=
| gr_leaf t : grouped (Leaf t)
| gr_node p l :
    Forall grouped l ->
    (forall l1 c x l2, l = l1 ++ c :: Leaf x :: l2 -> forall q, In q (right_edge c) -> closes q (kind x) = true) ->
    (forall l1 c, l = l1 ++ [c] -> l1 <> [] -> forall x, In x (left_edge c) -> extends p x = true) ->
    grouped (Node p l).

(** The input consists of real tokens (ply's end marker is never produced by the lexer). *)
Definition real (inp : list token) : Prop := Forall (fun t => kind t <> T_end) inp.
