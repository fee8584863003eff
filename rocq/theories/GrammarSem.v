(** * GrammarSem: the grammar actions (parser/__init__.py:253-564, the p_ functions) and ParserBase.parse

    The actions turn a derivation tree into a deferred node (Build.dnode).  ply runs them while reducing; here they run
    over the finished tree, from left to right and bottom up, which is the order of the reductions.  Simplification: when
    a literal is malformed and, further right, there is also a syntax error, the code raises the literal's error and this
    model the syntax error (both are SyntaxErrors).
    The operator is taken from the production instead of from the text of its token (op_names, lines 77-98, maps the
    text back to the kind of token). *)
From Verif Require Import Base Dec Value DType Types Ops ParseUtil Attr Prog Ast Eval Build StrLit.
From Verif Require Import Grammar.
Open Scope N_scope.

(** ** Bytes literals: ast.literal_eval('b' + text), parser/__init__.py:416-422
    [body] is the literal without its quotes.  Python reads a carriage return as a line break.  An unknown escape is
    kept; an octal escape above 255 is truncated to a byte. *)
Inductive bstate := BNormal | BEsc | BOct (v : N) (more : nat) | BHex (v : N) (more : nat).
Fixpoint decode_bytes (st : bstate) (l : str) : option (list N) :=
  match l with
  | [] => match st with BNormal => Some [] | BOct v _ => Some [v mod 256] | _ => None end
  | c :: r =>
      let plain := if c =? 92 then decode_bytes BEsc r
                   else if (c =? 0) || (c =? 10) || (c =? 13) || (127 <? c) then None
                   else option_map (cons c) (decode_bytes BNormal r) in
      match st with
      | BNormal => plain
      | BOct v O => option_map (cons (v mod 256)) plain
      | BOct v (S n) => match oct_val c with
                        | Some d => decode_bytes (BOct (8 * v + d) n) r
                        | None => option_map (cons (v mod 256)) plain
                        end
      | BHex v n => match hex_val c with
                    | None => None
                    | Some d => match n with
                                | S (S n') => decode_bytes (BHex (16 * v + d) (S n')) r
                                | _ => option_map (cons (16 * v + d)) (decode_bytes BNormal r)
                                end
                    end
      | BEsc =>
          if (c =? 10) || (c =? 13) then decode_bytes BNormal r
          else if c =? 120 then decode_bytes (BHex 0 2) r
          else match simple_escape c with
               | Some v => option_map (cons v) (decode_bytes BNormal r)
               | None => match oct_val c with
                         | Some d => decode_bytes (BOct d 2) r
                         | None => if (c =? 0) || (127 <? c) then None
                                   else option_map (fun t => 92 :: c :: t) (decode_bytes BNormal r)
                         end
               end
      end
  end.
Definition bytes_value (body : str) : result (list N) :=
  match decode_bytes BNormal body with Some b => Ok b | None => Err XSynBytes end.

(** [text[1:-1]] *)
(* unquote: parser/__init__.py:419, 427, 431, 456 *)
Definition unquote (t : str) : str := match t with [] => [] | _ :: r => removelast r end.

(** ** Actions *)
(** the value of a grammar symbol *)
(* sval: the values p[i] of parser/__init__.py:256-564 *)
Inductive sval :=
| STok (t : token)
| SNode (d : dnode)
| SNodes (l : list dnode)                 (* ary_members: a deque *)
| SPair (k v : dnode)                     (* map_member *)
| SPairs (l : list (dnode * dnode)).      (* map_members *)

(* bad: no Python counterpart *)
Definition bad : result sval := Err PType.      (* never reached on derivation trees: GrammarSem facts in P_Grammar.v *)
(* node: parser/__init__.py:256-564 *)
Definition node (d : dnode) : result sval := Ok (SNode d).
(* is_safe: parser/__init__.py:272, 528, 550 *)
Definition is_safe (t : token) : bool := match text t with 38 :: _ => true | _ => false end.    (* '&[' *)

(* a_first: parser/__init__.py:274-278 *)
Definition a_first (vs : list sval) : result sval := match vs with SNode d :: _ => node d | _ => bad end.
(* a_attr: parser/__init__.py:266-272 *)
Definition a_attr (safe : bool) (vs : list sval) : result sval :=
  match vs with [SNode o; STok _; STok n] => node (DAttr o (text n) safe) | _ => bad end.
(* a_tern: parser/__init__.py:280-285 *)
Definition a_tern (vs : list sval) : result sval :=
  match vs with [SNode c; STok _; SNode a; STok _; SNode b] => node (DTern c a b) | _ => bad end.
(* a_bin: parser/__init__.py:287-332, 347-385 *)
Definition a_bin (o : binop) (vs : list sval) : result sval :=
  match vs with [SNode a; STok _; SNode b] => node (DBin o a b) | _ => bad end.
(* a_in: parser/__init__.py:334-345 *)
Definition a_in (vs : list sval) : result sval :=
  match vs with
  | [SNode m; STok _; SNode c] => node (DIn c m)
  | [SNode m; STok _; STok _; SNode c] => node (DUn UNot (DIn c m))
  | _ => bad
  end.
(* a_group: parser/__init__.py:387-389 *)
Definition a_group (vs : list sval) : result sval := match vs with [STok _; SNode d; STok _] => node d | _ => bad end.
(* a_un: parser/__init__.py:391-393, 404-408 *)
Definition a_un (o : unop) (vs : list sval) : result sval := match vs with [STok _; SNode d] => node (DUn o d) | _ => bad end.
(* a_symbol: parser/__init__.py:395-402 *)
Definition a_symbol (vs : list sval) : result sval :=
  match vs with
  | [STok t] => match text t with
                | [] => Err PIndex                                 (* name[0] *)
                | c :: r => if c =? 36 then node (DSym r true) else node (DSym (text t) false)
                end
  | _ => bad
  end.
(* a_lit: parser/__init__.py:410-415, 442-445 *)
Definition a_lit (v : value) (vs : list sval) : result sval := match vs with [STok _] => node (DLit v) | _ => bad end.
(* a_text: parser/__init__.py:417-440, 454-463 *)
Definition a_text (f : str -> result dnode) (vs : list sval) : result sval :=
  match vs with [STok t] => rmap SNode (f (text t)) | _ => bad end.
(* a_coll: parser/__init__.py:447-452, 465-474 *)
Definition a_coll (f : list dnode -> dnode) (vs : list sval) : result sval :=
  match vs with STok _ :: STok _ :: [] => node (f []) | STok _ :: SNodes l :: _ => node (f l) | _ => bad end.
(* a_map: parser/__init__.py:499-508 *)
Definition a_map (vs : list sval) : result sval :=
  match vs with STok _ :: STok _ :: [] => node (DMap []) | STok _ :: SPairs l :: _ => node (DMap l) | _ => bad end.
(* a_comp: parser/__init__.py:476-484 *)
Definition a_comp (vs : list sval) : result sval :=
  match vs with
  | [STok _; SNode r; STok _; STok v; STok _; SNode i; STok _] => node (DComp r (text v) i None)
  | [STok _; SNode r; STok _; STok v; STok _; SNode i; STok _; SNode c; STok _] => node (DComp r (text v) i (Some c))
  | _ => bad
  end.
(* a_members: parser/__init__.py:486-497, 516-521 *)
Definition a_members (vs : list sval) : result sval :=
  match vs with
  | [SNode d] => Ok (SNodes [d])
  | [SNodes l; STok _; SNode d] => Ok (SNodes (l ++ [d]))
  | [SPair k v] => Ok (SPairs [(k, v)])
  | [SPairs l; STok _; SPair k v] => Ok (SPairs (l ++ [(k, v)]))
  | _ => bad
  end.
(* a_pair: parser/__init__.py:510-514 *)
Definition a_pair (vs : list sval) : result sval := match vs with [SNode k; STok _; SNode v] => Ok (SPair k v) | _ => bad end.
(* a_item: parser/__init__.py:523-528 *)
Definition a_item (vs : list sval) : result sval :=
  match vs with [SNode c; STok lb; SNode i; STok _] => node (DItem c i (is_safe lb)) | _ => bad end.
(* a_slice: parser/__init__.py:530-550 *)
Definition a_slice (vs : list sval) : result sval :=
  match vs with
  | [SNode c; STok lb; STok _; STok _] => node (DSlice c None None (is_safe lb))
  | [SNode c; STok lb; STok _; SNode b; STok _] => node (DSlice c None (Some b) (is_safe lb))
  | [SNode c; STok lb; SNode a; STok _; STok _] => node (DSlice c (Some a) None (is_safe lb))
  | [SNode c; STok lb; SNode a; STok _; SNode b; STok _] => node (DSlice c (Some a) (Some b) (is_safe lb))
  | _ => bad
  end.
(* a_call: parser/__init__.py:552-564 *)
Definition a_call (vs : list sval) : result sval :=
  match vs with
  | [SNode f; STok _; STok _] => node (DCall f [])
  | [SNode f; STok _; SNodes l; STok _] => node (DCall f l)
  | _ => bad
  end.

Section Sem.
  Variable uname : str -> option N.       (* unicodedata.lookup, for \N{...} *)

  (** one action per production, in the order of parsetab.py *)
  Definition actions : list (list sval -> result sval) :=
    [ a_first;                                            (* 0  S' -> statement *)
      a_first; a_first;                                   (* 1, 2  p_statement_expr: the comment is not part of the expression *)
      a_attr false; a_attr true;                          (* 3, 4  p_expression_getattr *)
      a_first;                                            (* 5  p_expression_object *)
      a_tern;                                             (* 6 *)
      a_bin (BArith Mod); a_bin (BArith Mul); a_bin (BArith FDiv); a_bin (BArith TDiv); a_bin (BArith Pow);  (* 7-11 *)
      a_bin BAdd; a_bin BSub;                             (* 12, 13 *)
      a_bin (BBit BAnd); a_bin (BBit BOr); a_bin (BBit BXor); a_bin (BBit BShl); a_bin (BBit BShr);          (* 14-18 *)
      a_in; a_in;                                         (* 19, 20  p_expression_contains *)
      a_bin BEq; a_bin BNe;                               (* 21, 22 *)
      a_bin (BCmp Cgt); a_bin (BCmp Cge); a_bin (BCmp Clt); a_bin (BCmp Cle);                                (* 23-26 *)
      a_bin (BFuzzy false false); a_bin (BFuzzy true false); a_bin (BFuzzy false true); a_bin (BFuzzy true true); (* 27-30 *)
      a_bin BAndL; a_bin BOrL;                            (* 31, 32 *)
      a_group;                                            (* 33 *)
      a_un UNot;                                          (* 34 *)
      a_symbol;                                           (* 35 *)
      a_un UMinus;                                        (* 36 *)
      a_lit (VBool true); a_lit (VBool false);            (* 37, 38 *)
      a_text (fun t => rmap (fun b => DLit (VBytes b)) (bytes_value (unquote t)));                           (* 39 *)
      a_text (fun t => Ok (DDatetime t)); a_text (fun t => Ok (DTimedelta t));                               (* 40, 41 *)
      a_text (fun t => Ok (DFloat t)); a_text (fun t => Ok (DFloat t)); a_text (fun t => Ok (DFloat t));     (* 42-44 *)
      a_lit VNull;                                        (* 45 *)
      a_coll DSet; a_coll DSet;                           (* 46, 47 *)
      a_text (fun t => rmap (fun v => DLit (VStr v)) (string_value uname (unquote t)));                      (* 48 *)
      a_coll DArr; a_coll DArr; a_coll DArr;              (* 49-51 *)
      a_comp; a_comp;                                     (* 52, 53 *)
      a_members; a_members;                               (* 54, 55 *)
      a_map; a_map; a_map;                                (* 56-58 *)
      a_pair;                                             (* 59 *)
      a_members; a_members;                               (* 60, 61 *)
      a_item;                                             (* 62 *)
      a_slice; a_slice; a_slice; a_slice;                 (* 63-66 *)
      a_call; a_call ].                                   (* 67, 68 *)

  (* sem: parser/__init__.py:256-564, one action per production *)
  Fixpoint sem (t : tree) : result sval :=
    match t with
    | Leaf t => Ok (STok t)
    | Node p l => rbind (rmapM sem l) (nth (N.to_nat p) actions (fun _ => bad))
    end.

  (** parser/base.py:63-82 up to the construction of the nodes (result.build() is Build.build) *)
  Definition parse_tokens (inp : list token) : result dnode :=
    match parse inp with
    | Accepted t => rbind (sem t) (fun v => match v with SNode d => Ok d | _ => Err PType end)
    | SyntaxError => Err XSynRule
    | Stuck => Err PIndex
    end.
End Sem.
