(** * C52: every expression tree has a fully parenthesised spelling that parses back to it *)
From Coq Require Import Arith.
From Verif Require Import Base Dec Value DType Types Ops ParseUtil Attr Prog Ast Eval Build StrLit P_StrLit.
From Verif Require Import Grammar GrammarSpec GrammarCheck GrammarFacts GrammarSem P_Grammar.
Local Open Scope N_scope.

(** ** Which trees can be written
    Everything the node type can express, except: an empty set literal (there is no syntax for it: braces without
    members are a mapping), literals of the types that have no literal syntax, and names that are not names. *)
Definition code_points (t : str) : Prop := Forall (fun c => c < 1114112) t.
Definition octets (b : list N) : Prop := Forall (fun c => c < 256) b.
Definition writable_value (v : value) : Prop :=
  match v with VNull | VBool _ => True | VStr t => code_points t | VBytes b => octets b | _ => False end.
Definition plain_name (n : str) : Prop := match n with [] => False | c :: _ => c <> 36 end.

Inductive writable : dnode -> Prop :=
| W_lit v : writable_value v -> writable (DLit v)
| W_float t : writable (DFloat t)
| W_datetime t : writable (DDatetime t)
| W_timedelta t : writable (DTimedelta t)
| W_arr l : Forall writable l -> writable (DArr l)
| W_set l : l <> [] -> Forall writable l -> writable (DSet l)
| W_map l : Forall (fun kv => writable (fst kv) /\ writable (snd kv)) l -> writable (DMap l)
| W_bin o a b : writable a -> writable b -> writable (DBin o a b)
| W_comp r v i c : writable r -> writable i -> (forall e, c = Some e -> writable e) -> writable (DComp r v i c)
| W_in c m : writable c -> writable m -> writable (DIn c m)
| W_attr o n sf : writable o -> writable (DAttr o n sf)
| W_item c i sf : writable c -> writable i -> writable (DItem c i sf)
| W_slice c a b sf : writable c -> (forall e, a = Some e -> writable e) -> (forall e, b = Some e -> writable e) -> writable (DSlice c a b sf)
| W_sym n (b : bool) : (b = false -> plain_name n) -> writable (DSym n b)
| W_call f l : writable f -> Forall writable l -> writable (DCall f l)
| W_tern c a b : writable c -> writable a -> writable b -> writable (DTern c a b)
| W_un o e : writable e -> writable (DUn o e).

(** ** The spelling *)
Definition quote : N := 34.
Definition quoted (b : str) : str := quote :: b ++ [quote].
Definition string_body (t : str) : str := flat_map (fun c => 92 :: 85 :: hex_of 8 c) t.     (* \UXXXXXXXX for each character *)
Definition bytes_body (b : list N) : str := flat_map (fun c => 92 :: 120 :: hex_of 2 c) b.  (* \xXX for each byte *)

Definition lp := Leaf (mkToken T_LPAREN (s "(")).
Definition rp := Leaf (mkToken T_RPAREN (s ")")).
Definition lbk (safe : bool) := Leaf (mkToken T_LBRACKET (if safe then s "&[" else s "[")).
Definition rbk := Leaf (mkToken T_RBRACKET (s "]")).
Definition lbc := Leaf (mkToken T_LBRACE (s "{")).
Definition rbc := Leaf (mkToken T_RBRACE (s "}")).
Definition comma := Leaf (mkToken T_COMMA (s ",")).
Definition colon := Leaf (mkToken T_COLON (s ":")).
Definition word (k : tok) (x : str) := Leaf (mkToken k x).

Definition binop_tok (o : binop) : tok * str * N :=
  match o with
  | BAdd => (T_ADD, s "+", 12) | BSub => (T_SUB, s "-", 13)
  | BArith Mod => (T_MOD, s "%", 7) | BArith Mul => (T_MUL, s "*", 8) | BArith FDiv => (T_FDIV, s "//", 9)
  | BArith TDiv => (T_TDIV, s "/", 10) | BArith Pow => (T_POW, s "**", 11)
  | BBit BAnd => (T_BWAND, s "&", 14) | BBit BOr => (T_BWOR, s "|", 15) | BBit BXor => (T_BWXOR, s "^", 16)
  | BBit BShl => (T_BWLSH, s "<<", 17) | BBit BShr => (T_BWRSH, s ">>", 18)
  | BEq => (T_EQ, s "==", 21) | BNe => (T_NE, s "!=", 22)
  | BCmp Cgt => (T_GT, s ">", 23) | BCmp Cge => (T_GE, s ">=", 24) | BCmp Clt => (T_LT, s "<", 25) | BCmp Cle => (T_LE, s "<=", 26)
  | BFuzzy false false => (T_EQ_FZM, s "=~", 27) | BFuzzy true false => (T_EQ_FZS, s "=~~", 28)
  | BFuzzy false true => (T_NE_FZM, s "!~", 29) | BFuzzy true true => (T_NE_FZS, s "!~~", 30)
  | BAndL => (T_AND, s "and", 31) | BOrL => (T_OR, s "or", 32)
  end.
Definition object (t : tree) : tree := Node 5 [t].
Definition group (t : tree) : tree := Node 33 [lp; t; rp].
Definition paren (t : tree) : tree := object (group t).
(** a non-empty, comma separated list *)
Definition members (one more : N) (l : list tree) : tree :=
  match l with [] => Node one [] | x :: r => fold_left (fun acc y => Node more [acc; comma; y]) r (Node one [x]) end.
Definition lit_tree (v : value) : tree :=
  match v with
  | VBool true => Node 37 [word T_TRUE (s "true")]
  | VBool false => Node 38 [word T_FALSE (s "false")]
  | VStr t => object (Node 48 [Leaf (mkToken T_STRING (quoted (string_body t)))])
  | VBytes b => object (Node 39 [Leaf (mkToken T_BYTES (quoted (bytes_body b)))])
  | _ => object (Node 45 [word T_NULL (s "null")])
  end.
Definition float_tree (t : str) : tree :=
  if str_eqb t (s "nan") then Node 43 [Leaf (mkToken T_FLOAT_NAN t)]
  else if str_eqb t (s "inf") then Node 44 [Leaf (mkToken T_FLOAT_INF t)]
  else Node 42 [Leaf (mkToken T_FLOAT t)].

Fixpoint spell (d : dnode) : tree :=
  match d with
  | DLit v => lit_tree v
  | DFloat t => float_tree t
  | DDatetime t => object (Node 40 [Leaf (mkToken T_DATETIME t)])
  | DTimedelta t => object (Node 41 [Leaf (mkToken T_TIMEDELTA t)])
  | DArr [] => object (Node 49 [lbk false; rbk])
  | DArr l => object (Node 50 [lbk false; members 54 55 (map (fun x => paren (spell x)) l); rbk])
  | DSet l => object (Node 46 [lbc; members 54 55 (map (fun x => paren (spell x)) l); rbc])
  | DMap [] => object (Node 56 [lbc; rbc])
  | DMap l => object (Node 57 [lbc; members 60 61 (map (fun kv => match kv with (k, v) => Node 59 [paren (spell k); colon; paren (spell v)] end) l); rbc])
  | DBin o a b => match binop_tok o with (k, t, p) => Node p [paren (spell a); Leaf (mkToken k t); paren (spell b)] end
  | DComp r v i None =>
      object (Node 52 [lbk false; paren (spell r); word T_FOR (s "for"); Leaf (mkToken T_SYMBOL v); word T_IN (s "in"); paren (spell i); rbk])
  | DComp r v i (Some c) =>
      object (Node 53 [lbk false; paren (spell r); word T_FOR (s "for"); Leaf (mkToken T_SYMBOL v); word T_IN (s "in"); paren (spell i); word T_IF (s "if"); paren (spell c); rbk])
  | DIn c m => Node 19 [paren (spell m); word T_IN (s "in"); paren (spell c)]
  | DAttr o n false => object (Node 3 [group (spell o); word T_ATTR (s "."); Leaf (mkToken T_SYMBOL n)])
  | DAttr o n true => object (Node 4 [group (spell o); word T_ATTR_SAFE (s "&."); Leaf (mkToken T_SYMBOL n)])
  | DItem c i sf => object (Node 62 [group (spell c); lbk sf; paren (spell i); rbk])
  | DSlice c None None sf => object (Node 63 [group (spell c); lbk sf; colon; rbk])
  | DSlice c None (Some b) sf => object (Node 64 [group (spell c); lbk sf; colon; paren (spell b); rbk])
  | DSlice c (Some a) None sf => object (Node 65 [group (spell c); lbk sf; paren (spell a); colon; rbk])
  | DSlice c (Some a) (Some b) sf => object (Node 66 [group (spell c); lbk sf; paren (spell a); colon; paren (spell b); rbk])
  | DSym n b => object (Node 35 [Leaf (mkToken T_SYMBOL (if b then 36 :: n else n))])
  | DCall f [] => object (Node 67 [paren (spell f); lp; rp])
  | DCall f l => object (Node 68 [paren (spell f); lp; members 54 55 (map (fun x => paren (spell x)) l); rp])
  | DTern c a b => Node 6 [paren (spell c); word T_QMARK (s "?"); paren (spell a); colon; paren (spell b)]
  | DUn UNot e => Node 34 [word T_NOT (s "not"); paren (spell e)]
  | DUn Ast.UMinus e => Node 36 [word T_SUB (s "-"); paren (spell e)]
  end.
Definition spelling (d : dnode) : list token := yield (single (spell d)).

(** ** Proofs *)
Section S.
Variable uname : str -> option N.
Notation sem := (sem uname).

Definition closed (t : tree) : Prop := grouped t /\ forall q, In q (right_edge t) -> operator q = None.
Lemma closed_leaf t : closed (Leaf t).
Proof. split; [constructor|intros q []]. Qed.
Lemma closed_adj l : Forall closed l -> adj l.
Proof.
  induction 1 as [|c l [Hc Hq] Hl IH]; cbn [adj]; [exact I|]. split; [|exact IH]. destruct l as [|[x|] l]; try exact I.
  intros q H. unfold closes. rewrite (Hq q H). reflexivity.
Qed.
Lemma closed_grouped p l : Forall closed l -> (operator p = None \/ forall l1 c, l = l1 ++ [c] -> left_edge c = []) -> grouped (Node p l).
Proof.
  intros F H. apply grouped_node; [|apply closed_adj; exact F|].
  - eapply Forall_impl; [|exact F]. intros c [G _]. exact G.
  - intros l1 c E _ x Hx. destruct H as [H|H]; [unfold extends; rewrite H; reflexivity|]. rewrite (H _ _ E) in Hx. destruct Hx.
Qed.
Lemma closed_node p l : operator p = None -> Forall closed l -> closed (Node p l).
Proof.
  intros H F. split; [apply closed_grouped; auto|]. intros q Hq.
  destruct l as [|c0 l0] using rev_ind; [destruct Hq as [<-|[]]; exact H|].
  rewrite right_edge_last in Hq. destruct Hq as [<-|Hq]; [exact H|]. apply Forall_app in F as [_ F]. inversion F as [|? ? [_ Hc] _]; subst. exact (Hc q Hq).
Qed.
Lemma closed_group t : grouped t -> closed (group t).
Proof.
  intros G. split.
  - apply grouped_node; [repeat constructor; exact G| |].
    + cbn [adj right_edge]. split; [destruct t; [intros q []|exact I]|]. split; [|split; exact I]. intros q _. unfold closes. destruct (operator q); reflexivity.
    + intros l1 c E _ x Hx. change [lp; t; rp] with ([lp; t] ++ [rp]) in E. apply app_inj_tail in E as [_ <-]. destruct Hx.
  - intros q Hq. change (group t) with (Node 33 ([lp; t] ++ [rp])) in Hq. rewrite right_edge_last in Hq. destruct Hq as [<-|[]]. reflexivity.
Qed.
Lemma closed_paren t : grouped t -> closed (paren t).
Proof. intros G. apply closed_node; [reflexivity|]. constructor; [apply closed_group; exact G|constructor]. Qed.
Lemma closed_object t : closed t -> closed (object t).
Proof. intros H. apply closed_node; [reflexivity|]. constructor; [exact H|constructor]. Qed.

Lemma derives_leaf' k x : k <> T_end -> derives (T k) (Leaf (mkToken k x)).
Proof. intros H. exact (der_token (mkToken k x) H). Qed.
Lemma derives_object t : derives (NT N_object) t -> derives (NT N_expression) (object t).
Proof. intros D. change (NT N_expression) with (NT (lhs 5)). derive 5. constructor; [exact D|constructor]. Qed.
Ltac tok_ := apply derives_leaf'; discriminate.
Lemma derives_group t : derives (NT N_expression) t -> derives (NT N_object) (group t).
Proof. intros D. change (NT N_object) with (NT (lhs 33)). derive 33. repeat (constructor; [first [tok_|exact D]|]). constructor. Qed.
Lemma derives_paren t : derives (NT N_expression) t -> derives (NT N_expression) (paren t).
Proof. intros D. apply derives_object, derives_group, D. Qed.

Definition good (t : tree) (d : dnode) : Prop := derives (NT N_expression) t /\ grouped t /\ sem t = Ok (SNode d).
Lemma sem_group t d : sem t = Ok (SNode d) -> sem (group t) = Ok (SNode d).
Proof. intros H. unfold group, lp, rp. cbn [GrammarSem.sem rmapM rbind]. rewrite H. reflexivity. Qed.
Lemma sem_object t d : sem t = Ok (SNode d) -> sem (object t) = Ok (SNode d).
Proof. intros H. unfold object. cbn [GrammarSem.sem rmapM rbind]. rewrite H. reflexivity. Qed.

Lemma sem_paren t d : sem t = Ok (SNode d) -> sem (paren t) = Ok (SNode d).
Proof. intros H. apply sem_object, sem_group, H. Qed.
Lemma sem_node p l : sem (Node p l) = rbind (rmapM sem l) (nth (N.to_nat p) (actions uname) (fun _ => bad)).
Proof. reflexivity. Qed.
Lemma sem_leaf t : sem (Leaf t) = Ok (STok t).
Proof. reflexivity. Qed.

(** the members of a list *)
Definition goodm (n : nonterm) (t : tree) (v : sval) : Prop := derives (NT n) t /\ closed t /\ sem t = Ok v.
Lemma good_members l ds : l <> [] -> Forall2 good l ds -> goodm N_ary_members (members 54 55 (map paren l)) (SNodes ds).
Proof.
  intros Hn F. destruct F as [|t d l ds Ht F]; [congruence|]. cbn [map members].
  assert (H0 : goodm N_ary_members (Node 54 [paren t]) (SNodes [d])).
  { destruct Ht as (D & G & S). split; [|split].
    - change (NT N_ary_members) with (NT (lhs 54)). derive 54. constructor; [apply derives_paren; exact D|constructor].
    - apply closed_node; [reflexivity|]. constructor; [apply closed_paren; exact G|constructor].
    - rewrite sem_node. cbn [rmapM]. rewrite (sem_paren _ _ S). reflexivity. }
  clear Hn Ht. change (d :: ds) with ([d] ++ ds). revert H0. generalize (Node 54 [paren t]) ([d]). clear t d.
  induction F as [|t d l ds (D & G & S) _ IH]; intros acc dacc H0; cbn [map fold_left]; [rewrite app_nil_r; exact H0|].
  replace (dacc ++ d :: ds) with ((dacc ++ [d]) ++ ds) by (rewrite <- app_assoc; reflexivity). apply IH.
  destruct H0 as (D0 & C0 & S0). split; [|split].
  - change (NT N_ary_members) with (NT (lhs 55)). derive 55. constructor; [exact D0|]. constructor; [tok_|]. constructor; [apply derives_paren; exact D|constructor].
  - apply closed_node; [reflexivity|]. constructor; [exact C0|]. constructor; [apply closed_leaf|]. constructor; [apply closed_paren; exact G|constructor].
  - rewrite sem_node. cbn [rmapM]. rewrite S0. cbn [rbind]. rewrite (sem_paren _ _ S). reflexivity.
Qed.
Definition pair_tree (kv : tree * tree) : tree := Node 59 [paren (fst kv); colon; paren (snd kv)].
Lemma good_pair k v dk dv : good k dk -> good v dv -> goodm N_map_member (pair_tree (k, v)) (SPair dk dv).
Proof.
  intros (D & G & S) (D' & G' & S'). split; [|split].
  - change (NT N_map_member) with (NT (lhs 59)). derive 59. repeat (constructor; [first [tok_|apply derives_paren; eassumption]|]). constructor.
  - apply closed_node; [reflexivity|]. repeat (constructor; [first [apply closed_leaf|apply closed_paren; eassumption]|]). constructor.
  - unfold pair_tree. rewrite sem_node. cbn [rmapM fst snd]. rewrite (sem_paren _ _ S). cbn [rbind]. rewrite (sem_paren _ _ S'). reflexivity.
Qed.
Lemma good_pairs l ds : l <> [] -> Forall2 (fun t d => good (fst t) (fst d) /\ good (snd t) (snd d)) l ds ->
  goodm N_map_members (members 60 61 (map pair_tree l)) (SPairs ds).
Proof.
  intros Hn F. destruct F as [|t d l ds [Ht1 Ht2] F]; [congruence|]. cbn [map members].
  assert (H0 : goodm N_map_members (Node 60 [pair_tree t]) (SPairs [d])).
  { destruct t as [tk tv], d as [dk dv]. destruct (good_pair _ _ _ _ Ht1 Ht2) as (D & C & S). cbn [fst snd] in *. split; [|split].
    - change (NT N_map_members) with (NT (lhs 60)). derive 60. constructor; [exact D|constructor].
    - apply closed_node; [reflexivity|]. constructor; [exact C|constructor].
    - rewrite sem_node. cbn [rmapM]. rewrite S. reflexivity. }
  clear Hn Ht1 Ht2. change (d :: ds) with ([d] ++ ds). revert H0. generalize (Node 60 [pair_tree t]) ([d]). clear t d.
  induction F as [|[tk tv] [dk dv] l ds [Ht1 Ht2] _ IH]; intros acc dacc H0; cbn [map fold_left]; [rewrite app_nil_r; exact H0|].
  replace (dacc ++ (dk, dv) :: ds) with ((dacc ++ [(dk, dv)]) ++ ds) by (rewrite <- app_assoc; reflexivity). apply IH.
  destruct (good_pair _ _ _ _ Ht1 Ht2) as (D & C & S). cbn [fst snd] in *. destruct H0 as (D0 & C0 & S0). split; [|split].
  - change (NT N_map_members) with (NT (lhs 61)). derive 61. constructor; [exact D0|]. constructor; [tok_|]. constructor; [exact D|constructor].
  - apply closed_node; [reflexivity|]. constructor; [exact C0|]. constructor; [apply closed_leaf|]. constructor; [exact C|constructor].
  - rewrite sem_node. cbn [rmapM]. rewrite S0. cbn [rbind]. unfold comma at 1. rewrite sem_leaf. cbn [rbind]. rewrite S. reflexivity.
Qed.

(** quoted literals *)
Lemma unquote_quoted b : unquote (quoted b) = b.
Proof. unfold quoted, unquote. apply removelast_last. Qed.
Lemma hex_char_hex d : d < 16 -> is_hex (hex_char d).
Proof. intros H. unfold hex_char, is_hex. destruct (d <? 10) eqn:E; [apply N.ltb_lt in E|apply N.ltb_ge in E]; lia. Qed.
Lemma digit_hex_char d : d < 16 -> digit (hex_char d) = d.
Proof.
  intros H. assert (A := hex_val_char d H). rewrite (hex_val_digit _ (hex_char_hex d H)) in A. congruence.
Qed.
Lemma hex_of_hex n : forall x, Forall is_hex (hex_of n x) /\ length (hex_of n x) = n.
Proof.
  induction n as [|n IH]; intros x; [split; [constructor|reflexivity]|]. cbn [hex_of]. destruct (IH (x / 16)) as [A B]. split.
  - apply Forall_app. split; [exact A|]. constructor; [|constructor]. apply hex_char_hex. apply N.mod_lt. discriminate.
  - rewrite app_length, B. cbn [length]. lia.
Qed.
Lemma number_hex n : forall x, x < 16 ^ N.of_nat n -> number 16 (hex_of n x) = x.
Proof.
  induction n as [|n IH]; intros x H.
  - change (16 ^ N.of_nat 0) with 1 in H. cbn [hex_of]. unfold number. cbn [fold_left]. lia.
  - rewrite Nat2N.inj_succ, N.pow_succ_r' in H. cbn [hex_of]. unfold number in *. rewrite fold_left_app. cbn [fold_left].
    rewrite IH by (apply N.div_lt_upper_bound; [discriminate|lia]). rewrite digit_hex_char by (apply N.mod_lt; discriminate).
    symmetry. apply N.div_mod. discriminate.
Qed.
Lemma string_body_value t : code_points t -> string_value uname (string_body t) = Ok t.
Proof.
  intros H. apply C49_escapes.
  - unfold P_StrLit.text. induction H as [|c t Hc H IH]; cbn [string_body flat_map]; [constructor|]. apply Forall_app. split; [|exact IH].
    constructor; [lia|]. constructor; [lia|]. eapply Forall_impl; [|apply hex_of_hex]. intros a Ha. apply hex_ascii in Ha. lia.
  - induction H as [|c t Hc H IH]; cbn [string_body flat_map]; [constructor|].
    assert (E : c = number 16 (hex_of 8 c)) by (symmetry; apply number_hex; change (16 ^ N.of_nat 8) with 4294967296; lia).
    replace (c :: t) with (number 16 (hex_of 8 c) :: t) by (rewrite <- E; reflexivity). cbn [app]. apply Sp_hex with (n := 8%nat); [constructor|apply hex_of_hex|apply hex_of_hex| |exact IH]. rewrite <- E. exact Hc.
Qed.
Lemma decode_byte c r : c < 256 -> decode_bytes BNormal ((92 :: 120 :: hex_of 2 c) ++ r) = option_map (cons c) (decode_bytes BNormal r).
Proof.
  intros H. change (hex_of 2 c) with [hex_char (c / 16 mod 16); hex_char (c mod 16)]. cbn [app].
  change (decode_bytes BNormal (92 :: 120 :: ?l)) with (decode_bytes (BHex 0 2) l). 
  cbn [decode_bytes]. rewrite !hex_val_char by (apply N.mod_lt; discriminate). f_equal. f_equal.
  rewrite (N.mod_small (c / 16) 16) by (apply N.div_lt_upper_bound; [discriminate|lia]). rewrite N.mul_0_r, N.add_0_l.
  symmetry. apply N.div_mod. discriminate.
Qed.
Lemma bytes_body_value b : octets b -> bytes_value (bytes_body b) = Ok b.
Proof.
  intros H. unfold bytes_value. assert (E : decode_bytes BNormal (bytes_body b) = Some b).
  { induction H as [|c b Hc H IH]; [reflexivity|]. unfold bytes_body in *. cbn [flat_map]. rewrite decode_byte by exact Hc. rewrite IH. reflexivity. }
  rewrite E. reflexivity.
Qed.

(** every spelling is a grouped derivation that means the tree *)
Lemma Forall2_map_good {A} (f : A -> tree) (g : A -> dnode) l : Forall (fun x => good (f x) (g x)) l -> Forall2 good (map f l) (map g l).
Proof. induction 1; cbn [map]; constructor; assumption. Qed.
Ltac kid := first [tok_ | apply derives_paren; assumption | apply derives_group; assumption | assumption].
Ltac der p := (change (NT N_expression) with (NT (lhs p)) || change (NT N_object) with (NT (lhs p))); derive p; repeat (constructor; [kid|]); constructor.
Ltac clo := repeat (constructor; [first [apply closed_leaf | apply closed_paren; assumption | apply closed_group; assumption | assumption]|]); constructor.
Ltac fin := rewrite sem_node; cbn [rmapM]; unfold word, lbk, rbk, lbc, rbc, comma, colon, lp, rp; repeat rewrite sem_leaf; cbn [rbind];
  repeat match goal with H : sem ?t = Ok _ |- context [sem (paren ?t)] => rewrite (sem_paren _ _ H); cbn [rbind]; repeat rewrite sem_leaf; cbn [rbind]
                       | H : sem ?t = Ok _ |- context [sem (group ?t)] => rewrite (sem_group _ _ H); cbn [rbind]; repeat rewrite sem_leaf; cbn [rbind]
                       | H : sem ?t = Ok _ |- context [sem ?t] => rewrite H; cbn [rbind]; repeat rewrite sem_leaf; cbn [rbind] end.
Ltac obj p := cbn [spell]; split; [apply derives_object; der p|split; [apply closed_object; apply closed_node; [reflexivity|clo]|apply sem_object; fin; try reflexivity]].
Ltac opr p := cbn [spell]; split; [der p|split; [apply closed_grouped; [clo|right; intros l1 c0 E0;
    match type of E0 with [?a; ?b] = _ => change [a; b] with ([a] ++ [b]) in E0
                    | [?a; ?b; ?c] = _ => change [a; b; c] with ([a; b] ++ [c]) in E0
                    | [?a; ?b; ?c; ?d; ?e] = _ => change [a; b; c; d; e] with ([a; b; c; d] ++ [e]) in E0 end;
    apply app_inj_tail in E0 as [_ <-]; reflexivity]|fin; try reflexivity]].
Definition objective (t : tree) (d : dnode) : Prop := derives (NT N_expression) t /\ closed t /\ sem t = Ok (SNode d).
Lemma objective_good t d : objective t d -> good t d.
Proof. intros (D & [G _] & S). split; [exact D|split; [exact G|exact S]]. Qed.
Lemma good_lit v : writable_value v -> good (lit_tree v) (DLit v).
Proof.
  intros H. destruct v; try (destruct H; fail); cbn [lit_tree writable_value] in *; repeat match goal with b : bool |- _ => destruct b end.
  - apply objective_good. obj 45.
  - split; [der 37|split; [apply closed_grouped; [clo|left; reflexivity]|fin; reflexivity]].
  - split; [der 38|split; [apply closed_grouped; [clo|left; reflexivity]|fin; reflexivity]].
  - apply objective_good. obj 48. change (nth (N.to_nat 48) (actions uname) (fun _ => bad)) with (a_text (fun t => rmap (fun v => DLit (VStr v)) (string_value uname (unquote t)))).
    cbn [a_text Grammar.text]. rewrite unquote_quoted, string_body_value by exact H. reflexivity.
  - apply objective_good. obj 39. change (nth (N.to_nat 39) (actions uname) (fun _ => bad)) with (a_text (fun t => rmap (fun b => DLit (VBytes b)) (bytes_value (unquote t)))).
    cbn [a_text Grammar.text]. rewrite unquote_quoted, bytes_body_value by exact H. reflexivity.
Qed.
Lemma good_float t : good (float_tree t) (DFloat t).
Proof.
  unfold float_tree. destruct (str_eqb t (s "nan")); [|destruct (str_eqb t (s "inf"))].
  - split; [der 43|split; [apply closed_grouped; [clo|left; reflexivity]|fin; reflexivity]].
  - split; [der 44|split; [apply closed_grouped; [clo|left; reflexivity]|fin; reflexivity]].
  - split; [der 42|split; [apply closed_grouped; [clo|left; reflexivity]|fin; reflexivity]].
Qed.
Lemma good_bin o ta tb a b : good ta a -> good tb b ->
  good (match binop_tok o with (k, t, p) => Node p [paren ta; Leaf (mkToken k t); paren tb] end) (DBin o a b).
Proof.
  intros (Da & Ga & Sa) (Db & Gb & Sb).
  destruct o; repeat match goal with o : arith |- _ => destruct o | o : bitop |- _ => destruct o | o : cop |- _ => destruct o | b : bool |- _ => destruct b end; cbn [binop_tok];
  match goal with |- good (Node ?p _) _ => opr p end.
Qed.
Lemma good_list l : Forall (fun d => writable d -> good (spell d) d) l -> Forall writable l -> Forall2 good (map spell l) l.
Proof. induction 1 as [|d l H _ IH]; intros W; cbn [map]; [constructor|]. inversion W; subst. constructor; auto. Qed.
Lemma map_paren l : map (fun x => paren (spell x)) l = map paren (map spell l).
Proof. rewrite map_map. reflexivity. Qed.
Lemma good_plist l : Forall (fun kv => (writable (fst kv) -> good (spell (fst kv)) (fst kv)) /\ (writable (snd kv) -> good (spell (snd kv)) (snd kv))) l ->
  Forall (fun kv => writable (fst kv) /\ writable (snd kv)) l ->
  Forall2 (fun t d => good (fst t) (fst d) /\ good (snd t) (snd d)) (map (fun kv => (spell (fst kv), spell (snd kv))) l) l.
Proof. induction 1 as [|d l [H1 H2] _ IH]; intros W; cbn [map]; [constructor|]. inversion W as [|? ? [W1 W2] W3]; subst. constructor; [cbn [fst snd]; auto|auto]. Qed.
Lemma map_pairs l : map (fun kv : dnode * dnode => match kv with (k, v) => Node 59 [paren (spell k); colon; paren (spell v)] end) l
  = map pair_tree (map (fun kv => (spell (fst kv), spell (snd kv))) l).
Proof. rewrite map_map. apply map_ext. intros [k v]. reflexivity. Qed.
Lemma map_nil {A B} (f : A -> B) l : l <> [] -> map f l <> [].
Proof. destruct l; [congruence|discriminate]. Qed.

Lemma spell_good d : writable d -> good (spell d) d.
Proof.
  induction d as [v|t|t|t|l IH|l IH|l IH|o a b IHa IHb|r v i c IHr IHi IHc|c m IHc IHm|o nm sf IHo|c i sf IHc IHi|c a b sf IHc IHa IHb|nm bi|f l IHf IHl|c a b IHc IHa IHb|o e IHe] using dnode_ind';
  intros W; inversion W as [v' Wv|t'|t'|t'|l' Wl|l' Wn Wl|l' Wl|o' a' b' Wa Wb|r' v' i' c' Wr Wi Wc|c' m' Wc Wm|o' n' sf' Wo|c' i' sf' Wc Wi|c' a' b' sf' Wc Wa Wb|n' b' Wn|f' l' Wf Wl|c' a' b' Wc Wa Wb|o' e' We]; subst; clear W.
  - exact (good_lit v Wv).
  - exact (good_float t).
  - apply objective_good. obj 40.
  - apply objective_good. obj 41.
  - apply objective_good. destruct l as [|x l]; [obj 49|]. cbn [spell]. rewrite map_paren.
    destruct (good_members (map spell (x :: l)) (x :: l)) as (D & Cl & S); [discriminate|apply good_list; assumption|]. obj 50.
  - apply objective_good. cbn [spell]. rewrite map_paren.
    destruct (good_members (map spell l) l) as (D & Cl & S); [apply map_nil; exact Wn|apply good_list; assumption|]. obj 46.
  - apply objective_good. destruct l as [|x l]; [obj 56|]. cbn [spell]. rewrite map_pairs.
    destruct (good_pairs (map (fun kv => (spell (fst kv), spell (snd kv))) (x :: l)) (x :: l)) as (D & Cl & S); [discriminate|apply good_plist; assumption|]. obj 57.
  - exact (good_bin o _ _ a b (IHa Wa) (IHb Wb)).
  - apply objective_good. destruct (IHr Wr) as (Dr & Gr & Sr), (IHi Wi) as (Di & Gi & Si). destruct c as [c|]; cbn [opt_D] in *.
    + destruct (IHc (Wc c eq_refl)) as (Dc & Gc & Sc). obj 53.
    + obj 52.
  - destruct (IHc Wc) as (Dc & Gc & Sc), (IHm Wm) as (Dm & Gm & Sm). opr 19.
  - apply objective_good. destruct (IHo Wo) as (Do & Go & So). destruct sf; [obj 4|obj 3].
  - apply objective_good. destruct (IHc Wc) as (Dc & Gc & Sc), (IHi Wi) as (Di & Gi & Si). obj 62. destruct sf; reflexivity.
  - apply objective_good. destruct (IHc Wc) as (Dc & Gc & Sc). destruct a as [a|], b as [b|]; cbn [opt_D] in *.
    + destruct (IHa (Wa a eq_refl)) as (Da & Ga & Sa), (IHb (Wb b eq_refl)) as (Db & Gb & Sb). obj 66. destruct sf; reflexivity.
    + destruct (IHa (Wa a eq_refl)) as (Da & Ga & Sa). obj 65. destruct sf; reflexivity.
    + destruct (IHb (Wb b eq_refl)) as (Db & Gb & Sb). obj 64. destruct sf; reflexivity.
    + obj 63. destruct sf; reflexivity.
  - apply objective_good. obj 35. change (nth (N.to_nat 35) (actions uname) (fun _ => bad)) with a_symbol. unfold a_symbol. cbn [Grammar.text].
    destruct bi; [reflexivity|]. specialize (Wn eq_refl). destruct nm as [|ch nm]; [destruct Wn|]. cbn [plain_name] in Wn. apply N.eqb_neq in Wn. rewrite Wn. reflexivity.
  - apply objective_good. destruct (IHf Wf) as (Df & Gf & Sf). destruct l as [|x l]; [obj 67|]. cbn [spell]. rewrite map_paren.
    destruct (good_members (map spell (x :: l)) (x :: l)) as (D & Cl & S); [discriminate|apply good_list; assumption|]. obj 68.
  - destruct (IHc Wc) as (Dc & Gc & Sc), (IHa Wa) as (Da & Ga & Sa), (IHb Wb) as (Db & Gb & Sb). opr 6.
  - destruct (IHe We) as (De & Ge & Se). destruct o; [opr 34|opr 36].
Qed.
End S.

(** ** Only writable trees are ever parsed *)
Section Image.
Variable uname : str -> option N.
Hypothesis uname_ok : forall n c, uname n = Some c -> c < 1114112.

Lemma enc_char_small c : Forall (fun x => x < 128) (enc_char c).
Proof.
  assert (HX : forall n, Forall (fun x => x < 128) (hex_of n c)).
  { intros n. eapply Forall_impl; [|apply hex_of_hex]. intros a Ha. apply hex_ascii in Ha. lia. }
  unfold enc_char. destruct (c =? 92); [repeat constructor; lia|]. destruct (c =? 9); [repeat constructor; lia|].
  destruct (c =? 10); [repeat constructor; lia|]. destruct (c =? 13); [repeat constructor; lia|].
  destruct ((32 <=? c) && (c <? 127)) eqn:E.
  - apply andb_true_iff in E as [_ E]. apply N.ltb_lt in E. repeat constructor. lia.
  - destruct (c <? 256); [constructor; [lia|constructor; [lia|apply HX]]|]. destruct (c <? 65536); (constructor; [lia|constructor; [lia|apply HX]]).
Qed.
Lemma collapse_small (P : N -> Prop) n : P 92 -> forall l : str, (length l <= n)%nat -> Forall P l -> Forall P (collapse l).
Proof.
  intros H92. induction n as [|n IH]; intros [|a l] L F; cbn [length] in L; try lia; try constructor.
  inversion F as [|? ? Ha Fl]; subst. cbn [collapse]. destruct (a =? 92) eqn:E.
  - destruct l as [|b l]; [repeat constructor; exact H92|]. inversion Fl; subst. cbn [length] in L. destruct (b =? 92).
    + constructor; [exact H92|]. apply IH; [lia|assumption].
    + constructor; [exact H92|]. apply IH; [cbn [length]; lia|assumption].
  - constructor; [exact Ha|]. apply IH; [lia|assumption].
Qed.
Lemma rmap_Ok {A B} (f : A -> B) r x : rmap f r = Ok x -> exists y, r = Ok y /\ x = f y.
Proof. destruct r; cbn; [intros [= <-]; eauto|discriminate]. Qed.
Lemma oct_val_small c d : oct_val c = Some d -> d < 8.
Proof. unfold oct_val. destruct ((48 <=? c) && (c <=? 55)) eqn:E; [|discriminate]. intros [= <-]. apply andb_true_iff in E as [_ E]. apply N.leb_le in E. lia. Qed.
Lemma simple_escape_small c d : simple_escape c = Some d -> d < 128.
Proof. unfold simple_escape. repeat match goal with |- context [if ?b then _ else _] => destruct b; [intros [= <-]; lia|] end. discriminate. Qed.
Lemma hex_val_small c d : hex_val c = Some d -> d < 16.
Proof.
  unfold hex_val. destruct ((48 <=? c) && (c <=? 57)) eqn:E1; [|destruct ((97 <=? c) && (c <=? 102)) eqn:E2; [|destruct ((65 <=? c) && (c <=? 70)) eqn:E3; [|discriminate]]];
  intros [= <-]; repeat match goal with H : _ && _ = true |- _ => apply andb_true_iff in H as [?%N.leb_le ?%N.leb_le] end; lia.
Qed.
Definition st_small (st : dstate) : Prop := match st with Oct v n => v < 8 ^ N.of_nat (3 - n) /\ (n <= 2)%nat | _ => True end.
Lemma oct_small v n : v < 8 ^ N.of_nat (3 - n) -> v < 1114112.
Proof.
  intros H. eapply N.lt_le_trans; [exact H|]. transitivity (8 ^ 3); [apply N.pow_le_mono_r; lia|]. change (8 ^ 3) with 512. lia.
Qed.
Lemma decode_small l : forall st v, Forall (fun x => x < 128) l -> decode_escape uname st l = Ok v -> st_small st -> code_points v.
Proof.
  assert (CC : forall c v, c < 1114112 -> code_points v -> code_points (c :: v)) by (intros; constructor; assumption).
  induction l as [|c l IH]; intros st v F H S; [destruct st; try discriminate H; injection H as <-; [constructor|constructor; [apply (oct_small _ more), S|constructor]]|].
  inversion F as [|? ? Hc Fl]; subst.
  assert (P : forall w, (if c =? 92 then decode_escape uname Esc l else rmap (cons c) (decode_escape uname Normal l)) = Ok w -> code_points w).
  { intros w E. destruct (c =? 92); [exact (IH _ _ Fl E I)|]. apply rmap_Ok in E as (y & E & ->). apply CC; [lia|]. exact (IH _ _ Fl E I). }
  destruct st as [| |x n|x n| |acc]; cbn [decode_escape] in H.
  - exact (P _ H).
  - destruct (c =? 10); [exact (IH _ _ Fl H I)|]. destruct (c =? 120); [exact (IH _ _ Fl H I)|]. destruct (c =? 117); [exact (IH _ _ Fl H I)|].
    destruct (c =? 85); [exact (IH _ _ Fl H I)|]. destruct (c =? 78); [exact (IH _ _ Fl H I)|].
    destruct (simple_escape c) as [d|] eqn:E.
    + apply rmap_Ok in H as (y & H & ->). apply CC; [apply simple_escape_small in E; lia|]. exact (IH _ _ Fl H I).
    + destruct (oct_val c) as [d|] eqn:E'.
      * apply oct_val_small in E'. refine (IH _ _ Fl H _). split; [|lia]. change (8 ^ N.of_nat (3 - 2)) with 8. exact E'.
      * apply rmap_Ok in H as (y & H & ->). apply CC; [lia|]. apply CC; [lia|]. exact (IH _ _ Fl H I).
  - destruct S as [S1 S2]. destruct n as [|n].
    + apply rmap_Ok in H as (y & H & ->). apply CC; [exact (oct_small _ _ S1)|exact (P _ H)].
    + destruct (oct_val c) as [d|] eqn:E.
      * apply oct_val_small in E. refine (IH _ _ Fl H _). split; [|lia].
        replace (N.of_nat (3 - n)) with (N.succ (N.of_nat (3 - Datatypes.S n))) by lia. rewrite N.pow_succ_r'. lia.
      * apply rmap_Ok in H as (y & H & ->). apply CC; [exact (oct_small _ _ S1)|exact (P _ H)].
  - destruct (hex_val c) as [d|]; [|discriminate]. destruct n as [|[|n]].
    + destruct (16 * x + d <? 1114112) eqn:E; [|discriminate]. apply N.ltb_lt in E. apply rmap_Ok in H as (y & H & ->). apply CC; [exact E|]. exact (IH _ _ Fl H I).
    + destruct (16 * x + d <? 1114112) eqn:E; [|discriminate]. apply N.ltb_lt in E. apply rmap_Ok in H as (y & H & ->). apply CC; [exact E|]. exact (IH _ _ Fl H I).
    + exact (IH _ _ Fl H I).
  - destruct (c =? 123); [|discriminate]. exact (IH _ _ Fl H I).
  - destruct (c =? 125); [|exact (IH _ _ Fl H I)]. destruct (uname (rev acc)) as [d|] eqn:E; [|discriminate].
    apply rmap_Ok in H as (y & H & ->). apply CC; [exact (uname_ok _ _ E)|]. exact (IH _ _ Fl H I).
Qed.
Lemma string_value_points b v : string_value uname b = Ok v -> code_points v.
Proof.
  unfold string_value. destruct (decode_escape uname Normal (collapse (encode_escape b))) as [w|x] eqn:E; [|destruct x; discriminate].
  intros [= <-]. refine (decode_small _ _ _ _ E I). apply (collapse_small (fun x => x < 128) _ eq_refl _ (le_n _)).
  clear E. induction b as [|c b IH]; [constructor|]. rewrite encode_cons. apply Forall_app. split; [apply enc_char_small|exact IH].
Qed.
Definition bst_small (st : bstate) : Prop :=
  match st with BHex v n => v < 16 ^ N.of_nat (2 - n) /\ (1 <= n <= 2)%nat | _ => True end.
Lemma option_map_Some {A B} (f : A -> B) o x : option_map f o = Some x -> exists y, o = Some y /\ x = f y.
Proof. destruct o; cbn; [intros [= <-]; eauto|discriminate]. Qed.
Lemma decode_octets l : forall st v, decode_bytes st l = Some v -> bst_small st -> octets v.
Proof.
  assert (CC : forall c v, c < 256 -> octets v -> octets (c :: v)) by (intros; constructor; assumption).
  assert (M : forall x, x mod 256 < 256) by (intros x; apply N.mod_lt; discriminate).
  induction l as [|c l IH]; intros st v H S; [destruct st; try discriminate H; injection H as <-; [constructor|constructor; [apply M|constructor]]|].
  assert (P : forall w, (if c =? 92 then decode_bytes BEsc l
                   else if (c =? 0) || (c =? 10) || (c =? 13) || (127 <? c) then None
                   else option_map (cons c) (decode_bytes BNormal l)) = Some w -> octets w).
  { intros w E. destruct (c =? 92); [exact (IH _ _ E I)|]. destruct ((c =? 0) || (c =? 10) || (c =? 13) || (127 <? c)) eqn:B; [discriminate|].
    apply orb_false_iff in B as [_ B]. apply N.ltb_ge in B. apply option_map_Some in E as (y & E & ->). apply CC; [lia|]. exact (IH _ _ E I). }
  destruct st as [| |x n|x n]; cbn [decode_bytes] in H.
  - exact (P _ H).
  - destruct ((c =? 10) || (c =? 13)); [exact (IH _ _ H I)|].
    destruct (c =? 120); [refine (IH _ _ H _); split; [reflexivity|lia]|].
    destruct (simple_escape c) as [d|] eqn:E.
    + apply option_map_Some in H as (y & H & ->). apply CC; [apply simple_escape_small in E; lia|]. exact (IH _ _ H I).
    + destruct (oct_val c) as [d|] eqn:E'; [exact (IH _ _ H I)|].
      destruct ((c =? 0) || (127 <? c)) eqn:B; [discriminate|]. apply orb_false_iff in B as [_ B]. apply N.ltb_ge in B.
      apply option_map_Some in H as (y & H & ->). apply CC; [lia|]. apply CC; [lia|]. exact (IH _ _ H I).
  - destruct n as [|n].
    + apply option_map_Some in H as (y & H & ->). apply CC; [apply M|exact (P _ H)].
    + destruct (oct_val c) as [d|] eqn:E; [exact (IH _ _ H I)|]. apply option_map_Some in H as (y & H & ->). apply CC; [apply M|exact (P _ H)].
  - destruct S as [S1 S2]. destruct (hex_val c) as [d|] eqn:E; [|discriminate]. apply hex_val_small in E. destruct n as [|[|[|n]]]; try lia.
    + apply option_map_Some in H as (y & H & ->). change (16 ^ N.of_nat (2 - 1)) with 16 in S1. apply CC; [lia|]. exact (IH _ _ H I).
    + change (16 ^ N.of_nat (2 - 2)) with 1 in S1. refine (IH _ _ H _). split; [change (16 ^ N.of_nat (2 - 1)) with 16; lia|lia].
Qed.
Lemma bytes_value_octets b v : bytes_value b = Ok v -> octets v.
Proof. unfold bytes_value. destruct (decode_bytes BNormal b) eqn:E; [|discriminate]. intros [= <-]. exact (decode_octets _ _ _ E I). Qed.

Definition w (v : sval) : Prop :=
  match v with
  | STok _ => True
  | SNode d => writable d
  | SNodes l => l <> [] /\ Forall writable l
  | SPair k v => writable k /\ writable v
  | SPairs l => Forall (fun kv => writable (fst kv) /\ writable (snd kv)) l
  end.
Ltac invF := repeat match goal with H : Forall _ (_ :: _) |- _ => inversion H; clear H; subst end.
Ltac opts := intros ? EE; try discriminate EE; injection EE as <-; assumption.
Lemma action_w p vs : In p (map N.of_nat (seq 0 69)) -> length vs = length (rhs p) -> Forall w vs ->
  forall v, nth (N.to_nat p) (actions uname) (fun _ => bad) vs = Ok v -> w v.
Proof.
  intros Hq L F v. vm_compute in Hq.
  repeat (destruct Hq as [<-|Hq]; [
    match type of L with _ = length (rhs ?p) => let r := eval vm_compute in (length (rhs p)) in change (length (rhs p)) with r in L end;
    match goal with |- context [nth (N.to_nat ?p) _ _] => let r := eval vm_compute in (N.to_nat p) in change (N.to_nat p) with r end;
    cbn [nth actions];
    repeat (destruct vs as [|? vs]; cbn [length] in L; try discriminate L); clear L|]); [..|destruct Hq].
  all: invF.
  all: unfold a_first, a_attr, a_tern, a_bin, a_in, a_group, a_un, a_lit, a_coll, a_map, a_comp, a_members, a_pair, a_item, a_slice, a_call, bad, node.
  all: try match goal with |- a_symbol _ = _ -> _ => unfold a_symbol, bad, node end.
  all: try match goal with |- a_text _ _ = _ -> _ => unfold a_text, bad end.
  all: repeat match goal with |- context [match ?x with STok _ => _ | SNode _ => _ | SNodes _ => _ | SPair _ _ => _ | SPairs _ => _ end] => destruct x end; try discriminate.
  all: cbn [w] in *.
  all: try (intros [= <-]; cbn [w];
    repeat match goal with H : _ /\ _ |- _ => destruct H end;
    first [assumption
          | constructor; solve [assumption | exact I | opts]
          | constructor; constructor; assumption
          | split; [discriminate|constructor; [assumption|constructor]]
          | split; [destruct l; discriminate|apply Forall_app; split; [assumption|constructor; [assumption|constructor]]]
          | constructor; [split; assumption|constructor]
          | apply Forall_app; split; [assumption|constructor; [split; assumption|constructor]]
          | split; assumption ]; fail).
  - destruct (Grammar.text t) as [|c r]; [discriminate|]. destruct (c =? 36) eqn:E; intros [= <-]; cbn [w]; constructor; [discriminate|].
    intros _. apply N.eqb_neq. exact E.
  - intros H. apply rmap_Ok in H as (y & H & ->). apply rmap_Ok in H as (b & H & ->). cbn [w]. constructor. exact (bytes_value_octets _ _ H).
  - intros H. apply rmap_Ok in H as (y & H & ->). apply rmap_Ok in H as (b & H & ->). cbn [w]. constructor. exact (string_value_points _ _ H).
  - intros [= <-]. cbn [w]. constructor; [assumption|constructor].
Qed.
Lemma sem_w t : forall x v, derives x t -> sem uname t = Ok v -> w v.
Proof.
  induction t as [t|p l IH] using tree_ind'; intros x v D H.
  - injection H as <-. exact I.
  - apply derives_node in D as (-> & Hp & D). rewrite sem_node in H.
    destruct (rmapM (sem uname) l) as [vs|e] eqn:E; [|discriminate H]. cbn [rbind] in H.
    refine (action_w p vs _ _ _ v H).
    + apply in_prods_iff in Hp. exact Hp.
    + clear - D E. revert vs E. induction D as [|a c xs l _ _ IHl]; intros vs E; cbn [rmapM] in E; [injection E as <-; reflexivity|].
      destruct (sem uname c); [|discriminate E]. cbn [rbind] in E. destruct (rmapM (sem uname) l) as [ws|]; [|discriminate E]. injection E as <-.
      cbn [length]. f_equal. exact (IHl ws eq_refl).
    + clear - IH D E. revert vs E. induction D as [|a c xs l Dc _ IHl]; intros vs E; cbn [rmapM] in E; [injection E as <-; constructor|].
      inversion IH as [|? ? Hc Hl]; subst.
      destruct (sem uname c) as [u|] eqn:Ec; [|discriminate E]. cbn [rbind] in E. destruct (rmapM (sem uname) l) as [ws|]; [|discriminate E]. injection E as <-.
      constructor; [exact (Hc _ _ Dc eq_refl)|exact (IHl Hl ws eq_refl)].
Qed.
End Image.

Lemma statement_shape p : (N.to_nat p < length productions)%nat -> lhs p = N_statement ->
  (p = 1 /\ rhs p = [NT N_expression]) \/ (p = 2 /\ rhs p = [NT N_expression; T T_COMMENT]).
Proof.
  intros H E. apply in_prods_iff in H. assert (Hq : In p (map N.of_nat (seq 0 69))) by exact H. clear H. vm_compute in Hq.
  repeat (destruct Hq as [<-|Hq]; [vm_compute in E; try discriminate E; vm_compute; auto; fail|]). destruct Hq.
Qed.

(** ** The theorems *)
(** Every writable tree parses back from its spelling, in which every operand is parenthesised. *)
Theorem C52_round_trip : forall uname d, writable d -> real (spelling d) /\ parse_tokens uname (spelling d) = Ok d.
Proof.
  intros uname d W. destruct (spell_good uname d W) as (D & G & S). pose proof (derives_single _ D) as D1. split.
  - exact (real_yield _ _ D1).
  - unfold parse_tokens, spelling. rewrite (parse_of _ D1 (grouped_single _ G)). unfold single. rewrite sem_node. cbn [rmapM]. rewrite S. reflexivity.
Qed.
(** Nothing else ever comes out of the parser: the writable trees are exactly the expression trees. *)
Theorem C52_expression_trees : forall uname, (forall n c, uname n = Some c -> c < 1114112) ->
  forall d, writable d <-> exists inp, real inp /\ parse_tokens uname inp = Ok d.
Proof.
  intros uname U d. split.
  - intros W. exists (spelling d). apply C52_round_trip. exact W.
  - intros (inp & R & H). unfold parse_tokens in H. destruct (parse inp) as [t| |] eqn:E; try discriminate H.
    apply C50_exactly_derivations in E; [|exact R]. destruct E as (D & _ & _).
    destruct (sem uname t) as [v|] eqn:Es; [|discriminate H]. cbn [rbind] in H. destruct v; try discriminate H. injection H as ->.
    exact (sem_w uname U t _ _ D Es).
Qed.
(** Parenthesising never changes an expression that is already parsed: the spelling of a parsed expression has the same tree. *)
Theorem C52_respelling : forall uname, (forall n c, uname n = Some c -> c < 1114112) ->
  forall inp d, real inp -> parse_tokens uname inp = Ok d -> parse_tokens uname (spelling d) = Ok d.
Proof. intros uname U inp d R H. apply C52_round_trip. apply (C52_expression_trees uname U). eauto. Qed.
(** Different trees are spelled differently. *)
Theorem C52_distinct : forall d d', writable d -> writable d' -> spelling d = spelling d' -> d = d'.
Proof.
  intros d d' W W' E. destruct (C52_round_trip (fun _ => None) d W) as [_ A], (C52_round_trip (fun _ => None) d' W') as [_ B]. congruence.
Qed.
(** Extra parentheses around any part of the whole do not change it: an expression in parentheses is the same expression. *)
Theorem C52_parentheses : forall uname inp d, real inp -> parse_tokens uname inp = Ok d ->
  (forall t, In t inp -> kind t <> T_COMMENT) ->
  parse_tokens uname (mkToken T_LPAREN (s "(") :: inp ++ [mkToken T_RPAREN (s ")")]) = Ok d.
Proof.
  intros uname inp d R H NC. unfold parse_tokens in H. destruct (parse inp) as [t| |] eqn:E; try discriminate H.
  apply C50_exactly_derivations in E; [|exact R]. destruct E as (D & Y & G).
  apply derives_nt in D as (p & l & -> & L & Hp & F). pose proof (statement_shape p Hp L) as Sh. destruct Sh as [[-> Er]|[-> Er]]; rewrite Er in F.
  - inversion F as [|? e ? ? De F']; subst. inversion F'; subst. inversion G as [|? ? Ge]; subst. inversion Ge as [|? ? Ge0 _]; subst.
    rewrite sem_node in H. cbn [rmapM] in H. destruct (sem uname e) as [v|] eqn:Es; [|discriminate H]. cbn [rbind] in H.
    change (nth (N.to_nat 1) (actions uname) (fun _ => bad)) with a_first in H. destruct v as [|d0| | |]; try discriminate H. injection H as ->.
    replace (mkToken T_LPAREN (s "(") :: yield (Node 1 [e]) ++ [mkToken T_RPAREN (s ")")]) with (yield (single (paren e)))
      by (cbn [single paren object group lp rp yield flat_map]; rewrite !app_nil_r; reflexivity).
    unfold parse_tokens. rewrite parse_of; [|apply derives_single, derives_paren, De|apply grouped_single, closed_paren, Ge0].
    unfold single. rewrite sem_node. cbn [rmapM]. rewrite (sem_paren _ _ _ Es). reflexivity.
  - exfalso. inversion F as [|? e ? ? De F']; subst. inversion F' as [|? c ? ? Dc F'']; subst. inversion F''; subst.
    inversion Dc as [tk Hk Hk2|]; subst. refine (NC tk _ Hk2). cbn [yield flat_map]. apply in_or_app. right. left. reflexivity.
Qed.
(** In particular there is no way to write an empty set. *)
Theorem C52_no_empty_set : forall uname, (forall n c, uname n = Some c -> c < 1114112) ->
  forall inp, real inp -> parse_tokens uname inp <> Ok (DSet []).
Proof.
  intros uname U inp R H. assert (W : writable (DSet [])) by (apply (C52_expression_trees uname U); eauto). inversion W as [| | | | |l Hn _| | | | | | | | | | |]. congruence.
Qed.

(** ** A concrete case: x.name matches a string with a quote in it, and 1 is not in a comprehension *)
Definition sample : dnode :=
  DBin BAndL (DBin (BFuzzy false false) (DAttr (DSym (s "x") false) (s "name") false) (DLit (VStr [97; 34])))
             (DUn UNot (DIn (DComp (DSym (s "y") false) (s "y") (DSym (s "ys") false) (Some (DSym (s "y") false))) (DFloat (s "1")))).
Example C52_example : writable sample /\ length (spelling sample) = 40%nat /\ parse_tokens (fun _ => None) (spelling sample) = Ok sample.
Proof.
  split; [|split; [vm_compute; reflexivity|vm_compute; reflexivity]].
  unfold sample. repeat (constructor; try discriminate; try (intros ? [= <-])).
Qed.
