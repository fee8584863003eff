(** * GrammarCheck: conditions on the tables (GrammarTab.v), verified by computation inside Coq *)
From Coq Require Import List NArith Bool Lia.
From Verif Require Import GrammarSpec.
Import ListNotations.
Open Scope N_scope.

Definition items (s : N) : list (N * N * N) := nth (N.to_nat s) lr_items [].
Definition states : list N := map N.of_nat (seq 0 (length lr_items)).
Definition mem (m : N) (t : tok) : bool := N.testbit m (tok_index t).
Definition sub_mask (a b : N) : bool := N.land a b =? a.
Definition has (s p d : N) (ok : N -> bool) : bool :=
  existsb (fun it => match it with (p', d', m) => (p' =? p) && (d' =? d) && ok m end) (items s).
Definition sym_at (p d : N) : option symbol := nth_error (rhs p) (N.to_nat d).
Definition len (p : N) : N := N.of_nat (length (rhs p)).
Definition complete (s : N) : list N :=
  flat_map (fun it => match it with (p, d, _) => if d =? len p then [p] else [] end) (items s).
Definition pending (s : N) : list N := match goto_of s N_expression with Some s' => complete s' | None => [] end.
Definition is_expr (n : nonterm) : bool := nonterm_eqb n N_expression.
Definition prod_ids : list N := map N.of_nat (seq 0 (length productions)).

(** FIRST sets *)
Definition first_step (f : list (nonterm * N)) : list (nonterm * N) :=
  map (fun n => (n, fold_left (fun acc p => match p with
                                            | (l, T t :: _) => if nonterm_eqb l n then N.setbit acc (tok_index t) else acc
                                            | (l, NT k :: _) => if nonterm_eqb l n
                                                                then N.lor acc (match lookup nonterm_eqb k f with Some m => m | None => 0 end)
                                                                else acc
                                            | _ => acc end) productions 0)) all_nonterms.
Definition first_table : list (nonterm * N) := Eval vm_compute in Nat.iter 8 first_step [].
Definition first_of (x : symbol) : N :=
  match x with
  | T t => N.setbit 0 (tok_index t)
  | NT n => match lookup nonterm_eqb n first_table with Some m => m | None => 0 end
  end.

Definition all_items (f : N -> N -> N -> N -> bool) : bool :=
  forallb (fun s => forallb (fun it => match it with (p, d, m) => f s p d m end) (items s)) states.

(* the grammar *)
Definition chk_first : bool :=
  forallb (fun p => match rhs p with x :: _ => sub_mask (first_of x) (first_of (NT (lhs p))) | [] => false end) prod_ids.
Fixpoint no_adjacent (l : list symbol) : bool :=
  match l with NT _ :: ((NT _ :: _) as r) => false | _ :: r => no_adjacent r | [] => true end.
Definition chk_prods : bool :=
  forallb (fun p => no_adjacent (rhs p)
                    && match rhs p with NT n :: T x :: _ => is_expr n || negb (infix x) | _ => true end) prod_ids.
(* items point into the grammar *)
Definition chk_items : bool :=
  all_items (fun s p d m => Nat.ltb (N.to_nat p) (length productions) && (d <=? len p)).

(* completeness conditions *)
Definition chk_closure : bool :=
  all_items (fun s p d m =>
    match sym_at p d with
    | Some (NT n) =>
        let la := match sym_at p (d + 1) with None => m | Some x => first_of x end in
        forallb (fun q => if nonterm_eqb (lhs q) n then has s q 0 (sub_mask la) else true) prod_ids
    | _ => true
    end).
Definition chk_goto : bool :=
  all_items (fun s p d m =>
    match sym_at p d with
    | Some (NT n) => match goto_of s n with Some s' => has s' p (d + 1) (sub_mask m) | None => false end
    | _ => true
    end).
Definition chk_shift : bool :=
  all_items (fun s p d m =>
    match sym_at p d with
    | Some (T x) =>
        match act_of s x with
        | AShift s' => has s' p (d + 1) (sub_mask m)
        | _ => (d =? 1) && match rhs p with NT n :: _ => is_expr n | _ => false end
               && existsb (fun q => negb (extends q x)) (complete s)
        end
    | _ => true
    end).
Definition chk_reduce : bool :=
  all_items (fun s p d m =>
    if (d =? len p) && negb (p =? 0) then
      forallb (fun a => if mem m a then
                          match act_of s a with AReduce q => q =? p | _ => negb (closes p a) end
                        else true) all_toks
    else true).
Definition chk_pending : bool :=
  all_items (fun s p d m =>
    if 1 <=? d then
      match sym_at p d with
      | Some (NT n) => forallb (fun q => ((q =? p) && (d + 1 =? len p)) || match operator q with None => true | _ => false end) (pending s)
      | _ => true
      end
    else true).
Definition chk_start : bool :=
  has 0 1 0 (fun m => mem m T_end) && has 0 2 0 (fun m => mem m T_end)
  && match goto_of 0 N_statement with Some s => match act_of s T_end with AAcc => true | _ => false end | None => false end.

(* soundness conditions *)
Definition all_actions (f : N -> tok -> action -> bool) : bool :=
  forallb (fun s => forallb (fun a => f s a (act_of s a)) all_toks) states.
Definition chk_s_reduce : bool :=
  all_actions (fun s a x => match x with
    | AReduce p => has s p (len p) (fun _ => true) && negb (p =? 0) && closes p a
    | _ => true end).
Definition back (s s' : N) (x : symbol) (sym_eqb : symbol -> symbol -> bool) : bool :=
  forallb (fun it => match it with (p, d, m) =>
    (d =? 0) || (match sym_at p (d - 1) with Some y => sym_eqb x y | None => false end && has s p (d - 1) (fun _ => true)) end) (items s').
Definition symbol_eqb (a b : symbol) : bool :=
  match a, b with T x, T y => tok_eqb x y | NT x, NT y => nonterm_eqb x y | _, _ => false end.
Definition in_states (s : N) : bool := Nat.ltb (N.to_nat s) (length lr_items) && negb (s =? 0).
Definition chk_s_shift : bool :=
  all_actions (fun s a x => match x with
    | AShift s' => in_states s' && back s s' (T a) symbol_eqb && negb (tok_eqb a T_end) && forallb (fun q => extends q a) (complete s)
    | _ => true end).
Definition chk_s_goto : bool :=
  forallb (fun s => forallb (fun n => match goto_of s n with
    | Some s' => in_states s' && back s s' (NT n) symbol_eqb
    | None => true end) all_nonterms) states.
Definition chk_s_zero : bool :=
  all_items (fun s p d m => if (d =? 0) && negb (p =? 0) then match goto_of s (lhs p) with Some _ => true | None => false end else true).
Definition chk_s_accept : bool :=
  all_actions (fun s a x => match x with AAcc => tok_eqb a T_end && has s 0 1 (fun _ => true) | _ => true end)
  && all_items (fun s p d m => negb (p =? 0) || negb (d =? 0) || (s =? 0)).

Lemma checked :
  chk_first && chk_prods && chk_items && chk_closure && chk_goto && chk_shift && chk_reduce && chk_pending && chk_start
  && chk_s_reduce && chk_s_shift && chk_s_goto && chk_s_zero && chk_s_accept = true.
Proof. vm_compute. reflexivity. Qed.
