(** * Suggest: suggestions.py

    Python floats are modelled by exact rationals with an explicit rounding operation [rnd] after every float
    operation, in the order of the code.  Everything is proved for every [rnd] that is faithful to 53 bits
    ([faithful], P_Suggest.v); IEEE-754 round-to-nearest is one.  Not modelled: underflow and overflow (all intermediate
    values lie between 1/len and 3), counting beyond 2^53 matches. *)
From Coq Require Import QArith.
From Verif Require Import Base.

(** ** jaro_distance, suggestions.py:36-71 *)
Section jaro.
  Variable rnd : Q -> Q.

  (** float division; ZeroDivisionError *)
  (* fdiv: suggestions.py:71 *)
  Definition fdiv (x y : Q) : result Q := if Qeq_bool y 0 then Err PDivZero else Ok (rnd (x / y)).
  (* q_of: suggestions.py:36-80 *)
  Definition q_of (n : nat) : Q := inject_Z (Z.of_nat n).

  (** suggestions.py:51-56: the inner loop over range(start, end), [n] iterations left; the position matched, if any *)
  Fixpoint scan (n j : nat) (c : N) (b : str) (m2 : list bool) : result (option nat) :=
    match n with
    | O => Ok None
    | Datatypes.S n' =>
        match nth_error m2 j with
        | None => Err PIndex
        | Some true => scan n' (Datatypes.S j) c b m2
        | Some false =>
            match nth_error b j with
            | None => Err PIndex
            | Some d => if (c =? d)%N then Ok (Some j) else scan n' (Datatypes.S j) c b m2
            end
        end
    end.

  (** list[i] = True; IndexError *)
  (* set_at: suggestions.py:53-54 *)
  Fixpoint set_at (i : nat) (l : list bool) : result (list bool) :=
    match l, i with
    | [], _ => Err PIndex
    | _ :: r, O => Ok (true :: r)
    | x :: r, Datatypes.S i' => rmap (cons x) (set_at i' r)
    end.

  (** suggestions.py:48-56: the outer loop; [l] is str1[i:], [d] is match_distance *)
  Fixpoint mark (l : str) (i : nat) (b : str) (d : Z) (m1 m2 : list bool) (matches : nat) : result (list bool * list bool * nat) :=
    match l with
    | [] => Ok (m1, m2, matches)
    | c :: r =>
        let start := Z.max 0 (Z.of_nat i - d) in
        let stop := (Z.min (Z.of_nat i + d) (Z.of_nat (length b) - 1) + 1)%Z in
        let! f := scan (Z.to_nat (stop - start)) (Z.to_nat start) c b m2 in
        match f with
        | None => mark r (Datatypes.S i) b d m1 m2 matches
        | Some j =>
            let! m1' := set_at i m1 in
            let! m2' := set_at j m2 in
            mark r (Datatypes.S i) b d m1' m2' (Datatypes.S matches)
        end
    end.

  (** suggestions.py:66-67: while not str2_matches[k]: k += 1.  [m] is str2_matches[k:] *)
  Fixpoint advance (m : list bool) (k : nat) : result nat :=
    match m with
    | [] => Err PIndex
    | true :: _ => Ok k
    | false :: r => advance r (Datatypes.S k)
    end.

  (** suggestions.py:63-70; [l] is str1[i:] *)
  Fixpoint transpose (l : str) (i : nat) (b : str) (m1 m2 : list bool) (k t : nat) : result nat :=
    match l with
    | [] => Ok t
    | c :: r =>
        match nth_error m1 i with
        | None => Err PIndex
        | Some false => transpose r (Datatypes.S i) b m1 m2 k t
        | Some true =>
            let! k' := advance (skipn k m2) k in
            match nth_error b k' with
            | None => Err PIndex
            | Some d => transpose r (Datatypes.S i) b m1 m2 (Datatypes.S k') (if (c =? d)%N then t else Datatypes.S t)
            end
        end
    end.

  (** suggestions.py:36-71 *)
  Definition jaro (a b : str) : result Q :=
    if str_eqb a b then Ok 1%Q
    else
      let n := Nat.max (length a) (length b) in
      let d := (Z.of_nat n / 2 - 1)%Z in
      let! x := mark a 0 b d (repeat false n) (repeat false n) 0 in
      let '(m1, m2, m) := x in
      if (m =? 0)%nat then Ok 0%Q
      else
        let! t := transpose a 0 b m1 m2 0 0 in
        let! x1 := fdiv (q_of m) (q_of (length a)) in
        let! x2 := fdiv (q_of m) (q_of (length b)) in
        let! x3 := fdiv (rnd (q_of m - rnd (q_of t / 2))) (q_of m) in
        Ok (rnd (rnd (rnd (x1 + x2) + x3) / 3)).

  (** suggestions.py:76-77: number of equal leading characters, at most [n] *)
  Fixpoint common (n : nat) (a b : str) : nat :=
    match n, a, b with
    | Datatypes.S n', x :: a', y :: b' => if (x =? y)%N then Datatypes.S (common n' a' b') else O
    | _, _, _ => O
    end.

  (** suggestions.py:73-80 with the default scale *)
  Definition jaro_winkler (a b : str) : result Q :=
    let! j := jaro a b in
    if Qle_bool j (rnd (7 # 10)) then Ok j
    else Ok (rnd (j + rnd (rnd (rnd (1 # 10) * q_of (common 5 a b)) * rnd (1 - j)))).

  (** suggestions.py:82-83: despite its name, small means similar *)
  Definition jw_similarity (a b : str) : result Q := let! j := jaro_winkler a b in Ok (rnd (1 - j)).

  (** ** _suggest, suggestions.py:85-88: sorted() is a stable sort by key *)
  Fixpoint insert_key {A} (k : Q) (x : A) (l : list (Q * A)) : list (Q * A) :=
    match l with
    | [] => [(k, x)]
    | (k', y) :: r => if Qle_bool k k' then (k, x) :: l else (k', y) :: insert_key k x r
    end.
  Fixpoint sort_keyed {A} (l : list (Q * A)) : list (Q * A) :=
    match l with
    | [] => []
    | (k, x) :: r => insert_key k x (sort_keyed r)
    end.
  Definition suggest (word : str) (options : list str) : result (option str) :=
    match options with
    | [] => Ok None
    | _ =>
        let! keyed := rmapM (fun o => rmap (fun k => (k, o)) (jw_similarity word o)) options in
        match sort_keyed keyed with
        | [] => Err PIndex
        | (_, x) :: _ => Ok (Some x)
        end
    end.

  (** ** suggest_symbol, suggestions.py:90-102.
      re.match('^\$?[a-zA-Z_][a-zA-Z0-9_]*$', option); in Python '$' also matches before a newline at the very end *)
  Definition alpha (c : N) : bool := ((65 <=? c) && (c <=? 90) || (97 <=? c) && (c <=? 122) || (c =? 95))%N.
  Definition alnum (c : N) : bool := alpha c || ((48 <=? c) && (c <=? 57))%N.
  Fixpoint tail_ok (l : str) : bool :=
    match l with
    | [] => true
    | c :: r => if alnum c then tail_ok r else ((c =? 10)%N && match r with [] => true | _ => false end)
    end.
  Definition head_ok (l : str) : bool := match l with c :: r => alpha c && tail_ok r | [] => false end.
  Definition symbol_match (l : str) : bool :=
    match l with
    | [] => false
    | c :: r => if (c =? 36)%N then head_ok r else head_ok l
    end.
  Definition suggest_symbol (word : str) (options : list str) : result (option str) :=
    suggest word (filter symbol_match options).
End jaro.
