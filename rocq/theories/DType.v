(** * DType: data type definitions (types.py:179-618) *)
From Verif Require Import Base.
Open Scope Z_scope.

(** The nullable flag belongs to value_type_nullable (types.py:216,272).  Function types carry the (unobserved) name, the
    return type, the argument types ([None] = UNDEFINED) and the minimum number of arguments ([None] = UNDEFINED)
    (types.py:324-342).  python_type is determined by the constructor. *)
Inductive dtype : Type :=
| TUndef | TBytes | TBool | TDatetime | TFloat | TNull | TString | TTimedelta
| TArray (m : dtype) (nb : bool)
| TSet (m : dtype) (nb : bool)
| TMap (k v : dtype) (nb : bool)
| TFun (name : option str) (ret : dtype) (args : option (list dtype)) (minargs : option Z).

(** The class constants (types.py:440-451). *)
Definition t_array := TArray TUndef true.
Definition t_set := TSet TUndef true.
Definition t_mapping := TMap TUndef TUndef true.
Definition t_function := TFun None TUndef None None.

Definition opt_all (P : dtype -> Prop) (a : option (list dtype)) : Prop :=
  match a with Some l => Forall P l | None => True end.

Section dtype_ind.
  Variable P : dtype -> Prop.
  Hypothesis Hundef : P TUndef.
  Hypothesis Hbytes : P TBytes.
  Hypothesis Hbool : P TBool.
  Hypothesis Hdt : P TDatetime.
  Hypothesis Hfloat : P TFloat.
  Hypothesis Hnull : P TNull.
  Hypothesis Hstring : P TString.
  Hypothesis Htd : P TTimedelta.
  Hypothesis Harr : forall m nb, P m -> P (TArray m nb).
  Hypothesis Hset : forall m nb, P m -> P (TSet m nb).
  Hypothesis Hmap : forall k v nb, P k -> P v -> P (TMap k v nb).
  Hypothesis Hfun : forall nm r a mn,
    P r -> opt_all P a -> P (TFun nm r a mn).
  Fixpoint dtype_ind' (t : dtype) : P t :=
    let fix all (l : list dtype) : Forall P l :=
      match l with [] => Forall_nil _ | x :: r => Forall_cons _ (dtype_ind' x) (all r) end in
    match t with
    | TUndef => Hundef | TBytes => Hbytes | TBool => Hbool | TDatetime => Hdt | TFloat => Hfloat | TNull => Hnull
    | TString => Hstring | TTimedelta => Htd
    | TArray m nb => Harr m nb (dtype_ind' m)
    | TSet m nb => Hset m nb (dtype_ind' m)
    | TMap k v nb => Hmap k v nb (dtype_ind' k) (dtype_ind' v)
    | TFun nm r a mn =>
        Hfun nm r a mn (dtype_ind' r)
          (match a as a0 return opt_all P a0 with Some l => all l | None => I end)
    end.
End dtype_ind.

(** types.py:183,204-206: is_scalar; FUNCTION and UNDEFINED count as scalar. *)
Definition is_scalar (t : dtype) : bool :=
  match t with TArray _ _ | TSet _ _ | TMap _ _ _ => false | _ => true end.
Definition is_compound (t : dtype) : bool := negb (is_scalar t).

(** isinstance(t, DataType.ARRAY.__class__) and friends *)
(* is_array_t: types.py:264, 566-605 *)
Definition is_array_t (t : dtype) : bool := match t with TArray _ _ => true | _ => false end.
(* is_set_t: types.py:267, 566-605 *)
Definition is_set_t (t : dtype) : bool := match t with TSet _ _ => true | _ => false end.
(* is_map_t: types.py:270, 566-605 *)
Definition is_map_t (t : dtype) : bool := match t with TMap _ _ _ => true | _ => false end.
(* is_fun_t: types.py:324, 566-605 *)
Definition is_fun_t (t : dtype) : bool := match t with TFun _ _ _ _ => true | _ => false end.
(* is_undef: types.py:208, 451 *)
Definition is_undef (t : dtype) : bool := match t with TUndef => true | _ => false end.

(** types.py:189-191, 229-231, 285-287 *)
Definition iterable_type (t : dtype) : option dtype :=
  match t with TArray m _ | TSet m _ => Some m | TMap k _ _ => Some k | _ => None end.
Definition is_iterable (t : dtype) : bool := match iterable_type t with Some _ => true | None => false end.

(** types.py:193-196, 253-259, 312-319, 372-379: __eq__ *)
Definition optZ_eqb (a b : option Z) : bool :=
  match a, b with None, None => true | Some x, Some y => x =? y | _, _ => false end.
Fixpoint dt_eqb (a b : dtype) {struct a} : bool :=
  let fix list_eq (x y : list dtype) : bool :=
    match x, y with
    | [], [] => true
    | p :: x', q :: y' => dt_eqb p q && list_eq x' y'
    | _, _ => false
    end in
  match a, b with
  | TUndef, TUndef | TBytes, TBytes | TBool, TBool | TDatetime, TDatetime | TFloat, TFloat | TNull, TNull
  | TString, TString | TTimedelta, TTimedelta => true
  | TArray m n, TArray m' n' => dt_eqb m m' && Bool.eqb n n'
  | TSet m n, TSet m' n' => dt_eqb m m' && Bool.eqb n n'
  | TMap k v n, TMap k' v' n' => dt_eqb k k' && dt_eqb v v' && Bool.eqb n n'
  | TFun _ r ar mn, TFun _ r' ar' mn' =>
      dt_eqb r r'
      && match ar, ar' with None, None => true | Some x, Some y => list_eq x y | _, _ => false end
      && optZ_eqb mn mn'
  | _, _ => false
  end.

(** types.py:198-199, 261-262, 321-322, 381-382: __hash__, as the structure of tuples that is hashed
    (python_type is abstracted to a number, CPython's [hash] of a tuple is a function of this structure). *)
Inductive hkey := HTag (n : N) | HBool (b : bool) | HInt (z : Z) | HTup (l : list hkey).
Definition ptype_tag (t : dtype) : N :=
  match t with
  | TUndef => 0 | TBytes => 1 | TBool => 2 | TDatetime => 3 | TFloat => 4 | TNull => 5 | TString => 6
  | TTimedelta => 7 | TArray _ _ => 8 | TSet _ _ => 9 | TMap _ _ _ => 10 | TFun _ _ _ _ => 11
  end%N.
Definition hash_undef : hkey := HTup [HTag (ptype_tag TUndef); HBool (is_scalar TUndef)].
Fixpoint hash_key (t : dtype) : hkey :=
  let hd := [HTag (ptype_tag t); HBool (is_scalar t)] in
  match t with
  | TArray m n | TSet m n => HTup (hd ++ [HTup [hash_key m; HBool n]])
  | TMap k v n => HTup (hd ++ [HTup [hash_key k; hash_key v; HBool n]])
  | TFun _ r a mn =>
      HTup (hd ++ [HTup [hash_key r;
                         match a with Some l => HTup (map hash_key l) | None => hash_undef end;
                         match mn with Some z => HInt z | None => hash_undef end]])
  | _ => HTup hd
  end.

(** types.py:562-605: DataType.is_compatible *)
Fixpoint is_compat (a b : dtype) {struct a} : bool :=
  let fix all_compat (x y : list dtype) : bool :=     (* all(... for ... in zip(x, y)) *)
    match x, y with p :: x', q :: y' => is_compat p q && all_compat x' y' | _, _ => true end in
  match a, b with
  | TUndef, _ | _, TUndef => true
  | TFun _ r ar mn, TFun _ r' ar' mn' =>
      is_compat r r'
      && match ar, ar' with
         | Some x, Some y => (length x =? length y)%nat && all_compat x y
         | _, _ => true
         end
      && match mn, mn' with Some x, Some y => x =? y | _, _ => true end
  | TArray m _, TArray m' _ => is_compat m m'
  | TMap k v _, TMap k' v' _ => is_compat k k' && is_compat v v'
  | TSet m _, TSet m' _ => is_compat m m'
  | TBytes, TBytes | TBool, TBool | TDatetime, TDatetime | TFloat, TFloat | TNull, TNull | TString, TString
  | TTimedelta, TTimedelta => true
  | _, _ => false
  end.

(** types.py:270-283 and 289-301: the MAPPING constructor rejects compound key types other than ARRAY. *)
Definition mk_mapping (k v : dtype) (nb : bool) : result dtype :=
  if is_compound k && negb (is_array_t k) then Err XEngine else Ok (TMap k v nb).

(** types.py:324-342 and 347-363: the FUNCTION constructor. *)
Definition mk_function (name : option str) (ret : dtype) (args : option (list dtype)) (mn : option Z) : result dtype :=
  match args with
  | None => Ok (TFun name ret None mn)
  | Some l =>
      let mn' := match mn with None => Z.of_nat (length l) | Some z => z end in
      if Z.of_nat (length l) <? mn' then Err PValue else Ok (TFun name ret (Some l) (Some mn'))
  end.

(** ** Independent specification of compatibility

    A definition is read as a pattern whose UNDEFINED parts are holes.  [instance t g] says that [g] is obtained from
    [t] by filling holes; the nullability flag and the function name are not part of the pattern. *)
(* instance: specification of types.py:562-605 *)
Inductive instance : dtype -> dtype -> Prop :=
| In_hole : forall g, instance TUndef g
| In_bytes : instance TBytes TBytes
| In_bool : instance TBool TBool
| In_dt : instance TDatetime TDatetime
| In_float : instance TFloat TFloat
| In_null : instance TNull TNull
| In_string : instance TString TString
| In_td : instance TTimedelta TTimedelta
| In_array : forall m n g n', instance m g -> instance (TArray m n) (TArray g n')
| In_set : forall m n g n', instance m g -> instance (TSet m n) (TSet g n')
| In_map : forall k v n gk gv n', instance k gk -> instance v gv -> instance (TMap k v n) (TMap gk gv n')
| In_fun : forall nm nm' r gr a ga mn gmn,
    instance r gr ->
    (forall l, a = Some l -> exists gl, ga = Some gl /\ Forall2 instance l gl) ->
    (forall z, mn = Some z -> gmn = Some z) ->
    instance (TFun nm r a mn) (TFun nm' gr ga gmn).
