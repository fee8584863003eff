(** * P_Types: properties C01 - C05 (data types, classification, coercion) *)
From Verif Require Import Base Dec Value EqFacts DType DTypeFacts Types TypesFacts CoerceFacts.
From Coq Require Import QArith.
Open Scope Z_scope.

(** A lawful zone database used in examples: every zone is UTC. *)
Definition tz0 : TzDb := {| utcoff := fun _ _ => 0; tz_fold := fun _ _ => false |}.
Example tz0_lawful : tz_lawful tz0.
Proof. unfold tz_lawful, utc; cbn. intros; lia. Qed.

(** ** C01 *)

(** Compatible = some definition [g] fills the UNDEFINED holes of both. *)
Theorem C01_compatible_iff_common_instance : forall a b : dtype,
  is_compat a b = true <-> exists g, instance a g /\ instance b g.
Proof. exact is_compat_spec. Qed.
Print Assumptions C01_compatible_iff_common_instance.

Theorem C01_compatible_reflexive_symmetric_undefined : forall a b : dtype,
  is_compat a a = true /\ is_compat a b = is_compat b a /\ is_compat TUndef a = true /\ is_compat a TUndef = true.
Proof.
  intros a b. repeat split; auto using is_compat_refl, is_compat_sym, is_compat_undef_l, is_compat_undef_r.
Qed.
Print Assumptions C01_compatible_reflexive_symmetric_undefined.

Theorem C01_compatible_ignores_nullability : forall a n n' b,
  is_compat (TArray a n) b = is_compat (TArray a n') b /\
  is_compat (TSet a n) b = is_compat (TSet a n') b /\
  forall v, is_compat (TMap a v n) b = is_compat (TMap a v n') b.
Proof. intros a n n' b. destruct b; repeat split; reflexivity. Qed.
Print Assumptions C01_compatible_ignores_nullability.

Theorem C01_compatible_not_transitive : exists a b c : dtype,
  is_compat a b = true /\ is_compat b c = true /\ is_compat a c = false.
Proof. exists TFloat, TUndef, TString. repeat split. Qed.
Print Assumptions C01_compatible_not_transitive.

Example C01_example : is_compat (TMap TString TUndef true) (TMap TUndef (TArray TFloat false) false) = true
  /\ is_compat (TFun None TFloat (Some [TString; TUndef]) (Some 2)) (TFun None TUndef (Some [TUndef; TBool]) None) = true
  /\ is_compat (TArray (TArray TFloat true) true) (TArray (TArray TString true) true) = false.
Proof. repeat split. Qed.

(** ** C02 *)

(** == compares everything but function names ([unname] erases exactly these). *)
Theorem C02_equal_iff_same_up_to_names : forall a b : dtype, dt_eqb a b = true <-> unname a = unname b.
Proof. exact dt_eqb_unname. Qed.
Print Assumptions C02_equal_iff_same_up_to_names.

Theorem C02_equality_equivalence : forall a b c : dtype,
  dt_eqb a a = true /\ dt_eqb a b = dt_eqb b a /\ (dt_eqb a b = true -> dt_eqb b c = true -> dt_eqb a c = true).
Proof. intros a b c. repeat split; [apply dt_eqb_refl|apply dt_eqb_sym|apply dt_eqb_trans]. Qed.
Print Assumptions C02_equality_equivalence.

Theorem C02_equal_implies_same_hash_and_compatible : forall a b : dtype,
  dt_eqb a b = true -> hash_key a = hash_key b /\ is_compat a b = true.
Proof. intros a b H. split; [apply dt_eqb_hash|apply dt_eqb_compat]; exact H. Qed.
Print Assumptions C02_equal_implies_same_hash_and_compatible.

Theorem C02_function_name_irrelevant : forall n n' r args mn,
  dt_eqb (TFun n r args mn) (TFun n' r args mn) = true.
Proof. intros. apply dt_eqb_unname. reflexivity. Qed.
Print Assumptions C02_function_name_irrelevant.

Example C02_example :
  dt_eqb (TFun (Some (s "f")) TFloat (Some [TArray TString false]) (Some 1))
         (TFun (Some (s "g")) TFloat (Some [TArray TString false]) (Some 1)) = true
  /\ dt_eqb (TArray TString false) (TArray TString true) = false.
Proof. split; reflexivity. Qed.

(** ** C03 *)

(** [has_type] is the independent description of the type of a value (Types.v). *)
Theorem C03_from_value_is_the_type : forall v, py_ok v -> forall t, from_value v = Ok t <-> has_type v t.
Proof. exact from_value_has_type. Qed.
Print Assumptions C03_from_value_is_the_type.

Theorem C03_from_value_succeeds_iff_supported : forall v, py_ok v -> ((exists t, from_value v = Ok t) <-> supported v).
Proof. exact from_value_supported. Qed.
Print Assumptions C03_from_value_succeeds_iff_supported.

Theorem C03_from_value_otherwise_TypeError : forall v x, py_ok v -> from_value v = Err x -> x = PType.
Proof. exact from_value_err_type. Qed.
Print Assumptions C03_from_value_otherwise_TypeError.

Theorem C03_from_value_never_undefined : forall v, from_value v <> Ok TUndef.
Proof. exact from_value_not_undef. Qed.
Print Assumptions C03_from_value_never_undefined.

(** removing NULL members from an array never changes its type *)
Theorem C03_null_members_do_not_count : forall l1 l2 t,
  from_value (VArr (l1 ++ VNull :: l2)) = Ok t -> from_value (VArr (l1 ++ l2)) = Ok t.
Proof. exact from_value_drop_null. Qed.
Print Assumptions C03_null_members_do_not_count.

Example C03_example :
  py_ok (VMap [(VStr (s "k"), VArr [VNull; VDec (dec_of_Z 1)])])
  /\ from_value (VMap [(VStr (s "k"), VArr [VNull; VDec (dec_of_Z 1)])]) = Ok (TMap TString (TArray TFloat true) true)
  /\ from_value (VArr [VStr []; VBool true]) = Ok (TArray TUndef true)
  /\ from_value (VArr [VStr []; VObj 7]) = Err PType.
Proof.
  repeat split. apply Po_map. intros k x [H|[]]. inversion H; subst. repeat split; [apply Po_scalar; exact I|].
  apply Po_arr. intros y [<-|[<-|[]]]; apply Po_scalar; exact I.
Qed.

(** ** C04 *)

Theorem C04_coerced_is_normal : forall (tz : TzDb) ver v v', coerce ver v = Ok v' -> normal v'.
Proof. exact @coerce_normal. Qed.
Print Assumptions C04_coerced_is_normal.

(** coercing again changes nothing; with the same flag, and without verification *)
Theorem C04_coerce_idempotent : forall (tz : TzDb) ver v v', coerce ver v = Ok v' ->
  coerce ver v' = Ok v' /\ coerce false v' = Ok v'.
Proof. intros tz ver v v' H. split; apply (coerce_idem ver v v' H); [auto|discriminate]. Qed.
Print Assumptions C04_coerce_idempotent.

Theorem C04_coerce_without_verification_total : forall (tz : TzDb) v, py_ok v -> exists v', coerce false v = Ok v'.
Proof. exact @coerce_total. Qed.
Print Assumptions C04_coerce_without_verification_total.

(** with verification: success iff every part has a data type, TypeError otherwise *)
Theorem C04_coerce_verified_iff_supported : forall (tz : TzDb) v, py_ok v ->
  ((exists v', coerce true v = Ok v') <-> supported v) /\ (forall x, coerce true v = Err x -> x = PType).
Proof. intros tz v H. split; [apply coerce_true_supported; exact H|intros x; apply coerce_err; exact H]. Qed.
Print Assumptions C04_coerce_verified_iff_supported.

Example C04_example : @coerce tz0 true (VDict [(VInt 1, VList [VInt 2; VDate 3])])
  = Ok (VMap [(VDec (dec_of_Z 1), VArr [VDec (dec_of_Z 2); VDt (3 * 86400000000) None])])
  /\ @coerce tz0 true (VList [VObj 1]) = Err PType.
Proof. split; reflexivity. Qed.

(** ** C05 *)

(** integers keep their exact value; booleans and strings are untouched *)
Theorem C05_int_exact : forall (tz : TzDb) ver z, exists d, coerce ver (VInt z) = Ok (VDec d) /\
  exists q, dec_x d = XQ q /\ (q == inject_Z z)%Q.
Proof. exact @coerce_int_exact. Qed.
Print Assumptions C05_int_exact.

Theorem C05_float_is_its_repr : forall (tz : TzDb) ver m e d, coerce ver (VFlt (FFin m e d)) = Ok (VDec d).
Proof. intros tz [] m e d; reflexivity. Qed.
Print Assumptions C05_float_is_its_repr.

Theorem C05_scalars_unchanged : forall (tz : TzDb) ver v,
  match v with VNull | VBool _ | VDec _ | VStr _ | VBytes _ | VDt _ _ | VTd _ => True | _ => False end ->
  coerce ver v = Ok v.
Proof. intros tz [] v H; destruct v; try contradiction; reflexivity. Qed.
Print Assumptions C05_scalars_unchanged.

(** sequences: same length and order, member by member *)
Theorem C05_sequence_memberwise : forall (tz : TzDb) ver l v',
  coerce ver (VList l) = Ok v' \/ coerce ver (VArr l) = Ok v' ->
  exists l', v' = VArr l' /\ Forall2 (fun x y => coerce ver x = Ok y) l l'.
Proof. intros tz ver l v' [H|H]; apply coerce_cases in H; destruct H as [l' [H1 H2]]; eauto. Qed.
Print Assumptions C05_sequence_memberwise.

(** mappings: first-insertion order of the (converted) keys, last value for keys that became equal *)
Theorem C05_mapping_first_key_last_value : forall (tz : TzDb), tz_lawful tz -> forall ver l m,
  (coerce ver (VDict l) = Ok (VMap m) \/ coerce ver (VMap l) = Ok (VMap m)) ->
  exists l', Forall2 (fun kv kv' => coerce ver (fst kv) = Ok (fst kv') /\ coerce ver (snd kv) = Ok (snd kv')) l l' /\
    map fst m = first_keys (map fst l') /\ (forall k, In k (map fst m) -> dict_get m k = last_val l' k).
Proof. exact coerce_dict_content. Qed.
Print Assumptions C05_mapping_first_key_last_value.

(** the data type is unchanged, unless conversion makes two different keys of a native dict equal *)
Theorem C05_type_unchanged : forall (tz : TzDb) v v', keys_apart v -> coerce false v = Ok v' ->
  from_value v' = from_value v.
Proof. exact @coerce_type. Qed.
Print Assumptions C05_type_unchanged.

(** ... and in that corner it is not: {0.1: 1, Decimal('0.1'): 'a'} has an UNDEFINED value type, its coercion STRING. *)
Theorem C05_type_unchanged_refuted : exists v v', py_ok v /\ @coerce tz0 true v = Ok v' /\ from_value v' <> from_value v.
Proof. exact coerce_type_changes. Qed.
Print Assumptions C05_type_unchanged_refuted.

Example C05_example_keys :
  @coerce tz0 true (VDict [(VInt 1, VInt 10); (VInt 2, VNull)]) =
    Ok (VMap [(VDec (dec_of_Z 1), VDec (dec_of_Z 10)); (VDec (dec_of_Z 2), VNull)]).
Proof. reflexivity. Qed.
