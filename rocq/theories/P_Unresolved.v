(** * Theorems about what a resolution error suggests (C77) *)
From Coq Require Import String QArith Permutation.
From Verif Require Import Base Dec Value DType Types Ops EqFacts CoerceFacts ParseUtil Attr Prog Ast Eval Build Engine ProgFacts StateFacts Suggest P_Ops P_Suggest P_Names P_Static P_Local Demo.
Open Scope list_scope.
Open Scope Z_scope.

(** [nearest rnd word available r]: [r] is the available name most similar to [word] (C46: jw_similarity is one minus the
    Jaro-Winkler similarity, so smaller is more similar), or None because no available name is spelled like a symbol *)
Definition nearest (rnd : Q -> Q) (word : str) (available : str -> Prop) (r : option str) : Prop :=
  match r with
  | None => forall o, available o -> ~ acceptable o
  | Some x => available x /\ acceptable x /\
      exists k, jw_similarity rnd word x = Ok k /\ forall o, available o -> acceptable o -> exists k', jw_similarity rnd word o = Ok k' /\ (k <= k')%Q
  end.
Definition has_key (v : value) (x : str) : Prop := exists l y, is_mapping v l /\ In (VStr x, y) l.

Section C77.
Context (Orc : Oracle) (C : ctx) (rnd : Q -> Q).
(** the suggestion is the one of suggestions.py (modelled in Suggest.v) with some rounding of float operations *)
Hypothesis suggestions : forall word l, suggest_symbol rnd word l = Ok (o_suggest word l).

Lemma nearest_list : forall word l, nearest rnd word (fun o => In o l) (o_suggest word l).
Proof.
  intros word l. assert (E := suggestions word l). destruct (C45_none rnd word l) as [r [E' HN]]. assert (r = o_suggest word l) as -> by congruence.
  destruct (o_suggest word l) as [x|]; [|exact (proj1 HN eq_refl)].
  destruct (C45_best _ _ _ _ E) as [l1 [l2 [k [D [A [K [H1 H2]]]]]]]. cbn [nearest]. split; [rewrite D; apply in_or_app; right; left; reflexivity|]. split; [exact A|].
  exists k. split; [exact K|]. intros o HI AO. rewrite D in HI. apply in_app_or in HI as [HI|[<-|HI]].
  - destruct (H1 o HI AO) as [k' [K' L]]. exists k'. split; [exact K'|]. apply Qlt_le_weak. exact L.
  - exists k. split; [exact K|]. apply Qle_refl.
  - exact (H2 o HI AO).
Qed.
Lemma nearest_ext : forall word (P Q : str -> Prop) r, (forall o, P o <-> Q o) -> nearest rnd word P r -> nearest rnd word Q r.
Proof.
  intros word P Q [x|] E H; cbn [nearest] in *.
  - destruct H as [H1 [H2 [k [K H3]]]]. split; [apply E; exact H1|]. split; [exact H2|]. exists k. split; [exact K|]. intros o HO. apply H3. apply E. exact HO.
  - intros o HO. apply H. apply E. exact HO.
Qed.
Lemma nearest_merge : forall word P Q a b, nearest rnd word P a -> nearest rnd word Q b -> nearest rnd word (fun o => P o \/ Q o) (merge_sug word a b).
Proof.
  intros word P Q [x|] [y|] A B; cbn [merge_sug].
  - destruct A as [A1 [A2 [k [A3 A4]]]], B as [B1 [B2 [k' [B3 B4]]]]. assert (G := nearest_list word [x; y]). destruct (o_suggest word [x; y]) as [z|]; cbn [nearest] in G.
    + destruct G as [G1 [G2 [kz [G3 G4]]]]. cbn [nearest]. split; [destruct G1 as [<-|[<-|[]]]; auto|]. split; [exact G2|]. exists kz. split; [exact G3|].
      intros o [HO|HO] AO.
      * destruct (A4 o HO AO) as [ko [E L]]. exists ko. split; [exact E|]. destruct (G4 x (or_introl eq_refl) A2) as [kx [EX LX]]. assert (kx = k) as -> by congruence. eapply Qle_trans; eassumption.
      * destruct (B4 o HO AO) as [ko [E L]]. exists ko. split; [exact E|]. destruct (G4 y (or_intror (or_introl eq_refl)) B2) as [kx [EX LX]]. assert (kx = k') as -> by congruence. eapply Qle_trans; eassumption.
    + destruct (G x (or_introl eq_refl) A2).
  - destruct A as [A1 [A2 [k [A3 A4]]]]. cbn [nearest] in *. split; [auto|]. split; [exact A2|]. exists k. split; [exact A3|]. intros o [HO|HO] AO; [apply A4; assumption|]. destruct (B o HO AO).
  - destruct B as [A1 [A2 [k [A3 A4]]]]. cbn [nearest] in *. split; [auto|]. split; [exact A2|]. exists k. split; [exact A3|]. intros o [HO|HO] AO; [destruct (A o HO AO)|]. apply A4; assumption.
  - cbn [nearest] in *. intros o [HO|HO]; auto.
Qed.

Lemma all_strs_keys : forall l, text_keys l -> exists ks, all_strs l = Some ks /\ forall x, In x ks <-> exists y, In (VStr x, y) l.
Proof.
  intros l H. induction H as [|[k v] l [t E] H [ks [IH1 IH2]]].
  - exists []. split; [reflexivity|]. intro x. split; [intros []|intros [y []]].
  - cbn in E. subst k. exists (t :: ks). split; [unfold all_strs in *; cbn [fold_right key_str fst]; rewrite IH1; reflexivity|].
    intro x. split.
    + intros [<-|HI]; [exists v; left; reflexivity|]. apply IH2 in HI as [y HI]. exists y. right. exact HI.
    + intros [y [E|HI]]; [injection E as <- _; left; reflexivity|]. right. apply IH2. eauto.
Qed.
Lemma resolve_item_none : forall v name, (forall l, is_mapping v l -> text_keys l /\ dict_get l (VStr name) = None) ->
  exists sg, resolve_item v name = Err (XSymRes name sg) /\ nearest rnd name (has_key v) sg.
Proof.
  intros v name H.
  assert (M : forall l, is_mapping v l -> exists sg, resolve_item v name = Err (XSymRes name sg) /\ nearest rnd name (has_key v) sg).
  { intros l M. destruct (H l M) as [K D]. destruct (all_strs_keys l K) as [ks [E1 E2]]. exists (o_suggest name ks). split.
    - destruct M as [-> | ->]; cbn [resolve_item]; rewrite D, E1; reflexivity.
    - apply (nearest_ext name (fun o => In o ks)); [|apply nearest_list]. intro o. rewrite E2. split; [intros [y HI]; exists l, y; auto|]. intros [l' [y [M' HI]]].
      assert (l' = l) as -> by (destruct M as [-> | ->], M' as [M'|M']; congruence). eauto. }
  destruct v; try (exists None; split; [reflexivity|intros o [l' [y [[E|E] _]]]; discriminate E]); [apply (M l); right; reflexivity|apply (M l); left; reflexivity].
Qed.

Section Eval.
Context (thing : value) (usr : list event -> N -> list value -> result value) (now : list event -> N -> Z) (rand : list event -> option Z -> value).
(** the Context with the resolver of the default (resolve_item) *)
Let w := default_world usr now rand.
Hypothesis no_default : c_default C = None.

Lemma resolve_none : forall v name q, find_scope (s_scopes q) name = None -> (forall l, is_mapping v l -> text_keys l /\ dict_get l (VStr name) = None) ->
  exists sg q', run w (resolve C v name false) q = (Err (XSymRes name sg), q') /\ nearest rnd name (has_key v) sg.
Proof.
  intros v name q S H. destruct (resolve_item_none v name H) as [sg [E HN]]. exists sg. unfold resolve. rewrite run_pbind. cbn [run act step_op]. rewrite S. unfold actr. cbn [run step_op w w_resolve default_world].
  rewrite E. eexists. split; [reflexivity|]. exact HN.
Qed.

(** A plain symbol that is no variable and no key of the thing *)
Theorem C77_symbol : forall name t q, find_scope (s_scopes q) name = None ->
  (forall l, is_mapping thing l -> text_keys l /\ dict_get l (VStr name) = None) ->
  exists sg q', fails C thing w q (ESym name false t) (XSymRes name sg) q' /\ nearest rnd name (has_key thing) sg.
Proof.
  intros name t q S H. destruct (resolve_none thing name q S H) as [sg [q' [R HN]]]. exists sg, q'. split; [|exact HN].
  unfold fails. cbn [eval]. rewrite run_pthen, R, run_pbind. rewrite no_default. reflexivity.
Qed.

(** $name that is no builtin *)
Theorem C77_builtin : forall name t q, assoc name (c_bvals C) = None ->
  exists sg q', fails C thing w q (ESym name true t) (XSymRes name sg) q' /\ nearest rnd name (fun x => exists b, In (x, b) (c_bvals C)) sg.
Proof.
  intros name t q S. exists (o_suggest name (map fst (c_bvals C))), q. split.
  - unfold fails. cbn [eval]. rewrite run_pthen. unfold resolve. rewrite S. cbn [run raise]. rewrite run_pbind, no_default. reflexivity.
  - apply (nearest_ext name (fun o => In o (map fst (c_bvals C)))); [|apply nearest_list]. intro o. rewrite in_map_iff. split; [intros [[x b] [<- HI]]; eauto|intros [b HI]; exists (o, b); auto].
Qed.

(** object.name that is neither a builtin attribute of the object nor one of its keys: both kinds are considered.  If the object
    has no type (its members are of different or unsupported types) its builtin attributes are not. *)
Definition available (v : value) (x : str) : Prop := (exists t, from_value v = Ok t) /\ In x (documented v) \/ has_key v x.
Theorem C77_attribute : forall o name safe q v q1, yields C thing w q o v q1 -> (v = VNull -> safe = false) ->
  (exists t, from_value v = Ok t /\ ~ In name (documented v)) \/ from_value v = Err PType ->
  find_scope (s_scopes q1) name = None -> (forall l, is_mapping v l -> text_keys l /\ dict_get l (VStr name) = None) ->
  exists sg q', fails C thing w q (EAttr o name safe) (XAttrRes name sg) q' /\ nearest rnd name (available v) sg.
Proof.
  intros o name safe q v q1 Y NS T S H. destruct (resolve_none v name q1 S H) as [sg' [q2 [R HN]]].
  assert (A : exists m sg, resolve_attr v name = Err (XAttrRes m sg) /\ nearest rnd name (fun x => (exists t, from_value v = Ok t) /\ In x (documented v)) sg).
  { unfold resolve_attr. destruct T as [[t [T D]]|T]; rewrite T.
    - assert (K := table_of v t T). unfold get_attr. destruct (attr_table attr_map t) as [tab|] eqn:ET.
      + destruct (assoc name tab) as [a|] eqn:EA; [exfalso; apply D; apply K; apply P_Names.assoc_In; eauto|]. cbn [rbind]. exists name. eexists. split; [reflexivity|].
        apply (nearest_ext name (fun o => In o (map fst tab))); [|apply nearest_list]. intro x. rewrite (K x). split; [intro; split; [eauto|assumption]|intros [_ X]; exact X].
      + cbn [rbind]. exists name, None. split; [reflexivity|]. intros x [_ X]. rewrite K in X. destruct X.
    - exists name, None. split; [reflexivity|]. intros x [[t X] _]. discriminate X. }
  destruct A as [m [sg [A HA]]]. exists (merge_sug name sg sg'), q2. split.
  - unfold fails. cbn [eval]. rewrite run_pbind. unfold yields in Y. rewrite Y.
    assert (NB : is_null v && safe = false) by (destruct v; try reflexivity; cbn; auto). rewrite NB, A, run_pthen, R, no_default. reflexivity.
  - unfold available. apply nearest_merge; assumption.
Qed.
End Eval.

(** At construction: a symbol without a type in the type map, an attribute that the type of the object cannot have *)
Theorem C77_construct_symbol : forall m name w q, c_types C = type_resolver_of m -> (forall t, ~ In (name, t) m) -> find_scope (s_scopes q) name = None ->
  exists sg q', run w (build C (DSym name false)) q = (Err (XSymRes name sg), q') /\ nearest rnd name (fun x => exists t, In (x, t) m) sg.
Proof.
  intros m name w q T HM S. exists (o_suggest name (map fst m)). eexists. split.
  - cbn [build]. rewrite run_pbind, run_act. cbn [step_op]. rewrite run_pbind. unfold resolve_type. rewrite run_pbind. cbn [run act step_op]. cbn [s_scopes add_sym]. rewrite S. cbn [run]. rewrite T. unfold type_resolver_of.
    destruct (assoc name m) as [t|] eqn:E; [exfalso; apply (HM t), Base.assoc_In; exact E|]. reflexivity.
  - apply (nearest_ext name (fun o => In o (map fst m))); [|apply nearest_list]. intro o. rewrite in_map_iff. split; [intros [[x b] [<- HI]]; eauto|intros [b HI]; exists (o, b); auto].
Qed.
Theorem C77_construct_attribute : forall n name sf w q x q1, run w (build C n) q = (Ok x, q1) -> ~ may_have (rtype x) name sf ->
  exists sg, run w (build C (DAttr n name sf)) q = (Err (XAttrRes name sg), q1) /\ nearest rnd name (fun o => In o (type_attrs (rtype x))) sg.
Proof.
  intros n name sf w q x q1 B A. cbn [build]. rewrite run_pbind, B, run_pbind. cbn [run].
  destruct (check_attr_spec Orc (rtype x) name sf) as [[A' _]|[_ [sg E]]]; [contradiction|]. rewrite E. exists sg. split; [reflexivity|].
  assert (K := fun nm => attr_table_spec (rtype x) nm). unfold check_attr in E. destruct (is_undef (rtype x)) eqn:U; [discriminate E|]. cbn [orb] in E. destruct (dt_eqb (rtype x) TNull && sf); [discriminate E|].
  unfold resolve_attr_type, get_attr in E. destruct (attr_table attr_map (rtype x)) as [tab|].
  - destruct (assoc name tab) as [a|] eqn:EA.
    + cbn [rbind] in E. exfalso. apply A. apply mh_attr. apply (K name eq_refl). apply P_Names.assoc_In. eauto.
    + cbn [rbind] in E. destruct (is_map_t (rtype x)); [discriminate E|]. injection E as <-. apply (nearest_ext name (fun o => In o (map fst tab))); [|apply nearest_list]. intro o. apply K. reflexivity.
  - cbn [rbind] in E. destruct (is_map_t (rtype x)); [discriminate E|]. injection E as <-. intros o HO. rewrite (K o eq_refl) in HO. destruct HO.
Qed.
End C77.
Print Assumptions C77_symbol.
Print Assumptions C77_builtin.
Print Assumptions C77_attribute.
Print Assumptions C77_construct_symbol.
Print Assumptions C77_construct_attribute.

(** ** Example: suggestions.py itself as the oracle, floats truncated to 53 bits *)
Definition c77_orc : Oracle := {|
  o_tz := demo_tz;
  o_set_order := fun l => l;
  o_set_order_perm := fun l => Permutation_refl l;
  o_re_ok := fun _ p => negb (str_eqb p (s "["));
  o_re := demo_re;
  o_lower := fun t => t; o_upper := fun t => t;
  o_space := fun c => (c =? 32)%N; o_digit := fun _ => None;
  o_decode := fun _ b => Ok b; o_encode := fun _ t => Ok t;
  o_isoparse := fun _ => None; o_pylit := fun _ => None;
  o_pow := fun _ _ _ => None; o_timestamp := fun _ => FNaN; o_tzname := fun _ _ => None;
  o_suggest := fun word l => match suggest_symbol trunc53 word l with Ok r => r | Err _ => None end
|}.
Lemma c77_suggestions : forall word l, suggest_symbol trunc53 word l = Ok (@o_suggest c77_orc word l).
Proof. intros word l. cbn [o_suggest c77_orc]. destruct (C45_none trunc53 word l) as [r [E _]]. rewrite E. reflexivity. Qed.
Example C77_example :
  let th := VDict [(VStr (s "title"), VStr (s "x")); (VStr (s "1x"), VInt 1); (VStr (s "keyz"), VInt 2)] in
  let go e := fst (run (@default_world c77_orc (fun _ _ _ => Ok VNull) (fun _ _ => 0) (fun _ _ => VNull)) (@eval c77_orc untyped_ctx th e) demo_st) in
  go (sym "titel") = Err (XSymRes (s "titel") (Some (s "title"))) /\
  go (EAttr (ELit th) (s "keyzz") false) = Err (XAttrRes (s "keyzz") (Some (s "keyz"))) /\
  go (EAttr (ELit th) (s "lenght") false) = Err (XAttrRes (s "lenght") (Some (s "length"))) /\
  go (EAttr (ELit VNull) (s "x") false) = Err (XAttrRes (s "x") None) /\
  go (ESym (s "todya") true TUndef) = Err (XSymRes (s "todya") (Some (s "today"))) /\
  (forall l, is_mapping th l -> text_keys l /\ dict_get l (VStr (s "titel")) = None).
Proof.
  repeat (split; [vm_compute; reflexivity|]). intros l [E|E]; [injection E as <-|discriminate E]. split; [repeat constructor; eexists; reflexivity|vm_compute; reflexivity].
Qed.
