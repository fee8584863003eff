(** * Theorems about text codecs (C66) *)
From Coq Require Import Lia String.
From Verif Require Import Base Dec Value DType DTypeFacts Types Ops EqFacts CoerceFacts TypesFacts DecFacts ParseUtil Attr Prog Ast Eval Build Engine
  ProgFacts StateFacts Post Refine Demo Codec CodecFacts P_Compare P_Ops P_Eval P_Names P_Calls P_Attrs.
Open Scope list_scope.
Open Scope Z_scope.

(** ** Specification *)
(** the names of the codecs, in lower case *)
(* codec_names: specification *)
Definition codec_names (c : codec) : list str :=
  match c with
  | Utf8 => [s "utf-8"; s "utf8"; s "utf_8"; s "u8"]
  | Ascii => [s "ascii"; s "us-ascii"; s "us_ascii"; s "646"]
  | Latin1 => [s "latin-1"; s "latin1"; s "latin_1"; s "iso-8859-1"; s "iso8859-1"; s "l1"]
  end.
(** the bytes [b] are the text [t] written in the codec: [utf8] (CodecFacts.v) is the definition of RFC 3629, the other two write a code point below
    128 or 256 as one byte *)
(* writes: specification *)
Definition writes (c : codec) (t : str) (b : list N) : Prop :=
  match c with
  | Utf8 => utf8 t b
  | Ascii => b = t /\ Forall (fun x => (x < 128)%N) t
  | Latin1 => b = t /\ Forall (fun x => (x < 256)%N) t
  end.

Section C66.
Context (Orc : Oracle) (C : ctx) (thing : value) (w : world).
Notation yields := (yields C thing w). Notation fails := (fails C thing w). Notation yields_all := (yields_all C thing w).

Lemma names_of : forall c e, In e (codec_names c) -> codec_of e = Some c /\ str_eqb e (s "base16") || str_eqb e (s "hex") = false /\ str_eqb e (s "base64") = false.
Proof. intros [] e H; cbn [codec_names In] in H; repeat (destruct H as [<-|H]; [vm_compute; auto|]); destruct H. Qed.

Lemma encode_spec : forall c t b, is_text t -> codec_encode c t = Ok b <-> writes c t b.
Proof. intros [] t b T; cbn [codec_encode writes]; [apply utf8_encode_spec; exact T|apply narrow_spec|apply narrow_spec]. Qed.
Lemma encode_err : forall c t x, codec_encode c t = Err x -> x = PUnicode.
Proof. intros [] t x; cbn [codec_encode]; [apply utf8_encode_err|apply narrow_err|apply narrow_err]. Qed.
Lemma decode_spec : forall c t b, codec_decode c b = Ok t <-> writes c t b.
Proof.
  intros [] t b; cbn [codec_decode writes]; [apply utf8_decode_spec|..]; rewrite narrow_spec; split; intros [-> H]; auto.
Qed.
Lemma decode_err : forall c b x, codec_decode c b = Err x -> x = PUnicode.
Proof. intros [] b x; cbn [codec_decode]; [apply (utf8_decode_err (length b)); lia|apply narrow_err|apply narrow_err]. Qed.

(** calling the method bound by an attribute *)
Lemma method_call : forall o nm m a safe q v q1 e q2, resolve_attr v nm = Ok (VMeth m v) -> is_null v = false ->
  yields q o v q1 -> yields q1 a e q2 -> passes Orc (EAttr o nm safe) [e] ->
  (forall r, meth_call m v e = Ok r -> is_compat (match r with VStr _ => TString | VBytes _ => TBytes | _ => TUndef end) (returns Orc (EAttr o nm safe)) = true ->
     (exists t, r = VStr t) \/ (exists b, r = VBytes b) -> yields q (ECall (EAttr o nm safe) [a]) r q2) /\
  (forall x, meth_call m v e = Err x -> fails q (ECall (EAttr o nm safe) [a]) XFunCall q2).
Proof.
  intros o nm m a safe q v q1 e q2 R N Ho Ha P.
  assert (Hf : yields q (EAttr o nm safe) (VMeth m v) q1) by (eapply attr_ok; [exact Ho|exact N|exact R|reflexivity]).
  assert (Hs : yields_all q1 [a] [e] q2) by (econstructor; [exact Ha|constructor]).
  assert (X := call_run Orc C thing w (EAttr o nm safe) [a] q (VMeth m v) q1 [e] q2 P Hf eq_refl Hs). cbn [apply_fun apply_flat run] in X. split.
  - intros r E K [[t ->]|[b ->]]; rewrite E in X; unfold P_Ops.yields; rewrite X; unfold outcome, new_value; cbn [coerce from_value rmap set_tz rbind]; rewrite K; reflexivity.
  - intros x E. rewrite E in X. exact X.
Qed.

Lemma decode_call : forall o a safe q b q1 e q2, yields q o (VBytes b) q1 -> yields q1 a (VStr e) q2 ->
  let f := EAttr o (s "decode") safe in passes Orc f [VStr e] -> is_compat TString (returns Orc f) = true ->
  (forall t, meth_call Mdecode (VBytes b) (VStr e) = Ok (VStr t) -> yields q (ECall f [a]) (VStr t) q2) /\
  (forall x, meth_call Mdecode (VBytes b) (VStr e) = Err x -> fails q (ECall f [a]) XFunCall q2).
Proof.
  intros o a safe q b q1 e q2 Ho Ha f P R. assert (M := method_call o (s "decode") Mdecode a safe q (VBytes b) q1 (VStr e) q2).
  destruct M as [M1 M2]; [reflexivity|reflexivity|exact Ho|exact Ha|exact P|]. split; [|exact M2].
  intros t E. apply M1; [exact E|exact R|left; eexists; reflexivity].
Qed.
Lemma encode_call : forall o a safe q t q1 e q2, yields q o (VStr t) q1 -> yields q1 a (VStr e) q2 ->
  let f := EAttr o (s "encode") safe in passes Orc f [VStr e] -> is_compat TBytes (returns Orc f) = true ->
  (forall b, meth_call Mencode (VStr t) (VStr e) = Ok (VBytes b) -> yields q (ECall f [a]) (VBytes b) q2) /\
  (forall x, meth_call Mencode (VStr t) (VStr e) = Err x -> fails q (ECall f [a]) XFunCall q2).
Proof.
  intros o a safe q t q1 e q2 Ho Ha f P R. assert (M := method_call o (s "encode") Mencode a safe q (VStr t) q1 (VStr e) q2).
  destruct M as [M1 M2]; [reflexivity|reflexivity|exact Ho|exact Ha|exact P|]. split; [|exact M2].
  intros b E. apply M1; [exact E|exact R|right; eexists; reflexivity].
Qed.

(** t.encode(name) is the bytes of t in the codec, FunctionCallError exactly if it has none *)
Theorem C66_encode : forall c o a safe q t q1 e q2, yields q o (VStr t) q1 -> yields q1 a (VStr e) q2 -> In (py_lower e) (codec_names c) -> is_text t ->
  let f := EAttr o (s "encode") safe in passes Orc f [VStr e] -> is_compat TBytes (returns Orc f) = true ->
  (forall b, writes c t b -> yields q (ECall f [a]) (VBytes b) q2) /\ ((~ exists b, writes c t b) -> fails q (ECall f [a]) XFunCall q2).
Proof.
  intros c o a safe q t q1 e q2 Ho Ha HN T f P R. destruct (encode_call o a safe q t q1 e q2 Ho Ha P R) as [M1 M2]. destruct (names_of c (py_lower e) HN) as [N1 [N2 N3]].
  assert (E : meth_call Mencode (VStr t) (VStr e) = match codec_encode c t with Ok b => Ok (VBytes b) | Err PLookup => Err XFunCall | Err x => Err x end).
  { cbn [meth_call]. cbv zeta. rewrite N2, N3. unfold py_encode. rewrite N1. reflexivity. }
  split.
  - intros b W. apply M1. rewrite E. apply (encode_spec c t b T) in W. rewrite W. reflexivity.
  - intro N. destruct (codec_encode c t) as [b|x] eqn:X; [exfalso; apply N; exists b; apply encode_spec; assumption|]. apply (M2 x). rewrite E. apply encode_err in X. subst x. reflexivity.
Qed.

(** b.decode(name) is the text whose bytes b is, FunctionCallError exactly if there is none *)
Theorem C66_decode : forall c o a safe q b q1 e q2, yields q o (VBytes b) q1 -> yields q1 a (VStr e) q2 -> In (py_lower e) (codec_names c) ->
  let f := EAttr o (s "decode") safe in passes Orc f [VStr e] -> is_compat TString (returns Orc f) = true ->
  (forall t, writes c t b -> yields q (ECall f [a]) (VStr t) q2) /\ ((~ exists t, writes c t b) -> fails q (ECall f [a]) XFunCall q2).
Proof.
  intros c o a safe q b q1 e q2 Ho Ha HN f P R. destruct (decode_call o a safe q b q1 e q2 Ho Ha P R) as [M1 M2]. destruct (names_of c (py_lower e) HN) as [N1 [N2 N3]].
  assert (E : meth_call Mdecode (VBytes b) (VStr e) = match codec_decode c b with Ok t => Ok (VStr t) | Err PLookup => Err XFunCall | Err x => Err x end).
  { cbn [meth_call]. cbv zeta. rewrite N2, N3. unfold py_decode. rewrite N1. reflexivity. }
  split.
  - intros t W. apply M1. rewrite E. apply decode_spec in W. rewrite W. reflexivity.
  - intro N. destruct (codec_decode c b) as [t|x] eqn:X; [exfalso; apply N; exists t; apply decode_spec; exact X|]. apply (M2 x). rewrite E. apply decode_err in X. subst x. reflexivity.
Qed.

(** a text has at most one spelling, bytes spell at most one text, and every text without surrogates has a UTF-8 spelling *)
Theorem C66_unique : forall c t b, writes c t b -> (forall b', writes c t b' -> b' = b) /\ (forall t', writes c t' b -> t' = t) /\ is_text t /\ Forall (fun x => (x < 256)%N) b.
Proof.
  intros [] t b H; cbn [writes] in *.
  - split; [intros b' H'; apply (utf8_fun t); assumption|]. split; [intros t' H'; apply (utf8_inj t' t b); assumption|]. split; [eapply utf8_text; exact H|eapply utf8_bytes; exact H].
  - destruct H as [-> H]. split; [intros b' [-> _]; reflexivity|]. split; [intros t' [<- _]; reflexivity|]. split; (eapply Forall_impl; [|exact H]); cbv beta; intros; lia.
  - destruct H as [-> H]. split; [intros b' [-> _]; reflexivity|]. split; [intros t' [<- _]; reflexivity|]. split; (eapply Forall_impl; [|exact H]); cbv beta; intros; lia.
Qed.
Theorem C66_utf8_total : forall t, is_text t -> (exists b, writes Utf8 t b) <-> Forall (fun c => ~ (55296 <= c < 57344)%N) t.
Proof. apply utf8_exists. Qed.

(** t.encode(x).decode(x) is t and b.decode(x).encode(x) is b, whenever the first step succeeds *)
Theorem C66_round_trip : forall c o a a' safe safe' q t b q1 e q2 e' q3, yields q1 a (VStr e) q2 -> yields q2 a' (VStr e') q3 -> In (py_lower e) (codec_names c) -> In (py_lower e') (codec_names c) ->
  writes c t b ->
  (let f := EAttr o (s "encode") safe in let g := EAttr (ECall f [a]) (s "decode") safe' in yields q o (VStr t) q1 ->
   passes Orc f [VStr e] -> is_compat TBytes (returns Orc f) = true -> passes Orc g [VStr e'] -> is_compat TString (returns Orc g) = true -> yields q (ECall g [a']) (VStr t) q3) /\
  (let f := EAttr o (s "decode") safe in let g := EAttr (ECall f [a]) (s "encode") safe' in yields q o (VBytes b) q1 ->
   passes Orc f [VStr e] -> is_compat TString (returns Orc f) = true -> passes Orc g [VStr e'] -> is_compat TBytes (returns Orc g) = true -> yields q (ECall g [a']) (VBytes b) q3).
Proof.
  intros c o a a' safe safe' q t b q1 e q2 e' q3 Ha Ha' HN HN' W. destruct (C66_unique c t b W) as [_ [_ [T _]]]. split; cbv zeta; intros Ho P R P' R'.
  - apply (C66_decode c (ECall (EAttr o (s "encode") safe) [a]) a' safe' q b q2 e' q3); try assumption. apply (C66_encode c o a safe q t q1 e q2); assumption.
  - apply (C66_encode c (ECall (EAttr o (s "decode") safe) [a]) a' safe' q t q2 e' q3); try assumption. apply (C66_decode c o a safe q b q1 e q2); assumption.
Qed.

(** b.decode("base64") is the base64 spelling of b (RFC 4648: [base64] in CodecFacts.v) *)
Theorem C66_base64_decode : forall o a safe q b q1 e q2, yields q o (VBytes b) q1 -> yields q1 a (VStr e) q2 -> py_lower e = s "base64" -> Forall (fun x => (x < 256)%N) b ->
  let f := EAttr o (s "decode") safe in passes Orc f [VStr e] -> is_compat TString (returns Orc f) = true ->
  exists t, base64 b t /\ yields q (ECall f [a]) (VStr t) q2.
Proof.
  intros o a safe q b q1 e q2 Ho Ha HN B f P R. destruct (decode_call o a safe q b q1 e q2 Ho Ha P R) as [M1 _]. exists (b64_encode b). split; [apply b64_encode_spec; exact B|].
  apply M1. cbn [meth_call]. cbv zeta. rewrite HN. reflexivity.
Qed.

(** t.encode("base64") reads every base64 spelling, ignoring foreign characters anywhere in it *)
Theorem C66_base64_encode : forall o a safe q t q1 e q2, yields q o (VStr t) q1 -> yields q1 a (VStr e) q2 -> py_lower e = s "base64" ->
  let f := EAttr o (s "encode") safe in passes Orc f [VStr e] -> is_compat TBytes (returns Orc f) = true -> Forall (fun c => (c < 128)%N) t ->
  (forall b, base64 b (filter (fun c => existsb (N.eqb c) (61%N :: b64_alphabet)) t) -> yields q (ECall f [a]) (VBytes b) q2) /\
  (Forall (fun c => c <> 61%N) t -> (length (filter (fun c => existsb (N.eqb c) b64_alphabet) t) mod 4 <> 0)%nat -> fails q (ECall f [a]) XFunCall q2).
Proof.
  intros o a safe q t q1 e q2 Ho Ha HN f P R A. destruct (encode_call o a safe q t q1 e q2 Ho Ha P R) as [M1 M2].
  assert (V : forall c, existsb (N.eqb c) b64_alphabet = match b64_val c with Some _ => true | None => false end).
  { intro c. destruct (b64_val c) as [d|] eqn:E.
    - apply existsb_exists. exists c. split; [|apply N.eqb_refl]. apply b64_val_digit in E as [E _]. eapply nth_error_In. exact E.
    - apply not_true_is_false. intro H. apply existsb_exists in H as [c' [H E']]. apply N.eqb_eq in E'. subst c'. apply In_nth_error in H as [n H].
      assert (b64_val c = Some (N.of_nat n)) by (apply b64_digit_val; unfold b64_digit; rewrite Nat2N.id; exact H). congruence. }
  assert (F : filter (fun c => existsb (N.eqb c) (61%N :: b64_alphabet)) t = filter b64_relevant t).
  { apply filter_ext. intro c. cbn [existsb]. rewrite V. reflexivity. }
  assert (E : meth_call Mencode (VStr t) (VStr e) = match a2b_base64 0 0 0 t with Ok b => Ok (VBytes b) | Err PBinascii => Err XFunCall | Err x => Err x end).
  { cbn [meth_call]. cbv zeta. rewrite HN. change (str_eqb (s "base64") (s "base16") || str_eqb (s "base64") (s "hex")) with false. cbv iota. rewrite str_eqb_refl.
    rewrite (utf8_encode_ascii t A). reflexivity. }
  split.
  - intros b B. apply M1. rewrite E, a2b_filter, <- F, (a2b_base64_spec _ _ B 0). reflexivity.
  - intros NP L. destruct (a2b_base64 0 0 0 t) as [b|x] eqn:X.
    + exfalso. apply L. assert (G := a2b_nopad t 0 0 0 eq_refl NP). rewrite X in G. destruct G as [G _]. specialize (G (ex_intro _ b eq_refl)).
      rewrite (filter_ext_in _ b64_relevant); [exact G|]. intros c Hc. rewrite V. unfold b64_relevant. rewrite Forall_forall in NP. specialize (NP c Hc). apply N.eqb_neq in NP. rewrite NP. reflexivity.
    + apply (M2 XFunCall). rewrite E. assert (x = PBinascii) by (eapply a2b_err; exact X). subst x. reflexivity.
Qed.

(** b.decode("base64").encode("base64") is b again *)
Theorem C66_base64_round_trip : forall o a a' safe safe' q b q1 e q2 e' q3, yields q o (VBytes b) q1 -> yields q1 a (VStr e) q2 -> yields q2 a' (VStr e') q3 ->
  py_lower e = s "base64" -> py_lower e' = s "base64" -> Forall (fun x => (x < 256)%N) b ->
  let f := EAttr o (s "decode") safe in let g := EAttr (ECall f [a]) (s "encode") safe' in
  passes Orc f [VStr e] -> is_compat TString (returns Orc f) = true -> passes Orc g [VStr e'] -> is_compat TBytes (returns Orc g) = true -> yields q (ECall g [a']) (VBytes b) q3.
Proof.
  intros o a a' safe safe' q b q1 e q2 e' q3 Ho Ha Ha' HN HN' B f g P R P' R'. destruct (C66_base64_decode o a safe q b q1 e q2 Ho Ha HN B P R) as [t [S Ht]].
  assert (A : Forall (fun c => c = 61%N \/ exists d, b64_digit c d) t).
  { clear -S. induction S as [|x c1 c2 d1 d2 Hx H1 H2 E|x y c1 c2 c3 d1 d2 d3 Hx Hy H1 H2 H3 E|x y z c1 c2 c3 c4 d1 d2 d3 d4 b t Hx Hy Hz H1 H2 H3 H4 E H IH]; repeat (apply Forall_cons; [first [left; reflexivity|right; eexists; eassumption]|]); first [exact IH|apply Forall_nil]. }
  assert (K : forall c, c = 61%N \/ (exists d, b64_digit c d) -> In c (61%N :: b64_alphabet)).
  { intros c [->|[d H]]; [left; reflexivity|right; eapply nth_error_In; exact H]. }
  assert (L : Forall (fun c => (c < 128)%N) (61%N :: b64_alphabet)) by (apply Forall_forall; intros c H; apply N.ltb_lt; revert c H; apply forallb_forall; vm_compute; reflexivity).
  rewrite Forall_forall in L. destruct (C66_base64_encode (ECall f [a]) a' safe' q t q2 e' q3 Ht Ha' HN' P' R') as [G _].
  - eapply Forall_impl; [|exact A]. intros c Hc. apply L, K, Hc.
  - apply G. replace (filter _ t) with t; [exact S|]. symmetry. clear - A K. induction A as [|c t Hc A IH]; [reflexivity|]. cbn [filter].
    assert (X : existsb (N.eqb c) (61%N :: b64_alphabet) = true) by (apply existsb_exists; exists c; split; [apply K; exact Hc|apply N.eqb_refl]). rewrite X, IH. reflexivity.
Qed.
(** the codec names in any letter case *)
Theorem C66_any_case : forall e n, cased e n -> (forall c, In n (codec_names c) -> In (py_lower e) (codec_names c)) /\ (n = s "base64" -> py_lower e = s "base64").
Proof.
  intros e n H. assert (P : forall c, Forall (fun n => Forall (fun c => c < 128 /\ ~ 65 <= c <= 90)%N n) (codec_names c)).
  { intros []; repeat (apply Forall_cons; [apply plain_text; reflexivity|]); apply Forall_nil. }
  split.
  - intros c I0. rewrite (cased_lower Orc e n H); [exact I0|]. specialize (P c). rewrite Forall_forall in P. apply P. exact I0.
  - intros ->. apply (cased_lower Orc e _ H). apply plain_text. reflexivity.
Qed.
End C66.
Print Assumptions C66_any_case.
Print Assumptions C66_round_trip.
Print Assumptions C66_base64_round_trip.
Print Assumptions C66_base64_encode.

Example C66_example :
  let call v m e := fst (run demo_world (eval untyped_ctx VNull (ECall (EAttr (ELit v) (s m) false) [ELit (VStr (s e))])) demo_st) in
  In (py_lower (s "utf-8")) (codec_names Utf8) /\ passes demo_orc (EAttr (ELit (VStr [8364%N])) (s "encode") false) [VStr (s "utf-8")] /\
  writes Utf8 [8364%N] [226; 130; 172]%N /\ base64 [255; 0]%N (s "/wA=") /\
  call (VStr [8364%N]) "encode"%string "utf-8"%string = Ok (VBytes [226; 130; 172]%N) /\ call (VBytes [226; 130; 172]%N) "decode"%string "utf8"%string = Ok (VStr [8364%N]) /\
  call (VBytes [226; 130]%N) "decode"%string "utf8"%string = Err XFunCall /\ call (VStr [55296%N]) "encode"%string "utf8"%string = Err XFunCall /\ call (VStr [8364%N]) "encode"%string "ascii"%string = Err XFunCall /\
  call (VBytes [255; 0]%N) "decode"%string "base64"%string = Ok (VStr (s "/wA=")) /\ call (VStr (s "/w A=")) "encode"%string "base64"%string = Ok (VBytes [255; 0]%N) /\ call (VStr (s "/wA")) "encode"%string "base64"%string = Err XFunCall.
Proof.
  cbv zeta. split; [left; reflexivity|]. split.
  { right. eexists _, _, _, _. split; [reflexivity|]. split; [intros v [<-|[]]; eexists; reflexivity|].
    split; [intros m H; inversion H; cbn; lia|]. intros l H. inversion H; subst. split; [cbn; lia|]. intros [|[|i]] v p Hv Hp; cbn in Hv, Hp; try discriminate.
    inversion Hv; inversion Hp; subst. exists TString. split; reflexivity. }
  split; [cbn [writes]; apply utf8_decode_spec; reflexivity|]. split; [apply (b64_encode_spec [255; 0]%N); repeat constructor|]. vm_compute. repeat split.
Qed.
