(** * Engine: Rule and Context methods (engine.py:75-114, 419-657), default builtins (builtins.py:156-214) *)
From Verif Require Import Base Dec Value DType Types Ops ParseUtil Attr Prog Ast Eval Build.
Open Scope Z_scope.

(** builtins.py:161-183 and the re_groups entry added by engine.py:485 *)
Definition default_values : list (str * bval) :=
  [ (s "e", BVconst (VDec (DFin false 2718281828459045 (-15))));
    (s "pi", BVconst (VDec (DFin false 3141592653589793 (-15))));
    (s "now", BVnow); (s "today", BVtoday);
    (s "abs", BVconst (VBFun BFabs)); (s "any", BVconst (VBFun BFany)); (s "all", BVconst (VBFun BFall));
    (s "sum", BVconst (VBFun BFsum)); (s "map", BVconst (VBFun BFmap)); (s "max", BVconst (VBFun BFmax));
    (s "min", BVconst (VBFun BFmin)); (s "filter", BVconst (VBFun BFfilter));
    (s "parse_datetime", BVconst (VBFun BFparse_datetime)); (s "parse_float", BVconst (VBFun BFparse_float));
    (s "parse_timedelta", BVconst (VBFun BFparse_timedelta)); (s "random", BVconst (VBFun BFrandom));
    (s "range", BVconst (VBFun BFrange)); (s "split", BVconst (VBFun BFsplit));
    (s "re_groups", BVgroups) ].

(** builtins.py:185-212 and engine.py:486 *)
Definition t_fn (name : str) (ret : dtype) (args : list dtype) (mn : Z) : dtype :=
  TFun (Some name) ret (Some args) (Some mn).
Definition default_types : list (str * dtype) :=
  [ (s "e", TFloat); (s "pi", TFloat); (s "now", TDatetime); (s "today", TDatetime);
    (s "abs", t_fn (s "abs") TFloat [TFloat] 1);
    (s "all", t_fn (s "all") TBool [t_array] 1);
    (s "any", t_fn (s "any") TBool [t_array] 1);
    (s "sum", t_fn (s "sum") TFloat [TArray TFloat true] 1);
    (s "map", t_fn (s "map") t_array [t_function; t_array] 2);
    (s "max", t_fn (s "max") TFloat [TArray TFloat true] 1);
    (s "min", t_fn (s "min") TFloat [TArray TFloat true] 1);
    (s "filter", t_fn (s "filter") t_array [t_function; t_array] 2);
    (s "parse_datetime", t_fn (s "parse_datetime") TDatetime [TString] 1);
    (s "parse_float", t_fn (s "parse_float") TFloat [TString] 1);
    (s "parse_timedelta", t_fn (s "parse_timedelta") TTimedelta [TString] 1);
    (s "random", t_fn (s "random") TFloat [TFloat] 0);
    (s "range", t_fn (s "range") (TArray TFloat true) [TFloat; TFloat; TFloat] 1);
    (s "split", t_fn (s "split") (TArray TString true) [TString; TString; TFloat] 1);
    (s "re_groups", TArray TString true) ].

Section Engine.
Context {Orc : Oracle}.

(** engine.py:75-89 resolve_item.  suggest_symbol raises TypeError on a key that is not a str
    (suggestions.py:85-102, re.match). *)
Definition key_str (kv : value * value) : option str := match fst kv with VStr t => Some t | _ => None end.
Definition all_strs (l : list (value * value)) : option (list str) :=
  fold_right (fun kv acc => match key_str kv, acc with Some t, Some ts => Some (t :: ts) | _, _ => None end) (Some []) l.
Definition resolve_item (thing : value) (name : str) : result value :=
  match thing with
  | VMap l | VDict l =>
      match dict_get l (VStr name) with
      | Some v => Ok v
      | None => match all_strs l with
                | Some ks => Err (XSymRes name (o_suggest name ks))
                | None => Err PType
                end
      end
  | _ => Err (XSymRes name None)
  end.

(** The Context default: resolver = resolve_item (engine.py:495). *)
Definition default_world (usr : list event -> N -> list value -> result value) (now : list event -> N -> Z)
    (rnd : list event -> option Z -> value) : world :=
  {| w_resolve := fun _ t n => resolve_item t n; w_user := usr; w_now := now; w_random := rnd |}.

(** engine.py:91-94, 101-114 type_resolver_from_dict, on an already converted dictionary *)
Definition type_resolver_of (m : list (str * dtype)) (name : str) : result dtype :=
  match assoc name m with
  | Some t => Ok t
  | None => Err (XSymRes name (o_suggest name (map fst m)))
  end.
(** engine.py:113: values that are not definitions are classified *)
Definition type_map_of (m : list (str * (dtype + value))) : result (list (str * dtype)) :=
  rmapM (fun kv => match snd kv with
                   | inl t => Ok (fst kv, t)
                   | inr v => rmap (fun t => (fst kv, t)) (from_value v)
                   end) m.

Section Rule.
Variable C : ctx.

(** engine.py:635-646 Rule.evaluate; decimal.localcontext restores the previous context on every exit *)
Definition rule_evaluate (e : expr) (thing : value) : prog value :=
  do! _ := act OReset in
  do! dc := act OGetDc in
  do! _ := act (OSetDc (c_dec C)) in
  pthen (eval C thing e) (fun r =>
  do! _ := act (OSetDc dc) in Ret r).

(** engine.py:648-657 *)
Definition rule_matches (e : expr) (thing : value) : prog bool :=
  do! v := rule_evaluate e thing in ok (truthy v).

(** engine.py:607-614: the members yielded before the generator is exhausted or raises, and the exception if any *)
Fixpoint rule_filter (e : expr) (things : list value) : prog (list value * option exn) :=
  match things with
  | [] => ok ([], None)
  | x :: r =>
      pthen (rule_matches e x) (fun m =>
      match m with
      | Err x => ok ([], Some x)
      | Ok b => do! p := rule_filter e r in ok (if b then x :: fst p else fst p, snd p)
      end)
  end.

(** engine.py:588-599 Rule.__init__, after the text was parsed into a deferred tree (parser/base.py:63-82) *)
Definition rule_new (n : dnode) : prog expr := build C n.

(** engine.py:616-633 *)
Definition rule_is_valid (n : dnode) : prog bool :=
  pthen (rule_new n) (fun r =>
  match r with Ok _ => ok true | Err x => if is_engine x then ok false else raise x end).

End Rule.
End Engine.
