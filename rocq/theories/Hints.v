(** * Hints: data types from Python type hints and from names (types.py:384-523) *)
From Verif Require Import Base DType.
From Coq Require Import String.
Open Scope list_scope.

(** The classes from_type tells apart (types.py:488-509); [Pclass] is any other class. *)
Inductive pyclass :=
| Plist | Prange | Ptuple | Pbool | Pbytes | Pdate | Pdatetime | Ptimedelta | Pdecimal | Pfloat | Pint | Pdict | Pnone | Pset | Pstr
| Pfunction | Pclass (n : N).

(** The argument of from_type (types.py:474): a class; something with an __origin__, with the __args__ if it has them (list[int],
    typing.Dict[str, int], the bare typing.List, typing.Annotated[...]); or something else (typing.Union, None, 3, ...) *)
Inductive hint :=
| Hclass (c : pyclass)
| Halias (origin : hint) (args : option (list hint))
| Hother.

(** types.py:488-509 *)
Definition class_type (c : pyclass) : result dtype :=
  match c with
  | Plist | Prange | Ptuple => Ok t_array
  | Pbool => Ok TBool
  | Pbytes => Ok TBytes
  | Pdate | Pdatetime => Ok TDatetime
  | Ptimedelta => Ok TTimedelta
  | Pdecimal | Pfloat | Pint => Ok TFloat
  | Pdict => Ok t_mapping
  | Pnone => Ok TNull
  | Pset => Ok t_set
  | Pstr => Ok TString
  | Pfunction => Ok t_function
  | Pclass _ => Err PValue
  end.

(** types.py:473-523 DataType.from_type.  [maintype(...)] is the __call__ of the definition (types.py:233-243, 289-301) *)
Fixpoint from_type (h : hint) : result dtype :=
  match h with
  | Hother => Err PType
  | Hclass c => class_type c
  | Halias o args =>
      rbind (from_type o) (fun main =>
      match o, args with
      | Hclass Plist, Some l => match l with a :: _ => rmap (fun t => TArray t true) (from_type a) | [] => Err PIndex end
      | Hclass Pset, Some l => match l with a :: _ => rmap (fun t => TSet t true) (from_type a) | [] => Err PIndex end
      | Hclass Pdict, Some l =>
          match l with
          | a :: r => rbind (from_type a) (fun k => match r with b :: _ => rbind (from_type b) (fun v => mk_mapping k v true) | [] => Err PIndex end)
          | [] => Err PIndex
          end
      | _, _ => Ok main
      end)
  end.

(** the names of the constants: types.py:440-451, collected by DataTypeMeta (types.py:385-395) *)
Definition members : list (str * dtype) :=
  [(s "ARRAY", t_array); (s "BYTES", TBytes); (s "BOOLEAN", TBool); (s "DATETIME", TDatetime); (s "FLOAT", TFloat); (s "FUNCTION", t_function);
   (s "MAPPING", t_mapping); (s "NULL", TNull); (s "SET", t_set); (s "STRING", TString); (s "TIMEDELTA", TTimedelta); (s "UNDEFINED", TUndef)].
(** types.py:456-471 DataType.from_name on a str (other attributes of the class are no definitions) *)
Definition from_name (n : str) : result dtype := match assoc n members with Some t => Ok t | None => Err PValue end.
(** types.py:400-403 DataType[name] *)
Definition from_key (n : str) : result dtype := match assoc n members with Some t => Ok t | None => Err PKey end.
(** the [name] attribute of a definition: types.py:181-187 with 440-451 and 208-212 *)
Definition type_name (t : dtype) : str :=
  match t with
  | TArray _ _ => s "ARRAY" | TBytes => s "BYTES" | TBool => s "BOOLEAN" | TDatetime => s "DATETIME" | TFloat => s "FLOAT"
  | TFun _ _ _ _ => s "FUNCTION" | TMap _ _ _ => s "MAPPING" | TNull => s "NULL" | TSet _ _ => s "SET" | TString => s "STRING"
  | TTimedelta => s "TIMEDELTA" | TUndef => s "UNDEFINED"
  end.
