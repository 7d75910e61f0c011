(** JSON / YAML values, Python exceptions and the external-library oracles. *)
From Verif Require Export PyStr.

(** Primitive values (conda_recipe_manager/types.py 16-19, [PRIMITIVES_TUPLE]).
    Simplification: a float is represented by its [repr] text. *)
Inductive prim :=
| PNull
| PBool (b : bool)
| PInt (z : Z)
| PFloat (repr : str)
| PStr (s : str).

(** [JsonType] (conda_recipe_manager/types.py).  Dictionaries are insertion ordered; keys are primitives
    because PyYAML may return non-string keys. *)
Inductive json :=
| JP (p : prim)
| JList (l : list json)
| JDict (d : list (prim * json)).

Notation JNull := (JP PNull).
Notation JBool b := (JP (PBool b)).
Notation JInt z := (JP (PInt z)).
Notation JFloat s := (JP (PFloat s)).
Notation JStr s := (JP (PStr s)).

Definition int_repr_as_float (z : Z) : str := str_of_Z z ++ $".0".
Definition Z_of_bool (b : bool) : Z := if b then 1%Z else 0%Z.

(** Python [==] on primitives: booleans and integers are compared numerically.
    Simplification: a float equals an integer iff its repr is that integer followed by ".0"; NaN is not modelled. *)
Definition prim_eqb (a b : prim) : bool :=
  match a, b with
  | PNull, PNull => true
  | PBool x, PBool y => Bool.eqb x y
  | PBool x, PInt z => Z.eqb (Z_of_bool x) z
  | PInt z, PBool x => Z.eqb z (Z_of_bool x)
  | PInt x, PInt y => Z.eqb x y
  | PFloat x, PFloat y => str_eqb x y
  | PFloat x, PInt z => str_eqb x (int_repr_as_float z)
  | PInt z, PFloat x => str_eqb x (int_repr_as_float z)
  | PFloat x, PBool c => str_eqb x (int_repr_as_float (Z_of_bool c))
  | PBool c, PFloat x => str_eqb x (int_repr_as_float (Z_of_bool c))
  | PStr x, PStr y => str_eqb x y
  | _, _ => false
  end.

Fixpoint assoc_prim {V} (k : prim) (d : list (prim * V)) : option V :=
  match d with
  | [] => None
  | (k', v) :: d' => if prim_eqb k k' then Some v else assoc_prim k d'
  end.

(** Python [==] on values; dictionaries compare regardless of order. *)
Fixpoint json_eqb (a b : json) {struct a} : bool :=
  match a, b with
  | JP p, JP q => prim_eqb p q
  | JList l, JList m =>
      (fix go (l m : list json) {struct l} : bool :=
         match l, m with
         | [], [] => true
         | x :: l', y :: m' => json_eqb x y && go l' m'
         | _, _ => false
         end) l m
  | JDict d, JDict e =>
      (length d =? length e) &&
      (fix go (d : list (prim * json)) : bool :=
         match d with
         | [] => true
         | (k, v) :: d' =>
             (match assoc_prim k e with Some w => json_eqb v w | None => false end) && go d'
         end) d
  | _, _ => false
  end.

(** [type(a) == type(b)] on primitives. *)
Definition prim_same_type (a b : prim) : bool :=
  match a, b with
  | PNull, PNull | PBool _, PBool _ | PInt _, PInt _ | PFloat _, PFloat _ | PStr _, PStr _ => true
  | _, _ => false
  end.

(** [repr(s)] of a string.  Simplification: only backslash, quote, newline, tab and carriage return are escaped. *)
Definition repr_char (q : ascii) (c : ascii) : str :=
  if ceq c q || ceq c cBS then [cBS; c]
  else if code c =? 10 then $"\n"
  else if code c =? 9 then $"\t"
  else if code c =? 13 then $"\r"
  else [c].
Definition repr_str (s : str) : str :=
  let q := if existsb (ceq cSQ) s && negb (existsb (ceq cDQ) s) then cDQ else cSQ in
  q :: flat_map (repr_char q) s ++ [q].

Definition prim_repr (p : prim) : str :=
  match p with
  | PNull => $"None"
  | PBool true => $"True"
  | PBool false => $"False"
  | PInt z => str_of_Z z
  | PFloat r => r
  | PStr s => repr_str s
  end.
(** [repr(v)]. *)
Fixpoint json_repr (j : json) : str :=
  match j with
  | JP p => prim_repr p
  | JList l => $"[" ++ join $", " (map json_repr l) ++ $"]"
  | JDict d =>
      $"{" ++ join $", " (map (fun kv => prim_repr (fst kv) ++ $": " ++ json_repr (snd kv)) d) ++ $"}"
  end.
(** [str(v)] / f-string formatting. *)
Definition prim_str (p : prim) : str := match p with PStr s => s | _ => prim_repr p end.
Definition json_str (j : json) : str := match j with JP p => prim_str p | _ => json_repr j end.

(** Python truthiness. *)
Definition json_truthy (j : json) : bool :=
  match j with
  | JNull => false
  | JBool b => b
  | JInt z => negb (Z.eqb z 0)
  | JFloat r => negb (str_eqb r $"0.0" || str_eqb r $"-0.0")
  | JStr s => match s with [] => false | _ => true end
  | JList l => match l with [] => false | _ => true end
  | JDict d => match d with [] => false | _ => true end
  end.

(** [isinstance(v, PRIMITIVES_TUPLE)]  (types.py). *)
Definition is_prim (j : json) : bool := match j with JP _ => true | _ => false end.

(** Exceptions as values. *)
Inductive exn :=
| EKey | EValue | EIndex | EAttr | EType
| EYaml                 (* any exception raised by PyYAML *)
| EPatchSchema          (* JsonPatchValidationException *)
| EFetch                (* FetchError *)
| EFetchRequired        (* FetchRequiredError *)
| EUnicode              (* UnicodeDecodeError and other I/O failures *)
| EOther (name : str).

Inductive res (A : Type) :=
| Ok (a : A)
| Err (e : exn).
Arguments Ok {A} _.
Arguments Err {A} _.

Definition bind {A B} (r : res A) (f : A -> res B) : res B :=
  match r with Ok a => f a | Err e => Err e end.
Notation "'let!' x ':=' r 'in' k" := (bind r (fun x => k)) (at level 200, x pattern, right associativity).

(** Result of [yaml.load]: the code distinguishes [ScannerError] from every other exception. *)
Inductive yres :=
| YOk (j : json)
| YScan
| YFail.

(** External libraries used by the parser.  Nothing is assumed about them unless a theorem says so. *)
Record env := {
  yload : str -> yres;          (* yaml.load(s, Loader=SafeLoader) *)
  ydump : json -> str;          (* yaml.dump(v, Dumper=ForceIndentDumper, sort_keys=False, width=sys.maxsize) *)
  lit_eval : str -> option json;(* ast.literal_eval; None: raised *)
  to_float : str -> option str; (* float(s), as repr; None: ValueError *)
  num_add : prim -> prim -> str;(* str(a + b) when one of them is a float *)
  rec_limit : nat;              (* Python's recursion limit *)
  sent_str : str                (* str() of the sentinel object, e.g. "<...SentinelType object at 0x7f..>" *)
}.
