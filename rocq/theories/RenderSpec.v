(** Specification vocabulary for sorting and the object form of recipes (C44-C46).
    Nothing here is used by the model. *)
From Coq Require Export Permutation.
From Verif Require Export LayoutSpec.

(** * Sorting *)
(** How a line is ordered: comment lines first, then the known keys by their number, then all the others. *)
Inductive place := Front | Known (k : Z) | Back.
Definition place_of (tbl : list (str * Z)) (n : node) : place :=
  if is_comment n then Front
  else match n_value n with
       | VJ (JStr s) => match find (fun kv => if list_eq_dec ascii_dec (fst kv) s then true else false) tbl with
                        | Some (_, k) => Known k
                        | None => Back
                        end
       | _ => Back
       end.
Definition not_after (a b : place) : Prop :=
  match a, b with
  | Front, _ => True
  | Known x, Known y => (x <= y)%Z
  | Known _, Back => True
  | Back, Back => True
  | _, _ => False
  end.
Definition place_eqb (a b : place) : bool :=
  match a, b with Front, Front => true | Back, Back => true | Known x, Known y => (x =? y)%Z | _, _ => false end.
(** The numbers of a table are machine integers. *)
Definition machine_table (tbl : list (str * Z)) : Prop :=
  Forall (fun kv => (- 9223372036854775807 < snd kv < 9223372036854775807)%Z) tbl.
(** [l'] is [l], sorted; lines that are in the same place stay in the same order. *)
Definition sorted_lines (tbl : list (str * Z)) (l l' : list node) : Prop :=
  Permutation l l'
  /\ (forall a x b y c, l' = a ++ x :: b ++ y :: c -> not_after (place_of tbl x) (place_of tbl y))
  /\ (forall p, filter (fun n => place_eqb (place_of tbl n) p) l' = filter (fun n => place_eqb (place_of tbl n) p) l).

(** * The object a document denotes *)
Inductive leaf := LScalar (v : json) | LBlock (m : mlv) (ls : list str) | LName (k : prim).
Definition is_element (x : item) : bool := match x with IElem _ _ | IMapScalar _ _ _ _ | IMapSection _ _ _ _ => true | _ => false end.
Fixpoint entry (f : leaf -> json) (x : item) : list (prim * json) :=
  match x with
  | IEmpty k _ => [(k, JNull)]
  | IScalar k v _ => [(k, f (LScalar v))]
  | IBlock k m ls _ => [(k, f (LBlock m ls))]
  | ISection k _ cs => [(k, if existsb is_element cs then JList (flat_map (element f) cs) else JDict (flat_map (entry f) cs))]
  | _ => []
  end
with element (f : leaf -> json) (x : item) : list json :=
  match x with
  | IElem v _ => [f (LScalar v)]
  | IMapScalar k v _ rest => [JDict ((k, f (LScalar v)) :: flat_map (entry f) rest)]
  | IMapSection k _ cs rest =>
      [JDict ((k, if existsb is_element cs then JList (flat_map (element f) cs) else JDict (flat_map (entry f) cs))
              :: flat_map (entry f) rest)]
  | _ => []
  end.
Definition object (f : leaf -> json) (xs : list item) : json := JDict (flat_map (entry f) xs).
Fixpoint leaves (x : item) : list leaf :=
  match x with
  | IComment _ => []
  | IEmpty k _ => [LName k]
  | IScalar k v _ => [LName k; LScalar v]
  | IElem v _ => [LScalar v]
  | IBlock k m ls _ => [LName k; LBlock m ls]
  | ISection k _ cs => LName k :: flat_map leaves cs
  | IMapScalar k v _ rest => LName k :: LScalar v :: flat_map leaves rest
  | IMapSection k _ cs rest => LName k :: flat_map leaves cs ++ flat_map leaves rest
  end.
(** [f] says how the values are shown: strings and blocks are read as YAML after replacing the variables, if asked for;
    strings are left alone otherwise.  (If variables are to be replaced, the names of keys must be readable as well.) *)
Definition shows (E : env) (p : jparser) (f : leaf -> json) (l : leaf) : Prop :=
  let read t := match p with Some (sv, vars) => render_jinja_vars E sv vars t | None => yload E t end in
  match l with
  | LScalar (JStr s) => match p with None => f l = JStr s | Some _ => read s = YOk (f l) end
  | LScalar v => f l = v
  | LName (PStr s) => match p with None => True | Some _ => exists j, read s = YOk j end
  | LName _ => True
  | LBlock m ls => read (mlv_str m ++ NLs ++ $"  " ++ join (NLs ++ $"  ") ls) = YOk (f l)
  end.
(** Documents for which the object form is right. *)
Definition line_key (x : item) : list (prim * json) := match entry_key x with Some k => [(k, JNull)] | None => [] end.
Definition a_comment (x : item) : bool := match x with IComment _ => true | _ => false end.
Definition an_empty_key (x : item) : bool := match x with IEmpty _ _ => true | _ => false end.
Definition a_scalar_element (x : item) : bool := match x with IElem _ _ => true | _ => false end.
Definition is_entry (x : item) : bool := match entry_key x with Some _ => true | None => false end.
(** Distinct keys on the given lines. *)
Definition keys_differ (xs : list item) : bool := distinct_keys (flat_map line_key xs).
Definition section_ok (top : bool) (cs : list item) : bool :=
  match filter (fun x => negb (a_comment x)) cs with
  | [] => false
  | first :: others =>
      if is_element first
      then forallb is_element others && xorb top (a_scalar_element first)
      else is_entry first && forallb is_entry others && keys_differ cs && (top || negb (an_empty_key first))
  end.
Definition mapping_ok (k : prim) (rest : list item) : bool :=
  forallb (fun x => a_comment x || (is_entry x && negb (an_empty_key x))) rest
  && distinct_keys ((k, JNull) :: flat_map line_key rest).
Fixpoint regular (x : item) : bool :=
  match x with
  | IComment c => negb (is_nil c)
  | IBlock _ m _ _ => is_multi m
  | ISection _ _ cs => section_ok false cs && forallb regular cs
  | IMapScalar k _ _ rest => mapping_ok k rest && forallb regular rest
  | IMapSection k _ cs rest => section_ok false cs && forallb regular cs && mapping_ok k rest && forallb regular rest
  | _ => true
  end.
Definition regular_top (x : item) : bool :=
  match x with
  | IComment _ | IScalar _ _ _ | IBlock _ _ _ _ => regular x
  | ISection _ _ cs => section_ok true cs && forallb regular cs
  | _ => false
  end.
Definition regular_document (xs : list item) : bool := forallb regular_top xs && keys_differ xs.
