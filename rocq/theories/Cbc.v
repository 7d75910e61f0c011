(** Model of parser/cbc_parser.py. *)
From Verif Require Export Deps.

(** cbc_parser.py 16-22 [_CBCEntry] *)
Record cbc_entry := { ce_value : json; ce_selector : option selector }.
(** cbc_parser.py 25-26 [_CbcTable] *)
Definition cbc_table := list (prim * list cbc_entry).
Record cbc := { cbc_recipe : recipe; cbc_vars : cbc_table }.
(** cbc_parser.py 84-88: a new entry of a variable *)
Fixpoint append_entry (k : prim) (e : cbc_entry) (t : cbc_table) : cbc_table :=
  match t with
  | [] => [(k, [e])]
  | (k', l) :: t' => if prim_eqb k k' then (k', l ++ [e]) :: t' else (k', l) :: append_entry k e t'
  end.
(** cbc_parser.py 72-88: the entries of one variable *)
Fixpoint read_entries (r : recipe) (variable : prim) (i : nat) (values : list json) (t : cbc_table) : res cbc_table :=
  match values with
  | [] => Ok t
  | v :: values' =>
      let path := $"/" ++ prim_str variable ++ $"/" ++ str_of_nat i in
      let! sel := (match get_selector_at_path path None r with
                   | Ok s => Ok (Some (selector_parser s SV0))
                   | Err EKey => Ok None
                   | Err e => Err e
                   end) in
      read_entries r variable (S i) values' (append_entry variable {| ce_value := v; ce_selector := sel |} t)
  end.
(** cbc_parser.py 63-88: all variables.  Values that are not lists and the variable "zip_keys" are skipped. *)
Fixpoint read_variables (r : recipe) (d : list (prim * json)) (t : cbc_table) : res cbc_table :=
  match d with
  | [] => Ok t
  | (variable, JList values) :: d' =>
      if prim_eqb variable (PStr $"zip_keys") then read_variables r d' t
      else let! t' := read_entries r variable 0 values t in read_variables r d' t'
  | _ :: d' => read_variables r d' t
  end.
(** cbc_parser.py 44-88 [__init__]; [parsed_contents.items()] fails for a value that is not a mapping *)
Definition cbc_of_recipe (E : env) (r : recipe) : res cbc :=
  let! v := get_value E (r_root r) $"/" None None in
  match v with
  | JDict d => let! t := read_variables r d [] in Ok {| cbc_recipe := r; cbc_vars := t |}
  | _ => Err EAttr
  end.
Definition cbc_parser (E : env) (content : str) : res cbc :=
  let! r := new_recipe E content in cbc_of_recipe E r.
(** cbc_parser.py 90-99 [__contains__] *)
Definition cbc_contains (c : cbc) (variable : str) : bool :=
  match assoc_prim (PStr variable) (cbc_vars c) with Some _ => true | None => false end.
(** cbc_parser.py 101-107 [list_cbc_variables] *)
Definition list_cbc_variables (c : cbc) : list prim := map fst (cbc_vars c).
(** cbc_parser.py 109-140 [get_cbc_variable_value] *)
Definition applies (q : selector_query) (e : cbc_entry) : bool :=
  match ce_selector e with None => true | Some s => does_selector_apply s q end.
Fixpoint first_entry (q : selector_query) (l : list cbc_entry) : option json :=
  match l with
  | [] => None
  | e :: l' => if applies q e then Some (ce_value e) else first_entry q l'
  end.
Definition get_cbc_variable_value (c : cbc) (variable : str) (q : selector_query) (default : option json) : res json :=
  match assoc_prim (PStr variable) (cbc_vars c) with
  | None => match default with None => Err EKey | Some d => Ok d end
  | Some entries =>
      match entries with
      | [{| ce_value := v; ce_selector := None |}] => Ok v
      | _ =>
          match first_entry q entries with
          | Some v => Ok v
          | None => match default with None => Err EValue | Some d => Ok d end
          end
      end
  end.
