(** Vocabulary of C137: what bump-recipe does to a file in the canonical layout.  Nothing here is used by the model. *)
From Verif Require Export CommandsSpec HashSpec LayoutSpec.

(** The number of elements in front of a line; comment lines do not count. *)
Definition elements (A : list item) : nat := length (filter (fun x => match x with IComment (_ :: _) => false | _ => true end) A).
(** The entries of a document with another value at a path: on the line of the key, which has no comment (C105: a comment would
    be lost), inside a section, or inside an element of a list that is a mapping. *)
Inductive value_set : list str -> json -> json -> list item -> list item -> Prop :=
| set_here k v v' A B : isdigit k = false -> no_entry k A ->
    value_set [k] v v' (A ++ IScalar (PStr k) v [] :: B) (A ++ IScalar (PStr k) v' [] :: B)
| set_in_section k p v v' c cs cs' A B : isdigit k = false -> no_entry k A -> value_set p v v' cs cs' ->
    value_set (k :: p) v v' (A ++ ISection (PStr k) c cs :: B) (A ++ ISection (PStr k) c cs' :: B)
| set_beside_scalar i k p v v' key w c rest rest' A B : isdigit i = true -> int_of i = elements A -> isdigit k = false ->
    key <> PStr k -> value_set (k :: p) v v' rest rest' ->
    value_set (i :: k :: p) v v' (A ++ IMapScalar key w c rest :: B) (A ++ IMapScalar key w c rest' :: B)
| set_beside_section i k p v v' key c cs rest rest' A B : isdigit i = true -> int_of i = elements A -> isdigit k = false ->
    key <> PStr k -> value_set (k :: p) v v' rest rest' ->
    value_set (i :: k :: p) v v' (A ++ IMapSection key c cs rest :: B) (A ++ IMapSection key c cs rest' :: B).
(** A value that is written as one plain line. *)
Definition writes_plain (E : env) (v : json) : Prop := written_as E v [value_node v []].
(** A variable with another value, in its place. *)
Definition variable_set (k : str) (v : json) (vars vars' : list (str * json)) : Prop :=
  exists A w B, vars = A ++ (k, w) :: B /\ vars' = A ++ (k, v) :: B.

(** The recipe with these entries and variables. *)
Definition recipe_with (xs : list item) (vars : list (str * json)) : recipe :=
  {| r_init := []; r_root := document xs; r_schema := SV0; r_vars := vars; r_sel := []; r_mod := false |}.
(** The build number: the old number plus one if it is to be incremented, 0 otherwise. *)
Definition number_bumped (E : env) (increment : bool) (xs xs' : list item) : Prop :=
  (exists v, get_value E (document xs) $"/build" None None = Ok v)
  /\ exists n, let n' := if increment then (n + 1)%Z else 0%Z in
     writes_plain E (JInt n') /\ value_set [$"build"; $"number"] (JInt n) (JInt n') xs xs'.
(** The version: in the variable of that name if it has a value, in the package section otherwise. *)
Definition version_bumped (E : env) (target : str) (xs : list item) (vars : list (str * json)) (xs' : list item)
    (vars' : list (str * json)) : Prop :=
  (exists v, get_value E (document xs) $"/package/version" (Some JNull) (Some (SV0, vars)) = Ok v)
  /\ ((exists w, In ($"version", w) vars /\ w <> JNull /\ xs' = xs /\ variable_set $"version" (JStr target) vars vars')
      \/ ((forall w, In ($"version", w) vars -> w = JNull) /\ vars' = vars
          /\ writes_plain E (JStr target) /\ exists old, value_set [$"package"; $"version"] old (JStr target) xs xs')).
(** The checksums of these archives, written one after the other. *)
Inductive sums_written (E : env) (N : net) : list (str * (str * str)) -> list item -> list item -> Prop :=
| sums_none xs : sums_written E N [] xs xs
| sums_next cs name url t old l xs xs' xs'' : Forall component cs -> checksum N (path_text cs) name url t ->
    writes_plain E (JStr t) -> value_set (cs ++ [$"sha256"]) old (JStr t) xs xs' ->
    sums_written E N l xs' xs'' -> sums_written E N ((path_text cs, (name, url)) :: l) xs xs''.
Definition archives (tbl : list (str * source)) : list (str * (str * str)) :=
  flat_map (fun s => match snd s with SHttp name url => [(fst s, (name, url))] | SGit _ _ => [] end) tbl.
Definition sum_names : list str := [$"sha256"; $"hash"; $"hash_val"; $"hash_value"].
(** The only source is an archive, and its checksum is in the variable [k], the only one with a name of [sum_names]. *)
Definition sum_in_variable (E : env) (tbl : list (str * source)) (r : recipe) (k name url : str) : Prop :=
  In k sum_names /\ In k (map fst (r_vars r)) /\ (forall k', In k' sum_names -> In k' (map fst (r_vars r)) -> k' = k)
  /\ tbl = [($"/source", SHttp name url)] /\ In $"/source/sha256" (get_variable_references E k r).
(** The checksums: in that variable, or beside each archive, in the order in which the archives arrive. *)
Definition sums_bumped (E : env) (N : net) (xs : list item) (vars : list (str * json)) (xs' : list item)
    (vars' : list (str * json)) : Prop :=
  exists tbl, from_recipe E (recipe_with xs vars) true = Ok tbl
  /\ ((exists k name url t, sum_in_variable E tbl (recipe_with xs vars) k name url /\ checksum N $"/source" name url t
        /\ xs' = xs /\ variable_set k (JStr t) vars vars')
      \/ ((forall k name url, ~ sum_in_variable E tbl (recipe_with xs vars) k name url) /\ vars' = vars
          /\ sums_written E N (n_order N (archives tbl)) xs xs')).
(** All of it. *)
Definition file_bumped (E : env) (N : net) (o : bump_options) (xs : list item) (vars : list (str * json)) (xs' : list item)
    (vars' : list (str * json)) : Prop :=
  exists xs1, number_bumped E (b_build_num o) xs xs1 /\
  match b_target o with
  | None => xs' = xs1 /\ vars' = vars
  | Some target => exists xs2 vars2, version_bumped E target xs1 vars xs2 vars2 /\ sums_bumped E N xs2 vars2 xs' vars'
  end.
(** One line differs, in its value. *)
Definition value_line_differs (v v' : json) (L L' : list str) : Prop :=
  exists before i k after, L = before ++ line (spaces i) (k ++ $": " ++ scalar_text v) [] :: after
    /\ L' = before ++ line (spaces i) (k ++ $": " ++ scalar_text v') [] :: after.
