(** Vocabulary of C137 for files in which the build number, the version or a checksum may be missing, and in which a value may be
    the first of its mapping.  Nothing here is used by the model. *)
From Verif Require Export EditSpec.

(** The value at a path: in place of the old one, or on a new line at the end of its section. *)
Definition written_at (E : env) (p : list str) (v : json) (xs xs' : list item) : Prop :=
  inside (entry_rewritten E v (last p [])) p xs xs' \/ (xs <> [] /\ inside (key_added E v (last p [])) p xs xs').
(** The build number: the old number plus one if there is one and it is to be incremented, 0 otherwise. *)
Definition number_put (E : env) (increment : bool) (xs xs' : list item) : Prop :=
  (exists v, get_value E (document xs) $"/build" None None = Ok v) /\
  if increment
  then (exists n, get_value E (document xs) $"/build/number" None None = Ok (JInt n)
          /\ inside (entry_rewritten E (JInt (n + 1)) $"number") [$"build"; $"number"] xs xs')
       \/ (xs <> [] /\ inside (key_added E (JInt 0) $"number") [$"build"; $"number"] xs xs')
  else written_at E [$"build"; $"number"] (JInt 0) xs xs'.
(** The recipe with these entries and variables, in the old or in the new format. *)
Definition recipe_in (sv : schema) (xs : list item) (vars : list (str * json)) : recipe :=
  {| r_init := []; r_root := document xs; r_schema := sv; r_vars := vars; r_sel := []; r_mod := false |}.
(** The version: in the variable of that name if it has a value, in the package section otherwise. *)
Definition version_put (E : env) (sv : schema) (target : str) (xs : list item) (vars : list (str * json)) (xs' : list item)
    (vars' : list (str * json)) : Prop :=
  (exists v, get_value E (document xs) $"/package/version" (Some JNull) (Some (sv, vars)) = Ok v)
  /\ ((exists w, In ($"version", w) vars /\ w <> JNull /\ xs' = xs /\ variable_set $"version" (JStr target) vars vars')
      \/ ((forall w, In ($"version", w) vars -> w = JNull) /\ vars' = vars
          /\ written_at E [$"package"; $"version"] (JStr target) xs xs')).
(** The checksums of these archives, written one after the other. *)
Inductive sums_put (E : env) (N : net) : list (str * (str * str)) -> list item -> list item -> Prop :=
| put_none xs : sums_put E N [] xs xs
| put_next cs name url t l xs xs' xs'' : Forall component cs -> checksum N (path_text cs) name url t ->
    written_at E (cs ++ [$"sha256"]) (JStr t) xs xs' -> sums_put E N l xs' xs'' -> sums_put E N ((path_text cs, (name, url)) :: l) xs xs''.
Definition all_sums_put (E : env) (N : net) (sv : schema) (xs : list item) (vars : list (str * json)) (xs' : list item)
    (vars' : list (str * json)) : Prop :=
  exists tbl, from_recipe E (recipe_in sv xs vars) true = Ok tbl
  /\ ((exists k name url t, sum_in_variable E tbl (recipe_in sv xs vars) k name url /\ checksum N $"/source" name url t
        /\ xs' = xs /\ variable_set k (JStr t) vars vars')
      \/ ((forall k name url, ~ sum_in_variable E tbl (recipe_in sv xs vars) k name url) /\ vars' = vars
          /\ sums_put E N (n_order N (archives tbl)) xs xs')).
Definition file_put (E : env) (N : net) (sv : schema) (o : bump_options) (xs : list item) (vars : list (str * json)) (xs' : list item)
    (vars' : list (str * json)) : Prop :=
  exists xs1, number_put E (b_build_num o) xs xs1 /\
  match b_target o with
  | None => xs' = xs1 /\ vars' = vars
  | Some target => exists xs2 vars2, version_put E sv target xs1 vars xs2 vars2 /\ all_sums_put E N sv xs2 vars2 xs' vars'
  end.
