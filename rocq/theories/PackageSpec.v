(** Vocabulary of C152: the packages of a file.  Nothing here is used by the model. *)
From Verif Require Export AgreeSpec.

(** The packages of a file with their names and paths: the file itself, and its outputs in order.  The file has its name at
    package/name; a file of the new format with outputs has it at recipe/name. *)
Inductive packages_listed (E : env) (sv : schema) (xs : list item) (vars : vtbl) : bool -> list (prim * str) -> Prop :=
| one_package root : no_entry $"outputs" xs -> named E sv xs vars $"/package/name" root -> packages_listed E sv xs vars false [(root, $"/")]
| with_outputs c os l root names :
    entry_at [] 0 xs $"/outputs" (ISection (PStr $"outputs") c os) -> value_read E (ISection (PStr $"outputs") c os) (JList l) -> length l = length names ->
    named E sv xs vars (root_name_at sv) root ->
    (forall i name, nth_error names i = Some name -> named E sv xs vars (output_name_at sv i) name) ->
    ForallOrdPairs (fun a b => prim_eqb a b = false) (root :: names) ->
    packages_listed E sv xs vars true ((root, $"/") :: combine names (map output_scope (seq 0 (length names)))).
(** What the questions about packages give: whether there are outputs, the paths, the names with the paths, and the name of the recipe
    (as a text; none, if it is read as nothing). *)
Definition packages_answered (E : env) (r : recipe) (outputs : bool) (tbl : list (prim * str)) : Prop :=
  is_multi_output (r_root r) = outputs /\ get_package_paths E (r_root r) = Ok (map snd tbl) /\ get_package_names_to_path E r = Ok tbl
  /\ forall root, In (root, $"/") tbl -> get_recipe_name E r = Ok (match root with PNull => None | _ => Some (prim_str root) end).
