(** Vocabulary of C153: the sources of a file.  Nothing here is used by the model. *)
From Verif Require Import ServiceSpec.
From Verif Require Export PackageSpec.

(** The elements of a list that are mappings, and comments. *)
Definition only_mappings (cs : list item) : Prop := Forall (fun x => match x with IMapScalar _ _ _ _ | IMapSection _ _ _ _ | IComment _ => True | _ => False end) cs.
(** The name of the file itself. *)
Definition recipe_called (E : env) (sv : schema) (xs : list item) (vars : vtbl) (root : prim) : Prop :=
  (no_entry $"outputs" xs /\ named E sv xs vars $"/package/name" root)
  \/ exists x, entry_at [] 0 xs $"/outputs" x /\ named E sv xs vars (root_name_at sv) root.
Definition title_of (root : prim) : str := match root with PNull => $"Unknown Recipe" | _ => prim_str root end.
(** The sources in the section source of a file whose recipe is called [root]: what is read there, with variables filled in, is a list
    with one mapping per element, or one mapping.  [ds] are the mappings and [m] the sources with their paths. *)
Inductive sources_listed (E : env) (sv : schema) (xs : list item) (vars : vtbl) (root : prim) : list (list (prim * json)) -> list (str * source) -> Prop :=
| no_sources : no_entry $"source" xs -> sources_listed E sv xs vars root [] []
| one_source c cs d m : entry_at [] 0 xs $"/source" (ISection (PStr $"source") c cs) -> value_filled E sv vars (ISection (PStr $"source") c cs) (JDict d) ->
    collected sv (fun _ => title_of root) (fun _ => $"/source") 0 [d] m -> sources_listed E sv xs vars root [d] m
| source_list c cs ds m : entry_at [] 0 xs $"/source" (ISection (PStr $"source") c cs) -> only_mappings cs ->
    value_filled E sv vars (ISection (PStr $"source") c cs) (JList (map JDict ds)) -> length ds = line_count cs ->
    collected sv (ServiceSpec.numbered (title_of root) (negb (length ds =? 1))) (fun i => $"/source/" ++ str_of_nat i) 0 ds m ->
    sources_listed E sv xs vars root ds m.
(** What the fetcher makes of them, with and without ignoring sources of other kinds.  Every path is the path of an entry. *)
Definition sources_found (E : env) (xs : list item) (r : recipe) (ds : list (list (prim * json))) (m : list (str * source)) : Prop :=
  from_recipe E r true = Ok m
  /\ (Forall (fun d => ~ unsupported (r_schema r) d) ds -> from_recipe E r false = Ok m)
  /\ (Exists (unsupported (r_schema r)) ds -> from_recipe E r false = Err (EOther $"FetchUnsupportedError"))
  /\ forall p s, In (p, s) m -> exists x, entry_at [] 0 xs p x.
