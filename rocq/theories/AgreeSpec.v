(** Vocabulary of C151: the table of dependencies against the list of paths.  Nothing here is used by the model. *)
From Verif Require Export DepPathSpec.

(** The sections below requirements that are read as dependencies have one of the four names of the format: build, host, run and
    the name of the constraints. *)
Definition usual_sections (sv : schema) (xs : list item) : Prop :=
  forall p c cs x sec section, entry_at [] 0 xs p (ISection (PStr $"requirements") c cs) -> In x cs -> entry_key x = Some (PStr sec) ->
    spells sec section -> In sec (requirement_sections sv).
(** The table of a file with or without outputs. *)
Definition dependencies_in_file (E : env) (MS : match_spec) (sv : schema) (xs : list item) (vars : vtbl) (m : dep_map) : Prop :=
  (exists package ds, file_dependencies E MS sv xs vars package ds /\ m = [(package, ds)]) \/ packages_of_file E MS sv xs vars m.
Definition reported_paths_in (m : dep_map) (l : list str) : Prop := forall package ds d, In (package, ds) m -> In d ds -> In (d_path d) l.
(** A line that is read as nothing or as a blank text, with variables filled in. *)
Definition passed_over (E : env) (sv : schema) (xs : list item) (vars : vtbl) (p : str) : Prop :=
  exists scope c cs reqs sec ts j x, entry_at [] 0 xs (scope ++ $"/requirements") (ISection (PStr $"requirements") c cs)
    /\ value_filled E sv vars (ISection (PStr $"requirements") c cs) (JDict reqs) /\ In (PStr sec, JList ts) reqs
    /\ nth_error ts j = Some x /\ empty_entry x /\ p = scope ++ $"/requirements/" ++ sec ++ $"/" ++ str_of_nat j.
Definition paths_reported (E : env) (sv : schema) (xs : list item) (vars : vtbl) (m : dep_map) (l : list str) : Prop :=
  forall p, In p l -> (exists package ds d, In (package, ds) m /\ In d ds /\ d_path d = p) \/ passed_over E sv xs vars p.
