(** Vocabulary of C53, C61 and C77 for repeated names.  Independent of the model's helper functions. *)
From Verif Require Export GraphSpec ReportSpec.

(** What is kept of a list of named values: each name where it first appears, with its last value. *)
Definition kept {A} (l k : list (str * A)) : Prop :=
  map fst k = firsts (map fst l)
  /\ forall name a, In (name, a) k -> exists before after, l = before ++ (name, a) :: after /\ ~ In name (map fst after).
(** What is read from the files: digest and dependencies of each recipe, and the paths that failed. *)
Inductive files_read (E : env) (MS : match_spec) (hash : str -> str) : list recipe_file -> list (str * recipe_deps) -> list str -> Prop :=
| fr_none : files_read E MS hash [] [] []
| fr_parsed f r fs good bad : parses E f r -> files_read E MS hash fs good bad ->
    files_read E MS hash (f :: fs) ((calc_sha256 hash E r, deps_of_recipe E MS r) :: good) bad
| fr_failed f fs good bad : fails E f -> files_read E MS hash fs good bad -> files_read E MS hash (f :: fs) good (rf_path f :: bad).
