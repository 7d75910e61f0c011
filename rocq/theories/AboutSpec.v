(** Vocabulary of C133: recipes whose section [about] uses names that the new format renamed or dropped.  Nothing here is
    used by the model. *)
From Verif Require Export GoesSpec VarsSpec.

(** Nothing that was renamed or dropped is used, except in the section [about]. *)
Definition old_only_in_about (root : node) : Prop :=
  nothing_among (old_build_fields ++ [($"requirements", $"run_constrained")]) root.
Definition old_about_name (c : str) : Prop := In ($"about", c) old_about_fields.
Definition about_new_names : list (str * str) := [($"home", $"homepage"); ($"dev_url", $"repository"); ($"doc_url", $"documentation")].
Definition about_no_longer : list str :=
  [$"prelink_message"; $"license_family"; $"identifiers"; $"tags"; $"keywords"; $"doc_source_url"].

(** Each old name of the section stands for one key, and none of the new names is in use. *)
Definition about_in_order (root : node) : Prop :=
  forall a, In a (n_children root) -> called $"about" a ->
  n_lmf a = false
  /\ (forall c l1 x l2, old_about_name c -> n_children a = l1 ++ x :: l2 -> called c x ->
      bare_value x = false /\ forall y, In y (l1 ++ l2) -> ~ called c y)
  /\ forall c d x, In (c, d) about_new_names -> In x (n_children a) -> ~ called d x.

(** The lines that stay. *)
Inductive kept_lines : list node -> list node -> Prop :=
| kept_none : kept_lines [] []
| kept_this x l l' : (forall c, old_about_name c -> ~ called c x) -> kept_lines l l' -> kept_lines (x :: l) (x :: l')
| kept_not c x l l' : old_about_name c -> called c x -> kept_lines l l' -> kept_lines (x :: l) l'.
(** The line of a new name, written with the value of the old one; none if there is no old one. *)
Inductive new_line (E : env) (root : node) : str * str -> list node -> Prop :=
| no_line c d : ~ section_line $"about" c root -> new_line E root (c, d) []
| this_line c d v x : section_line $"about" c root -> get_value E root (path_text [$"about"; c]) None None = Ok v -> written_as E (JDict [(PStr d, v)]) [x] ->
    called d x -> proper_tree x = true -> new_line E root (c, d) [x].
(** The tree with the new names: in the section [about] the lines with new names follow those that stay. *)
Definition about_renewed (E : env) (root root' : node) : Prop :=
  exists before a after kept news,
  n_children root = before ++ a :: after /\ called $"about" a /\ (forall x, In x (before ++ after) -> ~ called $"about" x)
  /\ kept_lines (n_children a) kept /\ Forall2 (new_line E root) about_new_names news
  /\ root' = with_lines root (before ++ with_lines a (kept ++ concat news) :: after).
(** What is said about the names that were dropped. *)
Inductive told_of_dropped (root : node) : list str -> list str -> Prop :=
| told_none : told_of_dropped root [] []
| told_this c cs ms : section_line $"about" c root -> told_of_dropped root cs ms -> told_of_dropped root (c :: cs) (unsupported_field [$"about"; c] :: ms)
| told_not c cs ms : ~ section_line $"about" c root -> told_of_dropped root cs ms -> told_of_dropped root (c :: cs) ms.
