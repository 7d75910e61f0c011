(** Vocabulary of C117: recipes that use nothing the new format renamed or dropped. *)
From Verif Require Export ContextSpec.
Require Export Permutation.

Definition called (s : str) (n : node) : Prop := n_value n = VJ (JStr s).
(** A line directly below the root, one below such a line, and one of a source (which may be one of a list). *)
Definition top_line (s : str) (root : node) : Prop := exists a, In a (n_children root) /\ called s a.
Definition section_line (s c : str) (root : node) : Prop :=
  exists a b, In a (n_children root) /\ called s a /\ In b (n_children a) /\ called c b.
Definition source_line (c : str) (root : node) : Prop :=
  section_line $"source" c root
  \/ exists a e b, In a (n_children root) /\ called $"source" a /\ In e (n_children a) /\ n_lmf e = true /\ In b (n_children e) /\ called c b.

Definition old_sections : list str := [$"extras"; $"test"; $"outputs"].
Definition old_source_fields : list str := [$"svn_url"; $"hg_url"; $"fn"; $"folder"; $"git_url"; $"git_tag"; $"git_rev"; $"git_depth"].
Definition old_build_fields : list (str * str) :=
  map (fun c => ($"build", lit c))
    ["skipt"; "skips"; "Skip"; "run_exports"; "ignore_run_exports"; "merge_build_host"; "no_link"; "entry_points"; "ignore_prefix_files";
     "detect_binary_files_with_prefix"; "rpaths"; "binary_relocation"; "missing_dso_whitelist"; "runpath_whitelist"; "script_env";
     "pre-link"; "noarch_python"; "features"; "msvc_compiler"; "requires_features"; "provides_features"; "preferred_env";
     "preferred_env_executable_paths"; "disable_pip"; "pin_depends"; "overlinking_ignore_patterns"; "rpaths_patcher"; "post-link";
     "pre-unlink"]%string.
Definition old_about_fields : list (str * str) :=
  map (fun c => ($"about", lit c))
    ["home"; "dev_url"; "doc_url"; "prelink_message"; "license_family"; "identifiers"; "tags"; "keywords"; "doc_source_url"]%string.
Definition old_fields : list (str * str) := old_build_fields ++ [($"requirements", $"run_constrained")] ++ old_about_fields.
Definition nothing_among (fields : list (str * str)) (root : node) : Prop :=
  (forall s, In s old_sections -> ~ top_line s root)
  /\ (forall s c, In (s, c) fields -> ~ section_line s c root)
  /\ (forall c, In c old_source_fields -> ~ source_line c root).
Definition nothing_old (root : node) : Prop := nothing_among old_fields root.
(** The license is one that is known, and the summary is a text. *)
Definition about_fine (E : env) (closest : str -> option str) (root : node) : Prop :=
  top_line $"about" root ->
  (exists s, get_value E root $"/about/license" (Some JNull) None = Ok (JStr s) /\ closest s = Some s)
  /\ forall l, get_value E root $"/about/summary" (Some (JStr [])) None <> Ok (JList l).

(** The same lines, in another order below some of the lines. *)
Definition order_changed (n n' : node) : Prop := Permutation (n_children n) (n_children n') /\ n' = with_lines n (n_children n').
Inductive rearranged (a : node) : node -> Prop :=
| not_changed : rearranged a a
| changed_again b c q : rearranged a b -> changed_at order_changed q b c -> rearranged a c.
(** The line of the new format, which is written as one expects; and the tree with this line at its end. *)
Definition version_line : node :=
  Nd (VJ (JStr $"schema_version")) [] [Nd (VJ (JInt 1)) [] [] false MNone false] false MNone true.
Definition writes_version (E : env) : Prop := written_as E (JDict [(PStr $"schema_version", JInt 1)]) [version_line].
Definition with_version (root : node) : node := with_lines root (n_children root ++ [version_line]).
Definition no_expressions (root : node) : Prop :=
  forall p n, node_at root p = Some n -> terminal n = true -> ~ has_expression (searched_text false n).
