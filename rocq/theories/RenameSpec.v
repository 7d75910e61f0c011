(** Vocabulary of C134: recipes whose sections use names that the new format renamed or dropped.  Nothing here is used by
    the model. *)
From Verif Require Export GoesSpec VarsSpec.

(** The names of a section that have a new name (with the new one), and those that were dropped. *)
Definition names_of_section : Type := str * (list (str * str) * list str).
Definition source_names : names_of_section :=
  ($"source", ([($"fn", $"file_name"); ($"folder", $"target_directory"); ($"git_url", $"git"); ($"git_tag", $"tag"); ($"git_rev", $"rev"); ($"git_depth", $"depth")], [])).
Definition build_names : names_of_section :=
  ($"build", ([($"merge_build_host", $"merge_build_and_host_envs"); ($"no_link", $"always_copy_files")],
   [$"pre-link"; $"noarch_python"; $"features"; $"msvc_compiler"; $"requires_features"; $"provides_features"; $"preferred_env";
    $"preferred_env_executable_paths"; $"disable_pip"; $"pin_depends"; $"overlinking_ignore_patterns"; $"rpaths_patcher"; $"post-link"; $"pre-unlink"])).
Definition requirements_names : names_of_section := ($"requirements", ([($"run_constrained", $"run_constraints")], [])).
Definition about_names : names_of_section :=
  ($"about", ([($"home", $"homepage"); ($"dev_url", $"repository"); ($"doc_url", $"documentation")],
   [$"prelink_message"; $"license_family"; $"identifiers"; $"tags"; $"keywords"; $"doc_source_url"])).
Definition known_names : list names_of_section := [source_names; build_names; requirements_names; about_names].
Definition old_names_of (t : names_of_section) : list str := map fst (fst (snd t)) ++ snd (snd t).

(** What is not covered: sections and fields that the conversion would change in another way. *)
Definition not_covered : list (str * str) :=
  map (fun c => ($"build", lit c))
    ["skipt"; "skips"; "Skip"; "run_exports"; "ignore_run_exports"; "entry_points"; "ignore_prefix_files"; "detect_binary_files_with_prefix";
     "rpaths"; "binary_relocation"; "missing_dso_whitelist"; "runpath_whitelist"; "script_env"]%string
  ++ [($"source", $"svn_url"); ($"source", $"hg_url")].
Definition only_renamed (root : node) : Prop :=
  (forall s, In s old_sections -> ~ top_line s root) /\ forall s c, In (s, c) not_covered -> ~ section_line s c root.
(** There is one source or none; the license is a text that is not corrected, or there is none; the summary is no list. *)
Definition values_fine (E : env) (closest : str -> option str) (root : node) : Prop :=
  (top_line $"source" root -> exists v, get_value E root $"/source" None None = Ok v /\ forall l, v <> JList l)
  /\ (top_line $"about" root ->
      (exists v, get_value E root $"/about/license" (Some JNull) None = Ok v
        /\ (v = JNull \/ exists s, v = JStr s /\ (closest s = None \/ closest s = Some s)))
      /\ exists v, get_value E root $"/about/summary" (Some (JStr [])) None = Ok v /\ forall l, v <> JList l).

(** Each section is a key that is used once; so is each of its old names, and none of the new names is in use. *)
Definition section_in_order (t : names_of_section) (root : node) : Prop :=
  forall l1 a l2, n_children root = l1 ++ a :: l2 -> called (fst t) a ->
  n_lmf a = false /\ n_keyf a = true /\ (forall x, In x (l1 ++ l2) -> ~ called (fst t) x)
  /\ (forall c m1 x m2, In c (old_names_of t) -> n_children a = m1 ++ x :: m2 -> called c x ->
      bare_value x = false /\ forall y, In y (m1 ++ m2) -> ~ called c y)
  /\ forall c d x, In (c, d) (fst (snd t)) -> In x (n_children a) -> ~ called d x.

(** The lines with other names. *)
Inductive other_lines (olds : list str) : list node -> list node -> Prop :=
| other_none : other_lines olds [] []
| other_this x l l' : (forall c, In c olds -> ~ called c x) -> other_lines olds l l' -> other_lines olds (x :: l) (x :: l')
| other_not c x l l' : In c olds -> called c x -> other_lines olds l l' -> other_lines olds (x :: l) l'.
(** The line of a new name, written with the value of the old one; none if there is no old one. *)
Inductive renamed_line (E : env) (root : node) (sec : str) : str * str -> list node -> Prop :=
| no_old_line c d : ~ section_line sec c root -> renamed_line E root sec (c, d) []
| written_anew c d v x : section_line sec c root -> get_value E root (path_text [sec; c]) None None = Ok v ->
    written_as E (JDict [(PStr d, v)]) [x] -> called d x -> proper_tree x = true -> renamed_line E root sec (c, d) [x].
(** A line directly below the root before and after: in the known sections, the lines with new names follow the others. *)
Inductive section_renewed (E : env) (known : list names_of_section) (root : node) : node -> node -> Prop :=
| other_section a : (forall t, In t known -> ~ called (fst t) a) -> section_renewed E known root a a
| known_section t a others news : In t known -> called (fst t) a -> other_lines (old_names_of t) (n_children a) others ->
    Forall2 (renamed_line E root (fst t)) (fst (snd t)) news ->
    section_renewed E known root a (with_lines a (others ++ concat news)).
Definition names_renewed (E : env) (root root' : node) : Prop :=
  exists lines, Forall2 (section_renewed E known_names root) (n_children root) lines /\ root' = with_lines root lines.
(** What is said about the names that were dropped. *)
Inductive told_dropped (root : node) (sec : str) : list str -> list str -> Prop :=
| nothing_told : told_dropped root sec [] []
| dropped_told c cs ms : section_line sec c root -> told_dropped root sec cs ms ->
    told_dropped root sec (c :: cs) (unsupported_field [sec; c] :: ms)
| not_dropped c cs ms : ~ section_line sec c root -> told_dropped root sec cs ms -> told_dropped root sec (c :: cs) ms.
(** What is said about the license: that there is none, or that it is unknown. *)
Inductive license_told (E : env) (closest : str -> option str) (root : node) : list str -> Prop :=
| no_about : ~ top_line $"about" root -> license_told E closest root []
| no_license : top_line $"about" root -> get_value E root $"/about/license" (Some JNull) None = Ok JNull ->
    license_told E closest root [$"No `license` provided in `/about`"]
| unknown_license s : top_line $"about" root -> get_value E root $"/about/license" (Some JNull) None = Ok (JStr s) -> closest s = None ->
    license_told E closest root [$"Could not patch unrecognized license: `" ++ s ++ $"`"]
| known_license s : top_line $"about" root -> get_value E root $"/about/license" (Some JNull) None = Ok (JStr s) -> closest s = Some s ->
    license_told E closest root [].
