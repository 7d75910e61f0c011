(** Specification vocabulary for dependencies (C47-C50).  Nothing here is used by the model. *)
From Verif Require Export Deps JinjaSpec SelSpec.

(** * Section names *)
Definition section_names : list (str * dep_section) :=
  [($"build", BUILD); ($"host", HOST); ($"run", RUN); ($"run_constrained", RUN_CONSTRAINTS);
   ($"run_constraints", RUN_CONSTRAINTS); ($"run_exports", RUN_EXPORTS); ($"requires", TESTS)].
(** A text without blanks at either end, and the text that is left when the blanks at both ends are taken away. *)
Definition tight (s : str) : Prop :=
  (forall c t, s = c :: t -> is_space c = false) /\ (forall c t, s = t ++ [c] -> is_space c = false).
Definition trims (t s : str) : Prop := exists a b, t = a ++ s ++ b /\ blank a /\ blank b /\ tight s.
(** A section name, in any case and with blanks around it. *)
Definition spells (s : str) (d : dep_section) : Prop :=
  exists m w, trims s m /\ lower m = w /\ In (w, d) section_names.

(** * Dependency paths *)
Definition digits (d : str) : Prop := d <> [] /\ Forall (fun c => In c (lit "0123456789")) d.
(** The components of a path that leads to an entry of a requirements section: those of the section, and the index. *)
Inductive requirements_path : str -> list str -> str -> Prop :=
| rp_top sec x d : spells sec x -> digits d ->
    requirements_path (path_text [$"requirements"; sec; d]) [$"requirements"; sec] d
| rp_output o sec x d : digits o -> spells sec x -> digits d ->
    requirements_path (path_text [$"outputs"; o; $"requirements"; sec; d]) [$"outputs"; o; $"requirements"; sec] d.

(** * Package names *)
(** The package a dependency text names: the text itself if it has a Jinja expression or is not understood by conda. *)
Definition has_expression (s : str) : Prop := exists x, expression x /\ has_text x s.
Inductive package_name (MS : match_spec) (s : str) : str -> Prop :=
| pn_expression : has_expression s -> package_name MS s s
| pn_spec n : ~ has_expression s -> MS s = Some n -> package_name MS s n
| pn_other : ~ has_expression s -> MS s = None -> package_name MS s s.
(** An entry of a dependency list: empty, blank, or a text naming a package. *)
Definition empty_entry (x : json) : Prop := x = JNull \/ exists t, x = JStr t /\ blank t.
Definition entry_text (x : json) (s : str) : Prop := exists t, x = JStr t /\ trims t s /\ s <> [].
Definition names_package (MS : match_spec) (n : str) (x : json) : Prop :=
  exists s, entry_text x s /\ package_name MS s n.
Definition names_other (MS : match_spec) (n : str) (x : json) : Prop :=
  empty_entry x \/ exists s m, entry_text x s /\ package_name MS s m /\ m <> n.

(** * Dependency lists in the tree *)
Definition list_entry (c : node) : Prop := n_lmf c = true /\ terminal c = true.
(** The key at [q] has only list entries and comment lines below it. *)
Definition entries_only (n : node) : Prop :=
  n_keyf n = true /\ n_lmf n = false /\ Forall (fun c => comment_line c \/ list_entry c) (n_children n).
(** The section at the path is a key at [q] whose entries are read as the values [l]. *)
Definition section_at (E : env) (r : recipe) (cs : list str) (q : position) (n : node) (l : list json) : Prop :=
  addresses (r_root r) (path_text cs) q /\ node_at (r_root r) q = Some n /\ entries_only n
  /\ get_value E (r_root r) (path_text cs) None (Some (r_schema r, r_vars r)) = Ok (JList l).
(** The line that is the [i]-th entry. *)
Definition entry_line (n : node) (i j : nat) (c : node) : Prop :=
  nth_error (n_children n) j = Some c /\ ~ comment_line c /\ count_elements (firstn j (n_children n)) = i.
(** The text is written as one line that is read as the text itself. *)
Definition plain_dependency (E : env) (text : str) : Prop :=
  written_as E (JStr text) [Nd (VJ (JStr text)) [] [] false MNone false].
Definition dependency_line (text comment : str) : node := Nd (VJ (JStr text)) comment [] true MNone false.
(** The text of a dependency as the recipe shows it. *)
Definition dep_text (d : dependency) : str := match d_data d with DSpec o _ => o | DVar s => s end.
Definition dep_name (d : dependency) : str := match d_data d with DSpec _ n => n | DVar s => s end.
(** The comment of the line that replaces a line with comment [old]: in replace mode the new selector; otherwise the old
    selector is kept and joined with the new one.  Nothing else of the old comment is kept. *)
Inductive merged_comment (mode : sel_mode) (old : str) : option selector -> str -> Prop :=
| mc_replace_none : mode = SMReplace -> merged_comment mode old None []
| mc_replace sel b : mode = SMReplace -> bracketed (selector_render sel) b ->
    merged_comment mode old (Some sel) ($"# " ++ selector_render sel)
| mc_none_none : mode <> SMReplace -> selector_of old = None -> merged_comment mode old None []
| mc_none_new sel b : mode <> SMReplace -> selector_of old = None -> bracketed (selector_render sel) b ->
    merged_comment mode old (Some sel) ($"# " ++ selector_render sel)
| mc_kept s : mode <> SMReplace -> selector_of old = Some s -> merged_comment mode old None ($"# " ++ s)
| mc_joined sel a b : mode <> SMReplace -> selector_of old = Some ($"[" ++ a ++ $"]") ->
    bracketed (selector_render sel) b ->
    merged_comment mode old (Some sel)
      ($"# [" ++ a ++ $" " ++ match mode with SMAnd => $"and" | _ => $"or" end ++ $" " ++ b ++ $"]").
(** The comment of a new line. *)
Inductive new_line_comment : option selector -> str -> Prop :=
| nc_none : new_line_comment None []
| nc_some sel b : bracketed (selector_render sel) b -> new_line_comment (Some sel) ($"# " ++ selector_render sel).
(** What reading the list after the new line was added must give for the selector to reach the new line. *)
Definition reads_one_more (E : env) (r : recipe) (cs : list str) (q : position) (n : node) (text : str) : Prop :=
  forall root', changed_at (lines_appended [dependency_line text []]) q (r_root r) root' ->
  exists l, get_value E root' (path_text cs) None None = Ok (JList l) /\ length l = S (count_elements (n_children n)).
(** A section that is written as one key.  The selector of a dependency that opens the section is set on the key (and,
    as for every key with a single value below it, also on the value). *)
Definition section_key (E : env) (sec text : str) (key : node) : Prop :=
  written_as E (JDict [(PStr sec, JList [JStr text])]) [key] /\ n_value key = VJ (JStr sec) /\ n_comment key = [].
Inductive opened_section (key : node) : option selector -> node -> Prop :=
| os_plain : opened_section key None key
| os_selector sel b key' : bracketed (selector_render sel) b -> comment_changed ($"# " ++ selector_render sel) key key' ->
    opened_section key (Some sel) key'.

(** * Dependency tables *)
Definition owned_by (package : prim) (d : dependency) : dependency :=
  {| d_by := package; d_path := d_path d; d_type := d_type d; d_data := d_data d; d_sel := d_sel d |}.
(** What a dependency text is understood as. *)
Inductive parsed_as (MS : match_spec) (s : str) : dep_data -> Prop :=
| pa_expression : has_expression s -> parsed_as MS s (DVar s)
| pa_spec n : ~ has_expression s -> MS s = Some n -> parsed_as MS s (DSpec s n)
| pa_other : ~ has_expression s -> MS s = None -> parsed_as MS s (DVar s).
(** The [i]-th member of a section value.  (A section that is a text has its characters as members; one that is a mapping
    has its keys.) *)
Inductive section_member : json -> nat -> json -> Prop :=
| sm_list l i x : nth_error l i = Some x -> section_member (JList l) i x
| sm_text s i c : nth_error s i = Some c -> section_member (JStr s) i (JStr [c])
| sm_map d i k v : nth_error d i = Some (k, v) -> section_member (JDict d) i (JP k).
Definition below (path ext : str) : str := (if list_eq_dec ascii_dec path $"/" then [] else path) ++ ext.
(** The dependencies a package at a path lists itself: one for every non-empty member of every section, with the path of
    the member and the selector found there. *)
Definition own_dependency (E : env) (MS : match_spec) (r : recipe) (package : prim) (path : str) (d : dependency) : Prop :=
  exists reqs sec section v i x s,
    get_value E (r_root r) (below path $"/requirements") (Some (JDict [])) (Some (r_schema r, r_vars r)) = Ok (JDict reqs)
    /\ In (PStr sec, v) reqs /\ spells sec section /\ section_member v i x /\ entry_text x s
    /\ d_by d = package /\ d_path d = below path ($"/requirements/" ++ sec ++ $"/" ++ str_of_nat i) /\ d_type d = section
    /\ parsed_as MS s (d_data d)
    /\ d_sel d = match lookup (r_root r) (d_path d) with
                 | Some n => option_map (fun t => selector_parser t (r_schema r)) (selector_of (n_comment n))
                 | None => None
                 end.

(** * The paths of all dependencies (C90) *)
Definition requirement_sections (sv : schema) : list str :=
  [$"build"; $"host"; $"run"; match sv with SV0 => $"run_constrained" | SV1 => $"run_constraints" end].
(** Where requirements may stand: at the top, and in each member of the outputs. *)
Inductive requirements_scope (E : env) (r : recipe) : str -> Prop :=
| scope_top : requirements_scope E r []
| scope_output v k x : get_value E (r_root r) $"/outputs" None None = Ok v -> section_member v k x ->
    requirements_scope E r ($"/outputs/" ++ str_of_nat k).
(** The path of a member of a requirements section. *)
Inductive dependency_line_path (E : env) (r : recipe) : str -> Prop :=
| dlp scope sec v i x : requirements_scope E r scope -> In sec (requirement_sections (r_schema r)) ->
    get_value E (r_root r) (scope ++ $"/requirements/" ++ sec) None None = Ok v -> section_member v i x ->
    dependency_line_path E r (scope ++ $"/requirements/" ++ sec ++ $"/" ++ str_of_nat i).

(** * The names of packages (C50) *)
(** Where the name of the package at a path stands. *)
Definition name_place (r : recipe) (path : str) : str :=
  let top := if list_eq_dec ascii_dec path $"/" then true else false in
  match r_schema r, lookup (r_root r) $"/outputs" with
  | SV1, Some _ => if top then $"/recipe/name" else path ++ $"/package/name"
  | _, _ => if top then $"/package/name" else path ++ $"/name"
  end.
