(** Model of conda_recipe_manager/scanner/dependency. *)
From Verif Require Export Deps Messages.

(** base_dep_scanner.py 14-23 [ProjectDependency] *)
Record project_dep := { pd_data : dep_data; pd_type : dep_section }.
(** base_dep_scanner.py 26-38 [new_project_dependency] *)
Definition new_project_dependency (MS : match_spec) (s : str) (t : dep_section) : project_dep :=
  {| pd_data := dependency_data_from_str MS s; pd_type := t |}.
Definition section_eqb (a b : dep_section) : bool :=
  match a, b with
  | BUILD, BUILD | HOST, HOST | RUN, RUN | RUN_CONSTRAINTS, RUN_CONSTRAINTS | RUN_EXPORTS, RUN_EXPORTS | TESTS, TESTS => true
  | _, _ => false
  end.
(** Equality of [MatchSpec] and [DependencyVariable] objects is a parameter ([same]); conda compares the parsed parts. *)
Definition data_eq := dep_data -> dep_data -> bool.
Definition pdep_eqb (same : data_eq) (a b : project_dep) : bool :=
  same (pd_data a) (pd_data b) && section_eqb (pd_type a) (pd_type b).
(** Python sets of dependencies: [x in s], [s.add(x)] (an equal element is kept) and [s |= t] *)
Definition pmem (same : data_eq) (x : project_dep) (l : list project_dep) : bool := existsb (pdep_eqb same x) l.
Definition padd (same : data_eq) (l : list project_dep) (x : project_dep) : list project_dep :=
  if pmem same x l then l else l ++ [x].
Definition punion (same : data_eq) (a b : list project_dep) : list project_dep := fold_left (padd same) b a.

(** * py_dep_scanner.py *)

(** The import statements of a file ([ast.Import], [ast.ImportFrom] with the number of leading dots, which the code does not
    look at) *)
Inductive import_stmt := Import (names : list str) | ImportFrom (level : nat) (module : option str).
(** A file: its path, its base name, and what reading and parsing it gives (an error text or its imports in the order of
    [ast.walk]) *)
Record source_file := { sf_path : str; sf_name : str; sf_imports : str + list import_stmt }.
(** py_dep_scanner.py 21-33 [_IMPORT_TO_DEPENDENCY_NAME_TBL] *)
Definition IMPORT_TO_DEPENDENCY : sdict str :=
  [($"git", $"gitpython"); ($"yaml", $"pyyaml"); ($"PIL", $"pillow"); ($"sklearn", $"scikit-learn");
   ($"tables", $"pytables"); ($"cv", $"py-opencv"); ($"cv2", $"py-opencv"); ($"OpenGL", $"pyopengl")].
(** py_dep_scanner.py 42-51 [_correct_module_to_dependency] *)
Definition correct_module (module : str) : str :=
  match dget module IMPORT_TO_DEPENDENCY with None => module | Some d => d end.
(** py_dep_scanner.py 54-69 [_is_likely_test_file] *)
Definition is_likely_test_file (name : str) : bool :=
  let s := lower name in starts_with $"test_" s || ends_with $"_test.py" s.
(** [name.split(".")[0]] *)
Definition top_module (s : str) : str := match split_on "."%char s with m :: _ => m | [] => [] end.
(** py_dep_scanner.py 106-112: the modules named by a statement *)
Definition stmt_modules (i : import_stmt) : list str :=
  match i with
  | Import l => map top_module l
  | ImportFrom _ (Some m) => [top_module m]
  | ImportFrom _ None => []
  end.
(** [sys.stdlib_module_names] and py_dep_scanner.py 80-87 [_get_project_modules] are parameters. *)
Record modules := { stdlib : str -> bool; project : str -> bool }.
(** py_dep_scanner.py 89-132 [_scan_one_file], without errors *)
Definition scan_module (MS : match_spec) (same : data_eq) (M : modules) (file_name : str) (deps : list project_dep) (m : str)
    : list project_dep :=
  if is_nil m || stdlib M m || project M m then deps
  else padd same deps (new_project_dependency MS (correct_module m) (if is_likely_test_file file_name then TESTS else RUN)).
Definition scan_one_file (MS : match_spec) (same : data_eq) (M : modules) (file_name : str) (imports : list import_stmt)
    : list project_dep :=
  fold_left (fun deps i => fold_left (scan_module MS same M file_name) (stmt_modules i) deps) imports [].
(** py_dep_scanner.py 143-150: the loop over the files *)
Definition scan_step (MS : match_spec) (same : data_eq) (M : modules) (acc : list project_dep * msg_table) (f : source_file)
    : list project_dep * msg_table :=
  match sf_imports f with
  | inr imports => (punion same (fst acc) (scan_one_file MS same M (sf_name f) imports), snd acc)
  | inl e => (fst acc, add_message EXCEPTION ($"Exception encountered while scanning `" ++ sf_path f ++ $"`: " ++ e) (snd acc))
  end.
(** py_dep_scanner.py 154-160 [_filter_test_duplicates] *)
Definition keep_dep (same : data_eq) (all : list project_dep) (d : project_dep) : bool :=
  negb (section_eqb (pd_type d) TESTS && pmem same {| pd_data := pd_data d; pd_type := RUN |} all).
(** py_dep_scanner.py 134-173 [scan] *)
Definition py_scan (MS : match_spec) (same : data_eq) (M : modules) (files : list source_file) : list project_dep * msg_table :=
  let '(all, t) := fold_left (scan_step MS same M) files ([], new_table) in
  let all := filter (keep_dep same all) all in
  let all := padd same all (new_project_dependency MS $"python" HOST) in
  (padd same all (new_project_dependency MS $"python" RUN), t).

(** * pyproject_dep_scanner.py *)

(** What opening and reading the project file gives; [TomlOther]: any other exception. *)
Inductive toml := TomlMissing | TomlInvalid | TomlOther (e : exn) | TomlData (d : list (prim * json)).
(** [for dep_name in l: deps.add(...)]: the names must be texts ([dependency_data_from_str] fails for other values) *)
Fixpoint add_names (MS : match_spec) (same : data_eq) (t : dep_section) (l : list json) (acc : list project_dep)
    : res (list project_dep) :=
  match l with
  | [] => Ok acc
  | JStr s :: l' => add_names MS same t l' (padd same acc (new_project_dependency MS s t))
  | _ => Err EType
  end.
Fixpoint add_groups (MS : match_spec) (same : data_eq) (l : list (prim * json)) (acc : list project_dep)
    : res (list project_dep) :=
  match l with
  | [] => Ok acc
  | (_, g) :: l' => let! names := json_iter g in
                    let! acc' := add_names MS same RUN_CONSTRAINTS names acc in
                    add_groups MS same l' acc'
  end.
(** pyproject_dep_scanner.py 37-76 [scan] *)
Definition pyproject_scan (MS : match_spec) (same : data_eq) (file_name : str) (t : toml) : res (list project_dep) * msg_table :=
  match t with
  | TomlMissing => (Ok [], add_message EXCEPTION ($"`" ++ file_name ++ $"` file not found.") new_table)
  | TomlInvalid => (Ok [], add_message EXCEPTION ($"Could not parse `" ++ file_name ++ $"` file.") new_table)
  | TomlOther e => (Err e, new_table)
  | TomlData d =>
      match assoc_prim (PStr $"project") d with
      | None => (Ok [], add_message ERROR ($"`" ++ file_name ++ $"` file is missing a `project` section.") new_table)
      | Some (JDict p) =>
          (let! names := (match assoc_prim (PStr $"dependencies") p with None => Ok [] | Some v => json_iter v end) in
           let! deps := add_names MS same RUN names [] in
           match assoc_prim (PStr $"optional-dependencies") p with
           | None => Ok deps
           | Some (JDict g) => add_groups MS same g deps
           | Some _ => Err EAttr
           end, new_table)
      | Some _ => (Err EAttr, new_table)
      end
  end.
