(** Model of parser/dependency.py, parser/recipe_reader_deps.py, parser/recipe_parser_deps.py and of
    [get_dependency_paths] of parser/recipe_reader.py. *)
From Verif Require Export Access Selector.

(** * parser/dependency.py *)

(** dependency.py 17-32 [DependencySection] *)
Inductive dep_section := BUILD | HOST | RUN | RUN_CONSTRAINTS | RUN_EXPORTS | TESTS.
(** dependency.py 35-48 [DependencyConflictMode] *)
Inductive dep_mode := DMReplace | DMIgnore | DMUseBoth | DMExact.
(** dependency.py 51-89 [dependency_section_to_str] *)
Definition dependency_section_to_str (d : dep_section) (sv : schema) : str :=
  match sv with
  | SV0 => match d with
           | BUILD => $"build" | HOST => $"host" | RUN => $"run" | RUN_CONSTRAINTS => $"run_constrained"
           | RUN_EXPORTS => $"run_exports" | TESTS => $"requires"
           end
  | SV1 => match d with
           | BUILD => $"build" | HOST => $"host" | RUN => $"run" | RUN_CONSTRAINTS => $"run_constraints"
           | RUN_EXPORTS => $"run_exports" | TESTS => $"requires"
           end
  end.
(** dependency.py 92-118 [str_to_dependency_section] *)
Definition str_to_dependency_section (s : str) : option dep_section :=
  let s := lower (strip s) in
  if str_eqb s $"build" then Some BUILD
  else if str_eqb s $"host" then Some HOST
  else if str_eqb s $"run" then Some RUN
  else if str_eqb s $"run_constrained" then Some RUN_CONSTRAINTS
  else if str_eqb s $"run_constraints" then Some RUN_CONSTRAINTS
  else if str_eqb s $"run_exports" then Some RUN_EXPORTS
  else if str_eqb s $"requires" then Some TESTS
  else None.

(** dependency.py 121-157 [DependencyVariable], [DependencyData].  A parsed [MatchSpec] (of the conda package) is known
    by its original text and its name. *)
Inductive dep_data := DSpec (original name : str) | DVar (s : str).
Definition data_name (d : dep_data) : str := match d with DSpec _ n => n | DVar s => s end.
(** The constructor [MatchSpec(s)] of the conda package: the name of the parsed specification; None when it raises
    ValueError or InvalidMatchSpec.  (Other exceptions are not modelled.) *)
Definition match_spec := str -> option str.
(** dependency.py 160-174 [dependency_data_from_str] *)
Definition dependency_data_from_str (MS : match_spec) (s : str) : dep_data :=
  if found JINJA_V0_SUB s || found JINJA_V1_SUB s then DVar s
  else match MS s with
       | Some name => DSpec s name
       | None => DVar s
       end.
(** dependency.py 177-188 [dependency_data_render_as_str] *)
Definition dependency_data_render_as_str (d : dep_data) : str := match d with DSpec o _ => o | DVar s => s end.
(** dependency.py 191-205 [Dependency].  A package name is whatever value the recipe gives it. *)
Record dependency := {
  d_by : prim;
  d_path : str;
  d_type : dep_section;
  d_data : dep_data;
  d_sel : option selector
}.
(** dependency.py 208-209 [DependencyMap] *)
Definition dep_map := list (prim * list dependency).

(** * parser/recipe_reader_deps.py *)

(** [Dependency(package, d.path, d.type, d.data, d.selector)] *)
Definition required_by (package : prim) (d : dependency) : dependency :=
  {| d_by := package; d_path := d_path d; d_type := d_type d; d_data := d_data d; d_sel := d_sel d |}.
(** recipe_reader_deps.py 27-41 [_add_top_level_dependencies] *)
Definition add_top_level_dependencies (root_package : prim) (m : dep_map) : dep_map :=
  if length m <=? 1 then m
  else match assoc_prim root_package m with
       | None => m
       | Some root_dependencies =>
           map (fun kv => if prim_eqb (fst kv) root_package then kv
                          else (fst kv, snd kv ++ map (required_by (fst kv)) root_dependencies)) m
       end.
(** recipe_reader_deps.py 43-59 [_sanitize_dep]: [dep.strip()] fails for a value that is not a text *)
Definition sanitize_dep (dep : json) : res (option str) :=
  match dep with
  | JNull => Ok None
  | JStr s => Ok (if is_nil (strip s) then None else Some (strip s))
  | _ => Err EAttr
  end.
(** [enumerate(v)] / [for x in v]: the members of a value *)
Definition json_iter (v : json) : res (list json) :=
  match v with
  | JList l => Ok l
  | JStr s => Ok (map (fun c => JStr [c]) s)
  | JDict d => Ok (map (fun kv => JP (fst kv)) d)
  | _ => Err EType
  end.
(** recipe_reader_deps.py 61-71 [_fetch_optional_selector] *)
Definition fetch_optional_selector (path : str) (r : recipe) : res (option selector) :=
  match get_selector_at_path path None r with
  | Ok s => Ok (Some (selector_parser s (r_schema r)))
  | Err EKey => Ok None
  | Err e => Err e
  end.
(** The variables substituted when [sub_vars=True] *)
Definition sub_vars (r : recipe) : jparser := Some (r_schema r, r_vars r).
(** recipe_reader_deps.py 73-102 [get_package_names_to_path].  Only primitive values can be dictionary keys. *)
Definition get_package_names_to_path (E : env) (r : recipe) : res (list (prim * str)) :=
  let v1_multi := is_multi_output (r_root r) && schema_eqb (r_schema r) SV1 in
  let root_name_path := if v1_multi then $"/recipe/name" else $"/package/name" in
  let name_path := if v1_multi then $"/package/name" else $"/name" in
  let! paths := get_package_paths E (r_root r) in
  fold_left (fun acc path =>
               let! tbl := acc in
               let! name := get_value E (r_root r)
                              (if str_eqb path $"/" then root_name_path else append_to_path path name_path)
                              None (sub_vars r) in
               match name with
               | JP p => match assoc_prim p tbl with
                         | Some _ => Err EValue
                         | None => Ok (tbl ++ [(p, path)])
                         end
               | _ => Err EType
               end) paths (Ok []).
(** recipe_reader_deps.py 130-147: the dependencies of one list, numbered from [i] *)
Fixpoint section_dependencies (MS : match_spec) (r : recipe) (package : prim) (path section_str : str)
    (section : dep_section) (i : nat) (deps : list json) : res (list dependency) :=
  match deps with
  | [] => Ok []
  | x :: xs =>
      let! o := sanitize_dep x in
      match o with
      | None => section_dependencies MS r package path section_str section (S i) xs
      | Some dep =>
          let dep_path := append_to_path path ($"/requirements/" ++ section_str ++ $"/" ++ str_of_nat i) in
          let! sel := fetch_optional_selector dep_path r in
          let! rest := section_dependencies MS r package path section_str section (S i) xs in
          Ok ({| d_by := package; d_path := dep_path; d_type := section;
                 d_data := dependency_data_from_str MS dep; d_sel := sel |} :: rest)
      end
  end.
(** recipe_reader_deps.py 123-147: every section of one package.  A key that is not a text has no [strip]. *)
Fixpoint package_sections (MS : match_spec) (r : recipe) (package : prim) (path : str) (reqs : list (prim * json))
    : res (list dependency) :=
  match reqs with
  | [] => Ok []
  | (PStr section_str, deps) :: reqs' =>
      match str_to_dependency_section section_str with
      | None => package_sections MS r package path reqs'
      | Some section =>
          let! l := json_iter deps in
          let! ds := section_dependencies MS r package path section_str section 0 l in
          let! rest := package_sections MS r package path reqs' in
          Ok (ds ++ rest)
      end
  | _ => Err EAttr
  end.
(** recipe_reader_deps.py 115-147: the dependencies listed by the package itself ([requirements.items()] fails for a
    value that is not a mapping) *)
Definition package_dependencies (E : env) (MS : match_spec) (r : recipe) (package : prim) (path : str)
    : res (list dependency) :=
  let! reqs := get_value E (r_root r) (append_to_path path $"/requirements") (Some (JDict [])) (sub_vars r) in
  match reqs with
  | JDict d => package_sections MS r package path d
  | _ => Err EAttr
  end.
(** recipe_reader_deps.py 104-152 [get_all_dependencies].  The name of the root package stays the empty text when no
    package has the root path. *)
Fixpoint all_package_dependencies (E : env) (MS : match_spec) (r : recipe) (tbl : list (prim * str)) : res dep_map :=
  match tbl with
  | [] => Ok []
  | (package, path) :: tbl' =>
      let! ds := package_dependencies E MS r package path in
      let! rest := all_package_dependencies E MS r tbl' in
      Ok ((package, ds) :: rest)
  end.
Definition root_package (tbl : list (prim * str)) : prim :=
  fold_left (fun acc kv => if str_eqb (snd kv) $"/" then fst kv else acc) tbl (PStr []).
Definition get_all_dependencies (E : env) (MS : match_spec) (r : recipe) : res dep_map :=
  let! tbl := get_package_names_to_path E r in
  let! m := all_package_dependencies E MS r tbl in
  Ok (add_top_level_dependencies (root_package tbl) m).

(** * parser/recipe_reader.py 985-1017 [get_dependency_paths] *)
Definition req_sections (sv : schema) : list str :=
  map (fun d => dependency_section_to_str d sv) [BUILD; HOST; RUN; RUN_CONSTRAINTS].
Definition section_paths (E : env) (r : recipe) (prefix section : str) : res (list str) :=
  let section_path := prefix ++ $"/requirements/" ++ section in
  let! v := get_value E (r_root r) section_path (Some (JList [])) None in
  let! n := json_len v in
  Ok (map (fun i => section_path ++ $"/" ++ str_of_nat i) (seq 0 n)).
Fixpoint concat_res {A B} (f : A -> res (list B)) (l : list A) : res (list B) :=
  match l with
  | [] => Ok []
  | x :: l' => let! a := f x in let! b := concat_res f l' in Ok (a ++ b)
  end.
Definition scan_requirements (E : env) (r : recipe) (prefix : str) : res (list str) :=
  concat_res (section_paths E r prefix) (req_sections (r_schema r)).
Definition get_dependency_paths (E : env) (r : recipe) : res (list str) :=
  let! a := scan_requirements E r [] in
  let! outputs := get_value E (r_root r) $"/outputs" (Some (JList [])) None in
  let! n := json_len outputs in
  let! b := concat_res (fun i => scan_requirements E r ($"/outputs/" ++ str_of_nat i)) (seq 0 n) in
  Ok (a ++ b).

(** * parser/recipe_parser_deps.py *)

(** recipe_parser_deps.py 34-65 [_is_valid_dependency_path].  Simplification: [str.isdigit] also accepts some characters
    outside ASCII; here only the ten decimal digits are digits. *)
Definition is_some_section (s : str) : bool :=
  match str_to_dependency_section s with Some _ => true | None => false end.
Definition is_valid_dependency_path (path : str) : bool :=
  match split_on cSL path with
  | [a; b; c; d] => is_nil a && str_eqb b $"requirements" && is_some_section c && isdigit d
  | [a; b; c; d; e; f] =>
      is_nil a && str_eqb b $"outputs" && isdigit c && str_eqb d $"requirements" && is_some_section e && isdigit f
  | _ => false
  end.
(** [s.rsplit("/", 1)[0]] *)
Fixpoint after_slash (s : str) : option str :=
  match s with
  | [] => None
  | c :: s' => if ceq c cSL then Some s' else after_slash s'
  end.
Definition rsplit_base (s : str) : str :=
  match after_slash (rev s) with Some b => rev b | None => s end.
(** recipe_parser_deps.py 67-84 [_init_patch_path] *)
Definition init_patch_path (path : str) (mode : dep_mode) (base : str) (is_new : bool) : str :=
  match mode with
  | DMExact => path
  | _ => if is_new then base else base ++ $"/-"
  end.
(** recipe_parser_deps.py 86-100 [_calc_is_new_section] *)
Definition calc_is_new_section (root : node) (base : str) : res (option bool) :=
  let! here := contains_value root base in
  if here then Ok (Some false)
  else
    let! above := contains_value root (rsplit_base base) in
    Ok (if above then Some true else None).
(** recipe_parser_deps.py 102-134 [_patch_add_dep] *)
Definition dep_patch (op path : str) (value : json) : json :=
  JDict [(PStr $"op", JStr op); (PStr $"path", JStr path); (PStr $"value", value)].
Definition preserved_selector (op path : str) (smode : sel_mode) (r : recipe) : res (option str) :=
  if str_eqb op $"replace" && match smode with SMReplace => false | _ => true end then
    match get_selector_at_path path None r with
    | Ok s => Ok (Some s)
    | Err EKey => Ok None
    | Err e => Err e
    end
  else Ok None.
Definition patch_add_dep (E : env) (dep : dependency) (op path : str) (smode : sel_mode) (is_new : bool) (r : recipe)
    : outcome bool :=
  match preserved_selector op path smode r with
  | Err e => (Err e, r)
  | Ok preserve =>
      let text := JStr (dependency_data_render_as_str (d_data dep)) in
      let '(o, r1) := patch E (dep_patch op path (if is_new then JList [text] else text)) r in
      match o with
      | Err e => (Err e, r1)
      | Ok b =>
          match preserve with
          | None => (Ok b, r1)
          | Some sel =>
              let '(o2, r2) := add_selector E path sel SMReplace r1 in
              (match o2 with Ok _ => Ok b | Err e => Err e end, r2)
          end
      end
  end.
(** recipe_parser_deps.py 177-194: the position of the first dependency of the same name *)
Fixpoint same_name_at (MS : match_spec) (name : str) (i : nat) (deps : list json) : res (option nat) :=
  match deps with
  | [] => Ok None
  | x :: xs =>
      let! o := sanitize_dep x in
      match o with
      | None => same_name_at MS name (S i) xs
      | Some dep => if str_eqb (data_name (dependency_data_from_str MS dep)) name then Ok (Some i)
                    else same_name_at MS name (S i) xs
      end
  end.
(** recipe_parser_deps.py 198-205: the selector is set on the new line *)
Definition add_dep_selector (E : env) (dep : dependency) (base path : str) (smode : sel_mode) (r : recipe) : outcome unit :=
  match d_sel dep with
  | None => (Ok tt, r)
  | Some sel =>
      if ends_with $"/-" path then
        match (let! v := get_value E (r_root r) base None None in json_len v) with
        | Err e => (Err e, r)
        | Ok n => add_selector E (removelast path ++ match n with 0 => $"-1" | S k => str_of_nat k end) (selector_render sel)
                    smode r
        end
      else add_selector E path (selector_render sel) smode r
  end.
(** What is done about dependencies of the same name: stop, or the operation and path of the patch. *)
Definition conflict_target (MS : match_spec) (mode : dep_mode) (name base op path : str) (cur : json)
    : res (option (str * str)) :=
  match mode with
  | DMUseBoth | DMExact => Ok (Some (op, path))
  | _ =>
      let! l := json_iter cur in
      let! at_ := same_name_at MS name 0 l in
      match at_ with
      | None => Ok (Some (op, path))
      | Some i => match mode with
                  | DMIgnore => Ok None
                  | _ => Ok (Some ($"replace", base ++ $"/" ++ str_of_nat i))
                  end
      end
  end.
(** recipe_parser_deps.py 136-206 [add_dependency] *)
Definition add_dependency (E : env) (MS : match_spec) (dep : dependency) (mode : dep_mode) (smode : sel_mode) (r : recipe)
    : outcome bool :=
  if negb (is_valid_dependency_path (d_path dep)) then (Ok false, r)
  else
    let base := rsplit_base (d_path dep) in
    match calc_is_new_section (r_root r) base with
    | Err e => (Err e, r)
    | Ok None => (Ok false, r)
    | Ok (Some is_new) =>
        let op := match mode with DMExact => $"replace" | _ => $"add" end in
        let path := init_patch_path (d_path dep) mode base is_new in
        match (let! cur := get_value E (r_root r) base (Some (JList [])) (sub_vars r) in
               conflict_target MS mode (data_name (d_data dep)) base op path cur) with
        | Err e => (Err e, r)
        | Ok None => (Ok false, r)
        | Ok (Some (op, path)) =>
            let '(o, r1) := patch_add_dep E dep op path smode is_new r in
            match o with
            | Ok true => let '(o2, r2) := add_dep_selector E dep base path smode r1 in
                         (match o2 with Ok _ => Ok true | Err e => Err e end, r2)
            | _ => (o, r1)
            end
        end
    end.
(** recipe_parser_deps.py 208-216 [remove_dependency] *)
Definition remove_dependency (E : env) (dep : dependency) (r : recipe) : outcome bool :=
  patch E (JDict [(PStr $"op", JStr $"remove"); (PStr $"path", JStr (d_path dep))]) r.
