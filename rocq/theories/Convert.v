(** Model of parser/recipe_parser_convert.py: the conversion of a V0 recipe to the V1 format.  The converter works on a
    second recipe object, [_v1_recipe], and on a message table; both form its state.  A function that raises also returns
    the state it leaves behind. *)
From Verif Require Export Commands Spdx Deps.

(** What the converter needs from outside: the libraries of the parser, the license matcher and database, and the order in
    which Python walks through a set of texts. *)
Record tools := {
  t_env : env;
  t_close : close_match;
  t_licenses : list license;
  t_order : list str -> list str
}.
(** recipe_parser_convert.py 26-40: [_v1_recipe] and [_msg_tbl] *)
Record cstate := { v1 : recipe; msgs : msg_table }.
Definition conv (A : Type) := cstate -> res A * cstate.
Definition ret {A} (a : A) : conv A := fun s => (Ok a, s).
Definition andthen {A B} (m : conv A) (f : A -> conv B) : conv B :=
  fun s => match m s with
           | (Ok a, s') => f a s'
           | (Err e, s') => (Err e, s')
           end.
Notation "'run!' x ':=' m 'in' k" := (andthen m (fun x => k)) (at level 200, x pattern, right associativity).
Notation "'do!' m 'in' k" := (andthen m (fun _ => k)) (at level 200, right associativity).
(** Reading the recipe and computing on values may raise *)
Definition ask {A} (f : recipe -> res A) : conv A := fun s => (f (v1 s), s).
Definition pure {A} (r : res A) : conv A := fun s => (r, s).
Definition say (c : category) (m : str) : conv unit :=
  fun s => (Ok tt, {| v1 := v1 s; msgs := add_message c m (msgs s) |}).
Definition edit (f : recipe -> recipe) : conv unit := fun s => (Ok tt, {| v1 := f (v1 s); msgs := msgs s |}).
Definition call {A} (f : recipe -> outcome A) : conv A :=
  fun s => let '(o, r) := f (v1 s) in (o, {| v1 := r; msgs := msgs s |}).
(** [for x in l: f(x)] *)
Fixpoint each {A} (l : list A) (f : A -> conv unit) : conv unit :=
  match l with
  | [] => ret tt
  | x :: l' => do! f x in each l' f
  end.
Definition when (b : bool) (m : conv unit) : conv unit := if b then m else ret tt.

(** The patches the converter builds *)
Definition p_add (path : str) (v : json) : json :=
  JDict [(PStr $"op", JStr $"add"); (PStr $"path", JStr path); (PStr $"value", v)].
Definition p_replace (path : str) (v : json) : json :=
  JDict [(PStr $"op", JStr $"replace"); (PStr $"path", JStr path); (PStr $"value", v)].
Definition p_remove (path : str) : json := JDict [(PStr $"op", JStr $"remove"); (PStr $"path", JStr path)].
Definition p_move (from path : str) : json :=
  JDict [(PStr $"op", JStr $"move"); (PStr $"from", JStr from); (PStr $"path", JStr path)].

(** [f"{value}"] *)
Definition quoted_json (j : json) : str := $"`" ++ json_str j ++ $"`".
(** [x in value]: part of a text, member of a list, key of a dictionary *)
Definition json_in (x : str) (j : json) : res bool :=
  match j with
  | JStr s => Ok (contains_sub x s)
  | JList l => Ok (existsb (json_eqb (JStr x)) l)
  | JDict d => Ok (is_some (assoc_prim (PStr x) d))
  | _ => Err EType
  end.
(** [del d[k]] *)
Fixpoint pdel (k : prim) (d : list (prim * json)) : list (prim * json) :=
  match d with
  | [] => []
  | (k', v) :: d' => if prim_eqb k k' then d' else (k', v) :: pdel k d'
  end.

Section Converter.
Context (T : tools).
Let E := t_env T.

Definition has (path : str) : conv bool := ask (fun r => contains_value (r_root r) path).
Definition value (path : str) (default : option json) : conv json := ask (fun r => get_value E (r_root r) path default None).
Definition sort_keys (path : str) (tbl : list (str * Z)) : conv unit :=
  fun s => match sort_subtree_keys (r_root (v1 s)) path tbl [] with
           | Err e => (Err e, s)
           | Ok root => (Ok tt, {| v1 := with_root (v1 s) root; msgs := msgs s |})
           end.

(** recipe_parser_convert.py 44-54 [_patch_and_log] *)
Definition patch_and_log (p : json) : conv bool :=
  run! ok := call (patch E p) in
  do! when (negb ok) (say ERROR ($"Failed to patch: " ++ json_str p)) in
  ret ok.
(** recipe_parser_convert.py 56-68 [_patch_add_missing_path] *)
Definition patch_add_missing_path (base ext : str) (v : json) : conv unit :=
  let temp := append_to_path base ext in
  run! there := has temp in
  if there : bool then ret tt else do! patch_and_log (p_add temp v) in ret tt.
(** recipe_parser_convert.py 70-82 [_patch_move_base_path] *)
Definition patch_move_base_path (base old_ext new_ext : str) : conv unit :=
  let old := append_to_path base old_ext in
  run! there := has old in
  if there : bool then do! patch_and_log (p_move old (append_to_path base new_ext)) in ret tt else ret tt.
(** recipe_parser_convert.py 84-103 [_patch_move_new_path] *)
Definition patch_move_new_path (base old_ext new_path : str) (new_ext : option str) : conv unit :=
  let ext := match new_ext with Some e => e | None => old_ext end in
  run! there := has (append_to_path base old_ext) in
  do! when there (patch_add_missing_path base new_path JNull) in
  patch_move_base_path base old_ext (append_to_path new_path ext).
(** recipe_parser_convert.py 105-117 [_patch_deprecated_fields] *)
Definition patch_deprecated_fields (base : str) (fields : list str) : conv unit :=
  each fields (fun field =>
    let path := append_to_path base field in
    run! there := has path in
    if there : bool then
      run! ok := patch_and_log (p_remove path) in
      when ok (say WARNING ($"Field at `" ++ path ++ $"` is no longer supported."))
    else ret tt).

(** * Variables: recipe_parser_convert.py 121-171 [_upgrade_jinja_to_context_obj] *)

(** lines 130-137: the entry of one variable; None: the type is not supported *)
Definition context_value (v : json) : option json :=
  match v with
  | JStr s => Some (JStr (if search_any_regex JINJA_FUNCTIONS_SET s then $"{{" ++ s ++ $"}}" else s))
  | JP PNull => None
  | JP p => Some (JP p)
  | _ => None
  end.
(** lines 128-137 *)
Fixpoint context_of (vars : vtbl) (acc : vtbl) : conv vtbl :=
  match vars with
  | [] => ret acc
  | (name, v) :: vars' =>
      match context_value v with
      | Some w => context_of vars' (dset name w acc)
      | None => do! say WARNING ($"The variable `" ++ name ++ $"` is an unsupported type.") in context_of vars' acc
      end
  end.
(** lines 141-145 *)
Definition complex_jinja (ctx : vtbl) : list str :=
  dkeys (filter (fun kv => match snd kv with JStr s => found V0_UNSUPPORTED_JINJA s | _ => false end) ctx).
(** line 170 *)
Definition to_v1_marker (s : str) : str := re_sub JINJA_REPLACE_V0_STARTING_MARKER $"${{" s.
Definition upgrade_jinja_to_context_obj : conv unit :=
  run! vars := ask (fun r => Ok (r_vars r)) in
  run! ctx := context_of vars [] in
  do! when (negb (is_nil ctx))
        (do! when (negb (is_nil (complex_jinja ctx)))
               (say WARNING ($"The following key(s) contain unsupported syntax: " ++ join $", " (complex_jinja ctx))) in
         do! patch_and_log (p_add $"/context" (JDict (map (fun kv => (PStr (fst kv), snd kv)) ctx))) in ret tt) in
  do! patch_and_log (p_add $"/schema_version" (JInt 1)) in
  run! paths := ask (fun r => Ok (search E (found JINJA_V0_SUB) false (r_root r))) in
  each (t_order T (dedupe paths)) (fun path =>
    run! v := value path None in
    match v with
    | JStr s => do! patch_and_log (p_replace path (JStr (to_v1_marker s))) in ret tt
    | _ => say WARNING ($"A non-string value was found as a JINJA substitution: " ++ json_str v)
    end).

(** * Selectors: recipe_parser_convert.py 173-245 [_upgrade_selectors_to_conditionals] *)

Definition grp (n : nat) (s : str) (x : rmatch) : str := match group n s x with Some t => t | None => [] end.
(** lines 196-212: the five substitutions, in order *)
Definition upgrade_py_version (s : str) : str :=
  re_sub_f SEL_PY_VERSION
    (fun x => lit "match(python, """ ++ grp 1 s x ++ grp 2 s x ++ $"." ++ grp 3 s x ++ lit """)") s.
Definition upgrade_py_eq (s : str) : str :=
  re_sub_f SEL_PY_EQ (fun x => lit "match(python, ""==" ++ grp 1 s x ++ $"." ++ grp 2 s x ++ lit """)") s.
Definition upgrade_py_ne (s : str) : str :=
  re_sub_f SEL_PY_NE (fun x => lit "match(python, ""!=" ++ grp 1 s x ++ $"." ++ grp 2 s x ++ lit """)") s.
Definition upgrade_py2k (s : str) : str := re_sub SEL_PY2K (lit "match(python, "">=2,<3"")") s.
Definition upgrade_py3k (s : str) : str := re_sub SEL_PY3K (lit "match(python, "">=3,<4"")") s.
Definition upgrade_expression (s : str) : str :=
  upgrade_py3k (upgrade_py2k (upgrade_py_ne (upgrade_py_eq (upgrade_py_version s)))).
(** line 190: [selector[1:-1]] *)
Definition inner (selector : str) : str := removelast (tl selector).
(** lines 219-226: the replacement for a Boolean value *)
Definition ternary (path expression : str) : json :=
  JStr (if ends_with $"/build/skip" path then expression else $"${{ true if " ++ expression ++ $" }}").
(** lines 183-245: one entry of the selector table.  Simplification: the node is taken as it was when the table was built.
    (The code keeps a reference.  Its value and its list flag are never changed by an edit; its children and its comment
    matter only for the question whether it is a leaf, which is decided when the entry is reached.) *)
Definition upgrade_selector (selector : str) (info : node * stack) : conv unit :=
  let n := fst info in
  if negb (is_leaf n) then ret tt
  else
    let expression := upgrade_expression (inner selector) in
    let path := stack_path_to_str (snd info) in
    let apply p := do! patch_and_log p in do! call (remove_selector E path) in ret tt in
    match n_value n with
    | VJ (JBool _) => apply (p_replace path (ternary path expression))
    | v =>
        if n_lmf n then
          let thn := match v with VSent => JNull | VJ j => j end in
          apply (p_replace path (JDict [(PStr $"if", JStr expression); (PStr $"then", thn)]))
        else say WARNING ($"A non-list item had a selector at: " ++ path)
    end.
(** The table that is walked through is the one at the start; patches replace [_selector_tbl] by new tables.
    Simplification: [stack_path_to_str] empties the path lists of the old table, which nothing reads afterwards. *)
Definition upgrade_selectors_to_conditionals : conv unit :=
  run! tbl := ask (fun r => Ok (r_sel r)) in
  each tbl (fun entry => each (snd entry) (upgrade_selector (fst entry))).

(** * Sections *)

(** recipe_parser_convert.py 247-263 [_correct_common_misspellings] *)
Definition correct_common_misspellings (bases : list str) : conv unit :=
  each bases (fun base =>
    let build := append_to_path base $"/build" in
    do! patch_move_base_path build $"skipt" $"skip" in
    do! patch_move_base_path build $"skips" $"skip" in
    do! patch_move_base_path build $"Skip" $"skip" in
    patch_move_base_path base $"extras" $"extra").

(** recipe_parser_convert.py 286-311: one source *)
Definition upgrade_source (src : str) : conv unit :=
  run! svn := has (append_to_path src $"svn_url") in
  do! when svn (say WARNING $"SVN packages are no longer supported in the V1 format") in
  run! hg := has (append_to_path src $"hg_url") in
  do! when hg (say WARNING $"HG (Mercurial) packages are no longer supported in the V1 format") in
  do! patch_move_base_path src $"/fn" $"/file_name" in
  do! patch_move_base_path src $"/folder" $"/target_directory" in
  do! patch_move_base_path src $"/git_url" $"/git" in
  do! patch_move_base_path src $"/git_tag" $"/tag" in
  do! patch_move_base_path src $"/git_rev" $"/rev" in
  do! patch_move_base_path src $"/git_depth" $"/depth" in
  sort_keys src V1_SOURCE_SECTION_SORT.
(** recipe_parser_convert.py 265-311 [_upgrade_source_section] *)
Definition upgrade_source_section (bases : list str) : conv unit :=
  each bases (fun base =>
    let path := append_to_path base $"/source" in
    run! there := has path in
    if there : bool then
      run! data := value path None in
      let sources := match data with
                     | JList l => map (fun i => append_to_path path ($"/" ++ str_of_nat i)) (seq 0 (length l))
                     | _ => [path]
                     end in
      each sources upgrade_source
    else ret tt).

(** recipe_parser_convert.py 334-361: one entry of [script_env]; the new environment and the new secrets so far *)
Definition env_entry (env_path : str) (item : json) (acc : list (prim * json) * list json)
  : conv (list (prim * json) * list json) :=
  let '(new_env, secrets) := acc in
  match item with
  | JDict d =>
      match assoc_prim (PStr $"then") d with
      | None => do! say ERROR ($"Could not parse dictionary " ++ quoted_json item ++ $" found in " ++ env_path) in ret acc
      | Some (JStr s) =>
          match split_on "="%char s with
          | [_] => ret (new_env, secrets ++ [item])
          | _ => do! say ERROR ($"Converting " ++ quoted_json item ++ $" found in " ++ env_path
                        ++ $" is not supported. Manually replace the selector with a `cmp()` function.") in
                 ret acc
          end
      | Some _ => pure (Err EAttr)
      end
  | JStr s =>
      match map strip (split_on "="%char s) with
      | [k] => ret (new_env, secrets ++ [JStr k])
      | [k; v] => ret (jset k (JStr v) new_env, secrets)
      | _ => do! say ERROR ($"Could not parse " ++ quoted_json item ++ $" found in " ++ env_path) in ret acc
      end
  | _ => pure (Err EAttr)
  end.
Fixpoint env_entries (env_path : str) (items : list json) (acc : list (prim * json) * list json)
  : conv (list (prim * json) * list json) :=
  match items with
  | [] => ret acc
  | item :: items' => run! acc' := env_entry env_path item acc in env_entries env_path items' acc'
  end.
(** recipe_parser_convert.py 313-372 [_upgrade_build_script_section] *)
Definition upgrade_build_script_section (build : str) : conv unit :=
  let env_path := append_to_path build $"/script_env" in
  run! env := value env_path (Some (JList [])) in
  if json_truthy env then
    let script_path := append_to_path build $"/script" in
    run! items := pure (json_iter env) in
    run! new := env_entries env_path items ([], []) in
    let obj := set_key_conditionally [] $"env" (JDict (fst new)) in
    let obj := set_key_conditionally obj $"secrets" (JList (snd new)) in
    run! script := value script_path (Some (JStr [])) in
    let obj := set_key_conditionally obj $"content" script in
    do! patch_and_log ((if json_truthy script then p_replace else p_add) script_path (JDict obj)) in
    do! patch_and_log (p_remove env_path) in
    ret tt
  else ret tt.

(** recipe_parser_convert.py 380-396 *)
Definition build_deprecated : list str :=
  [$"pre-link"; $"noarch_python"; $"features"; $"msvc_compiler"; $"requires_features"; $"provides_features";
   $"preferred_env"; $"preferred_env_executable_paths"; $"disable_pip"; $"pin_depends"; $"overlinking_ignore_patterns";
   $"rpaths_patcher"; $"post-link"; $"pre-unlink"; $"pre-link"].
(** recipe_parser_convert.py 401-417: a field of [build] that moves to [requirements] *)
Definition move_to_requirements (base field : str) : conv unit :=
  let old := append_to_path base ($"/build/" ++ field) in
  run! there := has old in
  if there : bool then
    let requirements := append_to_path base $"/requirements" in
    run! req := has requirements in
    do! when (negb req) (do! patch_and_log (p_add requirements JNull) in ret tt) in
    do! patch_and_log (p_move old (append_to_path base ($"/requirements/" ++ field))) in
    ret tt
  else ret tt.
(** recipe_parser_convert.py 374-453 [_upgrade_build_section] *)
Definition upgrade_build_section (bases : list str) : conv unit :=
  each bases (fun base =>
    do! move_to_requirements base $"run_exports" in
    do! move_to_requirements base $"ignore_run_exports" in
    let build := append_to_path base $"/build" in
    run! there := has build in
    if there : bool then
      do! patch_move_base_path build $"merge_build_host" $"merge_build_and_host_envs" in
      do! patch_move_base_path build $"no_link" $"always_copy_files" in
      do! patch_move_new_path build $"/entry_points" $"/python" None in
      do! patch_move_new_path build $"/ignore_prefix_files" $"/prefix_detection" (Some $"/ignore") in
      do! patch_move_new_path build $"/detect_binary_files_with_prefix" $"/prefix_detection" (Some $"/ignore_binary_files") in
      do! patch_move_new_path build $"/rpaths" $"/dynamic_linking" (Some $"/rpaths") in
      do! patch_move_new_path build $"/binary_relocation" $"/dynamic_linking" (Some $"/binary_relocation") in
      do! patch_move_new_path build $"/missing_dso_whitelist" $"/dynamic_linking" (Some $"/missing_dso_allowlist") in
      do! patch_move_new_path build $"/runpath_whitelist" $"/dynamic_linking" (Some $"/rpath_allowlist") in
      do! upgrade_build_script_section build in
      do! patch_deprecated_fields build build_deprecated in
      sort_keys build V1_BUILD_SECTION_SORT
    else ret tt).

(** recipe_parser_convert.py 455-467 [_upgrade_requirements_section] *)
Definition upgrade_requirements_section (bases : list str) : conv unit :=
  each bases (fun base =>
    let path := append_to_path base $"/requirements" in
    run! there := has path in
    if there : bool then patch_move_base_path path $"/run_constrained" $"/run_constraints" else ret tt).

(** [find_closest_license_match] on a value that need not be a text: a list or a mapping cannot be looked up in a set,
    anything else but a text has no [strip] *)
Definition license_match (v : json) : res (option str) :=
  match v with
  | JStr s => Ok (find_closest_license_match (t_close T) (t_licenses T) s)
  | JP _ => Err EAttr
  | _ => Err EType
  end.
(** recipe_parser_convert.py 469-498 [_fix_bad_licenses] *)
Definition fix_bad_licenses (about : str) : conv unit :=
  let path := append_to_path about $"/license" in
  run! old := value path (Some JNull) in
  match old with
  | JP PNull => say WARNING ($"No `license` provided in `" ++ about ++ $"`")
  | _ =>
      run! corrected := pure (license_match old) in
      match corrected with
      | None => say WARNING ($"Could not patch unrecognized license: " ++ quoted_json old)
      | Some new =>
          if json_eqb old (JStr new) then ret tt
          else
            run! ok := patch_and_log (p_replace path (JStr new)) in
            when ok (say WARNING ($"Changed " ++ path ++ $" from " ++ quoted_json old ++ $" to `" ++ new ++ $"`"))
      end
  end.

(** recipe_parser_convert.py 506-510 *)
Definition about_rename_mapping : list (str * str) :=
  [($"home", $"homepage"); ($"dev_url", $"repository"); ($"doc_url", $"documentation")].
(** recipe_parser_convert.py 511-518 *)
Definition about_deprecated : list str :=
  [$"prelink_message"; $"license_family"; $"identifiers"; $"tags"; $"keywords"; $"doc_source_url"].
(** ["\n".join(l)]: TypeError unless all members are texts *)
Definition join_lines (l : list json) : res str :=
  match as_lines l with Some ls => Ok (join NLs ls) | None => Err EType end.
(** recipe_parser_convert.py 500-543 [_upgrade_about_section] *)
Definition upgrade_about_section (bases : list str) : conv unit :=
  each bases (fun base =>
    let about := append_to_path base $"/about" in
    run! there := has about in
    if there : bool then
      do! each about_rename_mapping (fun on => patch_move_base_path about (fst on) (snd on)) in
      do! fix_bad_licenses about in
      let summary_path := append_to_path about $"/summary" in
      run! summary := value summary_path (Some (JStr [])) in
      do! match summary with
          | JList l => run! text := pure (join_lines l) in
                       do! patch_and_log (p_replace summary_path (JStr text)) in ret tt
          | _ => ret tt
          end in
      patch_deprecated_fields about about_deprecated
    else ret tt).

(** recipe_parser_convert.py 552-556 *)
Definition pip_check_variants : list str := [$"pip check"; $"python -m pip check"; $"python3 -m pip check"].
(** recipe_parser_convert.py 567-575: the position of the first command that checks the installation *)
Fixpoint find_pip_check (i : nat) (l : list json) : option nat :=
  match l with
  | [] => None
  | JStr s :: l' => if mem_str s pip_check_variants then Some i else find_pip_check (S i) l'
  | _ :: l' => find_pip_check (S i) l'
  end.
(** recipe_parser_convert.py 545-590 [_upgrade_test_pip_check] *)
Definition upgrade_test_pip_check (base test : str) : conv unit :=
  run! host := value (append_to_path base $"/requirements/host") (Some (JList [])) in
  run! is_python := pure (json_in $"python" host) in
  if is_python : bool then
    let commands_path := append_to_path test $"/commands" in
    run! commands := value commands_path (Some (JList [])) in
    run! items := pure (json_iter commands) in
    let hit := find_pip_check 0 items in
    do! match hit with
        | Some i => do! patch_and_log (p_remove (append_to_path commands_path ($"/" ++ str_of_nat i))) in ret tt
        | None => ret tt
        end in
    do! (if is_some hit && (length items =? 1) then
           do! patch_and_log (p_remove commands_path) in
           let requirements := append_to_path test $"/requirements" in
           run! there := has requirements in
           when there (do! patch_and_log (p_remove requirements) in ret tt)
         else ret tt) in
    do! patch_add_missing_path test $"/python" JNull in
    do! patch_and_log (p_add (append_to_path test $"/python/pip_check") (JBool (is_some hit))) in
    ret tt
  else ret tt.

(** recipe_parser_convert.py 650-656: one kind of test taken out of the test section.  Membership in a text or a list is
    answered, but the look-up that follows raises. *)
Definition take_out (key : str) (acc : json * list json) : res (json * list json) :=
  let '(element, tests) := acc in
  let! there := json_in key element in
  if there : bool then
    match element with
    | JDict d => match assoc_prim (PStr key) d with
                 | Some v => Ok (JDict (pdel (PStr key) d), tests ++ [JDict [(PStr key, v)]])
                 | None => Err EKey
                 end
    | _ => Err EType
    end
  else Ok acc.
(** recipe_parser_convert.py 647-659: the list of tests *)
Definition split_tests (element : json) : res (list json) :=
  let! parts := take_out $"python" (element, []) in
  let! parts := take_out $"downstream" parts in
  Ok (if json_truthy (fst parts) then snd parts ++ [fst parts] else snd parts).
(** recipe_parser_convert.py 592-661 [_upgrade_test_section] *)
Definition upgrade_test_section (bases : list str) : conv unit :=
  each bases (fun base =>
    let test := append_to_path base $"/test" in
    run! there := has test in
    if there : bool then
      let files := append_to_path test $"/files" in
      run! has_files := has files in
      do! (if has_files : bool then
             run! v := value files None in
             do! patch_and_log (p_remove files) in
             do! patch_and_log (p_add files JNull) in
             do! patch_and_log (p_add (append_to_path files $"/recipe") v) in
             ret tt
           else
             run! has_source := has (append_to_path test $"/source_files") in
             when has_source (patch_add_missing_path test $"/files" JNull)) in
      do! patch_move_base_path test $"/source_files" $"/files/source" in
      run! has_requires := has (append_to_path test $"/requires") in
      do! when has_requires (patch_add_missing_path test $"/requirements" JNull) in
      do! patch_move_base_path test $"/requires" $"/requirements/run" in
      do! upgrade_test_pip_check base test in
      do! patch_move_base_path test $"/commands" $"/script" in
      run! has_imports := has (append_to_path test $"/imports") in
      do! when has_imports
            (do! patch_add_missing_path test $"/python" JNull in
             patch_move_base_path test $"/imports" $"/python/imports") in
      do! patch_move_base_path test $"/downstreams" $"/downstream" in
      do! sort_keys (append_to_path test $"/python") V1_PYTHON_TEST_SORT in
      let new_test := test ++ $"s" in
      run! element := value test None in
      run! tests := pure (split_tests element) in
      do! patch_and_log (p_add new_test (JList tests)) in
      do! patch_and_log (p_remove test) in
      ret tt
    else ret tt).

(** recipe_parser_convert.py 663-692 [_upgrade_multi_output] *)
Definition upgrade_multi_output (bases : list str) : conv unit :=
  run! multi := has $"/outputs" in
  if multi : bool then
    do! patch_move_base_path ROOT_VALUE $"/package" $"/recipe" in
    each bases (fun output =>
      if str_eqb output ROOT_VALUE then ret tt
      else
        run! has_name := has (append_to_path output $"/name") in
        run! has_version := (if has_name : bool then ret true else has (append_to_path output $"/version")) in
        do! when has_version (patch_add_missing_path output $"/package" JNull) in
        do! patch_move_base_path output $"/name" $"/package/name" in
        do! patch_move_base_path output $"/version" $"/package/version" in
        sort_keys output TOP_LEVEL_SORT)
  else ret tt.

(** * The whole conversion *)

(** recipe_parser_convert.py 797-801: the comments that lost their place *)
Definition report_lost_comments (old_comments : list (str * str)) : conv unit :=
  run! new_comments := ask (fun r => Ok (get_comments_table E (r_root r))) in
  each (filter (fun kv => negb (dmem (fst kv) new_comments)) old_comments) (fun kv =>
    run! there := has (fst kv) in
    when (negb there) (say WARNING ($"Could not relocate comment: " ++ snd kv))).
(** recipe_parser_convert.py 769-790: the upgrades *)
Definition upgrades : conv unit :=
  do! upgrade_selectors_to_conditionals in
  do! upgrade_jinja_to_context_obj in
  run! bases := ask (fun r => get_package_paths E (r_root r)) in
  do! correct_common_misspellings bases in
  do! upgrade_source_section bases in
  do! upgrade_build_section bases in
  do! upgrade_requirements_section bases in
  do! upgrade_about_section bases in
  do! upgrade_test_section bases in
  upgrade_multi_output bases.
(** recipe_parser_convert.py 809-823: emptying the table of variables, sorting the top level and the new schema.
    The debugging text is not modelled. *)
Definition finish_v1 : conv unit :=
  do! edit (fun r => with_vars r []) in
  do! sort_keys $"/" TOP_LEVEL_SORT in
  do! edit (fun r => {| r_init := r_init r; r_root := r_root r; r_schema := SV1; r_vars := r_vars r; r_sel := r_sel r;
                        r_mod := r_mod r |}) in
  run! vars := ask (fun r => init_vars E SV1 (r_init r) (r_root r)) in
  edit (fun r => with_vars r vars).
(** recipe_parser_convert.py 749-823 [render_to_v1_recipe_format] *)
Definition render_to_v1 : conv str :=
  run! old_comments := ask (fun r => Ok (get_comments_table E (r_root r))) in
  do! upgrades in
  do! report_lost_comments old_comments in
  do! finish_v1 in
  ask (fun r => Ok (render E r)).

End Converter.

(** * Pre-processing of the text: recipe_parser_convert.py 694-747 [pre_process_recipe_text] *)

(** parser/_types.py 133-160 *)
Definition PRE_ENVIRON : re :=
  seqs [WS1; L "environ["; Grp 1 (Chr is_quote); Grp 2 DOTS; Grp 3 (Chr is_quote); L "]"].
Definition PRE_DOT_ASSIGNMENT : re :=
  seqs [Grp 1 (seqs [L "{%"; WS; L "set"; DOTS; L "="; DOTS]); L "."; Grp 2 (seqs [DOTS; L "("; DOTS; L ")"; WS; L "%}"])].
Definition PRE_DOT_SUBSTITUTION : re :=
  seqs [Grp 1 (seqs [L "{{"; WS; StarC is_word; DOTS]); L ".";
        Grp 2 (seqs [StarC is_word; L "("; DOTS; L ")"; WS; L "}}"])].
Definition PRE_EMPTY_PARENTHESIS : re :=
  seqs [Grp 1 (seqs [L "|"; WS; Grp 2 (Alt (L "lower") (L "upper"))]); Grp 3 (L "()")].
Definition PRE_QUOTED_MULTILINE : re :=
  seqs [Grp 1 WS; Grp 2 DOTS; L ":"; WS; Chr is_quote; Grp 3 DOTS; L "\n"; Grp 4 DOTS; Chr is_quote].
Definition PRE_MIN_PIN : re := L "min_pin=".
Definition PRE_MAX_PIN : re := L "max_pin=".

(** lines 713-714 *)
Definition pipe_groups (s : str) (x : rmatch) : str := grp 1 s x ++ $" | " ++ grp 2 s x.
Definition pre_dots (s : str) : str :=
  let s := re_sub_f PRE_DOT_ASSIGNMENT (pipe_groups s) s in
  re_sub_f PRE_DOT_SUBSTITUTION (pipe_groups s) s.
(** line 716 *)
Definition pre_parentheses (s : str) : str := re_sub_f PRE_EMPTY_PARENTHESIS (grp 1 s) s.
(** line 719 *)
Definition pre_multiline (s : str) : str :=
  re_sub_f PRE_QUOTED_MULTILINE
    (fun x => grp 1 s x ++ grp 2 s x ++ $": |" ++ grp 1 s x ++ $"  " ++ grp 3 s x ++ grp 1 s x ++ $"  " ++ grp 4 s x) s.
(** lines 723-724 *)
Definition pre_pins (s : str) : str := re_sub PRE_MAX_PIN $"upper_bound=" (re_sub PRE_MIN_PIN $"lower_bound=" s).
(** lines 730-742; the second quote of a replacement is the first one again *)
Definition environ_pair (s : str) (x : rmatch) : str * str :=
  let q := grp 1 s x in
  let key := grp 2 s x in
  ($"environ[" ++ q ++ key ++ q ++ $"]", $"env.get(" ++ q ++ key ++ q ++ $")").
Definition pre_environ (s : str) : str :=
  fold_left (fun t on => replace_first (fst on) (snd on) t) (map (environ_pair s) (scan PRE_ENVIRON None 0 0 s)) s.
Definition pre_process_recipe_text (variants : list str) (s : str) : str :=
  pre_process_remove_hash_type variants (pre_environ (pre_pins (pre_multiline (pre_parentheses (pre_dots s))))).

(** commands/convert.py 82-171 with the converter: [to_v1] of [convert_file] *)
Definition convert_to_v1 (T : tools) (r : recipe) : res (str * msg_table) :=
  match render_to_v1 T {| v1 := r; msgs := new_table |} with
  | (Ok text, s) => Ok (text, msgs s)
  | (Err e, _) => Err e
  end.
