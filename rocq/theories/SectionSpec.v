(** What the section upgrades of the converter do to the lines of a recipe and what they report (C92 to C97). *)
From Verif Require Export PhaseSpec RenderSpec.
Require Export Sorted.

(** * Changes of the lines and of the warnings *)
Definition world := (node * list str)%type.
Definition change := world -> world -> Prop.
Definition nothing : change := fun w w' => w' = w.
Definition and_then (A B : change) : change := fun w w' => exists m, A w m /\ B m w'.
Infix ">>" := and_then (at level 61, right associativity).
Fixpoint all_of (l : list change) : change := match l with [] => nothing | A :: l' => A >> all_of l' end.
Definition tell (m : str) : change := fun w w' => fst w' = fst w /\ snd w' = snd w ++ [m].
Definition in_lines (R : node -> node -> Prop) : change := fun w w' => R (fst w) (fst w') /\ snd w' = snd w.
(** What a state of the conversion shows, how the code writes the path of a package, and a step that reports no error. *)
Definition view (s : cstate) : world := (r_root (v1 s), get_messages WARNING (msgs s)).
Definition base_text (bs : list str) : str := match bs with [] => $"/" | _ => path_text bs end.
Definition without_errors {A} (m : conv A) (s : cstate) (a : A) (s' : cstate) : Prop :=
  m s = (Ok a, s') /\ get_messages ERROR (msgs s') = get_messages ERROR (msgs s).
(** A path given by its components leads somewhere. *)
Definition present (root : node) (cs : list str) : Prop := exists q, addresses root (path_text cs) q.
Definition if_there (cs : list str) (A : change) : change :=
  fun w w' => (present (fst w) cs /\ A w w') \/ (~ present (fst w) cs /\ w' = w).
Definition if_missing (cs : list str) (A : change) : change :=
  fun w w' => (~ present (fst w) cs /\ A w w') \/ (present (fst w) cs /\ w' = w).
(** Reading a value, and reading one that may be missing. *)
Definition with_value (E : env) (cs : list str) (default : option json) (A : json -> change) : change :=
  fun w w' => exists v, get_value E (fst w) (path_text cs) default None = Ok v /\ A v w w'.

(** A place that is a line, or a list element: not the value of a key. *)
Definition own_line (root : node) (q : list nat) : Prop := exists n, node_at root q = Some n /\ bare_value n = false.
(** The line at a path is taken away; all others stay. *)
Definition line_taken (cs : list str) (root root' : node) : Prop :=
  exists q i, addresses root (path_text cs) (q ++ [i]) /\ own_line root (q ++ [i]) /\ changed_at (line_removed i) q root root'.
(** What is below the line at a path is written anew. *)
Definition value_replaced (E : env) (cs : list str) (v : json) (root root' : node) : Prop :=
  exists q lines, addresses root (path_text cs) q /\ own_line root q /\ written_as E v lines /\ changed_at (content_replaced lines) q root root'.
(** A value is put at [ds ++ [c]]: in the place of what is there; or, if nothing is there, as new lines at the end of the
    section.  A list element that is not made of lines stays, and a new element is put before it. *)
Inductive value_put (E : env) (ds : list str) (c : str) (v : json) (root root' : node) : Prop :=
| put_again : value_replaced E (ds ++ [c]) v root root' -> value_put E ds c v root root'
| put_new q n lines :
    ~ present root (ds ++ [c]) -> addresses root (path_text ds ++ $"/") q -> node_at root q = Some n -> bare_value n = false ->
    (isdigit (last ds []) = true -> collection_element n = true) ->
    written_as E (JDict [(PStr c, v)]) lines -> changed_at (lines_appended lines) q root root' ->
    value_put E ds c v root root'
| put_beside q i n lines :
    ~ present root (ds ++ [c]) -> addresses root (path_text ds) (q ++ [i]) -> node_at root (q ++ [i]) = Some n ->
    isdigit (last ds []) = true -> collection_element n = false ->
    written_as E (JDict [(PStr c, v)]) lines ->
    changed_at (lines_inserted i (as_element (JDict [(PStr c, v)]) lines)) q root root' ->
    value_put E ds c v root root'.
(** There is a place for a value at [ds ++ [c]]. *)
Inductive place_for (ds : list str) (c : str) (root : node) : Prop :=
| place_there q : addresses root (path_text (ds ++ [c])) q -> own_line root q -> place_for ds c root
| place_below q n : ~ present root (ds ++ [c]) -> addresses root (path_text ds ++ $"/") q -> node_at root q = Some n -> bare_value n = false ->
    (isdigit (last ds []) = true -> collection_element n = true) -> place_for ds c root
| place_beside q n : ~ present root (ds ++ [c]) -> addresses root (path_text ds) q -> node_at root q = Some n ->
    isdigit (last ds []) = true -> collection_element n = false -> place_for ds c root.

(** * Building blocks *)
Section Blocks.
Context (E : env).
(** A key moves, with its value, to the key [d] of the section [es], where there is a place for it from the beginning. *)
Definition moved (ds : list str) (c : str) (es : list str) (d : str) : change :=
  with_value E (ds ++ [c]) None (fun v w w' => place_for es d (fst w)
    /\ (in_lines (line_taken (ds ++ [c])) >> in_lines (value_put E es d v)) w w').
Definition move (ds : list str) (c : str) (es : list str) (d : str) : change := if_there (ds ++ [c]) (moved ds c es d).
Definition rename (ds : list str) (c d : str) : change := move ds c ds d.
Definition renames (ds : list str) (l : list (str * str)) : change := all_of (map (fun cd => rename ds (fst cd) (snd cd)) l).
(** A key without value is added unless the key is there. *)
Definition created (ds : list str) (c : str) : change := if_missing (ds ++ [c]) (in_lines (value_put E ds c JNull)).
(** A key that moves into another key of the same section, which is added if need be. *)
Definition nest (ds : list str) (c into d : str) : change :=
  if_there (ds ++ [c]) (created ds into) >> move ds c (ds ++ [into]) d.
Definition unsupported_field (cs : list str) : str := $"Field at `" ++ path_text cs ++ $"` is no longer supported.".
Definition dropped (ds : list str) (c : str) : change :=
  if_there (ds ++ [c]) (in_lines (line_taken (ds ++ [c])) >> tell (unsupported_field (ds ++ [c]))).
Definition all_dropped (ds : list str) (l : list str) : change := all_of (map (dropped ds) l).
(** The lines of a section in the order of the given names; comments first, other keys last (C44). *)
Definition in_order_of (names : list str) (cs : list str) : change :=
  if_there cs (in_lines (fun root root' => exists tbl q, map fst tbl = names /\ Sorted Z.lt (map snd tbl)
    /\ addresses root (path_text cs) q
    /\ changed_at (fun n n' => sorted_lines tbl (n_children n) (n_children n') /\ n' = with_lines n (n_children n')) q root root')).

(** * Misspelled keys (C92) *)
Definition misspellings_corrected (base : list str) : change :=
  renames (base ++ [$"build"]) [($"skipt", $"skip"); ($"skips", $"skip"); ($"Skip", $"skip")]
  >> rename base $"extras" $"extra".

(** * Sources (C93) *)
Definition source_upgraded (ds : list str) : change :=
  if_there (ds ++ [$"svn_url"]) (tell $"SVN packages are no longer supported in the V1 format")
  >> if_there (ds ++ [$"hg_url"]) (tell $"HG (Mercurial) packages are no longer supported in the V1 format")
  >> renames ds [($"fn", $"file_name"); ($"folder", $"target_directory"); ($"git_url", $"git"); ($"git_tag", $"tag");
                 ($"git_rev", $"rev"); ($"git_depth", $"depth")]
  >> in_order_of [$"url"; $"sha256"; $"md5"; $"path"; $"use_gitignore"; $"git"; $"branch"; $"tag"; $"rev"; $"depth"; $"lfs";
                  $"target_directory"; $"file_name"; $"patches"] ds.
Definition sources_upgraded (base : list str) : change :=
  let src := base ++ [$"source"] in
  if_there src (with_value E src None (fun v =>
    match v with
    | JList l => all_of (map (fun i => source_upgraded (src ++ [str_of_nat i])) (seq 0 (length l)))
    | _ => source_upgraded src
    end)).

(** * The build section and the requirements (C94) *)
Definition to_requirements (base : list str) (c : str) : change :=
  if_there (base ++ [$"build"; c])
    (created base $"requirements" >> moved (base ++ [$"build"]) c (base ++ [$"requirements"]) c).
(** What Python walks through. *)
Inductive walked : json -> list json -> Prop :=
| walked_list l : walked (JList l) l
| walked_text s : walked (JStr s) (map (fun c => JStr [c]) s)
| walked_keys d : walked (JDict d) (map (fun kv => JP (fst kv)) d).
(** An entry of [script_env] that can be kept: a variable to pass on, or one that is set. *)
Inductive env_kept : json -> env_kind -> Prop :=
| kept_name s : ~ In "="%char s -> env_kept (JStr s) (Secret (JStr (strip s)))
| kept_setting a b : ~ In "="%char a -> ~ In "="%char b -> env_kept (JStr (a ++ "="%char :: b)) (Setting (strip a) (strip b))
| kept_conditional d s : field $"then" d = Some (JStr s) -> ~ In "="%char s -> env_kept (JDict d) (Secret (JDict d)).
(** The settings as a mapping: each name once, where it first stood, with its last value. *)
Definition env_mapping (settings : list (prim * json)) (d : list (prim * json)) : Prop :=
  map fst d = rev (nodup prim_dec (rev (map fst settings)))
  /\ forall n, assoc_prim (PStr n) d = last_entry n settings.
Definition unless_empty {A} (k : str) (v : json) (l : list A) : list (prim * json) := match l with [] => [] | _ => [(PStr k, v)] end.
Definition new_script (env : list (prim * json)) (secrets : list json) (script : json) : json :=
  JDict (unless_empty $"env" (JDict env) env ++ unless_empty $"secrets" (JList secrets) secrets
         ++ if json_truthy script then [(PStr $"content", script)] else []).
Definition script_upgraded (build : list str) : change :=
  with_value E (build ++ [$"script_env"]) (Some (JList [])) (fun v =>
    if json_truthy v then
      fun w w' => exists items kinds env, walked v items /\ Forall2 env_kept items kinds /\ env_mapping (settings_of kinds) env
        /\ with_value E (build ++ [$"script"]) (Some (JStr [])) (fun script =>
             in_lines (if json_truthy script then value_replaced E (build ++ [$"script"]) (new_script env (secrets_of kinds) script)
                       else value_put E build $"script" (new_script env (secrets_of kinds) script))
             >> in_lines (line_taken (build ++ [$"script_env"]))) w w'
    else nothing).
Definition build_upgraded (base : list str) : change :=
  let build := base ++ [$"build"] in
  to_requirements base $"run_exports" >> to_requirements base $"ignore_run_exports"
  >> if_there build
       (renames build [($"merge_build_host", $"merge_build_and_host_envs"); ($"no_link", $"always_copy_files")]
        >> nest build $"entry_points" $"python" $"entry_points"
        >> nest build $"ignore_prefix_files" $"prefix_detection" $"ignore"
        >> nest build $"detect_binary_files_with_prefix" $"prefix_detection" $"ignore_binary_files"
        >> nest build $"rpaths" $"dynamic_linking" $"rpaths"
        >> nest build $"binary_relocation" $"dynamic_linking" $"binary_relocation"
        >> nest build $"missing_dso_whitelist" $"dynamic_linking" $"missing_dso_allowlist"
        >> nest build $"runpath_whitelist" $"dynamic_linking" $"rpath_allowlist"
        >> script_upgraded build
        >> all_dropped build
             [$"pre-link"; $"noarch_python"; $"features"; $"msvc_compiler"; $"requires_features"; $"provides_features";
              $"preferred_env"; $"preferred_env_executable_paths"; $"disable_pip"; $"pin_depends";
              $"overlinking_ignore_patterns"; $"rpaths_patcher"; $"post-link"; $"pre-unlink"; $"pre-link"]
        >> in_order_of [$"number"; $"string"; $"skip"; $"noarch"; $"script"; $"merge_build_and_host_envs";
                        $"always_include_files"; $"always_copy_files"; $"variant"; $"python"; $"prefix_detection";
                        $"dynamic_linking"] build).
Definition requirements_upgraded (base : list str) : change :=
  if_there (base ++ [$"requirements"]) (rename (base ++ [$"requirements"]) $"run_constrained" $"run_constraints").

(** * About (C95) *)
(** [closest]: the license a text stands for (C62 says which). *)
Definition license_checked (closest : str -> option str) (about : list str) : change :=
  with_value E (about ++ [$"license"]) (Some JNull) (fun v =>
    match v with
    | JP PNull => tell ($"No `license` provided in `" ++ path_text about ++ $"`")
    | JStr old =>
        match closest old with
        | None => tell ($"Could not patch unrecognized license: `" ++ old ++ $"`")
        | Some new =>
            if list_eq_dec ascii_dec old new then nothing
            else in_lines (value_replaced E (about ++ [$"license"]) (JStr new))
                 >> tell ($"Changed " ++ path_text (about ++ [$"license"]) ++ $" from `" ++ old ++ $"` to `" ++ new ++ $"`")
        end
    | _ => fun _ _ => False
    end).
(** A list of lines becomes one text. *)
Definition summary_joined (about : list str) : change :=
  with_value E (about ++ [$"summary"]) (Some (JStr [])) (fun v =>
    match v with
    | JList l => fun w w' => exists ls, l = map (fun s => JStr s) ls
                   /\ in_lines (value_replaced E (about ++ [$"summary"]) (JStr (join [cNL] ls))) w w'
    | _ => nothing
    end).
Definition about_upgraded (closest : str -> option str) (base : list str) : change :=
  let about := base ++ [$"about"] in
  if_there about
    (renames about [($"home", $"homepage"); ($"dev_url", $"repository"); ($"doc_url", $"documentation")]
     >> license_checked closest about >> summary_joined about
     >> all_dropped about [$"prelink_message"; $"license_family"; $"identifiers"; $"tags"; $"keywords"; $"doc_source_url"]).

(** * Tests (C96) *)
Definition either (P : Prop) (A B : change) : change := fun w w' => (P /\ A w w') \/ (~ P /\ B w w').
Definition if_else_there (cs : list str) (A B : change) : change := fun w w' => either (present (fst w) cs) A B w w'.
Definition files_nested (test : list str) : change :=
  let files := test ++ [$"files"] in
  if_else_there files
    (with_value E files None (fun v => in_lines (line_taken files) >> in_lines (value_put E test $"files" JNull)
                                       >> in_lines (value_put E files $"recipe" v)))
    (if_there (test ++ [$"source_files"]) (created test $"files"))
  >> move test $"source_files" files $"source".
Definition provided (P : Prop) (A : change) : change := fun w w' => P /\ A w w'.
(** What Python looks for a text in. *)
Definition searchable (v : json) : Prop := match v with JStr _ | JList _ | JDict _ => True | _ => False end.
Definition mentions (x : str) (v : json) : Prop :=
  match v with
  | JStr s => has_text x s
  | JList l => In (JStr x) l
  | JDict d => exists u, In (PStr x, u) d
  | _ => False
  end.
Definition checks_pip (v : json) : Prop := v = JStr $"pip check" \/ v = JStr $"python -m pip check" \/ v = JStr $"python3 -m pip check".
(** The first command that checks the installation, if any. *)
Inductive first_check : list json -> option nat -> Prop :=
| check_found before v after : Forall (fun u => ~ checks_pip u) before -> checks_pip v ->
    first_check (before ++ v :: after) (Some (length before))
| check_missing l : Forall (fun u => ~ checks_pip u) l -> first_check l None.
Definition pip_check_found (base test : list str) : change :=
  with_value E (base ++ [$"requirements"; $"host"]) (Some (JList [])) (fun host => provided (searchable host) (either (mentions $"python" host)
    (with_value E (test ++ [$"commands"]) (Some (JList [])) (fun v w w' => exists items hit, walked v items /\ first_check items hit
       /\ (match hit with
           | Some i =>
               in_lines (line_taken (test ++ [$"commands"; str_of_nat i]))
               >> (if length items =? 1
                   then in_lines (line_taken (test ++ [$"commands"]))
                        >> if_there (test ++ [$"requirements"]) (in_lines (line_taken (test ++ [$"requirements"])))
                   else nothing)
           | None => nothing
           end
           >> created test $"python"
           >> in_lines (value_put E (test ++ [$"python"]) $"pip_check" (JBool (is_some hit)))) w w'))
    nothing)).
(** The tests: one for [python], one for [downstream], one for everything else. *)
Definition tests_of (v : json) (tests : list json) : Prop :=
  match v with
  | JDict d =>
      let one k := match field k d with Some u => [JDict [(PStr k, u)]] | None => [] end in
      tests = one $"python" ++ one $"downstream"
              ++ (match filter ordinary d with [] => [] | rest => [JDict rest] end)
  | _ => searchable v /\ ~ mentions $"python" v /\ ~ mentions $"downstream" v /\ tests = if json_truthy v then [v] else []
  end.
Definition tests_upgraded (base : list str) : change :=
  let test := base ++ [$"test"] in
  if_there test
    (files_nested test
     >> nest test $"requires" $"requirements" $"run"
     >> pip_check_found base test
     >> rename test $"commands" $"script"
     >> if_there (test ++ [$"imports"]) (created test $"python" >> move test $"imports" (test ++ [$"python"]) $"imports")
     >> rename test $"downstreams" $"downstream"
     >> in_order_of [$"imports"; $"pip_check"] (test ++ [$"python"])
     >> with_value E test None (fun v w w' => exists tests, tests_of v tests
          /\ (in_lines (value_put E base $"tests" (JList tests)) >> in_lines (line_taken test)) w w')).

(** * Outputs (C97) *)
Definition top_level : list str :=
  [$"schema_version"; $"context"; $"package"; $"recipe"; $"source"; $"files"; $"build"; $"requirements"; $"outputs"; $"test";
   $"tests"; $"about"; $"extra"].
Definition output_upgraded (out : list str) : change :=
  (fun w w' => either (present (fst w) (out ++ [$"name"]) \/ present (fst w) (out ++ [$"version"])) (created out $"package") nothing w w')
  >> move out $"name" (out ++ [$"package"]) $"name"
  >> move out $"version" (out ++ [$"package"]) $"version"
  >> in_order_of top_level out.
Definition outputs_upgraded (outputs : list (list str)) : change :=
  if_there [$"outputs"] (rename [] $"package" $"recipe" >> all_of (map output_upgraded outputs)).

(** * All sections.  The packages of a recipe: the recipe itself and its outputs. *)
Definition for_each (A : list str -> change) (bases : list (list str)) : change := all_of (map A bases).
Definition sections_upgraded (closest : str -> option str) (outputs : list (list str)) : change :=
  let bases := [] :: outputs in
  for_each misspellings_corrected bases >> for_each sources_upgraded bases >> for_each build_upgraded bases
  >> for_each requirements_upgraded bases >> for_each (about_upgraded closest) bases >> for_each tests_upgraded bases
  >> outputs_upgraded outputs.
End Blocks.
Definition outputs_of (n : nat) : list (list str) := map (fun i => [$"outputs"; str_of_nat i]) (seq 0 n).
