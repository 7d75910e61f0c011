(** Property theorems: dependencies (C47-C50). *)
From Verif Require Import Samples DepsProofs DepsProofs2 DepsProofs3 DepsProofs4 DepsSpec DepsSpec2.

(** A small reader of match specifications for the examples: the name ends at the first blank or comparison sign. *)
Fixpoint first_word (s : str) : str :=
  match s with
  | [] => []
  | c :: s' => if is_space c || existsb (ceq c) (lit "<>=!~") then [] else c :: first_word s'
  end.
Definition mini_spec : match_spec := fun s => match first_word s with [] => None | n => Some n end.
Definition sample_dep (path text : string) (sel : option string) : dependency :=
  {| d_by := PStr $"foo"; d_path := lit path; d_type := RUN; d_data := dependency_data_from_str mini_spec (lit text);
     d_sel := option_map (fun s => selector_parser (lit s) SV0) sel |}.
Definition deps_text : list string := [
  "package:"; "  name: foo"; "";
  "requirements:"; "  host:"; "    - python"; "  run:"; "    - python >=3.8  # [unix] note"; "    # two"; "    - numpy"; "    - python"
]%string.
Definition added (dep : dependency) (mode : dep_mode) (smode : sel_mode) (text : list string) : res bool * str :=
  let o := add_dependency mini_env mini_spec dep mode smode (recipe_of (nl text)) in (fst o, render mini_env (snd o)).

(** ** C47 *)
Theorem C47_section_names_round_trip : forall d sv, str_to_dependency_section (dependency_section_to_str d sv) = Some d.
Proof. exact c47_round. Qed.
Print Assumptions C47_section_names_round_trip.
Theorem C47_distinct_sections_distinct_names : forall d sv d' sv',
  dependency_section_to_str d sv = dependency_section_to_str d' sv' -> d = d'.
Proof. exact c47_distinct. Qed.
Print Assumptions C47_distinct_sections_distinct_names.
Theorem C47_accepted_spellings : forall s d, str_to_dependency_section s = Some d <-> spells s d.
Proof. exact section_spells. Qed.
Print Assumptions C47_accepted_spellings.
Example C47_example :
  dependency_section_to_str RUN_CONSTRAINTS SV0 = $"run_constrained"
  /\ dependency_section_to_str RUN_CONSTRAINTS SV1 = $"run_constraints"
  /\ str_to_dependency_section $" Run_Constrained " = Some RUN_CONSTRAINTS
  /\ str_to_dependency_section $"runs" = None /\ str_to_dependency_section $"" = None.
Proof. repeat split; vm_compute; reflexivity. Qed.

(** ** C48 *)
Theorem C48_ignore_keeps_the_recipe : forall E MS dep smode r cs d q n before x after,
  requirements_path (d_path dep) cs d -> section_at E r cs q n (before ++ x :: after) ->
  Forall (names_other MS (dep_name dep)) before -> names_package MS (dep_name dep) x ->
  add_dependency E MS dep DMIgnore smode r = (Ok false, r).
Proof. exact c48_ignore. Qed.
Print Assumptions C48_ignore_keeps_the_recipe.
Theorem C48_replace_overwrites_the_first : forall E MS dep smode r cs d q n before x after j c cm,
  requirements_path (d_path dep) cs d -> section_at E r cs q n (before ++ x :: after) ->
  Forall (names_other MS (dep_name dep)) before -> names_package MS (dep_name dep) x ->
  entry_line n (length before) j c -> plain_dependency E (dep_text dep) ->
  merged_comment smode (n_comment c) (d_sel dep) cm ->
  exists r', add_dependency E MS dep DMReplace smode r = (Ok true, r')
  /\ changed_at (line_replaced j [dependency_line (dep_text dep) cm]) q (r_root r) (r_root r') /\ same_but_tree r r'.
Proof. exact c48_replace. Qed.
Print Assumptions C48_replace_overwrites_the_first.
Theorem C48_exact_overwrites_the_position : forall E MS dep smode r cs d q n l j c cm,
  requirements_path (d_path dep) cs d -> section_at E r cs q n l ->
  entry_line n (int_of d) j c -> plain_dependency E (dep_text dep) ->
  merged_comment smode (n_comment c) (d_sel dep) cm ->
  exists r', add_dependency E MS dep DMExact smode r = (Ok true, r')
  /\ changed_at (line_replaced j [dependency_line (dep_text dep) cm]) q (r_root r) (r_root r') /\ same_but_tree r r'.
Proof. exact c48_exact. Qed.
Print Assumptions C48_exact_overwrites_the_position.
(** Use-both always appends; the other modes append when no entry has the name. *)
Theorem C48_otherwise_appends : forall E MS dep mode smode r cs d q n l cm,
  requirements_path (d_path dep) cs d -> section_at E r cs q n l ->
  mode = DMUseBoth \/ (mode <> DMExact /\ Forall (names_other MS (dep_name dep)) l) ->
  plain_dependency E (dep_text dep) -> new_line_comment (d_sel dep) cm ->
  d_sel dep = None \/ reads_one_more E r cs q n (dep_text dep) ->
  exists r', add_dependency E MS dep mode smode r = (Ok true, r')
  /\ changed_at (lines_appended [dependency_line (dep_text dep) cm]) q (r_root r) (r_root r') /\ same_but_tree r r'.
Proof. exact c48_append. Qed.
Print Assumptions C48_otherwise_appends.
(** A section that does not exist is opened below existing requirements. *)
Theorem C48_missing_section_is_opened : forall E MS dep mode smode r ps sec d q n key key',
  requirements_path (d_path dep) (ps ++ [sec]) d -> mode <> DMExact ->
  addresses (r_root r) (path_text ps) q -> node_at (r_root r) q = Some n -> n_keyf n = true -> n_lmf n = false ->
  (forall x, In x (n_children n) -> ~ names sec x) ->
  section_key E sec (dep_text dep) key -> opened_section key (d_sel dep) key' ->
  exists r', add_dependency E MS dep mode smode r = (Ok true, r')
  /\ changed_at (lines_appended [key']) q (r_root r) (r_root r') /\ same_but_tree r r'.
Proof. exact c48_new_section. Qed.
Print Assumptions C48_missing_section_is_opened.
Theorem C48_missing_requirements : forall E MS dep mode smode r ps sec d,
  requirements_path (d_path dep) (ps ++ [sec]) d -> (forall q, ~ addresses (r_root r) (path_text ps) q) ->
  add_dependency E MS dep mode smode r = (Ok false, r).
Proof. exact c48_no_place. Qed.
Print Assumptions C48_missing_requirements.
(** The replaced line loses the text of its comment even if its selector is kept; the selector of a dependency that opens
    a section is set on the section as well as on the dependency. *)
Example C48_example :
  added (sample_dep "/requirements/run/0" "python <4" None) DMIgnore SMAnd deps_text = (Ok false, nl deps_text)
  /\ added (sample_dep "/requirements/run/0" "python <4" (Some "[win]"%string)) DMReplace SMOr deps_text
     = (Ok true, nl ["package:"; "  name: foo"; "";
          "requirements:"; "  host:"; "    - python"; "  run:"; "    - python <4  # [unix or win]"; "    # two"; "    - numpy"; "    - python"]%string)
  /\ added (sample_dep "/requirements/run/1" "python <4" None) DMExact SMAnd deps_text
     = (Ok true, nl ["package:"; "  name: foo"; "";
          "requirements:"; "  host:"; "    - python"; "  run:"; "    - python >=3.8  # [unix] note"; "    # two"; "    - python <4"; "    - python"]%string)
  /\ added (sample_dep "/requirements/run/0" "python <4" (Some "[win]"%string)) DMUseBoth SMAnd deps_text
     = (Ok true, nl (deps_text ++ ["    - python <4  # [win]"]%string))
  /\ added (sample_dep "/requirements/run/0" "scipy" None) DMIgnore SMAnd deps_text
     = (Ok true, nl (deps_text ++ ["    - scipy"]%string))
  /\ added (sample_dep "/requirements/build/0" "gcc" (Some "[linux]"%string)) DMReplace SMAnd deps_text
     = (Ok true, nl (deps_text ++ ["  build:  # [linux]"; "    - gcc  # [linux]"]%string))
  /\ added (sample_dep "/outputs/0/requirements/run/0" "gcc" None) DMReplace SMAnd deps_text = (Ok false, nl deps_text).
Proof. repeat split; vm_compute; reflexivity. Qed.
(** A section without entries is read as its own name, whose letters are taken for entries: a package called "r" is not
    added to an empty "run" section, and replacing fails. *)
Definition empty_run : list string := ["package:"; "  name: foo"; ""; "requirements:"; "  host:"; "    - x"; "  run:"]%string.
Theorem C48_empty_section_refuted : exists text,
  render mini_env (recipe_of (nl text)) = nl text
  /\ added (sample_dep "/requirements/run/0" "r" None) DMIgnore SMAnd text = (Ok false, nl text)
  /\ added (sample_dep "/requirements/run/0" "r" None) DMReplace SMAnd text = (Err EIndex, nl text)
  /\ added (sample_dep "/requirements/run/0" "q" None) DMReplace SMAnd text = (Ok true, nl (text ++ ["    - q"]%string)).
Proof. exists empty_run. repeat split; vm_compute; reflexivity. Qed.
Print Assumptions C48_empty_section_refuted.
(** The hypotheses hold of that recipe. *)
Example C48_hypotheses :
  let r := recipe_of (nl deps_text) in
  let dep := sample_dep "/requirements/run/0" "python <4" (Some "[win]"%string) in
  exists q n, section_at mini_env r [$"requirements"; $"run"] q n ([] ++ JStr $"python >=3.8" :: [JStr $"numpy"; JStr $"python"])
  /\ requirements_path (d_path dep) [$"requirements"; $"run"] $"0"
  /\ names_package mini_spec (dep_name dep) (JStr $"python >=3.8")
  /\ plain_dependency mini_env (dep_text dep)
  /\ (exists c, entry_line n 0 0 c /\ merged_comment SMOr (n_comment c) (d_sel dep) $"# [unix or win]")
  /\ names_other mini_spec (dep_name dep) (JStr $"numpy")
  /\ reads_one_more mini_env r [$"requirements"; $"run"] q n (dep_text dep).
Proof.
  intros r dep. exists [1; 1]. eexists. split; [|split; [|split; [|split; [|split; [|split]]]]].
  - split; [eexists; split; vm_compute; reflexivity|]. split; [vm_compute; reflexivity|]. split; [|vm_compute; reflexivity].
    split; [vm_compute; reflexivity|]. split; [vm_compute; reflexivity|].
    repeat apply Forall_cons; try apply Forall_nil;
      ((left; split; [reflexivity|split; [discriminate|reflexivity]]) || (right; split; vm_compute; reflexivity)).
  - apply (rp_top $"run" RUN $"0").
    + apply section_spells. vm_compute. reflexivity.
    + split; [discriminate|]. constructor; [left; reflexivity|constructor].
  - exists $"python >=3.8". split.
    + exists $"python >=3.8". split; [reflexivity|]. split; [apply trims_strip; vm_compute; reflexivity|discriminate].
    + pose proof (data_package mini_spec $"python >=3.8") as H. vm_compute in H. exact H.
  - vm_compute. reflexivity.
  - eexists. split.
    + split; [vm_compute; reflexivity|]. split; [intros (H & _); discriminate|reflexivity].
    + apply (mc_joined SMOr _ _ $"unix" $"win"); [discriminate|vm_compute; reflexivity|].
      split; [vm_compute; reflexivity|]. vm_compute. intuition discriminate.
  - right. exists $"numpy", $"numpy". split; [|split].
    + exists $"numpy". split; [reflexivity|]. split; [apply trims_strip; vm_compute; reflexivity|discriminate].
    + pose proof (data_package mini_spec $"numpy") as H. vm_compute in H. exact H.
    + vm_compute. discriminate.
  - intros root' H. eexists. assert (root' = update_at [1; 1] (add_line (dependency_line (dep_text dep) [])) (r_root r)) as ->.
    { apply changed_append_fun with (1 := H). }
    split; vm_compute; reflexivity.
Qed.

(** ** C49 *)
Theorem C49_add_needs_a_requirements_path : forall E MS dep mode smode r,
  (forall cs d, ~ requirements_path (d_path dep) cs d) -> add_dependency E MS dep mode smode r = (Ok false, r).
Proof. exact c49_rejects. Qed.
Print Assumptions C49_add_needs_a_requirements_path.
Theorem C49_accepted_paths : forall p, is_valid_dependency_path p = true <-> exists cs d, requirements_path p cs d.
Proof. exact valid_path. Qed.
Print Assumptions C49_accepted_paths.
(** What remove_dependency does is what a remove patch does: exactly the addressed line goes. *)
Theorem C49_remove_deletes_one_line : forall E dep r r',
  proper_tree (r_root r) = true -> d_path dep <> [] -> remove_dependency E dep r = (Ok true, r') ->
  exists q i, addresses (r_root r) (d_path dep) (q ++ [i]) /\ changed_at (line_removed i) q (r_root r) (r_root r')
              /\ same_but_tree r r'.
Proof. exact c49_remove. Qed.
Print Assumptions C49_remove_deletes_one_line.
Theorem C49_failed_remove_keeps_the_recipe : forall E dep r,
  fst (remove_dependency E dep r) <> Ok true -> snd (remove_dependency E dep r) = r.
Proof. exact c49_remove_fails. Qed.
Print Assumptions C49_failed_remove_keeps_the_recipe.
(** remove_dependency does not look at the path at all: it removes any line. *)
Theorem C49_remove_any_path_refuted : exists r dep,
  (forall cs d, ~ requirements_path (d_path dep) cs d) /\ fst (remove_dependency mini_env dep r) = Ok true
  /\ render mini_env r = nl ["package:"; "  name: foo"; "";  "about:"; "  home: x"]%string
  /\ render mini_env (snd (remove_dependency mini_env dep r)) = nl ["about:"; "  home: x"]%string.
Proof.
  exists (recipe_of (nl ["package:"; "  name: foo"; "";  "about:"; "  home: x"]%string)), (sample_dep "/package" "x" None).
  split; [|repeat split; vm_compute; reflexivity].
  intros cs d H. assert (is_valid_dependency_path $"/package" = true) as HV by (apply valid_path; eauto). vm_compute in HV. discriminate.
Qed.
Print Assumptions C49_remove_any_path_refuted.
Example C49_example :
  is_valid_dependency_path $"/requirements/run/0" = true
  /\ is_valid_dependency_path $"/outputs/1/requirements/host/12" = true
  /\ is_valid_dependency_path $"/requirements/run" = false
  /\ is_valid_dependency_path $"/requirements/build/x" = false
  /\ is_valid_dependency_path $"/outputs/a/requirements/host/1" = false
  /\ added (sample_dep "/package/run/0" "x" None) DMUseBoth SMAnd deps_text = (Ok false, nl deps_text).
Proof. repeat split; vm_compute; reflexivity. Qed.

(** ** C50 *)
Theorem C50_top_level_reaches_every_package : forall root rl before after,
  Forall (fun kv => prim_eqb (fst kv) root = false) (before ++ after) ->
  add_top_level_dependencies root (before ++ (root, rl) :: after)
  = map (fun kv => (fst kv, snd kv ++ map (owned_by (fst kv)) rl)) before ++ (root, rl)
    :: map (fun kv => (fst kv, snd kv ++ map (owned_by (fst kv)) rl)) after.
Proof. exact c50_table. Qed.
Print Assumptions C50_top_level_reaches_every_package.
Theorem C50_no_top_level_package : forall root m,
  Forall (fun kv => prim_eqb (fst kv) root = false) m -> add_top_level_dependencies root m = m.
Proof. exact c50_no_root. Qed.
Print Assumptions C50_no_top_level_package.
(** The whole table: the packages are the top level and the outputs in order; the top level has its own dependencies;
    every output has its own dependencies followed by those of the top level. *)
Theorem C50_dependency_table : forall E MS r m, get_all_dependencies E MS r = Ok m ->
  exists root n tbl rd l,
    get_package_names_to_path E r = Ok ((root, $"/") :: tbl)
    /\ map snd tbl = map (fun i => path_text [$"outputs"; str_of_nat i]) (seq 0 n)
    /\ m = (root, rd) :: l
    /\ (forall d, In d rd <-> own_dependency E MS r root $"/" d)
    /\ Forall2 (fun kv ke => fst ke = fst kv /\ exists own, snd ke = own ++ map (owned_by (fst kv)) rd
                 /\ forall d, In d own <-> own_dependency E MS r (fst kv) (snd kv) d) tbl l.
Proof. exact c50_all. Qed.
Print Assumptions C50_dependency_table.
(** In order, and exactly when the table can be made. *)
Theorem C50_table_in_order : forall E MS r m, get_all_dependencies E MS r = Ok m <->
  exists root tbl rd l, get_package_names_to_path E r = Ok ((root, $"/") :: tbl) /\ m = (root, rd) :: l
    /\ dependencies_of E MS r root $"/" rd
    /\ Forall2 (fun kv ke => fst ke = fst kv /\ exists own, snd ke = own ++ map (owned_by (fst kv)) rd
                 /\ dependencies_of E MS r (fst kv) (snd kv) own) tbl l.
Proof. exact c50_in_order. Qed.
Print Assumptions C50_table_in_order.
(** The table of package names exists exactly when every package has a name of its own, and holds these names. *)
Theorem C50_package_names : forall E r tbl, get_package_names_to_path E r = Ok tbl <->
  exists v n, get_value E (r_root r) $"/outputs" (Some (JList [])) None = Ok v /\ json_len v = Ok n
    /\ map snd tbl = $"/" :: map (fun i => path_text [$"outputs"; str_of_nat i]) (seq 0 n)
    /\ Forall (fun kv => get_value E (r_root r) (name_place r (snd kv)) None (Some (r_schema r, r_vars r)) = Ok (JP (fst kv))) tbl
    /\ ForallOrdPairs (fun a b => prim_eqb (fst a) (fst b) = false) tbl.
Proof. exact c50_names. Qed.
Print Assumptions C50_package_names.
Example C50_names_example :
  get_package_names_to_path mini_env (recipe_of (nl ["schema_version: 1"; "recipe:"; "  name: foo"; "outputs:"; "  - package:"; "      name: a"; "  - package:"; "      name: b"]%string))
  = Ok [(PStr $"foo", $"/"); (PStr $"a", $"/outputs/0"); (PStr $"b", $"/outputs/1")]
  /\ get_package_names_to_path mini_env (recipe_of (nl ["package:"; "  name: a"; "outputs:"; "  - name: a"]%string)) = Err EValue.
Proof. vm_compute. auto. Qed.
Definition table_of (text : list string) : res (list (prim * list (str * str))) :=
  match get_all_dependencies mini_env mini_spec (recipe_of (nl text)) with
  | Ok m => Ok (map (fun kv => (fst kv, map (fun d => (d_path d, dep_text d)) (snd kv))) m)
  | Err e => Err e
  end.
(** A section given as one text instead of a list is taken letter by letter. *)
Theorem C50_text_section_refuted : exists r m,
  render mini_env r = nl ["package:"; "  name: foo"; ""; "requirements:"; "  run: py"]%string
  /\ get_all_dependencies mini_env mini_spec r = Ok m
  /\ map (fun kv => map dep_text (snd kv)) m = [[$"p"; $"y"]].
Proof.
  exists (recipe_of (nl ["package:"; "  name: foo"; ""; "requirements:"; "  run: py"]%string)). eexists.
  split; [vm_compute; reflexivity|]. split; vm_compute; reflexivity.
Qed.
Print Assumptions C50_text_section_refuted.
(** A section without entries makes the whole table fail. *)
Theorem C50_empty_section_refuted : exists r,
  render mini_env r = nl empty_run /\ get_all_dependencies mini_env mini_spec r = Err EType.
Proof. exists (recipe_of (nl empty_run)). split; vm_compute; reflexivity. Qed.
Print Assumptions C50_empty_section_refuted.
Example C50_example :
  table_of ["package:"; "  name: foo"; "requirements:"; "  host:"; "    - python"; "outputs:"; "  - name: a"; "    requirements:"; "      run:";
            "        - numpy >1"; "  - name: b"]%string
  = Ok [(PStr $"foo", [($"/requirements/host/0", $"python")]);
        (PStr $"a", [($"/outputs/0/requirements/run/0", $"numpy >1"); ($"/requirements/host/0", $"python")]);
        (PStr $"b", [($"/requirements/host/0", $"python")])].
Proof. vm_compute. reflexivity. Qed.

(** ** C90 *)
Theorem C90_dependency_paths : forall E r l, get_dependency_paths E r = Ok l ->
  (forall p, In p l <-> dependency_line_path E r p) /\ NoDup l /\ (forall p, In p l -> exists cs d, requirements_path p cs d).
Proof. intros E r l H. split; [exact (c90_in E r l H)|]. split; [exact (c90_nodup E r l H)|]. intros p. exact (c90_shape E r l p H). Qed.
Print Assumptions C90_dependency_paths.
(** In order, and exactly when the paths can be listed: first the sections at the top, then those of each output; the members of each
    section are numbered from zero. *)
Theorem C90_in_order : forall E r l, get_dependency_paths E r = Ok l <->
  exists n sizes, size_at E r $"/outputs" n /\ Forall2 (size_at E r) (section_places (r_schema r) n) sizes
    /\ l = concat (map (fun pk => numbered (fst pk) (snd pk)) (combine (section_places (r_schema r) n) sizes)).
Proof. exact c90_in_order. Qed.
Print Assumptions C90_in_order.
Example C90_example :
  get_dependency_paths mini_env (recipe_of (nl ["requirements:"; "  host:"; "    - python"; "    # note"; "    - pip"; "  run_constrained:"; "    - a";
                                                "outputs:"; "  - name: x"; "    requirements:"; "      run:"; "        - y"]%string))
  = Ok (map lit ["/requirements/host/0"; "/requirements/host/1"; "/requirements/run_constrained/0"; "/outputs/0/requirements/run/0"]%string).
Proof. vm_compute. reflexivity. Qed.
(** Not every path leads to a line: a section that is one text is counted by its characters, and an empty section by the
    characters of its name. *)
Theorem C90_paths_lead_somewhere_refuted : exists r l p, get_dependency_paths mini_env r = Ok l /\ In p l /\ lookup (r_root r) p = None.
Proof.
  exists (recipe_of (nl ["requirements:"; "  host: python"]%string)).
  exists (map lit ["/requirements/host/0"; "/requirements/host/1"; "/requirements/host/2"; "/requirements/host/3"; "/requirements/host/4"; "/requirements/host/5"]%string).
  exists $"/requirements/host/4". split; [vm_compute; reflexivity|]. split; [cbn [map In]; tauto|vm_compute; reflexivity].
Qed.
Print Assumptions C90_paths_lead_somewhere_refuted.
Theorem C90_empty_section_refuted : exists r p, lookup (r_root r) p = None
  /\ get_dependency_paths mini_env r = Ok (map (fun i => $"/requirements/host/" ++ str_of_nat i) [0; 1; 2; 3] ++ [$"/requirements/run/0"]) /\ p = $"/requirements/host/0".
Proof.
  exists (recipe_of (nl ["requirements:"; "  host:"; "  run:"; "    - python"]%string)), $"/requirements/host/0".
  split; [vm_compute; reflexivity|]. split; [vm_compute; reflexivity|reflexivity].
Qed.
Print Assumptions C90_empty_section_refuted.
