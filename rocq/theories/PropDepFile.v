(** Property C139: what adding and removing a dependency does to a file in the canonical layout. *)
From Verif Require Import EditProofs RenderProofs4 Samples MiniYaml PropCommands PropPatch PropReport PropBump PropEditFile DepsProofs PropDeps DepFileProofs DepFileSpec.

(** ** C139 *)
Theorem C139_file_to_file : forall E MS dep mode smode vars xs xs', canonical_recipe E xs vars -> canonical_recipe E xs' vars ->
  dependency_added E MS dep mode smode SV0 vars xs xs' ->
  exists r r', new_recipe E (join NLs (recipe_page xs vars)) = Ok r /\ add_dependency E MS dep mode smode r = (Ok true, r')
  /\ render E r' = join NLs (recipe_page xs' vars).
Proof. exact c139. Qed.
Print Assumptions C139_file_to_file.
(** The same on a recipe that was changed before: dependencies can be added one after the other. *)
Theorem C139_one_dependency : forall E MS dep mode smode sv vars xs xs', dependency_added E MS dep mode smode sv vars xs xs' ->
  forall r, r_root r = document xs -> r_schema r = sv -> r_vars r = vars ->
  exists r', add_dependency E MS dep mode smode r = (Ok true, r') /\ r_root r' = document xs' /\ same_but_tree r r'.
Proof. exact add_once. Qed.
Print Assumptions C139_one_dependency.
Theorem C139_removed : forall E dep vars xs xs', canonical_recipe E xs vars -> canonical_recipe E xs' vars ->
  file_edited E (RRemove (d_path dep)) xs xs' ->
  exists r r', new_recipe E (join NLs (recipe_page xs vars)) = Ok r /\ remove_dependency E dep r = (Ok true, r')
  /\ render E r' = join NLs (recipe_page xs' vars).
Proof. exact c139_removed. Qed.
Print Assumptions C139_removed.
Theorem C139_ignored : forall E MS dep smode vars xs cs d before x after, canonical_recipe E xs vars -> requirements_path (d_path dep) cs d ->
  inside (section_changed (last cs []) (fun ys ys' => dependency_lines ys /\ ys' = ys)) cs xs xs ->
  get_value E (document xs) (path_text cs) None (Some (SV0, vars)) = Ok (JList (before ++ x :: after)) ->
  Forall (names_other MS (dep_name dep)) before -> names_package MS (dep_name dep) x ->
  exists r, new_recipe E (join NLs (recipe_page xs vars)) = Ok r /\ add_dependency E MS dep DMIgnore smode r = (Ok false, r)
  /\ render E r = join NLs (recipe_page xs vars).
Proof. exact c139_ignored. Qed.
Print Assumptions C139_ignored.

Definition dep_items : list item :=
  [ISection (PStr $"package") [] [IScalar (PStr $"name") (JStr $"foo") []];
   ISection (PStr $"requirements") []
     [ISection (PStr $"host") [] [IElem (JStr $"pip") $"# keep"; IComment $"# two"; IElem (JStr $"python 3.8") $"# [unix] note"];
      ISection (PStr $"run") $"# later" [IElem (JStr $"python") []]];
   ISection (PStr $"about") [] [IScalar (PStr $"license") (JStr $"MIT") []]].
Definition with_requirements (reqs : list item) : list item :=
  [ISection (PStr $"package") [] [IScalar (PStr $"name") (JStr $"foo") []]; ISection (PStr $"requirements") [] reqs;
   ISection (PStr $"about") [] [IScalar (PStr $"license") (JStr $"MIT") []]].
Definition host_items : item := ISection (PStr $"host") [] [IElem (JStr $"pip") $"# keep"; IComment $"# two"; IElem (JStr $"python 3.8") $"# [unix] note"].
Definition run_items : item := ISection (PStr $"run") $"# later" [IElem (JStr $"python") []].
Definition at_end := with_requirements [host_items; ISection (PStr $"run") $"# later" [IElem (JStr $"python") []; IElem (JStr $"scipy") $"# [win]"]].
Definition same_name := with_requirements [ISection (PStr $"host") [] [IElem (JStr $"pip") $"# keep"; IComment $"# two"; IElem (JStr $"python 3.9") $"# [unix or win]"]; run_items].
Definition at_number := with_requirements [ISection (PStr $"host") [] [IElem (JStr $"cython") []; IComment $"# two"; IElem (JStr $"python 3.8") $"# [unix] note"]; run_items].
Definition new_section := with_requirements [host_items; run_items; ISection (PStr $"build") $"# [win]" [IElem (JStr $"gcc") $"# [win]"]].
Definition win : option string := Some "[win]"%string.
Ltac dep_path sec d := refine (rp_top sec _ d _ _); [apply section_spells; vm_compute; reflexivity|split; [discriminate|repeat constructor]].
Ltac entry_named s := eexists; split; [eexists; split; [reflexivity|]; split; [apply trims_strip; vm_compute; reflexivity|discriminate]|
  let H := fresh in pose proof (data_package mini_spec s) as H; vm_compute in H; exact H].
Ltac other_named s := right; exists s; eexists; split; [eexists; split; [reflexivity|]; split; [apply trims_strip; vm_compute; reflexivity|discriminate]|split;
  [let H := fresh in pose proof (data_package mini_spec s) as H; vm_compute in H; exact H|vm_compute; discriminate]].
Ltac dep_lines := unfold dependency_lines; repeat (apply Forall_cons; [(left; eexists; split; [reflexivity|discriminate]) || (right; do 2 eexists; reflexivity)|]); apply Forall_nil.
Ltac win_bracketed := split; [vm_compute; reflexivity|vm_compute; intuition discriminate].
(** Into the requirements, and there to a section behind the entries [A]. *)
Ltac to_section A :=
  eapply (inside_section _ _ _ _ _ _ _ _ [_]); [reflexivity|absent|apply below_section..|]; apply inside_here;
  exists A; do 6 eexists; split; [reflexivity|]; split; [absent|]; split; [apply below_section|]; split; [apply below_section|]; split; [|split; reflexivity].
Example C139_at_end : dependency_added mini_env mini_spec (sample_dep "/requirements/run/0" "scipy" win) DMReplace SMAnd SV0 [] dep_items at_end.
Proof.
  refine (added_at_end _ _ _ _ _ _ _ _ [$"requirements"; $"run"] $"0" [JStr $"python"] _ _ _ _ _ _ _); [dep_path $"run" $"0"|vm_compute; reflexivity| |vm_compute; reflexivity| |].
  - right. split; [discriminate|]. constructor; [other_named $"python"|constructor].
  - right. exists [IElem (JStr $"python") []], (with_requirements [host_items; ISection (PStr $"run") $"# later" [IElem (JStr $"python") []; IElem (JStr $"scipy") []]]), [JStr $"python"; JStr $"scipy"].
    split; [|split; [vm_compute; reflexivity|reflexivity]]. unfold dep_items. to_section [host_items]. split; reflexivity.
  - unfold dep_items, at_end. to_section [host_items]. split; [dep_lines|]. exists $"# [win]". split; [|reflexivity].
    refine (nc_some (selector_parser $"[win]" SV0) $"win" _). win_bracketed.
Qed.
Example C139_same_name : dependency_added mini_env mini_spec (sample_dep "/requirements/host/0" "python 3.9" win) DMReplace SMOr SV0 [] dep_items same_name.
Proof.
  refine (added_for_same_name _ _ _ _ _ _ _ _ [$"requirements"; $"host"] $"0" [JStr $"pip"] (JStr $"python 3.8") [] _ _ _ _ _ _ _ _);
    [dep_path $"host" $"0"|vm_compute; reflexivity|reflexivity| | |vm_compute; reflexivity|].
  - constructor; [other_named $"pip"|constructor].
  - entry_named $"python 3.8".
  - unfold dep_items, same_name. to_section (@nil item). split; [dep_lines|].
    exists [IElem (JStr $"pip") $"# keep"; IComment $"# two"], (JStr $"python 3.8"), $"# [unix] note", $"# [unix or win]", []. split; [reflexivity|]. split; [|split; reflexivity].
    refine (mc_joined SMOr _ (selector_parser $"[win]" SV0) $"unix" $"win" _ _ _); [discriminate|vm_compute; reflexivity|win_bracketed].
Qed.
Example C139_at_number : dependency_added mini_env mini_spec (sample_dep "/requirements/host/0" "cython" None) DMExact SMAnd SV0 [] dep_items at_number.
Proof.
  refine (added_at_number _ _ _ _ _ _ _ _ [$"requirements"; $"host"] $"0" [JStr $"pip"; JStr $"python 3.8"] _ _ _ _ _ _);
    [dep_path $"host" $"0"|vm_compute; reflexivity|reflexivity|vm_compute; reflexivity|].
  unfold dep_items, at_number. to_section (@nil item). split; [dep_lines|].
  exists [], (JStr $"pip"), $"# keep", [], [IComment $"# two"; IElem (JStr $"python 3.8") $"# [unix] note"]. split; [reflexivity|]. split; [|split; reflexivity].
  refine (mc_none_none SMAnd _ _ _); [discriminate|vm_compute; reflexivity].
Qed.
Example C139_new_section : dependency_added mini_env mini_spec (sample_dep "/requirements/build/0" "gcc" win) DMIgnore SMAnd SV0 [] dep_items new_section.
Proof.
  refine (added_in_new_section _ _ _ _ _ _ _ _ [$"requirements"] $"build" $"0" _ _ _ _ _); [dep_path $"build" $"0"|discriminate|vm_compute; reflexivity|].
  unfold dep_items, new_section. apply inside_here. exists [ISection (PStr $"package") [] [IScalar (PStr $"name") (JStr $"foo") []]]. do 6 eexists.
  split; [reflexivity|]. split; [absent|]. split; [apply below_section|]. split; [apply below_section|]. split; [|split; reflexivity].
  split; [absent|]. exists $"# [win]". split; [|reflexivity]. refine (nc_some (selector_parser $"[win]" SV0) $"win" _). win_bracketed.
Qed.
(** The files of these examples. *)
Definition dep_page (head foot : list string) : list string := ["package:"; "  name: foo"; ""; "requirements:"]%string ++ head ++ foot ++ [""; "about:"; "  license: MIT"]%string.
Definition host_page : list string := ["  host:"; "    - pip  # keep"; "    # two"; "    - python 3.8  # [unix] note"]%string.
Definition run_page : list string := ["  run:  # later"; "    - python"]%string.
Example C139_pages :
  let show xs := map pr (splitlines (join NLs (recipe_page xs []))) in
  show dep_items = dep_page host_page run_page
  /\ show at_end = dep_page host_page (run_page ++ ["    - scipy  # [win]"]%string)
  /\ show same_name = dep_page ["  host:"; "    - pip  # keep"; "    # two"; "    - python 3.9  # [unix or win]"]%string run_page
  /\ show at_number = dep_page ["  host:"; "    - cython"; "    # two"; "    - python 3.8  # [unix] note"]%string run_page
  /\ show new_section = dep_page host_page (run_page ++ ["  build:  # [win]"; "    - gcc  # [win]"]%string).
Proof. repeat split; vm_compute; reflexivity. Qed.
Example C139_canonical : canonical_recipe mini_env dep_items [] /\ canonical_recipe mini_env at_end [] /\ canonical_recipe mini_env same_name []
  /\ canonical_recipe mini_env at_number [] /\ canonical_recipe mini_env new_section [].
Proof.
  unfold dep_items, at_end, same_name, at_number, new_section, with_requirements, host_items, run_items.
  split; [canonical_lists|]. split; [canonical_lists|]. split; [canonical_lists|]. split; canonical_lists.
Qed.
Example C139_ignored_example :
  inside (section_changed $"run" (fun ys ys' => dependency_lines ys /\ ys' = ys)) [$"requirements"; $"run"] dep_items dep_items
  /\ get_value mini_env (document dep_items) $"/requirements/run" None (Some (SV0, [])) = Ok (JList ([] ++ JStr $"python" :: []))
  /\ names_package mini_spec $"python" (JStr $"python").
Proof.
  split; [unfold dep_items; to_section [host_items]; split; [dep_lines|reflexivity]|]. split; [vm_compute; reflexivity|entry_named $"python"].
Qed.
