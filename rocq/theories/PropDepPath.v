(** Property C150: the paths of the dependencies of a file. *)
From Verif Require Import Samples MiniYaml RenderProofs4 DepsProofs PropDeps PropPatch PropEditFile PropBump PropSession PropQuery PropDepList DepPathProofs DepPathSpec.

(** ** C150 *)
Theorem C150_paths : forall E xs vars l,
  canonical_recipe E xs vars -> no_slash_key xs -> addressable_document (document xs) = true -> dependency_paths E SV0 xs l ->
  exists r, new_recipe E (join NLs (recipe_page xs vars)) = Ok r /\ get_dependency_paths E r = Ok l /\ Forall (leads_to_line xs) l.
Proof. exact c150. Qed.
Print Assumptions C150_paths.
Theorem C150_paths_in_new_format : forall E xs vars l,
  new_file E xs vars -> no_slash_key xs -> addressable_document (document xs) = true -> dependency_paths E SV1 xs l ->
  exists r, new_recipe E (join NLs (page xs)) = Ok r /\ get_dependency_paths E r = Ok l /\ Forall (leads_to_line xs) l.
Proof. exact c150_new. Qed.
Print Assumptions C150_paths_in_new_format.
Theorem C150_paths_after_session : forall E MS acts xs vars xs' vars' l,
  canonical_recipe E xs vars -> canonical_recipe E xs' vars' -> no_slash_key xs' -> addressable_document (document xs') = true ->
  acted_in_turn E MS SV0 acts xs vars xs' vars' -> dependency_paths E SV0 xs' l ->
  exists r, new_recipe E (join NLs (recipe_page xs vars)) = Ok r /\ get_dependency_paths E (session E MS acts r) = Ok l /\ Forall (leads_to_line xs') l.
Proof. exact c150_session. Qed.
Print Assumptions C150_paths_after_session.

Definition path_list : list str := [$"/requirements/run/0"; $"/outputs/0/requirements/host/0"; $"/outputs/0/requirements/host/1"].
Example C150_example : get_dependency_paths mini_env (recipe_of (join NLs (recipe_page output_items []))) = Ok path_list.
Proof. vm_compute. reflexivity. Qed.
Ltac name_check := split; [split; [discriminate|vm_compute; intuition discriminate]|reflexivity].
Ltac names_check := repeat (constructor; [split; [discriminate|vm_compute; intuition discriminate]|]); constructor.
Ltac below_it R name more := apply lines_missing; match type of R with entry_at _ _ ?xs ?p ?x => apply (missing_below xs p x name more); [name_check|names_check|exact R|discriminate|absent] end.
Example C150_listed : dependency_paths mini_env SV0 output_items path_list.
Proof.
  exists 2, [0; 0; 1; 0; 0; 2; 0; 0; 0; 0; 0; 0]. split; [|split; [|vm_compute; reflexivity]].
  - apply (outputs_listed _ _ (PStr $"outputs") []
      [IMapScalar (PStr $"name") (JStr $"libfoo") $"# [unix]" [ISection (PStr $"requirements") [] [ISection (PStr $"host") [] [IElem (JStr $"zlib") $"# [win]"; IElem (JStr $"numpy") []]]];
       IComment $"# the second one"; IMapScalar (PStr $"name") (JStr $"doc") [] []]
      [JDict [(PStr $"name", JStr $"libfoo"); (PStr $"requirements", JDict [(PStr $"host", JList [JStr $"zlib"; JStr $"numpy"])])]; JDict [(PStr $"name", JStr $"doc")]]).
    + do 2 apply at_a_later_entry. apply (at_its_key [] _ _ _ (PStr $"outputs")). reflexivity.
    + apply vr_section; [discriminate|left; vm_compute; reflexivity].
  - change (section_places SV0 2) with [$"/requirements/build"; $"/requirements/host"; $"/requirements/run"; $"/requirements/run_constrained";
      $"/outputs/0/requirements/build"; $"/outputs/0/requirements/host"; $"/outputs/0/requirements/run"; $"/outputs/0/requirements/run_constrained";
      $"/outputs/1/requirements/build"; $"/outputs/1/requirements/host"; $"/outputs/1/requirements/run"; $"/outputs/1/requirements/run_constrained"].
    assert (entry_at [] 0 output_items $"/requirements" (ISection (PStr $"requirements") [] [ISection (PStr $"run") [] [IElem (JStr $"python") $"# [osx]"]])) as R0
      by (apply at_a_later_entry, (at_its_key [] _ _ _ (PStr $"requirements")); reflexivity).
    assert (entry_at [] 0 output_items $"/outputs/0/requirements" (ISection (PStr $"requirements") [] [ISection (PStr $"host") [] [IElem (JStr $"zlib") $"# [win]"; IElem (JStr $"numpy") []]])) as R1
      by (do 2 apply at_a_later_entry; apply in_its_section, in_its_mapping, at_a_later_entry, (at_its_key $"/outputs/0" _ _ _ (PStr $"requirements")); reflexivity).
    assert (entry_at [] 0 output_items $"/outputs/1" (IMapScalar (PStr $"name") (JStr $"doc") [] [])) as R2
      by (do 2 apply at_a_later_entry; apply in_its_section; do 2 apply at_a_later_entry; apply (at_its_number $"/outputs" 1); exact I).
    constructor; [below_it R0 $"build" (@nil str)|]. constructor; [below_it R0 $"host" (@nil str)|].
    constructor; [|constructor; [below_it R0 $"run_constrained" (@nil str)|]].
    { apply (lines_listed _ _ $"/requirements/run" (PStr $"run") [] [IElem (JStr $"python") $"# [osx]"] [JStr $"python"]); [|repeat constructor| |reflexivity].
      - apply (entry_in [] 0 _ $"/requirements" _ _ _ R0), (at_its_key $"/requirements" _ _ _ (PStr $"run")). reflexivity.
      - apply (vr_one_text _ _ _ _ $"python" _ (JStr $"python")). left. vm_compute. reflexivity. }
    constructor; [below_it R1 $"build" (@nil str)|]. constructor; [|constructor; [below_it R1 $"run" (@nil str)|constructor; [below_it R1 $"run_constrained" (@nil str)|]]].
    { apply (lines_listed _ _ $"/outputs/0/requirements/host" (PStr $"host") [] [IElem (JStr $"zlib") $"# [win]"; IElem (JStr $"numpy") []] [JStr $"zlib"; JStr $"numpy"]); [|repeat constructor| |reflexivity].
      - apply (entry_in [] 0 _ $"/outputs/0/requirements" _ _ _ R1), (at_its_key $"/outputs/0/requirements" _ _ _ (PStr $"host")). reflexivity.
      - apply vr_section; [discriminate|left; vm_compute; reflexivity]. }
    constructor; [below_it R2 $"requirements" [$"build"]|]. constructor; [below_it R2 $"requirements" [$"host"]|].
    constructor; [below_it R2 $"requirements" [$"run"]|]. constructor; [below_it R2 $"requirements" [$"run_constrained"]|constructor].
Qed.
