(** Property C151: the table of the dependencies of a file against the list of their paths. *)
From Verif Require Import EditProofs RenderProofs4 Samples MiniYaml PropPatch PropBump PropEditFile DepsProofs PropDeps PropSession PropQuery PropNewFile PropDepList PropDepPath AgreeProofs AgreeSpec.

(** ** C151 *)
Theorem C151_agree : forall E MS xs vars m l,
  canonical_recipe E xs vars -> no_slash_key xs -> addressable_document (document xs) = true -> usual_sections SV0 xs ->
  dependencies_in_file E MS SV0 xs vars m -> dependency_paths E SV0 xs l ->
  exists r, new_recipe E (join NLs (recipe_page xs vars)) = Ok r /\ get_all_dependencies E MS r = Ok m /\ get_dependency_paths E r = Ok l /\ reported_paths_in m l.
Proof. exact c151. Qed.
Print Assumptions C151_agree.
Theorem C151_agree_in_new_format : forall E MS xs vars m l,
  new_file E xs vars -> no_slash_key xs -> addressable_document (document xs) = true -> usual_sections SV1 xs ->
  dependencies_in_file E MS SV1 xs vars m -> dependency_paths E SV1 xs l ->
  exists r, new_recipe E (join NLs (page xs)) = Ok r /\ get_all_dependencies E MS r = Ok m /\ get_dependency_paths E r = Ok l /\ reported_paths_in m l.
Proof. exact c151_new. Qed.
Print Assumptions C151_agree_in_new_format.
Theorem C151_agree_after_session : forall E MS acts xs vars xs' vars' m l,
  canonical_recipe E xs vars -> canonical_recipe E xs' vars' -> no_slash_key xs' -> addressable_document (document xs') = true ->
  usual_sections SV0 xs' -> acted_in_turn E MS SV0 acts xs vars xs' vars' -> dependencies_in_file E MS SV0 xs' vars' m -> dependency_paths E SV0 xs' l ->
  exists r, new_recipe E (join NLs (recipe_page xs vars)) = Ok r /\ get_all_dependencies E MS (session E MS acts r) = Ok m
    /\ get_dependency_paths E (session E MS acts r) = Ok l /\ reported_paths_in m l.
Proof. exact c151_session. Qed.
Print Assumptions C151_agree_after_session.
(** The other direction, for sections of any names: every path in the list is reported, or its line is read as nothing. *)
Theorem C151_all_reported : forall E MS xs vars m l,
  canonical_recipe E xs vars -> no_slash_key xs -> addressable_document (document xs) = true ->
  dependencies_in_file E MS SV0 xs vars m -> dependency_paths E SV0 xs l ->
  exists r, new_recipe E (join NLs (recipe_page xs vars)) = Ok r /\ get_all_dependencies E MS r = Ok m /\ get_dependency_paths E r = Ok l /\ paths_reported E SV0 xs vars m l.
Proof. exact c151_back. Qed.
Print Assumptions C151_all_reported.
Theorem C151_all_reported_in_new_format : forall E MS xs vars m l,
  new_file E xs vars -> no_slash_key xs -> addressable_document (document xs) = true ->
  dependencies_in_file E MS SV1 xs vars m -> dependency_paths E SV1 xs l ->
  exists r, new_recipe E (join NLs (page xs)) = Ok r /\ get_all_dependencies E MS r = Ok m /\ get_dependency_paths E r = Ok l /\ paths_reported E SV1 xs vars m l.
Proof. exact c151_back_new. Qed.
Print Assumptions C151_all_reported_in_new_format.
Theorem C151_all_reported_after_session : forall E MS acts xs vars xs' vars' m l,
  canonical_recipe E xs vars -> canonical_recipe E xs' vars' -> no_slash_key xs' -> addressable_document (document xs') = true ->
  acted_in_turn E MS SV0 acts xs vars xs' vars' -> dependencies_in_file E MS SV0 xs' vars' m -> dependency_paths E SV0 xs' l ->
  exists r, new_recipe E (join NLs (recipe_page xs vars)) = Ok r /\ get_all_dependencies E MS (session E MS acts r) = Ok m
    /\ get_dependency_paths E (session E MS acts r) = Ok l /\ paths_reported E SV0 xs' vars' m l.
Proof. exact c151_back_session. Qed.
Print Assumptions C151_all_reported_after_session.

(** The premises for the file with outputs of C149 (the other ones: C149_canonical, C149_listed and C150_listed). *)
Ltac entries_of := repeat match goal with H : entry_at _ _ _ _ _ |- _ => inversion H; subst; clear H; try discriminate; try contradiction end.
Ltac keys_of := repeat match goal with
  | H : _ \/ _ |- _ => destruct H as [<-|H]
  | H : entry_key _ = Some (PStr _) |- _ => cbn [entry_key] in H; try discriminate H; injection H as <-
  end; try contradiction.
Example C151_example : usual_sections SV0 output_items.
Proof. intros p c cs x sec section H HI HK _. unfold output_items in H. entries_of; cbn [In] in HI; keys_of; cbn [requirement_sections In]; tauto. Qed.
(** In the new format run_exports is a section below requirements.  Its lines are in the table, their paths are not in the list. *)
Definition exporting (exports : list item) : list item :=
  [IScalar (PStr $"schema_version") (JInt 1) []; ISection (PStr $"package") [] [IScalar (PStr $"name") (JStr $"foo") []];
   ISection (PStr $"requirements") [] [ISection (PStr $"run") [] [IElem (JStr $"python") []]; ISection (PStr $"run_exports") [] exports]].
Theorem C151_run_exports_refuted : exists xs r m l, new_file mini_env xs [] /\ no_slash_key xs /\ addressable_document (document xs) = true
  /\ new_recipe mini_env (join NLs (page xs)) = Ok r /\ get_all_dependencies mini_env mini_spec r = Ok m /\ get_dependency_paths mini_env r = Ok l
  /\ ~ reported_paths_in m l.
Proof.
  set (xs := exporting [IElem (JStr $"libfoo") []]).
  set (dep := fun path section w => {| d_by := PStr $"foo"; d_path := path; d_type := section; d_data := DSpec w w; d_sel := None |}).
  exists xs, (recipe_of (join NLs (page xs))), [(PStr $"foo", [dep $"/requirements/run/0" RUN $"python"; dep $"/requirements/run_exports/0" RUN_EXPORTS $"libfoo"])], [$"/requirements/run/0"].
  split; [split; [unfold xs, exporting; new_canonical|split; [exists [], []; eexists; split; [reflexivity|absent]|left; split; [absent|reflexivity]]]|].
  split; [repeat constructor; vm_compute; discriminate|]. split; [vm_compute; reflexivity|]. split; [vm_compute; reflexivity|]. split; [vm_compute; reflexivity|]. split; [vm_compute; reflexivity|].
  intros H. destruct (H _ _ _ (or_introl eq_refl) (or_intror (or_introl eq_refl))) as [Q|[]]. discriminate Q.
Qed.
Print Assumptions C151_run_exports_refuted.
(** If it is a mapping, as it may be, the dependencies in the table are its keys, at paths where there is nothing. *)
Theorem C151_kinds_of_exports_refuted : exists xs r ds, new_file mini_env xs [] /\ no_slash_key xs /\ addressable_document (document xs) = true
  /\ new_recipe mini_env (join NLs (page xs)) = Ok r /\ get_all_dependencies mini_env mini_spec r = Ok [(PStr $"foo", ds)]
  /\ map (fun d => (d_path d, d_data d)) ds = [($"/requirements/run/0", DSpec $"python" $"python"); ($"/requirements/run_exports/0", DSpec $"weak" $"weak")]
  /\ lookup (r_root r) $"/requirements/run_exports/0" = None.
Proof.
  set (xs := exporting [ISection (PStr $"weak") [] [IElem (JStr $"libfoo") []]]).
  set (dep := fun path section w => {| d_by := PStr $"foo"; d_path := path; d_type := section; d_data := DSpec w w; d_sel := None |}).
  exists xs, (recipe_of (join NLs (page xs))), [dep $"/requirements/run/0" RUN $"python"; dep $"/requirements/run_exports/0" RUN_EXPORTS $"weak"].
  split; [split; [unfold xs, exporting; new_canonical|split; [exists [], []; eexists; split; [reflexivity|absent]|left; split; [absent|reflexivity]]]|].
  split; [repeat constructor; vm_compute; discriminate|]. split; [vm_compute; reflexivity|]. split; [vm_compute; reflexivity|]. split; [vm_compute; reflexivity|]. split; [reflexivity|vm_compute; reflexivity].
Qed.
Print Assumptions C151_kinds_of_exports_refuted.
