(** Property C152: the packages of a file. *)
From Verif Require Import EditProofs RenderProofs4 Samples MiniYaml PropPatch PropBump PropEditFile DepsProofs PropDeps PropSession PropQuery PropNewFile PropDepList PackageProofs PackageSpec.

(** ** C152 *)
Theorem C152_packages : forall E xs vars outputs tbl,
  canonical_recipe E xs vars -> no_slash_key xs -> addressable_document (document xs) = true -> packages_listed E SV0 xs vars outputs tbl ->
  exists r, new_recipe E (join NLs (recipe_page xs vars)) = Ok r /\ packages_answered E r outputs tbl.
Proof. exact c152. Qed.
Print Assumptions C152_packages.
Theorem C152_packages_in_new_format : forall E xs vars outputs tbl,
  new_file E xs vars -> no_slash_key xs -> addressable_document (document xs) = true -> packages_listed E SV1 xs vars outputs tbl ->
  exists r, new_recipe E (join NLs (page xs)) = Ok r /\ packages_answered E r outputs tbl.
Proof. exact c152_new. Qed.
Print Assumptions C152_packages_in_new_format.
Theorem C152_packages_after_session : forall E MS acts xs vars xs' vars' outputs tbl,
  canonical_recipe E xs vars -> canonical_recipe E xs' vars' -> no_slash_key xs' -> addressable_document (document xs') = true ->
  acted_in_turn E MS SV0 acts xs vars xs' vars' -> packages_listed E SV0 xs' vars' outputs tbl ->
  exists r, new_recipe E (join NLs (recipe_page xs vars)) = Ok r /\ packages_answered E (session E MS acts r) outputs tbl.
Proof. exact c152_session. Qed.
Print Assumptions C152_packages_after_session.

(** The file of C149 (in canonical layout: C149_canonical). *)
Example C152_listed : packages_listed mini_env SV0 output_items [] true [(PStr $"foo", $"/"); (PStr $"libfoo", $"/outputs/0"); (PStr $"doc", $"/outputs/1")].
Proof.
  apply (with_outputs _ _ _ _ []
      [IMapScalar (PStr $"name") (JStr $"libfoo") $"# [unix]" [ISection (PStr $"requirements") [] [ISection (PStr $"host") [] [IElem (JStr $"zlib") $"# [win]"; IElem (JStr $"numpy") []]]];
       IComment $"# the second one"; IMapScalar (PStr $"name") (JStr $"doc") [] []]
      [JDict [(PStr $"name", JStr $"libfoo"); (PStr $"requirements", JDict [(PStr $"host", JList [JStr $"zlib"; JStr $"numpy"])])]; JDict [(PStr $"name", JStr $"doc")]]
      (PStr $"foo") [PStr $"libfoo"; PStr $"doc"]).
  - do 2 apply at_a_later_entry. apply (at_its_key [] _ _ _ (PStr $"outputs")). reflexivity.
  - apply vr_section; [discriminate|left; vm_compute; reflexivity].
  - reflexivity.
  - exists (JStr $"foo"), []. split; [apply in_its_section, (at_its_key $"/package" _ _ _ (PStr $"name")); reflexivity|read_text].
  - intros [|[|i]] name Ho; [injection Ho as <-|injection Ho as <-|destruct i; discriminate Ho].
    + exists (JStr $"libfoo"), $"# [unix]". split; [do 2 apply at_a_later_entry; apply in_its_section, in_its_mapping, (at_its_key $"/outputs/0" _ _ _ (PStr $"name")); reflexivity|read_text].
    + exists (JStr $"doc"), []. split; [do 2 apply at_a_later_entry; apply in_its_section; do 2 apply at_a_later_entry; apply in_its_mapping, (at_its_key $"/outputs/1" _ _ _ (PStr $"name")); reflexivity|read_text].
  - repeat constructor.
Qed.
Example C152_example : let r := recipe_of (join NLs (recipe_page output_items [])) in
  get_package_paths mini_env (r_root r) = Ok [$"/"; $"/outputs/0"; $"/outputs/1"] /\ get_recipe_name mini_env r = Ok (Some $"foo").
Proof. split; vm_compute; reflexivity. Qed.
(** A file of the new format, where the names of the outputs are below package. *)
Definition new_output_items : list item :=
  [IScalar (PStr $"schema_version") (JInt 1) []; ISection (PStr $"recipe") [] [IScalar (PStr $"name") (JStr $"foo") []];
   ISection (PStr $"outputs") [] [IMapSection (PStr $"package") [] [IScalar (PStr $"name") (JStr $"libfoo") []] []; IComment $"# one more";
                                  IMapSection (PStr $"package") $"# small" [IScalar (PStr $"name") (JStr $"doc") []] []]].
Example C152_new_format_example : let r := recipe_of (join NLs (page new_output_items)) in
  map pr (splitlines (join NLs (page new_output_items))) = ["schema_version: 1"; ""; "recipe:"; "  name: foo"; ""; "outputs:"; "  - package:"; "      name: libfoo"; "  # one more"; "  - package:  # small"; "      name: doc"]%string
  /\ get_package_names_to_path mini_env r = Ok [(PStr $"foo", $"/"); (PStr $"libfoo", $"/outputs/0"); (PStr $"doc", $"/outputs/1")]
  /\ get_recipe_name mini_env r = Ok (Some $"foo") /\ is_multi_output (r_root r) = true.
Proof. repeat split; vm_compute; reflexivity. Qed.
Example C152_new_format_listed : packages_listed mini_env SV1 new_output_items [] true [(PStr $"foo", $"/"); (PStr $"libfoo", $"/outputs/0"); (PStr $"doc", $"/outputs/1")].
Proof.
  apply (with_outputs _ _ _ _ []
      [IMapSection (PStr $"package") [] [IScalar (PStr $"name") (JStr $"libfoo") []] []; IComment $"# one more"; IMapSection (PStr $"package") $"# small" [IScalar (PStr $"name") (JStr $"doc") []] []]
      [JDict [(PStr $"package", JDict [(PStr $"name", JStr $"libfoo")])]; JDict [(PStr $"package", JDict [(PStr $"name", JStr $"doc")])]]
      (PStr $"foo") [PStr $"libfoo"; PStr $"doc"]).
  - do 2 apply at_a_later_entry. apply (at_its_key [] _ _ _ (PStr $"outputs")). reflexivity.
  - apply vr_section; [discriminate|left; vm_compute; reflexivity].
  - reflexivity.
  - exists (JStr $"foo"), []. split; [apply at_a_later_entry, in_its_section, (at_its_key $"/recipe" _ _ _ (PStr $"name")); reflexivity|read_text].
  - intros [|[|i]] name Ho; [injection Ho as <-|injection Ho as <-|destruct i; discriminate Ho].
    + exists (JStr $"libfoo"), []. split; [do 2 apply at_a_later_entry; apply in_its_section, in_its_mapping_section, in_its_section, (at_its_key $"/outputs/0/package" _ _ _ (PStr $"name")); reflexivity|read_text].
    + exists (JStr $"doc"), []. split; [do 2 apply at_a_later_entry; apply in_its_section; do 2 apply at_a_later_entry; apply in_its_mapping_section, in_its_section, (at_its_key $"/outputs/1/package" _ _ _ (PStr $"name")); reflexivity|read_text].
  - repeat constructor.
Qed.
Example C152_new_canonical : new_file mini_env new_output_items [] /\ no_slash_key new_output_items /\ addressable_document (document new_output_items) = true.
Proof.
  split; [|split; [repeat constructor; vm_compute; discriminate|vm_compute; reflexivity]]. unfold new_output_items.
  split; [|split; [exists [], []; eexists; split; [reflexivity|absent]|left; split; [absent|reflexivity]]].
  split; [split|split];
  [repeat match goal with
   | |- Forall (canonical _) [] => constructor
   | |- Forall (canonical _) (_ :: _) => constructor
   | |- Forall (entry_beside _) _ => repeat constructor
   | |- canonical _ (IComment _) => apply (can_comment _ _ JNull); [eexists; vm_compute; reflexivity|apply ends_clean_check; vm_compute; reflexivity|apply block_mark_check; vm_compute; reflexivity|vm_compute; reflexivity]
   | |- canonical _ (IScalar _ _ _) => apply can_scalar; [discriminate|plain_check]
   | |- canonical _ (ISection _ _ _) => apply can_section; [plain_check|split; [discriminate|intros; discriminate]|]
   | |- canonical _ (IMapSection _ _ _ _) => apply can_map_section; [plain_check|split; [discriminate|intros; discriminate]| | |]
   end
  |repeat constructor
  |vm_compute; reflexivity
  |repeat (constructor; [apply inert_check; vm_compute; reflexivity|]); constructor].
Qed.
