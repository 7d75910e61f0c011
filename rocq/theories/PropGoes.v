(** C129: a recipe that needs no change is converted, and nothing is reported as an error. *)
From Verif Require Import GoesProofs SimpleProofs PlainProofs WellProofs3 Samples MiniYaml PropConvert PropKeep PropAgain PlainSpec KeepSpec SimpleSpec GoesSpec.

(** ** C129 *)
Theorem C129_converted : forall T s, let E := t_env T in let root := r_root (v1 s) in
  writes_version E -> (forall l x, In x (t_order T l) -> In x l) ->
  proper_tree root = true -> n_children root <> [] -> n_lmf root = false -> r_sel (v1 s) = [] -> r_vars (v1 s) = [] -> no_expressions root ->
  ~ top_line $"schema_version" root -> ~ top_line $"context" root -> nothing_old root ->
  about_fine E (find_closest_license_match (t_close T) (t_licenses T)) root -> readable_parts E root -> comments_have_paths E root ->
  exists text s', without_errors (render_to_v1 T) s text s' /\ r_vars (v1 s') = [].
Proof. exact c129. Qed.
Print Assumptions C129_converted.

(** From file to file, as in C128, with the certainty that there is a new file. *)
Theorem C129_file_to_file : forall T xs m, let E := t_env T in let text := join NLs (recipe_page xs []) in
  reads_proper E -> writes_version E -> canonical E version_item -> (forall l x, In x (t_order T l) -> In x l) ->
  canonical_recipe E xs [] -> xs <> [] -> Forall simple xs -> collect_selectors E (document xs) = [] -> no_expressions (document xs) ->
  nothing_old (document xs) -> ~ top_line $"context" (document xs) ->
  about_fine E (find_closest_license_match (t_close T) (t_licenses T)) (document xs) ->
  readable_parts E (document xs) -> comments_have_paths E (document xs) ->
  exists r text' s' ys r', new_recipe E text = Ok r /\ r_root r = document xs
  /\ without_errors (render_to_v1 T) {| v1 := r; msgs := m |} text' s'
  /\ reordered (xs ++ [version_item]) ys /\ text' = join NLs (page ys)
  /\ new_recipe E text' = Ok r' /\ r_root r' = document ys /\ r_schema r' = SV1 /\ r_vars r' = [].
Proof. exact c129_files. Qed.
Print Assumptions C129_file_to_file.
Example C129_example :
  let root := document plain_items in
  plain_items <> [] /\ ~ top_line $"context" root /\ top_line $"about" root /\ readable_parts mini_env root /\ comments_have_paths mini_env root
  /\ exists p n, node_at root p = Some n /\ n_comment n = $"# checked" /\ path_at mini_env root p = $"/about/license".
Proof.
  cbv zeta. split; [discriminate|]. split; [intros H; apply has_top_iff in H; vm_compute in H; discriminate|].
  split; [eexists; split; [right; left; reflexivity|vm_compute; reflexivity]|].
  split; [split; [intros H; apply has_top_iff in H; vm_compute in H; discriminate|intros _; eexists; vm_compute; reflexivity]|].
  split; [apply paths_checked; vm_compute; reflexivity|]. exists [1; 0; 0], (Nd (VJ (JStr $"MIT")) $"# checked" [] false MNone false).
  split; [vm_compute; reflexivity|]. split; vm_compute; reflexivity.
Qed.

(** What stops a conversion: a license that is a list, and outputs that are a number. *)
Theorem C129_list_of_licenses_refuted : exists text s',
  text = nl ["about:"; "  license:"; "    - MIT"; "    - BSD-3-Clause"]%string
  /\ render_to_v1 plain_tools {| v1 := recipe_of text; msgs := new_table |} = (Err EType, s').
Proof. eexists _, _. split; [reflexivity|]. vm_compute. reflexivity. Qed.
Print Assumptions C129_list_of_licenses_refuted.
Theorem C129_outputs_refuted : exists text s',
  text = nl ["package:"; "  name: foo"; "outputs: 3"]%string
  /\ render_to_v1 plain_tools {| v1 := recipe_of text; msgs := new_table |} = (Err EType, s').
Proof. eexists _, _. split; [reflexivity|]. vm_compute. reflexivity. Qed.
Print Assumptions C129_outputs_refuted.
