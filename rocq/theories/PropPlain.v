(** C117: a recipe that uses nothing the new format renamed or dropped keeps all its lines. *)
From Verif Require Import PlainProofs WellProofs3 Samples MiniYaml PropConvert SectionSpec ContextSpec PlainSpec.

(** ** C117 *)
(** After the selectors (C91) and the variables (C98), nothing is left to do but to put lines in order. *)
Theorem C117_nothing_left_to_upgrade : forall T s text s', reads_proper (t_env T) -> proper_tree (r_root (v1 s)) = true ->
  NoDup (map fst (r_vars (v1 s))) -> without_errors (render_to_v1 T) s text s' -> exists s1 s2,
  without_errors (upgrade_selectors_to_conditionals T) s tt s1
  /\ context_upgraded (t_env T) (t_order T) (r_vars (v1 s)) (view s1) (view s2)
  /\ (nothing_old (r_root (v1 s2)) -> about_fine (t_env T) (find_closest_license_match (t_close T) (t_licenses T)) (r_root (v1 s2)) ->
      rearranged (r_root (v1 s2)) (r_root (v1 s'))).
Proof. exact plain_rest. Qed.
Print Assumptions C117_nothing_left_to_upgrade.

(** Without selectors, variables and expressions, the new recipe is the old one with the line of the version, rearranged. *)
Theorem C117_all_lines_stay : forall T s text s', reads_proper (t_env T) -> writes_version (t_env T) -> (forall l x, In x (t_order T l) -> In x l) ->
  proper_tree (r_root (v1 s)) = true -> r_sel (v1 s) = [] -> r_vars (v1 s) = [] -> no_expressions (r_root (v1 s)) ->
  ~ top_line $"schema_version" (r_root (v1 s)) -> nothing_old (r_root (v1 s)) ->
  about_fine (t_env T) (find_closest_license_match (t_close T) (t_licenses T)) (r_root (v1 s)) ->
  without_errors (render_to_v1 T) s text s' -> rearranged (with_version (r_root (v1 s))) (r_root (v1 s')).
Proof. exact plain_all. Qed.
Print Assumptions C117_all_lines_stay.

Definition new_recipe : list string := [
  "about:"; "  license: MIT  # checked"; "  summary: A package"; "requirements:"; "  host:"; "    - python"; "build:"; "  script: make"; "  number: 3  # again";
  "source:"; "  - sha256: abc"; "    url: https://example.com/a.zip"; "  # the second"; "  - path: ../b"; "package:"; "  name: foo"; "  version: 1.2"; "other:"; "  - x"]%string.
Example C117_example :
  converted new_recipe = Ok (["schema_version: 1"; ""; "package:"; "  name: foo"; "  version: 1.2"; ""; "source:"; "  - url: https://example.com/a.zip";
     "    sha256: abc"; "  # the second"; "  - path: ../b"; ""; "build:"; "  number: 3  # again"; "  script: make"; ""; "requirements:"; "  host:";
     "    - python"; ""; "about:"; "  license: MIT  # checked"; "  summary: A package"; ""; "other:"; "  - x"]%string, [], [])
  /\ let r := recipe_of (nl new_recipe) in
     writes_version mini_env /\ proper_tree (r_root r) = true /\ r_sel r = [] /\ r_vars r = [] /\ no_expressions (r_root r)
     /\ ~ top_line $"schema_version" (r_root r) /\ nothing_old (r_root r)
     /\ about_fine mini_env (find_closest_license_match (t_close plain_tools) (t_licenses plain_tools)) (r_root r).
Proof.
  split; [vm_compute; reflexivity|]. cbv zeta. split; [vm_compute; reflexivity|]. split; [vm_compute; reflexivity|].
  split; [vm_compute; reflexivity|]. split; [vm_compute; reflexivity|].
  split. { apply no_expressions_checked. vm_compute. reflexivity. }
  split. { intros H. apply has_top_iff in H. vm_compute in H. discriminate. }
  split. { apply nothing_old_checked. vm_compute. reflexivity. }
  intros _. split; [exists $"MIT"; vm_compute; auto|]. intros l. vm_compute. discriminate.
Qed.
(** A field of the old format, on the other hand, is renamed or dropped. *)
Example C117_old_fields :
  converted ["about:"; "  home: https://example.com"; "  license: MIT"; "  license_family: MIT"]%string
  = Ok (["schema_version: 1"; ""; "about:"; "  license: MIT"; "  homepage: https://example.com"]%string, [],
        ["Field at `/about/license_family` is no longer supported."]%string).
Proof. vm_compute. reflexivity. Qed.
