(** Property C148: the value at the path of every entry of a file. *)
From Verif Require Import RenderProofs4 Samples MiniYaml PropSession PropQuery EntryProofs EntrySpec.

(** ** C148 *)
Theorem C148_values : forall E xs vars, canonical_recipe E xs vars -> no_slash_key xs -> addressable_document (document xs) = true ->
  exists r, new_recipe E (join NLs (recipe_page xs vars)) = Ok r /\ r_schema r = SV0 /\ r_vars r = vars /\ entries_read E xs r.
Proof. exact c148. Qed.
Print Assumptions C148_values.
Theorem C148_values_in_new_format : forall E xs vars, new_file E xs vars -> no_slash_key xs -> addressable_document (document xs) = true ->
  exists r, new_recipe E (join NLs (page xs)) = Ok r /\ r_schema r = SV1 /\ r_vars r = vars /\ entries_read E xs r.
Proof. exact c148_new. Qed.
Print Assumptions C148_values_in_new_format.
Theorem C148_values_after_session : forall E MS l xs vars xs' vars',
  canonical_recipe E xs vars -> canonical_recipe E xs' vars' -> no_slash_key xs' -> addressable_document (document xs') = true ->
  acted_in_turn E MS SV0 l xs vars xs' vars' ->
  exists r, new_recipe E (join NLs (recipe_page xs vars)) = Ok r
    /\ r_schema (session E MS l r) = SV0 /\ r_vars (session E MS l r) = vars' /\ entries_read E xs' (session E MS l r).
Proof. exact c148_session. Qed.
Print Assumptions C148_values_after_session.
(** The paths of entries are the paths of the lines (C145) that are not comments. *)
Theorem C148_entries_are_lines : forall xs p, (exists x, entry_at [] 0 xs p x) <-> In p (flat_map row_path (file_rows 0 xs)).
Proof. exact c148_lines. Qed.
Print Assumptions C148_entries_are_lines.

(** Entries of the file of C145 (its conditions: C145_canonical, C146_lines), and what is read there. *)
Example C148_entries :
  entry_at [] 0 asked_items $"/source/0/url" (IScalar (PStr $"url") (JStr $"foo") $"# [linux]")
  /\ entry_at [] 0 asked_items $"/source/0/folder" (IScalar (PStr $"folder") (JInt 3) [])
  /\ entry_at [] 0 asked_items $"/requirements/run" (ISection (PStr $"run") [] [IElem (JStr $"python") $"# [osx]"; IComment $"# one more"; IElem (JStr $"numpy") []])
  /\ value_read mini_env (ISection (PStr $"run") [] [IElem (JStr $"python") $"# [osx]"; IComment $"# one more"; IElem (JStr $"numpy") []]) (JList [JStr $"python"; JStr $"numpy"]).
Proof.
  split; [|split; [|split]].
  - do 2 apply at_a_later_entry. apply in_its_section, in_its_mapping. apply (at_its_key $"/source/0" 0 _ _ (PStr $"url")). reflexivity.
  - do 2 apply at_a_later_entry. apply in_its_section, in_its_mapping, at_a_later_entry. apply (at_its_key $"/source/0" 1 _ _ (PStr $"folder")). reflexivity.
  - do 3 apply at_a_later_entry. apply in_its_section. apply (at_its_key $"/requirements" 0 _ _ (PStr $"run")). reflexivity.
  - apply vr_section; [discriminate|]. left. vm_compute. reflexivity.
Qed.
Example C148_example :
  let r := recipe_of asked_text in
  get_value mini_env (r_root r) $"/source/0/url" None None = Ok (JStr $"foo")
  /\ get_value mini_env (r_root r) $"/requirements/run" None None = Ok (JList [JStr $"python"; JStr $"numpy"])
  /\ get_value mini_env (r_root r) $"/requirements" None None = Ok (JDict [(PStr $"run", JList [JStr $"python"; JStr $"numpy"])]).
Proof. cbv zeta. repeat split; vm_compute; reflexivity. Qed.
