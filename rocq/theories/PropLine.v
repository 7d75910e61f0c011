(** Property C146: what is found at the path of a line. *)
From Verif Require Import Samples MiniYaml PropSession PropQuery LineProofs LineSpec.

(** ** C146 *)
Theorem C146_found : forall E xs vars, canonical_recipe E xs vars -> no_slash_key xs -> addressable_document (document xs) = true ->
  exists r, new_recipe E (join NLs (recipe_page xs vars)) = Ok r /\ Forall (line_found E r) (file_rows 0 xs).
Proof. exact c146. Qed.
Print Assumptions C146_found.
Theorem C146_found_in_new_format : forall E xs vars, new_file E xs vars -> no_slash_key xs -> addressable_document (document xs) = true ->
  exists r, new_recipe E (join NLs (page xs)) = Ok r /\ Forall (line_found E r) (file_rows 0 xs).
Proof. exact c146_new. Qed.
Print Assumptions C146_found_in_new_format.
Theorem C146_found_after_session : forall E MS l xs vars xs' vars',
  canonical_recipe E xs vars -> canonical_recipe E xs' vars' -> no_slash_key xs' -> addressable_document (document xs') = true ->
  acted_in_turn E MS SV0 l xs vars xs' vars' ->
  exists r, new_recipe E (join NLs (recipe_page xs vars)) = Ok r /\ Forall (line_found E (session E MS l r)) (file_rows 0 xs').
Proof. exact c146_session. Qed.
Print Assumptions C146_found_after_session.

(** The lines of the file of C145, which is in canonical layout (C145_canonical), and what is found at some of them. *)
Example C146_lines : addressable_document (document asked_items) = true
  /\ map pr (flat_map row_path (file_rows 0 asked_items)) =
     ["/package"; "/package/name"; "/package/version"; "/source"; "/source/0"; "/source/0/url"; "/source/0/folder"; "/requirements"; "/requirements/run";
      "/requirements/run/0"; "/requirements/run/1"; "/about"; "/about/license"; "/about/home"]%string.
Proof. split; vm_compute; reflexivity. Qed.
Example C146_example :
  let r := recipe_of asked_text in
  get_value mini_env (r_root r) $"/source/0/folder" None None = Ok (JInt 3)
  /\ get_value mini_env (r_root r) $"/requirements/run/1" None None = Ok (JStr $"numpy")
  /\ get_selector_at_path $"/package/version" None r = Ok $"[osx]" /\ get_selector_at_path $"/package/name" None r = Err EKey
  /\ contains_selector_at_path $"/source/0/url" r = Ok true /\ contains_selector_at_path $"/requirements/run/1" r = Ok false
  /\ contains_value (r_root r) $"/about/home" = Ok true.
Proof. cbv zeta. repeat split; vm_compute; reflexivity. Qed.
(** Two lines with the same key: the second is not found at its path. *)
Theorem C146_same_key_refuted : exists xs r, canonical_recipe mini_env xs [] /\ no_slash_key xs
  /\ new_recipe mini_env (join NLs (recipe_page xs [])) = Ok r /\ ~ Forall (line_found mini_env r) (file_rows 0 xs).
Proof.
  exists [ISection (PStr $"build") [] [IScalar (PStr $"number") (JInt 3) $"# [linux]"; IScalar (PStr $"number") (JInt 103) $"# [win]"]].
  exists (recipe_of (join NLs (recipe_page [ISection (PStr $"build") [] [IScalar (PStr $"number") (JInt 3) $"# [linux]"; IScalar (PStr $"number") (JInt 103) $"# [win]"]] []))).
  split; [asked_canonical|]. split; [repeat constructor; vm_compute; discriminate|]. split; [vm_compute; reflexivity|].
  intros H. do 2 apply Forall_inv_tail in H. apply Forall_inv in H. destruct H as (_ & H & _). vm_compute in H. discriminate H.
Qed.
Print Assumptions C146_same_key_refuted.
