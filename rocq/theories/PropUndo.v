(** Property C141: edits of a file that undo each other. *)
From Verif Require Import EditProofs RenderProofs4 Samples MiniYaml PropCommands PropPatch PropReport PropBump PropEditFile DepsProofs PropDeps PropDepFile UndoProofs UndoSpec.

(** ** C141 *)
Theorem C141_undone : forall E j j' q q' xs vars xs', canonical_recipe E xs vars -> canonical_recipe E xs' vars ->
  asks j q -> asks j' q' -> undone_by E q q' xs xs' ->
  let text := join NLs (recipe_page xs vars) in let text' := join NLs (recipe_page xs' vars) in
  patch_command E (JsonData j) (ReadOk text) None = (Exit SUCCESS, [Write text'])
  /\ patch_command E (JsonData j') (ReadOk text') None = (Exit SUCCESS, [Write text]).
Proof. exact c141. Qed.
Print Assumptions C141_undone.
Theorem C141_undone_in_new_format : forall E j j' q q' xs vars xs' vars', new_file E xs vars -> new_file E xs' vars' ->
  asks j q -> asks j' q' -> undone_by E q q' xs xs' ->
  let text := join NLs (page xs) in let text' := join NLs (page xs') in
  patch_command E (JsonData j) (ReadOk text) None = (Exit SUCCESS, [Write text'])
  /\ patch_command E (JsonData j') (ReadOk text') None = (Exit SUCCESS, [Write text]).
Proof. exact c141_new. Qed.
Print Assumptions C141_undone_in_new_format.
(** A dependency that was added at the end of its section is removed by its number. *)
Theorem C141_dependency_undone : forall E MS dep dep' mode smode vars xs xs' cs d n l, canonical_recipe E xs vars -> canonical_recipe E xs' vars ->
  requirements_path (d_path dep) cs d -> get_value E (document xs) (path_text cs) None (Some (SV0, vars)) = Ok (JList l) ->
  mode = DMUseBoth \/ (mode <> DMExact /\ Forall (names_other MS (dep_name dep)) l) ->
  plain_dependency E (dep_text dep) -> d_sel dep = None \/ read_with_new E cs (dep_text dep) xs -> dependency_at_end dep cs n xs xs' ->
  isdigit n = true -> d_path dep' = path_text (cs ++ [n]) ->
  exists r r' r'', new_recipe E (join NLs (recipe_page xs vars)) = Ok r /\ add_dependency E MS dep mode smode r = (Ok true, r')
  /\ render E r' = join NLs (recipe_page xs' vars) /\ remove_dependency E dep' r' = (Ok true, r'') /\ render E r'' = join NLs (recipe_page xs vars).
Proof. exact c141_dependency. Qed.
Print Assumptions C141_dependency_undone.

Definition undo_items (version : str) (about run : list item) : list item :=
  [ISection (PStr $"package") [] [IScalar (PStr $"name") (JStr $"foo") $"# short"; IScalar (PStr $"version") (JStr version) []];
   ISection (PStr $"requirements") $"# later" [ISection (PStr $"run") [] run];
   ISection (PStr $"about") [] (IScalar (PStr $"license") (JStr $"MIT") [] :: about)].
Definition python_here : item := IElem (JStr $"python") $"# any".
Definition small : list item := undo_items $"1.2.3" [] [python_here].
Definition with_home : list item := undo_items $"1.2.3" [IScalar (PStr $"home") (JStr $"x") []] [python_here].
Definition with_scipy : list item := undo_items $"1.2.3" [] [python_here; IElem (JStr $"scipy") []].
Definition scipy_first : list item := undo_items $"1.2.3" [] [IElem (JStr $"scipy") []; python_here].
Definition newer : list item := undo_items $"2.0.1" [] [python_here].
Example C141_key : undone_by mini_env (RAdd $"/about/home" (JStr $"x")) (RRemove $"/about/home") small with_home
  /\ undone_by mini_env (RRemove $"/about/home") (RAdd $"/about/home" (JStr $"x")) with_home small.
Proof.
  unfold small, with_home, undo_items. split.
  - refine (undo_new_key _ [$"about"; $"home"] _ _ _ _ _ _); [comps_ok|discriminate|].
    eapply (inside_section _ _ _ _ _ _ _ _ [_; _]); [reflexivity|absent|apply below_section..|]. apply inside_here.
    split; [|exists (IScalar (PStr $"home") (JStr $"x") []); split; reflexivity].
    split; [reflexivity|]. split; [discriminate|]. split; [absent|]. exists [IScalar (PStr $"home") (JStr $"x") []]. split; [vm_compute; reflexivity|reflexivity].
  - refine (undo_removed_key _ [$"about"; $"home"] _ _ _ _ _ _ _); [comps_ok|vm_compute; reflexivity|discriminate|].
    eapply (inside_section _ _ _ _ _ _ _ _ [_; _]); [reflexivity|absent|apply below_section..|]. apply inside_here.
    split; [reflexivity|split; [discriminate|split; [absent|]]]. exists (IScalar (PStr $"home") (JStr $"x") []). split; [reflexivity|]. split; [reflexivity|vm_compute; reflexivity].
Qed.
Example C141_element : undone_by mini_env (RAdd $"/requirements/run/-" (JStr $"scipy")) (RRemove $"/requirements/run/1") small with_scipy
  /\ undone_by mini_env (RAdd $"/requirements/run/0" (JStr $"scipy")) (RRemove $"/requirements/run/0") small scipy_first.
Proof.
  unfold small, with_scipy, scipy_first, undo_items, python_here. split.
  - refine (undo_new_last _ [$"requirements"; $"run"] $"1" _ _ _ _ _ _ _); [comps_ok|discriminate|reflexivity|].
    eapply (inside_section _ _ _ _ _ _ _ _ [_]); [reflexivity|absent|apply below_section..|].
    eapply (inside_section _ _ _ _ _ _ _ _ []); [reflexivity|absent|apply below_section..|]. apply inside_here.
    split; [|reflexivity]. exists (IElem (JStr $"scipy") []). split; [apply element_plain; vm_compute; reflexivity|reflexivity].
  - refine (undo_insertion _ [$"requirements"; $"run"; $"0"] _ _ _ _ _); [comps_ok|].
    eapply (inside_section _ _ _ _ _ _ _ _ [_]); [reflexivity|absent|apply below_section..|].
    eapply (inside_section _ _ _ _ _ _ _ _ []); [reflexivity|absent|apply below_section..|]. apply inside_here.
    exists [], (IElem (JStr $"python") $"# any"), (IElem (JStr $"scipy") []), [].
    split; [reflexivity|]. split; [split; reflexivity|]. split; [reflexivity|]. split; [apply element_plain; vm_compute; reflexivity|]. split; reflexivity.
Qed.
Example C141_value : undone_by mini_env (RReplace $"/package/version" (JStr $"2.0.1")) (RReplace $"/package/version" (JStr $"1.2.3")) small newer.
Proof.
  unfold small, newer, undo_items. refine (undo_new_value _ [$"package"; $"version"] _ _ _ _ _ _ _ _); [comps_ok|vm_compute; reflexivity|vm_compute; reflexivity|].
  eapply (inside_section _ _ _ _ _ _ _ _ []); [reflexivity|absent|apply below_section..|]. apply inside_here.
  exists [IScalar (PStr $"name") (JStr $"foo") $"# short"], (PStr $"version"), []. split; [split; [absent|reflexivity]|]. split; reflexivity.
Qed.
Example C141_new_element : undone_by mini_env (RReplace $"/requirements/run/1" (JStr $"numpy")) (RReplace $"/requirements/run/1" (JStr $"scipy")) with_scipy
    (undo_items $"1.2.3" [] [python_here; IElem (JStr $"numpy") []]).
Proof.
  unfold with_scipy, undo_items, python_here. refine (undo_new_element _ [$"requirements"; $"run"; $"1"] (PStr $"numpy") (PStr $"scipy") _ _ _ _ _ _ _); [comps_ok|vm_compute; reflexivity|vm_compute; reflexivity|reflexivity|].
  eapply (inside_section _ _ _ _ _ _ _ _ [_]); [reflexivity|absent|apply below_section..|].
  eapply (inside_section _ _ _ _ _ _ _ _ []); [reflexivity|absent|apply below_section..|]. apply inside_here.
  exists [IElem (JStr $"python") $"# any"], []. split; [reflexivity|]. split; reflexivity.
Qed.
Example C141_canonical : canonical_recipe mini_env small [] /\ canonical_recipe mini_env with_home [] /\ canonical_recipe mini_env with_scipy []
  /\ canonical_recipe mini_env scipy_first [] /\ canonical_recipe mini_env newer [].
Proof.
  unfold small, with_home, with_scipy, scipy_first, newer, undo_items, python_here.
  split; [canonical_lists|]. split; [canonical_lists|]. split; [canonical_lists|]. split; canonical_lists.
Qed.
Example C141_dependency_example : dependency_at_end (sample_dep "/requirements/run/0" "scipy" None) [$"requirements"; $"run"] $"1" small with_scipy
  /\ get_value mini_env (document small) $"/requirements/run" None (Some (SV0, [])) = Ok (JList [JStr $"python"]).
Proof.
  split; [|vm_compute; reflexivity]. unfold small, with_scipy, undo_items, python_here. eapply (inside_section _ _ _ _ _ _ _ _ [_]); [reflexivity|absent|apply below_section..|]. apply inside_here.
  exists []; do 6 eexists; split; [reflexivity|]; split; [absent|]; split; [apply below_section|]; split; [apply below_section|]; split; [|split; reflexivity].
  split; [|reflexivity]. split; [dep_lines|]. exists []. split; [apply nc_none|reflexivity].
Qed.
(** A value whose line has a comment cannot be put back: the comment is lost (C105).  A key that was removed comes back at the end of
    its section. *)
Definition patched (op path : string) (extra : list (string * json)) (text : str) : str :=
  match patch_command mini_env (JsonData (payload op path extra)) (ReadOk text) None with (Exit SUCCESS, [Write t]) => t | _ => [] end.
Theorem C141_comment_refuted : exists text,
  let once := patched "replace" "/package/name" [("value", JStr $"bar")]%string text in
  map pr (splitlines text) = ["package:"; "  name: foo  # short"; "  version: 1.2.3"]%string
  /\ map pr (splitlines (patched "replace" "/package/name" [("value", JStr $"foo")]%string once)) = ["package:"; "  name: foo"; "  version: 1.2.3"]%string.
Proof. exists (nl ["package:"; "  name: foo  # short"; "  version: 1.2.3"]%string). cbv zeta. split; vm_compute; reflexivity. Qed.
Print Assumptions C141_comment_refuted.
Theorem C141_removed_first_key_refuted : exists text,
  let once := patched "remove" "/package/name" [] text in
  map pr (splitlines text) = ["package:"; "  name: foo"; "  version: 1.2.3"]%string
  /\ map pr (splitlines (patched "add" "/package/name" [("value", JStr $"foo")]%string once)) = ["package:"; "  version: 1.2.3"; "  name: foo"]%string.
Proof. exists (nl ["package:"; "  name: foo"; "  version: 1.2.3"]%string). cbv zeta. split; vm_compute; reflexivity. Qed.
Print Assumptions C141_removed_first_key_refuted.
