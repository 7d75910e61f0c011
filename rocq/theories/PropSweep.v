(** Property C155: one patch on all lines that match. *)
From Verif Require Import EditProofs RenderProofs4 Samples MiniYaml PropPatch PropBump PropEditFile PropQuery SweepProofs SweepSpec.

(** ** C155 *)
Theorem C155_all_lines : forall E rx d with_comment xs vars xs',
  canonical_recipe E xs vars -> canonical_recipe E xs' vars -> no_slash_key xs -> xs <> [] -> (with_comment = true -> no_list_comment xs) ->
  swept E d (lines_found rx with_comment xs) xs xs' ->
  exists r, new_recipe E (join NLs (recipe_page xs vars)) = Ok r
  /\ let o := search_and_patch E rx d with_comment r in fst o = Ok true /\ render E (snd o) = join NLs (recipe_page xs' vars).
Proof. exact c155. Qed.
Print Assumptions C155_all_lines.
Theorem C155_all_lines_in_new_format : forall E rx d with_comment xs vars xs',
  new_file E xs vars -> canonical_document E xs' -> no_slash_key xs -> xs <> [] -> (with_comment = true -> no_list_comment xs) ->
  swept E d (lines_found rx with_comment xs) xs xs' ->
  exists r, new_recipe E (join NLs (page xs)) = Ok r
  /\ let o := search_and_patch E rx d with_comment r in fst o = Ok true /\ render E (snd o) = join NLs (page xs').
Proof. exact c155_new. Qed.
Print Assumptions C155_all_lines_in_new_format.
(** If no line matches nothing changes, whatever the patch is. *)
Theorem C155_no_line : forall E rx d with_comment xs vars,
  canonical_recipe E xs vars -> no_slash_key xs -> xs <> [] -> (with_comment = true -> no_list_comment xs) -> lines_found rx with_comment xs = [] ->
  exists r, new_recipe E (join NLs (recipe_page xs vars)) = Ok r /\ search_and_patch E rx d with_comment r = (Ok true, r).
Proof. exact c155_nothing. Qed.
Print Assumptions C155_no_line.

(** With remove, the wrong lines may go: the paths are those before the first patch, and the numbers of later elements have changed. *)
Theorem C155_removed_lines_refuted : exists lines, let r := recipe_of (nl lines) in
  let o := search_and_patch mini_env (contains_sub $"foo") [(PStr $"op", JStr $"remove")] false r in
  map pr (search mini_env (contains_sub $"foo") false (r_root r)) = ["/run/0"; "/run/1"]%string
  /\ map pr (splitlines (render mini_env r)) = ["run:"; "  - foo-a"; "  - foo-b"; "  - bar"]%string
  /\ fst o = Ok true /\ map pr (splitlines (render mini_env (snd o))) = ["run:"; "  - foo-b"]%string.
Proof. exists ["run:"; "  - foo-a"; "  - foo-b"; "  - bar"]%string. cbv zeta. repeat split; vm_compute; reflexivity. Qed.
Print Assumptions C155_removed_lines_refuted.

Definition sweep_items (a b : str) : list item :=
  [ISection (PStr $"package") [] [IScalar (PStr $"name") (JStr $"foo") $"# short"; IScalar (PStr $"version") (JStr a) []];
   ISection (PStr $"source") [] [IMapScalar (PStr $"url") (JStr $"here") [] [IScalar (PStr $"tag") (JStr b) []]];
   ISection (PStr $"about") [] [IScalar (PStr $"license") (JStr $"MIT") []]].
Definition to_new : list (prim * json) := [(PStr $"op", JStr $"replace"); (PStr $"value", JStr $"2.0.1")].
Example C155_canonical : canonical_recipe mini_env (sweep_items $"1.2.3" $"v1.2.3") [] /\ canonical_recipe mini_env (sweep_items $"2.0.1" $"2.0.1") []
  /\ no_slash_key (sweep_items $"1.2.3" $"v1.2.3").
Proof. split; [unfold sweep_items; asked_canonical|]. split; [unfold sweep_items; asked_canonical|]. repeat constructor; vm_compute; discriminate. Qed.
Example C155_found : lines_found (contains_sub $"1.2") false (sweep_items $"1.2.3" $"v1.2.3") = [$"/package/version"; $"/source/0/tag"].
Proof. vm_compute. reflexivity. Qed.
Example C155_swept : swept mini_env to_new [$"/package/version"; $"/source/0/tag"] (sweep_items $"1.2.3" $"v1.2.3") (sweep_items $"2.0.1" $"2.0.1").
Proof.
  unfold swept, sweep_items. cbn [map].
  eapply (turn_next _ _ (RReplace $"/package/version" (JStr $"2.0.1"))); [asks_payload| |].
  { refine (edit_replace _ [$"package"; $"version"] _ _ _ _ _); [comps_ok|].
    eapply (inside_section _ _ _ _ _ _ _ _ []); [reflexivity|absent|apply below_section..|]. apply inside_here.
    exists [IScalar (PStr $"name") (JStr $"foo") $"# short"], (IScalar (PStr $"version") (JStr $"1.2.3") []), (IScalar (PStr $"version") (JStr $"2.0.1") []), [].
    split; [split; [absent|reflexivity]|]. split; [apply rewrite_scalar; vm_compute; reflexivity|]. split; reflexivity. }
  cbn [app]. eapply (turn_next _ _ (RReplace $"/source/0/tag" (JStr $"2.0.1"))); [asks_payload| |apply turn_none].
  refine (edit_replace _ [$"source"; $"0"; $"tag"] _ _ _ _ _); [comps_ok|].
  eapply (inside_section _ _ _ _ _ _ _ _ [_]); [reflexivity|absent|apply below_section..|].
  eapply (inside_element _ _ _ _ _ _ _ _ []); [reflexivity|vm_compute; reflexivity|apply in_scalar_first|apply in_scalar_first|]. apply inside_here.
  exists [IScalar (PStr $"url") (JStr $"here") []], (IScalar (PStr $"tag") (JStr $"v1.2.3") []), (IScalar (PStr $"tag") (JStr $"2.0.1") []), [].
  split; [split; [absent|reflexivity]|]. split; [apply rewrite_scalar; vm_compute; reflexivity|]. split; reflexivity.
Qed.
Example C155_example :
  let o := search_and_patch mini_env (contains_sub $"1.2") to_new false (recipe_of (join NLs (recipe_page (sweep_items $"1.2.3" $"v1.2.3") []))) in
  fst o = Ok true
  /\ map pr (splitlines (render mini_env (snd o))) = ["package:"; "  name: foo  # short"; "  version: 2.0.1"; ""; "source:"; "  - url: here"; "    tag: 2.0.1"; ""; "about:"; "  license: MIT"]%string.
Proof. cbv zeta. split; vm_compute; reflexivity. Qed.
