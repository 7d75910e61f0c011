(** Property C143: selectors and comments of the lines of a file. *)
From Verif Require Import EditProofs RenderProofs4 Samples MiniYaml PropCommands PropPatch PropReport PropBump PropEditFile PropUndo UndoProofs CommentFileProofs CommentFileSpec.

(** ** C143 *)
Theorem C143_file_to_file : forall E es xs vars xs', canonical_recipe E xs vars -> canonical_recipe E xs' vars -> lines_edited es xs xs' ->
  exists r, new_recipe E (join NLs (recipe_page xs vars)) = Ok r /\ all_succeed E es r /\ render E (run E es r) = join NLs (recipe_page xs' vars).
Proof. exact c143. Qed.
Print Assumptions C143_file_to_file.
Theorem C143_in_new_format : forall E es xs vars xs', new_file E xs vars -> canonical_document E xs' -> lines_edited es xs xs' ->
  exists r, new_recipe E (join NLs (page xs)) = Ok r /\ all_succeed E es r /\ render E (run E es r) = join NLs (page xs').
Proof. exact c143_new. Qed.
Print Assumptions C143_in_new_format.
(** A selector that is put on a line without a comment is taken from it again, and the file is as before. *)
Theorem C143_undone : forall E p sel b mode xs vars xs', canonical_recipe E xs vars -> Forall component p -> bracketed sel b ->
  inside (entry_changed (fun x x' => bare_line x /\ commented ($"# " ++ sel) x x') (last p [])) p xs xs' ->
  let text := join NLs (recipe_page xs vars) in
  exists r r' r'', new_recipe E text = Ok r /\ add_selector E (path_text p) sel mode r = (Ok tt, r')
  /\ remove_selector E (path_text p) r' = (Ok (Some sel), r'') /\ render E r'' = text.
Proof. exact c143_undone. Qed.
Print Assumptions C143_undone.
(** Only the first line of the entry differs, and only in its comment; if the entry is a list of one element, then this one too. *)
Theorem C143_one_line : forall c x x' i, commented c x x' ->
  exists body rest rest', layout i x = line (spaces i) body (entry_comment x) :: rest /\ layout i x' = line (spaces i) body c :: rest'
  /\ (rest' = rest \/ exists v c1, rest = [line (spaces (i + 2)) ($"- " ++ scalar_text v) c1] /\ rest' = [line (spaces (i + 2)) ($"- " ++ scalar_text v) c]).
Proof. exact commented_lines. Qed.
Print Assumptions C143_one_line.

Definition marked_items (name version run python scipy home : str) : list item :=
  [ISection (PStr $"package") [] [IScalar (PStr $"name") (JStr $"foo") name; IScalar (PStr $"version") (JStr $"1.2.3") version];
   ISection (PStr $"requirements") $"# later" [ISection (PStr $"run") run [IElem (JStr $"python") python; IElem (JStr $"scipy") scipy]];
   ISection (PStr $"about") [] [IScalar (PStr $"license") (JStr $"MIT") []; IScalar (PStr $"home") (JStr $"x") home]].
Definition marks_before : list item := marked_items $"# short" [] [] $"# [unix]" $"# [win] slow" [].
Definition marks_after : list item := marked_items $"# [osx] short" $"# [linux]" $"# all" $"# [unix and py>30]" $"# slow" [].
Definition marks : list edit :=
  [EAddSel $"/package/name" $"[osx]" SMAnd; EAddSel $"/package/version" $"[linux]" SMReplace; EAddComment $"/requirements/run" $"all";
   EAddSel $"/requirements/run/0" $"[py>30]" SMAnd; ERemSel $"/requirements/run/1"].
Ltac here A x c := apply inside_here; exists A, x; eexists; eexists; split; [split; [first [absent|reflexivity]|reflexivity]|]; split; [exists c; split|split; reflexivity].
Ltac a_note := repeat split; try (vm_compute; reflexivity); try discriminate; vm_compute; intuition discriminate.
Ltac no_newline := vm_compute; intuition discriminate.
Ltac at_path p := exists p; split; [comps_ok|]; split; [reflexivity|].
Ltac into A := eapply (inside_section _ _ _ _ _ _ _ _ A); [reflexivity|absent|apply below_section..|].
Example C143_marks : lines_edited marks marks_before marks_after.
Proof.
  unfold marks, marks_before, marks_after.
  eapply (lines_next _ _ _ (marked_items $"# [osx] short" [] [] $"# [unix]" $"# [win] slow" [])).
  { unfold marked_items. at_path [$"package"; $"name"]. into (@nil item). here (@nil item) (IScalar (PStr $"name") (JStr $"foo") $"# short") $"# [osx] short"; [|constructor].
    apply (selector_before_note _ $"[osx]" $"osx" SMAnd $"short"); [split; [reflexivity|no_newline]|discriminate|a_note]. }
  eapply (lines_next _ _ _ (marked_items $"# [osx] short" $"# [linux]" [] $"# [unix]" $"# [win] slow" [])).
  { unfold marked_items. at_path [$"package"; $"version"]. into (@nil item).
    here [IScalar (PStr $"name") (JStr $"foo") $"# [osx] short"] (IScalar (PStr $"version") (JStr $"1.2.3") []) $"# [linux]"; [|constructor].
    apply (selector_written _ $"[linux]" $"linux"); [split; [reflexivity|no_newline]|auto]. }
  eapply (lines_next _ _ _ (marked_items $"# [osx] short" $"# [linux]" $"# all" $"# [unix]" $"# [win] slow" [])).
  { unfold marked_items. at_path [$"requirements"; $"run"].
    eapply (inside_section _ _ _ _ _ _ _ _ [_]); [reflexivity|absent|apply below_section..|].
    here (@nil item) (ISection (PStr $"run") [] [IElem (JStr $"python") $"# [unix]"; IElem (JStr $"scipy") $"# [win] slow"]) $"# all"; [|constructor; reflexivity].
    apply note_written; [a_note|]. intros [|? ?] ? ? H; discriminate H. }
  eapply (lines_next _ _ _ (marked_items $"# [osx] short" $"# [linux]" $"# all" $"# [unix and py>30]" $"# [win] slow" [])).
  { unfold marked_items. at_path [$"requirements"; $"run"; $"0"].
    eapply (inside_section _ _ _ _ _ _ _ _ [_]); [reflexivity|absent|apply below_section..|]. into (@nil item).
    here (@nil item) (IElem (JStr $"python") $"# [unix]") $"# [unix and py>30]"; [|constructor].
    apply (selector_joined _ $"unix" $"py>30" SMAnd); [split; [reflexivity|no_newline]|discriminate|reflexivity]. }
  eapply lines_next; [|apply lines_none].
  unfold marked_items. at_path [$"requirements"; $"run"; $"1"].
  eapply (inside_section _ _ _ _ _ _ _ _ [_]); [reflexivity|absent|apply below_section..|]. into (@nil item).
  here [IElem (JStr $"python") $"# [unix and py>30]"] (IElem (JStr $"scipy") $"# [win] slow") $"# slow"; [|constructor].
  apply (selector_taken_from_note _ $"[win]" $"win" $"slow"); [split; [reflexivity|no_newline]|a_note].
Qed.
Example C143_canonical : canonical_recipe mini_env marks_before [] /\ canonical_recipe mini_env marks_after [].
Proof. unfold marks_before, marks_after, marked_items. split; canonical_lists. Qed.
Example C143_example :
  map pr (splitlines (join NLs (recipe_page marks_before []))) = ["package:"; "  name: foo  # short"; "  version: 1.2.3"; "";
    "requirements:  # later"; "  run:"; "    - python  # [unix]"; "    - scipy  # [win] slow"; ""; "about:"; "  license: MIT"; "  home: x"]%string
  /\ map pr (splitlines (render mini_env (run mini_env marks (recipe_of (join NLs (recipe_page marks_before [])))))) =
    ["package:"; "  name: foo  # [osx] short"; "  version: 1.2.3  # [linux]"; "";
    "requirements:  # later"; "  run:  # all"; "    - python  # [unix and py>30]"; "    - scipy  # slow"; ""; "about:"; "  license: MIT"; "  home: x"]%string.
Proof. split; vm_compute; reflexivity. Qed.
Example C143_undone_example : let text := join NLs (recipe_page marks_before []) in
  exists r r' r'', new_recipe mini_env text = Ok r /\ add_selector mini_env $"/about/home" $"[win]" SMOr r = (Ok tt, r')
  /\ remove_selector mini_env $"/about/home" r' = (Ok (Some $"[win]"), r'') /\ render mini_env r'' = text.
Proof.
  refine (C143_undone mini_env [$"about"; $"home"] $"[win]" $"win" SMOr marks_before [] (marked_items $"# short" [] [] $"# [unix]" $"# [win] slow" $"# [win]") (proj1 C143_canonical) _ _ _).
  - comps_ok.
  - split; [reflexivity|no_newline].
  - unfold marks_before, marked_items. eapply (inside_section _ _ _ _ _ _ _ _ [_; _]); [reflexivity|absent|apply below_section..|].
    apply inside_here. exists [IScalar (PStr $"license") (JStr $"MIT") []], (IScalar (PStr $"home") (JStr $"x") []). eexists. eexists.
    split; [split; [absent|reflexivity]|]. split; [|split; reflexivity]. split; [split; reflexivity|constructor].
Qed.
