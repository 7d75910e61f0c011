(** Property C145: what the queries report of a file. *)
From Verif Require Import EditProofs RenderProofs4 Samples MiniYaml PropCommands PropPatch PropReport PropBump PropEditFile DepsProofs PropDeps PropDepFile PropUndo PropCommentFile PropSession QueryProofs QuerySpec.

(** ** C145 *)
Theorem C145_answers : forall E xs vars, canonical_recipe E xs vars -> no_slash_key xs -> xs <> [] ->
  exists r, new_recipe E (join NLs (recipe_page xs vars)) = Ok r /\ answers E xs r /\ selector_answers xs r.
Proof. exact c145. Qed.
Print Assumptions C145_answers.
Theorem C145_answers_in_new_format : forall E xs vars, new_file E xs vars -> no_slash_key xs -> xs <> [] ->
  exists r, new_recipe E (join NLs (page xs)) = Ok r /\ answers E xs r /\ selector_answers xs r.
Proof. exact c145_new. Qed.
Print Assumptions C145_answers_in_new_format.
(** After any calls the answers are those of the file that would be written. *)
Theorem C145_answers_after_session : forall E MS l xs vars xs' vars',
  canonical_recipe E xs vars -> canonical_recipe E xs' vars' -> no_slash_key xs' -> xs' <> [] ->
  acted_in_turn E MS SV0 l xs vars xs' vars' ->
  exists r, new_recipe E (join NLs (recipe_page xs vars)) = Ok r /\ answers E xs' (session E MS l r).
Proof. exact c145_session. Qed.
Print Assumptions C145_answers_after_session.
Theorem C145_selectors_after_session : forall E MS l xs vars xs' vars',
  canonical_recipe E xs vars -> canonical_recipe E xs' vars' -> no_slash_key xs' ->
  (forall path c, ~ In (AEdit (EAddComment path c)) l) -> acted_in_turn E MS SV0 l xs vars xs' vars' ->
  exists r, new_recipe E (join NLs (recipe_page xs vars)) = Ok r /\ selector_answers xs' (session E MS l r).
Proof. exact c145_session_selectors. Qed.
Print Assumptions C145_selectors_after_session.
(** With add_comment in the session the queries on selectors may be wrong: a comment on a key with one list element
    takes the place of the comment of that element, with its selector, and the selector is still reported. *)
Theorem C145_selectors_after_comment_refuted : exists path c r, fst (add_comment path c r) = Ok tt
  /\ let r' := snd (add_comment path c r) in
     splitlines (render mini_env r) = [$"run:"; $"  - python  # [osx]"] /\ splitlines (render mini_env r') = [$"run:  # note"; $"  - python  # note"]
     /\ list_selectors r' = [$"[osx]"] /\ list_selectors (recipe_of (render mini_env r')) = [].
Proof.
  exists $"/run", $"note", (recipe_of (nl ["run:"; "  - python  # [osx]"]%string)). repeat split; vm_compute; reflexivity.
Qed.
Print Assumptions C145_selectors_after_comment_refuted.

Definition asked_items : list item :=
  [ISection (PStr $"package") [] [IScalar (PStr $"name") (JStr $"foo") $"# short"; IScalar (PStr $"version") (JStr $"1.2.3") $"# [osx] stable"];
   IComment $"# archives [win]";
   ISection (PStr $"source") [] [IMapScalar (PStr $"url") (JStr $"foo") $"# [linux]" [IScalar (PStr $"folder") (JInt 3) []]];
   ISection (PStr $"requirements") [] [ISection (PStr $"run") [] [IElem (JStr $"python") $"# [osx]"; IComment $"# one more"; IElem (JStr $"numpy") []]];
   ISection (PStr $"about") $"# later" [IScalar (PStr $"license") (JStr $"MIT") []; IEmpty (PStr $"home") []]].
Definition asked_text : str := join NLs (recipe_page asked_items []).
Ltac asked_canonical :=
  split; [split; [split|split]|split; [|split]];
  [repeat match goal with
   | |- Forall (canonical _) [] => constructor
   | |- Forall (canonical _) (_ :: _) => constructor
   | |- Forall (entry_beside _) _ => repeat constructor
   | |- canonical _ (IComment _) => apply (can_comment _ _ JNull); [eexists; vm_compute; reflexivity|apply ends_clean_check; vm_compute; reflexivity|apply block_mark_check; vm_compute; reflexivity|vm_compute; reflexivity]
   | |- canonical _ (IEmpty _ _) => apply can_empty; plain_check
   | |- canonical _ (IScalar _ _ _) => apply can_scalar; [discriminate|plain_check]
   | |- canonical _ (ISection _ _ _) => apply can_section; [plain_check|split; [discriminate|intros; discriminate]|]
   | |- canonical _ (IMapScalar _ _ _ _) => apply can_map_scalar; [discriminate|plain_check| |]
   | |- canonical _ (IElem _ _) => apply can_elem; [reflexivity|plain_check]
   end
  |repeat constructor
  |vm_compute; reflexivity
  |repeat (constructor; [apply inert_check; vm_compute; reflexivity|]); constructor
  |intros x I; repeat destruct I as [<-|I]; try (split; [vm_compute; discriminate|intros; discriminate]); contradiction
  |repeat constructor; vm_compute; intuition discriminate
  |constructor].
Example C145_canonical : canonical_recipe mini_env asked_items [] /\ no_slash_key asked_items /\ asked_items <> [].
Proof. split; [unfold asked_items; asked_canonical|]. split; [repeat constructor; vm_compute; discriminate|discriminate]. Qed.
(** The comments of the file, one by one. *)
Example C145_told : comments_told (file_rows 0 asked_items)
  [($"/package/name", $"# short"); ($"/package/version", $"# stable"); ($"/about", $"# later")].
Proof.
  cbv [file_rows asked_items rows number_after app].
  repeat first
    [ apply no_lines | apply comment_line_skipped
    | apply line_without; [first [apply told_nothing | apply (told_selector $"[linux]" $"linux"); split; [reflexivity|no_newline]
                                 | apply (told_selector $"[osx]" $"osx"); split; [reflexivity|no_newline]]|]
    | apply line_with; [first [apply (told_note $"[osx]" $"osx" $"stable"); [split; [reflexivity|no_newline]|a_note]
                              | apply told_comment; [eexists; reflexivity|apply selector_of_none; vm_compute; reflexivity]]|] ].
Qed.
Example C145_example :
  map pr (splitlines asked_text) = ["package:"; "  name: foo  # short"; "  version: 1.2.3  # [osx] stable"; ""; "# archives [win]"; "source:"; "  - url: foo  # [linux]"; "    folder: 3"; "";
    "requirements:"; "  run:"; "    - python  # [osx]"; "    # one more"; "    - numpy"; ""; "about:  # later"; "  license: MIT"; "  home:"]%string
  /\ NoDup (flat_map row_path (file_rows 0 asked_items))
  /\ (let r := recipe_of asked_text in
      map pr (list_value_paths mini_env (r_root r)) = ["/package/name"; "/package/version"; "/source/0/url"; "/source/0/folder"; "/requirements/run/0"; "/requirements/run/1"; "/about/license"; "/about/home"]%string
      /\ find_value mini_env (r_root r) (JStr $"foo") = Ok [$"/package/name"; $"/source/0/url"]
      /\ find_value mini_env (r_root r) JNull = Ok [$"/about/home"]
      /\ map pr (list_selectors r) = ["[osx]"; "[win]"; "[linux]"]%string
      /\ map pr (fst (get_selector_paths $"[osx]" r)) = ["/package/version"; "/requirements/run/0"]%string
      /\ get_comments_table mini_env (r_root r) = [($"/package/name", $"# short"); ($"/package/version", $"# stable"); ($"/about", $"# later")]).
Proof.
  split; [vm_compute; reflexivity|]. split.
  - vm_compute. repeat constructor; cbn [In]; intuition discriminate.
  - cbv zeta. repeat split; vm_compute; reflexivity.
Qed.
(** The session of C144 has no comment call; the selector it adds is reported. *)
Example C145_session_example : (forall path c, ~ In (AEdit (EAddComment path c)) the_session)
  /\ let r := session mini_env mini_spec the_session (recipe_of (join NLs (recipe_page start_items start_vars))) in
     list_selectors r = [$"[osx]"] /\ fst (get_selector_paths $"[osx]" r) = [$"/about/license"]
     /\ flat_map (path_with_selector $"[osx]") (file_rows 0 end_items) = [$"/about/license"].
Proof.
  split; [intros path c H; cbn [In the_session] in H; repeat (destruct H as [H|H]; [discriminate H|]); exact H|]. cbv zeta. repeat split; vm_compute; reflexivity.
Qed.
