(** Property C156: the differences shown for a file after calls. *)
From Verif Require Import EditProofs RenderProofs4 Samples MiniYaml PropCommands PropPatch PropReport PropBump PropEditFile DepsProofs PropDeps PropDepFile PropUndo PropCommentFile PropSession HistProofs FileDiffProofs FileDiffSpec.

(** ** C156 *)
Theorem C156_differences : forall E MS l xs vars xs' vars', canonical_recipe E xs vars -> canonical_recipe E xs' vars' -> acted_in_turn E MS SV0 l xs vars xs' vars' ->
  let text := join NLs (recipe_page xs vars) in let text' := join NLs (recipe_page xs' vars') in
  exists r, new_recipe E text = Ok r /\ differences E l text text' (session E MS l r).
Proof. exact c156. Qed.
Print Assumptions C156_differences.
Theorem C156_differences_in_new_format : forall E MS l xs vars xs' vars' vars2, new_file E xs vars -> new_file E xs' vars2 -> acted_in_turn E MS SV1 l xs vars xs' vars' ->
  let text := join NLs (page xs) in let text' := join NLs (page xs') in
  exists r, new_recipe E text = Ok r /\ differences E l text text' (session E MS l r).
Proof. exact c156_new. Qed.
Print Assumptions C156_differences_in_new_format.

Definition name_tested : action := AEdit (EPatch (payload "test" "/package/name" [("value"%string, JStr $"foo")])).
Example C156_acts : acted_in_turn mini_env mini_spec SV0 (name_tested :: the_session) start_items start_vars end_items end_vars.
Proof.
  eapply acts_next; [|exact C144_acts]. eapply (act_patch _ _ _ _ (RTest $"/package/name" (JStr $"foo"))); [asks_payload|]. eapply edit_test; vm_compute; reflexivity.
Qed.
(** Of these calls the first is idle and the others are not.  The two files are canonical by [C144_canonical]. *)
Example C156_idle : idle name_tested /\ Forall (fun a => ~ idle a) the_session.
Proof.
  split.
  - eexists. split; [reflexivity|]. left. exists $"/package/name", (JStr $"foo"). asks_payload.
  - assert (asks (payload "add" "/about/home" [("value"%string, JStr $"x")]) (RAdd $"/about/home" (JStr $"x"))) as HA by asks_payload.
    repeat constructor; intros (p & H & HI); try discriminate H.
    injection H as <-. destruct HI as [(path & v & HI)|(s & HI)]; discriminate (asks_fun _ _ _ HA HI).
Qed.
(** The differences with a stand-in for difflib that shows the lines of the second text that are not in the first. *)
Example C156_example :
  let unified := fun a b => join NLs (filter (fun l => negb (mem_str l a)) b) in
  let r := recipe_of (join NLs (recipe_page start_items start_vars)) in
  map pr (splitlines (diff mini_env unified (session mini_env mini_spec (name_tested :: the_session) r))) =
    ["{% set name = ""bar"" %}"; "{% set flag = True %}"; "    - scipy"; "  license: MIT  # [osx]"; "  home: x"]%string
  /\ diff mini_env unified (session mini_env mini_spec [name_tested] r) = [].
Proof. cbv zeta. split; vm_compute; reflexivity. Qed.
