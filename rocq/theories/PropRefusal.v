(** Property C157: calls that are refused leave no trace in a file. *)
From Verif Require Import EditProofs RenderProofs4 Samples MiniYaml PropCommands PropPatch PropReport PropBump PropEditFile DepsProofs PropDeps PropDepFile PropUndo PropCommentFile PropSession HistProofs PropFileDiff RefusalProofs RefusalSpec.

(** ** C157 *)
Theorem C157_refusals : forall E MS l xs vars xs' vars', canonical_recipe E xs vars -> canonical_recipe E xs' vars' -> acted_in_turn E MS SV0 l xs vars xs' vars' ->
  let text := join NLs (recipe_page xs vars) in let text' := join NLs (recipe_page xs' vars') in
  exists r, new_recipe E text = Ok r /\ forall l', with_refusals E MS l l' r -> differences E l text text' (session E MS l' r).
Proof. exact c157. Qed.
Print Assumptions C157_refusals.
Theorem C157_refusals_in_new_format : forall E MS l xs vars xs' vars' vars2, new_file E xs vars -> new_file E xs' vars2 -> acted_in_turn E MS SV1 l xs vars xs' vars' ->
  let text := join NLs (page xs) in let text' := join NLs (page xs') in
  exists r, new_recipe E text = Ok r /\ forall l', with_refusals E MS l l' r -> differences E l text text' (session E MS l' r).
Proof. exact c157_new. Qed.
Print Assumptions C157_refusals_in_new_format.

(** A patch without an operation, one of a path that is not there, a test that fails, a selector without brackets, a comment
    without text, a variable that is not there and a dependency that is not there, between the calls of [the_session]. *)
Definition no_patch : action := AEdit (EPatch (JDict [])).
Definition no_path : action := AEdit (EPatch (payload "remove" "/about/home" [])).
Definition no_value : action := AEdit (EPatch (payload "test" "/package/name" [("value"%string, JStr $"other")])).
Definition no_brackets : action := AEdit (EAddSel $"/about/license" $"osx" SMAnd).
Definition no_text : action := AEdit (EAddComment $"/about/license" $"  ").
Definition no_variable : action := AEdit (EDelVar $"missing").
Definition no_dependency : action := ARemoveDependency (sample_dep "/requirements/run/7" "numpy" None).
Definition with_more : list action := match the_session with
  | a :: b :: l => no_patch :: no_path :: a :: no_value :: no_brackets :: b :: no_text :: no_variable :: no_dependency :: l
  | l => l end.
Ltac refuse := split; [intros H; vm_compute in H; discriminate H|]; split; [discriminate|]; intros p from path H; try discriminate H; injection H as <-;
  intros (d & HD & _ & _ & HO & _); injection HD as <-; vm_compute in HO; discriminate HO.
Example C157_refused : with_refusals mini_env mini_spec the_session with_more (recipe_of (join NLs (recipe_page start_items start_vars))).
Proof.
  unfold with_more, the_session.
  apply refusals_more; [refuse|]. apply refusals_more; [refuse|]. apply refusals_call.
  apply refusals_more; [refuse|]. apply refusals_more; [refuse|]. apply refusals_call.
  apply refusals_more; [refuse|].
  apply refusals_more. { split; [intros H; vm_compute in H; intuition discriminate|]. split; discriminate. }
  apply refusals_more; [refuse|]. do 4 apply refusals_call. apply refusals_none.
Qed.
Example C157_example :
  let r := recipe_of (join NLs (recipe_page start_items start_vars)) in
  length with_more = 13 /\ render mini_env (session mini_env mini_spec with_more r) = join NLs (recipe_page end_items end_vars).
Proof. cbv zeta. split; vm_compute; reflexivity. Qed.
