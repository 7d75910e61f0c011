(** Property C144: a session of calls on a file. *)
From Verif Require Import EditProofs RenderProofs4 Samples MiniYaml PropCommands PropPatch PropReport PropBump PropEditFile DepsProofs PropDeps PropDepFile PropUndo PropCommentFile SessionProofs SessionSpec.

(** ** C144 *)
Theorem C144_session : forall E MS l xs vars xs' vars', canonical_recipe E xs vars -> canonical_recipe E xs' vars' ->
  acted_in_turn E MS SV0 l xs vars xs' vars' ->
  let text := join NLs (recipe_page xs vars) in let text' := join NLs (recipe_page xs' vars') in
  exists r r2, new_recipe E text = Ok r /\ all_accepted E MS l r /\ render E (session E MS l r) = text'
  /\ new_recipe E text' = Ok r2 /\ r_root r2 = r_root (session E MS l r) /\ r_schema r2 = SV0 /\ r_vars r2 = r_vars (session E MS l r).
Proof. exact c144. Qed.
Print Assumptions C144_session.
Theorem C144_session_in_new_format : forall E MS l xs vars xs' vars' vars2, new_file E xs vars -> new_file E xs' vars2 ->
  acted_in_turn E MS SV1 l xs vars xs' vars' ->
  let text := join NLs (page xs) in let text' := join NLs (page xs') in
  exists r r2, new_recipe E text = Ok r /\ all_accepted E MS l r /\ render E (session E MS l r) = text'
  /\ new_recipe E text' = Ok r2 /\ r_root r2 = r_root (session E MS l r) /\ r_schema r2 = SV1 /\ r_vars r2 = vars2.
Proof. exact c144_new. Qed.
Print Assumptions C144_session_in_new_format.
(** Another value of a variable is another statement in the same place. *)
Theorem C144_variable_line : forall xs A k v w B, exists rest, recipe_page xs (A ++ (k, v) :: B) = map statement A ++ statement (k, v) :: rest
  /\ recipe_page xs (A ++ (k, w) :: B) = map statement A ++ statement (k, w) :: rest.
Proof. exact variable_line. Qed.
Print Assumptions C144_variable_line.

Definition session_items (license : str) (about run : list item) : list item :=
  [ISection (PStr $"package") [] [IScalar (PStr $"name") (JStr $"foo") $"# short"; IScalar (PStr $"version") (JStr $"1.2.3") []];
   ISection (PStr $"requirements") $"# later" [ISection (PStr $"run") [] run];
   ISection (PStr $"about") [] (IScalar (PStr $"license") (JStr $"MIT") license :: about)].
Definition start_items : list item := session_items [] [] [python_here].
Definition end_items : list item := session_items $"# [osx]" [IScalar (PStr $"home") (JStr $"x") []] [python_here; IElem (JStr $"scipy") []].
Definition start_vars : vtbl := [($"name", JStr $"foo"); ($"build", JInt 3)].
Definition end_vars : vtbl := [($"name", JStr $"bar"); ($"flag", JBool true)].
Definition the_session : list action :=
  [AEdit (ESetVar $"name" (JStr $"bar")); AEdit (EDelVar $"build"); AEdit (EPatch (payload "add" "/about/home" [("value"%string, JStr $"x")]));
   AEdit (EAddSel $"/about/license" $"[osx]" SMAnd); AAddDependency (sample_dep "/requirements/run/0" "scipy" None) DMReplace SMAnd; AEdit (ESetVar $"flag" (JBool true))].
Example C144_acts : acted_in_turn mini_env mini_spec SV0 the_session start_items start_vars end_items end_vars.
Proof.
  unfold the_session, start_items, start_vars, end_items, end_vars.
  eapply (acts_next _ _ _ _ _ _ _ _ [($"name", JStr $"bar"); ($"build", JInt 3)]).
  { apply act_set. left. exists [], (JStr $"foo"), [($"build", JInt 3)]. split; [intros v []|]. split; reflexivity. }
  eapply (acts_next _ _ _ _ _ _ _ _ [($"name", JStr $"bar")]).
  { apply act_delete. exists [($"name", JStr $"bar")], (JInt 3), []. split; [|split; reflexivity]. intros v [H|[]]. discriminate H. }
  eapply (acts_next _ _ _ _ _ _ _ (session_items [] [IScalar (PStr $"home") (JStr $"x") []] [python_here])).
  { eapply (act_patch _ _ _ _ (RAdd $"/about/home" (JStr $"x"))); [asks_payload|]. unfold session_items.
    refine (edit_add_key _ [$"about"; $"home"] _ _ _ _ _ _); [comps_ok|discriminate|].
    eapply (inside_section _ _ _ _ _ _ _ _ [_; _]); [reflexivity|absent|apply below_section..|]. apply inside_here.
    split; [reflexivity|]. split; [discriminate|]. split; [absent|]. exists [IScalar (PStr $"home") (JStr $"x") []]. split; [vm_compute; reflexivity|reflexivity]. }
  eapply (acts_next _ _ _ _ _ _ _ (session_items $"# [osx]" [IScalar (PStr $"home") (JStr $"x") []] [python_here])).
  { apply act_line; [reflexivity|]. unfold session_items. at_path [$"about"; $"license"].
    eapply (inside_section _ _ _ _ _ _ _ _ [_; _]); [reflexivity|absent|apply below_section..|].
    here (@nil item) (IScalar (PStr $"license") (JStr $"MIT") []) $"# [osx]"; [|constructor].
    apply (selector_written _ $"[osx]" $"osx"); [split; [reflexivity|no_newline]|auto]. }
  eapply (acts_next _ _ _ _ _ _ _ end_items).
  { apply act_dependency. unfold end_items, session_items, python_here.
    eapply (added_at_end _ _ _ _ _ _ _ _ [$"requirements"; $"run"] $"0" [JStr $"python"]).
    - dep_path $"run" $"0".
    - vm_compute; reflexivity.
    - right. split; [discriminate|]. apply Forall_cons; [other_named $"python"|apply Forall_nil].
    - vm_compute; reflexivity.
    - left; reflexivity.
    - eapply (inside_section _ _ _ _ _ _ _ _ [_]); [reflexivity|absent|apply below_section..|]. apply inside_here.
      exists []; do 6 eexists; split; [reflexivity|]; split; [absent|]; split; [apply below_section|]; split; [apply below_section|]; split; [|split; reflexivity].
      split; [dep_lines|]. exists []. split; [apply nc_none|reflexivity]. }
  eapply acts_next; [|apply acts_none]. apply act_set. right. split; [|reflexivity]. intros v [H|[]]. discriminate H.
Qed.
Ltac session_canonical :=
  split; [split; [split|split]|split; [|split]];
  [repeat match goal with
   | |- Forall (canonical _) [] => constructor
   | |- Forall (canonical _) (_ :: _) => constructor
   | |- canonical _ (IScalar _ _ _) => apply can_scalar; [discriminate|plain_check]
   | |- canonical _ (ISection _ _ _) => apply can_section; [plain_check|split; [discriminate|intros; discriminate]|]
   | |- canonical _ (IElem _ _) => apply can_elem; [reflexivity|plain_check]
   end
  |repeat constructor
  |vm_compute; reflexivity
  |repeat (constructor; [apply inert_check; vm_compute; reflexivity|]); constructor
  |intros x I; repeat destruct I as [<-|I]; try (split; [vm_compute; discriminate|intros; discriminate]); contradiction
  |repeat constructor; vm_compute; intuition discriminate
  |repeat constructor; try (vm_compute; reflexivity); try discriminate; try (apply no_text_check; vm_compute; reflexivity);
      intros c I; vm_compute in I; repeat destruct I as [<-|I]; try reflexivity; contradiction].
Example C144_canonical : canonical_recipe mini_env start_items start_vars /\ canonical_recipe mini_env end_items end_vars.
Proof. unfold start_items, end_items, session_items, python_here. split; session_canonical. Qed.
Example C144_example :
  map pr (splitlines (join NLs (recipe_page start_items start_vars))) = ["{% set name = ""foo"" %}"; "{% set build = 3 %}"; "";
    "package:"; "  name: foo  # short"; "  version: 1.2.3"; ""; "requirements:  # later"; "  run:"; "    - python  # any"; ""; "about:"; "  license: MIT"]%string
  /\ map pr (splitlines (render mini_env (session mini_env mini_spec the_session (recipe_of (join NLs (recipe_page start_items start_vars)))))) =
    ["{% set name = ""bar"" %}"; "{% set flag = True %}"; "";
    "package:"; "  name: foo  # short"; "  version: 1.2.3"; ""; "requirements:  # later"; "  run:"; "    - python  # any"; "    - scipy"; "";
    "about:"; "  license: MIT  # [osx]"; "  home: x"]%string.
Proof. split; vm_compute; reflexivity. Qed.
