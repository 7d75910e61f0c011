(** Property C140: what the commands do to a file of the new recipe format in the canonical layout. *)
From Verif Require Import EditProofs RenderProofs4 Samples MiniYaml PropCommands PropPatch PropReport PropBump PropEditFile DepsProofs PropDeps PropDepFile NewFileProofs NewFileSpec.

(** ** C140 *)
Theorem C140_read_and_written : forall E xs vars, new_file E xs vars ->
  exists r, new_recipe E (join NLs (page xs)) = Ok r /\ r_root r = document xs /\ r_schema r = SV1 /\ r_vars r = vars
  /\ render E r = join NLs (page xs).
Proof. exact c140_read. Qed.
Print Assumptions C140_read_and_written.
Theorem C140_patched : forall E j written xs vars xs', new_file E xs vars -> canonical_document E xs' ->
  edited_in_turn E (patch_list j) xs xs' ->
  patch_command E (JsonData j) (ReadOk (join NLs (page xs))) written
  = (match written with None => Exit SUCCESS | Some e => Raise e end, [Write (join NLs (page xs'))]).
Proof. exact c140_patched. Qed.
Print Assumptions C140_patched.
Theorem C140_dependency_added : forall E MS dep mode smode vars xs xs', new_file E xs vars -> canonical_document E xs' ->
  dependency_added E MS dep mode smode SV1 vars xs xs' ->
  exists r r', new_recipe E (join NLs (page xs)) = Ok r /\ add_dependency E MS dep mode smode r = (Ok true, r')
  /\ render E r' = join NLs (page xs').
Proof. exact c140_dependency. Qed.
Print Assumptions C140_dependency_added.
(** The new variables [vars'] do not occur in the text that is written. *)
Theorem C140_bumped : forall E N variants o written xs vars xs' vars',
  (forall v, In v variants <-> In v HASH_TYPE_VARIANTS) -> (forall l, Permutation (n_order N l) l) -> valid_options o ->
  new_file E xs vars -> canonical_document E xs' -> no_mark (join NLs (page xs)) ->
  file_put E N SV1 o xs vars xs' vars' ->
  bump_recipe E N variants o (ReadOk (join NLs (page xs))) written
  = let text := join NLs (page xs') in
    if b_dry_run o then (Exit SUCCESS, [Print text]) else (match written with None => Exit SUCCESS | Some e => Raise e end, [Write text]).
Proof. exact c140_bumped. Qed.
Print Assumptions C140_bumped.

Definition new_items (number : Z) (version : str) (run : list item) : list item :=
  [IScalar (PStr $"schema_version") (JInt 1) [];
   ISection (PStr $"context") $"# names" [IScalar (PStr $"name") (JStr $"foo") []; IComment $"# and more"; IScalar (PStr $"major") (JInt 2) []];
   ISection (PStr $"package") [] [IScalar (PStr $"name") (JStr $"${{ name }}") $"# short"; IScalar (PStr $"version") (JStr version) []];
   ISection (PStr $"build") [] [IScalar (PStr $"number") (JInt number) []];
   ISection (PStr $"requirements") [] [ISection (PStr $"run") [] run]].
Definition new_vars : list (str * json) := [($"name", JStr $"foo"); ($"major", JInt 2)].
Definition python_line : item := IElem (JStr $"python") $"# any".
Ltac new_canonical :=
  split; [split|split];
  [repeat match goal with
   | |- Forall (canonical _) [] => constructor
   | |- Forall (canonical _) (_ :: _) => constructor
   | |- canonical _ (IComment _) => apply (can_comment _ _ JNull); [eexists; vm_compute; reflexivity|apply ends_clean_check; vm_compute; reflexivity|apply block_mark_check; vm_compute; reflexivity|vm_compute; reflexivity]
   | |- canonical _ (IScalar _ (JStr $"${{ name }}") _) => apply can_scalar; [discriminate|one_variable $"name: $" $"{{ name }}" $"name"]
   | |- canonical _ (IScalar _ _ _) => apply can_scalar; [discriminate|plain_check]
   | |- canonical _ (ISection _ _ _) => apply can_section; [plain_check|split; [discriminate|intros; discriminate]|]
   | |- canonical _ (IElem _ _) => apply can_elem; [reflexivity|plain_check]
   end
  |repeat constructor
  |vm_compute; reflexivity
  |repeat (constructor; [apply inert_check; vm_compute; reflexivity|]); constructor].
Example C140_canonical : canonical_document mini_env (new_items 3 $"1.2.3" [python_line]).
Proof. unfold new_items, python_line. new_canonical. Qed.
Definition bumped_items : list item := new_items 4 $"2.0.1" [python_line].
Example C140_example :
  let xs := new_items 3 $"1.2.3" [python_line] in
  map pr (splitlines (join NLs (page xs))) = ["schema_version: 1"; ""; "context:  # names"; "  name: foo"; "  # and more"; "  major: 2"; ""; "package:"; "  name: ${{ name }}  # short"; "  version: 1.2.3"; "";
    "build:"; "  number: 3"; ""; "requirements:"; "  run:"; "    - python  # any"]%string
  /\ new_file mini_env xs new_vars /\ canonical_document mini_env bumped_items /\ no_mark (join NLs (page xs))
  /\ file_put mini_env a_net SV1 (opts true false (Some $"2.0.1")) xs new_vars bumped_items new_vars
  /\ bump a_net true false (Some $"2.0.1") (join NLs (page xs)) = (Exit SUCCESS, [Write (join NLs (page bumped_items))]).
Proof.
  cbv zeta. split; [vm_compute; reflexivity|]. split; [|split; [unfold bumped_items, new_items, python_line; new_canonical|]].
  { split; [exact C140_canonical|]. split.
    - exists [], []. eexists. split; [reflexivity|absent].
    - right. exists [(PStr $"name", JStr $"foo"); (PStr $"major", JInt 2)]. split; [|split; [vm_compute; reflexivity|]].
      + intros H. destruct (H (ISection (PStr $"context") $"# names" [IScalar (PStr $"name") (JStr $"foo") []; IComment $"# and more"; IScalar (PStr $"major") (JInt 2) []])) as (H1 & _); [right; left; reflexivity|]. apply H1. reflexivity.
      + split; [repeat constructor; eexists; reflexivity|]. split; [|reflexivity]. repeat constructor; vm_compute; intuition discriminate. }
  split; [apply no_mark_check; vm_compute; reflexivity|]. split; [|vm_compute; reflexivity].
  unfold new_items, bumped_items. exists (new_items 4 $"1.2.3" [python_line]). split.
  { split; [eexists; vm_compute; reflexivity|]. left. exists 3%Z. split; [vm_compute; reflexivity|].
    eapply (inside_section _ _ _ _ _ _ _ _ [_; _; _]); [reflexivity|absent|apply below_section..|]. apply inside_here.
    exists [], (IScalar (PStr $"number") (JInt 3) []), (IScalar (PStr $"number") (JInt 4) []), [].
    split; [split; [absent|reflexivity]|]. split; [apply rewrite_scalar; vm_compute; reflexivity|]. split; reflexivity. }
  cbn [opts b_target]. exists bumped_items, new_vars. split.
  { split; [eexists; vm_compute; reflexivity|]. right. split; [intros w [H|[H|[]]]; discriminate|]. split; [reflexivity|]. left.
    eapply (inside_section _ _ _ _ _ _ _ _ [_; _]); [reflexivity|absent|apply below_section..|]. apply inside_here.
    exists [IScalar (PStr $"name") (JStr $"${{ name }}") $"# short"], (IScalar (PStr $"version") (JStr $"1.2.3") []), (IScalar (PStr $"version") (JStr $"2.0.1") []), [].
    split; [split; [absent|reflexivity]|]. split; [apply rewrite_scalar; vm_compute; reflexivity|]. split; reflexivity. }
  exists []. split; [vm_compute; reflexivity|]. right. split; [intros k name url (_ & _ & _ & H & _); discriminate|]. split; [reflexivity|]. apply put_none.
Qed.
Example C140_patched_example :
  edited_in_turn mini_env (patch_list (payload "add" "/requirements/run/-" [("value", JStr $"scipy")]%string)) (new_items 3 $"1.2.3" [python_line]) (new_items 3 $"1.2.3" [python_line; IElem (JStr $"scipy") []])
  /\ canonical_document mini_env (new_items 3 $"1.2.3" [python_line; IElem (JStr $"scipy") []]).
Proof.
  split; [|unfold new_items, python_line; new_canonical].
  eapply (turn_next _ _ (RAdd $"/requirements/run/-" (JStr $"scipy"))); [asks_payload| |apply turn_none].
  refine (edit_add_last _ [$"requirements"; $"run"; $"-"] _ _ _ _ _ _ _); [comps_ok|discriminate|reflexivity|].
  eapply (inside_section _ _ _ _ _ _ _ _ [_; _; _; _]); [reflexivity|absent|apply below_section..|].
  eapply (inside_section _ _ _ _ _ _ _ _ []); [reflexivity|absent|apply below_section..|]. apply inside_here.
  exists (IElem (JStr $"scipy") []). split; [apply element_plain; vm_compute; reflexivity|reflexivity].
Qed.
Example C140_dependency_example :
  dependency_added mini_env mini_spec (sample_dep "/requirements/run/0" "scipy" None) DMReplace SMAnd SV1 new_vars
    (new_items 3 $"1.2.3" [python_line]) (new_items 3 $"1.2.3" [python_line; IElem (JStr $"scipy") []]).
Proof.
  refine (added_at_end _ _ _ _ _ _ _ _ [$"requirements"; $"run"] $"0" [JStr $"python"] _ _ _ _ _ _ _); [dep_path $"run" $"0"|vm_compute; reflexivity| |vm_compute; reflexivity|left; reflexivity|].
  - right. split; [discriminate|]. constructor; [other_named $"python"|constructor].
  - unfold new_items, python_line. eapply (inside_section _ _ _ _ _ _ _ _ [_; _; _; _]); [reflexivity|absent|apply below_section..|]. apply inside_here.
    exists []; do 6 eexists; split; [reflexivity|]; split; [absent|]; split; [apply below_section|]; split; [apply below_section|]; split; [|split; reflexivity].
    split; [dep_lines|]. exists []. split; [apply nc_none|reflexivity].
Qed.
(** The version is in the section "context", where the recipes of the new format have it.  The bump succeeds, and the file that is
    written still has the old version, there and wherever it is used. *)
Theorem C140_version_in_context_refuted : exists text new r',
  bump a_net true false (Some $"2.0.1") text = (Exit SUCCESS, [Write new])
  /\ new_recipe mini_env new = Ok r' /\ r_schema r' = SV1
  /\ get_value mini_env (r_root r') $"/context/version" None None = Ok (JStr $"1.2.3")
  /\ get_value mini_env (r_root r') $"/package/version" None (Some (SV1, r_vars r')) = Ok (JStr $"1.2.3")
  /\ map pr (splitlines new) = ["schema_version: 1"; ""; "context:"; "  version: 1.2.3"; ""; "package:"; "  name: foo"; "  version: ${{ version }}"; ""; "build:"; "  number: 4"]%string.
Proof.
  exists (nl ["schema_version: 1"; ""; "context:"; "  version: 1.2.3"; ""; "package:"; "  name: foo"; "  version: ${{ version }}"; ""; "build:"; "  number: 3"]%string).
  exists (nl ["schema_version: 1"; ""; "context:"; "  version: 1.2.3"; ""; "package:"; "  name: foo"; "  version: ${{ version }}"; ""; "build:"; "  number: 4"]%string).
  exists (recipe_of (nl ["schema_version: 1"; ""; "context:"; "  version: 1.2.3"; ""; "package:"; "  name: foo"; "  version: ${{ version }}"; ""; "build:"; "  number: 4"]%string)).
  split; [vm_compute; reflexivity|]. split; [vm_compute; reflexivity|]. split; [reflexivity|]. split; [vm_compute; reflexivity|]. split; vm_compute; reflexivity.
Qed.
Print Assumptions C140_version_in_context_refuted.
