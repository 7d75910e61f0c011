(** Property C138: what the command patch does to a file in the canonical layout. *)
From Verif Require Import EditProofs RenderProofs4 Samples MiniYaml PropCommands PropPatch PropReport PropBump EditSpec.

(** ** C138 *)
(** The file that is written is the page of the edited entries. *)
Theorem C138_file_to_file : forall E j written xs vars xs', canonical_recipe E xs vars -> canonical_recipe E xs' vars ->
  edited_in_turn E (patch_list j) xs xs' ->
  patch_command E (JsonData j) (ReadOk (join NLs (recipe_page xs vars))) written
  = (match written with None => Exit SUCCESS | Some e => Raise e end, [Write (join NLs (recipe_page xs' vars))]).
Proof. exact c138. Qed.
Print Assumptions C138_file_to_file.
(** An edit inside a section changes only the lines of the entries concerned. *)
Theorem C138_one_block : forall R p xs xs', inside R p xs xs' -> length p > 1 -> Forall same_as_value p ->
  block_differs R (page xs) (page xs').
Proof. exact page_block. Qed.
Print Assumptions C138_one_block.
(** A single patch on a recipe whose tree is that of the entries. *)
Theorem C138_one_patch : forall E q xs xs', file_edited E q xs xs' -> forall p r, asks p q -> r_root r = document xs ->
  exists r', patch E p r = (Ok true, r') /\ r_root r' = document xs' /\ same_but_tree r r'.
Proof. exact edit_once. Qed.
Print Assumptions C138_one_patch.

Definition before_edit : list item :=
  [IComment $"# A recipe";
   ISection (PStr $"package") [] [IScalar (PStr $"name") (JStr $"foo") $"# short"; IScalar (PStr $"version") (JStr $"1.2.3") []];
   ISection (PStr $"source") [] [IMapScalar (PStr $"url") (JStr $"https://x.org/a.tar.gz") [] []];
   ISection (PStr $"requirements") $"# later"
     [ISection (PStr $"host") [] [IElem (JStr $"pip") $"# keep"; IElem (JStr $"numpy") []];
      ISection (PStr $"run") [] [IElem (JStr $"python") []]];
   ISection (PStr $"about") [] [IScalar (PStr $"license") (JStr $"MIT") []; IScalar (PStr $"home") (JStr $"x") $"# where"]].
Definition after_edit : list item :=
  [IComment $"# A recipe";
   ISection (PStr $"package") [] [IScalar (PStr $"name") (JStr $"foo") $"# short"; IScalar (PStr $"version") (JStr $"2.0.1") []];
   ISection (PStr $"source") [] [IMapScalar (PStr $"url") (JStr $"https://x.org/b.tar.gz") [] [IScalar (PStr $"sha256") (JStr $"abc") []]];
   ISection (PStr $"requirements") $"# later"
     [ISection (PStr $"host") [] [IElem (JStr $"cython") []; IElem (JStr $"pip") $"# keep"];
      ISection (PStr $"run") [] [IElem (JStr $"python") []; IElem (JStr $"numpy") []]];
   ISection (PStr $"about") [] [IScalar (PStr $"home") (JStr $"x") $"# where"; IScalar (PStr $"doc") (JStr $"foo") []]].
Definition the_edits : json := JList
  [payload "test" "/package/name" [("value", JStr $"foo")]%string;
   payload "replace" "/package/version" [("value", JStr $"2.0.1")]%string;
   payload "add" "/source/0/sha256" [("value", JStr $"abc")]%string;
   payload "add" "/source/0/url" [("value", JStr $"https://x.org/b.tar.gz")]%string;
   payload "add" "/requirements/host/0" [("value", JStr $"cython")]%string;
   payload "move" "/requirements/run/-" [("from", JStr $"/requirements/host/2")]%string;
   payload "remove" "/about/license" [];
   payload "copy" "/about/doc" [("from", JStr $"/package/name")]%string].
Ltac canonical_lists :=
  split; [split; [split|split]|split; [|split]];
  [repeat match goal with
   | |- Forall (canonical _) [] => constructor
   | |- Forall (canonical _) (_ :: _) => constructor
   | |- Forall (entry_beside _) _ => repeat constructor
   | |- canonical _ (IComment _) => apply (can_comment _ _ JNull); [eexists; vm_compute; reflexivity|apply ends_clean_check; vm_compute; reflexivity|apply block_mark_check; vm_compute; reflexivity|vm_compute; reflexivity]
   | |- canonical _ (IScalar _ _ _) => apply can_scalar; [discriminate|plain_check]
   | |- canonical _ (ISection _ _ _) => apply can_section; [plain_check|split; [discriminate|intros; discriminate]|]
   | |- canonical _ (IMapScalar _ _ _ _) => apply can_map_scalar; [discriminate|plain_check| |]
   | |- canonical _ (IElem _ _) => apply can_elem; [reflexivity|plain_check]
   end
  |repeat constructor
  |vm_compute; reflexivity
  |repeat (constructor; [apply inert_check; vm_compute; reflexivity|]); constructor
  |intros x I; repeat destruct I as [<-|I]; try (split; [vm_compute; discriminate|intros; discriminate]); contradiction
  |repeat constructor; vm_compute; intuition discriminate
  |constructor].
Ltac absent := intros x I; repeat destruct I as [<-|I]; try (split; [vm_compute; discriminate|intros; vm_compute; congruence]); contradiction.
Ltac comps_ok := repeat constructor; try discriminate; vm_compute; intuition discriminate.
Example C138_example :
  map pr (splitlines (join NLs (recipe_page before_edit []))) = ["# A recipe"; "package:"; "  name: foo  # short"; "  version: 1.2.3"; ""; "source:"; "  - url: https://x.org/a.tar.gz"; "";
    "requirements:  # later"; "  host:"; "    - pip  # keep"; "    - numpy"; "  run:"; "    - python"; ""; "about:"; "  license: MIT"; "  home: x  # where"]%string
  /\ map pr (splitlines (join NLs (recipe_page after_edit []))) = ["# A recipe"; "package:"; "  name: foo  # short"; "  version: 2.0.1"; ""; "source:"; "  - url: https://x.org/b.tar.gz"; "    sha256: abc"; "";
    "requirements:  # later"; "  host:"; "    - cython"; "    - pip  # keep"; "  run:"; "    - python"; "    - numpy"; ""; "about:"; "  home: x  # where"; "  doc: foo"]%string
  /\ canonical_recipe mini_env before_edit [] /\ canonical_recipe mini_env after_edit []
  /\ edited_in_turn mini_env (patch_list the_edits) before_edit after_edit
  /\ patch_command mini_env (JsonData the_edits) (ReadOk (join NLs (recipe_page before_edit []))) None = (Exit SUCCESS, [Write (join NLs (recipe_page after_edit []))]).
Proof.
  split; [vm_compute; reflexivity|]. split; [vm_compute; reflexivity|]. split; [unfold before_edit; canonical_lists|]. split; [unfold after_edit; canonical_lists|].
  split; [|vm_compute; reflexivity]. unfold the_edits, patch_list, before_edit.
  eapply (turn_next _ _ (RTest $"/package/name" (JStr $"foo"))); [asks_payload|eapply edit_test; vm_compute; reflexivity|].
  eapply (turn_next _ _ (RReplace $"/package/version" (JStr $"2.0.1"))); [asks_payload| |].
  { refine (edit_replace _ [$"package"; $"version"] _ _ _ _ _); [comps_ok|].
    eapply (inside_section _ _ _ _ _ _ _ _ [_]); [reflexivity|absent|apply below_section..|]. apply inside_here.
    exists [IScalar (PStr $"name") (JStr $"foo") $"# short"], (IScalar (PStr $"version") (JStr $"1.2.3") []), (IScalar (PStr $"version") (JStr $"2.0.1") []), [].
    split; [split; [absent|reflexivity]|]. split; [apply rewrite_scalar; vm_compute; reflexivity|]. split; reflexivity. }
  cbn [app]. eapply (turn_next _ _ (RAdd $"/source/0/sha256" (JStr $"abc"))); [asks_payload| |].
  { refine (edit_add_key _ [$"source"; $"0"; $"sha256"] _ _ _ _ _ _); [comps_ok|discriminate|].
    eapply (inside_section _ _ _ _ _ _ _ _ [_; _]); [reflexivity|absent|apply below_section..|].
    eapply (inside_element _ _ _ _ _ _ _ _ []); [reflexivity|vm_compute; reflexivity|apply in_scalar_first|apply in_scalar_first|]. apply inside_here.
    split; [reflexivity|]. split; [discriminate|]. split; [absent|]. exists [IScalar (PStr $"sha256") (JStr $"abc") []]. split; vm_compute; reflexivity. }
  cbn [app]. eapply (turn_next _ _ (RAdd $"/source/0/url" (JStr $"https://x.org/b.tar.gz"))); [asks_payload| |].
  { refine (edit_overwrite _ [$"source"; $"0"; $"url"] _ _ _ _ _); [comps_ok|].
    eapply (inside_section _ _ _ _ _ _ _ _ [_; _]); [reflexivity|absent|apply below_section..|].
    eapply (inside_element _ _ _ _ _ _ _ _ []); [reflexivity|vm_compute; reflexivity|apply in_scalar_first|apply in_scalar_first|]. apply inside_here.
    exists [], (IScalar (PStr $"url") (JStr $"https://x.org/a.tar.gz") []), (IScalar (PStr $"url") (JStr $"https://x.org/b.tar.gz") []), [IScalar (PStr $"sha256") (JStr $"abc") []].
    split; [discriminate|]. split; [split; [absent|reflexivity]|]. split; [reflexivity|]. split; [apply rewrite_scalar; vm_compute; reflexivity|]. split; reflexivity. }
  cbn [app]. eapply (turn_next _ _ (RAdd $"/requirements/host/0" (JStr $"cython"))); [asks_payload| |].
  { refine (edit_insert _ [$"requirements"; $"host"; $"0"] _ _ _ _ _); [comps_ok|].
    eapply (inside_section _ _ _ _ _ _ _ _ [_; _; _]); [reflexivity|absent|apply below_section..|].
    eapply (inside_section _ _ _ _ _ _ _ _ []); [reflexivity|absent|apply below_section..|]. apply inside_here.
    exists [], (IElem (JStr $"pip") $"# keep"), (IElem (JStr $"cython") []), [IElem (JStr $"numpy") []].
    split; [reflexivity|]. split; [split; reflexivity|]. split; [reflexivity|]. split; [apply element_plain; vm_compute; reflexivity|]. split; reflexivity. }
  cbn [app]. eapply (turn_next _ _ (RMove $"/requirements/host/2" $"/requirements/run/-")); [asks_payload| |].
  { refine (edit_move _ _ [$"requirements"; $"run"; $"-"] (JStr $"numpy") _ _ _ _ _ _ _ _ _ _ _ _); [comps_ok|discriminate|vm_compute; reflexivity|eexists; vm_compute; reflexivity|eexists; vm_compute; reflexivity| | |].
    - refine (edit_add_last _ [$"requirements"; $"run"; $"-"] _ _ _ _ _ _ _); [comps_ok|discriminate|reflexivity|].
      eapply (inside_section _ _ _ _ _ _ _ _ [_; _; _]); [reflexivity|absent|apply below_section..|].
      eapply (inside_section _ _ _ _ _ _ _ _ [_]); [reflexivity|absent|apply below_section..|]. apply inside_here.
      exists (IElem (JStr $"numpy") []). split; [apply element_plain; vm_compute; reflexivity|reflexivity].
    - refine (edit_remove _ [$"requirements"; $"host"; $"2"] _ _ _ _ _); [comps_ok|vm_compute; reflexivity|].
      eapply (inside_section _ _ _ _ _ _ _ _ [_; _; _]); [reflexivity|absent|apply below_section..|].
      eapply (inside_section _ _ _ _ _ _ _ _ []); [reflexivity|absent|apply below_section..|]. apply inside_here.
      exists [IElem (JStr $"cython") []; IElem (JStr $"pip") $"# keep"], (IElem (JStr $"numpy") []), []. split; [split; reflexivity|]. split; reflexivity.
    - cbn [app]. refine (edit_add_last _ [$"requirements"; $"run"; $"-"] _ _ _ _ _ _ _); [comps_ok|discriminate|reflexivity|].
      eapply (inside_section _ _ _ _ _ _ _ _ [_; _; _]); [reflexivity|absent|apply below_section..|].
      eapply (inside_section _ _ _ _ _ _ _ _ [_]); [reflexivity|absent|apply below_section..|]. apply inside_here.
      exists (IElem (JStr $"numpy") []). split; [apply element_plain; vm_compute; reflexivity|reflexivity]. }
  cbn [app]. eapply (turn_next _ _ (RRemove $"/about/license")); [asks_payload| |].
  { refine (edit_remove _ [$"about"; $"license"] _ _ _ _ _); [comps_ok|vm_compute; reflexivity|].
    eapply (inside_section _ _ _ _ _ _ _ _ [_; _; _; _]); [reflexivity|absent|apply below_section..|]. apply inside_here.
    exists [], (IScalar (PStr $"license") (JStr $"MIT") []), [IScalar (PStr $"home") (JStr $"x") $"# where"]. split; [split; [absent|reflexivity]|]. split; reflexivity. }
  cbn [app]. eapply (turn_next _ _ (RCopy $"/package/name" $"/about/doc")); [asks_payload| |apply turn_none].
  eapply edit_copy; [vm_compute; reflexivity|].
  refine (edit_add_key _ [$"about"; $"doc"] _ _ _ _ _ _); [comps_ok|discriminate|].
  eapply (inside_section _ _ _ _ _ _ _ _ [_; _; _; _]); [reflexivity|absent|apply below_section..|]. apply inside_here.
  split; [reflexivity|]. split; [discriminate|]. split; [absent|]. exists [IScalar (PStr $"doc") (JStr $"foo") []]. split; vm_compute; reflexivity.
Qed.
