(** Property C137 for files in which the build number, the version or a checksum may be missing. *)
From Verif Require Import BumpProofs2 RenderProofs4 Samples MiniYaml PropCommands PropReport PropBump PropEditFile BumpSpec2.

(** ** C137 *)
(** As C137_file_to_file; a value that is missing is written on a new line at the end of its section, and a value may be the first
    of the mapping that describes its source. *)
Theorem C137_missing_values_are_added : forall E N variants o written xs vars xs' vars',
  (forall v, In v variants <-> In v HASH_TYPE_VARIANTS) -> (forall l, Permutation (n_order N l) l) -> valid_options o ->
  canonical_recipe E xs vars -> canonical_recipe E xs' vars' -> no_mark (join NLs (recipe_page xs vars)) ->
  file_put E N SV0 o xs vars xs' vars' ->
  bump_recipe E N variants o (ReadOk (join NLs (recipe_page xs vars))) written
  = let text := join NLs (recipe_page xs' vars') in
    if b_dry_run o then (Exit SUCCESS, [Print text]) else (match written with None => Exit SUCCESS | Some e => Raise e end, [Write text]).
Proof. exact c137_added. Qed.
Print Assumptions C137_missing_values_are_added.

Definition source_items (sum1 : str) (sum2 : list item) : item :=
  ISection (PStr $"source") []
    [IMapScalar (PStr $"sha256") (JStr sum1) [] [IScalar (PStr $"url") (JStr $"https://x.org/a.tar.gz") []];
     IMapScalar (PStr $"url") (JStr $"https://x.org/b.tar.gz") $"# mirrored" sum2].
Definition bare_items : list item :=
  [ISection (PStr $"package") [] [IScalar (PStr $"name") (JStr $"foo") $"# short"]; source_items $"abc" [];
   ISection (PStr $"build") [] [IScalar (PStr $"noarch") (JStr $"python") []]].
Definition filled_items : list item :=
  [ISection (PStr $"package") [] [IScalar (PStr $"name") (JStr $"foo") $"# short"; IScalar (PStr $"version") (JStr $"2.0.1") []];
   source_items $"ff-one" [IScalar (PStr $"sha256") (JStr $"ff-two") []];
   ISection (PStr $"build") [] [IScalar (PStr $"noarch") (JStr $"python") []; IScalar (PStr $"number") (JInt 0) []]].
Example C137_missing_values_example :
  let text := join NLs (recipe_page bare_items []) in
  map pr (splitlines text) = ["package:"; "  name: foo  # short"; ""; "source:"; "  - sha256: abc"; "    url: https://x.org/a.tar.gz"; "  - url: https://x.org/b.tar.gz  # mirrored"; "";
     "build:"; "  noarch: python"]%string
  /\ map pr (splitlines (join NLs (recipe_page filled_items []))) = ["package:"; "  name: foo  # short"; "  version: 2.0.1"; ""; "source:"; "  - sha256: ff-one"; "    url: https://x.org/a.tar.gz";
     "  - url: https://x.org/b.tar.gz  # mirrored"; "    sha256: ff-two"; ""; "build:"; "  noarch: python"; "  number: 0"]%string
  /\ canonical_recipe mini_env bare_items [] /\ canonical_recipe mini_env filled_items [] /\ no_mark text
  /\ file_put mini_env a_net SV0 (opts true false (Some $"2.0.1")) bare_items [] filled_items []
  /\ bump a_net true false (Some $"2.0.1") text = (Exit SUCCESS, [Write (join NLs (recipe_page filled_items []))]).
Proof.
  cbv zeta. split; [vm_compute; reflexivity|]. split; [vm_compute; reflexivity|]. split; [unfold bare_items, source_items; canonical_lists|].
  split; [unfold filled_items, source_items; canonical_lists|]. split; [apply no_mark_check; vm_compute; reflexivity|]. split; [|vm_compute; reflexivity].
  unfold bare_items, source_items. eexists. split.
  { split; [eexists; vm_compute; reflexivity|]. right. split; [discriminate|].
    eapply (inside_section _ _ _ _ _ _ _ _ [_; _]); [reflexivity|absent|apply below_section..|]. apply inside_here.
    split; [reflexivity|]. split; [discriminate|]. split; [absent|]. exists [IScalar (PStr $"number") (JInt 0) []]. split; vm_compute; reflexivity. }
  cbn [opts b_target app]. eexists. exists []. split.
  { split; [eexists; vm_compute; reflexivity|]. right. split; [intros w []|]. split; [reflexivity|]. right. split; [discriminate|].
    eapply (inside_section _ _ _ _ _ _ _ _ []); [reflexivity|absent|apply below_section..|]. apply inside_here.
    split; [reflexivity|]. split; [discriminate|]. split; [absent|]. exists [IScalar (PStr $"version") (JStr $"2.0.1") []]. split; vm_compute; reflexivity. }
  cbn [app]. eexists. split; [vm_compute; reflexivity|]. right. split; [intros k name url (_ & [] & _)|]. split; [reflexivity|].
  match goal with |- sums_put _ _ ?l _ _ => change l with [(path_text [$"source"; $"1"], ($"foo_1", $"https://x.org/b.tar.gz")); (path_text [$"source"; $"0"], ($"foo_0", $"https://x.org/a.tar.gz"))] end.
  eapply (put_next _ _ [$"source"; $"1"] _ _ $"ff-two"); [comps_ok|vm_compute; reflexivity| |].
  { right. split; [discriminate|].
    eapply (inside_section _ _ _ _ _ _ _ _ [_]); [reflexivity|absent|apply below_section..|].
    eapply (inside_element _ _ _ _ _ _ _ _ [_]); [reflexivity|vm_compute; reflexivity|apply in_scalar_first|apply in_scalar_first|]. apply inside_here.
    split; [reflexivity|]. split; [discriminate|]. split; [absent|]. exists [IScalar (PStr $"sha256") (JStr $"ff-two") []]. split; vm_compute; reflexivity. }
  cbn [app]. eapply (put_next _ _ [$"source"; $"0"] _ _ $"ff-one"); [comps_ok|vm_compute; reflexivity| |apply put_none].
  left. eapply (inside_section _ _ _ _ _ _ _ _ [_]); [reflexivity|absent|apply below_section..|].
  eapply (inside_element _ _ _ _ _ _ _ _ []); [reflexivity|vm_compute; reflexivity|apply in_scalar_first|apply in_scalar_first|]. apply inside_here.
  exists [], (IScalar (PStr $"sha256") (JStr $"abc") []), (IScalar (PStr $"sha256") (JStr $"ff-one") []), [IScalar (PStr $"url") (JStr $"https://x.org/a.tar.gz") []].
  split; [split; [absent|reflexivity]|]. split; [apply rewrite_scalar; vm_compute; reflexivity|]. split; reflexivity.
Qed.
