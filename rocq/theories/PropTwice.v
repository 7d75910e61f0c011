(** Property C142: bump-recipe on the file that it has written. *)
From Verif Require Import TwiceProofs RenderProofs4 Samples MiniYaml PropCommands PropReport PropBump TwiceSpec.

(** ** C142 *)
(** Bumping a file to a version and then bumping the result to the same version writes the same file again. *)
Theorem C142_twice : forall E N variants o target written xs vars xs' vars',
  (forall v, In v variants <-> In v HASH_TYPE_VARIANTS) -> (forall l, Permutation (n_order N l) l) -> valid_options o ->
  b_build_num o = false -> b_target o = Some target -> b_dry_run o = false ->
  canonical_recipe E xs vars -> canonical_recipe E xs' vars' ->
  no_mark (join NLs (recipe_page xs vars)) -> no_mark (join NLs (recipe_page xs' vars')) ->
  bumped_to E N target xs vars xs' vars' ->
  let text := join NLs (recipe_page xs vars) in let text' := join NLs (recipe_page xs' vars') in
  let end_ := match written with None => Exit SUCCESS | Some e => Raise e end in
  bump_recipe E N variants o (ReadOk text) written = (end_, [Write text'])
  /\ bump_recipe E N variants o (ReadOk text') written = (end_, [Write text']).
Proof. exact c142. Qed.
Print Assumptions C142_twice.

Example C142_example :
  let before := bump_items 3 $"1.2.3" $"abc" $"def" in let after := bump_items 0 $"2.0.1" $"ff-one" $"ff-two" in
  let text := join NLs (recipe_page before []) in let text' := join NLs (recipe_page after []) in
  canonical_recipe mini_env before [] /\ canonical_recipe mini_env after [] /\ no_mark text /\ no_mark text'
  /\ bumped_to mini_env a_net $"2.0.1" before [] after []
  /\ text <> text' /\ bump a_net false false (Some $"2.0.1") text = (Exit SUCCESS, [Write text'])
  /\ bump a_net false false (Some $"2.0.1") text' = (Exit SUCCESS, [Write text']).
Proof.
  cbv zeta. destruct C137_example as (_ & C & C' & M & _ & R & _). split; [exact C|]. split; [exact C'|]. split; [exact M|].
  split; [apply no_mark_check; vm_compute; reflexivity|]. split; [|split; [vm_compute; discriminate|split; [exact R|vm_compute; reflexivity]]].
  assert (forall k l, forallb (fun x => match entry_key x with Some (PStr k') => negb (str_eqb k' k) | _ => true end) l = true ->
    forallb (fun x => match x with IElem _ _ => false | _ => true end) l = true -> no_entry k l) as NE.
  { intros k l H H' x I. rewrite forallb_forall in H, H'. specialize (H x I). specialize (H' x I). split.
    - intros E. rewrite E, str_eqb_refl in H. discriminate.
    - intros c ->. discriminate. }
  exists (bump_items 0 $"1.2.3" $"abc" $"def"), (bump_items 0 $"2.0.1" $"abc" $"def"), []. split.
  { split; [eexists; vm_compute; reflexivity|]. exists 3%Z. cbv zeta. split; [vm_compute; reflexivity|].
    refine (set_in_section $"build" _ _ _ $"# last" _ _ (firstn 3 (bump_items 0 $"1.2.3" $"abc" $"def")) [] eq_refl _ _); [apply NE; vm_compute; reflexivity|].
    exact (set_here $"number" (JInt 3) (JInt 0) [] _ eq_refl (NE _ [] eq_refl eq_refl)). }
  split.
  { split; [eexists; vm_compute; reflexivity|]. right. split; [intros w []|]. split; [reflexivity|]. split; [vm_compute; reflexivity|]. exists (JStr $"1.2.3").
    refine (set_in_section $"package" _ _ _ [] _ _ [IComment $"# A recipe"] _ eq_refl _ _); [apply NE; vm_compute; reflexivity|].
    refine (set_here $"version" (JStr $"1.2.3") (JStr $"2.0.1") [_] [] eq_refl _). apply NE; vm_compute; reflexivity. }
  split; [|split; [split; [vm_compute; reflexivity|intros tbl' k name url; split; intros (_ & [] & _)]|split; eexists; vm_compute; reflexivity]].
  eexists. split; [vm_compute; reflexivity|]. right. split; [intros k name url (_ & [] & _)|]. split; [reflexivity|].
  match goal with |- sums_written _ _ ?l _ _ => change l with [(path_text [$"source"; $"1"], ($"foo_1", $"https://x.org/b.tar.gz")); (path_text [$"source"; $"0"], ($"foo_0", $"https://x.org/a.tar.gz"))] end.
  assert (forall i, isdigit i = true -> component i) as CO by (intros i D; split; [intros ->; discriminate|intros I; unfold isdigit in D; destruct i; [discriminate|]; rewrite forallb_forall in D; specialize (D _ I); discriminate D]).
  assert (component $"source") as CS by (split; [discriminate|vm_compute; intuition discriminate]).
  apply (sums_next _ _ [$"source"; $"1"] _ _ $"ff-two" (JStr $"def") _ _ (bump_items 0 $"2.0.1" $"abc" $"ff-two")).
  { constructor; [exact CS|]. constructor; [apply CO; reflexivity|constructor]. }
  { vm_compute. reflexivity. } { vm_compute. reflexivity. }
  { refine (set_in_section $"source" [$"1"; $"sha256"] _ _ [] _ _ (firstn 2 (bump_items 0 $"2.0.1" $"abc" $"def")) _ eq_refl _ _); [apply NE; vm_compute; reflexivity|].
    refine (set_beside_scalar $"1" $"sha256" [] _ _ (PStr $"url") _ _ _ _ [_; _] [] eq_refl _ eq_refl _ _); [vm_compute; reflexivity|discriminate|].
    refine (set_here $"sha256" (JStr $"def") (JStr $"ff-two") [_] [] eq_refl _). apply NE; vm_compute; reflexivity. }
  apply (sums_next _ _ [$"source"; $"0"] _ _ $"ff-one" (JStr $"abc") _ _ (bump_items 0 $"2.0.1" $"ff-one" $"ff-two")).
  { constructor; [exact CS|]. constructor; [apply CO; reflexivity|constructor]. }
  { vm_compute. reflexivity. } { vm_compute. reflexivity. }
  { refine (set_in_section $"source" [$"0"; $"sha256"] _ _ [] _ _ (firstn 2 (bump_items 0 $"2.0.1" $"abc" $"def")) _ eq_refl _ _); [apply NE; vm_compute; reflexivity|].
    refine (set_beside_scalar $"0" $"sha256" [] _ _ (PStr $"url") _ _ _ _ [] [_; _] eq_refl _ eq_refl _ _); [vm_compute; reflexivity|discriminate|].
    refine (set_here $"sha256" (JStr $"abc") (JStr $"ff-one") [] [] eq_refl _). apply NE; vm_compute; reflexivity. }
  constructor.
Qed.
