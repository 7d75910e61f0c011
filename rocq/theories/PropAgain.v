(** C127, C128: a converted recipe is a recipe of the new format, for whoever reads the file. *)
From Verif Require Import SimpleProofs PlainProofs WellProofs3 Samples MiniYaml PropConvert PropKeep PlainSpec KeepSpec SimpleSpec.

(** ** C127 *)
(** The line of the new format is there, with the value 1. *)
Theorem C127_version_line : forall T s text s', reads_proper (t_env T) -> (forall l x, In x (t_order T l) -> In x l) ->
  addressable_document (r_root (v1 s)) = true -> mapping_at_top (r_root (v1 s)) -> proper_tree (r_root (v1 s)) = true ->
  r_sel (v1 s) = collect_selectors (t_env T) (r_root (v1 s)) -> NoDup (map fst (r_vars (v1 s))) ->
  context_as_key (t_env T) (r_vars (v1 s)) -> writes_version (t_env T) -> ~ top_line $"schema_version" (r_root (v1 s)) ->
  without_errors (render_to_v1 T) s text s' -> lookup (r_root (v1 s')) (path_text [$"schema_version"]) = Some version_line.
Proof. exact c127_line. Qed.
Print Assumptions C127_version_line.

(** The file is read as what the converter holds: the same lines, the new format, the same variables; and it is printed again
    as it is.  What is missing: recipes whose lines, as converted, are not in canonical layout (see the refutations). *)
Theorem C127_read_again_partial : forall T s text s' ys, reads_proper (t_env T) -> (forall l x, In x (t_order T l) -> In x l) ->
  addressable_document (r_root (v1 s)) = true -> mapping_at_top (r_root (v1 s)) -> proper_tree (r_root (v1 s)) = true ->
  r_sel (v1 s) = collect_selectors (t_env T) (r_root (v1 s)) -> NoDup (map fst (r_vars (v1 s))) ->
  context_as_key (t_env T) (r_vars (v1 s)) -> writes_version (t_env T) -> ~ top_line $"schema_version" (r_root (v1 s)) ->
  without_errors (render_to_v1 T) s text s' -> r_root (v1 s') = document ys -> canonical_document (t_env T) ys ->
  exists r, new_recipe (t_env T) text = Ok r /\ r_root r = r_root (v1 s') /\ r_schema r = SV1 /\ r_vars r = r_vars (v1 s')
  /\ r_sel r = collect_selectors (t_env T) (r_root (v1 s')) /\ render (t_env T) r = text.
Proof.
  intros T s text s' ys H1 H2 H3 H4 H5 H6 H7 H8 H9 H10 H11 H12 H13.
  exact (c127_again T s text s' ys (c127_line T s text s' H1 H2 H3 H4 H5 H6 H7 H8 H9 H10 H11) (proj1 H11) H12 H13).
Qed.
Print Assumptions C127_read_again_partial.

Definition small_recipe : list string := [
  "{% set name = ""foo"" %}"; "about:"; "  license: MIT"; "build:"; "  skip: true  # [win]"; "package:"; "  name: foo  # a name"]%string.
Definition small_items : list item :=
  [IScalar (PStr $"schema_version") (JInt 1) []; ISection (PStr $"context") [] [IScalar (PStr $"name") (JStr $"foo") []];
   ISection (PStr $"package") [] [IScalar (PStr $"name") (JStr $"foo") $"# a name"];
   ISection (PStr $"build") [] [IScalar (PStr $"skip") (JStr $"win") []];
   ISection (PStr $"about") [] [IScalar (PStr $"license") (JStr $"MIT") []]].
Example C127_example :
  let s := {| v1 := recipe_of (nl small_recipe); msgs := new_table |} in let s' := snd (render_to_v1 plain_tools s) in
  converted small_recipe = Ok (["schema_version: 1"; ""; "context:"; "  name: foo"; ""; "package:"; "  name: foo  # a name"; ""; "build:"; "  skip: win"; "";
     "about:"; "  license: MIT"]%string, [], [])
  /\ r_root (v1 s') = document small_items /\ canonical_document mini_env small_items
  /\ addressable_document (r_root (v1 s)) = true /\ mapping_at_top (r_root (v1 s)) /\ proper_tree (r_root (v1 s)) = true
  /\ r_sel (v1 s) = collect_selectors mini_env (r_root (v1 s)) /\ NoDup (map fst (r_vars (v1 s)))
  /\ context_as_key mini_env (r_vars (v1 s)) /\ writes_version mini_env /\ ~ top_line $"schema_version" (r_root (v1 s))
  /\ r_vars (v1 s') = [($"name", JStr $"foo")].
Proof.
  cbv zeta. split; [vm_compute; reflexivity|]. split; [vm_compute; reflexivity|].
  split.
  { split; [split|split].
    - repeat match goal with
      | |- Forall (canonical _) _ => constructor
      | |- canonical _ (IScalar _ _ _) => apply can_scalar; [discriminate|plain_check]
      | |- canonical _ (ISection _ _ _) => apply can_section; [plain_check|split; [discriminate|intros; discriminate]|]
      end.
    - repeat constructor.
    - vm_compute. reflexivity.
    - repeat (constructor; [apply inert_check; vm_compute; reflexivity|]). constructor. }
  cbn [v1]. split; [vm_compute; reflexivity|].
  split. { unfold mapping_at_top. match goal with |- Forall _ ?l => let l' := eval vm_compute in l in change l with l' end. repeat constructor. }
  split; [vm_compute; reflexivity|]. split; [vm_compute; reflexivity|].
  split. { match goal with |- NoDup ?l => let l' := eval vm_compute in l in change l with l' end. repeat constructor. intros []. }
  split.
  { intros ctx H lines W. unfold entries_for in H.
    match type of H with Forall2 _ ?l _ => let l' := eval vm_compute in l in change l with l' in H end.
    inversion H as [|a [b v] l l' (H1 & H2) H3 H4 H5]. inversion H3. subst. cbn [fst snd] in H1, H2. subst b. inversion H2; subst; vm_compute in W; injection W as <-; repeat constructor. }
  split; [vm_compute; reflexivity|].
  split; [intros (x & HI & HV); revert HV; vm_compute in HI; repeat destruct HI as [<-|HI]; try discriminate; contradiction|].
  vm_compute. reflexivity.
Qed.

(** The claim does not hold for every recipe.  The section that is moved to the end may end with a block of text, and then the
    converted file cannot be read at all (C40). *)
Definition block_recipe : list string := ["about:"; "  license: MIT"; "  description: |"; "    A text."; "package:"; "  name: foo"]%string.
Theorem C127_last_block_refuted : exists r text s',
  new_recipe mini_env (nl block_recipe) = Ok r
  /\ without_errors (render_to_v1 plain_tools) {| v1 := r; msgs := new_table |} text s'
  /\ text = nl ["schema_version: 1"; ""; "package:"; "  name: foo"; ""; "about:"; "  license: MIT"; "  description: |"; "    A text."]%string
  /\ new_recipe mini_env text = Err EIndex.
Proof.
  eexists _, _, _. split; [vm_compute; reflexivity|]. split; [split; vm_compute; reflexivity|]. split; vm_compute; reflexivity.
Qed.
Print Assumptions C127_last_block_refuted.
(** Putting the keys of a source in order leaves the comment of the first key with the element, where no file can have it. *)
Definition source_recipe : list string := ["package:"; "  name: foo"; "source:"; "  - sha256: abc  # one"; "    url: x"]%string.
Theorem C127_element_comment_refuted : exists r text s' r',
  new_recipe mini_env (nl source_recipe) = Ok r
  /\ without_errors (render_to_v1 plain_tools) {| v1 := r; msgs := new_table |} text s'
  /\ new_recipe mini_env text = Ok r' /\ r_schema r' = SV1 /\ r_root r' <> r_root (v1 s') /\ render mini_env r' = text.
Proof.
  eexists _, _, _, _. split; [vm_compute; reflexivity|]. split; [split; vm_compute; reflexivity|]. split; [vm_compute; reflexivity|].
  split; [reflexivity|]. split; [vm_compute; discriminate|vm_compute; reflexivity].
Qed.
Print Assumptions C127_element_comment_refuted.

(** ** C128 *)
(** From file to file: a file in canonical layout that uses nothing of the old format is converted to the page of the same
    entries and the line of the version in another order, which is read again as just that. *)
Theorem C128_same_entries_in_the_new_file : forall T xs m, let E := t_env T in let text := join NLs (recipe_page xs []) in
  reads_proper E -> writes_version E -> canonical E version_item -> (forall l x, In x (t_order T l) -> In x l) ->
  canonical_recipe E xs [] -> Forall simple xs -> collect_selectors E (document xs) = [] -> no_expressions (document xs) ->
  nothing_old (document xs) ->
  about_fine E (find_closest_license_match (t_close T) (t_licenses T)) (document xs) ->
  exists r, new_recipe E text = Ok r /\ r_root r = document xs
  /\ forall text' s', without_errors (render_to_v1 T) {| v1 := r; msgs := m |} text' s' ->
     exists ys r', reordered (xs ++ [version_item]) ys /\ text' = join NLs (page ys)
     /\ new_recipe E text' = Ok r' /\ r_root r' = document ys /\ r_schema r' = SV1 /\ r_vars r' = r_vars (v1 s').
Proof. exact c128. Qed.
Print Assumptions C128_same_entries_in_the_new_file.
Definition plain_items : list item :=
  [IComment $"# a comment"; ISection (PStr $"about") [] [IScalar (PStr $"license") (JStr $"MIT") $"# checked"; IScalar (PStr $"summary") (JStr $"A package") []];
   ISection (PStr $"requirements") [] [ISection (PStr $"run") [] [IElem (JStr $"python") []; IElem (JStr $"pip") []]];
   ISection (PStr $"build") [] [IEmpty (PStr $"script") []; IScalar (PStr $"number") (JInt 3) $"# again"];
   ISection (PStr $"package") [] [IScalar (PStr $"version") (JStr $"1.2.3") []; IScalar (PStr $"name") (JStr $"foo") []]].
Example C128_example :
  let text := join NLs (recipe_page plain_items []) in
  map pr (splitlines text) = ["# a comment"; "about:"; "  license: MIT  # checked"; "  summary: A package"; ""; "requirements:"; "  run:"; "    - python"; "    - pip"; "";
     "build:"; "  script:"; "  number: 3  # again"; ""; "package:"; "  version: 1.2.3"; "  name: foo"]%string
  /\ (exists s' text', without_errors (render_to_v1 plain_tools) {| v1 := recipe_of text; msgs := new_table |} text' s'
      /\ map pr (splitlines text') = ["# a comment"; "schema_version: 1"; ""; "package:"; "  version: 1.2.3"; "  name: foo"; ""; "build:"; "  number: 3  # again"; "  script:"; "";
           "requirements:"; "  run:"; "    - python"; "    - pip"; ""; "about:"; "  license: MIT  # checked"; "  summary: A package"]%string)
  /\ writes_version mini_env /\ canonical mini_env version_item /\ canonical_recipe mini_env plain_items [] /\ Forall simple plain_items
  /\ collect_selectors mini_env (document plain_items) = [] /\ no_expressions (document plain_items)
  /\ nothing_old (document plain_items)
  /\ about_fine mini_env (find_closest_license_match (t_close plain_tools) (t_licenses plain_tools)) (document plain_items).
Proof.
  assert (forall c, starts_with_hash c -> ends_clean c -> ~ block_mark c -> yload mini_env c = YOk JNull -> canonical mini_env (IComment c)) as CC.
  { intros c A B D F. exact (can_comment mini_env c JNull A B D F). }
  cbv zeta. split; [vm_compute; reflexivity|].
  split; [eexists _, _; split; [split; vm_compute; reflexivity|vm_compute; reflexivity]|].
  split; [vm_compute; reflexivity|]. split; [apply can_scalar; [discriminate|plain_check]|].
  split.
  { split; [split; [split|split]|split; [|split]].
    - unfold plain_items.
      repeat match goal with
      | |- Forall (canonical _) [] => constructor
      | |- Forall (canonical _) (_ :: _) => constructor
      | |- canonical _ (IComment _) => apply CC; [eexists; vm_compute; reflexivity|apply ends_clean_check; vm_compute; reflexivity|apply block_mark_check; vm_compute; reflexivity|vm_compute; reflexivity]
      | |- canonical _ (IEmpty _ _) => apply can_empty; plain_check
      | |- canonical _ (IScalar _ _ _) => apply can_scalar; [discriminate|plain_check]
      | |- canonical _ (ISection _ _ _) => apply can_section; [plain_check|split; [discriminate|intros; discriminate]|]
      | |- canonical _ (IElem _ _) => apply can_elem; [reflexivity|plain_check]
      end.
    - repeat constructor.
    - vm_compute. reflexivity.
    - repeat (constructor; [apply inert_check; vm_compute; reflexivity|]). constructor.
    - intros x I. unfold plain_items in I. repeat destruct I as [<-|I]; try (split; [vm_compute; discriminate|intros; discriminate]). contradiction.
    - constructor.
    - constructor. }
  split; [repeat constructor|]. split; [vm_compute; reflexivity|].
  split. { apply no_expressions_checked. vm_compute. reflexivity. }
  split. { apply nothing_old_checked. vm_compute. reflexivity. }
  intros _. split; [exists $"MIT"; vm_compute; auto|]. intros l. vm_compute. discriminate.
Qed.
