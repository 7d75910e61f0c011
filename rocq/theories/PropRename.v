(** C134: a recipe with old names in the sections [source], [build], [requirements] and [about] is converted. *)
From Verif Require PreSpec2 PreProofs2.
From Verif Require Import CommentPathProofs VarsProofs5 GoesProofs PlainProofs ConvertProofs6 ContextProofs RenderProofs RenderProofs4 Samples MiniYaml PropConvert ConvertSpec PlainSpec JinjaSpec VarsSpec2.
From Verif Require Import RenameProofs6 RenameProofs5 RenameProofs4 AboutProofs4 VarsProofs4 VarsProofs3 GoesProofs PlainProofs ConvertProofs6 ContextProofs RenderProofs RenderProofs4 Samples MiniYaml PropConvert ConvertSpec PlainSpec JinjaSpec RenameSpec.

(** ** C134 *)
Theorem C134_converted : forall T s ctx t t' d, let E := t_env T in let closest := find_closest_license_match (t_close T) (t_licenses T) in
  let root := r_root (v1 s) in let full := with_version (with_context ctx root) in
  writes_version E -> (ctx <> [] -> writes_context E ctx) -> (forall l, Permutation (t_order T l) l) ->
  r_sel (v1 s) = [] -> NoDup (map fst (r_vars (v1 s))) -> entries_for (r_vars (v1 s)) ctx ->
  n_children root <> [] -> n_lmf root = false -> proper_tree root = true -> comments_have_paths E root ->
  addressable_document full = true -> expressions_fit E full -> renewed full t ->
  only_renamed t -> values_fine E closest t -> (forall names, In names known_names -> section_in_order names t) -> names_renewed E t t' ->
  get_value E t $"/context" (Some (JDict [])) None = Ok (JDict d) ->
  exists text s' earlier of_build of_license of_about later,
  without_errors (render_to_v1 T) s text s' /\ rearranged t' (r_root (v1 s')) /\ r_vars (v1 s') = dict_to_vtbl d
  /\ get_messages WARNING (msgs s') = get_messages WARNING (msgs s) ++ earlier ++ of_build ++ of_license ++ of_about ++ later
  /\ told_dropped t $"build" (snd (snd build_names)) of_build /\ license_told E closest t of_license /\ told_dropped t $"about" (snd (snd about_names)) of_about.
Proof. exact c134. Qed.
Print Assumptions C134_converted.
Theorem C134_one_result : forall E root a b, names_renewed E root a -> names_renewed E root b -> a = b.
Proof. exact names_one. Qed.
Print Assumptions C134_one_result.
Definition old_recipe : list string :=
  ["{% set name = ""foo"" %}"; "package:"; "  name: {{ name }}"; "source:"; "  git_url: https://example.org/{{ name }}"; "  git_rev: main"; "  folder: src";
   "build:"; "  number: 0"; "  features: x"; "  no_link: bin/a"; "  noarch_python: 1"; "requirements:"; "  run:"; "    - python"; "  run_constrained:"; "    - foo"; "    - bar";
   "about:"; "  home: https://example.org"; "  license_family: MIT"; "  license: MIT"; "  doc_url: https://example.org/{{ name }}"; "  summary: A package"; "  tags:"; "    - one"]%string.
Example C134_example :
  let r := recipe_of (nl old_recipe) in
  let ctx := [($"name", JStr $"foo")] in
  let full := with_version (with_context ctx (r_root r)) in
  converted old_recipe
  = Ok (["schema_version: 1"; ""; "context:"; "  name: foo"; ""; "package:"; "  name: ${{ name }}"; "";
         "source:"; "  git: https://example.org/${{ name }}"; "  rev: main"; "  target_directory: src"; ""; "build:"; "  number: 0"; "  always_copy_files: bin/a"; "";
         "requirements:"; "  run:"; "    - python"; "  run_constraints:"; "    - foo"; "    - bar"; "";
         "about:"; "  license: MIT"; "  summary: A package"; "  homepage: https://example.org"; "  documentation: https://example.org/${{ name }}"]%string, [],
        ["Field at `/build/noarch_python` is no longer supported."; "Field at `/build/features` is no longer supported.";
         "Field at `/about/license_family` is no longer supported."; "Field at `/about/tags` is no longer supported."]%string)
  /\ writes_version mini_env /\ writes_context mini_env ctx /\ r_sel r = [] /\ NoDup (map fst (r_vars r)) /\ entries_for (r_vars r) ctx
  /\ proper_tree (r_root r) = true /\ comments_have_paths mini_env (r_root r)
  /\ addressable_document full = true /\ expressions_fit mini_env full
  /\ exists t t', renewed full t /\ only_renamed t /\ values_fine mini_env (find_closest_license_match (t_close plain_tools) (t_licenses plain_tools)) t
     /\ (forall names, In names known_names -> section_in_order names t) /\ names_renewed mini_env t t'
     /\ get_value mini_env t $"/context" (Some (JDict [])) None = Ok (JDict [(PStr $"name", JStr $"foo")]).
Proof.
  cbv zeta. split; [vm_compute; reflexivity|]. split; [vm_compute; reflexivity|]. split; [vm_compute; reflexivity|]. split; [vm_compute; reflexivity|].
  split; [vm_compute; repeat constructor; cbn [In]; intuition discriminate|]. split.
  { match goal with |- entries_for ?v _ => assert (v = [($"name", JStr $"foo")]) as -> by (vm_compute; reflexivity) end.
    unfold entries_for. cbn [filter supported snd]. pose proof (context_value_spec (JStr $"foo")) as (_ & A).
    apply Forall2_cons; [split; [reflexivity|assumption]|]. apply Forall2_nil. }
  split; [vm_compute; reflexivity|]. split; [apply paths_checked; vm_compute; reflexivity|].
  match goal with |- addressable_document ?f = true /\ _ => set (full := f) end.
  assert (addressable_document full = true) as AD by (vm_compute; reflexivity). assert (expressions_fit mini_env full) as XF by (apply fit_checked; vm_compute; reflexivity).
  split; [exact AD|]. split; [exact XF|]. pose (t := renew full (fun _ => true)). exists t, (match renew_names mini_env t with Some x => x | None => t end).
  split; [apply renew_all; intros p x; exact (fit_hot mini_env full p x AD XF)|]. split; [apply only_renamed_checked; vm_compute; reflexivity|]. split.
  { split; intros _.
    - eexists. split; [vm_compute; reflexivity|]. discriminate.
    - split; [|exists (JStr $"A package"); split; [vm_compute; reflexivity|discriminate]]. exists (JStr $"MIT"). split; [vm_compute; reflexivity|]. right. exists $"MIT". split; [reflexivity|]. right. vm_compute. reflexivity. }
  split; [apply in_order_checked; vm_compute; reflexivity|]. split; [|vm_compute; reflexivity].
  apply renew_names_is. vm_compute. reflexivity.
Qed.

(** From file to file. *)
Theorem C134_file_to_file : forall T xs vars ctx zs ws d m, let E := t_env T in let closest := find_closest_license_match (t_close T) (t_licenses T) in
  let text := join NLs (recipe_page xs vars) in let full := xs ++ context_items ctx ++ [version_item] in
  writes_version E -> (ctx <> [] -> writes_context E ctx) -> (forall l, Permutation (t_order T l) l) ->
  canonical_recipe E xs vars -> xs <> [] -> Forall simple xs -> collect_selectors E (document xs) = [] -> entries_for vars ctx ->
  addressable_document (document full) = true -> expressions_fit E (document full) ->
  Forall2 new_markers full zs ->
  only_renamed (document zs) -> values_fine E closest (document zs) -> (forall names, In names known_names -> section_in_order names (document zs)) ->
  names_renewed E (document zs) (document ws) -> Forall simple ws -> canonical_document E ws ->
  get_value E (document zs) $"/context" (Some (JDict [])) None = Ok (JDict d) ->
  exists r text' s' ys r', new_recipe E text = Ok r /\ r_root r = document xs
  /\ without_errors (render_to_v1 T) {| v1 := r; msgs := m |} text' s'
  /\ reordered ws ys /\ text' = join NLs (page ys)
  /\ new_recipe E text' = Ok r' /\ r_root r' = document ys /\ r_schema r' = SV1 /\ r_vars r' = dict_to_vtbl d.
Proof. exact c134_files_read. Qed.
Print Assumptions C134_file_to_file.
Definition old_items : list item :=
  [ISection (PStr $"about") [] [IScalar (PStr $"home") (JStr $"here") []; IScalar (PStr $"license") (JStr $"MIT") $"# checked"; IScalar (PStr $"summary") (JStr $"A package") []];
   ISection (PStr $"build") [] [IScalar (PStr $"features") (JStr $"x") []; IScalar (PStr $"number") (JInt 0) []];
   ISection (PStr $"package") [] [IScalar (PStr $"name") (JStr $"{{ name }}-core") []];
   ISection (PStr $"requirements") [] [ISection (PStr $"run_constrained") [] [IElem (JStr $"python") []; IElem (JStr $"base") []]; ISection (PStr $"run") [] [IElem (JStr $"zlib") []]];
   ISection (PStr $"source") [] [IScalar (PStr $"fn") (JStr $"a.tar") []; IScalar (PStr $"url") (JStr $"there") []]].
Definition marked_items : list item :=
  [ISection (PStr $"about") [] [IScalar (PStr $"home") (JStr $"here") []; IScalar (PStr $"license") (JStr $"MIT") $"# checked"; IScalar (PStr $"summary") (JStr $"A package") []];
   ISection (PStr $"build") [] [IScalar (PStr $"features") (JStr $"x") []; IScalar (PStr $"number") (JInt 0) []];
   ISection (PStr $"package") [] [IScalar (PStr $"name") (JStr $"${{ name }}-core") []];
   ISection (PStr $"requirements") [] [ISection (PStr $"run_constrained") [] [IElem (JStr $"python") []; IElem (JStr $"base") []]; ISection (PStr $"run") [] [IElem (JStr $"zlib") []]];
   ISection (PStr $"source") [] [IScalar (PStr $"fn") (JStr $"a.tar") []; IScalar (PStr $"url") (JStr $"there") []];
   ISection (PStr $"context") [] [IScalar (PStr $"name") (JStr $"foo") []]; version_item].
Definition renamed_items : list item :=
  [ISection (PStr $"about") [] [IScalar (PStr $"license") (JStr $"MIT") $"# checked"; IScalar (PStr $"summary") (JStr $"A package") []; IScalar (PStr $"homepage") (JStr $"here") []];
   ISection (PStr $"build") [] [IScalar (PStr $"number") (JInt 0) []];
   ISection (PStr $"package") [] [IScalar (PStr $"name") (JStr $"${{ name }}-core") []];
   ISection (PStr $"requirements") [] [ISection (PStr $"run") [] [IElem (JStr $"zlib") []]; ISection (PStr $"run_constraints") [] [IElem (JStr $"python") []; IElem (JStr $"base") []]];
   ISection (PStr $"source") [] [IScalar (PStr $"url") (JStr $"there") []; IScalar (PStr $"file_name") (JStr $"a.tar") []];
   ISection (PStr $"context") [] [IScalar (PStr $"name") (JStr $"foo") []]; version_item].
Definition item_vars : list (str * json) := [($"name", JStr $"foo")].
Ltac one_expression pre post j :=
  plain_conditions; right; exists [pre], post, [$"{{ name }}"], j;
  repeat match goal with |- _ /\ _ => split end;
  [vm_compute; reflexivity|reflexivity|discriminate|constructor; [apply not_in_check; vm_compute; reflexivity|constructor]|apply not_in_check; vm_compute; reflexivity
  |constructor; [|constructor]; exists $" ", $"name", $" "; split; [reflexivity|]; split; [intros c [<-|[]]; reflexivity|]; split; [|intros c [<-|[]]; reflexivity];
   apply Forall_forall; intros c I; apply expression_chars; repeat destruct I as [<-|I]; [reflexivity..|contradiction]
  |apply no_text_check; vm_compute; reflexivity|intros j'; vm_compute; discriminate|vm_compute; reflexivity|].
Ltac restored_text before post :=
  apply (rs_text [before] post [$"{{ name }}"] []); [constructor; [apply before_marker_check; reflexivity|constructor]|apply no_text_check; vm_compute; reflexivity|reflexivity|apply needs_quotes_check; vm_compute; reflexivity].
Example C134_files_example :
  let full := old_items ++ context_items item_vars ++ [version_item] in
  map pr (splitlines (join NLs (recipe_page old_items item_vars)))
  = ["{% set name = ""foo"" %}"; ""; "about:"; "  home: here"; "  license: MIT  # checked"; "  summary: A package"; ""; "build:"; "  features: x"; "  number: 0"; ""; "package:"; "  name: {{ name }}-core"; "";
     "requirements:"; "  run_constrained:"; "    - python"; "    - base"; "  run:"; "    - zlib"; ""; "source:"; "  fn: a.tar"; "  url: there"]%string
  /\ canonical_recipe mini_env old_items item_vars /\ Forall simple old_items /\ collect_selectors mini_env (document old_items) = []
  /\ addressable_document (document full) = true /\ expressions_fit mini_env (document full)
  /\ Forall2 new_markers full marked_items
  /\ only_renamed (document marked_items) /\ values_fine mini_env (find_closest_license_match (t_close plain_tools) (t_licenses plain_tools)) (document marked_items)
  /\ (forall names, In names known_names -> section_in_order names (document marked_items))
  /\ names_renewed mini_env (document marked_items) (document renamed_items) /\ Forall simple renamed_items /\ canonical_document mini_env renamed_items
  /\ get_value mini_env (document marked_items) $"/context" (Some (JDict [])) None = Ok (JDict [(PStr $"name", JStr $"foo")]).
Proof.
  cbv zeta. split; [vm_compute; reflexivity|]. split.
  { split; [split; [split|split]|split; [|split]].
    - unfold old_items.
      repeat match goal with
      | |- Forall (canonical _) [] => constructor
      | |- Forall (canonical _) (_ :: _) => constructor
      | |- canonical _ (IScalar _ (JStr $"{{ name }}-core") _) => apply can_scalar; [discriminate|]
      | |- canonical _ (IScalar _ _ _) => apply can_scalar; [discriminate|plain_check]
      | |- canonical _ (ISection _ _ _) => apply can_section; [plain_check|split; [discriminate|intros; discriminate]|]
      | |- canonical _ (IElem _ _) => apply can_elem; [reflexivity|plain_check]
      end.
      one_expression $"name: " $"-core" (JDict [(PStr $"name", JStr (marked [[]] ++ $"-core"))]).
      apply rs_dict; [reflexivity|]. eapply rs_cons; [|apply rs_nil]. restored_text (@nil ascii) $"-core".
    - repeat constructor.
    - vm_compute. reflexivity.
    - repeat (constructor; [apply inert_check; vm_compute; reflexivity|]). constructor.
    - intros x I. unfold old_items in I. repeat destruct I as [<-|I]; try (split; [vm_compute; discriminate|intros; discriminate]). contradiction.
    - repeat constructor; vm_compute; intuition discriminate.
    - repeat constructor; try (vm_compute; reflexivity); try discriminate; try (apply no_text_check; vm_compute; reflexivity);
        intros c I; vm_compute in I; repeat destruct I as [<-|I]; try reflexivity; contradiction. }
  split; [repeat constructor|]. split; [vm_compute; reflexivity|].
  split; [vm_compute; reflexivity|]. split; [apply fit_checked; vm_compute; reflexivity|]. split.
  { assert (forall s s', to_v1_marker s = s' -> PreSpec2.markers_changed None s s') as MC by (intros s s' <-; apply PreProofs2.c84_all).
    assert (forall s, found JINJA_V0_SUB s = false -> ~ has_expression s) as NX by (intros s H X; apply v0_expression in X; congruence).
    assert (forall s, found JINJA_V0_SUB s = true -> has_expression s) as YX by (intros s H; apply v0_expression; exact H).
    unfold marked_items, old_items, context_items, item_vars, version_item. cbn [app map fst snd].
    repeat match goal with
    | |- Forall2 _ [] [] => constructor
    | |- Forall2 _ (_ :: _) (_ :: _) => constructor
    | |- new_markers (ISection _ _ _) _ => apply in_section; [discriminate|]
    | |- new_markers (IScalar _ ?v _) (IScalar _ ?v _) => apply same_scalar; apply NX; vm_compute; reflexivity
    | |- new_markers (IElem ?v _) (IElem ?v _) => apply same_elem; apply NX; vm_compute; reflexivity
    | |- new_markers (IScalar _ _ _) _ => apply new_scalar; [apply YX; vm_compute; reflexivity|apply MC; vm_compute; reflexivity]
    end. }
  split; [apply only_renamed_checked; vm_compute; reflexivity|]. split.
  { split; intros _.
    - eexists. split; [vm_compute; reflexivity|]. discriminate.
    - split; [|exists (JStr $"A package"); split; [vm_compute; reflexivity|discriminate]]. exists (JStr $"MIT"). split; [vm_compute; reflexivity|]. right. exists $"MIT". split; [reflexivity|]. right. vm_compute. reflexivity. }
  split; [apply in_order_checked; vm_compute; reflexivity|]. split; [apply renew_names_is; vm_compute; reflexivity|]. split; [repeat constructor|]. split; [|vm_compute; reflexivity].
  split; [split|split].
  - unfold renamed_items, version_item.
    repeat match goal with
    | |- Forall (canonical _) [] => constructor
    | |- Forall (canonical _) (_ :: _) => constructor
    | |- canonical _ (IScalar _ _ _) => apply can_scalar; [discriminate|plain_check]
    | |- canonical _ (ISection _ _ _) => apply can_section; [plain_check|split; [discriminate|intros; discriminate]|]
    | |- canonical _ (IElem _ _) => apply can_elem; [reflexivity|plain_check]
    end.
  - repeat constructor.
  - vm_compute. reflexivity.
  - repeat (constructor; [apply inert_check; vm_compute; reflexivity|]). constructor.
Qed.

(** The license is missing, or unknown. *)
Example C134_license :
  converted ["source:"; "  fn: a  # note"; "build:"; "about:"; "  home: x"]%string
  = Ok (["schema_version: 1"; ""; "source:"; "  file_name: a"; ""; "build:"; ""; "about:"; "  homepage: x"]%string, [],
        ["No `license` provided in `/about`"; "Could not relocate comment: # note"]%string)
  /\ converted ["about:"; "  home: x"; "  license: Unheard"]%string
  = Ok (["schema_version: 1"; ""; "about:"; "  license: Unheard"; "  homepage: x"]%string, [], ["Could not patch unrecognized license: `Unheard`"]%string).
Proof. split; vm_compute; reflexivity. Qed.
(** Without [section_in_order]: a value already there under the new name is lost, and nothing is said. *)
Theorem C134_both_names_refuted : exists text, text = ["build:"; "  no_link: x"; "  always_copy_files: y"]%string
  /\ converted text = Ok (["schema_version: 1"; ""; "build:"; "  always_copy_files: x"]%string, [], []).
Proof. eexists. split; [reflexivity|]. vm_compute. reflexivity. Qed.
Print Assumptions C134_both_names_refuted.
(** With a list of sources: the item that had only a renamed field becomes two items, so that the next source keeps its
    old name. *)
Theorem C134_source_list_refuted : exists text, text = ["source:"; "  - fn: a"; "  - fn: b"]%string
  /\ converted text = Ok (["schema_version: 1"; ""; "source:"; "  - file_name: a"; "  -"; "  - fn: b"]%string, [], []).
Proof. eexists. split; [reflexivity|]. vm_compute. reflexivity. Qed.
Print Assumptions C134_source_list_refuted.
