(** C132: a recipe with variables and expressions is converted. *)
From Verif Require PreSpec2 PreProofs2.
From Verif Require Import CommentPathProofs VarsProofs5 GoesProofs PlainProofs ConvertProofs6 ContextProofs RenderProofs RenderProofs4 Samples MiniYaml PropConvert ConvertSpec PlainSpec JinjaSpec VarsSpec2.

(** ** C132 *)
Theorem C132_converted : forall T s ctx t d, let E := t_env T in let root := r_root (v1 s) in let full := with_version (with_context ctx root) in
  writes_version E -> (ctx <> [] -> writes_context E ctx) -> (forall l, Permutation (t_order T l) l) ->
  r_sel (v1 s) = [] -> NoDup (map fst (r_vars (v1 s))) -> entries_for (r_vars (v1 s)) ctx ->
  n_children root <> [] -> n_lmf root = false -> proper_tree root = true -> comments_have_paths E root -> nothing_old root ->
  addressable_document full = true -> expressions_fit E full -> renewed full t ->
  about_fine E (find_closest_license_match (t_close T) (t_licenses T)) t -> readable_parts E t ->
  get_value E t $"/context" (Some (JDict [])) None = Ok (JDict d) ->
  exists text s', without_errors (render_to_v1 T) s text s' /\ rearranged t (r_root (v1 s')) /\ r_vars (v1 s') = dict_to_vtbl d.
Proof. exact c132_recipe. Qed.
Print Assumptions C132_converted.
Theorem C132_one_result : forall n a b, renewed n a -> renewed n b -> a = b.
Proof. exact renewed_one. Qed.
Print Assumptions C132_one_result.
Theorem C132_a_result : forall E root, addressable_document root = true -> expressions_fit E root -> exists t, renewed root t.
Proof. exact renewed_exists. Qed.
Print Assumptions C132_a_result.

Definition variable_recipe : list string :=
  ["{% set name = ""foo"" %}"; "{% set build = 3 %}"; "{% set upper = name|upper %}"; "package:"; "  version: 1.2"; "  name: {{ name|lower }}"; "about:"; "  license: MIT"; "  summary: what {{ upper }} is";
   "requirements:"; "  host:"; "    - {{ compiler('c') }}"; "    - pip"; "build:"; "  script: run ${{ name }}"; "  number: {{ build }}"]%string.
Example C132_example :
  let r := recipe_of (nl variable_recipe) in
  let ctx := [($"name", JStr $"foo"); ($"build", JInt 3); ($"upper", JStr $"{{name|upper}}")] in
  let full := with_version (with_context ctx (r_root r)) in
  converted variable_recipe
  = Ok (["schema_version: 1"; ""; "context:"; "  name: foo"; "  build: 3"; "  upper: ${{name|upper}}"; ""; "package:"; "  version: 1.2"; "  name: ${{ name|lower }}"; "";
         "build:"; "  number: ${{ build }}"; "  script: run ${{ name }}"; ""; "requirements:"; "  host:"; "    - ${{ compiler('c') }}"; "    - pip"; "";
         "about:"; "  license: MIT"; "  summary: what ${{ upper }} is"]%string, [], [])
  /\ writes_version mini_env /\ writes_context mini_env ctx /\ r_sel r = [] /\ NoDup (map fst (r_vars r)) /\ entries_for (r_vars r) ctx
  /\ proper_tree (r_root r) = true /\ comments_have_paths mini_env (r_root r) /\ nothing_old (r_root r)
  /\ addressable_document full = true /\ expressions_fit mini_env full
  /\ exists t, renewed full t /\ about_fine mini_env (find_closest_license_match (t_close plain_tools) (t_licenses plain_tools)) t /\ readable_parts mini_env t
     /\ get_value mini_env t $"/context" (Some (JDict [])) None
        = Ok (JDict [(PStr $"name", JStr $"foo"); (PStr $"build", JInt 3); (PStr $"upper", JStr $"${{name|upper}}")]).
Proof.
  cbv zeta. split; [vm_compute; reflexivity|]. split; [vm_compute; reflexivity|]. split; [vm_compute; reflexivity|]. split; [vm_compute; reflexivity|].
  split; [vm_compute; repeat constructor; cbn [In]; intuition discriminate|]. split.
  { match goal with |- entries_for ?v _ => assert (v = [($"name", JStr $"foo"); ($"build", JInt 3); ($"upper", JStr $"name|upper")]) as -> by (vm_compute; reflexivity) end.
    unfold entries_for. cbn [filter supported snd].
    pose proof (context_value_spec (JStr $"foo")) as (_ & A). pose proof (context_value_spec (JInt 3)) as (_ & B). pose proof (context_value_spec (JStr $"name|upper")) as (_ & C).
    repeat (apply Forall2_cons; [split; [reflexivity|assumption]|]). apply Forall2_nil. }
  split; [vm_compute; reflexivity|]. split; [apply paths_checked; vm_compute; reflexivity|]. split; [apply nothing_old_checked; vm_compute; reflexivity|].
  match goal with |- addressable_document ?f = true /\ _ => set (full := f) end.
  assert (addressable_document full = true) as AD by (vm_compute; reflexivity). assert (expressions_fit mini_env full) as XF by (apply fit_checked; vm_compute; reflexivity).
  split; [exact AD|]. split; [exact XF|]. exists (renew full (fun _ => true)).
  split; [apply renew_all; intros p x; exact (fit_hot mini_env full p x AD XF)|]. split.
  { intros _. split; [exists $"MIT"; split; vm_compute; reflexivity|]. intros l H. vm_compute in H. discriminate. }
  split; [|vm_compute; reflexivity]. split; [|intros _; eexists; vm_compute; reflexivity].
  intros H. apply has_top_iff in H. vm_compute in H. discriminate.
Qed.

(** The comment beside an expression is dropped, and nothing says so. *)
Theorem C132_comment_refuted : exists text, text = ["package:"; "  name: {{ name|lower }}  # the name"; "requirements:"; "  host:"; "    - python {{ version }}  # newest"; "    - pip  # any"]%string
  /\ converted text
     = Ok (["schema_version: 1"; ""; "package:"; "  name: ${{ name|lower }}"; ""; "requirements:"; "  host:"; "    - python ${{ version }}"; "    - pip  # any"]%string, [], []).
Proof. eexists. split; [reflexivity|]. vm_compute. reflexivity. Qed.
Print Assumptions C132_comment_refuted.

(** From file to file. *)
Theorem C132_file_to_file : forall T xs vars ctx zs d m, let E := t_env T in let text := join NLs (recipe_page xs vars) in
  let full := xs ++ context_items ctx ++ [version_item] in
  writes_version E -> (ctx <> [] -> writes_context E ctx) -> (forall l, Permutation (t_order T l) l) ->
  canonical_recipe E xs vars -> xs <> [] -> Forall simple xs -> collect_selectors E (document xs) = [] -> entries_for vars ctx ->
  nothing_old (document xs) -> addressable_document (document full) = true -> expressions_fit E (document full) ->
  Forall2 new_markers full zs -> canonical_document E zs ->
  about_fine E (find_closest_license_match (t_close T) (t_licenses T)) (document zs) -> readable_parts E (document zs) ->
  get_value E (document zs) $"/context" (Some (JDict [])) None = Ok (JDict d) ->
  exists r text' s' ys r', new_recipe E text = Ok r /\ r_root r = document xs
  /\ without_errors (render_to_v1 T) {| v1 := r; msgs := m |} text' s'
  /\ reordered zs ys /\ text' = join NLs (page ys)
  /\ new_recipe E text' = Ok r' /\ r_root r' = document ys /\ r_schema r' = SV1 /\ r_vars r' = dict_to_vtbl d.
Proof. exact c132_files_read. Qed.
Print Assumptions C132_file_to_file.
Definition old_items : list item :=
  [ISection (PStr $"about") [] [IScalar (PStr $"license") (JStr $"MIT") $"# checked"; IScalar (PStr $"summary") (JStr $"A package") []];
   ISection (PStr $"package") [] [IScalar (PStr $"name") (JStr $"{{ name }}-core") []; IScalar (PStr $"version") (JStr $"1.2.3") []];
   ISection (PStr $"requirements") [] [ISection (PStr $"run") [] [IElem (JStr $"python") []; IElem (JStr $"{{ name }}-base") []]]].
Definition new_items : list item :=
  [ISection (PStr $"about") [] [IScalar (PStr $"license") (JStr $"MIT") $"# checked"; IScalar (PStr $"summary") (JStr $"A package") []];
   ISection (PStr $"package") [] [IScalar (PStr $"name") (JStr $"${{ name }}-core") []; IScalar (PStr $"version") (JStr $"1.2.3") []];
   ISection (PStr $"requirements") [] [ISection (PStr $"run") [] [IElem (JStr $"python") []; IElem (JStr $"${{ name }}-base") []]];
   ISection (PStr $"context") [] [IScalar (PStr $"name") (JStr $"foo") []; IScalar (PStr $"n") (JInt 3) []]; version_item].
Definition item_vars : list (str * json) := [($"name", JStr $"foo"); ($"n", JInt 3)].
Ltac one_expression pre post j :=
  plain_conditions; right; exists [pre], post, [$"{{ name }}"], j;
  repeat match goal with |- _ /\ _ => split end;
  [vm_compute; reflexivity|reflexivity|discriminate|constructor; [apply not_in_check; vm_compute; reflexivity|constructor]|apply not_in_check; vm_compute; reflexivity
  |constructor; [|constructor]; exists $" ", $"name", $" "; split; [reflexivity|]; split; [intros c [<-|[]]; reflexivity|]; split; [|intros c [<-|[]]; reflexivity];
   apply Forall_forall; intros c I; apply expression_chars; repeat destruct I as [<-|I]; [reflexivity..|contradiction]
  |apply no_text_check; vm_compute; reflexivity|intros j'; vm_compute; discriminate|vm_compute; reflexivity|].
Ltac restored_text before post :=
  apply (rs_text [before] post [$"{{ name }}"] []); [constructor; [apply before_marker_check; reflexivity|constructor]|apply no_text_check; vm_compute; reflexivity|reflexivity|apply needs_quotes_check; vm_compute; reflexivity].
Example C132_files_example :
  let full := old_items ++ context_items item_vars ++ [version_item] in
  map pr (splitlines (join NLs (recipe_page old_items item_vars)))
  = ["{% set name = ""foo"" %}"; "{% set n = 3 %}"; ""; "about:"; "  license: MIT  # checked"; "  summary: A package"; ""; "package:"; "  name: {{ name }}-core"; "  version: 1.2.3"; "";
     "requirements:"; "  run:"; "    - python"; "    - {{ name }}-base"]%string
  /\ canonical_recipe mini_env old_items item_vars /\ Forall simple old_items /\ collect_selectors mini_env (document old_items) = []
  /\ addressable_document (document full) = true /\ expressions_fit mini_env (document full)
  /\ Forall2 new_markers full new_items /\ canonical_document mini_env new_items.
Proof.
  cbv zeta. split; [vm_compute; reflexivity|]. split.
  { split; [split; [split|split]|split; [|split]].
    - unfold old_items.
      repeat match goal with
      | |- Forall (canonical _) [] => constructor
      | |- Forall (canonical _) (_ :: _) => constructor
      | |- canonical _ (IScalar _ (JStr $"{{ name }}-core") _) => apply can_scalar; [discriminate|]
      | |- canonical _ (IScalar _ _ _) => apply can_scalar; [discriminate|plain_check]
      | |- canonical _ (ISection _ _ _) => apply can_section; [plain_check|split; [discriminate|intros; discriminate]|]
      | |- canonical _ (IElem (JStr $"{{ name }}-base") _) => apply can_elem; [reflexivity|]
      | |- canonical _ (IElem _ _) => apply can_elem; [reflexivity|plain_check]
      end.
      + one_expression $"name: " $"-core" (JDict [(PStr $"name", JStr (marked [[]] ++ $"-core"))]).
        apply rs_dict; [reflexivity|]. eapply rs_cons; [|apply rs_nil]. restored_text (@nil ascii) $"-core".
      + one_expression $"- " $"-base" (JList [JStr (marked [[]] ++ $"-base")]).
        apply rs_list. eapply rs_cons; [|apply rs_nil]. restored_text (@nil ascii) $"-base".
    - repeat constructor.
    - vm_compute. reflexivity.
    - repeat (constructor; [apply inert_check; vm_compute; reflexivity|]). constructor.
    - intros x I. unfold old_items in I. repeat destruct I as [<-|I]; try (split; [vm_compute; discriminate|intros; discriminate]). contradiction.
    - repeat constructor; vm_compute; intuition discriminate.
    - repeat constructor; try (vm_compute; reflexivity); try discriminate; try (apply no_text_check; vm_compute; reflexivity);
        intros c I; vm_compute in I; repeat destruct I as [<-|I]; try reflexivity; contradiction. }
  split; [repeat constructor|]. split; [vm_compute; reflexivity|]. split; [vm_compute; reflexivity|]. split; [apply fit_checked; vm_compute; reflexivity|]. split.
  { assert (forall s s', to_v1_marker s = s' -> PreSpec2.markers_changed None s s') as MC by (intros s s' <-; apply PreProofs2.c84_all).
    assert (forall s, found JINJA_V0_SUB s = false -> ~ has_expression s) as NX by (intros s H X; apply v0_expression in X; congruence).
    assert (forall s, found JINJA_V0_SUB s = true -> has_expression s) as YX by (intros s H; apply v0_expression; exact H).
    unfold new_items, old_items, context_items, item_vars, version_item. cbn [app map fst snd].
    repeat match goal with
    | |- Forall2 _ [] [] => constructor
    | |- Forall2 _ (_ :: _) (_ :: _) => constructor
    | |- new_markers (ISection _ _ _) _ => apply in_section; [discriminate|]
    | |- new_markers (IScalar _ ?v _) (IScalar _ ?v _) => apply same_scalar; apply NX; vm_compute; reflexivity
    | |- new_markers (IElem ?v _) (IElem ?v _) => apply same_elem; apply NX; vm_compute; reflexivity
    | |- new_markers (IScalar _ _ _) _ => apply new_scalar; [apply YX; vm_compute; reflexivity|apply MC; vm_compute; reflexivity]
    | |- new_markers (IElem _ _) _ => apply new_elem; [apply YX; vm_compute; reflexivity|apply MC; vm_compute; reflexivity]
    end. }
  split; [split|split].
  - unfold new_items, version_item.
    repeat match goal with
    | |- Forall (canonical _) [] => constructor
    | |- Forall (canonical _) (_ :: _) => constructor
    | |- canonical _ (IScalar _ _ _) => apply can_scalar; [discriminate|plain_check]
    | |- canonical _ (ISection _ _ _) => apply can_section; [plain_check|split; [discriminate|intros; discriminate]|]
    | |- canonical _ (IElem _ _) => apply can_elem; [reflexivity|plain_check]
    end.
  - repeat constructor.
  - vm_compute. reflexivity.
  - repeat (constructor; [apply inert_check; vm_compute; reflexivity|]). constructor.
Qed.
