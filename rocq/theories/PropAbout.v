(** C133: a recipe whose section [about] uses the old names is converted. *)
From Verif Require Import AboutProofs4 AboutProofs3 VarsProofs4 VarsProofs3 GoesProofs PlainProofs ConvertProofs6 ContextProofs RenderProofs RenderProofs4 Samples MiniYaml PropConvert ConvertSpec PlainSpec JinjaSpec AboutSpec.

(** ** C133 *)
Theorem C133_converted : forall T s ctx t t' d, let E := t_env T in let root := r_root (v1 s) in let full := with_version (with_context ctx root) in
  writes_version E -> (ctx <> [] -> writes_context E ctx) -> (forall l, Permutation (t_order T l) l) ->
  r_sel (v1 s) = [] -> NoDup (map fst (r_vars (v1 s))) -> entries_for (r_vars (v1 s)) ctx ->
  n_children root <> [] -> n_lmf root = false -> proper_tree root = true -> comments_have_paths E root ->
  addressable_document full = true -> expressions_fit E full -> renewed full t ->
  old_only_in_about t -> about_fine E (find_closest_license_match (t_close T) (t_licenses T)) t -> readable_parts E t ->
  about_in_order t -> about_renewed E t t' ->
  get_value E t $"/context" (Some (JDict [])) None = Ok (JDict d) ->
  exists text s' earlier ms later, without_errors (render_to_v1 T) s text s' /\ rearranged t' (r_root (v1 s')) /\ r_vars (v1 s') = dict_to_vtbl d
  /\ get_messages WARNING (msgs s') = get_messages WARNING (msgs s) ++ earlier ++ ms ++ later /\ told_of_dropped t about_no_longer ms.
Proof. exact c133. Qed.
Print Assumptions C133_converted.
Theorem C133_one_result : forall E root a b, about_renewed E root a -> about_renewed E root b -> a = b.
Proof. exact about_one. Qed.
Print Assumptions C133_one_result.
Definition about_recipe : list string :=
  ["{% set name = ""foo"" %}"; "package:"; "  name: {{ name }}"; "about:"; "  home: https://example.org"; "  license_family: MIT"; "  license: MIT"; "  doc_url: https://example.org/{{ name }}";
   "  summary: A package"; "  tags:"; "    - one"; "    - two"; "build:"; "  number: 0"]%string.
Example C133_example :
  let r := recipe_of (nl about_recipe) in
  let ctx := [($"name", JStr $"foo")] in
  let full := with_version (with_context ctx (r_root r)) in
  converted about_recipe
  = Ok (["schema_version: 1"; ""; "context:"; "  name: foo"; ""; "package:"; "  name: ${{ name }}"; ""; "build:"; "  number: 0"; "";
         "about:"; "  license: MIT"; "  summary: A package"; "  homepage: https://example.org"; "  documentation: https://example.org/${{ name }}"]%string, [],
        ["Field at `/about/license_family` is no longer supported."; "Field at `/about/tags` is no longer supported."]%string)
  /\ writes_version mini_env /\ writes_context mini_env ctx /\ r_sel r = [] /\ NoDup (map fst (r_vars r)) /\ entries_for (r_vars r) ctx
  /\ proper_tree (r_root r) = true /\ comments_have_paths mini_env (r_root r)
  /\ addressable_document full = true /\ expressions_fit mini_env full
  /\ exists t t', renewed full t /\ old_only_in_about t /\ about_fine mini_env (find_closest_license_match (t_close plain_tools) (t_licenses plain_tools)) t /\ readable_parts mini_env t
     /\ about_in_order t /\ about_renewed mini_env t t'
     /\ get_value mini_env t $"/context" (Some (JDict [])) None = Ok (JDict [(PStr $"name", JStr $"foo")]).
Proof.
  cbv zeta. split; [vm_compute; reflexivity|]. split; [vm_compute; reflexivity|]. split; [vm_compute; reflexivity|]. split; [vm_compute; reflexivity|].
  split; [vm_compute; repeat constructor; cbn [In]; intuition discriminate|]. split.
  { match goal with |- entries_for ?v _ => assert (v = [($"name", JStr $"foo")]) as -> by (vm_compute; reflexivity) end.
    unfold entries_for. cbn [filter supported snd]. pose proof (context_value_spec (JStr $"foo")) as (_ & A).
    apply Forall2_cons; [split; [reflexivity|assumption]|]. apply Forall2_nil. }
  split; [vm_compute; reflexivity|]. split; [apply paths_checked; vm_compute; reflexivity|].
  match goal with |- addressable_document ?f = true /\ _ => set (full := f) end.
  assert (addressable_document full = true) as AD by (vm_compute; reflexivity). assert (expressions_fit mini_env full) as XF by (apply fit_checked; vm_compute; reflexivity).
  split; [exact AD|]. split; [exact XF|]. pose (t := renew full (fun _ => true)). exists t.
  pose (a := nth 1 (n_children t) (root_node [])).
  pose (line := fun d v => match generate_subtree mini_env (JDict [(PStr d, v)]) with Ok l => l | Err _ => [] end).
  pose (news := [line $"homepage" (JStr $"https://example.org"); []; line $"documentation" (JStr $"https://example.org/${{ name }}")]).
  exists (with_lines t (firstn 1 (n_children t) ++ with_lines a (filter (fun x => negb (AboutProofs4.is_old x)) (n_children a) ++ concat news) :: skipn 2 (n_children t))).
  split; [apply renew_all; intros p x; exact (fit_hot mini_env full p x AD XF)|]. split; [apply only_about_checked; vm_compute; reflexivity|]. split.
  { intros _. split; [exists $"MIT"; split; vm_compute; reflexivity|]. intros l H. vm_compute in H. discriminate. }
  split.
  { split; [|intros _; exists (JStr $"A package"); vm_compute; reflexivity]. intros H. apply has_top_iff in H. vm_compute in H. discriminate. }
  split; [apply about_order_checked; vm_compute; reflexivity|]. split; [|vm_compute; reflexivity].
  exists (firstn 1 (n_children t)), a, (skipn 2 (n_children t)), (filter (fun x => negb (AboutProofs4.is_old x)) (n_children a)), news.
  split; [vm_compute; reflexivity|]. split; [vm_compute; reflexivity|]. split.
  { intros x I C. apply is_called_iff in C. assert (existsb (is_called $"about") (firstn 1 (n_children t) ++ skipn 2 (n_children t)) = true) as X by (apply existsb_exists; exists x; split; [exact I|exact C]).
    vm_compute in X. discriminate. }
  split; [apply kept_filter|]. split; [|reflexivity]. unfold about_new_names, news.
  assert (forall c, has_section_line $"about" c t = true -> section_line $"about" c t) as SL.
  { intros c H. apply existsb_exists in H as (b & I & H). apply andb_prop in H as (B & H). apply existsb_exists in H as (x & J & H). exists b, x. split; [exact I|]. split; [apply called_iff; exact B|]. split; [exact J|apply called_iff; exact H]. }
  constructor; [|constructor; [|constructor; [|constructor]]].
  - apply (this_line mini_env t $"home" $"homepage" (JStr $"https://example.org") (hd (root_node []) (line $"homepage" (JStr $"https://example.org"))));
      [apply SL; vm_compute; reflexivity|vm_compute; reflexivity..].
  - apply no_line. intros H. apply has_section_line_iff in H. vm_compute in H. discriminate.
  - apply (this_line mini_env t $"doc_url" $"documentation" (JStr $"https://example.org/${{ name }}") (hd (root_node []) (line $"documentation" (JStr $"https://example.org/${{ name }}"))));
      [apply SL; vm_compute; reflexivity|vm_compute; reflexivity..].
Qed.

(** The comment beside a renamed field is dropped, which is reported. *)
Example C133_comment :
  converted ["about:"; "  home: https://example.org  # moved"; "  license: MIT  # checked"; "  summary: A package"]%string
  = Ok (["schema_version: 1"; ""; "about:"; "  license: MIT  # checked"; "  summary: A package"; "  homepage: https://example.org"]%string, [],
        ["Could not relocate comment: # moved"]%string).
Proof. vm_compute. reflexivity. Qed.
(** Without [about_in_order]: of two fields with the same old name the second one stays. *)
Theorem C133_repeated_refuted : exists text, text = ["about:"; "  license: MIT"; "  tags: x"; "  home: https://example.org"; "  tags: y"; "  home: https://other.org"; "  summary: A package"]%string
  /\ converted text
     = Ok (["schema_version: 1"; ""; "about:"; "  license: MIT"; "  tags: y"; "  home: https://other.org"; "  summary: A package"; "  homepage: https://example.org"]%string, [],
           ["Field at `/about/tags` is no longer supported."]%string).
Proof. eexists. split; [reflexivity|]. vm_compute. reflexivity. Qed.
Print Assumptions C133_repeated_refuted.
