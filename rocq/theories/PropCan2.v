(** C136: the context step and the whole conversion do exactly what is described. *)
From Verif Require Import CommentPathProofs CanProofs5 ContextProofs GoesProofs Samples MiniYaml PropConvert PropCan PropPhase SectionSpec ContextSpec GoesSpec PhaseSpec CanSpec.

Theorem C136_context : forall T s w', reads_proper (t_env T) -> (forall l x, In x (t_order T l) -> In x l) ->
  proper_tree (r_root (v1 s)) = true -> NoDup (map fst (r_vars (v1 s))) ->
  ((exists s', without_errors (upgrade_jinja_to_context_obj T) s tt s' /\ view s' = w')
   <-> context_upgraded (t_env T) (t_order T) (r_vars (v1 s)) (view s) w').
Proof. intros T s w' HE HO. exact (context_exactly T HE HO s w'). Qed.
Print Assumptions C136_context.

(** The whole conversion, from the recipe after the selectors (C91) to the text. *)
Theorem C136_conversion : forall T s text root warnings, reads_proper (t_env T) -> (forall l x, In x (t_order T l) -> In x l) ->
  proper_tree (r_root (v1 s)) = true -> NoDup (map fst (r_vars (v1 s))) -> comments_have_paths (t_env T) (r_root (v1 s)) ->
  ((exists s', without_errors (render_to_v1 T) s text s' /\ r_root (v1 s') = root /\ get_messages WARNING (msgs s') = warnings)
   <-> exists s1, without_errors (upgrade_selectors_to_conditionals T) s tt s1
         /\ conversion (t_env T) (t_order T) (find_closest_license_match (t_close T) (t_licenses T)) (r_vars (v1 s)) (r_root (v1 s)) (view s1) root warnings
         /\ text = join NLs (render_lines (t_env T) root)).
Proof. exact conversion_exactly. Qed.
Print Assumptions C136_conversion.
(** Without selectors there is nothing to do before. *)
Theorem C136_no_selectors : forall T s text root warnings, reads_proper (t_env T) -> (forall l x, In x (t_order T l) -> In x l) ->
  proper_tree (r_root (v1 s)) = true -> NoDup (map fst (r_vars (v1 s))) -> comments_have_paths (t_env T) (r_root (v1 s)) -> r_sel (v1 s) = [] ->
  ((exists s', without_errors (render_to_v1 T) s text s' /\ r_root (v1 s') = root /\ get_messages WARNING (msgs s') = warnings)
   <-> conversion (t_env T) (t_order T) (find_closest_license_match (t_close T) (t_licenses T)) (r_vars (v1 s)) (r_root (v1 s)) (view s) root warnings
       /\ text = join NLs (render_lines (t_env T) root)).
Proof. exact conversion_plain. Qed.
Print Assumptions C136_no_selectors.
(** For a recipe that was read from a text, with selectors that can become conditions. *)
Theorem C136_from_a_text : forall T text0 r m, let E := t_env T in let s := {| v1 := r; msgs := m |} in
  reads_proper E -> (forall l x, In x (t_order T l) -> In x l) ->
  new_recipe E text0 = Ok r -> addressable_document (r_root r) = true -> ready E (r_root r) ->
  exists s1, upgrade_selectors_to_conditionals T s = (Ok tt, s1) /\ conditions_made E (r_root r) (r_root (v1 s1))
  /\ get_messages WARNING (msgs s1) = get_messages WARNING m ++ selector_reports E (r_root r)
  /\ forall text root warnings,
     (exists s', without_errors (render_to_v1 T) s text s' /\ r_root (v1 s') = root /\ get_messages WARNING (msgs s') = warnings)
     <-> conversion E (t_order T) (find_closest_license_match (t_close T) (t_licenses T)) (r_vars r) (r_root r) (view s1) root warnings
         /\ text = join NLs (render_lines E root).
Proof. exact conversion_of_read_text. Qed.
Print Assumptions C136_from_a_text.
(** The recipe of [C91_example] is one. *)
Example C136_example_selectors : reads_proper mini_env
  /\ (exists text r, new_recipe mini_env text = Ok r /\ r = cond_recipe) /\ addressable_document (r_root cond_recipe) = true /\ ready mini_env (r_root cond_recipe).
Proof.
  split; [exact mini_proper|]. split; [eexists _, _; split; [|reflexivity]; unfold cond_recipe, recipe_of; match goal with |- _ = Ok match new_recipe mini_env ?t with Ok _ => _ | Err _ => _ end =>
    instantiate (1 := t); destruct (new_recipe mini_env t) as [r|e] eqn:Q; [reflexivity|exfalso; vm_compute in Q; discriminate Q] end|]. split; [vm_compute; reflexivity|].
  exact C91_example_ready.
Qed.
Theorem C136_one_outcome : forall T s root1 root2 warnings1 warnings2, reads_proper (t_env T) -> (forall l x, In x (t_order T l) -> In x l) ->
  proper_tree (r_root (v1 s)) = true -> NoDup (map fst (r_vars (v1 s))) ->
  conversion (t_env T) (t_order T) (find_closest_license_match (t_close T) (t_licenses T)) (r_vars (v1 s)) (r_root (v1 s)) (view s) root1 warnings1 ->
  conversion (t_env T) (t_order T) (find_closest_license_match (t_close T) (t_licenses T)) (r_vars (v1 s)) (r_root (v1 s)) (view s) root2 warnings2 ->
  root1 = root2 /\ warnings1 = warnings2.
Proof. intros T s root1 root2 w1 w2 HE HO HP ND. exact (conversion_once T s (view s) root1 root2 w1 w2 HE HO HP ND eq_refl). Qed.
Print Assumptions C136_one_outcome.

(** A recipe with variables that has an outcome; outputs that are a number have none. *)
Definition with_context : list string :=
  ["{% set name = 'abc' %}"; "{% set v = '1.2.3' %}"; "package:"; "  name: '{{ name|lower }}'"; "  version: '{{ v }}'"; "about:"; "  home: h"; "  license: MIT  # checked"; "  tags: t"]%string.
Definition bad_outputs : list string := ["package:"; "  name: a"; "outputs: 5"]%string.
Lemma plain_order : forall l x, In x (t_order plain_tools l) -> In x l.
Proof. exact (fun _ _ H => H). Qed.
Example C136_example : reads_proper (t_env plain_tools) /\ (forall l x, In x (t_order plain_tools l) -> In x l)
  /\ (exists root warnings, conversion mini_env (t_order plain_tools) (find_closest_license_match (t_close plain_tools) (t_licenses plain_tools))
        (r_vars (v1 (state_of with_context))) (r_root (v1 (state_of with_context))) (view (state_of with_context)) root warnings
      /\ map pr (render_lines mini_env root)
         = ["schema_version: 1"; ""; "context:"; "  name: abc"; "  v: 1.2.3"; ""; "package:"; "  name: ${{ name|lower }}"; "  version: ${{ v }}"; "";
            "about:"; "  license: MIT  # checked"; "  homepage: h"; ""]%string
      /\ map pr warnings = ["Field at `/about/tags` is no longer supported."]%string)
  /\ (forall root warnings, ~ conversion mini_env (t_order plain_tools) (find_closest_license_match (t_close plain_tools) (t_licenses plain_tools))
        (r_vars (v1 (state_of bad_outputs))) (r_root (v1 (state_of bad_outputs))) (view (state_of bad_outputs)) root warnings).
Proof.
  pose proof mini_proper as HM.
  assert (forall l, proper_tree (r_root (v1 (state_of l))) = true -> NoDup (map fst (r_vars (v1 (state_of l)))) -> paths_check mini_env (r_root (v1 (state_of l))) = true ->
    r_sel (v1 (state_of l)) = [] -> forall text root warnings,
    (exists s', without_errors (render_to_v1 plain_tools) (state_of l) text s' /\ r_root (v1 s') = root /\ get_messages WARNING (msgs s') = warnings)
   <-> conversion mini_env (t_order plain_tools) (find_closest_license_match (t_close plain_tools) (t_licenses plain_tools))
         (r_vars (v1 (state_of l))) (r_root (v1 (state_of l))) (view (state_of l)) root warnings
       /\ text = join NLs (render_lines mini_env root)) as K.
  { intros l H1 H2 H3 H4 text root warnings. apply (C136_no_selectors plain_tools); auto using plain_order. apply paths_checked, H3. }
  split; [exact HM|]. split; [exact plain_order|]. split.
  - set (run := render_to_v1 plain_tools (state_of with_context)).
    exists (r_root (v1 (snd run))), (get_messages WARNING (msgs (snd run))).
    assert (exists text, fst run = Ok text) as (text & F) by (eexists; vm_compute; reflexivity).
    split; [|split; vm_compute; reflexivity].
    refine (proj1 (proj1 (K with_context _ _ _ _ text _ _) (ex_intro _ (snd run) (conj (conj _ _) (conj eq_refl eq_refl))))); try (vm_compute; reflexivity).
    + match goal with |- NoDup ?l => let l' := eval vm_compute in l in change l with l' end. repeat constructor; cbn [In]; intuition discriminate.
    + rewrite <- F. apply surjective_pairing.
  - intros root warnings H. assert (NoDup (map fst (r_vars (v1 (state_of bad_outputs))))) as ND by (vm_compute; constructor).
    destruct (proj2 (K bad_outputs eq_refl ND eq_refl eq_refl _ root warnings) (conj H eq_refl)) as (s' & (M & _) & _).
    assert (fst (render_to_v1 plain_tools (state_of bad_outputs)) = Err EType) as F by (vm_compute; reflexivity). rewrite M in F. discriminate F.
Qed.
