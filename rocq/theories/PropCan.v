(** C135: the section upgrades do exactly what C92 to C97 describe: whenever the description allows an outcome, the upgrade ends
    without an error, with this outcome and no other. *)
From Verif Require Import CanProofs4 ContextProofs Samples MiniYaml PropConvert SectionSpec.

Theorem C135_misspellings : forall T bases s w', reads_proper (t_env T) -> Forall (Forall component) bases ->
  proper_tree (r_root (v1 s)) = true ->
  ((exists s', without_errors (correct_common_misspellings T (map base_text bases)) s tt s' /\ view s' = w')
   <-> for_each (misspellings_corrected (t_env T)) bases (view s) w').
Proof. intros T bases s w' HE HB HP. exact (exactly _ _ s w' (misspellings T HE bases HB) (can_misspellings T HE bases HB) HP). Qed.
Print Assumptions C135_misspellings.
Theorem C135_sources : forall T bases s w', reads_proper (t_env T) -> Forall (Forall component) bases ->
  proper_tree (r_root (v1 s)) = true ->
  ((exists s', without_errors (upgrade_source_section T (map base_text bases)) s tt s' /\ view s' = w')
   <-> for_each (sources_upgraded (t_env T)) bases (view s) w').
Proof. intros T bases s w' HE HB HP. exact (exactly _ _ s w' (SectionProofs2.sources T HE bases HB) (can_sources T HE bases HB) HP). Qed.
Print Assumptions C135_sources.
Theorem C135_build : forall T bases s w', reads_proper (t_env T) -> Forall (Forall component) bases ->
  proper_tree (r_root (v1 s)) = true ->
  ((exists s', without_errors (upgrade_build_section T (map base_text bases)) s tt s' /\ view s' = w')
   <-> for_each (build_upgraded (t_env T)) bases (view s) w').
Proof. intros T bases s w' HE HB HP. exact (exactly _ _ s w' (SectionProofs3.build T HE bases HB) (can_build T HE bases HB) HP). Qed.
Print Assumptions C135_build.
Theorem C135_requirements : forall T bases s w', reads_proper (t_env T) -> Forall (Forall component) bases ->
  proper_tree (r_root (v1 s)) = true ->
  ((exists s', without_errors (upgrade_requirements_section T (map base_text bases)) s tt s' /\ view s' = w')
   <-> for_each (requirements_upgraded (t_env T)) bases (view s) w').
Proof. intros T bases s w' HE HB HP. exact (exactly _ _ s w' (SectionProofs3.requirements T HE bases HB) (can_requirements T HE bases HB) HP). Qed.
Print Assumptions C135_requirements.
Theorem C135_about : forall T bases s w', reads_proper (t_env T) -> Forall (Forall component) bases ->
  proper_tree (r_root (v1 s)) = true ->
  ((exists s', without_errors (upgrade_about_section T (map base_text bases)) s tt s' /\ view s' = w')
   <-> for_each (about_upgraded (t_env T) (find_closest_license_match (t_close T) (t_licenses T))) bases (view s) w').
Proof. intros T bases s w' HE HB HP. exact (exactly _ _ s w' (SectionProofs3.about T HE bases HB) (can_about T HE bases HB) HP). Qed.
Print Assumptions C135_about.
Theorem C135_tests : forall T bases s w', reads_proper (t_env T) -> Forall (Forall component) bases ->
  proper_tree (r_root (v1 s)) = true ->
  ((exists s', without_errors (upgrade_test_section T (map base_text bases)) s tt s' /\ view s' = w')
   <-> for_each (tests_upgraded (t_env T)) bases (view s) w').
Proof. intros T bases s w' HE HB HP. exact (exactly _ _ s w' (SectionProofs4.tests T HE bases HB) (can_tests T HE bases HB) HP). Qed.
Print Assumptions C135_tests.
Theorem C135_outputs : forall T outputs s w', reads_proper (t_env T) -> Forall (Forall component) outputs -> Forall (fun o => o <> []) outputs ->
  proper_tree (r_root (v1 s)) = true ->
  ((exists s', without_errors (upgrade_multi_output T (map base_text ([] :: outputs))) s tt s' /\ view s' = w')
   <-> outputs_upgraded (t_env T) outputs (view s) w').
Proof. intros T outs s w' HE HB HN HP. exact (exactly _ _ s w' (SectionProofs4.outputs T HE outs HB HN) (can_outputs T HE outs HB HN) HP). Qed.
Print Assumptions C135_outputs.

(** All sections, one after the other. *)
Theorem C135_sections : forall T n s w', reads_proper (t_env T) -> proper_tree (r_root (v1 s)) = true ->
  let bases := map base_text ([] :: outputs_of n) in
  ((exists s', without_errors
      (do! correct_common_misspellings T bases in
       do! upgrade_source_section T bases in
       do! upgrade_build_section T bases in
       do! upgrade_requirements_section T bases in
       do! upgrade_about_section T bases in
       do! upgrade_test_section T bases in
       upgrade_multi_output T bases) s tt s' /\ view s' = w')
   <-> sections_upgraded (t_env T) (find_closest_license_match (t_close T) (t_licenses T)) (outputs_of n) (view s) w').
Proof. intros T n s w' HE HP. exact (exactly _ _ s w' (SectionProofs4.sections T HE n) (can_sections T HE n) HP). Qed.
Print Assumptions C135_sections.
(** The description leaves no choice. *)
Theorem C135_one_outcome : forall T n s w1 w2, reads_proper (t_env T) -> proper_tree (r_root (v1 s)) = true ->
  sections_upgraded (t_env T) (find_closest_license_match (t_close T) (t_licenses T)) (outputs_of n) (view s) w1 ->
  sections_upgraded (t_env T) (find_closest_license_match (t_close T) (t_licenses T)) (outputs_of n) (view s) w2 -> w1 = w2.
Proof. intros T n s w1 w2 HE HP. exact (once_only _ _ s w1 w2 (can_sections T HE n) HP). Qed.
Print Assumptions C135_one_outcome.

(** A recipe for which there is an outcome, and one for which there is none: a license that is a number. *)
Definition state_of (l : list string) : cstate := {| v1 := recipe_of (nl l); msgs := new_table |}.
Definition some_about : list string :=
  ["build:"; "  no_link: b"; "  script_env:"; "    - A=1"; "about:"; "  home: h"; "  license: MIT"; "  tags: t"; "test:"; "  commands:"; "    - pip check"]%string.
Definition bad_about : list string := ["about:"; "  home: h"; "  license: 5"]%string.
Example C135_example : reads_proper (t_env plain_tools) /\ proper_tree (r_root (v1 (state_of some_about))) = true
  /\ proper_tree (r_root (v1 (state_of bad_about))) = true
  /\ (exists w', sections_upgraded (t_env plain_tools) (find_closest_license_match (t_close plain_tools) (t_licenses plain_tools)) [] (view (state_of some_about)) w'
      /\ map pr (snd w') = ["Field at `/about/tags` is no longer supported."]%string)
  /\ (forall w', ~ sections_upgraded (t_env plain_tools) (find_closest_license_match (t_close plain_tools) (t_licenses plain_tools)) [] (view (state_of bad_about)) w').
Proof.
  pose proof mini_proper as HM. assert (proper_tree (r_root (v1 (state_of some_about))) = true) as P1 by (vm_compute; reflexivity).
  assert (proper_tree (r_root (v1 (state_of bad_about))) = true) as P2 by (vm_compute; reflexivity).
  split; [exact HM|]. split; [exact P1|]. split; [exact P2|].
  pose proof (fun w' => C135_sections plain_tools 0 (state_of some_about) w' HM P1) as K1.
  pose proof (fun w' => C135_sections plain_tools 0 (state_of bad_about) w' HM P2) as K2. cbv zeta in K1, K2.
  set (run := do! _ in _) in K1, K2. split.
  - exists (view (snd (run (state_of some_about)))). split; [apply K1; eexists; split; [|reflexivity]|vm_compute; reflexivity].
    split; [|vm_compute; reflexivity]. rewrite (surjective_pairing (run (state_of some_about))) at 1. f_equal.
  - intros w' H. apply K2 in H as (s' & (M & G) & _). assert (fst (run (state_of bad_about)) = Err EAttr) as F by (vm_compute; reflexivity).
    rewrite M in F. discriminate F.
Qed.
