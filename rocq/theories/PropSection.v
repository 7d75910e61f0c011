(** C92 to C100: what the section upgrades and the context step of the conversion do; what a search returns. *)
From Verif Require Import ContextProofs Samples MiniYaml PropConvert SectionSpec ContextSpec.

(** ** C92 *)
Theorem C92_misspellings : forall T bases s s', reads_proper (t_env T) -> Forall (Forall component) bases ->
  proper_tree (r_root (v1 s)) = true -> without_errors (correct_common_misspellings T (map base_text bases)) s tt s' ->
  for_each (misspellings_corrected (t_env T)) bases (view s) (view s') /\ same_but_tree (v1 s) (v1 s').
Proof. intros T bases s s' HE HB HP H. exact (from_does _ _ s s' (misspellings T HE bases HB) HP H). Qed.
Print Assumptions C92_misspellings.
Example C92_example :
  converted ["build:"; "  number: 0"; "  skips: foo"; "extras:"; "  bar: x"]%string
    = Ok (["schema_version: 1"; ""; "build:"; "  number: 0"; "  skip: foo"; ""; "extra:"; "  bar: x"]%string, [], []).
Proof. vm_compute. reflexivity. Qed.
(** A value that already stands under the new name is lost, without a word. *)
Theorem C92_other_values_stay_refuted : exists l new, converted l = Ok (new, [], [])
  /\ In "  homepage: b"%string l /\ ~ In "  homepage: b"%string new /\ In "  homepage: a"%string new.
Proof.
  exists ["about:"; "  home: a"; "  homepage: b"; "  license: MIT"]%string, ["schema_version: 1"; ""; "about:"; "  homepage: a"; "  license: MIT"]%string.
  split; [vm_compute; reflexivity|]. cbn [In]. split; [tauto|]. split; [|tauto]. intuition discriminate.
Qed.
Print Assumptions C92_other_values_stay_refuted.
(** A key without value gets its own old name as its value. *)
Theorem C92_empty_key_refuted : converted ["about:"; "  home:"; "  license: MIT"]%string
  = Ok (["schema_version: 1"; ""; "about:"; "  license: MIT"; "  homepage: home"]%string, [], []).
Proof. vm_compute. reflexivity. Qed.
Print Assumptions C92_empty_key_refuted.

(** ** C93 *)
Theorem C93_sources : forall T bases s s', reads_proper (t_env T) -> Forall (Forall component) bases ->
  proper_tree (r_root (v1 s)) = true -> without_errors (upgrade_source_section T (map base_text bases)) s tt s' ->
  for_each (sources_upgraded (t_env T)) bases (view s) (view s') /\ same_but_tree (v1 s) (v1 s').
Proof. intros T bases s s' HE HB HP H. exact (from_does _ _ s s' (SectionProofs2.sources T HE bases HB) HP H). Qed.
Print Assumptions C93_sources.
Example C93_example :
  converted ["source:"; "  - git_url: x"; "    git_rev: y"; "    fn: z"; "  - svn_url: u"; "    folder: f"]%string
    = Ok (["schema_version: 1"; ""; "source:"; "  - git: x"; "    rev: y"; "    file_name: z"; "  - target_directory: f"; "    svn_url: u"]%string, [],
          ["SVN packages are no longer supported in the V1 format"]%string).
Proof. vm_compute. reflexivity. Qed.
(** A list element whose only key is renamed: an empty element is left behind, and nothing is reported. *)
Theorem C93_elements_stay_refuted : converted ["source:"; "  - git_url: x"; "  - url: y"]%string
  = Ok (["schema_version: 1"; ""; "source:"; "  - git: x"; "  -"; "  - url: y"]%string, [], []).
Proof. vm_compute. reflexivity. Qed.
Print Assumptions C93_elements_stay_refuted.
(** With a comment, the renamed key ends up in the next source. *)
Theorem C93_keys_stay_in_their_element_refuted : converted ["source:"; "  - git_url: x  # mirror"; "  - url: y"]%string
  = Ok (["schema_version: 1"; ""; "source:"; "  # mirror"; "  - url: y"; "    git: x"]%string, [],
        ["Could not relocate comment: # mirror"]%string).
Proof. vm_compute. reflexivity. Qed.
Print Assumptions C93_keys_stay_in_their_element_refuted.

(** ** C94 *)
Theorem C94_build : forall T bases s s', reads_proper (t_env T) -> Forall (Forall component) bases ->
  proper_tree (r_root (v1 s)) = true -> without_errors (upgrade_build_section T (map base_text bases)) s tt s' ->
  for_each (build_upgraded (t_env T)) bases (view s) (view s') /\ same_but_tree (v1 s) (v1 s').
Proof. intros T bases s s' HE HB HP H. exact (from_does _ _ s s' (SectionProofs3.build T HE bases HB) HP H). Qed.
Print Assumptions C94_build.
Theorem C94_requirements : forall T bases s s', reads_proper (t_env T) -> Forall (Forall component) bases ->
  proper_tree (r_root (v1 s)) = true -> without_errors (upgrade_requirements_section T (map base_text bases)) s tt s' ->
  for_each (requirements_upgraded (t_env T)) bases (view s) (view s') /\ same_but_tree (v1 s) (v1 s').
Proof. intros T bases s s' HE HB HP H. exact (from_does _ _ s s' (SectionProofs3.requirements T HE bases HB) HP H). Qed.
Print Assumptions C94_requirements.
Example C94_example :
  converted ["build:"; "  no_link: b"; "  number: 0"; "  run_exports:"; "    - foo"; "  entry_points:"; "    - x = y"; "  ignore_prefix_files: true";
             "  script_env:"; "    - FOO"; "    - A = 1"; "    - A=2"; "  script: make"; "  features: f"; "  missing_dso_whitelist:"; "    - w";
             "requirements:"; "  run_constrained:"; "    - q"]%string
  = Ok (["schema_version: 1"; ""; "build:"; "  number: 0"; "  script:"; "    env:"; "      A: 2"; "    secrets:"; "      - FOO";
         "    content: make"; "  always_copy_files: b"; "  python:"; "    entry_points:"; "      - x = y"; "  prefix_detection:"; "    ignore: true";
         "  dynamic_linking:"; "    missing_dso_allowlist:"; "      - w"; "";
         "requirements:"; "  run_exports:"; "    - foo"; "  run_constraints:"; "    - q"]%string,
        [], ["Field at `/build/features` is no longer supported."]%string).
Proof. vm_compute. reflexivity. Qed.

(** ** C95 *)
Theorem C95_about : forall T bases s s', reads_proper (t_env T) -> Forall (Forall component) bases ->
  proper_tree (r_root (v1 s)) = true -> without_errors (upgrade_about_section T (map base_text bases)) s tt s' ->
  for_each (about_upgraded (t_env T) (find_closest_license_match (t_close T) (t_licenses T))) bases (view s) (view s') /\ same_but_tree (v1 s) (v1 s').
Proof. intros T bases s s' HE HB HP H. exact (from_does _ _ s s' (SectionProofs3.about T HE bases HB) HP H). Qed.
Print Assumptions C95_about.
Example C95_example :
  converted ["about:"; "  home: h"; "  license: MIT License"; "  license_family: MIT"; "  summary:"; "    - a"; "    - b"; "  doc_url: d"]%string
  = Ok (["schema_version: 1"; ""; "about:"; "  license: MIT License"; "  summary: |"; "    a"; "    b"; "  homepage: h"; "  documentation: d"]%string, [],
        ["Could not patch unrecognized license: `MIT License`"; "Field at `/about/license_family` is no longer supported."]%string).
Proof. vm_compute. reflexivity. Qed.

(** ** C96 *)
Theorem C96_tests : forall T bases s s', reads_proper (t_env T) -> Forall (Forall component) bases ->
  proper_tree (r_root (v1 s)) = true -> without_errors (upgrade_test_section T (map base_text bases)) s tt s' ->
  for_each (tests_upgraded (t_env T)) bases (view s) (view s') /\ same_but_tree (v1 s) (v1 s').
Proof. intros T bases s s' HE HB HP H. exact (from_does _ _ s s' (SectionProofs4.tests T HE bases HB) HP H). Qed.
Print Assumptions C96_tests.
Example C96_example :
  converted ["requirements:"; "  host:"; "    - python"; "test:"; "  commands:"; "    - pip check"; "    - foo"; "  imports:"; "    - m";
             "  requires:"; "    - pip"; "  files:"; "    - f.txt"; "  source_files:"; "    - s.txt"; "  downstreams:"; "    - d"]%string
  = Ok (["schema_version: 1"; ""; "requirements:"; "  host:"; "    - python"; ""; "tests:"; "  - python:"; "      imports:"; "        - m";
         "      pip_check: true"; "  - downstream:"; "      - d"; "  - files:"; "      recipe:"; "        - f.txt"; "      source:"; "        - s.txt";
         "    requirements:"; "      run:"; "        - pip"; "    script:"; "      - foo"]%string, [], []).
Proof. vm_compute. reflexivity. Qed.
(** Python that is required with a version is not noticed: the installation check stays a command. *)
Theorem C96_versioned_python_refuted :
  converted ["requirements:"; "  host:"; "    - python >=3.8"; "test:"; "  commands:"; "    - pip check"]%string
  = Ok (["schema_version: 1"; ""; "requirements:"; "  host:"; "    - python >=3.8"; ""; "tests:"; "  - script:"; "      - pip check"]%string, [], []).
Proof. vm_compute. reflexivity. Qed.
Print Assumptions C96_versioned_python_refuted.
(** An empty test section becomes a test named after itself. *)
Theorem C96_empty_section_refuted : converted ["test:"]%string = Ok (["schema_version: 1"; ""; "tests:"; "  - test"]%string, [], []).
Proof. vm_compute. reflexivity. Qed.
Print Assumptions C96_empty_section_refuted.

(** ** C97 *)
Theorem C97_outputs : forall T outputs s s', reads_proper (t_env T) -> Forall (Forall component) outputs -> Forall (fun o => o <> []) outputs ->
  proper_tree (r_root (v1 s)) = true -> without_errors (upgrade_multi_output T (map base_text ([] :: outputs))) s tt s' ->
  outputs_upgraded (t_env T) outputs (view s) (view s') /\ same_but_tree (v1 s) (v1 s').
Proof. intros T outs s s' HE HB HN HP H. exact (from_does _ _ s s' (SectionProofs4.outputs T HE outs HB HN) HP H). Qed.
Print Assumptions C97_outputs.
Definition two_outputs : list string :=
  ["{% set name = ""top"" %}"; "package:"; "  name: {{ name }}"; "outputs:"; "  - name: one"; "    version: 1.0"; "    test:"; "      commands:";
   "        - foo"; "  - name: two"; "    build:"; "      no_link: x"]%string.
Example C97_example :
  converted two_outputs
  = Ok (["schema_version: 1"; ""; "context:"; "  name: top"; ""; "recipe:"; "  name: ${{ name }}"; ""; "outputs:"; "  - package:"; "      name: one";
         "      version: 1.0"; "    tests:"; "      - script:"; "          - foo"; "  - package:"; "      name: two"; "    build:";
         "      always_copy_files: x"]%string, [], []).
Proof. vm_compute. reflexivity. Qed.

(** ** C98 *)
Theorem C98_context : forall T s s', reads_proper (t_env T) -> proper_tree (r_root (v1 s)) = true -> NoDup (map fst (r_vars (v1 s))) ->
  without_errors (upgrade_jinja_to_context_obj T) s tt s' ->
  context_upgraded (t_env T) (t_order T) (r_vars (v1 s)) (view s) (view s') /\ same_but_tree (v1 s) (v1 s').
Proof. intros T s s' HE. exact (context_is T HE s s'). Qed.
Print Assumptions C98_context.
Example C98_example :
  converted ["{% set name = ""foo"" %}"; "{% set version = ""1.2"" %}"; "{% set short = version[0] %}"; "{% set all = "" "".join(x) %}"; "package:"; "  name: {{ name }}-{{ version }}";
             "  version: {{ short }}"]%string
  = Ok (["schema_version: 1"; ""; "context:"; "  name: foo"; "  version: 1.2"; "  short: ${{version[0]}}"; "  all: ""\"" \"".join(x)"""; ""; "package:";
         "  name: ${{ name }}-${{ version }}"; "  version: ${{ short }}"]%string, [],
        ["The following key(s) contain unsupported syntax: all"]%string).
Proof. vm_compute. reflexivity. Qed.

(** ** C99 *)
Theorem C99_search_exact : forall E rx with_comment root,
  search E rx with_comment root = map (path_at E root) (positions_where (fun n => terminal n && rx (searched_text with_comment n)) root).
Proof. exact search_is. Qed.
Print Assumptions C99_search_exact.
(** In a document whose values have usable paths each path that is found leads back to the place of a value that matches. *)
Theorem C99_search_results_resolve : forall E rx with_comment root, addressable_document root = true ->
  Forall2 (fun p s => addresses root s (owner root p) /\ contains_value root s = Ok true
                      /\ forall jp, get_value E root s None jp <> Err EKey)
    (positions_where (fun n => terminal n && rx (searched_text with_comment n)) root) (search E rx with_comment root).
Proof. exact search_resolves. Qed.
Print Assumptions C99_search_results_resolve.
Example C99_example :
  let root := r_root (recipe_of (nl ["foo:"; "  - bar"; "  - baz  # bar"; "qux: bar"]%string)) in
  addressable_document root = true
  /\ search mini_env (contains_sub $"bar") false root = [$"/foo/0"; $"/qux"]
  /\ search mini_env (contains_sub $"bar") true root = [$"/foo/0"; $"/foo/1"; $"/qux"].
Proof. vm_compute. auto. Qed.

(** ** C100 *)
(** A conversion without errors: the selectors (C91), the context (C98), all sections for the recipe and each of its outputs,
    and at last the order of the sections (C79). *)
Theorem C100_whole_conversion : forall T s text s', reads_proper (t_env T) -> proper_tree (r_root (v1 s)) = true ->
  NoDup (map fst (r_vars (v1 s))) -> without_errors (render_to_v1 T) s text s' -> exists s1 s2 s3 v n root,
  without_errors (upgrade_selectors_to_conditionals T) s tt s1
  /\ context_upgraded (t_env T) (t_order T) (r_vars (v1 s)) (view s1) (view s2)
  /\ get_value (t_env T) (r_root (v1 s2)) $"/outputs" (Some (JList [])) None = Ok v /\ json_len v = Ok n
  /\ sections_upgraded (t_env T) (find_closest_license_match (t_close T) (t_licenses T)) (outputs_of n) (view s2) (view s3)
  /\ sort_subtree_keys (r_root (v1 s3)) $"/" TOP_LEVEL_SORT [] = Ok root /\ r_root (v1 s') = root
  /\ text = render (t_env T) (v1 s').
Proof. exact whole_conversion. Qed.
Print Assumptions C100_whole_conversion.
(** The hypotheses hold, and the conversion of [C97_example] reports no error. *)
Example C100_example :
  reads_proper (t_env plain_tools) /\ proper_tree (r_root (recipe_of (nl two_outputs))) = true
  /\ NoDup (map fst (r_vars (recipe_of (nl two_outputs))))
  /\ exists out warnings, converted two_outputs = Ok (out, [], warnings) /\ In "  - package:"%string out.
Proof.
  split; [exact mini_proper|]. split; [vm_compute; reflexivity|]. split.
  - match goal with |- NoDup ?l => let l' := eval vm_compute in l in change l with l' end. repeat constructor. intros [].
  - eexists _, _. split; [exact C97_example|]. cbn [In]. tauto.
Qed.
