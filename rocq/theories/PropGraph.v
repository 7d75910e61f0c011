(** Property theorems: build configuration files and recipe graphs (C51-C53). *)
From Verif Require Import Samples GraphProofs.
From Verif Require Import GraphSpec PropDeps.

(** ** C51 *)
Theorem C51_first_applicable_value : forall c variable q default entries,
  assoc_prim (PStr variable) (cbc_vars c) = Some entries ->
  (forall v, first_fitting q entries v -> get_cbc_variable_value c variable q default = Ok v)
  /\ ((forall e, In e entries -> ~ fits q e) ->
      get_cbc_variable_value c variable q default = match default with Some d => Ok d | None => Err EValue end).
Proof. exact c51_value. Qed.
Print Assumptions C51_first_applicable_value.
Theorem C51_unknown_variable : forall c variable q default, (forall es, ~ In (PStr variable, es) (cbc_vars c)) ->
  get_cbc_variable_value c variable q default = match default with Some d => Ok d | None => Err EKey end.
Proof. exact c51_unknown. Qed.
Print Assumptions C51_unknown_variable.
Theorem C51_default_never_fails : forall c variable q d, exists v, get_cbc_variable_value c variable q (Some d) = Ok v.
Proof. exact c51_default. Qed.
Print Assumptions C51_default_never_fails.
(** The table: every list of the file, in order, each value with the selector of its line. *)
Theorem C51_table_of_the_file : forall E r d c,
  get_value E (r_root r) $"/" None None = Ok (JDict d) -> distinct_names (map fst d) ->
  cbc_of_recipe E r = Ok c -> variables_of r d (cbc_vars c).
Proof. exact c51_table. Qed.
Print Assumptions C51_table_of_the_file.
Definition cbc_text : list string := [
  "python:"; "  - 3.9  # [win]"; "  - 3.10  # [unix]"; "  - 3.11"; "numpy:"; "  - 1.22  # [osx]"; "zip_keys:"; "  - python"; "c_version: 3"
]%string.
Definition looked_up (text : list string) (variable : string) (p : option platform) (default : option json) : res json :=
  let! c := cbc_parser mini_env (nl text) in get_cbc_variable_value c (lit variable) p default.
Example C51_example :
  looked_up cbc_text "python" (Some LINUX_64) None = Ok (JFloat $"3.1")
  /\ looked_up cbc_text "python" (Some WIN_64) None = Ok (JFloat $"3.9")
  /\ looked_up cbc_text "numpy" (Some LINUX_64) None = Err EValue
  /\ looked_up cbc_text "numpy" (Some LINUX_64) (Some JNull) = Ok JNull
  /\ looked_up cbc_text "c_version" (Some LINUX_64) None = Err EKey.
Proof. repeat split; vm_compute; reflexivity. Qed.
(** A variable that is written twice: the values are those of the second list, the selectors those of the first. *)
Theorem C51_repeated_variable_refuted : exists text,
  text = ["python:"; "  - 3.8  # [osx]"; "python:"; "  - 3.9"]%string
  /\ looked_up text "python" (Some OSX_64) None = Ok (JFloat $"3.9") /\ looked_up text "python" (Some LINUX_64) None = Err EValue.
Proof. eexists. split; [reflexivity|]. split; vm_compute; reflexivity. Qed.
Print Assumptions C51_repeated_variable_refuted.

(** ** C52 *)
Theorem C52_first_definition_owns_the_name : forall cache failed n sha,
  In (n, sha) (g_names (new_graph cache failed)) <-> exists d, first_definition cache d /\ def_name d = n /\ def_recipe d = sha.
Proof. exact c52_owners. Qed.
Print Assumptions C52_first_definition_owns_the_name.
Theorem C52_known_packages : forall cache failed p, contains_package_name p (new_graph cache failed) = true
  <-> exists d, In d (definitions cache) /\ def_name d = PStr p.
Proof. exact c52_contains. Qed.
Print Assumptions C52_known_packages.
Theorem C52_duplicates : forall cache failed n,
  (exists x, In x (st_duplicates (g_stats (new_graph cache failed))) /\ same_name x n) <-> defined_twice cache n.
Proof. exact c52_duplicates. Qed.
Print Assumptions C52_duplicates.
Theorem C52_build_edges : forall cache failed n t,
  In (n, t) (g_build (new_graph cache failed))
  <-> exists d, first_definition cache d /\ def_name d = n /\ lists_dep build_section (def_deps d) t.
Proof. exact c52_build. Qed.
Print Assumptions C52_build_edges.
Theorem C52_test_edges : forall cache failed n t,
  In (n, t) (g_test (new_graph cache failed))
  <-> exists d, first_definition cache d /\ def_name d = n /\ lists_dep test_section (def_deps d) t.
Proof. exact c52_test. Qed.
Print Assumptions C52_test_edges.
Definition files_of (l : list (string * list string)) : list recipe_file :=
  map (fun x => {| rf_path := lit (fst x); rf_content := Some (nl (snd x)) |}) l.
Definition graph_of (l : list (string * list string)) : graph := graph_from_disk mini_env mini_spec (fun t => t) (files_of l).
Definition two_recipes : list (string * list string) :=
  [("a/meta.yaml", ["package:"; "  name: foo"; "requirements:"; "  host:"; "    - python"; "  run:"; "    - numpy >1"]);
   ("b/meta.yaml", ["package:"; "  name: foo"; "requirements:"; "  host:"; "    - cmake"]);
   ("c/meta.yaml", ["package:"; "  name: bar"; "requirements:"; "  build:"; "    - {{ compiler('c') }}"])]%string.
Example C52_example :
  map fst (g_names (graph_of two_recipes)) = [PStr $"foo"; PStr $"bar"]
  /\ g_build (graph_of two_recipes) = [(PStr $"foo", $"python"); (PStr $"bar", $"${{ compiler('c') }}")]
  /\ g_test (graph_of two_recipes) = [(PStr $"foo", $"numpy")]
  /\ st_duplicates (g_stats (graph_of two_recipes)) = [PStr $"foo"].
Proof. repeat split; vm_compute; reflexivity. Qed.
(** Not every end of an edge is a package name: a template stands for itself. *)
Theorem C52_template_as_node_refuted : exists l, In (PStr $"bar", $"${{ compiler('c') }}") (g_build (graph_of l)).
Proof. exists two_recipes. vm_compute. right. left. reflexivity. Qed.
Print Assumptions C52_template_as_node_refuted.

(** ** C53 *)
Theorem C53_packages : forall cache failed,
  st_packages (g_stats (new_graph cache failed)) = length (g_names (new_graph cache failed))
  /\ distinct_names (map fst (g_names (new_graph cache failed))).
Proof. intros cache failed. split; [exact (c53_packages cache failed)|exact (c52_once cache failed)]. Qed.
Print Assumptions C53_packages.
Theorem C53_recipes : forall cache failed, NoDup (map fst cache) -> let s := g_stats (new_graph cache failed) in
  st_failed s = failed /\ st_parsed s = length cache /\ st_recipes s = length cache + length failed
  /\ NoDup (dkeys (st_failed_deps s)) /\ (forall sha, In sha (dkeys (st_failed_deps s)) <-> unreadable_deps cache sha).
Proof. exact new_graph_stats. Qed.
Print Assumptions C53_recipes.
Theorem C53_from_disk : forall E MS hash files, let s := g_stats (graph_from_disk E MS hash files) in
  st_recipes s = st_parsed s + length (st_failed s)
  /\ NoDup (st_failed s) /\ (forall p, In p (st_failed s) <-> exists f, In f files /\ fails E f /\ rf_path f = p)
  /\ NoDup (dkeys (st_failed_deps s)) /\ st_recipes s <= length files.
Proof. exact c53_from_disk. Qed.
Print Assumptions C53_from_disk.
(** Every file is counted when no two recipes have the same digest (and no two files the same path). *)
Theorem C53_every_distinct_file : forall E MS hash files,
  NoDup (map (fun f => fst (read_and_parse E hash f)) files) ->
  st_recipes (g_stats (graph_from_disk E MS hash files)) = length files.
Proof. exact c53_all_files. Qed.
Print Assumptions C53_every_distinct_file.
(** Two files with the same content are counted as one recipe. *)
Theorem C53_identical_files_refuted : exists l,
  NoDup (map fst l) /\ length l = 2 /\ st_recipes (g_stats (graph_of l)) = 1.
Proof.
  exists [("a/meta.yaml", ["package:"; "  name: foo"]); ("b/meta.yaml", ["package:"; "  name: foo"])]%string.
  split; [|split; vm_compute; reflexivity]. constructor; [|constructor; [intros []|constructor]]. intros [H|[]]. discriminate.
Qed.
Print Assumptions C53_identical_files_refuted.
Example C53_example :
  let s := g_stats (graph_from_disk mini_env mini_spec (fun t => t)
    ({| rf_path := $"x"; rf_content := None |} :: files_of two_recipes)) in
  (st_recipes s, st_parsed s, st_failed s, st_packages s) = (4, 3, [$"x"], 2).
Proof. vm_compute. reflexivity. Qed.
