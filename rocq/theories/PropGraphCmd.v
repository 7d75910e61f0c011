(** Property theorems: plots of the dependency graph and the menu of the graph command (C102, C103). *)
From Verif Require Import Samples GraphCmdProofs GraphCmdProofs2 PropGraph PropDeps.
From Verif Require Import GraphCmdSpec.

(** ** C102 *)
(** A plot of a package shows the package and all that can be reached from it, along the direction, and nothing else. *)
Theorem C102_plot_of_a_package : forall cache failed L, searches L -> forall gt dir p,
  (connected cache gt (PStr p) -> exists nodes, plot L gt dir (Some p) (new_graph cache failed) = Ok nodes
     /\ forall x, In x nodes <-> clos_refl_trans _ (toward cache gt dir) (PStr p) x)
  /\ (~ connected cache gt (PStr p) -> exists e, plot L gt dir (Some p) (new_graph cache failed) = Err e).
Proof. exact plot_of_package. Qed.
Print Assumptions C102_plot_of_a_package.
(** The plot of everything shows the packages that need something or are needed (names that Python takes for equal are one node). *)
Theorem C102_plot_of_everything : forall cache failed L gt dir, exists nodes, plot L gt dir None (new_graph cache failed) = Ok nodes
  /\ distinct_names nodes
  /\ forall x, (exists y, In y nodes /\ GraphSpec.same_name y x) <-> exists y, connected cache gt y /\ GraphSpec.same_name y x.
Proof. exact plot_of_everything. Qed.
Print Assumptions C102_plot_of_everything.
(** The assumption about networkx can be met. *)
Theorem C102_searches_exist : exists L, searches L /\ python_3_12 L = true.
Proof. exists simple_lib. split; [exact simple_searches|reflexivity]. Qed.
Print Assumptions C102_searches_exist.
Definition cache_of (l : list (string * list string)) : sdict recipe_deps * list str :=
  fold_left (sort_result mini_env mini_spec) (map (read_and_parse mini_env (fun t => t)) (files_of l)) ([], []).
Definition plotted (l : list (string * list string)) gt dir (p : string) : res (list prim) := plot simple_lib gt dir (Some (lit p)) (graph_of l).
Definition chain : list (string * list string) :=
  [("a/meta.yaml", ["package:"; "  name: foo"; "requirements:"; "  host:"; "    - bar >1"; "  run:"; "    - numpy"]);
   ("b/meta.yaml", ["package:"; "  name: bar"; "requirements:"; "  build:"; "    - cmake"; "  host:"; "    - baz"]);
   ("c/meta.yaml", ["package:"; "  name: baz"; "requirements:"; "  host:"; "    - foo"]);
   ("d/meta.yaml", ["package:"; "  name: Alone"; "requirements:"; "  run:"; "    - numpy"]);
   ("e/meta.yaml", ["package:"; "  name: lone"])]%string.
Example C102_example :
  plotted chain GT_BUILD DEPENDS_ON "foo" = Ok [PStr $"foo"; PStr $"bar"; PStr $"cmake"; PStr $"baz"]
  /\ plotted chain GT_BUILD NEEDED_BY "cmake" = Ok [PStr $"cmake"; PStr $"bar"; PStr $"foo"; PStr $"baz"]
  /\ plotted chain GT_TEST DEPENDS_ON "foo" = Ok [PStr $"foo"; PStr $"numpy"]
  /\ plotted chain GT_BUILD DEPENDS_ON "cmake" = Ok [PStr $"cmake"]
  /\ plot simple_lib GT_TEST DEPENDS_ON None (graph_of chain) = Ok [PStr $"foo"; PStr $"numpy"; PStr $"Alone"].
Proof. repeat split; vm_compute; reflexivity. Qed.
(** A package that is known has no plot when nothing connects it. *)
Theorem C102_known_package_without_plot_refuted : exists l p, contains_package_name (lit p) (graph_of l) = true
  /\ plotted l GT_BUILD DEPENDS_ON p = Err (EOther $"NetworkXError") /\ plotted l GT_TEST NEEDED_BY p = Err (EOther $"NetworkXError").
Proof. exists chain, "lone"%string. repeat split; vm_compute; reflexivity. Qed.
Print Assumptions C102_known_package_without_plot_refuted.

(** ** C103 *)
(** A session is the answers to its lines, one after the other, until a line quits; the only line that is not answered is the one that
    asks for a plot that does not exist. *)
Theorem C103_session : forall cache failed L, searches L -> python_3_12 L = true -> NoDup (map fst cache) -> text_duplicates cache ->
  forall lines, cache <> [] -> exists out f failures, graph_command L cache failed lines =
    (S_failures (length failed) (length cache + length failed) failures (length cache) :: out, f)
    /\ session cache failed lines out f /\ exists l, NoDup l /\ length l = failures /\ forall sha, In sha l <-> unreadable_deps cache sha.
Proof. exact command_session. Qed.
Print Assumptions C103_session.
Theorem C103_no_recipes : forall L failed lines, graph_command L [] failed lines = ([S_no_recipes], Exit CLICK_USAGE).
Proof. exact command_without_recipes. Qed.
Print Assumptions C103_no_recipes.
(** What a session shows follows from the lines. *)
Theorem C103_sessions_end_alike : forall cache failed lines out f out' f',
  session cache failed lines out f -> session cache failed lines out' f' -> length out = length out' /\ (f = f' \/ exists e e', f = Raise e /\ f' = Raise e').
Proof. exact sessions_alike. Qed.
Print Assumptions C103_sessions_end_alike.
Definition ran (L : graph_lib) (l : list (string * list string)) (lines : list string) : list shown * finish :=
  let '(cache, failed) := cache_of l in graph_command L cache failed (map lit lines).
Example C103_example :
  ran simple_lib chain ["help"; "  Plot TEST depends foo "; "plot run depends foo"; "plot build up foo"; "plot build depends nope"; "plot test all"; ""; "Quit"; "help"]%string
  = ([S_failures 0 5 0 5; S_help; S_plot GT_TEST DEPENDS_ON $"foo" [PStr $"foo"; PStr $"numpy"]; S_bad_type $"run"; S_bad_direction; S_not_found $"nope";
      S_wait; S_plot_all GT_TEST [PStr $"foo"; PStr $"numpy"; PStr $"Alone"]; S_invalid; S_closing], Exit SUCCESS)
  /\ ran simple_lib chain ["stats"]%string = ([S_failures 0 5 0 5; S_stats {| st_duplicates := []; st_failed := []; st_failed_deps := []; st_parsed := 5;
       st_recipes := 5; st_packages := 5 |}], Raise (EOther $"EOFError")).
Proof. split; vm_compute; reflexivity. Qed.
(** A plot of a known package can end the program. *)
Theorem C103_plot_ends_the_program_refuted : exists l, ran simple_lib l ["plot build depends lone"; "help"]%string = ([S_failures 0 5 0 5], Raise (EOther $"NetworkXError")).
Proof. exists chain. vm_compute. reflexivity. Qed.
Print Assumptions C103_plot_ends_the_program_refuted.
(** A package whose name has a capital letter is never found. *)
Theorem C103_capital_letters_refuted : exists l, contains_package_name $"Alone" (graph_of l) = true
  /\ ran simple_lib l ["plot test depends Alone"; "q"]%string = ([S_failures 0 5 0 5; S_not_found $"alone"; S_closing], Exit SUCCESS).
Proof. exists chain. split; vm_compute; reflexivity. Qed.
Print Assumptions C103_capital_letters_refuted.
(** With Python 3.11, which the project allows, every plot ends the program. *)
Theorem C103_python_3_11_refuted : exists l, ran {| bfs_tree := simple_search; python_3_12 := false |} l ["plot build all"; "q"]%string = ([S_failures 0 5 0 5], Raise EType).
Proof. exists chain. vm_compute. reflexivity. Qed.
Print Assumptions C103_python_3_11_refuted.
(** Recipes that cannot be parsed are reported as missing. *)
Theorem C103_unparsable_recipes_refuted : exists l, map fst l = ["a/meta.yaml"]%string
  /\ length (snd (cache_of l)) = 1 /\ ran simple_lib l ["q"]%string = ([S_no_recipes], Exit CLICK_USAGE).
Proof. exists [("a/meta.yaml", ["package: ["])]%string. repeat split; vm_compute; reflexivity. Qed.
Print Assumptions C103_unparsable_recipes_refuted.
(** Names of different kinds that are both defined twice: the statistics cannot be shown. *)
Theorem C103_statistics_refuted : exists l, snd (ran simple_lib l ["stats"; "q"]%string) = Raise EType.
Proof.
  exists [("a/meta.yaml", ["package:"; "  name: 7"]); ("b/meta.yaml", ["package:"; "  name: 7"; "x: 1"]);
          ("c/meta.yaml", ["package:"; "  name: foo"]); ("d/meta.yaml", ["package:"; "  name: foo"; "x: 1"])]%string.
  vm_compute. reflexivity.
Qed.
Print Assumptions C103_statistics_refuted.
(** The statistics are shown exactly when the names that are defined twice can be put in order. *)
Theorem C103_statistics : forall cache failed L line w, NoDup (map fst cache) -> spelled line [w] -> In w [$"stats"; $"statistics"] ->
  (orderly_duplicates cache -> exists s, menu_command L (new_graph cache failed) line = ([S_stats s], Again) /\ stats_of cache failed s)
  /\ (~ orderly_duplicates cache -> menu_command L (new_graph cache failed) line = ([], Crash EType)).
Proof. exact c103_statistics. Qed.
Print Assumptions C103_statistics.
(** One name defined twice can be shown even when it is no text. *)
Example C103_statistics_example :
  ran simple_lib [("a/meta.yaml", ["package:"; "  name: 7"]); ("b/meta.yaml", ["package:"; "  name: 7"; "x: 1"])]%string ["stats"; "q"]%string
  = ([S_failures 0 2 0 2; S_stats {| st_duplicates := [PInt 7]; st_failed := []; st_failed_deps := []; st_parsed := 2; st_recipes := 2; st_packages := 1 |};
      S_closing], Exit SUCCESS).
Proof. vm_compute. reflexivity. Qed.
