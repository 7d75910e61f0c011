(** Property theorems: repeated names and digests (C53, C61, C77). *)
From Verif Require Import Samples RepeatProofs PropDeps PropGraph PropCommands RepeatSpec.

(** ** C53: the recipes of the graph, exactly: one for each digest, with the dependencies of the last file that has it. *)
Theorem C53_exactly : forall E MS hash files, exists good bad cache, files_read E MS hash files good bad /\ kept good cache
  /\ graph_from_disk E MS hash files = new_graph cache (firsts bad)
  /\ let s := g_stats (graph_from_disk E MS hash files) in
     st_parsed s = length (firsts (map fst good)) /\ st_failed s = firsts bad /\ st_recipes s = length (firsts (map fst good)) + length (firsts bad).
Proof. exact c53_exactly. Qed.
Print Assumptions C53_exactly.
Example C53_example_exactly :
  let s := g_stats (graph_from_disk mini_env mini_spec (fun t => t)
    (files_of two_recipes ++ [{| rf_path := $"x"; rf_content := None |}; {| rf_path := $"x"; rf_content := None |}] ++ files_of two_recipes)) in
  (st_recipes s, st_parsed s, st_failed s, st_packages s) = (4, 3, [$"x"], 2).
Proof. vm_compute. reflexivity. Qed.

(** What is kept is unique. *)
Theorem C61_kept_once : forall A (l : list (str * A)), (exists k, kept l k) /\ forall k k', kept l k -> kept l k' -> k = k'.
Proof. intros A l. split; [exists (collected l); exact (collected_kept l)|exact (kept_unique l)]. Qed.
Print Assumptions C61_kept_once.

(** ** C61: with repeated names, the report is that of the last result of each name. *)
Theorem C61_repeated_names : forall files results k, kept results k -> bulk_report files results = bulk_report files k /\ NoDup (map fst k).
Proof. intros files results k K. split; [exact (c61_repeated files results k K)|exact (kept_nodup results k K)]. Qed.
Print Assumptions C61_repeated_names.
Example C61_example_repeated :
  kept [($"a", result SUCCESS []); ($"b", result SUCCESS []); ($"a", result RENDER_ERRORS [(ERROR, "e"%string)])]
       [($"a", result RENDER_ERRORS [(ERROR, "e"%string)]); ($"b", result SUCCESS [])].
Proof. apply kept_exists. vm_compute. reflexivity. Qed.

(** ** C77: the same for builds; the successes are still compared with the number of all files. *)
Theorem C77_repeated_names : forall results k min_rate, results <> [] -> kept results k ->
  exists t u, rattler_bulk_build results min_rate = (bulk_exit (br_success t) (length results) min_rate, Some t)
    /\ snd (rattler_bulk_build k min_rate) = Some u
    /\ br_files t = length results /\ br_processed t = br_processed u /\ br_success t = br_success u /\ br_errors t = br_errors u
    /\ br_with_errors t = br_with_errors u /\ br_hist t = br_hist u.
Proof. exact c77_repeated. Qed.
Print Assumptions C77_repeated_names.
Example C77_example_repeated :
  rattler_bulk_build [($"a", Ended 0 []); ($"a", Ended 0 [])] 60
  = (MISSED_SUCCESS_THRESHOLD, Some {| br_files := 2; br_processed := 1; br_success := 1; br_errors := 0; br_with_errors := []; br_hist := [] |}).
Proof. vm_compute. reflexivity. Qed.
