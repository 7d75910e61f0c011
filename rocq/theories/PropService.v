(** Property theorems: fetchers, retries, licenses, messages and scanners (C54-C56, C62-C64, C67-C71). *)
From Verif Require Import Samples ServiceProofs LicenseProofs FetchProofs LicenseSpec FetchSpec.
From Verif Require Import ServiceSpec PropDeps.

(** Two worlds for the examples: the download works and leaves a tar file; the request fails after writing part of it. *)
Definition io_tar (b : string) : http_io :=
  {| io_file := Some (lit b); io_download := None; io_is_tar := inr true; io_is_zip := inr false; io_extract := None |}.
Definition io_cut (b : string) : http_io :=
  {| io_file := Some (lit b); io_download := Some RequestError; io_is_tar := inr false; io_is_zip := inr false; io_extract := None |}.
Definition sha (b : str) : str := $"sha:" ++ b.

(** ** C54 *)
Theorem C54_http_fetch_required : forall hash name url h f c,
  session (http_reply hash) (new_http name url) h f -> ~ is_fetch_http c ->
  (fst (http_reply hash c f) = RFail EFetchRequired <-> ~ fetched_before is_fetch_http h).
Proof. exact c54_http. Qed.
Print Assumptions C54_http_fetch_required.
Theorem C54_git_fetch_required : forall t remote h f c,
  session git_reply (new_git t remote) h f -> ~ is_fetch_git c ->
  (fst (git_reply c f) = RFail EFetchRequired <-> ~ fetched_before is_fetch_git h).
Proof. exact c54_git. Qed.
Print Assumptions C54_git_fetch_required.
(** The replies of a list of calls. *)
Fixpoint talk (calls : list http_call) (f : http_fetcher) : list reply :=
  match calls with [] => [] | c :: l => let '(r, f') := http_reply sha c f in r :: talk l f' end.
Example C54_example :
  talk [HSha; HFetch (io_cut "ab"); HSha; HFetch (io_tar "abc"); HSha; HType; HSource] (new_http $"x" $"u")
  = [RFail EFetchRequired; RFail EFetch; RFail EFetchRequired; RDone; RSha $"sha:abc"; RType TARBALL; RDone].
Proof. vm_compute. reflexivity. Qed.

(** ** C69 *)
Theorem C69_checksum_of_the_fetched_archive_partial : forall hash f io b f1 h f2,
  http_fetch io f = (Ok tt, f1) -> downloaded io b ->
  session (http_reply hash) f1 h f2 -> Forall (fun x => ~ is_fetch_http (fst x)) h ->
  fst (http_reply hash HSha f2) = RSha (hash b)
  /\ ((io_is_tar io = inr true /\ fst (http_reply hash HType f2) = RType TARBALL)
      \/ (io_is_tar io = inr false /\ io_is_zip io = inr true /\ fst (http_reply hash HType f2) = RType ZIP)).
Proof. exact c69_checksum. Qed.
Print Assumptions C69_checksum_of_the_fetched_archive_partial.
(** After any calls, with a successful fetch among them: the last file that was written, the last kind that was recognised. *)
Theorem C69_any_session : forall hash name url h f, session (http_reply hash) (new_http name url) h f -> fetched_before is_fetch_http h ->
  exists o t, file_left h o /\ type_seen h t
  /\ fst (http_reply hash HSha f) = match o with Some b => RSha (hash b) | None => RFail (EOther $"FileNotFoundError") end
  /\ fst (http_reply hash HType f) = RType t.
Proof. exact c69_any. Qed.
Print Assumptions C69_any_session.
Theorem C69_one_answer : forall h o t o' t', file_left h o -> type_seen h t -> file_left h o' -> type_seen h t' -> o = o' /\ t = t'.
Proof. exact c69_one. Qed.
Print Assumptions C69_one_answer.
(** A later fetch that fails half way replaces the archive, but the fetcher still counts as fetched: the checksum is that of
    the incomplete file. *)
Theorem C69_after_failed_refetch_refuted : exists h f,
  session (http_reply sha) (new_http $"x" $"u") h f
  /\ h = [(HFetch (io_tar "abc"), RDone); (HFetch (io_cut "ab"), RFail EFetch)]
  /\ fst (http_reply sha HSha f) = RSha $"sha:ab".
Proof.
  set (f1 := snd (http_fetch (io_tar "abc") (new_http $"x" $"u"))).
  exists [(HFetch (io_tar "abc"), RDone); (HFetch (io_cut "ab"), RFail EFetch)], (snd (http_fetch (io_cut "ab") f1)).
  split; [|split; [reflexivity|vm_compute; reflexivity]].
  apply (ss_snoc _ _ [(HFetch (io_tar "abc"), RDone)] f1 (HFetch (io_cut "ab"))); [|vm_compute; reflexivity].
  apply (ss_snoc _ _ [] (new_http $"x" $"u") (HFetch (io_tar "abc"))); [apply ss_nil|vm_compute; reflexivity].
Qed.
Print Assumptions C69_after_failed_refetch_refuted.
Example C69_example :
  talk [HFetch (io_tar "one"); HSource; HSha; HFetch (io_tar "two"); HSha] (new_http $"x" $"u")
  = [RDone; RDone; RSha $"sha:one"; RDone; RSha $"sha:two"].
Proof. vm_compute. reflexivity. Qed.

(** ** C55 *)
Definition target (branch tag rev : option str) : git_target := {| g_url := $"u"; g_branch := branch; g_tag := tag; g_rev := rev |}.
Definition repo : repository :=
  {| repo_head := $"c0"; repo_commit := fun n => if str_eqb n $"dev" then Some $"c1" else if str_eqb n $"v1" then Some $"c2" else None |}.
Theorem C55_branch_partial : forall t b repo c f,
  nothing_requested {| g_url := g_url t; g_branch := None; g_tag := g_tag t; g_rev := g_rev t |} ->
  g_branch t = Some b -> b <> [] -> gf_target f = t -> gf_remote f = true ->
  repo_commit repo b = Some c ->
  exists f', git_fetch (Cloned repo) f = (Ok tt, f') /\ gf_head f' = Some c /\ gf_fetched f' = true.
Proof. exact c55_branch. Qed.
Print Assumptions C55_branch_partial.
Theorem C55_unknown_branch_partial : forall t b repo f,
  g_tag t = None -> g_rev t = None -> g_branch t = Some b -> b <> [] ->
  gf_target f = t -> gf_remote f = true -> repo_commit repo b = None -> fst (git_fetch (Cloned repo) f) = Err EFetch.
Proof. exact c55_unknown_branch. Qed.
Print Assumptions C55_unknown_branch_partial.
Theorem C55_nothing_requested_partial : forall repo f, nothing_requested (gf_target f) -> gf_remote f = true ->
  exists f', git_fetch (Cloned repo) f = (Ok tt, f') /\ gf_head f' = Some (repo_head repo) /\ gf_fetched f' = true.
Proof. exact c55_nothing. Qed.
Print Assumptions C55_nothing_requested_partial.
(** What happens in general: a successful fetch ends at the branch, or where cloning left off, whatever tag or revision was
    requested. *)
Theorem C55_only_the_branch_counts : forall repo f f' name,
  git_fetch (Cloned repo) f = (Ok tt, f') -> gf_remote f = true -> requested (gf_target f) name -> name <> [] ->
  gf_head f' = match g_branch (gf_target f) with Some b => repo_commit repo b | None => Some (repo_head repo) end.
Proof. exact c55_only_branch. Qed.
Print Assumptions C55_only_the_branch_counts.
(** Every outcome. *)
Theorem C55_outcome : forall clone f, git_outcome clone f (fst (git_fetch clone f)) (snd (git_fetch clone f)).
Proof. exact c55_outcome. Qed.
Print Assumptions C55_outcome.
Theorem C55_one_outcome : forall clone f o g o' g', git_outcome clone f o g -> git_outcome clone f o' g' -> o = o' /\ g = g'.
Proof. exact c55_one. Qed.
Print Assumptions C55_one_outcome.
Theorem C55_tag_refuted : exists repo f f',
  requested (gf_target f) $"v1" /\ git_fetch (Cloned repo) f = (Ok tt, f')
  /\ repo_commit repo $"v1" = Some $"c2" /\ gf_head f' = Some $"c0".
Proof.
  exists repo, (new_git (target None (Some $"v1") None) true). eexists.
  split; [left; reflexivity|]. split; [vm_compute; reflexivity|]. split; vm_compute; reflexivity.
Qed.
Print Assumptions C55_tag_refuted.
Theorem C55_tag_with_branch_refuted : exists repo f f',
  requested (gf_target f) $"v1" /\ git_fetch (Cloned repo) f = (Ok tt, f')
  /\ repo_commit repo $"v1" = Some $"c2" /\ gf_head f' = Some $"c1".
Proof.
  exists repo, (new_git (target (Some $"dev") (Some $"v1") None) true). eexists.
  split; [left; reflexivity|]. split; [vm_compute; reflexivity|]. split; vm_compute; reflexivity.
Qed.
Print Assumptions C55_tag_with_branch_refuted.
(** An unknown revision is not noticed. *)
Theorem C55_unknown_revision_refuted : exists repo f f',
  requested (gf_target f) $"nope" /\ repo_commit repo $"nope" = None /\ git_fetch (Cloned repo) f = (Ok tt, f').
Proof.
  exists repo, (new_git (target None None (Some $"nope")) true). eexists.
  split; [right; left; split; reflexivity|]. split; vm_compute; reflexivity.
Qed.
Print Assumptions C55_unknown_revision_refuted.
(** A repository given as a local path cannot be fetched at all. *)
Theorem C55_local_repository_refuted : exists f, gf_remote f = false /\ forall clone, fst (git_fetch clone f) = Err EFetch.
Proof. exists (new_git (target None None None) false). split; [reflexivity|]. intros clone. apply c55_local. reflexivity. Qed.
Print Assumptions C55_local_repository_refuted.
Example C55_example :
  gf_head (snd (git_fetch (Cloned repo) (new_git (target (Some $"dev") None None) true))) = Some $"c1"
  /\ fst (git_fetch (Cloned repo) (new_git (target (Some $"nope") None None) true)) = Err EFetch
  /\ gf_head (snd (git_fetch (Cloned repo) (new_git (target None None None) true))) = Some $"c0".
Proof. repeat split; vm_compute; reflexivity. Qed.

(** ** C56 *)
Theorem C56_first_success : forall hash world f k b,
  1 <= k <= 5 -> (forall j, 1 <= j < k -> attempt_fails (world j)) -> attempt_succeeds (world k) b ->
  exists f', get_sha256 hash world f = (Ok (hash b), f', seq 1 (k - 1)).
Proof. exact c56_success. Qed.
Print Assumptions C56_first_success.
Theorem C56_five_failures : forall hash world f,
  (forall j, 1 <= j <= 5 -> attempt_fails (world j)) ->
  exists f', get_sha256 hash world f = (Err EFetch, f', [1; 2; 3; 4; 5]).
Proof. exact c56_failure. Qed.
Print Assumptions C56_five_failures.
Theorem C56_other_exceptions : forall hash world f k e,
  1 <= k <= 5 -> (forall j, 1 <= j < k -> attempt_fails (world j)) -> attempt_breaks (world k) e -> e <> EFetch ->
  exists f', get_sha256 hash world f = (Err e, f', seq 1 (k - 1)).
Proof. exact c56_other. Qed.
Print Assumptions C56_other_exceptions.
Theorem C56_waiting_is_bounded : forall hash world f r f' w,
  get_sha256 hash world f = (r, f', w) -> length w <= 5 /\ list_sum w <= 15.
Proof. exact c56_bound. Qed.
Print Assumptions C56_waiting_is_bounded.
Example C56_example :
  let world n := if n <? 3 then io_cut "a" else io_tar "abc" in
  (let '(r, _, w) := get_sha256 sha world (new_http $"x" $"u") in (r, w)) = (Ok $"sha:abc", [1; 2])
  /\ (let '(r, _, w) := get_sha256 sha (fun _ => io_cut "a") (new_http $"x" $"u") in (r, w)) = (Err EFetch, [1; 2; 3; 4; 5]).
Proof. split; vm_compute; reflexivity. Qed.

(** ** C62 *)
Theorem C62_known_identifier_is_kept : forall close db s, known_id db s -> find_closest_license_match close db s = Some s.
Proof. exact c62_exact. Qed.
Print Assumptions C62_known_identifier_is_kept.
Theorem C62_result_is_known : forall close db s r,
  find_closest_license_match close db s = Some r -> known_id db r \/ override r.
Proof. exact c62_known. Qed.
Print Assumptions C62_result_is_known.
Theorem C62_compound_expressions_are_left_alone : forall close db s,
  compound s -> ~ known_id db s -> find_closest_license_match close db s = None.
Proof. exact c62_compound. Qed.
Print Assumptions C62_compound_expressions_are_left_alone.
Theorem C62_fixed_corrections : forall close db s r,
  ~ known_id db s -> corrected s r -> find_closest_license_match close db s = Some r.
Proof. exact c62_corrected. Qed.
Print Assumptions C62_fixed_corrections.
Definition licenses : list license :=
  [{| l_id := $"MIT"; l_name := $"MIT License" |};
   {| l_id := $"GPL-2.0-or-later"; l_name := $"GNU General Public License v2.0 or later" |};
   {| l_id := $"Unlicense"; l_name := $"The Unlicense" |}].
Definition exactly : close_match := fun w l => if mem_str w l then Some w else None.
(** All cases: the matcher is asked with every name and identifier, each once, in the order of the database. *)
Theorem C62_chosen : forall close db s, chosen close db s (find_closest_license_match close db s).
Proof. exact c62_chosen. Qed.
Print Assumptions C62_chosen.
Theorem C62_one_choice : forall close db s a b, chosen close db s a -> chosen close db s b -> a = b.
Proof. exact c62_one. Qed.
Print Assumptions C62_one_choice.
(** "UNLIMITED" is turned into a text that is no license identifier. *)
Theorem C62_override_refuted : exists db s r,
  find_closest_license_match exactly db s = Some r /\ ~ known_id db r.
Proof.
  exists licenses, $"Unlimited", $"NOASSERTION". split; [vm_compute; reflexivity|].
  intros (l & I & H). destruct I as [<-|[<-|[<-|[]]]]; discriminate H.
Qed.
Print Assumptions C62_override_refuted.
Example C62_example :
  find_closest_license_match exactly licenses $"MIT" = Some $"MIT"
  /\ find_closest_license_match exactly licenses $"MIT License" = Some $"MIT"
  /\ find_closest_license_match exactly licenses $"MIT or Apache" = None
  /\ find_closest_license_match exactly licenses $" unlimited " = Some $"NOASSERTION".
Proof. repeat split; vm_compute; reflexivity. Qed.

(** ** C68 *)
Theorem C68_full_name_is_recognised_partial : forall close db name id,
  finds_equal close -> names_license db name id -> ~ compound name -> (forall r, ~ corrected name r) ->
  find_closest_license_match close db name = Some id.
Proof. exact c68_name. Qed.
Print Assumptions C68_full_name_is_recognised_partial.
(** Many full names contain "or" and are taken for license expressions. *)
Theorem C68_name_with_or_refuted : exists close db name id,
  finds_equal close /\ names_license db name id /\ find_closest_license_match close db name = None.
Proof.
  exists exactly, licenses, $"GNU General Public License v2.0 or later", $"GPL-2.0-or-later". split; [|split].
  - intros w l I. unfold exactly. apply (proj2 (Lemmas.mem_str_In w l)) in I. rewrite I. reflexivity.
  - exists [{| l_id := $"MIT"; l_name := $"MIT License" |}]. eexists. exists [{| l_id := $"Unlicense"; l_name := $"The Unlicense" |}].
    split; [reflexivity|]. split; [reflexivity|]. split; [reflexivity|]. split.
    + intros x [<-|[]]. discriminate.
    + intros x [<-|[<-|[<-|[]]]]; discriminate.
  - vm_compute. reflexivity.
Qed.
Print Assumptions C68_name_with_or_refuted.
Example C68_example : find_closest_license_match exactly licenses $"The Unlicense" = Some $"Unlicense".
Proof. vm_compute. reflexivity. Qed.

(** ** C63 *)
Theorem C63_messages_in_order : forall h c l, logged c h l <-> get_messages c (table_after h) = l.
Proof. exact c63_messages. Qed.
Print Assumptions C63_messages_in_order.
Theorem C63_counts : forall h c l, logged c h l -> get_message_count c (table_after h) = length l.
Proof. exact c63_count. Qed.
Print Assumptions C63_counts.
Definition history : list msg_op := [MAdd ERROR $"lost"; MClear; MAdd WARNING $"w1"; MAdd ERROR $"e1"; MAdd WARNING $"w2"].
Example C63_example :
  get_messages WARNING (table_after history) = [$"w1"; $"w2"] /\ get_messages ERROR (table_after history) = [$"e1"]
  /\ get_messages EXCEPTION (table_after history) = [] /\ get_message_count WARNING (table_after history) = 2.
Proof. repeat split; vm_compute; reflexivity. Qed.

(** ** C67 *)
Theorem C67_totals_message : forall h es ws,
  logged ERROR h es -> logged WARNING h ws -> ~ (forall c, logged c h []) ->
  exists e w, counted (length es) $"error" e /\ counted (length ws) $"warning" w
  /\ get_totals_message (table_after h) = e ++ $" and " ++ w ++ $" were found.".
Proof. exact c67_totals. Qed.
Print Assumptions C67_totals_message.
Theorem C67_empty_when_nothing_was_logged : forall h, get_totals_message (table_after h) = [] <-> forall c, logged c h [].
Proof. exact c67_empty. Qed.
Print Assumptions C67_empty_when_nothing_was_logged.
(** The documentation promises an empty text when there are no errors and warnings; with exceptions only it is not. *)
Theorem C67_exceptions_only_refuted : exists h,
  logged ERROR h [] /\ logged WARNING h [] /\ get_totals_message (table_after h) <> [].
Proof.
  exists [MAdd EXCEPTION $"x"]. split; [|split].
  - apply c63_messages. vm_compute. reflexivity.
  - apply c63_messages. vm_compute. reflexivity.
  - vm_compute. discriminate.
Qed.
Print Assumptions C67_exceptions_only_refuted.
Example C67_example :
  get_totals_message (table_after history) = $"1 error and 2 warnings were found."
  /\ get_totals_message (table_after [MAdd EXCEPTION $"x"]) = $"0 errors and 0 warnings were found."
  /\ get_totals_message (table_after [MAdd ERROR $"x"; MClear]) = [].
Proof. repeat split; vm_compute; reflexivity. Qed.

(** ** C64 *)
(** The reported dependencies: python for host and run, and what the files ask for, except tests that run asks for too. *)
Theorem C64_reported_dependencies : forall MS same M files d, equivalence same ->
  (element same d (fst (py_scan MS same M files))
   <-> same_dep same d (python_dep MS HOST) \/ same_dep same d (python_dep MS RUN)
       \/ (wanted MS same M files d /\ (pd_type d = TESTS -> ~ wanted MS same M files {| pd_data := pd_data d; pd_type := RUN |}))).
Proof. exact c64_elements. Qed.
Print Assumptions C64_reported_dependencies.
Theorem C64_reported_once : forall MS same M files, equivalence same -> distinct same (fst (py_scan MS same M files)).
Proof. exact c64_distinct. Qed.
Print Assumptions C64_reported_once.
Theorem C64_order_of_files : forall MS same M files files' d, equivalence same -> (forall f, In f files <-> In f files') ->
  (element same d (fst (py_scan MS same M files)) <-> element same d (fst (py_scan MS same M files'))).
Proof. exact c64_order. Qed.
Print Assumptions C64_order_of_files.
Theorem C64_tests_not_in_run_partial : forall MS same M files d, equivalence same ->
  element same d (fst (py_scan MS same M files)) -> pd_type d = TESTS ->
  same (pd_data d) (dependency_data_from_str MS $"python") = false ->
  ~ element same {| pd_data := pd_data d; pd_type := RUN |} (fst (py_scan MS same M files)).
Proof. exact c64_tests. Qed.
Print Assumptions C64_tests_not_in_run_partial.
Theorem C64_unreadable_files : forall MS same M files l, unreadable files l ->
  get_messages EXCEPTION (snd (py_scan MS same M files)) = l.
Proof. exact c64_messages. Qed.
Print Assumptions C64_unreadable_files.
Definition same_text (a b : dep_data) : bool := str_eqb (dependency_data_render_as_str a) (dependency_data_render_as_str b).
Definition mods : modules := {| stdlib := fun m => mem_str m [$"os"; $"sys"]; project := fun m => mem_str m [$"app"] |}.
Definition py_file (name : string) (imports : list import_stmt) : source_file :=
  {| sf_path := $"src/" ++ lit name; sf_name := lit name; sf_imports := inr imports |}.
Definition found (files : list source_file) : list (str * dep_section) :=
  map (fun d => (dependency_data_render_as_str (pd_data d), pd_type d)) (fst (py_scan mini_spec same_text mods files)).
(** A test that imports "python" is reported for tests although python is reported for run. *)
Theorem C64_python_in_tests_refuted : exists files,
  found files = [($"python", TESTS); ($"python", HOST); ($"python", RUN)].
Proof. exists [py_file "test_a.py" [Import [$"python"]]]. vm_compute. reflexivity. Qed.
Print Assumptions C64_python_in_tests_refuted.
(** A relative import names a module of the project itself, but it is reported as a dependency. *)
Theorem C64_relative_import_refuted : exists files,
  files = [py_file "a.py" [ImportFrom 1 (Some $"helper")]]
  /\ found files = [($"helper", RUN); ($"python", HOST); ($"python", RUN)].
Proof. eexists. split; [reflexivity|]. vm_compute. reflexivity. Qed.
Print Assumptions C64_relative_import_refuted.
Example C64_example :
  found [py_file "a.py" [Import [$"os"; $"numpy.linalg"]; ImportFrom 0 (Some $"app.core")];
         {| sf_path := $"src/b.py"; sf_name := $"b.py"; sf_imports := inl $"bad" |};
         py_file "test_a.py" [Import [$"pytest"]; Import [$"numpy"]; ImportFrom 0 (Some $"yaml")]]
  = [($"numpy", RUN); ($"pytest", TESTS); ($"pyyaml", TESTS); ($"python", HOST); ($"python", RUN)].
Proof. vm_compute. reflexivity. Qed.

(** ** C70 *)
Theorem C70_project_file_dependencies : forall MS same file d p l gs,
  equivalence same -> has_field $"project" d (JDict p) -> project_names p l -> project_groups p gs ->
  exists deps, pyproject_scan MS same file (TomlData d) = (Ok deps, new_table) /\ distinct same deps
  /\ forall x, element same x deps <->
       (exists n, In n l /\ same_dep same x (dep_named MS n RUN))
       \/ (exists g n, In g gs /\ In n (snd g) /\ same_dep same x (dep_named MS n RUN_CONSTRAINTS)).
Proof. exact c70_elements. Qed.
Print Assumptions C70_project_file_dependencies.
Theorem C70_unusable_project_files : forall MS same file d,
  pyproject_scan MS same file TomlMissing = (Ok [], table_after [MAdd EXCEPTION ($"`" ++ file ++ $"` file not found.")])
  /\ pyproject_scan MS same file TomlInvalid = (Ok [], table_after [MAdd EXCEPTION ($"Could not parse `" ++ file ++ $"` file.")])
  /\ (no_field $"project" d -> pyproject_scan MS same file (TomlData d)
      = (Ok [], table_after [MAdd ERROR ($"`" ++ file ++ $"` file is missing a `project` section.")])).
Proof. exact c70_failures. Qed.
Print Assumptions C70_unusable_project_files.
Definition project_file (p : list (prim * json)) : toml := TomlData [(PStr $"tool", JDict []); (PStr $"project", JDict p)].
(** Two outcomes for files that are valid TOML but do not follow the layout: a text is taken letter by letter, and a project
    entry that is not a table ends the scan with an exception instead of a message. *)
Theorem C70_text_instead_of_list_refuted : exists p,
  match fst (pyproject_scan mini_spec same_text $"pyproject.toml" (project_file p)) with
  | Ok l => map (fun d => dependency_data_render_as_str (pd_data d)) l = [$"a"; $"b"]
  | Err _ => False
  end.
Proof. exists [(PStr $"dependencies", JStr $"ab")]. vm_compute. reflexivity. Qed.
Print Assumptions C70_text_instead_of_list_refuted.
Theorem C70_wrong_layout_refuted : exists d,
  pyproject_scan mini_spec same_text $"pyproject.toml" (TomlData d) = (Err EAttr, new_table).
Proof. exists [(PStr $"project", JStr $"x")]. vm_compute. reflexivity. Qed.
Print Assumptions C70_wrong_layout_refuted.
Example C70_example :
  match fst (pyproject_scan mini_spec same_text $"pyproject.toml" (project_file
    [(PStr $"dependencies", JList [JStr $"click"; JStr $"numpy >1"; JStr $"click"]);
     (PStr $"optional-dependencies", JDict [(PStr $"dev", JList [JStr $"click"; JStr $"pytest"])])])) with
  | Ok l => map (fun d => (dependency_data_render_as_str (pd_data d), pd_type d)) l
            = [($"click", RUN); ($"numpy >1", RUN); ($"click", RUN_CONSTRAINTS); ($"pytest", RUN_CONSTRAINTS)]
  | Err _ => False
  end.
Proof. vm_compute. reflexivity. Qed.

(** ** C71 *)
Theorem C71_list_of_sources : forall E r ds o m,
  get_value E (r_root r) $"/source" (Some (JList [])) (sub_vars r) = Ok (JList (map JDict ds)) -> get_recipe_name E r = Ok o ->
  collected (r_schema r) (numbered (recipe_title o) (negb (length ds =? 1))) (fun i => $"/source/" ++ str_of_nat i) 0 ds m ->
  from_recipe E r true = Ok m
  /\ (Forall (fun d => ~ unsupported (r_schema r) d) ds -> from_recipe E r false = Ok m)
  /\ (Exists (unsupported (r_schema r)) ds -> from_recipe E r false = Err (EOther $"FetchUnsupportedError")).
Proof. exact c71_list. Qed.
Print Assumptions C71_list_of_sources.
Theorem C71_single_source : forall E r d o m,
  get_value E (r_root r) $"/source" (Some (JList [])) (sub_vars r) = Ok (JDict d) -> get_recipe_name E r = Ok o ->
  collected (r_schema r) (fun _ => recipe_title o) (fun _ => $"/source") 0 [d] m ->
  from_recipe E r true = Ok m
  /\ (~ unsupported (r_schema r) d -> from_recipe E r false = Ok m)
  /\ (unsupported (r_schema r) d -> from_recipe E r false = Err (EOther $"FetchUnsupportedError")).
Proof. exact c71_single. Qed.
Print Assumptions C71_single_source.
Theorem C71_every_list_is_collected : forall sv name path ds i, exists m, collected sv name path i ds m.
Proof. exact collected_total. Qed.
Print Assumptions C71_every_list_is_collected.
(** The name used for the sources is the one in the recipe; only a missing one or null is replaced. *)
Theorem C71_recipe_name : forall E r o, get_recipe_name E r = Ok o <->
  exists v, get_value E (r_root r) (DepsSpec.name_place r $"/") (Some JNull) (Some (r_schema r, r_vars r)) = Ok v
    /\ ((v = JNull /\ o = None) \/ (v <> JNull /\ o = Some (json_str v))).
Proof. exact c71_name. Qed.
Print Assumptions C71_recipe_name.
Definition sources_of (text : list string) (ignore : bool) : res (sdict source) := from_recipe mini_env (recipe_of (nl text)) ignore.
Example C71_example :
  sources_of ["package:"; "  name: foo"; "source:"; "  - url: http://x/a.tar.gz"; "    sha256: abc"; "  - path: here"; "  - git_url: http://y"; "    git_tag: v1"]%string true
  = Ok [($"/source/0", SHttp $"foo_0" $"http://x/a.tar.gz");
        ($"/source/2", SGit $"foo_2" {| g_url := $"http://y"; g_branch := None; g_tag := Some $"v1"; g_rev := None |})]
  /\ sources_of ["package:"; "  name: foo"; "source:"; "  path: here"]%string false = Err (EOther $"FetchUnsupportedError")
  /\ sources_of ["package:"; "  name: foo"; "source:"; "  url: u"]%string false = Ok [($"/source", SHttp $"foo" $"u")].
Proof. repeat split; vm_compute; reflexivity. Qed.
(** A source may list several mirrors; they end up as one text that is no address. *)
Theorem C71_mirrors_refuted : exists text,
  text = ["package:"; "  name: foo"; "source:"; "  url:"; "    - http://x/a"; "    - http://y/a"]%string
  /\ sources_of text false = Ok [($"/source", SHttp $"foo" $"['http://x/a', 'http://y/a']")].
Proof. eexists. split; [reflexivity|]. vm_compute. reflexivity. Qed.
Print Assumptions C71_mirrors_refuted.
(** An empty source section is not treated like a missing one. *)
Theorem C71_empty_section_refuted : exists text,
  text = ["package:"; "  name: foo"; "source:"]%string /\ sources_of text true = Err EAttr.
Proof. eexists. split; [reflexivity|]. vm_compute. reflexivity. Qed.
Print Assumptions C71_empty_section_refuted.
