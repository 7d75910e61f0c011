(** C111 to C114: the scripts that summarise CI logs and select recipes. *)
From Verif Require Import Scripts ScriptsProofs ScriptsProofs2 ScriptsProofs3 LogProofs ScriptsSpec LogSpec.

(** C111: statistics of several runs are added up; percentages are averaged over all the tables. *)
Theorem C111_statistics : forall A stats out, aggregate_stats A stats = Ok out <->
  exists ds, Forall2 its_statistics stats ds
    /\ map fst out = firsts (numbered_keys ds)
    /\ forall k v, In (k, v) out -> numbers_of k ds <> []
         /\ (is_percentage k -> v = a_mean A (total_of A (numbers_of k ds)) (length stats))
         /\ (~ is_percentage k -> v = total_of A (numbers_of k ds)).
Proof. exact c111. Qed.
Print Assumptions C111_statistics.

(** Integers only. *)
Definition int_of (p : prim) : Z := match p with PInt z => z | PBool true => 1 | _ => 0 end.
Definition ints : arith := {| a_add := fun a b => PInt (int_of a + int_of b); a_mean := fun a n => PInt (int_of a / Z.of_nat n) |}.
Definition table (key : string) (d : list (string * json)) : jobject := [(PStr (lit key), JDict (map (fun kv => (PStr (lit (fst kv)), snd kv)) d))].
Example C111_example :
  aggregate_stats ints [table "stats" [("total", JInt 3); ("timings", JStr $"x"); ("percent_ok", JInt 40)]%string;
                        table "statistics" [("percent_ok", JInt 60); ("ok", JP (PBool true)); ("total", JInt 4)]%string]
    = Ok [($"total", PInt 7); ($"percent_ok", PInt 50); ($"ok", PInt 1)]
  /\ aggregate_stats ints [table "results" [("total", JInt 3)]%string] = Err EKey.
Proof. vm_compute. auto. Qed.
(** A percentage that only some runs report is still divided by the number of all runs. *)
Theorem C111_average_of_reports_refuted : exists stats out,
  aggregate_stats ints stats = Ok out /\ numbers_of $"percent_ok" (map (fun r => match r with [(_, JDict d)] => d | _ => [] end) stats) = [PInt 100]
  /\ out = [($"percent_ok", PInt 50); ($"total", PInt 1)].
Proof.
  exists [table "stats" [("percent_ok", JInt 100)]%string; table "stats" [("total", JInt 1)]%string], [($"percent_ok", PInt 50); ($"total", PInt 1)].
  vm_compute. auto.
Qed.
Print Assumptions C111_average_of_reports_refuted.

(** C112: the objects found in the log files are those written between braces on lines of their own. *)
Theorem C112_logs : forall loads files c d, logs_are loads files c d -> read_logs loads files ([], []) = Ok (c, d).
Proof. exact c112. Qed.
Print Assumptions C112_logs.

Definition run (command dir : string) : jobject :=
  [(PStr $"info", JDict [(PStr $"command_name", JStr (lit command)); (PStr $"directory", JStr (lit dir))]); (PStr $"stats", JDict [(PStr $"percent_success", JInt 7); (PStr $"total", JInt 1)])].
(** Stands for a JSON parser. *)
Definition mini_loads (text : str) : option jobject :=
  if str_eqb text (blob_text [$"convert"]) then Some (run "convert" "a/x")
  else if str_eqb text (blob_text [$"dry"]) then Some (run "rattler-bulk-build" "b/x")
  else if str_eqb text (blob_text [$"other"]) then Some [(PStr $"total", JInt 2)]
  else None.
Definition mini_log : list (str * str) :=
  [($"2024-10-28T19:41:52.5410441Z ", $"Run"); ($"2024-10-28T19:41:52.5Z ", $"{"); ($"2024-10-28T19:41:53.0Z ", $"convert"); ($"2024-10-28T19:41:53.1Z ", $"}");
   ([], $"{"); ([], $"broken"); ([], $"}"); ([], []); ($"2024-10-28T23:59:59.9Z ", $"{"); ([], $"other"); ([], $"}"); ([], $"{"); ([], $"dry"); ([], $"}"); ([], $"Done")].
Definition mini_parts : list log_part :=
  [Noise [$"Run"]; Blob [$"convert"]; Blob [$"broken"]; Noise [[]]; Blob [$"other"]; Blob [$"dry"]; Noise [$"Done"]].
Definition mini_file : log_file := {| lf_name := $"1.txt"; lf_is_dir := false; lf_content := log_text mini_log |}.
Example C112_example :
  read_logs mini_loads [{| lf_name := $".DS_Store"; lf_is_dir := false; lf_content := $"}" |}; mini_file] ([], [])
    = Ok ([run "convert" "a/x"], [run "rattler-bulk-build" "b/x"])
  /\ map snd mini_log = flat_map part_lines mini_parts
  /\ objects_of mini_loads mini_parts [run "convert" "a/x"] [run "rattler-bulk-build" "b/x"].
Proof.
  split; [vm_compute; reflexivity|]. split; [vm_compute; reflexivity|]. unfold mini_parts.
  apply ob_noise. eapply ob_convert; [vm_compute; reflexivity| |]. { eexists. split; vm_compute; reflexivity. }
  apply ob_broken; [vm_compute; reflexivity|]. apply ob_noise. eapply ob_unknown; [vm_compute; reflexivity|left; vm_compute; reflexivity|].
  eapply (ob_other _ _ _ (JStr $"rattler-bulk-build")); [vm_compute; reflexivity| |reflexivity|]. { eexists. split; vm_compute; reflexivity. }
  apply ob_noise. constructor.
Qed.
Lemma short_line l : length l < 20 -> forall u, is_stamp u -> ~ has_text u (l ++ [cNL]).
Proof.
  intros L u [y1 y2 y3 y4 m1 m2 d1 d2 h1 h2 n1 n2 s1 s2 f fs b _ _ _ _ _ _ _ _] (x & y & E).
  apply (f_equal (@length ascii)) in E. change $"-" with ["-"%char] in E. change $"T" with ["T"%char] in E. change $":" with [":"%char] in E. change $"." with ["."%char] in E.
  rewrite !app_length in E. cbn [app length] in E. rewrite !app_length in E. lia.
Qed.
Example C112_stamps : logs_are mini_loads [mini_file] [run "convert" "a/x"] [run "rattler-bulk-build" "b/x"].
Proof.
  rewrite <- (app_nil_r [run "convert" "a/x"]), <- (app_nil_r [run "rattler-bulk-build" "b/x"]).
  apply (la_file _ _ _ mini_log mini_parts); try reflexivity; try discriminate.
  - unfold mini_log. repeat (apply Forall_cons; [split; [|split]; cbn [fst snd]|]); try apply Forall_nil; try (apply short_line; vm_compute; lia);
      try (intros c I; vm_compute in I; repeat (destruct I as [<-|I]; [reflexivity|]); destruct I); try (left; reflexivity).
    all: right; apply stamp_known; vm_compute; reflexivity.
  - repeat constructor; discriminate.
  - apply C112_example.
  - constructor.
Qed.
(** Exactly, for arbitrary lines: what is parsed for a closing brace begins at the last opening brace since the last failure; the script
    stops with an exception if and only if one of the objects has an unusual value under "info". *)
Theorem C112_any_lines : forall loads files c d, Forall (fun f => read_file f -> exists ls, stamped f ls) files ->
  (read_logs loads files ([], []) = Ok (c, d) <-> any_logs loads files c d).
Proof. exact c112_exactly. Qed.
Print Assumptions C112_any_lines.

Definition stray_log : list (str * str) :=
  [([], $"}"); ($"2024-10-28T19:41:52.5Z ", $"{"); ([], $"{"); ([], $"convert"); ($"2024-10-28T19:41:52.5Z ", $"}"); ([], $"}"); ([], $"dry"); ([], $"}")].
Definition stray_from (j : nat) : nat := match j with 4 | 5 => 2 | _ => 0 end.
(** Four closing braces: the texts begin at the lines 0, 2, 2 and, after the failure, at line 0 again. *)
Example C112_example_stray :
  read_logs mini_loads [{| lf_name := $"1.txt"; lf_is_dir := false; lf_content := log_text stray_log |}] ([], []) = Ok ([run "convert" "a/x"], [])
  /\ Forall log_line_ok stray_log
  /\ closings (map snd stray_log) = [0; 4; 5; 7]
  /\ begins mini_loads (map snd stray_log) stray_from
  /\ parsed mini_loads (map snd stray_log) stray_from = [run "convert" "a/x"].
Proof.
  split; [vm_compute; reflexivity|]. split.
  { unfold stray_log. repeat (apply Forall_cons; [split; [|split]; cbn [fst snd]|]); try apply Forall_nil; try (apply short_line; vm_compute; lia);
      try (intros c I; vm_compute in I; repeat (destruct I as [<-|I]; [reflexivity|]); destruct I); try (left; reflexivity).
    all: right; apply stamp_known; vm_compute; reflexivity. }
  split; [vm_compute; reflexivity|]. split; [|vm_compute; reflexivity].
  assert (forall i, i = 3 -> ~ opens (map snd stray_log) i /\ ~ fails mini_loads (map snd stray_log) stray_from i) as N3.
  { intros i ->. split; [intros H; vm_compute in H; discriminate H|intros [H _]; vm_compute in H; discriminate H]. }
  assert (forall i, i = 4 -> ~ opens (map snd stray_log) i /\ ~ fails mini_loads (map snd stray_log) stray_from i) as N4.
  { intros i ->. split; [intros H; vm_compute in H; discriminate H|intros [_ H]; vm_compute in H; discriminate H]. }
  intros j C. assert (j = 0 \/ j = 4 \/ j = 5 \/ j = 7) as [-> |[-> |[-> | ->]]].
  { unfold closes in C. do 8 (destruct j as [|j]; [try (exfalso; vm_compute in C; discriminate C); lia|]). exfalso. vm_compute in C. destruct j; discriminate C. }
  - right. split; [reflexivity|]. intros k K. exfalso. exact (Nat.nlt_0_r _ K).
  - left. change (stray_from 4) with 2. split; [lia|]. split; [reflexivity|]. intros i I. apply N3. lia.
  - left. change (stray_from 5) with 2. split; [lia|]. split; [reflexivity|]. intros i I. assert (i = 3 \/ i = 4) as [E|E] by lia; [apply N3|apply N4]; exact E.
  - right. split; [reflexivity|]. intros k K O. exists 5. assert (k <> 5 /\ k <> 6) as []. { split; intros ->; vm_compute in O; discriminate O. }
    split; [lia|]. split; vm_compute; reflexivity.
Qed.
(** An object whose braces are not on lines of their own is missed. *)
Theorem C112_every_object_refuted : exists loads text, loads text = Some (run "convert" "a/x")
  /\ read_logs loads [{| lf_name := $"1.txt"; lf_is_dir := false; lf_content := text ++ [cNL] |}] ([], []) = Ok ([], []).
Proof. exists (fun _ => Some (run "convert" "a/x")), ($"{ ""info"": {} }"). split; vm_compute; reflexivity. Qed.
Print Assumptions C112_every_object_refuted.

(** C113: the summary of the tests. *)
Theorem C113_summary : forall A pname sort convert dry, (forall l, Permutation l (sort l)) ->
  forall s, generate_summary A pname sort convert dry = Ok s -> exists rc rd, Forall2 run_of convert rc /\ Forall2 run_of dry rd
    /\ aggregate_stats A convert = Ok (sm_convert s) /\ aggregate_stats A dry = Ok (sm_dry s)
    /\ map fst (sm_tests s) = sort (firsts (map (fun y => pname (fst y)) (rc ++ rd)))
    /\ forall test e, In (test, e) (sm_tests s) ->
         te_count e = length (runs_named pname test rc) + length (runs_named pname test rd)
         /\ (forall f, In f pulled_fields -> dget f (te_convert e) = last_value f (runs_named pname test rc) /\ dget f (te_dry e) = last_value f (runs_named pname test rd))
         /\ (forall f, ~ In f pulled_fields -> dget f (te_convert e) = None /\ dget f (te_dry e) = None).
Proof. exact c113. Qed.
Print Assumptions C113_summary.
Theorem C113_summary_exists : forall A pname sort convert dry rc rd, Forall2 run_of convert rc -> Forall2 run_of dry rd ->
  exists s, generate_summary A pname sort convert dry = Ok s.
Proof. exact c113_total. Qed.
Print Assumptions C113_summary_exists.
(** The part after the last slash. *)
Definition base_name (p : str) : str := match find_sub [cSL] p with Some i => skipn (S i) p | None => p end.
Definition one_conversion_and_its_dry_run : res summary := generate_summary ints base_name (fun l => l) [run "convert" "a/x"] [run "rattler-bulk-build" "b/x"].
Example C113_example :
  one_conversion_and_its_dry_run
  = Ok {| sm_convert := [($"percent_success", PInt 7); ($"total", PInt 1)]; sm_dry := [($"percent_success", PInt 7); ($"total", PInt 1)];
          sm_tests := [($"x", {| te_count := 2; te_convert := [($"percent_success", JInt 7)]; te_dry := [($"percent_success", JInt 7)] |})] |}.
Proof. vm_compute. reflexivity. Qed.
(** The count of a test is not the number of times its conversion was run. *)
Theorem C113_count_of_conversions_refuted : exists convert dry s e, generate_summary ints base_name (fun l => l) convert dry = Ok s
  /\ In ($"x", e) (sm_tests s) /\ length convert = 1 /\ te_count e = 2.
Proof.
  exists [run "convert" "a/x"], [run "rattler-bulk-build" "b/x"].
  eexists _, _. split; [vm_compute; reflexivity|]. split; [left; reflexivity|]. split; reflexivity.
Qed.
Print Assumptions C113_count_of_conversions_refuted.

(** C114: selecting and fetching repositories. *)
Theorem C114_picked : forall sorted_set sample rows excluded num, makes_set sorted_set -> samples sample -> (0 <= num)%Z ->
  exists picked, pick_repos sorted_set sample rows excluded num = Some picked /\ NoDup picked
    /\ (forall x, In x picked -> listed_repo rows x /\ ~ In x excluded)
    /\ (Z.of_nat (length picked) <= num)%Z
    /\ ((Z.of_nat (length picked) < num)%Z -> forall x, listed_repo rows x -> ~ In x excluded -> In x picked).
Proof. exact c114_pick. Qed.
Print Assumptions C114_picked.
Theorem C114_fetched : forall get org repo, ~ In cSL org -> let s := org ++ cSL :: repo in
  (forall text, answered get (raw_url s $"main") text -> fetch_repo get s = (s, Some (repo ++ $"/recipe/meta.yaml", text)))
  /\ (forall text, (forall t, ~ answered get (raw_url s $"main") t) -> answered get (raw_url s $"master") text -> fetch_repo get s = (s, Some (repo ++ $"/recipe/meta.yaml", text)))
  /\ ((forall t, ~ answered get (raw_url s $"main") t) -> (forall t, ~ answered get (raw_url s $"master") t) -> fetch_repo get s = ([], None)).
Proof. exact c114_fetch. Qed.
Print Assumptions C114_fetched.
Theorem C114_no_organisation : forall get s, ~ In cSL s -> fetch_repo get s = ([], None).
Proof. exact c114_no_slash. Qed.
Print Assumptions C114_no_organisation.
Theorem C114_counted : forall sorted_set get picked, makes_set sorted_set ->
  NoDup (fetched_repos sorted_set get picked)
  /\ forall x, In x (fetched_repos sorted_set get picked) <-> In x picked /\ exists f, fetch_repo get x = (x, Some f).
Proof. exact c114_count. Qed.
Print Assumptions C114_counted.

Definition first_n (l : list str) (n : nat) : option (list str) := if n <=? length l then Some (firstn n l) else None.
Lemma first_n_samples : samples first_n.
Proof.
  intros l n ND L. unfold first_n. apply Nat.leb_le in L as L'. rewrite L'. exists (firstn n l). split; [reflexivity|].
  assert (NoDup (firstn n l)) as N.
  { clear L L'. revert n. induction ND as [|x l NI ND IH]; intros [|n]; cbn [firstn]; constructor; [|apply IH].
    intros I. apply NI. rewrite <- (firstn_skipn n l). apply in_or_app. left. exact I. }
  split; [exact N|]. split; [apply firstn_length_le; exact L|]. intros x I. rewrite <- (firstn_skipn n l). apply in_or_app. left. exact I.
Qed.
Lemma firsts_set : makes_set firsts.
Proof. intros l. split; [apply firsts_nodup|]. intros x. apply firsts_in. Qed.
Definition mini_get (url : str) : http_answer :=
  if str_eqb url (raw_url $"o/a" $"main") then RequestFailed
  else if str_eqb url (raw_url $"o/a" $"master") then Answer 200 $"A"
  else if str_eqb url (raw_url $"p/a" $"main") then Answer 200 $"B"
  else Answer 404 $"no".
Definition mini_rows : list (list str) := [[$"o/a"; $"x"]; []; [$"o/b"]; [$"p/a"]; [$"o/a"]].
Example C114_example :
  pick_repos firsts first_n mini_rows (excluded_repos [$"o/b "; $"q"]) 5 = Some [$"o/a"; $"p/a"]
  /\ pick_repos firsts first_n mini_rows [] 2 = Some [$"o/a"; $"o/b"]
  /\ fetch_repo mini_get $"o/a" = ($"o/a", Some ($"a/recipe/meta.yaml", $"A"))
  /\ fetch_repo mini_get $"o/b" = ([], None)
  /\ fetched_repos firsts mini_get [$"o/a"; $"o/b"; $"p/a"] = [$"o/a"; $"p/a"].
Proof. vm_compute. auto. Qed.
(** A list of bare repository names, as a directory listing gives them, excludes nothing. *)
Theorem C114_bare_names_excluded_refuted : exists rows excluded, In $"b" excluded
  /\ exists picked, pick_repos firsts first_n rows excluded 5 = Some picked /\ In $"o/b" picked.
Proof. exists mini_rows, [$"b"]. split; [left; reflexivity|]. eexists. split; [vm_compute; reflexivity|]. right. left. reflexivity. Qed.
Print Assumptions C114_bare_names_excluded_refuted.
(** Repositories of the same name in two organisations are written to the same file. *)
Theorem C114_one_file_each_refuted : exists get a b, a <> b
  /\ exists path ta tb, fetch_repo get a = (a, Some (path, ta)) /\ fetch_repo get b = (b, Some (path, tb)) /\ ta <> tb.
Proof.
  exists mini_get, $"o/a", $"p/a". split; [discriminate|]. exists $"a/recipe/meta.yaml", $"A", $"B".
  split; [vm_compute; reflexivity|]. split; [vm_compute; reflexivity|discriminate].
Qed.
Print Assumptions C114_one_file_each_refuted.
