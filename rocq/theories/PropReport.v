(** Property theorems C107 to C110: the hash-type variable, error messages of builds, the debug file of a bulk build, and the
    variables of a build configuration file. *)
From Verif Require Import Samples MiniYaml RenderProofs PropEdit PropGraph HashProofs ReportProofs ReportProofs2.
From Verif Require Import ReportSpec.

(** ** C107 *)
Theorem C107_hash_type_is_taken_out : forall variants first more,
  (forall v, In v variants <-> In v HASH_TYPE_VARIANTS) -> marks_ok first more ->
  pre_process_remove_hash_type variants (with_marks old_mark first more) = with_marks new_mark first more.
Proof. exact c107. Qed.
Print Assumptions C107_hash_type_is_taken_out.
Theorem C107_other_text_is_kept : forall variants text,
  (forall v, In v variants <-> In v HASH_TYPE_VARIANTS) -> no_mark text -> pre_process_remove_hash_type variants text = text.
Proof. intros variants text V N. pose proof (c107 variants text [] V (conj N I)) as H. unfold with_marks in H. cbn [map concat] in H. rewrite !app_nil_r in H. exact H. Qed.
Print Assumptions C107_other_text_is_kept.
Definition hash_pieces : list (hash_mark * str) := [
  (HSet $"hash_type", nl ["{% set hash = 'abc' %}"; "source:"; "  url: http://x"]%string ++ $"  ");
  (HKey false $"hash_type" false, $" {{ hash }}" ++ [cNL] ++ $"  ");
  (HKey true $"hashtype" true, $" 123" ++ [cNL])].
Example C107_example :
  with_marks old_mark [] hash_pieces = nl ["{% set hash_type = ""sha256"" %}"; "{% set hash = 'abc' %}"; "source:"; "  url: http://x";
      "  {{ hash_type }}: {{ hash }}"; "  '{{ hashtype }}': 123"]%string
  /\ with_marks new_mark [] hash_pieces = nl ["{% set hash = 'abc' %}"; "source:"; "  url: http://x"; "  sha256: {{ hash }}"; "  sha256: 123"]%string
  /\ pre_process_remove_hash_type HASH_TYPE_VARIANTS (with_marks old_mark [] hash_pieces) = with_marks new_mark [] hash_pieces.
Proof. repeat split; vm_compute; reflexivity. Qed.
Lemma no_mark_check s : forallb (fun w => negb (contains_sub w s)) (set_texts ++ key_texts) = true -> no_mark s.
Proof.
  intros H m I T. rewrite forallb_forall in H. specialize (H (old_mark m)).
  assert (In (old_mark m) (set_texts ++ key_texts)) as J by (apply in_or_app; destruct m; [left; apply in_set|right; apply in_key]; exact I).
  specialize (H J). apply contains_sub_spec in T. rewrite T in H. discriminate.
Qed.
Example C107_example_fits : marks_ok [] hash_pieces.
Proof.
  unfold hash_pieces. cbn [marks_ok mark_name].
  repeat split; try (apply no_mark_check; vm_compute; reflexivity); try (cbn; tauto).
  - intros _ (a & H). apply (f_equal (fun s => last s cNL)) in H. rewrite last_last in H. vm_compute in H. discriminate.
  - discriminate.
Qed.
(** The variable need not be ["sha256"]: an MD5 sum is then declared to be a SHA-256 sum. *)
Theorem C107_other_hash_refuted : exists text,
  text = nl ["{% set hash_type = ""md5"" %}"; "source:"; "  {{ hash_type }}: d41d8cd98f00b204e9800998ecf8427e"]%string
  /\ pre_process_remove_hash_type HASH_TYPE_VARIANTS text
     = nl ["{% set hash_type = ""md5"" %}"; "source:"; "  sha256: d41d8cd98f00b204e9800998ecf8427e"]%string.
Proof. eexists. split; [reflexivity|]. vm_compute. reflexivity. Qed.
Print Assumptions C107_other_hash_refuted.
(** The variable goes even if it is still used: what is left names a variable that is not set. *)
Theorem C107_still_used_refuted : exists text r,
  text = nl ["{% set hash_type = ""sha256"" %}"; "extra:"; "  checked-with: {{ hash_type }}"]%string
  /\ new_recipe mini_env (pre_process_remove_hash_type HASH_TYPE_VARIANTS text) = Ok r
  /\ list_variables r = [] /\ PropEdit.texts r = [$"extra:"; $"  checked-with: {{ hash_type }}"].
Proof. do 2 eexists. split; [reflexivity|]. split; [vm_compute; reflexivity|]. split; vm_compute; reflexivity. Qed.
Print Assumptions C107_still_used_refuted.

(** ** C108 *)
Theorem C108_error_messages : forall code first more, errors_ok first more ->
  build_recipe (Ended code (with_errors first more)) = {| bd_code := code; bd_errors := map (fun x => error_text (fst x)) more |}.
Proof. exact c108. Qed.
Print Assumptions C108_error_messages.
(** Every output is of that form. *)
Theorem C108_every_output : forall code s, exists first more, errors_ok first more /\ s = with_errors first more
  /\ build_recipe (Ended code s) = {| bd_code := code; bd_errors := map (fun x => error_text (fst x)) more |}.
Proof. exact c108_every. Qed.
Print Assumptions C108_every_output.
Example C108_example :
  build_recipe (Ended 1 (nl ["start"; "Error: first thing"; "more"; "Error:"; "   second Error: thing"; "Error:none"; "Error: third"]%string))
  = {| bd_code := 1; bd_errors := [$"Error: first thing"; $"Error:" ++ [cNL] ++ $"   second Error: thing"; $"Error: third"] |}.
Proof. vm_compute. reflexivity. Qed.
(** Only the first line of a message is kept: the next lines may say what is wrong. *)
Theorem C108_cut_message_refuted : exists text, text = nl ["Error: failed to render"; "  because of jinja"]%string
  /\ bd_errors (build_recipe (Ended 1 text)) = [$"Error: failed to render"].
Proof. eexists. split; [reflexivity|]. vm_compute. reflexivity. Qed.
Print Assumptions C108_cut_message_refuted.

(** ** C109 *)
Theorem C109_debug_file : forall sort results min_rate c t, (forall l, Permutation l (sort l)) -> NoDup (map fst results) ->
  rattler_bulk_build results min_rate = (c, Some t) ->
  let tbl := map (fun nr => (fst nr, build_recipe (snd nr))) results in
  let messages := firsts (flat_map (fun nb => bd_errors (snd nb)) tbl) in
  let groups := error_groups sort tbl (br_hist t) in
  Permutation (map fst groups) messages /\ NoDup messages
  /\ (forall e names, In (e, names) groups -> names = sort (reporting e tbl) /\ names <> [])
  /\ most_frequent_first groups
  /\ (forall k, map fst (filter (fun g => length (snd g) =? k) groups) = filter (fun e => length (reporting e tbl) =? k) messages).
Proof. exact c109. Qed.
Print Assumptions C109_debug_file.
Definition three_builds : list (str * process) :=
  [($"a", Ended 1 $"Error: x"); ($"b", Ended 1 ($"Error: y" ++ [cNL] ++ $"Error: z")); ($"c", Ended 1 ($"Error: y"))].
Example C109_example :
  match rattler_bulk_build three_builds 0 with
  | (_, Some t) => error_groups (fun l => l) (map (fun nr => (fst nr, build_recipe (snd nr))) three_builds) (br_hist t)
  | _ => []
  end = [($"Error: y", [$"b"; $"c"]); ($"Error: x", [$"a"]); ($"Error: z", [$"b"])].
Proof. vm_compute. reflexivity. Qed.

(** ** C110 *)
Theorem C110_listed_variables : forall E text c, cbc_parser E text = Ok c -> exists r d,
  new_recipe E text = Ok r /\ get_value E (r_root r) $"/" None None = Ok (JDict d)
  /\ (distinct_names (map fst d) ->
      list_cbc_variables c = map fst (filter (fun kv => has_values (snd kv) && negb (is_zip_keys (fst kv))) d))
  /\ (forall v, cbc_contains c v = true <-> In (PStr v) (list_cbc_variables c))
  /\ (forall v q, cbc_contains c v = false <-> get_cbc_variable_value c v q None = Err EKey).
Proof. exact c110. Qed.
Print Assumptions C110_listed_variables.
Definition configured (text : list string) : list prim := match cbc_parser mini_env (nl text) with Ok c => list_cbc_variables c | Err _ => [] end.
Example C110_example : configured cbc_text = [PStr $"python"; PStr $"numpy"].
Proof. vm_compute. reflexivity. Qed.
(** A variable with a single value is not known. *)
Theorem C110_single_value_refuted : exists c, cbc_parser mini_env (nl ["c_version: 3"; "python:"; "  - 3.9"]%string) = Ok c
  /\ cbc_contains c $"c_version" = false /\ cbc_contains c $"python" = true.
Proof. eexists. split; [vm_compute; reflexivity|]. split; vm_compute; reflexivity. Qed.
Print Assumptions C110_single_value_refuted.
