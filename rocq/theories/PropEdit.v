(** Properties C18, C19, C23-C30, C37: editing histories, selectors, comments, variables. *)
From Verif Require Import SelSpec HistProofs Samples.

Lemma sample_fine : no_emptied_element sample_root. Proof. apply no_emptied_check; vm_compute; reflexivity. Qed.
Ltac found_at p := exists p; split; vm_compute; reflexivity.
Definition texts (r : recipe) : list str := splitlines (render mini_env r).

(** ** C18 *)
Theorem C18_flag_set_by_success_only : forall E text r0 h,
  new_recipe E text = Ok r0 -> (r_mod (run E h r0) = true <-> some_succeeded E h r0).
Proof. exact (fun E text r0 h H => c18_flag E h r0 (proj1 (proj2 (fresh_facts E text r0 H)))). Qed.
Print Assumptions C18_flag_set_by_success_only.
Theorem C18_flag_never_returns : forall E h r, r_mod r = true -> r_mod (run E h r) = true.
Proof. exact mod_stays. Qed.
Print Assumptions C18_flag_never_returns.
Theorem C18_unmodified_means_identical : forall E text r0 h unified,
  new_recipe E text = Ok r0 -> no_failed_move E h r0 -> r_mod (run E h r0) = false ->
  run E h r0 = r0 /\ render E (run E h r0) = render E r0 /\ diff E unified (run E h r0) = [].
Proof.
  exact (fun E text r0 h unified H HN HM =>
    let Q := c18_unmodified E h r0 (proj1 (proj2 (fresh_facts E text r0 H))) HN HM in
    conj Q (conj (f_equal (render E) Q)
      (eq_trans (c18_diff E unified (run E h r0))
         (f_equal (fun b : bool => if b then unified (splitlines (r_init (run E h r0))) (splitlines (render E (run E h r0))) else []) HM)))).
Qed.
Print Assumptions C18_unmodified_means_identical.
Theorem C18_diff_compares_with_the_original : forall E text r0 h unified,
  new_recipe E text = Ok r0 -> r_mod (run E h r0) = true ->
  diff E unified (run E h r0) = unified (splitlines text) (splitlines (render E (run E h r0)))
  /\ r_schema (run E h r0) = r_schema r0.
Proof.
  exact (fun E text r0 h unified H HM =>
    conj (eq_trans (c18_diff E unified (run E h r0))
           (eq_trans (f_equal (fun b : bool => if b then unified (splitlines (r_init (run E h r0))) (splitlines (render E (run E h r0))) else []) HM)
             (f_equal (fun t => unified (splitlines t) (splitlines (render E (run E h r0))))
                (eq_trans (proj1 (c18_frame E h r0)) (proj1 (proj2 (proj2 (fresh_facts E text r0 H))))))))
         (proj2 (c18_frame E h r0))).
Qed.
Print Assumptions C18_diff_compares_with_the_original.
(** A failed move changes the document and leaves the flag (and so the diff) as if nothing had happened. *)
Theorem C18_failed_move_refuted : exists r p, r_mod r = false /\ fst (patch mini_env p r) = Ok false
  /\ r_mod (snd (patch mini_env p r)) = false /\ render mini_env (snd (patch mini_env p r)) <> render mini_env r
  /\ forall unified, diff mini_env unified (snd (patch mini_env p r)) = [].
Proof.
  exists (recipe_of (nl ["foo:"; "  a: 1"]%string)), (payload "move" "/foo/bar" [("from", JStr $"/foo")]%string).
  split; [vm_compute; reflexivity|]. split; [vm_compute; reflexivity|]. split; [vm_compute; reflexivity|].
  split; [vm_compute; discriminate|]. intros u. reflexivity.
Qed.
Print Assumptions C18_failed_move_refuted.
Example C18_example :
  new_recipe mini_env sample_text = Ok sample
  /\ r_mod (run mini_env [EDelVar $"nope"; ERemSel $"/build/number"; EPatch (payload "remove" "/nope" [])] sample) = false
  /\ r_mod (run mini_env [EDelVar $"nope"; EAddComment $"/build/number" $"hello"] sample) = true.
Proof. repeat split; vm_compute; reflexivity. Qed.

(** ** C19 *)
Theorem C19_selector_queries_are_current : forall E text r0 h sel,
  new_recipe E text = Ok r0 -> no_failed_move E h r0 -> (forall e, In e h -> ~ is_comment_edit e) ->
  let r := run E h r0 in
  list_selectors r = first_occurrences (selectors_of_lines (r_root r))
  /\ (contains_selector sel r = true <->
      exists p n, node_at (r_root r) p = Some n /\ selector_of (n_comment n) = Some sel)
  /\ (comment_lines_not_elements (r_root r) ->
      fst (get_selector_paths sel r) =
      first_occurrences (map (path_at E (r_root r)) (positions_where (has_selector sel) (r_root r)))).
Proof.
  exact (fun E text r0 h sel H HN HC =>
    let T := c19_table E h r0 (proj1 (fresh_facts E text r0 H)) HN HC in
    conj (eq_trans (f_equal (fun t : seltbl => dkeys t) T) (collect_selectors_keys E (r_root (run E h r0))))
      (conj (c29_contains E (run E h r0) sel T) (c29_paths E (run E h r0) sel T))).
Qed.
Print Assumptions C19_selector_queries_are_current.
(** [add_comment] does not refresh the table: a bracketed word in a comment is a selector for get_selector_at_path, but
    not in the listing. *)
Theorem C19_add_comment_refuted : exists r, fst (add_comment $"/a" $"see [1]" r) = Ok tt
  /\ let r' := snd (add_comment $"/a" $"see [1]" r) in
     get_selector_at_path $"/a" None r' = Ok $"[1]" /\ contains_selector $"[1]" r' = false.
Proof. exists (recipe_of (nl ["a: 1"]%string)). repeat split; vm_compute; reflexivity. Qed.
Print Assumptions C19_add_comment_refuted.
(** After a failed move the selector of the lost line is still listed. *)
Theorem C19_failed_move_refuted : exists r p, fst (patch mini_env p r) = Ok false
  /\ list_selectors (snd (patch mini_env p r)) = [$"[win]"] /\ render mini_env (snd (patch mini_env p r)) = [].
Proof.
  exists (recipe_of (nl ["foo:"; "  a: 1  # [win]"]%string)), (payload "move" "/foo/bar" [("from", JStr $"/foo")]%string).
  repeat split; vm_compute; reflexivity.
Qed.
Print Assumptions C19_failed_move_refuted.
Example C19_example :
  list_selectors (run mini_env [EPatch (payload "remove" "/build/skip" []); EAddSel $"/build/number" $"[osx]" SMReplace] sample)
  = [$"[unix]"; $"[osx]"; $"[win]"].
Proof. vm_compute. reflexivity. Qed.

(** ** C23 *)
Theorem C23_selector_just_set_is_reported : forall E path sel b r q n,
  no_emptied_element (r_root r) -> bracketed sel b ->
  addresses (r_root r) path q -> node_at (r_root r) q = Some n ->
  exists r', add_selector E path sel SMReplace r = (Ok tt, r')
  /\ changed_at (comment_changed ($"# " ++ sel)) q (r_root r) (r_root r') /\ same_but_tree r r'
  /\ get_selector_at_path path None r' = Ok sel /\ contains_selector_at_path path r' = Ok true
  /\ contains_selector sel r' = true.
Proof. exact c23. Qed.
Print Assumptions C23_selector_just_set_is_reported.
Theorem C23_malformed_selector_rejected : forall E path sel mode r,
  (forall b c, sel = $"[" ++ b ++ $"]" ++ c -> In cNL b) ->
  fst (add_selector E path sel mode r) <> Ok tt /\ snd (add_selector E path sel mode r) = r.
Proof. exact add_selector_rejects. Qed.
Print Assumptions C23_malformed_selector_rejected.
Theorem C23_missing_path : forall E path sel mode r,
  path <> [] -> lookup (r_root r) path = None -> add_selector E path sel mode r = (Err EKey, r).
Proof. exact c23_missing. Qed.
Print Assumptions C23_missing_path.
(** Not only the addressed line: a key with a single list element shares its comment with the element, whose own
    selector is overwritten. *)
Theorem C23_other_lines_refuted : exists r,
  render mini_env r = nl ["foo:"; "  - a  # [win]"]%string /\ fst (add_selector mini_env $"/foo" $"[unix]" SMReplace r) = Ok tt
  /\ get_selector_at_path $"/foo/0" None (snd (add_selector mini_env $"/foo" $"[unix]" SMReplace r)) = Ok $"[unix]".
Proof. exists (recipe_of (nl ["foo:"; "  - a  # [win]"]%string)). repeat split; vm_compute; reflexivity. Qed.
Print Assumptions C23_other_lines_refuted.
Example C23_example :
  addresses sample_root $"/build/number" [1; 0]
  /\ texts (snd (add_selector mini_env $"/build/number" $"[osx]" SMReplace (recipe_of (nl ["build:"; "  number: 0  # x"; "  a: 1"]%string))))
     = [$"build:"; $"  number: 0  # [osx]"; $"  a: 1"].
Proof. split; [eexists; split; vm_compute; reflexivity|vm_compute; reflexivity]. Qed.

(** ** C24 *)
Theorem C24_selectors_are_joined : forall E path sel b r q n a mode,
  no_emptied_element (r_root r) -> mode <> SMReplace ->
  addresses (r_root r) path q -> node_at (r_root r) q = Some n ->
  selector_of (n_comment n) = Some ($"[" ++ a ++ $"]") -> bracketed sel b ->
  let s' := $"[" ++ a ++ $" " ++ join_word mode ++ $" " ++ b ++ $"]" in
  exists r', add_selector E path sel mode r = (Ok tt, r')
  /\ changed_at (comment_changed ($"# " ++ s')) q (r_root r) (r_root r') /\ same_but_tree r r'
  /\ get_selector_at_path path None r' = Ok s' /\ contains_selector s' r' = true.
Proof. exact c24. Qed.
Print Assumptions C24_selectors_are_joined.
Theorem C24_plain_comment_is_kept : forall E path sel b r q n mode,
  no_emptied_element (r_root r) -> mode <> SMReplace ->
  addresses (r_root r) path q -> node_at (r_root r) q = Some n ->
  n_comment n <> [] -> ~ In cRB (n_comment n) -> bracketed sel b ->
  exists r', add_selector E path sel mode r = (Ok tt, r')
  /\ changed_at (comment_changed ($"# " ++ sel ++ $" " ++ strip (replace_first [cHASH] [] (n_comment n)))) q (r_root r) (r_root r')
  /\ same_but_tree r r' /\ get_selector_at_path path None r' = Ok sel /\ contains_selector sel r' = true.
Proof. exact c24_plain. Qed.
Print Assumptions C24_plain_comment_is_kept.
(** A note beside the old selector is lost when selectors are joined. *)
Theorem C24_note_beside_selector_refuted : exists r,
  render mini_env r = nl ["a: 1  # [win] keep me"]%string
  /\ render mini_env (snd (add_selector mini_env $"/a" $"[osx]" SMAnd r)) = nl ["a: 1  # [win and osx]"]%string.
Proof. exists (recipe_of (nl ["a: 1  # [win] keep me"]%string)). split; vm_compute; reflexivity. Qed.
Print Assumptions C24_note_beside_selector_refuted.
Example C24_example :
  texts (snd (add_selector mini_env $"/a" $"[osx]" SMOr (recipe_of (nl ["a: 1  # [win]"]%string)))) = [$"a: 1  # [win or osx]"]
  /\ texts (snd (add_selector mini_env $"/a" $"[osx]" SMOr (recipe_of (nl ["a: 1  # note"]%string)))) = [$"a: 1  # [osx] note"].
Proof. split; vm_compute; reflexivity. Qed.

(** ** C25 *)
Theorem C25_remove_selector : forall E path r q n sel,
  no_emptied_element (r_root r) -> addresses (r_root r) path q -> node_at (r_root r) q = Some n ->
  one_line (n_comment n) -> get_selector_at_path path None r = Ok sel ->
  exists r' c', remove_selector E path r = (Ok (Some sel), r')
  /\ changed_at (comment_changed c') q (r_root r) (r_root r') /\ same_but_tree r r'
  /\ (exists before after, n_comment n = before ++ sel ++ after /\ letters c' = letters (before ++ after))
  /\ (starts_with_hash (n_comment n) -> c' = [] \/ starts_with_hash c')
  /\ get_selector_at_path path None r' = Err EKey /\ contains_selector_at_path path r' = Ok false.
Proof. exact c25. Qed.
Print Assumptions C25_remove_selector.
Theorem C25_nothing_to_remove : forall E path r q n,
  addresses (r_root r) path q -> node_at (r_root r) q = Some n -> no_selector (n_comment n) ->
  remove_selector E path r = (Ok None, r).
Proof. exact c25_none. Qed.
Print Assumptions C25_nothing_to_remove.
Theorem C25_missing_path : forall E path r,
  path <> [] -> lookup (r_root r) path = None -> remove_selector E path r = (Err EKey, r).
Proof. exact c25_missing. Qed.
Print Assumptions C25_missing_path.
(** Not only the addressed line: the single list element below the key takes over the key's comment. *)
Theorem C25_other_lines_refuted : exists r,
  render mini_env r = nl ["foo:  # [unix]"; "  - a  # [win]"]%string
  /\ fst (remove_selector mini_env $"/foo" r) = Ok (Some $"[unix]")
  /\ render mini_env (snd (remove_selector mini_env $"/foo" r)) = nl ["foo:"; "  - a"]%string.
Proof. exists (recipe_of (nl ["foo:  # [unix]"; "  - a  # [win]"]%string)). repeat split; vm_compute; reflexivity. Qed.
Print Assumptions C25_other_lines_refuted.
Example C25_example :
  get_selector_at_path $"/build/script/1" None sample = Ok $"[win]"
  /\ fst (remove_selector mini_env $"/build/script/1" sample) = Ok (Some $"[win]")
  /\ fst (remove_selector mini_env $"/build/number" sample) = Ok None
  /\ texts (snd (remove_selector mini_env $"/a/0" (recipe_of (nl ["a:"; "  - x  # [win] note"; "  - y"]%string))))
     = [$"a:"; $"  - x  # note"; $"  - y"].
Proof. repeat split; vm_compute; reflexivity. Qed.

(** ** C26 *)
Theorem C26_comment_keeps_selector : forall path comment r q n sel,
  no_emptied_element (r_root r) -> addresses (r_root r) path q -> node_at (r_root r) q = Some n ->
  get_selector_at_path path None r = Ok sel -> strip comment <> [] -> ~ In cRB comment ->
  exists r', add_comment path comment r = (Ok tt, r')
  /\ changed_at (comment_changed ($"# " ++ sel ++ $" " ++ comment_body (strip comment))) q (r_root r) (r_root r')
  /\ same_but_tree r r' /\ get_selector_at_path path None r' = Ok sel.
Proof. exact c26. Qed.
Print Assumptions C26_comment_keeps_selector.
Theorem C26_comment_without_selector : forall path comment r q n,
  no_emptied_element (r_root r) -> addresses (r_root r) path q -> node_at (r_root r) q = Some n ->
  no_selector (n_comment n) -> strip comment <> [] -> ~ In cRB comment ->
  exists r', add_comment path comment r = (Ok tt, r')
  /\ changed_at (comment_changed (hashed (strip comment))) q (r_root r) (r_root r')
  /\ same_but_tree r r' /\ get_selector_at_path path None r' = Err EKey.
Proof. exact c26_plain. Qed.
Print Assumptions C26_comment_without_selector.
Theorem C26_rejected : forall path comment r,
  strip comment = [] \/ (exists b c, strip comment = $"[" ++ b ++ $"]" ++ c /\ ~ In cNL b) ->
  add_comment path comment r = (Err EValue, r).
Proof. exact c26_rejected. Qed.
Print Assumptions C26_rejected.
Example C26_example :
  texts (snd (add_comment $"/a" $" # hello " (recipe_of (nl ["a: 1  # [win] old"]%string)))) = [$"a: 1  # [win] hello"]
  /\ texts (snd (add_comment $"/a" $"hello" (recipe_of (nl ["a: 1  # old"]%string)))) = [$"a: 1  # hello"]
  /\ fst (add_comment $"/a" $"[win]" (recipe_of (nl ["a: 1"]%string))) = Err EValue.
Proof. repeat split; vm_compute; reflexivity. Qed.

(** ** C27 *)
Theorem C27_line_edits_keep_the_document : forall E e r,
  is_line_edit e = true -> no_emptied_element (r_root r) ->
  without_comment_text (r_root (after E e r)) = without_comment_text (r_root r) /\ same_but_tree r (after E e r).
Proof. exact c27. Qed.
Print Assumptions C27_line_edits_keep_the_document.
Theorem C27_same_document_same_answers : forall E root root',
  without_comment_text root = without_comment_text root' ->
  (forall s q, addresses root s q <-> addresses root' s q)
  /\ (forall q n, node_at root q = Some n ->
        exists n', node_at root' q = Some n' /\ without_comment_text n = without_comment_text n')
  /\ list_value_paths E root = list_value_paths E root'
  /\ (forall v, find_value E root v = find_value E root' v).
Proof. exact c27_same. Qed.
Print Assumptions C27_same_document_same_answers.
(** An element whose last key was removed turns into a comment line when it is given a comment: the path disappears. *)
Theorem C27_emptied_element_refuted : exists r,
  contains_value (r_root r) $"/l/0" = Ok true
  /\ fst (add_comment $"/l/0" $"note" r) = Ok tt
  /\ contains_value (r_root (snd (add_comment $"/l/0" $"note" r))) $"/l/0" = Ok false.
Proof.
  exists (snd (patch mini_env (payload "remove" "/l/0/a" []) (recipe_of (nl ["l:"; "  - a: 1"]%string)))). repeat split; vm_compute; reflexivity.
Qed.
Print Assumptions C27_emptied_element_refuted.
Example C27_example : no_emptied_element sample_root
  /\ r_root (after mini_env (EAddSel $"/build/skip" $"[osx]" SMAnd) sample) <> sample_root.
Proof. split; [exact sample_fine|vm_compute; discriminate]. Qed.

(** ** C28 *)
(** The stored paths are consumed by the first query. *)
Theorem C28_second_query_refuted : exists r,
  fst (get_selector_paths $"[win]" r) = [$"/a"]
  /\ fst (get_selector_paths $"[win]" (snd (get_selector_paths $"[win]" r))) = [[]].
Proof. exists (recipe_of (nl ["a: 1  # [win]"]%string)). split; vm_compute; reflexivity. Qed.
Print Assumptions C28_second_query_refuted.
(** What holds: only the queried selector's stored paths are touched; everything else (document, variables, names of the
    selectors, paths of other selectors) is unchanged (missing: the same query answers the same, which is false). *)
Theorem C28_other_answers_unchanged_partial : forall sel sel' r,
  let r' := snd (get_selector_paths sel r) in
  r_root r' = r_root r /\ same_but_tree r r' /\ r_mod r' = r_mod r
  /\ list_selectors r' = list_selectors r
  /\ (sel' <> sel -> fst (get_selector_paths sel' r') = fst (get_selector_paths sel' r)).
Proof. exact c28_partial. Qed.
Print Assumptions C28_other_answers_unchanged_partial.

(** ** C29 *)
Theorem C29_selector_meaning : forall s sel, one_line s -> (selector_of s = Some sel <-> selector_in s sel).
Proof. exact selector_of_one_line. Qed.
Print Assumptions C29_selector_meaning.
Theorem C29_no_selector_meaning : forall s, selector_of s = None <-> no_selector s.
Proof. exact selector_of_none. Qed.
Print Assumptions C29_no_selector_meaning.
Theorem C29_listing_complete_and_ordered : forall E r,
  r_sel r = collect_selectors E (r_root r) -> list_selectors r = first_occurrences (selectors_of_lines (r_root r)).
Proof. exact (fun E r H => eq_trans (f_equal (fun t : seltbl => dkeys t) H) (collect_selectors_keys E (r_root r))). Qed.
Print Assumptions C29_listing_complete_and_ordered.
Theorem C29_contains_exactly_those : forall E r sel,
  r_sel r = collect_selectors E (r_root r) ->
  (contains_selector sel r = true <->
   exists p n, node_at (r_root r) p = Some n /\ selector_of (n_comment n) = Some sel).
Proof. exact c29_contains. Qed.
Print Assumptions C29_contains_exactly_those.
Theorem C29_paths : forall E r sel,
  r_sel r = collect_selectors E (r_root r) -> comment_lines_not_elements (r_root r) ->
  fst (get_selector_paths sel r) =
  first_occurrences (map (path_at E (r_root r)) (positions_where (has_selector sel) (r_root r))).
Proof. exact c29_paths. Qed.
Print Assumptions C29_paths.
Theorem C29_paths_nonempty : forall E r sel,
  r_sel r = collect_selectors E (r_root r) ->
  (fst (get_selector_paths sel r) <> [] <-> contains_selector sel r = true).
Proof. exact c29_paths_nonempty. Qed.
Print Assumptions C29_paths_nonempty.
Theorem C29_table_is_current : forall E text r,
  new_recipe E text = Ok r -> r_sel r = collect_selectors E (r_root r).
Proof. exact (fun E text r H => proj1 (fresh_facts E text r H)). Qed.
Print Assumptions C29_table_is_current.
Example C29_example :
  comment_lines_not_elements sample_root /\ list_selectors sample = [$"[unix]"; $"[win]"]
  /\ fst (get_selector_paths $"[win]" sample) = [$"/build/skip"; $"/build/script/1"].
Proof. split; [apply not_elements_check; vm_compute; reflexivity|split; vm_compute; reflexivity]. Qed.

(** ** C30 *)
Theorem C30_comments_table : forall E root path c,
  every_comment one_line root -> every_comment starts_with_hash root ->
  In (path, c) (get_comments_table E root) ->
  exists p n, node_at root p = Some n /\ path = path_at E root p /\ is_comment n = false /\ n_comment n <> []
  /\ no_selector c /\ starts_with_hash c
  /\ (no_selector (n_comment n) -> c = n_comment n)
  /\ (forall sel, selector_of (n_comment n) = Some sel -> c <> $"#" /\
        exists before after, n_comment n = before ++ sel ++ after /\ letters c = letters (before ++ after)).
Proof. exact c30. Qed.
Print Assumptions C30_comments_table.
Theorem C30_paths_in_order : forall E root,
  dkeys (get_comments_table E root) = first_occurrences (map (path_at E root) (positions_where reportable root)).
Proof. exact c30_keys. Qed.
Print Assumptions C30_paths_in_order.
Theorem C30_which_lines : forall n,
  one_line (n_comment n) ->
  (reportable n = true <->
   is_comment n = false /\ n_comment n <> [] /\
   (no_selector (n_comment n) \/
    exists before sel after, selector_of (n_comment n) = Some sel /\ n_comment n = before ++ sel ++ after
     /\ ~ In cLB before /\ ~ In cRB after
     /\ ~ In (replace_first $"#  " $"# " (replace_first $"#  # " $"# " (strip (before ++ after)))) [[]; $"#"])).
Proof. exact reportable_spec. Qed.
Print Assumptions C30_which_lines.
Example C30_example :
  every_comment one_line sample_root /\ every_comment starts_with_hash sample_root
  /\ get_comments_table mini_env sample_root = [($"/build/script/1", $"# note")].
Proof.
  split; [apply (every_comment_check _ _ _ one_line_check); vm_compute; reflexivity|].
  split; [apply (every_comment_check _ _ _ hash_check); vm_compute; reflexivity|vm_compute; reflexivity].
Qed.

(** ** C37 *)
Theorem C37_last_write_wins : forall E h r x d,
  NoDup (list_variables r) ->
  get_variable x d (run E h r) = match last_word x h with
    | VSet v => Ok v
    | VGone => match d with Some d => Ok d | None => Err EKey end
    | VUntouched => get_variable x d r
    end
  /\ contains_variable x (run E h r) = match last_word x h with VSet v => true | VGone => false | VUntouched => contains_variable x r end.
Proof. exact c37. Qed.
Print Assumptions C37_last_write_wins.
Theorem C37_order_of_first_set : forall E h r,
  NoDup (list_variables r) ->
  list_variables (run E h r) = fold_left var_order h (list_variables r) /\ NoDup (list_variables (run E h r)).
Proof. exact c37_order. Qed.
Print Assumptions C37_order_of_first_set.
Theorem C37_distinct_names_initially : forall E text r, new_recipe E text = Ok r -> NoDup (list_variables r).
Proof. exact (fun E text r H => proj2 (proj2 (proj2 (fresh_facts E text r H)))). Qed.
Print Assumptions C37_distinct_names_initially.
Example C37_example :
  let h := [ESetVar $"a" (JInt 1); ESetVar $"b" (JInt 2); EDelVar $"a"; ESetVar $"c" (JInt 3); ESetVar $"b" (JInt 4); ESetVar $"a" (JInt 5)] in
  list_variables (run mini_env h sample) = [$"b"; $"c"; $"a"]
  /\ get_variable $"b" None (run mini_env h sample) = Ok (JInt 4) /\ last_word $"b" h = VSet (JInt 4)
  /\ last_word $"a" (firstn 3 h) = VGone /\ last_word $"zz" h = VUntouched.
Proof. cbv zeta. repeat split; vm_compute; reflexivity. Qed.
