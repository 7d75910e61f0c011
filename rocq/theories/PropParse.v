(** Properties C88 and C89: what holds of the lines of every parsed document, and what edits make of it. *)
From Verif Require Import PropPatch PropEdit WellProofs3.
From Verif Require Import WellSpec.

(** ** C88 *)
Theorem C88_parsed_lines : forall E text r, new_recipe E text = Ok r ->
  well_formed (r_root r) /\ every_comment SelSpec.one_line (r_root r).
Proof. intros E text r H. split; [exact (parsed_sound E text r H)|exact (parsed_one_line E text r H)]. Qed.
Print Assumptions C88_parsed_lines.
Theorem C88_parsed_values : forall E text r, reads_proper E -> new_recipe E text = Ok r -> proper_tree (r_root r) = true.
Proof. exact parsed_proper. Qed.
Print Assumptions C88_parsed_values.
(** The assumptions that other theorems make about documents follow. *)
Theorem C88_consequences : forall root, well_formed root ->
  no_emptied_element root /\ comment_lines_not_elements root /\ every_comment starts_with_hash root.
Proof. intros root H. split; [exact (well_no_emptied root H)|]. split; [exact (well_not_elements root H)|exact (well_hash root H)]. Qed.
Print Assumptions C88_consequences.
(** A comment line that is indented less than the lines after it takes these lines for its own: it is no comment any more, its
    section is left empty, and the rendered text shows the internal marker object in its place. *)
Theorem C88_comment_captures_refuted : exists text r p n,
  new_recipe mini_env text = Ok r /\ In $"  # the steps" (splitlines text)
  /\ node_at (r_root r) p = Some n /\ n_comment n = $"# the steps" /\ n_value n = VSent /\ is_comment n = false
  /\ length (n_children n) = 2
  /\ In ($"  " ++ sent_str mini_env ++ $":  # the steps") (splitlines (render mini_env r)).
Proof.
  exists (nl ["build:"; "  script:"; "  # the steps"; "    - foo"; "    - bar"; "about:"; "  home: x"]%string),
    (recipe_of (nl ["build:"; "  script:"; "  # the steps"; "    - foo"; "    - bar"; "about:"; "  home: x"]%string)), [0; 1],
    (match node_at (r_root (recipe_of (nl ["build:"; "  script:"; "  # the steps"; "    - foo"; "    - bar"; "about:"; "  home: x"]%string))) [0; 1] with
     | Some n => n | None => root_node [] end).
  split; [vm_compute; reflexivity|]. split; [vm_compute; tauto|]. repeat split; try (vm_compute; reflexivity). vm_compute. tauto.
Qed.
Print Assumptions C88_comment_captures_refuted.
(** A comment that contains a colon followed by ">" is taken for the header of a text block. *)
Theorem C88_comment_as_header_refuted : exists text r,
  new_recipe mini_env text = Ok r /\ splitlines text = [$"run:"; $"  - numpy  # NOTE: >=1.17"; $"  - b"; $"about: x"]
  /\ contains_value (r_root r) $"/run/0" = Ok true
  /\ splitlines (render mini_env r) = [$"run:"; $"  - numpy:  # NOTE: >=1.17"; $"    - []"; $"  - b"; []; $"about: x"].
Proof.
  exists (nl ["run:"; "  - numpy  # NOTE: >=1.17"; "  - b"; "about: x"]%string), (recipe_of (nl ["run:"; "  - numpy  # NOTE: >=1.17"; "  - b"; "about: x"]%string)).
  repeat split; vm_compute; reflexivity.
Qed.
Print Assumptions C88_comment_as_header_refuted.
Example C88_example : reads_proper mini_env /\ new_recipe mini_env sample_text = Ok sample
  /\ well_formed sample_root /\ proper_tree sample_root = true
  /\ (exists n, node_at sample_root [0; 1] = Some n /\ n_comment n = $"# a comment" /\ is_comment n = true)
  /\ (exists n, node_at sample_root [3; 0] = Some n /\ n_value n = VSent /\ n_lmf n = true).
Proof.
  assert (new_recipe mini_env sample_text = Ok sample) as HS by (vm_compute; reflexivity).
  split; [exact mini_proper|]. split; [exact HS|]. split; [exact (parsed_sound _ _ _ HS)|]. split; [exact (parsed_proper _ _ _ mini_proper HS)|].
  split; eexists; (split; [vm_compute; reflexivity|]); split; reflexivity.
Qed.

(** ** C89 *)
Theorem C89_values_stay_proper : forall E text r0 h, reads_proper E -> new_recipe E text = Ok r0 ->
  proper_tree (r_root (run E h r0)) = true.
Proof. intros E text r0 h HE H. exact (run_proper E h r0 HE (parsed_proper E text r0 HE H)). Qed.
Print Assumptions C89_values_stay_proper.
Theorem C89_lines_stay_well_formed : forall E text r0 h, reads_proper E -> new_recipe E text = Ok r0 ->
  all_considerate E h r0 -> well_formed (r_root (run E h r0)).
Proof. intros E text r0 h HE H HC. exact (run_well E h r0 HE (parsed_proper E text r0 HE H) HC (parsed_sound E text r0 H)). Qed.
Print Assumptions C89_lines_stay_well_formed.
(** So, for whatever has been done to a parsed recipe: removing never raises, and when it succeeds exactly the addressed line
    goes (C12, C17 without assumptions on the document). *)
Theorem C89_remove_after_any_history : forall E text r0 h p s, reads_proper E -> new_recipe E text = Ok r0 ->
  asks p (RRemove s) ->
  (exists b, fst (patch E p (run E h r0)) = Ok b)
  /\ forall r', patch E p (run E h r0) = (Ok true, r') ->
     exists q i, addresses (r_root (run E h r0)) s (q ++ [i]) /\ changed_at (line_removed i) q (r_root (run E h r0)) (r_root r')
                 /\ same_but_tree (run E h r0) r'.
Proof.
  intros E text r0 h p s HE H HA. pose proof (run_proper E h r0 HE (parsed_proper E text r0 HE H)) as HP.
  split; [exact (c17_remove E p s _ HP HA)|]. intros r' HR. exact (c12_success E p s _ r' HP HA HR).
Qed.
Print Assumptions C89_remove_after_any_history.
(** Edits of comments and selectors keep everything else, after any considerate history (C27 without assumptions). *)
Theorem C89_line_edits_after_history : forall E text r0 h e, reads_proper E -> new_recipe E text = Ok r0 ->
  all_considerate E h r0 -> is_line_edit e = true ->
  without_comment_text (r_root (after E e (run E h r0))) = without_comment_text (r_root (run E h r0)).
Proof.
  intros E text r0 h e HE H HC HL.
  exact (proj1 (c27 E e _ HL (well_no_emptied _ (run_well E h r0 HE (parsed_proper E text r0 HE H) HC (parsed_sound E text r0 H))))).
Qed.
Print Assumptions C89_line_edits_after_history.
(** Removing the only key of an element leaves an element without lines. *)
Theorem C89_emptied_element_refuted : exists r p, well_formed (r_root r) /\ asks p (RRemove $"/l/0/a")
  /\ fst (patch mini_env p r) = Ok true /\ ~ no_emptied_element (r_root (snd (patch mini_env p r))).
Proof.
  exists (recipe_of (nl ["l:"; "  - a: 1"]%string)), (payload "remove" "/l/0/a" []).
  split; [apply (parsed_sound mini_env (nl ["l:"; "  - a: 1"]%string)); vm_compute; reflexivity|].
  split; [asks_payload|]. split; [vm_compute; reflexivity|].
  intros (_ & H). refine (H [0; 0] (Nd VSent [] [] true MNone false) _ eq_refl eq_refl eq_refl). vm_compute. reflexivity.
Qed.
Print Assumptions C89_emptied_element_refuted.
(** A text that starts with "#", written in place of a list element, becomes a comment; an empty text deletes the element, and a
    text with a colon becomes a key among the elements.  Each time the patch answers true. *)
Theorem C89_text_values_refuted : exists r, well_formed (r_root r) /\ texts r = [$"l:"; $"  - a"; $"  - b"]
  /\ edited (payload "replace" "/l/0" [("value", JStr $"# x")]%string) ["l:"; "  - a"; "  - b"]%string = (Ok true, nl ["l:"; "  # x"; "  - b"]%string)
  /\ edited (payload "replace" "/l/0" [("value", JStr [])]%string) ["l:"; "  - a"; "  - b"]%string = (Ok true, nl ["l:"; "  - b"]%string)
  /\ edited (payload "add" "/l/-" [("value", JStr $"a: b")]%string) ["l:"; "  - a"; "  - b"]%string
     = (Ok true, nl ["l:"; "  - a"; "  - b"; "  a: b"]%string).
Proof.
  exists (recipe_of (nl ["l:"; "  - a"; "  - b"]%string)).
  split; [apply (parsed_sound mini_env (nl ["l:"; "  - a"; "  - b"]%string)); vm_compute; reflexivity|]. repeat split; vm_compute; reflexivity.
Qed.
Print Assumptions C89_text_values_refuted.
Definition some_edits : list edit :=
  [EPatch (payload "add" "/build/x" [("value", JInt 5)]%string); EPatch (payload "replace" "/package/name" [("value", JStr $"bar")]%string);
   EPatch (payload "remove" "/outputs/0/number" []); EAddSel $"/build/number" $"[osx]" SMAnd].
Example C89_example : reads_proper mini_env /\ new_recipe mini_env sample_text = Ok sample /\ all_considerate mini_env some_edits sample
  /\ texts (run mini_env some_edits sample) <> texts sample
  /\ In $"  x: 5" (texts (run mini_env some_edits sample)) /\ In $"  - name: a" (texts (run mini_env some_edits sample)).
Proof.
  split; [exact mini_proper|]. split; [vm_compute; reflexivity|]. split.
  - split; [|split; [|split; [|split; exact I]]].
    + intros q HQ. assert (asks (payload "add" "/build/x" [("value", JInt 5)]%string) (RAdd $"/build/x" (JInt 5))) as HA by asks_payload.
      rewrite (asks_fun _ _ _ HQ HA). split.
      * intros lines HL. vm_compute in HL. injection HL as <-. split; [discriminate|]. constructor; [discriminate|constructor].
      * intros k above HK. vm_compute in HK. injection HK as <- _. intros lines HL. vm_compute in HL. injection HL as <-.
        split; [discriminate|]. constructor; [discriminate|constructor].
    + intros q HQ. assert (asks (payload "replace" "/package/name" [("value", JStr $"bar")]%string) (RReplace $"/package/name" (JStr $"bar"))) as HA by asks_payload.
      rewrite (asks_fun _ _ _ HQ HA). intros lines HL. vm_compute in HL. injection HL as <-. split; [discriminate|]. constructor; [discriminate|constructor].
    + intros q HQ. assert (asks (payload "remove" "/outputs/0/number" []) (RRemove $"/outputs/0/number")) as HA by asks_payload.
      rewrite (asks_fun _ _ _ HQ HA). intros p i n (st & HS & HT) HN _. vm_compute in HS. injection HS as <-. vm_compute in HT.
      injection HT as HT. change [3; 0; 1] with ([3; 0] ++ [1]) in HT. apply app_inj_tail in HT as (<- & <-). vm_compute in HN. injection HN as <-.
      eexists _, []. split; reflexivity.
  - split; [vm_compute; discriminate|]. split; vm_compute; tauto.
Qed.
