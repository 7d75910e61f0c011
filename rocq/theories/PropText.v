(** Properties C104 to C106: what edits do to the text of a recipe. *)
From Verif Require Import PropPatch PropEdit PropParse WellProofs WellProofs2 WellProofs3 TextProofs.
From Verif Require Import TextSpec.

(** ** C104 *)
Theorem C104_comment_edits_in_the_text : forall E e path r q n, edits_comment_at e path -> succeeded E e r ->
  well_formed (r_root r) -> proper_tree (r_root r) = true -> begins_once (r_root r) = true ->
  addresses (r_root r) path q -> q <> [] -> node_at (r_root r) q = Some n -> written_line n ->
  exists c', changed_at (comment_changed c') q (r_root r) (r_root (after E e r)) /\ text_recommented E n c' r (after E e r).
Proof. exact c104. Qed.
Print Assumptions C104_comment_edits_in_the_text.
Theorem C104_in_parsed_recipes : forall E text r0 h e path q n, reads_proper E -> new_recipe E text = Ok r0 -> all_considerate E h r0 ->
  begins_once (r_root (run E h r0)) = true -> edits_comment_at e path -> succeeded E e (run E h r0) ->
  addresses (r_root (run E h r0)) path q -> q <> [] -> node_at (r_root (run E h r0)) q = Some n -> written_line n ->
  exists c', changed_at (comment_changed c') q (r_root (run E h r0)) (r_root (after E e (run E h r0)))
             /\ text_recommented E n c' (run E h r0) (after E e (run E h r0)).
Proof.
  intros E text r0 h e path q n HE H HC HB H1 H2. pose proof (parsed_proper E text r0 HE H) as HP.
  exact (c104 E e path _ q n H1 H2 (run_well E h r0 HE HP HC (parsed_sound E text r0 H)) (run_proper E h r0 HE HP) HB).
Qed.
Print Assumptions C104_in_parsed_recipes.
(** A selector set on a list element that is a mapping is reported, but it is not in the text. *)
Theorem C104_lost_selector_refuted : exists r, begins_once (r_root r) = true
  /\ fst (add_selector mini_env $"/l/0" $"[win]" SMReplace r) = Ok tt
  /\ get_selector_at_path $"/l/0" None (snd (add_selector mini_env $"/l/0" $"[win]" SMReplace r)) = Ok $"[win]"
  /\ texts r = [$"l:"; $"  - a: 1"; $"    b: 2"]
  /\ render mini_env (snd (add_selector mini_env $"/l/0" $"[win]" SMReplace r)) = render mini_env r.
Proof. exists (recipe_of (nl ["l:"; "  - a: 1"; "    b: 2"]%string)). repeat split; vm_compute; reflexivity. Qed.
Print Assumptions C104_lost_selector_refuted.
(** Removing a comment may turn a key into the first key of an element again: the text then shows two elements. *)
Theorem C104_repeated_first_key_refuted : exists r,
  texts r = [$"l:"; $"  - a: 1"; $"    b: 2"; $"    a: 1  # [win]"]
  /\ texts (snd (add_selector mini_env $"/l/0/a" $"[win]" SMReplace r)) = [$"l:"; $"  - a: 1  # [win]"; $"    b: 2"; $"  - a: 1  # [win]"].
Proof. exists (recipe_of (nl ["l:"; "  - a: 1"; "    b: 2"; "    a: 1  # [win]"]%string)). repeat split; vm_compute; reflexivity. Qed.
Print Assumptions C104_repeated_first_key_refuted.
Example C104_example : exists n, node_at sample_root [1; 0] = Some n /\ addresses sample_root $"/build/number" [1; 0] /\ written_line n /\ lone_element n = false
  /\ begins_once sample_root = true /\ succeeded mini_env (EAddSel $"/build/number" $"[osx]" SMReplace) sample
  /\ texts (snd (add_selector mini_env $"/l/0/b" $"[win]" SMReplace (recipe_of (nl ["l:"; "  - a: 1"; "    b: 2  # x"; "  - c: 1"]%string))))
     = [$"l:"; $"  - a: 1"; $"    b: 2  # [win]"; $"  - c: 1"].
Proof.
  eexists. split; [vm_compute; reflexivity|]. split; [eexists; split; vm_compute; reflexivity|]. split; [repeat split; auto|]. repeat split; vm_compute; reflexivity.
Qed.

(** ** C105 *)
Theorem C105_replaced_value_in_the_text : forall E p s v r r' q n u w, asks p (RReplace s (JP v)) -> patch E p r = (Ok true, r') ->
  written_as E (JP v) [plain_line w] -> proper_value w = true ->
  well_formed (r_root r) -> proper_tree (r_root r) = true -> begins_once (r_root r) = true ->
  addresses (r_root r) s q -> q <> [] -> node_at (r_root r) q = Some n ->
  key_with_value n u \/ (plain_element n u /\ exists c above, str_to_stack_path s = Ok (c :: above) /\ isdigit c = true) ->
  exists L L', render E r = join [cNL] L /\ render E r' = join [cNL] L' /\ one_line_differs (revalued u w) L L'.
Proof. exact c105. Qed.
Print Assumptions C105_replaced_value_in_the_text.
(** The comment of the line goes with the old value, and with it the selector; the key still reports the selector. *)
Theorem C105_selector_is_lost_refuted : exists r p,
  texts r = [$"build:"; $"  number: 0  # [win]"; $"  a: 1"] /\ asks p (RReplace $"/build/number" (JInt 1)) /\ fst (patch mini_env p r) = Ok true
  /\ texts (snd (patch mini_env p r)) = [$"build:"; $"  number: 1"; $"  a: 1"]
  /\ get_selector_at_path $"/build/number" None (snd (patch mini_env p r)) = Ok $"[win]".
Proof.
  exists (recipe_of (nl ["build:"; "  number: 0  # [win]"; "  a: 1"]%string)), (payload "replace" "/build/number" [("value", JInt 1)]%string).
  split; [vm_compute; reflexivity|]. split; [asks_payload|]. repeat split; vm_compute; reflexivity.
Qed.
Print Assumptions C105_selector_is_lost_refuted.
Example C105_example :
  written_as mini_env (JInt 7) [plain_line (JInt 7)] /\ written_as mini_env (JStr $"x") [plain_line (JStr $"x")]
  /\ (exists n, node_at (r_root (recipe_of (nl ["a:"; "  b: 1  # x"; "  c: 2"]%string))) [0; 0] = Some n /\ key_with_value n (JInt 1))
  /\ edited (payload "replace" "/a/b" [("value", JInt 7)]%string) ["a:"; "  b: 1  # x"; "  c: 2"]%string
     = (Ok true, nl ["a:"; "  b: 7"; "  c: 2"]%string)
  /\ edited (payload "replace" "/l/1" [("value", JStr $"x")]%string) ["l:"; "  - a  # [win]"; "  - b  # [osx]"]%string
     = (Ok true, nl ["l:"; "  - a  # [win]"; "  - x"]%string).
Proof.
  split; [vm_compute; reflexivity|]. split; [vm_compute; reflexivity|]. split.
  - eexists. split; [vm_compute; reflexivity|]. split; [reflexivity|]. split; [reflexivity|]. eexists. repeat split; reflexivity.
  - split; vm_compute; reflexivity.
Qed.

(** ** C106 *)
Theorem C106_other_sections_in_the_text : forall E p q r names, asks p q -> inside_sections q names -> document_root (r_root r) ->
  let r' := snd (patch E p r) in
  document_root (r_root r') /\ exists V parts parts',
  render E r = join [cNL] (V ++ concat parts) /\ render E r' = join [cNL] (V ++ concat parts')
  /\ length parts = length (n_children (r_root r)) /\ length parts' = length parts
  /\ forall i c, nth_error (n_children (r_root r)) i = Some c -> (forall k, In k names -> n_value c <> VJ (JStr k)) ->
       nth_error parts i = Some (section_lines E (r_root r) c) /\ nth_error parts' i = nth_error parts i.
Proof. exact c106. Qed.
Print Assumptions C106_other_sections_in_the_text.
Theorem C106_every_edited_recipe : forall E text r0 h, new_recipe E text = Ok r0 -> document_root (r_root (run E h r0)).
Proof. intros E text r0 h H. exact (run_root E h r0 (parsed_root E text r0 H)). Qed.
Print Assumptions C106_every_edited_recipe.
Example C106_example : document_root sample_root
  /\ inside_sections (RMove $"/build/number" $"/about/x") [$"build"; $"about"]
  /\ edited (payload "move" "/c/x" [("from", JStr $"/a/x")]%string) ["a:"; "  x: 1"; "  y: 2"; "# between"; "b:"; "  - u  # [win]"; "c:"; "  z: 3"]%string
     = (Ok true, nl ["a:"; "  y: 2"; ""; "# between"; "b:"; "  - u  # [win]"; ""; "c:"; "  z: 3"; "  x: 1"]%string).
Proof.
  split; [split; reflexivity|]. split; [|vm_compute; reflexivity]. intros s [<-|[<-|[]]].
  - exists $"build", [$"number"]. split; [vm_compute; reflexivity|]. split; [repeat constructor; vm_compute; intuition discriminate|]. repeat split; auto; try discriminate. left; reflexivity.
  - exists $"about", [$"x"]. split; [vm_compute; reflexivity|]. split; [repeat constructor; vm_compute; intuition discriminate|]. repeat split; auto; try discriminate. right; left; reflexivity.
Qed.
