(** C131: what is written for a value; texts of several lines. *)
From Verif Require Import MiniYaml Samples PropPatch BlockProofs BlockSpec.
Import ListNotations.

(** What a patch writes for a value: a block for a text of several lines, otherwise the lines of the recipe its text is. *)
Theorem C131_written : forall E v lines, written_as E v lines <-> value_lines E v lines.
Proof. exact c131_written. Qed.
Print Assumptions C131_written.
(** Every text has lines, and only one list of them. *)
Theorem C131_lines : forall s ls, text_lines s ls <-> splitlines s = ls.
Proof. exact c131_lines. Qed.
Print Assumptions C131_lines.
(** Replacing the value of a key by a text of several lines puts a block of these lines, indented below the key, in the place of the
    line of the key and changes nothing else in the text. *)
Theorem C131_text : forall E p s t ls r r' q n name u, asks p (RReplace s (JStr t)) -> patch E p r = (Ok true, r') -> In cNL t -> text_lines t ls ->
  well_formed (r_root r) -> proper_tree (r_root r) = true -> begins_once (r_root r) = true ->
  addresses (r_root r) s q -> q <> [] -> node_at (r_root r) q = Some n -> key_with_value n u -> n_value n = VJ (JStr name) -> ~ begins_element (r_root r) q ->
  exists L L', render E r = join [cNL] L /\ render E r' = join [cNL] L' /\ becomes_block name u (n_comment n) ls L L'.
Proof. exact c131_text. Qed.
Print Assumptions C131_text.
(** The value that is read then is the value of the block. *)
Theorem C131_read_back : forall E p q s cs c t ls r r' n, asks p q -> sets q s (JStr t) -> In cNL t -> text_lines t ls -> s = path_text (cs ++ [c]) -> Forall component (cs ++ [c]) ->
  isdigit c = false -> c <> $"-" -> lookup (r_root r) s = Some n -> n_keyf n = true ->
  patch E p r = (Ok true, r') -> get_value E (r_root r') s None None = yres_to_res (yload E (block_text ls)).
Proof. exact c131_read. Qed.
Print Assumptions C131_read_back.
(** The first key of a list element is not written as a block: the lines are written as Python writes a list, and read as a list. *)
Theorem C131_first_key_refuted : exists t,
  edited (payload "replace" "/source/0/note" [("value", JStr t)]%string) ["source:"; "  - note: a"; "    url: u"]%string
  = (Ok true, nl ["source:"; "  - note: ['one', 'two']"; "    url: u"]%string).
Proof. exists (nl ["one"; "two"]%string). vm_compute. reflexivity. Qed.
Print Assumptions C131_first_key_refuted.
(** So is a list element. *)
Theorem C131_element_refuted : exists t,
  edited (payload "replace" "/l/1" [("value", JStr t)]%string) ["l:"; "  - a"; "  - b"]%string
  = (Ok true, nl ["l:"; "  - a"; "  - ['one', 'two']"]%string).
Proof. exists (nl ["one"; "two"]%string). vm_compute. reflexivity. Qed.
Print Assumptions C131_element_refuted.
Example C131_example :
  edited (payload "replace" "/about/summary" [("value", JStr (nl ["one"; "two"]%string))]%string) ["about:"; "  summary: a  # old"; "  home: h"]%string
  = (Ok true, nl ["about:"; "  summary: |  # old"; "    one"; "    two"; "  home: h"]%string)
  /\ text_lines ($"one" ++ ["013"%char; cNL] ++ $"two" ++ [cNL] ++ [cNL]) [$"one"; $"two"; []].
Proof. split; [vm_compute; reflexivity|]. apply C131_lines. vm_compute. reflexivity. Qed.
