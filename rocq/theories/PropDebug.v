(** C130: the texts for debugging. *)
From Verif Require Import MiniYaml Samples DebugProofs DebugProofs2 DebugSpec.
Import ListNotations.

(** The tree has one line for every line of the recipe, in the same order, below the lines above it, called as it is called. *)
Theorem C130_lines E n : Forall2 (fun p s => exists m t, node_at n p = Some m /\ called_as E m t /\ s = tree_line p t)
  (preorder n) (str_tree_recurse E n 0).
Proof. exact (lines_exact E n []). Qed.
(** No line is called in two ways. *)
Theorem C130_one_name E n t t' : called_as E n t -> called_as E n t' -> t = t'.
Proof. exact (called_unique E n t t'). Qed.
(** The tree shows the shape and the names: two trees are printed with the same lines only if they have the same ones. *)
Theorem C130_same_outline E a b : str_tree_recurse E a 0 = str_tree_recurse E b 0 <-> same_outline E a b.
Proof. exact (conj (c130_outline E a b) (c130_outline_lines E a b 0)). Qed.
(** The table of the variables has one entry in a line. *)
Theorem C130_table l : l <> [] -> json_dumps 0 (JDict (map (fun kv => (PStr (fst kv), JP (snd kv))) l))
  = join NLs ($"{" :: with_commas (entry_lines l) ++ [$"}"]).
Proof. exact (c130_table l). Qed.
(** The whole text, line by line: the version, the variables, the selectors with the lines that have them, whether the recipe was changed, the tree. *)
Theorem C130_text E name r : exists sel, selector_lines E (r_sel r) sel /\
  recipe_str E name r = text_of_lines ([$"--------------------"; name ++ $" Instance"; $"- Schema Version: " ++ match r_schema r with SV0 => $"0" | SV1 => $"1" end;
    $"- Variables Table:"; json_dumps 0 (JDict (map (fun kv => (PStr (fst kv), snd kv)) (r_vars r))); $"- Selectors Table:"]
    ++ sel ++ [$"- is_modified?: " ++ yes_no (r_mod r); $"- Tree:"] ++ str_tree_recurse E (r_root r) 0 ++ [$"--------------------"]).
Proof. exact (c130_text E name r). Qed.
(** The text of one node, line by line. *)
Theorem C130_node E n : exists t, described_as E n t /\
  node_str E n = text_of_lines [$"Node: " ++ t; $"  - Comment:      " ++ repr_str (n_comment n); $"  - Child count:  " ++ str_of_nat (length (n_children n));
    $"  - List?:        " ++ yes_no (n_lmf n); $"  - Multiline?:   " ++ mlv_str (n_ml n); $"  - Key?:         " ++ yes_no (n_keyf n)].
Proof. exact (described E n). Qed.
(** Nodes with the same text have the same comment, the same number of children and the same marks, whatever their values contain. *)
Theorem C130_node_same E a b : node_str E a = node_str E b ->
  n_comment a = n_comment b /\ length (n_children a) = length (n_children b) /\ n_lmf a = n_lmf b /\ n_ml a = n_ml b /\ n_keyf a = n_keyf b
  /\ exists t, described_as E a t /\ described_as E b t.
Proof. exact (c130_node_same E a b). Qed.
Example C130_node_example : node_str mini_env (Nd (VJ (JStr $"skip")) $"# it's [win]" [Nd (VJ (JBool true)) [] [] false MNone false] false MNone true)
  = nl ["Node: skip"; "  - Comment:      ""# it's [win]"""; "  - Child count:  1"; "  - List?:        False"; "  - Multiline?:   "; "  - Key?:         True"]%string.
Proof. vm_compute. reflexivity. Qed.

Definition debugged : list string := ["{% set name = ""zlib"" %}"; "{% set version = 3 %}"; ""; "package:"; "  name: {{ name }}"; "source:"; "  - url: u  # [osx]"; "    # note"; "    patches:"; "      - p"; "build:"; "  skip: true  # [win]"]%string.
Example C130_example : recipe_str mini_env $"RecipeReader" (recipe_of (nl debugged)) = nl [
      "--------------------"; "RecipeReader Instance"; "- Schema Version: 0"; "- Variables Table:"; "{"; "  ""name"": ""zlib"","; "  ""version"": 3"; "}";
      "- Selectors Table:"; "  [osx]"; "    - <Collection Node> -> /source/0"; "    - url -> /source/0/url"; "    - u -> /source/0/url"; "  [win]"; "    - skip -> /build/skip"; "    - True -> /build/skip"; "- is_modified?: False"; "- Tree:";
      "/"; "  |- package"; "    |- name"; "      |- {{ name }}"; "  |- source"; "    |- <Collection Node>"; "      |- url"; "        |- u"; "      |- <Comment: # note>"; "      |- patches"; "        |- p";
      "  |- build"; "    |- skip"; "      |- True"; "--------------------"]%string.
Proof. vm_compute. reflexivity. Qed.

Print Assumptions C130_lines.
Print Assumptions C130_one_name.
Print Assumptions C130_same_outline.
Print Assumptions C130_table.
Print Assumptions C130_text.
Print Assumptions C130_node.
Print Assumptions C130_node_same.
