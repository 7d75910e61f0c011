(** Vocabulary of C130: the texts for debugging.  Nothing here is used by the model. *)
From Verif Require Export PathSpec Debug.
From Coq Require Import Permutation.

(** How a line is called. *)
Inductive called_as (E : env) (n : node) : str -> Prop :=
| as_comment : comment_line n -> called_as E n ($"<Comment: " ++ n_comment n ++ $">")
| as_element : n_value n = VSent -> n_lmf n = true -> n_children n <> [] -> called_as E n $"<Collection Node>"
| as_value j : n_value n = VJ j -> called_as E n (json_str j)
| as_nothing : n_value n = VSent -> ~ comment_line n -> (n_lmf n = false \/ n_children n = []) -> called_as E n (sent_str E).
(** The line of the tree at a position: two spaces for every line above it and a mark. *)
Definition tree_line (p : position) (t : str) : str :=
  repeat " "%char (2 * length p) ++ match p with [] => t | _ => $"|- " ++ t end.
(** Trees of the same shape with the same names. *)
Inductive same_outline (E : env) : node -> node -> Prop :=
| same_here n n' t : called_as E n t -> called_as E n' t -> Forall2 (same_outline E) (n_children n) (n_children n') -> same_outline E n n'.
(** A table, one entry in a line. *)
Definition entry_lines (l : list (str * prim)) : list str :=
  map (fun kv => $"  " ++ json_dumps_str (fst kv) ++ $": " ++ prim_dumps (snd kv)) l.
Fixpoint with_commas (l : list str) : list str :=
  match l with [] => [] | [x] => [x] | x :: l' => (x ++ $",") :: with_commas l' end.
(** Lines that all end with a newline. *)
Definition text_of_lines (l : list str) : str := flat_map (fun s => s ++ [cNL]) l.
Definition yes_no (b : bool) : str := match b with true => $"True" | false => $"False" end.
(** How a line is called in the long text of a node. *)
Inductive described_as (E : env) (n : node) : str -> Prop :=
| described_comment : comment_line n -> described_as E n $"Comment node"
| described_element : n_value n = VSent -> n_lmf n = true -> n_children n <> [] -> described_as E n $"Collection node"
| described_value j : n_value n = VJ j -> described_as E n (json_str j)
| described_nothing : n_value n = VSent -> ~ comment_line n -> (n_lmf n = false \/ n_children n = []) -> described_as E n (sent_str E).
(** The entries of the table of the selectors: the selector, then the lines that have it, with their paths. *)
Inductive selector_lines (E : env) : list (str * list (node * stack)) -> list str -> Prop :=
| no_selectors : selector_lines E [] []
| one_selector sel infos lines rest more :
    Forall2 (fun info l => exists t, called_as E (fst info) t /\ l = $"    - " ++ t ++ $" -> " ++ stack_path_to_str (snd info)) infos lines ->
    selector_lines E rest more ->
    selector_lines E ((sel, infos) :: rest) (($"  " ++ sel) :: lines ++ more).
