(** Vocabulary of C131: what is written for a value, and texts of several lines.  Nothing here is used by the model. *)
From Verif Require Export WriteSpec TextSpec.

(** The characters that end a line: newline, vertical tab, form feed, carriage return and the separators 28 to 30. *)
Definition ends_line (c : ascii) : Prop := In (nat_of_ascii c) [10; 11; 12; 13; 28; 29; 30].
(** Carriage return and newline end one line. *)
Inductive line_end : str -> str -> Prop :=
| ends_twice t : line_end ["013"%char; cNL] t
| ends_once b t : ends_line b -> ~ (b = "013"%char /\ exists t', t = cNL :: t') -> line_end [b] t.
(** The lines of a text, as Python counts them: the last line need not be terminated. *)
Inductive text_lines : str -> list str -> Prop :=
| no_lines : text_lines [] []
| last_line l : l <> [] -> (forall c, In c l -> ~ ends_line c) -> text_lines l [l]
| line_ends l b t ls : (forall c, In c l -> ~ ends_line c) -> line_end b t -> text_lines t ls -> text_lines (l ++ b ++ t) (l :: ls).

(** The line of a block of lines. *)
Definition block_line (ls : list str) : node := Nd (VJ (JList (map (fun l => JStr l) ls))) [] [] false MPipe false.
(** What is written for a value: a block for a text of several lines, otherwise the lines of the recipe its text is. *)
Inductive value_lines (E : env) : json -> list node -> Prop :=
| lines_block s ls : In cNL s -> text_lines s ls -> value_lines E (JStr s) [block_line ls]
| lines_scalar p r : (forall s, p = PStr s -> ~ In cNL s) -> new_recipe E (stringify_yaml (VJ (JP p)) MNone) = Ok r ->
    value_lines E (JP p) (n_children (r_root r))
| lines_list l r : new_recipe E (ydump E (JList l)) = Ok r -> value_lines E (JList l) (n_children (r_root r))
| lines_dict d r : new_recipe E (ydump E (JDict d)) = Ok r -> value_lines E (JDict d) (n_children (r_root r)).

(** The line is the first one of a list element that is a mapping. *)
Definition begins_element (root : node) (q : position) : Prop :=
  exists above n, q = above ++ [0] /\ node_at root above = Some n /\ collection_element n = true.
(** A line with a value, and the block that stands in its place; both are indented alike. *)
Definition becomes_block (name : str) (u : json) (cm : str) (ls : list str) (L L' : list str) : Prop :=
  exists before k c after, L = before ++ rstrip (repeat " "%char k ++ name ++ $": " ++ stringify_yaml (VJ u) MNone ++ $"  " ++ c) :: after
  /\ L' = before ++ (rstrip (repeat " "%char k ++ name ++ $": |  " ++ cm) :: map (fun l => rstrip (repeat " "%char (2 + k) ++ l)) ls) ++ after.
(** The text of a block. *)
Definition block_text (ls : list str) : str := $"|" ++ concat (map (fun l => [cNL] ++ $"  " ++ l) ls).
