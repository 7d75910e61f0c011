(** Vocabulary of C154: searching a file in the canonical layout.  Nothing here is used by the model. *)
From Verif Require Export RefSpec QuerySpec.

(** What is searched of a line: the value as it is written (of a key without value the key), and the comment if that is wanted. *)
Definition note_of (with_comment : bool) (c : str) : str := if with_comment then match c with [] => [] | _ => $"  " ++ c end else [].
Definition path_matching (rx : str -> bool) (with_comment : bool) (w : row) : list str :=
  match w with
  | RLine p c (CNothing k) => if rx (scalar_text (JP k) ++ note_of with_comment c) then [p] else []
  | RLine p c (CValue v) => if rx (scalar_text v ++ note_of with_comment c) then [p] else []
  | _ => []
  end.
(** No line with a list as value, such as a block of lines, has a comment. *)
Definition no_list_comment (xs : list item) : Prop := forall p c l, In (RLine p c (CValue (JList l))) (file_rows 0 xs) -> c = [].
Definition searched (E : env) (xs : list item) (r : recipe) : Prop :=
  forall rx, search E rx false (r_root r) = flat_map (path_matching rx false) (file_rows 0 xs)
  /\ (no_list_comment xs -> search E rx true (r_root r) = flat_map (path_matching rx true) (file_rows 0 xs)).
(** The lines whose value is a text chosen by [f]. *)
Definition path_of_text (f : str -> bool) (w : row) : list str :=
  match w with RLine p _ (CValue (JP (PStr s))) => if f s then [p] else [] | _ => [] end.
(** Where a variable is mentioned, in a file none of whose keys mentions it. *)
Definition references_found (E : env) (sv : schema) (xs : list item) (vars : list (str * json)) (r : recipe) : Prop :=
  forall var f, In var (map fst vars) -> (forall s, f s = true <-> mentions sv var s) ->
  (forall s, In (PStr s) (flat_map keys_of xs) -> ~ mentions sv var s) ->
  get_variable_references E var r = first_occurrences (flat_map (path_of_text f) (file_rows 0 xs)).
