(** Vocabulary of C155: one patch on all lines that match.  Nothing here is used by the model. *)
From Verif Require Export EditSpec MentionSpec.

(** The paths of the matching lines, in the order of the file. *)
Definition lines_found (rx : str -> bool) (with_comment : bool) (xs : list item) : list str := flat_map (path_matching rx with_comment) (file_rows 0 xs).
(** The patch [d] with each of the paths in turn. *)
Definition swept (E : env) (d : list (prim * json)) (paths : list str) (xs xs' : list item) : Prop :=
  edited_in_turn E (map (fun p => JDict (with_path p d)) paths) xs xs'.
