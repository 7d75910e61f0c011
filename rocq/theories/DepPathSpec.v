(** Vocabulary of C150: the paths of the dependency lines of a file.  Nothing here is used by the model. *)
From Verif Require Export DepListSpec.

(** The lines of a list: elements and comments. *)
Definition only_lines (cs : list item) : Prop := Forall (fun x => match x with IElem _ _ | IComment _ => True | _ => False end) cs.
Definition line_count (cs : list item) : nat := length (filter (fun x => match x with IComment _ => false | _ => true end) cs).
(** The entries of a section or of a mapping in a list. *)
Definition entries_in (x : item) : list item := match x with ISection _ _ cs => cs | _ => parts x end.
Definition plain_name (name : str) : Prop := component name /\ isdigit name = false.
(** There is nothing at a path: one of its names is missing in the file, or in the entry in front of it. *)
Inductive nothing_at (xs : list item) : str -> Prop :=
| missing_name name more : plain_name name -> Forall component more -> no_entry name xs -> nothing_at xs (path_text (name :: more))
| missing_below p x name more : plain_name name -> Forall component more -> entry_at [] 0 xs p x -> entries_in x <> [] -> no_entry name (entries_in x) ->
    nothing_at xs (p ++ path_text (name :: more)).
(** How many lines there are at a place, if it is read as a list with one value per line. *)
Inductive lines_at (E : env) (xs : list item) : str -> nat -> Prop :=
| lines_listed place k c cs ts : entry_at [] 0 xs place (ISection k c cs) -> only_lines cs -> value_read E (ISection k c cs) (JList ts) ->
    length ts = line_count cs -> lines_at E xs place (line_count cs)
| lines_missing place : nothing_at xs place -> lines_at E xs place 0.
Inductive outputs_at (E : env) (xs : list item) : nat -> Prop :=
| outputs_listed k c cs l : entry_at [] 0 xs $"/outputs" (ISection k c cs) -> value_read E (ISection k c cs) (JList l) -> outputs_at E xs (length l)
| no_outputs : no_entry $"outputs" xs -> outputs_at E xs 0.
(** The sections at the top, then those of each output; the lines of each section are numbered from zero. *)
Definition dependency_paths (E : env) (sv : schema) (xs : list item) (l : list str) : Prop :=
  exists n sizes, outputs_at E xs n /\ Forall2 (lines_at E xs) (section_places sv n) sizes
    /\ l = concat (map (fun pk => numbered (fst pk) (snd pk)) (combine (section_places sv n) sizes)).
Definition leads_to_line (xs : list item) (p : str) : Prop := exists v c, entry_at [] 0 xs p (IElem v c).
