(** Vocabulary of C141: edits of a file that undo each other.  Nothing here is used by the model. *)
From Verif Require Export EditSpec NewFileSpec.

(** The second request takes back what the first one makes of the entries [xs], which are [xs'] in between. *)
Inductive undone_by (E : env) : request -> request -> list item -> list item -> Prop :=
| undo_new_key p v xs xs' : Forall component p -> xs <> [] ->
    inside (fun ys ys' => key_added E v (last p []) ys ys' /\ exists x, ys' = ys ++ [x] /\ entry_key x = Some (PStr (last p []))) p xs xs' ->
    undone_by E (RAdd (path_text p) v) (RRemove (path_text p)) xs xs'
| undo_new_last p n v xs xs' : Forall component (p ++ [n]) -> xs <> [] -> isdigit n = true ->
    inside (fun ys ys' => element_added E v ys ys' /\ elements ys = int_of n) (p ++ [$"-"]) xs xs' ->
    undone_by E (RAdd (path_text (p ++ [$"-"])) v) (RRemove (path_text (p ++ [n]))) xs xs'
| undo_insertion p v xs xs' : Forall component p -> inside (element_inserted E v (last p [])) p xs xs' ->
    undone_by E (RAdd (path_text p) v) (RRemove (path_text p)) xs xs'
| undo_new_value p v w xs xs' : Forall component p -> writes_plain E v -> writes_plain E w ->
    inside (fun ys ys' => exists A k B, selects (last p []) A (IScalar k w []) /\ ys = A ++ IScalar k w [] :: B /\ ys' = A ++ IScalar k v [] :: B) p xs xs' ->
    undone_by E (RReplace (path_text p) v) (RReplace (path_text p) w) xs xs'
| undo_new_element p v w xs xs' : Forall component p -> writes_plain E (JP v) -> writes_plain E (JP w) -> isdigit (last p []) = true ->
    inside (fun ys ys' => exists A B, int_of (last p []) = elements A /\ ys = A ++ IElem (JP w) [] :: B /\ ys' = A ++ IElem (JP v) [] :: B) p xs xs' ->
    undone_by E (RReplace (path_text p) (JP v)) (RReplace (path_text p) (JP w)) xs xs'
| undo_removed_key p w xs xs' : Forall component p -> proper_tree (document xs) = true -> xs' <> [] ->
    inside (fun ys ys' => isdigit (last p []) = false /\ last p [] <> $"-" /\ no_entry (last p []) ys'
              /\ exists x, ys = ys' ++ [x] /\ entry_key x = Some (PStr (last p [])) /\ written_as E (JDict [(PStr (last p []), w)]) [tree_of x]) p xs xs' ->
    undone_by E (RRemove (path_text p)) (RAdd (path_text p) w) xs xs'.
(** The section of dependencies at [cs] gets a new last line, which has the number [n]. *)
Definition dependency_at_end (dep : dependency) (cs : list str) (n : str) (xs xs' : list item) : Prop :=
  inside (section_changed (last cs []) (fun ys ys' => line_at_end (dep_text dep) (d_sel dep) ys ys' /\ elements ys = int_of n)) cs xs xs'.
