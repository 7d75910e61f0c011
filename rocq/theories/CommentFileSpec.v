(** Vocabulary of C143: selectors and comments put on, and taken from, the lines of a file in the canonical layout.  Nothing here
    is used by the model. *)
From Verif Require Export UndoSpec SelSpec.

(** The line of an entry with another comment.  A key shares its comment with its value, also where this is the only element of a
    list, which then is a line of its own. *)
Definition shares_comment (cs : list item) : bool :=
  match cs with [IComment []] | [IElem _ _] | [IEmpty _ _] | [ISection _ _ []] => true | _ => false end.
Inductive commented (c : str) : item -> item -> Prop :=
| comment_no_value k c0 : commented c (IEmpty k c0) (IEmpty k c)
| comment_scalar k v c0 : commented c (IScalar k v c0) (IScalar k v c)
| comment_element v c0 : commented c (IElem v c0) (IElem v c)
| comment_section k c0 cs : shares_comment cs = false -> commented c (ISection k c0 cs) (ISection k c cs)
| comment_list_of_one k c0 v c1 : commented c (ISection k c0 [IElem v c1]) (ISection k c [IElem v c]).
(** A note, as it is written behind a hash sign. *)
Definition note (t : str) : Prop := strip t = t /\ t <> [] /\ ~ In cRB t /\ ~ In cHASH t.
(** What the call makes of the comment of the line. *)
Inductive comment_becomes : edit -> str -> str -> Prop :=
| selector_written path sel b mode old : bracketed sel b -> mode = SMReplace \/ old = [] ->
    comment_becomes (EAddSel path sel mode) old ($"# " ++ sel)
| selector_joined path a b mode old : bracketed ($"[" ++ b ++ $"]") b -> mode <> SMReplace -> selector_of old = Some ($"[" ++ a ++ $"]") ->
    comment_becomes (EAddSel path ($"[" ++ b ++ $"]") mode) old ($"# [" ++ a ++ $" " ++ join_word mode ++ $" " ++ b ++ $"]")
| selector_before_note path sel b mode t : bracketed sel b -> mode <> SMReplace -> note t ->
    comment_becomes (EAddSel path sel mode) ($"# " ++ t) ($"# " ++ sel ++ $" " ++ t)
| selector_taken path sel b : bracketed sel b -> comment_becomes (ERemSel path) ($"# " ++ sel) []
| selector_taken_from_note path sel b t : bracketed sel b -> note t -> comment_becomes (ERemSel path) ($"# " ++ sel ++ $" " ++ t) ($"# " ++ t)
| note_written path t old : note t -> no_selector old -> comment_becomes (EAddComment path t) old ($"# " ++ t)
| note_behind_selector path t old sel : note t -> selector_of old = Some sel ->
    comment_becomes (EAddComment path t) old ($"# " ++ sel ++ $" " ++ t).
Definition edit_path (e : edit) : str := match e with EAddSel p _ _ | ERemSel p | EAddComment p _ => p | _ => [] end.
(** The entry that the component selects changes as described by [R]. *)
Definition entry_changed (R : item -> item -> Prop) (comp : str) (xs xs' : list item) : Prop :=
  exists A x x' B, selects comp A x /\ R x x' /\ xs = A ++ x :: B /\ xs' = A ++ x' :: B.
Definition comment_edited (e : edit) (x x' : item) : Prop := exists c, comment_becomes e (entry_comment x) c /\ commented c x x'.
(** What a call, and calls one after the other, make of the entries of a file. *)
Definition line_edited (e : edit) (xs xs' : list item) : Prop :=
  exists p, Forall component p /\ edit_path e = path_text p /\ inside (entry_changed (comment_edited e) (last p [])) p xs xs'.
Inductive lines_edited : list edit -> list item -> list item -> Prop :=
| lines_none xs : lines_edited [] xs xs
| lines_next e es xs xs1 xs' : line_edited e xs xs1 -> lines_edited es xs1 xs' -> lines_edited (e :: es) xs xs'.
Fixpoint all_succeed (E : env) (es : list edit) (r : recipe) : Prop :=
  match es with [] => True | e :: es' => succeeded E e r /\ all_succeed E es' (after E e r) end.
(** A line without a comment: nothing is written at the place of its comment, nor at that of its value. *)
Definition bare_line (x : item) : Prop :=
  entry_comment x = [] /\ match x with ISection _ _ [IElem _ c] => c = [] | _ => True end.
