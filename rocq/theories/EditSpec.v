(** Vocabulary of C138: what patches do to a file in the canonical layout.  Nothing here is used by the model. *)
From Verif Require Export BumpSpec.

(** The entries below a key (none if there is no value), and the entries of a mapping that is an element of a list. *)
Inductive below_key (k : prim) (c : str) : list item -> item -> Prop :=
| below_section cs : below_key k c cs (ISection k c cs)
| below_nothing : below_key k c [] (IEmpty k c).
Inductive in_element : str -> list item -> item -> Prop :=
| in_scalar_first k u c rest : in_element c (IScalar k u c :: rest) (IMapScalar k u c rest)
| in_section_first k c cs rest : in_element c (ISection k c cs :: rest) (IMapSection k c cs rest).
(** [inside R p xs xs']: the entries [xs] become [xs'] because the entries that hold the last component of [p] change as described
    by [R].  The other components lead there: names of keys and numbers of elements. *)
Inductive inside (R : list item -> list item -> Prop) : list str -> list item -> list item -> Prop :=
| inside_here c xs xs' : R xs xs' -> inside R [c] xs xs'
| inside_section k p c cs cs' x x' A B : isdigit k = false -> no_entry k A -> below_key (PStr k) c cs x -> below_key (PStr k) c cs' x' ->
    inside R p cs cs' -> inside R (k :: p) (A ++ x :: B) (A ++ x' :: B)
| inside_element i p c ys ys' x x' A B : isdigit i = true -> int_of i = elements A -> in_element c ys x -> in_element c ys' x' ->
    inside R p ys ys' -> inside R (i :: p) (A ++ x :: B) (A ++ x' :: B).

Definition is_element (x : item) : bool := match x with IElem _ _ | IMapScalar _ _ _ _ | IMapSection _ _ _ _ => true | _ => false end.
Definition is_plain_element (x : item) : bool := match x with IElem _ _ => true | _ => false end.
(** The entry [x] behind the entries [A] is the one that the component [c] selects: the first of that name, or the element of that
    number. *)
Definition selects (c : str) (A : list item) (x : item) : Prop :=
  if isdigit c then int_of c = elements A /\ is_element x = true else no_entry c A /\ entry_key x = Some (PStr c).

(** The element that a value is written as. *)
Inductive written_element (E : env) : json -> item -> Prop :=
| element_plain v : writes_plain E (JP v) -> written_element E (JP v) (IElem (JP v) [])
| element_group v xs x : (forall p, v <> JP p) -> written_as E v (map tree_of xs) -> in_element [] xs x -> written_element E v x.
Definition entry_comment (x : item) : str :=
  match x with IComment c | IEmpty _ c | IScalar _ _ c | IBlock _ _ _ c | ISection _ c _ | IElem _ c | IMapScalar _ _ c _ | IMapSection _ c _ _ => c end.
(** The entry with another value.  Key and comment of the line stay; but the line of a plain value, and a mapping in a list, have no
    comment. *)
Inductive rewritten (E : env) (v : json) : item -> item -> Prop :=
| rewrite_scalar x k : entry_key x = Some k -> entry_comment x = [] -> writes_plain E v -> rewritten E v x (IScalar k v [])
| rewrite_section x k cs : entry_key x = Some k -> written_as E v (map tree_of cs) -> rewritten E v x (ISection k (entry_comment x) cs)
| rewrite_element w c x' : written_element E v x' -> rewritten E v (IElem w c) x'
| rewrite_mapping x xs x' : is_element x = true -> is_plain_element x = false -> entry_comment x = [] ->
    written_as E v (map tree_of xs) -> in_element [] xs x' -> rewritten E v x x'.

(** The changes at the last component. *)
Definition entry_removed (c : str) (xs xs' : list item) : Prop :=
  exists A x B, selects c A x /\ xs = A ++ x :: B /\ xs' = A ++ B.
Definition entry_rewritten (E : env) (v : json) (c : str) (xs xs' : list item) : Prop :=
  exists A x x' B, selects c A x /\ rewritten E v x x' /\ xs = A ++ x :: B /\ xs' = A ++ x' :: B.
Definition key_added (E : env) (v : json) (c : str) (xs xs' : list item) : Prop :=
  isdigit c = false /\ c <> $"-" /\ no_entry c xs /\ exists new, written_as E (JDict [(PStr c, v)]) (map tree_of new) /\ xs' = xs ++ new.
Definition element_added (E : env) (v : json) (xs xs' : list item) : Prop := exists x, written_element E v x /\ xs' = xs ++ [x].
Definition element_inserted (E : env) (v : json) (c : str) (xs xs' : list item) : Prop :=
  exists A x x' B, isdigit c = true /\ selects c A x /\ is_plain_element x = true /\ written_element E v x' /\ xs = A ++ x :: B /\ xs' = A ++ x' :: x :: B.
(** Where [add] writes over an entry instead of inserting: keys, and elements that are mappings (C22). *)
Definition entry_overwritten (E : env) (v : json) (c : str) (xs xs' : list item) : Prop :=
  exists A x x' B, c <> $"-" /\ selects c A x /\ is_plain_element x = false /\ rewritten E v x x' /\ xs = A ++ x :: B /\ xs' = A ++ x' :: B.

(** What a request makes of the entries of a file. *)
Inductive file_edited (E : env) : request -> list item -> list item -> Prop :=
| edit_remove p xs xs' : Forall component p -> proper_tree (document xs) = true -> inside (entry_removed (last p [])) p xs xs' ->
    file_edited E (RRemove (path_text p)) xs xs'
| edit_replace p v xs xs' : Forall component p -> inside (entry_rewritten E v (last p [])) p xs xs' ->
    file_edited E (RReplace (path_text p) v) xs xs'
| edit_add_key p v xs xs' : Forall component p -> xs <> [] -> inside (key_added E v (last p [])) p xs xs' ->
    file_edited E (RAdd (path_text p) v) xs xs'
| edit_add_last p v xs xs' : Forall component p -> xs <> [] -> last p [] = $"-" -> inside (element_added E v) p xs xs' ->
    file_edited E (RAdd (path_text p) v) xs xs'
| edit_insert p v xs xs' : Forall component p -> inside (element_inserted E v (last p [])) p xs xs' ->
    file_edited E (RAdd (path_text p) v) xs xs'
| edit_overwrite p v xs xs' : Forall component p -> inside (entry_overwritten E v (last p [])) p xs xs' ->
    file_edited E (RAdd (path_text p) v) xs xs'
| edit_test path v w xs : get_value E (document xs) path None None = Ok w -> json_eqb w v = true -> file_edited E (RTest path v) xs xs
| edit_copy from p v xs xs' : get_value E (document xs) from None None = Ok v -> file_edited E (RAdd p v) xs xs' ->
    file_edited E (RCopy from p) xs xs'
| edit_move_itself p xs : file_edited E (RMove p p) xs xs
| edit_move from p v xs xs0 xs1 xs' : Forall component p -> from <> path_text p -> get_value E (document xs) from None None = Ok v ->
    (exists lines, written_as E v lines) -> (exists lines, written_as E (JDict [(PStr (last p []), v)]) lines) ->
    file_edited E (RAdd (path_text p) v) xs xs0 -> file_edited E (RRemove from) xs xs1 -> file_edited E (RAdd (path_text p) v) xs1 xs' ->
    file_edited E (RMove from (path_text p)) xs xs'.
(** Patches one after the other. *)
Inductive edited_in_turn (E : env) : list json -> list item -> list item -> Prop :=
| turn_none xs : edited_in_turn E [] xs xs
| turn_next p q ps xs xs1 xs' : asks p q -> file_edited E q xs xs1 -> edited_in_turn E ps xs1 xs' -> edited_in_turn E (p :: ps) xs xs'.

(** Only the lines of the changed entries differ: there may be other lines before and after them, and the first of all these lines
    may start with the dash of a list element. *)
Definition with_dash (i : nat) (L : list str) : list str :=
  match L with [] => [] | l :: more => (firstn i l ++ $"- " ++ skipn (i + 2) l) :: more end.
Inductive block_differs (R : list item -> list item -> Prop) : list str -> list str -> Prop :=
| block_itself i ys ys' : R ys ys' -> block_differs R (flat_map (layout i) ys) (flat_map (layout i) ys')
| block_among before after L L' : block_differs R L L' -> block_differs R (before ++ L ++ after) (before ++ L' ++ after)
| block_dashed i L L' : block_differs R L L' -> block_differs R (with_dash i L) (with_dash i L').
(** A key that is written without quotes also where it has no value. *)
Definition same_as_value (k : str) : Prop := scalar_text (JStr k) = key_text (PStr k).
