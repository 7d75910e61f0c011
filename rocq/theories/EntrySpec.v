(** Vocabulary of C148: the entries of a file and their paths.  Nothing here is used by the model. *)
From Verif Require Export LineSpec.

(** An entry with a key is at its key, an entry of a list at its number.  ([up] is the path of the section, [n] the number of
    entries in front.)  A mapping in a list is the list of its entries, of which the first stands behind the hyphen. *)
Inductive entry_at : str -> nat -> list item -> str -> item -> Prop :=
| at_its_key up n x xs k : entry_key x = Some k -> entry_at up n (x :: xs) (at_key up k) x
| at_its_number up n x xs : match x with IElem _ _ | IMapScalar _ _ _ _ | IMapSection _ _ _ _ => True | _ => False end ->
    entry_at up n (x :: xs) (at_number up n) x
| at_a_later_entry up n x xs p y : entry_at up (number_after n x) xs p y -> entry_at up n (x :: xs) p y
| in_its_section up n k c cs xs p y : entry_at (at_key up k) 0 cs p y -> entry_at up n (ISection k c cs :: xs) p y
| in_its_mapping up n k v c rest xs p y : entry_at (at_number up n) 0 (IScalar k v c :: rest) p y -> entry_at up n (IMapScalar k v c rest :: xs) p y
| in_its_mapping_section up n k c cs rest xs p y : entry_at (at_number up n) 0 (ISection k c cs :: rest) p y ->
    entry_at up n (IMapSection k c cs rest :: xs) p y.
(** What get_value returns at the path of every entry, without and with variables replaced. *)
Definition entries_read (E : env) (xs : list item) (r : recipe) : Prop :=
  forall p x, entry_at [] 0 xs p x ->
    (forall j d, value_read E x j -> get_value E (r_root r) p d None = Ok j)
    /\ (forall j d, value_filled E (r_schema r) (r_vars r) x j -> get_value E (r_root r) p d (Some (r_schema r, r_vars r)) = Ok j).
