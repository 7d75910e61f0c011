(** Vocabulary of C145: what the queries report of a file in the canonical layout.  Nothing here is used by the model. *)
From Verif Require Export SessionSpec.

(** The lines of a file as they are addressed: comment lines, and lines with path and comment.  A line starts a section (or a
    mapping in a list), is a key without value, or has a value. *)
Inductive content := CSection | CNothing (k : prim) | CValue (v : json).
Inductive row := RComment (c : str) | RLine (path c : str) (v : content).
Definition at_key (up : str) (k : prim) : str := up ++ cSL :: key_text k.
Definition at_number (up : str) (n : nat) : str := up ++ cSL :: str_of_nat n.
Definition number_after (n : nat) (x : item) : nat := match x with IComment _ => n | _ => S n end.
(** [up] is the path of the section, [n] the number of entries in front. *)
Fixpoint rows (up : str) (n : nat) (x : item) : list row :=
  let below := fun here => fix go (m : nat) (l : list item) : list row :=
    match l with [] => [] | y :: l' => rows here m y ++ go (number_after m y) l' end in
  match x with
  | IComment c => [RComment c]
  | IEmpty k c => [RLine (at_key up k) c (CNothing k)]
  | IScalar k v c => [RLine (at_key up k) c (CValue v)]
  | IBlock k _ ls c => [RLine (at_key up k) c (CValue (JList (map (fun l => JStr l) ls)))]
  | ISection k c cs => RLine (at_key up k) c CSection :: below (at_key up k) 0 cs
  | IElem v c => [RLine (at_number up n) c (CValue v)]
  | IMapScalar k v c rest => let here := at_number up n in
      RLine here c CSection :: RLine (at_key here k) c (CValue v) :: below here 1 rest
  | IMapSection k c cs rest => let here := at_number up n in
      RLine here c CSection :: RLine (at_key here k) c CSection :: below (at_key here k) 0 cs ++ below here 1 rest
  end.
Fixpoint file_rows (n : nat) (xs : list item) : list row :=
  match xs with [] => [] | x :: xs' => rows [] n x ++ file_rows (number_after n x) xs' end.
(** The keys of an entry. *)
Fixpoint keys_of (x : item) : list prim :=
  match x with
  | IComment _ | IElem _ _ => []
  | IEmpty k _ | IScalar k _ _ | IBlock k _ _ _ => [k]
  | ISection k _ cs => k :: flat_map keys_of cs
  | IMapScalar k _ _ rest => k :: flat_map keys_of rest
  | IMapSection k _ cs rest => k :: flat_map keys_of cs ++ flat_map keys_of rest
  end.
(** No key is a single slash, which paths do not show. *)
Definition no_slash_key (xs : list item) : Prop := Forall (fun k => key_text k <> [cSL]) (flat_map keys_of xs).

Definition row_path (w : row) : list str := match w with RComment _ => [] | RLine p _ _ => [p] end.
Definition row_comment (w : row) : str := match w with RComment c | RLine _ c _ => c end.
(** The paths of the lines with a value, or with this value. *)
Definition value_path (w : row) : list str := match w with RLine p _ (CValue _) | RLine p _ (CNothing _) => [p] | _ => [] end.
Definition path_of_value (v : prim) (w : row) : list str :=
  match w with
  | RLine p _ (CValue (JP u)) => if prim_dec u v then [p] else []
  | RLine p _ (CNothing k) => if prim_dec v PNull then [p] else if prim_dec k v then [p] else []
  | _ => []
  end.
Definition row_selector (w : row) : list str := match selector_of (row_comment w) with Some s => [s] | None => [] end.
Definition path_with_selector (sel : str) (w : row) : list str :=
  match w with
  | RLine p c _ => match selector_of c with Some s => if list_eq_dec ascii_dec s sel then [p] else [] | None => [] end
  | RComment _ => []
  end.
(** What is reported of a comment: nothing of a selector, and of a note behind it the note. *)
Inductive told : str -> option str -> Prop :=
| told_nothing : told [] None
| told_comment c : starts_with_hash c -> no_selector c -> told c (Some c)
| told_selector sel b : bracketed sel b -> told ($"# " ++ sel) None
| told_note sel b t : bracketed sel b -> note t -> told ($"# " ++ sel ++ $" " ++ t) (Some ($"# " ++ t)).
Inductive comments_told : list row -> list (str * str) -> Prop :=
| no_lines : comments_told [] []
| comment_line_skipped c ws l : comments_told ws l -> comments_told (RComment c :: ws) l
| line_without p c v ws l : told c None -> comments_told ws l -> comments_told (RLine p c v :: ws) l
| line_with p c d v ws l : told c (Some d) -> comments_told ws l -> comments_told (RLine p c v :: ws) ((p, d) :: l).
(** The answers to queries on a recipe whose file has these entries. *)
Definition answers (E : env) (xs : list item) (r : recipe) : Prop :=
  list_value_paths E (r_root r) = flat_map value_path (file_rows 0 xs)
  /\ (forall v, find_value E (r_root r) (JP v) = Ok (flat_map (path_of_value v) (file_rows 0 xs)))
  /\ (forall rep, NoDup (flat_map row_path (file_rows 0 xs)) -> comments_told (file_rows 0 xs) rep -> get_comments_table E (r_root r) = rep).
Definition selector_answers (xs : list item) (r : recipe) : Prop :=
  list_selectors r = first_occurrences (flat_map row_selector (file_rows 0 xs))
  /\ (forall sel, (forall c, In (RComment c) (file_rows 0 xs) -> selector_of c <> Some sel) ->
        fst (get_selector_paths sel r) = first_occurrences (flat_map (path_with_selector sel) (file_rows 0 xs))).
