(** Vocabulary of C139: what adding a dependency does to a file in the canonical layout.  Nothing here is used by the model. *)
From Verif Require Export EditSpec DepsSpec.

(** The entries below the key [k] (the first of that name) change as described by [R]. *)
Definition section_changed (k : str) (R : list item -> list item -> Prop) (xs xs' : list item) : Prop :=
  exists A x x' B c ys ys', isdigit k = false /\ no_entry k A /\ below_key (PStr k) c ys x /\ below_key (PStr k) c ys' x' /\ R ys ys'
  /\ xs = A ++ x :: B /\ xs' = A ++ x' :: B.
(** A section of dependencies: one per line, and comment lines. *)
Definition dependency_lines (ys : list item) : Prop := Forall (fun y => (exists c, y = IComment c /\ c <> []) \/ exists v c, y = IElem v c) ys.
Definition line_at_end (text : str) (sel : option selector) (ys ys' : list item) : Prop :=
  dependency_lines ys /\ exists cm, new_line_comment sel cm /\ ys' = ys ++ [IElem (JStr text) cm].
(** The line of the dependency with the number [i] becomes the new one. *)
Definition line_instead (i : nat) (text : str) (smode : sel_mode) (sel : option selector) (ys ys' : list item) : Prop :=
  dependency_lines ys /\ exists A v c cm B, elements A = i /\ merged_comment smode c sel cm
  /\ ys = A ++ IElem v c :: B /\ ys' = A ++ IElem (JStr text) cm :: B.
(** A section is opened with one dependency.  A selector stands on both lines. *)
Definition section_opened (sec text : str) (sel : option selector) (ys ys' : list item) : Prop :=
  no_entry sec ys /\ exists cm, new_line_comment sel cm /\ ys' = ys ++ [ISection (PStr sec) cm [IElem (JStr text) cm]].
(** With the new line and no selector yet, the section is read as a list of as many values as it has lines. *)
Definition read_with_new (E : env) (cs : list str) (text : str) (xs : list item) : Prop :=
  exists ys xs1 l, inside (section_changed (last cs []) (fun a b => a = ys /\ b = ys ++ [IElem (JStr text) []])) cs xs xs1
  /\ get_value E (document xs1) (path_text cs) None None = Ok (JList l) /\ length l = S (elements ys).

(** What adding a dependency makes of the entries of a file in the format [sv] with these variables. *)
Inductive dependency_added (E : env) (MS : match_spec) (dep : dependency) (mode : dep_mode) (smode : sel_mode) (sv : schema) (vars : vtbl)
    (xs : list item) : list item -> Prop :=
| added_at_end cs d l xs' : requirements_path (d_path dep) cs d ->
    get_value E (document xs) (path_text cs) None (Some (sv, vars)) = Ok (JList l) ->
    mode = DMUseBoth \/ (mode <> DMExact /\ Forall (names_other MS (dep_name dep)) l) ->
    plain_dependency E (dep_text dep) -> d_sel dep = None \/ read_with_new E cs (dep_text dep) xs ->
    inside (section_changed (last cs []) (line_at_end (dep_text dep) (d_sel dep))) cs xs xs' ->
    dependency_added E MS dep mode smode sv vars xs xs'
| added_for_same_name cs d before x after xs' : requirements_path (d_path dep) cs d ->
    get_value E (document xs) (path_text cs) None (Some (sv, vars)) = Ok (JList (before ++ x :: after)) ->
    mode = DMReplace -> Forall (names_other MS (dep_name dep)) before -> names_package MS (dep_name dep) x ->
    plain_dependency E (dep_text dep) ->
    inside (section_changed (last cs []) (line_instead (length before) (dep_text dep) smode (d_sel dep))) cs xs xs' ->
    dependency_added E MS dep mode smode sv vars xs xs'
| added_at_number cs d l xs' : requirements_path (d_path dep) cs d ->
    get_value E (document xs) (path_text cs) None (Some (sv, vars)) = Ok (JList l) -> mode = DMExact ->
    plain_dependency E (dep_text dep) ->
    inside (section_changed (last cs []) (line_instead (int_of d) (dep_text dep) smode (d_sel dep))) cs xs xs' ->
    dependency_added E MS dep mode smode sv vars xs xs'
| added_in_new_section ps sec d xs' : requirements_path (d_path dep) (ps ++ [sec]) d -> mode <> DMExact ->
    written_as E (JDict [(PStr sec, JList [JStr (dep_text dep)])]) [tree_of (ISection (PStr sec) [] [IElem (JStr (dep_text dep)) []])] ->
    inside (section_changed (last ps []) (section_opened sec (dep_text dep) (d_sel dep))) ps xs xs' ->
    dependency_added E MS dep mode smode sv vars xs xs'.
