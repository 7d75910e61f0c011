(** Specification vocabulary for selectors, comments, variables and edit histories.  Nothing here is used by the model. *)
From Verif Require Export PatchSpec.

(** The selector of a comment: from the first opening bracket that is closed on its line to the last closing bracket of
    that line. *)
Fixpoint to_last_close (s : str) : option str :=
  match s with
  | [] => None
  | c :: s' => if ascii_dec c cNL then None
               else match to_last_close s' with
                    | Some t => Some (c :: t)
                    | None => if ascii_dec c cRB then Some [c] else None
                    end
  end.
Fixpoint selector_of (s : str) : option str :=
  match s with
  | [] => None
  | c :: s' => match (if ascii_dec c cLB then to_last_close s' else None) with
               | Some t => Some (c :: t)
               | None => selector_of s'
               end
  end.
Definition one_line (s : str) : Prop := ~ In cNL s.
(** Read declaratively, for a one-line comment: from its first opening to its last closing bracket. *)
Definition selector_in (s sel : str) : Prop :=
  exists before b after, s = before ++ sel ++ after /\ sel = $"[" ++ b ++ $"]" /\ ~ In cLB before /\ ~ In cRB after.
(** There is no opening bracket with a closing bracket after it on the same line. *)
Definition no_selector (s : str) : Prop :=
  forall a b c, s = a ++ $"[" ++ b ++ $"]" ++ c -> In cNL b.
(** A selector text as passed by a caller. *)
Definition bracketed (sel b : str) : Prop := sel = $"[" ++ b ++ $"]" /\ ~ In cNL b.

(** The comment of a line is changed.  A key that is written on one line with its value shares its comment with it. *)
Definition on_one_line (n : node) : bool :=
  n_keyf n && match n_children n with [c] => terminal c | _ => false end.
Definition with_comment (c : str) (n : node) : node := Nd (n_value n) c (n_children n) (n_lmf n) (n_ml n) (n_keyf n).
Definition comment_changed (c : str) (n n' : node) : Prop :=
  n' = if on_one_line n
       then Nd (n_value n) c (map (with_comment c) (n_children n)) (n_lmf n) (n_ml n) (n_keyf n)
       else with_comment c n.
(** No element is left without any line (as happens when its last key is removed): such an element has neither a value nor
    a comment nor lines. *)
Definition no_emptied_element (root : node) : Prop :=
  is_comment root = false /\
  forall p n, node_at root p = Some n -> n_value n = VSent -> n_children n = [] -> n_comment n <> [].
(** The document without the texts of its comments (comment lines stay, as "#"). *)
Fixpoint without_comment_text (n : node) : node :=
  match n with
  | Nd v c chs l ml k =>
      Nd v (if is_comment n then $"#" else []) (map without_comment_text chs) l ml k
  end.

(** The comment of the line at a position. *)
Definition comment_at (root : node) (p : position) : str :=
  match node_at root p with Some n => n_comment n | None => [] end.
(** The selectors of the document in document order, one per line that has one. *)
Definition selectors_of_lines (root : node) : list str :=
  flat_map (fun p => match selector_of (comment_at root p) with Some s => [s] | None => [] end) (preorder root).
Definition has_selector (sel : str) (n : node) : bool :=
  match selector_of (n_comment n) with Some s => if list_eq_dec ascii_dec s sel then true else false | None => false end.
(** Comment lines are never list elements (true of every parsed document). *)
Definition comment_lines_not_elements (root : node) : Prop :=
  forall p n, node_at root p = Some n -> is_comment n = true -> n_lmf n = false.
Definition every_comment (P : str -> Prop) (root : node) : Prop :=
  forall p n, node_at root p = Some n -> n_comment n <> [] -> P (n_comment n).
Definition starts_with_hash (s : str) : Prop := exists t, s = cHASH :: t.
(** A text without white space and hash signs. *)
Definition letters (s : str) : str := filter (fun c => negb (is_space c) && negb (if ascii_dec c cHASH then true else false)) s.

(** * Editing histories *)
Inductive edit :=
| EPatch (p : json)
| ESetVar (k : str) (v : json)
| EDelVar (k : str)
| EAddSel (path sel : str) (mode : sel_mode)
| ERemSel (path : str)
| EAddComment (path comment : str).
(** The recipe after a call. *)
Definition after (E : env) (e : edit) (r : recipe) : recipe :=
  match e with
  | EPatch p => snd (patch E p r)
  | ESetVar k v => set_variable k v r
  | EDelVar k => del_variable k r
  | EAddSel path sel mode => snd (add_selector E path sel mode r)
  | ERemSel path => snd (remove_selector E path r)
  | EAddComment path c => snd (add_comment path c r)
  end.
(** The call did what it was asked to do. *)
Definition succeeded (E : env) (e : edit) (r : recipe) : Prop :=
  match e with
  | EPatch p => fst (patch E p r) = Ok true /\ (forall path v, ~ asks p (RTest path v)) /\ (forall s, ~ asks p (RMove s s))
  | ESetVar k v => True
  | EDelVar k => In k (list_variables r)
  | EAddSel path sel mode => fst (add_selector E path sel mode r) = Ok tt
  | ERemSel path => exists s, fst (remove_selector E path r) = Ok (Some s)
  | EAddComment path c => fst (add_comment path c r) = Ok tt
  end.
(** A move that left the document changed although it did not succeed. *)
Definition failed_move (E : env) (e : edit) (r : recipe) : Prop :=
  exists p from path, e = EPatch p /\ asks p (RMove from path) /\ fst (patch E p r) <> Ok true.
Definition is_comment_edit (e : edit) : Prop := exists path c, e = EAddComment path c.
Definition is_line_edit (e : edit) : bool := match e with EAddSel _ _ _ | ERemSel _ | EAddComment _ _ => true | _ => false end.
(** No move of the history failed / some call of the history did what it was asked to do. *)
Fixpoint no_failed_move (E : env) (h : list edit) (r : recipe) : Prop :=
  match h with
  | [] => True
  | e :: h' => ~ failed_move E e r /\ no_failed_move E h' (after E e r)
  end.
Fixpoint some_succeeded (E : env) (h : list edit) (r : recipe) : Prop :=
  match h with
  | [] => False
  | e :: h' => succeeded E e r \/ some_succeeded E h' (after E e r)
  end.
Definition run (E : env) (h : list edit) (r : recipe) : recipe := fold_left (fun r e => after E e r) h r.

(** What the history says about a variable: the last call that mentions it. *)
Inductive var_fact := VSet (v : json) | VGone | VUntouched.
Fixpoint last_word (k : str) (h : list edit) : var_fact :=
  match h with
  | [] => VUntouched
  | e :: h' => match last_word k h' with
               | VUntouched => match e with
                               | ESetVar k' v => if list_eq_dec ascii_dec k k' then VSet v else VUntouched
                               | EDelVar k' => if list_eq_dec ascii_dec k k' then VGone else VUntouched
                               | _ => VUntouched
                               end
               | f => f
               end
  end.
(** The text of a comment without its leading hash sign. *)
Definition comment_body (t : str) : str :=
  match t with
  | c :: t' => if ascii_dec c cHASH then strip t' else t
  | [] => []
  end.
Definition hashed (t : str) : str :=
  match t with
  | c :: _ => if ascii_dec c cHASH then t else $"# " ++ t
  | [] => []
  end.
(** The order of the variable names: a new name goes to the end, a deleted name is forgotten. *)
Definition var_order (l : list str) (e : edit) : list str :=
  match e with
  | ESetVar k _ => if in_dec (list_eq_dec ascii_dec) k l then l else l ++ [k]
  | EDelVar k => remove (list_eq_dec ascii_dec) k l
  | _ => l
  end.
(** The word that joins two selectors. *)
Definition join_word (m : sel_mode) : str := match m with SMAnd => $"and" | _ => $"or" end.
