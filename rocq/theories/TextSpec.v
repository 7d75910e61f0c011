(** What edits do to the text of a recipe, line by line (C104 to C106).  Nothing here is used by the model. *)
From Verif Require Export FrameSpec WellSpec.

(** Everything of a line before its comment stays. *)
Definition recommented (c' l l' : str) : Prop := exists a c, (c = [] \/ starts_with_hash c)
  /\ l = rstrip (a ++ $"  " ++ c) /\ l' = rstrip (a ++ $"  " ++ c').
(** Everything of a line before the value stays; the comment is gone. *)
Definition revalued (v v' : json) (l l' : str) : Prop := exists a c, (c = [] \/ starts_with_hash c)
  /\ l = rstrip (a ++ stringify_yaml (VJ v) MNone ++ $"  " ++ c) /\ l' = rstrip (a ++ stringify_yaml (VJ v') MNone).
(** Texts that differ in one line, or in two lines that follow each other. *)
Definition one_line_differs (P : str -> str -> Prop) (L L' : list str) : Prop :=
  exists before l l' after, L = before ++ l :: after /\ L' = before ++ l' :: after /\ P l l'.
Definition two_lines_differ (P : str -> str -> Prop) (L L' : list str) : Prop :=
  exists before l m l' m' after, L = before ++ l :: m :: after /\ L' = before ++ l' :: m' :: after /\ P l l' /\ P m m'.
(** A key with a list of one plain element. *)
Definition lone_element (n : node) : bool :=
  n_keyf n && match n_children n with [c] => terminal c && n_lmf c | _ => false end.
(** A line with a plain value [u]: a key with the value on its line (the comment of the line belongs to the value), or a list
    element. *)
Definition key_with_value (n : node) (u : json) : Prop :=
  n_keyf n = true /\ n_lmf n = false /\ exists c, n_children n = [c] /\ n_value c = VJ u /\ n_children c = [] /\ n_lmf c = false /\ n_ml c = MNone.
Definition plain_element (n : node) (u : json) : Prop :=
  n_value n = VJ u /\ n_children n = [] /\ n_lmf n = true /\ n_keyf n = false /\ n_ml n = MNone.
(** The line that a plain value is written as. *)
Definition plain_line (w : json) : node := Nd (VJ w) [] [] false MNone false.
(** In an element that is a mapping no later key is the first one again. *)
Fixpoint begins_once (n : node) : bool :=
  match n with
  | Nd _ _ chs _ _ _ =>
      (if collection_element n
       then match chs with
            | first :: others => is_nil (n_children first) || forallb (fun x => is_nil (n_children x) || negb (nval_eqb (n_value x) (n_value first))) others
            | [] => true
            end
       else true) && forallb begins_once chs
  end.
(** A line that can be addressed and that is written: neither an element that is a mapping nor the value of a key. *)
Definition written_line (n : node) : Prop :=
  collection_element n = false /\ bare_value n = false /\ (n_lmf n = true \/ n_ml n = MNone).
(** The comment edit [e] is about the line at [path]. *)
Definition edits_comment_at (e : edit) (path : str) : Prop :=
  match e with
  | EAddSel p _ _ | ERemSel p | EAddComment p _ => p = path
  | _ => False
  end.
(** The texts of two recipes differ in the comment of one line (or, for a key with a list of one plain element, of that line and
    the next); the new comment is [c']. *)
Definition text_recommented (E : env) (n : node) (c' : str) (r r' : recipe) : Prop :=
  exists L L', render E r = join [cNL] L /\ render E r' = join [cNL] L' /\
    (if lone_element n then two_lines_differ (recommented c') L L' else one_line_differs (recommented c') L L').

(** * Sections *)
(** The lines of a top-level line (a section or a comment between sections), as a document of its own. *)
Definition section_lines (E : env) (root c : node) : list str := render_lines E (with_lines root [c]).
(** The root of a document: written neither as a key nor as a list element. *)
Definition document_root (root : node) : Prop := n_keyf root = false /\ n_lmf root = false.
(** Everything the request changes is inside sections with these names. *)
Definition inside_sections (q : request) (names : list str) : Prop :=
  forall s, In s (edited_paths q) -> exists k rest, s = path_text (k :: rest) /\ Forall component (k :: rest) /\ isdigit k = false /\ rest <> [] /\ In k names.
