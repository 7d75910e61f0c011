(** Specification of the canonical layout of a recipe (C38-C41).  Nothing here is used by the model, except that scalars
    are written with [stringify_yaml] (see C42 for what that does). *)
From Verif Require Export JinjaSpec.

(** A document, line by line: comment lines; keys without value; keys with a value on the same line; keys with a block of
    text; keys with a nested document; list elements; list elements that are mappings, by the kind of their first key. *)
Inductive item :=
| IComment (c : str)
| IEmpty (k : prim) (c : str)
| IScalar (k : prim) (v : json) (c : str)
| IBlock (k : prim) (m : mlv) (ls : list str) (c : str)
| ISection (k : prim) (c : str) (cs : list item)
| IElem (v : json) (c : str)
| IMapScalar (k : prim) (v : json) (c : str) (rest : list item)
| IMapSection (k : prim) (c : str) (cs rest : list item).

(** The tree of a document. *)
Definition key_node (k : prim) (c : str) (chs : list node) : node := Nd (VJ (JP k)) c chs false MNone true.
Definition value_node (v : json) (c : str) : node := Nd (VJ v) c [] false MNone false.
Fixpoint tree_of (x : item) : node :=
  match x with
  | IComment c => Nd VSent c [] false MNone false
  | IEmpty k c => key_node k c []
  | IScalar k v c => key_node k c [value_node v c]
  | IBlock k m ls c => key_node k c [Nd (VJ (JList (map (fun l => JStr l) ls))) [] [] false m false]
  | ISection k c cs => key_node k c (map tree_of cs)
  | IElem v c => Nd (VJ v) c [] true MNone false
  | IMapScalar k v c rest => Nd VSent c (key_node k c [value_node v c] :: map tree_of rest) true MNone false
  | IMapSection k c cs rest => Nd VSent c (key_node k c (map tree_of cs) :: map tree_of rest) true MNone false
  end.
Definition document (xs : list item) : node := root_node (map tree_of xs).

(** The layout: two blanks of indentation per level, two blanks before a comment, no blanks at the end of a line. *)
Definition key_text (k : prim) : str := json_str (JP k).
Definition scalar_text (v : json) : str := stringify_yaml (VJ v) MNone.
Definition line (start body comment : str) : str := rstrip (start ++ body ++ $"  " ++ comment).
Fixpoint layout (i : nat) (x : item) : list str :=
  match x with
  | IComment c => [rstrip (spaces i ++ c)]
  | IEmpty k c => [line (spaces i) (scalar_text (JP k) ++ $":") c]
  | IScalar k v c => [line (spaces i) (key_text k ++ $": " ++ scalar_text v) c]
  | IBlock k m ls c => line (spaces i) (key_text k ++ $": " ++ mlv_str m) c
                       :: map (fun l => rstrip (spaces (i + 2) ++ l)) ls
  | ISection k c cs => line (spaces i) (key_text k ++ $":") c :: flat_map (layout (i + 2)) cs
  | IElem v c => [line (spaces i) ($"- " ++ scalar_text v) c]
  | IMapScalar k v c rest => line (spaces i ++ $"- ") (key_text k ++ $": " ++ scalar_text v) c
                             :: flat_map (layout (i + 2)) rest
  | IMapSection k c cs rest => line (spaces i ++ $"- ") (key_text k ++ $":") c
                               :: flat_map (layout (i + 4)) cs ++ flat_map (layout (i + 2)) rest
  end.
(** A blank line follows every top-level entry that is not a comment. *)
Definition page (xs : list item) : list str :=
  flat_map (fun x => layout 0 x ++ match x with IComment _ => [] | _ => [[]] end) xs.

(** ** Canonical documents *)
(** A colon, blanks and a bar or an angle bracket: what announces a block of text. *)
Definition block_mark (s : str) : Prop :=
  exists a w c b, s = a ++ $":" ++ w ++ c :: b /\ w <> [] /\ blank w /\ (c = "|"%char \/ c = ">"%char).
(** A blank followed by a hash sign: what starts a comment. *)
Definition comment_mark (s : str) : Prop := exists a c b, s = a ++ c :: cHASH :: b /\ is_space c = true.
Definition ends_clean (s : str) : Prop := forall t c, s = t ++ [c] -> is_space c = false.
Definition starts_plain (s : str) : Prop := exists c t, s = c :: t /\ is_space c = false /\ c <> cHASH.
(** A comment: nothing, or a hash sign and text that does not end with a blank. *)
Definition comment_text (c : str) : Prop := c = [] \/ (starts_with_hash c /\ ends_clean c).
(** The text of a line (without indentation and comment) and its comment can be told apart. *)
Definition separable (body comment : str) : Prop :=
  starts_plain body /\ ~ comment_mark body /\ comment_text comment.
(** A line without block mark whose text is read as [j]. *)
Definition plain_line (E : env) (body comment : str) (j : json) : Prop :=
  separable body comment /\ ~ block_mark (line [] body comment) /\ read_as E (line [] body comment) j.
Definition block_variant (m : mlv) : Prop := In m [MPipe; MPipePlus; MPipeMinus; MAng; MAngPlus; MAngMinus].
Definition is_mapping (j : json) : bool := match j with JDict _ => true | _ => false end.
(** The key of an entry. *)
Definition entry_key (x : item) : option prim :=
  match x with IEmpty k _ | IScalar k _ _ | IBlock k _ _ _ | ISection k _ _ => Some k | _ => None end.
(** An entry of a mapping that has the given first key: a comment, or another key. *)
Definition entry_beside (k : prim) (x : item) : Prop :=
  match x with
  | IComment _ => True
  | _ => match entry_key x with Some k' => prim_eqb k' k = false | None => False end
  end.
(** The last line of the entry belongs to a block of text. *)
Fixpoint ends_in_block (x : item) : bool :=
  let last_of := fix go (l : list item) : bool :=
    match l with [] => false | [y] => ends_in_block y | _ :: l' => go l' end in
  match x with
  | IBlock _ _ _ _ => true
  | ISection _ _ cs => last_of cs
  | IMapScalar _ _ _ rest => last_of rest
  | IMapSection _ _ cs rest => match rest with [] => last_of cs | _ => last_of rest end
  | _ => false
  end.
(** A nested document has a line, and is not just one key without value (which would be printed as the value). *)
Definition proper_section (cs : list item) : Prop :=
  cs <> [] /\ forall k c, cs <> [IEmpty k c].

Inductive canonical (E : env) : item -> Prop :=
| can_comment c j : starts_with_hash c -> ends_clean c -> ~ block_mark c -> yload E c = YOk j -> canonical E (IComment c)
| can_empty k c : plain_line E (scalar_text (JP k) ++ $":") c (JDict [(k, JNull)]) -> canonical E (IEmpty k c)
| can_scalar k v c : v <> JNull -> plain_line E (key_text k ++ $": " ++ scalar_text v) c (JDict [(k, v)]) ->
    canonical E (IScalar k v c)
| can_block k m ls c w :
    block_variant m -> separable (key_text k ++ $": " ++ mlv_str m) c -> ~ block_mark c ->
    ~ In cNL (key_text k) ->
    yload E (line [] (key_text k ++ $": " ++ mlv_str m) c) = YOk (JDict [(k, w)]) ->
    Forall (fun l => strip l = l) ls ->
    canonical E (IBlock k m ls c)
| can_section k c cs : plain_line E (key_text k ++ $":") c (JDict [(k, JNull)]) -> proper_section cs ->
    Forall (canonical E) cs -> canonical E (ISection k c cs)
| can_elem v c : is_mapping v = false -> plain_line E ($"- " ++ scalar_text v) c (JList [v]) -> canonical E (IElem v c)
| can_map_scalar k v c rest : v <> JNull ->
    plain_line E ($"- " ++ key_text k ++ $": " ++ scalar_text v) c (JList [JDict [(k, v)]]) ->
    Forall (canonical E) rest -> Forall (entry_beside k) rest -> canonical E (IMapScalar k v c rest)
| can_map_section k c cs rest :
    plain_line E ($"- " ++ key_text k ++ $":") c (JList [JDict [(k, JNull)]]) -> proper_section cs ->
    Forall (canonical E) cs -> Forall (canonical E) rest -> Forall (entry_beside k) rest ->
    canonical E (IMapSection k c cs rest).
(** A whole page: in addition, no top-level entry ends in a block of text. *)
Definition canonical_page (E : env) (xs : list item) : Prop :=
  Forall (canonical E) xs /\ Forall (fun x => ends_in_block x = false) xs.

(** ** Recipes *)
(** One line of text that contains no Jinja statement and no Jinja comment. *)
Definition inert (l : str) : Prop :=
  (forall c, In c l -> is_linebreak c = false) /\ ~ has_text $"{%" l /\ ~ has_text $"{#" l.
Definition variable_name (k : str) : Prop :=
  k <> [] /\ Forall (fun c => is_word c || ceq c "-"%char || ceq c "."%char = true) k.
(** The value of a variable, as written: strings between double quotes. *)
Definition variable_text (v : json) : str := match v with JStr s => cDQ :: s ++ [cDQ] | _ => json_str v end.
(** The written value is one line, does not close the statement, and is a Python literal for the value. *)
Definition readable_variable (E : env) (kv : str * json) : Prop :=
  let t := variable_text (snd kv) in
  variable_name (fst kv) /\ strip t = t /\ ~ has_text $"%}" t /\ (forall c, In c t -> is_linebreak c = false)
  /\ lit_eval E t = Some (snd kv).
Definition statement (kv : str * json) : str := $"{% set " ++ fst kv ++ $" = " ++ variable_text (snd kv) ++ $" %}".

Definition canonical_document (E : env) (xs : list item) : Prop :=
  canonical_page E xs /\ proper_tree (document xs) = true /\ Forall inert (page xs).
Definition no_entry (name : str) (xs : list item) : Prop :=
  forall x, In x xs -> entry_key x <> Some (PStr name) /\ forall c, x <> IElem (JStr name) c.
(** A recipe in the old format (no entry "schema_version") with readable variables. *)
Definition canonical_recipe (E : env) (xs : list item) (vars : list (str * json)) : Prop :=
  canonical_document E xs /\ no_entry $"schema_version" xs /\ NoDup (map fst vars) /\ Forall (readable_variable E) vars.
(** The page of a recipe in the old format. *)
Definition recipe_page (xs : list item) (vars : list (str * json)) : list str :=
  map statement vars ++ (match vars with [] => [] | _ => [[]] end) ++ page xs.
