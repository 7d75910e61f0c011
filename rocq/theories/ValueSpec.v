(** Property C123: the value that is read at a place of a recipe. *)
From Verif Require Export LayoutSpec.

(** The result of reading the value of an entry, by the form of the entry.  Texts are read once more by the YAML library;
    nested documents are read from what they are when written as a page of their own. *)
(** How texts and blocks are read is a parameter. *)
Section Reading.
Variables (text block : str -> json -> Prop).
Inductive value_reads : item -> json -> Prop :=
| vr_scalar k v c : (forall s, v <> JStr s) -> value_reads (IScalar k v c) v
| vr_text k s c j : text s j -> value_reads (IScalar k (JStr s) c) j
| vr_element v c : (forall s, v <> JStr s) -> value_reads (IElem v c) v
| vr_element_text s c j : text s j -> value_reads (IElem (JStr s) c) j
| vr_block k m ls c j : block (mlv_str m ++ NLs ++ $"  " ++ join (NLs ++ $"  ") ls) j ->
    value_reads (IBlock k m ls c) j
| vr_section k c cs j : (forall x, cs = [x] -> match x with IElem _ _ => False | IMapScalar _ _ _ _ | IMapSection _ _ _ _ => exists l, j = JList l | _ => True end) ->
    text (join NLs (page cs)) j -> value_reads (ISection k c cs) j
| vr_one_text k c s c' j : text s j -> value_reads (ISection k c [IElem (JStr s) c']) (match j with JList _ => j | _ => JList [j] end)
(** What follows is not what one expects. *)
| vr_one k c v c' : (forall s, v <> JStr s) -> value_reads (ISection k c [IElem v c']) v
| vr_empty k c : (forall s, k <> PStr s) -> value_reads (IEmpty k c) (JP k)
| vr_empty_text s c j : text s j -> value_reads (IEmpty (PStr s) c) j
| vr_mapping k v c rest j : text (join NLs (line $"- " (key_text k ++ $": " ++ scalar_text v) c :: [] :: page rest)) j ->
    value_reads (IMapScalar k v c rest) j
| vr_mapping_section k c cs rest j : text (join NLs (line $"- " (key_text k ++ $":") c :: flat_map (layout 2) cs ++ [] :: page rest)) j ->
    value_reads (IMapSection k c cs rest) j.
End Reading.
(** Without replacing variables. *)
Definition read_block (E : env) (t : str) (j : json) : Prop := yload E t = YOk j.
Definition value_read (E : env) : item -> json -> Prop := value_reads (read_as E) (read_block E).
(** With variables: the text of every text value is filled in and read once more; if that gives a list or a mapping, its values are
    filled in as well.  (How a text is filled in: C124.)  [n] bounds the depth, as Python's recursion limit does. *)
Inductive filled_in (E : env) (sv : schema) (vars : vtbl) : nat -> json -> json -> Prop :=
| fi_other n p : (forall s, p <> PStr s) -> filled_in E sv vars (S n) (JP p) (JP p)
| fi_text n s p : read_block E (render_jinja_text E sv vars (quote_special_strings s MNone)) (JP p) -> filled_in E sv vars (S n) (JStr s) (JP p)
| fi_text_more n s j j' : (forall p, j <> JP p) -> read_block E (render_jinja_text E sv vars (quote_special_strings s MNone)) j -> filled_in E sv vars (S n) j j' ->
    filled_in E sv vars (S n) (JStr s) j'
| fi_list n l l' : Forall2 (filled_in E sv vars n) l l' -> filled_in E sv vars (S n) (JList l) (JList l')
| fi_dict n d d' : Forall2 (fun a b => fst a = fst b /\ filled_in E sv vars n (snd a) (snd b)) d d' -> filled_in E sv vars (S n) (JDict d) (JDict d').
Definition value_filled (E : env) (sv : schema) (vars : vtbl) : item -> json -> Prop :=
  value_reads (fun t j => exists j0, read_as E t j0 /\ filled_in E sv vars (rec_limit E) j0 j)
              (fun t j => read_block E (render_jinja_text E sv vars t) j).
(** The name of the root of the tree is not used as a key. *)
Definition not_the_root (x : item) : Prop := entry_key x <> Some (PStr $"/").
