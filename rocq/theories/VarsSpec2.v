(** The file of a recipe after its variables and expressions were converted (C132).  Nothing here is used by the model. *)
From Verif Require PreSpec2.
From Verif Require Export SimpleSpec VarsSpec.

(** The same entries; expressions, beside which there is no comment, begin with the new marker. *)
Inductive new_markers : item -> item -> Prop :=
| new_scalar k s s' : has_expression (scalar_text (JStr s)) -> PreSpec2.markers_changed None s s' ->
    new_markers (IScalar k (JStr s) []) (IScalar k (JStr s') [])
| new_elem s s' : has_expression (scalar_text (JStr s)) -> PreSpec2.markers_changed None s s' ->
    new_markers (IElem (JStr s) []) (IElem (JStr s') [])
| same_comment c : new_markers (IComment c) (IComment c)
| same_empty k c : ~ has_expression (scalar_text (JP k)) -> new_markers (IEmpty k c) (IEmpty k c)
| same_scalar k v c : ~ has_expression (scalar_text v) -> new_markers (IScalar k v c) (IScalar k v c)
| same_elem v c : ~ has_expression (scalar_text v) -> new_markers (IElem v c) (IElem v c)
| in_section k c cs ds : cs <> [] -> Forall2 new_markers cs ds -> new_markers (ISection k c cs) (ISection k c ds).
(** The entry for the variables, if there are any. *)
Definition context_items (ctx : list (str * json)) : list item :=
  match ctx with [] => [] | _ => [ISection (PStr $"context") [] (map (fun kv => IScalar (PStr (fst kv)) (snd kv) []) ctx)] end.
