(** Files of the old format that need nothing but a new order (C128).  Nothing here is used by the model. *)
From Verif Require Export LayoutSpec PlainSpec.
From Coq Require Import Permutation.

(** Only comments, keys and list elements that are values: no mappings in lists and no blocks of text. *)
Inductive simple : item -> Prop :=
| simple_comment c : simple (IComment c)
| simple_empty k c : simple (IEmpty k c)
| simple_scalar k v c : simple (IScalar k v c)
| simple_elem v c : simple (IElem v c)
| simple_section k c cs : Forall simple cs -> simple (ISection k c cs).
(** The same entries in another order, at the top and within sections. *)
Inductive reordered : list item -> list item -> Prop :=
| reordered_here xs ys : Permutation xs ys -> reordered xs ys
| reordered_inside a k c cs ds b : reordered cs ds -> reordered (a ++ ISection k c cs :: b) (a ++ ISection k c ds :: b)
| reordered_again xs ys zs : reordered xs ys -> reordered ys zs -> reordered xs zs.
Definition version_item : item := IScalar (PStr $"schema_version") (JInt 1) [].
