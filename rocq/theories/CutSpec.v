(** Property C126: what remains of a text without its lines of Jinja. *)
From Verif Require Export JinjaSpec.

(** A statement or a comment of Jinja. *)
Definition closed (o : str) : Prop := exists m, o = $"{%" ++ m ++ $"%}" \/ o = $"{#" ++ m ++ $"#}".
(** Line by line: from a line that ends with a statement or a comment, the longest such end is taken out, and the line break with it. *)
Inductive taken_out : str -> str -> Prop :=
| last_line x : ~ In cNL x -> taken_out x x
| line_kept x s s' : ~ In cNL x -> (forall p o, x = p ++ o -> ~ closed o) -> taken_out s s' -> taken_out (x ++ cNL :: s) (x ++ cNL :: s')
| line_cut p o s s' : ~ In cNL (p ++ o) -> closed o -> (forall p' o', p ++ o = p' ++ o' -> closed o' -> length p <= length p') ->
    taken_out s s' -> taken_out (p ++ o ++ cNL :: s) (p ++ s').
