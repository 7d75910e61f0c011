(** Property C122: where a variable is mentioned. *)
From Verif Require Export PathSpec Access.

(** How an expression starts in each format. *)
Definition opening (sv : schema) : str := match sv with SV0 => $"{{" | SV1 => $"${{" end.
(** A dot of the name stands for any character. *)
Definition name_as (var v : str) : Prop := Forall2 (fun c d => if ascii_dec c "." then d <> cNL else d = c) var v.
(** On one line of the text: an opening, later the name, later the end of an expression. *)
Definition mentions (sv : schema) (var s : str) : Prop :=
  exists a x v y b, name_as var v /\ s = a ++ opening sv ++ x ++ v ++ y ++ $"}}" ++ b /\ ~ In cNL x /\ ~ In cNL y.
(** The line is a text, as key or as value, that mentions the variable. *)
Definition mentioned_at (sv : schema) (var : str) (n : node) : Prop :=
  exists s, n_value n = VJ (JStr s) /\ mentions sv var s.
