(** C65 for every expression. *)
From Verif Require Export PreSpec2.

(** A kind of version text, and what becomes of it: the version ends where its digits end. *)
Definition written (kind : py_token -> Prop) (u : str) : Prop := exists t, kind t /\ token_ok t /\ u = token_v0 t.
Definition rewritten (kind : py_token -> Prop) (u w following : str) : Prop :=
  exists t, kind t /\ token_ok t /\ u = token_v0 t /\ w = token_v1 t /\ ends_version t following.
Definition comparison (t : py_token) : Prop := match t with PyCompare _ _ _ _ _ => True | _ => False end.
Definition plain_version (t : py_token) : Prop := match t with PyIs _ _ => True | _ => False end.
Definition python2 (t : py_token) : Prop := t = Py2k.
Definition python3 (t : py_token) : Prop := t = Py3k.
Definition version_text (kind : py_token -> Prop) : str -> str -> Prop := replaced_in (written kind) (rewritten kind).
Definition expression_upgraded : str -> str -> Prop :=
  in_turn [version_text comparison; version_text plain_version; version_text python2; version_text python3].
