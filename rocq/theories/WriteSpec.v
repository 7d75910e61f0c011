(** Specification vocabulary for values that are written and read again.  Nothing here is used by the model. *)
From Verif Require Export FrameSpec LayoutSpec.

(** A text of one line without comment, block of text or Jinja statement that is read as [j]. *)
Definition one_line (E : env) (t : str) (j : json) : Prop :=
  starts_plain t /\ ends_clean t /\ ~ comment_mark t /\ ~ block_mark t /\ inert t /\ read_as E t j.
(** The scalar [v], written on a line of its own, is read as the scalar [w]; and a text is read as itself. *)
Definition scalar_reads (E : env) (v : json) (w : prim) : Prop :=
  (exists p, v = JP p) /\ one_line E (scalar_text v) (JP w) /\ w <> PStr $"schema_version"
  /\ (forall s, v = JStr s -> existsb (ceq cNL) s = false) /\ forall s, w = PStr s -> yload E s = YOk (JStr s).
(** The YAML library writes a mapping of one key and the scalar [v] as one line that is read as the key and [w]. *)
Definition entry_reads (E : env) (c : str) (v : json) (w : prim) : Prop :=
  exists t, ydump E (JDict [(PStr c, v)]) = t ++ [cNL] /\ one_line E t (JDict [(PStr c, JP w)])
  /\ w <> PNull /\ c <> $"schema_version" /\ forall s, w = PStr s -> yload E s = YOk (JStr s).
(** A request that sets the content of a path. *)
Definition sets (q : request) (s : str) (v : json) : Prop := q = RAdd s v \/ q = RReplace s v.
