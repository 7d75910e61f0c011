(** What holds of the lines of every parsed document and of what edits make of it (C88, C89). *)
From Verif Require Export SelSpec.

(** The YAML loader never returns a mapping that has a key twice (PyYAML builds a Python dictionary). *)
Definition reads_proper (E : env) : Prop := forall s j, yload E s = YOk j -> proper_value j = true.

(** A line on its own: a key is a scalar; a line without value and without lines below is a comment, and not a list element;
    a list element without value starts with a line that is no comment; comments start with a hash sign. *)
Definition well_line (n : node) : Prop :=
  (n_keyf n = true -> exists k, n_value n = VJ (JP k))
  /\ (n_value n = VSent -> n_children n = [] -> starts_with_hash (n_comment n) /\ n_lmf n = false)
  /\ (n_value n = VSent -> n_lmf n = true -> exists c below, n_children n = c :: below /\ is_comment c = false)
  /\ (n_comment n = [] \/ starts_with_hash (n_comment n)).
Definition well_formed (root : node) : Prop :=
  is_comment root = false /\ forall p n, node_at root p = Some n -> well_line n.

(** Lines that are not nothing and no comments: each has a value or is a list element. *)
Definition solid (lines : list node) : Prop := lines <> [] /\ Forall (fun c => n_value c = VSent -> n_lmf c = true) lines.
(** The value is written as such lines; so is, for [add], the last part of the path with that value. *)
Definition writes_solid (E : env) (v : json) : Prop := forall lines, written_as E v lines -> solid lines.
Definition adds_solid (E : env) (path : str) (v : json) : Prop :=
  writes_solid E v
  /\ forall k above, str_to_stack_path path = Ok (k :: above) -> writes_solid E (JDict [(PStr k, v)]).
(** Removing the line at the path leaves the list element it stands in, if any, with a first line that is no comment. *)
Definition element_stays (root : node) (path : str) : Prop :=
  forall q i n, addresses root path (q ++ [i]) -> node_at root q = Some n -> n_value n = VSent ->
  exists c below, firstn i (n_children n) ++ skipn (S i) (n_children n) = c :: below /\ is_comment c = false.
(** The values an edit writes are solid and the elements it removes lines of stay elements. *)
Definition considerate (E : env) (e : edit) (r : recipe) : Prop :=
  match e with
  | EPatch p => forall q, asks p q ->
      match q with
      | RAdd path v => adds_solid E path v
      | RReplace _ v => writes_solid E v
      | RRemove path => element_stays (r_root r) path
      | RCopy from path => forall v, get_value E (r_root r) from None None = Ok v -> adds_solid E path v
      | RMove from path => element_stays (r_root r) from
                           /\ forall v, get_value E (r_root r) from None None = Ok v -> adds_solid E path v
      | RTest _ _ => True
      end
  | _ => True
  end.
Fixpoint all_considerate (E : env) (h : list edit) (r : recipe) : Prop :=
  match h with
  | [] => True
  | e :: h' => considerate E e r /\ all_considerate E h' (after E e r)
  end.
