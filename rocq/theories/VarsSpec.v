(** The recipe after its variables and expressions were converted (C132).  Nothing here is used by the model. *)
From Verif Require PreSpec2.
From Verif Require Export GoesSpec.

(** A value, below which nothing stands, with an expression [{{ ... }}] in it. *)
Definition value_with_expression (n : node) : Prop := terminal n = true /\ has_expression (searched_text false n).
(** All markers are the new ones (C84), all other lines are as they were.  The comment beside an expression is dropped. *)
Inductive renewed : node -> node -> Prop :=
| marker_renewed s s' c l : value_with_expression (Nd (VJ (JStr s)) c [] l MNone false) -> PreSpec2.markers_changed None s s' ->
    renewed (Nd (VJ (JStr s)) c [] l MNone false) (Nd (VJ (JStr s')) [] [] l MNone false)
| line_kept n lines : ~ value_with_expression n -> Forall2 renewed (n_children n) lines -> renewed n (with_lines n lines).

(** The section for the variables, which is written as one expects; and the tree with this section at its end. *)
Definition variable_line (kv : str * json) : node :=
  Nd (VJ (JStr (fst kv))) [] [Nd (VJ (snd kv)) [] [] false MNone false] false MNone true.
Definition context_line (ctx : list (str * json)) : node := Nd (VJ (JStr $"context")) [] (map variable_line ctx) false MNone true.
Definition with_context (ctx : list (str * json)) (root : node) : node :=
  match ctx with [] => root | _ => with_lines root (n_children root ++ [context_line ctx]) end.
Definition context_value_of (ctx : list (str * json)) : json := JDict (map (fun kv => (PStr (fst kv), snd kv)) ctx).
Definition writes_context (E : env) (ctx : list (str * json)) : Prop :=
  written_as E (JDict [(PStr $"context", context_value_of ctx)]) [context_line ctx].

(** Every value with an expression is a text that is read as itself and written as one line; it is the element of a list
    or the only thing below a key. *)
Definition expressions_fit (E : env) (root : node) : Prop :=
  forall q k i x, node_at root q = Some k -> nth_error (n_children k) i = Some x -> value_with_expression x ->
  exists s c l, x = Nd (VJ (JStr s)) c [] l MNone false
  /\ parse_yaml E s None = Ok (JStr s)
  /\ (forall s', PreSpec2.markers_changed None s s' -> written_as E (JStr s') [Nd (VJ (JStr s')) [] [] false MNone false])
  /\ if l then Forall (fun y => is_key_line y = false) (n_children k)
     else n_children k = [x] /\ n_keyf k = true /\ n_lmf k = false.
