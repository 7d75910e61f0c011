(** Vocabulary of C28: queries among edits.  Nothing here is used by the model. *)
From Verif Require Export SelSpec.

(** A history with queries of selector paths among the edits. *)
Inductive call := CEdit (e : edit) | CAsk (sel : str).
Fixpoint called (E : env) (l : list call) (r : recipe) : recipe :=
  match l with
  | [] => r
  | CEdit e :: l' => called E l' (after E e r)
  | CAsk sel :: l' => called E l' (snd (get_selector_paths sel r))
  end.
Definition edits (l : list call) : list edit := flat_map (fun c => match c with CEdit e => [e] | CAsk _ => [] end) l.
(** The edits of the tree that end with a new selector table. *)
Definition makes_table (e : edit) : bool := match e with EPatch _ | EAddSel _ _ _ | ERemSel _ => true | _ => false end.
