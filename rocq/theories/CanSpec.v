(** What the whole conversion does after the selectors, as one relation (C136). *)
From Verif Require Export ContextSpec.
From Verif Require Import PhaseSpec.

Section Conversion.
Context (E : env) (order : list str -> list str) (closest : str -> option str).
(** The lines at the top in the order of the new format; comments first, other keys last (C44, C79). *)
Definition top_in_order (root root' : node) : Prop := exists tbl, map fst tbl = top_level /\ Sorted Z.lt (map snd tbl)
  /\ sorted_lines tbl (n_children root) (n_children root') /\ root' = with_lines root (n_children root').
(** The comments that lost their place, in the order in which they stood (C83, C30). *)
Definition lost_comments (before after : node) : list str :=
  map snd (filter (fun kv => negb (dmem (fst kv) (get_comments_table E after))
                             && match lookup after (fst kv) with Some _ => false | None => true end) (get_comments_table E before)).
(** [before]: the recipe before the conversion; [w]: after the selectors. *)
Definition conversion (vars : list (str * json)) (before : node) (w : world) (root : node) (warnings : list str) : Prop :=
  exists w2 w3 v n d,
    context_upgraded E order vars w w2
    /\ get_value E (fst w2) $"/outputs" (Some (JList [])) None = Ok v /\ json_len v = Ok n
    /\ sections_upgraded E closest (outputs_of n) w2 w3
    /\ warnings = snd w3 ++ map lost_message (lost_comments before (fst w3))
    /\ top_in_order (fst w3) root
    /\ get_value E root $"/context" (Some (JDict [])) None = Ok (JDict d).
End Conversion.

(** The lines after the selectors have become conditions (C91). *)
Definition conditions_made (E : env) (root root' : node) : Prop :=
  (forall p n sel, node_at root p = Some n -> conditional_element n sel -> exists n', node_at root' p = Some n' /\ element_after E n n' sel)
  /\ (forall q k sel, node_at root q = Some k -> conditional_switch k sel ->
        exists k', node_at root' q = Some k' /\ key_after E (path_at E root q) k k' sel)
  /\ (forall p n, node_at root p = Some n -> (forall q, site root q -> ~ above q p) -> exists n', node_at root' p = Some n' /\ same_line n n').
