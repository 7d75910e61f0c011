(** Property C17: which edit requests end with an exception instead of a boolean. *)
From Verif Require Export PatchSpec.

(** The path ends in a number, the part above it exists, and that part has too few lines (comments not counted). *)
Definition beyond (root : node) (cs : list str) : Prop :=
  exists above i pos n, cs = above ++ [i] /\ isdigit i = true
    /\ addresses root (path_text above ++ $"/") pos /\ node_at root pos = Some n
    /\ count_elements (n_children n) <= int_of i.
(** The same for the path or for the path without its last component: an edit that creates its last component looks at
    the part above it. *)
Definition beyond_to_add (root : node) (cs : list str) : Prop := beyond root cs \/ beyond root (removelast cs).
