(** Vocabulary of C140: files of the new recipe format in the canonical layout.  Nothing here is used by the model. *)
From Verif Require Export BumpSpec2 DepFileSpec.

(** The first entry called "schema_version" is the number 1. *)
Definition marked_new (xs : list item) : Prop :=
  exists A c B, xs = A ++ IScalar (PStr $"schema_version") (JInt 1) c :: B /\ no_entry $"schema_version" A.
(** The variables are the keys and values that are read in the section "context"; without that section there are none. *)
Definition context_read (E : env) (xs : list item) (vars : list (str * json)) : Prop :=
  (no_entry $"context" xs /\ vars = [])
  \/ exists d, ~ no_entry $"context" xs /\ get_value E (document xs) $"/context" None None = Ok (JDict d)
     /\ Forall (fun kv => exists k, fst kv = PStr k) d /\ NoDup (map fst d) /\ vars = map (fun kv => (prim_str (fst kv), snd kv)) d.
Definition new_file (E : env) (xs : list item) (vars : list (str * json)) : Prop :=
  canonical_document E xs /\ marked_new xs /\ context_read E xs vars.
