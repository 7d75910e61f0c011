(** Sections the conversion has no rule for (C101).  Nothing here is used by the model. *)
From Verif Require Export ContextSpec.

(** The top-level keys the converter knows, reads or writes. *)
Definition known_sections : list str :=
  [$"schema_version"; $"context"; $"package"; $"recipe"; $"source"; $"build"; $"requirements"; $"outputs"; $"test"; $"tests";
   $"about"; $"extra"; $"extras"].
(** The top level is a mapping. *)
Definition mapping_at_top (root : node) : Prop := Forall (fun c => n_lmf c = false) (n_children root).
(** Neither selectors nor expressions in a section. *)
Definition plain_section (n : node) : Prop :=
  forall p m, node_at n p = Some m -> selector_of (n_comment m) = None /\ (terminal m = true -> ~ has_expression (searched_text false m)).
(** What is written for a key is lines of that key. *)
Definition written_as_key (E : env) (c : str) (v : json) : Prop :=
  forall lines, written_as E (JDict [(PStr c, v)]) lines ->
  Forall (fun n => n_value n = VJ (JStr c) /\ n_lmf n = false) lines.
Definition context_as_key (E : env) (vars : list (str * json)) : Prop :=
  forall ctx, entries_for vars ctx -> written_as_key E $"context" (JDict (map (fun kv => (PStr (fst kv), snd kv)) ctx)).
