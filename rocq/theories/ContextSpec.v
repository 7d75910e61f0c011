(** What the second step of the conversion does: the variables become the context, the schema is named, and the opening marker
    of each expression is replaced (C98).  What a search returns (C99). *)
From Verif Require Export DepsSpec SectionSpec.

(** * Searching (C99) *)

(** The text a search looks at: the value as it is printed and, on request, the comment after it. *)
Definition searched_text (with_comment : bool) (n : node) : str :=
  stringify_yaml (n_value n) MNone ++ (if with_comment then match n_comment n with [] => [] | c => $"  " ++ c end else []).

(** * Replacing what is at a path (C13) *)
Definition replaced_at (E : env) (s : str) (v : json) (root root' : node) : Prop :=
  exists lines, written_as E v lines /\
  ((exists q n, addresses root s q /\ node_at root q = Some n /\ bare_value n = false
                /\ (n_lmf n = true -> collection_element n = true
                                      \/ exists c above, str_to_stack_path s = Ok (c :: above) /\ isdigit c = false)
                /\ changed_at (content_replaced lines) q root root')
   \/ (exists q i x, addresses root s (q ++ [i]) /\ node_at root (q ++ [i]) = Some x
                     /\ n_lmf x = true /\ collection_element x = false
                     /\ (exists c above, str_to_stack_path s = Ok (c :: above) /\ isdigit c = true)
                     /\ changed_at (line_replaced i (as_element v lines)) q root root')).

(** * The context *)
Section Context_.
Context (E : env) (order : list str -> list str).
(** The value at a path with the new markers (C84). *)
Definition marker_changed (path : str) : change := fun w w' =>
  exists v, get_value E (fst w) path None None = Ok v
  /\ match v with
     | JStr s => in_lines (replaced_at E path (JStr (to_v1_marker s))) w w'
     | _ => tell ($"A non-string value was found as a JINJA substitution: " ++ json_str v) w w'
     end.
(** All values that hold an expression, each path once, in the order of a Python set. *)
Definition markers_changed : change := fun w w' =>
  exists f, (forall n, f n = true <-> terminal n = true /\ has_expression (searched_text false n))
  /\ all_of (map marker_changed (order (first_occurrences (map (path_at E (fst w)) (positions_where f (fst w)))))) w w'.
(** The entries of the context: one for each variable whose type is supported. *)
Definition entries_for (vars ctx : list (str * json)) : Prop :=
  Forall2 (fun a b => fst a = fst b /\ context_entry (snd a) (snd b)) (filter (fun kv => supported (snd kv)) vars) ctx.
Definition joins_texts (v : json) : Prop := exists s, v = JStr s /\ has_text $".join(" s.
Definition syntax_report (ctx : list (str * json)) : change := fun w w' =>
  exists keys, (forall k, In k keys <-> exists v, In (k, v) ctx /\ joins_texts v) /\ among keys (map fst ctx)
  /\ match keys with
     | [] => w' = w
     | _ => tell ($"The following key(s) contain unsupported syntax: " ++ join $", " keys) w w'
     end.
Definition context_upgraded (vars : list (str * json)) : change :=
  all_of (map (fun kv => tell (unsupported_message (fst kv))) (filter (fun kv => negb (supported (snd kv))) vars))
  >> (fun w w' => exists ctx, entries_for vars ctx
        /\ match ctx with
           | [] => nothing
           | _ => syntax_report ctx >> in_lines (value_put E [] $"context" (JDict (map (fun kv => (PStr (fst kv), snd kv)) ctx)))
           end w w')
  >> in_lines (value_put E [] $"schema_version" (JInt 1))
  >> markers_changed.
End Context_.
