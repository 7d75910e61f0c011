(** What the first step of the conversion does: lines that carry a selector become conditional entries (C91). *)
From Verif Require Export ConvertSpec.

Definition is_truth_value (n : node) : bool := match n_value n with VJ (JBool _) => true | _ => false end.
(** The expression of a selector in the V1 form (C65 says what this is). *)
Definition new_condition (sel e : str) : Prop := exists b, sel = $"[" ++ b ++ $"]" /\ e = upgrade_expression b.
Definition conditional_text (e : str) : str := $"${{ true if " ++ e ++ $" }}".
(** The text that replaces a truth value under a key: [build/skip] holds the expression itself. *)
Definition switch_text (path e t : str) : Prop :=
  ((exists above, path = above ++ $"/build/skip") /\ t = e)
  \/ (~ (exists above, path = above ++ $"/build/skip") /\ t = conditional_text e).
(** A list element with a selector becomes an if/then element; a truth value becomes a conditional text. *)
Definition element_value (n : node) (e : str) : json :=
  if is_truth_value n then JStr (conditional_text e)
  else JDict [(PStr $"if", JStr e); (PStr $"then", match n_value n with VJ j => j | VSent => JNull end)].
Definition element_after (E : env) (n n' : node) (sel : str) : Prop :=
  exists e lines, new_condition sel e /\ written_as E (element_value n e) lines /\ as_element (element_value n e) lines = [n'].
(** The comment that is left: the selector is gone. *)
Definition comment_left (old new : str) : Prop :=
  match selector_of old with
  | None => new = old
  | Some s => one_line old -> selector_of new = None
      /\ exists before after, old = before ++ s ++ after /\ letters new = letters (before ++ after)
  end.
(** A key with a truth value and a selector gets the new text instead; the rest of its comment stays. *)
Definition key_after (E : env) (path : str) (k k' : node) (sel : str) : Prop :=
  exists e t lines c, new_condition sel e /\ switch_text path e t /\ written_as E (JStr t) lines
  /\ comment_left (n_comment k) c
  /\ (selector_of (n_comment k) = None -> k' = with_lines k lines)
  /\ (selector_of (n_comment k) <> None -> comment_changed c (with_lines k lines) k').

(** The lines the step is about. *)
Definition conditional_element (n : node) (sel : str) : Prop :=
  terminal n = true /\ n_lmf n = true /\ selector_of (n_comment n) = Some sel.
Definition conditional_switch (k : node) (sel : str) : Prop :=
  exists n, n_children k = [n] /\ bare_value n = true /\ is_truth_value n = true /\ selector_of (n_comment n) = Some sel.
Definition site (root : node) (q : position) : Prop :=
  exists n sel, node_at root q = Some n /\ (conditional_element n sel \/ conditional_switch n sel).
(** [above q p]: the line at [q] is the one at [p] or one it stands below. *)
Definition above (q p : position) : Prop := exists r, p = q ++ r.
Definition same_line (n n' : node) : Prop :=
  n_value n' = n_value n /\ n_comment n' = n_comment n /\ n_lmf n' = n_lmf n /\ n_ml n' = n_ml n /\ n_keyf n' = n_keyf n
  /\ length (n_children n') = length (n_children n).

(** The new values can be written, texts as one line that is neither a comment nor carries a selector, nor is called like
    one of the keys; and a truth value with a selector that is no list element is all there is below its key. *)
Definition text_line (E : env) (root : node) (t : str) : Prop :=
  exists l, written_as E (JStr t) [l] /\ n_value l <> VSent /\ selector_of (n_comment l) = None
  /\ forall p k, node_at root p = Some k -> is_key_line k = true -> n_value k <> n_value l.
Definition ready (E : env) (root : node) : Prop :=
  forall p n sel e, node_at root p = Some n -> terminal n = true -> selector_of (n_comment n) = Some sel ->
  new_condition sel e ->
  if n_lmf n then (if is_truth_value n then text_line E root (conditional_text e)
                   else exists lines, written_as E (element_value n e) lines)
  else is_truth_value n = true ->
       (exists q k, p = q ++ [0] /\ node_at root q = Some k /\ n_children k = [n] /\ is_key_line k = true)
       /\ exists lines, written_as E (JStr e) lines /\ exists lines, written_as E (JStr (conditional_text e)) lines.

(** The reports: one for each other line that carries a selector and has a value, selector by selector. *)
Definition not_conditional (n : node) : bool := terminal n && negb (n_lmf n) && negb (is_truth_value n).
Definition selector_reports (E : env) (root : node) : list str :=
  flat_map (fun sel => map (fun p => $"A non-list item had a selector at: " ++ path_at E root p)
                           (positions_where (fun n => not_conditional n && has_selector sel n) root))
           (first_occurrences (selectors_of_lines root)).
