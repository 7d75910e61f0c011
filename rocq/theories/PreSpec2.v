(** The other steps of the pre-processing, for every text, and all of them in turn (C84, C85, C87, C107, C121). *)
From Verif Require Export PreSpec HashSpec.

(** Every occurrence of a text, from left to right. *)
Definition text_for (old new : str) : str -> str -> Prop := replaced_in (fun u => u = old) (fun _ w _ => w = new).
(** Relations in turn. *)
Inductive in_turn : list (str -> str -> Prop) -> str -> str -> Prop :=
| turn_done s : in_turn [] s s
| turn_next (P : str -> str -> Prop) more s t u : P s t -> in_turn more t u -> in_turn (P :: more) s u.

(** * Markers *)
(** [prev] is the character before; a marker right after a dollar sign is kept. *)
Inductive markers_changed : option ascii -> str -> str -> Prop :=
| markers_end prev : markers_changed prev [] []
| marker_changed prev s s' : prev <> Some "$"%char -> markers_changed (Some "{"%char) s s' -> markers_changed prev ($"{{" ++ s) ($"${{" ++ s')
| other_kept prev c s s' : (prev = Some "$"%char \/ forall v, c :: s <> $"{{" ++ v) -> markers_changed (Some c) s s' ->
    markers_changed prev (c :: s) (c :: s').

(** * Environment variables *)
Record lookup := { l_quote : ascii; l_key : str }.
Definition old_lookup (l : lookup) : str := $"environ[" ++ [l_quote l] ++ l_key l ++ [l_quote l] ++ $"]".
Definition new_lookup (l : lookup) : str := $"env.get(" ++ [l_quote l] ++ l_key l ++ [l_quote l] ++ $")".
Definition lookup_text (u : str) : Prop := exists g q key q', u = g ++ $"environ[" ++ [q] ++ key ++ [q'] ++ $"]"
  /\ g <> [] /\ gap g /\ quote q /\ quote q' /\ on_a_line key.
(** What such a text asks for: the first quote, and everything up to the last quote of the line with a bracket after it. *)
Definition asked (u : str) (l : lookup) (following : str) : Prop := exists g q', u = g ++ $"environ[" ++ [l_quote l] ++ l_key l ++ [q'] ++ $"]"
  /\ g <> [] /\ gap g /\ quote (l_quote l) /\ quote q' /\ on_a_line (l_key l)
  /\ forall p c r, following = p ++ [c] ++ $"]" ++ r -> on_a_line p -> ~ quote c.
(** The texts of a form, from left to right, and what is noted about them. *)
Inductive noted_in {X} (form : str -> Prop) (R : str -> X -> str -> Prop) : str -> list X -> Prop :=
| none_noted : noted_in form R [] []
| character_passed c s l : (forall u v, c :: s = u ++ v -> ~ form u) -> noted_in form R s l -> noted_in form R (c :: s) l
| one_noted u x s l : form u -> R u x s -> noted_in form R s l -> noted_in form R (u ++ s) (x :: l).
(** The first occurrence, if there is one. *)
Inductive first_for (old new : str) : str -> str -> Prop :=
| first_found a b : (forall a' b', a ++ old ++ b = a' ++ old ++ b' -> length a <= length a') -> first_for old new (a ++ old ++ b) (a ++ new ++ b)
| none_found s : ~ has_text old s -> first_for old new s s.
Definition lookups_changed (s t : str) : Prop := exists asks, noted_in lookup_text asked s asks
  /\ in_turn (map (fun l => first_for (old_lookup l) (new_lookup l)) asks) s t.

(** * The hash type *)
Definition hash_key (u : str) : Prop := exists q n c, In n hash_names /\ u = old_mark (HKey q n c).
Definition set_lines : list str := map (fun n => old_mark (HSet n)) hash_names.

(** * All steps *)
Definition pre_processed (order : list str) : str -> str -> Prop := in_turn (
  [ replaced_in (call_after_dot set_start set_end) (dot_to_bar set_start set_end);
    replaced_in (call_after_dot sub_start sub_end) (dot_to_bar sub_start sub_end);
    replaced_in empty_call without_parentheses;
    replaced_in quoted_lines as_block;
    text_for $"min_pin=" $"lower_bound=";
    text_for $"max_pin=" $"upper_bound=";
    lookups_changed ]
  ++ map (fun line => text_for line []) order
  ++ [ replaced_in hash_key (fun _ w _ => w = $"sha256:") ]).
