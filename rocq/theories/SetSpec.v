(** Property C125: the variables that a text of the old format sets. *)
From Verif Require Export LayoutSpec PathSpec DepsSpec.

(** The text before a statement, its parts, and the white space behind it. *)
Record setting := { sl_before : str; sl_g0 : str; sl_g1 : str; sl_name : str; sl_g2 : str; sl_value : str; sl_after : str }.
Definition set_text (s : setting) : str :=
  $"{%" ++ sl_g0 s ++ $"set" ++ sl_g1 s ++ sl_name s ++ sl_g2 s ++ $"=" ++ sl_value s ++ $"%}".
Definition set_lines (l : list setting) (last : str) : str :=
  concat (map (fun s => sl_before s ++ set_text s ++ sl_after s ++ [cNL]) l) ++ last.
(** A text in which no statement starts. *)
Definition no_setting (p : str) : Prop := forall g, blank g -> ~ has_text ($"{%" ++ g ++ $"set") p.
Definition setting_ok (s : setting) : Prop :=
  no_setting (sl_before s) /\ blank (sl_g0 s) /\ blank (sl_g1 s) /\ variable_name (sl_name s) /\ blank (sl_g2 s)
  /\ ~ In cNL (sl_value s) /\ ~ has_text $"%}" (sl_value s) /\ blank (sl_after s).
(** The value: a Python literal, or else the text without the white space around it. *)
Definition set_value (E : env) (v : str) (j : json) : Prop :=
  exists t, trims v t /\ (lit_eval E t = Some j \/ lit_eval E t = None /\ j = JStr t).
(** The last statement for a name counts; names are in the order of their first statements. *)
Definition table_of (E : env) (l : list setting) (t : sdict json) : Prop :=
  map fst t = first_occurrences (map sl_name l)
  /\ (forall a s b, l = a ++ s :: b -> ~ In (sl_name s) (map sl_name b) -> exists j, dget (sl_name s) t = Some j /\ set_value E (sl_value s) j)
  /\ (forall k, ~ In k (map sl_name l) -> dget k t = None).
