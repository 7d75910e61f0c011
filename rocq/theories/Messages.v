(** Model of conda_recipe_manager/types.py: [MessageCategory] and [MessageTable]. *)
From Verif Require Export Json.

(** types.py 63-70 [MessageCategory] *)
Inductive category := EXCEPTION | ERROR | WARNING.
(** types.py [StrEnum] equality *)
Definition category_eqb (a b : category) : bool :=
  match a, b with
  | EXCEPTION, EXCEPTION | ERROR, ERROR | WARNING, WARNING => true
  | _, _ => false
  end.

(** types.py 80-84: the table, in insertion order.  Simplification: [get_messages] hands out a copy here (the Python code
    returns the stored list itself). *)
Definition msg_table := list (category * list str).
Definition new_table : msg_table := [].
(** types.py 93-95 and 104-106: look-up of a category *)
Fixpoint tbl_get (c : category) (t : msg_table) : option (list str) :=
  match t with
  | [] => None
  | (c', l) :: t' => if category_eqb c c' then Some l else tbl_get c t'
  end.
Fixpoint tbl_set (c : category) (l : list str) (t : msg_table) : msg_table :=
  match t with
  | [] => [(c, l)]
  | (c', l') :: t' => if category_eqb c c' then (c', l) :: t' else (c', l') :: tbl_set c l t'
  end.
(** types.py 86-95 [add_message] *)
Definition add_message (c : category) (m : str) (t : msg_table) : msg_table :=
  let t := match tbl_get c t with None => tbl_set c [] t | Some _ => t end in
  match tbl_get c t with
  | Some l => tbl_set c (l ++ [m]) t
  | None => t
  end.
(** types.py 97-106 [get_messages] *)
Definition get_messages (c : category) (t : msg_table) : list str :=
  match tbl_get c t with None => [] | Some l => l end.
(** types.py 108-117 [get_message_count] *)
Definition get_message_count (c : category) (t : msg_table) : nat :=
  match tbl_get c t with None => 0 | Some l => length l end.
(** types.py 130-133 [_pluralize] *)
Definition pluralize (n : nat) (s : str) : str := if n =? 1 then s else s ++ $"s".
(** types.py 119-142 [get_totals_message] *)
Definition get_totals_message (t : msg_table) : str :=
  match t with
  | [] => []
  | _ =>
      let num_errors := match tbl_get ERROR t with None => 0 | Some l => length l end in
      let errors := str_of_nat num_errors ++ $" " ++ pluralize num_errors $"error" in
      let num_warnings := match tbl_get WARNING t with None => 0 | Some l => length l end in
      let warnings := str_of_nat num_warnings ++ $" " ++ pluralize num_warnings $"warning" in
      errors ++ $" and " ++ warnings ++ $" were found."
  end.
(** types.py 144-148 [clear_messages] *)
Definition clear_messages (t : msg_table) : msg_table := [].
