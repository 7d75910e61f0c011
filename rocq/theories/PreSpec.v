(** What the pre-processing of a recipe replaces: empty parentheses, functions after a dot, quoted texts over two lines (C118 to C120). *)
From Verif Require Export ConvertSpec.

(** From left to right: text of the given form is replaced, with regard to what follows it, and everything else is kept. *)
Inductive replaced_in (form : str -> Prop) (R : str -> str -> str -> Prop) : str -> str -> Prop :=
| at_the_end : replaced_in form R [] []
| character_kept c s s' : (forall u v, c :: s = u ++ v -> ~ form u) -> replaced_in form R s s' -> replaced_in form R (c :: s) (c :: s')
| text_replaced u w s s' : form u -> R u w s -> replaced_in form R s s' -> replaced_in form R (u ++ s) (w ++ s').

(** * Empty parentheses *)
Definition case_function (g name : str) : Prop := gap g /\ In name [$"lower"; $"upper"].
Definition empty_call (u : str) : Prop := exists g name, case_function g name /\ u = $"|" ++ g ++ name ++ $"()".
Definition without_parentheses (u w following : str) : Prop := u = w ++ $"()".

(** * Functions after a dot *)
Definition quote (c : ascii) : Prop := is_quote c = true.
(** The rest of an expression after the dot: a call and the end of the expression. *)
Definition set_end (s : str) : Prop := exists z t b, s = z ++ $"(" ++ t ++ $")" ++ b ++ $"%}" /\ on_a_line z /\ on_a_line t /\ gap b.
Definition sub_end (s : str) : Prop := exists z t b, s = z ++ $"(" ++ t ++ $")" ++ b ++ $"}}" /\ Forall word z /\ on_a_line t /\ gap b.
(** What comes before it. *)
Definition set_start (s : str) : Prop := exists a x y, s = $"{%" ++ a ++ $"set" ++ x ++ $"=" ++ y /\ gap a /\ on_a_line x /\ on_a_line y.
Definition sub_start (s : str) : Prop := exists a y, s = $"{{" ++ a ++ y /\ gap a /\ on_a_line y.
Definition call_after_dot (start tail : str -> Prop) (u : str) : Prop := exists x y, u = x ++ $"." ++ y /\ start x /\ tail y.
(** The dot becomes a bar; it is the last dot of its line that can. *)
Definition dot_to_bar (start tail : str -> Prop) (u w following : str) : Prop :=
  exists x y, u = x ++ $"." ++ y /\ w = x ++ $" | " ++ y /\ start x /\ tail y
  /\ forall p q r, y ++ following = p ++ $"." ++ q ++ r -> on_a_line p -> ~ tail q.

(** * Quoted texts with an escaped end of line *)
Definition quoted_lines (u : str) : Prop :=
  exists i k b q x y q', u = i ++ k ++ $":" ++ b ++ [q] ++ x ++ $"\n" ++ y ++ [q']
  /\ gap i /\ on_a_line k /\ gap b /\ quote q /\ on_a_line x /\ on_a_line y /\ quote q'.
(** The two parts become the lines of a block; [i], with the end of the line before, is used as the indentation. *)
Definition as_block (u w following : str) : Prop :=
  exists i k b q x y q', u = i ++ k ++ $":" ++ b ++ [q] ++ x ++ $"\n" ++ y ++ [q']
  /\ w = i ++ k ++ $": |" ++ i ++ $"  " ++ x ++ i ++ $"  " ++ y
  /\ gap i /\ on_a_line k /\ gap b /\ quote q /\ on_a_line x /\ on_a_line y /\ quote q'
  (* the indentation is complete, the value begins after the last colon that is followed by a quote, it is divided at the last
     escaped end of line, and ends with the last quote of the line *)
  /\ (forall c k', k = c :: k' -> is_space c = false)
  /\ (on_a_line b -> forall p g c r, x = p ++ $":" ++ g ++ [c] ++ r -> gap g -> ~ quote c)
  /\ ~ has_text $"\n" y
  /\ forall p c r, following = p ++ c :: r -> on_a_line p -> ~ quote c.
