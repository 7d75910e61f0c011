(** Vocabulary of C108 to C110: error messages in the output of a build, the debug file of a bulk build, the variables of a
    build configuration file. *)
From Verif Require Export CommandsSpec GraphSpec HashSpec.

(** * Messages in the error output *)
(** A message: the word, some space (it may go over several lines), and the rest of that line. *)
Record shown_error := { x_gap : str; x_line : str }.
Definition error_text (x : shown_error) : str := $"Error:" ++ x_gap x ++ x_line x.
Definition with_errors (first : str) (more : list (shown_error * str)) : str :=
  first ++ concat (map (fun x => error_text (fst x) ++ snd x) more).
Definition no_error (s : str) : Prop := forall c, is_space c = true -> ~ has_text ($"Error:" ++ [c]) s.
Definition starts_with_space (s : str) : Prop := exists c s', s = c :: s' /\ is_space c = true.
(** Other text holds no message; a message ends with its line. *)
Fixpoint errors_ok (first : str) (more : list (shown_error * str)) : Prop :=
  no_error first
  /\ match more with
     | [] => True
     | (x, piece) :: more' =>
         x_gap x <> [] /\ gap (x_gap x) /\ on_a_line (x_line x) /\ ~ starts_with_space (x_line x)
         /\ (piece = [] /\ more' = [] \/ x_line x <> [] /\ exists p, piece = cNL :: p)
         /\ errors_ok piece more'
     end.

(** * The debug file *)
(** The different elements of a list in the order of their first appearance. *)
Fixpoint firsts (l : list str) : list str :=
  match l with [] => [] | x :: l' => x :: filter (fun y => if list_eq_dec ascii_dec x y then false else true) (firsts l') end.
(** The recipes that report a message. *)
Definition reporting (e : str) (l : list (str * build)) : list str :=
  map fst (filter (fun nb => if in_dec (list_eq_dec ascii_dec) e (bd_errors (snd nb)) then true else false) l).
Definition most_frequent_first (g : list (str * list str)) : Prop :=
  forall a x b y c, g = a ++ x :: b ++ y :: c -> length (snd y) <= length (snd x).

(** * The variables of a build configuration file *)
Definition has_values (j : json) : bool := match j with JList (_ :: _) => true | _ => false end.
Definition is_zip_keys (k : prim) : bool := match k with PStr s => if list_eq_dec ascii_dec s $"zip_keys" then true else false | _ => false end.
