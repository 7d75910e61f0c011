(** Vocabulary of C107: the hash-type variable that is taken out of a recipe before it is read.  Nothing here depends on the
    model. *)
From Verif Require Export ConvertSpec.

(** A line that sets such a variable to ["sha256"], and a use of such a variable as a key, with or without quotes. *)
Inductive hash_mark := HSet (name : str) | HKey (quoted : bool) (name : str) (closed : bool).
Definition hash_names : list str := [$"hash_type"; $"hash"; $"hashtype"].
Definition mark_name (m : hash_mark) : str := match m with HSet n => n | HKey _ n _ => n end.
Definition quote_if (b : bool) : str := if b then $"'" else [].
Definition old_mark (m : hash_mark) : str :=
  match m with
  | HSet n => $"{% set " ++ n ++ $" = " ++ [cDQ] ++ $"sha256" ++ [cDQ] ++ $" %}" ++ [cNL]
  | HKey q n c => quote_if q ++ $"{{ " ++ n ++ $" }}" ++ quote_if c ++ $":"
  end.
Definition new_mark (m : hash_mark) : str := match m with HSet _ => [] | HKey _ _ _ => $"sha256:" end.
(** A text: a first piece, then marks, each followed by a piece. *)
Definition with_marks (shown : hash_mark -> str) (first : str) (more : list (hash_mark * str)) : str :=
  first ++ concat (map (fun x => shown (fst x) ++ snd x) more).
(** The pieces hold no mark; a line that sets the variable starts at the beginning of a line (or right after a mark); a use
    without a quote in front has no quote in front. *)
Definition no_mark (s : str) : Prop := forall m, In (mark_name m) hash_names -> ~ has_text (old_mark m) s.
Fixpoint marks_ok (first : str) (more : list (hash_mark * str)) : Prop :=
  no_mark first
  /\ match more with
     | [] => True
     | (m, piece) :: more' =>
         In (mark_name m) hash_names
         /\ match m with
            | HSet _ => first = [] \/ ends_with_char cNL first
            | HKey q _ _ => q = false -> ~ ends_with_char "'"%char first
            end
         /\ marks_ok piece more'
     end.
