(** Vocabulary of C146: what is found at the path of a line.  Nothing here is used by the model. *)
From Verif Require Export QuerySpec ValueSpec.

(** At the path of a line there is a value; the selector found there is that of the line; and if the line holds a single value,
    that value is found (of a text, what YAML reads from the text). *)
Definition line_found (E : env) (r : recipe) (w : row) : Prop :=
  match w with
  | RComment _ => True
  | RLine p c v =>
      contains_value (r_root r) p = Ok true
      /\ get_selector_at_path p None r = match selector_of c with Some s => Ok s | None => Err EKey end
      /\ contains_selector_at_path p r = Ok (match selector_of c with Some _ => true | None => false end)
      /\ match v with
         | CValue (JP (PStr s)) => forall j d, read_as E s j -> get_value E (r_root r) p d None = Ok j
         | CValue (JP u) => forall d, get_value E (r_root r) p d None = Ok (JP u)
         | _ => True
         end
  end.
