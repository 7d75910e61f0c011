(** Specification vocabulary for the places a patch leaves alone.  Nothing here is used by the model. *)
From Verif Require Export PatchSpec.

(** Two paths part at two different keys, and the first goes on below its key. *)
Definition parts_from (cs ds : list str) : Prop :=
  exists pre c d rest ds', cs = pre ++ c :: rest /\ ds = pre ++ d :: ds' /\ c <> d
    /\ isdigit c = false /\ isdigit d = false /\ rest <> [].
(** The paths whose content a request changes. *)
Definition edited_paths (q : request) : list str :=
  match q with
  | RAdd p _ | RRemove p | RReplace p _ | RCopy _ p => [p]
  | RMove from p => [from; p]
  | RTest _ _ => []
  end.
Definition stays_clear (q : request) (ds : list str) : Prop :=
  forall s, In s (edited_paths q) -> exists cs, s = path_text cs /\ Forall component cs /\ parts_from cs ds.
