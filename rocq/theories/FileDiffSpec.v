(** Vocabulary of C156: the differences shown for a file after calls.  Nothing here is used by the model. *)
From Verif Require Export SessionSpec.

(** A call that does not ask for a change: a patch that tests, or moves something to where it is. *)
Definition idle (a : action) : Prop := exists p, a = AEdit (EPatch p) /\ ((exists path v, asks p (RTest path v)) \/ exists s, asks p (RMove s s)).
(** The differences shown compare the lines of the two texts; or they are empty, and so are the real ones. *)
Definition differences (E : env) (l : list action) (text text' : str) (r' : recipe) : Prop :=
  render E r' = text'
  /\ (Exists (fun a => ~ idle a) l -> forall unified, r_mod r' = true /\ diff E unified r' = unified (splitlines text) (splitlines text'))
  /\ (Forall idle l -> text' = text /\ forall unified, r_mod r' = false /\ diff E unified r' = []).
