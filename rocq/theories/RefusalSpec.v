(** Vocabulary of C157: calls that are refused between the calls made on a file.  Nothing here is used by the model. *)
From Verif Require Export FileDiffSpec.

(** A patch, selector, comment or variable call, or the removal of a dependency, that does not report success.  Moves are left out. *)
Definition refused (E : env) (MS : match_spec) (a : action) (r : recipe) : Prop :=
  ~ accepted E MS a r /\ (forall dep mode smode, a <> AAddDependency dep mode smode) /\ forall p from path, a = AEdit (EPatch p) -> ~ asks p (RMove from path).
(** The calls of the second list are those of the first and some that are refused when their turn comes. *)
Inductive with_refusals (E : env) (MS : match_spec) : list action -> list action -> recipe -> Prop :=
| refusals_none r : with_refusals E MS [] [] r
| refusals_call a l l' r : with_refusals E MS l l' (made E MS a r) -> with_refusals E MS (a :: l) (a :: l') r
| refusals_more a l l' r : refused E MS a r -> with_refusals E MS l l' (made E MS a r) -> with_refusals E MS l (a :: l') r.
