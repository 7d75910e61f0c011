(** Vocabulary of C142: bump-recipe on the file that it has written.  Nothing here is used by the model. *)
From Verif Require Export BumpSpec.

(** The two recipes list the same archives and keep their checksums in the same places. *)
Definition same_sources (E : env) (xs : list item) (vars : list (str * json)) (xs' : list item) (vars' : list (str * json)) : Prop :=
  from_recipe E (recipe_with xs vars) true = from_recipe E (recipe_with xs' vars') true
  /\ forall tbl k name url, sum_in_variable E tbl (recipe_with xs vars) k name url <-> sum_in_variable E tbl (recipe_with xs' vars') k name url.
(** The build section and the version can be read. *)
Definition readable_again (E : env) (xs : list item) (vars : list (str * json)) : Prop :=
  (exists v, get_value E (document xs) $"/build" None None = Ok v)
  /\ exists v, get_value E (document xs) $"/package/version" (Some JNull) (Some (SV0, vars)) = Ok v.
(** What a bump to the version [target] makes of a file: with the build number 0 and the entries [xs1], then the new version and
    [xs2], then the checksums. *)
Definition bumped_to (E : env) (N : net) (target : str) (xs : list item) (vars : list (str * json)) (xs' : list item)
    (vars' : list (str * json)) : Prop :=
  exists xs1 xs2 vars2, number_bumped E false xs xs1 /\ version_bumped E target xs1 vars xs2 vars2 /\ sums_bumped E N xs2 vars2 xs' vars'
  /\ same_sources E xs2 vars2 xs' vars' /\ readable_again E xs' vars'.
