(** Property C122: variable references. *)
From Verif Require Import RefProofs Samples RefSpec.

Theorem C122_references : forall E var r f, dmem var (r_vars r) = true ->
  (forall n, f n = true <-> mentioned_at (r_schema r) var n) ->
  get_variable_references E var r = first_occurrences (map (path_at E (r_root r)) (positions_where f (r_root r))).
Proof. exact references. Qed.
Print Assumptions C122_references.
Theorem C122_decided : forall sv var, exists f, forall n, f n = true <-> mentioned_at sv var n.
Proof. exact references_decided. Qed.
Print Assumptions C122_decided.
Theorem C122_unknown_variable : forall E var r, dmem var (r_vars r) = false -> get_variable_references E var r = [].
Proof. exact references_unknown. Qed.
Print Assumptions C122_unknown_variable.
(** A name without dots stands for itself only. *)
Theorem C122_plain_name : forall var v, ~ In "."%char var -> name_as var v <-> v = var.
Proof. exact plain_name. Qed.
Print Assumptions C122_plain_name.
Example C122_example :
  get_variable_references mini_env $"foo" (recipe_of (nl ["{% set foo = 1 %}"; "a: {{ foo }}"; "b:"; "  - x{{ foo | lower }}"; "  - foo"]%string))
  = [$"/a"; $"/b/0"].
Proof. vm_compute. reflexivity. Qed.
(** Names that only contain the name, and the name between two expressions, are taken for references. *)
Theorem C122_only_references_refuted : exists r r',
  render mini_env r = nl ["{% set foo = 1 %}"; "{% set foobar = 2 %}"; ""; "a: {{ foobar }}"]%string
  /\ get_variable_references mini_env $"foo" r = [$"/a"]
  /\ render mini_env r' = nl ["{% set foo = 1 %}"; "{% set bar = 2 %}"; ""; "a: x{{ bar }}foo{{ bar }}"]%string
  /\ get_variable_references mini_env $"foo" r' = [$"/a"].
Proof.
  exists (recipe_of (nl ["{% set foo = 1 %}"; "{% set foobar = 2 %}"; "a: {{ foobar }}"]%string)),
         (recipe_of (nl ["{% set foo = 1 %}"; "{% set bar = 2 %}"; "a: x{{ bar }}foo{{ bar }}"]%string)).
  repeat split; vm_compute; reflexivity.
Qed.
Print Assumptions C122_only_references_refuted.
(** References inside a multiline text are not found. *)
Theorem C122_every_reference_refuted : exists r,
  render mini_env r = nl ["{% set foo = 1 %}"; ""; "a:"; "  b: |"; "    {{ foo }}"; ""; "c: 1"]%string
  /\ get_variable_references mini_env $"foo" r = [].
Proof.
  exists (recipe_of (nl ["{% set foo = 1 %}"; "a:"; "  b: |"; "    {{ foo }}"; "c: 1"]%string)).
  repeat split; vm_compute; reflexivity.
Qed.
Print Assumptions C122_every_reference_refuted.
(** The dot of a name stands for any character. *)
Theorem C122_dot_refuted : exists r,
  render mini_env r = nl ["{% set a.b = 1 %}"; "{% set axb = 2 %}"; ""; "c: {{ axb }}"]%string
  /\ get_variable_references mini_env $"a.b" r = [$"/c"].
Proof.
  exists (recipe_of (nl ["{% set a.b = 1 %}"; "{% set axb = 2 %}"; "c: {{ axb }}"]%string)). repeat split; vm_compute; reflexivity.
Qed.
Print Assumptions C122_dot_refuted.
