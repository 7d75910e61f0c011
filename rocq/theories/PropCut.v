(** Property C126: the lines of Jinja are taken out of the text before it is read. *)
From Verif Require Import CutProofs Reader Samples CutSpec.

Theorem C126_taken_out : forall s, taken_out s (re_sub JINJA_V0_LINE [] s).
Proof. exact c126. Qed.
Print Assumptions C126_taken_out.
Theorem C126_one_result : forall s a b, taken_out s a -> taken_out s b -> a = b.
Proof. intros s a b H. exact (taken_unique s a H b). Qed.
Print Assumptions C126_one_result.
Theorem C126_same_tree : forall E a b t, taken_out a t -> taken_out b t -> parse_tree E a = parse_tree E b.
Proof. exact same_tree. Qed.
Print Assumptions C126_same_tree.
(** A line that is a statement or a comment makes no difference, wherever it stands. *)
Theorem C126_first_line : forall E o s, closed o -> ~ In cNL o -> parse_tree E (o ++ cNL :: s) = parse_tree E s.
Proof. exact c126_first. Qed.
Print Assumptions C126_first_line.
Theorem C126_line : forall E a o s, closed o -> ~ In cNL o -> parse_tree E (a ++ cNL :: o ++ cNL :: s) = parse_tree E (a ++ cNL :: s).
Proof. exact c126_line. Qed.
Print Assumptions C126_line.

Example C126_example :
  re_sub JINJA_V0_LINE [] ($"{% set a = 1 %}" ++ [cNL] ++ $"x: {% y %} {% z %}" ++ [cNL] ++ $"b: 1" ++ [cNL] ++ $"{# c #}") =
  $"x: b: 1" ++ [cNL] ++ $"{# c #}".
Proof. vm_compute. reflexivity. Qed.
Example C126_example_tree : exists t, parse_tree mini_env ($"a:" ++ [cNL] ++ $"{# c #}" ++ [cNL] ++ $"  b: 1" ++ [cNL]) = Ok t
  /\ parse_tree mini_env ($"a:" ++ [cNL] ++ $"  b: 1" ++ [cNL]) = Ok t /\ length (n_children t) = 1.
Proof. eexists. split; [vm_compute; reflexivity|]. split; vm_compute; reflexivity. Qed.
(** The line after a commented-out statement becomes part of the comment: its field is lost. *)
Theorem C126_next_line_refuted : exists s r, s = $"# {% set x = 1 %}" ++ [cNL] ++ $"name: foo" ++ [cNL] ++ $"b: 1" ++ [cNL]
  /\ new_recipe mini_env s = Ok r /\ render mini_env r <> s /\ contains_value (r_root r) $"/name" = Ok false.
Proof. do 2 eexists. split; [reflexivity|]. split; [vm_compute; reflexivity|]. split; [vm_compute; discriminate|vm_compute; reflexivity]. Qed.
Print Assumptions C126_next_line_refuted.
(** A space behind the statement, or a missing line break, keeps the statement in the text. *)
Theorem C126_kept_refuted : exists s, s = $"{% if x %} " ++ [cNL] ++ $"{% endif %}" /\ re_sub JINJA_V0_LINE [] s = s.
Proof. eexists. split; [reflexivity|vm_compute; reflexivity]. Qed.
Print Assumptions C126_kept_refuted.
