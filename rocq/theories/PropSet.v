(** Property C125: the variables of a recipe are those that its statements set. *)
From Verif Require Import SetProofs2 Samples SetSpec.

Theorem C125_table : forall E l last, Forall setting_ok l -> no_setting last -> table_of E l (init_vars_v0 E (set_lines l last)).
Proof. exact c125. Qed.
Print Assumptions C125_table.
Theorem C125_recipe : forall E l last r, Forall setting_ok l -> no_setting last ->
  new_recipe E (set_lines l last) = Ok r -> r_schema r = SV0 -> table_of E l (r_vars r).
Proof. exact c125_recipe. Qed.
Print Assumptions C125_recipe.

(** Two statements for one name, different spacing, an empty line, text before and after. *)
Definition some_settings : list setting :=
  [ {| sl_before := []; sl_g0 := $" "; sl_g1 := $" "; sl_name := $"name"; sl_g2 := $" "; sl_value := $" ""foo"" "; sl_after := $"  " |};
    {| sl_before := [cNL] ++ $"package:" ++ [cNL]; sl_g0 := []; sl_g1 := $"   "; sl_name := $"version"; sl_g2 := []; sl_value := $"x | y"; sl_after := [] |};
    {| sl_before := $"  # again: "; sl_g0 := $" "; sl_g1 := $" "; sl_name := $"name"; sl_g2 := $" "; sl_value := $" 3 "; sl_after := [] |} ].
Example C125_example : Forall setting_ok some_settings /\ no_setting $"a: 1"
  /\ init_vars_v0 mini_env (set_lines some_settings $"a: 1") = [($"name", JInt 3); ($"version", JStr $"x | y")].
Proof.
  assert (forall p, ~ In "{"%char p -> no_setting p) as N.
  { intros p H g _ (a & b & E). apply H. rewrite E. apply in_or_app. right. left. reflexivity. }
  assert (forall p, ~ In "%"%char p -> ~ has_text $"%}" p) as M.
  { intros p H (a & b & E). apply H. rewrite E. apply in_or_app. right. left. reflexivity. }
  split; [|split; [apply N; vm_compute; intuition discriminate|vm_compute; reflexivity]].
  assert (forall s, forallb is_space (sl_g0 s ++ sl_g1 s ++ sl_g2 s ++ sl_after s) = true -> ~ In "{"%char (sl_before s) -> ~ In "%"%char (sl_value s) -> ~ In cNL (sl_value s)
    -> variable_name (sl_name s) -> setting_ok s) as K.
  { intros s B H1 H2 H3 V. rewrite !forallb_app in B. repeat (apply andb_prop in B as [?B B]).
    assert (forall g, forallb is_space g = true -> blank g) as G by (intros g X c I; rewrite forallb_forall in X; apply X; exact I).
    unfold setting_ok. split; [apply N; exact H1|]. split; [auto|]. split; [auto|]. split; [exact V|]. split; [auto|]. split; [exact H3|]. split; [apply M; exact H2|auto]. }
  repeat constructor; apply K; try reflexivity; try (vm_compute; intuition discriminate); (split; [discriminate|repeat constructor]).
Qed.
(** A statement in a comment counts as well. *)
Theorem C125_comment_refuted : exists t, t = $"# {% set name = 1 %}" ++ [cNL] /\ init_vars_v0 mini_env t = [($"name", JInt 1)].
Proof. eexists. split; [reflexivity|vm_compute; reflexivity]. Qed.
Print Assumptions C125_comment_refuted.
(** Of two statements on one line only the first counts. *)
Theorem C125_same_line_refuted : exists t, t = $"{% set a = 1 %} {% set b = 2 %}" ++ [cNL] /\ init_vars_v0 mini_env t = [($"a", JInt 1)].
Proof. eexists. split; [reflexivity|vm_compute; reflexivity]. Qed.
Print Assumptions C125_same_line_refuted.
(** A statement on a last line without line break does not count. *)
Theorem C125_last_line_refuted : exists t, t = $"{% set a = 1 %}" /\ init_vars_v0 mini_env t = [].
Proof. eexists. split; [reflexivity|vm_compute; reflexivity]. Qed.
Print Assumptions C125_last_line_refuted.
(** With the white space control of Jinja, the statement is not found or its value gets a sign. *)
Theorem C125_dash_refuted : exists t u, t = $"{%- set a = 1 %}" ++ [cNL] /\ init_vars_v0 mini_env t = []
  /\ u = $"{% set a = 1 -%}" ++ [cNL] /\ init_vars_v0 mini_env u = [($"a", JStr $"1 -")].
Proof. do 2 eexists. split; [reflexivity|]. split; [vm_compute; reflexivity|]. split; [reflexivity|vm_compute; reflexivity]. Qed.
Print Assumptions C125_dash_refuted.
(** A value that holds the closing sign is cut. *)
Theorem C125_closing_refuted : exists t, t = $"{% set a = ""x%}y"" %}" ++ [cNL] /\ init_vars_v0 mini_env t = [($"a", JStr $"""x")].
Proof. eexists. split; [reflexivity|vm_compute; reflexivity]. Qed.
Print Assumptions C125_closing_refuted.
(** A word that only starts with "set" is taken for a statement. *)
Theorem C125_word_refuted : exists t, t = $"{% settle = 1 %}" ++ [cNL] /\ init_vars_v0 mini_env t = [($"tle", JInt 1)].
Proof. eexists. split; [reflexivity|vm_compute; reflexivity]. Qed.
Print Assumptions C125_word_refuted.
