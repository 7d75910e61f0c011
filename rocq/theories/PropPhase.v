(** Selectors become conditions (C91). *)
From Verif Require Import PropConvert PhaseProofs5 PhaseSpec MiniYaml Samples PropEdit.

(** ** C91 *)
Theorem C91_selectors_become_conditions : forall T root, addressable_document root = true -> ready (t_env T) root ->
  forall s, r_root (v1 s) = root -> r_sel (v1 s) = collect_selectors (t_env T) root ->
  exists s', upgrade_selectors_to_conditionals T s = (Ok tt, s') /\ same_but_tree (v1 s) (v1 s')
  /\ (forall p n sel, node_at root p = Some n -> conditional_element n sel ->
        exists n', node_at (r_root (v1 s')) p = Some n' /\ element_after (t_env T) n n' sel)
  /\ (forall q k sel, node_at root q = Some k -> conditional_switch k sel ->
        exists k', node_at (r_root (v1 s')) q = Some k' /\ key_after (t_env T) (path_at (t_env T) root q) k k' sel)
  /\ (forall p n, node_at root p = Some n -> (forall q, site root q -> ~ above q p) ->
        exists n', node_at (r_root (v1 s')) p = Some n' /\ same_line n n')
  /\ (forall c, get_messages c (msgs s')
        = get_messages c (msgs s) ++ (match c with WARNING => selector_reports (t_env T) root | _ => [] end)).
Proof. exact c91. Qed.
Print Assumptions C91_selectors_become_conditions.

Definition cond_recipe : recipe := recipe_of (nl [
  "build:"; "  skip: true  # [win]"; "  noarch: true  # [py<37] note"; "  number: 1  # [osx]"; "requirements:"; "  host:";
  "    # tools"; "    - python"; "    - gcc  # [linux and py>=310] old"; "    - true  # [win]"]%string).
Definition cond_result := upgrade_selectors_to_conditionals plain_tools {| v1 := cond_recipe; msgs := new_table |}.
Example C91_example :
  texts (v1 (snd cond_result)) = [$"build:"; $"  skip: win"; lit "  noarch: ${{ true if match(python, ""<3.7"") }}  # note";
    $"  number: 1  # [osx]"; []; $"requirements:"; $"  host:"; $"    # tools"; $"    - python";
    lit "    - if: linux and match(python, "">=3.10"")"; $"      then: gcc"; $"    - ${{ true if win }}"]
  /\ get_messages WARNING (msgs (snd cond_result)) = [$"A non-list item had a selector at: /build/number"]
  /\ addressable_document (r_root cond_recipe) = true /\ r_sel cond_recipe = collect_selectors mini_env (r_root cond_recipe).
Proof. split; [vm_compute; reflexivity|]. split; [vm_compute; reflexivity|]. split; vm_compute; reflexivity. Qed.
(** The hypothesis holds for it. *)
Ltac each_position H :=
  let I := fresh "I" in pose proof (node_at_preorder _ _ _ H) as I; revert H; vm_compute in I;
  repeat (destruct I as [<-|I]); [..|destruct I]; intros H; vm_compute in H; injection H as <-.
Lemma condition_unique sel e : new_condition sel e -> e = upgrade_expression (inner sel).
Proof.
  intros (b & -> & ->). unfold inner. change (tl ($"[" ++ b ++ $"]")) with (b ++ [cRB]). rewrite removelast_last. reflexivity.
Qed.
Definition the_lines (v : json) : list node := match generate_subtree mini_env v with Ok l => l | Err _ => [] end.
Definition line_at (p : position) : node := match node_at (r_root cond_recipe) p with Some n => n | None => r_root cond_recipe end.
Ltac written_now := match goal with |- exists lines, written_as _ ?v lines => exists (the_lines v); vm_compute; reflexivity end.
Ltac written := match goal with |- exists lines, written_as _ ?v lines /\ _ => exists (the_lines v); split; [vm_compute; reflexivity|] end.
Example C91_example_ready : ready mini_env (r_root cond_recipe).
Proof.
  intros p n sel e Hn HT HS HC. apply condition_unique in HC.
  each_position Hn; vm_compute in HT; try discriminate; vm_compute in HS; try discriminate; injection HS as <-; vm_compute in HC; subst e;
    cbn [n_lmf]; try (intros Hb; vm_compute in Hb; discriminate).
  - intros _. split; [exists [0; 0], (line_at [0; 0]); split; [reflexivity|split; [vm_compute; reflexivity|split; vm_compute; reflexivity]]|written; written_now].
  - intros _. split; [exists [0; 1], (line_at [0; 1]); split; [reflexivity|split; [vm_compute; reflexivity|split; vm_compute; reflexivity]]|written; written_now].
  - vm_compute is_truth_value. cbv iota. written_now.
  - vm_compute is_truth_value. cbv iota. exists (Nd (VJ (JStr $"${{ true if win }}")) [] [] false MNone false).
    split; [vm_compute; reflexivity|]. split; [discriminate|]. split; [vm_compute; reflexivity|].
    intros p k Hk HL. each_position Hk; vm_compute in HL; try discriminate; vm_compute; discriminate.
Qed.
(** A value that is neither a list element nor a truth value keeps its selector. *)
Example C91_other_values_keep_theirs : exists r s' p n,
  r_sel r = collect_selectors mini_env (r_root r) /\ addressable_document (r_root r) = true
  /\ upgrade_selectors_to_conditionals plain_tools {| v1 := r; msgs := new_table |} = (Ok tt, s')
  /\ node_at (r_root (v1 s')) p = Some n /\ terminal n = true /\ selector_of (n_comment n) = Some $"[osx]".
Proof.
  exists cond_recipe, (snd cond_result), [0; 2; 0], (line_at [0; 2; 0]).
  do 5 (split; [vm_compute; reflexivity|]). vm_compute; reflexivity.
Qed.
