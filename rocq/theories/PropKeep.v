(** C101: sections the converter has no rule for are carried over. *)
From Verif Require Import KeepProofs2 WellProofs3 Samples MiniYaml PropConvert SectionSpec ContextSpec KeepSpec.

(** ** C101 *)
Theorem C101_unknown_sections_stay : forall T s text s' k n, reads_proper (t_env T) -> (forall l x, In x (t_order T l) -> In x l) ->
  addressable_document (r_root (v1 s)) = true -> mapping_at_top (r_root (v1 s)) -> proper_tree (r_root (v1 s)) = true ->
  r_sel (v1 s) = collect_selectors (t_env T) (r_root (v1 s)) -> NoDup (map fst (r_vars (v1 s))) ->
  context_as_key (t_env T) (r_vars (v1 s)) -> written_as_key (t_env T) $"schema_version" (JInt 1) ->
  ~ In k known_sections -> component k -> isdigit k = false ->
  lookup (r_root (v1 s)) (path_text [k]) = Some n -> plain_section n ->
  without_errors (render_to_v1 T) s text s' -> lookup (r_root (v1 s')) (path_text [k]) = Some n.
Proof. exact c101. Qed.
Print Assumptions C101_unknown_sections_stay.

Definition odd_recipe : list string := [
  "{% set name = ""foo"" %}"; "package:"; "  name: {{ name }}"; "build:"; "  skip: true  # [win]"; "app:"; "  # how it starts";
  "  entry: foo  # see the manual"; "  icons:"; "    - a.png"; "    - b.png"; "about:"; "  license: MIT"]%string.
Example C101_example :
  converted odd_recipe = Ok (["schema_version: 1"; ""; "context:"; "  name: foo"; ""; "package:"; "  name: ${{ name }}"; ""; "build:"; "  skip: win"; "";
    "about:"; "  license: MIT"; ""; "app:"; "  # how it starts"; "  entry: foo  # see the manual"; "  icons:"; "    - a.png"; "    - b.png"]%string, [],
    [])
  /\ addressable_document (r_root (recipe_of (nl odd_recipe))) = true /\ mapping_at_top (r_root (recipe_of (nl odd_recipe)))
  /\ proper_tree (r_root (recipe_of (nl odd_recipe))) = true
  /\ r_sel (recipe_of (nl odd_recipe)) = collect_selectors mini_env (r_root (recipe_of (nl odd_recipe)))
  /\ NoDup (map fst (r_vars (recipe_of (nl odd_recipe))))
  /\ context_as_key mini_env (r_vars (recipe_of (nl odd_recipe))) /\ written_as_key mini_env $"schema_version" (JInt 1)
  /\ exists n, lookup (r_root (recipe_of (nl odd_recipe))) (path_text [$"app"]) = Some n /\ plain_section n /\ length (n_children n) = 3.
Proof.
  split; [vm_compute; reflexivity|]. split; [vm_compute; reflexivity|].
  split. { unfold mapping_at_top. match goal with |- Forall _ ?l => let l' := eval vm_compute in l in change l with l' end. repeat constructor. }
  split; [vm_compute; reflexivity|]. split; [vm_compute; reflexivity|].
  split. { match goal with |- NoDup ?l => let l' := eval vm_compute in l in change l with l' end. repeat constructor. intros []. }
  split.
  { intros ctx H lines W. unfold entries_for in H.
    match type of H with Forall2 _ ?l _ => let l' := eval vm_compute in l in change l with l' in H end.
    inversion H as [|a [b v] l l' (H1 & H2) H3 H4 H5]. inversion H3. subst. cbn [fst snd] in H1, H2. subst b. inversion H2; subst; vm_compute in W; injection W as <-; repeat constructor. }
  split. { intros lines W. vm_compute in W. injection W as <-. repeat constructor. }
  eexists. split; [vm_compute; reflexivity|]. split; [|vm_compute; reflexivity].
  intros p m Hm.
  pose proof (node_at_preorder _ _ _ Hm) as I. revert Hm. vm_compute in I.
  repeat (destruct I as [<-|I]); [..|destruct I]; intros Hm; vm_compute in Hm; injection Hm as <-;
    (split; [vm_compute; reflexivity|intros _ K; apply v0_expression in K; vm_compute in K; discriminate]).
Qed.
