(** Proofs for C150. *)
From Verif Require Import LayoutProofs3 LayoutProofs4 LayoutProofs8 CommentFileProofs NewFileProofs ValueProofs AnswerProofs.
From Verif Require Export DepListProofs DepPathSpec.

Lemma entries_kids x : entries_in x <> [] -> n_children (tree_of x) = map tree_of (entries_in x).
Proof. destruct x; intros H; try contradiction; reflexivity. Qed.
Lemma text_more cs more : path_text cs ++ path_text more = path_text (cs ++ more).
Proof. induction cs as [|x cs IH]; [reflexivity|]. cbn [path_text app]. rewrite <- IH, <- app_assoc. reflexivity. Qed.
Lemma line_number place : forall cs n i, only_lines cs -> i < line_count cs -> exists v c, entry_at place n cs (at_number place (n + i)) (IElem v c).
Proof.
  induction cs as [|x cs IH]; intros n i HO HI; [cbn [line_count filter length] in HI; lia|].
  pose proof (Forall_inv HO) as Hx. pose proof (Forall_inv_tail HO) as Hcs. destruct x as [c| | | | |v c| |]; try contradiction.
  - destruct (IH n i Hcs HI) as (v & c' & H). exists v, c'. apply at_a_later_entry. exact H.
  - destruct i as [|i].
    + rewrite Nat.add_0_r. exists v, c. apply at_its_number. exact I.
    + unfold line_count in HI. cbn [filter length] in HI. destruct (IH (S n) i Hcs) as (v' & c' & H); [unfold line_count; lia|]. exists v', c'. apply at_a_later_entry.
      cbn [number_after]. rewrite Nat.add_succ_r. exact H.
Qed.

Section Tree.
Variables (E : env) (xs : list item) (r : recipe).
Hypothesis HR : r_root r = document xs.
Hypothesis HC : Forall (canonical E) xs.
Hypothesis HK : no_slash_key xs.
Hypothesis HA : addressable_document (document xs) = true.
Hypothesis HP : proper_tree (document xs) = true.

Lemma recurse_cut root a i more : traverse_recurse root (a ++ [i]) = None -> traverse_recurse root (a ++ i :: more) = None.
Proof.
  intros H. destruct (traverse_recurse root (a ++ i :: more)) as [pos|] eqn:Q; [|reflexivity]. change (i :: more) with ([i] ++ more) in Q. rewrite app_assoc in Q.
  destruct (recurse_prefix _ _ _ _ Q) as (q & Hq). congruence.
Qed.
Lemma nothing_found p : nothing_at xs p -> lookup (r_root r) p = None.
Proof.
  rewrite HR. intros [name more (HN & HD) HM HX|p0 x name more (HN & HD) HM HE NE HX]; unfold lookup.
  - rewrite stack_of_path; [|discriminate|constructor; assumption]. unfold traverse. rewrite traverse_pos_components.
    assert (traverse_recurse (document xs) ([] ++ [name]) = None) as Q.
    { cbn [app traverse_recurse]. unfold step_child. rewrite HD. unfold document, root_node. cbn [n_children]. rewrite (DepListProofs.find_none _ _ HX). reflexivity. }
    pose proof (recurse_cut _ [] name more Q) as Q'. cbn [app] in Q'. rewrite Q'. reflexivity.
  - destruct (entry_position E [] 0 xs p0 x HE (document xs) [] eq_refl eq_refl HK (all_readable E xs HC) HP) as (q & m & NQ & HQ & -> & -> & R & (P1 & P2 & P3) & PT).
    pose proof HA as HA'. unfold addressable_document in HA'. rewrite !andb_true_iff in HA'. destruct HA' as (_ & HA').
    destruct (line_resolves E q _ _ HA' NQ HQ P1 P2) as (_ & cs & NC & F & T & TR). cbn [app]. rewrite T, text_more.
    rewrite stack_of_path; [|destruct cs; discriminate|apply Forall_app; split; [exact F|constructor; assumption]]. unfold traverse. rewrite traverse_pos_components.
    rewrite (recurse_cut (document xs) cs name more); [reflexivity|]. apply (recurse_snoc_none _ cs name q (tree_of x) TR HQ).
    unfold step_child. rewrite HD, (entries_kids x NE). apply DepListProofs.find_none. exact HX.
Qed.
Lemma lines_size place n : lines_at E xs place n -> size_at E r place n.
Proof.
  intros [place' k c cs ts HE HO HV HL|place' HN].
  - right. exists (JList ts), ts. split; [exact (proj1 (read_entries E xs r HR HC HK HA HP _ _ HE) _ _ HV)|]. split; [constructor|exact HL].
  - left. split; [exact (nothing_found _ HN)|reflexivity].
Qed.
Lemma outputs_size n : outputs_at E xs n -> size_at E r $"/outputs" n.
Proof.
  intros [k c cs l HE HV|HN].
  - right. exists (JList l), l. split; [exact (proj1 (read_entries E xs r HR HC HK HA HP _ _ HE) _ _ HV)|]. split; [constructor|reflexivity].
  - left. split; [|reflexivity]. apply nothing_found. apply (missing_name xs $"outputs" []); [split; [split; [discriminate|vm_compute; intuition discriminate]|reflexivity]|constructor|exact HN].
Qed.
Lemma paths_found l : dependency_paths E (r_schema r) xs l -> get_dependency_paths E r = Ok l /\ Forall (leads_to_line xs) l.
Proof.
  intros (n & sizes & HO & HF & ->). split.
  - apply c90_in_order. exists n, sizes. split; [exact (outputs_size n HO)|]. split; [|reflexivity]. clear HO. induction HF as [|p k ps ks H _ IH]; constructor; [exact (lines_size p k H)|exact IH].
  - clear HO. induction HF as [|p k ps ks H _ IH]; [constructor|]. cbn [combine map concat]. apply Forall_app. split; [|exact IH]. cbn [fst snd]. apply Forall_forall. intros w HW.
    unfold numbered in HW. apply in_map_iff in HW as (i & <- & HI). apply in_seq in HI as (_ & HI). cbn [Nat.add] in HI.
    destruct H as [p k' c cs ts HE HOn HV HL|p HN]; [|lia]. destruct (line_number p cs 0 i HOn HI) as (v & c' & HLn). exists v, c'.
    exact (entry_in [] 0 xs p k' c cs HE _ _ HLn).
Qed.
End Tree.

Lemma c150 E xs vars l : canonical_recipe E xs vars -> no_slash_key xs -> addressable_document (document xs) = true -> dependency_paths E SV0 xs l ->
  exists r, new_recipe E (join NLs (recipe_page xs vars)) = Ok r /\ get_dependency_paths E r = Ok l /\ Forall (leads_to_line xs) l.
Proof.
  intros HC HK HA HD. eexists. split; [exact (read_back E xs vars HC)|]. destruct HC as (((HC & _) & HP & _) & _). apply (paths_found E xs); auto.
Qed.
Lemma c150_new E xs vars l : new_file E xs vars -> no_slash_key xs -> addressable_document (document xs) = true -> dependency_paths E SV1 xs l ->
  exists r, new_recipe E (join NLs (page xs)) = Ok r /\ get_dependency_paths E r = Ok l /\ Forall (leads_to_line xs) l.
Proof.
  intros HC HK HA HD. eexists. split; [exact (new_read_back E xs vars HC)|]. destruct HC as (((HC & _) & HP & _) & _). apply (paths_found E xs); auto.
Qed.
Lemma c150_session E MS acts xs vars xs' vars' l : canonical_recipe E xs vars -> canonical_recipe E xs' vars' -> no_slash_key xs' -> addressable_document (document xs') = true ->
  acted_in_turn E MS SV0 acts xs vars xs' vars' -> dependency_paths E SV0 xs' l ->
  exists r, new_recipe E (join NLs (recipe_page xs vars)) = Ok r /\ get_dependency_paths E (session E MS acts r) = Ok l /\ Forall (leads_to_line xs') l.
Proof.
  intros HC HC' HK HX HA HD. eexists. split; [exact (read_back E xs vars HC)|]. set (r0 := {| r_init := _ |}).
  destruct (act_all E MS SV0 acts xs vars xs' vars' HA r0 eq_refl eq_refl eq_refl) as (_ & H2 & H3 & H4). destruct HC' as (((HC' & _) & HP & _) & _).
  apply (paths_found E xs'); auto. rewrite H3. exact HD.
Qed.
