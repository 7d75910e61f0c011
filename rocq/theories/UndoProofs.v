(** Proofs for C141: edits of a file that undo each other. *)
From Verif Require Import PathProofs PathProofs2 PatchProofs DepsProofs ServiceProofs LayoutProofs8 BumpProofs EditProofs DepFileProofs NewFileProofs UndoSpec.

Lemma inside_impl (R S : list item -> list item -> Prop) p xs xs' : (forall a b, R a b -> S a b) -> inside R p xs xs' -> inside S p xs xs'.
Proof.
  intros H. induction 1 as [c xs xs' HR|k p c cs cs' x x' A B D NE HB HB' HI IH|i p c ys ys' x x' A B D HE HI HI' H0 IH].
  - apply inside_here, H, HR.
  - eapply inside_section; eassumption.
  - eapply inside_element; eassumption.
Qed.
Lemma inside_back (R : list item -> list item -> Prop) p xs xs' : inside R p xs xs' -> inside (fun a b => R b a) p xs' xs.
Proof.
  induction 1 as [c xs xs' HR|k p c cs cs' x x' A B D NE HB HB' HI IH|i p c ys ys' x x' A B D HE HI HI' H0 IH].
  - apply inside_here, HR.
  - eapply inside_section; eassumption.
  - eapply inside_element; eassumption.
Qed.
Lemma inside_last (R : list item -> list item -> Prop) p a b xs xs' : inside R (p ++ [a]) xs xs' -> inside R (p ++ [b]) xs xs'.
Proof.
  intros H. remember (p ++ [a]) as q eqn:HQ. revert p HQ.
  induction H as [c xs xs' HR|k p c cs cs' x x' A B D NE HB HB' HI IH|i p c ys ys' x x' A B D HE HI HI' H0 IH]; intros p0 HQ.
  - destruct p0 as [|x [|]]; try discriminate. apply inside_here, HR.
  - destruct p0 as [|x0 p0]; [injection HQ as _ ->; inversion HI|]. injection HQ as <- HQ. cbn [app]. eapply inside_section; eauto.
  - destruct p0 as [|x0 p0]; [injection HQ as _ ->; inversion H0|]. injection HQ as <- HQ. cbn [app]. eapply inside_element; eauto.
Qed.
Lemma written_is_element E v x : written_element E v x -> is_element x = true.
Proof. intros [w H|w xs y H1 H2 H3]; [reflexivity|]. destruct H3; reflexivity. Qed.
Lemma component_dash : component $"-".
Proof. split; [discriminate|vm_compute; intuition discriminate]. Qed.
Lemma undo_edits E q q' xs xs' : undone_by E q q' xs xs' -> proper_tree (document xs') = true -> file_edited E q xs xs' /\ file_edited E q' xs' xs.
Proof.
  intros [p v xs1 xs1' HC NE HI|p n v xs1 xs1' HC NE D HI|p v xs1 xs1' HC HI|p v w xs1 xs1' HC HV HW HI|p v w xs1 xs1' HC HV HW D HI|p w xs1 xs1' HC HP NE HI] HPr.
  - split.
    + apply edit_add_key; [exact HC|exact NE|]. exact (inside_impl _ _ _ _ _ (fun a b H => proj1 H) HI).
    + apply edit_remove; [exact HC|exact HPr|]. refine (inside_impl _ _ _ _ _ _ (inside_back _ _ _ _ HI)).
      intros b a ((D & _ & HN & _) & x & -> & HK). exists a, x, []. rewrite app_nil_r. split; [|split; reflexivity]. unfold selects. rewrite D. split; assumption.
  - split.
    + apply edit_add_last; [|exact NE|apply last_last|].
      * apply Forall_app in HC as (HC & _). apply Forall_app. split; [exact HC|]. constructor; [exact component_dash|constructor].
      * exact (inside_impl _ _ _ _ _ (fun a b H => proj1 H) HI).
    + apply edit_remove; [exact HC|exact HPr|]. rewrite last_last. refine (inside_impl _ _ _ _ _ _ (inside_back _ _ _ _ (inside_last _ _ _ n _ _ HI))).
      intros b a ((x & HWr & ->) & HE). exists a, x, []. rewrite app_nil_r. split; [|split; reflexivity]. unfold selects. rewrite D. split; [symmetry; exact HE|exact (written_is_element _ _ _ HWr)].
  - split; [apply edit_insert; assumption|]. apply edit_remove; [exact HC|exact HPr|]. refine (inside_impl _ _ _ _ _ _ (inside_back _ _ _ _ HI)).
    intros b a (A & x & x' & B & D & HS & _ & HWr & -> & ->). exists A, x', (x :: B). split; [|split; reflexivity]. unfold selects in *. rewrite D in *.
    split; [exact (proj1 HS)|exact (written_is_element _ _ _ HWr)].
  - split; apply edit_replace; try exact HC.
    + refine (inside_impl _ _ _ _ _ _ HI). intros a b (A & k & B & HS & -> & ->). exists A, (IScalar k w []), (IScalar k v []), B.
      split; [exact HS|]. split; [apply rewrite_scalar; [reflexivity|reflexivity|exact HV]|]. split; reflexivity.
    + refine (inside_impl _ _ _ _ _ _ (inside_back _ _ _ _ HI)). intros b a (A & k & B & HS & -> & ->). exists A, (IScalar k v []), (IScalar k w []), B.
      split; [unfold selects in *; destruct (isdigit _); [destruct HS as (_ & HS); discriminate HS|exact HS]|]. split; [apply rewrite_scalar; [reflexivity|reflexivity|exact HW]|]. split; reflexivity.
  - split; apply edit_replace; try exact HC.
    + refine (inside_impl _ _ _ _ _ _ HI). intros a b (A & B & HS & -> & ->). exists A, (IElem (JP w) []), (IElem (JP v) []), B.
      split; [unfold selects; rewrite D; split; [exact HS|reflexivity]|]. split; [apply rewrite_element, element_plain, HV|]. split; reflexivity.
    + refine (inside_impl _ _ _ _ _ _ (inside_back _ _ _ _ HI)). intros b a (A & B & HS & -> & ->). exists A, (IElem (JP v) []), (IElem (JP w) []), B.
      split; [unfold selects; rewrite D; split; [exact HS|reflexivity]|]. split; [apply rewrite_element, element_plain, HW|]. split; reflexivity.
  - split.
    + apply edit_remove; [exact HC|exact HP|]. refine (inside_impl _ _ _ _ _ _ HI). intros a b (D & _ & HN & x & -> & HK & _). exists b, x, [].
      rewrite app_nil_r. split; [|split; reflexivity]. unfold selects. rewrite D. split; assumption.
    + apply edit_add_key; [exact HC|exact NE|]. refine (inside_impl _ _ _ _ _ _ (inside_back _ _ _ _ HI)). intros b a (D & ND & HN & x & -> & _ & HWr).
      split; [exact D|]. split; [exact ND|]. split; [exact HN|]. exists [x]. split; [exact HWr|reflexivity].
Qed.
Lemma alone j q : asks j q -> patch_list j = [j].
Proof. intros (d & -> & _). reflexivity. Qed.
Lemma in_turn E j q xs xs' : asks j q -> file_edited E q xs xs' -> edited_in_turn E (patch_list j) xs xs'.
Proof. intros HA HE. rewrite (alone j q HA). eapply turn_next; [exact HA|exact HE|apply turn_none]. Qed.
Lemma c141 E j j' q q' xs vars xs' : canonical_recipe E xs vars -> canonical_recipe E xs' vars -> asks j q -> asks j' q' -> undone_by E q q' xs xs' ->
  let text := join NLs (recipe_page xs vars) in let text' := join NLs (recipe_page xs' vars) in
  patch_command E (JsonData j) (ReadOk text) None = (Exit SUCCESS, [Write text'])
  /\ patch_command E (JsonData j') (ReadOk text') None = (Exit SUCCESS, [Write text]).
Proof.
  intros HCa HCa' HA HA' HU. cbv zeta. destruct (undo_edits _ _ _ _ _ HU) as (H1 & H2); [apply HCa'|].
  split; [rewrite (c138 E j None xs vars xs' HCa HCa' (in_turn _ _ _ _ _ HA H1))|rewrite (c138 E j' None xs' vars xs HCa' HCa (in_turn _ _ _ _ _ HA' H2))]; reflexivity.
Qed.
Lemma c141_new E j j' q q' xs vars xs' vars' : new_file E xs vars -> new_file E xs' vars' -> asks j q -> asks j' q' -> undone_by E q q' xs xs' ->
  let text := join NLs (page xs) in let text' := join NLs (page xs') in
  patch_command E (JsonData j) (ReadOk text) None = (Exit SUCCESS, [Write text'])
  /\ patch_command E (JsonData j') (ReadOk text') None = (Exit SUCCESS, [Write text]).
Proof.
  intros HCa HCa' HA HA' HU. cbv zeta. destruct (undo_edits _ _ _ _ _ HU) as (H1 & H2); [apply HCa'|].
  split; [rewrite (c140_patched E j None xs vars xs' HCa (proj1 HCa') (in_turn _ _ _ _ _ HA H1))|rewrite (c140_patched E j' None xs' vars' xs HCa' (proj1 HCa) (in_turn _ _ _ _ _ HA' H2))]; reflexivity.
Qed.
Lemma into_section (R : list item -> list item -> Prop) n cs xs xs' : inside (section_changed (last cs []) R) cs xs xs' -> inside R (cs ++ [n]) xs xs'.
Proof.
  intros H. remember (last cs []) as k eqn:HK. revert HK.
  induction H as [c xs xs' HR|k0 p c ys ys' x x' A B D NE HB HB' HI IH|i p c ys ys' x x' A B D HE HI HI' H0 IH]; intros HK.
  - cbn [last] in HK. subst k. destruct HR as (A & x & x' & B & cm & ys & ys' & D & NE & HB & HB' & HR & -> & ->). cbn [app].
    eapply inside_section; [exact D|exact NE|exact HB|exact HB'|]. apply inside_here, HR.
  - cbn [app]. eapply inside_section; [exact D|exact NE|exact HB|exact HB'|]. apply IH. destruct p; [inversion HI|exact HK].
  - cbn [app]. eapply inside_element; [exact D|exact HE|exact HI|exact HI'|]. apply IH. destruct p; [inversion H0|exact HK].
Qed.
Lemma section_impl k (R S : list item -> list item -> Prop) xs xs' : (forall a b, R a b -> S a b) -> section_changed k R xs xs' -> section_changed k S xs xs'.
Proof. intros H (A & x & x' & B & c & ys & ys' & H1 & H2 & H3 & H4 & H5 & H6). exists A, x, x', B, c, ys, ys'. auto 10. Qed.
Lemma c141_dependency E MS dep dep' mode smode vars xs xs' cs d n l : canonical_recipe E xs vars -> canonical_recipe E xs' vars ->
  requirements_path (d_path dep) cs d -> get_value E (document xs) (path_text cs) None (Some (SV0, vars)) = Ok (JList l) ->
  mode = DMUseBoth \/ (mode <> DMExact /\ Forall (names_other MS (dep_name dep)) l) ->
  plain_dependency E (dep_text dep) -> d_sel dep = None \/ read_with_new E cs (dep_text dep) xs -> dependency_at_end dep cs n xs xs' ->
  isdigit n = true -> d_path dep' = path_text (cs ++ [n]) ->
  exists r r' r'', new_recipe E (join NLs (recipe_page xs vars)) = Ok r /\ add_dependency E MS dep mode smode r = (Ok true, r')
  /\ render E r' = join NLs (recipe_page xs' vars) /\ remove_dependency E dep' r' = (Ok true, r'') /\ render E r'' = join NLs (recipe_page xs vars).
Proof.
  intros HCa HCa' HP HG HM HD HO HI Dn HP'. pose proof (read_back E xs vars HCa) as HRB. cbv zeta in HRB. set (r0 := {| r_init := _ |}) in HRB. exists r0.
  assert (dependency_added E MS dep mode smode SV0 vars xs xs') as HA.
  { eapply added_at_end; [exact HP|exact HG|exact HM|exact HD|exact HO|]. refine (inside_impl _ _ _ _ _ _ HI). intros a b. apply section_impl. tauto. }
  destruct (add_once _ _ _ _ _ _ _ _ _ HA r0 eq_refl eq_refl eq_refl) as (r' & HAd & HR' & _ & HS & HV).
  assert (Forall component (cs ++ [n])) as HC.
  { apply Forall_app. split; [exact (components_of _ _ _ HP)|]. constructor; [|constructor]. split; [intros ->; discriminate Dn|].
    intros I. unfold isdigit in Dn. destruct n; [discriminate|]. rewrite forallb_forall in Dn. specialize (Dn _ I). discriminate Dn. }
  assert (file_edited E (RRemove (d_path dep')) xs' xs) as HE.
  { rewrite HP'. apply edit_remove; [exact HC|apply HCa'|]. rewrite last_last. refine (inside_impl _ _ _ _ _ _ (inside_back _ _ _ _ (into_section _ n _ _ _ HI))).
    intros b a ((_ & cm & _ & ->) & HEl). exists a, (IElem (JStr (dep_text dep)) cm), []. rewrite app_nil_r. split; [|split; reflexivity].
    unfold selects. rewrite Dn. split; [symmetry; exact HEl|reflexivity]. }
  assert (d_path dep' <> []) as NE by (rewrite HP'; destruct cs; discriminate).
  destruct (edit_once E _ xs' xs HE _ r' (remove_asks dep' NE) HR') as (r'' & HPa & HR'' & _ & HS' & HV').
  exists r', r''. split; [exact HRB|]. split; [exact HAd|]. split; [exact (rendered E r' xs' vars HR' HS HV HCa')|]. split; [exact HPa|].
  refine (rendered E r'' xs vars HR'' _ _ HCa); [rewrite HS'; exact HS|rewrite HV'; exact HV].
Qed.
