(** Proofs for C153. *)
From Verif Require Import LayoutProofs3 LayoutProofs4 LayoutProofs8 CommentFileProofs NewFileProofs ValueProofs AnswerProofs DepsProofs3 ServiceSpec ServiceProofs.
From Verif Require Export PackageProofs SourceSpec.

Lemma mapping_number place : forall cs n i, only_mappings cs -> i < line_count cs -> exists x, entry_at place n cs (at_number place (n + i)) x.
Proof.
  induction cs as [|x cs IH]; intros n i HO HI; [cbn [line_count filter length] in HI; lia|].
  pose proof (Forall_inv HO) as Hx. pose proof (Forall_inv_tail HO) as Hcs.
  assert ((match x with IComment _ => True | _ => False end) \/ ((match x with IElem _ _ | IMapScalar _ _ _ _ | IMapSection _ _ _ _ => True | _ => False end) /\ number_after n x = S n /\ line_count (x :: cs) = S (line_count cs))) as [C|(C1 & C2 & C3)].
  { destruct x; try contradiction; [left; exact I|right; auto|right; auto]. }
  - destruct x as [c| | | | | | |]; try contradiction. destruct (IH n i Hcs HI) as (y & H). exists y. apply at_a_later_entry. exact H.
  - rewrite C3 in HI. destruct i as [|i].
    + rewrite Nat.add_0_r. exists x. apply at_its_number. exact C1.
    + destruct (IH (S n) i Hcs) as (y & H); [lia|]. exists y. apply at_a_later_entry. rewrite C2, Nat.add_succ_r. exact H.
Qed.
Lemma collected_paths sv name path : forall i ds m, collected sv name path i ds m -> forall p s, In (p, s) m -> exists j, j < i + length ds /\ p = path j.
Proof.
  induction 1 as [i|i d ds s m HD HC IH|i d ds m HU HC IH]; intros p s' HI; [contradiction| |].
  - destruct HI as [[= <- <-]|HI]; [exists i; cbn [length]; split; [lia|reflexivity]|]. destruct (IH p s' HI) as (j & J & ->). exists j. cbn [length]. split; [lia|reflexivity].
  - destruct (IH p s' HI) as (j & J & ->). exists j. cbn [length]. split; [lia|reflexivity].
Qed.

Section Tree.
Variables (E : env) (xs : list item) (r : recipe).
Hypothesis HR : r_root r = document xs.
Hypothesis HC : Forall (canonical E) xs.
Hypothesis HK : no_slash_key xs.
Hypothesis HA : addressable_document (document xs) = true.
Hypothesis HP : proper_tree (document xs) = true.

Lemma called_there root : recipe_called E (r_schema r) xs (r_vars r) root -> get_recipe_name E r = Ok (match root with PNull => None | _ => Some (prim_str root) end).
Proof.
  intros [(H1 & H2)|(x & H1 & H2)]; apply recipe_named.
  - assert (component $"outputs") as HCo by (split; [discriminate|vm_compute; intuition discriminate]).
    destruct (missing_at_top E xs r HR $"outputs" (JList []) None HCo eq_refl H1) as (_ & O2). change (cSL :: $"outputs") with $"/outputs" in O2.
    replace (name_place r $"/") with $"/package/name" by (unfold name_place; rewrite O2; destruct (r_schema r); reflexivity). exact (name_there E xs r HR HC HK HA HP _ _ _ H2).
  - pose proof (entry_lookup E xs r HR HC HK HA HP _ _ H1) as HOn.
    replace (name_place r $"/") with (root_name_at (r_schema r)) by (unfold name_place; rewrite HOn; destruct (r_schema r); reflexivity). exact (name_there E xs r HR HC HK HA HP _ _ _ H2).
Qed.
Lemma sources_there root ds m : recipe_called E (r_schema r) xs (r_vars r) root ->
  sources_listed E (r_schema r) xs (r_vars r) root ds m -> sources_found E xs r ds m.
Proof.
  intros HL HS. pose proof (called_there root HL) as HN.
  assert (recipe_title (match root with PNull => None | _ => Some (prim_str root) end) = title_of root) as HT by (destruct root; reflexivity).
  destruct HS as [H|c cs d m H1 H2 H3|c cs ds m H1 H2 H3 H4 H5].
  - assert (component $"source") as HCo by (split; [discriminate|vm_compute; intuition discriminate]).
    destruct (missing_at_top E xs r HR $"source" (JList []) (sub_vars r) HCo eq_refl H) as (O1 & _). change (cSL :: $"source") with $"/source" in O1.
    destruct (c71_list E r [] _ [] O1 HN (co_nil _ _ _ _)) as (B1 & B2 & B3). split; [exact B1|]. split; [exact B2|]. split; [exact B3|]. intros p s [].
  - pose proof (value_there E xs r HR HC HK HA HP _ _ _ (Some (JList [])) H1 H2) as G. rewrite <- HT in H3.
    destruct (c71_single E r d _ m G HN H3) as (B1 & B2 & B3). split; [exact B1|]. split; [intros F; apply B2; exact (Forall_inv F)|]. split.
    + intros X. apply B3. inversion X as [? ? Y|? ? Y]; [exact Y|inversion Y].
    + intros p s Hp. destruct (collected_paths _ _ _ _ _ _ H3 p s Hp) as (_ & _ & ->). eauto.
  - pose proof (value_there E xs r HR HC HK HA HP _ _ _ (Some (JList [])) H1 H3) as G. rewrite <- HT in H5.
    destruct (c71_list E r ds _ m G HN H5) as (B1 & B2 & B3). split; [exact B1|]. split; [exact B2|]. split; [exact B3|].
    intros p s Hp. destruct (collected_paths _ _ _ _ _ _ H5 p s Hp) as (j & J & ->). rewrite H4 in J. destruct (mapping_number $"/source" cs 0 j H2 J) as (x & HX). exists x.
    exact (entry_in [] 0 xs $"/source" _ _ _ H1 _ _ HX).
Qed.
End Tree.

Lemma c153 E xs vars root ds m : canonical_recipe E xs vars -> no_slash_key xs -> addressable_document (document xs) = true ->
  recipe_called E SV0 xs vars root -> sources_listed E SV0 xs vars root ds m ->
  exists r, new_recipe E (join NLs (recipe_page xs vars)) = Ok r /\ sources_found E xs r ds m.
Proof.
  intros HC HK HA HL HD. eexists. split; [exact (read_back E xs vars HC)|]. destruct HC as (((HC & _) & HP & _) & _). eapply (sources_there E xs); eauto.
Qed.
Lemma c153_new E xs vars root ds m : new_file E xs vars -> no_slash_key xs -> addressable_document (document xs) = true ->
  recipe_called E SV1 xs vars root -> sources_listed E SV1 xs vars root ds m ->
  exists r, new_recipe E (join NLs (page xs)) = Ok r /\ sources_found E xs r ds m.
Proof.
  intros HC HK HA HL HD. eexists. split; [exact (new_read_back E xs vars HC)|]. destruct HC as (((HC & _) & HP & _) & _). eapply (sources_there E xs); eauto.
Qed.
Lemma c153_session E MS acts xs vars xs' vars' root ds m : canonical_recipe E xs vars -> canonical_recipe E xs' vars' -> no_slash_key xs' -> addressable_document (document xs') = true ->
  acted_in_turn E MS SV0 acts xs vars xs' vars' -> recipe_called E SV0 xs' vars' root -> sources_listed E SV0 xs' vars' root ds m ->
  exists r, new_recipe E (join NLs (recipe_page xs vars)) = Ok r /\ sources_found E xs' (session E MS acts r) ds m.
Proof.
  intros HC HC' HK HX HA HL HD. eexists. split; [exact (read_back E xs vars HC)|]. set (r0 := {| r_init := _ |}).
  destruct (act_all E MS SV0 acts xs vars xs' vars' HA r0 eq_refl eq_refl eq_refl) as (_ & H2 & H3 & H4). destruct HC' as (((HC' & _) & HP & _) & _).
  rewrite <- H3, <- H4 in HL, HD. eapply (sources_there E xs'); eauto.
Qed.
