(** Proofs about which edit requests end with an exception. *)
From Verif Require Export PatchProofs3 FrameProofs.
From Verif Require Import AnswerSpec.

Lemma beyond_iff root above i : Forall component above ->
  beyond root (above ++ [i]) <-> (isdigit i = true /\ exists pos n, traverse_recurse root above = Some pos
    /\ node_at root pos = Some n /\ nth_error (virt_to_phys (n_children n)) (int_of i) = None).
Proof.
  intros Hc. pose proof (stack_of_path_slash above Hc) as HS. split.
  - intros (ab & j & pos & n & HE & Hi & Ha & Hn & Hl). apply app_inj_tail in HE as (<- & <-). split; auto.
    exists pos, n. apply (addresses_stack _ _ _ _ HS) in Ha. rewrite traverse_pos_components in Ha. split; auto. split; auto.
    apply nth_error_None. unfold virt_to_phys. rewrite v2p_length. exact Hl.
  - intros (Hi & pos & n & Ha & Hn & Hl). exists above, i, pos, n. split; auto. split; auto. split.
    { apply (addresses_stack _ _ _ _ HS). rewrite traverse_pos_components. exact Ha. }
    split; auto. apply nth_error_None in Hl. unfold virt_to_phys in Hl. rewrite v2p_length in Hl. exact Hl.
Qed.
Lemma not_beyond_nil root : ~ beyond root [].
Proof. intros (ab & i & pos & n & HE & _). destruct ab; discriminate. Qed.
Lemma traverse_recurse_node root cs pos : traverse_recurse root cs = Some pos -> exists n, node_at root pos = Some n.
Proof.
  revert root pos. induction cs as [|c cs IH]; intros root pos H.
  - injection H as <-. exists root. reflexivity.
  - cbn [traverse_recurse] in H. destruct (step_child root c) as [[i x]|] eqn:Hs; [|discriminate].
    destruct (traverse_recurse x cs) as [q|] eqn:Hq; [|discriminate]. injection H as <-.
    apply step_child_nth in Hs. destruct (IH _ _ Hq) as (n & Hn). exists n. cbn [node_at]. rewrite Hs. exact Hn.
Qed.
(** The lookup raises exactly for these paths. *)
Lemma twi_raises root cs : Forall component cs ->
  (beyond root cs /\ traverse_with_index root (rev cs ++ [ROOT_VALUE]) = Err EIndex)
  \/ (~ beyond root cs /\ exists x, traverse_with_index root (rev cs ++ [ROOT_VALUE]) = Ok x).
Proof.
  intros Hc. destruct cs as [|i above] using rev_ind.
  - right. split; [apply not_beyond_nil|]. eexists. reflexivity.
  - clear IHabove. apply Forall_app in Hc as (Hc & _). rewrite rev_app_distr. cbn [rev app]. unfold traverse_with_index.
    rewrite (beyond_iff root above i Hc). destruct (isdigit i) eqn:D.
    + rewrite traverse_pos_components. destruct (traverse_recurse root above) as [pos|] eqn:Ht.
      * destruct (traverse_recurse_node _ _ _ Ht) as (n & Hn). rewrite Hn.
        destruct (nth_error (virt_to_phys (n_children n)) (int_of i)) as [j|] eqn:Hj.
        -- right. split.
           { intros (_ & pos' & n' & [= <-] & Hn' & Hx). congruence. }
           apply v2p_sound in Hj as (_ & c & Hc' & _). rewrite Nat.sub_0_r in Hc'. rewrite Hc'.
           destruct (is_collection c); eexists; reflexivity.
        -- left. split; eauto 6.
      * right. split; [intros (_ & pos & n & [=] & _)|]. eexists. reflexivity.
    + right. split; [intros ([=] & _)|]. destruct (traverse_pos root _); eexists; reflexivity.
Qed.
Lemma replace_answers E p cs v r : Forall component cs -> asks p (RReplace (path_text cs) v) -> writable E v ->
  (beyond (r_root r) cs /\ fst (patch E p r) = Err EIndex) \/ (~ beyond (r_root r) cs /\ exists b, fst (patch E p r) = Ok b).
Proof.
  intros Hc Ha (lines & HG). rewrite (patch_perform E p _ r Ha eq_refl). unfold perform. cbn [request_path].
  rewrite (stack_of_path cs (path_text_nonempty _ (asks_nonempty _ _ Ha)) Hc).
  destruct (twi_raises (r_root r) cs Hc) as [(Hb & HT)|(Hb & ((o & vi) & ph) & HT)]; [left|right]; split; auto;
    unfold patch_replace; rewrite HT; auto.
  destruct o as [q|]; [|exists false; reflexivity].
  destruct (is_valid_patch_node _ _); cbn [negb]; [|exists false; reflexivity].
  unfold written_as in HG. rewrite HG. destruct ph; exists true; reflexivity.
Qed.
Lemma recurse_prefix root a b pos : traverse_recurse root (a ++ b) = Some pos -> exists q, traverse_recurse root a = Some q.
Proof.
  revert root pos. induction a as [|x a IH]; intros root pos H; [exists []; reflexivity|].
  cbn [app traverse_recurse] in *. destruct (step_child root x) as [[i c]|]; [|discriminate].
  destruct (traverse_recurse c (a ++ b)) as [q|] eqn:Hq; [|discriminate]. destruct (IH _ _ Hq) as (q' & ->). eexists. reflexivity.
Qed.
Lemma recurse_snoc_none root a i pos n : traverse_recurse root a = Some pos -> node_at root pos = Some n ->
  step_child n i = None -> traverse_recurse root (a ++ [i]) = None.
Proof.
  revert root pos. induction a as [|x a IH]; intros root pos H Hn Hs.
  - injection H as <-. cbn [node_at] in Hn. injection Hn as ->. cbn [app traverse_recurse]. rewrite Hs. reflexivity.
  - cbn [app traverse_recurse] in *. destruct (step_child root x) as [[k c]|] eqn:Hk; [|discriminate].
    destruct (traverse_recurse c a) as [q|] eqn:Hq; [|discriminate]. injection H as <-.
    apply step_child_nth in Hk. cbn [node_at] in Hn. rewrite Hk in Hn. rewrite (IH _ _ Hq Hn Hs). reflexivity.
Qed.
Lemma beyond_missing root cs : Forall component cs -> beyond root cs -> traverse_recurse root cs = None.
Proof.
  intros Hc H. destruct cs as [|i above] using rev_ind; [destruct (not_beyond_nil _ H)|]. clear IHabove.
  apply Forall_app in Hc as (Hc & _). apply (beyond_iff root above i Hc) in H as (D & pos & n & Ht & Hn & Hx).
  eapply recurse_snoc_none; eauto. unfold step_child. rewrite D, Hx. reflexivity.
Qed.
(** A found position means that the path above the last component exists. *)
Lemma twi_found_above root above i q v ph : traverse_with_index root (i :: rev above ++ [ROOT_VALUE]) = Ok (Some q, v, ph) ->
  exists pos, traverse_recurse root above = Some pos.
Proof.
  unfold traverse_with_index. destruct (isdigit i).
  - rewrite traverse_pos_components. destruct (traverse_recurse root above) as [pos|]; [eauto|discriminate].
  - change (i :: rev above ++ [ROOT_VALUE]) with ((rev [i] ++ rev above) ++ [ROOT_VALUE]). rewrite <- rev_app_distr, traverse_pos_components.
    destruct (traverse_recurse root (above ++ [i])) as [pos|] eqn:Ht; [|discriminate]. intros _. eapply recurse_prefix; eauto.
Qed.
Lemma find_target_raises root cs : Forall component cs ->
  (beyond_to_add root cs /\ patch_add_find_target root (rev cs ++ [ROOT_VALUE]) = Err EIndex)
  \/ (~ beyond_to_add root cs /\ exists t, patch_add_find_target root (rev cs ++ [ROOT_VALUE]) = Ok t
        /\ (at_create t = [] \/ at_create t = last cs [])).
Proof.
  intros Hc. destruct cs as [|c above] using rev_ind.
  - right. split; [intros [H|H]; exact (not_beyond_nil _ H)|]. eexists. split; [reflexivity|]. auto.
  - clear IHabove. pose proof (proj1 (proj1 (Forall_app _ _ _) Hc)) as Hca. unfold beyond_to_add.
    rewrite removelast_last, last_last. rewrite rev_app_distr. cbn [rev app]. unfold patch_add_find_target.
    pose proof (twi_raises root (above ++ [c]) Hc) as T1. rewrite rev_app_distr in T1. cbn [rev app] in T1.
    pose proof (twi_raises root above Hca) as T2.
    destruct (str_eqb c $"-") eqn:D.
    + apply str_eqb_eq in D. subst c.
      assert (~ beyond root (above ++ [$"-"])) as HN.
      { intros H. apply (beyond_iff root above _ Hca) in H as (H & _). vm_compute in H. discriminate. }
      destruct T2 as [(Hb & ->)|(Hb & ((o & vi) & ph) & ->)]; [left|right]; (split; [tauto|]); cbn [bind]; auto.
      destruct o, (rev above ++ [ROOT_VALUE]); eexists; split; try reflexivity; auto.
    + destruct T1 as [(Hb & ->)|(Hb & ((o & vi) & ph) & HT)]; [left; split; [tauto|]; reflexivity|].
      rewrite HT. cbn [bind]. destruct o as [q|].
      * right. split; [|eexists; split; [reflexivity|]; auto]. intros [H|H]; [tauto|].
        apply twi_found_above in HT as (pos & HT). rewrite (beyond_missing _ _ Hca H) in HT. discriminate.
      * destruct T2 as [(Hb2 & ->)|(Hb2 & ((o & vi2) & ph2) & ->)]; [left|right]; (split; [tauto|]); cbn [bind]; auto.
        eexists. split; [reflexivity|]. right. reflexivity.
Qed.
Lemma patch_add_answers E root cs v : Forall component cs -> writable E v -> writable E (JDict [(PStr (last cs []), v)]) ->
  (beyond_to_add root cs /\ fst (patch_add E root (rev cs ++ [ROOT_VALUE]) v) = Err EIndex)
  \/ (~ beyond_to_add root cs /\ exists b, fst (patch_add E root (rev cs ++ [ROOT_VALUE]) v) = Ok b).
Proof.
  intros Hc (lines & HG) (lines' & HG').
  destruct (find_target_raises root cs Hc) as [(Hb & HT)|(Hb & t & HT & Hcr)]; [left|right]; (split; auto);
    unfold patch_add; rewrite HT; auto.
  destruct (at_pos t) as [q|]; [|exists false; reflexivity].
  destruct (is_valid_patch_node _ _); cbn [negb]; [|exists false; reflexivity]. unfold written_as in *.
  destruct (is_nil (at_create t)) eqn:N.
  - rewrite HG. exists true. reflexivity.
  - destruct Hcr as [Hcr|Hcr]; [rewrite Hcr in N; discriminate|]. rewrite Hcr, HG'. exists true. reflexivity.
Qed.
Lemma add_answers E p cs v r : Forall component cs -> asks p (RAdd (path_text cs) v) -> writable E v ->
  writable E (JDict [(PStr (last cs []), v)]) ->
  (beyond_to_add (r_root r) cs /\ fst (patch E p r) = Err EIndex)
  \/ (~ beyond_to_add (r_root r) cs /\ exists b, fst (patch E p r) = Ok b).
Proof.
  intros Hc Ha HG HG'. rewrite (patch_perform E p _ r Ha eq_refl). unfold perform. cbn [request_path].
  rewrite (stack_of_path cs (path_text_nonempty _ (asks_nonempty _ _ Ha)) Hc). apply patch_add_answers; auto.
Qed.
Lemma copy_answers E p from cs v r : Forall component cs -> asks p (RCopy from (path_text cs)) ->
  get_value E (r_root r) from None None = Ok v -> writable E v -> writable E (JDict [(PStr (last cs []), v)]) ->
  (beyond_to_add (r_root r) cs /\ fst (patch E p r) = Err EIndex)
  \/ (~ beyond_to_add (r_root r) cs /\ exists b, fst (patch E p r) = Ok b).
Proof.
  intros Hc Ha Hv HG HG'. rewrite (patch_perform E p _ r Ha eq_refl). unfold perform. cbn [request_path].
  rewrite (stack_of_path cs (path_text_nonempty _ (asks_nonempty _ _ Ha)) Hc). unfold patch_copy. rewrite Hv.
  apply patch_add_answers; auto.
Qed.
Lemma move_answers E p pr from cs v r : proper_tree (r_root r) = true -> Forall component cs ->
  asks p (RMove from (path_text cs)) -> asks pr (RRemove from) -> from <> path_text cs ->
  get_value E (r_root r) from None None = Ok v -> writable E v -> writable E (JDict [(PStr (last cs []), v)]) ->
  (fst (patch E p r) = Err EIndex
   /\ (beyond_to_add (r_root r) cs \/ exists r1, patch E pr r = (Ok true, r1) /\ beyond_to_add (r_root r1) cs))
  \/ (~ beyond_to_add (r_root r) cs /\ exists b, fst (patch E p r) = Ok b).
Proof.
  intros Hp Hc Ha Hr Hne Hv HG HG'.
  assert (self_move (RMove from (path_text cs)) = false) as Hself by (cbn; apply str_eqb_neq; congruence).
  rewrite (patch_perform E p _ r Ha Hself). unfold perform. cbn [request_path].
  rewrite (stack_of_path cs (path_text_nonempty _ (asks_nonempty _ _ Ha)) Hc). unfold patch_move. rewrite Hv.
  destruct (find_target_raises (r_root r) cs Hc) as [(Hb & HT)|(Hb & t & HT & _)]; rewrite HT; [left; split; auto|].
  destruct (is_valid_patch_node _ _); cbn [negb]; [|right; split; [auto|exists false; reflexivity]].
  assert (from <> []) as Hf. { apply (asks_nonempty _ _ Hr). }
  destruct (str_to_stack_path_ok from Hf) as (fs & Hfs). rewrite Hfs.
  destruct (patch_remove_bool (r_root r) fs Hp) as (b & Hrb).
  destruct (patch_remove (r_root r) fs) as [o root1] eqn:Hrm. cbn [fst] in Hrb. subst o.
  destruct b; [|right; split; [auto|exists false; reflexivity]].
  destruct (patch_add_answers E root1 cs v Hc HG HG') as [(Hb1 & HA)|(Hb1 & HA)]; [left|right]; split; auto.
  right. exists (mark_modified (rebuild_selectors E (with_root r root1))). split; auto.
  apply (patch_of_perform E pr _ r root1 Hr eq_refl eq_refl). unfold perform. cbn [request_path]. rewrite Hfs. exact Hrm.
Qed.

(** * C11: the outcome of a move, from those of the addition and the removal *)
Lemma add_outcome E pa cs v r : Forall component cs -> asks pa (RAdd (path_text cs) v) ->
  patch E pa r = finish E (RAdd (path_text cs) v) (patch_add E (r_root r) (rev cs ++ [ROOT_VALUE]) v) r.
Proof.
  intros Hc Ha. rewrite (patch_asks E pa _ r Ha). cbn [self_move]. unfold perform. cbn [request_path].
  rewrite (stack_of_path cs (path_text_nonempty _ (asks_nonempty _ _ Ha)) Hc). reflexivity.
Qed.
Lemma move_outcome E p pa pr from cs v r : Forall component cs ->
  asks p (RMove from (path_text cs)) -> asks pr (RRemove from) -> asks pa (RAdd (path_text cs) v) -> from <> path_text cs ->
  get_value E (r_root r) from None None = Ok v -> writable E v -> writable E (JDict [(PStr (last cs []), v)]) ->
  (fst (patch E pa r) <> Ok true -> patch E p r = (fst (patch E pa r), r))
  /\ (fst (patch E pa r) = Ok true -> fst (patch E pr r) <> Ok true -> patch E p r = (fst (patch E pr r), r))
  /\ (fst (patch E pa r) = Ok true -> forall r1, patch E pr r = (Ok true, r1) ->
      (fst (patch E pa r1) = Ok true -> patch E p r = patch E pa r1)
      /\ (fst (patch E pa r1) <> Ok true -> patch E p r = (fst (patch E pa r1), with_root r (r_root r1)))).
Proof.
  intros Hc Ha Hr Hadd Hne Hv (lines & HG) (lines' & HG').
  assert (self_move (RMove from (path_text cs)) = false) as Hself by (cbn; apply str_eqb_neq; congruence).
  assert (patch E p r = finish E (RMove from (path_text cs)) (patch_move E (r_root r) (rev cs ++ [ROOT_VALUE]) from) r) as HP.
  { rewrite (patch_asks E p _ r Ha), Hself. unfold perform. cbn [request_path].
    rewrite (stack_of_path cs (path_text_nonempty _ (asks_nonempty _ _ Ha)) Hc). reflexivity. }
  assert (from <> []) as Hf by apply (asks_nonempty _ _ Hr). destruct (str_to_stack_path_ok from Hf) as (fs & Hfs).
  assert (patch E pr r = finish E (RRemove from) (patch_remove (r_root r) fs) r) as HR.
  { rewrite (patch_asks E pr _ r Hr). cbn [self_move]. unfold perform. cbn [request_path]. rewrite Hfs. reflexivity. }
  pose proof (add_outcome E pa cs v r Hc Hadd) as HA.
  assert (fst (patch_add E (r_root r) (rev cs ++ [ROOT_VALUE]) v) <> Ok true ->
    patch_move E (r_root r) (rev cs ++ [ROOT_VALUE]) from = (fst (patch_add E (r_root r) (rev cs ++ [ROOT_VALUE]) v), r_root r)) as K1.
  { unfold patch_move, patch_add. rewrite Hv. destruct (find_target_raises (r_root r) cs Hc) as [(_ & ->)|(_ & t & -> & Hcr)]; [reflexivity|].
    unfold at_opt. destruct (at_pos t) as [q|]; [|reflexivity]. destruct (is_valid_patch_node _ _); cbn [negb]; [|reflexivity].
    unfold written_as in *. destruct (is_nil (at_create t)) eqn:N; [rewrite HG|].
    - cbn [fst]. congruence.
    - destruct Hcr as [Hcr|Hcr]; [rewrite Hcr in N; discriminate|]. rewrite Hcr, HG'. cbn [fst]. congruence. }
  assert (fst (patch_add E (r_root r) (rev cs ++ [ROOT_VALUE]) v) = Ok true ->
    patch_move E (r_root r) (rev cs ++ [ROOT_VALUE]) from
    = match patch_remove (r_root r) fs with (Ok true, root') => patch_add E root' (rev cs ++ [ROOT_VALUE]) v | o => o end) as K2.
  { unfold patch_move, patch_add at 1. rewrite Hv. destruct (patch_add_find_target _ _) as [t|]; [|discriminate].
    unfold at_opt. destruct (at_pos t) as [q|]; [|discriminate]. destruct (is_valid_patch_node _ _); cbn [negb]; [|discriminate].
    rewrite Hfs. reflexivity. }
  rewrite HP, HR, HA, !finish_fst. split; [|split].
  - intros H. rewrite (K1 H). unfold finish. cbn [fst snd]. rewrite with_root_id.
    destruct (fst (patch_add E (r_root r) (rev cs ++ [ROOT_VALUE]) v)) as [[]|]; congruence.
  - intros H1 H2. rewrite (K2 H1). pose proof (patch_remove_fail (r_root r) fs H2) as Hs.
    destruct (patch_remove (r_root r) fs) as [[[|]|] root1]; cbn [fst snd] in *; subst; unfold finish; cbn [fst snd];
      rewrite ?with_root_id; congruence.
  - intros H1 r1 H2. rewrite (K2 H1). destruct (patch_remove (r_root r) fs) as [o root1].
    assert (o = Ok true) as ->.
    { apply (f_equal fst) in H2. rewrite finish_fst in H2. exact H2. }
    unfold finish in H2. cbn [fst snd is_test] in H2. injection H2 as <-.
    rewrite (add_outcome E pa cs v _ Hc Hadd), !finish_fst.
    change (r_root (mark_modified (rebuild_selectors E (with_root r root1)))) with root1.
    set (a := patch_add E root1 (rev cs ++ [ROOT_VALUE]) v). split.
    + intros H3. unfold finish. rewrite H3. reflexivity.
    + intros H3. pose proof (patch_add_fail E root1 (rev cs ++ [ROOT_VALUE]) v H3) as Hs. fold a in Hs. unfold finish.
      rewrite Hs. destruct (fst a) as [[]|]; congruence.
Qed.

(** * C22: adding where something is *)
Lemma twi_existing root cs q n : Forall component cs -> cs <> [] -> addresses root (path_text cs) q -> node_at root q = Some n ->
  isdigit (last cs []) = false \/ collection_element n = true ->
  traverse_with_index root (rev cs ++ [ROOT_VALUE]) = Ok (Some q, None, None).
Proof.
  intros Hc Hne Ha Hn Hd. apply (addresses_stack _ _ _ _ (stack_of_path cs Hne Hc)) in Ha.
  destruct (exists_last Hne) as (above & i & ->). rewrite last_last in Hd. rewrite rev_app_distr in *. cbn [rev app] in *.
  unfold traverse_with_index. destruct (isdigit i) eqn:D; [|rewrite Ha; reflexivity].
  destruct Hd as [Hd|Hd]; [discriminate|].
  change (i :: rev above ++ [ROOT_VALUE]) with ((rev [i] ++ rev above) ++ [ROOT_VALUE]) in Ha.
  rewrite <- rev_app_distr, traverse_pos_components in Ha. rewrite traverse_pos_components.
  destruct (recurse_prefix _ _ _ _ Ha) as (pos & Hpos). rewrite Hpos.
  destruct (traverse_recurse_node _ _ _ Hpos) as (m0 & Hm). rewrite Hm.
  destruct (step_child m0 i) as [[k c]|] eqn:Hs; [|rewrite (recurse_snoc_none _ _ _ _ _ Hpos Hm Hs) in Ha; discriminate].
  assert (q = pos ++ [k] /\ node_at root (pos ++ [k]) = Some c) as (-> & Hk).
  { revert Ha Hpos Hm. clear - Hs. revert root pos q. induction above as [|x above IH]; intros root pos q Ha Hpos Hm.
    - injection Hpos as <-. cbn [node_at] in Hm. injection Hm as ->. cbn [app traverse_recurse] in Ha. rewrite Hs in Ha.
      injection Ha as <-. cbn [app]. split; auto. apply step_child_nth in Hs. cbn [node_at]. rewrite Hs. reflexivity.
    - cbn [app traverse_recurse] in *. destruct (step_child root x) as [[j y]|] eqn:Hj; [|discriminate].
      destruct (traverse_recurse y (above ++ [i])) as [q'|] eqn:E1; [|discriminate]. injection Ha as <-.
      destruct (traverse_recurse y above) as [p'|] eqn:E2; [|discriminate]. injection Hpos as <-.
      apply step_child_nth in Hj. cbn [app node_at] in *. rewrite Hj in *. destruct (IH _ _ _ E1 E2 Hm) as (-> & H). auto. }
  rewrite Hk in Hn. injection Hn as ->. unfold step_child in Hs. rewrite D in Hs.
  destruct (nth_error (virt_to_phys (n_children m0)) (int_of i)) as [j|]; [|discriminate].
  destruct (nth_error (n_children m0) j) as [c|]; [|discriminate]. destruct (n_lmf c); [|discriminate]. injection Hs as -> ->.
  unfold is_collection. unfold collection_element in Hd. rewrite Hd. reflexivity.
Qed.
Lemma add_over_existing E pa pp cs v r q n : Forall component cs -> last cs [] <> $"-" ->
  addresses (r_root r) (path_text cs) q -> node_at (r_root r) q = Some n ->
  isdigit (last cs []) = false \/ collection_element n = true ->
  asks pa (RAdd (path_text cs) v) -> asks pp (RReplace (path_text cs) v) -> patch E pa r = patch E pp r.
Proof.
  intros Hc Hm Ha Hn Hd HA HR. pose proof (path_text_nonempty _ (asks_nonempty _ _ HA)) as Hne.
  pose proof (twi_existing _ _ _ _ Hc Hne Ha Hn Hd) as HT. rewrite (add_outcome E pa cs v r Hc HA).
  rewrite (patch_asks E pp _ r HR). cbn [self_move]. unfold perform. cbn [request_path]. rewrite (stack_of_path cs Hne Hc).
  unfold patch_add, patch_replace, patch_add_find_target. rewrite HT.
  destruct (exists_last Hne) as (above & i & ->). rewrite last_last in Hm. rewrite rev_app_distr in *. cbn [rev app] in *.
  rewrite (proj2 (str_eqb_neq i $"-") Hm). rewrite HT. cbn [bind at_pos at_virt at_phys at_create at_append is_nil orb negb].
  destruct (is_valid_patch_node _ _); cbn [negb]; [|reflexivity]. destruct (generate_subtree E v); reflexivity.
Qed.
