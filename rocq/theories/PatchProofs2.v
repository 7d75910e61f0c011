(** Proofs about JSON patches, continued. *)
From Verif Require Export PatchProofs.

Lemma finish_ok E q o r : is_test q = false -> fst o = Ok true ->
  let r' := snd (finish E q o r) in
  r_root r' = snd o /\ same_but_tree r r' /\ r_mod r' = true /\ r_sel r' = collect_selectors E (r_root r').
Proof.
  intros Ht Ho. unfold finish. rewrite Ho, Ht. cbn. repeat split.
Qed.
Lemma patch_perform E p q r : asks p q -> self_move q = false -> fst (patch E p r) = fst (perform E q (r_root r)).
Proof. intros H Hs. rewrite (patch_asks E p q r H), Hs. apply finish_fst. Qed.
Lemma patch_success E p q r r' : asks p q -> self_move q = false -> is_test q = false ->
  patch E p r = (Ok true, r') -> exists root', perform E q (r_root r) = (Ok true, root') /\ r_root r' = root'
  /\ same_but_tree r r' /\ r_mod r' = true /\ r_sel r' = collect_selectors E (r_root r').
Proof.
  intros H Hs Ht Hp. pose proof (patch_perform E p q r H Hs) as Hf. rewrite Hp in Hf. cbn [fst] in Hf.
  rewrite (patch_asks E p q r H), Hs in Hp.
  pose proof (finish_ok E q (perform E q (r_root r)) r Ht (eq_sym Hf)) as HF. rewrite Hp in HF. cbn [snd] in HF.
  destruct (perform E q (r_root r)) as [o root']. cbn [fst snd] in *. subst o. exists root'. tauto.
Qed.
Lemma patch_works E p q r root' : asks p q -> self_move q = false -> is_test q = false ->
  perform E q (r_root r) = (Ok true, root') ->
  exists r', patch E p r = (Ok true, r') /\ r_root r' = root' /\ same_but_tree r r' /\ r_mod r' = true
             /\ r_sel r' = collect_selectors E root'.
Proof.
  intros H Hs Ht Hp. rewrite (patch_asks E p q r H), Hs.
  pose proof (finish_ok E q (perform E q (r_root r)) r Ht) as HF. rewrite Hp in *. cbn [fst snd] in HF.
  specialize (HF eq_refl). pose proof (finish_fst E q (Ok true, root') r) as HS. cbn [fst] in HS.
  destruct (finish E q (Ok true, root') r) as [o r']. cbn [fst snd] in *. subst o.
  destruct HF as (H1 & H2 & H3 & H4). rewrite H1 in H4. exists r'. auto.
Qed.
Lemma asks_nonempty p q : asks p q -> request_path q <> [].
Proof. intros H. destruct q; asks_inv H d; auto. Qed.

Lemma nth_error_skip {A} (l : list A) a b : nth_error l (a + b) = nth_error (skipn a l) b.
Proof. revert l; induction a as [|a IH]; intros [|x l]; cbn; auto. destruct b; reflexivity. Qed.

(** * C12 *)
Lemma c12_success E p s r r' : proper_tree (r_root r) = true -> asks p (RRemove s) -> patch E p r = (Ok true, r') ->
  exists q i, addresses (r_root r) s (q ++ [i]) /\ changed_at (line_removed i) q (r_root r) (r_root r')
              /\ same_but_tree r r'.
Proof.
  intros Hp Ha H. apply (patch_success E p _ r r' Ha) in H as (root' & H & <- & HS & _); auto.
  unfold perform in H. cbn [request_path] in H. destruct (str_to_stack_path s) as [st|] eqn:Hst; [|discriminate].
  apply patch_remove_success in H as (q & i & H1 & H2 & _); auto. exists q, i. split; auto. exists st. auto.
Qed.
Lemma patch_remove_bool root st : proper_tree root = true -> exists b, fst (patch_remove root st) = Ok b.
Proof.
  intros Hp. unfold patch_remove. destruct st as [|p0 pp]; cbn [fst]; eauto.
  destruct (traverse root (p0 :: pp)) as [x|] eqn:Ht; cbn [fst]; eauto.
  destruct (is_valid_patch_node (Some x) None); cbn [negb fst]; eauto.
  destruct (traverse_pos root pp) as [q|]; cbn [fst]; eauto.
  destruct (node_at root q) as [n|]; cbn [fst]; eauto.
  destruct (isdigit p0).
  - unfold is_valid_patch_node. destruct (negb (n_lmf n) && negb (n_keyf n) && is_leaf n); cbn [negb fst]; eauto.
    destruct (nth_error (virt_to_phys (n_children n)) (int_of p0)) as [j|]; cbn [negb fst]; eauto.
    destruct (nth_error (n_children n) j) as [c|]; cbn [negb fst]; eauto. destruct (n_lmf c); cbn [negb fst]; eauto.
  - destruct (is_valid_patch_node (Some n) None); cbn [negb fst]; eauto.
    destruct (find_equal x 0 (n_children n)); cbn [fst]; eauto.
Qed.
Lemma c12_when E p cs r : proper_tree (r_root r) = true -> asks p (RRemove (path_text cs)) -> Forall component cs ->
  (exists b, fst (patch E p r) = Ok b) /\
  (fst (patch E p r) = Ok true <->
   exists q i x, addresses (r_root r) (path_text cs) (q ++ [i]) /\ node_at (r_root r) (q ++ [i]) = Some x /\ bare_value x = false).
Proof.
  intros Hp Ha Hc. pose proof (asks_nonempty _ _ Ha) as Hne. cbn [request_path] in Hne.
  destruct (exists_last (l := cs)) as (ds & c & ->); [intros ->; apply Hne; reflexivity|].
  destruct (stack_snoc ds c Hc) as (HS & HS').
  rewrite (patch_perform E p _ r Ha) by auto.
  assert (perform E (RRemove (path_text (ds ++ [c]))) (r_root r) = patch_remove (r_root r) (c :: rev ds ++ [ROOT_VALUE])) as HP
    by (unfold perform; cbn [request_path]; rewrite HS; reflexivity).
  rewrite HP. split; [apply patch_remove_bool; auto|]. split.
  - intros H. destruct (patch_remove (r_root r) (c :: rev ds ++ [ROOT_VALUE])) as [o root'] eqn:HR. cbn [fst] in H. subst o.
    pose proof HR as HR'. apply patch_remove_success in HR as (q & i & H1 & H2 & _); auto.
    destruct (traverse_pos_some _ _ _ H1) as (x & Hx). exists q, i, x. split; [exists (c :: rev ds ++ [ROOT_VALUE]); auto|].
    split; auto. unfold patch_remove, traverse in HR'. rewrite H1, Hx, valid_bare in HR'. destruct (bare_value x); auto. discriminate.
  - intros (q & i & x & (st & Hst & Ht) & Hx & Hb). rewrite HS in Hst. injection Hst as <-.
    destruct (traverse_pos (r_root r) (rev ds ++ [ROOT_VALUE])) as [q'|] eqn:Hq.
    + destruct (traverse_pos_parent _ _ _ _ _ Ht Hq) as (n & i' & d & Hqi & _). apply app_inj_tail in Hqi as (<- & <-).
      eapply patch_remove_works; eauto.
    + exfalso. unfold traverse_pos in Ht, Hq. cbn [rev] in Ht. rewrite rev_app_distr in Ht, Hq. cbn [rev app] in Ht, Hq.
      rewrite rev_involutive in *. destruct ds as [|d ds].
      * discriminate.
      * cbn [app] in Ht. change (d :: ds ++ [c]) with ((d :: ds) ++ [c]) in Ht. rewrite traverse_recurse_app, Hq in Ht. discriminate.
Qed.
(** The removed key is gone, when the parent has only one line of that name and does not degenerate to a comment. *)
Lemma traverse_parent cs c root p : Forall component (cs ++ [c]) -> addresses root (path_text (cs ++ [c])) p ->
  exists q n i x, p = q ++ [i] /\ traverse_pos root (rev cs ++ [ROOT_VALUE]) = Some q /\ node_at root q = Some n
                  /\ step_child n c = Some (i, x).
Proof.
  intros Hc (st & Hst & Ht). destruct (stack_snoc cs c Hc) as (HS & HS'). rewrite HS in Hst. injection Hst as <-.
  destruct (traverse_pos root (rev cs ++ [ROOT_VALUE])) as [q|] eqn:Hq.
  - destruct (traverse_pos_parent _ _ _ _ _ Ht Hq) as (n & i & d & Hqi & Hn & Hs). exists q, n, i, d. auto.
  - exfalso. unfold traverse_pos in Ht, Hq. cbn [rev] in Ht. rewrite rev_app_distr in Ht, Hq. cbn [rev app] in Ht, Hq.
    rewrite rev_involutive in *. destruct cs as [|d cs]; [discriminate|].
    cbn [app] in Ht. change (d :: cs ++ [c]) with ((d :: cs) ++ [c]) in Ht. rewrite traverse_recurse_app, Hq in Ht. discriminate.
Qed.
Lemma c12_gone E p cs c r r' : proper_tree (r_root r) = true ->
  Forall component (cs ++ [c]) -> isdigit c = false -> asks p (RRemove (path_text (cs ++ [c]))) ->
  (forall n, lookup (r_root r) (path_text cs ++ [cSL]) = Some n ->
     (forall i j x y, nth_error (n_children n) i = Some x -> nth_error (n_children n) j = Some y ->
                      names c x -> names c y -> i = j)
     /\ (n_value n = VSent -> n_comment n <> [] -> length (n_children n) > 1)) ->
  patch E p r = (Ok true, r') -> contains_value (r_root r') (path_text (cs ++ [c])) = Ok false.
Proof.
  intros Hp Hc Hd Ha Hu H. apply (patch_success E p _ r r' Ha) in H as (root' & H & Hroot & _); auto. rewrite Hroot. clear Hroot.
  unfold perform in H. cbn [request_path] in H. destruct (stack_snoc cs c Hc) as (HS & HS'). rewrite HS in H.
  apply patch_remove_success in H as (q & i & H1 & _ & (n & Hn & ->)); auto.
  destruct (traverse_parent cs c (r_root r) (q ++ [i]) Hc) as (q' & n' & i' & x & Hqi & Hq & Hn' & Hs).
  { exists (c :: rev cs ++ [ROOT_VALUE]). auto. }
  apply app_inj_tail in Hqi as (<- & <-). rewrite Hn in Hn'. injection Hn' as <-.
  assert (lookup (r_root r) (path_text cs ++ [cSL]) = Some n) as Hl.
  { unfold lookup. rewrite HS'. unfold traverse. rewrite Hq. exact Hn. }
  destruct (Hu n Hl) as (Huniq & Hcol). pose proof (step_child_nth _ _ _ _ Hs) as Hx.
  unfold step_child in Hs. rewrite Hd in Hs. apply find_child_spec in Hs as (_ & _ & Hv & _).
  assert (forall a, val_is (n_value a) c = true -> names c a) as Hnm.
  { intros a. unfold val_is, names. destruct (n_value a) as [|[[| | | |t]| |]]; try discriminate.
    intros E0. apply str_eqb_eq in E0 as ->. reflexivity. }
  rewrite (contains_value_stack _ _ _ HS).
  set (f := fun n => set_children (remove_nth i (n_children n)) n) in *.
  assert (traverse_pos (update_at q f (r_root r)) (rev cs ++ [ROOT_VALUE]) = Some q) as Hq'.
  { apply traverse_pos_update; auto. intros m Hm. rewrite Hn in Hm. injection Hm as <-.
    unfold f, label. rewrite set_children_value, set_children_lmf. f_equal.
    rewrite (has_children_not_comment _ _ _ Hx).
    destruct (is_comment (set_children (remove_nth i (n_children n)) n)) eqn:IC; auto. exfalso.
    apply is_comment_spec in IC as (C1 & C2 & C3). rewrite set_children_value in C1. rewrite set_children_comment in C2.
    rewrite children_set in C3.
    assert (length (n_children n) = 1) as L1.
    { pose proof (f_equal (@length node) C3) as L. unfold remove_nth in L. rewrite app_length, firstn_length, skipn_length in L.
      assert (i < length (n_children n)) by (apply nth_error_Some; congruence). cbn in L. lia. }
    specialize (Hcol C1 C2). lia. }
  rewrite (traverse_pos_step_none _ c _ q (f n) Hq').
  - reflexivity.
  - apply node_at_update_same; auto.
  - unfold step_child. rewrite Hd. unfold f. rewrite children_set. apply find_child_none.
    intros y Hy. destruct (val_is (n_value y) c) eqn:Ey; auto. exfalso.
    apply In_nth_error in Hy as (k & Hk). unfold remove_nth in Hk.
    assert (i < length (n_children n)) as Hi by (apply nth_error_Some; congruence).
    destruct (Nat.lt_ge_cases k i) as [L|L].
    + rewrite nth_error_app1 in Hk by (rewrite firstn_length; lia).
      assert (nth_error (n_children n) k = Some y) as Hk'.
      { rewrite <- Hk. clear -L. revert k L. generalize (n_children n). induction i as [|i IH]; intros [|z l] k L; try lia; destruct k; cbn; auto.
        - apply IH. lia. }
      specialize (Huniq k i y x Hk' Hx (Hnm _ Ey) (Hnm _ Hv)). lia.
    + rewrite nth_error_app2 in Hk by (rewrite firstn_length; lia). rewrite firstn_length, Nat.min_l in Hk by lia.
      assert (nth_error (n_children n) (S i + (k - i)) = Some y) as Hk' by (rewrite nth_error_skip; exact Hk).
      specialize (Huniq _ i y x Hk' Hx (Hnm _ Ey) (Hnm _ Hv)). lia.
Qed.

(** * traverse_with_index *)
Inductive twi (root : node) (p0 : str) (pp : stack) : option position -> option nat -> option nat -> Prop :=
| twi_name : isdigit p0 = false -> twi root p0 pp (traverse_pos root (p0 :: pp)) None None
| twi_lost : isdigit p0 = true -> traverse_pos root pp = None -> twi root p0 pp None (Some (int_of p0)) None
| twi_coll q n j c : isdigit p0 = true -> traverse_pos root pp = Some q -> node_at root q = Some n ->
    nth_error (virt_to_phys (n_children n)) (int_of p0) = Some j -> nth_error (n_children n) j = Some c ->
    is_collection c = true -> twi root p0 pp (Some (q ++ [j])) None None
| twi_plain q n j c : isdigit p0 = true -> traverse_pos root pp = Some q -> node_at root q = Some n ->
    nth_error (virt_to_phys (n_children n)) (int_of p0) = Some j -> nth_error (n_children n) j = Some c ->
    is_collection c = false -> twi root p0 pp (Some q) (Some (int_of p0)) (Some j).
Lemma twi_inv root p0 pp o v i : traverse_with_index root (p0 :: pp) = Ok (o, v, i) -> twi root p0 pp o v i.
Proof.
  unfold traverse_with_index. destruct (isdigit p0) eqn:D.
  - destruct (traverse_pos root pp) as [q|] eqn:Hq.
    + destruct (node_at root q) as [n|] eqn:Hn; [|discriminate].
      destruct (nth_error (virt_to_phys (n_children n)) (int_of p0)) as [j|] eqn:Hj; [|discriminate].
      destruct (nth_error (n_children n) j) as [c|] eqn:Hc; [|discriminate].
      destruct (is_collection c) eqn:IC; intros [= <- <- <-]; econstructor; eauto.
    + intros [= <- <- <-]. constructor; auto.
  - destruct (traverse_pos root (p0 :: pp)) as [q|] eqn:Hq; intros [= <- <- <-]; rewrite <- Hq; constructor; auto.
Qed.
Lemma twi_name_eq root p0 pp : isdigit p0 = false ->
  traverse_with_index root (p0 :: pp) = Ok (traverse_pos root (p0 :: pp), None, None).
Proof. intros D. unfold traverse_with_index. rewrite D. destruct (traverse_pos root (p0 :: pp)); reflexivity. Qed.
Lemma twi_index_eq root p0 pp q n j c : isdigit p0 = true -> traverse_pos root pp = Some q -> node_at root q = Some n ->
  step_child n p0 = Some (j, c) ->
  traverse_with_index root (p0 :: pp) =
  if is_collection c then Ok (Some (q ++ [j]), None, None) else Ok (Some q, Some (int_of p0), Some j).
Proof.
  intros D Hq Hn Hs. unfold traverse_with_index. rewrite D, Hq, Hn. unfold step_child in Hs. rewrite D in Hs.
  destruct (nth_error (virt_to_phys (n_children n)) (int_of p0)) as [k|]; [|discriminate].
  destruct (nth_error (n_children n) k) as [d|] eqn:Hd; [|discriminate]. destruct (n_lmf d); [|discriminate].
  injection Hs as -> ->. reflexivity.
Qed.
Lemma as_list_members_spec v l : as_list_members v l = as_element v l.
Proof.
  unfold as_list_members, as_element. destruct v; cbn [is_prim]; auto.
  apply map_ext. intros []; reflexivity.
Qed.
Lemma collection_spec n : is_collection n = collection_element n.
Proof. reflexivity. Qed.
Lemma step_index_intro n p0 j c : isdigit p0 = true -> nth_error (virt_to_phys (n_children n)) (int_of p0) = Some j ->
  nth_error (n_children n) j = Some c -> n_lmf c = true -> step_child n p0 = Some (j, c).
Proof. intros D Hj Hc HL. unfold step_child. rewrite D, Hj, Hc, HL. reflexivity. Qed.
Lemma collection_lmf c : is_collection c = true -> n_lmf c = true.
Proof. unfold is_collection. destruct (n_lmf c); auto. rewrite andb_false_r. auto. Qed.
Lemma addresses_stack root s st p : str_to_stack_path s = Ok st -> (addresses root s p <-> traverse_pos root st = Some p).
Proof.
  intros H. unfold addresses. rewrite H. split.
  - intros (st' & [= <-] & H'). auto.
  - eauto.
Qed.

(** * C13 *)
Lemma valid_index n p0 j c : is_valid_patch_node (Some n) (Some (int_of p0)) = true ->
  nth_error (virt_to_phys (n_children n)) (int_of p0) = Some j -> nth_error (n_children n) j = Some c -> n_lmf c = true.
Proof.
  unfold is_valid_patch_node. destruct (negb (n_lmf n) && negb (n_keyf n) && is_leaf n); [discriminate|].
  intros H Hj Hc. rewrite Hj, Hc in H. auto.
Qed.
Lemma split_on_nonempty c t : split_on c t <> [].
Proof.
  destruct t as [|a t]; cbn [split_on]; [discriminate|]. destruct (ceq a c); [discriminate|].
  destruct (split_on c t); discriminate.
Qed.
Lemma stack_cons s : s <> [] -> exists p0 pp, str_to_stack_path s = Ok (p0 :: pp).
Proof.
  intros H. unfold str_to_stack_path. destruct (last_char_some s H) as (c & ->).
  cbn zeta. match goal with |- context[split_on cSL ?t] => pose proof (split_on_nonempty cSL t) as Hl; revert Hl;
    generalize (split_on cSL t) end. intros l Hl.
  destruct (exists_last Hl) as (l' & x & ->). rewrite map_app, rev_app_distr. cbn [map rev app]. eauto.
Qed.
Lemma c13_success E p s v r r' : asks p (RReplace s v) -> patch E p r = (Ok true, r') ->
  same_but_tree r r' /\ exists lines, written_as E v lines /\
  ((exists q n, addresses (r_root r) s q /\ node_at (r_root r) q = Some n /\ bare_value n = false
                /\ (n_lmf n = true -> collection_element n = true
                                      \/ exists c above, str_to_stack_path s = Ok (c :: above) /\ isdigit c = false)
                /\ changed_at (content_replaced lines) q (r_root r) (r_root r'))
   \/ (exists q i x, addresses (r_root r) s (q ++ [i]) /\ node_at (r_root r) (q ++ [i]) = Some x
                     /\ n_lmf x = true /\ collection_element x = false
                     /\ (exists c above, str_to_stack_path s = Ok (c :: above) /\ isdigit c = true)
                     /\ changed_at (line_replaced i (as_element v lines)) q (r_root r) (r_root r'))).
Proof.
  intros Ha H. apply (patch_success E p _ r r' Ha) in H as (root' & H & <- & HS & _); auto. split; auto.
  unfold perform in H. cbn [request_path] in H.
  destruct (stack_cons s (asks_nonempty _ _ Ha)) as (p0 & pp & Hst). rewrite Hst in H.
  unfold patch_replace in H. destruct (traverse_with_index (r_root r) (p0 :: pp)) as [[[o vi] ph]|] eqn:HT; [|discriminate].
  apply twi_inv in HT. destruct o as [q|]; [|discriminate].
  destruct (is_valid_patch_node (node_at (r_root r) q) vi) eqn:HV; [|discriminate]. cbn [negb] in H.
  destruct (generate_subtree E v) as [lines|] eqn:HG; [|discriminate].
  exists lines. split; auto. remember (Some q) as o eqn:Ho.
  destruct HT as [D|D Hq|q0 n j c D Hq Hn Hj Hc IC|q0 n j c D Hq Hn Hj Hc IC]; try discriminate.
  - (* by name *) injection H as <-. left. rename Ho into HP.
    destruct (traverse_pos_some _ _ _ HP) as (n & Hn). exists q, n. split; [apply (addresses_stack _ _ _ _ Hst); auto|].
    split; auto. rewrite Hn, valid_bare in HV. split; [destruct (bare_value n); auto|]. split; [intros _; right; exists p0, pp; auto|].
    eapply changed_at_update; eauto. unfold content_replaced. rewrite with_lines_set. reflexivity.
  - (* collection element *) injection H as <-. injection Ho as <-. left. exists (q0 ++ [j]), c.
    assert (node_at (r_root r) (q0 ++ [j]) = Some c) as HC by (rewrite node_at_app, Hn; cbn [node_at]; rewrite Hc; auto).
    split; [apply (addresses_stack _ _ _ _ Hst); apply (traverse_pos_step _ _ _ _ n j c Hq Hn); apply step_index_intro; auto using collection_lmf|].
    split; auto. rewrite HC, valid_bare in HV. split; [destruct (bare_value c); auto|].
    split; [intros _; left; rewrite <- collection_spec; exact IC|].
    eapply changed_at_update; eauto. unfold content_replaced. rewrite with_lines_set. reflexivity.
  - (* plain element *) injection H as <-. injection Ho as <-. right. exists q0, j, c. rewrite Hn in HV.
    assert (n_lmf c = true) as HL by (eapply valid_index; eauto).
    assert (node_at (r_root r) (q0 ++ [j]) = Some c) as HC by (rewrite node_at_app, Hn; cbn [node_at]; rewrite Hc; auto).
    split; [apply (addresses_stack _ _ _ _ Hst); apply (traverse_pos_step _ _ _ _ n j c Hq Hn); apply step_index_intro; auto|].
    split; auto. split; auto. split; auto. split; [exists p0, pp; auto|].
    rewrite <- as_list_members_spec. eapply changed_at_update; eauto. apply line_replaced_set. apply nth_error_Some. congruence.
Qed.
(** When replace succeeds. *)
Lemma valid_index_intro n p0 j c : isdigit p0 = true -> step_child n p0 = Some (j, c) ->
  is_valid_patch_node (Some n) (Some (int_of p0)) = true.
Proof.
  intros D Hs. unfold is_valid_patch_node. rewrite (not_leaf_of_child _ _ _ (step_child_nth _ _ _ _ Hs)), !andb_false_r.
  unfold step_child in Hs. rewrite D in Hs.
  destruct (nth_error (virt_to_phys (n_children n)) (int_of p0)) as [k|]; [|discriminate].
  destruct (nth_error (n_children n) k) as [d|]; [|discriminate]. destruct (n_lmf d); [|discriminate]. reflexivity.
Qed.
Lemma digit_comp_not_root c : isdigit c = true -> c <> ROOT_VALUE.
Proof. intros H ->. vm_compute in H. discriminate. Qed.
Lemma c13_when E p cs v r q n lines : asks p (RReplace (path_text cs) v) -> Forall component cs ->
  addresses (r_root r) (path_text cs) q -> node_at (r_root r) q = Some n -> bare_value n = false -> written_as E v lines ->
  fst (patch E p r) = Ok true.
Proof.
  intros Ha Hc Hq Hn Hb HG. rewrite (patch_perform E p _ r Ha) by auto.
  pose proof (asks_nonempty _ _ Ha) as Hne. cbn [request_path] in Hne.
  destruct (exists_last (l := cs)) as (ds & c & ->); [intros ->; apply Hne; reflexivity|].
  destruct (stack_snoc ds c Hc) as (HS & HS').
  destruct (traverse_parent ds c (r_root r) q Hc Hq) as (qp & np & i & x & -> & Hqp & Hnp & Hs).
  unfold perform. cbn [request_path]. rewrite HS. unfold patch_replace.
  assert (x = n) as ->.
  { rewrite node_at_app, Hnp in Hn. cbn [node_at] in Hn. rewrite (step_child_nth _ _ _ _ Hs) in Hn. congruence. }
  destruct (isdigit c) eqn:D.
  - rewrite (twi_index_eq _ _ _ _ _ _ _ D Hqp Hnp Hs). unfold written_as in HG. destruct (is_collection n).
    + rewrite Hn, valid_bare, Hb. cbn [negb]. rewrite HG. reflexivity.
    + rewrite Hnp, (valid_index_intro _ _ _ _ D Hs). cbn [negb]. rewrite HG. reflexivity.
  - rewrite twi_name_eq by auto. rewrite (traverse_pos_step _ _ _ _ _ _ _ Hqp Hnp Hs). rewrite Hn, valid_bare, Hb. cbn [negb].
    unfold written_as in HG. rewrite HG. reflexivity.
Qed.

(** * C14 *)
Lemma add_perform E p s v r st lines t root' : asks p (RAdd s v) -> str_to_stack_path s = Ok st ->
  patch_add_find_target (r_root r) st = Ok t -> at_pos t <> None ->
  is_valid_patch_node (at_opt (r_root r) (at_pos t)) (at_virt t) = true ->
  generate_subtree E (if is_nil (at_create t) then v else JDict [(PStr (at_create t), v)]) = Ok lines ->
  (forall q, at_pos t = Some q ->
   let value := if is_nil (at_create t) then v else JDict [(PStr (at_create t), v)] in
   let new := if at_append t || match at_phys t with Some _ => true | None => false end
              then as_list_members value lines else lines in
   root' = update_at q (fun n => match at_phys t with
                  | Some i => set_children (insert_at i new (n_children n)) n
                  | None => if at_append t || negb (is_nil (at_create t))
                            then set_children (n_children n ++ new) n
                            else set_children new n
                  end) (r_root r)) ->
  exists r', patch E p r = (Ok true, r') /\ r_root r' = root' /\ same_but_tree r r'.
Proof.
  intros Ha Hst HT Hpos HV HG Hroot.
  assert (perform E (RAdd s v) (r_root r) = (Ok true, root')) as HP.
  { unfold perform. cbn [request_path]. rewrite Hst. unfold patch_add. rewrite HT.
    destruct (at_pos t) as [q|] eqn:Hq; [|contradiction]. cbn [at_opt] in HV. rewrite HV. cbn [negb].
    cbn zeta in Hroot. rewrite HG. rewrite (Hroot q eq_refl). reflexivity. }
  destruct (patch_works E p _ r root' Ha eq_refl eq_refl HP) as (r' & H1 & H2 & H3 & _). eauto.
Qed.
Lemma component_nonnil c : component c -> is_nil c = false.
Proof. intros (H & _). apply is_nil_false; auto. Qed.
Lemma root_not_digit : isdigit ROOT_VALUE = false.
Proof. reflexivity. Qed.
(** Where [traverse_with_index] arrives for a container that is not a plain list element. *)
Lemma twi_container root cs q n : Forall component cs ->
  addresses root (path_text cs ++ [cSL]) q -> node_at root q = Some n -> (n_lmf n = false \/ collection_element n = true) ->
  traverse_with_index root (rev cs ++ [ROOT_VALUE]) = Ok (Some q, None, None).
Proof.
  intros Hc Hq Hn Hk. destruct cs as [|c0 cs0] using rev_ind.
  - cbn [rev app]. rewrite twi_name_eq by reflexivity. apply (addresses_stack _ _ _ _ (stack_of_path_slash [] Hc)) in Hq.
    cbn [rev app] in Hq. rewrite Hq. reflexivity.
  - clear IHcs0. apply (addresses_stack _ _ _ _ (stack_of_path_slash _ Hc)) in Hq. rewrite rev_app_distr in *. cbn [rev app] in *.
    destruct (isdigit c0) eqn:D.
    + assert (addresses root (path_text (cs0 ++ [c0])) q) as Hq'.
      { apply (addresses_stack _ _ _ _ (proj1 (stack_snoc cs0 c0 Hc))). exact Hq. }
      destruct (traverse_parent cs0 c0 root q Hc Hq') as (qp & np & i & x & -> & Hqp & Hnp & Hs).
      rewrite (twi_index_eq _ _ _ _ _ _ _ D Hqp Hnp Hs).
      assert (x = n) as ->.
      { rewrite node_at_app, Hnp in Hn. cbn [node_at] in Hn. rewrite (step_child_nth _ _ _ _ Hs) in Hn. congruence. }
      assert (n_lmf n = true) as HL.
      { unfold step_child in Hs. rewrite D in Hs. destruct (nth_error (virt_to_phys _) _); [|discriminate].
        destruct (nth_error _ n0) as [d|]; [|discriminate]. destruct (n_lmf d) eqn:EL; [|discriminate]. congruence. }
      destruct Hk as [Hk|Hk]; [congruence|]. rewrite collection_spec, Hk. reflexivity.
    + rewrite twi_name_eq by auto. rewrite Hq. reflexivity.
Qed.
Lemma c14_new_key E p cs c v r q n lines : asks p (RAdd (path_text (cs ++ [c])) v) -> Forall component (cs ++ [c]) ->
  isdigit c = false -> c <> $"-" ->
  addresses (r_root r) (path_text cs ++ [cSL]) q -> node_at (r_root r) q = Some n ->
  bare_value n = false -> (n_lmf n = false \/ collection_element n = true) ->
  (forall x, In x (n_children n) -> ~ names c x) ->
  written_as E (JDict [(PStr c, v)]) lines ->
  exists r', patch E p r = (Ok true, r') /\ same_but_tree r r'
             /\ changed_at (lines_appended lines) q (r_root r) (r_root r').
Proof.
  intros Ha Hc D Hd Hq Hn Hb Hk Hnew HG. destruct (stack_snoc cs c Hc) as (HS & HS').
  pose proof (proj1 (addresses_stack _ _ _ _ HS') Hq) as HQ.
  assert (is_nil c = false) as Hnil by (apply Forall_app in Hc as (_ & Hc); inversion Hc; apply component_nonnil; auto).
  destruct (add_perform E p _ v r _ lines
     {| at_pos := Some q; at_virt := None; at_phys := None; at_create := c; at_append := false |}
     (update_at q (fun n => set_children (n_children n ++ lines) n) (r_root r)) Ha HS) as (r' & H1 & H2 & H3).
  - unfold patch_add_find_target. apply str_eqb_neq in Hd. rewrite Hd. rewrite twi_name_eq by auto.
    rewrite (traverse_pos_step_none _ _ _ _ _ HQ Hn).
    2:{ unfold step_child. rewrite D. apply find_child_none. intros x Hx. destruct (val_is (n_value x) c) eqn:E0; auto.
        exfalso. apply (Hnew x Hx). unfold val_is in E0. unfold names. destruct (n_value x) as [|[[| | | |t]| |]]; try discriminate.
        apply str_eqb_eq in E0 as ->. reflexivity. }
    cbn [bind]. rewrite (twi_container _ _ _ _ (proj1 (proj1 (Forall_app _ _ _) Hc)) Hq Hn Hk). reflexivity.
  - discriminate.
  - cbn [at_opt at_pos at_virt]. rewrite Hn, valid_bare, Hb. reflexivity.
  - cbn [at_create]. rewrite Hnil. exact HG.
  - cbn [at_pos at_create at_append at_phys]. intros q' [= <-]. rewrite Hnil. cbn zeta. reflexivity.
  - exists r'. split; auto. split; auto. rewrite H2. eapply changed_at_update; eauto. unfold lines_appended. rewrite with_lines_set. reflexivity.
Qed.
Lemma c14_existing_key E p cs c v r q n lines : asks p (RAdd (path_text (cs ++ [c])) v) -> Forall component (cs ++ [c]) ->
  isdigit c = false -> c <> $"-" ->
  addresses (r_root r) (path_text (cs ++ [c])) q -> node_at (r_root r) q = Some n -> bare_value n = false ->
  written_as E v lines ->
  exists r', patch E p r = (Ok true, r') /\ same_but_tree r r'
             /\ changed_at (content_replaced lines) q (r_root r) (r_root r').
Proof.
  intros Ha Hc D Hd Hq Hn Hb HG. destruct (stack_snoc cs c Hc) as (HS & HS').
  pose proof (proj1 (addresses_stack _ _ _ _ HS) Hq) as HQ.
  destruct (add_perform E p _ v r _ lines
     {| at_pos := Some q; at_virt := None; at_phys := None; at_create := []; at_append := false |}
     (update_at q (set_children lines) (r_root r)) Ha HS) as (r' & H1 & H2 & H3).
  - unfold patch_add_find_target. apply str_eqb_neq in Hd. rewrite Hd. rewrite twi_name_eq by auto. rewrite HQ. reflexivity.
  - discriminate.
  - cbn [at_opt at_pos at_virt]. rewrite Hn, valid_bare, Hb. reflexivity.
  - exact HG.
  - cbn [at_pos at_create at_append at_phys]. intros q' [= <-]. reflexivity.
  - exists r'. split; auto. split; auto. rewrite H2. eapply changed_at_update; eauto. unfold content_replaced. rewrite with_lines_set. reflexivity.
Qed.
Lemma digit_not_dash c : isdigit c = true -> str_eqb c $"-" = false.
Proof. intros H. apply str_eqb_neq. intros ->. vm_compute in H. discriminate. Qed.
Lemma c14_index E p cs c v r q i x lines : asks p (RAdd (path_text (cs ++ [c])) v) -> Forall component (cs ++ [c]) ->
  isdigit c = true ->
  addresses (r_root r) (path_text (cs ++ [c])) (q ++ [i]) -> node_at (r_root r) (q ++ [i]) = Some x ->
  collection_element x = false ->
  written_as E v lines ->
  exists r', patch E p r = (Ok true, r') /\ same_but_tree r r'
             /\ changed_at (lines_inserted i (as_element v lines)) q (r_root r) (r_root r').
Proof.
  intros Ha Hc D Hq Hn Hb HG. destruct (stack_snoc cs c Hc) as (HS & HS').
  destruct (traverse_parent cs c (r_root r) _ Hc Hq) as (qp & np & i' & x' & Hqi & Hqp & Hnp & Hs).
  apply app_inj_tail in Hqi as (<- & <-).
  assert (x' = x) as ->.
  { rewrite node_at_app, Hnp in Hn. cbn [node_at] in Hn. rewrite (step_child_nth _ _ _ _ Hs) in Hn. congruence. }
  destruct (add_perform E p _ v r _ lines
     {| at_pos := Some q; at_virt := Some (int_of c); at_phys := Some i; at_create := []; at_append := false |}
     (update_at q (fun n => set_children (insert_at i (as_element v lines) (n_children n)) n) (r_root r)) Ha HS) as (r' & H1 & H2 & H3).
  - unfold patch_add_find_target. rewrite digit_not_dash by auto. rewrite (twi_index_eq _ _ _ _ _ _ _ D Hqp Hnp Hs).
    rewrite collection_spec, Hb. reflexivity.
  - discriminate.
  - cbn [at_opt at_pos at_virt]. rewrite Hnp. eapply valid_index_intro; eauto.
  - exact HG.
  - cbn [at_pos at_create at_append at_phys]. intros q' [= <-]. cbn [is_nil orb]. cbn zeta. rewrite as_list_members_spec. reflexivity.
  - exists r'. split; auto. split; auto. rewrite H2. eapply changed_at_update; eauto. apply lines_inserted_set.
    apply Nat.lt_le_incl, nth_error_Some. rewrite (step_child_nth _ _ _ _ Hs). discriminate.
Qed.
Lemma c14_dash E p cs v r q n lines : asks p (RAdd (path_text (cs ++ [$"-"])) v) -> Forall component cs ->
  addresses (r_root r) (path_text cs ++ [cSL]) q -> node_at (r_root r) q = Some n ->
  bare_value n = false -> (n_lmf n = false \/ collection_element n = true) ->
  written_as E v lines ->
  exists r', patch E p r = (Ok true, r') /\ same_but_tree r r'
             /\ changed_at (lines_appended (as_element v lines)) q (r_root r) (r_root r').
Proof.
  intros Ha Hc Hq Hn Hb Hk HG.
  assert (Forall component (cs ++ [$"-"])) as Hc'.
  { apply Forall_app; split; auto. repeat constructor; [discriminate|]. vm_compute. intuition discriminate. }
  destruct (stack_snoc cs _ Hc') as (HS & HS').
  destruct (add_perform E p _ v r _ lines
     {| at_pos := Some q; at_virt := None; at_phys := None; at_create := []; at_append := true |}
     (update_at q (fun n => set_children (n_children n ++ as_element v lines) n) (r_root r)) Ha HS) as (r' & H1 & H2 & H3).
  - unfold patch_add_find_target. rewrite str_eqb_refl. rewrite (twi_container _ _ _ _ Hc Hq Hn Hk). reflexivity.
  - discriminate.
  - cbn [at_opt at_pos at_virt]. rewrite Hn, valid_bare, Hb. reflexivity.
  - exact HG.
  - cbn [at_pos at_create at_append at_phys]. intros q' [= <-]. cbn [is_nil orb]. cbn zeta. rewrite as_list_members_spec. reflexivity.
  - exists r'. split; auto. split; auto. rewrite H2. eapply changed_at_update; eauto. unfold lines_appended. rewrite with_lines_set. reflexivity.
Qed.
(** Every successful add is one local change. *)
Definition add_change (n n' : node) : Prop :=
  (exists l, content_replaced l n n') \/ (exists l, lines_appended l n n') \/ (exists i l, lines_inserted i l n n').
Lemma c14_local E p s v r r' : asks p (RAdd s v) -> patch E p r = (Ok true, r') ->
  same_but_tree r r' /\ exists q, changed_at add_change q (r_root r) (r_root r').
Proof.
  intros Ha H. apply (patch_success E p _ r r' Ha) in H as (root' & H & <- & HS & _); auto. split; auto.
  unfold perform in H. cbn [request_path] in H.
  destruct (stack_cons s (asks_nonempty _ _ Ha)) as (p0 & pp & Hst). rewrite Hst in H.
  unfold patch_add in H. destruct (patch_add_find_target (r_root r) (p0 :: pp)) as [t|] eqn:HT; [|discriminate].
  destruct (at_pos t) as [q|] eqn:Hq; [|discriminate].
  destruct (is_valid_patch_node (node_at (r_root r) q) (at_virt t)) eqn:HV; [|discriminate]. cbn [negb] in H.
  destruct (generate_subtree E _) as [lines|]; [|discriminate]. injection H as <-. exists q.
  destruct (node_at (r_root r) q) as [n|] eqn:Hn; [|discriminate].
  eapply changed_at_update; eauto. unfold add_change.
  destruct (at_phys t) as [i|] eqn:HI.
  - right. right. exists i.
    assert (forall rest v' o', traverse_with_index (r_root r) rest = Ok (o', v', Some i) -> o' = Some q -> i <= length (n_children n)) as Hlen.
    { intros rest v' o' HX ->. destruct rest as [|a rest]; [discriminate|]. apply twi_inv in HX. inversion HX; subst.
      match goal with X : node_at (r_root r) q = Some ?m, Y : nth_error (n_children ?m) i = Some _ |- _ =>
        rewrite Hn in X; injection X as <-; apply Nat.lt_le_incl, nth_error_Some; congruence end. }
    eexists. apply lines_inserted_set. unfold patch_add_find_target in HT.
    set (path := if str_eqb p0 $"-" then pp else p0 :: pp) in *.
    destruct (traverse_with_index (r_root r) path) as [[[o vi] ph]|] eqn:HX; [|discriminate]. cbn [bind] in HT.
    destruct o as [q'|].
    + injection HT as <-. cbn [at_pos at_phys] in *. subst. eapply Hlen; eauto.
    + destruct (str_eqb p0 $"-").
      * injection HT as <-. discriminate.
      * destruct path as [|a path']; [injection HT as <-; discriminate|].
        destruct (traverse_with_index (r_root r) path') as [[[o vi'] ph']|] eqn:HY; [|discriminate]. cbn [bind] in HT.
        injection HT as <-. cbn [at_pos at_phys] in *. subst. eapply Hlen; eauto.
  - destruct (at_append t || negb (is_nil (at_create t))).
    + right. left. eexists. unfold lines_appended. rewrite with_lines_set. reflexivity.
    + left. eexists. unfold content_replaced. rewrite with_lines_set. reflexivity.
Qed.
