(** Proofs: what a patch leaves alone. *)
From Verif Require Import PatchProofs2 PathProofs2 FrameSpec.

Lemma recurse_app n a b q : traverse_recurse n (a ++ b) = Some q ->
  exists q1 q2, traverse_recurse n a = Some q1 /\ q = q1 ++ q2.
Proof.
  revert n q; induction a as [|x a IH]; intros n q H; cbn [app traverse_recurse] in *.
  - exists [], q. auto.
  - destruct (step_child n x) as [[i c]|]; [|discriminate].
    destruct (traverse_recurse c (a ++ b)) as [q'|] eqn:Hq; [|discriminate]. injection H as <-.
    destruct (IH _ _ Hq) as (q1 & q2 & -> & ->). exists (i :: q1), q2. auto.
Qed.

Lemma find_child_nth_none d k l i f x : nth_error l i = Some x -> val_is (n_value x) d = false ->
  val_is (n_value (f x)) d = false -> find_child d k (map_nth i f l) = find_child d k l.
Proof.
  revert k i; induction l as [|y l IH]; intros k [|i] Hn Hx Hf; try discriminate; cbn [map_nth find_child nth_error] in *.
  - injection Hn as ->. rewrite Hx, Hf. reflexivity.
  - destruct (val_is (n_value y) d); auto.
Qed.
Lemma find_child_hit d k l i x : find_child d k l = Some (i, x) -> k <= i /\ nth_error l (i - k) = Some x /\ val_is (n_value x) d = true.
Proof.
  revert k; induction l as [|y l IH]; intros k; cbn [find_child]; [discriminate|].
  destruct (val_is (n_value y) d) eqn:V.
  - intros [= -> ->]. rewrite Nat.sub_diag. auto.
  - intros H. apply IH in H as (H1 & H2 & H3). split; [lia|]. split; auto.
    replace (i - k) with (S (i - S k)) by lia. exact H2.
Qed.
Lemma val_is_inj v c d : val_is v c = true -> c <> d -> val_is v d = false.
Proof.
  unfold val_is. destruct v as [|j]; [discriminate|]. destruct j as [[]| |]; try discriminate.
  intros H N. apply str_eqb_eq in H as ->. destruct (str_eqb c d) eqn:E; auto. apply str_eqb_eq in E. contradiction.
Qed.
Definition keeps_line (f : node -> node) : Prop := forall n, n_value (f n) = n_value n.
Lemma update_value f q n : keeps_line f -> n_value (update_at q f n) = n_value n.
Proof. intros H. destruct q; cbn [update_at]; auto. apply set_children_value. Qed.

Lemma label_update_cons j q f n : label (update_at (j :: q) f n) = label n.
Proof.
  cbn [update_at]. unfold label. rewrite set_children_value, set_children_lmf. f_equal.
  unfold is_comment. rewrite set_children_value, set_children_comment, children_set. f_equal.
  destruct (n_children n) as [|c l]; destruct j; reflexivity.
Qed.
Lemma recurse_nonempty n a c q : traverse_recurse n (a ++ [c]) = Some q -> exists j q', q = j :: q'.
Proof.
  destruct a as [|x a]; cbn [app traverse_recurse].
  - destruct (step_child n c) as [[i ch]|]; [|discriminate]. cbn [option_map]. intros [= <-]. eauto.
  - destruct (step_child n x) as [[i ch]|]; [|discriminate]. destruct (traverse_recurse ch (a ++ [c])); [|discriminate].
    cbn [option_map]. intros [= <-]. eauto.
Qed.
(** A change at or below the key [c] under [pre] is not seen from another key [d] under [pre]. *)
Lemma frame_walk f pre c d q1 q2 ds n : keeps_line f -> c <> d -> isdigit c = false -> isdigit d = false ->
  traverse_recurse n (pre ++ [c]) = Some q1 ->
  walk (update_at (q1 ++ q2) f n) (pre ++ d :: ds) = walk n (pre ++ d :: ds).
Proof.
  intros Hf N Dc Dd. revert n q1; induction pre as [|x pre IH]; intros n q1 H; cbn [app traverse_recurse walk] in *.
  - destruct (step_child n c) as [[i ch]|] eqn:Hs; [|discriminate]. injection H as <-. cbn [app update_at].
    unfold step_node, step_child in *. rewrite Dc in Hs. rewrite Dd, children_set.
    apply find_child_hit in Hs as (_ & Hn & Hv). rewrite Nat.sub_0_r in Hn.
    pose proof (val_is_inj _ _ _ Hv N) as Hv'.
    rewrite (find_child_nth_none d 0 _ _ _ _ Hn Hv'); [reflexivity|]. rewrite update_value; auto.
  - destruct (step_child n x) as [[i ch]|] eqn:Hs; [|discriminate].
    destruct (traverse_recurse ch (pre ++ [c])) as [q'|] eqn:Hq; [|discriminate]. injection H as <-.
    cbn [app update_at]. destruct (recurse_nonempty _ _ _ _ Hq) as (j & q'' & HJ).
    pose proof (step_child_nth _ _ _ _ Hs) as Hn.
    set (n' := set_children (map_nth i (update_at (q' ++ q2) f) (n_children n)) n).
    assert (step_child n' x = Some (i, update_at (q' ++ q2) f ch)) as Hs'.
    { pose proof (step_child_label n n' x) as HL. rewrite Hs in HL. cbn [option_map fst] in HL.
      assert (option_map fst (step_child n' x) = Some i) as HI.
      { symmetry. apply HL. unfold n'. rewrite children_set. symmetry. apply map_nth_label. intros y Hy. rewrite HJ.
        apply label_update_cons. }
      destruct (step_child n' x) as [[i' ch']|] eqn:Hs'; [|discriminate]. cbn [option_map fst] in HI. injection HI as ->.
      apply step_child_nth in Hs'. unfold n' in Hs'. rewrite children_set, nth_map_nth_same, Hn in Hs'. cbn [option_map] in Hs'.
      congruence. }
    unfold step_node. rewrite Hs', Hs. cbn [option_map snd]. apply IH. exact Hq.
Qed.

(** * Where the patches change the tree *)
Definition at_or_below (root : node) (cs : list str) (q : position) : Prop :=
  exists q1 q2, traverse_recurse root cs = Some q1 /\ q = q1 ++ q2.
Lemma traverse_pos_components root cs : traverse_pos root (rev cs ++ [ROOT_VALUE]) = traverse_recurse root cs.
Proof.
  unfold traverse_pos. rewrite rev_app_distr, rev_involutive. cbn [rev app]. destruct cs; reflexivity.
Qed.
Lemma twi_below root pre c rest q v i : isdigit c = false ->
  traverse_with_index root (rev (pre ++ c :: rest) ++ [ROOT_VALUE]) = Ok (Some q, v, i) -> at_or_below root (pre ++ [c]) q.
Proof.
  intros Dc. destruct rest as [|y rest] using rev_ind.
  - rewrite rev_app_distr. cbn [rev app]. intros H. apply twi_inv in H. remember (Some q) as o eqn:Ho.
    destruct H; try congruence. exists q, []. rewrite app_nil_r. split; auto.
    rewrite <- (traverse_pos_components root), rev_app_distr. exact Ho.
  - clear IHrest.
    assert (pre ++ c :: rest ++ [y] = (pre ++ c :: rest) ++ [y]) as -> by (rewrite <- app_assoc; reflexivity).
    rewrite rev_app_distr. cbn [rev app]. intros H. apply twi_inv in H. remember (Some q) as o eqn:Ho.
    assert (forall qq, traverse_pos root (rev (pre ++ c :: rest) ++ [ROOT_VALUE]) = Some qq -> at_or_below root (pre ++ [c]) qq) as HA.
    { intros qq. rewrite traverse_pos_components.
      assert (pre ++ c :: rest = (pre ++ [c]) ++ rest) as -> by (rewrite <- app_assoc; reflexivity).
      intros HH. apply recurse_app in HH as (q1 & q2 & H1 & H2). exists q1, q2. auto. }
    destruct H as [D|D Hq|q0 n j ch D Hq Hn Hj Hc IC|q0 n j ch D Hq Hn Hj Hc IC]; try discriminate.
    + assert (y :: rev (pre ++ c :: rest) ++ [ROOT_VALUE] = rev ((pre ++ c :: rest) ++ [y]) ++ [ROOT_VALUE]) as HE
        by (symmetry; rewrite rev_app_distr; reflexivity).
      rewrite HE, traverse_pos_components in Ho.
      assert ((pre ++ c :: rest) ++ [y] = (pre ++ [c]) ++ rest ++ [y]) as HE2 by (rewrite <- !app_assoc; reflexivity).
      rewrite HE2 in Ho. apply recurse_app in Ho as (q1 & q2 & H1 & H2). exists q1, q2. auto.
    + injection Ho as <-. apply HA in Hq as (q1 & q2 & H1 & ->). exists q1, (q2 ++ [j]). rewrite app_assoc. auto.
    + injection Ho as <-. apply HA in Hq. auto.
Qed.
Definition confined (root root' : node) (cs : list str) : Prop :=
  root' = root \/ exists q f, keeps_line f /\ at_or_below root cs q /\ root' = update_at q f root.
Lemma split_rest {A} (rest : list A) : rest <> [] -> exists r' y, rest = r' ++ [y].
Proof. intros H. destruct (exists_last H) as (r' & y & ->). eauto. Qed.
Lemma snoc_stack pre (c : str) rest y : rev (pre ++ c :: rest ++ [y]) ++ [ROOT_VALUE] = y :: rev (pre ++ c :: rest) ++ [ROOT_VALUE].
Proof.
  assert (pre ++ c :: rest ++ [y] = (pre ++ c :: rest) ++ [y]) as -> by (rewrite <- app_assoc; reflexivity).
  rewrite rev_app_distr. reflexivity.
Qed.
Lemma replace_confined E root pre c rest v : isdigit c = false ->
  confined root (snd (patch_replace E root (rev (pre ++ c :: rest) ++ [ROOT_VALUE]) v)) (pre ++ [c]).
Proof.
  intros Dc. unfold patch_replace.
  destruct (traverse_with_index root _) as [[[[q|] vi] ph]|] eqn:HT; try (left; reflexivity).
  apply twi_below in HT; auto. destruct (negb _); [left; reflexivity|].
  destruct (generate_subtree E v); [|left; reflexivity].
  destruct ph; right; cbn [snd]; eexists q, _; (split; [|split; [exact HT|reflexivity]]); intros m; apply set_children_value.
Qed.
Lemma remove_confined root pre c rest : rest <> [] ->
  confined root (snd (patch_remove root (rev (pre ++ c :: rest) ++ [ROOT_VALUE]))) (pre ++ [c]).
Proof.
  intros HR. destruct (split_rest _ HR) as (r' & y & ->). rewrite snoc_stack. unfold patch_remove.
  destruct (traverse root _); [|left; reflexivity]. destruct (negb _); [left; reflexivity|].
  destruct (traverse_pos root (rev (pre ++ c :: r') ++ [ROOT_VALUE])) as [q|] eqn:HQ; [|left; reflexivity].
  rewrite traverse_pos_components in HQ.
  assert (pre ++ c :: r' = (pre ++ [c]) ++ r') as HE by (rewrite <- app_assoc; reflexivity). rewrite HE in HQ.
  apply recurse_app in HQ as (q1 & q2 & H1 & H2).
  destruct (node_at root q); [|left; reflexivity]. destruct (negb _); [left; reflexivity|].
  assert (forall j, confined root (update_at q (fun n => set_children (remove_nth j (n_children n)) n) root) (pre ++ [c])) as HC.
  { intros j. right. eexists q, _. split; [|split; [exists q1, q2; auto|reflexivity]]. intros m. apply set_children_value. }
  destruct (isdigit y).
  - destruct (nth_error _ _); [apply HC|left; reflexivity].
  - destruct (find_equal _ _ _); [apply HC|left; reflexivity].
Qed.
Lemma target_below root pre c rest t q : isdigit c = false -> rest <> [] ->
  patch_add_find_target root (rev (pre ++ c :: rest) ++ [ROOT_VALUE]) = Ok t -> at_pos t = Some q -> at_or_below root (pre ++ [c]) q.
Proof.
  intros Dc HR. destruct (split_rest _ HR) as (r' & y & ->). rewrite snoc_stack. unfold patch_add_find_target.
  destruct (str_eqb y $"-").
  - destruct (traverse_with_index root _) as [[[o vi] ph]|] eqn:HT; [|discriminate]. cbn [bind].
    intros H Hq. destruct o as [q0|]; injection H as <-; cbn [at_pos] in Hq; [|discriminate]. injection Hq as ->.
    eapply twi_below; eauto.
  - destruct (traverse_with_index root (y :: _)) as [[[[q0|] vi] ph]|] eqn:HT; [| |discriminate]; cbn [bind].
    + intros [= <-] Hq. cbn [at_pos] in Hq. injection Hq as ->. rewrite <- snoc_stack in HT. eapply twi_below; eauto.
    + destruct (traverse_with_index root (rev (pre ++ c :: r') ++ [ROOT_VALUE])) as [[[o2 v2] i2]|] eqn:HT2; [|discriminate].
      cbn [bind]. intros [= <-] Hq. cbn [at_pos] in Hq. subst o2. eapply twi_below; eauto.
Qed.
Lemma add_confined E root pre c rest v : isdigit c = false -> rest <> [] ->
  confined root (snd (patch_add E root (rev (pre ++ c :: rest) ++ [ROOT_VALUE]) v)) (pre ++ [c]).
Proof.
  intros Dc HR. unfold patch_add. destruct (patch_add_find_target root _) as [t|] eqn:HT; [|left; reflexivity].
  destruct (at_pos t) as [q|] eqn:Hq; [|left; reflexivity].
  pose proof (target_below _ _ _ _ _ _ Dc HR HT Hq) as HB.
  destruct (negb _); [left; reflexivity|]. destruct (generate_subtree E _); [|left; reflexivity].
  right. cbn [snd]. eexists q, _. split; [|split; [exact HB|reflexivity]].
  intros n. destruct (at_phys t); [apply set_children_value|]. destruct (_ || _); apply set_children_value.
Qed.

(** * The frame *)
Lemma confined_walk root root' pre c d ds : c <> d -> isdigit c = false -> isdigit d = false ->
  confined root root' (pre ++ [c]) -> walk root' (pre ++ d :: ds) = walk root (pre ++ d :: ds).
Proof.
  intros N Dc Dd [->|(q & f & Hf & (q1 & q2 & H1 & ->) & ->)]; auto. eapply frame_walk; eauto.
Qed.
Lemma parts_nonempty cs ds : parts_from cs ds -> cs <> [] /\ ds <> [].
Proof. intros (pre & c & d & rest & ds' & -> & -> & _). split; destruct pre; discriminate. Qed.
Lemma perform_walk E q root ds : stays_clear q ds -> walk (snd (perform E q root)) ds = walk root ds.
Proof.
  intros HS. unfold perform. destruct (str_to_stack_path (request_path q)) as [st|e] eqn:Hst; auto.
  assert (forall s, In s (edited_paths q) -> forall st, str_to_stack_path s = Ok st ->
     exists pre c d rest ds', st = rev (pre ++ c :: rest) ++ [ROOT_VALUE] /\ ds = pre ++ d :: ds' /\ c <> d
       /\ isdigit c = false /\ isdigit d = false /\ rest <> []) as HP.
  { intros s Hs st0 H0. destruct (HS s Hs) as (cs & -> & HC & HPF). destruct (parts_nonempty _ _ HPF) as (Hne & _).
    rewrite (stack_of_path cs Hne HC) in H0. injection H0 as <-.
    destruct HPF as (pre & c & d & rest & ds' & -> & HD & HH). exists pre, c, d, rest, ds'. auto. }
  destruct q as [p v|p|p v|from p|from p|p v]; cbn [request_path edited_paths] in *; auto.
  - destruct (HP p (or_introl eq_refl) _ Hst) as (pre & c & d & rest & ds' & -> & -> & N & Dc & Dd & HR).
    eapply confined_walk; eauto using add_confined.
  - destruct (HP p (or_introl eq_refl) _ Hst) as (pre & c & d & rest & ds' & -> & -> & N & Dc & Dd & HR).
    eapply confined_walk; eauto using remove_confined.
  - destruct (HP p (or_introl eq_refl) _ Hst) as (pre & c & d & rest & ds' & -> & -> & N & Dc & Dd & HR).
    eapply confined_walk; eauto using replace_confined.
  - unfold patch_move. destruct (get_value E root from None None) as [v|[]]; auto.
    destruct (patch_add_find_target root st); auto. destruct (negb _); auto.
    destruct (str_to_stack_path from) as [fs|] eqn:Hfs; auto.
    assert (walk (snd (patch_remove root fs)) ds = walk root ds) as HRm.
    { destruct (HP from (or_introl eq_refl) _ Hfs) as (pre & c & d & rest & ds' & -> & -> & N & Dc & Dd & HR).
      eapply confined_walk; eauto using remove_confined. }
    destruct (patch_remove root fs) as [[[|]|] root']; cbn [snd] in *; auto.
    rewrite <- HRm.
    destruct (HP p (or_intror (or_introl eq_refl)) _ Hst) as (pre & c & d & rest & ds' & -> & -> & N & Dc & Dd & HR).
    eapply confined_walk; eauto using add_confined.
  - unfold patch_copy. destruct (get_value E root from None None) as [v|[]]; auto.
    destruct (HP p (or_introl eq_refl) _ Hst) as (pre & c & d & rest & ds' & -> & -> & N & Dc & Dd & HR).
    eapply confined_walk; eauto using add_confined.
Qed.
Lemma patch_walk E p q r ds : asks p q -> stays_clear q ds -> walk (r_root (snd (patch E p r))) ds = walk (r_root r) ds.
Proof.
  intros Ha HS. rewrite (patch_asks E p q r Ha). destruct (self_move q); [reflexivity|].
  rewrite <- (perform_walk E q (r_root r) ds HS). f_equal. unfold finish.
  destruct (fst (perform E q (r_root r))) as [[|]|]; try reflexivity. destruct (is_test q); reflexivity.
Qed.
