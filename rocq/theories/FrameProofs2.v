(** Proofs: a scalar written by a patch is read back. *)
From Verif Require Import FrameProofs LayoutProofs8 WriteSpec.

Lemma line_nil t : ends_clean t -> line [] t [] = t.
Proof.
  intros H. unfold line. cbn [app]. rewrite app_nil_r.
  rewrite rstrip_app_blank; [apply rstrip_clean; auto|]. intros c Hc. vm_compute in Hc. intuition (subst; reflexivity).
Qed.
Lemma inert_quiet t : inert t -> quiet t.
Proof. intros (_ & H). exact H. Qed.
Lemma splitlines_one t : inert t -> t <> [] -> splitlines t = [t].
Proof. intros (H & _) N. apply (splitlines_last t []); auto. Qed.
Lemma splitlines_one_nl t : inert t -> splitlines (t ++ [cNL]) = [t].
Proof.
  intros (H & _). unfold splitlines. rewrite (splitlines_line t [] []); auto.
Qed.
Lemma one_line_node E t j following : one_line E t j ->
  line_to_node E t following =
  match j with
  | JDict ((k, v) :: _) => Ok (key_line_node k v [], 0)
  | JP p => Ok (value_node (JP p) [], 0)
  | _ => line_to_node E t following
  end.
Proof.
  intros (SP & EC & CM & BM & IN & RA).
  assert (separable t []) as S by (split; auto; split; auto; left; reflexivity).
  pose proof (line_nil t EC) as HL. pose proof (line_strip 0 t [] SP) as HS. change (spaces 0) with (@nil ascii) in HS. rewrite HL in HS.
  assert (line_to_node E t following = let! n := parse_line_node E t in Ok (n, 0)) as HN.
  { unfold line_to_node. rewrite HS, (no_mark_no_match t BM). reflexivity. }
  pose proof (line_not_hash t [] SP) as HH. pose proof (line_comment_line t [] S) as HC. rewrite HL in HH, HC.
  unfold parse_line_node in HN. rewrite (parse_yaml_read _ _ _ RA) in HN. unfold bind in HN. rewrite HH in HN. cbv zeta in HN.
  rewrite HC in HN. destruct j as [p|l|[|[k v] d]]; auto.
Qed.
Lemma parse_one E t n : starts_plain t -> line_to_node E t [] = Ok (n, 0) -> parse_lines E [t] = Ok (root_node [n]).
Proof.
  intros SP H. destruct SP as (c & s & -> & Sc & _). unfold parse_lines. cbn [parse_loop].
  rewrite H. cbn [bind].
  assert (is_nil (strip (c :: s)) = false) as ->.
  { unfold strip. rewrite (rstrip_cons _ _ Sc). cbn [lstrip]. rewrite Sc. reflexivity. }
  assert (num_tab_spaces (c :: s) = 0) as -> by exact (num_tab_spaces_plain 0 c s Sc). reflexivity.
Qed.
Lemma sub_one t : inert t -> re_sub JINJA_V0_LINE [] t = t.
Proof. intros H. unfold re_sub, re_sub_f. apply quiet_sub. apply inert_quiet; auto. Qed.
Lemma inert_nl t : inert t -> quiet (t ++ [cNL]).
Proof.
  intros H. pose proof (quiet_join [t; []]) as Q. cbn [join] in Q. apply Q.
  repeat constructor; try apply H; intros; try contradiction; apply has_text_nil; discriminate.
Qed.
Definition not_schema (n : node) : Prop := val_is (n_value n) $"schema_version" = false.
Lemma one_schema E n : not_schema n -> detect_schema E (root_node [n]) = Ok SV0.
Proof.
  intros H. unfold detect_schema, get_value.
  change (str_to_stack_path $"/schema_version") with (@Ok stack [$"schema_version"; ROOT_VALUE]). cbn [bind].
  assert (traverse (root_node [n]) [$"schema_version"; ROOT_VALUE] = None) as ->; [|reflexivity].
  unfold traverse, traverse_pos. cbn [rev app]. cbn [traverse_recurse]. unfold step_child.
  change (isdigit $"schema_version") with false. cbv iota. unfold root_node. cbn [n_children find_child].
  unfold not_schema in H. rewrite H. reflexivity.
Qed.
Lemma read_one E t n : starts_plain t -> inert t -> line_to_node E t [] = Ok (n, 0) -> not_schema n ->
  (exists r, new_recipe E t = Ok r /\ n_children (r_root r) = [n])
  /\ (exists r, new_recipe E (t ++ [cNL]) = Ok r /\ n_children (r_root r) = [n]).
Proof.
  intros SP IN HN NS. assert (t <> []) as Ht by (destruct SP as (c & s & -> & _); discriminate).
  split; unfold new_recipe, parse_tree.
  - rewrite (sub_one t IN), (splitlines_one t IN Ht), (parse_one E t n SP HN). cbn [bind]. rewrite (one_schema E n NS). cbn [bind].
    unfold init_vars. cbn [bind]. eexists. split; reflexivity.
  - assert (re_sub JINJA_V0_LINE [] (t ++ [cNL]) = t ++ [cNL]) as ->
      by (unfold re_sub, re_sub_f; apply quiet_sub; apply inert_nl; auto).
    rewrite (splitlines_one_nl t IN), (parse_one E t n SP HN). cbn [bind]. rewrite (one_schema E n NS). cbn [bind].
    unfold init_vars. cbn [bind]. eexists. split; reflexivity.
Qed.
Lemma inert_no_nl t : inert t -> existsb (ceq cNL) t = false.
Proof.
  intros (H & _). destruct (existsb (ceq cNL) t) eqn:X; auto. apply existsb_exists in X as (c & HI & Hc).
  apply ceq_eq in Hc as <-. apply H in HI. discriminate.
Qed.

Lemma val_schema_prim w : w <> PStr $"schema_version" -> val_is (VJ (JP w)) $"schema_version" = false.
Proof.
  intros H. unfold val_is. destruct w; auto. apply str_eqb_neq. intros ->. contradiction.
Qed.
Lemma scalar_written E v w : scalar_reads E v w -> written_as E v [value_node (JP w) []].
Proof.
  intros ((p & ->) & OL & NS & NN & _). pose proof (one_line_node E _ _ [] OL) as HN. cbv iota in HN.
  destruct OL as (SP & _ & _ & _ & IN & _).
  destruct (read_one E _ _ SP IN HN (val_schema_prim w NS)) as ((r & Hr & Hc) & _).
  unfold written_as, generate_subtree. unfold scalar_text in Hr.
  destruct p; try (rewrite Hr; cbn [bind]; rewrite Hc; reflexivity).
  rewrite (NN s eq_refl), Hr. cbn [bind]. rewrite Hc. reflexivity.
Qed.
Lemma entry_written E c v w : entry_reads E c v w ->
  written_as E (JDict [(PStr c, v)]) [key_node (PStr c) [] [value_node (JP w) []]].
Proof.
  intros (t & HD & OL & NW & NC & _). pose proof (one_line_node E _ _ [] OL) as HN. cbv iota in HN.
  destruct OL as (SP & _ & _ & _ & IN & _).
  assert (key_line_node (PStr c) (JP w) [] = key_node (PStr c) [] [value_node (JP w) []]) as HK
    by (apply key_line_value; congruence).
  rewrite HK in HN.
  destruct (read_one E _ _ SP IN HN) as (_ & r & Hr & Hc).
  { unfold not_schema, key_node. cbn [n_value]. apply val_schema_prim. congruence. }
  unfold written_as, generate_subtree. rewrite HD, Hr. cbn [bind]. rewrite Hc. reflexivity.
Qed.

(** * Reading after writing *)
Lemma read_key E n w p : n_keyf n = true -> is_root n = false -> n_children n = [value_node (JP w) []] ->
  (forall s, w = PStr s -> parse_yaml E s p = Ok (JStr s)) -> get_value_node E n p = Ok (JP w).
Proof.
  intros HK HR HC HS. unfold get_value_node, is_single_key. rewrite HK, HR, HC. cbn [andb negb value_node is_leaf n_children is_nil].
  change (is_leaf (value_node (JP w) [])) with true. cbv iota beta. cbn [andb n_ml value_node is_multi n_value n_lmf].
  destruct w; try reflexivity. rewrite (HS s eq_refl). reflexivity.
Qed.
Lemma named_not_root c n : component c -> n_value n = VJ (JStr c) -> is_root n = false.
Proof.
  intros (_ & H) HV. unfold is_root. rewrite HV. cbn [nval_eqb json_eqb prim_eqb]. apply str_eqb_neq. intros ->. apply H. left. reflexivity.
Qed.
Lemma val_is_eq v c : val_is v c = true -> v = VJ (JStr c).
Proof.
  unfold val_is. destruct v as [|j]; [discriminate|]. destruct j as [[]| |]; try discriminate.
  intros H. apply str_eqb_eq in H as ->. reflexivity.
Qed.
Lemma reached_name root cs c q n : isdigit c = false -> traverse_pos root (c :: rev cs ++ [ROOT_VALUE]) = Some q -> node_at root q = Some n ->
  n_value n = VJ (JStr c).
Proof.
  intros D HT HN.
  assert (c :: rev cs ++ [ROOT_VALUE] = rev (cs ++ [c]) ++ [ROOT_VALUE]) as HE by (rewrite rev_app_distr; reflexivity).
  rewrite HE, traverse_pos_components in HT. clear HE.
  revert root q HT HN. induction cs as [|x cs IH]; intros root q HT HN; cbn [app traverse_recurse] in HT.
  - destruct (step_child root c) as [[i ch]|] eqn:HS; [|discriminate]. cbn [option_map] in HT. injection HT as <-.
    cbn [node_at] in HN. rewrite (step_child_nth _ _ _ _ HS) in HN. injection HN as ->.
    unfold step_child in HS. rewrite D in HS. apply find_child_hit in HS as (_ & _ & HV). apply val_is_eq; auto.
  - destruct (step_child root x) as [[i ch]|] eqn:HS; [|discriminate].
    destruct (traverse_recurse ch (cs ++ [c])) as [q'|] eqn:HQ; [|discriminate]. cbn [option_map] in HT. injection HT as <-.
    cbn [node_at] in HN. rewrite (step_child_nth _ _ _ _ HS) in HN. eapply IH; eauto.
Qed.
Lemma label_content n l : n_value n <> VSent -> label (set_children l n) = label n.
Proof.
  intros H. unfold label. rewrite set_children_value, set_children_lmf. f_equal. unfold is_comment. rewrite set_children_value.
  destruct (n_value n); [contradiction|reflexivity].
Qed.
Lemma find_child_app c k l x : find_child c k l = None -> val_is (n_value x) c = true -> find_child c k (l ++ [x]) = Some (k + length l, x).
Proof.
  revert k; induction l as [|y l IH]; intros k H HV; cbn [app find_child length] in *.
  - rewrite HV, Nat.add_0_r. reflexivity.
  - destruct (val_is (n_value y) c); [discriminate|]. rewrite IH; auto. f_equal. f_equal. lia.
Qed.
Lemma update_read root st q n new : traverse_pos root st = Some q -> node_at root q = Some n -> n_value n <> VSent ->
  traverse (update_at q (set_children new) root) st = Some (set_children new n).
Proof.
  intros HT HN HV. unfold traverse. rewrite (traverse_pos_update _ _ _ (set_children new) HT).
  - rewrite (node_at_update_same _ _ _ _ HN). reflexivity.
  - intros m Hm. rewrite HN in Hm. injection Hm as <-. apply label_content; auto.
Qed.
(** The tree is changed at one place, which still looks the same from its parent. *)
Definition kept_update (root root' : node) (cs : list str) : Prop :=
  exists pos f, traverse_recurse root cs = Some pos /\ (forall m, node_at root pos = Some m -> label (f m) = label m)
  /\ root' = update_at pos f root.
Lemma existing_shape E p q s cs c v w r r' n : asks p q -> sets q s v -> s = path_text (cs ++ [c]) -> Forall component (cs ++ [c]) ->
  isdigit c = false -> c <> $"-" -> lookup (r_root r) s = Some n -> n_keyf n = true -> scalar_reads E v w ->
  patch E p r = (Ok true, r') ->
  kept_update (r_root r) (r_root r') (cs ++ [c]) /\ get_value E (r_root r') s None None = Ok (JP w).
Proof.
  intros Ha Hq -> HC D ND HL HK HS HP.
  assert (self_move q = false /\ is_test q = false) as (SM & IT) by (destruct Hq; subst; auto).
  apply (patch_success E p _ r r' Ha SM IT) in HP as (root' & HP & <- & _).
  destruct (stack_snoc cs c HC) as (HST & _). unfold lookup in HL. rewrite HST in HL.
  pose proof HL as HL'. unfold traverse in HL'.
  destruct (traverse_pos (r_root r) (c :: rev cs ++ [ROOT_VALUE])) as [pos|] eqn:HT; [|discriminate].
  pose proof (reached_name _ _ _ _ _ D HT HL') as HV.
  pose proof (scalar_written _ _ _ HS) as HW. unfold written_as in HW.
  assert (r_root r' = update_at pos (set_children [value_node (JP w) []]) (r_root r)) as HR.
  { destruct Hq as [-> | ->]; unfold perform in HP; cbn [request_path] in HP; rewrite HST in HP.
    - unfold patch_add, patch_add_find_target in HP.
      destruct (str_eqb c $"-") eqn:HD; [apply str_eqb_eq in HD; contradiction|].
      rewrite (twi_name_eq _ _ _ D), HT in HP. cbn [bind] in HP. cbn [at_pos at_virt at_phys at_create at_append is_nil] in HP.
      destruct (is_valid_patch_node (node_at (r_root r) pos) None); [|discriminate]. cbn [negb] in HP. rewrite HW in HP.
      cbn [orb negb] in HP. injection HP as <-. apply update_at_ext. reflexivity.
    - unfold patch_replace in HP. rewrite (twi_name_eq _ _ _ D), HT in HP.
      destruct (is_valid_patch_node (node_at (r_root r) pos) None); [|discriminate]. cbn [negb] in HP. rewrite HW in HP.
      injection HP as <-. reflexivity. }
  assert (component c) as HCc by (apply Forall_app in HC as (_ & HC); inversion HC; auto).
  split.
  { exists pos, (set_children [value_node (JP w) []]). split; [|split; auto].
    - rewrite <- (traverse_pos_components (r_root r)), rev_app_distr. exact HT.
    - intros m Hm. apply label_content. rewrite HL' in Hm. injection Hm as <-. congruence. }
  unfold get_value. rewrite HST. cbn [bind]. rewrite HR, (update_read _ _ _ _ _ HT HL') by congruence.
  apply read_key.
  - rewrite set_children_keyf. auto.
  - apply (named_not_root c); auto. rewrite set_children_value. auto.
  - apply children_set.
  - intros s ->. apply parse_yaml_plain. apply HS. reflexivity.
Qed.
Lemma missing_shape E p s cs c v w r r' n : asks p (RAdd s v) -> s = path_text (cs ++ [c]) -> Forall component (cs ++ [c]) ->
  isdigit c = false -> c <> $"-" -> lookup (r_root r) s = None -> lookup (r_root r) (path_text cs ++ [cSL]) = Some n ->
  (n_lmf n = false \/ collection_element n = true) -> entry_reads E c v w ->
  patch E p r = (Ok true, r') ->
  (cs <> [] -> kept_update (r_root r) (r_root r') cs) /\ get_value E (r_root r') s None None = Ok (JP w).
Proof.
  intros Ha -> HC D ND HL HN HK HE HP.
  apply (patch_success E p _ r r' Ha eq_refl eq_refl) in HP as (root' & HP & <- & _).
  destruct (stack_snoc cs c HC) as (HST & HST').
  assert (component c) as HCc by (apply Forall_app in HC as (_ & HC'); inversion HC'; auto).
  assert (Forall component cs) as HCs by (apply Forall_app in HC; tauto).
  unfold lookup in HL, HN. rewrite HST in HL. rewrite HST' in HN.
  unfold traverse in HL, HN.
  destruct (traverse_pos (r_root r) (rev cs ++ [ROOT_VALUE])) as [pos|] eqn:HT; [|discriminate].
  assert (addresses (r_root r) (path_text cs ++ [cSL]) pos) as HA by (exists (rev cs ++ [ROOT_VALUE]); auto).
  pose proof (twi_container _ _ _ _ HCs HA HN HK) as HTW.
  assert (traverse_pos (r_root r) (c :: rev cs ++ [ROOT_VALUE]) = None) as HTN.
  { destruct (traverse_pos (r_root r) (c :: rev cs ++ [ROOT_VALUE])) eqn:X; auto.
    apply traverse_pos_some in X as (m & X). congruence. }
  pose proof (entry_written _ _ _ _ HE) as HW. unfold written_as in HW.
  set (new := key_node (PStr c) [] [value_node (JP w) []]) in *.
  assert (r_root r' = update_at pos (fun n => set_children (n_children n ++ [new]) n) (r_root r)) as HR.
  { unfold perform in HP; cbn [request_path] in HP; rewrite HST in HP. unfold patch_add, patch_add_find_target in HP.
    destruct (str_eqb c $"-") eqn:HD; [apply str_eqb_eq in HD; contradiction|].
    rewrite (twi_name_eq _ _ _ D), HTN in HP. cbn [bind] in HP. rewrite HTW in HP. cbn [bind] in HP.
    cbn [at_pos at_virt at_phys at_create at_append] in HP. rewrite (component_nonnil c HCc) in HP.
    destruct (is_valid_patch_node (node_at (r_root r) pos) None); [|discriminate]. cbn [negb] in HP. rewrite HW in HP.
    cbn [orb negb] in HP. injection HP as <-. reflexivity. }
  assert (find_child c 0 (n_children n) = None) as HF.
  { destruct (find_child c 0 (n_children n)) as [[i x]|] eqn:X; auto.
    assert (step_child n c = Some (i, x)) as Y by (unfold step_child; rewrite D; auto).
    rewrite (traverse_pos_step _ _ _ _ _ _ _ HT HN Y) in HTN. discriminate. }
  assert (cs <> [] -> label (set_children (n_children n ++ [new]) n) = label n) as HLab.
  { intros Hne. destruct cs as [|y cs _] using rev_ind; [contradiction|].
    assert (is_comment n = false) as IC.
    { rewrite rev_app_distr in HT. cbn [rev app] in HT. destruct HK as [HK|HK].
      - destruct (isdigit y) eqn:Dy.
        + assert (addresses (r_root r) (path_text (cs ++ [y])) pos) as HA'.
          { apply (addresses_stack _ _ _ _ (proj1 (stack_snoc cs y HCs))). exact HT. }
          destruct (traverse_parent cs y _ _ HCs HA') as (qp & np & i & x & -> & Hqp & Hnp & Hs).
          rewrite node_at_app, Hnp in HN. cbn [node_at] in HN. rewrite (step_child_nth _ _ _ _ Hs) in HN. injection HN as ->.
          unfold step_child in Hs. rewrite Dy in Hs.
          destruct (nth_error (virt_to_phys (n_children np)) (int_of y)) as [k|]; [|discriminate].
          destruct (nth_error (n_children np) k) as [z|]; [|discriminate]. destruct (n_lmf z) eqn:Lz; [|discriminate].
          injection Hs as -> ->. congruence.
        + unfold is_comment. rewrite (reached_name _ _ _ _ _ Dy HT HN). reflexivity.
      - unfold collection_element in HK. apply andb_prop in HK as (_ & HK). unfold is_comment.
        destruct (n_children n); [discriminate|]. rewrite ?andb_false_r. reflexivity. }
    unfold label. rewrite set_children_value, set_children_lmf, IC. f_equal. unfold is_comment. rewrite children_set.
    destruct (n_children n); cbn [app is_nil]; rewrite ?andb_false_r; reflexivity. }
  assert (traverse (r_root r') (c :: rev cs ++ [ROOT_VALUE]) = Some new) as HTR.
  { pose proof (traverse_stack' (r_root r) cs) as W0. unfold traverse in W0. rewrite HT, HN in W0.
    assert (c :: rev cs ++ [ROOT_VALUE] = rev (cs ++ [c]) ++ [ROOT_VALUE]) as -> by (rewrite rev_app_distr; reflexivity).
    rewrite traverse_stack'.
    assert (walk (r_root r') cs = Some (set_children (n_children n ++ [new]) n)) as W1.
    { rewrite HR, <- (traverse_stack'). unfold traverse.
      assert (traverse_pos (update_at pos (fun n0 => set_children (n_children n0 ++ [new]) n0) (r_root r)) (rev cs ++ [ROOT_VALUE])
              = Some pos) as ->.
      { destruct cs as [|y cs _] using rev_ind.
        - cbn [rev app] in *. unfold traverse_pos in *. cbn [rev app] in *. exact HT.
        - apply (traverse_pos_update _ _ _ (fun n0 => set_children (n_children n0 ++ [new]) n0) HT).
          intros m Hm. rewrite HN in Hm. injection Hm as <-. apply HLab. destruct cs; discriminate. }
      rewrite (node_at_update_same _ _ _ _ HN). reflexivity. }
    rewrite walk_app, W1. cbn [walk]. unfold step_node, step_child. rewrite D, children_set, (find_child_app _ _ _ new HF); [reflexivity|].
    unfold new, key_node. cbn [n_value val_is]. apply str_eqb_refl. }
  split.
  { intros Hne. exists pos, (fun n0 => set_children (n_children n0 ++ [new]) n0). split; [|split; auto].
    - rewrite <- (traverse_pos_components (r_root r)). exact HT.
    - intros m Hm. rewrite HN in Hm. injection Hm as <-. apply HLab; auto. }
  unfold get_value. rewrite HST. cbn [bind]. rewrite HTR. apply read_key; try reflexivity.
  - apply (named_not_root c); auto.
  - intros s ->. apply parse_yaml_plain. destruct HE as (t & _ & _ & _ & _ & HE). auto.
Qed.
Lemma c72_existing E p q s cs c v w r r' n : asks p q -> sets q s v -> s = path_text (cs ++ [c]) -> Forall component (cs ++ [c]) ->
  isdigit c = false -> c <> $"-" -> lookup (r_root r) s = Some n -> n_keyf n = true -> scalar_reads E v w ->
  patch E p r = (Ok true, r') -> get_value E (r_root r') s None None = Ok (JP w).
Proof. intros. eapply existing_shape; eauto. Qed.
Lemma c72_missing E p s cs c v w r r' n : asks p (RAdd s v) -> s = path_text (cs ++ [c]) -> Forall component (cs ++ [c]) ->
  isdigit c = false -> c <> $"-" -> lookup (r_root r) s = None -> lookup (r_root r) (path_text cs ++ [cSL]) = Some n ->
  (n_lmf n = false \/ collection_element n = true) -> entry_reads E c v w ->
  patch E p r = (Ok true, r') -> get_value E (r_root r') s None None = Ok (JP w).
Proof. intros. eapply missing_shape; eauto. Qed.

(** * A change in one element of a list is not seen from another one *)
Lemma frame_index f pre c d q1 q2 ds n : isdigit c = true -> isdigit d = true -> int_of c <> int_of d ->
  (forall m, node_at n (q1 ++ q2) = Some m -> label (f m) = label m) ->
  traverse_recurse n (pre ++ [c]) = Some q1 ->
  walk (update_at (q1 ++ q2) f n) (pre ++ d :: ds) = walk n (pre ++ d :: ds).
Proof.
  intros Dc Dd N. revert n q1; induction pre as [|x pre IH]; intros n q1 Hf H; cbn [app traverse_recurse walk] in *.
  - destruct (step_child n c) as [[i ch]|] eqn:Hs; [|discriminate]. injection H as <-. cbn [app update_at] in *.
    pose proof (step_child_nth _ _ _ _ Hs) as Hn. cbn [node_at] in Hf. rewrite Hn in Hf.
    set (n' := set_children (map_nth i (update_at q2 f) (n_children n)) n).
    assert (map label (n_children n') = map label (n_children n)) as HM.
    { unfold n'. rewrite children_set. apply map_nth_label. intros y Hy. rewrite Hn in Hy. injection Hy as <-.
      destruct q2 as [|j q2]; [apply Hf; reflexivity|apply label_update_cons]. }
    pose proof (step_child_label n n' d (eq_sym HM)) as HL.
    unfold step_node. destruct (step_child n d) as [[k x]|] eqn:Hd; destruct (step_child n' d) as [[k' x']|] eqn:Hd'; try discriminate; auto.
    cbn [option_map fst] in HL. injection HL as <-. cbn [option_map snd].
    assert (i <> k) as Hik.
    { intros <-. unfold step_child in Hs, Hd. rewrite Dc in Hs. rewrite Dd in Hd.
      destruct (nth_error (virt_to_phys (n_children n)) (int_of c)) as [ic|] eqn:Ec; [|discriminate].
      destruct (nth_error (n_children n) ic); [|discriminate]. destruct (n_lmf n0); [|discriminate]. injection Hs as -> _.
      destruct (nth_error (virt_to_phys (n_children n)) (int_of d)) as [id|] eqn:Ed; [|discriminate].
      destruct (nth_error (n_children n) id); [|discriminate]. destruct (n_lmf n1); [|discriminate]. injection Hd as -> _.
      apply N. eapply v2p_inj; eauto. }
    apply step_child_nth in Hd. apply step_child_nth in Hd'. unfold n' in Hd'. rewrite children_set, nth_map_nth_other in Hd'; auto.
    congruence.
  - destruct (step_child n x) as [[i ch]|] eqn:Hs; [|discriminate].
    destruct (traverse_recurse ch (pre ++ [c])) as [q'|] eqn:Hq; [|discriminate]. injection H as <-.
    cbn [app update_at]. destruct (recurse_nonempty _ _ _ _ Hq) as (j & q'' & HJ).
    pose proof (step_child_nth _ _ _ _ Hs) as Hn. cbn [app node_at] in Hf. rewrite Hn in Hf.
    set (n' := set_children (map_nth i (update_at (q' ++ q2) f) (n_children n)) n).
    assert (step_child n' x = Some (i, update_at (q' ++ q2) f ch)) as Hs'.
    { pose proof (step_child_label n n' x) as HL. rewrite Hs in HL. cbn [option_map fst] in HL.
      assert (option_map fst (step_child n' x) = Some i) as HI.
      { symmetry. apply HL. unfold n'. rewrite children_set. symmetry. apply map_nth_label. intros y Hy. rewrite HJ.
        apply label_update_cons. }
      destruct (step_child n' x) as [[i' ch']|] eqn:Hs'; [|discriminate]. cbn [option_map fst] in HI. injection HI as ->.
      apply step_child_nth in Hs'. unfold n' in Hs'. rewrite children_set, nth_map_nth_same, Hn in Hs'. cbn [option_map] in Hs'.
      congruence. }
    unfold step_node. rewrite Hs', Hs. cbn [option_map snd]. apply IH; auto.
Qed.
Lemma kept_index root root' pre c rest d ds : isdigit c = true -> isdigit d = true -> int_of c <> int_of d ->
  kept_update root root' (pre ++ c :: rest) -> walk root' (pre ++ d :: ds) = walk root (pre ++ d :: ds).
Proof.
  intros Dc Dd N (pos & f & HT & Hf & ->).
  assert (pre ++ c :: rest = (pre ++ [c]) ++ rest) as HE by (rewrite <- app_assoc; reflexivity). rewrite HE in HT.
  apply recurse_app in HT as (q1 & q2 & H1 & ->). apply (frame_index f pre c d q1 q2 ds root); auto.
Qed.
