(** Proofs about the section upgrades: what single patches do, and how steps are put together. *)
From Verif Require Export ConvertProofs10 PhaseProofs5 WellProofs3 RenderProofs4.
From Verif Require Export WellSpec SectionSpec.

Lemma asks_add path v : path <> [] -> asks (p_add path v) (RAdd path v).
Proof.
  intros N. unfold p_add. eexists. split; [reflexivity|]. split; [known|]. split; [left; vm_compute; reflexivity|].
  split; [vm_compute; reflexivity|]. split; [reflexivity|]. split; auto.
Qed.
Lemma asks_remove path : path <> [] -> asks (p_remove path) (RRemove path).
Proof.
  intros N. unfold p_remove. eexists. split; [reflexivity|]. split; [known|]. split; [left; vm_compute; reflexivity|].
  split; [vm_compute; reflexivity|]. split; [reflexivity|]. auto.
Qed.
Lemma asks_move from path : path <> [] -> asks (p_move from path) (RMove from path).
Proof.
  intros N. unfold p_move. eexists. split; [reflexivity|]. split; [known|]. split; [right; exists from; reflexivity|].
  split; [vm_compute; reflexivity|]. split; [reflexivity|]. split; auto.
Qed.
Lemma path_nonnil cs c : path_text (cs ++ [c]) <> [].
Proof. destruct cs; discriminate. Qed.

Lemma snoc_nonnil {A} (l : list A) x : l ++ [x] <> [].
Proof. destruct l; discriminate. Qed.
(** * Single patches *)
Lemma patch_stays_proper E p q r r' : reads_proper E -> asks p q -> self_move q = false -> is_test q = false ->
  patch E p r = (Ok true, r') -> proper_tree (r_root r) = true -> proper_tree (r_root r') = true.
Proof.
  intros HE HA HS HT H HP. apply (patch_success E p q r r' HA HS HT) in H as (root' & H & -> & _).
  pose proof (perform_proper E q (r_root r) HE HP) as K. rewrite H in K. exact K.
Qed.
Lemma present_stack root cs c : Forall component (cs ++ [c]) ->
  (present root (cs ++ [c]) <-> traverse_pos root (c :: rev cs ++ [ROOT_VALUE]) <> None).
Proof.
  intros HC. destruct (stack_snoc cs c HC) as (HS & _). unfold present. split.
  - intros (q & Hq). apply (addresses_stack _ _ _ _ HS) in Hq. congruence.
  - intros H. destruct (traverse_pos root (c :: rev cs ++ [ROOT_VALUE])) as [q|] eqn:Hq; [|contradiction].
    exists q. apply (addresses_stack _ _ _ _ HS). exact Hq.
Qed.
(** The target of an addition that succeeds. *)
Lemma add_success E ds c v r r' : Forall component (ds ++ [c]) -> isdigit c = false -> c <> $"-" ->
  patch E (p_add (path_text (ds ++ [c])) v) r = (Ok true, r') ->
  same_but_tree r r' /\ value_put E ds c v (r_root r) (r_root r').
Proof.
  intros HC D ND H. pose proof (asks_add (path_text (ds ++ [c])) v (path_nonnil _ _)) as HA.
  apply (patch_success E _ _ r r' HA) in H as (root' & H & Hroot & HS & _); auto. split; [exact HS|]. rewrite Hroot. clear Hroot HS HA.
  destruct (stack_snoc ds c HC) as (HT & HT'). unfold perform in H. cbn [request_path] in H. rewrite HT in H.
  unfold patch_add in H. unfold patch_add_find_target in H. apply str_eqb_neq in ND. rewrite ND in H. rewrite twi_name_eq in H by auto.
  assert (is_nil c = false) as Hnil by (apply Forall_app in HC as (_ & HC); inversion HC; apply component_nonnil; auto).
  pose proof (present_stack (r_root r) ds c HC) as HP.
  destruct (traverse_pos (r_root r) (c :: rev ds ++ [ROOT_VALUE])) as [q|] eqn:Hq.
  - cbn [bind] in H. cbn [at_pos at_virt at_create at_phys at_append orb is_nil negb] in H.
    destruct (traverse_pos_some _ _ _ Hq) as (n & Hn). rewrite Hn, valid_bare in H.
    destruct (bare_value n) eqn:B; [discriminate|]. cbn [negb] in H. cbv zeta in H.
    destruct (generate_subtree E v) as [lines|] eqn:HG; [|discriminate]. injection H as <-.
    apply put_again. exists q, lines. split; [apply (addresses_stack _ _ _ _ HT); exact Hq|]. split; [exists n; auto|]. split; [exact HG|].
    eapply changed_at_update; [exact Hn|]. unfold content_replaced. rewrite with_lines_set. reflexivity.
  - assert (~ present (r_root r) (ds ++ [c])) as NP by (intros K; apply HP in K; congruence). clear HP.
    cbn [bind] in H. destruct (traverse_with_index (r_root r) (rev ds ++ [ROOT_VALUE])) as [[[o vi] ph]|] eqn:HW; [|discriminate].
    cbn [bind] in H. cbn [at_pos at_virt at_create at_phys at_append orb] in H. rewrite Hnil in H. cbn [negb] in H.
    destruct o as [q|]; [|discriminate].
    destruct ds as [|d ds0] using rev_ind.
    + cbn [rev app] in HW. rewrite twi_name_eq in HW by reflexivity. injection HW as HW0 <- <-.
      assert (traverse_pos (r_root r) [ROOT_VALUE] = Some q) as HW by (rewrite <- HW0; reflexivity).
      destruct (traverse_pos_some _ _ _ HW) as (n & Hn). rewrite Hn, valid_bare in H.
      destruct (bare_value n) eqn:B; [discriminate|]. cbn [negb] in H. cbv zeta in H.
      destruct (generate_subtree E _) as [lines|] eqn:HG; [|discriminate]. injection H as <-.
      apply put_new with q n lines; auto.
      * apply (addresses_stack _ _ _ _ HT'). exact HW.
      * discriminate.
      * eapply changed_at_update; [exact Hn|]. unfold lines_appended. rewrite with_lines_set. reflexivity.
    + clear IHds0. rewrite rev_app_distr in HW, HT'. cbn [rev app] in HW, HT'. apply twi_inv in HW.
      assert (forall x, last (ds0 ++ [d]) x = d) as HL by (intros x; apply last_last).
      assert (Forall component (ds0 ++ [d])) as HC' by (apply Forall_app in HC as (HC & _); exact HC).
      destruct (stack_snoc ds0 d HC') as (HTd & _).
      remember (Some q) as o eqn:Ho.
      destruct HW as [D'|D' Hq'|q0 n j x D' Hq' Hn Hj Hx IC|q0 n j x D' Hq' Hn Hj Hx IC]; try discriminate.
      * destruct (traverse_pos_some _ _ _ Ho) as (n & Hn). rewrite Hn, valid_bare in H.
        destruct (bare_value n) eqn:B; [discriminate|]. cbn [negb] in H. cbv zeta in H.
        destruct (generate_subtree E _) as [lines|] eqn:HG; [|discriminate]. injection H as <-.
        apply put_new with q n lines; auto.
        -- apply (addresses_stack _ _ _ _ HT'). exact Ho.
        -- rewrite HL. congruence.
        -- eapply changed_at_update; [exact Hn|]. unfold lines_appended. rewrite with_lines_set. reflexivity.
      * injection Ho as <-.
        assert (node_at (r_root r) (q0 ++ [j]) = Some x) as HX by (rewrite node_at_app, Hn; cbn [node_at]; rewrite Hx; auto).
        rewrite HX, valid_bare in H. destruct (bare_value x) eqn:B; [discriminate|]. cbn [negb] in H. cbv zeta in H.
        destruct (generate_subtree E _) as [lines|] eqn:HG; [|discriminate]. injection H as <-.
        apply put_new with (q0 ++ [j]) x lines; auto.
        -- apply (addresses_stack _ _ _ _ HT'). apply (traverse_pos_step _ _ _ _ n j x Hq' Hn). apply step_index_intro; auto using collection_lmf.
        -- eapply changed_at_update; [exact HX|]. unfold lines_appended. rewrite with_lines_set. reflexivity.
      * injection Ho as <-. rewrite Hn in H.
        destruct (is_valid_patch_node (Some n) (Some (int_of d))) eqn:V; [|discriminate]. cbn [negb] in H. cbv zeta in H.
        destruct (generate_subtree E _) as [lines|] eqn:HG; [|discriminate]. injection H as <-.
        assert (n_lmf x = true) as HLx by (eapply valid_index; eauto).
        assert (node_at (r_root r) (q0 ++ [j]) = Some x) as HX by (rewrite node_at_app, Hn; cbn [node_at]; rewrite Hx; auto).
        apply put_beside with q0 j x lines; auto.
        -- apply (addresses_stack _ _ _ _ HTd). apply (traverse_pos_step _ _ _ _ n j x Hq' Hn). apply step_index_intro; auto.
        -- rewrite HL. exact D'.
        -- eapply changed_at_update; [exact Hn|]. rewrite <- as_list_members_spec.
           assert (j < length (n_children n)) as Hlt by (apply nth_error_Some; congruence).
           exists (firstn j (n_children n)), (skipn j (n_children n)). split; [rewrite firstn_skipn; reflexivity|].
           split; [apply firstn_length_le; lia|]. rewrite with_lines_set. reflexivity.
Qed.
(** The target of an addition. *)
Lemma target_place ds c root t q : Forall component (ds ++ [c]) -> isdigit c = false -> c <> $"-" ->
  patch_add_find_target root (c :: rev ds ++ [ROOT_VALUE]) = Ok t -> at_pos t = Some q -> is_valid_patch_node (node_at root q) (at_virt t) = true ->
  place_for ds c root.
Proof.
  intros HC D ND H HQ V. destruct (stack_snoc ds c HC) as (HT & HT').
  unfold patch_add_find_target in H. apply str_eqb_neq in ND. rewrite ND in H. rewrite twi_name_eq in H by auto.
  pose proof (present_stack root ds c HC) as HP.
  destruct (traverse_pos root (c :: rev ds ++ [ROOT_VALUE])) as [q1|] eqn:Hq.
  - cbn [bind] in H. injection H as <-. cbn [at_pos at_virt] in *. injection HQ as ->.
    destruct (traverse_pos_some _ _ _ Hq) as (n & Hn). rewrite Hn, valid_bare in V. apply place_there with q; [apply (addresses_stack _ _ _ _ HT); exact Hq|].
    exists n. split; [exact Hn|]. destruct (bare_value n); [discriminate|reflexivity].
  - assert (~ present root (ds ++ [c])) as NP by (intros K; apply HP in K; congruence). clear HP.
    cbn [bind] in H. destruct (traverse_with_index root (rev ds ++ [ROOT_VALUE])) as [[[o vi] ph]|] eqn:HW; [|discriminate].
    cbn [bind] in H. injection H as <-. cbn [at_pos at_virt] in *. subst o.
    destruct ds as [|d ds0] using rev_ind.
    + cbn [rev app] in HW. rewrite twi_name_eq in HW by reflexivity. injection HW as HW0 <- <-.
      assert (traverse_pos root [ROOT_VALUE] = Some q) as HW by (rewrite <- HW0; reflexivity).
      destruct (traverse_pos_some _ _ _ HW) as (n & Hn). rewrite Hn, valid_bare in V.
      apply place_below with q n; auto; [apply (addresses_stack _ _ _ _ HT'); exact HW|destruct (bare_value n); [discriminate|reflexivity]|discriminate].
    + clear IHds0. rewrite rev_app_distr in HW, HT'. cbn [rev app] in HW, HT'. apply twi_inv in HW.
      assert (forall x, last (ds0 ++ [d]) x = d) as HL by (intros x; apply last_last).
      assert (Forall component (ds0 ++ [d])) as HC' by (apply Forall_app in HC as (HC & _); exact HC).
      destruct (stack_snoc ds0 d HC') as (HTd & _).
      remember (Some q) as o eqn:Ho.
      destruct HW as [D'|D' Hq'|q0 n j x D' Hq' Hn Hj Hx IC|q0 n j x D' Hq' Hn Hj Hx IC]; try discriminate.
      * destruct (traverse_pos_some _ _ _ Ho) as (n & Hn). rewrite Hn, valid_bare in V.
        apply place_below with q n; auto; [apply (addresses_stack _ _ _ _ HT'); exact Ho|destruct (bare_value n); [discriminate|reflexivity]|rewrite HL; congruence].
      * injection Ho as <-.
        assert (node_at root (q0 ++ [j]) = Some x) as HX by (rewrite node_at_app, Hn; cbn [node_at]; rewrite Hx; auto).
        rewrite HX, valid_bare in V. apply place_below with (q0 ++ [j]) x; auto; [|destruct (bare_value x); [discriminate|reflexivity]].
        apply (addresses_stack _ _ _ _ HT'). apply (traverse_pos_step _ _ _ _ n j x Hq' Hn). apply step_index_intro; auto using collection_lmf.
      * injection Ho as <-. rewrite Hn in V. assert (n_lmf x = true) as HLx by (eapply valid_index; eauto).
        assert (node_at root (q0 ++ [j]) = Some x) as HX by (rewrite node_at_app, Hn; cbn [node_at]; rewrite Hx; auto).
        apply place_beside with (q0 ++ [j]) x; auto; [|rewrite HL; exact D'].
        apply (addresses_stack _ _ _ _ HTd). apply (traverse_pos_step _ _ _ _ n j x Hq' Hn). apply step_index_intro; auto.
Qed.
Lemma remove_success E cs c r r' : proper_tree (r_root r) = true ->
  patch E (p_remove (path_text (cs ++ [c]))) r = (Ok true, r') ->
  same_but_tree r r' /\ line_taken (cs ++ [c]) (r_root r) (r_root r').
Proof.
  intros HP H. destruct (c12_success E _ _ r r' HP (asks_remove _ (path_nonnil _ _)) H) as (q & i & H1 & H2 & H3).
  split; [exact H3|]. exists q, i. split; [exact H1|]. split; [|exact H2].
  apply (patch_success E _ _ r r' (asks_remove _ (path_nonnil _ _))) in H as (root' & H & _); auto. unfold perform in H. cbn [request_path] in H.
  destruct H1 as (st & HS & H1). rewrite HS in H. destruct (traverse_pos_some _ _ _ H1) as (x & Hx). exists x. split; [exact Hx|].
  unfold patch_remove, traverse in H. destruct st as [|p0 st]; [discriminate|]. rewrite H1, Hx, valid_bare in H. destruct (bare_value x); auto. discriminate.
Qed.
Lemma replace_success E ds c v r r' : Forall component (ds ++ [c]) -> isdigit c = false ->
  patch E (p_replace (path_text (ds ++ [c])) v) r = (Ok true, r') ->
  same_but_tree r r' /\ value_replaced E (ds ++ [c]) v (r_root r) (r_root r').
Proof.
  intros HC D H. pose proof (asks_replace (path_text (ds ++ [c])) v (path_nonnil _ _)) as HA.
  apply (patch_success E _ _ r r' HA) in H as (root' & H & Hroot & HS & _); auto. split; [exact HS|]. rewrite Hroot. clear Hroot HS HA.
  destruct (stack_snoc ds c HC) as (HT & _). unfold perform in H. cbn [request_path] in H. rewrite HT in H.
  unfold patch_replace in H. rewrite twi_name_eq in H by auto.
  destruct (traverse_pos (r_root r) (c :: rev ds ++ [ROOT_VALUE])) as [q|] eqn:Hq; [|discriminate].
  destruct (traverse_pos_some _ _ _ Hq) as (n & Hn). rewrite Hn, valid_bare in H.
  destruct (bare_value n) eqn:B; [discriminate|]. cbn [negb] in H. cbv zeta in H.
  destruct (generate_subtree E v) as [lines|] eqn:HG; [|discriminate]. injection H as <-.
  exists q, lines. split; [apply (addresses_stack _ _ _ _ HT); exact Hq|]. split; [exists n; auto|]. split; [exact HG|].
  eapply changed_at_update; [exact Hn|]. unfold content_replaced. rewrite with_lines_set. reflexivity.
Qed.
Lemma move_success E ds c es d r r' : reads_proper E -> Forall component (ds ++ [c]) -> Forall component (es ++ [d]) ->
  isdigit d = false -> d <> $"-" -> ds ++ [c] <> es ++ [d] -> proper_tree (r_root r) = true ->
  patch E (p_move (path_text (ds ++ [c])) (path_text (es ++ [d]))) r = (Ok true, r') ->
  same_but_tree r r' /\ place_for es d (r_root r)
  /\ exists v mid, get_value E (r_root r) (path_text (ds ++ [c])) None None = Ok v
     /\ line_taken (ds ++ [c]) (r_root r) mid /\ value_put E es d v mid (r_root r').
Proof.
  intros HE HC HC' D ND NE HP H.
  assert (path_text (ds ++ [c]) <> path_text (es ++ [d])) as NE' by (intros K; apply NE; apply path_text_inj; auto using snoc_nonnil).
  destruct (c16_success E _ (p_remove (path_text (ds ++ [c]))) _ _ r r' NE' (asks_move _ _ (path_nonnil _ _)) (asks_remove _ (path_nonnil _ _)) H)
    as (v & r1 & Hv & Hr & Ha).
  specialize (Ha _ (asks_add _ v (path_nonnil es d))).
  destruct (remove_success E ds c r r1 HP Hr) as (S1 & HL). destruct (add_success E es d v r1 r' HC' D ND Ha) as (S2 & HV).
  split; [eapply same_but_tree_trans; eauto|]. split; [|exists v, (r_root r1); auto].
  apply (patch_success E _ _ r r' (asks_move _ _ (path_nonnil _ _))) in H as (root' & H & _); auto; [|cbn; apply str_eqb_neq; congruence].
  unfold perform in H. cbn [request_path] in H. destruct (stack_snoc es d HC') as (HT & _). rewrite HT in H. unfold patch_move in H. rewrite Hv in H.
  destruct (patch_add_find_target (r_root r) (d :: rev es ++ [ROOT_VALUE])) as [t|] eqn:FT; [|discriminate].
  destruct (is_valid_patch_node (at_opt (r_root r) (at_pos t)) (at_virt t)) eqn:V; [|discriminate].
  destruct (at_pos t) as [q|] eqn:Q; [|discriminate]. exact (target_place es d (r_root r) t q HC' D ND FT Q V).
Qed.

(** * Putting steps together *)
Definition errors (s : cstate) : list str := get_messages ERROR (msgs s).
(** Errors are only added; without new ones, a step that returns does what the change says. *)
Definition does {A} (m : conv A) (R : A -> change) : Prop := forall s o s', m s = (o, s') ->
  (exists l, errors s' = errors s ++ l)
  /\ forall a, o = Ok a -> errors s' = errors s -> proper_tree (r_root (v1 s)) = true ->
     R a (view s) (view s') /\ proper_tree (r_root (v1 s')) = true /\ same_but_tree (v1 s) (v1 s').
Notation doesu m A := (does m (fun _ : unit => A)).
Lemma does_impl {A} (m : conv A) (R R' : A -> change) : (forall a w w', R a w w' -> R' a w w') -> does m R -> does m R'.
Proof. intros HI H s o s' HM. destruct (H s o s' HM) as (G & K). split; auto. intros a Ha He Hp. destruct (K a Ha He Hp) as (K1 & K2). auto. Qed.
Lemma does_ret {A} (a : A) : does (ret a) (fun b w w' => b = a /\ w' = w).
Proof.
  intros s o s' H. unfold ret in H. injection H as <- <-. split; [exists []; rewrite app_nil_r; reflexivity|].
  intros b [= <-] _ HP. repeat split; auto.
Qed.
Lemma does_done : doesu (ret tt) nothing.
Proof. eapply does_impl; [|apply does_ret]. intros a w w' (_ & ->). reflexivity. Qed.
Lemma does_bind {A B} (m : conv A) (k : A -> conv B) R S : does m R -> (forall a, does (k a) (S a)) ->
  does (andthen m k) (fun b w w' => exists a mid, R a w mid /\ S a b mid w').
Proof.
  intros Hm Hk s o s' H. unfold andthen in H. destruct (m s) as [[a|e] s1] eqn:M.
  - destruct (Hm _ _ _ M) as ((l1 & G1) & K1). destruct (Hk a _ _ _ H) as ((l2 & G2) & K2).
    split; [exists (l1 ++ l2); rewrite G2, G1, app_assoc; reflexivity|]. intros b Hb He Hp.
    rewrite G2, G1, <- app_assoc in He. assert (l1 ++ l2 = []) as HL. { rewrite <- (app_nil_r (errors s)) in He at 2. apply app_inv_head in He. exact He. }
    apply app_eq_nil in HL as (-> & ->). rewrite app_nil_r in *.
    destruct (K1 a eq_refl G1 Hp) as (R1 & P1 & S1). destruct (K2 b Hb G2 P1) as (R2 & P2 & S2).
    split; [exists a, (view s1); auto|]. split; auto. eapply same_but_tree_trans; eauto.
  - injection H as <- <-. destruct (Hm _ _ _ M) as ((l1 & G1) & _). split; eauto. intros; discriminate.
Qed.
Lemma does_seq {A B} (m : conv A) (k : conv B) (R : change) (S : B -> change) : does m (fun _ => R) -> does k S -> does (andthen m (fun _ => k)) (fun a => R >> S a).
Proof.
  intros Hm Hk. eapply does_impl; [|apply (does_bind m (fun _ => k) _ (fun _ => S) Hm); auto].
  intros a w w' (x & mid & H1 & H2). exists mid. auto.
Qed.
Lemma does_fail {A} (R : A -> change) e : does (pure (Err e)) R.
Proof. intros s o s' H. unfold pure in H. injection H as <- <-. split; [exists []; rewrite app_nil_r; reflexivity|intros; discriminate]. Qed.
Lemma does_pure {A} (x : res A) : does (pure x) (fun a w w' => x = Ok a /\ w' = w).
Proof.
  intros s o s' H. unfold pure in H. injection H as <- <-. split; [exists []; rewrite app_nil_r; reflexivity|].
  intros b Hb _ HP. repeat split; auto.
Qed.
Lemma does_each {A} (l : list A) f (R : A -> change) : (forall x, In x l -> doesu (f x) (R x)) -> doesu (each l f) (all_of (map R l)).
Proof.
  induction l as [|x l IH]; intros H; cbn [each map all_of]; [apply does_done|].
  apply does_seq; [apply H; left; auto|]. apply IH. intros y Hy. apply H. right; auto.
Qed.
Lemma errors_say c m s : c <> ERROR -> errors {| v1 := v1 s; msgs := add_message c m (msgs s) |} = errors s.
Proof. intros N. unfold errors. cbn [msgs]. rewrite (add_one_more c m (msgs s) ERROR). destruct c; auto; contradiction. Qed.
Lemma does_tell m : doesu (say WARNING m) (tell m).
Proof.
  intros s o s' H. unfold say in H. injection H as <- <-.
  split; [exists []; rewrite app_nil_r; apply errors_say; discriminate|]. intros _ _ _ HP.
  split; [|split; [exact HP|apply same_but_tree_refl]]. unfold tell, view. cbn [fst snd v1 msgs]. split; auto.
  rewrite (add_one_more WARNING m (msgs s) WARNING). reflexivity.
Qed.
Lemma does_error {A} m (k : conv A) R : (forall s o s', k s = (o, s') -> exists l, errors s' = errors s ++ l) ->
  does (do! say ERROR m in k) R.
Proof.
  intros HK s o s' H. unfold andthen, say in H. destruct (HK _ _ _ H) as (l & G).
  assert (errors s' = errors s ++ m :: l) as G'.
  { rewrite G. unfold errors at 1. cbn [msgs]. rewrite (add_one_more ERROR m (msgs s) ERROR). cbn [category_eqb]. rewrite <- app_assoc. reflexivity. }
  split; [eauto|]. intros a _ He _. exfalso. rewrite G' in He. rewrite <- (app_nil_r (errors s)) in He at 2. apply app_inv_head in He. discriminate.
Qed.
Section Steps.
Context (T : tools).
Let E := t_env T.
Hypothesis HE : reads_proper E.
Lemma does_has cs c : Forall component (cs ++ [c]) ->
  does (has (path_text (cs ++ [c]))) (fun b w w' => w' = w /\ (b = true <-> present (fst w) (cs ++ [c]))).
Proof.
  intros HC s o s' H. unfold has, ask in H. injection H as <- <-. split; [exists []; rewrite app_nil_r; reflexivity|].
  intros b Hb _ HP. split; [|split; [exact HP|apply same_but_tree_refl]]. split; [reflexivity|].
  destruct (stack_snoc cs c HC) as (HS & _). rewrite (contains_value_stack _ _ _ HS) in Hb. injection Hb as <-.
  rewrite (present_stack _ cs c HC). cbn [fst view].
  destruct (traverse_pos (r_root (v1 s)) (c :: rev cs ++ [ROOT_VALUE])); split; intros; congruence.
Qed.
Lemma does_value cs d : does (value T (path_text cs) d) (fun v w w' => w' = w /\ get_value E (fst w) (path_text cs) d None = Ok v).
Proof.
  intros s o s' H. unfold value, ask in H. injection H as <- <-. split; [exists []; rewrite app_nil_r; reflexivity|].
  intros b Hb _ HP. split; [|split; [exact HP|apply same_but_tree_refl]]. split; auto.
Qed.
Lemma does_patch p (R : node -> node -> Prop) :
  (forall r r', patch E p r = (Ok true, r') -> proper_tree (r_root r) = true ->
     R (r_root r) (r_root r') /\ proper_tree (r_root r') = true /\ same_but_tree r r') ->
  does (patch_and_log T p) (fun b w w' => b = true /\ in_lines R w w').
Proof.
  intros HR s o s' H. unfold patch_and_log, andthen, call in H. fold E in H.
  destruct (patch E p (v1 s)) as [[b|e] r] eqn:P.
  - destruct b; cbn [negb when] in H.
    + unfold ret in H. injection H as <- <-. split; [exists []; rewrite app_nil_r; reflexivity|]. intros b [= <-] _ HP.
      destruct (HR _ _ P HP) as (H1 & H2 & H3). cbn [v1]. repeat split; try (apply H3); auto.
    + unfold say, ret in H. injection H as <- <-.
      assert (errors {| v1 := r; msgs := add_message ERROR ($"Failed to patch: " ++ json_str p) (msgs s) |}
              = errors s ++ [$"Failed to patch: " ++ json_str p]) as G.
      { unfold errors. cbn [msgs]. rewrite (add_one_more ERROR _ (msgs s) ERROR). reflexivity. }
      split; [eexists; exact G|]. intros b _ He _. exfalso. pose proof (eq_trans (eq_sym G) He) as K. rewrite <- (app_nil_r (errors s)) in K at 2. apply app_inv_head in K. discriminate.
  - injection H as <- <-. split; [exists []; rewrite app_nil_r; reflexivity|intros; discriminate].
Qed.
Lemma does_remove cs c : does (patch_and_log T (p_remove (path_text (cs ++ [c])))) (fun b w w' => b = true /\ in_lines (line_taken (cs ++ [c])) w w').
Proof.
  apply does_patch. intros r r' H HP. destruct (remove_success E cs c r r' HP H) as (H1 & H2). split; auto. split; auto.
  eapply patch_stays_proper; [exact HE|apply asks_remove, path_nonnil|reflexivity|reflexivity|exact H|exact HP].
Qed.
Lemma does_add ds c v : Forall component (ds ++ [c]) -> isdigit c = false -> c <> $"-" ->
  does (patch_and_log T (p_add (path_text (ds ++ [c])) v)) (fun b w w' => b = true /\ in_lines (value_put E ds c v) w w').
Proof.
  intros HC D ND. apply does_patch. intros r r' H HP. destruct (add_success E ds c v r r' HC D ND H) as (H1 & H2). split; auto. split; auto.
  eapply patch_stays_proper; [exact HE|apply asks_add, path_nonnil|reflexivity|reflexivity|exact H|exact HP].
Qed.
Lemma does_replace ds c v : Forall component (ds ++ [c]) -> isdigit c = false ->
  does (patch_and_log T (p_replace (path_text (ds ++ [c])) v)) (fun b w w' => b = true /\ in_lines (value_replaced E (ds ++ [c]) v) w w').
Proof.
  intros HC D. apply does_patch. intros r r' H HP. destruct (replace_success E ds c v r r' HC D H) as (H1 & H2). split; auto. split; auto.
  eapply patch_stays_proper; [exact HE|apply asks_replace, path_nonnil|reflexivity|reflexivity|exact H|exact HP].
Qed.
Lemma does_move ds c es d : Forall component (ds ++ [c]) -> Forall component (es ++ [d]) -> isdigit d = false -> d <> $"-" ->
  ds ++ [c] <> es ++ [d] ->
  does (patch_and_log T (p_move (path_text (ds ++ [c])) (path_text (es ++ [d])))) (fun b w w' => b = true /\ moved E ds c es d w w').
Proof.
  intros HC HC' D ND NE.
  eapply does_impl; [|apply (does_patch _ (fun root root' => place_for es d root /\ exists v mid, get_value E root (path_text (ds ++ [c])) None None = Ok v
     /\ line_taken (ds ++ [c]) root mid /\ value_put E es d v mid root'))].
  - intros b w w' (-> & (PL & v & mid & H1 & H2 & H3) & HW). split; auto. exists v. split; auto. split; [exact PL|]. exists (mid, snd w).
    split; split; cbn [fst snd]; auto.
  - intros r r' H HP. destruct (move_success E ds c es d r r' HE HC HC' D ND NE HP H) as (H1 & H2). split; auto. split; auto.
    eapply patch_stays_proper; [exact HE|apply asks_move, path_nonnil| |reflexivity|exact H|exact HP].
    cbn. apply str_eqb_neq. intros K. apply NE. symmetry. apply path_text_inj; auto using snoc_nonnil.
Qed.
(** The shapes in which these are used. *)
Lemma only {m : conv bool} {R} : does m (fun b w w' => b = true /\ R w w') -> doesu (do! m in ret tt) R.
Proof.
  intros H. eapply does_impl; [|apply (does_bind m (fun _ => ret tt) _ (fun _ _ => nothing) H)].
  - intros a w w' (b & mid & (_ & H1) & ->). exact H1.
  - intros b. apply does_done.
Qed.
Lemma if_has cs c m A : Forall component (cs ++ [c]) -> doesu m A ->
  doesu (run! there := has (path_text (cs ++ [c])) in if there : bool then m else ret tt) (if_there (cs ++ [c]) A).
Proof.
  intros HC H. eapply does_impl; [|apply (does_bind _ _ _ (fun (b : bool) (_ : unit) => if b then A else nothing) (does_has cs c HC))].
  - intros a w w' (b & mid & (-> & Hb) & K). destruct b; [left; split; [apply Hb; reflexivity|exact K]|].
    right. split; [intros P; apply Hb in P; discriminate|exact K].
  - intros [|]; [exact H|apply does_done].
Qed.
Lemma if_has_not cs c m A : Forall component (cs ++ [c]) -> doesu m A ->
  doesu (run! there := has (path_text (cs ++ [c])) in if there : bool then ret tt else m) (if_missing (cs ++ [c]) A).
Proof.
  intros HC H. eapply does_impl; [|apply (does_bind _ _ _ (fun (b : bool) (_ : unit) => if b then nothing else A) (does_has cs c HC))].
  - intros a w w' (b & mid & (-> & Hb) & K). destruct b; [right; split; [apply Hb; reflexivity|exact K]|].
    left. split; [intros P; apply Hb in P; discriminate|exact K].
  - intros [|]; [apply does_done|exact H].
Qed.
Lemma if_has_else cs c m A k B : Forall component (cs ++ [c]) -> doesu m A -> doesu k B ->
  doesu (run! there := has (path_text (cs ++ [c])) in if there : bool then m else k) (if_else_there (cs ++ [c]) A B).
Proof.
  intros HC H H'. eapply does_impl; [|apply (does_bind _ _ _ (fun (b : bool) (_ : unit) => if b then A else B) (does_has cs c HC))].
  - intros a w w' (b & mid & (-> & Hb) & K). destruct b; [left; split; [apply Hb; reflexivity|exact K]|].
    right. split; [intros P; apply Hb in P; discriminate|exact K].
  - intros [|]; [exact H|exact H'].
Qed.
Lemma with_read cs d k A : (forall v, doesu (k v) (A v)) -> doesu (run! v := value T (path_text cs) d in k v) (with_value E cs d A).
Proof.
  intros H. eapply does_impl; [|apply (does_bind _ _ _ (fun v (_ : unit) => A v) (does_value cs d)); exact H].
  intros a w w' (v & mid & (-> & Hv) & K). exists v. auto.
Qed.
Lemma does_sort cs c tbl : Forall component (cs ++ [c]) -> machine_table tbl -> Sorted Z.lt (map snd tbl) ->
  doesu (sort_keys (path_text (cs ++ [c])) tbl) (in_order_of (map fst tbl) (cs ++ [c])).
Proof.
  intros HC HM HO s o s' H. unfold sort_keys in H.
  destruct (sort_subtree_keys (r_root (v1 s)) (path_text (cs ++ [c])) tbl []) as [root|e] eqn:S; injection H as <- <-.
  2:{ split; [exists []; rewrite app_nil_r; reflexivity|intros; discriminate]. }
  split; [exists []; rewrite app_nil_r; reflexivity|]. intros a _ _ HP. cbn [v1 view msgs fst].
  pose proof S as S0. apply (c44 _ _ _ _ _ HM) in S.
  assert (present (r_root (v1 s)) (cs ++ [c]) <-> lookup (r_root (v1 s)) (path_text (cs ++ [c])) <> None) as HL.
  { rewrite (present_stack _ cs c HC). unfold lookup. destruct (stack_snoc cs c HC) as (-> & _). unfold traverse.
    destruct (traverse_pos (r_root (v1 s)) (c :: rev cs ++ [ROOT_VALUE])) as [q|] eqn:Q; [|tauto].
    destruct (traverse_pos_some _ _ _ Q) as (n & ->). split; discriminate. }
  split; [|split].
  - destruct S as [(N & ->)|(q & HA & HC')].
    + right. split; [intros P; apply HL in P; contradiction|reflexivity].
    + left. split; [exists q; exact HA|]. split; [|reflexivity]. cbn [fst with_root r_root]. exists tbl, q. split; [reflexivity|]. split; [exact HO|]. split; [exact HA|exact HC'].
  - unfold with_root. cbn [r_root]. unfold sort_subtree_keys in S0. destruct (stack_snoc cs c HC) as (HS & _). rewrite HS in S0. cbn [bind] in S0.
    destruct (traverse_pos (r_root (v1 s)) (c :: rev cs ++ [ROOT_VALUE])) as [q|] eqn:Q; injection S0 as <-; [|exact HP].
    apply proper_update; [exact HP|]. intros m Hm. cbn [is_nil].
    pose proof (proper_at _ _ _ HP Hm) as Pm. apply proper_set; [exact Pm|]. pose proof (proper_children _ Pm) as Pc.
    rewrite forallb_forall in *. intros x Hx. apply Pc. eapply Permutation_in; [apply Permutation_sym, sort_perm|exact Hx].
  - split; [reflexivity|]. split; reflexivity.
Qed.
End Steps.
