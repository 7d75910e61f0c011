(** The markers of a recipe are renewed one after the other (C132, proofs only). *)
From Verif Require Export VarsProofs GoesProofs.
From Verif Require Import Lemmas PathProofs PathProofs2 PatchProofs PatchProofs2 PhaseProofs PhaseProofs2 PhaseProofs3 SectionProofs ValueProofs ContextProofs VarsProofs PlainSpec VarsSpec.
From Verif Require PreSpec2.

Lemma fit_hot E root p x : addressable_document root = true -> expressions_fit E root -> node_at root p = Some x -> value_with_expression x -> hot x = true.
Proof.
  intros A F Hx V. destruct p as [|j p].
  - exfalso. cbn [node_at] in Hx. injection Hx as <-. destruct V as (V & _). unfold addressable_document in A. rewrite !andb_true_iff in A. destruct A as ((A & _) & _).
    unfold terminal in V. apply andb_prop in V as (V & _). rewrite V in A. discriminate.
  - destruct (exists_last (l := j :: p)) as (q & i & Hq); [discriminate|]. rewrite Hq in Hx. destruct (node_at_snoc _ _ _ _ Hx) as (k & Hk & Hi).
    destruct (F q k i x Hk Hi V) as (s & c & l & -> & _). apply hot_is. eauto 6.
Qed.
Lemma fit_placed E root : expressions_fit E root -> placed root.
Proof.
  intros F q k i x Hk Hi HX. pose proof (proj1 (hot_is x) HX) as (_ & _ & _ & _ & V). destruct (F q k i x Hk Hi V) as (s & c & l & EX & _ & _ & P).
  rewrite EX. cbn [n_lmf]. destruct l; [exact P|]. rewrite <- EX. exact P.
Qed.
Section Step.
Context (T : tools).
Let E := t_env T.
Definition marker_step (path : str) : conv unit :=
  run! v := value T path None in
  match v with
  | JStr s => do! patch_and_log T (p_replace path (JStr (to_v1_marker s))) in ret tt
  | _ => say WARNING ($"A non-string value was found as a JINJA substitution: " ++ json_str v)
  end.
Context (root : node).
Hypothesis HAD : addressable_document root = true.
Hypothesis HF : expressions_fit E root.
Lemma one_marker p x s f : node_at root p = Some x -> hot x = true -> f p = false -> r_root (v1 s) = renew root f ->
  exists s', marker_step (path_at E root p) s = (Ok tt, s') /\ msgs s' = msgs s /\ r_root (v1 s') = renew root (fun q => f q || pos_eqb q p)
  /\ same_but_tree (v1 s) (v1 s').
Proof.
  intros Hx HX Hf HR. pose proof (fit_placed E root HF) as HP. pose proof (document_renew root f HP HAD) as HAD'.
  pose proof (proj1 (hot_is x) HX) as (_ & _ & _ & _ & V). destruct p as [|j p0].
  { exfalso. cbn [node_at] in Hx. injection Hx as <-. pose proof HAD as A. unfold addressable_document in A. rewrite !andb_true_iff in A. destruct A as ((A & _) & _).
    destruct V as (V & _). unfold terminal in V. apply andb_prop in V as (V & _). rewrite V in A. discriminate. }
  destruct (exists_last (l := j :: p0)) as (q & i & Hq); [discriminate|]. rewrite Hq in *. clear Hq j p0.
  destruct (node_at_snoc _ _ _ _ Hx) as (k & Hk & Hi). destruct (HF q k i x Hk Hi V) as (t & c & l & EX & PY & WR & PL).
  set (root' := renew root f) in *.
  assert (node_at root' (q ++ [i]) = Some x) as Hx'.
  { unfold root'. rewrite node_at_renew, Hx. cbn [option_map]. f_equal. rewrite renew_eq, app_nil_r, Hf, andb_false_r, (hot_children x HX). destruct x as [v cm chs l0 m k0].
    apply hot_children in HX. cbn [n_children] in HX. subst chs. reflexivity. }
  set (k' := with_lines k (renews 0 (n_children k) (fun p => f (q ++ p)))).
  assert (node_at root' q = Some k') as Hk'.
  { unfold root'. rewrite node_at_renew, Hk. cbn [option_map]. f_equal. apply renew_cold. exact (children_cold _ _ _ Hi). }
  assert (terminal x = true) as HT by (subst x; reflexivity).
  destruct (c03_resolves E root' (q ++ [i]) HAD') as (st & S1 & S2). { apply positions_where_In. eauto. }
  assert (addresses root' (path_at E root (q ++ [i])) (owner root (q ++ [i]))) as HA.
  { exists st. unfold root' in S1, S2. rewrite path_at_renew in S1. rewrite owner_renew in S2. auto. }
  assert (addressable root' = true) as Ar by (unfold addressable_document in HAD'; rewrite !andb_true_iff in HAD'; tauto).
  assert (PreSpec2.markers_changed None t (to_v1_marker t)) as MC by apply PreProofs2.c84_all. pose proof (WR _ MC) as W.
  assert (exists r', get_value E root' (path_at E root (q ++ [i])) None None = Ok (JStr t)
    /\ patch E (p_replace (path_at E root (q ++ [i])) (JStr (to_v1_marker t))) (v1 s) = (Ok true, r')
    /\ r_root r' = renew root (fun p => f p || pos_eqb p (q ++ [i])) /\ same_but_tree (v1 s) r') as (r' & G & P1 & P2 & P3).
  { rewrite <- (update_renew (q ++ [i]) root f x Hx HX). fold root'. destruct l.
    - (* an element *)
      assert (n_lmf x = true) as L by (subst x; reflexivity).
      assert (owner root (q ++ [i]) = q ++ [i]) as HO by (unfold owner; rewrite Hx, L; reflexivity). rewrite HO in HA.
      destruct (path_names E q root' k' Ar Hk') as (ds & Hds & F).
      { apply (has_children_not_comment k' i x). rewrite node_at_app, Hk' in Hx'. cbn [node_at] in Hx'. destruct (nth_error (n_children k') i); [exact Hx'|discriminate]. }
      set (d := str_of_nat (count_elements (firstn i (n_children k)))).
      destruct (str_of_nat_spec (count_elements (firstn i (n_children k)))) as (Dd & _ & Cd). fold d in Dd, Cd.
      assert (path_at E root (q ++ [i]) = path_text (ds ++ [d])) as HPath.
      { rewrite (path_at_snoc E _ _ _ _ _ Hk Hi). unfold own_text. rewrite L. fold d. rewrite <- (path_at_renew E q root f). fold root'. rewrite Hds, path_text_app.
        cbn [path_text]. rewrite app_nil_r. reflexivity. }
      assert (Forall component (ds ++ [d])) as FC.
      { apply Forall_app. split; [eapply Forall_impl; [|exact F]; cbn; tauto|]. constructor; [exact Cd|constructor]. }
      rewrite HPath in *. rewrite <- HR in HA, Hx'.
      destruct (replace_element E ds d (JStr (to_v1_marker t)) (v1 s) (q ++ [i]) x (renew_node x) _ FC Dd HA Hx' HT W) as (r' & P1 & P2 & P3); [subst x; reflexivity|].
      exists r'. split; [|rewrite <- HR; auto]. rewrite HR in HA, Hx'. rewrite (value_at E root' _ _ _ None None HA Hx').
      subst x. unfold get_value_node, is_single_key. cbn [n_keyf n_children andb is_leaf n_value]. cbv zeta. unfold is_leaf, is_comment. cbn [n_value n_children is_nil]. cbn [is_sent andb negb].
      rewrite PY. cbn [bind]. reflexivity.
    - (* the value of a key *)
      destruct PL as (CK & KF & KL).
      assert (i = 0) as ->. { rewrite CK in Hi. destruct i as [|i]; [reflexivity|destruct i; discriminate]. }
      assert (owner root (q ++ [0]) = q) as HO. { unfold owner. rewrite Hx. subst x. cbn [n_lmf n_keyf orb]. apply removelast_last. } rewrite HO in HA.
      assert (n_children k' = [x]) as CK'.
      { rewrite node_at_app, Hk' in Hx'. cbn [node_at] in Hx'. unfold k' in *. rewrite CK in *. destruct k; cbn [with_lines n_children renews nth_error] in *. congruence. }
      destruct (path_names E (q ++ [0]) root' x Ar Hx' (terminal_not_comment _ HT)) as (cs & Hcs & F). unfold root' in Hcs. rewrite path_at_renew in Hcs.
      assert (Forall component cs) as FC by (eapply Forall_impl; [|exact F]; cbn; tauto). rewrite Hcs in *. rewrite <- HR in HA, Hk'.
      assert (n_lmf k' = false /\ n_keyf k' = true /\ n_value k' = n_value k) as (KL' & KF' & KV') by (unfold k'; destruct k; cbn in *; auto).
      destruct (replace_key E cs (JStr (to_v1_marker t)) (v1 s) q k' [Nd (VJ (JStr (to_v1_marker t))) [] [] false MNone false] FC HA Hk' KL') as (r' & P1 & P2 & P3); [unfold bare_value; rewrite KF', andb_false_r; reflexivity|exact W|].
      exists r'. split.
      + rewrite HR in HA, Hk'. rewrite (value_at E root' _ _ _ None None HA Hk'). unfold get_value_node, is_single_key. rewrite KF', CK'. 
        assert (is_root k' = false) as NR.
        { unfold is_root. rewrite KV'. destruct (nval_eqb (n_value k) (VJ (JStr ROOT_VALUE))) eqn:X; [|reflexivity]. exfalso.
          assert (q <> []) as NQ.
          { intros ->. cbn [node_at] in Hk. injection Hk as <-. pose proof HAD as A. unfold addressable_document in A. rewrite !andb_true_iff in A. destruct A as ((_ & A) & _).
            rewrite CK in A. subst x. discriminate. }
          assert (is_key_line k = true) as KLn.
          { unfold is_key_line. rewrite KL, (has_children_not_comment _ _ _ Hi). cbn [negb andb]. rewrite KF, andb_false_r. reflexivity. }
          destruct (exists_last NQ) as (q0 & i0 & ->). destruct (node_at_snoc _ _ _ _ Hk) as (k0 & Hk0 & Hi0).
          assert (addressable root = true) as Ar0 by (pose proof HAD as A; unfold addressable_document in A; rewrite !andb_true_iff in A; tauto).
          destruct (addressable_list_nth [] _ _ _ (addressable_names _ (addressable_at _ _ _ Ar0 Hk0)) Hi0) as (N & _).
          unfold addressable_name in N. rewrite KL, (has_children_not_comment _ _ _ Hi), KF, andb_false_r in N. cbn [orb] in N.
          destruct (n_value k) as [|[[| | | |name]| |]]; try discriminate. cbn in X. apply str_eqb_eq in X. subst name. discriminate. }
        rewrite NR. subst x. cbv zeta. unfold is_leaf. cbn [n_children is_nil andb negb n_ml is_multi n_value n_lmf]. unfold is_comment. cbn [n_value is_sent andb negb]. rewrite PY. cbn [bind]. reflexivity.
      + split; [exact P1|]. split; [|exact P3]. rewrite P2, HR, update_at_app. apply update_at_ext. intros m Hm. rewrite <- HR, Hk' in Hm. injection Hm as <-.
        destruct k' as [v1 c1 ch1 l1 m1 k1]. cbn [n_children] in CK'. subst ch1. cbn [update_at set_children n_children map_nth]. subst x. reflexivity. }
  exists {| v1 := r'; msgs := msgs s |}. split; [|split; [reflexivity|split; [exact P2|exact P3]]].
  unfold marker_step. unfold andthen at 1, value, ask. fold E. rewrite HR, G. unfold patch_and_log, andthen, call. fold E. rewrite P1. reflexivity.
Qed.
Definition marked_places (ps : list position) (q : position) : bool := existsb (pos_eqb q) ps.
Lemma all_markers ps : forall done s, NoDup (done ++ ps) -> (forall p, In p ps -> exists x, node_at root p = Some x /\ hot x = true) ->
  r_root (v1 s) = renew root (marked_places done) -> exists s', each (map (path_at E root) ps) marker_step s = (Ok tt, s') /\ msgs s' = msgs s
  /\ r_root (v1 s') = renew root (marked_places (done ++ ps)) /\ same_but_tree (v1 s) (v1 s').
Proof.
  induction ps as [|p ps IH]; intros done s ND H HR; cbn [map each].
  - exists s. rewrite app_nil_r. split; [reflexivity|]. split; [reflexivity|]. split; [exact HR|apply same_but_tree_refl].
  - destruct (H p (or_introl eq_refl)) as (x & Hx & HX).
    assert (marked_places done p = false) as Hf.
    { destruct (marked_places done p) eqn:M; [|reflexivity]. exfalso. apply existsb_exists in M as (p' & I & M). apply pos_eqb_iff in M as <-.
      apply NoDup_remove_2 in ND. apply ND. apply in_or_app. left. exact I. }
    destruct (one_marker p x s _ Hx HX Hf HR) as (s1 & M1 & X1 & R1 & B1).
    destruct (IH (done ++ [p]) s1) as (s2 & M2 & X2 & R2 & B2).
    + rewrite <- app_assoc. exact ND.
    + intros p' I. apply H. right. exact I.
    + rewrite R1. apply renew_ext. intros q y _ _. unfold marked_places. rewrite existsb_app. cbn [existsb]. rewrite orb_false_r. reflexivity.
    + exists s2. unfold andthen. rewrite M1, M2. split; [reflexivity|]. split; [congruence|]. split; [rewrite <- app_assoc in R2; exact R2|].
      eapply same_but_tree_trans; eauto.
Qed.
Definition hot_places : list position := positions_where hot root.
Lemma owner_hot p x : node_at root p = Some x -> hot x = true -> (n_lmf x = true /\ owner root p = p)
  \/ (n_lmf x = false /\ exists q k, p = q ++ [0] /\ owner root p = q /\ node_at root q = Some k /\ n_children k = [x]).
Proof.
  intros Hx HX. pose proof (fit_placed E root HF) as HP. destruct p as [|j p0].
  { exfalso. cbn [node_at] in Hx. injection Hx as <-. pose proof HAD as A. unfold addressable_document in A. rewrite !andb_true_iff in A. destruct A as ((A & _) & _).
    rewrite (hot_children _ HX) in A. discriminate. }
  destruct (exists_last (l := j :: p0)) as (q & i & Hq); [discriminate|]. rewrite Hq in *. destruct (node_at_snoc _ _ _ _ Hx) as (k & Hk & Hi).
  pose proof (HP q k i x Hk Hi HX) as P. unfold owner. rewrite Hx. destruct (n_lmf x); [left; auto|]. right. split; [reflexivity|]. destruct P as (CK & _).
  assert (i = 0) as ->. { rewrite CK in Hi. destruct i as [|i]; [reflexivity|destruct i; discriminate]. }
  exists q, k. split; [reflexivity|]. apply hot_is in HX as (? & ? & ? & -> & _). cbn [n_keyf orb]. split; [apply removelast_last|]. auto.
Qed.
Lemma paths_differ p p' x x' : node_at root p = Some x -> hot x = true -> node_at root p' = Some x' -> hot x' = true ->
  path_at E root p = path_at E root p' -> p = p'.
Proof.
  intros Hx HX Hx' HX' HPath.
  assert (forall p x, node_at root p = Some x -> hot x = true -> addresses root (path_at E root p) (owner root p)) as RA.
  { intros p1 x1 H1 H2. apply c03_resolves; [exact HAD|]. apply positions_where_In. exists x1. split; [exact H1|]. apply hot_is in H2 as (? & ? & ? & -> & _). reflexivity. }
  pose proof (RA p x Hx HX) as (st & S1 & S2). pose proof (RA p' x' Hx' HX') as (st' & S1' & S2'). rewrite HPath, S1' in S1. injection S1 as <-. rewrite S2' in S2. injection S2 as HO.
  destruct (owner_hot p x Hx HX) as [(L & O)|(L & q & k & -> & O & Hk & CK)]; destruct (owner_hot p' x' Hx' HX') as [(L' & O')|(L' & q' & k' & -> & O' & Hk' & CK')].
  - congruence.
  - exfalso. rewrite O, O' in HO. subst q'. rewrite Hx in Hk'. injection Hk' as <-. rewrite (hot_children _ HX) in CK'. discriminate.
  - exfalso. rewrite O, O' in HO. subst q. rewrite Hx' in Hk. injection Hk as <-. rewrite (hot_children _ HX') in CK. discriminate.
  - congruence.
Qed.
Lemma hot_search : search E (found JINJA_V0_SUB) false root = map (path_at E root) hot_places.
Proof.
  rewrite search_is. f_equal. unfold hot_places, positions_where. apply filter_ext_in. intros p Hp. destruct (node_at root p) as [n|] eqn:Hn; [|reflexivity].
  destruct (terminal n && found JINJA_V0_SUB (searched_text false n)) eqn:X.
  - symmetry. apply (fit_hot E root p n HAD HF Hn). apply andb_prop in X as (X1 & X2). split; [exact X1|]. apply v0_expression. exact X2.
  - destruct (hot n) eqn:Y; [|reflexivity]. apply hot_is in Y as (_ & _ & _ & _ & Y1 & Y2). apply v0_expression in Y2. rewrite Y1, Y2 in X. discriminate.
Qed.
Lemma markers_done s : (forall l, Permutation (t_order T l) l) -> r_root (v1 s) = root ->
  exists s', each (t_order T (dedupe (search E (found JINJA_V0_SUB) false root))) marker_step s = (Ok tt, s') /\ msgs s' = msgs s
  /\ r_root (v1 s') = renew root (fun _ => true) /\ same_but_tree (v1 s) (v1 s').
Proof.
  intros HO HR. rewrite hot_search.
  assert (NoDup hot_places) as ND by (apply filter_nodup, preorder_nodup).
  assert (NoDup (map (path_at E root) hot_places)) as NP.
  { assert (forall l, NoDup l -> (forall p, In p l -> In p hot_places) -> NoDup (map (path_at E root) l)) as X; [|apply X; auto].
    induction l as [|p l IH]; intros N I; cbn [map]; [constructor|]. inversion N as [|? ? N1 N2]; subst. constructor; [|apply IH; auto; intros p' I'; apply I; right; exact I'].
    intros J. apply in_map_iff in J as (p' & HP & I'). assert (p' = p) as ->; [|contradiction].
    destruct (proj1 (positions_where_In _ _ _) (I p (or_introl eq_refl))) as (x & Hx & HX). destruct (proj1 (positions_where_In _ _ _) (I p' (or_intror I'))) as (x' & Hx' & HX').
    exact (paths_differ p' p x' x Hx' HX' Hx HX HP). }
  assert (dedupe (map (path_at E root) hot_places) = map (path_at E root) hot_places) as ->.
  { rewrite dedupe_spec. unfold first_occurrences. rewrite nodup_fixed_point; [apply rev_involutive|]. apply NoDup_rev. exact NP. }
  destruct (Permutation_map_inv _ _ (HO (map (path_at E root) hot_places))) as (ps & -> & HPm).
  assert (NoDup ps) as NPs by (eapply Permutation_NoDup; [exact HPm|exact ND]).
  destruct (all_markers ps [] s NPs) as (s' & M & X & R & B).
  - intros p I. apply (Permutation_in _ (Permutation_sym HPm)) in I. apply positions_where_In in I. exact I.
  - rewrite HR. symmetry. transitivity (renew root (fun _ => false)); [apply renew_ext; reflexivity|apply renew_none].
  - exists s'. split; [exact M|]. split; [exact X|]. split; [|exact B]. rewrite R. cbn [app]. apply renew_ext. intros p x Hx HX. apply existsb_exists. exists p. split; [|apply pos_eqb_iff; reflexivity].
    apply (Permutation_in _ HPm). apply positions_where_In. eauto.
Qed.
End Step.
