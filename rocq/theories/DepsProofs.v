(** Proofs about dependencies (C47-C50). *)
From Verif Require Export DepsSpec JinjaProofs LayoutProofs7 SelProofs3 HistProofs.

(** * Texts *)
Lemma lstrip_cases s : (blank s /\ lstrip s = []) \/ exists a c t, s = a ++ c :: t /\ blank a /\ is_space c = false /\ lstrip s = c :: t.
Proof.
  induction s as [|c s IH]; [left; split; [intros ? []|reflexivity]|]. cbn [lstrip]. destruct (is_space c) eqn:Hc.
  - destruct IH as [(H1 & H2)|(a & d & t & -> & H1 & H2 & H3)].
    + left. split; auto. intros x [<-|H]; auto.
    + right. exists (c :: a), d, t. repeat split; auto. intros x [<-|H]; auto.
  - right. exists [], c, s. repeat split; auto. intros ? [].
Qed.
Lemma strip_trims t : trims t (strip t).
Proof.
  destruct (rstrip_blank t) as (w & Ht & Hw). destruct (lstrip_blank (rstrip t)) as (b & Hb & Hr).
  exists b, w. unfold strip. split; [rewrite app_assoc, <- Hr; exact Ht|]. split; auto. split; auto. split.
  - intros c x E. destruct (lstrip_cases (rstrip t)) as [(_ & H)|(a & d & y & _ & _ & Hd & H)]; rewrite H in E; [discriminate|].
    injection E as <- <-. exact Hd.
  - intros c x E. assert (rstrip t = (b ++ x) ++ [c]) as HE by (rewrite Hr, E, app_assoc; reflexivity).
    unfold rstrip in HE. apply (f_equal (@rev ascii)) in HE. rewrite rev_involutive, rev_app_distr in HE. cbn [rev app] in HE.
    destruct (lstrip_cases (rev t)) as [(_ & H)|(a & d & y & _ & _ & Hd & H)]; rewrite H in HE; [discriminate|].
    injection HE as -> _. exact Hd.
Qed.
Lemma tight_strip s : tight s -> strip s = s.
Proof.
  intros (H1 & H2). unfold strip. assert (rstrip s = s) as ->.
  { unfold rstrip. destruct (rev s) as [|c t] eqn:R.
    - apply (f_equal (@rev ascii)) in R. rewrite rev_involutive in R. cbn in R. subst. reflexivity.
    - assert (s = rev t ++ [c]) as -> by (rewrite <- (rev_involutive s), R; reflexivity).
      cbn [lstrip]. rewrite (H2 c (rev t) eq_refl). reflexivity. }
  destruct s as [|c t]; auto. cbn [lstrip]. rewrite (H1 c t eq_refl). reflexivity.
Qed.
Lemma trims_strip t s : trims t s <-> strip t = s.
Proof.
  split; [|intros <-; apply strip_trims]. intros (a & b & -> & Ha & Hb & Ht). rewrite strip_pad by auto. apply tight_strip; auto.
Qed.

(** * C47 *)
Lemma section_spells s d : str_to_dependency_section s = Some d <-> spells s d.
Proof.
  unfold str_to_dependency_section, spells. split.
  - cbn zeta. intros H. exists (strip s), (lower (strip s)). split; [apply strip_trims|]. split; auto. revert H.
    generalize (lower (strip s)). intros w.
    repeat match goal with |- context[str_eqb w ?t] => let K := fresh in destruct (str_eqb w t) eqn:K; [apply str_eqb_eq in K as ->; intros [= <-]; unfold section_names; cbn [In]; tauto|] end.
    discriminate.
  - intros (m & w & Hm & <- & HI). apply trims_strip in Hm as <-. cbn zeta. revert HI. generalize (lower (strip s)). intros w HI.
    unfold section_names in HI. cbn [In] in HI.
    repeat destruct HI as [[= <- <-]|HI]; try reflexivity. destruct HI.
Qed.
Lemma c47_round d sv : str_to_dependency_section (dependency_section_to_str d sv) = Some d.
Proof. destruct d, sv; vm_compute; reflexivity. Qed.
Lemma c47_distinct d sv d' sv' : dependency_section_to_str d sv = dependency_section_to_str d' sv' -> d = d'.
Proof. intros H. pose proof (c47_round d sv) as A. rewrite H, c47_round in A. congruence. Qed.
Lemma spells_component s d : spells s d -> component s /\ isdigit s = false /\ s <> $"-".
Proof.
  intros (m & w & Ht & Hw & HI). assert (m <> [] /\ ~ In cSL m /\ exists c, In c m /\ is_digit c = false /\ c <> "-"%char) as (H1 & H2 & c & H3 & H4 & H5).
  { assert (~ In cSL w /\ exists c w', w = c :: w' /\ In c (lit "bhr")) as (N & c & w' & -> & Hc).
    { unfold section_names in HI. cbn [In] in HI.
      repeat destruct HI as [[= <- <-]|HI]; try destruct HI; (split; [vm_compute; intuition discriminate|]);
        eexists _, _; (split; [vm_compute; reflexivity|]); vm_compute; tauto. }
    split; [intros ->; discriminate|]. split.
    - intros H. apply N. rewrite <- Hw. unfold lower. apply in_map_iff. exists cSL. split; auto.
    - destruct m as [|x m]; [discriminate|]. exists x. split; [left; auto|]. injection Hw as Hw _. subst c.
      cbn [In lit list_ascii_of_string] in Hc. split.
      + destruct (is_digit x) eqn:D; auto. exfalso. assert (lower_c x = x) as L.
        { unfold lower_c. destruct (is_upper x) eqn:U; auto. exfalso. unfold is_digit, is_upper in *.
          apply andb_true_iff in D as (_ & D). apply andb_true_iff in U as (U & _). apply Nat.leb_le in D, U. lia. }
        rewrite L in Hc. destruct Hc as [<-|[<-|[<-|[]]]]; discriminate.
      + intros ->. cbn in Hc. destruct Hc as [H|[H|[H|[]]]]; discriminate. }
  destruct Ht as (a & b & -> & Ha & Hb & _). split; [split|split].
  - destruct a; [destruct m; [congruence|discriminate]|discriminate].
  - rewrite !in_app_iff. intros [H|[H|H]]; auto; [apply Ha in H|apply Hb in H]; discriminate.
  - assert (forall t, In c t -> isdigit t = false) as HT.
    { intros t Ht. unfold isdigit. destruct t as [|y t]; auto. apply not_true_iff_false. rewrite forallb_forall. intros H.
      rewrite (H c Ht) in H4. discriminate. }
    apply HT. rewrite !in_app_iff. auto.
  - intros H. assert (In c $"-") as HI'. { rewrite <- H, !in_app_iff. auto. } destruct HI' as [<-|[]]. congruence.
Qed.

(** * Dependency paths *)
Lemma digits_spec d : digits d <-> isdigit d = true.
Proof.
  assert (forall c, In c (lit "0123456789") <-> is_digit c = true) as HC.
  { intros c. split; [intros H; cbn [In lit list_ascii_of_string] in H; repeat destruct H as [<-|H]; try reflexivity; destruct H|].
    destruct c as [[][][][][][][][]]; vm_compute; try discriminate; tauto. }
  unfold digits, isdigit. rewrite Forall_forall. destruct d as [|y d]; [split; [intros (H & _); congruence|discriminate]|].
  rewrite forallb_forall. split.
  - intros (_ & H2) x Hx. apply HC; auto.
  - intros H2. split; [discriminate|]. intros x Hx. apply HC; auto.
Qed.
Lemma digits_component d : digits d -> component d.
Proof.
  intros (H1 & H2). split; auto. intros H. rewrite Forall_forall in H2. apply H2 in H. vm_compute in H. intuition discriminate.
Qed.
Lemma rp_components p cs d : requirements_path p cs d -> p = path_text (cs ++ [d]) /\ Forall component (cs ++ [d]) /\ digits d
  /\ exists ds sec x, cs = ds ++ [sec] /\ spells sec x.
Proof.
  assert (component $"requirements" /\ component $"outputs") as (C1 & C2).
  { split; (split; [discriminate|vm_compute; intuition discriminate]). }
  intros H. destruct H as [sec x d HS HD|o sec x d HO HS HD]; (split; [reflexivity|]); destruct (spells_component _ _ HS) as (C3 & _);
    pose proof (digits_component _ HD) as C4.
  - split; [repeat constructor; auto; apply C1 || apply C3 || apply C4|]. split; auto. exists [$"requirements"], sec, x. auto.
  - pose proof (digits_component _ HO) as C5.
    split; [repeat (apply Forall_cons; [assumption|]); apply Forall_nil|]. split; auto. exists [$"outputs"; o; $"requirements"], sec, x. auto.
Qed.
Lemma split_on_join c s : join [c] (split_on c s) = s.
Proof.
  induction s as [|a s IH]; auto. cbn [split_on]. destruct (ceq a c) eqn:E.
  - apply ceq_eq in E as ->. pose proof (split_on_nonempty c s) as H. destruct (split_on c s) as [|w ws] eqn:S; [congruence|].
    change (join [c] ([] :: w :: ws)) with ([] ++ [c] ++ join [c] (w :: ws)). rewrite IH. reflexivity.
  - destruct (split_on c s) as [|w ws] eqn:S; [apply split_on_nonempty in S; contradiction|].
    destruct ws; cbn [join] in *; rewrite <- IH; reflexivity.
Qed.
Lemma valid_path p : is_valid_dependency_path p = true <-> exists cs d, requirements_path p cs d.
Proof.
  assert (forall s, is_some_section s = true <-> exists x, spells s x) as HS.
  { intros s. unfold is_some_section. split.
    - destruct (str_to_dependency_section s) as [x|] eqn:E; [|discriminate]. exists x. apply section_spells; auto.
    - intros (x & Hx). apply section_spells in Hx as ->. reflexivity. }
  split.
  - unfold is_valid_dependency_path. pose proof (split_on_join cSL p) as HJ.
    destruct (split_on cSL p) as [|a [|b [|c [|d [|e [|f [|g l]]]]]]]; try discriminate.
    + intros H. apply andb_true_iff in H as (H & Hd). apply andb_true_iff in H as (H & Hc). apply andb_true_iff in H as (Ha & Hb).
      apply str_eqb_eq in Hb as ->. apply HS in Hc as (x & Hc). destruct a; [|discriminate]. apply digits_spec in Hd.
      exists [$"requirements"; c], d.
      assert (p = path_text [$"requirements"; c; d]) as ->; [|econstructor; eauto].
      rewrite <- HJ. cbn [join path_text app]. rewrite !app_nil_r. reflexivity.
    + intros H. apply andb_true_iff in H as (H & Hf). apply andb_true_iff in H as (H & He). apply andb_true_iff in H as (H & Hd).
      apply andb_true_iff in H as (H & Hc). apply andb_true_iff in H as (Ha & Hb).
      apply str_eqb_eq in Hb as ->, Hd as ->. apply HS in He as (x & He). destruct a; [|discriminate]. apply digits_spec in Hf, Hc.
      exists [$"outputs"; c; $"requirements"; e], f.
      assert (p = path_text [$"outputs"; c; $"requirements"; e; f]) as ->; [|econstructor; eauto].
      rewrite <- HJ. cbn [join path_text app]. rewrite !app_nil_r. reflexivity.
  - intros (cs & d & H). destruct (rp_components _ _ _ H) as (-> & HC & _). unfold is_valid_dependency_path. rewrite split_path by auto.
    remember (path_text (cs ++ [d])) as p eqn:Hp. destruct H as [sec x d H1 H2|o sec x d H1 H2 H3]; cbn [app is_nil andb].
    + apply digits_spec in H2 as ->. assert (is_some_section sec = true) as -> by (apply HS; eauto). reflexivity.
    + apply digits_spec in H1 as ->, H3 as ->. assert (is_some_section sec = true) as -> by (apply HS; eauto). reflexivity.
Qed.
Lemma after_slash_app t s : ~ In cSL t -> after_slash (t ++ cSL :: s) = Some s.
Proof.
  induction t as [|c t IH]; intros H; cbn [app after_slash]; [rewrite ceq_refl; reflexivity|].
  destruct (ceq c cSL) eqn:E; [apply ceq_eq in E as ->; exfalso; apply H; left; auto|]. apply IH. intros HI. apply H. right. auto.
Qed.
Lemma rsplit_path cs d : component d -> rsplit_base (path_text (cs ++ [d])) = path_text cs.
Proof.
  intros (_ & Hd). rewrite path_text_app. cbn [path_text]. rewrite app_nil_r. unfold rsplit_base.
  rewrite rev_app_distr. cbn [rev]. rewrite <- app_assoc. cbn [app]. rewrite after_slash_app; [apply rev_involutive|].
  intros H. apply Hd. apply in_rev. exact H.
Qed.
Lemma c49_rejects E MS dep mode smode r : (forall cs d, ~ requirements_path (d_path dep) cs d) ->
  add_dependency E MS dep mode smode r = (Ok false, r).
Proof.
  intros H. unfold add_dependency. destruct (is_valid_dependency_path (d_path dep)) eqn:V; auto.
  apply valid_path in V as (cs & d & V). destruct (H _ _ V).
Qed.

(** * Package names *)
Lemma found_expression s : found JINJA_V0_SUB s || found JINJA_V1_SUB s = true <-> has_expression s.
Proof.
  assert (found JINJA_V0_SUB s = true <-> has_expression s) as H0.
  { rewrite found_lang by reflexivity. unfold has_expression, expression. split; intros (x & H1 & H2); exists x; (split; [|auto]).
    - apply lang_v0_sub in H1. exact H1.
    - apply lang_v0_sub. exact H1. }
  rewrite orb_true_iff, H0. split; [|auto]. intros [H|H]; auto. apply H0.
  rewrite found_lang in H by reflexivity. rewrite found_lang by reflexivity. destruct H as (u & Hu & a & b & ->).
  assert (exists u', u = "$"%char :: u' /\ lang JINJA_V0_SUB u') as (u' & -> & Hu').
  { unfold JINJA_V1_SUB, seqs in Hu. cbn [lang] in Hu. destruct Hu as (x & y & -> & Hx & Hy). apply lang_L in Hx as ->.
    eexists. split; [reflexivity|]. unfold JINJA_V0_SUB, seqs. cbn [lang]. exists $"{{", y. split; [reflexivity|].
    split; [apply lang_L; reflexivity|exact Hy]. }
  exists u'. split; auto. exists (a ++ ["$"%char]), b. rewrite <- !app_assoc. reflexivity.
Qed.
Lemma data_package MS s : package_name MS s (data_name (dependency_data_from_str MS s)).
Proof.
  unfold dependency_data_from_str. destruct (found JINJA_V0_SUB s || found JINJA_V1_SUB s) eqn:F.
  - apply found_expression in F. constructor. exact F.
  - assert (~ has_expression s) as N by (intros H; apply found_expression in H; congruence).
    destruct (MS s) eqn:M; [apply pn_spec|apply pn_other]; auto.
Qed.
Lemma package_unique MS s n m : package_name MS s n -> package_name MS s m -> n = m.
Proof. intros [] []; congruence || contradiction. Qed.
Lemma blank_strip t : blank t -> strip t = [].
Proof. intros H. unfold strip. rewrite rstrip_all_blank; auto. Qed.
Lemma sanitize_none x : empty_entry x -> sanitize_dep x = Ok None.
Proof. intros [->|(t & -> & Ht)]; [reflexivity|]. unfold sanitize_dep. rewrite blank_strip by auto. reflexivity. Qed.
Lemma sanitize_text x s : entry_text x s -> sanitize_dep x = Ok (Some s).
Proof. intros (t & -> & Ht & Hs). apply trims_strip in Ht as <-. unfold sanitize_dep. destruct (strip t); [congruence|reflexivity]. Qed.
Lemma same_name_skip MS n l l' i : Forall (names_other MS n) l -> same_name_at MS n i (l ++ l') = same_name_at MS n (i + length l) l'.
Proof.
  revert i; induction l as [|x l IH]; intros i H; cbn [app length]; [rewrite Nat.add_0_r; reflexivity|].
  apply Forall_cons_iff in H as (Hx & H). cbn [same_name_at]. destruct Hx as [Hx|(s & m & Hx & Hm & Hne)].
  - rewrite (sanitize_none _ Hx). cbn [bind]. rewrite (IH _ H). f_equal. lia.
  - rewrite (sanitize_text _ _ Hx). cbn [bind]. rewrite (package_unique _ _ _ _ (data_package MS s) Hm).
    destruct (str_eqb m n) eqn:E; [apply str_eqb_eq in E; contradiction|]. rewrite (IH _ H). f_equal. lia.
Qed.
Lemma same_name_none MS n l : Forall (names_other MS n) l -> same_name_at MS n 0 l = Ok None.
Proof. intros H. rewrite <- (app_nil_r l), same_name_skip by auto. reflexivity. Qed.
Lemma same_name_first MS n l x l' : Forall (names_other MS n) l -> names_package MS n x -> same_name_at MS n 0 (l ++ x :: l') = Ok (Some (length l)).
Proof.
  intros H (s & Hs & Hn). rewrite same_name_skip by auto. cbn [same_name_at plus]. rewrite (sanitize_text _ _ Hs). cbn [bind].
  rewrite (package_unique _ _ _ _ (data_package MS s) Hn), str_eqb_refl. reflexivity.
Qed.

(** * Changing one line below a node *)
Definition set_line (j : nat) (x : node) (n : node) : node := set_children (firstn j (n_children n) ++ x :: skipn (S j) (n_children n)) n.
Lemma nth_firstn_mid (l : list node) j x y : nth_error l j = Some x -> nth_error (firstn j l ++ y :: skipn (S j) l) j = Some y.
Proof.
  intros H. assert (j < length l) by (apply nth_error_Some; congruence).
  rewrite nth_error_app2; rewrite firstn_length, Nat.min_l by lia; auto. rewrite Nat.sub_diag. reflexivity.
Qed.
Lemma split_at_nth (l : list node) j x : nth_error l j = Some x -> l = firstn j l ++ x :: skipn (S j) l.
Proof. revert j; induction l as [|y l IH]; intros [|j] H; try discriminate; cbn in *; [congruence|]. f_equal. apply IH; auto. Qed.
Lemma set_line_replaced n j x c : nth_error (n_children n) j = Some c -> line_replaced j [x] n (set_line j x n).
Proof.
  intros H. exists (firstn j (n_children n)), c, (skipn (S j) (n_children n)). split; [apply split_at_nth; auto|]. split.
  - rewrite firstn_length. apply Nat.min_l. apply Nat.lt_le_incl. apply nth_error_Some. congruence.
  - unfold set_line. rewrite with_lines_set. reflexivity.
Qed.
Lemma set_line_child n j x c : nth_error (n_children n) j = Some c -> nth_error (n_children (set_line j x n)) j = Some x.
Proof. intros H. unfold set_line. rewrite children_set. eapply nth_firstn_mid; eauto. Qed.
Lemma set_line_label n j x c : nth_error (n_children n) j = Some c -> label (set_line j x n) = label n.
Proof.
  intros H. unfold label, set_line. rewrite set_children_value, set_children_lmf. f_equal.
  rewrite (has_children_not_comment _ _ _ H). eapply has_children_not_comment. rewrite children_set. eapply nth_firstn_mid; eauto.
Qed.
Lemma set_line_update n j x c f : nth_error (n_children n) j = Some c -> update_at [j] f (set_line j x n) = set_line j (f x) n.
Proof.
  intros H. pose proof (set_line_child n j x c H) as HC. cbn [update_at]. rewrite (map_nth_split _ _ _ _ HC).
  unfold set_line. rewrite !children_set.
  assert (j < length (n_children n)) as HL by (apply nth_error_Some; congruence).
  assert (length (firstn j (n_children n)) = j) as L by (rewrite firstn_length; lia).
  rewrite firstn_app, L, Nat.sub_diag, firstn_O, app_nil_r, firstn_firstn, Nat.min_id.
  rewrite skipn_app, L. rewrite (skipn_all2 (firstn j (n_children n))) by lia. cbn [app].
  replace (S j - j) with 1 by lia. cbn [skipn]. destruct n; reflexivity.
Qed.
Lemma update_line root q n j x c f : node_at root q = Some n -> nth_error (n_children n) j = Some c ->
  update_at (q ++ [j]) f (update_at q (set_line j x) root) = update_at q (set_line j (f x)) root.
Proof.
  intros Hn Hc. rewrite update_at_app.
  assert (forall (g h : node -> node) p t m, node_at t p = Some m -> g (h m) = set_line j (f x) m ->
          update_at p g (update_at p h t) = update_at p (set_line j (f x)) t) as HU.
  { intros g h p. induction p as [|i p IH]; intros t m Hm HG; cbn [node_at update_at] in *; [congruence|].
    destruct (nth_error (n_children t) i) as [d|] eqn:Hd; [|discriminate].
    rewrite (map_nth_split _ _ _ _ Hd). rewrite children_set.
    assert (nth_error (firstn i (n_children t) ++ update_at p h d :: skipn (S i) (n_children t)) i = Some (update_at p h d)) as HD
      by (eapply nth_firstn_mid; eauto).
    rewrite (map_nth_split _ _ _ _ HD).
    assert (i < length (n_children t)) as HL by (apply nth_error_Some; congruence).
    assert (length (firstn i (n_children t)) = i) as L by (rewrite firstn_length; lia).
    rewrite firstn_app, L, Nat.sub_diag, firstn_O, app_nil_r, firstn_firstn, Nat.min_id.
    rewrite skipn_app, L. rewrite (skipn_all2 (firstn i (n_children t))) by lia. cbn [app].
    replace (S i - i) with 1 by lia. cbn [skipn]. rewrite (IH d m Hm HG). rewrite (map_nth_split _ _ _ _ Hd). destruct t; reflexivity. }
  apply (HU _ _ q root n Hn). eapply set_line_update; eauto.
Qed.
Lemma v2p_set (l : list node) j c x k : nth_error l j = Some c -> is_comment c = is_comment x ->
  virt_to_phys_aux k (firstn j l ++ x :: skipn (S j) l) = virt_to_phys_aux k l.
Proof.
  intros H HC. revert j k H; induction l as [|y l IH]; intros [|j] k H; try discriminate; cbn in *.
  - injection H as ->. rewrite HC. reflexivity.
  - rewrite (IH j (S k) H). reflexivity.
Qed.
Lemma terminal_not_comment c : terminal c = true -> is_comment c = false /\ n_children c = [].
Proof. unfold terminal. intros H. apply andb_true_iff in H as (H1 & H2). apply is_nil_true in H1. apply negb_true_iff in H2. auto. Qed.
Lemma entry_step n i j c d x : entry_line n i j c -> isdigit d = true -> int_of d = i -> is_comment x = false -> n_lmf x = true ->
  step_child (set_line j x n) d = Some (j, x).
Proof.
  intros (H1 & H2 & H3) D Hi HX HL. assert (is_comment c = false) as HC.
  { destruct (is_comment c) eqn:C; auto. apply is_comment_spec in C. contradiction. }
  apply step_index_intro; auto; [|eapply set_line_child; eauto].
  unfold set_line. rewrite children_set. unfold virt_to_phys. rewrite (v2p_set _ _ c x) by congruence.
  rewrite Hi, <- H3. pose proof (v2p_complete 0 _ _ _ H1 HC) as HV. exact HV.
Qed.
Lemma entry_step0 n i j c d : entry_line n i j c -> isdigit d = true -> int_of d = i -> n_lmf c = true ->
  step_child n d = Some (j, c).
Proof.
  intros HE D Hi HL. assert (is_comment c = false) as HC.
  { destruct HE as (_ & H2 & _). destruct (is_comment c) eqn:C; auto. apply is_comment_spec in C. contradiction. }
  pose proof (entry_step n i j c d c HE D Hi HC HL) as H. replace (set_line j c n) with n in H; auto.
  unfold set_line. destruct HE as (H1 & _). rewrite <- (split_at_nth _ _ _ H1). symmetry. apply set_children_id.
Qed.
Lemma put_line c t old : put_comment c (dependency_line t old) = dependency_line t c.
Proof. reflexivity. Qed.
Lemma ends_with_digit cs d : isdigit d = true -> component d -> ends_with $"/-" (path_text (cs ++ [d])) = false.
Proof.
  intros D (Hd & _). rewrite path_text_app. cbn [path_text]. rewrite app_nil_r. unfold ends_with. rewrite rev_app_distr.
  destruct (exists_last Hd) as (d' & c & ->). cbn [rev]. rewrite rev_app_distr. cbn [rev app].
  assert (is_digit c = true) as HC.
  { unfold isdigit in D. destruct (d' ++ [c]) as [|y w] eqn:W; [destruct d'; discriminate|].
    rewrite forallb_forall in D. apply D. rewrite <- W, in_app_iff. right. left. auto. }
  change (rev $"/-") with ["-"%char; "/"%char]. cbn [starts_with]. destruct (ceq "-" c) eqn:X; auto.
  apply ceq_eq in X as <-. discriminate.
Qed.
Lemma dep_patch_add path v : path <> [] -> asks (dep_patch $"add" path v) (RAdd path v).
Proof.
  intros H. unfold dep_patch. eexists. split; [reflexivity|]. split; [|split; [left; reflexivity|repeat split; auto]].
  intros k w HI. cbn [In] in *. destruct HI as [[= <- <-]|[[= <- <-]|[[= <- <-]|[]]]]; auto.
Qed.
Lemma dep_patch_replace path v : path <> [] -> asks (dep_patch $"replace" path v) (RReplace path v).
Proof.
  intros H. unfold dep_patch. eexists. split; [reflexivity|]. split; [|split; [left; reflexivity|repeat split; auto]].
  intros k w HI. cbn [In] in *. destruct HI as [[= <- <-]|[[= <- <-]|[[= <- <-]|[]]]]; auto.
Qed.
Lemma path_text_nonempty cs d : path_text (cs ++ [d]) <> [].
Proof. rewrite path_text_app. cbn [path_text]. intros H. apply app_eq_nil in H as (_ & H). discriminate. Qed.

(** * Replacing the line of an entry *)
Definition line_is (r : recipe) (q : position) (j : nat) (text cm : str) (r' : recipe) : Prop :=
  r_root r' = update_at q (set_line j (dependency_line text cm)) (r_root r) /\ same_but_tree r r'.
Lemma stack_path cs d root q : Forall component (cs ++ [d]) -> cs <> [] -> addresses root (path_text cs) q ->
  traverse_pos root (rev cs ++ [ROOT_VALUE]) = Some q.
Proof.
  intros HC HN HA. apply Forall_app in HC as (HC & _). apply (addresses_stack _ _ _ _ (stack_of_path cs HN HC)). exact HA.
Qed.
Lemma line_addressed r r' cs d q n i j c text cm : Forall component (cs ++ [d]) -> cs <> [] -> isdigit d = true -> int_of d = i ->
  addresses (r_root r) (path_text cs) q -> node_at (r_root r) q = Some n -> entry_line n i j c ->
  line_is r q j text cm r' ->
  addresses (r_root r') (path_text (cs ++ [d])) (q ++ [j]) /\ node_at (r_root r') (q ++ [j]) = Some (dependency_line text cm).
Proof.
  intros HC HN D Hi HA Hn HE (HR & _). pose proof HE as (Hj & _).
  pose proof (stack_path _ _ _ _ HC HN HA) as HT. rewrite HR.
  assert (node_at (update_at q (set_line j (dependency_line text cm)) (r_root r)) q = Some (set_line j (dependency_line text cm) n)) as Hn'
    by (apply node_at_update_same; auto).
  split.
  - apply (addresses_stack _ _ _ _ (proj1 (stack_snoc cs d HC))).
    eapply traverse_pos_step; [|exact Hn'|eapply entry_step; eauto].
    apply traverse_pos_update; auto. intros m Hm. assert (m = n) as -> by congruence. eapply set_line_label; eauto.
  - rewrite node_at_app, Hn'. cbn [node_at]. rewrite (set_line_child n j _ c Hj). reflexivity.
Qed.
Lemma reselect E r r1 cs d q n i j c text cm s mode : Forall component (cs ++ [d]) -> cs <> [] -> isdigit d = true -> int_of d = i ->
  addresses (r_root r) (path_text cs) q -> node_at (r_root r) q = Some n -> entry_line n i j c ->
  line_is r q j text cm r1 -> matched SELECTOR s = true ->
  exists r2, add_selector E (path_text (cs ++ [d])) s mode r1 = (Ok tt, r2) /\ line_is r q j text (new_selector_comment cm s mode) r2.
Proof.
  intros HC HN D Hi HA Hn HE HL HM.
  destruct (line_addressed _ _ _ _ _ _ _ _ _ _ _ HC HN D Hi HA Hn HE HL) as (H1 & H2).
  rewrite (add_selector_at E _ s mode r1 _ _ H1 H2), HM. cbn [negb]. eexists. split; [reflexivity|].
  destruct HL as (HR & HS1 & HS2 & HS3). pose proof HE as (Hj & _). split.
  - cbn [mark_modified rebuild_selectors with_sel with_root r_root]. rewrite HR. rewrite (update_line _ _ n _ _ c _ Hn Hj). reflexivity.
  - repeat split; auto.
Qed.
Lemma replace_line E r cs d q n i j c text : Forall component (cs ++ [d]) -> cs <> [] -> isdigit d = true -> int_of d = i ->
  addresses (r_root r) (path_text cs) q -> node_at (r_root r) q = Some n -> entry_line n i j c ->
  n_lmf c = true -> terminal c = true -> plain_dependency E text ->
  exists r1, patch E (dep_patch $"replace" (path_text (cs ++ [d])) (JStr text)) r = (Ok true, r1) /\ line_is r q j text [] r1.
Proof.
  intros HC HN D Hi HA Hn HE HL HT HP. pose proof (dep_patch_replace _ (JStr text) (path_text_nonempty cs d)) as Ha.
  pose proof (stack_path _ _ _ _ HC HN HA) as HTr. destruct (terminal_not_comment _ HT) as (_ & HCh).
  destruct (patch_works E _ _ r (update_at q (set_line j (dependency_line text [])) (r_root r)) Ha eq_refl eq_refl) as (r1 & H1 & H2 & H3 & _).
  - unfold perform. cbn [request_path]. rewrite (proj1 (stack_snoc cs d HC)). unfold patch_replace.
    pose proof (entry_step0 _ _ _ _ _ HE D Hi HL) as HS.
    rewrite (twi_index_eq _ _ _ _ _ _ _ D HTr Hn HS).
    assert (is_collection c = false) as -> by (unfold is_collection; rewrite HCh; apply andb_false_r).
    rewrite Hn, (valid_index_intro _ _ _ _ D HS). cbn [negb]. unfold plain_dependency, written_as in HP. rewrite HP.
    rewrite as_list_members_spec. unfold as_element. f_equal. apply update_at_ext. intros m Hm.
    assert (m = n) as -> by congruence. rewrite remove_insert; [reflexivity|]. apply nth_error_Some. destruct HE as (HE & _). congruence.
  - exists r1. split; auto. split; auto.
Qed.
Lemma preserved_at r cs d q n i j c smode : Forall component (cs ++ [d]) -> cs <> [] -> isdigit d = true -> int_of d = i ->
  addresses (r_root r) (path_text cs) q -> node_at (r_root r) q = Some n -> entry_line n i j c -> n_lmf c = true ->
  preserved_selector $"replace" (path_text (cs ++ [d])) smode r = Ok (match smode with SMReplace => None | _ => selector_of (n_comment c) end).
Proof.
  intros HC HN D Hi HA Hn HE HL. pose proof (stack_path _ _ _ _ HC HN HA) as HTr.
  pose proof (entry_step0 _ _ _ _ _ HE D Hi HL) as HS. pose proof HE as (Hj & _).
  assert (addresses (r_root r) (path_text (cs ++ [d])) (q ++ [j])) as HA'.
  { apply (addresses_stack _ _ _ _ (proj1 (stack_snoc cs d HC))). eapply traverse_pos_step; eauto. }
  assert (node_at (r_root r) (q ++ [j]) = Some c) as Hc by (rewrite node_at_app, Hn; cbn [node_at]; rewrite Hj; auto).
  destruct (get_selector_at _ _ _ _ None r eq_refl HA' Hc) as (HG & _).
  unfold preserved_selector. rewrite str_eqb_refl. cbn [andb]. destruct smode; auto; rewrite HG; destruct (selector_of (n_comment c)); reflexivity.
Qed.
Lemma patched_line E dep r cs d q n i j c smode cm base : Forall component (cs ++ [d]) -> cs <> [] -> isdigit d = true -> int_of d = i ->
  addresses (r_root r) (path_text cs) q -> node_at (r_root r) q = Some n -> entry_line n i j c ->
  n_lmf c = true -> terminal c = true -> plain_dependency E (dep_text dep) ->
  merged_comment smode (n_comment c) (d_sel dep) cm ->
  exists r1 r2, patch_add_dep E dep $"replace" (path_text (cs ++ [d])) smode false r = (Ok true, r1)
  /\ add_dep_selector E dep base (path_text (cs ++ [d])) smode r1 = (Ok tt, r2)
  /\ line_is r q j (dep_text dep) cm r2.
Proof.
  intros HC HN D Hi HA Hn HE HL HT HP HM.
  destruct (replace_line _ _ _ _ _ _ _ _ _ _ HC HN D Hi HA Hn HE HL HT HP) as (r1 & H1 & HL1).
  assert (component d) as Hd by (apply Forall_app in HC as (_ & HC); inversion HC; auto).
  assert (forall s r0 cm0, line_is r q j (dep_text dep) cm0 r0 -> matched SELECTOR s = true -> forall mode, exists r2,
          add_selector E (path_text (cs ++ [d])) s mode r0 = (Ok tt, r2)
          /\ line_is r q j (dep_text dep) (new_selector_comment cm0 s mode) r2) as HX.
  { intros. eapply reselect; eauto. }
  assert (forall s mode, new_selector_comment [] s mode = $"# " ++ s) as HNil by reflexivity.
  unfold patch_add_dep. rewrite (preserved_at r cs d q n i j c smode) by auto.
  change (JStr (dependency_data_render_as_str (d_data dep))) with (JStr (dep_text dep)). rewrite H1.
  unfold add_dep_selector. rewrite (ends_with_digit cs d D Hd).
  destruct HM as [->|sel b -> HB|Hm HO|sel b Hm HO HB|s Hm HO|sel a b Hm HO HB].
  - eexists _, _. split; [reflexivity|]. split; [reflexivity|]. exact HL1.
  - destruct (HX (selector_render sel) r1 [] HL1 (bracketed_matched _ _ HB) SMReplace) as (r2 & H2 & HL2).
    eexists _, _. split; [reflexivity|]. split; [exact H2|]. rewrite HNil in HL2. exact HL2.
  - rewrite HO. destruct smode; try congruence; (eexists _, _; split; [reflexivity|]; split; [reflexivity|]; exact HL1).
  - rewrite HO. destruct (HX (selector_render sel) r1 [] HL1 (bracketed_matched _ _ HB) smode) as (r2 & H2 & HL2).
    rewrite HNil in HL2. destruct smode; try congruence; (eexists _, _; split; [reflexivity|]; split; [exact H2|]; exact HL2).
  - rewrite HO. destruct (selector_of_bracketed _ _ HO) as (b & HB).
    destruct (HX s r1 [] HL1 (bracketed_matched _ _ HB) SMReplace) as (r2 & H2 & HL2). rewrite HNil in HL2.
    destruct smode; try congruence; rewrite H2; (eexists _, _; split; [reflexivity|]; split; [reflexivity|]; exact HL2).
  - rewrite HO. destruct (selector_of_bracketed _ _ HO) as (a' & HA').
    assert (a' = a) as -> by (destruct HA' as (HA' & _); apply app_inv_head in HA'; apply app_inj_tail in HA' as (HA' & _); auto).
    destruct (HX _ r1 [] HL1 (bracketed_matched _ _ HA') SMReplace) as (r2 & H2 & HL2). rewrite HNil in HL2.
    destruct (HX (selector_render sel) r2 _ HL2 (bracketed_matched _ _ HB) smode) as (r3 & H3 & HL3).
    pose proof HB as (HB' & _). rewrite HB' in HL3.
    rewrite (combined _ a b smode) in HL3; auto.
    2:{ pose proof (selector_of_hash _ _ [] HA') as HH. rewrite app_nil_r in HH. apply HH. intros [|x xs] y H; discriminate. }
    destruct smode; try congruence; rewrite H2; (eexists _, _; split; [reflexivity|]; split; [exact H3|]; exact HL3).
Qed.

(** * Appending a line *)
Definition add_line (x : node) (n : node) : node := set_children (n_children n ++ [x]) n.
Lemma update_at_compose t p g h : update_at p g (update_at p h t) = update_at p (fun n => g (h n)) t.
Proof.
  revert t; induction p as [|i p IH]; intros t; cbn [update_at]; auto. rewrite children_set.
  assert (forall l, map_nth i (update_at p g) (map_nth i (update_at p h) l) = map_nth i (update_at p (fun n => g (h n))) l) as HM.
  { clear -IH. induction i as [|i IHi]; intros [|x l]; cbn; auto; f_equal; auto. }
  rewrite HM. destruct t; reflexivity.
Qed.
Lemma add_set x y n : set_line (length (n_children n)) y (add_line x n) = add_line y n.
Proof.
  unfold set_line, add_line. rewrite children_set. rewrite firstn_app, firstn_all, Nat.sub_diag, firstn_O, app_nil_r.
  rewrite skipn_app. rewrite skipn_all2 by lia. replace (S (length (n_children n)) - length (n_children n)) with 1 by lia.
  cbn [skipn app]. destruct n; reflexivity.
Qed.
Lemma section_is_key cs sec root q n : Forall component (cs ++ [sec]) -> isdigit sec = false -> addresses root (path_text (cs ++ [sec])) q ->
  node_at root q = Some n -> n_value n = VJ (JStr sec).
Proof.
  intros HC HD HA Hn. destruct (traverse_parent _ _ _ _ HC HA) as (qp & np & i & x & -> & _ & Hnp & Hs).
  assert (x = n) as ->.
  { rewrite node_at_app, Hnp in Hn. cbn [node_at] in Hn. rewrite (step_child_nth _ _ _ _ Hs) in Hn. congruence. }
  unfold step_child in Hs. rewrite HD in Hs. apply find_child_spec in Hs as (_ & _ & Hv & _).
  unfold val_is in Hv. destruct (n_value n) as [|[[| | | |t]| |]]; try discriminate. apply str_eqb_eq in Hv as ->. reflexivity.
Qed.
Lemma append_line E r ds sec q n text : Forall component (ds ++ [sec]) -> isdigit sec = false ->
  addresses (r_root r) (path_text (ds ++ [sec])) q -> node_at (r_root r) q = Some n -> n_keyf n = true -> n_lmf n = false ->
  plain_dependency E text ->
  exists r1, patch E (dep_patch $"add" (path_text (ds ++ [sec]) ++ $"/-") (JStr text)) r = (Ok true, r1)
  /\ r_root r1 = update_at q (add_line (dependency_line text [])) (r_root r) /\ same_but_tree r r1.
Proof.
  intros HC HD HA Hn HK HL HP. set (cs := ds ++ [sec]) in *.
  assert (path_text cs ++ $"/-" = path_text (cs ++ [$"-"])) as HE by (rewrite path_text_app; reflexivity). rewrite HE.
  pose proof (dep_patch_add _ (JStr text) (path_text_nonempty cs $"-")) as Ha.
  assert (Forall component (cs ++ [$"-"])) as HC'.
  { apply Forall_app; split; auto. repeat constructor; [discriminate|]. vm_compute. intuition discriminate. }
  assert (addresses (r_root r) (path_text cs ++ [cSL]) q) as HA'.
  { apply (addresses_stack _ _ _ _ (stack_of_path_slash cs HC)). apply (addresses_stack _ _ _ _ (stack_of_path cs ltac:(unfold cs; destruct ds; discriminate) HC)). exact HA. }
  apply (add_perform E _ _ _ r _ [Nd (VJ (JStr text)) [] [] false MNone false]
     {| at_pos := Some q; at_virt := None; at_phys := None; at_create := []; at_append := true |} _ Ha (proj1 (stack_snoc cs _ HC'))).
  - unfold patch_add_find_target. rewrite str_eqb_refl. rewrite (twi_container _ _ _ _ HC HA' Hn (or_introl HL)). reflexivity.
  - discriminate.
  - cbn [at_opt at_pos at_virt]. rewrite Hn, valid_bare. unfold bare_value. rewrite HK. rewrite andb_false_r. reflexivity.
  - exact HP.
  - cbn [at_pos at_create at_append at_phys]. intros q' [= <-]. reflexivity.
Qed.
Lemma changed_append root q n x : node_at root q = Some n -> changed_at (lines_appended [x]) q root (update_at q (add_line x) root).
Proof. intros H. eapply changed_at_update; eauto. unfold lines_appended, add_line. rewrite with_lines_set. reflexivity. Qed.
Lemma appended_line E dep r ds sec q n cm smode : Forall component (ds ++ [sec]) -> isdigit sec = false ->
  addresses (r_root r) (path_text (ds ++ [sec])) q -> node_at (r_root r) q = Some n -> n_keyf n = true -> n_lmf n = false ->
  plain_dependency E (dep_text dep) -> new_line_comment (d_sel dep) cm ->
  (d_sel dep = None \/ reads_one_more E r (ds ++ [sec]) q n (dep_text dep)) ->
  exists r1 r2, patch_add_dep E dep $"add" (path_text (ds ++ [sec]) ++ $"/-") smode false r = (Ok true, r1)
  /\ add_dep_selector E dep (path_text (ds ++ [sec])) (path_text (ds ++ [sec]) ++ $"/-") smode r1 = (Ok tt, r2)
  /\ changed_at (lines_appended [dependency_line (dep_text dep) cm]) q (r_root r) (r_root r2) /\ same_but_tree r r2.
Proof.
  intros HC HD HA Hn HK HL HP HM HS.
  destruct (append_line _ _ _ _ _ _ _ HC HD HA Hn HK HL HP) as (r1 & H1 & H2 & H3).
  unfold patch_add_dep, preserved_selector. change (str_eqb $"add" $"replace") with false. cbn [andb].
  change (JStr (dependency_data_render_as_str (d_data dep))) with (JStr (dep_text dep)). rewrite H1.
  unfold add_dep_selector. destruct HM as [|sel b HB].
  - eexists _, _. split; [reflexivity|]. split; [reflexivity|]. split; auto. rewrite H2. eapply changed_append; eauto.
  - destruct HS as [HS|HS]; [discriminate|].
    assert (ends_with $"/-" (path_text (ds ++ [sec]) ++ $"/-") = true) as HEW.
    { unfold ends_with. rewrite rev_app_distr. reflexivity. }
    setoid_rewrite HEW.
    assert (removelast (path_text (ds ++ [sec]) ++ $"/-") = path_text (ds ++ [sec]) ++ $"/") as HRL.
    { change ($"/-") with ($"/" ++ ["-"%char]). rewrite app_assoc. apply removelast_last. }
    destruct (HS _ (changed_append (r_root r) q n _ Hn)) as (l & Hl & Hlen). rewrite <- H2 in Hl.
    exists r1. setoid_rewrite Hl. cbn [bind json_len].
    setoid_rewrite Hlen. setoid_rewrite HRL. set (k := count_elements (n_children n)) in *.
    assert ((path_text (ds ++ [sec]) ++ $"/") ++ str_of_nat k = path_text ((ds ++ [sec]) ++ [str_of_nat k])) as HPk.
    { rewrite (path_text_app (ds ++ [sec]) [str_of_nat k]). cbn [path_text]. rewrite app_nil_r, <- app_assoc. reflexivity. }
    setoid_rewrite HPk. destruct (str_of_nat_spec k) as (K1 & K2 & K3).
    pose proof (section_is_key _ _ _ _ _ HC HD HA Hn) as HV.
    assert (Forall component ((ds ++ [sec]) ++ [str_of_nat k])) as HC' by (apply Forall_app; split; auto).
    assert (node_at (r_root r1) q = Some (add_line (dependency_line (dep_text dep) []) n)) as Hn1.
    { rewrite H2. apply node_at_update_same; auto. }
    assert (addresses (r_root r1) (path_text (ds ++ [sec])) q) as HA1.
    { rewrite H2. apply addresses_update; auto. intros m Hm. assert (m = n) as -> by congruence.
      unfold label, add_line. rewrite set_children_value, set_children_lmf. f_equal. unfold is_comment.
      rewrite set_children_value, HV. reflexivity. }
    assert (entry_line (add_line (dependency_line (dep_text dep) []) n) k (length (n_children n)) (dependency_line (dep_text dep) [])) as HE.
    { unfold entry_line, add_line. rewrite children_set. split; [|split].
      - rewrite nth_error_app2, Nat.sub_diag by lia. reflexivity.
      - intros (H & _). discriminate.
      - rewrite firstn_app, firstn_all, Nat.sub_diag, firstn_O, app_nil_r. reflexivity. }
    assert (line_is r1 q (length (n_children n)) (dep_text dep) [] r1) as HL1.
    { split; [|repeat split]. symmetry. apply update_at_id. intros m Hm. assert (m = add_line (dependency_line (dep_text dep) []) n) as -> by congruence.
      apply add_set. }
    destruct (reselect E r1 r1 (ds ++ [sec]) (str_of_nat k) q _ k _ _ (dep_text dep) [] (selector_render sel) smode HC'
               ltac:(destruct ds; discriminate) K1 K2 HA1 Hn1 HE HL1 (bracketed_matched _ _ HB)) as (r2 & Hr2 & HL2).
    exists r2. split; [reflexivity|]. split; [exact Hr2|]. destruct HL2 as (HR2 & HS2). split.
    + change (new_selector_comment [] (selector_render sel) smode) with ($"# " ++ selector_render sel) in HR2.
      rewrite HR2, H2, update_at_compose. eapply changed_at_update; eauto. rewrite add_set. unfold lines_appended, add_line.
      rewrite with_lines_set. reflexivity.
    + destruct H3 as (A1 & A2 & A3), HS2 as (B1 & B2 & B3). repeat split; congruence.
Qed.

(** * Opening a section *)
Lemma ends_with_component cs d : component d -> d <> $"-" -> ends_with $"/-" (path_text (cs ++ [d])) = false.
Proof.
  intros (Hd & HS) HN. rewrite path_text_app. cbn [path_text]. rewrite app_nil_r. unfold ends_with. rewrite rev_app_distr.
  destruct (exists_last Hd) as (d' & c & ->). cbn [rev]. rewrite rev_app_distr. cbn [rev app].
  change (rev $"/-") with ["-"%char; "/"%char]. cbn [starts_with]. destruct (ceq "-" c) eqn:X; auto. apply ceq_eq in X as <-.
  cbn [andb]. destruct (rev d') as [|y w] eqn:R; cbn [app starts_with].
  - apply (f_equal (@rev ascii)) in R. rewrite rev_involutive in R. cbn in R. subst d'. exfalso. apply HN. reflexivity.
  - destruct (ceq "/" y) eqn:Y; auto. apply ceq_eq in Y as <-. exfalso. apply HS. apply in_or_app. left. rewrite in_rev, R. left. auto.
Qed.
Lemma find_child_app part k l c : (forall x, In x l -> val_is (n_value x) part = false) -> val_is (n_value c) part = true ->
  find_child part k (l ++ [c]) = Some (k + length l, c).
Proof.
  revert k; induction l as [|x l IH]; intros k H1 H2; cbn [app find_child length].
  - rewrite H2. f_equal. f_equal. lia.
  - rewrite (H1 x (or_introl eq_refl)). rewrite IH; auto; [f_equal; f_equal; lia|]. intros y Hy. apply H1. right. auto.
Qed.
Lemma names_val c x : ~ names c x -> val_is (n_value x) c = false.
Proof.
  intros H. destruct (val_is (n_value x) c) eqn:E0; auto. exfalso. apply H. unfold val_is in E0. unfold names.
  destruct (n_value x) as [|[[| | | |t]| |]]; try discriminate. apply str_eqb_eq in E0 as ->. reflexivity.
Qed.
Lemma opened E dep r ds sec q n smode key key' base : Forall component ((ds ++ [$"requirements"]) ++ [sec]) -> isdigit sec = false -> sec <> $"-" ->
  addresses (r_root r) (path_text (ds ++ [$"requirements"])) q -> node_at (r_root r) q = Some n -> n_keyf n = true -> n_lmf n = false ->
  (forall x, In x (n_children n) -> ~ names sec x) ->
  section_key E sec (dep_text dep) key -> opened_section key (d_sel dep) key' ->
  let cs := (ds ++ [$"requirements"]) ++ [sec] in
  exists r1 r2, patch_add_dep E dep $"add" (path_text cs) smode true r = (Ok true, r1)
  /\ add_dep_selector E dep base (path_text cs) smode r1 = (Ok tt, r2)
  /\ changed_at (lines_appended [key']) q (r_root r) (r_root r2) /\ same_but_tree r r2.
Proof.
  intros HC HD Hdash HA Hn HK HL HN (HW & HV & HM) HO cs. set (ps := ds ++ [$"requirements"]) in *.
  assert (Forall component ps) as HCp by (apply Forall_app in HC; tauto).
  assert (ps <> []) as HPn by (unfold ps; destruct ds; discriminate).
  assert (component sec) as Hsec by (apply Forall_app in HC as (_ & HC); inversion HC; auto).
  pose proof (proj1 (addresses_stack _ _ _ _ (stack_of_path ps HPn HCp)) HA) as HT.
  assert (addresses (r_root r) (path_text ps ++ [cSL]) q) as HA'.
  { apply (addresses_stack _ _ _ _ (stack_of_path_slash ps HCp)). exact HT. }
  destruct (stack_snoc ps sec HC) as (HS & HS').
  assert (exists r1, patch E (dep_patch $"add" (path_text cs) (JList [JStr (dep_text dep)])) r = (Ok true, r1)
          /\ r_root r1 = update_at q (add_line key) (r_root r) /\ same_but_tree r r1) as (r1 & H1 & H2 & H3).
  { apply (add_perform E _ _ _ r _ [key]
     {| at_pos := Some q; at_virt := None; at_phys := None; at_create := sec; at_append := false |} _
     (dep_patch_add _ (JList [JStr (dep_text dep)]) (path_text_nonempty ps sec)) HS).
    - unfold patch_add_find_target. apply str_eqb_neq in Hdash. rewrite Hdash. rewrite twi_name_eq by auto.
      rewrite (traverse_pos_step_none _ _ _ _ _ HT Hn).
      2:{ unfold step_child. rewrite HD. apply find_child_none. intros x Hx. apply names_val. auto. }
      cbn [bind]. rewrite (twi_container _ _ _ _ HCp HA' Hn (or_introl HL)). reflexivity.
    - discriminate.
    - cbn [at_opt at_pos at_virt]. rewrite Hn, valid_bare. unfold bare_value. rewrite HK, andb_false_r. reflexivity.
    - cbn [at_create]. rewrite (component_nonnil _ Hsec). exact HW.
    - cbn [at_pos at_create at_append at_phys]. intros q' [= <-]. rewrite (component_nonnil _ Hsec). reflexivity. }
  exists r1. unfold patch_add_dep, preserved_selector. change (str_eqb $"add" $"replace") with false. cbn [andb].
  change (JStr (dependency_data_render_as_str (d_data dep))) with (JStr (dep_text dep)). rewrite H1.
  unfold add_dep_selector. unfold cs. rewrite (ends_with_component ps sec Hsec Hdash).
  destruct HO as [|sel b key' HB HCC].
  - exists r1. split; [reflexivity|]. split; [reflexivity|]. split; auto. rewrite H2. eapply changed_append; eauto.
  - assert (n_value n = VJ (JStr $"requirements")) as Hnv.
    { apply (section_is_key ds $"requirements" (r_root r) q n); auto. }
    assert (node_at (r_root r1) q = Some (add_line key n)) as Hn1 by (rewrite H2; apply node_at_update_same; auto).
    assert (traverse_pos (r_root r1) (rev ps ++ [ROOT_VALUE]) = Some q) as HT1.
    { rewrite H2. apply traverse_pos_update; auto. intros m Hm. assert (m = n) as -> by congruence.
      unfold label, add_line. rewrite set_children_value, set_children_lmf. f_equal. unfold is_comment.
      rewrite set_children_value, Hnv. reflexivity. }
    assert (addresses (r_root r1) (path_text (ps ++ [sec])) (q ++ [length (n_children n)])) as HA1.
    { apply (addresses_stack _ _ _ _ HS). eapply traverse_pos_step; [exact HT1|exact Hn1|].
      unfold step_child. rewrite HD. unfold add_line. rewrite children_set. rewrite (find_child_app _ _ _ key); [reflexivity| |].
      - intros x Hx. apply names_val. auto.
      - rewrite HV. unfold val_is. apply str_eqb_refl. }
    assert (node_at (r_root r1) (q ++ [length (n_children n)]) = Some key) as Hk1.
    { rewrite node_at_app, Hn1. cbn [node_at]. unfold add_line. rewrite children_set, nth_error_app2, Nat.sub_diag by lia. reflexivity. }
    rewrite (add_selector_at E _ (selector_render sel) smode r1 _ _ HA1 Hk1), (bracketed_matched _ _ HB). cbn [negb].
    eexists. split; [reflexivity|]. split; [reflexivity|].
    cbn [mark_modified rebuild_selectors with_sel with_root r_root r_init r_schema r_vars]. rewrite HM.
    change (new_selector_comment [] (selector_render sel) smode) with ($"# " ++ selector_render sel).
    split; [|destruct H3 as (A1 & A2 & A3); repeat split; auto].
    rewrite H2, update_at_app, update_at_compose. eapply changed_at_update; eauto. unfold lines_appended.
    assert (put_comment ($"# " ++ selector_render sel) key = key') as HPC.
    { rewrite HCC. apply put_comment_spec. }
    cbn [update_at]. unfold add_line. rewrite children_set.
    rewrite (map_nth_split _ _ _ key) by (rewrite nth_error_app2, Nat.sub_diag by lia; reflexivity).
    rewrite firstn_app, firstn_all, Nat.sub_diag, firstn_O, app_nil_r. rewrite skipn_all2 by (rewrite app_length; cbn; lia).
    rewrite HPC. destruct n; reflexivity.
Qed.

(** * C48 *)
Lemma rp_facts p cs d : requirements_path p cs d ->
  p = path_text (cs ++ [d]) /\ Forall component (cs ++ [d]) /\ isdigit d = true /\ rsplit_base p = path_text cs
  /\ is_valid_dependency_path p = true
  /\ exists ds sec, cs = (ds ++ [$"requirements"]) ++ [sec] /\ isdigit sec = false /\ sec <> $"-".
Proof.
  intros H. destruct (rp_components _ _ _ H) as (H1 & H2 & H3 & _). split; auto. split; auto. split; [apply digits_spec; auto|].
  split; [rewrite H1; apply rsplit_path; apply digits_component; auto|]. split; [apply valid_path; eauto|].
  destruct H as [sec x d HS HD|o sec x d HO HS HD]; destruct (spells_component _ _ HS) as (_ & A & B).
  - exists [], sec. auto.
  - exists [$"outputs"; o], sec. auto.
Qed.
Lemma section_present root cs d q : Forall component (cs ++ [d]) -> cs <> [] -> addresses root (path_text cs) q ->
  calc_is_new_section root (path_text cs) = Ok (Some false).
Proof.
  intros HC HN HA. unfold calc_is_new_section. apply Forall_app in HC as (HC & _).
  rewrite (contains_value_stack _ _ _ (stack_of_path cs HN HC)).
  rewrite (proj1 (addresses_stack _ _ _ _ (stack_of_path cs HN HC)) HA). reflexivity.
Qed.
Lemma add_dependency_at E MS dep mode smode r cs d q l op path :
  requirements_path (d_path dep) cs d -> addresses (r_root r) (path_text cs) q ->
  get_value E (r_root r) (path_text cs) (Some (JList [])) (sub_vars r) = Ok (JList l) ->
  conflict_target MS mode (dep_name dep) (path_text cs) (match mode with DMExact => $"replace" | _ => $"add" end)
    (match mode with DMExact => d_path dep | _ => path_text cs ++ $"/-" end) (JList l) = Ok (Some (op, path)) ->
  add_dependency E MS dep mode smode r =
    (let '(o, r1) := patch_add_dep E dep op path smode false r in
     match o with
     | Ok true => let '(o2, r2) := add_dep_selector E dep (path_text cs) path smode r1 in
                  (match o2 with Ok _ => Ok true | Err e => Err e end, r2)
     | _ => (o, r1)
     end).
Proof.
  intros HR HA HG HT. destruct (rp_facts _ _ _ HR) as (_ & HC & _ & HB & HV & ds & sec & HS & _).
  assert (cs <> []) as HN by (rewrite HS; destruct (ds ++ [$"requirements"]); discriminate).
  unfold add_dependency. rewrite HV. cbn [negb]. rewrite HB. rewrite (section_present _ cs d q) by auto.
  rewrite HG. cbn [bind]. change (data_name (d_data dep)) with (dep_name dep).
  assert (init_patch_path (d_path dep) mode (path_text cs) false = match mode with DMExact => d_path dep | _ => path_text cs ++ $"/-" end) as ->
    by (destruct mode; reflexivity).
  rewrite HT. reflexivity.
Qed.
Lemma get_value_default E r s d v : get_value E (r_root r) s None (Some (r_schema r, r_vars r)) = Ok v -> get_value E (r_root r) s (Some d) (sub_vars r) = Ok v.
Proof. unfold get_value. destruct (str_to_stack_path s) as [st|]; auto. cbn [bind]. destruct (traverse (r_root r) st); auto. discriminate. Qed.
Lemma entry_facts n i j c : entries_only n -> entry_line n i j c -> n_lmf c = true /\ terminal c = true.
Proof.
  intros (_ & _ & HF) (H1 & H2 & _). rewrite Forall_forall in HF. destruct (HF c (nth_error_In _ _ H1)) as [H|H]; [contradiction|exact H].
Qed.
Lemma base_index cs i : path_text cs ++ $"/" ++ str_of_nat i = path_text (cs ++ [str_of_nat i]).
Proof. rewrite path_text_app. cbn [path_text]. rewrite app_nil_r. reflexivity. Qed.
Lemma line_is_changed r q n j c text cm r' : node_at (r_root r) q = Some n -> nth_error (n_children n) j = Some c ->
  line_is r q j text cm r' ->
  changed_at (line_replaced j [dependency_line text cm]) q (r_root r) (r_root r') /\ same_but_tree r r'.
Proof. intros Hn Hc (HR & HS). split; auto. rewrite HR. eapply changed_at_update; eauto. eapply set_line_replaced; eauto. Qed.
Lemma c48_ignore E MS dep smode r cs d q n before x after :
  requirements_path (d_path dep) cs d -> section_at E r cs q n (before ++ x :: after) ->
  Forall (names_other MS (dep_name dep)) before -> names_package MS (dep_name dep) x ->
  add_dependency E MS dep DMIgnore smode r = (Ok false, r).
Proof.
  intros HR (HA & Hn & HO & HG) HB HX. destruct (rp_facts _ _ _ HR) as (_ & HC & _ & HBase & HV & ds & sec & HS & _).
  assert (cs <> []) as HN by (rewrite HS; destruct (ds ++ [$"requirements"]); discriminate).
  unfold add_dependency. rewrite HV. cbn [negb]. rewrite HBase, (section_present _ cs d q) by auto.
  rewrite (get_value_default _ _ _ (JList []) _ HG). cbn [bind conflict_target json_iter].
  change (data_name (d_data dep)) with (dep_name dep). rewrite (same_name_first MS (dep_name dep) before x after HB HX). reflexivity.
Qed.
Lemma c48_replace E MS dep smode r cs d q n before x after j c cm :
  requirements_path (d_path dep) cs d -> section_at E r cs q n (before ++ x :: after) ->
  Forall (names_other MS (dep_name dep)) before -> names_package MS (dep_name dep) x ->
  entry_line n (length before) j c -> plain_dependency E (dep_text dep) -> merged_comment smode (n_comment c) (d_sel dep) cm ->
  exists r', add_dependency E MS dep DMReplace smode r = (Ok true, r')
  /\ changed_at (line_replaced j [dependency_line (dep_text dep) cm]) q (r_root r) (r_root r') /\ same_but_tree r r'.
Proof.
  intros HR (HA & Hn & HO & HG) HB HX HE HP HM. destruct (rp_facts _ _ _ HR) as (_ & HC & _ & HBase & HV & ds & sec & HS & _).
  assert (cs <> []) as HN by (rewrite HS; destruct (ds ++ [$"requirements"]); discriminate).
  destruct (entry_facts _ _ _ _ HO HE) as (HL & HT). destruct (str_of_nat_spec (length before)) as (K1 & K2 & K3).
  assert (Forall component (cs ++ [str_of_nat (length before)])) as HC'.
  { apply Forall_app in HC as (HC & _). apply Forall_app. auto. }
  destruct (patched_line E dep r cs (str_of_nat (length before)) q n _ j c smode cm (path_text cs) HC' HN K1 K2 HA Hn HE HL HT HP HM)
    as (r1 & r2 & H1 & H2 & H3).
  rewrite (add_dependency_at E MS dep DMReplace smode r cs d q (before ++ x :: after) $"replace"
             (path_text (cs ++ [str_of_nat (length before)])) HR HA (get_value_default _ _ _ _ _ HG)).
  - rewrite H1, H2. exists r2. split; auto. eapply line_is_changed; eauto. apply HE.
  - unfold conflict_target. cbn [json_iter bind]. rewrite (same_name_first MS (dep_name dep) before x after HB HX). rewrite <- base_index. reflexivity.
Qed.
Lemma c48_exact E MS dep smode r cs d q n l j c cm :
  requirements_path (d_path dep) cs d -> section_at E r cs q n l ->
  entry_line n (int_of d) j c -> plain_dependency E (dep_text dep) -> merged_comment smode (n_comment c) (d_sel dep) cm ->
  exists r', add_dependency E MS dep DMExact smode r = (Ok true, r')
  /\ changed_at (line_replaced j [dependency_line (dep_text dep) cm]) q (r_root r) (r_root r') /\ same_but_tree r r'.
Proof.
  intros HR (HA & Hn & HO & HG) HE HP HM. destruct (rp_facts _ _ _ HR) as (HPath & HC & HD & HBase & HV & ds & sec & HS & _).
  assert (cs <> []) as HN by (rewrite HS; destruct (ds ++ [$"requirements"]); discriminate).
  destruct (entry_facts _ _ _ _ HO HE) as (HL & HT).
  destruct (patched_line E dep r cs d q n _ j c smode cm (path_text cs) HC HN HD eq_refl HA Hn HE HL HT HP HM) as (r1 & r2 & H1 & H2 & H3).
  rewrite (add_dependency_at E MS dep DMExact smode r cs d q l $"replace" (path_text (cs ++ [d])) HR HA (get_value_default _ _ _ _ _ HG)).
  - rewrite H1, H2. exists r2. split; auto. eapply line_is_changed; eauto. apply HE.
  - rewrite HPath. reflexivity.
Qed.
Lemma c48_append E MS dep mode smode r cs d q n l cm :
  requirements_path (d_path dep) cs d -> section_at E r cs q n l ->
  mode = DMUseBoth \/ (mode <> DMExact /\ Forall (names_other MS (dep_name dep)) l) ->
  plain_dependency E (dep_text dep) -> new_line_comment (d_sel dep) cm ->
  d_sel dep = None \/ reads_one_more E r cs q n (dep_text dep) ->
  exists r', add_dependency E MS dep mode smode r = (Ok true, r')
  /\ changed_at (lines_appended [dependency_line (dep_text dep) cm]) q (r_root r) (r_root r') /\ same_but_tree r r'.
Proof.
  intros HR (HA & Hn & HO & HG) HMode HP HM HS1. destruct (rp_facts _ _ _ HR) as (HPath & HC & HD & HBase & HV & ds & sec & -> & HSd & HSn).
  destruct HO as (HK & HL & _).
  destruct (appended_line E dep r (ds ++ [$"requirements"]) sec q n cm smode (proj1 (proj1 (Forall_app _ _ _) HC)) HSd HA Hn HK HL HP HM HS1)
    as (r1 & r2 & H1 & H2 & H3).
  rewrite (add_dependency_at E MS dep mode smode r _ d q l $"add" (path_text ((ds ++ [$"requirements"]) ++ [sec]) ++ $"/-") HR HA
             (get_value_default _ _ _ _ _ HG)).
  - rewrite H1, H2. exists r2. auto.
  - destruct HMode as [->|(HM' & HF)]; [reflexivity|].
    destruct mode; try congruence; try reflexivity;
      unfold conflict_target; cbn [json_iter bind]; rewrite (same_name_none MS (dep_name dep) l HF); reflexivity.
Qed.
Lemma section_missing root ps sec q n : Forall component (ps ++ [sec]) -> ps <> [] -> isdigit sec = false ->
  addresses root (path_text ps) q -> node_at root q = Some n -> (forall x, In x (n_children n) -> ~ names sec x) ->
  calc_is_new_section root (path_text (ps ++ [sec])) = Ok (Some true)
  /\ traverse_pos root (sec :: rev ps ++ [ROOT_VALUE]) = None.
Proof.
  intros HC HN HD HA Hn HX. pose proof (stack_path _ _ _ _ HC HN HA) as HT. destruct (stack_snoc ps sec HC) as (HS & _).
  assert (traverse_pos root (sec :: rev ps ++ [ROOT_VALUE]) = None) as HM.
  { apply (traverse_pos_step_none _ _ _ _ _ HT Hn). unfold step_child. rewrite HD. apply find_child_none.
    intros x Hx. apply names_val. auto. }
  split; auto. unfold calc_is_new_section. rewrite (contains_value_stack _ _ _ HS), HM. cbn [bind].
  rewrite rsplit_path by (apply Forall_app in HC as (_ & HC); inversion HC; auto).
  apply Forall_app in HC as (HC & _). rewrite (contains_value_stack _ _ _ (stack_of_path ps HN HC)), HT. reflexivity.
Qed.
Lemma c48_new_section E MS dep mode smode r ps sec d q n key key' :
  requirements_path (d_path dep) (ps ++ [sec]) d -> mode <> DMExact ->
  addresses (r_root r) (path_text ps) q -> node_at (r_root r) q = Some n -> n_keyf n = true -> n_lmf n = false ->
  (forall x, In x (n_children n) -> ~ names sec x) ->
  section_key E sec (dep_text dep) key -> opened_section key (d_sel dep) key' ->
  exists r', add_dependency E MS dep mode smode r = (Ok true, r')
  /\ changed_at (lines_appended [key']) q (r_root r) (r_root r') /\ same_but_tree r r'.
Proof.
  intros HR HMode HA Hn HK HL HX HSK HO. destruct (rp_facts _ _ _ HR) as (HPath & HC & HD & HBase & HV & ds & sec' & HS & HSd & HSn).
  apply app_inj_tail in HS as (-> & ->). set (ps := ds ++ [$"requirements"]) in *.
  assert (ps <> []) as HPn by (unfold ps; destruct ds; discriminate).
  pose proof (proj1 (proj1 (Forall_app _ _ _) HC)) as HCs.
  destruct (section_missing _ _ _ _ _ HCs HPn HSd HA Hn HX) as (HCalc & HTr).
  destruct (opened E dep r ds sec' q n smode key key' (path_text (ps ++ [sec'])) HCs HSd HSn HA Hn HK HL HX HSK HO) as (r1 & r2 & H1 & H2 & H3).
  exists r2. split; auto. unfold add_dependency. rewrite HV. cbn [negb]. rewrite HBase, HCalc.
  assert (get_value E (r_root r) (path_text (ps ++ [sec'])) (Some (JList [])) (sub_vars r) = Ok (JList [])) as HG.
  { unfold get_value. rewrite (proj1 (stack_snoc ps sec' HCs)). cbn [bind]. unfold traverse. rewrite HTr. reflexivity. }
  rewrite HG. cbn [bind].
  assert (conflict_target MS mode (data_name (d_data dep)) (path_text (ps ++ [sec'])) match mode with DMExact => $"replace" | _ => $"add" end
            (init_patch_path (d_path dep) mode (path_text (ps ++ [sec'])) true) (JList []) = Ok (Some ($"add", path_text (ps ++ [sec'])))) as HT
    by (destruct mode; try congruence; reflexivity).
  rewrite HT. unfold ps in *. rewrite H1, H2. reflexivity.
Qed.
Lemma c48_no_place E MS dep mode smode r ps sec d :
  requirements_path (d_path dep) (ps ++ [sec]) d -> (forall q, ~ addresses (r_root r) (path_text ps) q) ->
  add_dependency E MS dep mode smode r = (Ok false, r).
Proof.
  intros HR HA. destruct (rp_facts _ _ _ HR) as (HPath & HC & HD & HBase & HV & ds & sec' & HS & HSd & HSn).
  apply app_inj_tail in HS as (-> & ->). set (ps := ds ++ [$"requirements"]) in *.
  assert (ps <> []) as HPn by (unfold ps; destruct ds; discriminate).
  pose proof (proj1 (proj1 (Forall_app _ _ _) HC)) as HCs. pose proof (proj1 (proj1 (Forall_app _ _ _) HCs)) as HCp.
  unfold add_dependency. rewrite HV. cbn [negb]. rewrite HBase. unfold calc_is_new_section.
  assert (ps ++ [sec'] <> []) as HPs by (destruct ps; discriminate).
  rewrite (contains_value_stack _ _ _ (stack_of_path _ HPs HCs)).
  destruct (traverse_pos (r_root r) (rev (ps ++ [sec']) ++ [ROOT_VALUE])) as [q|] eqn:HT.
  - exfalso. destruct (traverse_parent ps sec' (r_root r) q HCs) as (qp & n & i & x & _ & Hq & _).
    { exists (rev (ps ++ [sec']) ++ [ROOT_VALUE]). split; [apply stack_of_path; auto|exact HT]. }
    apply (HA qp). apply (addresses_stack _ _ _ _ (stack_of_path ps HPn HCp)). exact Hq.
  - cbn [bind]. rewrite rsplit_path by (apply Forall_app in HCs as (_ & HCs); inversion HCs; auto).
    rewrite (contains_value_stack _ _ _ (stack_of_path ps HPn HCp)).
    destruct (traverse_pos (r_root r) (rev ps ++ [ROOT_VALUE])) as [q|] eqn:HT'; [|reflexivity].
    exfalso. apply (HA q). apply (addresses_stack _ _ _ _ (stack_of_path ps HPn HCp)). exact HT'.
Qed.

(** * C49 *)
Lemma remove_asks dep : d_path dep <> [] -> asks (JDict [(PStr $"op", JStr $"remove"); (PStr $"path", JStr (d_path dep))]) (RRemove (d_path dep)).
Proof.
  intros H. eexists. split; [reflexivity|]. split; [|split; [left; reflexivity|repeat split; auto]].
  intros k w HI. cbn [In] in *. destruct HI as [[= <- <-]|[[= <- <-]|[]]]; auto.
Qed.
Lemma c49_remove E dep r r' : proper_tree (r_root r) = true -> d_path dep <> [] -> remove_dependency E dep r = (Ok true, r') ->
  exists q i, addresses (r_root r) (d_path dep) (q ++ [i]) /\ changed_at (line_removed i) q (r_root r) (r_root r') /\ same_but_tree r r'.
Proof. intros HP HN H. eapply c12_success; eauto. apply remove_asks; auto. Qed.

(** * C50 *)
Definition extended (rl : list dependency) (kv : prim * list dependency) : prim * list dependency :=
  (fst kv, snd kv ++ map (owned_by (fst kv)) rl).
Lemma assoc_prim_app {V} k (a : list (prim * V)) b : Forall (fun kv => prim_eqb k (fst kv) = false) a -> assoc_prim k (a ++ b) = assoc_prim k b.
Proof. induction a as [|[k' v] a IH]; intros H; auto. apply Forall_cons_iff in H as (H1 & H). cbn [app assoc_prim fst] in *. rewrite H1. auto. Qed.
Lemma c50_table root rl before after :
  Forall (fun kv => prim_eqb (fst kv) root = false) (before ++ after) ->
  add_top_level_dependencies root (before ++ (root, rl) :: after) = map (extended rl) before ++ (root, rl) :: map (extended rl) after.
Proof.
  intros HF. apply Forall_app in HF as (HB & HA). unfold add_top_level_dependencies.
  assert (forall l, Forall (fun kv => prim_eqb (fst kv) root = false) l ->
    map (fun kv => if prim_eqb (fst kv) root then kv else (fst kv, snd kv ++ map (required_by (fst kv)) rl)) l = map (extended rl) l) as HE.
  { intros l H. induction H as [|kv l H1 H2 IH]; auto. cbn [map]. rewrite H1, IH. reflexivity. }
  assert (Forall (fun kv : prim * list dependency => prim_eqb root (fst kv) = false) before) as HB'.
  { rewrite Forall_forall in *. intros kv Hkv. rewrite prim_eqb_sym. auto. }
  destruct (Nat.leb_spec (length (before ++ (root, rl) :: after)) 1) as [L|L].
  - rewrite app_length in L. cbn [length] in L. destruct before as [|x b]; [|cbn in L; lia]. destruct after as [|x a]; [|cbn in L; lia]. reflexivity.
  - rewrite assoc_prim_app by auto. cbn [assoc_prim]. rewrite prim_eqb_refl. rewrite map_app. cbn [map fst]. rewrite prim_eqb_refl.
    rewrite !HE by auto. reflexivity.
Qed.
Lemma c50_no_root root m : Forall (fun kv => prim_eqb (fst kv) root = false) m -> add_top_level_dependencies root m = m.
Proof.
  intros H. unfold add_top_level_dependencies. destruct (length m <=? 1); auto.
  rewrite <- (app_nil_r m) at 1. rewrite assoc_prim_app; [reflexivity|]. rewrite Forall_forall in *. intros kv Hkv. rewrite prim_eqb_sym. auto.
Qed.
Lemma parsed_data MS s : parsed_as MS s (dependency_data_from_str MS s).
Proof.
  unfold dependency_data_from_str. destruct (found JINJA_V0_SUB s || found JINJA_V1_SUB s) eqn:F.
  - apply found_expression in F. constructor. exact F.
  - assert (~ has_expression s) as N by (intros H; apply found_expression in H; congruence).
    destruct (MS s) eqn:M; [apply pa_spec|apply pa_other]; auto.
Qed.
Lemma parsed_unique MS s a b : parsed_as MS s a -> parsed_as MS s b -> a = b.
Proof. intros [] []; congruence || contradiction. Qed.
Lemma append_path_root x : append_to_path $"/" (cSL :: x) = cSL :: x.
Proof. reflexivity. Qed.
Lemma append_path_cs cs x : cs <> [] -> Forall component cs -> append_to_path (path_text cs) (cSL :: x) = path_text cs ++ cSL :: x.
Proof.
  intros HN HC. unfold append_to_path. destruct (last_char_path cs HN HC) as (c & Hc & Hc').
  assert (is_nil (path_text cs) = false) as HNil. { destruct cs; [congruence|reflexivity]. }
  rewrite HNil, Hc. apply ceq_neq in Hc'. rewrite Hc', ceq_refl. rewrite <- app_assoc. reflexivity.
Qed.
(** the paths of packages *)
Definition package_path (path : str) : Prop := path = $"/" \/ exists i, path = path_text [$"outputs"; str_of_nat i].
Lemma output_path_not_root i : path_text [$"outputs"; str_of_nat i] <> $"/".
Proof.
  change (path_text [$"outputs"; str_of_nat i]) with ("/"%char :: "o"%char :: $"utputs" ++ cSL :: str_of_nat i ++ []). discriminate.
Qed.
Lemma package_path_below path x : package_path path -> append_to_path path (cSL :: x) = below path (cSL :: x).
Proof.
  intros [->|(i & ->)].
  - reflexivity.
  - rewrite append_path_cs; [|discriminate|].
    + unfold below. destruct (list_eq_dec ascii_dec _ _) as [H|H]; [|reflexivity].
      destruct (output_path_not_root _ H).
    + constructor; [split; [discriminate|vm_compute; intuition discriminate]|]. constructor; [|constructor]. apply str_of_nat_spec.
Qed.
Lemma below_nonempty path x : below path (cSL :: x) <> [].
Proof. unfold below. destruct (list_eq_dec _ _ _); [discriminate|]. intros H. apply app_eq_nil in H as (_ & H). discriminate. Qed.
Lemma fetch_selector path r : path <> [] -> fetch_optional_selector path r = Ok (match lookup (r_root r) path with
   | Some n => option_map (fun t => selector_parser t (r_schema r)) (selector_of (n_comment n)) | None => None end).
Proof.
  intros HN. unfold fetch_optional_selector, lookup, get_selector_at_path. destruct (str_to_stack_path_ok path HN) as (st & Hst). rewrite Hst.
  cbn [bind]. destruct (traverse (r_root r) st) as [n|]; [|reflexivity]. rewrite search_selector. destruct (selector_of (n_comment n)); reflexivity.
Qed.
Lemma json_iter_member v l : json_iter v = Ok l -> forall i x, section_member v i x <-> nth_error l i = Some x.
Proof.
  unfold json_iter. destruct v as [[| | | |s]|v|d]; try discriminate; intros [= <-] i x; split.
  - intros H. inversion H; subst. rewrite nth_error_map. match goal with X : nth_error s i = _ |- _ => rewrite X end. reflexivity.
  - rewrite nth_error_map. destruct (nth_error s i) eqn:N; [|discriminate]. intros [= <-]. constructor. auto.
  - intros H. inversion H; subst. auto.
  - constructor. auto.
  - intros H. inversion H; subst. rewrite nth_error_map. match goal with X : nth_error d i = _ |- _ => rewrite X end. reflexivity.
  - rewrite nth_error_map. destruct (nth_error d i) as [[k w]|] eqn:N; [|discriminate]. intros [= <-]. econstructor. eauto.
Qed.
Lemma sanitize_inv x o : sanitize_dep x = Ok o -> match o with Some s => entry_text x s | None => forall s, ~ entry_text x s end.
Proof.
  unfold sanitize_dep. destruct x as [[| | | |t]|l|d]; try discriminate.
  - intros [= <-] s (t & H & _). discriminate.
  - destruct (is_nil (strip t)) eqn:N; intros [= <-].
    + intros s (t' & [= <-] & H1 & H2). apply trims_strip in H1. apply is_nil_true in N. congruence.
    + exists t. split; auto. split; [apply strip_trims|]. apply is_nil_false. auto.
Qed.
Definition listed (MS : match_spec) (r : recipe) (package : prim) (path sec : str) (section : dep_section) (i : nat) (x : json) (d : dependency) : Prop :=
  exists s, entry_text x s /\ d_by d = package /\ d_path d = below path ($"/requirements/" ++ sec ++ $"/" ++ str_of_nat i) /\ d_type d = section
    /\ parsed_as MS s (d_data d)
    /\ d_sel d = match lookup (r_root r) (d_path d) with
                 | Some n => option_map (fun t => selector_parser t (r_schema r)) (selector_of (n_comment n))
                 | None => None
                 end.
Lemma section_listed MS r package path sec section l : package_path path -> forall k ds,
  section_dependencies MS r package path sec section k l = Ok ds ->
  forall d, In d ds <-> exists i x, nth_error l i = Some x /\ listed MS r package path sec section (k + i) x d.
Proof.
  intros HP. induction l as [|x l IH]; intros k ds H d.
  - injection H as <-. split; [intros []|]. intros ([|i] & y & Hy & _); discriminate.
  - cbn [section_dependencies] in H. destruct (sanitize_dep x) as [o|] eqn:SD; [|discriminate]. cbn [bind] in H.
    apply sanitize_inv in SD. destruct o as [s|].
    + cbv zeta in H. change ($"/requirements/" ++ sec ++ $"/" ++ str_of_nat k) with (cSL :: $"requirements/" ++ sec ++ $"/" ++ str_of_nat k) in H.
      rewrite (package_path_below path _ HP) in H. rewrite fetch_selector in H by apply below_nonempty. cbn [bind] in H.
      destruct (section_dependencies MS r package path sec section (S k) l) as [rest|] eqn:SR; [|discriminate]. injection H as <-.
      specialize (IH _ _ SR d). cbn [In]. rewrite IH. split.
      * intros [<-|(i & y & Hy & HL)].
        -- exists 0, x. split; auto. exists s. split; auto. rewrite Nat.add_0_r. cbn [d_by d_path d_type d_data d_sel].
           split; auto. split; auto. split; auto. split; [apply parsed_data|reflexivity].
        -- exists (S i), y. split; auto. replace (k + S i) with (S k + i) by lia. exact HL.
      * intros ([|i] & y & Hy & HL).
        -- left. injection Hy as <-. destruct HL as (s' & HE & H1 & H2 & H3 & H4 & H5). rewrite Nat.add_0_r in H2.
           assert (s' = s) as ->.
           { destruct SD as (t & -> & A & _), HE as (t' & [= <-] & B & _). apply trims_strip in A, B. congruence. }
           destruct d as [by_ pa ty da se]. cbn [d_by d_path d_type d_data d_sel] in *. subst.
           f_equal. eapply parsed_unique; [apply parsed_data|exact H4].
        -- right. exists i, y. split; auto. replace (S k + i) with (k + S i) by lia. exact HL.
    + specialize (IH _ _ H d). rewrite IH. split.
      * intros (i & y & Hy & HL). exists (S i), y. split; auto. replace (k + S i) with (S k + i) by lia. exact HL.
      * intros ([|i] & y & Hy & HL).
        -- injection Hy as <-. destruct HL as (s & HE & _). destruct (SD s HE).
        -- exists i, y. split; auto. replace (S k + i) with (k + S i) by lia. exact HL.
Qed.
Lemma sections_listed MS r package path reqs : package_path path -> forall ds,
  package_sections MS r package path reqs = Ok ds ->
  forall d, In d ds <-> exists sec section v i x, In (PStr sec, v) reqs /\ spells sec section /\ section_member v i x
    /\ listed MS r package path sec section i x d.
Proof.
  intros HP. induction reqs as [|[k v] reqs IH]; intros ds H d.
  - injection H as <-. split; [intros []|]. intros (sec & section & v & i & x & [] & _).
  - cbn [package_sections] in H. destruct k as [| | | |sec]; try discriminate.
    destruct (str_to_dependency_section sec) as [section|] eqn:SS.
    + destruct (json_iter v) as [l|] eqn:JI; [|discriminate]. cbn [bind] in H.
      destruct (section_dependencies MS r package path sec section 0 l) as [ds0|] eqn:SD; [|discriminate]. cbn [bind] in H.
      destruct (package_sections MS r package path reqs) as [rest|] eqn:PS; [|discriminate]. injection H as <-.
      rewrite in_app_iff, (section_listed _ _ _ _ _ _ _ HP _ _ SD d), (IH _ eq_refl d). apply section_spells in SS. split.
      * intros [(i & x & Hx & HL)|(sec' & section' & v' & i & x & HI & HL)].
        -- exists sec, section, v, i, x. split; [left; auto|]. split; auto. split; auto. apply (json_iter_member _ _ JI). auto.
        -- exists sec', section', v', i, x. split; [right; auto|exact HL].
      * intros (sec' & section' & v' & i & x & [[= <- <-]|HI] & HS & HM & HL).
        -- left. assert (section' = section) as -> by (apply section_spells in HS, SS; congruence).
           exists i, x. split; auto. apply (json_iter_member _ _ JI). auto.
        -- right. exists sec', section', v', i, x. auto.
    + rewrite (IH _ H d). split.
      * intros (sec' & section' & v' & i & x & HI & HL). exists sec', section', v', i, x. split; [right; auto|exact HL].
      * intros (sec' & section' & v' & i & x & [[= <- <-]|HI] & HS & HL).
        -- apply section_spells in HS. congruence.
        -- exists sec', section', v', i, x. auto.
Qed.
Lemma package_listed E MS r package path ds : package_path path -> package_dependencies E MS r package path = Ok ds ->
  forall d, In d ds <-> own_dependency E MS r package path d.
Proof.
  intros HP H d. unfold package_dependencies in H.
  change ($"/requirements") with (cSL :: $"requirements") in H. rewrite (package_path_below path _ HP) in H.
  change (cSL :: $"requirements") with ($"/requirements") in H. unfold own_dependency. change (sub_vars r) with (Some (r_schema r, r_vars r)) in H.
  destruct (get_value E (r_root r) (below path $"/requirements") (Some (JDict [])) (Some (r_schema r, r_vars r))) as [v|] eqn:G; [|discriminate].
  cbn [bind] in H. destruct v as [| |reqs]; try discriminate. rewrite (sections_listed _ _ _ _ _ HP _ H d). split.
  - intros (sec & section & v & i & x & H1 & H2 & H3 & s & H4). exists reqs, sec, section, v, i, x, s. auto 6.
  - intros (reqs' & sec & section & v & i & x & s & [= <-] & H1 & H2 & H3 & H4). exists sec, section, v, i, x. split; auto. split; auto. split; auto.
    exists s. exact H4.
Qed.
(** the table of packages *)
Definition keys_differ (tbl : list (prim * str)) : Prop :=
  forall a x b, tbl = a ++ x :: b -> Forall (fun kv => prim_eqb (fst kv) (fst x) = false) (a ++ b).
Lemma assoc_none {V} k (l : list (prim * V)) : assoc_prim k l = None -> Forall (fun kv => prim_eqb k (fst kv) = false) l.
Proof. induction l as [|[k' v] l IH]; intros H; constructor; cbn [assoc_prim fst] in *; destruct (prim_eqb k k'); try discriminate; auto. Qed.
Lemma names_table E r tbl : get_package_names_to_path E r = Ok tbl ->
  exists n, map snd tbl = $"/" :: map (fun i => path_text [$"outputs"; str_of_nat i]) (seq 0 n) /\ keys_differ tbl.
Proof.
  unfold get_package_names_to_path. cbv zeta. unfold get_package_paths.
  destruct (get_value E (r_root r) $"/outputs" (Some (JList [])) None) as [v|]; [|discriminate]. cbn [bind].
  destruct (json_len v) as [n|]; [|discriminate]. cbn [bind]. intros H. exists n.
  assert (forall i, $"/outputs/" ++ str_of_nat i = path_text [$"outputs"; str_of_nat i]) as HPT.
  { intros i. cbn [path_text]. rewrite app_nil_r. reflexivity. }
  rewrite (map_ext _ _ HPT) in H.
  match type of H with fold_left ?f _ _ = _ => set (F := f) in H end.
  assert (forall ps e, fold_left F ps (Err e) = Err e) as HErr.
  { induction ps as [|p ps IH]; intros e; [reflexivity|]. cbn [fold_left]. unfold F at 2. cbn [bind]. apply IH. }
  assert (forall ps t0 t, keys_differ t0 -> fold_left F ps (Ok t0) = Ok t -> map snd t = map snd t0 ++ ps /\ keys_differ t) as HG.
  { induction ps as [|p ps IH]; intros t0 t HD HF; cbn [fold_left] in HF.
    - injection HF as <-. rewrite app_nil_r. auto.
    - unfold F at 2 in HF. cbn [bind] in HF.
      destruct (get_value E (r_root r) _ None (sub_vars r)) as [w|]; [|cbn [bind] in HF; rewrite HErr in HF; discriminate]. cbn [bind] in HF.
      destruct w as [k| |]; try (rewrite HErr in HF; discriminate).
      destruct (assoc_prim k t0) eqn:AP; [rewrite HErr in HF; discriminate|].
      apply IH in HF as (H1 & H2).
      + rewrite map_app in H1. cbn [map snd] in H1. rewrite <- app_assoc in H1. auto.
      + apply assoc_none in AP. intros a x b HE. destruct b as [|y b] using rev_ind.
        * apply app_inj_tail in HE as (<- & <-). rewrite app_nil_r. cbn [fst].
          rewrite Forall_forall in *. intros kv Hkv. rewrite prim_eqb_sym. auto.
        * clear IHb. assert (t0 = a ++ x :: b /\ (k, p) = y) as (-> & <-).
          { change (x :: b ++ [y]) with ((x :: b) ++ [y]) in HE. rewrite app_assoc in HE. apply app_inj_tail in HE. auto. }
          rewrite app_assoc. apply Forall_app. split; [apply (HD a x b eq_refl)|]. constructor; [|constructor]. cbn [fst].
          rewrite Forall_forall in AP. apply AP. apply in_or_app. right. left. auto. }
  apply HG in H; [exact H|]. intros [|] ? ? HE; discriminate.
Qed.
Lemma all_listed E MS r tbl m : Forall (fun kv => package_path (snd kv)) tbl -> all_package_dependencies E MS r tbl = Ok m ->
  Forall2 (fun kv ke => fst ke = fst kv /\ forall d, In d (snd ke) <-> own_dependency E MS r (fst kv) (snd kv) d) tbl m.
Proof.
  revert m; induction tbl as [|[k p] tbl IH]; intros m HF H; cbn [all_package_dependencies] in H.
  - injection H as <-. constructor.
  - apply Forall_cons_iff in HF as (HP & HF). cbn [snd] in HP.
    destruct (package_dependencies E MS r k p) as [ds|] eqn:PD; [|discriminate]. cbn [bind] in H.
    destruct (all_package_dependencies E MS r tbl) as [rest|] eqn:AD; [|discriminate]. injection H as <-. constructor; auto.
    cbn [fst snd]. split; auto. apply package_listed; auto.
Qed.
Lemma c50_all E MS r m : get_all_dependencies E MS r = Ok m ->
  exists root n tbl rd l,
    get_package_names_to_path E r = Ok ((root, $"/") :: tbl)
    /\ map snd tbl = map (fun i => path_text [$"outputs"; str_of_nat i]) (seq 0 n)
    /\ m = (root, rd) :: l
    /\ (forall d, In d rd <-> own_dependency E MS r root $"/" d)
    /\ Forall2 (fun kv ke => fst ke = fst kv /\ exists own, snd ke = own ++ map (owned_by (fst kv)) rd
                 /\ forall d, In d own <-> own_dependency E MS r (fst kv) (snd kv) d) tbl l.
Proof.
  unfold get_all_dependencies. destruct (get_package_names_to_path E r) as [tbl0|] eqn:GT; [|discriminate]. cbn [bind].
  destruct (names_table _ _ _ GT) as (n & HS & HD). destruct tbl0 as [|[root p0] tbl]; [discriminate|].
  cbn [map snd] in HS. injection HS as -> HS.
  destruct (all_package_dependencies E MS r ((root, $"/") :: tbl)) as [m0|] eqn:AD; [|discriminate]. cbn [bind]. intros [= <-].
  assert (Forall (fun kv : prim * str => package_path (snd kv)) tbl) as HPP.
  { rewrite Forall_forall. intros kv Hkv. apply (in_map snd) in Hkv. rewrite HS in Hkv. apply in_map_iff in Hkv as (i & <- & _).
    right. exists i. reflexivity. }
  apply all_listed in AD; [|constructor; [left; reflexivity|exact HPP]].
  inversion AD as [|? [k rd] ? l0 (HK & HR) HL]; subst. cbn [fst snd] in HK, HR. subst k.
  assert (root_package ((root, $"/") :: tbl) = root) as HRoot.
  { unfold root_package. cbn [fold_left fst snd]. rewrite str_eqb_refl. clear -HPP HS. 
    assert (Forall (fun kv : prim * str => snd kv <> $"/") tbl) as HN.
    { rewrite Forall_forall. intros kv Hkv HE. apply (in_map snd) in Hkv. rewrite HS, HE in Hkv. apply in_map_iff in Hkv as (i & Hi & _).
      destruct (output_path_not_root _ Hi). }
    clear HS HPP. induction HN as [|kv t H1 H2 IH]; auto. cbn [fold_left]. apply str_eqb_neq in H1. rewrite H1. exact IH. }
  rewrite HRoot.
  specialize (HD [] (root, $"/") tbl eq_refl). cbn [app fst] in HD.
  assert (Forall (fun kv : prim * list dependency => prim_eqb (fst kv) root = false) l0) as HD'.
  { clear -HL HD. induction HL as [|x y t t' (H1 & _) H2 IH]; constructor; apply Forall_cons_iff in HD as (A & B); [rewrite H1; auto|auto]. }
  pose proof (c50_table root rd [] l0 HD') as HT. cbn [app map] in HT. rewrite HT. exists root, n, tbl, rd, (map (extended rd) l0). split; auto. split; auto. split; auto. split; auto.
  clear -HL. induction HL as [|x y t t' (H1 & H2) H3 IH]; cbn [map]; constructor; auto. unfold extended. cbn [fst snd]. split; auto.
  exists (snd y). rewrite H1. auto.
Qed.
Lemma changed_append_fun q x root root' : changed_at (lines_appended [x]) q root root' -> root' = update_at q (add_line x) root.
Proof.
  intros H. remember (lines_appended [x]) as R eqn:HR. induction H as [n n' H|n before c c' after p HC H IH].
  - subst R. unfold lines_appended in H. subst n'. cbn [update_at]. unfold add_line. rewrite with_lines_set. reflexivity.
  - cbn [update_at]. rewrite IH. rewrite (map_nth_split _ _ _ c).
    + rewrite HC. rewrite firstn_app, Nat.sub_diag, firstn_all, firstn_O, app_nil_r.
      rewrite skipn_app. rewrite skipn_all2 by lia. replace (S (length before) - length before) with 1 by lia. cbn [skipn app].
      rewrite with_lines_set. reflexivity.
    + rewrite HC, nth_error_app2, Nat.sub_diag by lia. reflexivity.
Qed.
Lemma c49_remove_fails E dep r : fst (remove_dependency E dep r) <> Ok true -> snd (remove_dependency E dep r) = r.
Proof.
  intros H. unfold remove_dependency in *. destruct (d_path dep) as [|c p] eqn:HP.
  - vm_compute. reflexivity.
  - apply (c10 E _ (RRemove (d_path dep)) r); auto. rewrite <- HP. apply remove_asks. rewrite HP. discriminate.
Qed.
