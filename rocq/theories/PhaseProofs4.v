(** The selector step as a whole (C91). *)
From Verif Require Export PhaseProofs3.
From Verif Require Import PhaseSpec.

Lemma same_but_tree_trans a b c : same_but_tree a b -> same_but_tree b c -> same_but_tree a c.
Proof. unfold same_but_tree. intuition congruence. Qed.
Lemma same_but_tree_refl a : same_but_tree a a.
Proof. repeat split. Qed.
Lemma comment_left_spec old : match selector_of old with
  | None => comment_left old old
  | Some s => comment_left old (comment_without_selector old s) end.
Proof.
  unfold comment_left. destruct (selector_of old) as [s|] eqn:S; [|reflexivity]. intros H1.
  pose proof S as HI. apply (selector_of_one_line _ _ H1) in HI as (before & b & after & Hc & Hb & Hl & Hr).
  assert (s = cLB :: b ++ [cRB]) as Hb' by exact Hb.
  destruct (without_selector_spec before s b after Hb' Hl Hr) as (W1 & W2 & _). rewrite <- Hc in W1, W2. split; auto.
  exists before, after. auto.
Qed.
Lemma digits_not_skip ds c : isdigit c = true -> component c -> ends_with $"/build/skip" (path_text (ds ++ [c])) = false.
Proof.
  intros D (Hd & _). rewrite path_text_app. cbn [path_text]. rewrite app_nil_r. unfold ends_with. rewrite rev_app_distr.
  destruct (exists_last Hd) as (d' & x & ->). cbn [rev]. rewrite rev_app_distr. cbn [rev app].
  assert (is_digit x = true) as HC.
  { unfold isdigit in D. destruct (d' ++ [x]) as [|y w] eqn:W; [destruct d'; discriminate|].
    rewrite forallb_forall in D. apply D. rewrite <- W, in_app_iff. right. left. auto. }
  change (rev $"/build/skip") with ("p"%char :: $"iks/dliub/"). cbn [starts_with]. destruct (ceq "p" x) eqn:X; auto.
  apply ceq_eq in X as <-. discriminate.
Qed.
Lemma suffix_spec p s : ends_with p s = true <-> exists t, s = t ++ p.
Proof.
  unfold ends_with. rewrite starts_with_spec. split; intros [t H].
  - exists (rev t). rewrite <- (rev_involutive s), H, rev_app_distr, rev_involutive. reflexivity.
  - exists (rev t). rewrite H, rev_app_distr. reflexivity.
Qed.
Lemma ternary_spec path e t : ternary path e = JStr t <-> switch_text path e t.
Proof.
  unfold ternary, switch_text. pose proof (suffix_spec $"/build/skip" path) as H. unfold conditional_text.
  destruct (ends_with $"/build/skip" path).
  - assert (exists a, path = a ++ $"/build/skip") as HA by (apply H; reflexivity). split.
    + intros [= <-]. left. auto.
    + intros [(_ & ->)|(N & _)]; [reflexivity|contradiction].
  - assert (~ exists a, path = a ++ $"/build/skip") as HA by (intros HX; apply H in HX; discriminate). split.
    + intros [= <-]. right. auto.
    + intros [(N & _)|(_ & ->)]; [contradiction|reflexivity].
Qed.

Section Step.
Context (T : tools).
Let E := t_env T.
Context (root : node).
Hypothesis HAD : addressable_document root = true.
Hypothesis HR : ready E root.
Notation entry := (entry root).
Notation inv := (inv E root).

Definition applied (path : str) (v : json) : conv unit :=
  do! patch_and_log T (p_replace path v) in do! call (remove_selector E path) in ret tt.
Lemma applied_ok path v s r1 r2 o : patch E (p_replace path v) (v1 s) = (Ok true, r1) -> remove_selector E path r1 = (Ok o, r2) ->
  applied path v s = (Ok tt, {| v1 := r2; msgs := msgs s |}).
Proof.
  intros H1 H2. unfold applied, patch_and_log, andthen, call. fold E. rewrite H1. cbn [negb when ret v1 msgs]. unfold ret. cbn [v1 msgs].
  rewrite H2. reflexivity.
Qed.

Lemma element_step D p m sel s : inv D (r_root (v1 s)) -> entry p m sel -> n_lmf m = true ->
  (forall d, In d D -> disjoint d (owner root p) = true) ->
  exists s', applied (path_at E root p) (element_value m (upgrade_expression (inner sel))) s = (Ok tt, s')
  /\ inv (owner root p :: D) (r_root (v1 s')) /\ msgs s' = msgs s /\ same_but_tree (v1 s) (v1 s').
Proof.
  intros I HE L HD. pose proof HE as (Hm & HT & HS & HK). pose proof (selector_condition _ _ HS) as HC.
  set (e := upgrade_expression (inner sel)) in *.
  assert (exists lines x', written_as E (element_value m e) lines /\ as_element (element_value m e) lines = [x']
          /\ n_lmf x' = true /\ is_comment x' = false /\ selector_of (n_comment x') = None
          /\ forall q k x, node_at root q = Some k -> is_key_line k = true -> n_value k = VJ (JStr x) -> val_is (n_value x') x = false)
    as (lines & x' & HW & HX & XL & XC & XS & XV).
  { pose proof (HR p m sel e Hm HT HS HC) as G. rewrite L in G. unfold element_value in *. destruct (is_truth_value m) eqn:B.
    - destruct G as (l & W & NS & SN & NK). exists [l], (Nd (n_value l) (n_comment l) (n_children l) true (n_ml l) (n_keyf l)).
      split; auto. split; [reflexivity|]. cbn [n_lmf n_comment n_value]. split; auto. split.
      + unfold is_comment. cbn [n_value]. destruct (n_value l); [contradiction|reflexivity].
      + split; auto. intros q k x Hk Hkl Hx. specialize (NK q k Hk Hkl). rewrite Hx in NK.
        destruct (val_is (n_value l) x) eqn:V; auto. exfalso. apply NK.
        unfold val_is in V. destruct (n_value l) as [|[[]| |]]; try discriminate. apply str_eqb_eq in V. subst. reflexivity.
    - destruct G as (lines & W). exists lines, (Nd VSent [] lines true MNone false). split; [exact W|]. repeat split. }
  destruct (element_path E root HAD p m sel HE L) as (ds & c & Hp & HF & Dc).
  pose proof (inv_path _ _ _ _ I p m sel HE HD) as HA. 
  assert (owner root p = p) as HO by (unfold owner; rewrite Hm, L; reflexivity).
  rewrite HO in *. pose proof (inv_same _ _ _ _ I p HD) as Hn. rewrite Hm in Hn. rewrite Hp in HA |- *.
  destruct (replace_element E ds c _ (v1 s) p m x' lines HF Dc HA Hn HT HW HX) as (r' & P1 & P2 & P3).
  assert (addresses (r_root r') (path_text (ds ++ [c])) p) as HA'.
  { rewrite P2. apply (addresses_replaced ds c _ p m x' HF Dc HA Hn); [congruence|]. rewrite XC. symmetry. apply terminal_not_comment. exact HT. }
  assert (node_at (r_root r') p = Some x') as Hx' by (rewrite P2; exact (node_at_update_same _ p (fun _ => x') m Hn)).
  assert (remove_selector E (path_text (ds ++ [c])) r' = (Ok None, r')) as HRem.
  { rewrite (remove_selector_at E _ r' p x' HA' Hx'), XS. reflexivity. }
  eexists. split; [exact (applied_ok _ _ s r' r' None P1 HRem)|]. cbn [v1 msgs]. split; [|auto].
  rewrite P2. eapply (inv_step E root HAD D _ p m (fun _ => x')); eauto.
  - left. exists sel. split; [split; auto|]. exists e, lines. auto.
  - rewrite XC. symmetry. apply terminal_not_comment. exact HT.
Qed.
Lemma key_step D p m sel s : inv D (r_root (v1 s)) -> entry p m sel -> n_lmf m = false ->
  (forall d, In d D -> disjoint d (owner root p) = true) ->
  exists s', applied (path_at E root p) (ternary (path_at E root p) (upgrade_expression (inner sel))) s = (Ok tt, s')
  /\ inv (owner root p :: D) (r_root (v1 s')) /\ msgs s' = msgs s /\ same_but_tree (v1 s) (v1 s').
Proof.
  intros I HE L HD. pose proof HE as (Hm & HT & HS & HK). pose proof (selector_condition _ _ HS) as HC.
  set (e := upgrade_expression (inner sel)) in *.
  destruct (entry_target E root HAD HR p m sel HE) as [(L' & _)|(_ & HB & q & k & Hpq & HO & Hk & Hch & Hkl & Hbare & Hq)]; [congruence|].
  destruct (key_name root q k (Haddr root HAD) Hq Hk Hkl) as (name & Hname).
  pose proof (HR p m sel e Hm HT HS HC) as G. rewrite L in G. destruct (G HB) as (_ & l1 & W1 & l2 & W2).
  destruct (entry_path E root HAD p m sel HE) as (cs & Hcs & HF & _ & _).
  pose proof (inv_path _ _ _ _ I p m sel HE HD) as HA. rewrite HO in *. rewrite Hcs in *.
  pose proof (inv_same _ _ _ _ I q HD) as Hn. rewrite Hk in Hn.
  assert (path_at E root q = path_text cs) as Hpath.
  { rewrite <- Hcs, Hpq, (path_at_snoc E root q 0 k m Hk) by (rewrite Hch; reflexivity). unfold own_text.
    unfold bare_value in Hbare. rewrite !andb_true_iff, !negb_true_iff in Hbare. destruct Hbare as ((B1 & B2) & B3). rewrite B1, B2, B3. cbn [andb negb]. rewrite app_nil_r. reflexivity. }
  assert (exists t lines, ternary (path_text cs) e = JStr t /\ switch_text (path_text cs) e t /\ written_as E (JStr t) lines) as (t & lines & HTn & HSw & HW).
  { pose proof (fun t => ternary_spec (path_text cs) e t) as HX. unfold ternary in *.
    destruct (ends_with $"/build/skip" (path_text cs)); [exists e, l1|exists (conditional_text e), l2]; split; auto; split; auto; apply HX; reflexivity. }
  rewrite HTn.
  assert (n_lmf k = false /\ bare_value k = false) as (KL & KB).
  { unfold is_key_line in Hkl. rewrite !andb_true_iff, !negb_true_iff in Hkl. destruct Hkl as ((H1 & H2) & H3). split; auto.
    unfold bare_value. rewrite H1. cbn [negb]. rewrite andb_true_r. exact H3. }
  destruct (replace_key E cs (JStr t) (v1 s) q k lines HF HA Hn KL KB HW) as (r' & P1 & P2 & P3).
  assert (forall l n, n_value n = VJ (JStr name) -> label (set_children l n) = label n) as HLab.
  { intros l n HV. unfold label, is_comment. rewrite set_children_value, set_children_lmf, HV. reflexivity. }
  assert (addresses (r_root r') (path_text cs) q) as HA'.
  { rewrite P2. apply addresses_update; auto. intros n Hn'. rewrite Hn in Hn'. injection Hn' as <-. apply HLab. exact Hname. }
  assert (node_at (r_root r') q = Some (set_children lines k)) as Hk' by (rewrite P2; apply node_at_update_same; exact Hn).
  assert (conditional_switch k sel) as HCS by (exists m; auto).
  pose proof (remove_selector_at E _ r' q _ HA' Hk') as HRem. rewrite set_children_comment in HRem.
  pose proof (comment_left_spec (n_comment k)) as HCL.
  destruct (selector_of (n_comment k)) as [ks|] eqn:KS.
  - eexists. split; [exact (applied_ok _ _ s r' _ _ P1 HRem)|]. cbn [v1 msgs]. split; [|split; auto].
    change (inv (q :: D) (update_at q (put_comment (comment_without_selector (n_comment k) ks)) (r_root r'))). rewrite P2, update_twice.
    eapply (inv_step E root HAD D _ q k (fun n => put_comment (comment_without_selector (n_comment k) ks) (set_children lines n)) I); auto.
    + right. exists sel. split; auto. rewrite Hpath. exists e, t, lines, (comment_without_selector (n_comment k) ks).
      repeat (split; [assumption|]). split; [congruence|]. intros _. rewrite <- with_lines_set. apply put_comment_spec.
    + rewrite (put_comment_spec _ (set_children lines k)). unfold with_comment. destruct k as [kv kc kch kl kml kk]. cbn [set_children n_lmf]. destruct (on_one_line _); reflexivity.
    + rewrite (put_comment_spec _ (set_children lines k)). unfold with_comment, is_comment. destruct k as [kv kc kch kl kml kk]. cbn [n_value] in Hname. cbn [set_children n_value]. rewrite Hname. destruct (on_one_line _); reflexivity.
    + left. rewrite (put_comment_spec _ (set_children lines k)). unfold with_comment. destruct k as [kv kc kch kl kml kk]. cbn [set_children n_value]. destruct (on_one_line _); reflexivity.
  - eexists. split; [exact (applied_ok _ _ s r' r' None P1 HRem)|]. cbn [v1 msgs]. split; [|auto].
    rewrite P2. eapply (inv_step E root HAD D _ q k (set_children lines) I); auto.
    + right. exists sel. split; auto. rewrite Hpath. exists e, t, lines, (n_comment k).
      repeat (split; [assumption|]). split; [intros _; symmetry; apply with_lines_set|congruence].
    + apply set_children_lmf.
    + pose proof (HLab lines k Hname) as HX. unfold label in HX. congruence.
    + left. apply set_children_value.
Qed.

(** One entry of the table. *)
Definition line_of (p : position) : node := match node_at root p with Some n => n | None => root end.
Definition info (sp : str * position) : str * (node * stack) := (fst sp, (line_of (snd sp), stack_at E root [ROOT_VALUE] (snd sp))).
Definition listed (sp : str * position) : Prop := exists n, node_at root (snd sp) = Some n /\ selector_of (n_comment n) = Some (fst sp).
Definition converts (p : position) : bool := terminal (line_of p) && (n_lmf (line_of p) || is_truth_value (line_of p)).
Definition report (p : position) : list str :=
  if not_conditional (line_of p) then [$"A non-list item had a selector at: " ++ path_at E root p] else [].
Definition upgrade_info (x : str * (node * stack)) : conv unit := upgrade_selector T (fst x) (snd x).
Lemma info_path p n : node_at root p = Some n -> terminal n = true -> stack_path_to_str (stack_at E root [ROOT_VALUE] p) = path_at E root p.
Proof. intros Hn HT. rewrite (stack_at_text E root _ p n Hn (terminal_not_comment _ HT)). reflexivity. Qed.
Lemma one_entry D sp s : inv D (r_root (v1 s)) -> listed sp ->
  (converts (snd sp) = true -> forall d, In d D -> disjoint d (owner root (snd sp)) = true) ->
  exists s', upgrade_info (info sp) s = (Ok tt, s')
  /\ inv (if converts (snd sp) then owner root (snd sp) :: D else D) (r_root (v1 s'))
  /\ same_but_tree (v1 s) (v1 s')
  /\ (forall c, get_messages c (msgs s') = get_messages c (msgs s) ++ (match c with WARNING => report (snd sp) | _ => [] end)).
Proof.
  destruct sp as [sel p]. intros I (n & Hn & HS) HD. cbn [fst snd] in *. unfold upgrade_info, info, converts, report in *. cbn [fst snd] in *.
  assert (line_of p = n) as HL by (unfold line_of; rewrite Hn; reflexivity). rewrite HL in *.
  unfold upgrade_selector. cbn [fst snd]. rewrite leaf_terminal. unfold not_conditional.
  destruct (terminal n) eqn:HT; cbn [negb andb] in *.
  2:{ exists s. split; [reflexivity|]. split; auto. split; [apply same_but_tree_refl|]. intros c. destruct c; rewrite app_nil_r; reflexivity. }
  rewrite (info_path p n Hn HT).
  change (fun p0 : json => do! patch_and_log T p0 in (do! call (remove_selector (t_env T) (path_at E root p)) in ret tt))
    with (fun p0 : json => do! patch_and_log T p0 in (do! call (remove_selector E (path_at E root p)) in ret tt)).
  destruct (n_lmf n) eqn:L; cbn [orb] in *.
  - (* element *) assert (entry p n sel) as HE by (repeat split; auto).
    destruct (element_step D p n sel s I HE L (HD eq_refl)) as (s' & A & B & C & D').
    exists s'. split.
    + rewrite <- A. unfold applied, element_value. destruct (element_path E root HAD p n sel HE L) as (ds & c & Hp & HF & Dc).
      unfold is_truth_value. destruct (n_value n) as [|[[| | | |]| |]]; try reflexivity.
      unfold ternary. rewrite Hp, digits_not_skip; auto. apply Forall_app in HF as (_ & HF). inversion HF; auto.
    + split; auto. split; auto. intros c. rewrite C. destruct c; rewrite app_nil_r; reflexivity.
  - destruct (is_truth_value n) eqn:B.
    + assert (entry p n sel) as HE by (repeat split; auto).
      destruct (key_step D p n sel s I HE L (HD eq_refl)) as (s' & A & B' & C & D').
      exists s'. split.
      * rewrite <- A. unfold is_truth_value in B. destruct (n_value n) as [|[[| | | |]| |]]; try discriminate. reflexivity.
      * split; auto. split; auto. intros c. rewrite C. destruct c; rewrite app_nil_r; reflexivity.
    + eexists. split.
      * unfold is_truth_value in B. destruct (n_value n) as [|[[| | | |]| |]]; try discriminate; reflexivity.
      * cbn [v1 msgs]. split; auto. split; [apply same_but_tree_refl|]. intros c.
        rewrite (add_one_more WARNING _ (msgs s) c). destruct c; cbn [category_eqb]; rewrite ?app_nil_r; reflexivity.
Qed.

Lemma each_app {A} (f : A -> conv unit) a b s : each (a ++ b) f s = match each a f s with (Ok _, s') => each b f s' | x => x end.
Proof.
  revert s; induction a as [|x a IH]; intros s; cbn [app each]; [unfold ret; reflexivity|].
  unfold andthen. destruct (f x s) as [[[]|e] s1]; auto.
Qed.
Definition targets (l : list (str * position)) : list position := map (fun sp => owner root (snd sp)) (filter (fun sp => converts (snd sp)) l).
Lemma listed_entry sp : listed sp -> converts (snd sp) = true -> exists n, entry (snd sp) n (fst sp).
Proof.
  intros (n & Hn & HS) HC. unfold converts, line_of in HC. rewrite Hn in HC. apply andb_prop in HC as (HT & HC). exists n.
  repeat (split; auto). apply orb_prop in HC. exact HC.
Qed.
Lemma all_entries rest : forall before s, Forall listed (before ++ rest) -> NoDup (map snd (before ++ rest)) ->
  inv (targets (rev before)) (r_root (v1 s)) ->
  exists s', each (map info rest) upgrade_info s = (Ok tt, s') /\ inv (targets (rev (before ++ rest))) (r_root (v1 s'))
  /\ same_but_tree (v1 s) (v1 s')
  /\ (forall c, get_messages c (msgs s') = get_messages c (msgs s) ++ (match c with WARNING => flat_map (fun sp => report (snd sp)) rest | _ => [] end)).
Proof.
  induction rest as [|sp rest IH]; intros before s HF HN I.
  - exists s. split; [reflexivity|]. rewrite app_nil_r. split; auto. split; [apply same_but_tree_refl|]. intros c. destruct c; cbn [flat_map]; rewrite app_nil_r; reflexivity.
  - assert (listed sp) as HL by (rewrite Forall_app in HF; destruct HF as (_ & HF); inversion HF; auto).
    destruct (one_entry (targets (rev before)) sp s I HL) as (s1 & A & B & C & M).
    { intros HC d Hd. unfold targets in Hd. apply in_map_iff in Hd as (sp' & <- & Hd). apply filter_In in Hd as (Hd & HC').
      apply in_rev in Hd. destruct (listed_entry sp HL HC) as (n & HE).
      assert (listed sp') as HL' by (rewrite Forall_app in HF; destruct HF as (HF & _); rewrite Forall_forall in HF; auto).
      destruct (listed_entry sp' HL' HC') as (n' & HE'). eapply targets_disjoint; eauto.
      intros Heq. rewrite map_app in HN. cbn [map] in HN. apply NoDup_remove_2 in HN. apply HN. apply in_app_iff. left.
      rewrite <- Heq. apply in_map. exact Hd. }
    cbn [map each]. unfold andthen. rewrite A.
    destruct (IH (before ++ [sp]) s1) as (s2 & A2 & B2 & C2 & M2).
    + rewrite <- app_assoc. exact HF.
    + rewrite <- app_assoc. exact HN.
    + rewrite rev_app_distr. cbn [rev app]. unfold targets in *. cbn [filter map]. destruct (converts (snd sp)); exact B.
    + exists s2. split; auto. rewrite <- app_assoc in B2. split; auto. split; [eapply same_but_tree_trans; eauto|].
      intros c. rewrite M2, M. destruct c; cbn [flat_map]; rewrite ?app_nil_r, <- ?app_assoc; reflexivity.
Qed.
End Step.
