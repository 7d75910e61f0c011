(** The selector step keeps an invariant while it works through the table (C91). *)
From Verif Require Export PhaseProofs2.
From Verif Require Import PhaseSpec.

Lemma addressable_at root q k : addressable root = true -> node_at root q = Some k -> addressable k = true.
Proof.
  revert root; induction q as [|i q IH]; intros root HA H; cbn [node_at] in H; [congruence|].
  destruct (nth_error (n_children root) i) as [c|] eqn:Hi; [|discriminate]. eapply IH; [|exact H]. eapply addressable_children; eauto.
Qed.
Lemma key_name root q k : addressable root = true -> q <> [] -> node_at root q = Some k -> is_key_line k = true ->
  exists s, n_value k = VJ (JStr s).
Proof.
  intros HA HN H HK. destruct (exists_last HN) as (p & i & ->). rewrite node_at_app in H.
  destruct (node_at root p) as [m|] eqn:Hm; [|discriminate]. cbn [node_at] in H.
  destruct (nth_error (n_children m) i) as [c|] eqn:Hi; [|discriminate]. injection H as ->.
  pose proof (addressable_at _ _ _ HA Hm) as Am. destruct (addressable_list_nth [] _ _ _ (addressable_names _ Am) Hi) as (G & _).
  unfold is_key_line in HK. rewrite !andb_true_iff, !negb_true_iff in HK. destruct HK as ((H1 & H2) & H3).
  unfold addressable_name in G. rewrite H1, H2, H3 in G. cbn [orb] in G.
  destruct (n_value k) as [|[[]| |]]; try discriminate. eauto.
Qed.
Lemma update_twice q f g t : update_at q g (update_at q f t) = update_at q (fun n => g (f n)) t.
Proof.
  revert t; induction q as [|i q IH]; intros t; cbn [update_at]; auto. rewrite children_set.
  assert (forall l, map_nth i (update_at q g) (map_nth i (update_at q f) l) = map_nth i (update_at q (fun n => g (f n))) l) as H.
  { clear t. revert i; intros i. induction i as [|i IHi]; intros [|x l]; cbn [map_nth]; auto; f_equal; auto. }
  destruct t as [v c chs l ml k]. cbn [set_children n_children]. rewrite H. reflexivity.
Qed.

Section Phase.
Context (E : env) (root : node).
Hypothesis HAD : addressable_document root = true.
Hypothesis HR : ready E root.

Definition entry (p : position) (m : node) (sel : str) : Prop :=
  node_at root p = Some m /\ terminal m = true /\ selector_of (n_comment m) = Some sel /\ (n_lmf m = true \/ is_truth_value m = true).
Definition done_at (q : position) (n n' : node) : Prop :=
  (exists sel, conditional_element n sel /\ element_after E n n' sel)
  \/ (exists sel, conditional_switch n sel /\ key_after E (path_at E root q) n n' sel).
Record inv (D : list position) (t : node) : Prop := {
  inv_done : forall q, In q D -> exists n n', node_at root q = Some n /\ node_at t q = Some n' /\ done_at q n n';
  inv_beside : forall p n, node_at root p = Some n -> (forall d, In d D -> ~ above d p) ->
     exists n', node_at t p = Some n' /\ same_line n n';
  inv_same : forall p, (forall d, In d D -> disjoint d p = true) -> node_at t p = node_at root p;
  inv_path : forall p m sel, entry p m sel -> (forall d, In d D -> disjoint d (owner root p) = true) ->
     addresses t (path_at E root p) (owner root p) }.

Lemma Haddr : addressable root = true.
Proof. pose proof HAD as H. unfold addressable_document in H. rewrite !andb_true_iff in H. tauto. Qed.
Lemma selector_condition s sel : selector_of s = Some sel -> new_condition sel (upgrade_expression (inner sel)).
Proof.
  intros H. apply selector_of_bracketed in H as (b & -> & _). exists b. split; auto. f_equal. unfold inner.
  change (tl ($"[" ++ b ++ $"]")) with (b ++ [cRB]). apply removelast_last.
Qed.
(** What an entry looks like. *)
Lemma entry_target p m sel : entry p m sel ->
  (n_lmf m = true /\ owner root p = p)
  \/ (n_lmf m = false /\ is_truth_value m = true /\ exists q k, p = q ++ [0] /\ owner root p = q /\ node_at root q = Some k
      /\ n_children k = [m] /\ is_key_line k = true /\ bare_value m = true /\ q <> []).
Proof.
  intros (Hm & HT & HS & HK). destruct (n_lmf m) eqn:L.
  - left. split; auto. unfold owner. rewrite Hm, L. reflexivity.
  - right. split; auto. destruct HK as [HK|HK]; [discriminate|]. split; auto.
    pose proof (HR p m sel _ Hm HT HS (selector_condition _ _ HS)) as G. rewrite L in G. destruct (G HK) as ((q & k & -> & Hk & Hch & Hkl) & _).
    assert (n_keyf m = false) as KF.
    { destruct (n_keyf m) eqn:KF; auto. exfalso.
      assert (is_key_line m = true) as ML by (unfold is_key_line; rewrite L, (terminal_not_comment _ HT), KF, andb_false_r; reflexivity).
      destruct (key_name root (q ++ [0]) m Haddr) as (s & Hs); auto; [destruct q; discriminate|].
      unfold is_truth_value in HK. rewrite Hs in HK. discriminate. }
    exists q, k. split; auto. split. { unfold owner. rewrite Hm, L, KF. apply removelast_last. }
    repeat (split; [assumption|]). split; [unfold bare_value; rewrite HT, L, KF; reflexivity|].
    intros ->. cbn [node_at] in Hk. injection Hk as <-. pose proof HAD as H. unfold addressable_document in H. rewrite !andb_true_iff in H.
    destruct H as ((_ & H) & _). rewrite Hch in H. cbn [forallb] in H. rewrite L, KF, HT in H. discriminate.
Qed.
Lemma below_target p m sel r x : entry p m sel -> node_at root (owner root p ++ r) = Some x -> owner root p ++ r = owner root p \/ owner root p ++ r = p.
Proof.
  intros HE Hx. destruct (entry_target p m sel HE) as [(L & HO)|(L & HB & q & k & Hp & HO & Hk & Hch & _)]; rewrite HO in *.
  - left. destruct r as [|i r]; [apply app_nil_r|]. rewrite node_at_app in Hx. destruct HE as (Hm & HT & _). rewrite Hm in Hx. cbn [node_at] in Hx.
    unfold terminal in HT. apply andb_prop in HT as (HT & _). apply is_nil_true in HT. rewrite HT in Hx. destruct i; discriminate.
  - destruct r as [|i r]; [left; apply app_nil_r|]. rewrite node_at_app, Hk in Hx. cbn [node_at] in Hx. rewrite Hch in Hx.
    destruct i as [|i]; [|destruct i; discriminate]. cbn [nth_error] in Hx. destruct r as [|j r]; [right; auto|].
    cbn [node_at] in Hx. destruct HE as (_ & HT & _). unfold terminal in HT. apply andb_prop in HT as (HT & _). apply is_nil_true in HT.
    rewrite HT in Hx. destruct j; discriminate.
Qed.
Lemma target_node p m sel : entry p m sel -> exists k, node_at root (owner root p) = Some k.
Proof.
  intros HE. destruct (entry_target p m sel HE) as [(L & ->)|(L & HB & q & k & Hp & -> & Hk & _)]; eauto.
  destruct HE as (Hm & _). eauto.
Qed.
Lemma targets_apart p m sel p' m' sel' : entry p m sel -> entry p' m' sel' -> above (owner root p) (owner root p') -> p = p'.
Proof.
  intros HE HE' (r & Hr). destruct (target_node _ _ _ HE') as (k' & Hk'). rewrite Hr in Hk'.
  destruct (below_target _ _ _ _ _ HE Hk') as [Hq|Hq]; rewrite <- Hr in Hq.
  - destruct (entry_target p m sel HE) as [(L & HO)|(L & HB & q & k & Hp & HO & Hk & Hch & _)];
      destruct (entry_target p' m' sel' HE') as [(L' & HO')|(L' & HB' & q' & k1 & Hp' & HO' & Hk1 & Hch' & _)].
    + congruence.
    + exfalso. destruct HE as (Hm & HT & _). rewrite HO in Hq. rewrite HO', <- Hq in *. rewrite Hm in Hk1. injection Hk1 as <-.
      unfold terminal in HT. rewrite Hch' in HT. discriminate.
    + exfalso. destruct HE' as (Hm & HT & _). rewrite HO in Hq. rewrite HO' in Hq. rewrite Hq in *. rewrite Hm in Hk. injection Hk as <-.
      unfold terminal in HT. rewrite Hch in HT. discriminate.
    + congruence.
  - destruct (entry_target p m sel HE) as [(L & HO)|(L & HB & q & k & Hp & HO & Hk & Hch & _)];
      destruct (entry_target p' m' sel' HE') as [(L' & HO')|(L' & HB' & q' & k1 & Hp' & HO' & Hk1 & Hch' & _)].
    + congruence.
    + exfalso. destruct HE as (Hm & HT & _). rewrite HO' in Hq. rewrite Hq in *. rewrite Hm in Hk1. injection Hk1 as <-.
      unfold terminal in HT. rewrite Hch' in HT. discriminate.
    + exfalso. destruct HE as (Hm & _). destruct HE' as (Hm' & _). rewrite HO' in Hq. rewrite Hq in *. congruence.
    + exfalso. destruct HE as (Hm & HT & _). rewrite HO' in Hq. rewrite Hq in *. rewrite Hm in Hk1. injection Hk1 as <-.
      unfold terminal in HT. rewrite Hch' in HT. discriminate.
Qed.
Lemma targets_disjoint p m sel p' m' sel' : entry p m sel -> entry p' m' sel' -> p <> p' -> disjoint (owner root p) (owner root p') = true.
Proof.
  intros HE HE' N. apply disjoint_spec. split; intros H; apply N; [|symmetry]; eapply targets_apart; eauto.
Qed.
Lemma entry_path p m sel : entry p m sel -> exists cs, path_at E root p = path_text cs /\ Forall component cs
  /\ addresses root (path_text cs) (owner root p)
  /\ Forall (fun x => isdigit x = true \/ exists q k, node_at root q = Some k /\ is_key_line k = true /\ n_value k = VJ (JStr x)) cs.
Proof.
  intros (Hm & HT & _). destruct (path_names E p root m Haddr Hm (terminal_not_comment _ HT)) as (cs & Hcs & F).
  exists cs. split; auto. split; [eapply Forall_impl; [|exact F]; cbn; tauto|].
  destruct (c03_resolves E root p HAD) as (st & S1 & S2). { apply positions_where_In. eauto. }
  split; [exists st; rewrite <- Hcs; auto|]. eapply Forall_impl; [|exact F]. cbn; tauto.
Qed.
Lemma inv_start : inv [] root.
Proof.
  constructor.
  - intros q [].
  - intros p n Hn _. exists n. split; auto. apply same_line_refl.
  - auto.
  - intros p m sel HE _. destruct (entry_path p m sel HE) as (cs & Hcs & _ & HA & _). rewrite Hcs. exact HA.
Qed.
Lemma inv_step D t q n f : inv D t -> (forall d, In d D -> disjoint d q = true) -> node_at root q = Some n ->
  done_at q n (f n) -> n_lmf (f n) = n_lmf n -> is_comment (f n) = is_comment n ->
  (n_value (f n) = n_value n \/ forall p k x, node_at root p = Some k -> is_key_line k = true -> n_value k = VJ (JStr x) -> val_is (n_value (f n)) x = false) ->
  inv (q :: D) (update_at q f t).
Proof.
  intros I HD Hn HDn HL HC HV. pose proof (inv_same _ _ I q HD) as Hq. rewrite Hn in Hq. constructor.
  - intros q' [<-|Hq'].
    + exists n, (f n). split; auto. split; auto. apply node_at_update_same. exact Hq.
    + destruct (inv_done _ _ I q' Hq') as (a & b & A & B & C). exists a, b. split; auto. split; auto.
      rewrite node_at_update_disjoint; auto. rewrite disjoint_sym. auto.
  - intros p a Ha Hp. destruct (inv_beside _ _ I p a Ha) as (b & Hb & S); [intros d Hd; apply Hp; right; auto|].
    destruct (node_at_update_beside t q f p b Hb) as (c & Hc & S'); [apply Hp; left; auto|]. exists c. split; auto. eapply same_line_trans; eauto.
  - intros p Hp. rewrite node_at_update_disjoint; [|apply Hp; left; auto]. apply (inv_same _ _ I). intros d Hd. apply Hp. right; auto.
  - intros p m sel HE Hp. destruct (entry_path p m sel HE) as (cs & Hcs & HF & _ & HN). rewrite Hcs.
    apply addresses_beside; auto.
    + rewrite <- Hcs. apply (inv_path _ _ I p m sel HE). intros d Hd. apply Hp. right; auto.
    + apply Hp. left; auto.
    + intros c Hc. rewrite Hq in Hc. injection Hc as <-. split; auto. split; auto. destruct HV as [HV|HV]; auto. right.
      eapply Forall_impl; [|exact HN]. intros x [Dx|(p1 & k & A & B & C)]; [left; auto|right; eapply HV; eauto].
Qed.

(** The last component of the path of a list element is its number. *)
Lemma path_at_snoc n q i m c : node_at n q = Some m -> nth_error (n_children m) i = Some c ->
  path_at E n (q ++ [i]) = path_at E n q ++ own_text E (firstn i (n_children m)) c.
Proof.
  revert n; induction q as [|j q IH]; intros n Hm Hc; cbn [app path_at node_at] in *.
  - injection Hm as ->. rewrite Hc, app_nil_r. reflexivity.
  - destruct (nth_error (n_children n) j) as [d|]; [|discriminate]. rewrite (IH d Hm Hc), app_assoc. reflexivity.
Qed.
Lemma node_at_snoc n q i c : node_at n (q ++ [i]) = Some c -> exists m, node_at n q = Some m /\ nth_error (n_children m) i = Some c.
Proof.
  rewrite node_at_app. destruct (node_at n q) as [m|]; [|discriminate]. cbn [node_at]. intros H. exists m. split; auto.
  destruct (nth_error (n_children m) i); auto.
Qed.
Lemma element_path p m sel : entry p m sel -> n_lmf m = true ->
  exists ds c, path_at E root p = path_text (ds ++ [c]) /\ Forall component (ds ++ [c]) /\ isdigit c = true.
Proof.
  intros HE L. destruct (entry_path p m sel HE) as (cs & Hcs & HF & HA & _). pose proof HE as (Hm & HT & _).
  destruct p as [|j p].
  { exfalso. cbn [node_at] in Hm. injection Hm as <-. pose proof HAD as H. unfold addressable_document in H. rewrite !andb_true_iff in H.
    unfold terminal in HT. apply andb_prop in HT as (HT & _). rewrite HT in H. destruct H as ((H & _) & _). discriminate. }
  destruct (exists_last (l := j :: p)) as (q & i & Hq); [discriminate|]. rewrite Hq in *.
  destruct (node_at_snoc _ _ _ _ Hm) as (k & Hk & Hi).
  rewrite (path_at_snoc _ _ _ _ _ Hk Hi) in Hcs. unfold own_text in Hcs. rewrite L in Hcs.
  destruct (path_names E q root k Haddr Hk (has_children_not_comment _ _ _ Hi)) as (ds & Hds & F).
  set (c := str_of_nat (count_elements (firstn i (n_children k)))) in *.
  destruct (str_of_nat_spec (count_elements (firstn i (n_children k)))) as (Dc & _ & Cc). fold c in Dc, Cc.
  exists ds, c. split; [|split; auto].
  - rewrite (path_at_snoc _ _ _ _ _ Hk Hi). unfold own_text. rewrite L. fold c. rewrite Hds, path_text_app. cbn [path_text]. rewrite app_nil_r. reflexivity.
  - apply Forall_app. split; [eapply Forall_impl; [|exact F]; cbn; tauto|constructor; auto].
Qed.
End Phase.
