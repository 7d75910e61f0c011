(** Lookups beside a changed line, and the two kinds of replacement of the selector step (C91). *)
From Verif Require Export ConvertProofs10 DepsProofs2 SelProofs3.
From Verif Require Import PhaseSpec.

(** * Lookups beside a changed line *)
Lemma v2p_flags k l l' : map is_comment l = map is_comment l' -> virt_to_phys_aux k l = virt_to_phys_aux k l'.
Proof.
  revert k l'; induction l as [|x l IH]; intros k [|y l'] H; try discriminate; auto.
  rewrite !map_cons in H. injection H as H1 H2. cbn [virt_to_phys_aux]. rewrite H1, (IH _ _ H2). reflexivity.
Qed.
Lemma map_nth_flag {A} (g : node -> A) i f l : (forall c, nth_error l i = Some c -> g (f c) = g c) -> map g (map_nth i f l) = map g l.
Proof.
  revert i; induction l as [|x l IH]; intros [|i] H; cbn [map_nth]; auto; rewrite !map_cons; f_equal; auto.
Qed.
(** The child a path component selects stays the same if another child changes its value to something not called so. *)
Lemma find_child_beside x k l i f j c : find_child x k l = Some (j, c) -> j <> k + i ->
  (forall d, nth_error l i = Some d -> n_value (f d) = n_value d \/ val_is (n_value (f d)) x = false) ->
  find_child x k (map_nth i f l) = Some (j, c).
Proof.
  revert k i; induction l as [|d l IH]; intros k i H N HF; cbn [find_child map_nth] in *; [discriminate|].
  destruct i as [|i]; cbn [map_nth find_child].
  - destruct (val_is (n_value d) x) eqn:V; [injection H as <- <-; lia|].
    destruct (HF d eq_refl) as [->|W]; [rewrite V|rewrite W]; exact H.
  - destruct (val_is (n_value d) x); auto. apply IH; auto. lia.
Qed.
Lemma find_child_here x k l i f c : find_child x k l = Some (k + i, c) -> n_value (f c) = n_value c ->
  find_child x k (map_nth i f l) = Some (k + i, f c).
Proof.
  revert k i; induction l as [|d l IH]; intros k i H HV; cbn [find_child map_nth] in *; [discriminate|].
  destruct (val_is (n_value d) x) eqn:V.
  - injection H as H ->. assert (i = 0) as -> by lia. cbn [map_nth find_child]. rewrite HV, V. f_equal. f_equal. lia.
  - destruct i as [|i].
    + exfalso. rewrite Nat.add_0_r in H. apply find_child_spec in H. lia.
    + cbn [map_nth find_child]. rewrite V. replace (k + S i) with (S k + i) in * by lia. auto.
Qed.
Definition unnamed (x : str) (v : nval) : Prop := isdigit x = true \/ val_is v x = false.
Lemma step_beside n x j c i f : step_child n x = Some (j, c) -> j <> i ->
  (forall d, nth_error (n_children n) i = Some d ->
     n_lmf (f d) = n_lmf d /\ is_comment (f d) = is_comment d /\ (n_value (f d) = n_value d \/ unnamed x (n_value (f d)))) ->
  step_child (set_children (map_nth i f (n_children n)) n) x = Some (j, c).
Proof.
  intros H N HF. unfold step_child in *. rewrite children_set. destruct (isdigit x) eqn:D.
  - unfold virt_to_phys in *. rewrite <- (v2p_flags 0 (n_children n)).
    + destruct (nth_error (virt_to_phys_aux 0 (n_children n)) (int_of x)) as [k|]; [|discriminate].
      destruct (nth_error (n_children n) k) as [d|] eqn:K; [|discriminate]. destruct (n_lmf d) eqn:L; [|discriminate].
      injection H as <- <-. rewrite nth_map_nth_other, K, L by auto. reflexivity.
    + symmetry. apply map_nth_flag. intros d Hd. apply (HF d Hd).
  - apply find_child_beside; auto. intros d Hd. destruct (HF d Hd) as (_ & _ & [V|[V|V]]); auto. congruence.
Qed.
Lemma step_here n x i c f : step_child n x = Some (i, c) ->
  n_lmf (f c) = n_lmf c -> is_comment (f c) = is_comment c -> (n_value (f c) = n_value c \/ isdigit x = true) ->
  step_child (set_children (map_nth i f (n_children n)) n) x = Some (i, f c).
Proof.
  intros H HL HC HV. pose proof (step_child_nth _ _ _ _ H) as Hi. unfold step_child in *. rewrite children_set. destruct (isdigit x) eqn:D.
  - unfold virt_to_phys in *. rewrite <- (v2p_flags 0 (n_children n)).
    + destruct (nth_error (virt_to_phys_aux 0 (n_children n)) (int_of x)) as [k|]; [|discriminate].
      destruct (nth_error (n_children n) k) as [d|] eqn:K; [|discriminate]. destruct (n_lmf d) eqn:L; [|discriminate].
      injection H as <- <-. rewrite nth_map_nth_same, K. cbn [option_map]. rewrite HL, L. reflexivity.
    + symmetry. apply map_nth_flag. intros d Hd. rewrite Hi in Hd. injection Hd as <-. exact HC.
  - destruct HV as [HV|HV]; [|discriminate]. apply (find_child_here x 0 _ i f c); auto.
Qed.
Lemma label_inner i p f n : n_value (update_at (i :: p) f n) = n_value n /\ n_lmf (update_at (i :: p) f n) = n_lmf n
  /\ is_comment (update_at (i :: p) f n) = is_comment n.
Proof.
  cbn [update_at]. rewrite set_children_value, set_children_lmf. repeat split.
  unfold is_comment. rewrite set_children_value, set_children_comment, children_set. f_equal.
  destruct (n_children n) as [|c l]; destruct i; reflexivity.
Qed.
Lemma recurse_beside parts : forall n q d f, traverse_recurse n parts = Some q -> disjoint d q = true ->
  (forall c, node_at n d = Some c -> n_lmf (f c) = n_lmf c /\ is_comment (f c) = is_comment c
                                     /\ (n_value (f c) = n_value c \/ Forall (fun x => unnamed x (n_value (f c))) parts)) ->
  traverse_recurse (update_at d f n) parts = Some q.
Proof.
  induction parts as [|x parts IH]; intros n q d f H HD HF; cbn [traverse_recurse] in H.
  - injection H as <-. destruct d; discriminate.
  - destruct (step_child n x) as [[j c]|] eqn:Hs; [|discriminate].
    destruct (traverse_recurse c parts) as [q'|] eqn:Hr; [|discriminate]. cbn [option_map] in H. injection H as <-.
    destruct d as [|i d]; [discriminate|]. cbn [disjoint] in HD. cbn [update_at traverse_recurse].
    pose proof (step_child_nth _ _ _ _ Hs) as Hj. destruct (Nat.eqb_spec i j) as [->|N].
    + destruct d as [|k d]; [discriminate|].
      rewrite (step_here n x j c (update_at (k :: d) f) Hs); try apply label_inner; auto.
      2:{ left. apply label_inner. }
      rewrite (IH c q' (k :: d) f Hr HD); auto.
      intros b Hb. assert (node_at n (j :: k :: d) = Some b) as Hb' by (cbn [node_at] in *; rewrite Hj; exact Hb).
      destruct (HF b Hb') as (A & B & C). split; auto. split; auto. destruct C as [C|C]; auto. inversion C; auto.
    + rewrite (step_beside n x j c i (update_at d f) Hs); auto.
      * rewrite Hr. reflexivity.
      * intros b Hb. destruct d as [|k d].
        { cbn [update_at]. assert (node_at n [i] = Some b) as Hb' by (cbn [node_at]; rewrite Hb; reflexivity).
          destruct (HF b Hb') as (A & B & C). split; auto. split; auto. destruct C as [C|C]; auto. right. inversion C; auto. }
        { pose proof (label_inner k d f b) as (A & B & C). auto. }
Qed.
Lemma addresses_beside cs root q d f : Forall component cs -> addresses root (path_text cs) q -> disjoint d q = true ->
  (forall c, node_at root d = Some c -> n_lmf (f c) = n_lmf c /\ is_comment (f c) = is_comment c
                                        /\ (n_value (f c) = n_value c \/ Forall (fun x => unnamed x (n_value (f c))) cs)) ->
  addresses (update_at d f root) (path_text cs) q.
Proof.
  intros HC (st & H1 & H2) HD HF. exists st. split; auto.
  destruct cs as [|x cs]; [discriminate|]. rewrite stack_of_path in H1 by (auto; discriminate).
  assert (st = rev (x :: cs) ++ [ROOT_VALUE]) as -> by congruence.
  unfold traverse_pos in *. rewrite rev_app_distr, rev_involutive in H2. cbn [rev app] in H2. rewrite rev_app_distr, rev_involutive. cbn [rev app]. apply recurse_beside; auto.
Qed.

(** * Lines that are not at or below a changed line *)
Lemma same_line_refl n : same_line n n.
Proof. repeat split. Qed.
Lemma same_line_trans a b c : same_line a b -> same_line b c -> same_line a c.
Proof. unfold same_line. intuition congruence. Qed.
Lemma node_at_update_beside n q f : forall p m, node_at n p = Some m -> ~ above q p ->
  exists m', node_at (update_at q f n) p = Some m' /\ same_line m m'.
Proof.
  revert n. induction q as [|i q IH]; intros n p m Hm HA.
  - exfalso. apply HA. exists p. reflexivity.
  - destruct p as [|j p].
    + cbn [node_at] in *. injection Hm as <-. eexists. split; [reflexivity|]. cbn [update_at]. unfold same_line.
      destruct n as [v c chs l ml k]. cbn [set_children n_value n_comment n_lmf n_ml n_keyf n_children]. rewrite map_nth_length. repeat split.
    + cbn [node_at update_at] in *. rewrite children_set. destruct (Nat.eq_dec i j) as [->|N].
      * rewrite nth_map_nth_same. destruct (nth_error (n_children n) j) as [c|] eqn:Hj; [|discriminate]. cbn [option_map].
        apply IH; auto. intros (r & ->). apply HA. exists r. reflexivity.
      * rewrite nth_map_nth_other by auto. exists m. split; auto. apply same_line_refl.
Qed.
Lemma disjoint_spec p q : disjoint p q = true <-> ~ above p q /\ ~ above q p.
Proof.
  revert q; induction p as [|i p IH]; intros q; cbn [disjoint].
  - split; [discriminate|]. intros (H & _). exfalso. apply H. exists q. reflexivity.
  - destruct q as [|j q].
    + split; [discriminate|]. intros (_ & H). exfalso. apply H. exists (i :: p). reflexivity.
    + destruct (Nat.eqb_spec i j) as [->|N].
      * rewrite IH. unfold above. split; intros (A & B); split; intros (r & Hr); [apply A|apply B|apply A|apply B]; exists r; cbn [app] in *; congruence.
      * split; auto. intros _. unfold above. split; intros (r & Hr); cbn [app] in Hr; congruence.
Qed.
Lemma disjoint_sym p q : disjoint p q = disjoint q p.
Proof.
  revert q; induction p as [|i p IH]; intros [|j q]; cbn [disjoint]; auto. rewrite Nat.eqb_sym. destruct (j =? i); auto.
Qed.

(** * Paths of values *)
Lemma path_names E : forall p n m, addressable n = true -> node_at n p = Some m -> is_comment m = false ->
  exists cs, path_at E n p = path_text cs
  /\ Forall (fun x => component x /\ (isdigit x = true \/ exists q k, node_at n q = Some k /\ is_key_line k = true /\ n_value k = VJ (JStr x))) cs.
Proof.
  induction p as [|i p IH]; intros n m Ha Hm HC; cbn [path_at node_at] in *.
  - exists []. split; [reflexivity|constructor].
  - destruct (nth_error (n_children n) i) as [c|] eqn:Hi; [|discriminate].
    assert (is_comment c = false) as Hc.
    { destruct p as [|j p]; cbn [node_at] in Hm; [congruence|].
      destruct (nth_error (n_children c) j) eqn:Ej; [|discriminate]. eapply has_children_not_comment; eauto. }
    destruct (IH c m (addressable_children _ _ _ Ha Hi) Hm HC) as (cs & Hcs & F).
    assert (Forall (fun x => component x /\ (isdigit x = true \/ exists q k, node_at n q = Some k /\ is_key_line k = true /\ n_value k = VJ (JStr x))) cs) as F'.
    { eapply Forall_impl; [|exact F]. intros x (Cx & [D|(q & k & A & B & C)]); split; auto. right. exists (i :: q), k. split; auto.
      cbn [node_at]. rewrite Hi. exact A. }
    destruct (terminal c && negb (n_keyf c) && negb (n_lmf c)) eqn:Hp.
    + exists cs. split; auto. rewrite Hcs. unfold own_text. rewrite !andb_true_iff, !negb_true_iff in Hp. destruct Hp as ((T & K) & L).
      rewrite L, T, K. reflexivity.
    + destruct (own_component E n i c Ha Hi Hc Hp) as (x & Cx & Tx & Sx). exists (x :: cs). split.
      * rewrite Tx, Hcs. reflexivity.
      * constructor; auto. split; auto. destruct (isdigit x) eqn:D; auto. right. exists [i], c.
        split; [cbn [node_at]; rewrite Hi; reflexivity|]. unfold own_text in Tx. destruct (n_lmf c) eqn:L.
        { injection Tx as <-. rewrite (proj1 (str_of_nat_spec _)) in D. discriminate. }
        rewrite andb_true_r in Hp.
        split; [unfold is_key_line; rewrite L, Hc, Hp; reflexivity|].
        unfold step_child in Sx. rewrite D in Sx. apply find_child_spec in Sx as (_ & _ & V & _).
        unfold val_is in V. destruct (n_value c) as [|[[]| |]]; try discriminate. apply str_eqb_eq in V. subst. reflexivity.
Qed.
