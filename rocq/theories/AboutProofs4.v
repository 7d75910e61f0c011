(** C133: the tree with the new names is determined, and checks of the hypotheses. *)
From Verif Require Import AboutProofs3 VarsProofs4 PlainProofs PatchSpec PlainSpec AboutSpec.

Lemma kept_one l a : kept_lines l a -> forall b, kept_lines l b -> a = b.
Proof.
  induction 1 as [|x l l' N K IH|c x l l' O C K IH]; intros b B; inversion B as [|x1 l1 l1' N1 K1|c1 x1 l1 l1' O1 C1 K1]; subst.
  - reflexivity.
  - f_equal. apply IH. assumption.
  - exfalso. eapply N; eassumption.
  - exfalso. eapply N1; eassumption.
  - apply IH. assumption.
Qed.
Lemma new_line_one E root cd a b : new_line E root cd a -> new_line E root cd b -> a = b.
Proof.
  intros A B. inversion A as [c d NS|c d v x SL V W C P]; subst; inversion B as [c1 d1 NS1|c1 d1 v1 x1 SL1 V1 W1 C1 P1]; subst; try reflexivity; try contradiction.
  rewrite V in V1. injection V1 as <-. unfold written_as in W, W1. rewrite W in W1. congruence.
Qed.
Lemma only_one {A} (P : A -> Prop) : forall before a after before' a' after', before ++ a :: after = before' ++ a' :: after' -> P a -> P a' ->
  (forall x, In x (before ++ after) -> ~ P x) -> before = before' /\ a = a' /\ after = after'.
Proof.
  induction before as [|x before IH]; intros a after [|y before'] a' after' H PA PA' N; cbn [app] in H; injection H as H1 H2; subst.
  - auto.
  - exfalso. apply (N a'); [|exact PA']. cbn [app]. apply in_elt.
  - exfalso. apply (N a'); [left; reflexivity|exact PA'].
  - destruct (IH a after before' a' after' H2 PA PA') as (-> & -> & ->); [intros x I; apply N; right; exact I|auto].
Qed.
Lemma about_one E root a b : about_renewed E root a -> about_renewed E root b -> a = b.
Proof.
  intros (b1 & a1 & f1 & k1 & n1 & H1 & C1 & N1 & K1 & L1 & ->) (b2 & a2 & f2 & k2 & n2 & H2 & C2 & N2 & K2 & L2 & ->).
  rewrite H1 in H2. destruct (only_one (called $"about") _ _ _ _ _ _ H2 C1 C2 N1) as (-> & -> & ->). rewrite (kept_one _ _ K1 _ K2).
  enough (n1 = n2) as -> by reflexivity. revert L1 L2. generalize about_new_names. clear. intros cds L1. revert n2. induction L1 as [|cd n cds ns H L IH]; intros n2 L2; inversion L2; subst; [reflexivity|].
  f_equal; [eapply new_line_one; eassumption|apply IH; assumption].
Qed.
(** There is such a tree when the values can be read and written. *)
Definition about_names : list str := map snd old_about_fields.
Lemma old_about_iff c : old_about_name c <-> In c about_names.
Proof.
  unfold old_about_name, about_names. split; intros I; [apply (in_map snd) in I; exact I|].
  apply in_map_iff in I as ((s & c') & <- & I). assert (forall q, In q old_about_fields -> fst q = $"about") as X; [|rewrite <- (X _ I); exact I].
  apply Forall_forall. repeat constructor.
Qed.
Lemma called_iff s n : is_called s n = true -> called s n.
Proof. unfold called, is_called. destruct (n_value n) as [|[[]| |]]; cbn [val_is]; try discriminate. intros H. apply str_eqb_eq in H as ->. reflexivity. Qed.
Definition is_old (x : node) : bool := existsb (fun c => is_called c x) about_names.
Lemma kept_filter l : kept_lines l (filter (fun x => negb (is_old x)) l).
Proof.
  induction l as [|x l IH]; [constructor|]. cbn [filter]. destruct (is_old x) eqn:O; cbn [negb].
  - apply existsb_exists in O as (c & I & C). apply (kept_not c); [apply old_about_iff; exact I|apply called_iff; exact C|exact IH].
  - apply kept_this; [|exact IH]. intros c OC C. apply old_about_iff in OC. assert (is_old x = true); [|congruence]. apply existsb_exists. exists c. split; [exact OC|apply is_called_iff; exact C].
Qed.
Definition about_order_check (root : node) : bool :=
  forallb (fun a => negb (is_called $"about" a)
    || negb (n_lmf a)
       && forallb (fun c => forallb (fun x => negb (is_called c x) || negb (bare_value x)) (n_children a)
                            && Nat.leb (length (filter (is_called c) (n_children a))) 1) about_names
       && forallb (fun cd => forallb (fun x => negb (is_called (snd cd) x)) (n_children a)) about_new_names) (n_children root).
Lemma about_order_checked root : about_order_check root = true -> about_in_order root.
Proof.
  unfold about_order_check. rewrite forallb_forall. intros H a I C. specialize (H a I). rewrite (is_called_iff _ _ C) in H. cbn [negb orb] in H.
  apply andb_prop in H as (H & H3). apply andb_prop in H as (H1 & H2). apply negb_true_iff in H1. rewrite forallb_forall in H2, H3. split; [exact H1|]. split.
  - intros c l1 x l2 O E K. apply old_about_iff in O. specialize (H2 c O). apply andb_prop in H2 as (A & B). rewrite forallb_forall in A.
    assert (In x (n_children a)) as J by (rewrite E; apply in_elt). apply A in J. rewrite (is_called_iff _ _ K) in J. cbn [negb orb] in J. apply negb_true_iff in J. split; [exact J|].
    intros y Y D. rewrite E, filter_app in B. cbn [filter] in B. rewrite (is_called_iff _ _ K), app_length in B. cbn [length] in B. apply Nat.leb_le in B.
    apply is_called_iff in D. apply in_app_iff in Y as [Y|Y].
    + assert (In y (filter (is_called c) l1)) as Z by (apply filter_In; auto). destruct (filter (is_called c) l1); [contradiction|]. cbn [length] in B. lia.
    + assert (In y (filter (is_called c) l2)) as Z by (apply filter_In; auto). destruct (filter (is_called c) l2); [contradiction|]. cbn [length] in B. lia.
  - intros c d x O J D. specialize (H3 (c, d) O). cbn [snd] in H3. rewrite forallb_forall in H3. specialize (H3 x J). rewrite (is_called_iff _ _ D) in H3. discriminate.
Qed.
Definition only_about_check (root : node) : bool :=
  forallb (fun s => negb (has_top s root)) old_sections
  && forallb (fun p => negb (has_section_line (fst p) (snd p) root)) (old_build_fields ++ [($"requirements", $"run_constrained")])
  && forallb (fun c => negb (has_source_line c root)) old_source_fields.
Lemma only_about_checked root : only_about_check root = true -> old_only_in_about root.
Proof.
  unfold only_about_check. rewrite !andb_true_iff, !forallb_forall. intros ((A & B) & C). split; [|split].
  - intros s I H. apply has_top_iff in H. specialize (A s I). rewrite H in A. discriminate.
  - intros s c I H. apply has_section_line_iff in H. specialize (B (s, c) I). cbn [fst snd] in B. rewrite H in B. discriminate.
  - intros c I H. specialize (C c I). assert (has_source_line c root = true) as X; [|rewrite X in C; discriminate].
    unfold has_source_line. destruct H as [H|(a & e & b & I1 & K & I2 & _ & I3 & L)]; [rewrite (has_section_line_iff _ _ _ H); reflexivity|].
    apply orb_true_iff. right. apply existsb_exists. exists a. split; [exact I1|]. rewrite (is_called_iff _ _ K). apply existsb_exists. exists e.
    split; [exact I2|]. apply existsb_exists. exists b. split; [exact I3|apply is_called_iff; exact L].
Qed.
