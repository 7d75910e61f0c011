(** Proofs for C122. *)
From Verif Require Export ContextProofs PathProofs2.
From Verif Require Import RefSpec.

Lemma no_groups_L s : no_groups (L_ s) = true.
Proof. induction s as [|c s IH]; [reflexivity|]. destruct s as [|d s]; [reflexivity|]. exact IH. Qed.
Lemma no_groups_name var : no_groups (name_re var) = true.
Proof.
  unfold name_re. induction var as [|c var IH]; [reflexivity|]. cbn [map]. destruct var as [|d var]; [cbn [map seqs]; destruct (ceq c "."%char); reflexivity|].
  change (seqs (?x :: map ?f (d :: var))) with (Seq x (seqs (map f (d :: var)))). cbn [no_groups]. rewrite IH. destruct (ceq c "."%char); reflexivity.
Qed.
Lemma no_groups_ref sv var : no_groups (var_ref_re sv var) = true.
Proof. unfold var_ref_re. cbn [seqs no_groups]. unfold L, DOTS. rewrite no_groups_name. destruct sv; rewrite ?no_groups_L; reflexivity. Qed.
Lemma name_char_lang c u : lang (if ceq c "."%char then Chr any_c else C c) u <-> exists d, u = [d] /\ (if ascii_dec c "." then d <> cNL else d = c).
Proof.
  destruct (ascii_dec c ".") as [->|N].
  - rewrite ceq_refl. cbn [lang]. unfold any_c. split; intros (d & -> & H); exists d; (split; [reflexivity|]).
    + intros ->. discriminate.
    + apply negb_true_iff. destruct (ceq d cNL) eqn:E; [apply ceq_eq in E; contradiction|reflexivity].
  - destruct (ceq c "."%char) eqn:E; [apply ceq_eq in E; contradiction|]. unfold C. cbn [lang]. split; intros (d & -> & H); exists d; (split; [reflexivity|]).
    + apply ceq_eq in H. congruence.
    + subst d. apply ceq_refl.
Qed.
Lemma name_lang var : forall v, lang (name_re var) v <-> name_as var v.
Proof.
  unfold name_re, name_as. induction var as [|c var IH]; intros v.
  - cbn [map seqs lang]. split; [intros ->; constructor|intros H; inversion H; reflexivity].
  - cbn [map]. destruct var as [|d var].
    + cbn [map seqs]. rewrite name_char_lang. split.
      * intros (x & -> & H). constructor; [exact H|constructor].
      * intros H. inversion H as [|? x ? t Hx Ht]; subst. inversion Ht; subst. exists x. auto.
    + change (seqs (?x :: map ?f (d :: var))) with (Seq x (seqs (map f (d :: var)))). cbn [lang]. split.
      * intros (u & t & -> & Hu & Ht). apply name_char_lang in Hu as (x & -> & Hx). apply IH in Ht. constructor; assumption.
      * intros H. inversion H as [|? x ? t Hx Ht]; subst. exists [x], t. split; [reflexivity|]. split; [apply name_char_lang; eauto|apply IH; exact Ht].
Qed.
Lemma dots_line u : lang DOTS u <-> ~ In cNL u.
Proof.
  unfold DOTS. cbn [lang]. rewrite Forall_forall. unfold any_c. split.
  - intros H HI. specialize (H _ HI). rewrite ceq_refl in H. discriminate.
  - intros H c Hc. apply negb_true_iff. destruct (ceq c cNL) eqn:E; auto. apply ceq_eq in E as ->. contradiction.
Qed.
Lemma found_ref sv var s : found (var_ref_re sv var) s = true <-> mentions sv var s.
Proof.
  rewrite (found_lang _ s (no_groups_ref sv var)). unfold var_ref_re. cbn [seqs]. unfold mentions. split.
  - intros (u & HL & a & b & ->). cbn [lang] in HL.
    destruct HL as (o & u1 & -> & H1 & x & u2 & -> & H2 & v & u3 & -> & H3 & y & e & -> & H4 & H5).
    assert (o = opening sv) as ->. { destruct sv; apply lang_L in H1; exact H1. }
    apply name_lang in H3. apply lang_L in H5 as ->.
    exists a, x, v, y, b. split; [exact H3|]. split; [|split; apply dots_line; assumption]. rewrite <- !app_assoc. reflexivity.
  - intros (a & x & v & y & b & Hv & -> & Hx & Hy). exists (opening sv ++ x ++ v ++ y ++ $"}}"). split.
    + cbn [lang]. exists (opening sv), (x ++ v ++ y ++ $"}}"). split; [reflexivity|]. split; [destruct sv; apply lang_L; reflexivity|].
      exists x, (v ++ y ++ $"}}"). split; [reflexivity|]. split; [apply dots_line; exact Hx|].
      exists v, (y ++ $"}}"). split; [reflexivity|]. split; [apply name_lang; exact Hv|].
      exists y, $"}}". split; [reflexivity|]. split; [apply dots_line; exact Hy|]. apply lang_L. reflexivity.
    + exists a, b. rewrite <- !app_assoc. reflexivity.
Qed.
Definition mentionsb (sv : schema) (var : str) (n : node) : bool :=
  match n_value n with VJ (JStr s) => found (var_ref_re sv var) s | _ => false end.
Lemma mentionsb_iff sv var n : mentionsb sv var n = true <-> mentioned_at sv var n.
Proof.
  unfold mentionsb, mentioned_at. destruct (n_value n) as [|[[| | | |s]| |]];
    try (split; [discriminate|intros (s' & [=] & _)]).
  rewrite found_ref. split; [eauto|]. intros (s' & [= <-] & H). exact H.
Qed.
Lemma positions_where_ext f g root : (forall n, f n = g n) -> positions_where f root = positions_where g root.
Proof. intros H. unfold positions_where. apply filter_ext. intros p. destruct (node_at root p); auto. Qed.
Lemma references E var r f : dmem var (r_vars r) = true -> (forall n, f n = true <-> mentioned_at (r_schema r) var n) ->
  get_variable_references E var r = first_occurrences (map (path_at E (r_root r)) (positions_where f (r_root r))).
Proof.
  intros Hv Hf. rewrite c08_variable_references, Hv. f_equal.
  rewrite (positions_where_ext f (mentionsb (r_schema r) var)).
  - apply (visits_filter E (r_root r) (mentionsb (r_schema r) var)). intros n H. unfold mentionsb in H. unfold is_comment.
    destruct (n_value n); [discriminate|reflexivity].
  - intros n. pose proof (Hf n) as H1. pose proof (mentionsb_iff (r_schema r) var n) as H2.
    destruct (f n), (mentionsb (r_schema r) var n); auto; [symmetry; apply H2, H1; reflexivity|apply H1, H2; reflexivity].
Qed.
Lemma references_unknown E var r : dmem var (r_vars r) = false -> get_variable_references E var r = [].
Proof. intros H. rewrite c08_variable_references, H. reflexivity. Qed.
Lemma references_decided sv var : exists f, forall n, f n = true <-> mentioned_at sv var n.
Proof. exists (mentionsb sv var). apply mentionsb_iff. Qed.
Lemma plain_name var v : ~ In "."%char var -> name_as var v <-> v = var.
Proof.
  intros N. unfold name_as. split.
  - intros H. induction H as [|c d var v Hc H IH]; [reflexivity|]. destruct (ascii_dec c ".") as [->|_]; [exfalso; apply N; left; reflexivity|].
    subst d. f_equal. apply IH. intros I. apply N. right. exact I.
  - intros ->. induction var as [|c var IH]; [constructor|]. constructor; [|apply IH; intros I; apply N; right; exact I].
    destruct (ascii_dec c ".") as [->|_]; [exfalso; apply N; left; reflexivity|reflexivity].
Qed.
