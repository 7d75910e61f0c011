(** C62: which license is chosen (proofs only). *)
From Verif Require Import Lemmas PathProofs PatchProofs2 PatchProofs3 DepsProofs ReportProofs ScriptsProofs ScriptsProofs3 ServiceProofs.
From Verif Require Import LicenseSpec.

Definition table (l : list (str * str)) : sdict str := fold_left (fun t x => dset (fst x) (snd x) t) l [].
Lemma table_snoc l x : table (l ++ [x]) = dset (fst x) (snd x) (table l).
Proof. unfold table. rewrite fold_left_app. reflexivity. Qed.
Lemma labels_snoc db l : labels (db ++ [l]) = (labels db ++ [(l_name l, l_id l)]) ++ [(l_id l, l_id l)].
Proof. unfold labels. rewrite flat_map_app. cbn [flat_map]. rewrite app_nil_r, <- app_assoc. reflexivity. Qed.
Lemma matching_is db : matching_table db = table (labels db).
Proof.
  induction db as [|l db IH] using rev_ind; [reflexivity|].
  rewrite matching_snoc, labels_snoc, !table_snoc, IH. reflexivity.
Qed.
Lemma table_keys l : dkeys (table l) = firsts (map fst l).
Proof.
  induction l as [|x l IH] using rev_ind; [reflexivity|].
  rewrite table_snoc, map_app, dset_keys, IH. apply firsts_step.
Qed.
Lemma table_get l k v : dget k (table l) = Some v <-> exists a b, l = a ++ (k, v) :: b /\ forall x, In x b -> fst x <> k.
Proof.
  induction l as [|[k' v'] l IH] using rev_ind.
  - split; [discriminate|]. intros (a & b & H & _). destruct a; discriminate.
  - rewrite table_snoc. cbn [fst snd]. destruct (str_eqb k k') eqn:K.
    + apply str_eqb_eq in K. subst k'. rewrite dget_dset_same. split.
      * intros H. injection H as ->. exists l, []. split; [reflexivity|intros x []].
      * intros (a & b & H & N). destruct b as [|y b] using rev_ind.
        { apply app_inj_tail in H. destruct H as [_ H]. injection H as ->. reflexivity. }
        rewrite app_comm_cons, app_assoc in H. apply app_inj_tail in H. destruct H as [_ <-].
        exfalso. apply (N (k, v')); [apply in_or_app; right; left; reflexivity|reflexivity].
    + apply str_eqb_neq in K. rewrite dget_dset_other by exact K. rewrite IH. split.
      * intros (a & b & -> & N). exists a, (b ++ [(k', v')]). split; [rewrite <- app_assoc; reflexivity|].
        intros x I. apply in_app_or in I. destruct I as [I|[<-|[]]]; [exact (N x I)|]. intros E. apply K. symmetry. exact E.
      * intros (a & b & H & N). destruct b as [|y b] using rev_ind.
        { apply app_inj_tail in H. destruct H as [_ H]. injection H as E _. exfalso. apply K. symmetry. exact E. }
        rewrite app_comm_cons, app_assoc in H. apply app_inj_tail in H. destruct H as [-> <-].
        exists a, b. split; [reflexivity|]. intros x I. apply N, in_or_app. left. exact I.
Qed.
Lemma corrected_dec s : (exists r, corrected s r /\ dget (upper (strip s)) patch_table = Some r)
  \/ ((forall r, ~ corrected s r) /\ dget (upper (strip s)) patch_table = None).
Proof.
  unfold patch_table. cbn [dget].
  destruct (str_eqb (upper (strip s)) (lit "BSD 2-CLAUSE ""SIMPLIFIED""")) eqn:K1.
  { left. eexists. split; [|reflexivity]. apply str_eqb_eq in K1. apply (cr_bsd _ (strip s)); [apply strip_trims|exact K1]. }
  destruct (str_eqb (upper (strip s)) $"UNLIMITED") eqn:K2.
  { left. eexists. split; [|reflexivity]. apply str_eqb_eq in K2. apply (cr_unlimited _ (strip s)); [apply strip_trims|exact K2]. }
  right. split; [|reflexivity]. apply str_eqb_neq in K1. apply str_eqb_neq in K2.
  intros r U. destruct U as [m T U|m T U]; apply trims_unique in T; subst m; contradiction.
Qed.
Lemma compound_dec s : (existsb (fun op => contains_sub op (upper (strip s))) EXPRESSION_OPS || contains_sub $"," (upper (strip s)) = true -> compound s).
Proof.
  intros H. apply orb_true_iff in H. destruct H as [K1|K2].
  - unfold EXPRESSION_OPS in K1. cbn [existsb] in K1. rewrite !orb_true_iff in K1.
    unfold compound. destruct K1 as [K1|[K1|[K1|K1]]]; try discriminate; apply sub_mentions in K1; tauto.
  - apply sub_mentions in K2. destruct K2 as (a & m & b & -> & Hm).
    unfold compound. right. right. right. apply in_or_app. right. apply in_or_app. left.
    destruct m as [|c [|c2 m]]; try discriminate. injection Hm as Hm. left. apply upper_comma. exact Hm.
Qed.
Lemma known_dec db s : mem_str s (license_ids db) = true <-> known_id db s.
Proof.
  rewrite mem_str_In. unfold license_ids. rewrite in_map_iff. split; intros (l & A & B); exists l; split; assumption.
Qed.
Lemma c62_chosen close db s : chosen close db s (find_closest_license_match close db s).
Proof.
  unfold find_closest_license_match. destruct (mem_str s (license_ids db)) eqn:K.
  { apply ch_known, known_dec, K. }
  assert (~ known_id db s) as N by (rewrite <- known_dec, K; discriminate). cbv zeta.
  pose proof (compound_dec s) as CD. pose proof (compound_none s) as CN.
  destruct (existsb _ EXPRESSION_OPS); [apply ch_compound; [exact N|apply CD; reflexivity]|].
  destruct (contains_sub $"," _); [apply ch_compound; [exact N|apply CD; reflexivity]|].
  assert (~ compound s) as NC by (intros C; destruct (CN C); discriminate).
  destruct (corrected_dec s) as [(r & U & ->)|(U & ->)]; [exact (ch_corrected _ _ _ r N NC U)|].
  rewrite matching_is, table_keys. destruct (close s _) as [label|] eqn:C; [|apply ch_nothing_close; assumption].
  destruct (dget label (table (labels db))) as [id|] eqn:G.
  - apply table_get in G. exact (ch_close _ _ _ label id N NC U C G).
  - apply (ch_stranger _ _ _ label N NC U C). rewrite <- firsts_in, <- table_keys. apply get_none. exact G.
Qed.
Lemma stands_one db k a b : stands_for db k a -> stands_for db k b -> a = b.
Proof. intros A B. apply table_get in A. apply table_get in B. congruence. Qed.
Lemma corrected_one s a b : corrected s a -> corrected s b -> a = b.
Proof.
  intros A B. destruct A as [m T U|m T U]; destruct B as [m' T' U'|m' T' U']; try reflexivity;
    apply trims_unique in T; apply trims_unique in T'; subst; rewrite U in U'; discriminate.
Qed.
Lemma stands_in db k a : stands_for db k a -> In k (map fst (labels db)).
Proof. intros (x & y & -> & _). rewrite map_app. apply in_or_app. right. left. reflexivity. Qed.
Lemma c62_one close db s a b : chosen close db s a -> chosen close db s b -> a = b.
Proof.
  intros A B. destruct A; destruct B; try reflexivity; try contradiction; try congruence;
    repeat match goal with
      | H : forall r, ~ corrected ?s r, K : corrected ?s ?r |- _ => destruct (H r K)
      | H : corrected ?s ?r, K : corrected ?s ?q |- _ => rewrite (corrected_one _ _ _ H K); reflexivity
      | H : ?c = Some ?x, K : ?c = Some ?y |- _ => rewrite H in K; injection K as K; subst
      | H : stands_for ?db ?k ?a, K : stands_for ?db ?k ?b |- _ => rewrite (stands_one _ _ _ _ H K); reflexivity
      | H : stands_for ?db ?k ?a, K : ~ In ?k _ |- _ => destruct (K (stands_in _ _ _ H))
      end.
Qed.
