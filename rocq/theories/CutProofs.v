(** C126 (proofs only). *)
From Verif Require Import Lemmas PathProofs RegexProofs RenderProofs PreProofs2 Reader CutSpec.

Definition jform (u : str) : Prop := exists o, u = o ++ [cNL] /\ closed o /\ ~ In cNL o.
Lemma dots_lang u : lang DOTS u <-> ~ In cNL u.
Proof.
  unfold DOTS. cbn [lang]. rewrite Forall_forall. split.
  - intros H I. specialize (H _ I). discriminate.
  - intros N c I. unfold any_c. destruct (ceq c cNL) eqn:E; [apply ceq_eq in E; subst; contradiction|reflexivity].
Qed.
Lemma jform_lang u : jform u <-> lang JINJA_V0_LINE u.
Proof.
  unfold JINJA_V0_LINE. cbn [seqs]. split.
  - intros (o & -> & (mid & [->| ->]) & N); (eexists; eexists; split; [reflexivity|]; split; [|exists cNL; split; reflexivity]).
    + left. do 2 eexists. split; [reflexivity|]. split; [apply lang_L; reflexivity|]. do 2 eexists. split; [reflexivity|]. split; [|apply lang_L; reflexivity].
      apply dots_lang. intros I. apply N. apply in_or_app. right. apply in_or_app. left. exact I.
    + right. do 2 eexists. split; [reflexivity|]. split; [apply lang_L; reflexivity|]. do 2 eexists. split; [reflexivity|]. split; [|apply lang_L; reflexivity].
      apply dots_lang. intros I. apply N. apply in_or_app. right. apply in_or_app. left. exact I.
  - intros (o & e & -> & H & (c & -> & Hc)). apply ceq_eq in Hc. subst c. exists o. split; [reflexivity|].
    destruct H as [(a & r & -> & La & (d & b & -> & Ld & Lb))|(a & r & -> & La & (d & b & -> & Ld & Lb))];
      apply lang_L in La as ->; apply lang_L in Lb as ->; apply dots_lang in Ld; (split; [exists d; auto|]);
      (intros I; repeat (apply in_app_or in I as [I|I]); try contradiction; revert I; vm_compute; intuition discriminate).
Qed.
Lemma replaced_cut s s' : replaced_in jform (fun _ w _ => w = []) s s' -> taken_out s s'.
Proof.
  induction 1 as [|c s s' HN H IH|u w s s' (o & -> & C & N) -> H IH].
  - constructor. intros [].
  - destruct (ceq c cNL) eqn:Ec.
    + apply ceq_eq in Ec as ->. apply (line_kept [] s s'); [intros []| |exact IH].
      intros p o E (m & [->| ->]); destruct p; discriminate.
    + apply ceq_neq in Ec. destruct IH as [x Nx|x s s' Nx Hx T|p o s s' Np C Hm T].
      * constructor. intros [I|I]; auto.
      * apply (line_kept (c :: x)); [intros [I|I]; auto| |exact T]. intros [|d p] o E C.
        -- cbn [app] in E. subst o. apply (HN ((c :: x) ++ [cNL]) s); [cbn [app]; rewrite <- app_assoc; reflexivity|].
           exists (c :: x). split; [reflexivity|]. split; [exact C|]. intros [I|I]; auto.
        -- cbn [app] in E. injection E as <- E. exact (Hx p o E C).
      * apply (line_cut (c :: p)); [intros [I|I]; auto|exact C| |exact T]. intros [|d p'] o' E C'.
        -- exfalso. cbn [app] in E. subst o'. apply (HN ((c :: p ++ o) ++ [cNL]) s); [cbn [app]; rewrite <- !app_assoc; reflexivity|].
           exists (c :: p ++ o). split; [reflexivity|]. split; [exact C'|]. intros [I|I]; auto.
        -- cbn [app] in E. injection E as <- E. cbn [length]. specialize (Hm p' o' E C'). lia.
  - rewrite <- app_assoc. cbn [app]. apply (line_cut [] o s s'); [exact N|exact C| |exact IH]. intros. cbn [length]. lia.
Qed.
Lemma c126 s : taken_out s (re_sub JINJA_V0_LINE [] s).
Proof.
  apply replaced_cut. apply (sub_texts JINJA_V0_LINE jform []); [reflexivity|apply jform_lang|].
  intros (o & E & _). destruct o; discriminate.
Qed.

(** * Uniqueness *)
Lemma nl_unique : forall (x y : str) s t, ~ In cNL x -> ~ In cNL y -> x ++ cNL :: s = y ++ cNL :: t -> x = y /\ s = t.
Proof.
  induction x as [|c x IH]; intros [|d y] s t Nx Ny E; cbn [app] in E.
  - injection E as E. auto.
  - injection E as E1 E2. exfalso. apply Ny. left. congruence.
  - injection E as E1 E2. exfalso. apply Nx. left. congruence.
  - injection E as E1 E2. subst d. destruct (IH y s t) as [-> ->]; [intros I; apply Nx; right; exact I|intros I; apply Ny; right; exact I|exact E2|auto].
Qed.
Lemma taken_unique s a : taken_out s a -> forall b, taken_out s b -> a = b.
Proof.
  intros H. induction H as [x N|x s s' N HN H IH|p o s s' N C HM H IH]; intros b Hb.
  - inversion Hb as [y Ny Ey|y t t' Ny HNy Ht Ey|p o t t' Np Cp Hm Ht Ey]; [reflexivity| |].
    + exfalso. apply N. rewrite <- Ey. apply in_or_app. right. left. reflexivity.
    + exfalso. apply N. rewrite <- Ey. apply in_or_app. right. apply in_or_app. right. left. reflexivity.
  - inversion Hb as [y Ny Ey|y t t' Ny HNy Ht Ey|p o t t' Np Cp Hm Ht Ey].
    + exfalso. apply Ny. apply in_or_app. right. left. reflexivity.
    + apply nl_unique in Ey as [Q1 Q2]; [|assumption|assumption]. subst y t. f_equal. f_equal. apply IH. exact Ht.
    + exfalso. rewrite app_assoc in Ey. apply nl_unique in Ey as [E _]; [|assumption|assumption]. apply (HN p o); auto.
  - inversion Hb as [y Ny Ey|y t t' Ny HNy Ht Ey|p2 o2 t t' Np Cp Hm Ht Ey].
    + exfalso. apply Ny. apply in_or_app. right. apply in_or_app. right. left. reflexivity.
    + exfalso. rewrite app_assoc in Ey. apply nl_unique in Ey as [E _]; [|assumption|assumption]. apply (HNy p o); auto.
    + rewrite !app_assoc in Ey. apply nl_unique in Ey as [E Q2]; [|assumption|assumption]. subst t.
      assert (length p = length p2) as L.
      { specialize (Hm p o E C). specialize (HM p2 o2 (eq_sym E) Cp). lia. }
      assert (p = p2) as -> by (apply (f_equal (firstn (length p))) in E; rewrite L in E at 1; rewrite !firstn_app in E;
        rewrite L, !Nat.sub_diag, !firstn_O, !app_nil_r in E; rewrite firstn_all in E; rewrite <- L, firstn_all in E; congruence).
      f_equal. apply IH. exact Ht.
Qed.
Lemma taken_app a t : taken_out (a ++ [cNL]) t -> forall s s', taken_out s s' -> taken_out (a ++ cNL :: s) (t ++ s').
Proof.
  remember (a ++ [cNL]) as x eqn:Ex. intros H. revert a Ex. induction H as [x N|x q q' N HN H IH|p o q q' N C HM H IH]; intros a Ex s s' T.
  - exfalso. apply N. rewrite Ex. apply in_or_app. right. left. reflexivity.
  - assert (q = [] /\ x = a \/ exists q1, q = q1 ++ [cNL] /\ a = x ++ cNL :: q1) as [[-> ->]|(q1 & -> & ->)].
    { destruct q as [|c q] using rev_ind.
      - left. apply app_inj_tail in Ex as [-> _]. auto.
      - right. clear IHq. change (x ++ cNL :: q ++ [c]) with (x ++ (cNL :: q) ++ [c]) in Ex. rewrite app_assoc in Ex. apply app_inj_tail in Ex as [<- ->]. exists q. auto. }
    + inversion H as [y Ny Ey|y r r' Ny HNy Ht Ey|p o r r' Np Cp Hm Ht Ey]; [subst|destruct y; discriminate|destruct p; [destruct o; discriminate|discriminate]].
      rewrite <- app_assoc. cbn [app]. apply line_kept; assumption.
    + rewrite <- !app_assoc. cbn [app]. apply line_kept; [assumption|assumption|]. apply (IH q1 eq_refl s s' T).
  - assert (q = [] /\ p ++ o = a \/ exists q1, q = q1 ++ [cNL] /\ a = p ++ o ++ cNL :: q1) as [[-> <-]|(q1 & -> & ->)].
    { rewrite app_assoc in Ex. destruct q as [|c q] using rev_ind.
      - left. apply app_inj_tail in Ex as [-> _]. auto.
      - right. clear IHq. change ((p ++ o) ++ cNL :: q ++ [c]) with ((p ++ o) ++ (cNL :: q) ++ [c]) in Ex. rewrite app_assoc in Ex. apply app_inj_tail in Ex as [<- ->].
        exists q. rewrite <- app_assoc. auto. }
    + inversion H as [y Ny Ey|y r r' Ny HNy Ht Ey|p2 o2 r r' Np Cp Hm Ht Ey]; [subst|destruct y; discriminate|destruct p2; [destruct o2; discriminate|discriminate]].
      rewrite app_nil_r, <- app_assoc. apply line_cut; assumption.
    + rewrite <- !app_assoc. cbn [app]. apply line_cut; [assumption|assumption|assumption|]. apply (IH q1 eq_refl s s' T).
Qed.
Lemma same_tree E a b t : taken_out a t -> taken_out b t -> parse_tree E a = parse_tree E b.
Proof.
  intros A B. unfold parse_tree. rewrite (taken_unique _ _ (c126 a) _ A), (taken_unique _ _ (c126 b) _ B). reflexivity.
Qed.
Lemma c126_first E o s : closed o -> ~ In cNL o -> parse_tree E (o ++ cNL :: s) = parse_tree E s.
Proof.
  intros C N. apply (same_tree E _ _ (re_sub JINJA_V0_LINE [] s)); [|apply c126].
  apply (line_cut [] o s); [exact N|exact C| |apply c126]. intros. cbn [length]. lia.
Qed.
Lemma c126_line E a o s : closed o -> ~ In cNL o -> parse_tree E (a ++ cNL :: o ++ cNL :: s) = parse_tree E (a ++ cNL :: s).
Proof.
  intros C N. pose proof (c126 (a ++ [cNL])) as A.
  apply (same_tree E _ _ (re_sub JINJA_V0_LINE [] (a ++ [cNL]) ++ re_sub JINJA_V0_LINE [] s)); [|apply (taken_app _ _ A); apply c126].
  apply (taken_app _ _ A). apply (line_cut [] o s); [exact N|exact C| |apply c126]. intros. cbn [length]. lia.
Qed.
