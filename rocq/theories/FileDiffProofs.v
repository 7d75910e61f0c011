(** Proofs for C156. *)
From Verif Require Import HistProofs LayoutProofs8 NewFileProofs.
From Verif Require Export SessionProofs FileDiffSpec.

(** * What the calls do to the flag and to the text read *)
Definition kept (r r' : recipe) : Prop := r_init r' = r_init r /\ (r_mod r = true -> r_mod r' = true).
Lemma kept_refl r : kept r r. Proof. split; auto. Qed.
Lemma kept_trans a b c : kept a b -> kept b c -> kept a c.
Proof. intros (H1 & H2) (G1 & G2). split; [congruence|auto]. Qed.
Lemma kept_edit E e r : kept r (after E e r).
Proof. split; [apply after_frame|]. intros H. destruct (HistProofs.step E e r) as [(_ & H1 & _)|(_ & H1 & _)]; congruence. Qed.
Lemma kept_selector E path sel mode r o r' : add_selector E path sel mode r = (o, r') -> kept r r'.
Proof. intros H. pose proof (kept_edit E (EAddSel path sel mode) r) as K. cbn [after] in K. rewrite H in K. exact K. Qed.
Lemma kept_patch E p r o r' : patch E p r = (o, r') -> kept r r'.
Proof. intros H. pose proof (kept_edit E (EPatch p) r) as K. cbn [after] in K. rewrite H in K. exact K. Qed.
Lemma target_op MS mode name base op path cur op' path' : conflict_target MS mode name base op path cur = Ok (Some (op', path')) -> op' = op \/ op' = $"replace".
Proof.
  unfold conflict_target, bind. intros H. repeat match type of H with
    | context [match ?x with _ => _ end] => destruct x; try discriminate H
    end; injection H; intros; subst; auto.
Qed.
Lemma dep_asks op path v q : asks (dep_patch op path v) q -> op = $"add" \/ op = $"replace" -> (forall p w, q <> RTest p w) /\ forall f p, q <> RMove f p.
Proof.
  unfold dep_patch. intros (d & [= <-] & _ & _ & H) HO. split; intros a b ->; destruct H as (H & _), HO as [->| ->]; vm_compute in H; discriminate H.
Qed.
Lemma dep_patch_flag E op path v r r' : op = $"add" \/ op = $"replace" -> patch E (dep_patch op path v) r = (Ok true, r') -> r_mod r' = true.
Proof.
  intros HO HP. assert (succeeded E (EPatch (dep_patch op path v)) r) as HS.
  { cbn [succeeded]. rewrite HP. split; [reflexivity|]. split.
    - intros p w H. destruct (dep_asks _ _ _ _ H HO) as (H1 & _). exact (H1 p w eq_refl).
    - intros s H. destruct (dep_asks _ _ _ _ H HO) as (_ & H1). exact (H1 s s eq_refl). }
  destruct (HistProofs.step E (EPatch (dep_patch op path v)) r) as [(_ & H & _)|(H & _)]; [|contradiction]. cbn [after] in H. rewrite HP in H. exact H.
Qed.
Lemma dependency_flag E MS dep mode smode r : fst (add_dependency E MS dep mode smode r) = Ok true ->
  kept r (snd (add_dependency E MS dep mode smode r)) /\ r_mod (snd (add_dependency E MS dep mode smode r)) = true.
Proof.
  unfold add_dependency. destruct (negb _); [discriminate|]. cbv zeta. destruct (calc_is_new_section _ _) as [[is_new|]|]; try discriminate.
  destruct (get_value _ _ _ _ _) as [cur|]; [|discriminate]. cbn [bind].
  destruct (conflict_target _ _ _ _ _ _ _) as [[(op, path)|]|] eqn:HT; try discriminate.
  assert (op = $"add" \/ op = $"replace") as HO by (destruct (target_op _ _ _ _ _ _ _ _ _ HT) as [->| ->]; [destruct mode; auto|auto]).
  destruct (patch_add_dep E dep op path smode is_new r) as [o r1] eqn:HP.
  destruct o as [[|]|]; try discriminate. intros _. assert (kept r r1 /\ r_mod r1 = true) as (K1 & M1).
  { unfold patch_add_dep in HP. destruct (preserved_selector op path smode r) as [preserve|]; [|discriminate HP]. cbv zeta in HP.
    destruct (patch E (dep_patch op path _) r) as [o1 r2] eqn:HQ. pose proof (kept_patch _ _ _ _ _ HQ) as K.
    destruct o1 as [b|]; [|discriminate HP]. destruct preserve as [sel|].
    - destruct (add_selector E path sel SMReplace r2) as [o2 r3] eqn:HA. destruct o2; [|discriminate HP]. injection HP as -> <-.
      pose proof (kept_selector _ _ _ _ _ _ _ HA) as K'. split; [exact (kept_trans _ _ _ K K')|]. apply K'. exact (dep_patch_flag _ _ _ _ _ _ HO HQ).
    - injection HP as -> <-. split; [exact K|]. exact (dep_patch_flag _ _ _ _ _ _ HO HQ). }
  assert (forall o' r2, add_dep_selector E dep (rsplit_base (d_path dep)) path smode r1 = (o', r2) -> kept r1 r2) as HK.
  { intros o' r2. unfold add_dep_selector. destruct (d_sel dep) as [sel|]; [|intros [= <- <-]; apply kept_refl]. destruct (ends_with _ _); [|apply kept_selector].
    destruct (bind _ _) as [n|]; [apply kept_selector|intros [= <- <-]; apply kept_refl]. }
  destruct (add_dep_selector _ _ _ _ _ _) as [o' r2]. cbn [snd]. specialize (HK _ _ eq_refl). split; [exact (kept_trans _ _ _ K1 HK)|]. apply HK. exact M1.
Qed.
Lemma remove_asks_only dep q : asks (JDict [(PStr $"op", JStr $"remove"); (PStr $"path", JStr (d_path dep))]) q -> (forall p w, q <> RTest p w) /\ forall f p, q <> RMove f p.
Proof. intros (d & [= <-] & _ & _ & H). split; intros a b ->; destruct H as (H & _); discriminate H. Qed.
Lemma made_flag E MS a r : accepted E MS a r -> kept r (made E MS a r) /\ (~ idle a -> r_mod (made E MS a r) = true).
Proof.
  intros HA. destruct a as [e|dep mode smode|dep].
  - split; [apply kept_edit|]. intros HI. assert (succeeded E e r) as HS.
    { destruct e as [p| | | | |]; try exact HA. cbn [accepted succeeded] in *. split; [exact HA|]. split.
      - intros path v H. apply HI. exists p. split; [reflexivity|]. left. eauto.
      - intros s H. apply HI. exists p. split; [reflexivity|]. right. eauto. }
    cbn [made]. destruct (HistProofs.step E e r) as [(_ & H & _)|(H & _)]; [exact H|contradiction].
  - destruct (dependency_flag E MS dep mode smode r HA) as (H1 & H2). split; [exact H1|]. intros _. exact H2.
  - cbn [accepted made] in *. unfold remove_dependency in *. set (p := JDict _) in *. split; [exact (kept_edit E (EPatch p) r)|]. intros _.
    assert (succeeded E (EPatch p) r) as HS.
    { cbn [succeeded]. split; [exact HA|]. split.
      - intros path w H. destruct (remove_asks_only _ _ H) as (H1 & _). exact (H1 path w eq_refl).
      - intros s H. destruct (remove_asks_only _ _ H) as (_ & H1). exact (H1 s s eq_refl). }
    destruct (HistProofs.step E (EPatch p) r) as [(_ & H & _)|(H & _)]; [exact H|contradiction].
Qed.
Lemma session_kept E MS l : forall r, all_accepted E MS l r -> kept r (session E MS l r).
Proof.
  induction l as [|a l IH]; intros r HA; [apply kept_refl|]. destruct HA as (HA & HL). cbn [session].
  eapply kept_trans; [apply (made_flag E MS a r HA)|apply IH; exact HL].
Qed.
Lemma some_change E MS l : Exists (fun a => ~ idle a) l -> forall r, all_accepted E MS l r -> r_mod (session E MS l r) = true.
Proof.
  induction 1 as [a l H|a l _ IH]; intros r (HA & HL); cbn [session].
  - apply (session_kept E MS l _ HL). exact (proj2 (made_flag E MS a r HA) H).
  - apply IH. exact HL.
Qed.
Lemma no_change E MS l : Forall idle l -> forall r, r_mod r = false -> r_mod (session E MS l r) = false.
Proof.
  induction 1 as [|a l (p & -> & HI) _ IH]; intros r HM; [exact HM|]. cbn [session made]. apply IH.
  destruct (HistProofs.step E (EPatch p) r) as [((_ & H1 & H2) & _)|(_ & H & _)]; [|congruence]. exfalso.
  destruct HI as [(path & v & HI)|(s & HI)]; [exact (H1 path v HI)|exact (H2 s HI)].
Qed.
Lemma idle_same E MS sv l : Forall idle l -> forall xs vars xs' vars', acted_in_turn E MS sv l xs vars xs' vars' -> xs' = xs /\ vars' = vars.
Proof.
  induction 1 as [|a l (p & -> & HI) _ IH]; intros xs vars xs' vars' H; inversion H as [|? ? ? ? xs1 vars1 ? ? HA HL]; subst; [split; reflexivity|].
  destruct (IH _ _ _ _ HL) as (-> & ->). clear - HI HA.
  inversion HA as [? q ? ? ? HQ HE|? ? ? ? HL| | | |]; subst; [|discriminate HL]. split; [|reflexivity].
  destruct HI as [(path & v & HI)|(s & HI)]; rewrite (asks_fun _ _ _ HQ HI) in HE; inversion HE; subst; try reflexivity; contradiction.
Qed.
Lemma differ E MS sv l xs vars xs' vars' text text' r : new_recipe E text = Ok r -> all_accepted E MS l r ->
  render E (session E MS l r) = text' -> acted_in_turn E MS sv l xs vars xs' vars' -> (xs' = xs -> vars' = vars -> text' = text) ->
  differences E l text text' (session E MS l r).
Proof.
  intros HN HA HR HT HS. destruct (fresh_facts E text r HN) as (_ & HM & HI & _). split; [exact HR|]. split.
  - intros HX unified. pose proof (some_change E MS l HX r HA) as M. split; [exact M|].
    rewrite c18_diff, M, HR, (proj1 (session_kept E MS l r HA)), HI. reflexivity.
  - intros HF. destruct (idle_same E MS sv l HF _ _ _ _ HT) as (H1 & H2). split; [exact (HS H1 H2)|]. intros unified.
    pose proof (no_change E MS l HF r HM) as M. split; [exact M|]. rewrite c18_diff, M. reflexivity.
Qed.
Lemma c156 E MS l xs vars xs' vars' : canonical_recipe E xs vars -> canonical_recipe E xs' vars' -> acted_in_turn E MS SV0 l xs vars xs' vars' ->
  let text := join NLs (recipe_page xs vars) in let text' := join NLs (recipe_page xs' vars') in
  exists r, new_recipe E text = Ok r /\ differences E l text text' (session E MS l r).
Proof.
  intros HC HC' HA text text'. destruct (c144 E MS l xs vars xs' vars' HC HC' HA) as (r & r2 & H1 & H2 & H3 & _).
  exists r. split; [exact H1|]. apply (differ E MS SV0 l xs vars xs' vars'); auto. subst text text'. intros -> ->. reflexivity.
Qed.
Lemma c156_new E MS l xs vars xs' vars' vars2 : new_file E xs vars -> new_file E xs' vars2 -> acted_in_turn E MS SV1 l xs vars xs' vars' ->
  let text := join NLs (page xs) in let text' := join NLs (page xs') in
  exists r, new_recipe E text = Ok r /\ differences E l text text' (session E MS l r).
Proof.
  intros HC HC' HA text text'. destruct (c144_new E MS l xs vars xs' vars' vars2 HC HC' HA) as (r & r2 & H1 & H2 & H3 & _).
  exists r. split; [exact H1|]. apply (differ E MS SV1 l xs vars xs' vars'); auto. subst text text'. intros -> _. reflexivity.
Qed.
