(** Proofs for C157. *)
From Verif Require Import HistProofs.
From Verif Require Export FileDiffProofs RefusalSpec.

Lemma refused_same E MS a r : refused E MS a r -> made E MS a r = r.
Proof.
  intros (HN & HD & HM).
  assert (forall p, fst (patch E p r) <> Ok true -> (forall from path, ~ asks p (RMove from path)) -> snd (patch E p r) = r) as HP.
  { intros p H HQ. destruct (HistProofs.step E (EPatch p) r) as [((H1 & _) & _)|(_ & _ & [HF|H1])]; [contradiction| |exact H1].
    exfalso. destruct HF as (p' & from & path & H1 & H2 & _). injection H1 as <-. exact (HQ _ _ H2). }
  destruct a as [e|dep mode smode|dep].
  - cbn [made]. destruct (HistProofs.step E e r) as [(H1 & _)|(H1 & _ & [HF|H2])]; [| |exact H2]; exfalso.
    + apply HN. destruct e; exact H1 || exact (proj1 H1).
    + destruct HF as (p' & from & path & -> & H2 & _). exact (HM _ _ _ eq_refl H2).
  - exfalso. exact (HD _ _ _ eq_refl).
  - cbn [made accepted] in *. unfold remove_dependency in *. apply HP; [exact HN|]. intros from path H.
    destruct (remove_asks_only _ _ H) as (_ & H1). exact (H1 from path eq_refl).
Qed.
Lemma refusals_same E MS l l' r : with_refusals E MS l l' r -> session E MS l' r = session E MS l r.
Proof.
  induction 1 as [r|a l l' r _ IH|a l l' r HR _ IH]; cbn [session]; [reflexivity|exact IH|]. rewrite IH, (refused_same _ _ _ _ HR). reflexivity.
Qed.
Lemma c157 E MS l xs vars xs' vars' : canonical_recipe E xs vars -> canonical_recipe E xs' vars' -> acted_in_turn E MS SV0 l xs vars xs' vars' ->
  let text := join NLs (recipe_page xs vars) in let text' := join NLs (recipe_page xs' vars') in
  exists r, new_recipe E text = Ok r /\ forall l', with_refusals E MS l l' r -> differences E l text text' (session E MS l' r).
Proof.
  intros HC HC' HA text text'. destruct (c156 E MS l xs vars xs' vars' HC HC' HA) as (r & H1 & H2).
  exists r. split; [exact H1|]. intros l' HL. rewrite (refusals_same _ _ _ _ _ HL). exact H2.
Qed.
Lemma c157_new E MS l xs vars xs' vars' vars2 : new_file E xs vars -> new_file E xs' vars2 -> acted_in_turn E MS SV1 l xs vars xs' vars' ->
  let text := join NLs (page xs) in let text' := join NLs (page xs') in
  exists r, new_recipe E text = Ok r /\ forall l', with_refusals E MS l l' r -> differences E l text text' (session E MS l' r).
Proof.
  intros HC HC' HA text text'. destruct (c156_new E MS l xs vars xs' vars' vars2 HC HC' HA) as (r & H1 & H2).
  exists r. split; [exact H1|]. intros l' HL. rewrite (refusals_same _ _ _ _ _ HL). exact H2.
Qed.
