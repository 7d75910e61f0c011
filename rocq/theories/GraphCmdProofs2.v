(** Proofs for C103: when the statistics can be shown. *)
From Verif Require Import Lemmas GraphProofs GraphCmdProofs.
From Verif Require Import GraphCmdSpec.
Import ListNotations.

Lemma text_is x : is_text x = true <-> exists s, x = PStr s.
Proof. destruct x; cbn [is_text]; (split; [try discriminate; eauto|intros (t & H); try discriminate H; reflexivity]). Qed.
Lemma number_is x : is_number x = true <-> a_number x.
Proof.
  unfold a_number. destruct x; cbn [is_number]; split; intros H; try discriminate H; try reflexivity; eauto 6;
    destruct H as [(? & H)|[(? & H)|(? & H)]]; discriminate H.
Qed.
Lemma kinds_are x y : ordered_kinds x y <-> (is_text x = true /\ is_text y = true) \/ (is_number x = true /\ is_number y = true).
Proof.
  unfold ordered_kinds. rewrite !text_is, !number_is. split.
  - intros [(s & t & -> & ->)|H]; [left; eauto|right; exact H].
  - intros [((s & ->) & (t & ->))|H]; [left; eauto|right; exact H].
Qed.
Lemma same_text x y : same_name x y -> is_text x = is_text y.
Proof. rewrite same_name_canon. destruct x, y; cbn [canon is_text]; intros H; try reflexivity; discriminate H. Qed.
Lemma same_number x y : same_name x y -> is_number x = is_number y.
Proof. rewrite same_name_canon. destruct x, y; cbn [canon is_number]; intros H; try reflexivity; discriminate H. Qed.
Lemma sorted_iff l : distinct_names l -> (can_be_sorted l = true <-> forall x y, In x l -> In y l -> same_name x y \/ ordered_kinds x y).
Proof.
  intros D. unfold can_be_sorted. split.
  - intros H x y Ix Iy. apply orb_true_iff in H as [H|H]; [apply orb_true_iff in H as [H|H]|].
    + destruct l as [|a [|b l]]; [destruct Ix| |discriminate H]. destruct Ix as [<-|[]], Iy as [<-|[]]. left. apply name_refl.
    + rewrite forallb_forall in H. right. apply kinds_are. auto.
    + rewrite forallb_forall in H. right. apply kinds_are. auto.
  - intros H. destruct l as [|a [|b l]]; [reflexivity|reflexivity|].
    assert (ordered_kinds a b) as K.
    { destruct (H a b) as [S|K]; [left; reflexivity|right; left; reflexivity| |exact K]. exfalso. inversion D as [|? ? F _]; subst. inversion F; subst. contradiction. }
    apply kinds_are in K as [(K & _)|(K & _)].
    + apply orb_true_iff. left. apply orb_true_iff. right. apply forallb_forall. intros z I.
      destruct (H a z (or_introl eq_refl) I) as [S|S]; [rewrite <- (same_text _ _ S); exact K|]. apply kinds_are in S as [(_ & S)|(S & _)]; [exact S|].
      destruct a; discriminate.
    + apply orb_true_iff. right. apply forallb_forall. intros z I.
      destruct (H a z (or_introl eq_refl) I) as [S|S]; [rewrite <- (same_number _ _ S); exact K|]. apply kinds_are in S as [(S & _)|(_ & S)]; [|exact S].
      destruct a; discriminate.
Qed.
Lemma sorted_orderly cache failed : can_be_sorted (st_duplicates (g_stats (new_graph cache failed))) = true <-> orderly_duplicates cache.
Proof.
  rewrite sorted_iff by exact (gi_dup_distinct _ _ (new_graph_inv cache failed)). unfold orderly_duplicates. split.
  - intros H x y Dx Dy. apply (c52_duplicates cache failed) in Dx as (x' & Ix & Sx), Dy as (y' & Iy & Sy). destruct (H x' y' Ix Iy) as [S|S].
    + left. exact (name_trans _ _ _ (name_sym _ _ Sx) (name_trans _ _ _ S Sy)).
    + right. apply kinds_are in S. apply kinds_are. rewrite <- (same_text _ _ Sx), <- (same_text _ _ Sy), <- (same_number _ _ Sx), <- (same_number _ _ Sy). exact S.
  - intros H x y Ix Iy. apply H; apply (c52_duplicates cache failed); [exists x|exists y]; (split; [assumption|apply name_refl]).
Qed.
Lemma c103_statistics cache failed L line w : NoDup (map fst cache) -> spelled line [w] -> In w [$"stats"; $"statistics"] ->
  (orderly_duplicates cache -> exists s, menu_command L (new_graph cache failed) line = ([S_stats s], Again) /\ stats_of cache failed s)
  /\ (~ orderly_duplicates cache -> menu_command L (new_graph cache failed) line = ([], Crash EType)).
Proof.
  intros N S I. unfold menu_command. rewrite (spelled_is _ _ S).
  assert (mem_str w [$"help"; $"h"] = false) as -> by (destruct I as [<-|[<-|[]]]; reflexivity).
  assert (mem_str w [$"stats"; $"statistics"] = true) as -> by (apply mem_str_In; exact I).
  split; intros H.
  - rewrite (proj2 (sorted_orderly cache failed) H). exists (g_stats (new_graph cache failed)). split; [reflexivity|]. apply graph_stats_of, N.
  - destruct (can_be_sorted (st_duplicates (g_stats (new_graph cache failed)))) eqn:C; [|reflexivity]. apply sorted_orderly in C. contradiction.
Qed.
