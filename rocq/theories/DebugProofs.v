(** C130 (proofs only). *)
From Verif Require Import Lemmas PathProofs.
From Verif Require Export DebugSpec.
Require Import Lia.

Lemma short_called E n : called_as E n (short_str E n).
Proof.
  unfold short_str. destruct (is_comment n) eqn:C.
  - apply as_comment. unfold is_comment in C. rewrite !andb_true_iff, negb_true_iff in C. destruct C as ((A & B) & D).
    split; [destruct (n_value n); [reflexivity|discriminate]|]. split; [destruct (n_comment n); discriminate|destruct (n_children n); [reflexivity|discriminate]].
  - destruct (is_collection n) eqn:K.
    + unfold is_collection in K. rewrite !andb_true_iff, negb_true_iff in K. destruct K as ((A & B) & D).
      apply as_element; [destruct (n_value n); [reflexivity|discriminate]|exact B|destruct (n_children n); discriminate].
    + destruct (n_value n) as [|j] eqn:V; cbn [nval_str]; [|apply as_value; exact V]. apply as_nothing; [exact V| |].
      * intros (_ & A & B). unfold is_comment in C. rewrite V, B in C. destruct (n_comment n); [contradiction|discriminate].
      * unfold is_collection in K. rewrite V in K. cbn [is_sent andb] in K. destruct (n_lmf n); [right|left; reflexivity]. destruct (n_children n); [reflexivity|discriminate].
Qed.
Lemma called_unique E n t t' : called_as E n t -> called_as E n t' -> t = t'.
Proof.
  intros H H'. inversion H as [(A1 & A2 & A3)|A1 A2 A3|j A1|A1 A2 A3]; inversion H' as [(B1 & B2 & B3)|B1 B2 B3|j' B1|B1 B2 B3]; subst; try congruence; exfalso.
  - apply B2. split; auto.
  - destruct B3; congruence.
  - apply A2. split; auto.
  - destruct A3; congruence.
Qed.
(** * The lines *)
Definition line_at (E : env) (d : nat) (n : node) : str := concat (repeat TAB d) ++ (if d =? 0 then [] else $"|- ") ++ short_str E n.
Lemma tabs d : concat (repeat TAB d) = repeat " "%char (2 * d).
Proof. induction d as [|d IH]; [reflexivity|]. cbn [repeat concat]. rewrite IH. replace (2 * S d) with (S (S (2 * d))) by lia. reflexivity. Qed.
Lemma tree_unfold E n d : str_tree_recurse E n d = line_at E d n :: flat_map (fun child => str_tree_recurse E child (S d)) (n_children n).
Proof. destruct n. reflexivity. Qed.
Definition sub_positions (f : node -> list position) : nat -> list node -> list position :=
  fix go (i : nat) (cs : list node) : list position := match cs with [] => [] | c :: cs' => map (cons i) (f c) ++ go (S i) cs' end.
Lemma preorder_unfold n : preorder n = [] :: sub_positions preorder 0 (n_children n).
Proof. destruct n. reflexivity. Qed.
Lemma lines_exact E : forall n q, Forall2 (fun p s => exists m t, node_at n p = Some m /\ called_as E m t /\ s = tree_line (q ++ p) t) (preorder n) (str_tree_recurse E n (length q)).
Proof.
  fix IH 1. intros n q. rewrite tree_unfold, preorder_unfold. constructor.
  - exists n, (short_str E n). split; [reflexivity|]. split; [apply short_called|]. rewrite app_nil_r. unfold line_at, tree_line. rewrite tabs.
    destruct q; reflexivity.
  - assert (forall all cs i, (forall j c, nth_error cs j = Some c -> nth_error all (i + j) = Some c) -> n_children n = all ->
      Forall2 (fun p s => exists m t, node_at n p = Some m /\ called_as E m t /\ s = tree_line (q ++ p) t) (sub_positions preorder i cs)
        (flat_map (fun child => str_tree_recurse E child (S (length q))) cs)) as X.
    { intros all. fix IHc 1. intros [|c cs] i HN HA; [constructor|]. cbn [sub_positions flat_map]. apply Forall2_app.
      - specialize (IH c (q ++ [i])). rewrite app_length in IH. cbn [length] in IH. replace (length q + 1) with (S (length q)) in IH by lia.
        clear IHc. revert IH. generalize (str_tree_recurse E c (S (length q))). generalize (preorder c).
        intros ps ls F. induction F as [|p s ps ls (m & t & A & B & D) F IHF]; [constructor|]. cbn [map]. constructor; [|exact IHF].
        exists m, t. split; [|split; [exact B|rewrite D, <- app_assoc; reflexivity]]. cbn [node_at]. rewrite HA.
        pose proof (HN 0 c eq_refl) as N0. rewrite Nat.add_0_r in N0. rewrite N0. exact A.
      - apply IHc; [|exact HA]. intros j c' Hj. specialize (HN (S j) c' Hj). rewrite Nat.add_succ_r in HN. exact HN. }
    apply (X (n_children n) (n_children n) 0); [|reflexivity]. intros j c Hj. exact Hj.
Qed.
(** * The lines determine the outline *)
Lemma spaces_mark a b t t' : repeat " "%char a ++ "|"%char :: t = repeat " "%char b ++ "|"%char :: t' -> a = b /\ t = t'.
Proof.
  revert b; induction a as [|a IH]; intros [|b] H; cbn [repeat app] in H; try discriminate; injection H as H.
  - split; [reflexivity|exact H].
  - apply IH in H as (-> & ->). auto.
Qed.
Lemma line_same E d e n m : line_at E (S d) n = line_at E (S e) m -> d = e /\ short_str E n = short_str E m.
Proof.
  unfold line_at. rewrite !tabs. cbn [Nat.eqb]. change ($"|- " ++ short_str E n) with ("|"%char :: $"- " ++ short_str E n).
  change ($"|- " ++ short_str E m) with ("|"%char :: $"- " ++ short_str E m). intros H. apply spaces_mark in H as (H & K).
  split; [lia|]. exact (app_inv_head _ _ _ K).
Qed.
Fixpoint size (n : node) : nat := match n with Nd _ _ chs _ _ _ => S ((fix go (l : list node) : nat := match l with [] => 0 | c :: l' => size c + go l' end) chs) end.
Definition sizes (l : list node) : nat := fold_right (fun c k => size c + k) 0 l.
Lemma size_unfold n : size n = S (sizes (n_children n)).
Proof. destruct n. reflexivity. Qed.
Definition forest (E : env) (d : nat) (l : list node) : list str := flat_map (fun c => str_tree_recurse E c (S d)) l.
(** What follows belongs to lines further up. *)
Definition higher (E : env) (d : nat) (r : list str) : Prop := r = [] \/ exists e m r', r = line_at E (S e) m :: r' /\ e < d.
Lemma forest_same E : forall k d a b ra rb, sizes a <= k -> higher E d ra -> higher E d rb -> forest E d a ++ ra = forest E d b ++ rb ->
  Forall2 (same_outline E) a b /\ ra = rb.
Proof.
  assert (forall d n l r s, higher E d s -> forest E d (n :: l) ++ r <> s) as NH.
  { intros d n l r s HS H. unfold forest in H. cbn [flat_map] in H. rewrite tree_unfold in H. cbn [app] in H. destruct HS as [->|(e & m & r' & -> & L)]; [discriminate|].
    apply (f_equal (hd [])) in H. cbn [hd] in H. apply line_same in H as (H & _). lia. }
  induction k as [k IHk] using lt_wf_ind. intros d [|n a] [|m b] ra rb HK HA HB H.
  - split; [constructor|exact H].
  - exfalso. exact (NH d m b rb ra HA (eq_sym H)).
  - exfalso. exact (NH d n a ra rb HB H).
  - unfold forest in H. cbn [flat_map] in H. rewrite !(tree_unfold E _ (S d)) in H. cbn [app] in H. pose proof (f_equal (hd []) H) as H1. pose proof (f_equal (@tl str) H) as H2. cbn [hd tl] in H1, H2.
    apply line_same in H1 as (_ & H1). rewrite <- !app_assoc in H2. cbn [sizes fold_right] in HK. fold (sizes a) in HK. rewrite size_unfold in HK.
    assert (forall (l : list node) r, higher E d r -> higher E (S d) (forest E d l ++ r)) as HH.
    { intros [|x l] r [->|(e & y & r' & -> & L)].
      - left; reflexivity.
      - right. exists e, y, r'. split; [reflexivity|lia].
      - right. unfold forest. cbn [flat_map]. rewrite tree_unfold. cbn [app]. eexists d, x, _. split; [reflexivity|lia].
      - right. unfold forest. cbn [flat_map]. rewrite tree_unfold. cbn [app]. eexists d, x, _. split; [reflexivity|lia]. }
    destruct (IHk (sizes (n_children n)) ltac:(lia) (S d) (n_children n) (n_children m) (forest E d a ++ ra) (forest E d b ++ rb)) as (F1 & R1);
      [lia|apply HH; exact HA|apply HH; exact HB|exact H2|].
    destruct (IHk (sizes a) ltac:(lia) d a b ra rb) as (F2 & R2); [lia|exact HA|exact HB|exact R1|].
    split; [|exact R2]. constructor; [|exact F2]. apply (same_here E n m (short_str E n)); [apply short_called|rewrite H1; apply short_called|exact F1].
Qed.
Lemma c130_outline E a b : str_tree_recurse E a 0 = str_tree_recurse E b 0 -> same_outline E a b.
Proof.
  rewrite !tree_unfold. intros H. pose proof (f_equal (hd []) H) as H1. pose proof (f_equal (@tl str) H) as H2. cbn [hd tl] in H1, H2. unfold line_at in H1. cbn [repeat concat Nat.eqb app] in H1.
  destruct (forest_same E (sizes (n_children a)) 0 (n_children a) (n_children b) [] []) as (F & _); [lia|left; reflexivity|left; reflexivity|rewrite !app_nil_r; exact H2|].
  apply (same_here E a b (short_str E a)); [apply short_called|rewrite H1; apply short_called|exact F].
Qed.
Lemma c130_outline_lines E : forall a b d, same_outline E a b -> str_tree_recurse E a d = str_tree_recurse E b d.
Proof.
  fix IH 1. intros a b d H. inversion H as [n n' t C1 C2 F EA EB]; subst. rewrite !tree_unfold. f_equal.
  - unfold line_at. rewrite (called_unique _ _ _ _ (short_called E a) C1), (called_unique _ _ _ _ (short_called E b) C2). reflexivity.
  - destruct a as [v c chs l m k]. cbn [n_children] in *. clear H C1 C2. revert F. generalize (n_children b). revert chs. fix IHc 1. intros [|x l1] l2 F; inversion F as [|? y ? l2' F1 F2]; subst; [reflexivity|].
    cbn [flat_map]. rewrite (IH x y (S d) F1), (IHc l1 l2' F2). reflexivity.
Qed.
(** * The table of variables *)
Lemma join_cons sep x (l : list str) : l <> [] -> join sep (x :: l) = x ++ sep ++ join sep l.
Proof. destruct l; [contradiction|reflexivity]. Qed.
Lemma join_snoc sep x (l : list str) : l <> [] -> join sep (l ++ [x]) = join sep l ++ sep ++ x.
Proof.
  induction l as [|y l IH]; intros N; [contradiction|]. destruct l as [|z l]; [reflexivity|]. rewrite <- app_comm_cons, join_cons, IH by (discriminate || (destruct l; discriminate)).
  rewrite (join_cons sep y) by discriminate. rewrite <- !app_assoc. reflexivity.
Qed.
Lemma commas_some l : l <> [] -> with_commas l <> [].
Proof. destruct l as [|x [|y l]]; [contradiction|discriminate|discriminate]. Qed.
Lemma join_commas sep : forall l : list str, l <> [] -> join ($"," ++ sep) l = join sep (with_commas l).
Proof.
  induction l as [|x l IH]; intros N; [contradiction|]. destruct l as [|y l]; [reflexivity|].
  change (with_commas (x :: y :: l)) with ((x ++ $",") :: with_commas (y :: l)). rewrite (join_cons sep) by (apply commas_some; discriminate).
  rewrite (join_cons ($"," ++ sep)) by discriminate. rewrite IH by discriminate. rewrite <- !app_assoc. reflexivity.
Qed.
Lemma join_prefix sep pre : forall l : list str, l <> [] -> pre ++ join (sep ++ pre) l = join sep (map (fun x => pre ++ x) l).
Proof.
  induction l as [|x l IH]; intros N; [contradiction|]. destruct l as [|y l]; [reflexivity|].
  change (map (fun x => pre ++ x) (x :: y :: l)) with ((pre ++ x) :: map (fun x => pre ++ x) (y :: l)).
  rewrite (join_cons sep) by discriminate. rewrite (join_cons (sep ++ pre)) by discriminate. rewrite <- IH by discriminate. rewrite <- !app_assoc. reflexivity.
Qed.
Lemma commas_prefix pre : forall l, map (fun x => pre ++ x) (with_commas l) = with_commas (map (fun x => pre ++ x) l).
Proof.
  induction l as [|x l IH]; [reflexivity|]. destruct l as [|y l]; [reflexivity|]. cbn [with_commas map] in *. rewrite IH, <- !app_assoc. reflexivity.
Qed.
Lemma c130_table l : l <> [] -> json_dumps 0 (JDict (map (fun kv => (PStr (fst kv), JP (snd kv))) l))
  = join NLs ($"{" :: with_commas (entry_lines l) ++ [$"}"]).
Proof.
  intros N. cbn [json_dumps]. rewrite map_map. cbn [fst snd key_dumps json_dumps]. set (items := map _ l).
  assert (items <> []) as NI by (unfold items; destruct l; [contradiction|discriminate]).
  assert (entry_lines l = map (fun x => TAB ++ x) items) as -> by (unfold items, entry_lines; rewrite map_map; reflexivity).
  transitivity ($"{" ++ (NLs ++ TAB) ++ join ($"," ++ NLs ++ TAB) items ++ NLs ++ $"}").
  { unfold dumped. destruct items; [contradiction|reflexivity]. }
  assert (with_commas (map (fun x => TAB ++ x) items) <> []) as NC by (apply commas_some; destruct items; [contradiction|discriminate]).
  rewrite join_cons, join_snoc by (exact NC || (intros X; destruct (with_commas _); discriminate)).
  rewrite join_commas by exact NI. rewrite <- commas_prefix, <- join_prefix by (apply commas_some; exact NI). rewrite <- !app_assoc. reflexivity.
Qed.
