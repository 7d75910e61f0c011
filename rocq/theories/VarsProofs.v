(** Renewing the markers of a tree, place by place (C132, proofs only). *)
From Verif Require Export PhaseProofs5 ContextProofs VarsSpec.
From Verif Require Import Lemmas PathProofs PathProofs2 PatchProofs PatchProofs2 PhaseProofs PhaseProofs2 PhaseProofs3 ContextProofs PreProofs2 VarsSpec.
From Verif Require PreSpec2.

Definition hot (n : node) : bool :=
  match n with
  | Nd (VJ (JStr s)) _ [] _ MNone false => found JINJA_V0_SUB (searched_text false n)
  | _ => false
  end.
Definition renew_node (n : node) : node :=
  match n_value n with VJ (JStr s) => Nd (VJ (JStr (to_v1_marker s))) [] [] (n_lmf n) MNone false | _ => n end.
Fixpoint renew (n : node) (f : position -> bool) {struct n} : node :=
  match n with
  | Nd v c chs l m k =>
      if hot n && f [] then renew_node n
      else Nd v c ((fix go (i : nat) (cs : list node) : list node :=
                      match cs with [] => [] | x :: cs' => renew x (fun p => f (i :: p)) :: go (S i) cs' end) 0 chs) l m k
  end.
Fixpoint renews (i : nat) (cs : list node) (f : position -> bool) : list node :=
  match cs with [] => [] | x :: cs' => renew x (fun p => f (i :: p)) :: renews (S i) cs' f end.
Lemma renew_eq n f : renew n f = if hot n && f [] then renew_node n else with_lines n (renews 0 (n_children n) f).
Proof.
  destruct n as [v c chs l m k]. cbn [renew]. destruct (hot _ && f []); [reflexivity|]. unfold with_lines. cbn [n_value n_comment n_lmf n_ml n_keyf n_children]. f_equal.
  generalize 0. induction chs as [|x chs IH]; intros i; [reflexivity|]. cbn [renews]. f_equal. apply IH.
Qed.
Lemma hot_is n : hot n = true <-> exists s c l, n = Nd (VJ (JStr s)) c [] l MNone false /\ value_with_expression n.
Proof.
  split.
  - destruct n as [v c chs l m k]. cbn [hot]. destruct v as [|[[| | | |s]| |]]; try discriminate. destruct chs; [|discriminate]. destruct m; try discriminate.
    destruct k; [discriminate|]. intros H. exists s, c, l. split; [reflexivity|]. split; [reflexivity|]. apply v0_expression. exact H.
  - intros (s & c & l & -> & _ & H). cbn [hot]. apply v0_expression. exact H.
Qed.
Lemma hot_children n : hot n = true -> n_children n = [].
Proof. intros H. apply hot_is in H as (s & c & l & -> & _). reflexivity. Qed.
Lemma children_cold n i x : nth_error (n_children n) i = Some x -> hot n = false.
Proof. intros H. destruct (hot n) eqn:X; [|reflexivity]. rewrite (hot_children _ X) in H. destruct i; discriminate. Qed.
Lemma renew_children n f : n_children (renew n f) = renews 0 (n_children n) f.
Proof.
  rewrite renew_eq. destruct (hot n) eqn:X; cbn [andb]; [|destruct n; reflexivity]. apply hot_is in X as (s & c & l & -> & _). destruct (f []); reflexivity.
Qed.
Lemma renew_cold n f : hot n = false -> renew n f = with_lines n (renews 0 (n_children n) f).
Proof. intros H. rewrite renew_eq, H. reflexivity. Qed.
Lemma nth_renews f : forall cs i j, nth_error (renews i cs f) j = option_map (fun x => renew x (fun p => f ((i + j) :: p))) (nth_error cs j).
Proof.
  induction cs as [|x cs IH]; intros i [|j]; cbn [renews nth_error option_map]; try reflexivity; [rewrite Nat.add_0_r; reflexivity|].
  rewrite IH. replace (S i + j) with (i + S j) by lia. reflexivity.
Qed.
Lemma renews_length f : forall cs i, length (renews i cs f) = length cs.
Proof. induction cs as [|x cs IH]; intros i; cbn [renews length]; [reflexivity|]. rewrite IH. reflexivity. Qed.
Lemma renews_firstn f : forall cs i j, firstn j (renews i cs f) = renews i (firstn j cs) f.
Proof. induction cs as [|x cs IH]; intros i [|j]; cbn [renews firstn]; try reflexivity. rewrite IH. reflexivity. Qed.
Lemma in_renews f b : forall cs i, In b (renews i cs f) -> exists j x, nth_error cs j = Some x /\ b = renew x (fun p => f ((i + j) :: p)).
Proof. intros cs i H. apply In_nth_error in H as (j & H). rewrite nth_renews in H. destruct (nth_error cs j) as [x|] eqn:X; [|discriminate]. injection H as <-. eauto. Qed.
(** What is the same after it. *)
Lemma renew_same n f : n_lmf (renew n f) = n_lmf n /\ n_keyf (renew n f) = n_keyf n /\ is_comment (renew n f) = is_comment n /\ terminal (renew n f) = terminal n.
Proof.
  rewrite renew_eq. destruct (hot n && f []) eqn:X.
  - apply andb_prop in X as (X & _). apply hot_is in X as (s & c & l & -> & _). repeat split.
  - assert (is_nil (renews 0 (n_children n) f) = is_nil (n_children n)) as Y by (destruct (n_children n); reflexivity).
    destruct n as [v c chs l m k]. cbn [n_children] in Y. unfold with_lines. cbn [n_lmf n_keyf n_value n_comment n_children n_ml]. split; [reflexivity|]. split; [reflexivity|].
    assert (is_comment (Nd v c (renews 0 chs f) l m k) = is_comment (Nd v c chs l m k)) as Z.
    { unfold is_comment. cbn [n_value n_comment n_children]. rewrite ?Y. reflexivity. }
    split; [exact Z|]. unfold terminal. rewrite Z. cbn [n_children]. rewrite Y. reflexivity.
Qed.
Lemma renew_keyline n f : is_key_line (renew n f) = is_key_line n.
Proof. destruct (renew_same n f) as (A & B & C & D). unfold is_key_line. rewrite A, B, C, D. reflexivity. Qed.
Lemma renew_value n f : hot n = false -> n_value (renew n f) = n_value n.
Proof. intros H. rewrite renew_cold by exact H. destruct n; reflexivity. Qed.
Lemma hot_bare n : hot n = true -> terminal n && negb (n_keyf n) = true.
Proof. intros H. apply hot_is in H as (s & c & l & -> & _). reflexivity. Qed.
Lemma key_cold n : is_key_line n = true -> hot n = false.
Proof. intros H. destruct (hot n) eqn:X; [|reflexivity]. apply hot_bare in X. unfold is_key_line in H. rewrite X, andb_false_r in H. discriminate. Qed.
Lemma node_at_renew p : forall n f, node_at (renew n f) p = option_map (fun x => renew x (fun q => f (p ++ q))) (node_at n p).
Proof.
  induction p as [|i p IH]; intros n f; cbn [node_at app option_map]; [reflexivity|]. rewrite renew_children, nth_renews.
  destruct (nth_error (n_children n) i) as [x|]; [|reflexivity]. cbn [option_map]. rewrite IH. reflexivity.
Qed.
Lemma count_renews f : forall cs i, count_elements (renews i cs f) = count_elements cs.
Proof.
  unfold count_elements. induction cs as [|x cs IH]; intros i; [reflexivity|]. cbn [renews filter]. destruct (renew_same x (fun p => f (i :: p))) as (_ & _ & -> & _).
  destruct (negb (is_comment x)); cbn [length]; rewrite IH; reflexivity.
Qed.
Lemma path_at_renew E p : forall n f, path_at E (renew n f) p = path_at E n p.
Proof.
  induction p as [|i p IH]; intros n f; cbn [path_at]; [reflexivity|]. rewrite renew_children, nth_renews.
  destruct (nth_error (n_children n) i) as [x|]; [|reflexivity]. cbn [option_map]. rewrite IH. f_equal. rewrite renews_firstn. unfold own_text. rewrite count_renews.
  destruct (renew_same x (fun p => f ((0 + i) :: p))) as (A & B & C & D). rewrite A, B, D. destruct (n_lmf x); [reflexivity|].
  destruct (terminal x && negb (n_keyf x)) eqn:X; [reflexivity|]. rewrite renew_value; [reflexivity|]. destruct (hot x) eqn:Y; [|reflexivity]. rewrite (hot_bare _ Y) in X. discriminate.
Qed.
Lemma owner_renew p n f : owner (renew n f) p = owner n p.
Proof.
  unfold owner. rewrite node_at_renew. destruct (node_at n p) as [x|]; [|reflexivity]. cbn [option_map]. destruct (renew_same x (fun q => f (p ++ q))) as (A & B & _).
  rewrite A, B. reflexivity.
Qed.
(** Where the expressions stand. *)
Definition placed (n : node) : Prop := forall q k i x, node_at n q = Some k -> nth_error (n_children k) i = Some x -> hot x = true ->
  if n_lmf x then Forall (fun y => is_key_line y = false) (n_children k) else n_children k = [x] /\ n_keyf k = true /\ n_lmf k = false.
Lemma placed_below n i x : placed n -> nth_error (n_children n) i = Some x -> placed x.
Proof. intros H Hi q k j y Hq Hj Hy. apply (H (i :: q) k j y); [cbn [node_at]; rewrite Hi; exact Hq|exact Hj|exact Hy]. Qed.
Lemma addressable_list_from l : forall before,
  (forall i c, nth_error l i = Some c -> addressable_name c = true /\ (is_key_line c = true -> forall b, In b (before ++ firstn i l) -> same_name b c = false)) ->
  addressable_list before l = true.
Proof.
  induction l as [|x l IH]; intros before H; [reflexivity|]. cbn [addressable_list]. destruct (H 0 x eq_refl) as (N & K). rewrite N. cbn [andb].
  apply andb_true_iff. split.
  - destruct (is_key_line x) eqn:KL; [|reflexivity]. cbn [negb orb]. destruct (existsb (fun b => same_name b x) before) eqn:X; [|reflexivity].
    apply existsb_exists in X as (b & I & S). rewrite (K eq_refl b) in S; [discriminate|]. cbn [firstn]. rewrite app_nil_r. exact I.
  - apply IH. intros i c Hi. destruct (H (S i) c Hi) as (N' & K'). split; [exact N'|]. intros KL b I. apply (K' KL). cbn [firstn]. rewrite <- app_assoc in I. exact I.
Qed.
Lemma addressable_iff n : addressable n = true <-> addressable_list [] (n_children n) = true /\ forall i c, nth_error (n_children n) i = Some c -> addressable c = true.
Proof.
  split; [intros H; split; [exact (addressable_names _ H)|intros i c; exact (addressable_children _ _ _ H)]|].
  destruct n as [v cm chs l ml k]. cbn [n_children addressable]. intros (H & K). rewrite H. cbn [andb]. clear H. induction chs as [|x chs IH]; [reflexivity|].
  rewrite (K 0 x eq_refl). cbn [andb]. apply IH. intros i c. exact (K (S i) c).
Qed.
Lemma addressable_renew n : forall f, placed n -> addressable n = true -> addressable (renew n f) = true.
Proof.
  induction n as [v c chs l ml k IH] using node_ind'. set (n := Nd v c chs l ml k) in *. intros f P A. apply addressable_iff. rewrite renew_children. change (n_children n) with chs in *.
  pose proof (proj1 (addressable_iff n) A) as (A1 & A2). change (n_children n) with chs in *. split.
  - apply addressable_list_from. intros i y Hi. rewrite nth_renews in Hi. destruct (nth_error chs i) as [x|] eqn:X; [|discriminate]. injection Hi as <-.
    destruct (addressable_list_nth [] _ _ _ A1 X) as (N & K). cbn [app Nat.add] in *. split.
    + destruct (hot x) eqn:HX.
      * pose proof (hot_bare x HX) as B. destruct (renew_same x (fun p => f (i :: p))) as (S1 & S2 & S3 & S4). unfold addressable_name. rewrite S2, S4, B, orb_true_r. reflexivity.
      * unfold addressable_name in *. destruct (renew_same x (fun p => f (i :: p))) as (S1 & S2 & S3 & S4). rewrite S1, S2, S3, S4, renew_value by exact HX. exact N.
    + rewrite renew_keyline. intros KL b I. rewrite renews_firstn in I. apply in_renews in I as (j & z & Hj & ->). cbn [Nat.add].
      pose proof (key_cold _ KL) as CX. unfold same_name. rewrite (renew_value x) by exact CX.
      assert (nth_error chs j = Some z /\ j < i) as (Hj' & L).
      { assert (j < length (firstn i chs)) as L by (apply nth_error_Some; congruence). rewrite firstn_length in L. split; [|lia].
        rewrite <- (firstn_skipn i chs), nth_error_app1; [exact Hj|]. rewrite firstn_length. lia. }
      destruct (hot z) eqn:HZ.
      * exfalso. pose proof (P [] n j z eq_refl Hj' HZ) as PZ. change (n_children n) with chs in PZ. destruct (n_lmf z).
        { rewrite Forall_forall in PZ. rewrite (PZ x (nth_error_In _ _ X)) in KL. discriminate. }
        destruct PZ as (-> & _). destruct i as [|[|i]]; cbn [nth_error] in X; [lia|discriminate|discriminate].
      * rewrite renew_value by exact HZ. exact (K KL z (nth_error_In _ _ Hj)).
  - intros i y Hi. rewrite nth_renews in Hi. destruct (nth_error chs i) as [x|] eqn:X; [|discriminate]. injection Hi as <-.
    rewrite Forall_forall in IH. apply (IH x (nth_error_In _ _ X)); [exact (placed_below n i x P X)|exact (A2 i x X)].
Qed.
Lemma document_renew n f : placed n -> addressable_document n = true -> addressable_document (renew n f) = true.
Proof.
  unfold addressable_document. rewrite !andb_true_iff. intros P ((H1 & H2) & H3). split; [split|exact (addressable_renew n f P H3)]; rewrite renew_children.
  - destruct (n_children n); [discriminate|reflexivity].
  - rewrite forallb_forall in *. intros y I. apply in_renews in I as (j & x & Hj & ->). destruct (renew_same x (fun p => f ((0 + j) :: p))) as (A & B & _ & D).
    rewrite A, B, D. exact (H2 x (nth_error_In _ _ Hj)).
Qed.
(** Changing one more place. *)
Definition pos_eqb (p q : position) : bool := if list_eq_dec Nat.eq_dec p q then true else false.
Lemma pos_eqb_iff p q : pos_eqb p q = true <-> p = q.
Proof. unfold pos_eqb. destruct (list_eq_dec Nat.eq_dec p q); split; congruence. Qed.
Lemma renew_ext n : forall f g, (forall p x, node_at n p = Some x -> hot x = true -> f p = g p) -> renew n f = renew n g.
Proof.
  induction n as [v c chs l ml k IH] using node_ind'. set (n := Nd v c chs l ml k) in *. intros f g H. rewrite !renew_eq.
  destruct (hot n) eqn:X; cbn [andb]; [rewrite (H [] n eq_refl X); destruct (g []); [reflexivity|]; rewrite (hot_children n X); reflexivity|].
  f_equal. change (n_children n) with chs in *.
  assert (forall i cs, (forall j x, nth_error cs j = Some x -> nth_error chs (i + j) = Some x) -> Forall (fun n => forall f g, (forall p x, node_at n p = Some x -> hot x = true -> f p = g p) -> renew n f = renew n g) cs ->
    renews i cs f = renews i cs g) as Y; [|apply Y; [intros j x Hj; exact Hj|exact IH]].
  intros i cs. revert i. induction cs as [|x cs IHc]; intros i Hc HF; [reflexivity|]. inversion HF as [|? ? F1 F2]; subst. cbn [renews]. f_equal.
  - apply F1. intros p y Hp HY. apply (H (i :: p) y); [|exact HY]. cbn [node_at]. change (n_children n) with chs. rewrite <- (Nat.add_0_r i), (Hc 0 x eq_refl). exact Hp.
  - apply IHc; [|exact F2]. intros j y Hj. replace (S i + j) with (i + S j) by lia. exact (Hc (S j) y Hj).
Qed.
Lemma list_ext {A} : forall (a b : list A), (forall i, nth_error a i = nth_error b i) -> a = b.
Proof.
  induction a as [|x a IH]; intros [|y b] H; [reflexivity|specialize (H 0); discriminate|specialize (H 0); discriminate|].
  f_equal; [specialize (H 0); cbn [nth_error] in H; congruence|]. apply IH. intros i. exact (H (S i)).
Qed.
Lemma update_renew p : forall n f x, node_at n p = Some x -> hot x = true ->
  update_at p (fun _ => renew_node x) (renew n f) = renew n (fun q => f q || pos_eqb q p).
Proof.
  induction p as [|i p IH]; intros n f x Hx HX; cbn [node_at update_at] in *.
  - injection Hx as ->. rewrite (renew_eq x (fun q => f q || pos_eqb q [])), HX. change (pos_eqb [] []) with true. rewrite orb_true_r. reflexivity.
  - destruct (nth_error (n_children n) i) as [c|] eqn:Hi; [|discriminate]. pose proof (children_cold _ _ _ Hi) as CN.
    rewrite (renew_cold n (fun q => f q || pos_eqb q (i :: p))), (renew_cold n f) by exact CN.
    assert (forall l l', l = l' -> set_children l (with_lines n (renews 0 (n_children n) f)) = with_lines n l') as SC.
    { intros l l' ->. destruct n; reflexivity. }
    apply SC. assert (n_children (with_lines n (renews 0 (n_children n) f)) = renews 0 (n_children n) f) as -> by (destruct n; reflexivity).
    apply list_ext. intros j. rewrite nth_renews. destruct (Nat.eq_dec i j) as [->|N].
    + rewrite nth_map_nth_same, nth_renews, Hi. cbn [option_map Nat.add]. f_equal. rewrite (IH c _ x Hx HX). apply renew_ext. intros q y _ _. f_equal.
      unfold pos_eqb. destruct (list_eq_dec Nat.eq_dec q p), (list_eq_dec Nat.eq_dec (j :: q) (j :: p)); congruence.
    + rewrite nth_map_nth_other by exact N. rewrite nth_renews. destruct (nth_error (n_children n) j) as [y|]; [|reflexivity]. cbn [option_map Nat.add]. f_equal.
      apply renew_ext. intros q z _ _. assert (pos_eqb (j :: q) (i :: p) = false) as ->; [|rewrite orb_false_r; reflexivity].
      unfold pos_eqb. destruct (list_eq_dec Nat.eq_dec (j :: q) (i :: p)); congruence.
Qed.
(** All places. *)
Lemma renew_none n : renew n (fun _ => false) = n.
Proof.
  induction n as [v c chs l ml k IH] using node_ind'. rewrite renew_eq, andb_false_r. unfold with_lines. cbn [n_value n_comment n_children n_lmf n_ml n_keyf]. f_equal.
  assert (forall i, renews i chs (fun _ => false) = chs) as Y; [|apply Y]. induction IH as [|x chs H _ IHc]; intros i; cbn [renews]; [reflexivity|]. rewrite H, IHc. reflexivity.
Qed.
Definition all_hot (n : node) : Prop := forall p x, node_at n p = Some x -> value_with_expression x -> hot x = true.
Lemma hot_dec n : hot n = true \/ hot n = false.
Proof. destruct (hot n); auto. Qed.
Lemma renew_all n : all_hot n -> renewed n (renew n (fun _ => true)).
Proof.
  induction n as [v c chs l ml k IH] using node_ind'. set (n := Nd v c chs l ml k) in *. intros H. rewrite renew_eq. destruct (hot n) eqn:X; cbn [andb].
  - apply hot_is in X as (s & c' & l' & -> & V). apply marker_renewed; [exact V|]. apply c84_all.
  - apply line_kept; [intros V; rewrite (H [] n eq_refl V) in X; discriminate|]. change (n_children n) with chs.
    assert (forall i cs, (forall j x, nth_error cs j = Some x -> nth_error chs (i + j) = Some x) -> Forall (fun n => all_hot n -> renewed n (renew n (fun _ => true))) cs ->
      Forall2 renewed cs (renews i cs (fun _ => true))) as Y; [|apply Y; [intros j x Hj; exact Hj|exact IH]].
    intros i cs. revert i. induction cs as [|x cs IHc]; intros i Hc HF; cbn [renews]; constructor; inversion HF as [|? ? F1 F2]; subst.
    + apply F1. intros p y Hp V. apply (H (i :: p) y); [|exact V]. cbn [node_at]. change (n_children n) with chs. rewrite <- (Nat.add_0_r i), (Hc 0 x eq_refl). exact Hp.
    + apply IHc; [|exact F2]. intros j y Hj. replace (S i + j) with (i + S j) by lia. exact (Hc (S j) y Hj).
Qed.
