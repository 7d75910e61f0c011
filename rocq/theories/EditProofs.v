(** Proofs for C138: patches on a file in the canonical layout. *)
From Verif Require Import FrameProofs2 DepsProofs ServiceProofs CommandsProofs AnswerProofs PhaseProofs2 ValueProofs AboutProofs PathProofs PathProofs2 PatchProofs PatchProofs2 FrameProofs LayoutProofs8 CommandsProofs4 CanProofs CanProofs5 BumpProofs EditSpec PlainSpec.

(** * The position of the entries that change *)
Definition parent_ok (n : node) : Prop := bare_value n = false /\ (n_lmf n = false \/ collection_element n = true).
Lemma with_lines_same n : with_lines n (n_children n) = n.
Proof. destruct n. reflexivity. Qed.
Lemma changed_step (R : node -> node -> Prop) n A x x' B q : n_children n = A ++ x :: B -> changed_at R q x x' ->
  changed_at R (length A :: q) n (with_lines n (A ++ x' :: B)).
Proof. intros H K. exact (changed_below R n A x x' B q H K). Qed.
Lemma inside_nonempty R p xs xs' : inside R p xs xs' -> p <> [].
Proof. intros H. destruct H; discriminate. Qed.
Lemma last_cons {A} (a : A) l d : l <> [] -> last (a :: l) d = last l d /\ removelast (a :: l) = a :: removelast l.
Proof. destruct l; [congruence|auto]. Qed.
(** Where the last component is looked for. *)
Definition found_inside (n : node) (pre : list node) (p : list str) (ys ys' : list item) (after : list node) : Prop :=
  exists q m pre', traverse_recurse n (removelast p) = Some q /\ node_at n q = Some m /\ n_children m = pre' ++ map tree_of ys
  /\ not_there [last p []] pre' /\ (parent_ok n -> parent_ok m)
  /\ forall R' : node -> node -> Prop, R' m (with_lines m (pre' ++ map tree_of ys')) -> changed_at R' q n (with_lines n after).
Lemma found_below n pre k p A x x' B ys ys' rest : n_children n = A ++ x :: B -> step_child n k = Some (length A, x) -> p <> [] ->
  found_inside x pre p ys ys' rest -> parent_ok x -> with_lines x rest = x' -> found_inside n [] (k :: p) ys ys' (A ++ x' :: B).
Proof.
  intros HC HS NE (q & m & pre' & HT & HN & HM & HP & HO & HR) HOx HX. exists (length A :: q), m, pre'.
  destruct (last_cons k p [] NE) as (-> & ->). cbn [traverse_recurse node_at]. rewrite HS, HT, HC, BumpProofs.nth_middle.
  split; [reflexivity|]. split; [exact HN|]. split; [exact HM|]. split; [exact HP|]. split; [intros _; exact (HO HOx)|].
  intros R' H. rewrite <- HX. eapply changed_step; [exact HC|]. apply HR, H.
Qed.
Lemma key_tree k c cs x : below_key k c cs x -> tree_of x = key_node k c (map tree_of cs).
Proof. intros H. destruct H; reflexivity. Qed.
Lemma element_tree c ys x : in_element c ys x -> tree_of x = Nd VSent c (map tree_of ys) true MNone false /\ ys <> [].
Proof. intros H. destruct H; (split; [reflexivity|discriminate]). Qed.
Lemma inside_at R p xs xs' : inside R p xs xs' -> forall pre n, n_children n = pre ++ map tree_of xs -> not_there p pre ->
  exists ys ys', R ys ys' /\ found_inside n pre p ys ys' (pre ++ map tree_of xs').
Proof.
  intros H. induction H as [c xs xs' H|k p c cs cs' x x' A B D NE HX HX' H IH|i p c zs zs' x x' A B D HI HX HX' H IH]; intros pre n HC HP.
  - exists xs, xs'. split; [exact H|]. exists [], n, pre. cbn [removelast traverse_recurse node_at last].
    split; [reflexivity|]. split; [reflexivity|]. split; [exact HC|]. split; [exact HP|]. split; [auto|]. intros R' HR. apply changed_here, HR.
  - apply key_tree in HX, HX'. rewrite map_app in HC |- *. cbn [map] in HC |- *. pose proof (not_there_named _ _ _ D HP) as HN. rewrite app_assoc in HC |- *.
    destruct (IH [] (tree_of x)) as (ys & ys' & HR & HF); [rewrite HX; reflexivity|left; reflexivity|].
    exists ys, ys'. split; [exact HR|]. eapply found_below; [exact HC| |exact (inside_nonempty _ _ _ _ H)|exact HF|rewrite HX; split; [apply andb_false_r|left; reflexivity]|rewrite HX, HX'; reflexivity].
    rewrite <- app_assoc in HC. eapply step_named; [exact HC|exact D|rewrite HX; reflexivity|exact HN|]. intros y. apply not_called, NE.
  - apply element_tree in HX as (HX & NZ), HX' as (HX' & _). apply not_there_numbered in HP as ->; [|exact D]. cbn [app] in *. rewrite map_app in HC |- *. cbn [map] in HC |- *.
    destruct (IH [] (tree_of x)) as (ys & ys' & HR & HF); [rewrite HX; reflexivity|left; reflexivity|].
    exists ys, ys'. split; [exact HR|]. eapply found_below; [exact HC| |exact (inside_nonempty _ _ _ _ H)|exact HF| |rewrite HX, HX'; reflexivity].
    + eapply step_numbered; [exact HC|exact D|rewrite HI; symmetry; apply elements_of| |rewrite HX; reflexivity].
      rewrite HX. unfold is_comment. cbn [n_children]. destruct zs; [congruence|]. cbn [map is_nil]. apply andb_false_r.
    + rewrite HX. destruct zs; [congruence|]. split; [|right; reflexivity]. apply andb_false_iff; left; apply andb_false_r.
Qed.
Lemma changed_app (R : node -> node -> Prop) q q' n n' : changed_at (changed_at R q') q n n' -> changed_at R (q ++ q') n n'.
Proof.
  intros H. induction H as [m m' H|m before c c' after p Hm H IH]; cbn [app]; [exact H|].
  eapply changed_step; [exact Hm|exact IH].
Qed.
Lemma selects_step c A x B pre m : n_children m = pre ++ map tree_of (A ++ x :: B) -> not_there [c] pre -> selects c A x ->
  step_child m c = Some (length (pre ++ map tree_of A), tree_of x).
Proof.
  intros HC HP HS. unfold selects in HS. rewrite map_app in HC. cbn [map] in HC. destruct (isdigit c) eqn:D.
  - apply not_there_numbered in HP as ->; [|exact D]. cbn [app] in *. destruct HS as (HI & HX).
    eapply step_numbered; [exact HC|exact D|rewrite HI; symmetry; apply elements_of| |];
      destruct x; try discriminate HX; try reflexivity; unfold is_comment; cbn [tree_of n_children is_nil]; apply andb_false_r.
  - destruct HS as (NE & HK). eapply step_named; [exact HC|exact D| |exact (not_there_named _ _ _ D HP)|intros y; apply not_called, NE].
    destruct x; cbn [entry_key] in HK; try discriminate HK; injection HK as ->; reflexivity.
Qed.
Lemma found_address p root q m i x : Forall component p -> p <> [] -> traverse_recurse root (removelast p) = Some q -> node_at root q = Some m ->
  step_child m (last p []) = Some (i, x) -> addresses root (path_text p) (q ++ [i]) /\ node_at root (q ++ [i]) = Some x.
Proof.
  intros HC NE HT HN HS. split.
  - apply number_of_addresses; auto. refine (eq_trans (f_equal (traverse_recurse root) (@app_removelast_last str p [] NE)) _). rewrite traverse_recurse_app, HT, HN. cbn [traverse_recurse]. rewrite HS. reflexivity.
  - rewrite node_at_app, HN. cbn [node_at]. rewrite (step_child_nth _ _ _ _ HS). reflexivity.
Qed.
Lemma found_parent p root q : Forall component p -> p <> [] -> traverse_recurse root (removelast p) = Some q ->
  addresses root (path_text (removelast p) ++ $"/") q.
Proof.
  intros HC NE HT. exists (rev (removelast p) ++ [ROOT_VALUE]). split; [|rewrite traverse_pos_components; exact HT].
  rewrite (@app_removelast_last str p [] NE) in HC. exact (proj2 (stack_snoc _ _ HC)).
Qed.
Lemma same_address root s a b : addresses root s a -> addresses root s b -> a = b.
Proof. intros (st & H1 & H2) (st' & H3 & H4). rewrite H1 in H3. injection H3 as <-. rewrite H2 in H4. injection H4. auto. Qed.
Lemma path_back p : p <> [] -> path_text p = path_text (removelast p ++ [last p []]).
Proof. intros NE. rewrite <- (@app_removelast_last str p [] NE). reflexivity. Qed.
Lemma not_bare x : (is_element x = true \/ exists k, entry_key x = Some k) -> bare_value (tree_of x) = false.
Proof.
  intros [H|(k & H)]; destruct x; try discriminate H; cbn [tree_of]; unfold bare_value, key_node; cbn [n_lmf n_keyf negb]; rewrite ?andb_false_r; reflexivity.
Qed.
Lemma selects_not_bare c A x : selects c A x -> bare_value (tree_of x) = false.
Proof. unfold selects. intros H. apply not_bare. destruct (isdigit c); [left; apply H|right; eexists; apply H]. Qed.
Definition edit_result (E : env) (pl : json) (r : recipe) (xs' : list item) : Prop :=
  exists r', patch E pl r = (Ok true, r') /\ r_root r' = document xs' /\ same_but_tree r r'.
Lemma document_lines xs xs' : with_lines (document xs) ([] ++ map tree_of xs') = document xs'.
Proof. reflexivity. Qed.
Lemma remove_done E pl p xs xs' r : Forall component p -> proper_tree (document xs) = true -> inside (entry_removed (last p [])) p xs xs' ->
  asks pl (RRemove (path_text p)) -> r_root r = document xs -> edit_result E pl r xs'.
Proof.
  intros HC HPt HI HA HR. pose proof (inside_nonempty _ _ _ _ HI) as NE.
  destruct (inside_at _ _ _ _ HI [] (document xs) eq_refl (or_introl eq_refl)) as (ys & ys' & (A & x & B & HS & -> & ->) & q & m & pre' & HT & HN & HM & HP & _ & HCh).
  pose proof (selects_step _ _ _ _ _ _ HM HP HS) as HSt. destruct (found_address _ _ _ _ _ _ HC NE HT HN HSt) as (HAd & HNx).
  rewrite <- HR in HPt, HAd, HNx. destruct (c12_when E pl p r HPt HA HC) as (_ & HW).
  assert (fst (patch E pl r) = Ok true) as HF by (apply HW; exists q; do 2 eexists; split; [exact HAd|]; split; [exact HNx|apply (selects_not_bare _ _ _ HS)]).
  destruct (patch E pl r) as [o r'] eqn:HPa. cbn [fst] in HF. subst o. exists r'. split; [exact HPa|].
  destruct (c12_success E pl _ r r' HPt HA HPa) as (q' & i' & HAd' & HCh' & HSb). split; [|exact HSb].
  pose proof (same_address _ _ _ _ HAd HAd') as HE. apply app_inj_tail in HE as (<- & <-). rewrite HR in HCh'.
  refine (changed_once _ q (removed_once _) _ _ _ HCh' _). rewrite <- (document_lines xs xs'). apply HCh.
  exists (pre' ++ map tree_of A), (tree_of x), (map tree_of B). rewrite HM, !map_app. cbn [map]. rewrite !app_assoc. repeat split.
Qed.

Lemma content_once l n a b : content_replaced l n a -> content_replaced l n b -> a = b.
Proof. unfold content_replaced. congruence. Qed.
Lemma appended_once l n a b : lines_appended l n a -> lines_appended l n b -> a = b.
Proof. unfold lines_appended. congruence. Qed.
Lemma grouped_tree xs x : in_element [] xs x -> tree_of x = Nd VSent [] (map tree_of xs) true MNone false.
Proof. apply element_tree. Qed.
Lemma element_lines E v x : written_element E v x -> exists lines, written_as E v lines /\ as_element v lines = [tree_of x].
Proof.
  intros H. destruct H as [v H|v xs x HP H HG].
  - exists [value_node (JP v) []]. split; [exact H|reflexivity].
  - exists (map tree_of xs). split; [exact H|]. rewrite (grouped_tree _ _ HG). destruct v as [v| |]; [destruct (HP v eq_refl)|reflexivity|reflexivity].
Qed.
Lemma content_lines E v x x' : rewritten E v x x' -> is_plain_element x = false ->
  exists lines, written_as E v lines /\ with_lines (tree_of x) lines = tree_of x'.
Proof.
  intros H HN. destruct H as [x k HK HC HW|x k cs HK HW|w c x' HW|x xs x' HE HN' HC HW HG].
  - exists [value_node v []]. split; [exact HW|]. destruct x; cbn [entry_key entry_comment] in *; try discriminate HK; injection HK as ->; subst; reflexivity.
  - exists (map tree_of cs). split; [exact HW|]. destruct x; cbn [entry_key entry_comment] in *; try discriminate HK; injection HK as ->; reflexivity.
  - discriminate HN.
  - exists (map tree_of xs). split; [exact HW|]. rewrite (grouped_tree _ _ HG). destruct x; cbn [entry_comment is_element is_plain_element] in *; try discriminate; subst; reflexivity.
Qed.
Lemma plain_lines E v x x' : rewritten E v x x' -> is_plain_element x = true -> written_element E v x'.
Proof. intros H HN. destruct H as [x k HK HC HW|x k cs HK HW|w c x' HW|x xs x' HE HN' HC HW HG]; try exact HW; try (destruct x; discriminate); congruence. Qed.
Lemma written_same E v a b : written_as E v a -> written_as E v b -> a = b.
Proof. unfold written_as. congruence. Qed.
Lemma plain_tree x : is_plain_element x = true -> n_lmf (tree_of x) = true /\ collection_element (tree_of x) = false.
Proof. destruct x; try discriminate. intros _. split; reflexivity. Qed.
Lemma other_tree c A x : selects c A x -> is_plain_element x = false -> n_lmf (tree_of x) = false \/ collection_element (tree_of x) = true.
Proof. unfold selects. destruct (isdigit c); intros (_ & H); destruct x; try discriminate; intros _; auto. Qed.
Lemma selects_plain c A x : selects c A x -> is_plain_element x = true -> isdigit c = true.
Proof. unfold selects. destruct (isdigit c); auto. intros (_ & H); destruct x; try discriminate. Qed.
Lemma last_stack p c above : Forall component p -> p <> [] -> str_to_stack_path (path_text p) = Ok (c :: above) -> c = last p [].
Proof.
  intros HC NE H. rewrite (@app_removelast_last str p [] NE) in HC. pose proof (proj1 (stack_snoc _ _ HC)) as HS.
  rewrite (path_back p NE), HS in H. injection H. auto.
Qed.
Lemma below_change (R' : node -> node -> Prop) i m pre' A x x' B : n_children m = pre' ++ map tree_of (A ++ x :: B) -> i = length (pre' ++ map tree_of A) ->
  R' (tree_of x) (tree_of x') -> changed_at R' [i] m (with_lines m (pre' ++ map tree_of (A ++ x' :: B))).
Proof.
  intros HM -> HR. rewrite map_app in HM |- *. cbn [map] in HM |- *. rewrite app_assoc in HM |- *. eapply changed_step; [exact HM|]. apply changed_here, HR.
Qed.
Lemma replace_done E pl p v xs xs' r : Forall component p -> inside (entry_rewritten E v (last p [])) p xs xs' ->
  asks pl (RReplace (path_text p) v) -> r_root r = document xs -> edit_result E pl r xs'.
Proof.
  intros HC HI HA HR. pose proof (inside_nonempty _ _ _ _ HI) as NE.
  destruct (inside_at _ _ _ _ HI [] (document xs) eq_refl (or_introl eq_refl)) as (ys & ys' & (A & x & x' & B & HS & HW & -> & ->) & q & m & pre' & HT & HN & HM & HP & _ & HCh).
  pose proof (selects_step _ _ _ _ _ _ HM HP HS) as HSt. destruct (found_address _ _ _ _ _ _ HC NE HT HN HSt) as (HAd & HNx).
  rewrite <- HR in HAd, HNx.
  assert (exists lines, written_as E v lines) as (lines & HL).
  { destruct (is_plain_element x) eqn:HPl.
    - destruct (element_lines _ _ _ (plain_lines _ _ _ _ HW HPl)) as (l & Hl & _). eauto.
    - destruct (content_lines _ _ _ _ HW HPl) as (l & Hl & _). eauto. }
  pose proof (c13_when E pl p v r _ _ lines HA HC HAd HNx (selects_not_bare _ _ _ HS) HL) as HF.
  destruct (patch E pl r) as [o r'] eqn:HPa. cbn [fst] in HF. subst o. exists r'. split; [exact HPa|].
  destruct (c13_success E pl _ v r r' HA HPa) as (HSb & lines' & HL' & HCase). rewrite (written_same _ _ _ _ HL' HL) in HCase. clear lines' HL'. split; [|exact HSb].
  destruct HCase as [(q' & n & HAd' & HN' & _ & HLm & HCh')|(q' & i' & y & HAd' & HN' & HLm & HCo & (c & above & HSp & HDi) & HCh')].
  - rewrite <- (same_address _ _ _ _ HAd HAd') in HCh', HN'. rewrite HNx in HN'. injection HN' as <-. rewrite HR in HCh'.
    assert (is_plain_element x = false) as HPl.
    { destruct (is_plain_element x) eqn:HPl; [|reflexivity]. exfalso. destruct (plain_tree x HPl) as (H1 & H2).
      destruct (HLm H1) as [H3|(c & above & HSp & HDi)]; [congruence|]. rewrite (last_stack _ _ _ HC NE HSp) in HDi.
      rewrite (selects_plain _ _ _ HS HPl) in HDi. discriminate. }
    destruct (content_lines _ _ _ _ HW HPl) as (l & Hl & HX). rewrite (written_same _ _ _ _ Hl HL) in HX.
    refine (changed_once _ _ (content_once lines) _ _ _ HCh' _). apply changed_app. rewrite <- (document_lines xs xs'). apply HCh.
    eapply below_change; [exact HM|reflexivity|]. unfold content_replaced. symmetry. exact HX.
  - pose proof (same_address _ _ _ _ HAd HAd') as HE. apply app_inj_tail in HE as (<- & <-). rewrite HNx in HN'. injection HN' as <-. rewrite HR in HCh'.
    assert (is_plain_element x = true) as HPl.
    { destruct (is_plain_element x) eqn:HPl; [reflexivity|]. destruct (other_tree _ _ _ HS HPl); congruence. }
    destruct (element_lines _ _ _ (plain_lines _ _ _ _ HW HPl)) as (l & Hl & HX). rewrite (written_same _ _ _ _ Hl HL) in HX. rewrite HX in HCh'.
    refine (changed_once _ q (CanProofs5.line_replaced_once _ _) _ _ _ HCh' _). rewrite <- (document_lines xs xs'). apply HCh.
    exists (pre' ++ map tree_of A), (tree_of x), (map tree_of B). rewrite HM, !map_app. cbn [map]. rewrite !app_assoc. repeat split. rewrite <- !app_assoc. reflexivity.
Qed.
Lemma unnamed c pre xs : not_there [c] pre -> isdigit c = false -> no_entry c xs -> forall y, In y (pre ++ map tree_of xs) -> ~ names c y.
Proof.
  intros HP D NE y I. apply in_app_iff in I as [I|I].
  - exact (not_there_named _ _ _ D HP y I).
  - exact (not_called _ _ _ NE I).
Qed.
Lemma root_ok xs : xs <> [] -> parent_ok (document xs).
Proof. intros NE. split; [|left; reflexivity]. destruct xs; [congruence|]. reflexivity. Qed.
Lemma add_key_done E pl p v xs xs' r : Forall component p -> xs <> [] -> inside (key_added E v (last p [])) p xs xs' ->
  asks pl (RAdd (path_text p) v) -> r_root r = document xs -> edit_result E pl r xs'.
Proof.
  intros HC HX HI HA HR. pose proof (inside_nonempty _ _ _ _ HI) as NE.
  destruct (inside_at _ _ _ _ HI [] (document xs) eq_refl (or_introl eq_refl)) as (ys & ys' & (D & ND & HNo & new & HW & ->) & q & m & pre' & HT & HN & HM & HP & HO & HCh).
  destruct (HO (root_ok xs HX)) as (HB & HL). pose proof (found_parent _ _ _ HC NE HT) as HAd. rewrite <- HR in HAd, HN. rewrite (path_back p NE) in HA.
  assert (Forall component (removelast p ++ [last p []])) as HC' by (rewrite <- (@app_removelast_last str p [] NE); exact HC).
  assert (forall y, In y (n_children m) -> ~ names (last p []) y) as HU by (rewrite HM; exact (unnamed _ _ _ HP D HNo)).
  destruct (c14_new_key E pl _ _ v r q m _ HA HC' D ND HAd HN HB HL HU HW) as (r' & HPa & HSb & HCh').
  exists r'. split; [exact HPa|]. split; [|exact HSb]. rewrite HR in HCh'. refine (changed_once _ q (appended_once _) _ _ _ HCh' _).
  rewrite <- (document_lines xs xs'). apply HCh. unfold lines_appended. rewrite HM, map_app, app_assoc. reflexivity.
Qed.
Lemma add_last_done E pl p v xs xs' r : Forall component p -> xs <> [] -> last p [] = $"-" -> inside (element_added E v) p xs xs' ->
  asks pl (RAdd (path_text p) v) -> r_root r = document xs -> edit_result E pl r xs'.
Proof.
  intros HC HX HD HI HA HR. pose proof (inside_nonempty _ _ _ _ HI) as NE.
  destruct (inside_at _ _ _ _ HI [] (document xs) eq_refl (or_introl eq_refl)) as (ys & ys' & (x & HW & ->) & q & m & pre' & HT & HN & HM & HP & HO & HCh).
  destruct (HO (root_ok xs HX)) as (HB & HL). pose proof (found_parent _ _ _ HC NE HT) as HAd. rewrite <- HR in HAd, HN. rewrite (path_back p NE), HD in HA.
  assert (Forall component (removelast p ++ [last p []])) as HC' by (rewrite <- (@app_removelast_last str p [] NE); exact HC).
  apply Forall_app in HC' as (HC' & _). destruct (element_lines _ _ _ HW) as (lines & Hl & HEl).
  destruct (c14_dash E pl _ v r q m lines HA HC' HAd HN HB HL Hl) as (r' & HPa & HSb & HCh'). rewrite HEl in HCh'.
  exists r'. split; [exact HPa|]. split; [|exact HSb]. rewrite HR in HCh'. refine (changed_once _ q (appended_once _) _ _ _ HCh' _).
  rewrite <- (document_lines xs xs'). apply HCh. unfold lines_appended. rewrite HM, map_app, app_assoc. reflexivity.
Qed.
Lemma insert_done E pl p v xs xs' r : Forall component p -> inside (element_inserted E v (last p [])) p xs xs' ->
  asks pl (RAdd (path_text p) v) -> r_root r = document xs -> edit_result E pl r xs'.
Proof.
  intros HC HI HA HR. pose proof (inside_nonempty _ _ _ _ HI) as NE.
  destruct (inside_at _ _ _ _ HI [] (document xs) eq_refl (or_introl eq_refl)) as (ys & ys' & (A & x & x' & B & D & HS & HPl & HW & -> & ->) & q & m & pre' & HT & HN & HM & HP & _ & HCh).
  pose proof (selects_step _ _ _ _ _ _ HM HP HS) as HSt. destruct (found_address _ _ _ _ _ _ HC NE HT HN HSt) as (HAd & HNx).
  rewrite <- HR in HAd, HNx. rewrite (path_back p NE) in HA, HAd.
  assert (Forall component (removelast p ++ [last p []])) as HC' by (rewrite <- (@app_removelast_last str p [] NE); exact HC).
  destruct (element_lines _ _ _ HW) as (lines & Hl & HEl).
  destruct (c14_index E pl _ _ v r q _ _ lines HA HC' D HAd HNx (proj2 (plain_tree x HPl)) Hl) as (r' & HPa & HSb & HCh'). rewrite HEl in HCh'.
  exists r'. split; [exact HPa|]. split; [|exact HSb]. rewrite HR in HCh'. refine (changed_once _ q (inserted_once _ _) _ _ _ HCh' _).
  rewrite <- (document_lines xs xs'). apply HCh. exists (pre' ++ map tree_of A), (tree_of x :: map tree_of B). rewrite HM, !map_app. cbn [map].
  split; [rewrite <- app_assoc; reflexivity|]. split; [reflexivity|]. rewrite <- app_assoc. reflexivity.
Qed.
Lemma replace_payload p v : p <> [] -> asks (edit_payload $"replace" (path_text p) v) (RReplace (path_text p) v).
Proof. intros NE. apply payload_replace. destruct p; [congruence|discriminate]. Qed.
Lemma overwrite_done E pl p v xs xs' r : Forall component p -> inside (entry_overwritten E v (last p [])) p xs xs' ->
  asks pl (RAdd (path_text p) v) -> r_root r = document xs -> edit_result E pl r xs'.
Proof.
  intros HC HI HA HR. pose proof (inside_nonempty _ _ _ _ HI) as NE.
  destruct (inside_at _ _ _ _ HI [] (document xs) eq_refl (or_introl eq_refl)) as (ys & ys' & (A & x & x' & B & HD & HS & HPl & HW & -> & ->) & q & m & pre' & HT & HN & HM & HP & _ & HCh).
  pose proof (selects_step _ _ _ _ _ _ HM HP HS) as HSt. destruct (found_address _ _ _ _ _ _ HC NE HT HN HSt) as (HAd & HNx).
  rewrite <- HR in HAd, HNx.
  assert (inside (entry_rewritten E v (last p [])) p xs xs') as HI'.
  { clear -HI. revert HI. generalize (last p []) as c. intros c H. induction H as [d xs xs' H|k p' cm cs cs' x x' A B D NE HX HX' H IH|i p' cm zs zs' x x' A B D HI HX HX' H IH]; [|eapply inside_section; eassumption|eapply inside_element; eassumption].
    constructor. destruct H as (A & x & x' & B & _ & H1 & _ & H2 & H3 & H4). exists A, x, x', B. auto. }
  destruct (replace_done E _ p v xs xs' r HC HI' (replace_payload p v NE) HR) as (r' & HPa & HX). exists r'. split; [|exact HX].
  rewrite <- HPa. apply (add_over_existing E pl _ p v r _ _ HC HD HAd HNx); [|exact HA|apply replace_payload, NE].
  unfold selects in HS. destruct (isdigit (last p [])); [|left; reflexivity]. right. destruct HS as (_ & HS). destruct x; try discriminate; reflexivity.
Qed.

Lemma remove_payload s : s <> [] -> asks (JDict [(PStr $"op", JStr $"remove"); (PStr $"path", JStr s)]) (RRemove s).
Proof.
  intros H. eexists. split; [reflexivity|]. split; [|split; [left; reflexivity|repeat split; auto]].
  intros k w HI. cbn [In] in *. destruct HI as [[= <- <-]|[[= <- <-]|[]]]; auto.
Qed.
Lemma add_path E s v xs xs' : file_edited E (RAdd s v) xs xs' -> s <> [].
Proof.
  intros H. inversion H; subst; clear H; match goal with H : inside _ _ _ _ |- _ => apply inside_nonempty in H end;
  match goal with |- path_text ?p <> [] => destruct p; [congruence|discriminate] end.
Qed.
Lemma remove_path E s xs xs' : file_edited E (RRemove s) xs xs' -> s <> [].
Proof. intros H. inversion H; subst; clear H. match goal with H : inside _ ?p _ _ |- _ => apply inside_nonempty in H; destruct p; [congruence|discriminate] end. Qed.
Lemma edit_once E q xs xs' : file_edited E q xs xs' -> forall pl r, asks pl q -> r_root r = document xs -> edit_result E pl r xs'.
Proof.
  induction 1 as [p xs xs' HC HT HI|p v xs xs' HC HI|p v xs xs' HC HX HI|p v xs xs' HC HX HD HI|p v xs xs' HC HI|p v xs xs' HC HI|path v w xs HG HJ
    |from p v xs xs' HG H IH|p xs|from p v xs xs0 xs1 xs' HC HN HG HW HW' H0 IH0 H1 IH1 H2 IH2]; intros pl r HA HR.
  - eapply remove_done; eassumption.
  - eapply replace_done; eassumption.
  - eapply add_key_done; eassumption.
  - eapply add_last_done; eassumption.
  - eapply insert_done; eassumption.
  - eapply overwrite_done; eassumption.
  - destruct (c09 E pl path v r HA) as (H1 & H2 & _). exists r. split; [|split; [exact HR|split; [|split]; reflexivity]].
    rewrite (surjective_pairing (patch E pl r)), H1. f_equal. apply H2. exists w. rewrite HR. auto.
  - pose proof (payload_add p v (add_path _ _ _ _ _ H)) as HA'. destruct (IH _ r HA' HR) as (r' & HP & HX). exists r'. split; [|exact HX].
    rewrite <- HP. apply (c15_ok E pl _ from p r v HA HA'). rewrite HR. exact HG.
  - exists r. split; [exact (c16_self E pl p r HA)|]. split; [exact HR|split; [|split]; reflexivity].
  - pose proof (payload_add _ v (add_path _ _ _ _ _ H0)) as HPa. pose proof (remove_payload _ (remove_path _ _ _ _ H1)) as HPr.
    destruct (IH0 _ r HPa HR) as (r0 & HP0 & _). destruct (IH1 _ r HPr HR) as (r1 & HP1 & HR1 & HS1). destruct (IH2 _ r1 HPa HR1) as (r' & HP2 & HR' & HS').
    rewrite <- HR in HG. destruct (move_outcome E pl _ _ from p v r HC HA HPr HPa HN HG HW HW') as (_ & _ & HM).
    rewrite HP0 in HM. destruct (HM eq_refl r1 HP1) as (HM1 & _). rewrite HP2 in HM1. exists r'. split; [exact (HM1 eq_refl)|]. split; [exact HR'|].
    destruct HS1 as (A1 & A2 & A3), HS' as (B1 & B2 & B3). split; [|split]; congruence.
Qed.
Lemma edits_done E ps xs xs' : edited_in_turn E ps xs xs' -> forall r, r_root r = document xs ->
  exists r', patch_loop E ps r = (Go SUCCESS, r') /\ r_root r' = document xs' /\ same_but_tree r r'.
Proof.
  induction 1 as [xs|p q ps xs xs1 xs' HA HE HT IH]; intros r HR.
  - exists r. split; [reflexivity|]. split; [exact HR|split; [|split]; reflexivity].
  - destruct (edit_once E q xs xs1 HE p r HA HR) as (r1 & HP & HR1 & HS1). destruct (IH r1 HR1) as (r' & HL & HR' & HS').
    exists r'. cbn [patch_loop]. rewrite HP. split; [exact HL|]. split; [exact HR'|].
    destruct HS1 as (A1 & A2 & A3), HS' as (B1 & B2 & B3). split; [|split]; congruence.
Qed.
Lemma c138 E j written xs vars xs' : canonical_recipe E xs vars -> canonical_recipe E xs' vars -> edited_in_turn E (patch_list j) xs xs' ->
  patch_command E (JsonData j) (ReadOk (join NLs (recipe_page xs vars))) written
  = (match written with None => Exit SUCCESS | Some e => Raise e end, [Write (join NLs (recipe_page xs' vars))]).
Proof.
  intros HCa HCa' HE. unfold patch_command. rewrite (read_back E xs vars HCa). set (r0 := {| r_init := _ |}).
  destruct (edits_done E _ xs xs' HE r0 eq_refl) as (r' & HL & HR' & _ & HS & HV). change (match j with JList l => l | _ => [j] end) with (patch_list j).
  rewrite HL, (rendered E r' xs' vars HR' HS HV HCa'). reflexivity.
Qed.

Lemma dash_line i body u c : In ":"%char body -> line (spaces i ++ $"- ") body c :: u = with_dash i (line (spaces (i + 2)) body c :: u).
Proof.
  intros I. assert (forall a, line a body c = a ++ rstrip (body ++ $"  " ++ c)) as H.
  { intros a. unfold line. apply rstrip_app. exists ":"%char. split; [apply in_or_app; auto|reflexivity]. }
  rewrite !H. unfold with_dash. f_equal. rewrite <- app_assoc. set (t := rstrip _). unfold spaces.
  assert (firstn i (repeat cSP (i + 2) ++ t) = repeat cSP i) as ->.
  { rewrite repeat_app, <- app_assoc, firstn_app, repeat_length, Nat.sub_diag, firstn_all2 by (rewrite repeat_length; lia). apply app_nil_r. }
  assert (skipn (i + 2) (repeat cSP (i + 2) ++ t) = t) as ->; [|reflexivity].
  rewrite skipn_app, repeat_length, Nat.sub_diag, skipn_all2 by (rewrite repeat_length; lia). reflexivity.
Qed.
Lemma element_layout c ys x i : in_element c ys x -> layout i x = with_dash i (flat_map (layout (i + 2)) ys).
Proof.
  intros H. destruct H; cbn [layout flat_map app].
  - apply dash_line, in_or_app. right. left. reflexivity.
  - rewrite <- dash_line by (apply in_or_app; right; left; reflexivity).
    replace (i + 2 + 2) with (i + 4) by lia. reflexivity.
Qed.
Lemma key_layout k c cs x i : same_as_value k -> below_key (PStr k) c cs x -> layout i x = line (spaces i) (key_text (PStr k) ++ $":") c :: flat_map (layout (i + 2)) cs.
Proof. intros HK H. destruct H; cbn [layout]; [reflexivity|]. unfold same_as_value in HK. rewrite HK. reflexivity. Qed.
Lemma block_inside R p xs xs' : inside R p xs xs' -> Forall same_as_value p -> forall i, block_differs R (flat_map (layout i) xs) (flat_map (layout i) xs').
Proof.
  induction 1 as [c xs xs' H|k p c cs cs' x x' A B D NE HX HX' H IH|i p c zs zs' x x' A B D HI HX HX' H IH]; intros HF j; [|rewrite !flat_map_app; cbn [flat_map]; apply block_among..].
  - apply block_itself, H.
  - rewrite (key_layout _ _ _ _ j (Forall_inv HF) HX), (key_layout _ _ _ _ j (Forall_inv HF) HX').
    pose proof (block_among R [line (spaces j) (key_text (PStr k) ++ $":") c] [] _ _ (IH (Forall_inv_tail HF) (j + 2))) as HB. rewrite !app_nil_r in HB. exact HB.
  - rewrite (element_layout _ _ _ j HX), (element_layout _ _ _ j HX'). apply block_dashed, IH, (Forall_inv_tail HF).
Qed.
Lemma page_one x : (forall c, x <> IComment c) -> page [x] = layout 0 x ++ [[]].
Proof. intros N. unfold page. cbn [flat_map]. rewrite app_nil_r. f_equal. destruct x; try reflexivity. destruct (N c eq_refl). Qed.
Lemma page_block R p xs xs' : inside R p xs xs' -> length p > 1 -> Forall same_as_value p -> block_differs R (page xs) (page xs').
Proof.
  intros H HL HF. assert (exists A x x' B, xs = A ++ x :: B /\ xs' = A ++ x' :: B /\ block_differs R (layout 0 x) (layout 0 x')
     /\ (forall c, x <> IComment c) /\ (forall c, x' <> IComment c)) as (A & x & x' & B & -> & -> & HD & N1 & N2).
  { destruct H as [c xs xs' H|k p c cs cs' x x' A B D NE HX HX' H|i p c zs zs' x x' A B D HI HX HX' H];
      [cbn in HL; lia|exists A, x, x', B; (split; [reflexivity|]); (split; [reflexivity|]); pose proof (block_inside _ _ _ _ H (Forall_inv_tail HF) 2) as HB..].
    - split; [|split; [destruct HX|destruct HX']; discriminate].
      rewrite (key_layout _ _ _ _ 0 (Forall_inv HF) HX), (key_layout _ _ _ _ 0 (Forall_inv HF) HX').
      pose proof (block_among R [line (spaces 0) (key_text (PStr k) ++ $":") c] [] _ _ HB) as HB'. rewrite !app_nil_r in HB'. exact HB'.
    - split; [|split; [destruct HX|destruct HX']; discriminate].
      rewrite (element_layout _ _ _ 0 HX), (element_layout _ _ _ 0 HX'). apply block_dashed, HB. }
  change (x :: B) with ([x] ++ B). change (x' :: B) with ([x'] ++ B). rewrite !page_app, (page_one x N1), (page_one x' N2), <- !(app_assoc (layout 0 _)). apply block_among, HD.
Qed.
