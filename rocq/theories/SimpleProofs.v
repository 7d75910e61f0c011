(** Proofs for C128. *)
From Verif Require Export AgainProofs SimpleSpec.
From Verif Require Import ConvertProofs5 PlainProofs PathSpec KeepSpec SimpleSpec.
From Coq Require Import Permutation.

Lemma simple_ind_list (P : item -> Prop) :
  (forall c, P (IComment c)) -> (forall k c, P (IEmpty k c)) -> (forall k v c, P (IScalar k v c)) -> (forall v c, P (IElem v c)) ->
  (forall k c cs, Forall simple cs -> Forall P cs -> P (ISection k c cs)) -> forall x, simple x -> P x.
Proof.
  intros H1 H2 H3 H4 H5. fix IH 2. intros x H. destruct H as [c|k c|k v c|v c|k c cs HF]; auto. apply H5; [exact HF|].
  induction HF as [|y l Hy Hl IHl]; constructor; auto.
Qed.

(** * Permutations of items *)
Lemma reordered_refl xs : reordered xs xs.
Proof. apply reordered_here, Permutation_refl. Qed.
Lemma reordered_forall (P : item -> Prop) : (forall k c cs ds, reordered cs ds -> P (ISection k c cs) -> P (ISection k c ds)) ->
  forall xs ys, reordered xs ys -> Forall P xs -> Forall P ys.
Proof.
  intros HP xs ys H. induction H as [xs ys H|a k c cs ds b H IH|xs ys zs H1 IH1 H2 IH2]; intros F.
  - eapply Permutation_Forall; eauto.
  - apply Forall_app in F as (F1 & F2). inversion F2 as [|? ? F3 F4]; subst. apply Forall_app. split; [exact F1|]. constructor; [eapply HP; eauto|exact F4].
  - auto.
Qed.
Lemma reordered_length xs ys : reordered xs ys -> length xs = length ys.
Proof.
  induction 1 as [xs ys H|a k c cs ds b H IH|xs ys zs H1 IH1 H2 IH2]; [apply Permutation_length, H| |congruence].
  rewrite !app_length. reflexivity.
Qed.
Lemma reordered_lone xs ys : reordered xs ys -> forall k c, ys = [IEmpty k c] -> xs = [IEmpty k c].
Proof.
  induction 1 as [xs ys H|a k0 c0 cs ds b H IH|xs ys zs H1 IH1 H2 IH2]; intros k c Hy.
  - subst. apply Permutation_sym in H. apply Permutation_length_1_inv in H. exact H.
  - destruct a as [|x [|]]; discriminate.
  - eauto.
Qed.
Lemma reordered_proper xs ys : reordered xs ys -> proper_section xs -> proper_section ys.
Proof.
  intros H (H1 & H2). split.
  - intros ->. apply reordered_length in H. destruct xs; [auto|discriminate].
  - intros k c ->. apply (H2 k c). eapply reordered_lone; [exact H|reflexivity].
Qed.

(** * What stays true of a canonical page *)
Lemma reordered_canonical E xs ys : reordered xs ys -> Forall (canonical E) xs -> Forall (canonical E) ys.
Proof.
  induction 1 as [xs ys H|a k c cs ds b H IH|xs ys zs H1 IH1 H2 IH2]; intros F.
  - eapply Permutation_Forall; eauto.
  - apply Forall_app in F as (F1 & F2). inversion F2 as [|? ? F3 F4]; subst. apply Forall_app. split; [exact F1|]. constructor; [|exact F4].
    inversion F3 as [| | | |? ? ? P1 P2 P3| | |]; subst. constructor; [exact P1|eapply reordered_proper; eauto|apply IH, P3].
  - auto.
Qed.
Lemma reordered_simple xs ys : reordered xs ys -> Forall simple xs -> Forall simple ys.
Proof.
  induction 1 as [xs ys H|a k c cs ds b H IH|xs ys zs H1 IH1 H2 IH2]; intros F.
  - eapply Permutation_Forall; eauto.
  - apply Forall_app in F as (F1 & F2). inversion F2 as [|? ? F3 F4]; subst. apply Forall_app. split; [exact F1|]. constructor; [|exact F4].
    inversion F3; subst. constructor. auto.
  - auto.
Qed.
Lemma reordered_trees xs ys : reordered xs ys -> forallb proper_tree (map tree_of xs) = true -> forallb proper_tree (map tree_of ys) = true.
Proof.
  induction 1 as [xs ys H|a k c cs ds b H IH|xs ys zs H1 IH1 H2 IH2]; intros F; [| |auto].
  - rewrite forallb_forall in *. intros n Hn. apply F. eapply Permutation_in; [apply Permutation_sym, Permutation_map, H|exact Hn].
  - rewrite map_app, forallb_app in *. cbn [map forallb tree_of key_node proper_tree] in *. rewrite !andb_true_iff in *.
    destruct F as (F1 & (F2 & F3) & F4). auto.
Qed.
Lemma flat_forall {A B} (P : B -> Prop) (f : A -> list B) l : Forall P (flat_map f l) <-> Forall (fun x => Forall P (f x)) l.
Proof.
  induction l as [|x l IH]; cbn [flat_map]; [split; constructor|]. rewrite Forall_app, IH. split; [intros (H1 & H2); constructor; assumption|].
  intros H. inversion H; auto.
Qed.
Lemma reordered_lines (P : str -> Prop) xs ys : reordered xs ys -> forall i, Forall (fun x => Forall P (layout i x)) xs -> Forall (fun x => Forall P (layout i x)) ys.
Proof.
  induction 1 as [xs ys H|a k c cs ds b H IH|xs ys zs H1 IH1 H2 IH2]; intros i F.
  - eapply Permutation_Forall; eauto.
  - apply Forall_app in F as (F1 & F2). inversion F2 as [|? ? F3 F4]; subst. apply Forall_app. split; [exact F1|]. constructor; [|exact F4].
    cbn [layout] in *. inversion F3 as [|? ? F5 F6]; subst. constructor; [exact F5|]. apply flat_forall, IH, flat_forall, F6.
  - auto.
Qed.
Lemma inert_page xs : Forall inert (page xs) <-> Forall (fun x => Forall inert (layout 0 x)) xs.
Proof.
  unfold page. rewrite flat_forall. assert (inert []) as HE.
  { split; [intros c []|]. split; intros (a & b & H); destruct a; discriminate. }
  split; apply Forall_impl; intros x H.
  - apply Forall_app in H. apply H.
  - apply Forall_app. split; [exact H|]. destruct x; repeat constructor; apply HE.
Qed.
Lemma simple_no_block x : simple x -> ends_in_block x = false.
Proof.
  revert x. apply simple_ind_list; try reflexivity. intros k c cs _ F. cbn [ends_in_block]. induction F as [|y l Hy Hl IH]; [reflexivity|].
  destruct l; [exact Hy|exact IH].
Qed.
Lemma reordered_document E xs ys : reordered xs ys -> Forall simple xs -> canonical_document E xs -> canonical_document E ys.
Proof.
  intros H HS ((C1 & C2) & C3 & C4). split; [split|split].
  - eapply reordered_canonical; eauto.
  - eapply Forall_impl; [|eapply reordered_simple; eauto]. apply simple_no_block.
  - unfold document, root_node in *. cbn [proper_tree] in *. apply andb_prop in C3 as (C3 & C5). rewrite C3. cbn [andb]. eapply reordered_trees; eauto.
  - apply inert_page. apply inert_page in C4. eapply reordered_lines; eauto.
Qed.

(** * Trees *)
Lemma children_section k c cs : n_children (tree_of (ISection k c cs)) = map tree_of cs.
Proof. reflexivity. Qed.
Lemma perm_one (x : node) l : Permutation [x] l -> l = [x].
Proof. apply Permutation_length_1_inv. Qed.
Lemma order_items xs cs : Permutation (map tree_of xs) cs -> exists ys, cs = map tree_of ys /\ reordered xs ys.
Proof. intros H. apply Permutation_sym, Permutation_map_inv in H as (ys & -> & H). exists ys. split; [reflexivity|]. apply reordered_here, H. Qed.
Lemma changed_list q : forall n n' xs, changed_at order_changed q n n' -> n_children n = map tree_of xs -> Forall simple xs ->
  exists ys, n' = with_lines n (map tree_of ys) /\ reordered xs ys.
Proof.
  induction q as [|i q IH]; intros n n' xs H HN HS.
  - inversion H as [a b (P & HB)|]; subst. rewrite HN in P. destruct (order_items _ _ P) as (ys & HY & R). exists ys. split; [|exact R]. rewrite <- HY. exact HB.
  - inversion H as [|a before x x' after p HC HX]; subst. rewrite HN in HC. apply map_eq_app in HC as (a & l & -> & <- & HL).
    apply map_eq_cons in HL as (y & b & -> & <- & <-). apply Forall_app in HS as (S1 & S2). inversion S2 as [|? ? S3 S4]; subst.
    assert (n_children (tree_of y) = [] -> x' = tree_of y) as NC.
    { intros E. inversion HX as [u w (P & HB)|u be z z' af p E1 E2]; subst.
      - rewrite E in P. apply Permutation_nil in P. rewrite HB, P. rewrite <- E. destruct (tree_of y); reflexivity.
      - rewrite E in E1. destruct be; discriminate. }
    assert (x' = tree_of y -> exists ys, with_lines n (map tree_of a ++ x' :: map tree_of b) = with_lines n (map tree_of ys) /\ reordered (a ++ y :: b) ys) as SAME.
    { intros ->. exists (a ++ y :: b). split; [rewrite map_app; reflexivity|apply reordered_refl]. }
    destruct S3 as [c|k c|k v c|v c|k c cs S5].
    + apply SAME, (NC eq_refl).
    + apply SAME, (NC eq_refl).
    + apply SAME. inversion HX as [u w (P & HB)|u be z z' af p E1 E2]; subst.
      * cbn [tree_of key_node n_children] in P. apply perm_one in P. rewrite HB, P. reflexivity.
      * cbn [tree_of key_node n_children] in E1. destruct be as [|z0 be]; [|destruct be; discriminate]. injection E1 as <- <-.
        assert (z' = value_node v c) as ->; [|reflexivity]. inversion E2 as [u w (P & HB)|u be w w' af p' E3 E4]; subst.
        -- cbn [value_node n_children] in P. apply Permutation_nil in P. rewrite HB, P. reflexivity.
        -- cbn [value_node n_children] in E3. destruct be; discriminate.
    + apply SAME, (NC eq_refl).
    + destruct (IH _ _ cs HX eq_refl S5) as (ds & -> & R). exists (a ++ ISection k c ds :: b). split; [rewrite map_app; reflexivity|].
      apply reordered_inside, R.
Qed.
Lemma rearranged_document xs root : rearranged (document xs) root -> Forall simple xs -> exists ys, root = document ys /\ reordered xs ys.
Proof.
  intros H HS. induction H as [|b c q H IH HC]; [exists xs; split; [reflexivity|apply reordered_refl]|].
  destruct IH as (ys & -> & R). destruct (changed_list q _ _ ys HC eq_refl (reordered_simple _ _ R HS)) as (zs & -> & R').
  exists zs. split; [reflexivity|]. eapply reordered_again; eauto.
Qed.

(** * The line of the version *)
Lemma version_tree : tree_of version_item = version_line.
Proof. reflexivity. Qed.
Lemma version_document xs : with_version (document xs) = document (xs ++ [version_item]).
Proof. unfold with_version, document, root_node. cbn [with_lines n_children]. rewrite map_app. reflexivity. Qed.
Definition is_version_item (x : item) : Prop := val_is (n_value (tree_of x)) $"schema_version" = true -> x = version_item.
Lemma no_version_line xs : Forall simple xs -> no_entry $"schema_version" xs -> ~ top_line $"schema_version" (document xs).
Proof.
  intros HS H (n & Hn & V). cbn [document root_node n_children] in Hn. apply in_map_iff in Hn as (x & <- & Hx). rewrite Forall_forall in HS. specialize (H x Hx) as (H1 & H2).
  destruct (HS x Hx) as [c|k c|k v c|v c|k c cs F]; cbn [tree_of key_node n_value entry_key] in *.
  - discriminate.
  - injection V as ->. auto.
  - injection V as ->. auto.
  - injection V as ->. exact (H2 c eq_refl).
  - injection V as ->. auto.
Qed.
Lemma others_named xs : Forall simple xs -> no_entry $"schema_version" xs -> Forall is_version_item xs.
Proof.
  intros HS H. rewrite Forall_forall in *. intros x Hx V. exfalso. specialize (H x Hx) as (H1 & H2).
  destruct (HS x Hx) as [c|k c|k v c|v c|k c cs F]; cbn [tree_of key_node n_value entry_key] in *.
  - discriminate.
  - destruct k; try discriminate. cbn [val_is] in V. apply str_eqb_eq in V as ->. auto.
  - destruct k; try discriminate. cbn [val_is] in V. apply str_eqb_eq in V as ->. auto.
  - destruct v as [[| | | |t]|l|d]; try discriminate. cbn [val_is] in V. apply str_eqb_eq in V as ->. exact (H2 c eq_refl).
  - destruct k; try discriminate. cbn [val_is] in V. apply str_eqb_eq in V as ->. auto.
Qed.
Lemma version_stays xs ys : reordered xs ys -> Forall is_version_item xs -> Exists (eq version_item) xs -> Exists (eq version_item) ys.
Proof.
  intros H. induction H as [xs ys H|a k c cs ds b H IH|xs ys zs H1 IH1 H2 IH2]; intros F X.
  - apply Exists_exists in X as (x & Hx & <-). apply Exists_exists. exists version_item. split; [eapply Permutation_in; eauto|reflexivity].
  - apply Exists_app in X as [X|X]; apply Exists_app; [left; exact X|]. inversion X as [? ? X1|? ? X1]; subst; [discriminate|]. right. apply Exists_cons_tl. exact X1.
  - apply IH2; [|apply IH1; assumption]. eapply (reordered_forall is_version_item); [|exact H1|exact F].
    intros k c cs ds _ K V. specialize (K V). discriminate.
Qed.
Lemma version_found ys : Forall is_version_item ys -> Exists (eq version_item) ys -> lookup (document ys) (path_text [$"schema_version"]) = Some version_line.
Proof.
  intros F X. apply lookup_holds; [apply comp_ok_spec; vm_compute; reflexivity|reflexivity|]. apply holds_first. cbn [document root_node n_children].
  induction ys as [|y ys IH]; [inversion X|]. inversion F as [|? ? F1 F2]; subst. cbn [map]. rewrite first_cons. destruct (val_is (n_value (tree_of y)) $"schema_version") eqn:V.
  - rewrite (F1 V). reflexivity.
  - apply IH; [exact F2|]. inversion X as [? ? X1|? ? X1]; subst; [discriminate V|exact X1].
Qed.

Lemma c128 T xs m : let E := t_env T in let text := join NLs (recipe_page xs []) in
  reads_proper E -> writes_version E -> canonical E version_item -> (forall l x, In x (t_order T l) -> In x l) ->
  canonical_recipe E xs [] -> Forall simple xs -> collect_selectors E (document xs) = [] -> no_expressions (document xs) ->
  nothing_old (document xs) ->
  about_fine E (find_closest_license_match (t_close T) (t_licenses T)) (document xs) ->
  exists r, new_recipe E text = Ok r /\ r_root r = document xs
  /\ forall text' s', without_errors (render_to_v1 T) {| v1 := r; msgs := m |} text' s' ->
     exists ys r', reordered (xs ++ [version_item]) ys /\ text' = join NLs (page ys)
     /\ new_recipe E text' = Ok r' /\ r_root r' = document ys /\ r_schema r' = SV1 /\ r_vars r' = r_vars (v1 s').
Proof.
  cbv zeta. intros HE HW HV HO HC HS HSel HX NO HA.
  rewrite (read_back (t_env T) xs [] HC). eexists. split; [reflexivity|]. split; [reflexivity|]. intros text' s' H.
  pose proof HC as (CD & NE & _). pose proof CD as (_ & PT & _). pose proof (no_version_line xs HS NE) as NT.
  assert (rearranged (document (xs ++ [version_item])) (r_root (v1 s'))) as RA.
  { rewrite <- version_document. match type of H with without_errors _ ?s _ _ => exact (plain_all T s text' s' HE HW HO PT HSel eq_refl HX NT NO HA H) end. }
  assert (Forall simple (xs ++ [version_item])) as HS2 by (apply Forall_app; split; [exact HS|repeat constructor]).
  destruct (rearranged_document _ _ RA HS2) as (ys & HY & R).
  assert (Forall is_version_item (xs ++ [version_item])) as FV.
  { apply Forall_app. split; [apply others_named; assumption|]. constructor; [intros _; reflexivity|constructor]. }
  assert (canonical_document (t_env T) (xs ++ [version_item])) as CD2.
  { destruct CD as ((C1 & C2) & C3 & C4). split; [split|split].
    - apply Forall_app. split; [exact C1|]. constructor; [exact HV|constructor].
    - apply Forall_app. split; [exact C2|]. repeat constructor.
    - unfold document, root_node in *. cbn [proper_tree] in *. rewrite map_app, forallb_app. apply andb_prop in C3 as (C3 & C5). rewrite C3, C5. reflexivity.
    - apply inert_page. apply inert_page in C4. apply Forall_app. split; [exact C4|]. constructor; [|constructor]. constructor; [|constructor].
      apply inert_check. vm_compute. reflexivity. }
  pose proof (reordered_document _ _ _ R HS2 CD2) as CY.
  assert (lookup (r_root (v1 s')) (path_text [$"schema_version"]) = Some version_line) as HL.
  { rewrite HY. apply version_found.
    - eapply (reordered_forall is_version_item); [|exact R|exact FV]. intros k c cs ds _ K V. specialize (K V). discriminate.
    - eapply version_stays; [exact R|exact FV|]. apply Exists_app. right. constructor. reflexivity. }
  destruct (c127_again T _ text' s' ys HL (proj1 H) HY CY) as (r' & H1 & H2 & H3 & H4 & _ & _).
  exists ys, r'. split; [exact R|]. split; [|rewrite <- HY; auto].
  destruct (c79 T _ text' s' (proj1 H)) as (K1 & K2 & _). rewrite K2. apply rendered_v1; assumption.
Qed.
