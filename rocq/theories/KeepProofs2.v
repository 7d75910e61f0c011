(** Proofs for C101: the selector step, the context step, the order of the sections, and the whole. *)
From Verif Require Export KeepProofs PhaseProofs5.
From Verif Require Import PathProofs2 FrameProofs RenderProofs2 PhaseProofs4 SectionSpec ContextSpec KeepSpec.

(** A path that starts with another key. *)
Definition leads_elsewhere (k s : str) : Prop :=
  exists c rest, s = cSL :: c ++ rest /\ component c /\ isdigit c = false /\ c <> k /\ (rest = [] \/ exists r, rest = cSL :: r).
Lemma stack_first c rest st : component c -> (rest = [] \/ exists r, rest = cSL :: r) -> str_to_stack_path (cSL :: c ++ rest) = Ok st ->
  exists st', st = st' ++ [c; ROOT_VALUE].
Proof.
  intros (HN & HC) HR H. unfold str_to_stack_path in H. destruct (last_char (cSL :: c ++ rest)) as [x|] eqn:L; [|discriminate]. injection H as <-.
  set (s' := if ceq x cSL then removelast (cSL :: c ++ rest) else cSL :: c ++ rest).
  assert (exists rest', s' = cSL :: c ++ rest' /\ (rest' = [] \/ exists r, rest' = cSL :: r)) as (rest' & Hs' & HR').
  { subst s'. destruct (ceq x cSL) eqn:X; [|eauto]. apply ceq_eq in X as ->. destruct HR as [->|(r & ->)].
    - exfalso. rewrite app_nil_r in L. destruct (exists_last HN) as (c0 & y & ->). change (cSL :: c0 ++ [y]) with ((cSL :: c0) ++ [y]) in L.
      unfold last_char in L. rewrite rev_app_distr in L. cbn [rev app] in L. injection L as ->. apply HC, in_or_app. right. left. reflexivity.
    - change (cSL :: c ++ cSL :: r) with ((cSL :: c) ++ cSL :: r). rewrite removelast_app by discriminate. exists (removelast (cSL :: r)). split; [reflexivity|].
      destruct r as [|y r]; [left; reflexivity|right; eexists; reflexivity]. }
  pose proof (split_on_app cSL [] (c ++ rest') (fun x => x)) as K. cbn [app] in K. match goal with |- context[split_on cSL ?t] => change t with s' end. rewrite Hs', K. clear K. destruct c as [|c0 c]; [congruence|].
  destruct HR' as [->|(r & ->)].
  - rewrite app_nil_r, split_on_nosep by exact HC. exists []. reflexivity.
  - rewrite split_on_app by exact HC. cbn [map rev is_nil]. rewrite <- app_assoc. eexists. reflexivity.
Qed.
Lemma elsewhere_addresses k s root q : leads_elsewhere k s -> addresses root s q ->
  exists i q' x c, q = i :: q' /\ nth_error (n_children root) i = Some x /\ val_is (n_value x) c = true /\ c <> k.
Proof.
  intros (c & rest & -> & HC & D & N & HR) (st & HS & H). destruct (stack_first c rest st HC HR HS) as (st' & ->).
  destruct (first_step root c st' q D H) as (i & q' & x & -> & HX & HV). exists i, q', x, c. auto.
Qed.

Section Good.
Context (h : Prop) (k : str) (n : node).
(** What stays true: the section is there (if [h]; otherwise there is none of that name), and the top level is made of keys. *)
Definition top_ok (c : node) : Prop :=
  n_lmf c = false /\ (is_comment c = true \/ exists s, n_value c = VJ (JStr s) /\ component s /\ isdigit s = false).
Definition good (root : node) : Prop :=
  (h -> holds k n root) /\ Forall top_ok (n_children root) /\ Forall (fun c => val_is (n_value c) k = true -> h /\ c = n) (n_children root).
Lemma good_inside R i q root root' x c : keeps_name R -> changed_at R (i :: q) root root' ->
  nth_error (n_children root) i = Some x -> val_is (n_value x) c = true -> c <> k -> good root -> good root'.
Proof.
  intros HR H HX HV N (HK & HT & HU). split; [intros Hh; specialize (HK Hh); eapply changed_elsewhere; eauto|].
  inversion H as [|n0 before y y' after p H1 H2 H3 H4]. subst. cbn [with_lines n_children].
  rewrite H1, nth_error_app2, Nat.sub_diag in HX by lia. injection HX as ->.
  destruct (changed_name R q x y' HR H2) as (HN & HL). rewrite H1 in HT, HU. apply Forall_app in HT as (T1 & T2), HU as (U1 & U2).
  inversion T2 as [|? ? (L & T3) T4]; subst. inversion U2 as [|? ? U3 U4]; subst. split; apply Forall_app; split; auto; constructor; auto.
  - split; [congruence|]. right. rewrite HN. destruct T3 as [T3|T3]; [|exact T3]. unfold is_comment in T3. destruct (n_value x); [|discriminate].
    cbn [is_sent andb] in T3. discriminate.
  - intros K. exfalso. rewrite HN, (val_is_inj _ _ _ HV N) in K. discriminate.
Qed.
Definition stays (A : change) : Prop := forall w w', A w w' -> good (fst w) -> good (fst w').
Lemma stay_nothing : stays nothing.
Proof. intros w w' ->. auto. Qed.
Lemma stay_tell m : stays (tell m).
Proof. intros w w' (H & _) HK. rewrite H. exact HK. Qed.
Lemma stay_seq A B : stays A -> stays B -> stays (A >> B).
Proof. intros HA HB w w' (m & H1 & H2) HK. apply (HB _ _ H2), (HA _ _ H1), HK. Qed.
Lemma stay_map {X} (f : X -> change) l : (forall x, In x l -> stays (f x)) -> stays (all_of (map f l)).
Proof.
  induction l as [|x l IH]; intros H; cbn [map all_of]; [apply stay_nothing|]. apply stay_seq; [apply H; left; reflexivity|].
  apply IH. intros y Hy. apply H. right. exact Hy.
Qed.
(** Replacing the value at a path that starts with another key. *)
Lemma stay_replaced E s v : leads_elsewhere k s -> stays (in_lines (replaced_at E s v)).
Proof.
  intros HS w w' ((lines & _ & [(q & m & HA & Hm & _ & _ & H)|(q & i & x & HA & Hx & L & _ & _ & H)]) & _) HG.
  - destruct (elsewhere_addresses _ _ _ _ HS HA) as (j & q' & y & c & -> & HY & HV & N).
    eapply good_inside; [|exact H|exact HY|exact HV|exact N|exact HG]. apply content_name.
  - destruct (elsewhere_addresses _ _ _ _ HS HA) as (j & q' & y & c & Hq & HY & HV & N). destruct q as [|j0 q0].
    + exfalso. injection Hq as -> <-. cbn [app node_at] in Hx. rewrite HY in Hx. injection Hx as ->. destruct HG as (_ & HT & _).
      rewrite Forall_forall in HT. destruct (HT x (nth_error_In _ _ HY)) as (L' & _). congruence.
    + injection Hq as Hj _; subst j0. eapply good_inside; [|exact H|exact HY|exact HV|exact N|exact HG]. apply replaced_name.
Qed.
(** Adding a key at the top. *)
Lemma stay_put E c v : c <> k -> component c -> isdigit c = false -> written_as_key E c v -> stays (in_lines (value_put E [] c v)).
Proof.
  intros N HC D HW w w' (H & _) HG. destruct H as [H|q m lines NP HA Hm _ HL W H|q i m lines NP HA Hm HL HC' W H].
  - destruct H as (q & lines & HA & _ & _ & H). destruct (addresses_first (fst w) c [] q D) as (j & q' & x & -> & HX & HV); [constructor; auto|exact HA|].
    eapply good_inside; [|exact H|exact HX|exact HV|exact N|exact HG]. apply content_name.
  - apply root_addressed in HA as ->. inversion H as [n0 n1 HR|]. subst. rewrite HR. destruct HG as (HK & HT & HU).
    pose proof (HW lines W) as HF. cbn [with_lines n_children]. split; [|split].
    + intros Hh. specialize (HK Hh). apply holds_first. apply holds_first in HK. cbn [with_lines n_children]. rewrite first_app, HK. reflexivity.
    + cbn [with_lines n_children]. apply Forall_app. split; [exact HT|]. eapply Forall_impl; [|exact HF]. intros a (A1 & A2). split; [exact A2|right; eauto].
    + cbn [with_lines n_children]. apply Forall_app. split; [exact HU|]. eapply Forall_impl; [|exact HF]. intros a (A1 & A2) K. exfalso. rewrite A1 in K. cbn [val_is] in K. apply str_eqb_eq in K. contradiction.
  - discriminate.
Qed.
(** The paths of lines outside the section. *)
Lemma own_text_starts E before x : own_text E before x = [] \/ exists r, own_text E before x = cSL :: r.
Proof. unfold own_text. destruct (n_lmf x); [eauto|]. destruct (terminal x && negb (n_keyf x)); [auto|]. cbv zeta. destruct (str_eqb _ _); eauto. Qed.
Lemma path_starts E p : forall x, path_at E x p = [] \/ exists r, path_at E x p = cSL :: r.
Proof.
  induction p as [|i p IH]; intros x; cbn [path_at]; [auto|]. destruct (nth_error (n_children x) i) as [c|]; [|auto].
  destruct (own_text_starts E (firstn i (n_children x)) c) as [->|(r & ->)]; [apply IH|]. right. eexists. reflexivity.
Qed.
Lemma path_elsewhere E root p m : good root -> node_at root p = Some m -> terminal m = true -> h /\ (exists i p', p = i :: p' /\ node_at n p' = Some m)
  \/ path_at E root p = [] \/ leads_elsewhere k (path_at E root p).
Proof.
  intros (HK & HT & HU) Hm HM. destruct p as [|i p]; [right; left; reflexivity|]. cbn [node_at] in Hm. cbn [path_at].
  destruct (nth_error (n_children root) i) as [c|] eqn:HX; [|discriminate]. pose proof (nth_error_In _ _ HX) as HI.
  rewrite Forall_forall in HT, HU. destruct (HT c HI) as (L & [HC|(s & HV & HC & D)]).
  - exfalso. unfold is_comment in HC. rewrite !andb_true_iff in HC. destruct HC as ((C1 & C2) & C3). destruct p as [|j p]; cbn [node_at] in Hm.
    + injection Hm as ->. unfold terminal in HM. rewrite andb_true_iff, negb_true_iff in HM. destruct HM as (_ & HM). unfold is_comment in HM. rewrite C1, C2, C3 in HM. discriminate.
    + destruct (n_children c); [|discriminate]. destruct j; discriminate.
  - destruct (val_is (n_value c) k) eqn:K.
    + left. destruct (HU c HI K) as (Hh & ->). eauto 6.
    + right. unfold own_text. rewrite L. destruct (terminal c && negb (n_keyf c)) eqn:TC.
      * left. apply andb_prop in TC as (TC & _). unfold terminal in TC. apply andb_prop in TC as (TC & _). destruct p as [|j p]; [reflexivity|].
        cbn [node_at] in Hm. destruct (n_children c); [|discriminate]. destruct j; discriminate.
      * right. cbv zeta. rewrite HV. change (nval_str E (VJ (JStr s))) with s. assert (str_eqb s [cSL] = false) as ->.
        { apply str_eqb_neq. intros ->. destruct HC as (_ & HC). apply HC. left. reflexivity. }
        exists s, (path_at E c p). split; [reflexivity|]. split; [exact HC|]. split; [exact D|]. split; [|apply path_starts].
        intros ->. rewrite HV in K. cbn [val_is] in K. rewrite str_eqb_refl in K. discriminate.
Qed.
End Good.

(** * The start *)
Lemma addressable_list_split a x b : forall before, addressable_list before (a ++ x :: b) = true ->
  addressable_name x = true /\ (is_key_line x = true -> existsb (fun y => same_name y x) (before ++ a) = false).
Proof.
  induction a as [|y a IH]; intros before; cbn [app addressable_list]; rewrite !andb_true_iff.
  - intros ((H1 & H2) & _). split; [exact H1|]. intros K. rewrite K, app_nil_r in *. cbn [negb orb] in H2. apply negb_true_iff in H2. exact H2.
  - intros (_ & H). destruct (IH _ H) as (H1 & H2). split; [exact H1|]. rewrite <- app_assoc in H2. exact H2.
Qed.
Lemma good_start (h : Prop) k n root : addressable_document root = true -> mapping_at_top root -> (h /\ holds k n root \/ ~ h /\ first_named k (n_children root) = None) ->
  good h k n root.
Proof.
  intros HA HM HK. unfold addressable_document in HA. rewrite !andb_true_iff in HA. destruct HA as ((_ & HT) & HA).
  assert (addressable_list [] (n_children root) = true) as HL by (destruct root; cbn [addressable] in HA; apply andb_prop in HA; apply HA).
  rewrite forallb_forall in HT. unfold mapping_at_top in HM. rewrite Forall_forall in HM.
  assert (forall a x b, n_children root = a ++ x :: b -> top_ok x) as HO.
  { intros a x b Hx. rewrite Hx in HL. destruct (addressable_list_split _ _ _ _ HL) as (H1 & _).
    assert (In x (n_children root)) as HI by (rewrite Hx; apply in_or_app; right; left; reflexivity).
    split; [apply HM, HI|]. specialize (HT x HI). rewrite (HM x HI) in HT. cbn [orb] in HT. unfold addressable_name in H1. rewrite (HM x HI) in H1. cbn [orb] in H1.
    destruct (is_comment x); [left; reflexivity|right]. destruct (terminal x && negb (n_keyf x)) eqn:X.
    - apply andb_prop in X as (X1 & X2). apply negb_true_iff in X2. rewrite X1, X2 in HT. discriminate.
    - cbn [orb] in H1. destruct (n_value x) as [|[[| | | |s]|l|d]]; try discriminate. rewrite !andb_true_iff, !negb_true_iff in H1. destruct H1 as ((H1 & H2) & H3).
      exists s. split; [reflexivity|]. split; [|exact H3]. split; [intros ->; discriminate|]. intros HS. assert (existsb (ceq cSL) s = true) as K.
      { apply existsb_exists. exists cSL. split; [exact HS|apply ceq_eq; reflexivity]. } rewrite K in H2. discriminate. }
  split; [destruct HK as [(_ & HK)|(NH & _)]; intros Hh; [exact HK|contradiction]|]. split; apply Forall_forall.
  - intros x Hx. apply in_split in Hx as (a & b & Hx). eapply HO, Hx.
  - intros x Hx K. destruct HK as [(Hh & HK)|(_ & HK)].
    2: { exfalso. apply in_split in Hx as (a & b & Hx). rewrite Hx, first_app, first_cons, K in HK. destruct (first_named k a); discriminate. }
    split; [exact Hh|]. apply in_split in Hx as (a & b & Hx). pose proof (HO _ _ _ Hx) as (_ & HV).
    apply holds_first in HK. rewrite Hx, first_app in HK. rewrite Hx in HL. destruct (addressable_list_split _ _ _ _ HL) as (_ & H2). cbn [app] in H2.
    assert (In x (n_children root)) as HI by (rewrite Hx; apply in_or_app; right; left; reflexivity).
    specialize (HT x HI). rewrite (HM x HI) in HT. cbn [orb] in HT.
    destruct (n_value x) as [|[[| | | |s]|l|d]] eqn:V; try discriminate. cbn [val_is] in K. apply str_eqb_eq in K as ->.
    assert (is_key_line x = true) as KL.
    { unfold is_key_line, is_comment. rewrite (HM x HI), V. cbn [is_sent andb negb]. destruct (n_keyf x); [rewrite andb_false_r; reflexivity|].
      destruct (terminal x); [discriminate HT|reflexivity]. }
    specialize (H2 KL). assert (first_named k a = None) as HF.
    { clear - H2 V. induction a as [|y a IH]; [reflexivity|]. cbn [existsb] in H2. apply orb_false_iff in H2 as (H2 & H3). rewrite first_cons, IH by exact H3.
      unfold same_name in H2. rewrite V in H2. rewrite H2. reflexivity. }
    rewrite HF, first_cons, V in HK. cbn [val_is] in HK. rewrite str_eqb_refl in HK. congruence.
Qed.
Lemma lookup_holds k n root : component k -> isdigit k = false -> (lookup root (path_text [k]) = Some n <-> holds k n root).
Proof.
  intros HC D. unfold lookup. rewrite stack_of_path by (auto; discriminate). cbn [rev app].
  unfold holds. destruct (traverse_pos root [k; ROOT_VALUE]) as [q|] eqn:H.
  - pose proof H as H'. unfold traverse_pos in H. cbn [rev app traverse_recurse] in H. unfold step_child in H. rewrite D in H.
    unfold traverse. rewrite H'. destruct (find_child k 0 (n_children root)) as [[i x]|] eqn:F; [|discriminate].
    injection H as <-. apply find_child_hit in F as (_ & F & V). rewrite Nat.sub_0_r in F. cbn [node_at]. rewrite F. split; [intros [= ->]; eauto|intros (j & [= _ ->]); reflexivity].
  - pose proof H as H'. unfold traverse_pos in H. cbn [rev app traverse_recurse] in H. unfold step_child in H. rewrite D in H.
    unfold traverse. rewrite H'. destruct (find_child k 0 (n_children root)) as [[i x]|] eqn:F; [discriminate|]. split; [discriminate|intros (j & K); discriminate].
Qed.

(** * The order of the sections *)
Lemma first_filter (f : node -> bool) k l : (forall x, val_is (n_value x) k = true -> f x = true) -> first_named k (filter f l) = first_named k l.
Proof.
  intros HF. induction l as [|x l IH]; [reflexivity|]. cbn [filter]. destruct (f x) eqn:Ef; rewrite !first_cons, IH; [reflexivity|].
  destruct (val_is (n_value x) k) eqn:V; [rewrite (HF x V) in Ef; discriminate|reflexivity].
Qed.
Lemma place_named tbl k : exists p, forall x, val_is (n_value x) k = true -> place_of tbl x = p.
Proof.
  exists (place_of tbl (Nd (VJ (JStr k)) [] [] false MNone true)). intros x V. unfold place_of, is_comment. destruct (n_value x) as [|[[| | | |s]|l|d]]; try discriminate.
  cbn [val_is] in V. apply str_eqb_eq in V as ->. reflexivity.
Qed.
Lemma place_refl p : place_eqb p p = true.
Proof. destruct p; cbn; auto using Z.eqb_refl. Qed.
Lemma sorted_first tbl k l l' : sorted_lines tbl l l' -> first_named k l' = first_named k l.
Proof.
  intros (_ & _ & H). destruct (place_named tbl k) as (p & Hp). specialize (H p).
  assert (forall x, val_is (n_value x) k = true -> place_eqb (place_of tbl x) p = true) as HF by (intros x V; rewrite (Hp x V); apply place_refl).
  rewrite <- (first_filter _ k l' HF), <- (first_filter _ k l HF). f_equal. exact H.
Qed.
Lemma sort_keeps k n tbl root root' : machine_table tbl -> sort_subtree_keys root $"/" tbl [] = Ok root' -> holds k n root -> holds k n root'.
Proof.
  intros HT H HK. apply c44 in H as [(_ & ->)|(q & HA & H)]; [exact HK| |exact HT]. apply root_addressed in HA as ->. inversion H as [n0 n1 (HS & HR)|]. subst.
  apply holds_first. apply holds_first in HK. rewrite <- HK. eapply sorted_first, HS.
Qed.

(** * The context *)
Lemma stay_markers E order (h : Prop) k n : (forall l x, In x (order l) -> In x l) -> (h -> plain_section n) -> stays h k n (markers_changed E order).
Proof.
  intros HO HP w w' (f & Hf & H) HG. pose proof HG as HG'. revert H HG'.
  match goal with |- ?A w w' -> _ => enough (stays h k n A) as K by exact (K w w') end. apply stay_map. intros path HI. apply HO in HI. apply (proj1 (first_occurrences_In _ _)) in HI.
  apply in_map_iff in HI as (p & <- & Hp). apply positions_where_In in Hp as (m & Hm & HF). apply Hf in HF as (HT & HX).
  intros u u' (v & Hv & H). destruct (path_elsewhere h k n E (fst w) p m HG Hm HT) as [(Hh & i & p' & -> & Hn)|[HE|HE]].
  - exfalso. destruct (HP Hh p' m Hn) as (_ & HN). exact (HN HT HX).
  - exfalso. rewrite HE in Hv. discriminate.
  - revert H. destruct v as [[| | | |s]|l|d]; try apply stay_tell. apply stay_replaced, HE.
Qed.
Lemma stay_context E order (h : Prop) k n vars : (forall l x, In x (order l) -> In x l) -> (h -> plain_section n) -> ~ In k known_sections ->
  context_as_key E vars -> written_as_key E $"schema_version" (JInt 1) -> stays h k n (context_upgraded E order vars).
Proof.
  intros HO HP NK HC HS. unfold context_upgraded. repeat apply stay_seq.
  - apply stay_map. intros x _. apply stay_tell.
  - intros w w' (ctx & Hctx & H). revert w w' H. destruct ctx as [|x ctx]; [apply stay_nothing|]. set (l := x :: ctx) in *.
    match goal with |- forall w w', ?A w w' -> _ => change (stays h k n A) end. apply stay_seq.
    + intros w w' (keys & _ & _ & H). revert w w' H. destruct keys as [|y keys]; [apply stay_nothing|apply stay_tell].
    + apply stay_put; [|apply comp_ok_spec; vm_compute; reflexivity|vm_compute; reflexivity|apply HC, Hctx]. intros <-. apply NK. cbn [known_sections In]. tauto.
  - apply stay_put; [|apply comp_ok_spec; vm_compute; reflexivity|vm_compute; reflexivity|exact HS]. intros <-. apply NK. cbn [known_sections In]. tauto.
  - apply stay_markers; assumption.
Qed.

(** * The selectors *)
Lemma comment_name c : keeps_name (fun a b => b = put_comment c a).
Proof. intros a b ->. unfold put_comment. cbv zeta. destruct (is_single_key (set_comment c a)); destruct a; split; reflexivity. Qed.
Lemma does_remove_selector T (h : Prop) k n path : reads_proper (t_env T) -> leads_elsewhere k path ->
  does (call (remove_selector (t_env T) path)) (fun _ w w' => good h k n (fst w) -> good h k n (fst w')).
Proof.
  intros HE HL s o s' H. unfold call in H. destruct (remove_selector (t_env T) path (v1 s)) as [x r] eqn:R. injection H as <- <-.
  split; [exists []; rewrite app_nil_r; reflexivity|]. intros a -> _ HP. cbn [v1]. split; [|split].
  - cbn [view fst v1]. unfold remove_selector in R. destruct (str_to_stack_path path) as [st|] eqn:S; [|discriminate]. destruct (traverse_pos (r_root (v1 s)) st) as [q|] eqn:HT; [|discriminate].
    destruct (node_at (r_root (v1 s)) q) as [m|] eqn:Hm; [|discriminate]. destruct (search_text SELECTOR (n_comment m)) as [sel|]; injection R as _ <-; [|auto].
    intros HG. destruct (elsewhere_addresses k path (r_root (v1 s)) q HL) as (i & q' & y & c & -> & HY & HV & N); [exists st; auto|].
    eapply good_inside; [apply (comment_name (comment_without_selector (n_comment m) sel))| |exact HY|exact HV|exact N|exact HG].
    eapply changed_at_update; [exact Hm|reflexivity].
  - exact (step_proper T HE _ _ (step_selector (t_env T) path a r s R) HP).
  - pose proof (remove_selector_keeps (t_env T) path (v1 s)) as K. rewrite R in K. exact K.
Qed.
Lemma does_selector T (h : Prop) k n root sp : reads_proper (t_env T) -> addressable_document root = true -> good h k n root -> (h -> plain_section n) -> listed root sp ->
  doesu (upgrade_info T (info T root sp)) (fun w w' => good h k n (fst w) -> good h k n (fst w')).
Proof.
  intros HE HAD HG HP (m & Hm & HS). destruct sp as [sel p]. cbn [fst snd] in *. unfold upgrade_info, info. cbn [fst snd].
  assert (line_of root p = m) as -> by (unfold line_of; rewrite Hm; reflexivity). unfold upgrade_selector. cbn [fst snd].
  assert (doesu (ret tt) (fun w w' => good h k n (fst w) -> good h k n (fst w'))) as HR.
  { eapply does_impl; [|apply does_done]. intros a w w' ->. auto. }
  rewrite leaf_terminal. destruct (terminal m) eqn:HT; cbn [negb]; [|exact HR]. cbv zeta. rewrite (info_path T root p m Hm HT).
  assert (leads_elsewhere k (path_at (t_env T) root p)) as HL.
  { destruct (path_elsewhere h k n (t_env T) root p m HG Hm HT) as [(Hh & i & p' & -> & Hn)|[HX|HX]]; [| |exact HX].
    - exfalso. destruct (HP Hh p' m Hn) as (HN & _). congruence.
    - exfalso. destruct (c03_resolves (t_env T) root p HAD) as (st & K & _); [apply positions_where_In; eauto|]. rewrite HX in K. discriminate. }
  set (path := path_at (t_env T) root p) in *.
  assert (path <> []) as NP by (destruct HL as (c & r & -> & _); discriminate).
  assert (forall v, doesu (do! patch_and_log T (p_replace path v) in do! call (remove_selector (t_env T) path) in ret tt)
     (fun w w' => good h k n (fst w) -> good h k n (fst w'))) as HA.
  { intros v. eapply does_impl; [|apply (does_seq _ _ (fun w w' => good h k n (fst w) -> good h k n (fst w')) (fun _ => (fun w w' => good h k n (fst w) -> good h k n (fst w'))))].
    - intros a w w' (mid & H1 & H2) H. auto.
    - eapply does_impl; [|apply (does_replace_at T HE path v NP)]. intros b w w' (_ & H). exact (stay_replaced h k n (t_env T) path v HL w w' H).
    - eapply does_impl; [|apply (does_seq _ _ (fun w w' => good h k n (fst w) -> good h k n (fst w')) (fun _ => (fun w w' => good h k n (fst w) -> good h k n (fst w'))))].
      + intros a w w' (mid & H1 & H2) H. auto.
      + apply does_remove_selector; assumption.
      + exact HR. }
  assert (doesu (say WARNING ($"A non-list item had a selector at: " ++ path)) (fun w w' => good h k n (fst w) -> good h k n (fst w'))) as HW.
  { eapply does_impl; [|apply does_tell]. intros a w w' (H & _) K. rewrite H. exact K. }
  destruct (n_value m) as [|[[| | | |x]|l|d]]; try (destruct (n_lmf m); [apply HA|exact HW]); apply HA.
Qed.
Lemma selectors_stay T (h : Prop) k n s s' : reads_proper (t_env T) -> addressable_document (r_root (v1 s)) = true -> proper_tree (r_root (v1 s)) = true ->
  r_sel (v1 s) = collect_selectors (t_env T) (r_root (v1 s)) -> good h k n (r_root (v1 s)) -> (h -> plain_section n) ->
  without_errors (upgrade_selectors_to_conditionals T) s tt s' -> good h k n (r_root (v1 s')).
Proof.
  intros HE HAD HPT HSel HG HP (H & HR). unfold upgrade_selectors_to_conditionals in H. unfold andthen at 1 in H. unfold ask at 1 in H. cbv beta iota in H. rewrite HSel, table_lines in H.
  set (root := r_root (v1 s)) in *.
  destruct (from_does _ _ s s' (does_each (map (info T root) (PhaseProofs5.all_lines root)) (upgrade_info T)
     (fun _ w w' => good h k n (fst w) -> good h k n (fst w'))
     ltac:(intros x Hx; apply in_map_iff in Hx as (sp & <- & Hsp); apply does_selector; auto;
           pose proof (all_lines_listed root) as HF; rewrite Forall_forall in HF; apply HF, Hsp)) HPT (conj H HR)) as (K & _).
  assert (forall l : list (str * (node * stack)), stays h k n (all_of (map (fun _ w w' => good h k n (fst w) -> good h k n (fst w')) l))) as HS.
  { intros l. apply stay_map. intros x _ w w' Hw. exact Hw. }
  exact (HS _ _ _ K HG).
Qed.

Lemma c101 T s text s' k n : reads_proper (t_env T) -> (forall l x, In x (t_order T l) -> In x l) ->
  addressable_document (r_root (v1 s)) = true -> mapping_at_top (r_root (v1 s)) -> proper_tree (r_root (v1 s)) = true ->
  r_sel (v1 s) = collect_selectors (t_env T) (r_root (v1 s)) -> NoDup (map fst (r_vars (v1 s))) ->
  context_as_key (t_env T) (r_vars (v1 s)) -> written_as_key (t_env T) $"schema_version" (JInt 1) ->
  ~ In k known_sections -> component k -> isdigit k = false ->
  lookup (r_root (v1 s)) (path_text [k]) = Some n -> plain_section n ->
  without_errors (render_to_v1 T) s text s' -> lookup (r_root (v1 s')) (path_text [k]) = Some n.
Proof.
  intros HE HO HAD HM HPT HSel ND HC HS NK CK DK HL HP H. apply lookup_holds in HL; auto. apply lookup_holds; auto.
  destruct (whole_conversion T s text s' HE HPT ND H) as (s1 & s2 & s3 & v & m & root & H1 & H2 & _ & _ & H5 & H6 & H7 & _).
  pose proof (good_start True k n _ HAD HM (or_introl (conj I HL))) as G0.
  pose proof (selectors_stay T True k n s s1 HE HAD HPT HSel G0 (fun _ => HP) H1) as G1.
  pose proof (stay_context (t_env T) (t_order T) True k n _ HO (fun _ => HP) NK HC HS _ _ H2 G1) as (G2 & _).
  pose proof (keep_sections (t_env T) k n (upgraded_known k NK) _ m _ _ H5 (G2 I)) as G3. rewrite H7. eapply sort_keeps; [|exact H6|exact G3].
  unfold machine_table, TOP_LEVEL_SORT. repeat constructor; cbn; lia.
Qed.
