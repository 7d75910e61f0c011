(** Proofs for C143: selectors and comments of a file in the canonical layout. *)
From Verif Require Import EditProofs UndoProofs NewFileProofs LayoutProofs LayoutProofs8 CanProofs PatchProofs SelProofs SelProofs2 SelProofs3 CommentFileSpec.

(** * The tree of an entry with another comment *)
Lemma own_comment x : n_comment (tree_of x) = entry_comment x.
Proof. destruct x; reflexivity. Qed.
Lemma shares_terminal cs k c : on_one_line (key_node k c (map tree_of cs)) = shares_comment cs.
Proof.
  unfold on_one_line. cbn [n_keyf key_node n_children andb]. destruct cs as [|y [|z cs]]; [reflexivity| |].
  - destruct y as [[|a c0]|k0 c0|k0 v c0|k0 m ls c0|k0 c0 [|w cs]|v c0|k0 v c0 rest|k0 c0 cs rest]; reflexivity.
  - destruct y as [[|a c0]|k0 c0|k0 v c0|k0 m ls c0|k0 c0 [|w ws]|v c0|k0 v c0 rest|k0 c0 ws rest]; reflexivity.
Qed.
Lemma commented_tree c x x' : commented c x x' -> put_comment c (tree_of x) = tree_of x'.
Proof.
  intros H. rewrite (put_comment_spec c (tree_of x)). destruct H as [k c0|k v c0|v c0|k c0 cs HS|k c0 v c1]; try reflexivity.
  cbn [tree_of]. rewrite shares_terminal, HS. reflexivity.
Qed.
Lemma commented_selects c comp A x x' : commented c x x' -> selects comp A x -> selects comp A x'.
Proof. intros H. unfold selects. destruct (isdigit comp); destruct H; auto. Qed.
Lemma update_changed f q : forall root root' n n', node_at root q = Some n -> f n = n' -> changed_at (fun a b => a = n /\ b = n') q root root' -> update_at q f root = root'.
Proof.
  intros root root' n n' HN HF HR.
  assert (changed_at (fun a b => a = n /\ b = n') q root (update_at q f root)) as HU by (apply (changed_at_update _ _ _ _ n HN); auto).
  eapply changed_once; [|exact HU|exact HR]. cbv beta. intros ? a b (_ & ->) (_ & ->). reflexivity.
Qed.
Lemma edit_position (R : item -> item -> Prop) p xs xs' : Forall component p -> inside (entry_changed R (last p [])) p xs xs' ->
  exists q x x', addresses (document xs) (path_text p) q /\ node_at (document xs) q = Some (tree_of x) /\ R x x'
  /\ forall c, commented c x x' -> update_at q (put_comment c) (document xs) = document xs'.
Proof.
  intros HC HI. pose proof (inside_nonempty _ _ _ _ HI) as NE.
  destruct (inside_at _ _ _ _ HI [] (document xs) eq_refl (or_introl eq_refl)) as (ys & ys' & (A & x & x' & B & HS & HX & -> & ->) & q & m & pre' & HT & HM & HCh & HP & _ & HR).
  pose proof (selects_step _ _ _ _ _ _ HCh HP HS) as HSt.
  destruct (found_address p _ q m _ _ HC NE HT HM HSt) as (HA & HN).
  exists (q ++ [length (pre' ++ map tree_of A)]), x, x'. split; [exact HA|]. split; [exact HN|]. split; [exact HX|]. intros c HCo.
  eapply update_changed; [exact HN|exact (commented_tree _ _ _ HCo)|]. apply changed_app. rewrite <- (document_lines xs xs').
  apply HR. eapply below_change; [exact HCh|reflexivity|]. split; reflexivity.
Qed.

(** * The new comment *)
Lemma no_close t : ~ In cRB t -> forall x y, t = x ++ cRB :: y -> In cNL x.
Proof. intros H x y ->. exfalso. apply H, in_or_app. right. left. reflexivity. Qed.
Lemma note_none t : ~ In cRB t -> selector_of ($"# " ++ t) = None.
Proof.
  intros H. apply selector_of_none. intros x y z HE. exfalso. assert (In cRB ($"# " ++ t)) as HI.
  { rewrite HE, !in_app_iff. right. right. right. left. left. reflexivity. }
  destruct HI as [HI|[HI|HI]]; try discriminate. exact (H HI).
Qed.
Lemma no_hash_kept old new s : starts_with_hash old -> ~ In cHASH s -> replace_all old new s = s.
Proof.
  intros (t & ->) H. unfold replace_all. induction s as [|x s IH]; [reflexivity|]. cbn [replace_all_aux].
  destruct (starts_with (cHASH :: t) (x :: s)) eqn:S.
  - exfalso. apply starts_with_spec in S as (u & Hu). injection Hu as -> _. apply H. left. reflexivity.
  - f_equal. apply IH. intros HI. apply H. right. exact HI.
Qed.
Lemma sel_shape sel b : bracketed sel b -> sel = cLB :: b ++ [cRB].
Proof. intros (-> & _). reflexivity. Qed.
Lemma cut_alone sel b : bracketed sel b -> comment_without_selector ($"# " ++ sel) sel = [].
Proof.
  intros HB. apply sel_shape in HB. unfold comment_without_selector. pose proof (cut_selector $"# " sel b [] HB) as H. rewrite app_nil_r in H. rewrite H; [reflexivity| |intros []].
  vm_compute. intuition discriminate.
Qed.
Lemma lstrip_first s x t : lstrip s = x :: t -> is_space x = false.
Proof. induction s as [|c s IH]; cbn [lstrip]; [discriminate|]. destruct (is_space c) eqn:S; [exact IH|]. intros H. injection H as -> _. exact S. Qed.
Lemma strip_hash t : strip ($"# " ++ t) = $"#" -> strip t = t -> t <> [] -> False.
Proof.
  intros HS HT NE. apply (f_equal (filter (fun c => negb (is_space c)))) in HS. rewrite filt_strip in HS.
  2:{ intros c ->. reflexivity. }
  destruct t as [|x t]; [congruence|]. unfold strip in HT. apply lstrip_first in HT. change (cHASH :: filter (fun c => negb (is_space c)) (x :: t) = [cHASH]) in HS.
  cbn [filter] in HS. rewrite HT in HS. discriminate HS.
Qed.
Lemma cut_note sel b t : bracketed sel b -> note t -> comment_without_selector ($"# " ++ sel ++ $" " ++ t) sel = $"# " ++ t.
Proof.
  intros HB (N1 & N2 & N3 & N4). apply sel_shape in HB. unfold comment_without_selector. rewrite (cut_selector $"# " sel b ($" " ++ t) HB).
  2:{ vm_compute. intuition discriminate. }
  2:{ intros [HI|HI]; [discriminate|exact (N3 HI)]. }
  assert (replace_all $"#  " $"# " ($"# " ++ $" " ++ t) = $"# " ++ t) as ->.
  { unfold replace_all. change ($"# " ++ $" " ++ t) with ($"#  " ++ t). rewrite aux_hit by discriminate. f_equal.
    apply (no_hash_kept _ $"# " t); [eexists; reflexivity|exact N4]. }
  assert (replace_all $"# # " $"# " ($"# " ++ t) = $"# " ++ t) as ->.
  { unfold replace_all. change ($"# " ++ t) with (cHASH :: (cSP :: t)). cbn [replace_all_aux].
    destruct (starts_with $"# # " (cHASH :: cSP :: t)) eqn:S.
    - exfalso. apply starts_with_spec in S as (u & Hu). injection Hu as Hu. apply N4. rewrite Hu. left. reflexivity.
    - f_equal. apply (no_hash_kept _ $"# " (cSP :: t)); [eexists; reflexivity|]. intros [HI|HI]; [discriminate|exact (N4 HI)]. }
  destruct (str_eqb (strip ($"# " ++ t)) $"#") eqn:Q; [|reflexivity]. exfalso. apply str_eqb_eq in Q. exact (strip_hash t Q N1 N2).
Qed.
Lemma hashed_note t : note t -> hashed t = $"# " ++ t /\ comment_body t = t.
Proof.
  intros (_ & N2 & _ & N4). destruct t as [|x t]; [congruence|]. unfold hashed, comment_body. destruct (ascii_dec x cHASH) as [->|_]; [exfalso; apply N4; left; reflexivity|].
  split; reflexivity.
Qed.
Lemma not_matched t : ~ In cRB t -> matched SELECTOR t = false.
Proof.
  intros H. destruct (matched SELECTOR t) eqn:M; auto. apply matched_selector in M as (b & c & Hc & _). exfalso. apply H.
  rewrite Hc, !in_app_iff. right. right. left. left. reflexivity.
Qed.

Lemma lead_strip t : strip t = t -> t <> [] -> strip ($" " ++ t) = t.
Proof.
  intros HS NE. unfold strip in *. assert (exists c, In c t /\ is_space c = false) as HX.
  { destruct t as [|x t]; [congruence|]. exists x. split; [left; reflexivity|]. exact (lstrip_first _ _ _ HS). }
  rewrite (rstrip_app $" " t HX). exact HS.
Qed.

(** * A call *)
Lemma edit_done E p e xs xs' r : Forall component p -> edit_path e = path_text p -> inside (entry_changed (comment_edited e) (last p [])) p xs xs' -> r_root r = document xs ->
  succeeded E e r /\ r_root (after E e r) = document xs' /\ same_but_tree r (after E e r).
Proof.
  intros HC HP HI HR. destruct (edit_position _ p xs xs' HC HI) as (q & x & x' & HA & HN & (c & HB & HX) & HU).
  specialize (HU c HX). rewrite <- HR in HA, HN, HU. rewrite <- HP in HA. rewrite <- own_comment in HB.
  assert (forall sel mode path b, path = edit_path e -> bracketed sel b -> new_selector_comment (n_comment (tree_of x)) sel mode = c ->
    succeeded E (EAddSel path sel mode) r /\ r_root (after E (EAddSel path sel mode) r) = document xs' /\ same_but_tree r (after E (EAddSel path sel mode) r)) as ADD.
  { intros sel mode path b -> HS HCo. unfold succeeded, after. rewrite (add_selector_at E _ sel mode r q _ HA HN), (bracketed_matched _ _ HS), HCo, HU. repeat split. }
  assert (forall path sel, path = edit_path e -> selector_of (n_comment (tree_of x)) = Some sel -> comment_without_selector (n_comment (tree_of x)) sel = c ->
    succeeded E (ERemSel path) r /\ r_root (after E (ERemSel path) r) = document xs' /\ same_but_tree r (after E (ERemSel path) r)) as REM.
  { intros path sel -> HS HCo. unfold succeeded, after. rewrite (remove_selector_at E _ r q _ HA HN), HS, HCo, HU. split; [exists sel; reflexivity|]. repeat split. }
  assert (forall path t, path = edit_path e -> note t -> new_comment (n_comment (tree_of x)) t = c ->
    succeeded E (EAddComment path t) r /\ r_root (after E (EAddComment path t) r) = document xs' /\ same_but_tree r (after E (EAddComment path t) r)) as NOTE.
  { intros path t -> (N1 & N2 & N3 & _) HCo. unfold succeeded, after. rewrite (add_comment_at _ t r q _ HA HN), N1, HCo, HU; [repeat split|rewrite N1; exact N2|rewrite N1; apply not_matched, N3]. }
  clear HP HI. remember (n_comment (tree_of x)) as old eqn:HO. clear HO. destruct HB as [path sel b mode old HS HM|path a b mode old HS HM HO|path sel b mode t HS HM HN'|path sel b HS|path sel b t HS HN'|path t old HN' HS|path t old sel HN' HS]; cbn [edit_path] in *.
  - apply (ADD _ _ _ b eq_refl HS). unfold new_selector_comment. destruct HM as [->| ->]; [rewrite orb_true_r|]; reflexivity.
  - apply (ADD _ _ _ b eq_refl HS). exact (combined _ a b mode HO HM).
  - apply (ADD _ _ _ b eq_refl HS). destruct HN' as (N1 & N2 & N3 & _). rewrite (kept _ sel mode (note_none t N3)) by (auto; discriminate).
    assert (replace_first [cHASH] [] ($"# " ++ t) = $" " ++ t) as -> by reflexivity. rewrite (lead_strip t N1 N2). reflexivity.
  - apply (REM _ sel eq_refl); [|apply (cut_alone sel b HS)]. pose proof (selector_of_hash sel b [] HS (no_close [] (fun F => F))) as H. rewrite app_nil_r in H. exact H.
  - apply (REM _ sel eq_refl); [|apply (cut_note sel b t HS HN')]. apply (selector_of_hash sel b _ HS), no_close. destruct HN' as (_ & _ & N3 & _).
    intros [H|H]; [discriminate|exact (N3 H)].
  - apply (NOTE _ _ eq_refl HN'). apply selector_of_none in HS. rewrite (new_comment_without _ t HS). apply (hashed_note t HN').
  - apply (NOTE _ _ eq_refl HN'). rewrite (new_comment_with _ sel t HS). rewrite (proj2 (hashed_note t HN')). reflexivity.
Qed.
Lemma edits_in_turn E es xs xs' : lines_edited es xs xs' -> forall r, r_root r = document xs ->
  all_succeed E es r /\ r_root (run E es r) = document xs' /\ same_but_tree r (run E es r).
Proof.
  induction 1 as [xs|e es xs xs1 xs' (p & HC & HP & HI) HL IH]; intros r HR.
  - split; [exact I|]. split; [exact HR|]. repeat split.
  - destruct (edit_done E p e xs xs1 r HC HP HI HR) as (H1 & H2 & H3). destruct (IH _ H2) as (G1 & G2 & G3).
    split; [split; assumption|]. split; [exact G2|]. unfold same_but_tree in *. unfold run in *. cbn [fold_left]. intuition congruence.
Qed.
Lemma c143 E es xs vars xs' : canonical_recipe E xs vars -> canonical_recipe E xs' vars -> lines_edited es xs xs' ->
  exists r, new_recipe E (join NLs (recipe_page xs vars)) = Ok r /\ all_succeed E es r /\ render E (run E es r) = join NLs (recipe_page xs' vars).
Proof.
  intros HCa HCa' HE. eexists. split; [exact (read_back E xs vars HCa)|]. set (r0 := {| r_init := _ |}).
  destruct (edits_in_turn E es xs xs' HE r0 eq_refl) as (HS & HR & _ & H1 & H2). split; [exact HS|]. exact (rendered E _ xs' vars HR H1 H2 HCa').
Qed.
Lemma c143_new E es xs vars xs' : new_file E xs vars -> canonical_document E xs' -> lines_edited es xs xs' ->
  exists r, new_recipe E (join NLs (page xs)) = Ok r /\ all_succeed E es r /\ render E (run E es r) = join NLs (page xs').
Proof.
  intros HF CD' HE. eexists. split; [exact (new_read_back E xs vars HF)|]. set (r0 := {| r_init := _ |}).
  destruct (edits_in_turn E es xs xs' HE r0 eq_refl) as (HS & HR & _ & H1 & H2). split; [exact HS|]. exact (rendered_v1 E _ xs' HR H1 CD').
Qed.

(** * A selector that is put on a line without a comment and taken from it again *)
Lemma bare_back c x x' : commented c x x' -> bare_line x -> commented [] x' x /\ entry_comment x' = c.
Proof.
  intros H (HB & HL). destruct H as [k c0|k v c0|v c0|k c0 cs HS|k c0 v c1]; cbn [entry_comment] in *; subst; split; try reflexivity; constructor. exact HS.
Qed.
Lemma selector_taken_back E p sel b mode xs xs' r : Forall component p -> bracketed sel b ->
  inside (entry_changed (fun x x' => bare_line x /\ commented ($"# " ++ sel) x x') (last p [])) p xs xs' -> r_root r = document xs ->
  exists r' r'', add_selector E (path_text p) sel mode r = (Ok tt, r') /\ remove_selector E (path_text p) r' = (Ok (Some sel), r'')
  /\ r_root r' = document xs' /\ same_but_tree r r' /\ r_root r'' = document xs /\ same_but_tree r r''.
Proof.
  intros HC HS HI HR. exists (after E (EAddSel (path_text p) sel mode) r).
  assert (inside (entry_changed (comment_edited (EAddSel (path_text p) sel mode)) (last p [])) p xs xs') as H1.
  { refine (inside_impl _ _ _ _ _ _ HI). intros a a' (A & x & x' & B & HSe & (HBa & HX) & -> & ->). exists A, x, x', B. split; [exact HSe|]. split; [|split; reflexivity].
    exists ($"# " ++ sel). split; [|exact HX]. apply (selector_written _ _ b); [exact HS|]. right. apply HBa. }
  destruct (edit_done E p (EAddSel (path_text p) sel mode) xs xs' r HC eq_refl H1 HR) as (G1 & G2 & G3).
  assert (inside (entry_changed (fun x' x => entry_comment x' = $"# " ++ sel /\ commented [] x' x) (last p [])) p xs' xs) as H2.
  { apply inside_back in HI. refine (inside_impl _ _ _ _ _ _ HI). intros a a' (A & x & x' & B & HSe & (HBa & HX) & -> & ->). exists A, x', x, B.
    destruct (bare_back _ _ _ HX HBa) as (K1 & K2). split; [exact (commented_selects _ _ _ _ _ HX HSe)|]. repeat split; assumption. }
  destruct (edit_position _ p xs' xs HC H2) as (q & x & x' & HA & HN & (HCo & HX) & HU). specialize (HU [] HX). rewrite <- G2 in HA, HN, HU.
  unfold succeeded in G1. cbn [after] in *. destruct (add_selector E (path_text p) sel mode r) as [o r'] eqn:HAdd. cbn [fst snd] in *. subst o.
  rewrite (remove_selector_at E _ r' q _ HA HN), own_comment, HCo.
  assert (selector_of ($"# " ++ sel) = Some sel) as -> by (pose proof (selector_of_hash sel b [] HS (no_close [] (fun F => F))) as H; rewrite app_nil_r in H; exact H).
  rewrite (cut_alone sel b HS), HU. eexists. split; [reflexivity|]. split; [reflexivity|]. split; [exact G2|]. split; [exact G3|]. split; [reflexivity|exact G3].
Qed.
Lemma c143_undone E p sel b mode xs vars xs' : canonical_recipe E xs vars -> Forall component p -> bracketed sel b ->
  inside (entry_changed (fun x x' => bare_line x /\ commented ($"# " ++ sel) x x') (last p [])) p xs xs' ->
  let text := join NLs (recipe_page xs vars) in
  exists r r' r'', new_recipe E text = Ok r /\ add_selector E (path_text p) sel mode r = (Ok tt, r')
  /\ remove_selector E (path_text p) r' = (Ok (Some sel), r'') /\ render E r'' = text.
Proof.
  intros HCa HC HS HI text. eexists. subst text.
  destruct (selector_taken_back E p sel b mode xs xs' _ HC HS HI (eq_refl : r_root {| r_init := join NLs (recipe_page xs vars); r_root := document xs; r_schema := SV0; r_vars := vars; r_sel := collect_selectors E (document xs); r_mod := false |} = document xs)) as (r' & r'' & H1 & H2 & _ & _ & H3 & _ & H4 & H5).
  exists r', r''. split; [exact (read_back E xs vars HCa)|]. split; [exact H1|]. split; [exact H2|]. exact (rendered E r'' xs vars H3 H4 H5 HCa).
Qed.
(** * The lines *)
Lemma commented_lines c x x' i : commented c x x' ->
  exists body rest rest', layout i x = line (spaces i) body (entry_comment x) :: rest /\ layout i x' = line (spaces i) body c :: rest'
  /\ (rest' = rest \/ exists v c1, rest = [line (spaces (i + 2)) ($"- " ++ scalar_text v) c1] /\ rest' = [line (spaces (i + 2)) ($"- " ++ scalar_text v) c]).
Proof.
  intros H. destruct H as [k c0|k v c0|v c0|k c0 cs HS|k c0 v c1]; cbn [layout entry_comment flat_map app]; do 3 eexists; (split; [reflexivity|]); (split; [reflexivity|]);
    try (left; reflexivity). right. exists v, c1. split; reflexivity.
Qed.
