(** Removing selectors, adding comments, comment table, and what they leave alone. *)
From Verif Require Export SelProofs2.

(** * Text edits that only touch some characters *)
Section Filt.
Variable f : ascii -> bool.
Lemma filt_replace_all_aux old new : old <> [] -> filter f old = [] -> filter f new = [] ->
  forall s k, filter f (replace_all_aux old new k s) = filter f (skipn k s).
Proof.
  intros Hne Ho Hn. induction s as [|c s IH]; intros k; cbn [replace_all_aux]; [destruct k; reflexivity|].
  destruct k as [|k]; [|cbn [skipn]; apply IH].
  destruct (starts_with old (c :: s)) eqn:S.
  - apply starts_with_spec in S as (t & Ht). rewrite filter_app, Hn, IH. cbn [app skipn].
    destruct old as [|o old]; [congruence|]. cbn [app] in Ht. injection Ht as -> ->.
    cbn [length]. rewrite Nat.sub_succ, Nat.sub_0_r.
    rewrite skipn_app, skipn_all, Nat.sub_diag. cbn [skipn app].
    change (o :: old ++ t) with ((o :: old) ++ t). rewrite filter_app, Ho. reflexivity.
  - cbn [filter skipn]. rewrite IH. cbn [skipn]. reflexivity.
Qed.
Lemma filt_replace_all old new s : old <> [] -> filter f old = [] -> filter f new = [] ->
  filter f (replace_all old new s) = filter f s.
Proof. intros. unfold replace_all. rewrite filt_replace_all_aux by auto. reflexivity. Qed.
Lemma filt_replace_first old new s : filter f old = [] -> filter f new = [] -> filter f (replace_first old new s) = filter f s.
Proof.
  intros Ho Hn. induction s as [|c s IH].
  - destruct old as [|o old]; cbn [replace_first starts_with length skipn]; [rewrite app_nil_r; exact Hn|reflexivity].
  - unfold replace_first; fold replace_first. destruct (starts_with old (c :: s)) eqn:S.
    + apply starts_with_spec in S as (t & Ht). rewrite Ht, skipn_app, skipn_all, Nat.sub_diag. cbn [skipn app].
      rewrite !filter_app, Ho, Hn. reflexivity.
    + cbn [filter]. rewrite IH. reflexivity.
Qed.
Lemma filt_rev s : filter f (rev s) = rev (filter f s).
Proof.
  induction s as [|c s IH]; auto. cbn [rev filter]. rewrite filter_app, IH. cbn [filter]. destruct (f c); cbn [rev]; [reflexivity|apply app_nil_r].
Qed.
Lemma filt_strip s : (forall c, is_space c = true -> f c = false) -> filter f (strip s) = filter f s.
Proof.
  intros H. assert (forall t, filter f (lstrip t) = filter f t) as HL.
  { induction t as [|c t IH]; cbn [lstrip]; auto. destruct (is_space c) eqn:S; auto. cbn [filter]. rewrite (H c S). exact IH. }
  unfold strip. rewrite HL. unfold rstrip. rewrite filt_rev, HL, filt_rev, rev_involutive. reflexivity.
Qed.
End Filt.
Definition br (c : ascii) : bool := ceq c cLB || ceq c cRB.
Lemma br_space c : is_space c = true -> br c = false.
Proof.
  intros H. unfold br. destruct (ceq c cLB) eqn:E1; [apply ceq_eq in E1 as ->; discriminate|].
  destruct (ceq c cRB) eqn:E2; [apply ceq_eq in E2 as ->; discriminate|]. reflexivity.
Qed.
Definition ltr (c : ascii) : bool := negb (is_space c) && negb (if ascii_dec c cHASH then true else false).
Lemma ltr_space c : is_space c = true -> ltr c = false.
Proof. intros H. unfold ltr. rewrite H. reflexivity. Qed.
Lemma brackets_apart s u w : filter br s = filter br (u ++ w) -> ~ In cLB u -> ~ In cRB w -> selector_of s = None.
Proof.
  intros H Hu Hw. apply selector_of_none. intros a b c ->. exfalso. rewrite !filter_app in H.
  assert (forall x l, In x (filter br l) -> In x l) as HF by (intros x l HI; apply filter_In in HI; tauto).
  change (filter br $"[") with [cLB] in H. change (filter br $"]") with [cRB] in H.
  cbn [app] in H. apply app_eq_app in H as (l & [(H1 & H2)|(H1 & H2)]).
  - apply Hw. apply (HF cRB w). rewrite H2. apply in_app_iff. right. right. apply in_app_iff. right. left. reflexivity.
  - destruct l as [|x l].
    + apply Hw. apply (HF cRB w). cbn [app] in H2. rewrite <- H2. right. apply in_app_iff. right. left. reflexivity.
    + injection H2 as E2 H2. subst x. apply Hu. apply (HF cLB u). rewrite H1. apply in_app_iff. right. left. reflexivity.
Qed.

(** The filtered text of a literal made of hash signs and spaces. *)
Ltac filt H1 H2 := unfold cHASH in H1; unfold cSP in H2;
  match goal with |- filter _ ?l = [] => let l' := eval vm_compute in l in change l with l' end;
  repeat (cbn [filter]; rewrite ?H1, ?H2); reflexivity.
(** * Cutting out the selector *)
Lemma aux_skip old new a : forall s k, k = length a -> replace_all_aux old new k (a ++ s) = replace_all_aux old new 0 s.
Proof. induction a as [|x a IH]; intros s k ->; cbn [app length replace_all_aux]; auto. Qed.
Lemma aux_hit old new s : old <> [] -> replace_all_aux old new 0 (old ++ s) = new ++ replace_all_aux old new 0 s.
Proof.
  destruct old as [|o old]; [congruence|]. intros _. change ((o :: old) ++ s) with (o :: old ++ s). cbn [replace_all_aux].
  assert (starts_with (o :: old) (o :: old ++ s) = true) as -> by (apply starts_with_spec; exists s; reflexivity).
  rewrite aux_skip by (cbn [length]; lia). reflexivity.
Qed.
Lemma starts_sel before sel b after x : sel = cLB :: b ++ [cRB] -> ~ In cLB (x :: before) ->
  starts_with sel (x :: before ++ after) = false.
Proof.
  intros -> H. destruct (starts_with _ _) eqn:S; auto. exfalso. apply starts_with_spec in S as (t & Ht).
  cbn [app] in Ht. injection Ht as -> _. apply H. left; auto.
Qed.
Lemma replace_all_no_close sel b s : sel = cLB :: b ++ [cRB] -> ~ In cRB s -> replace_all_aux sel [] 0 s = s.
Proof.
  intros Hs. induction s as [|x s IH]; intros H; auto. cbn [replace_all_aux].
  destruct (starts_with sel (x :: s)) eqn:S.
  - exfalso. apply starts_with_spec in S as (t & Ht). apply H. rewrite Ht, Hs. apply in_app_iff. left. right. apply in_app_iff. right. left. auto.
  - f_equal. apply IH. intros HI. apply H. right; auto.
Qed.
Lemma cut_selector before sel b after : sel = cLB :: b ++ [cRB] -> ~ In cLB before -> ~ In cRB after ->
  replace_all sel [] (before ++ sel ++ after) = before ++ after.
Proof.
  intros Hs Hl Hr. unfold replace_all. induction before as [|x before IH]; cbn [app].
  - rewrite aux_hit by (rewrite Hs; discriminate). apply (replace_all_no_close sel b); auto.
  - cbn [replace_all_aux]. rewrite (starts_sel before sel b _ x Hs Hl). f_equal. apply IH. intros H; apply Hl; right; auto.
Qed.
Lemma hash_replace_all old new s : starts_with_hash new -> starts_with_hash s -> starts_with_hash (replace_all old new s).
Proof.
  intros (n & ->) (t & ->). unfold replace_all. cbn [replace_all_aux]. destruct (starts_with old (cHASH :: t)); [cbn [app]|]; eexists; reflexivity.
Qed.
Lemma without_selector_spec before sel b after : sel = cLB :: b ++ [cRB] -> ~ In cLB before -> ~ In cRB after ->
  let c' := comment_without_selector (before ++ sel ++ after) sel in
  selector_of c' = None /\ letters c' = letters (before ++ after)
  /\ (starts_with_hash before -> c' = [] \/ starts_with_hash c').
Proof.
  intros Hs Hl Hr c'. unfold c', comment_without_selector. rewrite (cut_selector before sel b after Hs Hl Hr).
  set (c1 := replace_all $"# # " $"# " (replace_all $"#  " $"# " (before ++ after))).
  assert (forall f, f cHASH = false -> f cSP = false -> filter f c1 = filter f (before ++ after)) as HF.
  { intros f H1 H2. unfold c1. rewrite !filt_replace_all; auto; try discriminate; filt H1 H2. }
  assert (selector_of c1 = None) as HN by (apply (brackets_apart c1 before after); auto; apply HF; reflexivity).
  assert (letters c1 = letters (before ++ after)) as HL by (apply (HF ltr); reflexivity).
  destruct (str_eqb (strip c1) $"#") eqn:Q.
  - apply str_eqb_eq in Q. split; [reflexivity|]. split; [|auto]. rewrite <- HL. change (letters c1) with (filter ltr c1).
    rewrite <- (filt_strip ltr c1 ltr_space), Q. reflexivity.
  - split; auto. split; auto. intros HB. right. unfold c1.
    apply hash_replace_all; [eexists; reflexivity|]. apply hash_replace_all; [eexists; reflexivity|].
    destruct HB as (t & ->). eexists. reflexivity.
Qed.
Lemma remove_selector_at E path r q n : addresses (r_root r) path q -> node_at (r_root r) q = Some n ->
  remove_selector E path r =
  match selector_of (n_comment n) with
  | None => (Ok None, r)
  | Some sel => (Ok (Some sel), mark_modified (rebuild_selectors E (with_root r (update_at q (put_comment (comment_without_selector (n_comment n) sel)) (r_root r)))))
  end.
Proof. intros (st & H1 & H2) Hn. unfold remove_selector. rewrite H1, H2, Hn, search_selector. reflexivity. Qed.
Lemma c25 E path r q n sel : no_emptied_element (r_root r) -> addresses (r_root r) path q -> node_at (r_root r) q = Some n ->
  one_line (n_comment n) -> get_selector_at_path path None r = Ok sel ->
  exists r' c', remove_selector E path r = (Ok (Some sel), r')
  /\ changed_at (comment_changed c') q (r_root r) (r_root r') /\ same_but_tree r r'
  /\ (exists before after, n_comment n = before ++ sel ++ after /\ letters c' = letters (before ++ after))
  /\ (starts_with_hash (n_comment n) -> c' = [] \/ starts_with_hash c')
  /\ get_selector_at_path path None r' = Err EKey /\ contains_selector_at_path path r' = Ok false.
Proof.
  intros HE HA Hn H1 HG. destruct (get_selector_at _ _ _ _ None r eq_refl HA Hn) as (HG' & _). rewrite HG' in HG.
  destruct (selector_of (n_comment n)) as [s|] eqn:HS; [|discriminate]. injection HG as ->.
  rewrite (remove_selector_at E path r q n HA Hn), HS.
  pose proof HS as HI. apply (selector_of_one_line _ _ H1) in HI as (before & b & after & Hc & Hb & Hl & Hr).
  assert (sel = cLB :: b ++ [cRB]) as Hb' by exact Hb.
  destruct (without_selector_spec before sel b after Hb' Hl Hr) as (W1 & W2 & W3). rewrite <- Hc in W1, W2, W3.
  set (c' := comment_without_selector (n_comment n) sel) in *.
  eexists. exists c'. split; [reflexivity|].
  assert (edited_at E q c' r (mark_modified (rebuild_selectors E (with_root r (update_at q (put_comment c') (r_root r)))))) as HD by reflexivity.
  destruct (edited_facts _ _ _ _ _ _ _ HD HA Hn) as (G1 & G2 & _ & _ & G3). split; [exact G1|]. split; [exact G2|].
  split; [exists before, after; auto|]. split.
  - intros (t & Ht). apply W3. destruct before as [|x before]; [|rewrite Hc in Ht; injection Ht as -> _; eexists; reflexivity].
    rewrite Hc, Hb' in Ht. discriminate.
  - destruct (G3 HE) as (HA' & n' & Hn' & Hcn). destruct (get_selector_at _ _ _ _ None _ eq_refl HA' Hn') as (K1 & K2). rewrite K1, K2, Hcn, W1. auto.
Qed.
Lemma c25_none E path r q n : addresses (r_root r) path q -> node_at (r_root r) q = Some n -> no_selector (n_comment n) ->
  remove_selector E path r = (Ok None, r).
Proof. intros HA Hn H. rewrite (remove_selector_at E path r q n HA Hn). apply selector_of_none in H. rewrite H. reflexivity. Qed.
Lemma c25_missing E path r : path <> [] -> lookup (r_root r) path = None -> remove_selector E path r = (Err EKey, r).
Proof.
  intros HP HL. destruct (path_nonempty_ok _ HP) as (st & HS). unfold remove_selector. rewrite HS, (missing_path _ _ _ HL HS). reflexivity.
Qed.

(** * C26 *)
Lemma new_comment_with old sel t : selector_of old = Some sel -> new_comment old t = $"# " ++ sel ++ $" " ++ comment_body t.
Proof.
  intros H. unfold new_comment. rewrite search_selector, H.
  assert (match t with x :: t0 => if ceq x cHASH then strip t0 else t | [] => t end = comment_body t) as ->; [|reflexivity].
  destruct t as [|x t]; auto. unfold comment_body. destruct (ascii_dec x cHASH) as [->|N]; [rewrite ceq_refl; auto|].
  destruct (ceq x cHASH) eqn:E; auto. apply ceq_eq in E. congruence.
Qed.
Lemma new_comment_without old t : selector_of old = None -> new_comment old t = hashed t.
Proof.
  intros H. unfold new_comment. rewrite search_selector, H. destruct t as [|x t]; auto. unfold hashed.
  destruct (ascii_dec x cHASH) as [->|N]; [rewrite ceq_refl; auto|]. destruct (ceq x cHASH) eqn:E; auto. apply ceq_eq in E. congruence.
Qed.
Definition commented_at (q : position) (c : str) (r r' : recipe) : Prop :=
  r' = mark_modified (with_root r (update_at q (put_comment c) (r_root r))).
Lemma commented_facts q c n r r' s : commented_at q c r r' -> addresses (r_root r) s q -> node_at (r_root r) q = Some n ->
  changed_at (comment_changed c) q (r_root r) (r_root r')
  /\ same_but_tree r r' /\ r_mod r' = true
  /\ (no_emptied_element (r_root r) -> addresses (r_root r') s q /\ exists n', node_at (r_root r') q = Some n' /\ n_comment n' = c).
Proof.
  intros -> HA Hn. cbn [mark_modified with_root r_root r_init r_schema r_vars r_sel r_mod].
  split; [apply (changed_at_update (comment_changed c) _ _ _ n Hn); apply put_comment_spec|].
  split; [repeat split|]. split; auto. intros HE.
  destruct (no_emptied_at _ _ _ _ HE HA Hn) as (H1 & H2). split.
  - apply addresses_update; auto. intros m Hm. assert (m = n) as -> by congruence. apply put_comment_label; auto.
  - exists (put_comment c n). split; [apply node_at_update_same; auto|apply put_comment_own].
Qed.
Lemma add_comment_at path comment r q n : addresses (r_root r) path q -> node_at (r_root r) q = Some n ->
  strip comment <> [] -> matched SELECTOR (strip comment) = false ->
  add_comment path comment r = (Ok tt, mark_modified (with_root r (update_at q (put_comment (new_comment (n_comment n) (strip comment))) (r_root r)))).
Proof.
  intros (st & H1 & H2) Hn Hne HM. unfold add_comment. apply is_nil_false in Hne. rewrite Hne, HM, H1, H2, Hn. reflexivity.
Qed.
Lemma In_lstrip c s : In c (lstrip s) -> In c s.
Proof. induction s as [|z s IH]; cbn [lstrip]; auto. destruct (is_space z); intros H; [right; auto|exact H]. Qed.
Lemma In_strip c s : In c (strip s) -> In c s.
Proof. unfold strip, rstrip. intros H. apply In_lstrip in H. rewrite <- in_rev in H. apply In_lstrip in H. rewrite <- in_rev in H. exact H. Qed.
Lemma In_body c t : In c (comment_body t) -> In c t.
Proof.
  destruct t as [|x t]; auto. unfold comment_body. destruct (ascii_dec x cHASH); auto. intros H. right. apply In_strip; auto.
Qed.
Lemma c26 path comment r q n sel : no_emptied_element (r_root r) -> addresses (r_root r) path q -> node_at (r_root r) q = Some n ->
  get_selector_at_path path None r = Ok sel -> strip comment <> [] -> ~ In cRB comment ->
  exists r', add_comment path comment r = (Ok tt, r')
  /\ changed_at (comment_changed ($"# " ++ sel ++ $" " ++ comment_body (strip comment))) q (r_root r) (r_root r')
  /\ same_but_tree r r' /\ get_selector_at_path path None r' = Ok sel.
Proof.
  intros HE HA Hn HG Hne HR. destruct (get_selector_at _ _ _ _ None r eq_refl HA Hn) as (HG' & _). rewrite HG' in HG.
  destruct (selector_of (n_comment n)) as [s|] eqn:HS; [|discriminate]. injection HG as ->.
  assert (matched SELECTOR (strip comment) = false) as HM.
  { destruct (matched SELECTOR (strip comment)) eqn:M; auto. apply matched_selector in M as (b & c & Hc & _). exfalso. apply HR.
    apply In_strip. rewrite Hc, !in_app_iff. right. right. left. left. reflexivity. }
  rewrite (add_comment_at path comment r q n HA Hn Hne HM), (new_comment_with _ sel _ HS). eexists. split; [reflexivity|].
  match goal with |- changed_at (comment_changed ?c) _ _ (r_root ?r') /\ _ => assert (commented_at q c r r') as HD by reflexivity end.
  destruct (commented_facts _ _ _ _ _ _ HD HA Hn) as (G1 & G2 & _ & G3). split; [exact G1|]. split; [exact G2|].
  destruct (G3 HE) as (HA' & n' & Hn' & Hcn). destruct (get_selector_at _ _ _ _ None _ eq_refl HA' Hn') as (-> & _). rewrite Hcn.
  destruct (selector_of_bracketed _ _ HS) as (b & HB). rewrite (selector_of_hash sel b _ HB); auto.
  intros x y H. exfalso. apply HR. apply In_strip. apply In_body.
  assert (In cRB ($" " ++ comment_body (strip comment))) as HI by (rewrite H, in_app_iff; right; left; auto).
  destruct HI as [HI|HI]; [discriminate|exact HI].
Qed.
Lemma c26_plain path comment r q n : no_emptied_element (r_root r) -> addresses (r_root r) path q -> node_at (r_root r) q = Some n ->
  no_selector (n_comment n) -> strip comment <> [] -> ~ In cRB comment ->
  exists r', add_comment path comment r = (Ok tt, r')
  /\ changed_at (comment_changed (hashed (strip comment))) q (r_root r) (r_root r')
  /\ same_but_tree r r' /\ get_selector_at_path path None r' = Err EKey.
Proof.
  intros HE HA Hn HS Hne HR. apply selector_of_none in HS.
  assert (matched SELECTOR (strip comment) = false) as HM.
  { destruct (matched SELECTOR (strip comment)) eqn:M; auto. apply matched_selector in M as (b & c & Hc & _). exfalso. apply HR.
    apply In_strip. rewrite Hc, !in_app_iff. right. right. left. left. reflexivity. }
  rewrite (add_comment_at path comment r q n HA Hn Hne HM), (new_comment_without _ _ HS). eexists. split; [reflexivity|].
  match goal with |- changed_at (comment_changed ?c) _ _ (r_root ?r') /\ _ => assert (commented_at q c r r') as HD by reflexivity end.
  destruct (commented_facts _ _ _ _ _ _ HD HA Hn) as (G1 & G2 & _ & G3). split; [exact G1|]. split; [exact G2|].
  destruct (G3 HE) as (HA' & n' & Hn' & Hcn). destruct (get_selector_at _ _ _ _ None _ eq_refl HA' Hn') as (-> & _). rewrite Hcn.
  assert (selector_of (hashed (strip comment)) = None) as ->; auto.
  apply selector_of_none. intros x y z H. exfalso. apply HR. apply In_strip.
  assert (In cRB (hashed (strip comment))) as HI by (rewrite H, !in_app_iff; right; right; right; left; left; reflexivity).
  unfold hashed in HI. destruct (strip comment) as [|w t]; auto. destruct (ascii_dec w cHASH); auto.
  destruct HI as [HI|[HI|HI]]; try discriminate. exact HI.
Qed.
Lemma c26_rejected path comment r :
  strip comment = [] \/ (exists b c, strip comment = $"[" ++ b ++ $"]" ++ c /\ ~ In cNL b) ->
  add_comment path comment r = (Err EValue, r).
Proof.
  unfold add_comment. intros [->|(b & c & H & Hb)]; [reflexivity|].
  assert (matched SELECTOR (strip comment) = true) as HM by (apply matched_selector; eauto). rewrite HM.
  destruct (is_nil (strip comment)); reflexivity.
Qed.

(** * C27 *)
Notation wct := without_comment_text.
Lemma wct_eq n : wct n = Nd (n_value n) (if is_comment n then $"#" else []) (map wct (n_children n)) (n_lmf n) (n_ml n) (n_keyf n).
Proof. destruct n; reflexivity. Qed.
Lemma wct_value n : n_value (wct n) = n_value n. Proof. rewrite wct_eq. reflexivity. Qed.
Lemma wct_lmf n : n_lmf (wct n) = n_lmf n. Proof. rewrite wct_eq. reflexivity. Qed.
Lemma wct_keyf n : n_keyf (wct n) = n_keyf n. Proof. rewrite wct_eq. reflexivity. Qed.
Lemma wct_children n : n_children (wct n) = map wct (n_children n). Proof. rewrite wct_eq. reflexivity. Qed.
Lemma wct_comment n : is_comment (wct n) = is_comment n.
Proof.
  unfold is_comment at 1. rewrite wct_value, wct_children. rewrite wct_eq. cbn [n_comment].
  unfold is_comment. destruct (is_sent (n_value n)), (n_comment n), (n_children n); reflexivity.
Qed.
Lemma wct_label n : label (wct n) = label n.
Proof. unfold label. rewrite wct_value, wct_lmf, wct_comment. reflexivity. Qed.
Lemma wct_node_at n p : node_at (wct n) p = option_map wct (node_at n p).
Proof.
  revert n; induction p as [|i p IH]; intros n; cbn [node_at]; auto.
  rewrite wct_children, nth_error_map. destruct (nth_error (n_children n) i); cbn [option_map]; auto.
Qed.
Lemma wct_step n part : step_child (wct n) part = option_map (fun ic => (fst ic, wct (snd ic))) (step_child n part).
Proof.
  assert (option_map fst (step_child (wct n) part) = option_map fst (step_child n part)) as H.
  { apply step_child_label. rewrite wct_children, map_map. apply map_ext. apply wct_label. }
  destruct (step_child (wct n) part) as [[i c]|] eqn:E1, (step_child n part) as [[j d]|] eqn:E2; try discriminate; auto.
  cbn [option_map fst] in H. injection H as ->. cbn [option_map fst snd]. do 2 f_equal.
  apply step_child_nth in E1, E2. rewrite wct_children, nth_error_map, E2 in E1. injection E1 as <-. reflexivity.
Qed.
Lemma wct_traverse_recurse n parts : traverse_recurse (wct n) parts = traverse_recurse n parts.
Proof.
  revert n; induction parts as [|p parts IH]; intros n; cbn [traverse_recurse]; auto.
  rewrite wct_step. destruct (step_child n p) as [[i c]|]; cbn [option_map fst snd]; auto. rewrite IH. reflexivity.
Qed.
Lemma wct_traverse_pos n st : traverse_pos (wct n) st = traverse_pos n st.
Proof. unfold traverse_pos. destruct (rev st) as [|a [|b l]]; auto. apply wct_traverse_recurse. Qed.
Lemma wct_addresses n s q : addresses (wct n) s q <-> addresses n s q.
Proof. unfold addresses. split; intros (st & H1 & H2); exists st; split; auto; rewrite wct_traverse_pos in *; auto. Qed.
Lemma wct_preorder n : preorder (wct n) = preorder n.
Proof.
  induction n as [v c chs l ml k IH] using node_ind'. rewrite !preorder_eq, wct_children. cbn [n_children]. f_equal.
  generalize 0. induction IH as [|x xs Hx _ IHx]; intros i; auto. cbn [map preorder_list]. rewrite Hx, IHx. reflexivity.
Qed.
Lemma wct_terminal n : terminal (wct n) = terminal n.
Proof. unfold terminal. rewrite wct_comment, wct_children. destruct (n_children n); reflexivity. Qed.
Lemma wct_count l : count_elements (map wct l) = count_elements l.
Proof.
  unfold count_elements. induction l as [|x l IH]; auto. cbn [map filter]. rewrite wct_comment. destruct (is_comment x); cbn [negb length]; auto.
Qed.
Lemma wct_path_at E n p : path_at E (wct n) p = path_at E n p.
Proof.
  revert n; induction p as [|i p IH]; intros n; cbn [path_at]; auto. rewrite wct_children, nth_error_map.
  destruct (nth_error (n_children n) i) as [c|]; cbn [option_map]; auto. rewrite IH. f_equal.
  unfold own_text. rewrite wct_lmf, wct_terminal, wct_keyf, wct_value, firstn_map, wct_count. reflexivity.
Qed.
Lemma wct_positions f n : (forall m, f (wct m) = f m) -> positions_where f (wct n) = positions_where f n.
Proof.
  intros H. unfold positions_where. rewrite wct_preorder. apply filter_ext. intros p. rewrite wct_node_at.
  destruct (node_at n p); cbn [option_map]; auto.
Qed.
Lemma c27_same E root root' : wct root = wct root' ->
  (forall s q, addresses root s q <-> addresses root' s q)
  /\ (forall q n, node_at root q = Some n -> exists n', node_at root' q = Some n' /\ wct n = wct n')
  /\ list_value_paths E root = list_value_paths E root'
  /\ (forall v, find_value E root v = find_value E root' v).
Proof.
  intros H. split; [intros s q; rewrite <- (wct_addresses root), <- (wct_addresses root'), H; tauto|]. split.
  { intros q n Hn. pose proof (wct_node_at root q) as H1. rewrite H, wct_node_at, Hn in H1. destruct (node_at root' q) as [n'|]; [|discriminate].
    injection H1 as H1. eauto. }
  split.
  - rewrite !list_value_paths_spec. rewrite <- (wct_positions terminal root wct_terminal), <- (wct_positions terminal root' wct_terminal), H.
    apply map_ext. intros p. rewrite <- (wct_path_at E root), <- (wct_path_at E root'), H. reflexivity.
  - intros v. destruct v as [p|l|d]; try reflexivity. rewrite !find_value_spec. f_equal.
    assert (forall m, holds_value p (wct m) = holds_value p m) as HH by (intros m; unfold holds_value; rewrite wct_terminal, wct_value, wct_keyf; reflexivity).
    rewrite <- (wct_positions _ root HH), <- (wct_positions _ root' HH), H.
    apply map_ext. intros q. rewrite <- (wct_path_at E root), <- (wct_path_at E root'), H. reflexivity.
Qed.
Lemma wct_put c n : is_comment n = false -> ~ (n_value n = VSent /\ n_children n = []) ->
  (forall x, In x (n_children n) -> n_value x = VSent -> n_children x = [] -> n_comment x <> []) ->
  wct (put_comment c n) = wct n.
Proof.
  intros HC HE HX. pose proof (put_comment_label c n HC HE) as HL. unfold label in HL. injection HL as HL1 HL2 HL3.
  rewrite (wct_eq (put_comment c n)), (wct_eq n), HL1, HL2, HL3. rewrite (put_comment_spec c n).
  destruct (on_one_line n) eqn:O; cbn [n_children n_ml n_keyf with_comment]; [|reflexivity]. f_equal.
  rewrite map_map. apply map_ext_in. intros x Hx. rewrite (wct_eq (with_comment c x)), (wct_eq x). unfold with_comment. cbn [n_value n_children n_lmf n_ml n_keyf].
  f_equal. unfold on_one_line in O. destruct (n_children n) as [|y [|z l]]; try (rewrite andb_false_r in O; discriminate).
  destruct Hx as [->|[]]. apply andb_prop in O as (_ & O). unfold terminal in O. apply andb_prop in O as (O1 & O2). apply is_nil_true in O1.
  apply negb_true_iff in O2. rewrite O2. unfold is_comment. cbn [n_value n_comment n_children]. rewrite O1.
  destruct (n_value x) eqn:V; [|reflexivity]. exfalso. specialize (HX x (or_introl eq_refl) V O1).
  assert (is_comment x = true); [|congruence]. apply is_comment_spec. repeat split; auto.
Qed.
Lemma wct_update n q f : (forall m, node_at n q = Some m -> wct (f m) = wct m) -> wct (update_at q f n) = wct n.
Proof.
  revert n; induction q as [|i q IH]; intros n H; cbn [update_at]; [apply H; reflexivity|].
  rewrite (wct_eq (set_children _ n)), (wct_eq n). rewrite set_children_value, set_children_lmf, children_set.
  assert (map wct (map_nth i (update_at q f) (n_children n)) = map wct (n_children n)) as HM.
  { cbn [node_at] in H. revert H. generalize (n_children n) as l. revert i. induction i as [|i IHi]; intros [|x l] H; auto.
    - cbn [map_nth map nth_error] in *. f_equal. apply IH. auto.
    - cbn [map_nth map nth_error] in *. f_equal. apply IHi. auto. }
  rewrite HM. destruct n as [v c chs l ml k]. unfold set_children. cbn [n_value n_comment n_children n_lmf n_ml n_keyf] in *. f_equal.
  unfold is_comment. cbn [n_value n_comment n_children]. destruct chs; destruct i; reflexivity.
Qed.
Lemma wct_edit root s q n c : no_emptied_element root -> addresses root s q -> node_at root q = Some n ->
  wct (update_at q (put_comment c) root) = wct root.
Proof.
  intros HE HA Hn. apply wct_update. intros m Hm. assert (m = n) as -> by congruence.
  destruct (no_emptied_at _ _ _ _ HE HA Hn) as (H1 & H2). apply wct_put; auto.
  intros x Hx. apply In_nth_error in Hx as (i & Hi). destruct HE as (_ & HE). apply (HE (q ++ [i])).
  rewrite node_at_app, Hn. cbn [node_at]. rewrite Hi. reflexivity.
Qed.
Lemma c27 E e r : is_line_edit e = true -> no_emptied_element (r_root r) ->
  wct (r_root (after E e r)) = wct (r_root r) /\ same_but_tree r (after E e r).
Proof.
  intros HL HE. destruct e as [p|k v|k|path sel mode|path|path cm]; try discriminate; cbn [after].
  - unfold add_selector. destruct (str_to_stack_path path) as [st|] eqn:S; [|repeat split]. destruct (traverse_pos (r_root r) st) as [q|] eqn:T; [|repeat split].
    destruct (node_at (r_root r) q) as [n|] eqn:N; [|repeat split]. destruct (negb (matched SELECTOR sel)); [repeat split|]. cbn [snd].
    split; [|repeat split]. cbn [mark_modified rebuild_selectors with_sel with_root r_root]. apply (wct_edit _ path q n); auto. exists st; auto.
  - unfold remove_selector. destruct (str_to_stack_path path) as [st|] eqn:S; [|repeat split]. destruct (traverse_pos (r_root r) st) as [q|] eqn:T; [|repeat split].
    destruct (node_at (r_root r) q) as [n|] eqn:N; [|repeat split]. destruct (search_text SELECTOR (n_comment n)); [|repeat split]. cbn [snd].
    split; [|repeat split]. cbn [mark_modified rebuild_selectors with_sel with_root r_root]. apply (wct_edit _ path q n); auto. exists st; auto.
  - unfold add_comment. destruct (is_nil (strip cm)); [repeat split|]. destruct (matched SELECTOR (strip cm)); [repeat split|].
    destruct (str_to_stack_path path) as [st|] eqn:S; [|repeat split]. destruct (traverse_pos (r_root r) st) as [q|] eqn:T; [|repeat split].
    destruct (node_at (r_root r) q) as [n|] eqn:N; [|repeat split]. cbn [snd].
    split; [|repeat split]. cbn [mark_modified with_root r_root]. apply (wct_edit _ path q n); auto. exists st; auto.
Qed.

(** * C30 *)
Lemma sub_skip r w f a : forall s k prev p, k = length a ->
  exists prev' p', sub_aux r w f prev p k (a ++ s) = sub_aux r w f prev' p' 0 s.
Proof. induction a as [|x a IH]; intros s k prev p ->; cbn [app length sub_aux]; eauto. Qed.
Lemma sub_no_close w s : ~ In cRB s -> forall prev p, sub_aux SELECTOR w (fun _ => []) prev p 0 s = s.
Proof.
  induction s as [|c s IH]; intros H prev p; auto. cbn [sub_aux]. rewrite match_at_sel.
  assert (up_to_close s = None) as ->.
  { apply up_to_close_none. intros b d ->. exfalso. apply H. right. apply in_app_iff. right. left. auto. }
  destruct (ceq cLB c); cbn [option_map]; f_equal; apply IH; intros HI; apply H; right; auto.
Qed.
Lemma sub_selector w before b after : ~ In cLB before -> ~ In cNL b -> ~ In cRB after -> forall prev p,
  sub_aux SELECTOR w (fun _ => []) prev p 0 (before ++ cLB :: b ++ cRB :: after) = before ++ after.
Proof.
  intros Hl Hb Hr. induction before as [|x before IH]; intros prev p; cbn [app sub_aux]; rewrite match_at_sel.
  - rewrite ceq_refl. assert (up_to_close (b ++ cRB :: after) = Some (S (length b))) as ->.
    { apply up_to_close_spec. exists b, after. split; auto. split; auto. split; auto. intros x y ->. exfalso. apply Hr. apply in_app_iff. right. left. auto. }
    cbn [option_map m_start m_end app].
    replace (b ++ cRB :: after) with ((b ++ [cRB]) ++ after) by (rewrite <- app_assoc; reflexivity).
    destruct (sub_skip SELECTOR w (fun _ => []) (b ++ [cRB]) after (p + S (S (length b)) - p - 1) (Some cLB) (S p)) as (prev' & p' & ->).
    { rewrite app_length. cbn [length]. lia. }
    apply sub_no_close; auto.
  - destruct (ceq cLB x) eqn:Ex; [apply ceq_eq in Ex as <-; exfalso; apply Hl; left; auto|]. f_equal. apply IH. intros H; apply Hl; right; auto.
Qed.
Lemma table_comment_spec n c : one_line (n_comment n) -> table_comment n = Some c ->
  is_comment n = false /\ n_comment n <> [] /\ selector_of c = None /\ (starts_with_hash (n_comment n) -> starts_with_hash c)
  /\ c <> []
  /\ (no_selector (n_comment n) -> c = n_comment n)
  /\ (forall sel, selector_of (n_comment n) = Some sel -> c <> $"#" /\
        exists before after, n_comment n = before ++ sel ++ after /\ letters c = letters (before ++ after)).
Proof.
  intros H1 H. unfold table_comment in H. destruct (is_comment n) eqn:C; [discriminate|]. destruct (is_nil (n_comment n)) eqn:NN; [discriminate|].
  cbn [orb] in H. apply is_nil_false in NN. rewrite found_selector in H. split; auto. split; auto.
  destruct (selector_of (n_comment n)) as [sel|] eqn:S; cbn [is_some] in H.
  - pose proof S as S'. apply (selector_of_one_line _ _ H1) in S' as (before & b & after & Hc & Hb & Hl & Hr).
    assert (sel = cLB :: b ++ [cRB]) as Hb' by exact Hb. assert (~ In cNL b) as Hnb.
    { intros HI. apply H1. rewrite Hc, Hb', !in_app_iff. right. left. right. apply in_app_iff. left; auto. }
    assert (re_sub SELECTOR [] (n_comment n) = before ++ after) as HR.
    { unfold re_sub, re_sub_f. generalize (n_comment n) at 1 as w. intros w. rewrite Hc, Hb'.
      change ((cLB :: b ++ [cRB]) ++ after) with (cLB :: (b ++ [cRB]) ++ after). rewrite <- app_assoc. cbn [app]. apply sub_selector; auto. }
    rewrite HR in H. clear HR.
    set (c1 := replace_first $"#  " $"# " (replace_first $"#  # " $"# " (strip (before ++ after)))) in *.
    assert (forall f, f cHASH = false -> (forall x, is_space x = true -> f x = false) -> filter f c1 = filter f (before ++ after)) as HF.
    { intros f G1 G2. assert (f cSP = false) as G3 by (apply G2; reflexivity). unfold c1. rewrite !filt_replace_first, filt_strip; auto; filt G1 G3. }
    assert (selector_of c1 = None) as HN by (apply (brackets_apart c1 before after); auto; apply HF; [reflexivity|apply br_space]).
    assert (letters c1 = letters (before ++ after)) as HL by (apply (HF ltr); [reflexivity|apply ltr_space]).
    destruct (mem_str c1 [$""; $"#"]) eqn:M; [discriminate|]. apply mem_str_notIn in M.
    destruct c1 as [|x c2] eqn:E1; [discriminate|].
    assert (c = x :: c2 /\ x = cHASH \/ c = $"# " ++ x :: c2 /\ x <> cHASH) as HC.
    { destruct (ceq x cHASH) eqn:Q; injection H as <-; [left; apply ceq_eq in Q; auto|right; apply ceq_neq in Q; auto]. }
    assert (filter br c = filter br (before ++ after) /\ letters c = letters (before ++ after) /\ starts_with_hash c /\ c <> [] /\ c <> $"#") as (K1 & K2 & K3 & K4 & K5).
    { assert (filter br (x :: c2) = filter br (before ++ after)) as HFB by (apply HF; [reflexivity|apply br_space]).
      destruct HC as [(-> & ->)|(-> & Hx)].
      - split; [exact HFB|]. split; [exact HL|]. split; [eexists; reflexivity|]. split; [discriminate|].
        intros E2. apply M. right. left. exact (eq_sym E2).
      - split; [exact HFB|]. split; [exact HL|]. split; [eexists; reflexivity|]. split; discriminate. }
    split; [apply (brackets_apart c before after); auto|]. split; auto. split; auto. split.
    + intros HNS. apply selector_of_none in HNS. congruence.
    + intros sel' [= <-]. split; auto. exists before, after. auto.
  - injection H as <-. split; auto. split; auto. split; auto. split; auto. intros sel HH. discriminate.
Qed.
Lemma table_fold l : forall c p, In (p, c) (fold_left (fun t np => match table_comment (fst np) with
                         | Some c => dset (stack_path_to_str (snd np)) c t | None => t end) l []) ->
  exists np, In np l /\ table_comment (fst np) = Some c /\ p = stack_path_to_str (snd np).
Proof.
  induction l as [|x l IH] using rev_ind; [intros c p []|]. intros c p. rewrite fold_left_app. cbn [fold_left].
  intros H. assert (forall t : list (str * str), forall k v, In (p, c) (dset k v t) -> (p = k /\ c = v) \/ In (p, c) t) as HD.
  { clear. induction t as [|[k' v'] t IH]; intros k v; cbn [dset].
    - intros [[= <- <-]|[]]. left; auto.
    - destruct (str_eqb k k') eqn:Q; intros [HH|HH].
      + injection HH as <- <-. apply str_eqb_eq in Q. left; auto.
      + right; right; auto.
      + right; left; auto.
      + apply IH in HH as [HH|HH]; auto. right; right; auto. }
  destruct (table_comment (fst x)) as [c'|] eqn:T.
  - apply HD in H as [(-> & ->)|H].
    + exists x. split; auto. apply in_app_iff; right; left; auto.
    + apply IH in H as (np & H1 & H2). exists np. split; auto. apply in_app_iff; auto.
  - apply IH in H as (np & H1 & H2). exists np. split; auto. apply in_app_iff; auto.
Qed.
Lemma table_fold_keys l : dkeys (fold_left (fun t np => match table_comment (fst np) with
                         | Some c => dset (stack_path_to_str (snd np)) c t | None => t end) l [])
  = dedupe (flat_map (fun np : node * stack => match table_comment (fst np) with Some _ => [stack_path_to_str (snd np)] | None => [] end) l).
Proof.
  induction l as [|x l IH] using rev_ind; [reflexivity|]. rewrite fold_left_app, flat_map_app. cbn [fold_left flat_map].
  destruct (table_comment (fst x)) as [c|]; cbn [app]; [|rewrite app_nil_r; exact IH].
  rewrite dkeys_dset, dedupe_snoc, IH. set (s := stack_path_to_str (snd x)).
  match type of IH with dkeys ?t0 = _ => set (t := t0) in * end. destruct (dmem s t) eqn:D.
  - apply dmem_In in D. rewrite IH in D. apply mem_str_In in D. rewrite D. reflexivity.
  - destruct (mem_str s (dedupe _)) eqn:M; auto. apply mem_str_In in M. rewrite <- IH in M. apply dmem_In in M. congruence.
Qed.
Lemma c30_entry E root path c : every_comment one_line root -> In (path, c) (get_comments_table E root) ->
  exists p n, node_at root p = Some n /\ path = path_at E root p /\ table_comment n = Some c.
Proof.
  intros _ H. unfold get_comments_table in H. apply table_fold in H as (np & HI & HT & ->).
  rewrite visits_spec in HI. apply in_map_iff in HI as (p & <- & HP). destruct (preorder_node_at _ _ HP) as (n & Hn). cbn [fst snd] in *.
  rewrite Hn in *. exists p, n. split; auto. split; auto.
  assert (is_comment n = false) as HC by (unfold table_comment in HT; destruct (is_comment n); [discriminate|reflexivity]).
  rewrite (stack_at_text E root _ p n Hn HC). reflexivity.
Qed.
Lemma c30 E root path c : every_comment one_line root -> every_comment starts_with_hash root ->
  In (path, c) (get_comments_table E root) ->
  exists p n, node_at root p = Some n /\ path = path_at E root p /\ is_comment n = false /\ n_comment n <> []
  /\ no_selector c /\ starts_with_hash c
  /\ (no_selector (n_comment n) -> c = n_comment n)
  /\ (forall sel, selector_of (n_comment n) = Some sel -> c <> $"#" /\
        exists before after, n_comment n = before ++ sel ++ after /\ letters c = letters (before ++ after)).
Proof.
  intros H1 H2 H. destruct (c30_entry E root path c H1 H) as (p & n & Hn & Hp & HT). exists p, n. split; auto. split; auto.
  assert (n_comment n <> []) as Hne.
  { unfold table_comment in HT. destruct (n_comment n); [rewrite orb_true_r in HT; discriminate|discriminate]. }
  destruct (table_comment_spec n c (H1 p n Hn Hne) HT) as (T1 & T2 & T3 & T4 & T5 & T6 & T7).
  split; auto. split; auto. split; [apply selector_of_none; auto|]. split; [apply T4, (H2 p n Hn Hne)|]. split; auto.
Qed.
(** A line is reported when something is left of its comment. *)
Definition reportable (n : node) : bool := match table_comment n with Some _ => true | None => false end.
Lemma reportable_spec n : one_line (n_comment n) -> (reportable n = true <->
  is_comment n = false /\ n_comment n <> [] /\
  (no_selector (n_comment n) \/ exists before sel after, selector_of (n_comment n) = Some sel /\ n_comment n = before ++ sel ++ after
     /\ ~ In cLB before /\ ~ In cRB after
     /\ ~ In (replace_first $"#  " $"# " (replace_first $"#  # " $"# " (strip (before ++ after)))) [[]; $"#"])).
Proof.
  intros H1. unfold reportable, table_comment. destruct (is_comment n) eqn:C; cbn [orb]; [split; [discriminate|intros (H & _); discriminate]|].
  destruct (is_nil (n_comment n)) eqn:NN; [apply is_nil_true in NN; rewrite NN; split; [discriminate|tauto]|]. apply is_nil_false in NN.
  rewrite found_selector. destruct (selector_of (n_comment n)) as [sel|] eqn:S; cbn [is_some].
  - pose proof S as S'. apply (selector_of_one_line _ _ H1) in S' as (before & b & after & Hc & Hb & Hl & Hr).
    assert (sel = cLB :: b ++ [cRB]) as Hb' by exact Hb.
    assert (forall before after, n_comment n = before ++ sel ++ after -> ~ In cLB before -> ~ In cRB after -> re_sub SELECTOR [] (n_comment n) = before ++ after) as HR.
    { intros bf af Hc' Hl' Hr'. assert (~ In cNL b) as Hnb.
      { intros HI. apply H1. rewrite Hc, Hb', !in_app_iff. right. left. right. apply in_app_iff. left; auto. }
      unfold re_sub, re_sub_f. generalize (n_comment n) at 1 as w. intros w. rewrite Hc', Hb'.
      change ((cLB :: b ++ [cRB]) ++ af) with (cLB :: (b ++ [cRB]) ++ af). rewrite <- app_assoc. cbn [app]. apply sub_selector; auto. }
    split.
    + rewrite (HR before after Hc Hl Hr). intros H. split; auto. split; auto. right. exists before, sel, after. repeat split; auto.
      destruct (mem_str _ _) eqn:M; [discriminate|]. apply mem_str_notIn in M. exact M.
    + intros (_ & _ & [HN|(bf & s & af & [= <-] & Hc' & Hl' & Hr' & HM)]); [apply selector_of_none in HN; congruence|].
      rewrite (HR bf af Hc' Hl' Hr'). apply mem_str_notIn in HM. change [[]; $"#"] with [$""; $"#"] in HM. rewrite HM.
      destruct (replace_first _ _ _) as [|x t] eqn:R; [exfalso; apply mem_str_notIn in HM; apply HM; left; reflexivity|]. destruct (ceq x cHASH); reflexivity.
  - split; auto. intros _. split; auto. split; auto. left. apply selector_of_none. auto.
Qed.
Lemma c30_keys E root : dkeys (get_comments_table E root) = first_occurrences (map (path_at E root) (positions_where reportable root)).
Proof.
  unfold get_comments_table. rewrite table_fold_keys, dedupe_spec. f_equal.
  rewrite <- (visits_filter E root reportable).
  - induction (visits E root) as [|x l IH]; auto. cbn [flat_map filter]. unfold reportable at 1. destruct (table_comment (fst x)); cbn [app map]; rewrite IH; reflexivity.
  - intros n. unfold reportable, table_comment. destruct (is_comment n); auto.
Qed.
