(** Selector table and selector/comment edits. *)
From Verif Require Export SelProofs.

(** * The selector table *)
Definition line_sel (np : node * stack) : list str := match selector_of (n_comment (fst np)) with Some s => [s] | None => [] end.
Lemma sel_add_spec t np : sel_add t np = match selector_of (n_comment (fst np)) with
  | None => t | Some sel => dset sel (match dget sel t with Some l => l ++ [np] | None => [np] end) t end.
Proof.
  unfold sel_add. rewrite search_selector. destruct (n_comment (fst np)) as [|c s]; reflexivity.
Qed.
Lemma collect_keys l : dkeys (fold_left sel_add l []) = first_occurrences (flat_map line_sel l).
Proof.
  rewrite <- dedupe_spec. induction l as [|x l IH] using rev_ind; [reflexivity|].
  rewrite fold_left_app, flat_map_app. cbn [fold_left flat_map]. rewrite app_nil_r, sel_add_spec. unfold line_sel at 2.
  destruct (selector_of (n_comment (fst x))) as [s|]; [|rewrite app_nil_r; exact IH].
  rewrite dkeys_dset, dedupe_snoc, IH.
  destruct (dmem s (fold_left sel_add l [])) eqn:D.
  - apply dmem_In in D. rewrite IH in D. apply mem_str_In in D. rewrite D. reflexivity.
  - destruct (mem_str s (dedupe (flat_map line_sel l))) eqn:M; auto. apply mem_str_In in M. rewrite <- IH in M. apply dmem_In in M. congruence.
Qed.
Lemma collect_get s l : dget s (fold_left sel_add l []) =
  match filter (fun np : node * stack => has_selector s (fst np)) l with [] => None | x => Some x end.
Proof.
  induction l as [|x l IH] using rev_ind; [reflexivity|].
  rewrite fold_left_app, filter_app. cbn [fold_left filter]. rewrite sel_add_spec. unfold has_selector at 2.
  destruct (selector_of (n_comment (fst x))) as [s'|]; [|rewrite app_nil_r; exact IH].
  destruct (list_eq_dec ascii_dec s' s) as [->|N].
  - rewrite dget_dset_same, IH. destruct (filter _ l); reflexivity.
  - rewrite dget_dset_other by congruence. rewrite app_nil_r. exact IH.
Qed.
Lemma visits_flat {A} E root (f : node * stack -> list A) (g : position -> list A) :
  (forall p n, node_at root p = Some n -> f (n, stack_at E root [ROOT_VALUE] p) = g p) ->
  flat_map f (visits E root) = flat_map g (preorder root).
Proof.
  intros H. rewrite visits_spec.
  assert (forall p, In p (preorder root) -> exists m, node_at root p = Some m) as HI by apply preorder_node_at.
  induction (preorder root) as [|p ps IH]; auto. cbn [map flat_map].
  destruct (HI p) as (m & Hm); [left; auto|]. rewrite (IH (fun q Hq => HI q (or_intror Hq))). f_equal. rewrite Hm. auto.
Qed.
Lemma collect_selectors_keys E root : dkeys (collect_selectors E root) = first_occurrences (selectors_of_lines root).
Proof.
  unfold collect_selectors, selectors_of_lines. rewrite collect_keys. f_equal. apply visits_flat.
  intros p n Hn. unfold line_sel, comment_at. rewrite Hn. reflexivity.
Qed.
Lemma stack_at_text' E n path p m : node_at n p = Some m -> (is_comment m = true -> n_lmf m = false) ->
  stack_path_to_str (stack_at E n path p) = stack_path_to_str path ++ path_at E n p.
Proof.
  intros H Hm. destruct (is_comment m) eqn:C; [|apply (stack_at_text E n path p m H C)].
  specialize (Hm eq_refl).
  destruct (rev p) as [|i q] eqn:R.
  - apply (f_equal (@rev _)) in R. rewrite rev_involutive in R. cbn in R. subst p. cbn [stack_at path_at]. rewrite app_nil_r. reflexivity.
  - apply (f_equal (@rev _)) in R. rewrite rev_involutive in R. cbn [rev] in R. subst p. remember (rev q) as p0 eqn:Ep0. clear Ep0 q.
    revert path n H. induction p0 as [|j p0 IH]; intros path n H.
    + cbn [app node_at stack_at path_at] in *. destruct (nth_error (n_children n) i) as [c|]; [|discriminate].
      injection H as ->. unfold own_stack, ta_path, own_text. rewrite Hm. rewrite app_nil_r.
      unfold is_empty_key. rewrite leaf_terminal.
      destruct (terminal m), (n_keyf m); cbn [andb orb negb]; try (rewrite app_nil_r; reflexivity); rewrite spts_cons; reflexivity.
    + cbn [app node_at stack_at path_at] in *. destruct (nth_error (n_children n) j) as [c|] eqn:Ej; [|discriminate].
      rewrite (IH _ c H), app_assoc. f_equal. unfold own_stack. apply nval_str_terminal_path.
      assert (is_comment c = false) as Hc.
      { destruct (p0 ++ [i]) as [|k p1] eqn:Ep; [destruct p0; discriminate|]. cbn [node_at] in H.
        destruct (nth_error (n_children c) k) eqn:Ek; [|discriminate]. eapply has_children_not_comment; eauto. }
      rewrite (nth_error_nth _ _ _ (p2v_nth _ _ _ Ej Hc)). reflexivity.
Qed.
Lemma visits_filter' E root (f : node -> bool) :
  (forall p n, node_at root p = Some n -> f n = true -> is_comment n = true -> n_lmf n = false) ->
  map (fun np => stack_path_to_str (snd np)) (filter (fun np : node * stack => f (fst np)) (visits E root))
  = map (path_at E root) (positions_where f root).
Proof.
  intros Hf. rewrite visits_spec. unfold positions_where.
  assert (forall p, In p (preorder root) -> exists m, node_at root p = Some m) as HI by apply preorder_node_at.
  induction (preorder root) as [|p ps IH]; cbn [map filter]; auto.
  destruct (HI p) as (m & Hm); [left; auto|]. cbn [fst]. rewrite Hm.
  assert (forall q, In q ps -> exists m, node_at root q = Some m) as HI' by (intros q Hq; apply HI; right; auto).
  destruct (f m) eqn:Ef; cbn [map]; [|auto]. f_equal; [|auto].
  cbn [snd]. rewrite (stack_at_text' E root _ p m Hm); [reflexivity|eauto].
Qed.
Lemma first_occurrences_nil l : first_occurrences l = [] <-> l = [].
Proof.
  split; [|intros ->; reflexivity]. intros H. destruct l as [|x l]; auto. exfalso.
  assert (In x (first_occurrences (x :: l))) by (apply first_occurrences_In; left; auto). rewrite H in *. contradiction.
Qed.
Lemma c29_paths E r sel : r_sel r = collect_selectors E (r_root r) -> comment_lines_not_elements (r_root r) ->
  fst (get_selector_paths sel r) =
  first_occurrences (map (path_at E (r_root r)) (positions_where (has_selector sel) (r_root r))).
Proof.
  intros HS HC. rewrite c08_selector_paths, HS. unfold collect_selectors. rewrite collect_get.
  rewrite <- (visits_filter' E (r_root r) (has_selector sel)); [|intros; eapply HC; eauto].
  destruct (filter _ (visits E (r_root r))); reflexivity.
Qed.
Lemma has_selector_spec sel n : has_selector sel n = true <-> selector_of (n_comment n) = Some sel.
Proof.
  unfold has_selector. destruct (selector_of (n_comment n)) as [s|]; [|split; discriminate].
  destruct (list_eq_dec ascii_dec s sel) as [->|N]; split; congruence.
Qed.
Lemma selectors_of_lines_In root sel : In sel (selectors_of_lines root) <->
  exists p, In p (preorder root) /\ selector_of (comment_at root p) = Some sel.
Proof.
  unfold selectors_of_lines. rewrite in_flat_map. split; intros (p & Hp & H); exists p; split; auto.
  - destruct (selector_of (comment_at root p)); [destruct H as [->|[]]; auto|destruct H].
  - rewrite H. left; auto.
Qed.
Lemma c29_contains E r sel : r_sel r = collect_selectors E (r_root r) ->
  (contains_selector sel r = true <-> exists p n, node_at (r_root r) p = Some n /\ selector_of (n_comment n) = Some sel).
Proof.
  intros HS. unfold contains_selector. rewrite dmem_In, HS, collect_selectors_keys, first_occurrences_In, selectors_of_lines_In.
  unfold comment_at. split.
  - intros (p & Hp & H). destruct (preorder_node_at _ _ Hp) as (n & Hn). rewrite Hn in H. eauto.
  - intros (p & n & Hn & H). exists p. rewrite Hn. split; auto. eapply node_at_preorder; eauto.
Qed.
Lemma c29_paths_nonempty E r sel : r_sel r = collect_selectors E (r_root r) ->
  (fst (get_selector_paths sel r) <> [] <-> contains_selector sel r = true).
Proof.
  intros HS. rewrite c08_selector_paths. unfold contains_selector, dmem. destruct (dget sel (r_sel r)) as [l|] eqn:D.
  - split; auto. intros _ H. apply (proj1 (first_occurrences_nil _)) in H. apply map_eq_nil in H. subst l.
    rewrite HS in D. unfold collect_selectors in D. rewrite collect_get in D. destruct (filter _ (visits E (r_root r))); discriminate.
  - split; [congruence|discriminate].
Qed.

(** * Putting a comment on a line *)
Lemma put_comment_spec c n : comment_changed c n (put_comment c n).
Proof.
  unfold comment_changed, put_comment, on_one_line, with_comment. destruct n as [v cm chs l ml k].
  unfold is_single_key, set_comment, set_children. cbn [n_value n_comment n_children n_lmf n_ml n_keyf].
  destruct k; cbn [andb]; auto. destruct chs as [|x [|y chs]]; auto. rewrite leaf_terminal. destruct (terminal x); auto.
  destruct x; reflexivity.
Qed.
Lemma put_comment_own c n : n_comment (put_comment c n) = c.
Proof. rewrite (put_comment_spec c n). destruct (on_one_line n); reflexivity. Qed.
Lemma put_comment_label c n : is_comment n = false -> ~ (n_value n = VSent /\ n_children n = []) -> label (put_comment c n) = label n.
Proof.
  intros HC HE. rewrite (put_comment_spec c n). unfold label. destruct n as [v cm chs l ml k]. cbn [n_value n_children n_comment] in *.
  destruct (on_one_line _) eqn:O; unfold with_comment; cbn [n_value n_lmf n_children n_ml n_keyf]; f_equal; rewrite HC.
  - unfold on_one_line in O. cbn [n_keyf n_children] in O. destruct chs as [|x [|y chs]]; try (rewrite andb_false_r in O; discriminate).
    unfold is_comment. cbn [n_value n_comment n_children map is_nil]. rewrite !andb_false_r. reflexivity.
  - unfold is_comment. cbn [n_value n_comment n_children]. destruct v; [|reflexivity]. destruct chs; [|rewrite !andb_false_r; reflexivity].
    exfalso. apply HE. split; reflexivity.
Qed.
(** an addressed line is neither a comment line nor emptied *)
Lemma addressed_not_comment root s q n : is_comment root = false -> addresses root s q -> node_at root q = Some n -> is_comment n = false.
Proof.
  intros HR HA Hn. destruct (addresses_lookup _ _ _ HA) as (m & Hm & HL). rewrite Hn in Hm. injection Hm as <-.
  destruct (is_comment n) eqn:C; auto. exfalso. apply (c05_never_comment root s n HR HL). apply is_comment_spec in C. exact C.
Qed.
Lemma no_emptied_at root s q n : no_emptied_element root -> addresses root s q -> node_at root q = Some n ->
  is_comment n = false /\ ~ (n_value n = VSent /\ n_children n = []).
Proof.
  intros (HR & HE) HA Hn. pose proof (addressed_not_comment _ _ _ _ HR HA Hn) as HC. split; auto. intros (H1 & H2).
  pose proof (HE _ _ Hn H1 H2) as H3. assert (is_comment n = true); [|congruence]. apply is_comment_spec. repeat split; auto.
Qed.
Lemma addresses_update root s q f : addresses root s q -> (forall m, node_at root q = Some m -> label (f m) = label m) ->
  addresses (update_at q f root) s q.
Proof. intros (st & H1 & H2) HL. exists st. split; auto. apply traverse_pos_update; auto. Qed.

Definition edited_at (E : env) (q : position) (c : str) (r r' : recipe) : Prop :=
  r' = mark_modified (rebuild_selectors E (with_root r (update_at q (put_comment c) (r_root r)))).
Lemma edited_facts E q c n r r' s : edited_at E q c r r' -> addresses (r_root r) s q -> node_at (r_root r) q = Some n ->
  changed_at (comment_changed c) q (r_root r) (r_root r')
  /\ same_but_tree r r' /\ r_mod r' = true /\ r_sel r' = collect_selectors E (r_root r')
  /\ (no_emptied_element (r_root r) -> addresses (r_root r') s q /\ exists n', node_at (r_root r') q = Some n' /\ n_comment n' = c).
Proof.
  intros -> HA Hn. cbn [mark_modified rebuild_selectors with_sel with_root r_root r_init r_schema r_vars r_sel r_mod].
  split; [apply (changed_at_update (comment_changed c) _ _ _ n Hn); apply put_comment_spec|].
  split; [repeat split|]. split; auto. split; auto. intros HE.
  destruct (no_emptied_at _ _ _ _ HE HA Hn) as (H1 & H2). split.
  - apply addresses_update; auto. intros m Hm. assert (m = n) as -> by congruence. apply put_comment_label; auto.
  - exists (put_comment c n). split; [apply node_at_update_same; auto|apply put_comment_own].
Qed.
Lemma add_selector_at E path sel mode r q n : addresses (r_root r) path q -> node_at (r_root r) q = Some n ->
  add_selector E path sel mode r =
  if negb (matched SELECTOR sel) then (Err EValue, r)
  else (Ok tt, mark_modified (rebuild_selectors E (with_root r (update_at q (put_comment (new_selector_comment (n_comment n) sel mode)) (r_root r))))).
Proof. intros (st & H1 & H2) Hn. unfold add_selector. rewrite H1, H2, Hn. reflexivity. Qed.
Lemma get_selector_at root s q n d r : r_root r = root -> addresses root s q -> node_at root q = Some n ->
  get_selector_at_path s d r = match selector_of (n_comment n) with
    | Some x => Ok x
    | None => match d with Some d => if matched SELECTOR d then Ok d else Err EValue | None => Err EKey end
    end
  /\ contains_selector_at_path s r = Ok (is_some (selector_of (n_comment n))).
Proof.
  intros <- (st & H1 & H2) Hn. unfold get_selector_at_path, contains_selector_at_path, traverse. rewrite H1. unfold bind. rewrite H2, Hn.
  rewrite search_selector, found_selector. split; reflexivity.
Qed.
Lemma selector_of_hash sel b t : bracketed sel b -> (forall x y, t = x ++ cRB :: y -> In cNL x) -> selector_of ($"# " ++ sel ++ t) = Some sel.
Proof.
  intros (-> & Hb) Ht. rewrite selector_of_spec.
  change ($"[" ++ b ++ $"]") with (cLB :: b ++ [cRB]).
  replace ($"# " ++ (cLB :: b ++ [cRB]) ++ t) with ($"# " ++ cLB :: b ++ cRB :: t).
  2:{ f_equal. change ((cLB :: b ++ [cRB]) ++ t) with (cLB :: (b ++ [cRB]) ++ t). rewrite <- app_assoc. reflexivity. }
  apply sel_text_split; auto. vm_compute. intros [H|[H|H]]; try discriminate. contradiction.
Qed.
Lemma bracketed_matched sel b : bracketed sel b -> matched SELECTOR sel = true.
Proof. intros (-> & Hb). apply matched_selector. exists b, []. split; auto. Qed.
Lemma reported_after E path q c sel n r r' : no_emptied_element (r_root r) -> edited_at E q c r r' -> addresses (r_root r) path q ->
  node_at (r_root r) q = Some n -> selector_of c = Some sel ->
  get_selector_at_path path None r' = Ok sel /\ contains_selector_at_path path r' = Ok true /\ contains_selector sel r' = true.
Proof.
  intros HE HD HA Hn Hc. destruct (edited_facts _ _ _ _ _ _ _ HD HA Hn) as (_ & _ & _ & HS & H). destruct (H HE) as (HA' & n' & Hn' & Hc').
  destruct (get_selector_at _ _ _ _ None r' eq_refl HA' Hn') as (-> & ->). rewrite Hc', Hc. split; auto. split; auto.
  apply (c29_contains E); auto. exists q, n'. rewrite Hc'. auto.
Qed.
Lemma c23 E path sel b r q n : no_emptied_element (r_root r) -> bracketed sel b ->
  addresses (r_root r) path q -> node_at (r_root r) q = Some n ->
  exists r', add_selector E path sel SMReplace r = (Ok tt, r')
  /\ changed_at (comment_changed ($"# " ++ sel)) q (r_root r) (r_root r') /\ same_but_tree r r'
  /\ get_selector_at_path path None r' = Ok sel /\ contains_selector_at_path path r' = Ok true
  /\ contains_selector sel r' = true.
Proof.
  intros HE HB HA Hn. rewrite (add_selector_at E path sel SMReplace r q n HA Hn), (bracketed_matched _ _ HB). cbn [negb].
  assert (new_selector_comment (n_comment n) sel SMReplace = $"# " ++ sel) as HC by (unfold new_selector_comment; rewrite orb_true_r; reflexivity).
  rewrite HC. eexists. split; [reflexivity|].
  assert (edited_at E q ($"# " ++ sel) r (mark_modified (rebuild_selectors E (with_root r (update_at q (put_comment ($"# " ++ sel)) (r_root r)))))) as HD by reflexivity.
  destruct (edited_facts _ _ _ _ _ _ _ HD HA Hn) as (H1 & H2 & _). split; [exact H1|]. split; [exact H2|].
  apply (reported_after E path q ($"# " ++ sel) sel n r); auto.
  pose proof (selector_of_hash sel b [] HB) as HX. rewrite app_nil_r in HX. apply HX. intros [|x xs] y H; discriminate.
Qed.
Lemma add_selector_rejects E path sel mode r :
  (forall b c, sel = $"[" ++ b ++ $"]" ++ c -> In cNL b) -> fst (add_selector E path sel mode r) <> Ok tt /\ snd (add_selector E path sel mode r) = r.
Proof.
  intros H. assert (matched SELECTOR sel = false) as HM.
  { destruct (matched SELECTOR sel) eqn:M; auto. apply matched_selector in M as (b & c & -> & Hb). exfalso. apply Hb. eapply H. reflexivity. }
  unfold add_selector. rewrite HM. cbn [negb]. destruct (str_to_stack_path path) as [st|]; [|split; [discriminate|reflexivity]].
  destruct (traverse_pos (r_root r) st) as [p|]; [|split; [discriminate|reflexivity]]. destruct (node_at (r_root r) p); split; try discriminate; reflexivity.
Qed.
Lemma missing_path root path st : lookup root path = None -> str_to_stack_path path = Ok st -> traverse_pos root st = None.
Proof.
  unfold lookup, traverse. intros H HS. rewrite HS in H. destruct (traverse_pos root st) as [p|] eqn:T; auto.
  destruct (traverse_pos_some _ _ _ T) as (m & Hm). congruence.
Qed.
Lemma path_nonempty_ok s : s <> [] -> exists st, str_to_stack_path s = Ok st.
Proof. apply str_to_stack_path_ok. Qed.
Lemma c23_missing E path sel mode r : path <> [] -> lookup (r_root r) path = None -> add_selector E path sel mode r = (Err EKey, r).
Proof.
  intros HP HL. destruct (path_nonempty_ok _ HP) as (st & HS). unfold add_selector. rewrite HS, (missing_path _ _ _ HL HS). reflexivity.
Qed.

(** * C24 *)
Lemma replace_first_at c new a s : ~ In c a -> replace_first [c] new (a ++ c :: s) = a ++ new ++ s.
Proof.
  induction a as [|x a IH]; intros H; cbn [app replace_first starts_with].
  - rewrite ceq_refl. reflexivity.
  - destruct (ceq c x) eqn:E; [apply ceq_eq in E as ->; exfalso; apply H; left; auto|]. cbn [andb]. f_equal. apply IH. intros HI; apply H; right; auto.
Qed.
Lemma extract_bracketed b : extract_selector ($"[" ++ b ++ $"]") = b.
Proof.
  unfold extract_selector. change ($"[" ++ b ++ $"]") with ([] ++ cLB :: (b ++ [cRB])).
  rewrite (replace_first_at cLB [] []) by (intros []). cbn [app]. rewrite rev_app_distr.
  change (rev [cRB] ++ rev b) with ([] ++ cRB :: rev b). rewrite (replace_first_at cRB [] []) by (intros []). cbn [app]. apply rev_involutive.
Qed.
Lemma combined old a b m : selector_of old = Some ($"[" ++ a ++ $"]") -> m <> SMReplace ->
  new_selector_comment old ($"[" ++ b ++ $"]") m = $"# [" ++ a ++ $" " ++ join_word m ++ $" " ++ b ++ $"]".
Proof.
  intros H Hm. unfold new_selector_comment. destruct old as [|c old]; [discriminate|]. rewrite search_selector, H, !extract_bracketed.
  destruct m; [reflexivity|reflexivity|congruence].
Qed.
Lemma kept old sel m : selector_of old = None -> old <> [] -> m <> SMReplace ->
  new_selector_comment old sel m = $"# " ++ sel ++ $" " ++ strip (replace_first [cHASH] [] old).
Proof.
  intros H Hn Hm. unfold new_selector_comment. destruct old as [|c old]; [congruence|]. rewrite search_selector, H.
  destruct m; [reflexivity|reflexivity|congruence].
Qed.
Lemma selector_of_bracketed s sel : selector_of s = Some sel -> exists b, bracketed sel b.
Proof.
  rewrite selector_of_spec. intros H. apply sel_text_shape in H as (x & b & y & _ & -> & Hb & _). exists b. split; auto.
Qed.
Lemma c24 E path sel b r q n a mode : no_emptied_element (r_root r) -> mode <> SMReplace ->
  addresses (r_root r) path q -> node_at (r_root r) q = Some n ->
  selector_of (n_comment n) = Some ($"[" ++ a ++ $"]") -> bracketed sel b ->
  let s' := $"[" ++ a ++ $" " ++ join_word mode ++ $" " ++ b ++ $"]" in
  exists r', add_selector E path sel mode r = (Ok tt, r')
  /\ changed_at (comment_changed ($"# " ++ s')) q (r_root r) (r_root r') /\ same_but_tree r r'
  /\ get_selector_at_path path None r' = Ok s' /\ contains_selector s' r' = true.
Proof.
  intros HE Hm HA Hn HO HB s'. rewrite (add_selector_at E path sel mode r q n HA Hn), (bracketed_matched _ _ HB). cbn [negb].
  assert (new_selector_comment (n_comment n) sel mode = $"# " ++ s') as HC.
  { destruct HB as (-> & _). rewrite (combined _ a b mode HO Hm). reflexivity. }
  rewrite HC. eexists. split; [reflexivity|].
  assert (edited_at E q ($"# " ++ s') r (mark_modified (rebuild_selectors E (with_root r (update_at q (put_comment ($"# " ++ s')) (r_root r)))))) as HD by reflexivity.
  destruct (edited_facts _ _ _ _ _ _ _ HD HA Hn) as (H1 & H2 & _). split; [exact H1|]. split; [exact H2|].
  assert (selector_of ($"# " ++ s') = Some s') as HS.
  { pose proof (selector_of_hash s' (a ++ $" " ++ join_word mode ++ $" " ++ b) []) as HX. rewrite app_nil_r in HX. apply HX.
    - split; [unfold s'; rewrite <- !app_assoc; reflexivity|].
      destruct (selector_of_bracketed _ _ HO) as (a' & Ha & Hna). apply (f_equal extract_selector) in Ha. rewrite !extract_bracketed in Ha. subst a'.
      destruct HB as (_ & Hb). rewrite !in_app_iff. intros [H|[H|[H|[H|H]]]]; auto.
      + revert H. vm_compute. intuition discriminate.
      + destruct mode; revert H; vm_compute; intuition discriminate.
      + revert H. vm_compute. intuition discriminate.
    - intros [|x xs] y H; discriminate. }
  destruct (reported_after E path q _ _ n r _ HE HD HA Hn HS) as (G1 & _ & G2). split; auto.
Qed.
Lemma c24_plain E path sel b r q n mode : no_emptied_element (r_root r) -> mode <> SMReplace ->
  addresses (r_root r) path q -> node_at (r_root r) q = Some n ->
  n_comment n <> [] -> ~ In cRB (n_comment n) -> bracketed sel b ->
  exists r', add_selector E path sel mode r = (Ok tt, r')
  /\ changed_at (comment_changed ($"# " ++ sel ++ $" " ++ strip (replace_first [cHASH] [] (n_comment n)))) q (r_root r) (r_root r')
  /\ same_but_tree r r' /\ get_selector_at_path path None r' = Ok sel /\ contains_selector sel r' = true.
Proof.
  intros HE Hm HA Hn Hne HR HB. rewrite (add_selector_at E path sel mode r q n HA Hn), (bracketed_matched _ _ HB). cbn [negb].
  assert (selector_of (n_comment n) = None) as HO.
  { apply selector_of_none. intros x y z H. exfalso. apply HR. rewrite H, !in_app_iff. right. right. right. left. left. reflexivity. }
  set (rest := $" " ++ strip (replace_first [cHASH] [] (n_comment n))).
  assert (new_selector_comment (n_comment n) sel mode = $"# " ++ sel ++ rest) as HC by (rewrite (kept _ sel mode HO Hne Hm); reflexivity).
  rewrite HC. eexists. split; [reflexivity|].
  assert (edited_at E q ($"# " ++ sel ++ rest) r (mark_modified (rebuild_selectors E (with_root r (update_at q (put_comment ($"# " ++ sel ++ rest)) (r_root r)))))) as HD by reflexivity.
  destruct (edited_facts _ _ _ _ _ _ _ HD HA Hn) as (H1 & H2 & _). split; [exact H1|]. split; [exact H2|].
  assert (selector_of ($"# " ++ sel ++ rest) = Some sel) as HS.
  { apply (selector_of_hash sel b rest HB). intros x y H. exfalso. apply HR.
    assert (In cRB rest) as HI by (rewrite H, in_app_iff; right; left; auto).
    unfold rest in HI. destruct HI as [HI|HI]; [discriminate|].
    assert (forall s, In cRB (lstrip s) -> In cRB s) as HL.
    { clear. induction s as [|z s IH]; cbn [lstrip]; auto. destruct (is_space z); intros H; [right; auto|exact H]. }
    unfold strip in HI. apply HL in HI. unfold rstrip in HI. rewrite <- in_rev in HI. apply HL in HI. rewrite <- in_rev in HI.
    revert HI. clear. generalize (n_comment n) as s. induction s as [|z s IH]; cbn [replace_first starts_with]; auto.
    destruct (ceq cHASH z) eqn:E; cbn [andb app length skipn]; [intros H; right; exact H|]. intros [H|H]; [left; auto|right; auto]. }
  destruct (reported_after E path q _ _ n r _ HE HD HA Hn HS) as (G1 & _ & G2). split; [exact G1|exact G2].
Qed.
