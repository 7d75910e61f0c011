(** Proofs about parsed documents (C88, C89). *)
From Verif Require Export HistProofs LayoutProofs.
From Verif Require Import WellSpec.

(** * Tree predicates and in-place changes *)
Lemma in_map_nth {A} i (f : A -> A) l x : In x (map_nth i f l) -> In x l \/ exists c, nth_error l i = Some c /\ x = f c.
Proof.
  revert i. induction l as [|y l IH]; intros [|i]; cbn [map_nth nth_error In]; auto.
  - intros [<-|H]; [right; exists y; auto|auto].
  - intros [<-|H]; [auto|]. apply IH in H as [H|H]; auto.
Qed.
Lemma proper_update p f : forall n, proper_tree n = true -> (forall m, node_at n p = Some m -> proper_tree (f m) = true) ->
  proper_tree (update_at p f n) = true.
Proof.
  induction p as [|i p IH]; intros n Hn Hf; [apply (Hf n); reflexivity|].
  destruct n as [v c chs l ml k]. change (proper_tree (Nd v c (map_nth i (update_at p f) chs) l ml k) = true).
  cbn [proper_tree] in Hn |- *. apply andb_true_iff in Hn as (Hv & Hc). rewrite Hv. cbn [andb].
  rewrite forallb_forall in *. intros x Hx. apply in_map_nth in Hx as [Hx|(y & Hy & ->)]; auto.
  apply IH; [apply Hc; eapply nth_error_In; eauto|]. intros m Hm. apply Hf. cbn [node_at n_children]. rewrite Hy. exact Hm.
Qed.
Lemma proper_set l n : proper_tree n = true -> forallb proper_tree l = true -> proper_tree (set_children l n) = true.
Proof.
  destruct n as [v c chs lm ml k]. cbn [proper_tree set_children]. intros H ->. apply andb_true_iff in H as (-> & _). reflexivity.
Qed.
Lemma proper_children n : proper_tree n = true -> forallb proper_tree (n_children n) = true.
Proof. destruct n as [v c chs lm ml k]. cbn [proper_tree n_children]. intros H. apply andb_true_iff in H as (_ & H). exact H. Qed.
Lemma proper_nd v c chs l ml k : (match v with VSent => true | VJ j => proper_value j end) = true -> forallb proper_tree chs = true ->
  proper_tree (Nd v c chs l ml k) = true.
Proof. intros H1 H2. cbn [proper_tree]. rewrite H1, H2. reflexivity. Qed.

(** * Reading a line *)
Lemma markers_proper : forall j subs, proper_value j = true -> proper_value (fst (recursive_sub_markers j subs)) = true.
Proof.
  fix IH 1. intros [p|l|d] subs H.
  - destruct p; cbn [recursive_sub_markers]; try reflexivity. destruct (substitute_markers_mut _ _). reflexivity.
  - cbn [recursive_sub_markers].
    match goal with |- context[?g l subs] => set (go := g) end.
    assert (forallb proper_value (fst (go l subs)) = true) as HG.
    { cbn [proper_value] in H. revert subs H. induction l as [|x l IHl]; intros subs H; [reflexivity|].
      cbn [forallb] in H. apply andb_true_iff in H as (Hx & Hl). pose proof (IH x subs Hx) as H1.
      change (go (x :: l) subs) with (let '(y, subs1) := recursive_sub_markers x subs in let '(ys, subs2) := go l subs1 in (y :: ys, subs2)).
      destruct (recursive_sub_markers x subs) as [y s1]. specialize (IHl s1 Hl). destruct (go l s1) as [ys s2]. cbn [fst forallb] in *. rewrite H1, IHl. reflexivity. }
    destruct (go l subs) as [l' s']. exact HG.
  - cbn [recursive_sub_markers].
    match goal with |- context[?g d subs] => set (go := g) end.
    assert (map fst (fst (go d subs)) = map fst d /\ forallb (fun kv => proper_value (snd kv)) (fst (go d subs)) = true) as (HK & HG).
    { cbn [proper_value] in H. apply andb_true_iff in H as (_ & H). revert subs H. induction d as [|(k & x) d IHd]; intros subs H; [split; reflexivity|].
      cbn [forallb snd] in H. apply andb_true_iff in H as (Hx & Hl). pose proof (IH x subs Hx) as H1.
      change (go ((k, x) :: d) subs) with (let '(y, subs1) := recursive_sub_markers x subs in let '(ys, subs2) := go d subs1 in ((k, y) :: ys, subs2)).
      destruct (recursive_sub_markers x subs) as [y s1]. specialize (IHd s1 Hl). destruct (go d s1) as [ys s2]. cbn [fst snd map forallb] in *.
      destruct IHd as (-> & ->). rewrite H1. split; reflexivity. }
    destruct (go d subs) as [d' s']. cbn [fst] in *. cbn [proper_value] in H |- *. apply andb_true_iff in H as (H & _).
    apply andb_true_iff. split; [|exact HG].
    assert (forall a b : list (prim * json), map fst a = map fst b -> distinct_keys b = true -> distinct_keys a = true) as HD.
    { clear. intros a. induction a as [|(k & x) a IHa]; intros [|(k' & x') b]; cbn [map fst]; try discriminate; auto.
      intros [= -> HM] HB. cbn [distinct_keys] in *. apply andb_true_iff in HB as (H1 & H2). rewrite (IHa b HM H2), andb_true_r.
      rewrite <- H1. f_equal. clear - HM. revert b HM. induction a as [|(y & u) a IHa]; intros [|(y' & u') b]; cbn [map fst existsb]; try discriminate; auto.
      intros [= -> HM]. rewrite (IHa b HM). reflexivity. }
    apply (HD d' d); auto.
Qed.
Lemma parse_yaml_proper E s j : reads_proper E -> parse_yaml E s None = Ok j -> proper_value j = true.
Proof.
  intros HE. unfold parse_yaml, sub_jinja. cbv zeta.
  assert (forall y, ybind y (fun j0 : json => YOk j0) = y) as HB by (intros []; reflexivity).
  destruct (yload E s) as [j0| |] eqn:Y; cbn [ybind].
  - intros [= <-]. apply (HE _ _ Y).
  - destruct (yload E (quote_special_strings s MNone)) as [j0| |] eqn:Y2; cbn [ybind].
    + intros [= <-]. apply (HE _ _ Y2).
    + destruct (yload E (re_sub JINJA_V0_SUB SUB_MARKER s)) as [j0| |] eqn:Y3; cbn [ybind yres_to_res]; try discriminate.
      intros [= <-]. apply markers_proper. apply (HE _ _ Y3).
    + destruct (yload E (re_sub JINJA_V0_SUB SUB_MARKER s)) as [j0| |] eqn:Y3; cbn [ybind yres_to_res]; try discriminate.
      intros [= <-]. apply markers_proper. apply (HE _ _ Y3).
  - destruct (yload E (re_sub JINJA_V0_SUB SUB_MARKER s)) as [j0| |] eqn:Y3; cbn [ybind yres_to_res]; try discriminate.
    intros [= <-]. apply markers_proper. apply (HE _ _ Y3).
Qed.
Lemma key_line_proper k v c : proper_value v = true -> proper_tree (key_line_node k v c) = true.
Proof.
  intros H. unfold key_line_node. apply proper_nd; [reflexivity|].
  destruct v as [[]|l|d]; cbn [forallb]; try reflexivity; rewrite proper_nd; auto.
Qed.
Lemma line_node_proper E s n : reads_proper E -> parse_line_node E s = Ok n -> proper_tree n = true.
Proof.
  intros HE. unfold parse_line_node. destruct (parse_yaml E s None) as [j|] eqn:P; [|discriminate]. cbn [bind].
  apply parse_yaml_proper in P; auto. destruct (starts_with [cHASH] s); [intros [= <-]; reflexivity|]. cbv zeta.
  destruct j as [p|[|[q|l|[|(k & v) d]] rest]|[|(k & v) d]]; try discriminate; intros [= <-].
  - apply proper_nd; auto.
  - apply proper_nd; auto.
  - cbn [proper_value forallb] in P. apply andb_true_iff in P as (P & _). apply proper_nd; auto.
  - cbn [proper_value forallb snd] in P. apply andb_true_iff in P as (P & _). apply andb_true_iff in P as (_ & P). apply andb_true_iff in P as (P & _).
    apply proper_nd; [reflexivity|]. cbn [forallb]. rewrite key_line_proper; auto.
  - cbn [proper_value forallb snd] in P. apply andb_true_iff in P as (_ & P). apply andb_true_iff in P as (P & _). apply key_line_proper; auto.
Qed.
Lemma texts_proper l : proper_value (JList (map (fun t => JStr t) l)) = true.
Proof. cbn [proper_value]. induction l as [|x l IH]; [reflexivity|exact IH]. Qed.
Lemma line_to_node_proper E line ls n u : reads_proper E -> line_to_node E line ls = Ok (n, u) -> proper_tree n = true.
Proof.
  intros HE. unfold line_to_node. destruct (parse_line_node E (strip line)) as [n0|] eqn:P; [|discriminate]. cbn [bind].
  apply line_node_proper in P; auto. destruct (re_match MULTILINE line) as [x|]; [|intros [= <- <-]; exact P]. cbv zeta.
  destruct (mlv_of_str _) as [ml|]; [|discriminate]. destruct (take_multiline _ _) as [vals|]; [|discriminate]. intros [= <- <-].
  apply proper_set; auto. cbn [forallb]. rewrite proper_nd; auto. apply texts_proper.
Qed.
Lemma place_inv st i n st' : place_node st i n = Ok st' ->
  exists P pn, node_at (p_root st) P = Some pn /\ p_root st' = update_at P (append_child n) (p_root st).
Proof.
  unfold place_node. destruct (if p_indent st <? i then _ else _) as [[|P stk]|]; cbn [bind]; try discriminate.
  destruct (node_at (p_root st) P) as [pn|] eqn:HP; [|discriminate]. intros [= <-]. exists P, pn. split; auto.
Qed.
Lemma loop_invariant E (I : node -> Prop) :
  (forall root P pn line ls n u, I root -> node_at root P = Some pn -> line_to_node E line ls = Ok (n, u) -> I (update_at P (append_child n) root)) ->
  forall ls st k st', I (p_root st) -> parse_loop E st k ls = Ok st' -> I (p_root st').
Proof.
  intros HI ls. induction ls as [|line ls IH]; intros st k st' H; cbn [parse_loop]; [intros [= <-]; exact H|].
  destruct k; [|apply IH; exact H]. destruct (is_nil (strip line)); [apply IH; exact H|].
  destruct (line_to_node E line ls) as [[n u]|] eqn:L; [|discriminate]. cbn [bind].
  destruct (place_node st (num_tab_spaces line) n) as [st1|] eqn:PL; [|discriminate]. cbn [bind]. apply IH.
  apply place_inv in PL as (P & pn & HP & ->). eapply HI; eauto.
Qed.
Lemma parse_invariant E (I : node -> Prop) : I (root_node []) ->
  (forall root P pn line ls n u, I root -> node_at root P = Some pn -> line_to_node E line ls = Ok (n, u) -> I (update_at P (append_child n) root)) ->
  forall text r, new_recipe E text = Ok r -> I (r_root r).
Proof.
  intros H0 HI text r. unfold new_recipe. destruct (parse_tree E text) as [root|] eqn:P; [|discriminate]. cbn [bind].
  destruct (detect_schema E root) as [sv|]; [|discriminate]. cbn [bind].
  destruct (init_vars E sv text root) as [vars|]; [|discriminate]. cbn [bind]. intros [= <-]. cbn [r_root].
  unfold parse_tree, parse_lines in P. destruct (parse_loop E init_pstate 0 _) as [st|] eqn:L; [|discriminate]. injection P as <-.
  revert L. apply (loop_invariant E I HI). exact H0.
Qed.
Lemma parsed_proper E text r : reads_proper E -> new_recipe E text = Ok r -> proper_tree (r_root r) = true.
Proof.
  intros HE. apply (parse_invariant E (fun n => proper_tree n = true)); [reflexivity|].
  intros root P pn line ls n u H HP HL. apply proper_update; auto. intros m Hm. unfold append_child.
  apply proper_set; [apply (proper_at _ _ _ H Hm)|]. rewrite forallb_app. cbn [forallb].
  rewrite (proper_children m (proper_at _ _ _ H Hm)), (line_to_node_proper E line ls n u HE HL). reflexivity.
Qed.
Lemma generate_proper E v l : reads_proper E -> generate_subtree E v = Ok l -> forallb proper_tree l = true.
Proof.
  intros HE. assert (forall t, (let! r := new_recipe E t in Ok (n_children (r_root r))) = Ok l -> forallb proper_tree l = true) as HN.
  { intros t. destruct (new_recipe E t) as [r|] eqn:N; [|discriminate]. cbn [bind]. intros [= <-].
    apply proper_children. apply (parsed_proper E t r HE N). }
  unfold generate_subtree. destruct v as [[]|jl|d]; try apply HN.
  destruct (existsb (ceq cNL) s); [|apply HN]. intros [= <-]. cbn [forallb]. rewrite proper_nd; auto. apply texts_proper.
Qed.

(** * Edits keep mappings proper *)
Lemma set_lmf_proper b n : proper_tree (set_lmf b n) = proper_tree n.
Proof. destruct n. reflexivity. Qed.
Lemma set_comment_proper b n : proper_tree (set_comment b n) = proper_tree n.
Proof. destruct n. reflexivity. Qed.
Lemma members_proper v l : forallb proper_tree l = true -> forallb proper_tree (as_list_members v l) = true.
Proof.
  intros H. unfold as_list_members. destruct (is_prim v).
  - rewrite forallb_forall in *. intros x Hx. apply in_map_iff in Hx as (y & <- & Hy). rewrite set_lmf_proper. auto.
  - cbn [forallb]. rewrite proper_nd; auto.
Qed.
Lemma forallb_sub {A} (f : A -> bool) l l' : (forall x, In x l' -> In x l) -> forallb f l = true -> forallb f l' = true.
Proof. intros H. rewrite !forallb_forall. auto. Qed.
Lemma firstn_in {A} i (l : list A) x : In x (firstn i l) -> In x l.
Proof. intros H. rewrite <- (firstn_skipn i l). apply in_or_app. auto. Qed.
Lemma skipn_in {A} i (l : list A) x : In x (skipn i l) -> In x l.
Proof. intros H. rewrite <- (firstn_skipn i l). apply in_or_app. auto. Qed.
Lemma remove_in {A} i (l : list A) x : In x (remove_nth i l) -> In x l.
Proof. unfold remove_nth. intros H. apply in_app_or in H as [H|H]; [eapply firstn_in|eapply skipn_in]; eauto. Qed.
Lemma insert_in {A} i (new l : list A) x : In x (insert_at i new l) -> In x new \/ In x l.
Proof.
  unfold insert_at. intros H. apply in_app_or in H as [H|H]; [right; eapply firstn_in; eauto|].
  apply in_app_or in H as [H|H]; [auto|right; eapply skipn_in; eauto].
Qed.
Lemma add_proper E root st v : reads_proper E -> proper_tree root = true -> proper_tree (snd (patch_add E root st v)) = true.
Proof.
  intros HE H. unfold patch_add. destruct (patch_add_find_target root st) as [t|]; [|exact H]. destruct (at_pos t) as [p|]; [|exact H].
  destruct (negb (is_valid_patch_node (node_at root p) (at_virt t))); [exact H|]. cbv zeta.
  set (value := if is_nil (at_create t) then v else JDict [(PStr (at_create t), v)]).
  destruct (generate_subtree E value) as [l|] eqn:G; [|exact H]. cbn [snd]. apply generate_proper in G; auto.
  set (new := if at_append t || _ then as_list_members value l else l).
  assert (forallb proper_tree new = true) as HN.
  { unfold new. destruct (at_append t || _); [apply members_proper|]; exact G. }
  apply proper_update; auto. intros m Hm. pose proof (proper_at _ _ _ H Hm) as PM. pose proof (proper_children m PM) as PC.
  destruct (at_phys t) as [i|].
  - apply proper_set; auto. rewrite forallb_forall in *. intros x Hx. apply insert_in in Hx as [Hx|Hx]; auto.
  - destruct (at_append t || negb (is_nil (at_create t))); apply proper_set; auto. rewrite forallb_app, PC, HN. reflexivity.
Qed.
Lemma remove_proper root st : proper_tree root = true -> proper_tree (snd (patch_remove root st)) = true.
Proof.
  intros H. destruct (fst (patch_remove root st)) as [[|]|e] eqn:F.
  - assert (patch_remove root st = (Ok true, snd (patch_remove root st))) as HP by (rewrite <- F; destruct (patch_remove root st); reflexivity).
    apply patch_remove_success in HP as (p & i & _ & _ & n & Hn & ->); auto. apply proper_update; auto. intros m Hm.
    pose proof (proper_at _ _ _ H Hm) as PM. apply proper_set; auto.
    apply (forallb_sub _ (n_children m)); [|apply proper_children; auto]. intros x. apply remove_in.
  - rewrite patch_remove_fail; auto. congruence.
  - rewrite patch_remove_fail; auto. congruence.
Qed.
Lemma replace_proper E root st v : reads_proper E -> proper_tree root = true -> proper_tree (snd (patch_replace E root st v)) = true.
Proof.
  intros HE H. unfold patch_replace. destruct (traverse_with_index root st) as [[[o virt] phys]|]; [|exact H].
  destruct o as [p|]; [|exact H]. destruct (negb (is_valid_patch_node (node_at root p) virt)); [exact H|].
  destruct (generate_subtree E v) as [l|] eqn:G; [|exact H]. apply generate_proper in G; auto.
  destruct phys as [i|]; cbv zeta; cbn [snd]; apply proper_update; auto; intros m Hm; pose proof (proper_at _ _ _ H Hm) as PM;
    pose proof (proper_children m PM) as PC; apply proper_set; auto.
  pose proof (members_proper v l G) as GM. rewrite forallb_forall in *. intros x Hx. apply remove_in, insert_in in Hx as [Hx|Hx]; auto.
Qed.
Lemma perform_proper E q root : reads_proper E -> proper_tree root = true -> proper_tree (snd (perform E q root)) = true.
Proof.
  intros HE H. unfold perform. destruct (str_to_stack_path (request_path q)) as [st|]; [|exact H].
  destruct q as [path v|path|path v|from path|from path|path v].
  - apply add_proper; auto.
  - apply remove_proper; auto.
  - apply replace_proper; auto.
  - unfold patch_move. destruct (get_value E root from None None) as [v|[]]; try exact H.
    destruct (patch_add_find_target root st) as [t|]; [|exact H]. destruct (negb (is_valid_patch_node _ _)); [exact H|].
    destruct (str_to_stack_path from) as [fs|]; [|exact H]. pose proof (remove_proper root fs H) as HR.
    destruct (patch_remove root fs) as [[[|]|e] root']; cbn [snd] in *; auto. apply add_proper; auto.
  - unfold patch_copy. destruct (get_value E root from None None) as [v|[]]; try exact H. apply add_proper; auto.
  - exact H.
Qed.
Lemma patch_root E p r : (exists q, asks p q /\ self_move q = false /\ r_root (snd (patch E p r)) = snd (perform E q (r_root r)))
  \/ snd (patch E p r) = r.
Proof.
  destruct (schema_valid p) eqn:V; [|right; rewrite patch_invalid; auto]. apply valid_asks in V as (q & Hq).
  destruct (self_move q) eqn:S; [right; rewrite (patch_asks E p q r Hq), S; reflexivity|].
  left. exists q. split; auto. split; auto. rewrite (patch_asks E p q r Hq), S. unfold finish.
  destruct (perform E q (r_root r)) as [[[|]|e] root']; cbn [fst snd]; try reflexivity. destruct (is_test q); reflexivity.
Qed.
Lemma put_comment_proper c n : proper_tree n = true -> proper_tree (put_comment c n) = true.
Proof.
  intros H. unfold put_comment. cbv zeta. destruct (is_single_key (set_comment c n)); [|rewrite set_comment_proper; exact H].
  apply proper_set; [rewrite set_comment_proper; exact H|].
  replace (n_children (set_comment c n)) with (n_children n) by (destruct n; reflexivity).
  apply proper_children in H. rewrite forallb_forall in *. intros x Hx. apply in_map_iff in Hx as (y & <- & Hy). rewrite set_comment_proper. auto.
Qed.
Lemma line_edit_root E e r : is_line_edit e = true -> r_root (after E e r) = r_root r
  \/ exists q n c s, addresses (r_root r) s q /\ node_at (r_root r) q = Some n /\ r_root (after E e r) = update_at q (put_comment c) (r_root r)
     /\ (c = [] \/ starts_with_hash c \/ exists sel, c = comment_without_selector (n_comment n) sel /\ search_text SELECTOR (n_comment n) = Some sel).
Proof.
  intros HL. destruct e as [p|k v|k|path sel mode|path|path cm]; try discriminate; cbn [after].
  - unfold add_selector. destruct (str_to_stack_path path) as [st|] eqn:S; [|auto]. destruct (traverse_pos (r_root r) st) as [q|] eqn:T; [|auto].
    destruct (node_at (r_root r) q) as [n|] eqn:N; [|auto]. destruct (negb (matched SELECTOR sel)); [auto|]. right.
    exists q, n, (new_selector_comment (n_comment n) sel mode), path. split; [exists st; auto|]. split; auto. split; [reflexivity|]. right. left.
    unfold new_selector_comment. cbv zeta. destruct (is_nil (n_comment n) || _); [eexists; reflexivity|].
    destruct (search_text SELECTOR (n_comment n)); eexists; reflexivity.
  - unfold remove_selector. destruct (str_to_stack_path path) as [st|] eqn:S; [|auto]. destruct (traverse_pos (r_root r) st) as [q|] eqn:T; [|auto].
    destruct (node_at (r_root r) q) as [n|] eqn:N; [|auto]. destruct (search_text SELECTOR (n_comment n)) as [sel|] eqn:SR; [|auto]. right.
    exists q, n, (comment_without_selector (n_comment n) sel), path. split; [exists st; auto|]. split; auto. split; [reflexivity|]. right. right.
    exists sel. auto.
  - unfold add_comment. destruct (is_nil (strip cm)) eqn:Z; [auto|]. destruct (matched SELECTOR (strip cm)); [auto|].
    destruct (str_to_stack_path path) as [st|] eqn:S; [|auto]. destruct (traverse_pos (r_root r) st) as [q|] eqn:T; [|auto].
    destruct (node_at (r_root r) q) as [n|] eqn:N; [|auto]. right.
    exists q, n, (new_comment (n_comment n) (strip cm)), path. split; [exists st; auto|]. split; auto. split; [reflexivity|].
    unfold new_comment. cbv zeta. destruct (match search_text SELECTOR (n_comment n) with Some _ => _ | None => _ end) as [|x t]; [auto|].
    right. left. destruct (ceq x cHASH) eqn:X; [apply ceq_eq in X as ->; exists t; reflexivity|eexists; reflexivity].
Qed.
Lemma after_proper E e r : reads_proper E -> proper_tree (r_root r) = true -> proper_tree (r_root (after E e r)) = true.
Proof.
  intros HE H. destruct (is_line_edit e) eqn:L.
  - destruct (line_edit_root E e r L) as [->|(q & n & c & s & _ & Hn & -> & _)]; auto. apply proper_update; auto.
    intros m Hm. apply put_comment_proper. apply (proper_at _ _ _ H Hm).
  - destruct e as [p|k v|k|path sel mode|path|path cm]; try discriminate; cbn [after].
    + destruct (patch_root E p r) as [(q & _ & _ & ->)| ->]; auto. apply perform_proper; auto.
    + exact H.
    + unfold del_variable. destruct (dmem k (r_vars r)); exact H.
Qed.
Lemma run_proper E h : forall r, reads_proper E -> proper_tree (r_root r) = true -> proper_tree (r_root (run E h r)) = true.
Proof. induction h as [|e h IH]; intros r HE H; [exact H|]. rewrite run_cons. apply IH; auto. apply after_proper; auto. Qed.
