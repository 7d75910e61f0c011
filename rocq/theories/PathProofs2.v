(** Proofs for C04, C06, C07, C08. *)
From Verif Require Export PathProofs.

(** * C04: erasing comment lines *)
Definition noncomment (c : node) : bool := negb (is_comment c).
Lemma erase_children n : n_children (erase_comment_lines n) = map erase_comment_lines (filter noncomment (n_children n)).
Proof.
  destruct n as [v c chs l ml k]. cbn [erase_comment_lines n_children].
  induction chs as [|x chs IH]; cbn [filter map]; auto.
  unfold noncomment at 1. destruct (is_comment x); cbn [negb map]; rewrite IH; reflexivity.
Qed.
Lemma erase_value n : n_value (erase_comment_lines n) = n_value n.
Proof. destruct n; reflexivity. Qed.
Lemma erase_comment n : n_comment (erase_comment_lines n) = n_comment n.
Proof. destruct n; reflexivity. Qed.
Lemma erase_lmf n : n_lmf (erase_comment_lines n) = n_lmf n.
Proof. destruct n; reflexivity. Qed.
Lemma erase_keyf n : n_keyf (erase_comment_lines n) = n_keyf n.
Proof. destruct n; reflexivity. Qed.

Lemma ehc_head n : elements_have_content n = true ->
  is_sent (n_value n) = false \/ n_children n = [] \/ exists c, In c (n_children n) /\ is_comment c = false.
Proof.
  destruct n as [v c chs l ml k]. cbn [elements_have_content n_children n_value]. rewrite andb_true_iff, !orb_true_iff.
  intros (H & _). destruct H as [[H|H]|H].
  - left. apply negb_true_iff; auto.
  - right; left. apply is_nil_true; auto.
  - right; right. apply existsb_exists in H as (x & Hx & Hc). exists x. split; auto. apply negb_true_iff; auto.
Qed.
Lemma ehc_child n i c : elements_have_content n = true -> nth_error (n_children n) i = Some c ->
  elements_have_content c = true.
Proof.
  destruct n as [v cm chs l ml k]. cbn [elements_have_content n_children]. rewrite andb_true_iff. intros (_ & H) Hi.
  revert i Hi; induction chs as [|x chs IH]; intros [|i] Hi; cbn in Hi; try discriminate;
    apply andb_prop in H as (H1 & H2).
  - congruence.
  - eapply IH; eauto.
Qed.
Lemma shc_head n : sections_have_content n = true ->
  n_children n = [] \/ exists c, In c (n_children n) /\ is_comment c = false.
Proof.
  destruct n as [v c chs l ml k]. cbn [sections_have_content n_children]. rewrite andb_true_iff, !orb_true_iff.
  intros (H & _). destruct H as [H|H].
  - left. apply is_nil_true; auto.
  - right. apply existsb_exists in H as (x & Hx & Hc). exists x. split; auto. apply negb_true_iff; auto.
Qed.
Lemma shc_child n i c : sections_have_content n = true -> nth_error (n_children n) i = Some c ->
  sections_have_content c = true.
Proof.
  destruct n as [v cm chs l ml k]. cbn [sections_have_content n_children]. rewrite andb_true_iff. intros (_ & H) Hi.
  revert i Hi; induction chs as [|x chs IH]; intros [|i] Hi; cbn in Hi; try discriminate;
    apply andb_prop in H as (H1 & H2).
  - congruence.
  - eapply IH; eauto.
Qed.
Lemma erase_nil_iff n : (n_children n = [] \/ exists c, In c (n_children n) /\ is_comment c = false) ->
  is_nil (n_children (erase_comment_lines n)) = is_nil (n_children n).
Proof.
  intros H. rewrite erase_children. destruct H as [->|(c & Hc & Hn)]; auto.
  assert (In c (filter noncomment (n_children n))) as HI.
  { apply filter_In. split; auto. unfold noncomment. rewrite Hn. auto. }
  destruct (filter noncomment (n_children n)); [destruct HI|].
  destruct (n_children n); [destruct Hc|]. reflexivity.
Qed.
Lemma erase_is_comment n : elements_have_content n = true -> is_comment (erase_comment_lines n) = is_comment n.
Proof.
  intros H. unfold is_comment. rewrite erase_value, erase_comment.
  destruct (ehc_head n H) as [->|H']; [reflexivity|]. rewrite (erase_nil_iff n H'). reflexivity.
Qed.
Lemma shc_erase_is_comment n : sections_have_content n = true -> is_comment (erase_comment_lines n) = is_comment n.
Proof.
  intros H. unfold is_comment. rewrite erase_value, erase_comment.
  rewrite (erase_nil_iff n (shc_head n H)). reflexivity.
Qed.

(** the node reached by a component, ignoring its index *)
Definition step_node (n : node) (x : str) : option node := option_map snd (step_child n x).
Lemma filter_erase l : (forall c, In c l -> is_comment (erase_comment_lines c) = is_comment c) ->
  filter noncomment (map erase_comment_lines (filter noncomment l)) = map erase_comment_lines (filter noncomment l).
Proof.
  induction l as [|x l IH]; cbn [filter map]; auto. intros H.
  destruct (noncomment x) eqn:E.
  - cbn [map filter]. assert (noncomment (erase_comment_lines x) = true) as ->
      by (unfold noncomment in *; rewrite H by (left; auto); auto).
    f_equal. apply IH. intros c Hc. apply H. right; auto.
  - apply IH. intros c Hc. apply H. right; auto.
Qed.
Lemma find_child_erase part l i j :
  option_map snd (find_child part i (map erase_comment_lines (filter noncomment l)))
  = option_map erase_comment_lines (option_map snd (find_child part j l)).
Proof.
  revert i j; induction l as [|x l IH]; intros i j; cbn [filter map find_child]; auto.
  destruct (noncomment x) eqn:E; unfold noncomment in E; [apply negb_true_iff in E|apply negb_false_iff in E].
  2:{ apply is_comment_spec in E as (Hv & _). rewrite Hv. cbn [val_is]. apply IH. }
  cbn [map find_child]. rewrite erase_value. destruct (val_is (n_value x) part); auto.
Qed.
Lemma step_node_erase n x : elements_have_content n = true ->
  step_node (erase_comment_lines n) x = option_map erase_comment_lines (step_node n x).
Proof.
  intros H. unfold step_node. destruct (isdigit x) eqn:D.
  - rewrite !step_child_index by auto. rewrite erase_children.
    change (fun c => negb (is_comment c)) with noncomment.
    rewrite filter_erase, nth_error_map.
    + destruct (nth_error (filter noncomment (n_children n)) (int_of x)) as [c|]; cbn [option_map]; auto.
      rewrite erase_lmf. destruct (n_lmf c); auto.
    + intros c Hc. apply erase_is_comment. apply In_nth_error in Hc as (i & Hi). eapply ehc_child; eauto.
  - unfold step_child. rewrite D, erase_children. apply find_child_erase.
Qed.
Fixpoint walk (n : node) (parts : list str) : option node :=
  match parts with
  | [] => Some n
  | x :: parts' => match step_node n x with Some c => walk c parts' | None => None end
  end.
Lemma walk_traverse n parts :
  walk n parts = match traverse_recurse n parts with Some p => node_at n p | None => None end.
Proof.
  revert n; induction parts as [|x parts IH]; intros n; cbn [walk traverse_recurse]; auto.
  unfold step_node. destruct (step_child n x) as [[i c]|] eqn:E; cbn [option_map snd]; auto.
  rewrite IH. destruct (traverse_recurse c parts); cbn [option_map node_at]; auto.
  rewrite (step_child_nth _ _ _ _ E). reflexivity.
Qed.
Lemma walk_erase n parts : elements_have_content n = true ->
  walk (erase_comment_lines n) parts = option_map erase_comment_lines (walk n parts).
Proof.
  revert n; induction parts as [|x parts IH]; intros n H; cbn [walk]; auto.
  rewrite step_node_erase by auto. unfold step_node.
  destruct (step_child n x) as [[i c]|] eqn:E; cbn [option_map snd]; auto.
  apply IH. apply step_child_nth in E. eapply ehc_child; eauto.
Qed.
Lemma traverse_walk root st :
  traverse root st = match rev st with
                     | [] => None
                     | [p] => if str_eqb p ROOT_VALUE then Some root else None
                     | _ :: parts => walk root parts
                     end.
Proof.
  unfold traverse, traverse_pos. destruct (rev st) as [|a [|b l]]; auto.
  - destruct (str_eqb a ROOT_VALUE); auto.
  - rewrite walk_traverse. reflexivity.
Qed.
Lemma traverse_erase root st : elements_have_content root = true ->
  traverse (erase_comment_lines root) st = option_map erase_comment_lines (traverse root st).
Proof.
  intros H. rewrite !traverse_walk. destruct (rev st) as [|a [|b l]]; auto.
  - destruct (str_eqb a ROOT_VALUE); auto.
  - apply walk_erase; auto.
Qed.
Lemma contains_value_erase root path : elements_have_content root = true ->
  contains_value (erase_comment_lines root) path = contains_value root path.
Proof.
  intros H. unfold contains_value. destruct (str_to_stack_path path) as [st|e]; cbn [bind]; auto.
  rewrite traverse_erase by auto. destruct (traverse root st); reflexivity.
Qed.

(** list of value paths as a direct recursion *)
Fixpoint lp (E : env) (n : node) : list str :=
  match n with
  | Nd v c chs l ml k =>
      (if terminal (Nd v c chs l ml k) then [[]] else []) ++
      (fix go (before : list node) (cs : list node) : list str :=
         match cs with
         | [] => []
         | x :: cs' => map (app (own_text E before x)) (lp E x) ++ go (before ++ [x]) cs'
         end) [] chs
  end.
Definition lp_list (E : env) : list node -> list node -> list str :=
  fix go (before cs : list node) : list str :=
  match cs with
  | [] => []
  | x :: cs' => map (app (own_text E before x)) (lp E x) ++ go (before ++ [x]) cs'
  end.
Lemma lp_list_cons E before x cs :
  lp_list E before (x :: cs) = map (app (own_text E before x)) (lp E x) ++ lp_list E (before ++ [x]) cs.
Proof. reflexivity. Qed.
Lemma lp_eq E n : lp E n = (if terminal n then [[]] else []) ++ lp_list E [] (n_children n).
Proof.
  destruct n; reflexivity.
Qed.
Lemma filter_map_cons (n : node) (f : node -> bool) i c l : nth_error (n_children n) i = Some c ->
  filter (fun p => match node_at n p with Some m => f m | None => false end) (map (cons i) l)
  = map (cons i) (filter (fun p => match node_at c p with Some m => f m | None => false end) l).
Proof.
  intros Hi. induction l as [|p l IH]; cbn [map filter]; auto.
  cbn [node_at]. rewrite Hi.
  destruct (match node_at c p with Some m => f m | None => false end); cbn [map]; rewrite IH; auto.
Qed.
Lemma lp_positions E n : map (path_at E n) (positions_where terminal n) = lp E n.
Proof.
  induction n as [v cm chs l ml k IH] using node_ind'.
  rewrite lp_eq. unfold positions_where. rewrite preorder_eq. cbn [n_children filter node_at].
  set (n := Nd v cm chs l ml k).
  assert (forall cs i, (forall j c, nth_error cs j = Some c -> nth_error chs (i + j) = Some c) ->
            i + length cs = length chs -> 
            Forall (fun c => map (path_at E c) (positions_where terminal c) = lp E c) cs ->
            map (path_at E n)
              (filter (fun p => match node_at n p with Some m => terminal m | None => false end) (preorder_list i cs))
            = lp_list E (firstn i chs) cs) as Hgen.
  { induction cs as [|c cs IHc]; intros i Hn Hl HF; [reflexivity|]. cbn [preorder_list]. rewrite lp_list_cons.
    inversion HF as [|? ? Hc HF']; subst. cbn [length] in Hl.
    assert (nth_error chs i = Some c) as Hi. { specialize (Hn 0 c). rewrite Nat.add_0_r in Hn. auto. }
    rewrite filter_app, map_app. f_equal.
    - rewrite (filter_map_cons n terminal i c) by exact Hi. rewrite map_map, <- Hc, map_map.
      apply map_ext. intros p. cbn [path_at n n_children]. rewrite Hi. reflexivity.
    - etransitivity; [apply (IHc (S i)); auto; try lia|].
      + intros j d Hj. rewrite Nat.add_succ_l, <- Nat.add_succ_r. apply Hn; auto.
      + f_equal. clear -Hi. revert i Hi. induction chs as [|x chs IH]; intros [|i] Hi; cbn in Hi; try discriminate.
        * injection Hi as ->. reflexivity.
        * cbn [firstn app]. f_equal. apply IH; auto. }
  pose proof (Hgen chs 0 (fun j c H => H) eq_refl IH) as G. cbn [firstn] in G.
  destruct (terminal n); cbn [map app]; rewrite G; reflexivity.
Qed.
Lemma own_text_erase E before c : is_comment c = false -> sections_have_content c = true ->
  Forall (fun b => is_comment (erase_comment_lines b) = is_comment b) before ->
  own_text E (map erase_comment_lines (filter noncomment before)) (erase_comment_lines c) = own_text E before c.
Proof.
  intros Hc Hs Hb. unfold own_text. rewrite erase_lmf, erase_keyf, erase_value.
  assert (terminal (erase_comment_lines c) = terminal c) as ->.
  { unfold terminal. rewrite (erase_nil_iff c (shc_head c Hs)), (shc_erase_is_comment c Hs). reflexivity. }
  assert (count_elements (map erase_comment_lines (filter noncomment before)) = count_elements before) as ->; auto.
  unfold count_elements. change (fun c => negb (is_comment c)) with noncomment.
  rewrite filter_erase; [apply map_length|]. rewrite Forall_forall in Hb. auto.
Qed.
Lemma lp_erase E n : sections_have_content n = true -> lp E (erase_comment_lines n) = lp E n.
Proof.
  induction n as [v cm chs l ml k IH] using node_ind'. intros H.
  rewrite !lp_eq, erase_children. cbn [n_children].
  assert (terminal (erase_comment_lines (Nd v cm chs l ml k)) = terminal (Nd v cm chs l ml k)) as ->.
  { unfold terminal. rewrite (erase_nil_iff _ (shc_head _ H)), (shc_erase_is_comment _ H). reflexivity. }
  f_equal.
  assert (forall i c, nth_error chs i = Some c -> sections_have_content c = true) as HS
    by (intros i c; apply (shc_child _ i c H)).
  clear H. 
  assert (forall cs before, Forall (fun n => sections_have_content n = true ->
             lp E (erase_comment_lines n) = lp E n) cs ->
             (forall c, In c cs -> sections_have_content c = true) ->
             Forall (fun b => is_comment (erase_comment_lines b) = is_comment b) before ->
             lp_list E (map erase_comment_lines (filter noncomment before))
                       (map erase_comment_lines (filter noncomment cs)) = lp_list E before cs) as Hgen.
  { induction cs as [|c cs IHc]; intros before HF HSc Hb; [reflexivity|]. rewrite lp_list_cons. cbn [filter map].
    inversion HF as [|? ? Hc HF']; subst.
    assert (sections_have_content c = true) as Sc by (apply HSc; left; auto).
    assert (Forall (fun b => is_comment (erase_comment_lines b) = is_comment b) (before ++ [c])) as Hb'.
    { apply Forall_app; split; auto. constructor; auto. apply shc_erase_is_comment; auto. }
    specialize (IHc (before ++ [c]) HF' (fun d Hd => HSc d (or_intror Hd)) Hb').
    rewrite filter_app in IHc. cbn [filter] in IHc.
    destruct (noncomment c) eqn:Ec'; unfold noncomment in Ec'; [apply negb_true_iff in Ec'|apply negb_false_iff in Ec'];
      rename Ec' into Ec.
    2:{ rewrite app_nil_r in IHc. rewrite IHc.
      pose proof Ec as Ec'. apply is_comment_spec in Ec' as (_ & _ & Hch).
      rewrite (lp_eq E c), Hch. unfold terminal. rewrite Ec, Hch. reflexivity. }
    rewrite map_app in IHc. cbn [map] in *. rewrite lp_list_cons, IHc, (Hc Sc), own_text_erase; auto. }
  apply (Hgen chs []); auto. intros c Hc. apply In_nth_error in Hc as (i & Hi). eauto.
Qed.
Lemma list_value_paths_erase E root : sections_have_content root = true ->
  list_value_paths E (erase_comment_lines root) = list_value_paths E root.
Proof. intros H. rewrite !list_value_paths_spec, !lp_positions. apply lp_erase; auto. Qed.

(** * C06 *)
Lemma parse_yaml_errors E s p e : parse_yaml E s p = Err e -> e = EYaml.
Proof.
  unfold parse_yaml.
  cbv zeta. match goal with |- match ?x with _ => _ end = _ -> _ => destruct x end; try discriminate;
    destruct (ybind (yload E (re_sub JINJA_V0_SUB SUB_MARKER s)) _); cbn; congruence.
Qed.
Lemma normalize_multiline_errors v ml e : normalize_multiline v ml = Err e -> e = EType.
Proof. unfold normalize_multiline. destruct (nval_lines v); congruence. Qed.
Lemma yres_to_res_errors r e : yres_to_res r = Err e -> e = EYaml.
Proof. destruct r; cbn; congruence. Qed.
Lemma bind_err {A B} (r : res A) (f : A -> res B) e :
  bind r f = Err e -> r = Err e \/ exists a, r = Ok a /\ f a = Err e.
Proof. destruct r; cbn; intros H; [eauto|left; congruence]. Qed.
Lemma get_value_node_not_key E n p : get_value_node E n p <> Err EKey.
Proof.
  unfold get_value_node. intros H.
  destruct (if is_single_key n && negb (is_root n) then
              match n_children n with [] => None | c :: _ => Some c end else None) as [c|].
  - destruct (is_multi (n_ml c)).
    + apply bind_err in H as [H|(t & _ & H)].
      * apply normalize_multiline_errors in H; discriminate.
      * destruct p as [[sv vars]|]; apply yres_to_res_errors in H; discriminate.
    + destruct (n_value c) as [|[[]| |]]; try discriminate.
      apply bind_err in H as [H|(t & _ & H)].
      * apply parse_yaml_errors in H; discriminate.
      * destruct t; try (destruct (n_lmf c)); discriminate.
  - cbv zeta in H. match type of H with match ?x with _ => _ end = _ => destruct x as [s|j] end; [|discriminate].
    apply bind_err in H as [H|(t & _ & H)].
    + apply parse_yaml_errors in H; discriminate.
    + destruct t; try discriminate; destruct (n_children n) as [|c [|]]; try discriminate; destruct (n_lmf c); discriminate.
Qed.
Lemma str_to_stack_path_ok path : path <> [] -> exists st, str_to_stack_path path = Ok st.
Proof.
  intros H. unfold str_to_stack_path. destruct (last_char_some path H) as (c & ->). eauto.
Qed.
Lemma get_value_missing E root path p : path <> [] ->
  (get_value E root path None p = Err EKey <-> contains_value root path = Ok false).
Proof.
  intros H. destruct (str_to_stack_path_ok path H) as (st & Hst).
  unfold get_value, contains_value. rewrite Hst. cbn [bind].
  destruct (traverse root st) as [n|]; split; intros X; try discriminate; auto.
  exfalso. eapply get_value_node_not_key; eauto.
Qed.
Lemma get_value_default E root path p d : path <> [] ->
  get_value E root path (Some d) p = match contains_value root path with
                                     | Ok false => Ok d
                                     | _ => get_value E root path None p
                                     end.
Proof.
  intros H. destruct (str_to_stack_path_ok path H) as (st & Hst).
  unfold get_value, contains_value. rewrite Hst. cbn [bind].
  destruct (traverse root st) as [n|]; auto.
Qed.
Lemma contains_value_ok root path : path <> [] -> exists b, contains_value root path = Ok b.
Proof.
  intros H. destruct (str_to_stack_path_ok path H) as (st & Hst).
  unfold contains_value. rewrite Hst. cbn [bind]. eauto.
Qed.

(** * C07 *)
Lemma prim_same_eqb w v : prim_same_type w v && prim_eqb w v = if prim_dec w v then true else false.
Proof.
  destruct (prim_dec w v) as [->|N].
  - destruct v; cbn; auto using str_eqb_refl, Z.eqb_refl. destruct b; auto.
  - destruct w, v; cbn; auto.
    + congruence.
    + destruct b, b0; cbn; auto; congruence.
    + apply Z.eqb_neq. congruence.
    + apply str_eqb_neq. congruence.
    + apply str_eqb_neq. congruence.
Qed.
Lemma find_value_hit_spec v n : find_value_hit v n = holds_value v n.
Proof.
  unfold find_value_hit, holds_value. rewrite leaf_terminal.
  replace (match n_value n with VJ (JP w) => prim_same_type w v && prim_eqb w v | _ => false end)
    with (match n_value n with VJ (JP w) => if prim_dec w v then true else false | _ => false end).
  - unfold is_empty_key. rewrite leaf_terminal. destruct v; cbn [orb];
      destruct (terminal n); cbn [andb]; rewrite ?andb_true_r, ?andb_false_r, ?orb_false_r; auto.
    apply orb_comm.
  - destruct (n_value n) as [|[w| |]]; auto. rewrite prim_same_eqb. reflexivity.
Qed.
Lemma find_value_spec E root v :
  find_value E root (JP v) = Ok (map (path_at E root) (positions_where (holds_value v) root)).
Proof.
  unfold find_value. f_equal.
  rewrite <- (visits_filter E root (holds_value v)).
  - f_equal. apply filter_ext. intros np. apply find_value_hit_spec.
  - intros n H. unfold holds_value in H. apply andb_prop in H as (H & _). apply terminal_not_comment; auto.
Qed.

(** * C08 *)
Lemma dedupe_snoc l x : dedupe (l ++ [x]) = if mem_str x (dedupe l) then dedupe l else dedupe l ++ [x].
Proof.
  unfold dedupe. rewrite fold_left_app. cbn [fold_left]. rewrite dkeys_dset.
  match goal with |- (if dmem x ?d then _ else _) = _ => destruct (dmem x d) eqn:E end.
  - apply dmem_In in E. apply mem_str_In in E. unfold dkeys in *. rewrite E. reflexivity.
  - destruct (mem_str x _) eqn:E2; auto. apply mem_str_In in E2. apply dmem_In in E2. congruence.
Qed.
Lemma dedupe_spec l : dedupe l = first_occurrences l.
Proof.
  induction l as [|x l IH] using rev_ind; [reflexivity|].
  rewrite dedupe_snoc, IH. unfold first_occurrences. rewrite rev_app_distr. cbn [rev app nodup].
  destruct (in_dec (list_eq_dec ascii_dec) x (rev l)) as [HI|HI].
  - assert (mem_str x (rev (nodup (list_eq_dec ascii_dec) (rev l))) = true) as ->; auto.
    apply mem_str_In. rewrite <- in_rev. apply nodup_In. auto.
  - assert (mem_str x (rev (nodup (list_eq_dec ascii_dec) (rev l))) = false) as ->; auto.
    apply mem_str_notIn. rewrite <- in_rev, nodup_In. auto.
Qed.
Lemma first_occurrences_NoDup l : NoDup (first_occurrences l).
Proof. unfold first_occurrences. apply NoDup_rev. apply NoDup_nodup. Qed.
Lemma first_occurrences_In l x : In x (first_occurrences l) <-> In x l.
Proof. unfold first_occurrences. rewrite <- in_rev, nodup_In, <- in_rev. reflexivity. Qed.

(** * Statements in terms of path texts *)
Lemma contains_lookup root s : s <> [] ->
  contains_value root s = Ok (match lookup root s with Some _ => true | None => false end).
Proof.
  intros H. destruct (str_to_stack_path_ok s H) as (st & Hst).
  unfold contains_value, lookup. rewrite Hst. reflexivity.
Qed.
Lemma addresses_lookup root s p : addresses root s p -> exists n, node_at root p = Some n /\ lookup root s = Some n.
Proof.
  intros (st & H1 & H2). destruct (traverse_pos_some _ _ _ H2) as (n & Hn). exists n. split; auto.
  unfold lookup, traverse. rewrite H1, H2. exact Hn.
Qed.
Lemma addresses_nonempty root s p : addresses root s p -> s <> [].
Proof. intros (st & H & _) ->. discriminate. Qed.
Lemma c03 E root : addressable_document root = true ->
  Forall2 (fun p s => addresses root s (owner root p) /\ contains_value root s = Ok true
                      /\ forall jp, get_value E root s None jp <> Err EKey)
          (positions_where terminal root) (list_value_paths E root).
Proof.
  intros H. rewrite list_value_paths_spec.
  assert (forall p, In p (positions_where terminal root) -> addresses root (path_at E root p) (owner root p)) as HA
    by (intros p Hp; apply c03_resolves; auto).
  induction (positions_where terminal root) as [|p ps IH]; cbn [map]; constructor.
  - assert (addresses root (path_at E root p) (owner root p)) as A by (apply HA; left; auto).
    pose proof (addresses_nonempty _ _ _ A) as Hne.
    assert (contains_value root (path_at E root p) = Ok true) as Hc.
    { destruct (addresses_lookup _ _ _ A) as (n & _ & Hl). rewrite contains_lookup, Hl by auto. reflexivity. }
    split; auto. split; auto. intros jp Hk. apply get_value_missing in Hk; auto. congruence.
  - apply IH. intros q Hq. apply HA. right; auto.
Qed.
Lemma traverse_stack root cs : cs <> [] -> traverse root (rev cs ++ [ROOT_VALUE]) = walk root cs.
Proof.
  intros H. rewrite traverse_walk, rev_app_distr, rev_involutive. cbn [rev app].
  destruct cs; [contradiction|reflexivity].
Qed.
Lemma traverse_stack' root cs : traverse root (rev cs ++ [ROOT_VALUE]) = walk root cs.
Proof.
  destruct cs as [|c cs]; [reflexivity|]. apply traverse_stack. discriminate.
Qed.
Lemma walk_app n a b : walk n (a ++ b) = match walk n a with Some m => walk m b | None => None end.
Proof.
  revert n; induction a as [|x a IH]; intros n; cbn [walk app]; auto.
  destruct (step_node n x); auto.
Qed.
Lemma digits_component part : isdigit part = true -> component part.
Proof.
  unfold isdigit. destruct part as [|c part]; [discriminate|]. intros H. split; [discriminate|].
  intros HI. rewrite forallb_forall in H. apply H in HI. discriminate.
Qed.
Lemma c05_lookup root cs part : Forall component cs -> isdigit part = true ->
  lookup root (path_text (cs ++ [part])) =
  match lookup root (path_text cs ++ [cSL]) with
  | None => None
  | Some n => match nth_error (filter (fun c => negb (is_comment c)) (n_children n)) (int_of part) with
              | Some c => if n_lmf c then Some c else None
              | None => None
              end
  end.
Proof.
  intros Hc Hd. unfold lookup.
  rewrite stack_of_path, stack_of_path_slash; auto.
  - rewrite !traverse_stack', walk_app. destruct (walk root cs) as [n|]; auto.
    cbn [walk]. unfold step_node. rewrite step_child_index by auto.
    destruct (nth_error _ (int_of part)) as [c|]; auto. destruct (n_lmf c); auto.
  - destruct cs; discriminate.
  - apply Forall_app; split; auto. constructor; auto. apply digits_component; auto.
Qed.
Lemma step_node_not_comment n x c : step_node n x = Some c -> is_comment c = false.
Proof.
  unfold step_node. destruct (isdigit x) eqn:D.
  - rewrite step_child_index by auto.
    destruct (nth_error _ (int_of x)) as [d|] eqn:E; [|discriminate].
    destruct (n_lmf d); [|discriminate]. intros H; injection H as ->.
    apply nth_error_In, filter_In in E as (_ & E). apply negb_true_iff; auto.
  - unfold step_child. rewrite D. destruct (find_child x 0 (n_children n)) as [[i d]|] eqn:E; [|discriminate].
    cbn. intros H; injection H as ->. apply find_child_spec in E as (_ & _ & E & _).
    unfold is_comment. destruct (n_value c); [discriminate|]. reflexivity.
Qed.
Lemma walk_not_comment n parts m : is_comment n = false -> walk n parts = Some m -> is_comment m = false.
Proof.
  revert n; induction parts as [|x parts IH]; intros n Hn H; cbn [walk] in H.
  - congruence.
  - destruct (step_node n x) as [c|] eqn:E; [|discriminate]. eapply IH; [|exact H].
    eapply step_node_not_comment; eauto.
Qed.
Lemma lookup_not_comment root s n : is_comment root = false -> lookup root s = Some n -> is_comment n = false.
Proof.
  intros Hr. unfold lookup. destruct (str_to_stack_path s) as [st|]; [|discriminate].
  rewrite traverse_walk. destruct (rev st) as [|a [|b l]]; [discriminate| |].
  - destruct (str_eqb a ROOT_VALUE); congruence.
  - apply walk_not_comment; auto.
Qed.
Lemma index_tables l i j : nth_error (virt_to_phys l) i = Some j <->
  (exists c, nth_error l j = Some c /\ is_comment c = false /\ i = count_elements (firstn j l)).
Proof.
  split.
  - intros H. apply v2p_sound in H as (_ & c & H1 & H2 & H3 & _). rewrite Nat.sub_0_r in *. eauto.
  - intros (c & H1 & H2 & ->). apply (v2p_complete 0 l j c); auto.
Qed.
Lemma index_tables_inverse l j c : nth_error l j = Some c -> is_comment c = false ->
  exists i, nth_error (phys_to_virt l) j = Some i /\ nth_error (virt_to_phys l) i = Some j.
Proof.
  intros H Hc. exists (count_elements (firstn j l)). split; [eapply p2v_nth; eauto|].
  apply (v2p_complete 0 l j c); auto.
Qed.
Lemma c04_lookup root path : elements_have_content root = true ->
  lookup (erase_comment_lines root) path = option_map erase_comment_lines (lookup root path)
  /\ contains_value (erase_comment_lines root) path = contains_value root path.
Proof.
  intros H. split; [|apply contains_value_erase; auto].
  unfold lookup. destruct (str_to_stack_path path); auto. apply traverse_erase; auto.
Qed.
Lemma c05_never_comment root path n : is_comment root = false -> lookup root path = Some n -> ~ comment_line n.
Proof. intros Hr H Hc. apply is_comment_spec in Hc. rewrite (lookup_not_comment _ _ _ Hr H) in Hc. discriminate. Qed.
Lemma number_text i : isdigit (str_of_nat i) = true /\ int_of (str_of_nat i) = i.
Proof. destruct (str_of_nat_spec i) as (A & B & _). auto. Qed.
Lemma find_value_collection E root v : is_prim v = false -> find_value E root v = Err EValue.
Proof. destruct v; try discriminate; reflexivity. Qed.
Lemma c08_selector_paths r s :
  fst (get_selector_paths s r) =
  match dget s (r_sel r) with
  | None => []
  | Some infos => first_occurrences (map (fun i => stack_path_to_str (snd i)) infos)
  end.
Proof. unfold get_selector_paths. destruct (dget s (r_sel r)); auto. cbn [fst]. apply dedupe_spec. Qed.
Lemma c08_variable_references E r var :
  get_variable_references E var r =
  if dmem var (r_vars r)
  then first_occurrences (map (fun np => stack_path_to_str (snd np))
         (filter (fun np => match n_value (fst np) with
                            | VJ (JStr s) => found (var_ref_re (r_schema r) var) s
                            | _ => false
                            end) (visits E (r_root r))))
  else [].
Proof. unfold get_variable_references. destruct (dmem var (r_vars r)); auto. apply dedupe_spec. Qed.
Lemma c08_no_duplicates l :
  NoDup (first_occurrences l) /\ (forall x, In x (first_occurrences l) <-> In x l) /\ dedupe l = first_occurrences l.
Proof. split; [apply first_occurrences_NoDup|]. split; [intros; apply first_occurrences_In|apply dedupe_spec]. Qed.
