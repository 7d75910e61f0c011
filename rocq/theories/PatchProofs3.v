(** Proofs about JSON patches: copy, move, exceptions, the schema gate, search_and_patch. *)
From Verif Require Export PatchProofs2.

(** * C15 *)
Lemma c15_ok E p pa from path r v : asks p (RCopy from path) -> asks pa (RAdd path v) ->
  get_value E (r_root r) from None None = Ok v -> patch E p r = patch E pa r.
Proof.
  intros Hc Ha Hv. rewrite (patch_asks E p _ r Hc), (patch_asks E pa _ r Ha). cbn [self_move].
  unfold finish, perform. cbn [request_path is_test]. destruct (str_to_stack_path path) as [st|e]; auto.
  unfold patch_copy. rewrite Hv. reflexivity.
Qed.
Lemma c15_missing E p from path r : asks p (RCopy from path) ->
  get_value E (r_root r) from None None = Err EKey -> patch E p r = (Ok false, r).
Proof.
  intros Hc Hv. rewrite (patch_asks E p _ r Hc). cbn [self_move]. unfold finish, perform. cbn [request_path is_test].
  destruct (str_to_stack_path_ok path (asks_nonempty _ _ Hc)) as (st & ->). unfold patch_copy. rewrite Hv. cbn [fst snd].
  rewrite with_root_id. reflexivity.
Qed.
Lemma c15_unreadable E p from path r e : asks p (RCopy from path) -> e <> EKey ->
  get_value E (r_root r) from None None = Err e -> patch E p r = (Err e, r).
Proof.
  intros Hc He Hv. rewrite (patch_asks E p _ r Hc). cbn [self_move]. unfold finish, perform. cbn [request_path is_test].
  destruct (str_to_stack_path_ok path (asks_nonempty _ _ Hc)) as (st & ->). unfold patch_copy. rewrite Hv.
  destruct e; try contradiction; cbn [fst snd]; rewrite with_root_id; reflexivity.
Qed.

(** * C16, C11 *)
Lemma c16_self E p s r : asks p (RMove s s) -> patch E p r = (Ok true, r).
Proof. intros H. rewrite (patch_asks E p _ r H). cbn [self_move]. rewrite str_eqb_refl. reflexivity. Qed.
Lemma recipe_ext r r' : r_init r = r_init r' -> r_root r = r_root r' -> r_schema r = r_schema r' -> r_vars r = r_vars r' ->
  r_sel r = r_sel r' -> r_mod r = r_mod r' -> r = r'.
Proof. destruct r, r'; cbn; intros; subst; reflexivity. Qed.
Lemma patch_of_perform E p q r root' : asks p q -> self_move q = false -> is_test q = false ->
  perform E q (r_root r) = (Ok true, root') -> patch E p r = (Ok true, mark_modified (rebuild_selectors E (with_root r root'))).
Proof. intros H Hs Ht Hp. rewrite (patch_asks E p q r H), Hs, Hp. unfold finish. cbn [fst snd]. rewrite Ht. reflexivity. Qed.
Lemma c16_success E p pr from path r r' : from <> path -> asks p (RMove from path) -> asks pr (RRemove from) ->
  patch E p r = (Ok true, r') ->
  exists v r1, get_value E (r_root r) from None None = Ok v /\ patch E pr r = (Ok true, r1)
    /\ forall pa, asks pa (RAdd path v) -> patch E pa r1 = (Ok true, r').
Proof.
  intros Hne Hm Hr H.
  assert (self_move (RMove from path) = false) as Hself by (cbn; apply str_eqb_neq; congruence).
  pose proof (patch_asks E p _ r Hm) as Heq. rewrite Hself, H in Heq.
  apply (patch_success E p _ r r' Hm Hself eq_refl) in H as (root' & HP & Hroot & HS & Hmod & Hsel).
  rewrite HP in Heq. unfold finish in Heq. cbn [fst snd is_test] in Heq. injection Heq as ->.
  unfold perform in HP. cbn [request_path] in HP.
  destruct (str_to_stack_path path) as [st|] eqn:Hst; [|discriminate]. unfold patch_move in HP.
  destruct (get_value E (r_root r) from None None) as [v|[]] eqn:Hv; try discriminate.
  destruct (patch_add_find_target (r_root r) st) as [t|]; [|discriminate].
  destruct (is_valid_patch_node _ _); [|discriminate]. cbn [negb] in HP.
  destruct (str_to_stack_path from) as [fs|] eqn:Hfs; [|discriminate].
  destruct (patch_remove (r_root r) fs) as [[[|]|] root1] eqn:Hrm; try discriminate.
  exists v, (mark_modified (rebuild_selectors E (with_root r root1))). split; auto. split.
  - apply (patch_of_perform E pr _ r root1 Hr eq_refl eq_refl). unfold perform. cbn [request_path]. rewrite Hfs. exact Hrm.
  - intros pa Ha. rewrite (patch_of_perform E pa _ _ root' Ha eq_refl eq_refl); [reflexivity|].
    unfold perform. cbn [request_path]. rewrite Hst. exact HP.
Qed.
(** When the source can be read and removed, the destination is acceptable before, and the value can be added after. *)
Lemma c11_failed E p pr from path r r' o : asks p (RMove from path) -> asks pr (RRemove from) ->
  patch E p r = (o, r') -> o <> Ok true ->
  r' = r \/ (exists v r1, get_value E (r_root r) from None None = Ok v /\ patch E pr r = (Ok true, r1) /\ r' = with_root r (r_root r1)).
Proof.
  intros Hm Hr H Ho. rewrite (patch_asks E p _ r Hm) in H. cbn [self_move] in H.
  destruct (str_eqb path from); [congruence|].
  pose proof (finish_fst E (RMove from path) (perform E (RMove from path) (r_root r)) r) as Hf.
  pose proof (finish_fail E (RMove from path) (perform E (RMove from path) (r_root r)) r) as Hs.
  rewrite H in *. cbn [fst snd] in *. specialize (Hs Ho). subst r'. clear H.
  unfold perform in *. cbn [request_path] in *.
  destruct (str_to_stack_path path) as [st|] eqn:Hst; [|left; apply with_root_id]. unfold patch_move in *.
  destruct (get_value E (r_root r) from None None) as [v|[]] eqn:Hv; try (left; apply with_root_id).
  destruct (patch_add_find_target (r_root r) st) as [t|]; [|left; apply with_root_id].
  destruct (is_valid_patch_node _ _); [|left; apply with_root_id]. cbn [negb] in *.
  destruct (str_to_stack_path from) as [fs|] eqn:Hfs; [|left; apply with_root_id].
  pose proof (patch_remove_fail (r_root r) fs) as Hrf.
  destruct (patch_remove (r_root r) fs) as [[[|]|] root1] eqn:Hrm; cbn [fst snd] in *.
  - right. exists v, (mark_modified (rebuild_selectors E (with_root r root1))). split; auto. split.
    + apply (patch_of_perform E pr _ r root1 Hr eq_refl eq_refl). unfold perform. cbn [request_path]. rewrite Hfs. exact Hrm.
    + rewrite patch_add_fail by congruence. reflexivity.
  - left. rewrite Hrf by discriminate. apply with_root_id.
  - left. rewrite Hrf by discriminate. apply with_root_id.
Qed.
Lemma c11_early E p from path r : asks p (RMove from path) -> (forall v, get_value E (r_root r) from None None <> Ok v) ->
  from <> path -> snd (patch E p r) = r /\ fst (patch E p r) <> Ok true.
Proof.
  intros Hm Hv Hne. rewrite (patch_asks E p _ r Hm). cbn [self_move]. rewrite (proj2 (str_eqb_neq path from)) by congruence.
  unfold finish, perform. cbn [request_path is_test].
  destruct (str_to_stack_path path) as [st|e]; [|cbn [fst snd]; split; [apply with_root_id|discriminate]].
  unfold patch_move. destruct (get_value E (r_root r) from None None) as [v|e]; [exfalso; apply (Hv v); reflexivity|].
  destruct e; cbn [fst snd]; (split; [apply with_root_id|discriminate]).
Qed.

(** * C17 *)
Lemma c17_remove E p s r : proper_tree (r_root r) = true -> asks p (RRemove s) -> exists b, fst (patch E p r) = Ok b.
Proof.
  intros Hp Ha. rewrite (patch_perform E p _ r Ha eq_refl). unfold perform. cbn [request_path].
  destruct (str_to_stack_path_ok s (asks_nonempty _ _ Ha)) as (st & ->). apply patch_remove_bool; auto.
Qed.
Lemma twi_named root st : (forall x, nth_error st 0 = Some x -> isdigit x = false) ->
  exists o, traverse_with_index root st = Ok (o, None, None).
Proof.
  intros H. destruct st as [|p0 pp]; [exists None; reflexivity|]. exists (traverse_pos root (p0 :: pp)).
  apply twi_name_eq. apply H. reflexivity.
Qed.
Lemma find_target_named root st : (forall x, In x st -> isdigit x = false) ->
  exists t, patch_add_find_target root st = Ok t /\ (at_create t = [] \/ nth_error st 0 = Some (at_create t)).
Proof.
  intros H. unfold patch_add_find_target. destruct st as [|p0 pp]; [eexists; split; [reflexivity|auto]|].
  destruct (str_eqb p0 $"-") eqn:D.
  - destruct (twi_named root pp) as (o & ->).
    { intros x Hx. apply H. right. eapply nth_error_In; eauto. }
    cbn [bind]. destruct o, pp; eexists; split; try reflexivity; auto.
  - destruct (twi_named root (p0 :: pp)) as (o & ->).
    { intros x [= <-]. apply H. left; auto. }
    cbn [bind]. destruct o; [eexists; split; [reflexivity|auto]|].
    destruct (twi_named root pp) as (o & ->).
    { intros x Hx. apply H. right. eapply nth_error_In; eauto. }
    cbn [bind]. eexists; split; [reflexivity|]. right. reflexivity.
Qed.
Definition writable (E : env) (v : json) : Prop := exists lines, written_as E v lines.
Lemma named_stack cs : Forall component cs -> Forall (fun c => isdigit c = false) cs -> cs <> [] ->
  exists c0, str_to_stack_path (path_text cs) = Ok (rev cs ++ [ROOT_VALUE]) /\ nth_error (rev cs ++ [ROOT_VALUE]) 0 = Some c0
   /\ last cs [] = c0 /\ (forall x, In x (rev cs ++ [ROOT_VALUE]) -> isdigit x = false).
Proof.
  intros Hc Hd Hne. destruct (exists_last Hne) as (ds & c & ->). exists c.
  destruct (stack_snoc ds c Hc) as (HS & _). rewrite rev_app_distr. cbn [rev app]. split; auto. split; auto. split; [apply last_last|].
  intros x Hx. apply Forall_app in Hd as (Hd1 & Hd2). inversion Hd2; subst. destruct Hx as [<-|Hx]; auto.
  apply in_app_iff in Hx as [Hx|[<-|[]]]; [|reflexivity]. rewrite Forall_forall in Hd1. apply Hd1. apply in_rev. auto.
Qed.
Lemma path_text_nonempty cs : path_text cs <> [] -> cs <> [].
Proof. intros H ->. apply H. reflexivity. Qed.
Lemma c17_replace E p cs v r : Forall component cs -> Forall (fun c => isdigit c = false) cs ->
  asks p (RReplace (path_text cs) v) -> writable E v -> exists b, fst (patch E p r) = Ok b.
Proof.
  intros Hc Hd Ha (lines & HG). rewrite (patch_perform E p _ r Ha eq_refl). unfold perform. cbn [request_path].
  destruct (named_stack cs Hc Hd (path_text_nonempty _ (asks_nonempty _ _ Ha))) as (c0 & -> & H0 & _ & Hall).
  unfold patch_replace. destruct (twi_named (r_root r) (rev cs ++ [ROOT_VALUE])) as (o & ->).
  { intros x Hx. apply Hall. eapply nth_error_In; eauto. }
  destruct o as [q|]; [|exists false; reflexivity].
  destruct (is_valid_patch_node _ _); cbn [negb]; [|exists false; reflexivity].
  unfold written_as in HG. rewrite HG. exists true. reflexivity.
Qed.
Lemma c17_add E p cs v r : Forall component cs -> Forall (fun c => isdigit c = false) cs ->
  asks p (RAdd (path_text cs) v) -> writable E v -> writable E (JDict [(PStr (last cs []), v)]) ->
  exists b, fst (patch E p r) = Ok b.
Proof.
  intros Hc Hd Ha (lines & HG) (lines' & HG'). rewrite (patch_perform E p _ r Ha eq_refl). unfold perform. cbn [request_path].
  destruct (named_stack cs Hc Hd (path_text_nonempty _ (asks_nonempty _ _ Ha))) as (c0 & -> & H0 & Hl & Hall).
  unfold patch_add. destruct (find_target_named (r_root r) _ Hall) as (t & -> & Ht).
  destruct (at_pos t) as [q|]; [|exists false; reflexivity].
  destruct (is_valid_patch_node _ _); cbn [negb]; [|exists false; reflexivity].
  unfold written_as in *. rewrite H0 in Ht. destruct Ht as [->|[= <-]].
  - cbn [is_nil]. rewrite HG. exists true. reflexivity.
  - destruct (is_nil c0) eqn:N; [rewrite HG|rewrite <- Hl, HG']; exists true; reflexivity.
Qed.

(** * C20 *)
Definition fine {A} (x : res A) : Prop := x <> Err EPatchSchema.
Lemma fine_bind {A B} (x : res A) (f : A -> res B) : fine x -> (forall a, x = Ok a -> fine (f a)) -> fine (bind x f).
Proof. destruct x as [a|e]; cbn [bind]; intros H1 H2; [apply H2; auto|]. intros [= ->]. apply H1. reflexivity. Qed.
Lemma fine_ok {A} (a : A) : fine (Ok a).
Proof. discriminate. Qed.
Lemma fine_stack s : fine (str_to_stack_path s).
Proof. unfold str_to_stack_path. destruct (last_char s); discriminate. Qed.
Lemma fine_yaml E s p : fine (parse_yaml E s p).
Proof. intros H. apply parse_yaml_errors in H. discriminate. Qed.
Lemma fine_line E s : fine (parse_line_node E s).
Proof.
  unfold parse_line_node. apply fine_bind; [apply fine_yaml|]. intros j _. destruct (starts_with [cHASH] s); [discriminate|].
  destruct j as [p|[|[| |[|[]]]]|[|[]]]; discriminate.
Qed.
Lemma fine_line_to_node E l f : fine (line_to_node E l f).
Proof.
  unfold line_to_node. apply fine_bind; [apply fine_line|]. intros n _. destruct (re_match MULTILINE l); [|discriminate].
  destruct (mlv_of_str _); [|discriminate]. destruct (take_multiline _ _); discriminate.
Qed.
Lemma fine_place st i n : fine (place_node st i n).
Proof.
  unfold place_node. apply fine_bind.
  - destruct (p_indent st <? i).
    + destruct (node_at _ _); [|discriminate]. destruct (is_collection _ && _); discriminate.
    + destruct (i <? p_indent st); [|discriminate]. destruct (pop_n _ _); discriminate.
  - intros stk _. destruct stk; [discriminate|]. destruct (node_at _ _); discriminate.
Qed.
Lemma fine_loop E ls : forall st k, fine (parse_loop E st k ls).
Proof.
  induction ls as [|l ls IH]; intros st k; cbn [parse_loop]; [discriminate|]. destruct k; auto.
  destruct (is_nil (strip l)); auto. apply fine_bind; [apply fine_line_to_node|]. intros (n & u) _.
  apply fine_bind; [apply fine_place|]. auto.
Qed.
Lemma fine_value E n p : fine (get_value_node E n p).
Proof.
  unfold get_value_node. destruct (if is_single_key n && negb (is_root n) then _ else _) as [c|].
  - destruct (is_multi (n_ml c)).
    + apply fine_bind; [intros H; apply normalize_multiline_errors in H; discriminate|]. intros t _.
      destruct p as [[sv vars]|]; intros H; apply yres_to_res_errors in H; discriminate.
    + destruct (n_value c) as [|[[]| |]]; try discriminate.
      apply fine_bind; [apply fine_yaml|]. intros [| |] _; destruct (n_lmf c); discriminate.
  - destruct (if is_leaf n then _ else _) as [s|j]; [|discriminate].
    apply fine_bind; [apply fine_yaml|]. intros v _.
    destruct v; try discriminate; destruct (n_children n) as [|c [|]]; try discriminate; destruct (n_lmf c); discriminate.
Qed.
Lemma fine_get_value E root s d p : fine (get_value E root s d p).
Proof.
  unfold get_value. apply fine_bind; [apply fine_stack|]. intros st _. destruct (traverse root st); [apply fine_value|].
  destruct d; discriminate.
Qed.
Lemma fine_new E s : fine (new_recipe E s).
Proof.
  unfold new_recipe. apply fine_bind.
  { unfold parse_tree, parse_lines. apply fine_bind; [apply fine_loop|]. intros; discriminate. }
  intros root _. apply fine_bind.
  { unfold detect_schema. apply fine_bind; [apply fine_get_value|]. intros; discriminate. }
  intros sv _. apply fine_bind; [|discriminate].
  unfold init_vars. destruct sv; [discriminate|]. apply fine_bind; [apply fine_get_value|]. intros [| |] _; discriminate.
Qed.
Lemma fine_generate E v : fine (generate_subtree E v).
Proof.
  unfold generate_subtree. destruct v as [[]| |];
    try (apply fine_bind; [apply fine_new|intros; discriminate]).
  destruct (existsb (ceq cNL) s); [discriminate|]. apply fine_bind; [apply fine_new|intros; discriminate].
Qed.
Lemma fine_twi root st : fine (traverse_with_index root st).
Proof.
  unfold traverse_with_index. destruct st as [|p0 pp]; [discriminate|].
  destruct (isdigit p0).
  - destruct (traverse_pos root pp); [|discriminate]. destruct (node_at root _); [|discriminate].
    destruct (nth_error _ _); [|discriminate]. destruct (nth_error (n_children _) _); [|discriminate].
    destruct (is_collection _); discriminate.
  - destruct (traverse_pos root (p0 :: pp)); discriminate.
Qed.
Lemma fine_target root st : fine (patch_add_find_target root st).
Proof.
  unfold patch_add_find_target. destruct st as [|p0 pp]; [discriminate|].
  apply fine_bind; [apply fine_twi|]. intros [[o v] i] _.
  destruct o; [discriminate|]. destruct (str_eqb p0 $"-"); [discriminate|].
  apply fine_bind; [apply fine_twi|]. intros [[o' v'] i'] _. discriminate.
Qed.
Lemma fine_add E root st v : fine (fst (patch_add E root st v)).
Proof.
  unfold patch_add. pose proof (fine_target root st) as HT. destruct (patch_add_find_target root st) as [t|e]; [|intros [= ->]; apply HT; reflexivity].
  destruct (at_pos t); [|discriminate]. destruct (is_valid_patch_node _ _); cbn [negb]; [|discriminate].
  match goal with |- context[generate_subtree E ?w] => pose proof (fine_generate E w) as HG; destruct (generate_subtree E w) end;
    [discriminate|]. intros [= ->]. apply HG; reflexivity.
Qed.
Lemma fine_remove root st : fine (fst (patch_remove root st)).
Proof.
  unfold patch_remove. destruct st as [|p0 pp]; [discriminate|]. destruct (traverse root _); [|discriminate].
  destruct (is_valid_patch_node (Some _) None); cbn [negb]; [|discriminate].
  destruct (traverse_pos root pp); [|discriminate]. destruct (node_at root _); [|discriminate].
  destruct (is_valid_patch_node (Some _) _); cbn [negb]; [|discriminate].
  destruct (isdigit p0); [destruct (nth_error _ _)|destruct (find_equal _ _ _)]; discriminate.
Qed.
Lemma fine_perform E q root : fine (fst (perform E q root)).
Proof.
  unfold perform. pose proof (fine_stack (request_path q)) as HS.
  destruct (str_to_stack_path (request_path q)) as [st|e]; [|intros [= ->]; apply HS; reflexivity].
  destruct q as [path v|path|path v|from path|from path|path v].
  - apply fine_add.
  - apply fine_remove.
  - unfold patch_replace. pose proof (fine_twi root st) as HT.
    destruct (traverse_with_index root st) as [[[o v'] i]|e]; [|intros [= ->]; apply HT; reflexivity].
    destruct o; [|discriminate]. destruct (is_valid_patch_node _ _); cbn [negb]; [|discriminate].
    pose proof (fine_generate E v) as HG. destruct (generate_subtree E v); [destruct i; discriminate|].
    intros [= ->]. apply HG; reflexivity.
  - unfold patch_move. pose proof (fine_get_value E root from None None) as HV.
    destruct (get_value E root from None None) as [v|e]; [|destruct e; try discriminate; intro; apply HV; reflexivity].
    pose proof (fine_target root st) as HT. destruct (patch_add_find_target root st) as [t|e]; [|intros [= ->]; apply HT; reflexivity].
    destruct (is_valid_patch_node _ _); cbn [negb]; [|discriminate].
    pose proof (fine_stack from) as HF. destruct (str_to_stack_path from) as [fs|e]; [|intros [= ->]; apply HF; reflexivity].
    pose proof (fine_remove root fs) as HR. destruct (patch_remove root fs) as [[[|]|e] root'].
    + apply fine_add.
    + discriminate.
    + intros [= ->]. apply HR; reflexivity.
  - unfold patch_copy. pose proof (fine_get_value E root from None None) as HV.
    destruct (get_value E root from None None) as [v|e]; [apply fine_add|]. destruct e; try discriminate; intro; apply HV; reflexivity.
  - cbn [fst]. unfold patch_test. pose proof (fine_get_value E root path None None) as HV.
    destruct (get_value E root path None None) as [w|e]; [discriminate|]. destruct e; try discriminate; intro; apply HV; reflexivity.
Qed.
Lemma c20 E p r : (fst (patch E p r) = Err EPatchSchema <-> ~ exists q, asks p q)
  /\ ((~ exists q, asks p q) -> snd (patch E p r) = r).
Proof.
  destruct (schema_valid p) eqn:HV.
  - destruct (valid_asks p HV) as (q & Hq). split; [|intros H; exfalso; eauto].
    split; [|intros H; exfalso; eauto]. intros H. exfalso. rewrite (patch_asks E p q r Hq) in H.
    destruct (self_move q); [discriminate|]. rewrite finish_fst in H. revert H. apply fine_perform.
  - rewrite (patch_invalid E p r HV). split; [|auto]. split; [|auto]. intros _ (q & Hq). apply asks_valid in Hq. congruence.
Qed.

(** * C21 *)
Lemma field_same d1 d2 : (forall k, field k d1 = field k d2) -> (known_fields d1 <-> known_fields d2) ->
  forall q, asks (JDict d1) q -> asks (JDict d2) q.
Proof.
  intros HF HK q (d & [= <-] & K & F & H). exists d2. split; auto. split; [apply HK; auto|].
  unfold text_if_present in *. rewrite <- HF. split; auto. destruct q; rewrite <- !HF; auto.
Qed.
Lemma patch_same E d1 d2 r : (forall k, field k d1 = field k d2) -> (known_fields d1 <-> known_fields d2) ->
  patch E (JDict d1) r = patch E (JDict d2) r.
Proof.
  intros HF HK. destruct (schema_valid (JDict d1)) eqn:V1.
  - destruct (valid_asks _ V1) as (q & Hq). pose proof (field_same d1 d2 HF HK q Hq) as Hq2.
    rewrite (patch_asks E _ q r Hq), (patch_asks E _ q r Hq2). reflexivity.
  - destruct (schema_valid (JDict d2)) eqn:V2.
    + destruct (valid_asks _ V2) as (q & Hq).
      apply (field_same d2 d1 (fun k => eq_sym (HF k)) (iff_sym HK)) in Hq. apply asks_valid in Hq. congruence.
    + rewrite !patch_invalid; auto.
Qed.
Lemma prim_eqb_str_l k k' : prim_eqb (PStr k) k' = true <-> k' = PStr k.
Proof.
  split; [|intros ->; apply str_eqb_refl]. destruct k'; cbn [prim_eqb]; try discriminate. intros H. apply str_eqb_eq in H as ->. reflexivity.
Qed.
Lemma field_jset k s v d : field k (jset s v d) = if list_eq_dec ascii_dec k s then Some v else field k d.
Proof.
  induction d as [|(k', w) d IH]; cbn [jset field].
  - destruct (list_eq_dec ascii_dec k s); reflexivity.
  - destruct (prim_eqb (PStr s) k') eqn:Es.
    + apply prim_eqb_str_l in Es as ->. cbn [field]. destruct (list_eq_dec ascii_dec k s); reflexivity.
    + cbn [field]. destruct k'; auto. destruct (list_eq_dec ascii_dec k s0) as [->|]; auto.
      destruct (list_eq_dec ascii_dec s0 s) as [->|]; auto. exfalso. cbn [prim_eqb] in Es. rewrite str_eqb_refl in Es. discriminate.
Qed.
Lemma field_with_path k s d : field k (with_path s d) = if list_eq_dec ascii_dec k $"path" then Some (JStr s) else field k d.
Proof.
  unfold with_path. cbn [field]. destruct (list_eq_dec ascii_dec k $"path") as [->|N]; auto.
  induction d as [|(k', w) d IH]; cbn [filter field fst]; auto. destruct (is_path_key k') eqn:EP; cbn [negb]; cbv iota beta.
  - etransitivity; [exact IH|]. destruct k'; try discriminate. unfold is_path_key in EP. destruct (list_eq_dec ascii_dec s0 $"path") as [->|]; [|discriminate].
    destruct (list_eq_dec ascii_dec k $"path"); [contradiction|reflexivity].
  - cbn [field]. destruct k'; auto. destruct (list_eq_dec ascii_dec k s0); auto.
Qed.
Lemma known_with_path s d : known_fields (with_path s d) <-> known_fields d.
Proof.
  unfold known_fields, with_path. split; intros H k v Hk.
  - destruct (is_path_key k) eqn:EP.
    + destruct k; try discriminate. unfold is_path_key in EP. destruct (list_eq_dec ascii_dec s0 $"path") as [->|]; [|discriminate].
      right; left; reflexivity.
    + apply (H k v). right. apply filter_In. cbn [fst]. rewrite EP. auto.
  - destruct Hk as [[= <- <-]|Hk]; [right; left; reflexivity|]. apply filter_In in Hk as (Hk & _). eauto.
Qed.
Lemma known_jset s d : known_fields (jset $"path" (JStr s) d) <-> known_fields d.
Proof.
  unfold known_fields. induction d as [|(k, w) d IH]; cbn [jset].
  - split; intros H k x Hx; [destruct Hx|]. destruct Hx as [[= <- <-]|[]]. right; left; reflexivity.
  - destruct (prim_eqb (PStr $"path") k) eqn:Ek.
    + apply prim_eqb_str_l in Ek as ->. split; intros H k x [[= <- <-]|Hx]; try (right; left; reflexivity); apply (H k x); right; auto.
    + split; intros H k' x [[= <- <-]|Hx].
      * eapply H; left; reflexivity.
      * apply (proj1 IH) with (v := x); auto. intros k'' x' Hx'. eapply H. right. eauto.
      * eapply H; left; reflexivity.
      * apply (proj2 IH) with (v := x); auto. intros k'' x' Hx'. eapply H. right. eauto.
Qed.
Lemma patch_with_path E s d d0 r : (forall k, k <> $"path" -> field k d = field k d0) -> (known_fields d <-> known_fields d0) ->
  patch E (JDict (jset $"path" (JStr s) d)) r = patch E (JDict (with_path s d0)) r.
Proof.
  intros HF HK. apply patch_same.
  - intros k. rewrite field_jset, field_with_path. destruct (list_eq_dec ascii_dec k $"path"); auto.
  - rewrite known_with_path, (known_jset s d). exact HK.
Qed.
Lemma loop_false E ps d r : search_and_patch_loop E ps d false r = (Ok false, r).
Proof. revert d; induction ps as [|p ps IH]; intros d; cbn [search_and_patch_loop]; auto. Qed.
Lemma c21_loop E d0 ps : forall d r, (forall k, k <> $"path" -> field k d = field k d0) -> (known_fields d <-> known_fields d0) ->
  in_order E d0 ps r (fst (search_and_patch_loop E ps d true r)) (snd (search_and_patch_loop E ps d true r)).
Proof.
  induction ps as [|p ps IH]; intros d r HF HK; cbn [search_and_patch_loop]; [constructor|].
  rewrite (patch_with_path E p d d0 r HF HK).
  destruct (patch E (JDict (with_path p d0)) r) as [[[|]|e] r'] eqn:HP.
  - apply order_next with r'; auto. apply IH.
    + intros k Hk. rewrite field_jset. destruct (list_eq_dec ascii_dec k $"path"); [contradiction|auto].
    + rewrite (known_jset p d); auto.
  - rewrite loop_false. apply order_stop; [exact HP|discriminate].
  - apply order_stop; [exact HP|discriminate].
Qed.
Lemma in_order_fun E d ps r o1 r1 : in_order E d ps r o1 r1 -> forall o2 r2, in_order E d ps r o2 r2 -> o1 = o2 /\ r1 = r2.
Proof.
  induction 1 as [r|p ps r r' o r1 HP H IH|p ps r o r1 HP Ho]; intros o2 r2 H2; inversion H2; subst; auto; try congruence.
  - match goal with X : patch E _ r = (Ok true, ?x) |- _ => rewrite HP in X; injection X as <- end. auto.
  - split; congruence.
Qed.
Lemma c21 E rx d ic r o r' : search_and_patch E rx d ic r = (o, r') <->
  in_order E d (map (path_at E (r_root r)) (positions_where (fun n => terminal n && rx (shown_text ic n)) (r_root r))) r o r'.
Proof.
  assert (search E rx ic (r_root r) = map (path_at E (r_root r)) (positions_where (fun n => terminal n && rx (shown_text ic n)) (r_root r))) as HS.
  { rewrite <- (visits_filter E (r_root r) (fun n => terminal n && rx (shown_text ic n))).
    - unfold search. f_equal. apply filter_ext. intros [n st]. cbn [fst]. cbv zeta. unfold shown_text. f_equal.
      destruct (ic && negb (is_nil (n_comment n))); [reflexivity|rewrite app_nil_r; reflexivity].
    - intros n H. apply andb_prop in H as (H & _). apply terminal_not_comment; auto. }
  unfold search_and_patch. rewrite HS.
  pose proof (c21_loop E d (map (path_at E (r_root r)) (positions_where (fun n => terminal n && rx (shown_text ic n)) (r_root r))) d r
     (fun _ _ => eq_refl) (iff_refl _)) as HL.
  split.
  - intros H. rewrite H in HL. exact HL.
  - intros H. destruct (in_order_fun _ _ _ _ _ _ HL _ _ H) as (H1 & H2).
    destruct (search_and_patch_loop _ _ _ _ _). cbn [fst snd] in *. congruence.
Qed.
Lemma last_cons_default {A} (x : A) l d : last (x :: l) d = last l x.
Proof. revert x d; induction l as [|y l IH]; intros x d; auto. change (last (x :: y :: l) d) with (last (y :: l) d). rewrite !IH. reflexivity. Qed.
Lemma in_order_true E d ps r r' : in_order E d ps r (Ok true) r' <->
  exists rs, length rs = length ps /\ last rs r = r'
    /\ forall i s, nth_error ps i = Some s ->
        exists a b, nth_error (r :: rs) i = Some a /\ nth_error rs i = Some b /\ patch E (JDict (with_path s d)) a = (Ok true, b).
Proof.
  split.
  - intros H. remember (Ok true) as o eqn:Ho. induction H as [r|p ps r r1 o r2 HP H IH|p ps r o r1 HP Hn]; subst; [| |contradiction].
    + exists []. split; auto. split; auto. intros [|i] s; discriminate.
    + destruct (IH eq_refl) as (rs & HL & Hlast & Hall). exists (r1 :: rs). cbn [length]. split; [lia|]. split.
      { rewrite last_cons_default. exact Hlast. }
      intros [|i] s Hs.
      * injection Hs as <-. exists r, r1. auto.
      * destruct (Hall i s Hs) as (a & b & H1 & H2 & H3). exists a, b. auto.
  - intros (rs & HL & Hlast & Hall). revert r rs HL Hlast Hall. induction ps as [|p ps IH]; intros r rs HL Hlast Hall.
    + destruct rs; [|discriminate]. cbn in Hlast. subst. constructor.
    + destruct rs as [|r1 rs]; [discriminate|]. cbn [length] in HL.
      destruct (Hall 0 p eq_refl) as (a & b & [= <-] & [= <-] & HP). apply order_next with r1; auto. apply IH with rs; [lia| |].
      * rewrite <- Hlast, last_cons_default. reflexivity.
      * intros i s Hs. destruct (Hall (S i) s Hs) as (a & b & H1 & H2 & H3). exists a, b. auto.
Qed.
