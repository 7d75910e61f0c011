(** Editing histories. *)
From Verif Require Export SelProofs3.

Lemma asks_fun p q q' : asks p q -> asks p q' -> q = q'.
Proof.
  intros H H'. destruct H as (d & -> & _ & _ & H), H' as (d' & E & _ & _ & H'). injection E as <-.
  destruct q, q'; destruct H as (O & P & HR), H' as (O' & P' & HR'); rewrite O in O'; try discriminate O';
  rewrite P in P'; injection P' as ->; try reflexivity;
  destruct HR as (_ & HR), HR' as (_ & HR'); rewrite HR in HR'; injection HR' as ->; reflexivity.
Qed.
Lemma patch_facts E p r : r_init (snd (patch E p r)) = r_init r /\ r_schema (snd (patch E p r)) = r_schema r /\ r_vars (snd (patch E p r)) = r_vars r.
Proof.
  destruct (schema_valid p) eqn:S; [|rewrite patch_invalid by auto; auto]. destruct (valid_asks p S) as (q & HQ).
  rewrite (patch_asks E p q r HQ). destruct (self_move q); auto. unfold finish. destruct (fst (perform E q (r_root r))) as [[|]|]; auto. destruct (is_test q); auto.
Qed.
(** One call: it succeeded and set the flag, or it did nothing, or it is a failed move, which leaves the flag. *)
Definition quiet (E : env) (e : edit) (r : recipe) : Prop :=
  r_mod (after E e r) = r_mod r /\ (failed_move E e r \/ after E e r = r).
Lemma patch_step E p r : (succeeded E (EPatch p) r /\ r_mod (snd (patch E p r)) = true
    /\ r_sel (snd (patch E p r)) = collect_selectors E (r_root (snd (patch E p r))))
  \/ (~ succeeded E (EPatch p) r /\ quiet E (EPatch p) r).
Proof.
  unfold quiet. cbn [succeeded after]. destruct (schema_valid p) eqn:S.
  2:{ right. rewrite patch_invalid by auto. cbn [fst snd]. split; [intros (H & _); discriminate|auto]. }
  destruct (valid_asks p S) as (q & HQ). destruct (self_move q) eqn:SM.
  { right. rewrite (patch_asks E p q r HQ), SM. cbn [fst snd]. split; [|auto]. intros (_ & _ & H).
    destruct q; try discriminate SM. cbn [self_move] in SM. apply str_eqb_eq in SM. subst. eapply H; eauto. }
  destruct (is_test q) eqn:T.
  { right. destruct q as [| | | | |path v]; try discriminate T. destruct (c09 E p path v r HQ) as (H1 & _). rewrite H1. split; [|auto].
    intros (_ & H & _). eapply H; eauto. }
  assert (fst (patch E p r) = Ok true \/ fst (patch E p r) <> Ok true) as [HO|HO].
  { destruct (fst (patch E p r)) as [[|]|]; auto; right; discriminate. }
  - left. destruct (patch E p r) as [o r'] eqn:HP. cbn [fst snd] in *. subst o.
    destruct (patch_success E p q r r' HQ SM T HP) as (root' & _ & _ & _ & H2 & H3). split; auto. split; auto. split.
    + intros path v HA. pose proof (asks_fun _ _ _ HQ HA) as ->. discriminate.
    + intros s HA. pose proof (asks_fun _ _ _ HQ HA) as ->. cbn [self_move] in SM. rewrite str_eqb_refl in SM. discriminate.
  - right. split; [intros (H & _); auto|]. destruct (is_move q) eqn:M.
    + destruct q as [| | |from path| |]; try discriminate M. split.
      * rewrite (patch_asks E p _ r HQ), SM in HO |- *. rewrite finish_fail by exact HO. reflexivity.
      * left. exists p, from, path. auto.
    + pose proof (c10 E p q r HQ M HO) as HH. rewrite HH. auto.
Qed.
Lemma step E e r : (succeeded E e r /\ r_mod (after E e r) = true
    /\ (~ is_comment_edit e -> r_sel r = collect_selectors E (r_root r) -> r_sel (after E e r) = collect_selectors E (r_root (after E e r))))
  \/ (~ succeeded E e r /\ quiet E e r).
Proof.
  destruct e as [p|k v|k|path sel mode|path|path cm].
  - destruct (patch_step E p r) as [(H1 & H2 & H3)|H]; [left; auto|right; auto].
  - left. split; [exact I|]. split; auto.
  - cbn [succeeded after]. unfold quiet. cbn [after]. unfold del_variable, list_variables. destruct (dmem k (r_vars r)) eqn:D.
    + left. split; [apply dmem_In; auto|]. split; auto.
    + right. split; [intros H; apply dmem_In in H; congruence|auto].
  - cbn [succeeded after]. unfold quiet. cbn [after]. unfold add_selector.
    destruct (str_to_stack_path path) as [st|]; [|right; split; [discriminate|auto]].
    destruct (traverse_pos (r_root r) st) as [q|]; [|right; split; [discriminate|auto]].
    destruct (node_at (r_root r) q) as [n|]; [|right; split; [discriminate|auto]].
    destruct (negb (matched SELECTOR sel)); [right; split; [discriminate|auto]|]. left. split; [reflexivity|]. split; auto.
  - cbn [succeeded after]. unfold quiet. cbn [after]. unfold remove_selector.
    destruct (str_to_stack_path path) as [st|]; [|right; split; [intros (s & H); discriminate|auto]].
    destruct (traverse_pos (r_root r) st) as [q|]; [|right; split; [intros (s & H); discriminate|auto]].
    destruct (node_at (r_root r) q) as [n|]; [|right; split; [intros (s & H); discriminate|auto]].
    destruct (search_text SELECTOR (n_comment n)) as [s|]; [|right; split; [intros (s & H); discriminate|auto]]. left. split; [exists s; reflexivity|]. split; auto.
  - cbn [succeeded after]. unfold quiet. cbn [after]. unfold add_comment.
    destruct (is_nil (strip cm)); [right; split; [discriminate|auto]|]. destruct (matched SELECTOR (strip cm)); [right; split; [discriminate|auto]|].
    destruct (str_to_stack_path path) as [st|]; [|right; split; [discriminate|auto]].
    destruct (traverse_pos (r_root r) st) as [q|]; [|right; split; [discriminate|auto]].
    destruct (node_at (r_root r) q) as [n|]; [|right; split; [discriminate|auto]]. left. split; [reflexivity|]. split; auto.
    intros H. exfalso. apply H. eexists _, _. reflexivity.
Qed.
Lemma after_frame E e r : r_init (after E e r) = r_init r /\ r_schema (after E e r) = r_schema r.
Proof.
  destruct e as [p|k v|k|path sel mode|path|path cm]; cbn [after].
  - destruct (patch_facts E p r) as (H1 & H2 & _). auto.
  - auto.
  - unfold del_variable. destruct (dmem k (r_vars r)); auto.
  - unfold add_selector. brk.
  - unfold remove_selector. brk.
  - unfold add_comment. brk.
Qed.
Lemma after_vars E e r : r_vars (after E e r) = match e with
  | ESetVar k v => dset k v (r_vars r) | EDelVar k => if dmem k (r_vars r) then ddel k (r_vars r) else r_vars r | _ => r_vars r end.
Proof.
  destruct e as [p|k v|k|path sel mode|path|path cm]; cbn [after].
  - apply patch_facts.
  - auto.
  - unfold del_variable. destruct (dmem k (r_vars r)); auto.
  - unfold add_selector. brk.
  - unfold remove_selector. brk.
  - unfold add_comment. brk.
Qed.

(** * C18 *)
Lemma run_cons E e h r : run E (e :: h) r = run E h (after E e r). Proof. reflexivity. Qed.
Lemma mod_stays E h r : r_mod r = true -> r_mod (run E h r) = true.
Proof.
  revert r; induction h as [|e h IH]; intros r H; auto. rewrite run_cons. apply IH.
  destruct (step E e r) as [(_ & H1 & _)|(_ & H1 & _)]; congruence.
Qed.
Lemma c18_flag E h r : r_mod r = false -> (r_mod (run E h r) = true <-> some_succeeded E h r).
Proof.
  revert r; induction h as [|e h IH]; intros r H; [cbn; split; [congruence|tauto]|]. rewrite run_cons. cbn [some_succeeded].
  destruct (step E e r) as [(HS & H1 & _)|(HS & H1 & _)].
  - split; auto. intros _. apply mod_stays; auto.
  - rewrite IH by congruence. tauto.
Qed.
Lemma c18_unmodified E h r : r_mod r = false -> no_failed_move E h r -> r_mod (run E h r) = false -> run E h r = r.
Proof.
  revert r; induction h as [|e h IH]; intros r H HN HM; auto. rewrite run_cons in *. destruct HN as (HN1 & HN2).
  destruct (step E e r) as [(HS & H1 & _)|(HS & H1 & [HF|HF])]; [|contradiction|].
  - rewrite mod_stays in HM by auto. discriminate.
  - rewrite HF in *. apply IH; auto.
Qed.
Lemma c18_frame E h r : r_init (run E h r) = r_init r /\ r_schema (run E h r) = r_schema r.
Proof.
  revert r; induction h as [|e h IH]; intros r; [split; reflexivity|]. rewrite run_cons.
  destruct (IH (after E e r)) as (-> & ->). apply after_frame.
Qed.
Lemma c18_diff E unified r : diff E unified r = if r_mod r then unified (splitlines (r_init r)) (splitlines (render E r)) else [].
Proof. reflexivity. Qed.

(** * C19 *)
Lemma c19_table E h r : r_sel r = collect_selectors E (r_root r) -> no_failed_move E h r -> (forall e, In e h -> ~ is_comment_edit e) ->
  r_sel (run E h r) = collect_selectors E (r_root (run E h r)).
Proof.
  revert r; induction h as [|e h IH]; intros r H HN HC; auto. rewrite run_cons. destruct HN as (HN1 & HN2).
  apply IH; auto; [|intros e' He; apply HC; right; auto].
  destruct (step E e r) as [(_ & _ & H1)|(_ & _ & [HF|HF])]; [|contradiction|rewrite HF; auto].
  apply H1; auto. apply HC. left; auto.
Qed.
Lemma fresh_facts E text r : new_recipe E text = Ok r ->
  r_sel r = collect_selectors E (r_root r) /\ r_mod r = false /\ r_init r = text /\ NoDup (dkeys (r_vars r)).
Proof.
  unfold new_recipe. destruct (parse_tree E text) as [root|]; [|discriminate]. cbn [bind].
  destruct (detect_schema E root) as [sv|]; [|discriminate]. cbn [bind].
  destruct (init_vars E sv text root) as [vars|] eqn:V; [|discriminate]. cbn [bind]. intros [= <-]. cbn [r_sel r_root r_mod r_init r_vars].
  repeat split; auto.
  assert (forall {A} (l : list A) (f : vtbl -> A -> vtbl), (forall t a, NoDup (dkeys t) -> NoDup (dkeys (f t a))) ->
          forall t, NoDup (dkeys t) -> NoDup (dkeys (fold_left f l t))) as HF.
  { intros A l f Hf. induction l as [|x l IH]; intros t Ht; cbn [fold_left]; auto. }
  unfold init_vars in V. destruct sv.
  - injection V as <-. unfold init_vars_v0. apply HF; [|constructor]. intros t a Ht. apply dset_NoDup; auto.
  - destruct (get_value E root $"/context" (Some (JDict [])) None) as [[p|l|d]|]; try discriminate. injection V as <-.
    unfold dict_to_vtbl. apply HF; [|constructor]. intros t a Ht. apply dset_NoDup; auto.
Qed.

(** * C37 *)
Lemma after_NoDup E e r : NoDup (dkeys (r_vars r)) -> NoDup (dkeys (r_vars (after E e r))).
Proof.
  intros H. rewrite after_vars. destruct e as [p|k v|k|path sel mode|path|path cm]; auto; [apply dset_NoDup; auto|].
  destruct (dmem k (r_vars r)); auto. apply ddel_NoDup; auto.
Qed.
Lemma after_get E e r x : NoDup (dkeys (r_vars r)) -> dget x (r_vars (after E e r)) = match last_word x [e] with
  | VSet v => Some v | VGone => None | VUntouched => dget x (r_vars r) end.
Proof.
  intros H. rewrite after_vars. cbn [last_word]. destruct e as [p|k v|k|path sel mode|path|path cm]; auto.
  - destruct (list_eq_dec ascii_dec x k) as [->|N]; [apply dget_dset_same|apply dget_dset_other; auto].
  - destruct (list_eq_dec ascii_dec x k) as [->|N].
    + destruct (dmem k (r_vars r)) eqn:D; [apply dget_ddel_same; auto|]. unfold dmem in D. destruct (dget k (r_vars r)); [discriminate|reflexivity].
    + destruct (dmem k (r_vars r)); auto. apply dget_ddel_other; auto.
Qed.
Lemma c37_get E h x : forall r, NoDup (dkeys (r_vars r)) -> dget x (r_vars (run E h r)) = match last_word x h with
  | VSet v => Some v | VGone => None | VUntouched => dget x (r_vars r) end.
Proof.
  induction h as [|e h IH]; intros r H; [reflexivity|]. rewrite run_cons, IH by (apply after_NoDup; auto). 
  cbn [last_word]. destruct (last_word x h); auto. rewrite after_get by auto. reflexivity.
Qed.
Lemma c37 E h r x d : NoDup (list_variables r) ->
  get_variable x d (run E h r) = match last_word x h with
    | VSet v => Ok v
    | VGone => match d with Some d => Ok d | None => Err EKey end
    | VUntouched => get_variable x d r
    end
  /\ contains_variable x (run E h r) = match last_word x h with VSet v => true | VGone => false | VUntouched => contains_variable x r end.
Proof.
  intros H. unfold get_variable, contains_variable, dmem. rewrite (c37_get E h x r H). destruct (last_word x h); auto.
Qed.
Lemma remove_filter k l : filter (fun x => negb (str_eqb k x)) l = remove (list_eq_dec ascii_dec) k l.
Proof.
  induction l as [|y l IH]; auto. cbn [filter remove]. destruct (list_eq_dec ascii_dec k y) as [->|N].
  - rewrite str_eqb_refl. auto.
  - apply str_eqb_neq in N. rewrite N. cbn [negb]. f_equal. auto.
Qed.
Lemma c37_order E h : forall r, NoDup (list_variables r) -> list_variables (run E h r) = fold_left var_order h (list_variables r) /\ NoDup (list_variables (run E h r)).
Proof.
  unfold list_variables. induction h as [|e h IH]; intros r H; [auto|]. rewrite run_cons. cbn [fold_left].
  destruct (IH (after E e r) (after_NoDup E e r H)) as (-> & HN). split; auto. f_equal. rewrite after_vars.
  destruct e as [p|k v|k|path sel mode|path|path cm]; auto; cbn [var_order].
  - rewrite dkeys_dset. destruct (dmem k (r_vars r)) eqn:D, (in_dec (list_eq_dec ascii_dec) k (dkeys (r_vars r))) as [HI|HI]; auto.
    + apply dmem_In in D. contradiction.
    + apply dmem_In in HI. congruence.
  - destruct (dmem k (r_vars r)) eqn:D.
    + rewrite dkeys_ddel by auto. apply remove_filter.
    + symmetry. apply notin_remove. intros HI. apply dmem_In in HI. congruence.
Qed.

(** * Checking a condition on all lines of a concrete tree *)
Definition all_lines (f : node -> bool) (root : node) : bool :=
  forallb (fun p => match node_at root p with Some n => f n | None => true end) (preorder root).
Lemma all_lines_spec f root : all_lines f root = true -> forall p n, node_at root p = Some n -> f n = true.
Proof.
  unfold all_lines. rewrite forallb_forall. intros H p n Hn. specialize (H p (node_at_preorder _ _ _ Hn)). rewrite Hn in H. exact H.
Qed.
Lemma no_emptied_check root : is_comment root = false ->
  all_lines (fun n => negb (is_sent (n_value n) && is_nil (n_children n) && is_nil (n_comment n))) root = true -> no_emptied_element root.
Proof.
  intros HR H. split; auto. intros p n Hn HV HC HE. pose proof (all_lines_spec _ _ H p n Hn) as HH. cbn beta in HH. rewrite HV, HC, HE in HH. discriminate.
Qed.
Lemma every_comment_check (f : str -> bool) (P : str -> Prop) root : (forall s, f s = true -> P s) ->
  all_lines (fun n => is_nil (n_comment n) || f (n_comment n)) root = true -> every_comment P root.
Proof.
  intros HF H p n Hn HC. apply HF. pose proof (all_lines_spec _ _ H p n Hn) as HH. cbn beta in HH.
  apply is_nil_false in HC. rewrite HC in HH. exact HH.
Qed.
Lemma not_elements_check root : all_lines (fun n => negb (is_comment n && n_lmf n)) root = true -> comment_lines_not_elements root.
Proof.
  intros H p n Hn HC. pose proof (all_lines_spec _ _ H p n Hn) as HH. cbn beta in HH. rewrite HC in HH. destruct (n_lmf n); [discriminate|reflexivity].
Qed.
Lemma one_line_check s : negb (existsb (ceq cNL) s) = true -> one_line s.
Proof.
  intros H HI. apply negb_true_iff in H. assert (existsb (ceq cNL) s = true); [|congruence]. apply existsb_exists. exists cNL. rewrite ceq_refl. auto.
Qed.
Lemma hash_check s : match s with c :: _ => ceq c cHASH | [] => false end = true -> starts_with_hash s.
Proof. destruct s as [|c t]; [discriminate|]. intros H. apply ceq_eq in H as ->. eexists; reflexivity. Qed.
(** * C28 *)
Lemma c28_partial sel sel' r : let r' := snd (get_selector_paths sel r) in
  r_root r' = r_root r /\ same_but_tree r r' /\ r_mod r' = r_mod r
  /\ list_selectors r' = list_selectors r
  /\ (sel' <> sel -> fst (get_selector_paths sel' r') = fst (get_selector_paths sel' r)).
Proof.
  unfold get_selector_paths at 1. destruct (dget sel (r_sel r)) as [l|] eqn:D; cbv zeta; cbn [snd].
  2:{ split; [auto|]. split; [repeat split|]. auto. }
  split; [auto|]. split; [repeat split|]. split; [auto|]. split.
  - unfold list_selectors. cbn [with_sel r_sel]. rewrite dkeys_dset. unfold dmem. rewrite D. reflexivity.
  - intros HN. rewrite !c08_selector_paths. cbn [with_sel r_sel]. rewrite dget_dset_other by auto. reflexivity.
Qed.
