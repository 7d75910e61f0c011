(** Further proofs for C28. *)
From Verif Require Export HistProofs AskSpec.

Lemma asked sel r : exists t, snd (get_selector_paths sel r) = with_sel r t.
Proof. unfold get_selector_paths. destruct (dget sel (r_sel r)) as [infos|]; [eexists; reflexivity|]. exists (r_sel r). destruct r; reflexivity. Qed.
(** The table has no influence on an edit, and a successful edit of the tree makes it anew. *)
Lemma after_table E e r t : exists t', after E e (with_sel r t) = with_sel (after E e r) t'
  /\ (makes_table e = true -> succeeded E e r -> t' = r_sel (after E e r)).
Proof.
  destruct e as [p|k v|k|path sel mode|path|path c]; cbn [after succeeded makes_table].
  - destruct (schema_valid p) eqn:S.
    2:{ rewrite !patch_invalid by auto. exists t. split; [reflexivity|]. intros _ (H & _). discriminate H. }
    destruct (valid_asks p S) as (q & HQ). rewrite !(patch_asks E p q _ HQ). cbn [with_sel r_root].
    destruct (self_move q) eqn:SM.
    { exists t. split; [reflexivity|]. intros _ (_ & _ & H). destruct q; try discriminate SM. apply str_eqb_eq in SM. subst. exfalso. eapply H; eauto. }
    unfold finish. destruct (perform E q (r_root r)) as [[[|]|e] root']; cbn [fst snd].
    + destruct (is_test q) eqn:T.
      * exists t. split; [reflexivity|]. intros _ (_ & H & _). destruct q; try discriminate T. exfalso. eapply H; eauto.
      * exists (collect_selectors E root'). split; [reflexivity|]. intros _ _. reflexivity.
    + exists t. split; [reflexivity|]. intros _ (H & _). discriminate H.
    + exists t. split; [reflexivity|]. intros _ (H & _). discriminate H.
  - exists t. split; [reflexivity|]. discriminate.
  - exists t. split; [|discriminate]. unfold del_variable. cbn [with_sel r_vars]. destruct (dmem k (r_vars r)); reflexivity.
  - unfold add_selector. cbn [with_sel r_root].
    destruct (str_to_stack_path path) as [st|]; [|exists t; split; [reflexivity|intros _ H; discriminate H]].
    destruct (traverse_pos (r_root r) st) as [q|]; [|exists t; split; [reflexivity|intros _ H; discriminate H]].
    destruct (node_at (r_root r) q) as [n|]; [|exists t; split; [reflexivity|intros _ H; discriminate H]].
    destruct (negb (matched SELECTOR sel)); [exists t; split; [reflexivity|intros _ H; discriminate H]|].
    eexists. cbn [fst snd mark_modified rebuild_selectors with_sel with_root r_sel r_root]. split; reflexivity.
  - unfold remove_selector. cbn [with_sel r_root].
    destruct (str_to_stack_path path) as [st|]; [|exists t; split; [reflexivity|intros _ (s & H); discriminate H]].
    destruct (traverse_pos (r_root r) st) as [q|]; [|exists t; split; [reflexivity|intros _ (s & H); discriminate H]].
    destruct (node_at (r_root r) q) as [n|]; [|exists t; split; [reflexivity|intros _ (s & H); discriminate H]].
    destruct (search_text SELECTOR (n_comment n)); [|exists t; split; [reflexivity|intros _ (s & H); discriminate H]].
    eexists. cbn [fst snd mark_modified rebuild_selectors with_sel with_root r_sel r_root]. split; reflexivity.
  - exists t. split; [|discriminate]. unfold add_comment. cbn [with_sel r_root]. cbv zeta.
    destruct (is_nil (strip c)); [reflexivity|]. destruct (matched SELECTOR (strip c)); [reflexivity|].
    destruct (str_to_stack_path path) as [st|]; [|reflexivity]. destruct (traverse_pos (r_root r) st) as [q|]; [|reflexivity].
    destruct (node_at (r_root r) q) as [n|]; reflexivity.
Qed.
Lemma with_own r : with_sel r (r_sel r) = r. Proof. destruct r; reflexivity. Qed.
Lemma c28_mended E e sel r : makes_table e = true -> succeeded E e r -> after E e (snd (get_selector_paths sel r)) = after E e r.
Proof.
  intros HM HS. destruct (asked sel r) as (t & ->). destruct (after_table E e r t) as (t' & -> & H). rewrite (H HM HS). apply with_own.
Qed.
Lemma called_sel E l : forall r t, exists t', called E l (with_sel r t) = with_sel (run E (edits l) r) t'.
Proof.
  induction l as [|[e|sel] l IH]; intros r t; cbn [called edits flat_map app run].
  - exists t. reflexivity.
  - destruct (after_table E e r t) as (t' & -> & _). apply IH.
  - destruct (asked sel (with_sel r t)) as (t' & ->). apply (IH r t').
Qed.
Lemma c28_history E l r : let r1 := called E l r in let r2 := run E (edits l) r in
  r_root r1 = r_root r2 /\ r_vars r1 = r_vars r2 /\ r_schema r1 = r_schema r2 /\ r_init r1 = r_init r2 /\ r_mod r1 = r_mod r2 /\ render E r1 = render E r2.
Proof. cbv zeta. destruct (called_sel E l r (r_sel r)) as (t & H). rewrite with_own in H. rewrite H. repeat split. Qed.

Lemma dedupe_empty (A : Type) (l : list A) : dedupe (map (fun _ => @nil ascii) l) = match l with [] => [] | _ => [[]] end.
Proof.
  destruct l as [|a l]; [reflexivity|]. unfold dedupe. cbn [map fold_left]. change (dset [] tt []) with [(@nil ascii, tt)].
  replace (fold_left _ _ _) with [(@nil ascii, tt)]; [reflexivity|]. induction l as [|b l IH]; [reflexivity|exact IH].
Qed.
Lemma dedupe_some l : l <> [] -> dedupe l <> [].
Proof.
  destruct l as [|a l]; [contradiction|]. intros _. unfold dedupe. cbn [fold_left].
  assert (forall l (d : list (str * unit)), d <> [] -> dkeys (fold_left (fun d x => dset x tt d) l d) <> []) as G.
  { clear. induction l as [|b l IH]; intros d HD; cbn [fold_left]; [destruct d; [contradiction|discriminate]|].
    apply IH. destruct d as [|(k, v) d]; [contradiction|]. cbn [dset]. destruct (str_eqb b k); discriminate. }
  apply G. discriminate.
Qed.
Lemma c28_second sel r : fst (get_selector_paths sel (snd (get_selector_paths sel r))) =
  match fst (get_selector_paths sel r) with [] => [] | _ => [[]] end.
Proof.
  unfold get_selector_paths at 1 2. destruct (dget sel (r_sel r)) as [infos|] eqn:G; cbn [snd with_sel r_sel].
  - rewrite dget_dset_same. cbn [fst]. rewrite !map_map. cbn [snd stack_path_to_str_mut fst]. unfold get_selector_paths. rewrite G. cbn [fst].
    change (map (fun x => stack_path_to_str []) infos) with (map (fun x : node * stack => @nil ascii) infos). rewrite dedupe_empty.
    pose proof (dedupe_some (map (fun i => fst (stack_path_to_str_mut (snd i))) infos)) as D. destruct infos as [|i infos]; [reflexivity|].
    destruct (dedupe _); [exfalso; apply D; [discriminate|reflexivity]|reflexivity].
  - rewrite G. unfold get_selector_paths. rewrite G. reflexivity.
Qed.
