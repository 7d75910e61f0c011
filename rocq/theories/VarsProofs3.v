(** C132 (proofs only): the whole conversion of a recipe with variables. *)
From Verif Require Export VarsProofs2 GoesProofs.
From Verif Require Import Lemmas FrameProofs FrameProofs2 PatchProofs PatchProofs2 PathProofs PathProofs2 PreProofs2 SectionProofs SectionProofs3 ConvertProofs4 ConvertProofs6 ConvertProofs7
  ContextProofs KeepProofs2 PlainProofs ConvertSpec PlainSpec VarsSpec.
From Verif Require PreSpec2.

(** * There is only one renewed tree *)
Lemma renewed_cases n a : renewed n a ->
  (exists s s' c l, n = Nd (VJ (JStr s)) c [] l MNone false /\ value_with_expression n /\ PreSpec2.markers_changed None s s' /\ a = Nd (VJ (JStr s')) [] [] l MNone false)
  \/ (exists lines, ~ value_with_expression n /\ Forall2 renewed (n_children n) lines /\ a = with_lines n lines).
Proof. intros H. destruct H as [s s' c l V M|n lines V F]; [left; exists s, s', c, l; auto|right; exists lines; auto]. Qed.
Lemma renewed_one n : forall a b, renewed n a -> renewed n b -> a = b.
Proof.
  induction n as [v c chs l ml k IH] using node_ind'. set (n := Nd v c chs l ml k) in *. intros a b A B.
  apply renewed_cases in A as [(s & s' & c0 & l0 & E1 & V & M & ->)|(la & V & F & ->)], B as [(t & t' & c1 & l1 & E2 & V' & M' & ->)|(lb & V' & F' & ->)]; try contradiction.
  - rewrite E1 in E2. injection E2 as -> _ ->. rewrite (c84_unique _ _ _ M _ M'). reflexivity.
  - f_equal. change (n_children n) with chs in *. clear V V'. clear n. revert lb F'. induction F as [|x y xs ys R F IHF]; intros lb F'; inversion F' as [|? ? ? ? R' F'']; subst; [reflexivity|].
    inversion IH as [|? ? IHx IHl]; subst. f_equal; [exact (IHx _ _ R R')|exact (IHF IHl _ F'')].
Qed.
Lemma renew_proper n : forall f, proper_tree n = true -> proper_tree (renew n f) = true.
Proof.
  induction n as [v c chs l ml k IH] using node_ind'. set (n := Nd v c chs l ml k) in *. intros f H. rewrite renew_eq. destruct (hot n && f []) eqn:X.
  - apply andb_prop in X as (X & _). apply hot_is in X as (s & c' & l' & -> & _). reflexivity.
  - unfold with_lines. subst n. cbn [n_value n_comment n_lmf n_ml n_keyf n_children proper_tree] in *. apply andb_prop in H as (H1 & H2). rewrite H1. cbn [andb].
    apply forallb_forall. intros y I. apply in_renews in I as (j & x & Hj & ->). rewrite Forall_forall in IH. apply IH; [exact (nth_error_In _ _ Hj)|].
    rewrite forallb_forall in H2. apply H2. exact (nth_error_In _ _ Hj).
Qed.

(** * The variables *)
Lemma entries_unique vars a b : entries_for vars a -> entries_for vars b -> a = b.
Proof.
  unfold entries_for. generalize (filter (fun kv : str * json => supported (snd kv)) vars). intros l A. revert b.
  induction A as [|x y l a (N & C) A IH]; intros b B; inversion B as [|? z ? b' (N' & C') B']; subst; [reflexivity|].
  rewrite (IH _ B'). f_equal. destruct x as [k v], y as [k1 v1], z as [k2 v2]. cbn [fst snd] in *. subst k1 k2. f_equal.
  inversion C; subst; inversion C'; subst; congruence || contradiction.
Qed.
Lemma entries_primitive vars ctx : entries_for vars ctx -> Forall (fun kv => exists p, snd kv = JP p) ctx.
Proof.
  unfold entries_for. intros F. induction F as [|x y l a (_ & C) F IH]; constructor; [|exact IH]. inversion C; eauto.
Qed.
Lemma context_proper vars ctx root : entries_for vars ctx -> proper_tree root = true -> proper_tree (with_context ctx root) = true.
Proof.
  intros F H. unfold with_context. destruct ctx as [|kv ctx]; [exact H|]. set (x := context_line (kv :: ctx)).
  assert (proper_tree x = true) as X.
  { subst x. unfold context_line. cbn [proper_tree proper_value andb]. apply forallb_forall. intros y I. apply in_map_iff in I as (e & <- & I).
    pose proof (entries_primitive _ _ F) as P. rewrite Forall_forall in P. destruct (P e I) as (p & Q). unfold variable_line. rewrite Q. reflexivity. }
  clearbody x. destruct root as [v c l m u k]. cbn [with_lines n_children proper_tree n_value n_comment n_lmf n_ml n_keyf] in *. apply andb_prop in H as (H1 & H2). rewrite H1, forallb_app, H2. cbn [forallb andb]. rewrite X. reflexivity.
Qed.
(** A line that is added at the end of the document. *)
Lemma top_put_in T s key v x : component key -> isdigit key = false -> key <> $"-" -> written_as (t_env T) (JDict [(PStr key, v)]) [x] ->
  n_children (r_root (v1 s)) <> [] -> n_lmf (r_root (v1 s)) = false -> ~ top_line key (r_root (v1 s)) ->
  exists s', patch_and_log T (p_add (path_text [key]) v) s = (Ok true, s') /\ msgs s' = msgs s
    /\ r_root (v1 s') = with_lines (r_root (v1 s)) (n_children (r_root (v1 s)) ++ [x]).
Proof.
  intros CO DG DA W NC L N. change (path_text [key]) with (path_text ([] ++ [key])).
  destruct (c14_new_key (t_env T) (p_add (path_text ([] ++ [key])) v) [] key v (v1 s) [] (r_root (v1 s)) [x]) as (r' & P & _ & K).
  - apply asks_add. discriminate.
  - apply Forall_cons; [exact CO|apply Forall_nil].
  - exact DG.
  - exact DA.
  - exists [ROOT_VALUE]. split; [vm_compute; reflexivity|]. exact (traverse_pos_components (r_root (v1 s)) []).
  - reflexivity.
  - unfold bare_value, terminal. destruct (n_children (r_root (v1 s))); [contradiction|reflexivity].
  - left. exact L.
  - intros y I X. apply N. exists y. split; [exact I|exact X].
  - exact W.
  - exists {| v1 := r'; msgs := msgs s |}. unfold patch_and_log, andthen at 1, call. rewrite P. cbn [negb when andthen ret]. unfold andthen, ret.
    split; [reflexivity|]. split; [reflexivity|]. cbn [v1]. inversion K as [a b R|]; subst. exact R.
Qed.
(** A document whose paths are unambiguous has no line of the same name before its last line. *)
Lemma last_is_new root x key : addressable (with_lines root (n_children root ++ [x])) = true -> is_key_line x = true -> n_value x = VJ (JStr key) -> ~ top_line key root.
Proof.
  intros A K V (a & I & C). apply addressable_iff in A as (A & _). assert (n_children (with_lines root (n_children root ++ [x])) = n_children root ++ [x]) as Q by (destruct root; reflexivity).
  rewrite Q in A. apply (addressable_list_split _ _ []) in A as (_ & A). specialize (A K). cbn [app] in A.
  assert (existsb (fun y => same_name y x) (n_children root) = true) as B; [|congruence]. apply existsb_exists. exists a. split; [exact I|].
  unfold same_name. rewrite V. unfold called in C. rewrite C. cbn [val_is]. apply str_eqb_eq. reflexivity.
Qed.
Lemma with_lines_children n l : n_children (with_lines n l) = l.
Proof. destruct n; reflexivity. Qed.
Lemma firsts_addressable root x : addressable (with_lines root (n_children root ++ [x])) = true -> addressable root = true.
Proof.
  intros A. apply addressable_iff in A as (A & B). rewrite with_lines_children in *. apply addressable_iff. split.
  - assert (forall l before, addressable_list before (l ++ [x]) = true -> addressable_list before l = true) as Y; [|exact (Y _ _ A)]. clear.
    induction l as [|y l IH]; intros before; cbn [app addressable_list]; [reflexivity|].
    rewrite !andb_true_iff. intros (H1 & H2). split; [exact H1|]. exact (IH _ H2).
  - intros i c H. apply (B i). rewrite nth_error_app1; [exact H|]. apply nth_error_Some. congruence.
Qed.

(** * The end of the conversion *)
Lemma context_value_at E root root' d : context_node root' = context_node root -> get_value E root' $"/context" d None = get_value E root $"/context" d None.
Proof.
  intros H. unfold get_value. change (str_to_stack_path $"/context") with (@Ok stack (rev [$"context"] ++ [ROOT_VALUE])). cbn [bind].
  assert (traverse root' (rev [$"context"] ++ [ROOT_VALUE]) = traverse root (rev [$"context"] ++ [ROOT_VALUE])) as ->; [|reflexivity].
  unfold traverse. rewrite !traverse_pos_components. cbn [traverse_recurse]. unfold context_node in H.
  destruct (step_child root' $"context") as [[i a]|] eqn:S1, (step_child root $"context") as [[j b]|] eqn:S2; cbn [option_map snd] in *; try discriminate; [|reflexivity].
  injection H as ->. pose proof (step_child_nth _ _ _ _ S1) as N1. pose proof (step_child_nth _ _ _ _ S2) as N2. cbn [node_at]. rewrite N1, N2. reflexivity.
Qed.
Lemma context_first root : context_node root = first_named $"context" (n_children root).
Proof.
  unfold context_node, step_child. change (isdigit $"context") with false. cbv iota. generalize 0. induction (n_children root) as [|x l IH]; intros i; cbn [find_child]; [reflexivity|].
  rewrite first_cons. destruct (val_is (n_value x) $"context"); [reflexivity|apply IH].
Qed.
Lemma finish_context T s d : get_value (t_env T) (r_root (v1 s)) $"/context" (Some (JDict [])) None = Ok (JDict d) ->
  exists s', finish_v1 T s = (Ok tt, s') /\ msgs s' = msgs s /\ r_vars (v1 s') = dict_to_vtbl d /\ rearranged (r_root (v1 s)) (r_root (v1 s')).
Proof.
  intros G. unfold finish_v1. unfold andthen at 1, Convert.edit at 1. unfold andthen at 1, sort_keys. cbn [v1 msgs].
  destruct (sort_subtree_keys (r_root (with_vars (v1 s) [])) $"/" TOP_LEVEL_SORT []) as [root|e] eqn:S.
  2:{ exfalso. unfold sort_subtree_keys in S. change (str_to_stack_path $"/") with (@Ok stack [ROOT_VALUE]) in S. cbn [bind] in S.
      destruct (traverse_pos _ _); discriminate. }
  unfold andthen at 1, Convert.edit at 1. cbn [v1 msgs]. unfold andthen at 1, ask. cbn [v1 r_root r_init with_root].
  change (r_root (with_vars (v1 s) [])) with (r_root (v1 s)) in S.
  assert (rearranged (r_root (v1 s)) root /\ context_node root = context_node (r_root (v1 s))) as (R & CN).
  { destruct (c44 _ _ _ _ _ top_table S) as [(_ & ->)|(q & A & K)]; [split; [constructor|reflexivity]|]. apply root_addressed in A as ->. split.
    - eapply changed_again; [constructor|]. eapply weaken; [|exact K]. intros a b (P' & ->). split; [apply P'|]. destruct a; reflexivity.
    - rewrite !context_first. inversion K as [n0 n1 (HS & HR)|]. eapply sorted_first. exact HS. }
  assert (init_vars (t_env T) SV1 (r_init (with_vars (v1 s) [])) root = Ok (dict_to_vtbl d)) as X.
  { unfold init_vars. rewrite (context_value_at _ _ _ _ CN), G. reflexivity. }
  cbn [with_vars r_init] in X. cbn [with_vars with_root r_init r_root v1]. rewrite X. eexists. split; [reflexivity|]. split; [reflexivity|]. split; [reflexivity|exact R].
Qed.

(** * All of it *)
(** The variables and expressions become the section [context] (C80, C126 and C132). *)
Lemma context_goes T s ctx t : let E := t_env T in let full := with_version (with_context ctx (r_root (v1 s))) in
  writes_version E -> (ctx <> [] -> writes_context E ctx) -> (forall l, Permutation (t_order T l) l) ->
  NoDup (map fst (r_vars (v1 s))) -> entries_for (r_vars (v1 s)) ctx ->
  n_children (r_root (v1 s)) <> [] -> n_lmf (r_root (v1 s)) = false -> proper_tree (r_root (v1 s)) = true ->
  addressable_document full = true -> expressions_fit E full -> renewed full t ->
  proper_tree t = true /\ exists s0, upgrade_jinja_to_context_obj T s = (Ok tt, s0)
  /\ get_messages ERROR (msgs s0) = get_messages ERROR (msgs s) /\ r_root (v1 s0) = t.
Proof.
  cbv zeta. set (root := r_root (v1 s)). set (full := with_version (with_context ctx root)).
  intros HW HC HO ND HE NC LM HP AD XF RN.
  assert (t = renew full (fun _ => true)) as TT.
  { apply (renewed_one full); [exact RN|]. apply renew_all. intros p x. exact (fit_hot (t_env T) full p x AD XF). }
  pose proof AD as AD'. unfold addressable_document in AD'. rewrite !andb_true_iff in AD'. destruct AD' as (_ & AF).
  assert (n_children (with_context ctx root) <> [] /\ n_lmf (with_context ctx root) = false) as (NC' & LM').
  { unfold with_context. destruct ctx as [|kv ctx]; [split; [exact NC|exact LM]|]. rewrite with_lines_children. split; [|destruct root; exact LM].
    destruct (n_children root); discriminate. }
  assert (~ top_line $"schema_version" (with_context ctx root)) as NV by (apply (last_is_new _ version_line); [exact AF|reflexivity|reflexivity]).
  split; [rewrite TT; apply renew_proper; unfold full; apply version_proper; eapply context_proper; eassumption|].
  destruct (c80_of (r_vars (v1 s)) [] s) as (ctx' & sa & Ma & Fa & Va & _ & Ea & _); [exact ND|]. cbn [app] in Ma.
  assert (ctx' = ctx) as -> by (exact (entries_unique _ _ _ Fa HE)).
  assert (exists sb, when (negb (is_nil ctx))
      (do! when (negb (is_nil (complex_jinja ctx)))
             (say WARNING ($"The following key(s) contain unsupported syntax: " ++ join $", " (complex_jinja ctx))) in
       do! patch_and_log T (p_add $"/context" (JDict (map (fun kv => (PStr (fst kv), snd kv)) ctx))) in ret tt) sa = (Ok tt, sb)
      /\ get_messages ERROR (msgs sb) = get_messages ERROR (msgs sa) /\ r_root (v1 sb) = with_context ctx root) as (sb & Mb & Eb & Vb).
  { destruct ctx as [|kv ctx0]; [exists sa; split; [reflexivity|]; split; [reflexivity|]; rewrite Va; reflexivity|]. set (ctx := kv :: ctx0) in *.
    change (is_nil ctx) with false. cbn [negb when]. 
    assert (exists sc, when (negb (is_nil (complex_jinja ctx)))
             (say WARNING ($"The following key(s) contain unsupported syntax: " ++ join $", " (complex_jinja ctx))) sa = (Ok tt, sc)
             /\ get_messages ERROR (msgs sc) = get_messages ERROR (msgs sa) /\ v1 sc = v1 sa) as (sc & Mc & Ec & Vc).
    { destruct (is_nil (complex_jinja ctx)); cbn [negb when]; [exists sa; repeat split|]. unfold say. eexists. split; [reflexivity|]. cbn [msgs v1]. split; [|reflexivity].
      rewrite (add_one_more WARNING _ (msgs sa) ERROR). reflexivity. }
    unfold andthen at 1. rewrite Mc. change $"/context" with (path_text [$"context"]).
    destruct (top_put_in T sc $"context" (context_value_of ctx) (context_line ctx)) as (sd & Md & Xd & Vd); [comp|reflexivity|discriminate|apply HC; discriminate| | | |].
    - rewrite Vc, Va. exact NC.
    - rewrite Vc, Va. exact LM.
    - rewrite Vc, Va. fold root. apply (last_is_new _ (context_line ctx)); [|reflexivity|reflexivity]. unfold full, with_version in AF. apply firsts_addressable in AF.
      exact AF.
    - exists sd. unfold andthen. unfold context_value_of in Md. rewrite Md. split; [reflexivity|]. split; [rewrite Xd; exact Ec|]. rewrite Vd, Vc, Va. reflexivity. }
  destruct (version_put_in T sb HW) as (sc & Mc & Xc & Vc); [rewrite Vb; exact NC'|rewrite Vb; exact LM'|rewrite Vb; exact NV|].
  rewrite Vb in Vc. fold full in Vc.
  destruct (markers_done T full AD XF sc HO Vc) as (sd & Md & Xd & Vd & _).
  exists sd. split.
  - unfold upgrade_jinja_to_context_obj. unfold andthen at 1, ask at 1. unfold andthen at 1. rewrite Ma. unfold andthen at 1. rewrite Mb. unfold andthen at 1. rewrite Mc.
    unfold andthen at 1, ask at 1. rewrite Vc. exact Md.
  - split; [rewrite Xd, Xc, Eb, Ea; reflexivity|]. rewrite Vd, TT. reflexivity.
Qed.
Lemma c132 T s ctx t d : let E := t_env T in let full := with_version (with_context ctx (r_root (v1 s))) in
  writes_version E -> (ctx <> [] -> writes_context E ctx) -> (forall l, Permutation (t_order T l) l) ->
  r_sel (v1 s) = [] -> NoDup (map fst (r_vars (v1 s))) -> entries_for (r_vars (v1 s)) ctx ->
  n_children (r_root (v1 s)) <> [] -> n_lmf (r_root (v1 s)) = false -> proper_tree (r_root (v1 s)) = true -> comments_have_paths E (r_root (v1 s)) ->
  addressable_document full = true -> expressions_fit E full -> renewed full t ->
  nothing_old t -> about_fine E (find_closest_license_match (t_close T) (t_licenses T)) t -> readable_parts E t ->
  get_value E t $"/context" (Some (JDict [])) None = Ok (JDict d) ->
  exists text s', without_errors (render_to_v1 T) s text s' /\ rearranged t (r_root (v1 s')) /\ r_vars (v1 s') = dict_to_vtbl d.
Proof.
  cbv zeta. set (root := r_root (v1 s)). set (full := with_version (with_context ctx root)).
  intros HW HC HO HS ND HE NC LM HP CP AD XF RN NO HA (RS & RA) GV.
  destruct (context_goes T s ctx t HW HC HO ND HE NC LM HP AD XF RN) as (PT & s0 & U2 & X0 & V0).
  assert (upgrade_selectors_to_conditionals T s = (Ok tt, s)) as U1.
  { unfold upgrade_selectors_to_conditionals, andthen, ask. rewrite HS. reflexivity. }
  assert (GoesProofs.ready T true s0) as R0.
  { split; [|split; [split; cbn [view fst]; rewrite V0; assumption|unfold summary_fine; rewrite V0; exact RA]].
    rewrite V0. exact PT. }
  destruct (goes_misspelled T true s0 R0) as (sa & Ma & Xa & Sa & Ra).
  assert (sources_fine T (r_root (v1 sa))) as SF.
  { assert (sa = s0) as ->.
    { pose proof (still_misspelled T true s0 (ready_nothing T true s0 R0)) as Y. congruence. }
    unfold sources_fine. rewrite V0. exact RS. }
  destruct (goes_sources T true sa Ra SF) as (sb & Mb & Xb & Sb & Rb).
  destruct (goes_build T true sb Rb) as (sc & Mc & Xc & Sc & Rc).
  destruct (goes_requirements T true sc Rc) as (sd & Md & Xd & Sd & Rd).
  destruct (goes_about T true eq_refl sd Rd) as (se & Me & Xe & Se & Re).
  destruct (goes_tests T true se Re) as (sf & Mf & Xf & Sf & Rf).
  destruct (goes_outputs T true [$"/"] sf Rf) as (sg & Mg & Xg & Sg & Rg).
  pose proof (settled_trans _ _ _ Sa (settled_trans _ _ _ Sb (settled_trans _ _ _ Sc (settled_trans _ _ _ Sd (settled_trans _ _ _ Se (settled_trans _ _ _ Sf Sg)))))) as (R & _ & KC & _).
  cbn [view fst] in R, KC. rewrite V0 in R, KC.
  assert (upgrades T s = (Ok tt, sg)) as M1.
  { unfold upgrades. unfold andthen at 1. rewrite U1. unfold andthen at 1. rewrite U2. unfold andthen at 1, ask.
    rewrite (GoesProofs.package_paths T true _ (ready_nothing T true s0 R0)). unfold andthen at 1. rewrite Ma. unfold andthen at 1. rewrite Mb.
    unfold andthen at 1. rewrite Mc. unfold andthen at 1. rewrite Md. unfold andthen at 1. rewrite Me. unfold andthen at 1. rewrite Mf. exact Mg. }
  destruct (lost_goes T (get_comments_table (t_env T) root) sg (comment_keys _ _ CP)) as (s2 & M2 & V2 & X2).
  destruct (finish_context T s2 d) as (s3 & M3 & X3 & V3 & R3).
  { rewrite V2, (context_value_at _ _ _ _ KC). exact GV. }
  exists (render (t_env T) (v1 s3)), s3. split; [split|split; [|exact V3]].
  - unfold render_to_v1. unfold andthen at 1, ask at 1. unfold andthen at 1. rewrite M1. unfold andthen at 1. fold root. rewrite M2. unfold andthen at 1. rewrite M3. reflexivity.
  - rewrite X3, X2, Xg, Xf, Xe, Xd, Xc, Xb, Xa. exact X0.
  - rewrite V2 in R3. exact (rearranged_trans _ _ _ R R3).
Qed.
