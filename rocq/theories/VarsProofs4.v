(** C132 (proofs only): old names, and checks for examples. *)
From Verif Require Export VarsProofs3.
From Verif Require Import Lemmas PathProofs PathProofs2 PreProofs2 ContextProofs PlainProofs PlainSpec VarsSpec.
From Verif Require PreSpec2.

(** * Nothing old appears *)
Definition brace : ascii := "{"%char.
Lemma json_brace c : In brace (json_char c) -> c = brace.
Proof. intros H. destruct c as [[] [] [] [] [] [] [] []]; vm_compute in H; vm_compute; intuition discriminate. Qed.
Lemma quoted_brace s m : In brace (quote_special_strings s m) -> In brace s.
Proof.
  unfold quote_special_strings. destruct (_ || _ || _); [auto|]. destruct (_ || _ || _); [|auto]. unfold json_dumps_str. intros [H|H]; [discriminate|].
  apply in_app_or in H as [H|[H|[]]]; [|discriminate]. apply in_flat_map in H as (c & I & H). apply json_brace in H as ->. exact I.
Qed.
Lemma expression_brace s : has_expression s -> In brace s.
Proof. intros (x & (w & v & u & -> & _) & a & b & ->). apply in_or_app. right. left. reflexivity. Qed.
Lemma markers_kept prev s s' c : PreSpec2.markers_changed prev s s' -> In c s -> In c s'.
Proof.
  intros H. induction H as [prev|prev s s' P H IH|prev x s s' P H IH]; [auto| |].
  - change ($"{{" ++ s) with (brace :: brace :: s). change ($"${{" ++ s') with ("$"%char :: brace :: brace :: s'). cbn [In]. tauto.
  - cbn [In]. tauto.
Qed.
Lemma called_renew s n f : called s (renew n f) -> In brace s \/ called s n.
Proof.
  unfold called. rewrite renew_eq. destruct (hot n && f []) eqn:X; [|intros H; right; destruct n; exact H]. apply andb_prop in X as (X & _).
  apply hot_is in X as (x & c & l & -> & _ & V). cbn [renew_node n_value]. intros [= <-]. left. apply (markers_kept None x); [apply c84_all|].
  apply expression_brace in V. unfold searched_text in V. cbn [n_value stringify_yaml] in V. rewrite app_nil_r in V. exact (quoted_brace _ _ V).
Qed.
Lemma child_renew y n f : In y (n_children (renew n f)) -> exists x g, In x (n_children n) /\ y = renew x g.
Proof. rewrite renew_children. intros H. apply in_renews in H as (j & x & Hj & ->). eexists x, _. split; [exact (nth_error_In _ _ Hj)|reflexivity]. Qed.
Definition braceless (s : str) : bool := negb (existsb (Ascii.eqb brace) s).
Lemma braceless_is s : braceless s = true -> ~ In brace s.
Proof. unfold braceless. rewrite negb_true_iff. intros H I. assert (existsb (Ascii.eqb brace) s = true); [|congruence]. apply existsb_exists. exists brace. split; [exact I|apply Ascii.eqb_refl]. Qed.
Lemma top_renew s n f : ~ In brace s -> top_line s (renew n f) -> top_line s n.
Proof. intros B (y & I & C). apply child_renew in I as (x & g & I & ->). apply called_renew in C as [C|C]; [contradiction|]. exists x. auto. Qed.
Lemma section_renew s c n f : ~ In brace s -> ~ In brace c -> section_line s c (renew n f) -> section_line s c n.
Proof.
  intros B B' (y & z & I & C & J & D). apply child_renew in I as (x & g & I & ->). apply called_renew in C as [C|C]; [contradiction|].
  apply child_renew in J as (w & h & J & ->). apply called_renew in D as [D|D]; [contradiction|]. exists x, w. auto.
Qed.
Lemma source_renew c n f : ~ In brace c -> source_line c (renew n f) -> source_line c n.
Proof.
  intros B [H|(y & e & z & I & C & J & L & K & D)]; [left; revert H; apply section_renew; [|exact B]; apply braceless_is; reflexivity|right].
  apply child_renew in I as (x & g & I & ->). apply called_renew in C as [C|C]; [exfalso; revert C; apply braceless_is; reflexivity|].
  apply child_renew in J as (w & h & J & ->). destruct (renew_same w h) as (Q & _). rewrite Q in L.
  apply child_renew in K as (v & i & K & ->). apply called_renew in D as [D|D]; [contradiction|]. exists x, w, v. auto 8.
Qed.
Lemma all_braceless l s : forallb braceless l = true -> In s l -> ~ In brace s.
Proof. rewrite forallb_forall. intros H I. apply braceless_is, H, I. Qed.
Lemma nothing_renew n f : nothing_old n -> nothing_old (renew n f).
Proof.
  intros (A & B & C). split; [|split].
  - intros s I H. apply (A s I). revert H. apply top_renew. apply (all_braceless old_sections); [vm_compute; reflexivity|exact I].
  - intros s c I H. apply (B s c I). revert H. apply section_renew.
    + apply (all_braceless (map fst old_fields)); [vm_compute; reflexivity|]. change s with (fst (s, c)). apply in_map. exact I.
    + apply (all_braceless (map snd old_fields)); [vm_compute; reflexivity|]. change c with (snd (s, c)). apply in_map. exact I.
  - intros c I H. apply (C c I). revert H. apply source_renew. apply (all_braceless old_source_fields); [vm_compute; reflexivity|exact I].
Qed.
Lemma in_context ctx root a : In a (n_children (with_context ctx root)) -> In a (n_children root) \/ called $"context" a.
Proof.
  unfold with_context. destruct ctx as [|kv ctx]; [auto|]. set (x := context_line _). assert (called $"context" x) as X by reflexivity. clearbody x.
  rewrite with_lines_children. intros I. apply in_app_or in I as [I|[<-|[]]]; auto.
Qed.
Lemma context_nothing ctx root : nothing_old root -> nothing_old (with_context ctx root).
Proof.
  assert (forall s a, called $"context" a -> called s a -> s = $"context") as Y by (unfold called; congruence).
  assert (forall s l, existsb (str_eqb $"context") l = false -> In s l -> s <> $"context") as X.
  { intros s l H I ->. assert (existsb (str_eqb $"context") l = true); [|congruence]. apply existsb_exists. exists $"context". split; [exact I|apply str_eqb_eq; reflexivity]. }
  intros (A & B & C). split; [|split].
  - intros s I (a & J & K). apply in_context in J as [J|J]; [exact (A s I (ex_intro _ a (conj J K)))|].
    apply (Y _ _ J) in K. revert K. apply (X s old_sections); [vm_compute; reflexivity|exact I].
  - intros s c I (a & b & J & K & J2 & K2). apply in_context in J as [J|J]; [apply (B s c I); exists a, b; auto|].
    apply (Y _ _ J) in K. revert K. apply (X s (map fst old_fields)); [vm_compute; reflexivity|]. change s with (fst (s, c)). apply in_map. exact I.
  - intros c I [(a & b & J & K & J2 & K2)|(a & e & b & J & K & J2 & F & J3 & K3)].
    + apply in_context in J as [J|J]; [apply (C c I); left; exists a, b; auto|]. apply (Y _ _ J) in K. discriminate.
    + apply in_context in J as [J|J]; [apply (C c I); right; exists a, e, b; auto 8|]. apply (Y _ _ J) in K. discriminate.
Qed.

(** * The theorem with the condition on the old fields for the recipe itself *)
Lemma c132_recipe T s ctx t d : let E := t_env T in let root := r_root (v1 s) in let full := with_version (with_context ctx root) in
  writes_version E -> (ctx <> [] -> writes_context E ctx) -> (forall l, Permutation (t_order T l) l) ->
  r_sel (v1 s) = [] -> NoDup (map fst (r_vars (v1 s))) -> entries_for (r_vars (v1 s)) ctx ->
  n_children root <> [] -> n_lmf root = false -> proper_tree root = true -> comments_have_paths E root -> nothing_old root ->
  addressable_document full = true -> expressions_fit E full -> renewed full t ->
  about_fine E (find_closest_license_match (t_close T) (t_licenses T)) t -> readable_parts E t ->
  get_value E t $"/context" (Some (JDict [])) None = Ok (JDict d) ->
  exists text s', without_errors (render_to_v1 T) s text s' /\ rearranged t (r_root (v1 s')) /\ r_vars (v1 s') = dict_to_vtbl d.
Proof.
  cbv zeta. intros HW HC HO HS ND HE NC LM HP CP NO AD XF RN HA RP GV. eapply c132; try eassumption.
  rewrite (renewed_one _ _ (renew (with_version (with_context ctx (r_root (v1 s)))) (fun _ => true)) RN).
  - apply nothing_renew, version_nothing, context_nothing, NO.
  - apply renew_all. intros p x. exact (fit_hot (t_env T) _ p x AD XF).
Qed.
(** There is such a tree. *)
Lemma renewed_exists E root : addressable_document root = true -> expressions_fit E root -> exists t, renewed root t.
Proof. intros AD XF. eexists. apply renew_all. intros p x. exact (fit_hot E root p x AD XF). Qed.

(** * Checks *)
Definition fit_line (E : env) (k x : node) : bool :=
  negb (terminal x && found JINJA_V0_SUB (searched_text false x))
  || match x with
     | Nd (VJ (JStr s)) c [] l MNone false =>
         match parse_yaml E s None with Ok (JStr s') => str_eqb s' s | _ => false end
         && match generate_subtree E (JStr (to_v1_marker s)) with
            | Ok [Nd (VJ (JStr s')) [] [] false MNone false] => str_eqb s' (to_v1_marker s)
            | _ => false
            end
         && if l then forallb (fun y => negb (is_key_line y)) (n_children k)
            else match n_children k with [_] => true | _ => false end && n_keyf k && negb (n_lmf k)
     | _ => false
     end.
Definition fit_check (E : env) (root : node) : bool :=
  forallb (fun p => match node_at root p with Some k => forallb (fit_line E k) (n_children k) | None => true end) (positions_where (fun _ => true) root).
Lemma fit_checked E root : fit_check E root = true -> expressions_fit E root.
Proof.
  unfold fit_check. rewrite forallb_forall. intros H q k i x Hq Hi (V1 & V2).
  assert (In q (positions_where (fun _ => true) root)) as I by (apply positions_where_In; eauto). specialize (H q I). rewrite Hq in H. rewrite forallb_forall in H.
  specialize (H x (nth_error_In _ _ Hi)). unfold fit_line in H. apply v0_expression in V2. rewrite V1, V2 in H. cbn [andb negb orb] in H.
  destruct x as [v c chs l m u]. destruct v as [|[[| | | |s]| |]]; try discriminate H. destruct chs; [|discriminate H]. destruct m; try discriminate H. destruct u; [discriminate H|].
  apply andb_prop in H as (H & H3). apply andb_prop in H as (H1 & H2). exists s, c, l. split; [reflexivity|]. split; [|split].
  - destruct (parse_yaml E s None) as [[[| | | |s']| |]|]; try discriminate H1. apply str_eqb_eq in H1 as ->. reflexivity.
  - intros s' M. rewrite (c84_unique _ _ _ M _ (c84_all s)). unfold written_as. destruct (generate_subtree E (JStr (to_v1_marker s))) as [ls|]; [|discriminate H2]. destruct ls as [|[v2 c2 chs2 l2 m2 u2] ls]; [discriminate H2|].
    destruct v2 as [|[[| | | |s2]| |]]; try discriminate H2. destruct c2; [|discriminate H2]. destruct chs2; [|discriminate H2]. destruct l2; [discriminate H2|]. destruct m2; try discriminate H2.
    destruct u2; [discriminate H2|]. destruct ls; [|discriminate H2].
    apply str_eqb_eq in H2 as ->. reflexivity.
  - destruct l.
    + rewrite forallb_forall in H3. apply Forall_forall. intros y J. apply H3 in J. apply negb_true_iff in J. exact J.
    + apply andb_prop in H3 as (H3 & H5). apply andb_prop in H3 as (H3 & H4). apply negb_true_iff in H5. split; [|split; assumption].
      destruct (n_children k) as [|y [|]]; try discriminate H3. destruct i as [|[|]]; try discriminate Hi. injection Hi as ->. reflexivity.
Qed.
