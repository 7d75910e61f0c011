(** Proofs for C98 and C99. *)
From Verif Require Export DepsProofs SectionProofs4 ContextSpec.
From Verif Require Import SectionSpec ContextSpec.

Lemma search_is E rx ic root : search E rx ic root = map (path_at E root) (positions_where (fun n => terminal n && rx (searched_text ic n)) root).
Proof.
  unfold search. rewrite <- (visits_filter E root (fun n => terminal n && rx (searched_text ic n))).
  - f_equal. apply filter_ext. intros np. cbv zeta. rewrite leaf_terminal. f_equal. f_equal. unfold searched_text.
    destruct ic; cbn [andb]; [|rewrite app_nil_r; reflexivity]. destruct (n_comment (fst np)) as [|c l]; cbn [is_nil negb]; [rewrite app_nil_r; reflexivity|reflexivity].
  - intros n H. apply andb_prop in H as (H & _). apply PathProofs.terminal_not_comment, H.
Qed.
Lemma v0_expression s : found JINJA_V0_SUB s = true <-> has_expression s.
Proof.
  rewrite found_lang by reflexivity. unfold has_expression, expression. split; intros (x & H1 & H2); exists x; (split; [|auto]).
  - apply lang_v0_sub in H1. exact H1.
  - apply lang_v0_sub. exact H1.
Qed.
Lemma found_join s : found V0_UNSUPPORTED_JINJA s = true <-> has_text $".join(" s.
Proof.
  rewrite found_lang by reflexivity. split.
  - intros (u & Hu & H). apply lang_L in Hu as ->. exact H.
  - intros H. exists $".join(". split; [apply lang_L; reflexivity|exact H].
Qed.
Lemma keys_among {V} f (d : list (str * V)) : among (map fst (filter f d)) (map fst d).
Proof. induction d as [|x d IH]; cbn [filter map]; [constructor|]. destruct (f x); cbn [map]; constructor; exact IH. Qed.

Section Sections.
Context (T : tools).
Let E := t_env T.
Hypothesis HE : reads_proper E.
Lemma does_replace_at s v : s <> [] -> does (patch_and_log T (p_replace s v)) (fun b w w' => b = true /\ in_lines (replaced_at E s v) w w').
Proof.
  intros N. apply does_patch. intros r r' H HP. pose proof (asks_replace s v N) as HA.
  destruct (c13_success E _ s v r r' HA H) as (H1 & H2). split; [exact H2|]. split; [|exact H1].
  eapply patch_stays_proper; [exact HE|exact HA|reflexivity|reflexivity|exact H|exact HP].
Qed.
Lemma does_marker path : doesu (run! v := value T path None in
    match v with
    | JStr s => do! patch_and_log T (p_replace path (JStr (to_v1_marker s))) in ret tt
    | _ => say WARNING ($"A non-string value was found as a JINJA substitution: " ++ json_str v)
    end) (marker_changed E path).
Proof.
  destruct path as [|c0 path].
  - intros s o s' H. unfold andthen, value, ask in H. cbn in H. injection H as <- <-. split; [exists []; rewrite app_nil_r; reflexivity|intros; discriminate].
  - set (p := c0 :: path) in *. assert (p <> []) as N by discriminate. clearbody p.
    eapply does_impl; [|apply (does_bind _ _ (fun v w w' => w' = w /\ get_value E (fst w) p None None = Ok v)
       (fun v (_ : unit) => match v with
          | JStr s => in_lines (replaced_at E p (JStr (to_v1_marker s)))
          | _ => tell ($"A non-string value was found as a JINJA substitution: " ++ json_str v)
          end))].
    + intros a w w' (v & mid & (-> & Hv) & H). exists v. split; [exact Hv|]. destruct v as [[| | | |s]|l|d]; exact H.
    + intros s o s' H. unfold value, ask in H. injection H as <- <-. split; [exists []; rewrite app_nil_r; reflexivity|].
      intros b Hb _ HP. split; [|split; [exact HP|apply same_but_tree_refl]]. split; auto.
    + intros v. destruct v as [[| | | |s]|l|d]; try apply does_tell. apply only, does_replace_at, N.
Qed.
Lemma does_markers : doesu (run! paths := ask (fun r => Ok (search E (found JINJA_V0_SUB) false (r_root r))) in
  each (t_order T (dedupe paths)) (fun path =>
    run! v := value T path None in
    match v with
    | JStr s => do! patch_and_log T (p_replace path (JStr (to_v1_marker s))) in ret tt
    | _ => say WARNING ($"A non-string value was found as a JINJA substitution: " ++ json_str v)
    end)) (markers_changed E (t_order T)).
Proof.
  eapply does_impl; [|apply (does_bind _ _ (fun paths w w' => w' = w /\ paths = search E (found JINJA_V0_SUB) false (fst w))
     (fun paths (_ : unit) => all_of (map (marker_changed E) (t_order T (dedupe paths)))))].
  - intros a w w' (paths & mid & (-> & ->) & H). exists (fun n => terminal n && found JINJA_V0_SUB (searched_text false n)). split.
    + intros n. rewrite andb_true_iff, v0_expression. reflexivity.
    + rewrite <- search_is, <- dedupe_spec. exact H.
  - intros s o s' H. unfold ask in H. injection H as <- <-. split; [exists []; rewrite app_nil_r; reflexivity|].
    intros b Hb _ HP. injection Hb as <-. split; [|split; [exact HP|apply same_but_tree_refl]]. split; reflexivity.
  - intros paths. apply does_each. intros path _. apply does_marker.
Qed.
Lemma does_context_of vars : NoDup (map fst vars) -> does (context_of vars []) (fun ctx w w' => entries_for vars ctx
  /\ all_of (map (fun kv => tell (unsupported_message (fst kv))) (filter (fun kv => negb (supported (snd kv))) vars)) w w').
Proof.
  intros ND s o s' H. destruct (c80_of vars [] s ND) as (ctx & s0 & Hc & F & V & W & Er & _). rewrite Hc in H. injection H as <- <-.
  split; [exists []; rewrite app_nil_r; exact Er|]. intros a Ha _ HP. injection Ha as <-. unfold view. rewrite V, W.
  split; [|split; [exact HP|apply same_but_tree_refl]]. split; [exact F|].
  clear W. generalize (get_messages WARNING (msgs s)). induction (filter (fun kv => negb (supported (snd kv))) vars) as [|kv l IH]; intros ws; cbn [map all_of].
  - rewrite app_nil_r. reflexivity.
  - exists (r_root (v1 s), ws ++ [unsupported_message (fst kv)]). split; [split; reflexivity|]. specialize (IH (ws ++ [unsupported_message (fst kv)])).
    rewrite <- app_assoc in IH. exact IH.
Qed.
Lemma does_syntax ctx : doesu (when (negb (is_nil (complex_jinja ctx)))
               (say WARNING ($"The following key(s) contain unsupported syntax: " ++ join $", " (complex_jinja ctx)))) (syntax_report ctx).
Proof.
  assert (forall k, In k (complex_jinja ctx) <-> exists v, In (k, v) ctx /\ joins_texts v) as HK.
  { intros k. unfold complex_jinja, dkeys. rewrite in_map_iff. split.
    - intros ([k' v] & <- & H). apply filter_In in H as (H1 & H2). exists v. split; [exact H1|]. cbn [snd] in H2.
      destruct v as [[| | | |s]|l|d]; try discriminate. exists s. split; [reflexivity|]. apply found_join in H2. exact H2.
    - intros (v & H1 & s & -> & H2). exists (k, JStr s). split; [reflexivity|]. apply filter_In. split; [exact H1|]. cbn [snd]. apply found_join. exact H2. }
  pose proof (keys_among (fun kv => match snd kv with JStr s => found V0_UNSUPPORTED_JINJA s | _ => false end) ctx) as HM.
  fold (dkeys (filter (fun kv => match snd kv with JStr s => found V0_UNSUPPORTED_JINJA s | _ => false end) ctx)) in HM. fold (complex_jinja ctx) in HM.
  destruct (complex_jinja ctx) as [|k keys] eqn:C; cbn [is_nil negb when].
  - eapply does_impl; [|apply does_done]. intros a w w' ->. exists []. split; [exact HK|]. split; [exact HM|reflexivity].
  - eapply does_impl; [|apply does_tell]. intros a w w' H. exists (k :: keys). split; [exact HK|]. split; [exact HM|exact H].
Qed.
Lemma context_step vars : NoDup (map fst vars) -> doesu (run! ctx := context_of vars [] in
  do! when (negb (is_nil ctx))
        (do! when (negb (is_nil (complex_jinja ctx)))
               (say WARNING ($"The following key(s) contain unsupported syntax: " ++ join $", " (complex_jinja ctx))) in
         do! patch_and_log T (p_add $"/context" (JDict (map (fun kv => (PStr (fst kv), snd kv)) ctx))) in ret tt) in
  do! patch_and_log T (p_add $"/schema_version" (JInt 1)) in
  run! paths := ask (fun r => Ok (search E (found JINJA_V0_SUB) false (r_root r))) in
  each (t_order T (dedupe paths)) (fun path =>
    run! v := value T path None in
    match v with
    | JStr s => do! patch_and_log T (p_replace path (JStr (to_v1_marker s))) in ret tt
    | _ => say WARNING ($"A non-string value was found as a JINJA substitution: " ++ json_str v)
    end)) (context_upgraded E (t_order T) vars).
Proof.
  intros ND. unfold context_upgraded.
  eapply does_impl; [|apply (does_bind _ _ _ (fun ctx (_ : unit) =>
     (match ctx with
           | [] => nothing
           | _ => syntax_report ctx >> in_lines (value_put E [] $"context" (JDict (map (fun kv => (PStr (fst kv), snd kv)) ctx)))
           end) >> in_lines (value_put E [] $"schema_version" (JInt 1)) >> markers_changed E (t_order T)) (does_context_of vars ND))].
  - intros a w w' (ctx & mid & (H1 & H2) & m & H3 & H4). exists mid. split; [exact H2|]. exists m. split; [|exact H4]. exists ctx. auto.
  - intros ctx. apply does_seq.
    + destruct ctx as [|x ctx]; [apply does_done|]. set (c := x :: ctx). change (is_nil c) with false. cbn [negb when].
      apply seq_is; [apply does_syntax|]. apply done_after. change $"/context" with (path_text ([] ++ [$"context"])).
      apply added; [exact HE|apply comps_ok; side|side|side].
    + apply seq_all; [|apply does_markers]. change $"/schema_version" with (path_text ([] ++ [$"schema_version"])).
      apply added; [exact HE|apply comps_ok; side|side|side].
Qed.
Lemma context_is s s' : proper_tree (r_root (v1 s)) = true -> NoDup (map fst (r_vars (v1 s))) ->
  without_errors (upgrade_jinja_to_context_obj T) s tt s' ->
  context_upgraded E (t_order T) (r_vars (v1 s)) (view s) (view s') /\ same_but_tree (v1 s) (v1 s').
Proof.
  intros HP ND (H & HR). unfold upgrade_jinja_to_context_obj in H. unfold andthen at 1 in H. unfold ask at 1 in H. cbv beta iota in H.
  exact (from_does _ _ s s' (context_step _ ND) HP (conj H HR)).
Qed.
End Sections.

(** * The whole conversion *)
Lemma patch_keeps E p r : same_but_tree r (snd (patch E p r)).
Proof.
  unfold patch. destruct (negb (schema_valid p)); [apply same_but_tree_refl|]. destruct p as [x|l|d]; try apply same_but_tree_refl. cbv zeta.
  destruct (op_of (jstr_of (jget "op" d))) as [op|]; [|apply same_but_tree_refl].
  match goal with |- context [if ?b then (Ok true, r) else _] => destruct b end; [apply same_but_tree_refl|].
  destruct (call_patch_op E op (jstr_of (jget "path" d)) d (r_root r)) as [[[|]|e] root'] ; destruct op; repeat split; reflexivity.
Qed.
Lemma remove_selector_keeps E path r : same_but_tree r (snd (remove_selector E path r)).
Proof.
  unfold remove_selector. destruct (str_to_stack_path path) as [st|]; [|apply same_but_tree_refl]. destruct (traverse_pos (r_root r) st) as [q|]; [|apply same_but_tree_refl].
  destruct (node_at (r_root r) q) as [n|]; [|apply same_but_tree_refl]. destruct (search_text SELECTOR (n_comment n)) as [sel|]; [|apply same_but_tree_refl].
  repeat split; reflexivity.
Qed.
Lemma steps_keep E s ps s' : steps E s ps s' -> same_but_tree (v1 s) (v1 s').
Proof.
  induction 1 as [s|s s1 ps s2 H1 H2 IH|s p s1 ps s2 (H1 & _) H2 IH]; [apply same_but_tree_refl| |].
  - eapply same_but_tree_trans; [|exact IH]. destruct H1 as [c m t s H|p r' s H|path x r' s H|path tbl root s H]; cbn [v1].
    + apply same_but_tree_refl.
    + pose proof (patch_keeps E p (v1 s)) as K. rewrite H in K. exact K.
    + pose proof (remove_selector_keeps E path (v1 s)) as K. rewrite H in K. exact K.
    + repeat split; reflexivity.
  - eapply same_but_tree_trans; [|exact IH]. pose proof (patch_keeps E p (v1 s)) as K. rewrite H1 in K. exact K.
Qed.
Lemma whole_conversion T s text s' : reads_proper (t_env T) -> proper_tree (r_root (v1 s)) = true -> NoDup (map fst (r_vars (v1 s))) ->
  without_errors (render_to_v1 T) s text s' -> exists s1 s2 s3 v n root,
  without_errors (upgrade_selectors_to_conditionals T) s tt s1
  /\ context_upgraded (t_env T) (t_order T) (r_vars (v1 s)) (view s1) (view s2)
  /\ get_value (t_env T) (r_root (v1 s2)) $"/outputs" (Some (JList [])) None = Ok v /\ json_len v = Ok n
  /\ sections_upgraded (t_env T) (closest_license T) (outputs_of n) (view s2) (view s3)
  /\ sort_subtree_keys (r_root (v1 s3)) $"/" TOP_LEVEL_SORT [] = Ok root /\ r_root (v1 s') = root
  /\ text = render (t_env T) (v1 s').
Proof.
  intros HE HP ND (H & HR). apply render_parts in H as (old & s4 & root & vars & H & HM & HS & _ & HV & HT).
  unfold andthen in H. destruct (upgrades T s) as [[[]|e] s3] eqn:U; [|discriminate]. apply c83 in H as (V & _ & HC).
  assert (get_messages ERROR (msgs s3) = get_messages ERROR (msgs s)) as HR3.
  { rewrite <- (HC ERROR) by discriminate. rewrite <- HM. exact HR. }
  destruct (all_upgrades T HE s s3 HP (conj U HR3)) as (s1 & s2 & v & n & H1 & H2 & H3 & H4 & H5 & H6).
  pose proof (walks_selectors T _ _ _ (proj1 H1)) as (ps & W).
  pose proof (steps_keep _ _ _ _ W) as (_ & _ & KV).
  assert (proper_tree (r_root (v1 s1)) = true) as P1 by exact (steps_proper T HE _ _ _ W HP).
  assert (NoDup (map fst (r_vars (v1 s1)))) as ND1 by (rewrite KV; exact ND).
  destruct (context_is T HE s1 s2 P1 ND1 H2) as (H7 & _). rewrite KV in H7. rewrite V in HS.
  exists s1, s2, s3, v, n, root. split; [exact H1|]. split; [exact H7|]. split; [exact H3|]. split; [exact H4|]. split; [exact H5|].
  split; [exact HS|]. rewrite HV. cbn [r_root]. split; [reflexivity|]. rewrite <- HV. exact HT.
Qed.

Lemma search_resolves E rx ic root : addressable_document root = true ->
  Forall2 (fun p s => addresses root s (owner root p) /\ contains_value root s = Ok true
                      /\ forall jp, get_value E root s None jp <> Err EKey)
    (positions_where (fun n => terminal n && rx (searched_text ic n)) root) (search E rx ic root).
Proof.
  intros H. pose proof (c03 E root H) as C. rewrite list_value_paths_spec in C. rewrite search_is.
  match type of C with Forall2 ?P _ _ => set (Q := P) in * end.
  assert (forall l f, Forall2 Q l (map f l) -> forall p, In p l -> Q p (f p)) as X.
  { clear. induction l as [|x l IH]; intros f HF p HI; [destruct HI|]. inversion HF; subst. destruct HI as [->|HI]; auto. }
  assert (forall l f, (forall p, In p l -> Q p (f p)) -> Forall2 Q l (map f l)) as Y.
  { clear. induction l as [|x l IH]; intros f HF; constructor; [apply HF; left; auto|]. apply IH. intros p Hp. apply HF. right. auto. }
  apply Y. intros p Hp. apply (X _ _ C). apply positions_where_In in Hp as (n & Hn & Hb). apply positions_where_In.
  exists n. apply andb_prop in Hb as (Hb & _). auto.
Qed.
