(** C136 (proofs only): the context, and the whole conversion. *)
From Verif Require TextProofs PhaseSpec.
From Verif Require Import PhaseProofs5 HistProofs WellProofs.
From Verif Require Export CanProofs4 CanSpec ContextProofs.
From Verif Require Import Lemmas PatchProofs PatchProofs2 RenderProofs2 RenderProofs4 RefProofs GoesProofs VarsSpec SectionSpec ContextSpec CanSpec.

(** * Replacing at any path *)
Definition absolute (s : str) : Prop := exists t, s = cSL :: t.
Lemma absolute_stack s p0 pp : absolute s -> str_to_stack_path s = Ok (p0 :: pp) -> (pp = [] /\ p0 = ROOT_VALUE) \/ exists cs, pp = rev cs ++ [ROOT_VALUE].
Proof.
  intros (t & ->). unfold str_to_stack_path. destruct (last_char (cSL :: t)) as [c|] eqn:L; [|discriminate]. intros [= H].
  assert (exists rest, map (fun p => if is_nil p then ROOT_VALUE else p) (split_on cSL (if ceq c cSL then removelast (cSL :: t) else cSL :: t)) = ROOT_VALUE :: rest) as (rest & R).
  { destruct t as [|x t].
    - cbn in L. injection L as <-. eexists. reflexivity.
    - destruct (ceq c cSL); [change (removelast (cSL :: x :: t)) with ([] ++ cSL :: removelast (x :: t))|change (cSL :: x :: t) with ([] ++ cSL :: x :: t)];
        rewrite split_on_app by (intros []); eexists; reflexivity. }
  assert (rev (ROOT_VALUE :: rest) = p0 :: pp) as H' by (rewrite <- R; exact H). clear H. rename H' into H. cbn [rev] in H. destruct (rev rest) as [|a l] eqn:Q; cbn [app] in H; injection H as -> <-; [left; auto|]. right. exists (rev l). rewrite rev_involutive. reflexivity.
Qed.
Lemma line_replaced_once i l n a b : line_replaced i l n a -> line_replaced i l n b -> a = b.
Proof.
  intros (b1 & x1 & a1 & E1 & L1 & ->) (b2 & x2 & a2 & E2 & L2 & ->). rewrite E1 in E2.
  destruct (app_inj_len b1 b2 _ _ (eq_trans L1 (eq_sym L2)) E2) as (-> & H). injection H as -> ->. reflexivity.
Qed.
Lemma replaced_at_once E s v root a b : replaced_at E s v root a -> replaced_at E s v root b -> a = b.
Proof.
  intros (l & W & H) (l' & W' & H'). unfold written_as in W, W'. rewrite W in W'. injection W' as <-.
  destruct H as [(q & n & A & N & B & L & C)|(q & i & x & A & N & L & K & D & C)]; destruct H' as [(q' & n' & A' & N' & B' & L' & C')|(q' & i' & x' & A' & N' & L' & K' & D' & C')];
  pose proof (TextProofs.address_same _ _ _ _ A A') as Q.
  - subst q'. refine (changed_once _ q _ _ _ _ C C'). unfold content_replaced. congruence.
  - exfalso. subst q. rewrite N in N'. injection N' as <-. destruct (L L') as [Z|(c & ab & S & Z)]; [congruence|]. destruct D' as (c' & ab' & S' & Z'). rewrite S in S'. injection S' as <- _. congruence.
  - exfalso. subst q'. rewrite N in N'. injection N' as <-. destruct (L' L) as [Z|(c & ab & S & Z)]; [congruence|]. destruct D as (c' & ab' & S' & Z'). rewrite S in S'. injection S' as <- _. congruence.
  - apply app_inj_tail in Q as (<- & <-). exact (changed_once _ q (line_replaced_once i _) _ _ _ C C').
Qed.
Lemma replace_at_works E s v r root' : absolute s -> replaced_at E s v (r_root r) root' ->
  exists r', patch E (p_replace s v) r = (Ok true, r') /\ r_root r' = root'.
Proof.
  intros AB HR. assert (s <> []) as NE by (destruct AB as (t & ->); discriminate). pose proof (asks_replace s v NE) as HA.
  assert (exists r', patch E (p_replace s v) r = (Ok true, r')) as (r' & P).
  2:{ exists r'. split; [exact P|]. destruct (c13_success E _ s v r r' HA P) as (_ & K). exact (replaced_at_once _ _ _ _ _ _ K HR). }
  assert (exists root1, perform E (RReplace s v) (r_root r) = (Ok true, root1)) as (root1 & PF).
  2:{ destruct (patch_works E _ _ r root1 HA eq_refl eq_refl PF) as (r' & P & _). eauto. }
  destruct (stack_cons s NE) as (p0 & pp & Hst). unfold perform. cbn [request_path]. rewrite Hst. unfold patch_replace.
  destruct HR as (lines & W & HR). unfold written_as in W.
  assert (exists q n, addresses (r_root r) s q /\ node_at (r_root r) q = Some n /\ (bare_value n = false \/ n_lmf n = true)
     /\ (isdigit p0 = false -> bare_value n = false)) as (q & n & A & N & BV & BD).
  { destruct HR as [(q & n & A & N & B & L & C)|(q & i & x & A & N & L & K & (c & ab & S & D) & C)].
    - exists q, n. auto.
    - exists (q ++ [i]), x. split; [exact A|]. split; [exact N|]. split; [auto|]. intros D'. rewrite Hst in S. injection S as <- _. congruence. }
  apply (addresses_stack _ _ _ _ Hst) in A.
  destruct (isdigit p0) eqn:D.
  - destruct (absolute_stack s p0 pp AB Hst) as [(-> & ->)|(cs & ->)]; [discriminate D|].
    destruct (traverse_pos (r_root r) (rev cs ++ [ROOT_VALUE])) as [qp|] eqn:Hqp.
    2:{ exfalso. unfold traverse_pos in A, Hqp. cbn [rev] in A. rewrite rev_app_distr in A, Hqp. cbn [rev app] in A, Hqp.
        rewrite rev_involutive in *. destruct cs as [|d cs]; [discriminate|].
        cbn [app] in A. change (d :: cs ++ [p0]) with ((d :: cs) ++ [p0]) in A. rewrite traverse_recurse_app, Hqp in A. discriminate. }
    destruct (traverse_pos_parent _ _ _ _ _ A Hqp) as (np & i & x & -> & Hnp & Hs).
    assert (x = n) as ->. { rewrite node_at_app, Hnp in N. cbn [node_at] in N. rewrite (step_child_nth _ _ _ _ Hs) in N. congruence. }
    rewrite (twi_index_eq _ _ _ _ _ _ _ D Hqp Hnp Hs). destruct (is_collection n) eqn:IC.
    + assert (bare_value n = false) as HB. { destruct BV as [B|L]; [exact B|]. unfold bare_value. rewrite L. cbn. rewrite ?andb_false_r. reflexivity. }
      rewrite N, valid_bare, HB. cbn [negb]. rewrite W. eexists. reflexivity.
    + rewrite Hnp, (valid_index_intro _ _ _ _ D Hs). cbn [negb]. rewrite W. eexists. reflexivity.
  - rewrite twi_name_eq by auto. rewrite A. rewrite N, valid_bare, (BD eq_refl). cbn [negb]. rewrite W. eexists. reflexivity.
Qed.
(** * The context *)
Lemma own_absolute E l n : own_text E l n = [] \/ absolute (own_text E l n).
Proof.
  unfold own_text. destruct (n_lmf n); [right; eexists; reflexivity|]. destruct (terminal n && negb (n_keyf n)); [left; reflexivity|]. cbv zeta.
  destruct (str_eqb (nval_str E (n_value n)) [cSL]); [left; reflexivity|right; eexists; reflexivity].
Qed.
Lemma path_absolute E p : forall n, path_at E n p = [] \/ absolute (path_at E n p).
Proof.
  induction p as [|i p IH]; intros n; cbn [path_at]; [left; reflexivity|]. destruct (nth_error (n_children n) i) as [c|]; [|left; reflexivity].
  destruct (own_absolute E (firstn i (n_children n)) c) as [->|(t & ->)]; [apply IH|]. right. eexists. reflexivity.
Qed.
Lemma entry_once v a b : context_entry v a -> context_entry v b -> a = b.
Proof. intros H1 H2. destruct H1; inversion H2; subst; try reflexivity; contradiction. Qed.
Lemma entries_once vars a : forall b, Forall2 (fun x y : str * json => fst x = fst y /\ context_entry (snd x) (snd y)) vars a ->
  Forall2 (fun x y : str * json => fst x = fst y /\ context_entry (snd x) (snd y)) vars b -> a = b.
Proof.
  revert a. induction vars as [|x vars IH]; intros a b HA HB; inversion HA as [|? y ? a' (K1 & C1) F1]; inversion HB as [|? z ? b' (K2 & C2) F2]; subst; [reflexivity|].
  f_equal; [|apply IH; auto]. destruct y, z. cbn [fst snd] in *. rewrite (entry_once _ _ _ C1 C2). congruence.
Qed.
Lemma among_incl {A} (l m : list A) : among l m -> forall x, In x l -> In x m.
Proof. induction 1; intros y I; [destruct I|right; auto|]. destruct I as [->|I]; [left; reflexivity|right; auto]. Qed.
Lemma among_once {A} (m : list A) : NoDup m -> forall a b, among a m -> among b m -> (forall x, In x a <-> In x b) -> a = b.
Proof.
  induction 1 as [|x m N ND IH]; intros a b HA HB HI.
  - inversion HA; inversion HB; subst; reflexivity.
  - assert (forall l, among l (x :: m) -> In x l -> exists l', l = x :: l' /\ among l' m) as X1.
    { intros l H I. inversion H as [|? ? ? H1|? ? ? H1]; subst; [destruct I| |eauto]. exfalso. apply N. exact (among_incl _ _ H1 _ I). }
    assert (forall l, among l (x :: m) -> ~ In x l -> among l m) as X2.
    { intros l H I. inversion H as [|? ? ? H1|? ? ? H1]; subst; [constructor|exact H1|]. exfalso. apply I. left. reflexivity. }
    assert (forall l l', among l' m -> l = x :: l' -> forall y, In y l' <-> In y l /\ y <> x) as X3.
    { intros l l' H -> y. cbn [In]. split; [intros I; split; [auto|intros ->; apply N; exact (among_incl _ _ H _ I)]|]. intros ([K|K] & K'); [congruence|exact K]. }
    assert (In x a \/ ~ In x a) as [I|I].
    { inversion HA as [|? ? ? H1|? a' ? H1]; subst; [right; intros []|right; intros I; apply N; exact (among_incl _ _ H1 _ I)|left; left; reflexivity]. }
    + destruct (X1 a HA I) as (a' & -> & H1). destruct (X1 b HB) as (b' & -> & H2); [apply HI; left; reflexivity|]. f_equal. apply IH; auto.
      intros y. rewrite (X3 _ a' H1 eq_refl), (X3 _ b' H2 eq_refl), HI. reflexivity.
    + apply IH; auto. apply X2; auto. intros K. apply I, HI, K.
Qed.
Lemma told_all {X} (g : X -> str) l : forall w w', all_of (map (fun x => tell (g x)) l) w w' <-> w' = (fst w, snd w ++ map g l).
Proof.
  induction l as [|x l IH]; intros w w'; cbn [map all_of].
  - rewrite app_nil_r. destruct w. cbn [fst snd]. reflexivity.
  - split.
    + intros ([a b] & (H1 & H2) & H3). apply IH in H3. cbn [fst snd] in *. subst. rewrite <- app_assoc. reflexivity.
    + intros ->. exists (fst w, snd w ++ [g x]). split; [split; reflexivity|]. apply IH. cbn [fst snd]. rewrite <- app_assoc. reflexivity.
Qed.
Lemma entries_names vars ctx : entries_for vars ctx -> NoDup (map fst vars) -> NoDup (map fst ctx).
Proof.
  unfold entries_for. intros F ND. assert (map fst ctx = map fst (filter (fun kv => supported (snd kv)) vars)) as ->.
  { clear ND. induction F as [|x y l l' (H & _) F IH]; [reflexivity|]. cbn [map]. rewrite H, IH. reflexivity. }
  clear F ctx. induction vars as [|x vars IH]; [constructor|]. cbn [map] in ND. inversion ND as [|? ? N1 N2]; subst. cbn [filter].
  destruct (supported (snd x)); [|auto]. cbn [map]. constructor; [|auto]. intros I. apply N1. apply in_map_iff in I as (y & <- & I). apply filter_In in I as (I & _). apply in_map, I.
Qed.
Lemma can_ask {A} (f : recipe -> A) (g : node -> A) : (forall r, f r = g (r_root r)) -> can (ask (fun r => Ok (f r))) (fun a w w' => w' = w /\ a = g (fst w)).
Proof. intros H s a w' HP (-> & ->). exists s. unfold ask. rewrite H. repeat split; auto. Qed.
Section Sections.
Context (T : tools).
Let E := t_env T.
Hypothesis HE : reads_proper E.
Hypothesis HO : forall l x, In x (t_order T l) -> In x l.
Lemma can_replace_at s v : absolute s -> can (patch_and_log T (p_replace s v)) (fun b w w' => b = true /\ in_lines (replaced_at E s v) w w').
Proof.
  intros AB. eapply can_patch; [exact HE|apply asks_replace; destruct AB as (t & ->); discriminate|reflexivity|reflexivity|].
  intros r root' HP H. exact (replace_at_works E s v r root' AB H).
Qed.
Lemma can_marker path : path = [] \/ absolute path -> canu (run! v := value T path None in
    match v with
    | JStr s => do! patch_and_log T (p_replace path (JStr (to_v1_marker s))) in ret tt
    | _ => say WARNING ($"A non-string value was found as a JINJA substitution: " ++ json_str v)
    end) (marker_changed E path).
Proof.
  intros [->|AB].
  - intros s a w' HP (v & H & _). discriminate H.
  - eapply can_impl; [|apply (can_bind _ _ (fun v w w' => w' = w /\ get_value E (fst w) path None None = Ok v)
       (fun v (_ : unit) => match v with
          | JStr s => in_lines (replaced_at E path (JStr (to_v1_marker s)))
          | _ => tell ($"A non-string value was found as a JINJA substitution: " ++ json_str v)
          end))].
    + intros a w w' (v & Hv & H). exists v, w. split; [auto|]. destruct v as [[| | | |s]|l|d]; exact H.
    + intros s v w' HP (-> & Hv). exists s. unfold value, ask. fold E. cbn [fst view] in Hv. rewrite Hv. repeat split; auto.
    + intros v. destruct v as [[| | | |s]|l|d]; try apply can_tell. apply can_only, can_replace_at, AB.
Qed.
Lemma can_markers : canu (run! paths := ask (fun r => Ok (search E (found JINJA_V0_SUB) false (r_root r))) in
  each (t_order T (dedupe paths)) (fun path =>
    run! v := value T path None in
    match v with
    | JStr s => do! patch_and_log T (p_replace path (JStr (to_v1_marker s))) in ret tt
    | _ => say WARNING ($"A non-string value was found as a JINJA substitution: " ++ json_str v)
    end)) (markers_changed E (t_order T)).
Proof.
  intros s [] w' HP (f & Hf & H). unfold andthen at 1, ask at 1. rewrite search_is, dedupe_spec.
  assert (forall n, f n = terminal n && found JINJA_V0_SUB (searched_text false n)) as Hf'.
  { intros n. apply eq_true_iff_eq. rewrite Hf, andb_true_iff, v0_expression. reflexivity. }
  rewrite (positions_where_ext _ _ _ Hf') in H. cbn [fst view] in H.
  match type of H with all_of (map _ ?l) _ _ => set (paths := l) in *; assert (Forall (fun p => p = [] \/ absolute p) paths) as HA end.
  { apply Forall_forall. intros p I. unfold paths in I. apply HO in I. apply (proj1 (first_occurrences_In _ _)) in I. apply in_map_iff in I as (q & <- & _). apply path_absolute. }
  clearbody paths. refine ((_ : canu (each paths (fun path =>
    run! v := value T path None in
    match v with
    | JStr s => do! patch_and_log T (p_replace path (JStr (to_v1_marker s))) in ret tt
    | _ => say WARNING ($"A non-string value was found as a JINJA substitution: " ++ json_str v)
    end)) (all_of (map (marker_changed E) paths))) s tt w' HP H).
  apply can_each. intros p I. apply can_marker. rewrite Forall_forall in HA. exact (HA p I).
Qed.
Lemma can_context_of vars : NoDup (map fst vars) -> can (context_of vars []) (fun ctx w w' => entries_for vars ctx
  /\ all_of (map (fun kv => tell (unsupported_message (fst kv))) (filter (fun kv => negb (supported (snd kv))) vars)) w w').
Proof.
  intros ND s ctx w' HP (F & K). destruct (c80_of vars [] s ND) as (ctx0 & s0 & Hc & F0 & V & W & Er & _). cbn [app] in Hc.
  rewrite (entries_once _ _ _ F F0). exists s0. split; [exact Hc|]. split; [exact Er|]. split; [|rewrite V; exact HP].
  apply told_all in K. rewrite K. unfold view. rewrite V, W. reflexivity.
Qed.
Lemma can_syntax ctx : NoDup (map fst ctx) -> canu (when (negb (is_nil (complex_jinja ctx)))
               (say WARNING ($"The following key(s) contain unsupported syntax: " ++ join $", " (complex_jinja ctx)))) (syntax_report ctx).
Proof.
  intros ND.
  assert (forall k, In k (complex_jinja ctx) <-> exists v, In (k, v) ctx /\ joins_texts v) as HK.
  { intros k. unfold complex_jinja, dkeys. rewrite in_map_iff. split.
    - intros ([k' v] & <- & H). apply filter_In in H as (H1 & H2). exists v. split; [exact H1|]. cbn [snd] in H2.
      destruct v as [[| | | |s]|l|d]; try discriminate. exists s. split; [reflexivity|]. apply found_join in H2. exact H2.
    - intros (v & H1 & s & -> & H2). exists (k, JStr s). split; [reflexivity|]. apply filter_In. split; [exact H1|]. cbn [snd]. apply found_join. exact H2. }
  pose proof (keys_among (fun kv => match snd kv with JStr s => found V0_UNSUPPORTED_JINJA s | _ => false end) ctx) as HM.
  fold (dkeys (filter (fun kv => match snd kv with JStr s => found V0_UNSUPPORTED_JINJA s | _ => false end) ctx)) in HM. fold (complex_jinja ctx) in HM.
  assert (forall keys, (forall k, In k keys <-> exists v, In (k, v) ctx /\ joins_texts v) -> among keys (map fst ctx) -> keys = complex_jinja ctx) as U.
  { intros keys H1 H2. apply (among_once _ ND); auto. intros k. rewrite H1, HK. reflexivity. }
  destruct (complex_jinja ctx) as [|k keys] eqn:C; cbn [is_nil negb when].
  - eapply can_impl; [|apply can_done]. intros a w w' (ks & H1 & H2 & H3). rewrite (U ks H1 H2) in H3. exact H3.
  - eapply can_impl; [|apply can_tell]. intros a w w' (ks & H1 & H2 & H3). rewrite (U ks H1 H2) in H3. exact H3.
Qed.
Lemma can_context vars : NoDup (map fst vars) -> canu (run! ctx := context_of vars [] in
  do! when (negb (is_nil ctx))
        (do! when (negb (is_nil (complex_jinja ctx)))
               (say WARNING ($"The following key(s) contain unsupported syntax: " ++ join $", " (complex_jinja ctx))) in
         do! patch_and_log T (p_add $"/context" (JDict (map (fun kv => (PStr (fst kv), snd kv)) ctx))) in ret tt) in
  do! patch_and_log T (p_add $"/schema_version" (JInt 1)) in
  run! paths := ask (fun r => Ok (search E (found JINJA_V0_SUB) false (r_root r))) in
  each (t_order T (dedupe paths)) (fun path =>
    run! v := value T path None in
    match v with
    | JStr s => do! patch_and_log T (p_replace path (JStr (to_v1_marker s))) in ret tt
    | _ => say WARNING ($"A non-string value was found as a JINJA substitution: " ++ json_str v)
    end)) (context_upgraded E (t_order T) vars).
Proof.
  intros ND s [] w' HP (mid & H1 & m & (ctx & HC & H2) & H3).
  destruct (can_context_of vars ND s ctx mid HP (conj HC H1)) as (s1 & M1 & G1 & <- & P1). unfold andthen at 1. rewrite M1.
  enough (exists s', (do! when (negb (is_nil ctx))
        (do! when (negb (is_nil (complex_jinja ctx)))
               (say WARNING ($"The following key(s) contain unsupported syntax: " ++ join $", " (complex_jinja ctx))) in
         do! patch_and_log T (p_add $"/context" (JDict (map (fun kv => (PStr (fst kv), snd kv)) ctx))) in ret tt) in
  do! patch_and_log T (p_add $"/schema_version" (JInt 1)) in
  run! paths := ask (fun r => Ok (search E (found JINJA_V0_SUB) false (r_root r))) in
  each (t_order T (dedupe paths)) (fun path =>
    run! v := value T path None in
    match v with
    | JStr s => do! patch_and_log T (p_replace path (JStr (to_v1_marker s))) in ret tt
    | _ => say WARNING ($"A non-string value was found as a JINJA substitution: " ++ json_str v)
    end)) s1 = (Ok tt, s') /\ errors s' = errors s1 /\ view s' = w' /\ proper_tree (r_root (v1 s')) = true) as (s' & K1 & K2 & K3) by (exists s'; split; [exact K1|]; split; [congruence|exact K3]).
  match goal with |- exists s', ?m s1 = _ /\ _ => assert (canu m (match ctx with
           | [] => nothing
           | _ => syntax_report ctx >> in_lines (value_put E [] $"context" (JDict (map (fun kv => (PStr (fst kv), snd kv)) ctx)))
           end >> in_lines (value_put E [] $"schema_version" (JInt 1)) >> markers_changed E (t_order T))) as K end.
  2:{ apply (K s1 tt w' P1). exists m. split; [exact H2|exact H3]. }
  apply can_unit.
  - pose proof (entries_names _ _ HC ND) as NC. destruct ctx as [|x ctx]; [apply can_done|]. set (c := x :: ctx) in *. change (is_nil c) with false. cbn [negb when].
    apply can_unit; [apply can_syntax, NC|]. apply can_only. change $"/context" with (path_text ([] ++ [$"context"])).
    apply can_add'; [exact HE|apply comps_ok; side|side|side].
  - apply flag_seq; [|apply can_markers]. change $"/schema_version" with (path_text ([] ++ [$"schema_version"])).
    apply can_add'; [exact HE|apply comps_ok; side|side|side].
Qed.
Lemma context_exactly s w' : proper_tree (r_root (v1 s)) = true -> NoDup (map fst (r_vars (v1 s))) ->
  ((exists s', without_errors (upgrade_jinja_to_context_obj T) s tt s' /\ view s' = w') <-> context_upgraded E (t_order T) (r_vars (v1 s)) (view s) w').
Proof.
  intros HP ND. split.
  - intros (s' & H & <-). exact (proj1 (context_is T HE s s' HP ND H)).
  - intros H. destruct (can_context _ ND s tt w' HP H) as (s' & M & G & V & _). exists s'. split; [split; [exact M|exact G]|exact V].
Qed.
End Sections.

(** * The whole conversion *)
Lemma top_order root root' : sort_subtree_keys root $"/" TOP_LEVEL_SORT [] = Ok root' <-> top_in_order root root'.
Proof.
  assert (forall r, sort_subtree_keys root $"/" TOP_LEVEL_SORT [] = Ok r ->
    sorted_lines TOP_LEVEL_SORT (n_children root) (n_children r) /\ r = with_lines root (n_children r)) as D.
  { intros r H. destruct (c44 _ _ _ _ _ top_table H) as [(L & _)|(q & A & C)]; [discriminate L|].
    apply root_addressed in A as ->. inversion C as [n n' (C1 & C2)|]; subst. split; [exact C1|exact C2]. }
  split.
  - intros H. destruct (D _ H) as (D1 & D2). exists TOP_LEVEL_SORT. split; [reflexivity|]. split; [repeat constructor|]. auto.
  - intros (tbl & N & O & SL & EQ). destruct (c44_total root $"/" TOP_LEVEL_SORT []) as (r & H); [discriminate|]. destruct (D _ H) as (D1 & D2).
    rewrite H. f_equal. rewrite D2, EQ. f_equal. refine (sorted_unique TOP_LEVEL_SORT _ _ _ top_table D1 _).
    refine (same_order tbl TOP_LEVEL_SORT N O _ _ _ SL). repeat constructor.
Qed.
Lemma finish_is T s s' : finish_v1 T s = (Ok tt, s') <-> exists root d, top_in_order (r_root (v1 s)) root
  /\ get_value (t_env T) root $"/context" (Some (JDict [])) None = Ok (JDict d)
  /\ s' = {| v1 := {| r_init := r_init (v1 s); r_root := root; r_schema := SV1; r_vars := dict_to_vtbl d; r_sel := r_sel (v1 s); r_mod := r_mod (v1 s) |}; msgs := msgs s |}.
Proof.
  unfold finish_v1, andthen, Convert.edit, sort_keys, ask, init_vars. cbn [v1 msgs with_vars r_root r_init r_schema r_vars r_sel r_mod with_root].
  destruct (sort_subtree_keys (r_root (v1 s)) $"/" TOP_LEVEL_SORT []) as [root|e] eqn:S.
  2:{ exfalso. destruct (c44_total (r_root (v1 s)) $"/" TOP_LEVEL_SORT []) as (r & H); [discriminate|congruence]. }
  cbn [v1 msgs with_vars r_root r_init r_schema r_vars r_sel r_mod with_root].
  assert (forall r, top_in_order (r_root (v1 s)) r -> r = root) as U by (intros r H; apply top_order in H; congruence). apply top_order in S.
  destruct (get_value (t_env T) root $"/context" (Some (JDict [])) None) as [v|e] eqn:G; cbn [bind].
  - destruct v as [p|l|d]; cbn [v1 msgs with_vars r_root r_init r_schema r_vars r_sel r_mod with_root]; split.
    + discriminate.
    + intros (r & d & H1 & H2 & _). rewrite (U r H1), G in H2. discriminate.
    + discriminate.
    + intros (r & d & H1 & H2 & _). rewrite (U r H1), G in H2. discriminate.
    + intros [= <-]. exists root, d. auto.
    + intros (r & d' & H1 & H2 & ->). pose proof (U r H1) as ->. rewrite G in H2. injection H2 as ->. reflexivity.
  - split; [discriminate|]. intros (r & d & H1 & H2 & _). rewrite (U r H1), G in H2. discriminate.
Qed.
Lemma upgrades_exactly T s w' : reads_proper (t_env T) -> (forall l x, In x (t_order T l) -> In x l) ->
  proper_tree (r_root (v1 s)) = true -> NoDup (map fst (r_vars (v1 s))) ->
  ((exists s', without_errors (upgrades T) s tt s' /\ view s' = w') <-> exists s1 w2 v n,
     without_errors (upgrade_selectors_to_conditionals T) s tt s1
     /\ context_upgraded (t_env T) (t_order T) (r_vars (v1 s)) (view s1) w2
     /\ get_value (t_env T) (fst w2) $"/outputs" (Some (JList [])) None = Ok v /\ json_len v = Ok n
     /\ sections_upgraded (t_env T) (closest_license T) (outputs_of n) w2 w').
Proof.
  intros HE HO HP ND. split.
  - intros (s' & H & <-). destruct (all_upgrades T HE s s' HP H) as (s1 & s2 & v & n & H1 & H2 & H3 & H4 & H5 & H6).
    pose proof (walks_selectors T _ _ _ (proj1 H1)) as (ps & W).
    pose proof (steps_keep _ _ _ _ W) as (_ & _ & KV).
    assert (proper_tree (r_root (v1 s1)) = true) as P1 by exact (steps_proper T HE _ _ _ W HP).
    assert (NoDup (map fst (r_vars (v1 s1)))) as ND1 by (rewrite KV; exact ND).
    destruct (context_is T HE s1 s2 P1 ND1 H2) as (H7 & _). rewrite KV in H7. exists s1, (view s2), v, n. auto 8.
  - intros (s1 & w2 & v & n & H1 & H2 & H3 & H4 & H5).
    pose proof (walks_selectors T _ _ _ (proj1 H1)) as (ps & W).
    pose proof (steps_keep _ _ _ _ W) as (_ & _ & KV).
    assert (proper_tree (r_root (v1 s1)) = true) as P1 by exact (steps_proper T HE _ _ _ W HP).
    assert (NoDup (map fst (r_vars (v1 s1)))) as ND1 by (rewrite KV; exact ND). rewrite <- KV in H2.
    destruct (can_context T HE HO _ ND1 s1 tt w2 P1 H2) as (s2 & M2 & G2 & <- & P2).
    assert (upgrade_jinja_to_context_obj T s1 = (Ok tt, s2)) as M2' by exact M2.
    destruct (can_sections T HE n s2 tt w' P2 H5) as (s3 & M3 & G3 & V3 & P3).
    exists s3. split; [|exact V3]. destruct H1 as (M1 & G1). split.
    + change (upgrades T) with (do! upgrade_selectors_to_conditionals T in do! upgrade_jinja_to_context_obj T in
        run! bases := ask (fun r => get_package_paths (t_env T) (r_root r)) in section_upgrades T bases).
      unfold andthen at 1. rewrite M1. unfold andthen at 1. rewrite M2'. unfold andthen at 1, ask.
      assert (get_package_paths (t_env T) (r_root (v1 s2)) = Ok (map base_text ([] :: outputs_of n))) as ->.
      { unfold get_package_paths. cbn [fst view] in H3. rewrite H3. cbn [bind]. rewrite H4. cbn [bind]. f_equal.
        cbn [map base_text]. f_equal. unfold outputs_of. rewrite map_map. apply map_ext. intros i. cbn [base_text path_text]. rewrite app_nil_r. reflexivity. }
      exact M3.
    + unfold errors in *. congruence.
Qed.
Definition license_of (T : tools) : str -> option str := find_closest_license_match (t_close T) (t_licenses T).
Lemma conversion_exactly T s text root warnings : reads_proper (t_env T) -> (forall l x, In x (t_order T l) -> In x l) ->
  proper_tree (r_root (v1 s)) = true -> NoDup (map fst (r_vars (v1 s))) -> comments_have_paths (t_env T) (r_root (v1 s)) ->
  ((exists s', without_errors (render_to_v1 T) s text s' /\ r_root (v1 s') = root /\ get_messages WARNING (msgs s') = warnings)
   <-> exists s1, without_errors (upgrade_selectors_to_conditionals T) s tt s1
         /\ conversion (t_env T) (t_order T) (license_of T) (r_vars (v1 s)) (r_root (v1 s)) (view s1) root warnings
         /\ text = join NLs (render_lines (t_env T) root)).
Proof.
  intros HE HO HP ND CP. pose proof (fun w => upgrades_exactly T s w HE HO HP ND) as UE. set (old := get_comments_table (t_env T) (r_root (v1 s))).
  split.
  - intros (s' & (H & HR) & HRo & HW). unfold render_to_v1 in H. unfold andthen at 1 in H. unfold ask at 1 in H. cbv beta iota in H. fold old in H.
    unfold andthen at 1 in H. destruct (upgrades T s) as [[[]|e] s3] eqn:U; [|discriminate].
    unfold andthen at 1 in H. destruct (report_lost_comments T old s3) as [[[]|e] s4] eqn:L; [|discriminate].
    unfold andthen at 1 in H. destruct (finish_v1 T s4) as [[[]|e] s5] eqn:F; [|discriminate]. unfold ask in H. injection H as <- <-.
    apply finish_is in F as (root1 & d & F1 & F2 & ->). cbn [v1 msgs r_root] in *. subst root1.
    apply c83 in L as (V & W & O). assert (without_errors (upgrades T) s tt s3) as U' by (split; [exact U|rewrite <- (O ERROR) by discriminate; exact HR]).
    destruct (proj1 (UE (view s3)) (ex_intro _ s3 (conj U' eq_refl))) as (s1 & w2 & v & n & H1 & H2 & H3 & H4 & H5).
    exists s1. split; [exact H1|]. rewrite V in F1. split.
    + exists w2, (view s3), v, n, d. split; [exact H2|]. split; [exact H3|]. split; [exact H4|]. split; [exact H5|]. split; [|split; [exact F1|exact F2]].
      rewrite <- HW, W. unfold lost_comments. rewrite map_map. reflexivity.
    + unfold render, render_all, var_lines. reflexivity.
  - intros (s1 & H1 & (w2 & w3 & v & n & d & H2 & H3 & H4 & H5 & H6 & H7 & H8) & ->).
    destruct (proj2 (UE w3)) as (s3 & (U & HR) & <-). { exists s1, w2, v, n. auto 8. }
    destruct (lost_goes T old s3 (comment_keys _ _ CP)) as (s4 & M4 & V4 & X4). pose proof (c83 _ _ _ _ M4) as (_ & W4 & _).
    assert (exists s5, finish_v1 T s4 = (Ok tt, s5) /\ r_root (v1 s5) = root /\ msgs s5 = msgs s4 /\ r_schema (v1 s5) = SV1) as (s5 & M5 & R5 & G5 & S5).
    { eexists. split; [apply finish_is; exists root, d; rewrite V4; split; [exact H7|]; split; [exact H8|reflexivity]|]. repeat split; reflexivity. }
    exists s5. split; [split|].
    + unfold render_to_v1. unfold andthen at 1, ask at 1. fold old. unfold andthen at 1. rewrite U. unfold andthen at 1. rewrite M4. unfold andthen at 1. rewrite M5.
      unfold ask, render, render_all. rewrite R5, S5. reflexivity.
    + rewrite G5, X4. exact HR.
    + split; [exact R5|]. rewrite G5, W4, H6. unfold lost_comments. rewrite map_map. reflexivity.
Qed.
Lemma conversion_once T s w root1 root2 ws1 ws2 : reads_proper (t_env T) -> (forall l x, In x (t_order T l) -> In x l) ->
  proper_tree (r_root (v1 s)) = true -> NoDup (map fst (r_vars (v1 s))) -> view s = w ->
  conversion (t_env T) (t_order T) (license_of T) (r_vars (v1 s)) (r_root (v1 s)) w root1 ws1 ->
  conversion (t_env T) (t_order T) (license_of T) (r_vars (v1 s)) (r_root (v1 s)) w root2 ws2 -> root1 = root2 /\ ws1 = ws2.
Proof.
  intros HE HO HP ND <- (a2 & a3 & av & an & ad & A2 & A3 & A4 & A5 & A6 & A7 & A8) (b2 & b3 & bv & bn & bd & B2 & B3 & B4 & B5 & B6 & B7 & B8).
  destruct (can_context T HE HO _ ND s tt a2 HP A2) as (s2 & M2 & _ & V2 & P2). destruct (can_context T HE HO _ ND s tt b2 HP B2) as (s2' & M2' & _ & V2' & _).
  rewrite M2 in M2'. injection M2' as <-. rewrite V2 in V2'. subst a2 b2. rewrite A3 in B3. injection B3 as <-. rewrite A4 in B4. injection B4 as <-.
  destruct (can_sections T HE an s2 tt a3 P2 A5) as (s3 & M3 & _ & V3 & _). destruct (can_sections T HE an s2 tt b3 P2 B5) as (s3' & M3' & _ & V3' & _).
  rewrite M3 in M3'. injection M3' as <-. rewrite V3 in V3'. subst a3 b3. apply top_order in A7. apply top_order in B7. rewrite A7 in B7. injection B7 as <-.
  split; [reflexivity|congruence].
Qed.
Lemma no_selectors_to_convert T s : r_sel (v1 s) = [] -> upgrade_selectors_to_conditionals T s = (Ok tt, s).
Proof. intros H. unfold upgrade_selectors_to_conditionals, andthen, ask. rewrite H. reflexivity. Qed.
Lemma conversion_plain T s text root warnings : reads_proper (t_env T) -> (forall l x, In x (t_order T l) -> In x l) ->
  proper_tree (r_root (v1 s)) = true -> NoDup (map fst (r_vars (v1 s))) -> comments_have_paths (t_env T) (r_root (v1 s)) -> r_sel (v1 s) = [] ->
  ((exists s', without_errors (render_to_v1 T) s text s' /\ r_root (v1 s') = root /\ get_messages WARNING (msgs s') = warnings)
   <-> conversion (t_env T) (t_order T) (license_of T) (r_vars (v1 s)) (r_root (v1 s)) (view s) root warnings
       /\ text = join NLs (render_lines (t_env T) root)).
Proof.
  intros HE HO HP ND CP HS. rewrite (conversion_exactly T s text root warnings HE HO HP ND CP). split.
  - intros (s1 & (H1 & _) & H2). rewrite (no_selectors_to_convert T s HS) in H1. injection H1 as <-. exact H2.
  - intros H. exists s. split; [split; [apply no_selectors_to_convert, HS|reflexivity]|exact H].
Qed.
Lemma conversion_of_text T text0 r m : let E := t_env T in let s := {| v1 := r; msgs := m |} in
  reads_proper E -> (forall l x, In x (t_order T l) -> In x l) ->
  new_recipe E text0 = Ok r -> addressable_document (r_root r) = true -> PhaseSpec.ready E (r_root r) -> comments_have_paths E (r_root r) ->
  exists s1, upgrade_selectors_to_conditionals T s = (Ok tt, s1) /\ conditions_made E (r_root r) (r_root (v1 s1))
  /\ get_messages WARNING (msgs s1) = get_messages WARNING m ++ PhaseSpec.selector_reports E (r_root r)
  /\ forall text root warnings,
     (exists s', without_errors (render_to_v1 T) s text s' /\ r_root (v1 s') = root /\ get_messages WARNING (msgs s') = warnings)
     <-> conversion E (t_order T) (license_of T) (r_vars r) (r_root r) (view s1) root warnings /\ text = join NLs (render_lines E root).
Proof.
  cbv zeta. intros HE HO HN HA HR HC. destruct (fresh_facts _ _ _ HN) as (F1 & _ & _ & F4). pose proof (parsed_proper _ _ _ HE HN) as HP.
  destruct (c91 T (r_root r) HA HR {| v1 := r; msgs := m |} eq_refl F1) as (s1 & M1 & _ & H1 & H2 & H3 & H4).
  exists s1. split; [exact M1|]. split; [split; [exact H1|split; [exact H2|exact H3]]|]. split; [exact (H4 WARNING)|]. intros text root warnings.
  rewrite (conversion_exactly T {| v1 := r; msgs := m |} text root warnings HE HO HP F4 HC). cbn [v1]. split.
  - intros (s1' & (M1' & _) & K). rewrite M1 in M1'. injection M1' as <-. exact K.
  - intros K. exists s1. split; [|exact K]. split; [exact M1|]. pose proof (H4 ERROR) as H5. cbn [msgs] in H5. rewrite app_nil_r in H5. exact H5.
Qed.
