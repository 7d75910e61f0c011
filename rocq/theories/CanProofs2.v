(** C135 (proofs only): putting steps together; misspellings and sources. *)
From Verif Require Export CanProofs.
From Verif Require Import Lemmas PatchProofs PatchProofs2 RenderProofs2 RenderProofs4 SectionSpec.

(** What the change says can be done is done, without errors. *)
Definition can {A} (m : conv A) (R : A -> change) : Prop := forall s a w', proper_tree (r_root (v1 s)) = true -> R a (view s) w' ->
  exists s', m s = (Ok a, s') /\ errors s' = errors s /\ view s' = w' /\ proper_tree (r_root (v1 s')) = true.
Notation canu m A := (can m (fun _ : unit => A)).
Lemma can_impl {A} (m : conv A) (R R' : A -> change) : (forall a w w', R' a w w' -> R a w w') -> can m R -> can m R'.
Proof. intros HI H s a w' HP HR. exact (H s a w' HP (HI _ _ _ HR)). Qed.
Lemma can_ret {A} (a : A) : can (ret a) (fun b w w' => b = a /\ w' = w).
Proof. intros s b w' HP (-> & ->). exists s. repeat split; auto. Qed.
Lemma can_done : canu (ret tt) nothing.
Proof. intros s [] w' HP ->. exists s. repeat split; auto. Qed.
Lemma can_bind {A B} (m : conv A) (k : A -> conv B) R S : can m R -> (forall a, can (k a) (S a)) ->
  can (andthen m k) (fun b w w' => exists a mid, R a w mid /\ S a b mid w').
Proof.
  intros Hm Hk s b w' HP (a & mid & H1 & H2). destruct (Hm s a mid HP H1) as (s1 & M1 & E1 & <- & P1).
  destruct (Hk a s1 b w' P1 H2) as (s2 & M2 & E2 & V2 & P2). exists s2. unfold andthen. rewrite M1, M2. repeat split; auto. congruence.
Qed.
Lemma can_seq {B} (m : conv unit) (k : conv B) (A : change) (S : B -> change) : canu m A -> can k S -> can (do! m in k) (fun a => A >> S a).
Proof. intros Hm Hk. eapply can_impl; [|apply (can_bind m (fun _ => k) _ (fun _ => S) Hm); auto]. intros a w w' (mid & H1 & H2). exists tt, mid. auto. Qed.
Lemma can_pure {A} (x : res A) : can (pure x) (fun a w w' => x = Ok a /\ w' = w).
Proof. intros s a w' HP (-> & ->). exists s. repeat split; auto. Qed.
Lemma can_each {A} (l : list A) f (R : A -> change) : (forall x, In x l -> canu (f x) (R x)) -> canu (each l f) (all_of (map R l)).
Proof.
  induction l as [|x l IH]; intros H; cbn [each map all_of]; [apply can_done|].
  apply (can_seq _ _ _ (fun _ => all_of (map R l))); [apply H; left; auto|]. apply IH. intros y Hy. apply H. right; auto.
Qed.
Lemma can_tell m : canu (say WARNING m) (tell m).
Proof.
  intros s [] w' HP (H1 & H2). eexists. unfold say. split; [reflexivity|]. split; [apply errors_say; discriminate|]. split; [|exact HP].
  destruct w' as [root ws]. cbn [fst snd view] in *. subst. unfold view. cbn [v1 msgs]. f_equal. apply (add_one_more WARNING m (msgs s) WARNING).
Qed.
Section Steps.
Context (T : tools).
Let E := t_env T.
Hypothesis HE : reads_proper E.
Lemma can_has cs c : Forall component (cs ++ [c]) ->
  can (has (path_text (cs ++ [c]))) (fun b w w' => w' = w /\ (b = true <-> present (fst w) (cs ++ [c]))).
Proof.
  intros HC s b w' HP (-> & HB). exists s. split; [|repeat split; auto]. unfold has, ask.
  destruct (stack_snoc cs c HC) as (HS & _). rewrite (contains_value_stack _ _ _ HS). rewrite (present_stack _ cs c HC) in HB. cbn [fst view] in HB.
  destruct (traverse_pos (r_root (v1 s)) (c :: rev cs ++ [ROOT_VALUE])); destruct b; try reflexivity; exfalso.
  - assert (false = true) by (apply HB; discriminate). discriminate.
  - apply HB; reflexivity.
Qed.
Lemma can_value cs d : can (value T (path_text cs) d) (fun v w w' => w' = w /\ get_value E (fst w) (path_text cs) d None = Ok v).
Proof. intros s v w' HP (-> & HV). exists s. unfold value, ask. fold E. cbn [fst view] in HV. rewrite HV. repeat split; auto. Qed.
Lemma can_patch p q (R : node -> node -> Prop) : asks p q -> self_move q = false -> is_test q = false ->
  (forall r root', proper_tree (r_root r) = true -> R (r_root r) root' -> exists r', patch E p r = (Ok true, r') /\ r_root r' = root') ->
  can (patch_and_log T p) (fun b w w' => b = true /\ in_lines R w w').
Proof.
  intros HA HS HT HR s b w' HP (-> & H1 & H2). destruct (HR (v1 s) (fst w') HP H1) as (r' & P & Q).
  exists {| v1 := r'; msgs := msgs s |}. unfold patch_and_log, andthen, call. fold E. rewrite P. cbn [negb when ret]. split; [reflexivity|]. split; [reflexivity|].
  split; [|exact (patch_stays_proper E p q _ _ HE HA HS HT P HP)]. unfold view. cbn [v1 msgs]. rewrite Q. destruct w' as [root ws]. cbn [fst snd view] in *. subst. reflexivity.
Qed.
Lemma can_remove cs c : Forall component (cs ++ [c]) ->
  can (patch_and_log T (p_remove (path_text (cs ++ [c])))) (fun b w w' => b = true /\ in_lines (line_taken (cs ++ [c])) w w').
Proof. intros HC. eapply can_patch; [apply asks_remove, path_nonnil|reflexivity|reflexivity|]. intros r root' HP H. exact (remove_works E cs c r root' HC HP H). Qed.
Lemma can_add ds c v : Forall component (ds ++ [c]) -> isdigit c = false -> c <> $"-" ->
  can (patch_and_log T (p_add (path_text (ds ++ [c])) v)) (fun b w w' => b = true /\ in_lines (value_put E ds c v) w w').
Proof. intros HC D N. eapply can_patch; [apply asks_add, path_nonnil|reflexivity|reflexivity|]. intros r root' HP H. exact (add_works E ds c v r root' HC D N H). Qed.
Lemma can_replace ds c v : Forall component (ds ++ [c]) -> isdigit c = false ->
  can (patch_and_log T (p_replace (path_text (ds ++ [c])) v)) (fun b w w' => b = true /\ in_lines (value_replaced E (ds ++ [c]) v) w w').
Proof. intros HC D. eapply can_patch; [apply asks_replace, path_nonnil|reflexivity|reflexivity|]. intros r root' HP H. exact (replace_works E ds c v r root' HC D H). Qed.
Lemma can_move ds c es d : Forall component (ds ++ [c]) -> Forall component (es ++ [d]) -> isdigit d = false -> d <> $"-" ->
  ds ++ [c] <> es ++ [d] ->
  can (patch_and_log T (p_move (path_text (ds ++ [c])) (path_text (es ++ [d])))) (fun b w w' => b = true /\ moved E ds c es d w w').
Proof.
  intros HC HC' D ND NE.
  eapply can_impl; [|eapply (can_patch _ _ (fun root root' => place_for es d root /\ exists v mid, get_value E root (path_text (ds ++ [c])) None None = Ok v
     /\ line_taken (ds ++ [c]) root mid /\ value_put E es d v mid root')); [apply asks_move, path_nonnil| |reflexivity|]].
  - intros b w w' (-> & v & H1 & H2 & mid & (H3 & H4) & H5 & H6). split; [reflexivity|]. split; [|congruence]. split; [exact H2|]. exists v, (fst mid). auto.
  - cbn. apply str_eqb_neq. intros K. apply NE. symmetry. apply path_text_inj; auto using snoc_nonnil.
  - intros r root' HP (PL & v & mid & H1 & H2 & H3). exact (move_can E ds c es d v r mid root' HC HC' D ND NE HP H1 PL H2 H3).
Qed.
(** The shapes in which these are used. *)
Lemma flag_seq {m : conv bool} {k : conv unit} {A B} : can m (fun b w w' => b = true /\ A w w') -> canu k B -> canu (do! m in k) (A >> B).
Proof.
  intros Hm Hk. eapply can_impl; [|apply (can_bind m (fun _ => k) _ (fun _ (_ : unit) => B) Hm); auto]. intros a w w' (mid & H1 & H2). exists true, mid. auto.
Qed.
Lemma can_only {m : conv bool} {R} : can m (fun b w w' => b = true /\ R w w') -> canu (do! m in ret tt) R.
Proof. intros H. eapply can_impl; [|apply (flag_seq H can_done)]. intros a w w' K. exists w'. split; [exact K|reflexivity]. Qed.
Lemma can_unit {m : conv unit} {A B} {k : conv unit} : canu m A -> canu k B -> canu (do! m in k) (A >> B).
Proof. intros Hm Hk. exact (can_seq m k A (fun _ => B) Hm Hk). Qed.
Lemma can_cases cs c (k : bool -> conv unit) A B : Forall component (cs ++ [c]) -> canu (k true) A -> canu (k false) B ->
  canu (run! there := has (path_text (cs ++ [c])) in k there) (if_else_there (cs ++ [c]) A B).
Proof.
  intros HC HA HB. eapply can_impl; [|apply (can_bind _ _ _ (fun (b : bool) (_ : unit) => if b then A else B) (can_has cs c HC))].
  - intros a w w' [(P & K)|(P & K)]; [exists true, w|exists false, w]; (split; [split; [reflexivity|]|exact K]); split; intros Q; auto; try discriminate Q; contradiction.
  - intros [|]; assumption.
Qed.
Lemma can_if_has cs c m A : Forall component (cs ++ [c]) -> canu m A ->
  canu (run! there := has (path_text (cs ++ [c])) in if there : bool then m else ret tt) (if_there (cs ++ [c]) A).
Proof. intros HC H. exact (can_cases cs c _ A nothing HC H can_done). Qed.
Lemma can_if_not cs c m A : Forall component (cs ++ [c]) -> canu m A ->
  canu (run! there := has (path_text (cs ++ [c])) in if there : bool then ret tt else m) (if_missing (cs ++ [c]) A).
Proof.
  intros HC H. eapply can_impl; [|apply (can_cases cs c (fun b : bool => if b then ret tt else m) nothing A HC can_done H)].
  intros a w w' [(P & K)|(P & K)]; [right|left]; auto.
Qed.
Lemma can_read cs d k A : (forall v, canu (k v) (A v)) -> canu (run! v := value T (path_text cs) d in k v) (with_value E cs d A).
Proof. intros H. eapply can_impl; [|apply (can_bind _ _ _ (fun v (_ : unit) => A v) (can_value cs d)); exact H]. intros a w w' (v & Hv & K). exists v, w. auto. Qed.
Lemma can_sort cs c tbl : Forall component (cs ++ [c]) -> machine_table tbl -> Sorted Z.lt (map snd tbl) ->
  canu (sort_keys (path_text (cs ++ [c])) tbl) (in_order_of (map fst tbl) (cs ++ [c])).
Proof.
  intros HC HM HO s [] w' HP HR. destruct (c44_total (r_root (v1 s)) (path_text (cs ++ [c])) tbl [] (path_nonnil _ _)) as (root & S).
  assert (sort_keys (path_text (cs ++ [c])) tbl s = (Ok tt, {| v1 := with_root (v1 s) root; msgs := msgs s |})) as M by (unfold sort_keys; rewrite S; reflexivity).
  destruct (does_sort cs c tbl HC HM HO s _ _ M) as (_ & K). destruct (K tt eq_refl eq_refl HP) as (K1 & K2 & _).
  eexists. split; [exact M|]. split; [reflexivity|]. split; [|exact K2].
  assert (forall root1 root2 : node, (exists t q, map fst t = map fst tbl /\ Sorted Z.lt (map snd t) /\ addresses (fst (view s)) (path_text (cs ++ [c])) q
    /\ changed_at (fun n n' => sorted_lines t (n_children n) (n_children n') /\ n' = with_lines n (n_children n')) q (fst (view s)) root1) ->
    (exists t q, map fst t = map fst tbl /\ Sorted Z.lt (map snd t) /\ addresses (fst (view s)) (path_text (cs ++ [c])) q
    /\ changed_at (fun n n' => sorted_lines t (n_children n) (n_children n') /\ n' = with_lines n (n_children n')) q (fst (view s)) root2) -> root1 = root2) as U.
  { intros root1 root2 (t1 & q1 & N1 & O1 & A1 & C1) (t2 & q2 & N2 & O2 & A2 & C2). pose proof (TextProofs.address_same _ _ _ _ A1 A2) as <-.
    assert (forall t root0, map fst t = map fst tbl -> Sorted Z.lt (map snd t) ->
      changed_at (fun n n' => sorted_lines t (n_children n) (n_children n') /\ n' = with_lines n (n_children n')) q1 (fst (view s)) root0 ->
      changed_at (fun n n' => sorted_lines tbl (n_children n) (n_children n') /\ n' = with_lines n (n_children n')) q1 (fst (view s)) root0) as TR.
    { intros t root0 N O C. revert C. generalize (fst (view s)). clear - N O HO. intros a C. induction C as [n n' (SL & EQ)|n before x x' after p EQ C IH].
      - constructor. split; [|exact EQ]. exact (same_order t tbl N O HO _ _ SL).
      - eapply changed_below; eauto. }
    refine (changed_once _ q1 _ _ _ _ (TR t1 _ N1 O1 C1) (TR t2 _ N2 O2 C2)).
    clear - HM. intros n a b (SA & EA) (SB & EB). rewrite EA, EB, (sorted_unique tbl _ _ _ HM SA SB). reflexivity. }
  destruct w' as [root' ws]. destruct K1 as [(P1 & X1 & Y1)|(P1 & X1)]; destruct HR as [(P2 & X2 & Y2)|(P2 & X2)]; try contradiction.
  - cbn [fst snd] in X2, Y2. rewrite Y2. unfold view at 1. cbn [v1 msgs]. f_equal. exact (U _ _ X1 X2).
  - rewrite X1. symmetry. exact X2.
Qed.
End Steps.

Section Sections.
Context (T : tools).
Let E := t_env T.
Hypothesis HE : reads_proper E.
Section Base.
Context (ds : list str) (b : str).
Hypothesis HD : Forall component ds.
Hypothesis HB : base_of ds b.
Lemma can_helper_move ec c es d ed : forallb comp_ok [c] = true -> forallb comp_ok (es ++ [d]) = true -> ext_of ec [c] -> ext_of ed (es ++ [d]) ->
  isdigit d = false -> str_eqb d $"-" = false -> [c] <> es ++ [d] ->
  canu (patch_move_base_path T b ec ed) (move E ds c (ds ++ es) d).
Proof.
  intros Hc Hd Xc Xd D ND NE. unfold patch_move_base_path.
  rewrite (path_of ds b ec [] c HD HB Hc Xc), (path_of ds b ed es d HD HB Hd Xd), app_nil_r.
  unfold move. apply (can_if_has ds c).
  - pose proof (comps ds [] c HD Hc) as K. rewrite app_nil_r in K. exact K.
  - apply can_only. apply can_move; auto.
    + pose proof (comps ds [] c HD Hc) as K. rewrite app_nil_r in K. exact K.
    + apply comps; auto.
    + apply str_eqb_neq, ND.
    + rewrite <- app_assoc. intros K. apply NE. apply app_inv_head in K. exact K.
Qed.
Lemma can_helper_rename ec c d ed : forallb comp_ok [c] = true -> forallb comp_ok [d] = true -> ext_of ec [c] -> ext_of ed [d] ->
  isdigit d = false -> str_eqb d $"-" = false -> str_eqb c d = false -> canu (patch_move_base_path T b ec ed) (rename E ds c d).
Proof.
  intros Hc Hd Xc Xd D ND NE. pose proof (can_helper_move ec c [] d ed Hc Hd Xc Xd D ND) as K. rewrite app_nil_r in K. apply K.
  apply str_eqb_neq in NE. cbn [app]. congruence.
Qed.
Lemma can_helper_add e c v : forallb comp_ok [c] = true -> ext_of e [c] -> isdigit c = false -> str_eqb c $"-" = false ->
  canu (patch_add_missing_path T b e v) (if_missing (ds ++ [c]) (in_lines (value_put E ds c v))).
Proof.
  intros Hc Xc D ND. unfold patch_add_missing_path. rewrite (path_of ds b e [] c HD HB Hc Xc), app_nil_r.
  pose proof (comps ds [] c HD Hc) as K. rewrite app_nil_r in K.
  apply (can_if_not ds c); [exact K|]. apply can_only. apply can_add; auto. apply str_eqb_neq, ND.
Qed.
(** A test followed by further steps. *)
Lemma can_has_then cs c m A k B : Forall component (cs ++ [c]) -> canu m A -> canu k B ->
  canu (run! there := has (path_text (cs ++ [c])) in do! when there m in k) (if_there (cs ++ [c]) A >> B).
Proof.
  intros HC H Hk. eapply can_impl; [|apply (can_cases cs c (fun there : bool => do! when there m in k) (A >> B) (nothing >> B) HC); cbn [when]; apply can_unit; auto using can_done].
  intros a w w' (mid & [(P & K)|(P & ->)] & K2); [left|right]; (split; [exact P|]); [exists mid; auto|exists w; split; [reflexivity|exact K2]].
Qed.
Lemma can_helper_nest eo c en into ex d : forallb comp_ok [c] = true -> forallb comp_ok [into; d] = true -> ext_of eo [c] -> ext_of en [into] ->
  isdigit into = false -> str_eqb into $"-" = false -> isdigit d = false -> str_eqb d $"-" = false ->
  append_to_path en (match ex with Some e => e | None => eo end) = path_text [into; d] ->
  canu (patch_move_new_path T b eo en ex) (nest E ds c into d).
Proof.
  intros Hc Hd Xc Xi D1 N1 D2 N2 Hx. unfold patch_move_new_path. cbv zeta. rewrite Hx.
  rewrite (path_of ds b eo [] c HD HB Hc Xc), app_nil_r. pose proof (comps ds [] c HD Hc) as K. rewrite app_nil_r in K.
  unfold nest, created. apply can_has_then; [exact K| |].
  - apply can_helper_add; auto. cbn [forallb] in Hd |- *. rewrite andb_true_r. apply andb_prop in Hd. apply Hd.
  - apply (can_helper_move eo c [into] d); auto; [left; reflexivity|discriminate].
Qed.
Lemma can_helper_dropped l : forallb (fun c => comp_ok c) l = true ->
  canu (patch_deprecated_fields T b l) (all_dropped ds l).
Proof.
  intros HL. unfold patch_deprecated_fields, all_dropped. apply can_each. intros c Hc.
  rewrite forallb_forall in HL. specialize (HL c Hc).
  assert (forallb comp_ok [c] = true) as Hc' by (cbn [forallb]; rewrite HL; reflexivity).
  assert (append_to_path b c = path_text (ds ++ [c])) as ->.
  { rewrite (path_of ds b c [] c HD HB Hc'), app_nil_r; [reflexivity|]. right. cbn [app path_text]. rewrite app_nil_r. reflexivity. }
  pose proof (comps ds [] c HD Hc') as K. rewrite app_nil_r in K. unfold dropped. apply (can_if_has ds c); [exact K|].
  eapply can_impl; [|apply (can_bind _ (fun ok : bool => when ok (say WARNING ($"Field at `" ++ path_text (ds ++ [c]) ++ $"` is no longer supported."))) _
     (fun x (_ : unit) => if x then tell (unsupported_field (ds ++ [c])) else nothing) (can_remove T HE ds c K))].
  - intros a w w' (mid & H1 & H2). exists true, mid. split; auto.
  - intros [|]; [apply can_tell|apply can_done].
Qed.
End Base.
Lemma can_for_bases bases f A : Forall (Forall component) bases -> (forall bs, Forall component bs -> canu (f (base_text bs)) (A bs)) ->
  canu (each (map base_text bases) f) (for_each A bases).
Proof.
  intros HB H. unfold for_each. induction HB as [|bs l H1 H2 IH]; cbn [map each all_of]; [apply can_done|]. apply can_unit; [apply H, H1|exact IH].
Qed.
Lemma can_rename_first ds b ec c d ed l k B : Forall component ds -> base_of ds b -> forallb comp_ok [c] = true -> forallb comp_ok [d] = true ->
  ext_of ec [c] -> ext_of ed [d] -> isdigit d = false -> str_eqb d $"-" = false -> str_eqb c d = false ->
  canu k (renames E ds l >> B) ->
  canu (do! patch_move_base_path T b ec ed in k) (renames E ds ((c, d) :: l) >> B).
Proof.
  intros HD HB H1 H2 H3 H4 H5 H6 H7 HK. eapply can_impl; [|exact (can_unit (can_helper_rename ds b HD HB ec c d ed H1 H2 H3 H4 H5 H6 H7) HK)].
  intros a w w' (m' & (m & R1 & R2) & R3). exists m. split; [exact R1|]. exists m'. split; [exact R2|exact R3].
Qed.
Lemma can_no_renames ds k B : canu k B -> canu k (renames E ds [] >> B).
Proof. apply can_impl. intros a w w' (m & -> & H). exact H. Qed.
Lemma can_misspellings bases : Forall (Forall component) bases ->
  canu (correct_common_misspellings T (map base_text bases)) (for_each (misspellings_corrected E) bases).
Proof.
  intros HBS. unfold correct_common_misspellings. apply can_for_bases; [exact HBS|]. intros bs HB. cbv zeta.
  rewrite (below bs (base_text bs) $"/build" $"build") by (auto using base_text_of; side).
  unfold misspellings_corrected.
  assert (Forall component (bs ++ [$"build"])) as HBB by (apply below_comps; [exact HB|side]).
  do 3 (apply can_rename_first; [exact HBB|apply base_of_path|side|side|side|side|side|side|side|]).
  apply can_no_renames. apply can_helper_rename; [exact HB|apply base_text_of|side..].
Qed.
Lemma can_source_one ds : Forall component ds -> ds <> [] -> canu (upgrade_source T (path_text ds)) (source_upgraded E ds).
Proof.
  intros HD HN. unfold upgrade_source, source_upgraded.
  rewrite (below ds _ $"svn_url" $"svn_url"), (below ds _ $"hg_url" $"hg_url") by (auto using base_of_path; side).
  apply can_has_then; [apply below_comps; [exact HD|side]|apply can_tell|].
  apply can_has_then; [apply below_comps; [exact HD|side]|apply can_tell|].
  do 6 (apply can_rename_first; [exact HD|apply base_of_path|side|side|side|side|side|side|side|]).
  apply can_no_renames. destruct (exists_last HN) as (cs & c & ->).
  apply (can_sort cs c V1_SOURCE_SECTION_SORT HD).
  - repeat constructor.
  - repeat constructor.
Qed.
Lemma can_sources bases : Forall (Forall component) bases ->
  canu (upgrade_source_section T (map base_text bases)) (for_each (sources_upgraded E) bases).
Proof.
  intros HBS. unfold upgrade_source_section. apply can_for_bases; [exact HBS|]. intros bs HB. cbv zeta.
  rewrite (below bs (base_text bs) $"/source" $"source") by (auto using base_text_of; side).
  assert (Forall component (bs ++ [$"source"])) as HS by (apply below_comps; [exact HB|side]).
  unfold sources_upgraded. apply (can_if_has bs $"source"); [exact HS|]. apply can_read. intros v.
  assert (canu (each [path_text (bs ++ [$"source"])] (upgrade_source T)) (source_upgraded E (bs ++ [$"source"]))) as H1.
  { cbn [each]. eapply can_impl; [|exact (can_unit (can_source_one _ HS (snoc_nonnil _ _)) can_done)].
    intros a w w' H1. exists w'. split; [exact H1|reflexivity]. }
  destruct v as [p|l|d]; [exact H1| |exact H1].
  assert (forall L, canu (each (map (fun i => append_to_path (path_text (bs ++ [$"source"])) ($"/" ++ str_of_nat i)) L) (upgrade_source T))
     (all_of (map (fun i => source_upgraded E ((bs ++ [$"source"]) ++ [str_of_nat i])) L))) as HL.
  { induction L as [|i L IH]; cbn [map each all_of]; [apply can_done|]. apply can_unit; [|exact IH].
    assert (forallb comp_ok [str_of_nat i] = true) as Hi by (cbn [forallb]; rewrite number_ok; reflexivity).
    rewrite (below (bs ++ [$"source"]) _ ($"/" ++ str_of_nat i) (str_of_nat i)); auto.
    - apply can_source_one; [apply below_comps; auto|apply snoc_nonnil].
    - apply base_of_path.
    - left. cbn [path_text]. rewrite app_nil_r. reflexivity. }
  apply HL.
Qed.
End Sections.
