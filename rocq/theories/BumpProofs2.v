(** Proofs for C137 with keys that may be missing. *)
From Verif Require Import FrameProofs2 DepsProofs ServiceProofs CommandsProofs AnswerProofs PhaseProofs2 ValueProofs AboutProofs PathProofs PathProofs2 PatchProofs PatchProofs2 FrameProofs LayoutProofs8 CommandsProofs4 HashProofs EditProofs BumpProofs BumpSpec2 PlainSpec.

Lemma recurse_end root a c q m i x : traverse_recurse root a = Some q -> node_at root q = Some m -> step_child m c = Some (i, x) ->
  traverse_recurse root (a ++ [c]) = Some (q ++ [i]).
Proof.
  revert root q. induction a as [|k a IH]; intros root q HT HN HS; cbn [traverse_recurse app] in *.
  - injection HT as <-. injection HN as ->. rewrite HS. reflexivity.
  - destruct (step_child root k) as [[j y]|] eqn:HK; [|discriminate]. destruct (traverse_recurse y a) as [q'|] eqn:HY; [|discriminate].
    injection HT as <-. cbn [node_at] in HN. rewrite (step_child_nth _ _ _ _ HK) in HN. rewrite (IH y q' HY HN HS). reflexivity.
Qed.
Lemma there E v c p xs xs' : last p [] = c -> inside (entry_rewritten E v c) p xs xs' -> exists q, traverse_recurse (document xs) p = Some q.
Proof.
  intros <- HI. pose proof (inside_nonempty _ _ _ _ HI) as NE.
  destruct (inside_at _ _ _ _ HI [] (document xs) eq_refl (or_introl eq_refl)) as (ys & ys' & (A & x & x' & B & HS & _ & -> & _) & q & m & pre' & HT & HN & HM & HP & _).
  pose proof (selects_step _ _ _ _ _ _ HM HP HS) as HSt. rewrite (@app_removelast_last str p [] NE).
  exists (q ++ [length (pre' ++ map tree_of A)]). exact (recurse_end _ _ _ _ _ _ _ HT HN HSt).
Qed.
Lemma missing E v c p xs xs' : last p [] = c -> inside (key_added E v c) p xs xs' -> traverse_recurse (document xs) p = None.
Proof.
  intros <- HI. pose proof (inside_nonempty _ _ _ _ HI) as NE.
  destruct (inside_at _ _ _ _ HI [] (document xs) eq_refl (or_introl eq_refl)) as (ys & ys' & (D & _ & HNo & _) & q & m & pre' & HT & HN & HM & HP & _).
  assert (step_child m (last p []) = None) as HS.
  { unfold step_child. rewrite D, HM. apply find_nothing. exact (unnamed _ _ _ HP D HNo). }
  refine (eq_trans (f_equal (traverse_recurse _) (@app_removelast_last str p [] NE)) _). exact (recurse_snoc_none _ _ _ _ _ HT HN HS).
Qed.
Lemma contains_not root cs : cs <> [] -> Forall component cs -> traverse_recurse root cs = None -> contains_value root (path_text cs) = Ok false.
Proof.
  intros N C T. rewrite (contains_value_stack _ _ _ (stack_of_path _ N C)), traverse_pos_components, T. reflexivity.
Qed.
Definition done (E : env) (pl : json) (r : recipe) (xs' : list item) : Prop :=
  exists r', exit_on_failed_patch E pl r = Go r' /\ r_root r' = document xs' /\ r_vars r' = r_vars r /\ r_schema r' = r_schema r.
Lemma result_done E pl r xs' : edit_result E pl r xs' -> done E pl r xs'.
Proof. intros (r' & HP & HR & _ & HS & HV). exists r'. split; [apply exit_patch_go, HP|]. auto. Qed.
Lemma path_nonempty (p : list str) : p <> [] -> path_text p <> [].
Proof. destruct p; [congruence|discriminate]. Qed.
Lemma overwritten E v c p xs xs' : isdigit c = false -> c <> $"-" -> inside (entry_rewritten E v c) p xs xs' -> inside (entry_overwritten E v c) p xs xs'.
Proof.
  intros D ND H. induction H as [d xs xs' H|k p' cm cs cs' x x' A B D' NE HX HX' H IH|i p' cm zs zs' x x' A B D' HI HX HX' H IH];
    [|eapply inside_section; eassumption|eapply inside_element; eassumption].
  constructor. destruct H as (A & x & x' & B & H1 & H2 & H3 & H4). exists A, x, x', B. split; [exact ND|]. split; [exact H1|]. split; [|auto].
  unfold selects in H1. rewrite D in H1. destruct H1 as (_ & H1). destruct x; try reflexivity; discriminate.
Qed.
Lemma replaced E p v xs xs' r : Forall component p -> inside (entry_rewritten E v (last p [])) p xs xs' -> r_root r = document xs ->
  done E (edit_payload $"replace" (path_text p) v) r xs'.
Proof.
  intros HC HI HR. apply result_done. eapply edit_once; [eapply edit_replace; eassumption|apply payload_replace, path_nonempty; exact (inside_nonempty _ _ _ _ HI)|exact HR].
Qed.
Lemma added E p v xs xs' r : Forall component p -> isdigit (last p []) = false -> last p [] <> $"-" -> written_at E p v xs xs' -> r_root r = document xs ->
  done E (edit_payload $"add" (path_text p) v) r xs'.
Proof.
  intros HC D ND [HI|(HX & HI)] HR; apply result_done.
  - eapply edit_once; [eapply edit_overwrite; [exact HC|apply overwritten; eassumption]|apply payload_add, path_nonempty; exact (inside_nonempty _ _ _ _ HI)|exact HR].
  - eapply edit_once; [eapply edit_add_key; eassumption|apply payload_add, path_nonempty; exact (inside_nonempty _ _ _ _ HI)|exact HR].
Qed.
Lemma put_done E p v xs xs' r : Forall component p -> isdigit (last p []) = false -> last p [] <> $"-" -> written_at E p v xs xs' -> r_root r = document xs ->
  exists has, contains_value (r_root r) (path_text p) = Ok has /\ done E (edit_payload (if has : bool then $"replace" else $"add") (path_text p) v) r xs'.
Proof.
  intros HC D ND HV HR. destruct HV as [HI|(HX & HI)].
  - exists true. destruct (there _ _ _ _ _ _ eq_refl HI) as (q & HT). rewrite HR. split; [exact (contains_there _ _ _ (inside_nonempty _ _ _ _ HI) HC HT)|].
    eapply replaced; eassumption.
  - exists false. rewrite HR. split; [apply contains_not; [exact (inside_nonempty _ _ _ _ HI)|exact HC|exact (missing _ _ _ _ _ _ eq_refl HI)]|].
    apply (added E p v xs xs' r HC D ND); [right; auto|exact HR].
Qed.
Lemma number_put_go E inc xs xs' r : number_put E inc xs xs' -> r_root r = document xs ->
  exists r', update_build_num E inc r = Go r' /\ r_root r' = document xs' /\ r_vars r' = r_vars r /\ r_schema r' = r_schema r.
Proof.
  intros ((b & HB) & HV) HR. unfold update_build_num. rewrite HR, HB.
  assert (Forall component [$"build"; $"number"]) as HC by comps.
  assert (BUILD_NUM = path_text [$"build"; $"number"]) as HP by reflexivity.
  assert (last [$"build"; $"number"] [] <> $"-") as HL by (apply not_dash; vm_compute; reflexivity).
  destruct inc; cbn [then_].
  - destruct HV as [(n & HG & HI)|(HX & HI)].
    + destruct (there E _ $"number" [$"build"; $"number"] _ _ eq_refl HI) as (q & HT). rewrite HP, (contains_there _ _ _ (inside_nonempty _ _ _ _ HI) HC HT). cbn [lift then_].
      change (path_text [$"build"; $"number"]) with $"/build/number" at 1. rewrite HG. cbn [lift then_ as_int]. exact (replaced E [$"build"; $"number"] _ xs xs' r HC HI HR).
    + rewrite HP, (contains_not _ _ (inside_nonempty _ _ _ _ HI) HC (missing E _ $"number" [$"build"; $"number"] _ _ eq_refl HI)). cbn [lift then_].
      apply (added E _ _ xs xs' r HC eq_refl HL); [right; auto|exact HR].
  - rewrite HP. exact (added E _ _ xs xs' r HC eq_refl HL HV HR).
Qed.
Lemma version_put_go E sv target xs vars xs' vars' r : version_put E sv target xs vars xs' vars' -> NoDup (map fst vars) ->
  r_root r = document xs -> r_vars r = vars ->
  exists r', update_version E target r = Go r' /\ r_root r' = document xs' /\ r_vars r' = vars' /\ r_schema r' = r_schema r /\ map fst vars' = map fst vars.
Proof.
  intros (_ & HV) ND HR HVa. unfold update_version, get_variable. rewrite HVa. destruct HV as [(w & I & Nw & -> & HS)|(HN & -> & HS)].
  - rewrite (dget_there _ _ _ ND I). cbn [lift then_]. destruct (dset_place _ _ _ _ ND HS) as (HD & HF).
    exists (set_variable $"version" (JStr target) r).
    split; [destruct w as [[]| |]; try reflexivity; destruct (Nw eq_refl)|].
    split; [exact HR|]. split; [|split; [reflexivity|exact HF]]. unfold set_variable. cbn [mark_modified with_vars r_vars]. rewrite HVa. exact HD.
  - assert (Forall component [$"package"; $"version"]) as HC by comps.
    assert (VERSION = path_text [$"package"; $"version"]) as HP by reflexivity.
    assert (last [$"package"; $"version"] [] <> $"-") as HL by (apply not_dash; vm_compute; reflexivity).
    assert (exists r', then_ (lift (contains_value (r_root r) VERSION)) (fun has : bool =>
       exit_on_failed_patch E (edit_payload (if has then $"replace" else $"add") VERSION (JStr target)) r) = Go r'
       /\ r_root r' = document xs' /\ r_vars r' = vars /\ r_schema r' = r_schema r /\ map fst vars = map fst vars) as G.
    { rewrite HP. destruct (put_done E _ _ xs xs' r HC eq_refl HL HS HR) as (has & -> & r' & H1 & H2 & H3 & H4). cbn [lift then_].
      exists r'. rewrite HVa in H3. auto. }
    destruct (dget $"version" vars) as [w|] eqn:HG; cbn [lift then_]; [|exact G].
    rewrite (HN w (dget_is_in _ _ _ HG)). exact G.
Qed.
Lemma puts_go E N l xs xs' : sums_put E N l xs xs' -> Forall source_key (map fst l) -> NoDup (map fst l) ->
  forall acc, (forall k, In k (map fst l) -> ~ In (k ++ $"/sha256") (dkeys acc)) ->
  exists out, collect_hashes N l acc = Go (acc ++ out)
  /\ forall r, r_root r = document xs -> exists r', write_hashes E out r = Go r' /\ r_root r' = document xs' /\ r_vars r' = r_vars r /\ r_schema r' = r_schema r.
Proof.
  induction 1 as [xs|cs name url t l xs xs1 xs2 HC HS HV H IH]; intros HK ND acc HD.
  - exists []. cbn [collect_hashes write_hashes]. rewrite app_nil_r. split; [reflexivity|]. intros r HR. exists r. auto.
  - cbn [map fst] in *. inversion HK as [|? ? K1 K2]; subst. inversion ND as [|? ? N1 N2]; subst. cbn [collect_hashes].
    unfold checksum in HS. unfold sha_of_source. rewrite HS. rewrite (source_sha _ K1).
    rewrite (CommandsProofs4.dset_fresh _ t acc (HD _ (or_introl eq_refl))).
    destruct (IH K2 N2 (acc ++ [(path_text cs ++ $"/sha256", t)])) as (out & HG & HR).
    { intros k I I'. unfold dkeys in I'. rewrite map_app in I'. apply in_app_iff in I' as [I'|[I'|[]]]; [exact (HD k (or_intror I) I')|].
      cbn [fst] in I'. apply app_inv_tail in I'. subst k. exact (N1 I). }
    exists ((path_text cs ++ $"/sha256", t) :: out). split; [refine (eq_trans HG _); rewrite <- app_assoc; reflexivity|].
    intros r Hr. cbn [write_hashes]. change (path_text cs ++ $"/sha256") with (path_text cs ++ cSL :: $"sha256"). rewrite <- path_snoc.
    assert (Forall component (cs ++ [$"sha256"])) as HC' by (apply Forall_app; split; [exact HC|comps]).
    assert (last (cs ++ [$"sha256"]) [] <> $"-") as HL by (rewrite last_last; apply not_dash; vm_compute; reflexivity).
    assert (isdigit (last (cs ++ [$"sha256"]) []) = false) as D by (rewrite last_last; reflexivity).
    destruct (put_done E _ _ xs xs1 r HC' D HL HV Hr) as (has & -> & r1 & H1 & R1 & V1 & S1). cbn [lift then_]. rewrite H1. cbn [then_].
    destruct (HR r1 R1) as (r' & HWr & R2 & V2 & S2). exists r'. split; [exact HWr|]. split; [exact R2|]. split; congruence.
Qed.
Lemma all_put E N sv xs vars xs' vars' r : (forall l, Permutation (n_order N l) l) -> all_sums_put E N sv xs vars xs' vars' -> NoDup (map fst vars) ->
  r_root r = document xs -> r_vars r = vars -> r_schema r = sv ->
  exists r', update_sha256 E N r = Go r' /\ r_root r' = document xs' /\ r_vars r' = vars' /\ r_schema r' = sv.
Proof.
  intros HPe (tbl & HF & HC) ND HR HVa HSc. unfold update_sha256.
  rewrite (same_sources E r (recipe_in sv xs vars) true HR HVa HSc), HF. cbn [lift then_].
  destruct (from_recipe_keys _ _ _ _ HF) as (HK & HND & _).
  assert (forall k, get_variable_references E k r = get_variable_references E k (recipe_in sv xs vars)) as HG
    by (intros k; apply same_references; assumption).
  destruct HC as [(k & name & url & t & (H1 & H2 & H3 & -> & H5) & HS & -> & HV)|(HNo & -> & HW)].
  - cbn [is_nil]. unfold check_hash_var, list_variables. rewrite HVa. cbn [recipe_in r_vars] in H2, H3.
    change (dkeys vars) with (map fst vars). rewrite (proj2 (hash_variable vars k ND) (conj H1 (conj H2 H3))).
    change (length [($"/source", SHttp name url)] =? 1) with true. cbv iota.
    change (dget SOURCE [($"/source", SHttp name url)]) with (Some (SHttp name url)). cbv iota. rewrite HG. unfold SINGLE_SHA_256.
    rewrite (proj2 (mem_str_In _ _) H5). unfold checksum in HS. unfold sha_of_source, SOURCE. rewrite HS. cbn [then_].
    destruct (dset_place _ _ _ _ ND HV) as (HD & _). exists (set_variable k (JStr t) r). split; [reflexivity|]. split; [exact HR|].
    split; [|exact HSc]. unfold set_variable. cbn [mark_modified with_vars r_vars]. rewrite HVa. exact HD.
  - rewrite archives_are in HW. destruct (is_nil tbl) eqn:HNil.
    { destruct tbl; [|discriminate]. change (http_sources []) with (@nil (str * (str * str))) in HW.
      rewrite (Permutation_nil (Permutation_sym (HPe []))) in HW. inversion HW; subst. exists r. auto. }
    assert (check_hash_var E N tbl r = Go None) as ->.
    { unfold check_hash_var, list_variables. rewrite HVa. change (dkeys vars) with (map fst vars).
      destruct (filter (fun v => mem_str v COMMON_HASH_VAR_NAMES) (map fst vars)) as [|k [|]] eqn:HFi; try reflexivity.
      apply (hash_variable vars k ND) in HFi as (H1 & H2 & H3).
      destruct (length tbl =? 1) eqn:HLe; [|reflexivity]. apply Nat.eqb_eq in HLe. destruct tbl as [|[p s] [|]]; try discriminate.
      unfold SOURCE. cbn [dget]. destruct (str_eqb $"/source" p) eqn:HE; [|reflexivity]. apply str_eqb_eq in HE as <-.
      destruct s as [name url|]; [|reflexivity]. rewrite HG. destruct (mem_str SINGLE_SHA_256 _) eqn:HM; [|reflexivity].
      apply mem_str_In in HM. exfalso. apply (HNo k name url). repeat split; assumption. }
    cbn [then_]. destruct (archive_keys tbl HND) as (A1 & A2).
    pose proof (Permutation_map fst (HPe (http_sources tbl))) as HPm.
    destruct (puts_go E N _ _ _ HW) with (acc := @nil (str * str)) as (out & HCo & HWr).
    + rewrite Forall_forall in *. intros k I. apply HK, A2. exact (Permutation_in _ HPm I).
    + exact (Permutation_NoDup (Permutation_sym HPm) A1).
    + intros k _ [].
    + rewrite HCo. cbn [then_ app]. destruct (HWr r HR) as (r' & H1 & H2 & H3 & H4). exists r'. split; [exact H1|]. split; [exact H2|]. split; congruence.
Qed.

(** * The command *)
Lemma c137_added E N variants o written xs vars xs' vars' : (forall v, In v variants <-> In v HASH_TYPE_VARIANTS) ->
  (forall l, Permutation (n_order N l) l) -> valid_options o ->
  canonical_recipe E xs vars -> canonical_recipe E xs' vars' -> no_mark (join NLs (recipe_page xs vars)) ->
  file_put E N SV0 o xs vars xs' vars' ->
  bump_recipe E N variants o (ReadOk (join NLs (recipe_page xs vars))) written
  = let text := join NLs (recipe_page xs' vars') in
    if b_dry_run o then (Exit SUCCESS, [Print text]) else (match written with None => Exit SUCCESS | Some e => Raise e end, [Write text]).
Proof.
  intros HVr HP HO HCa HCa' HM (xs1 & HB & HT). cbv zeta. unfold bump_recipe. destruct (proj2 (options_spec o) HO) as (-> & ->).
  assert (pre_process_remove_hash_type variants (join NLs (recipe_page xs vars)) = join NLs (recipe_page xs vars)) as HPre.
  { pose proof (c107 variants (join NLs (recipe_page xs vars)) [] HVr (conj HM I)) as H. unfold with_marks in H. cbn [map concat] in H. rewrite !app_nil_r in H. exact H. }
  unfold bump_steps. rewrite HPre, (read_back E xs vars HCa). set (r0 := {| r_init := _ |}).
  assert (NoDup (map fst vars)) as ND by apply HCa.
  destruct (number_put_go E (b_build_num o) xs xs1 r0 HB eq_refl) as (r1 & -> & R1 & V1 & S1). cbn [then_].
  change (r_vars r0) with vars in V1. change (r_schema r0) with SV0 in S1.
  destruct (b_target o) as [target|].
  - destruct HT as (xs2 & vars2 & HVe & HSu). destruct (proj1 HVe) as (old & HOld).
    assert (get_value E (r_root r1) VERSION (Some JNull) (sub_vars r1) = Ok old) as -> by (unfold sub_vars; rewrite R1, V1, S1; exact HOld).
    cbn [lift then_]. destruct (version_put_go E _ target xs1 vars xs2 vars2 r1 HVe ND R1 V1) as (r2 & -> & R2 & V2 & S2 & F2). cbn [then_].
    rewrite S1 in S2. assert (NoDup (map fst vars2)) as ND2 by (rewrite F2; exact ND).
    destruct (all_put E N SV0 xs2 vars2 xs' vars' r2 HP HSu ND2 R2 V2 S2) as (r3 & -> & R3 & V3 & S3).
    rewrite (rendered E r3 xs' vars' R3 S3 V3 HCa'). reflexivity.
  - destruct HT as (-> & ->). rewrite (rendered E r1 xs1 vars R1 S1 V1 HCa'). reflexivity.
Qed.
