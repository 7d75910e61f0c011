(** C129 (proofs only). *)
From Verif Require Export PlainProofs SimpleProofs GoesSpec SimpleSpec.
From Verif Require Import Lemmas FrameProofs FrameProofs2 PatchProofs PatchProofs2 PathProofs PathProofs2 RenderProofs RenderProofs2 SelProofs3 SectionProofs SectionProofs2 SectionProofs3
  ConvertProofs7 ContextProofs PlainSpec PlainProofs.

Lemma contains_ok root path : path <> [] -> exists b, contains_value root path = Ok b.
Proof. intros N. destruct (str_to_stack_path_ok _ N) as (st & H). unfold contains_value. rewrite H. cbn [bind]. eauto. Qed.
Lemma contains_gone root cs : cs <> [] -> ~ present root cs -> contains_value root (path_text cs) = Ok false.
Proof.
  intros N G. assert (path_text cs <> []) as NP by (destruct cs; [contradiction|discriminate]).
  destruct (str_to_stack_path_ok _ NP) as (st & Hst). unfold contains_value. rewrite Hst. cbn [bind].
  destruct (traverse root st) as [n|] eqn:T; [|reflexivity]. exfalso. apply G.
  unfold traverse in T. destruct (traverse_pos root st) as [q|] eqn:TP; [|discriminate]. exists q. exact (proj2 (addresses_stack _ _ _ _ Hst) TP).
Qed.
Lemma contains_present root cs : contains_value root (path_text cs) = Ok true -> present root cs.
Proof.
  unfold contains_value. intros H. destruct (str_to_stack_path (path_text cs)) as [st|] eqn:Hst; [|discriminate]. cbn [bind] in H.
  unfold traverse in H. destruct (traverse_pos root st) as [q|] eqn:TP; [|discriminate]. exists q. exact (proj2 (addresses_stack _ _ _ _ Hst) TP).
Qed.

Section Goes.
Context (T : tools) (late : bool).
Let E := t_env T.
Let closest := find_closest_license_match (t_close T) (t_licenses T).
Definition summary_fine (root : node) : Prop := top_line $"about" root -> exists v, get_value E root $"/about/summary" (Some (JStr [])) None = Ok v.
Definition ready (s : cstate) : Prop := proper_tree (r_root (v1 s)) = true /\ PlainProofs.calm E closest late (view s) /\ summary_fine (r_root (v1 s)).
Definition still (m : conv unit) : Prop := forall s, nothing_of late (r_root (v1 s)) -> m s = (Ok tt, s).
Definition goes (m : conv unit) : Prop := forall s, ready s -> exists s', m s = (Ok tt, s') /\ msgs s' = msgs s /\ settled (view s) (view s') /\ ready s'.
Lemma ready_nothing s : ready s -> nothing_of late (r_root (v1 s)).
Proof. intros (_ & (N & _) & _). exact N. Qed.
Lemma settled_summary w w' : settled w w' -> summary_fine (fst w) -> summary_fine (fst w').
Proof.
  intros (R & A & _) F H. destruct (F (top_rearranged _ _ _ R H)) as (v & V). exists v. rewrite <- V.
  apply (about_value E closest (fst w) (fst w') $"summary"); [comp|exact A].
Qed.
Lemma still_goes m : still m -> goes m.
Proof. intros H s R. exists s. split; [exact (H s (ready_nothing s R))|]. split; [reflexivity|]. split; [apply settled_refl|exact R]. Qed.
(** What a step does is known; what remains is that it does not fail. *)
Lemma goes_from m A : doesu m A -> harmless E closest late A -> (forall s, ready s -> exists s', m s = (Ok tt, s') /\ msgs s' = msgs s) -> goes m.
Proof.
  intros D H G s R. destruct (G s R) as (s' & M & X). exists s'. split; [exact M|]. split; [exact X|]. pose proof R as (P & C & F).
  destruct (D s (Ok tt) s' M) as (_ & K). destruct (K tt eq_refl) as (K1 & K2 & _); [unfold errors; rewrite X; reflexivity|exact P|].
  pose proof (H _ _ C K1) as S1. split; [exact S1|]. split; [exact K2|]. split; [exact (settled_calm _ _ _ _ _ S1 C)|]. exact (settled_summary _ _ S1 F).
Qed.
Lemma goes_then m k : goes m -> goes k -> goes (do! m in k).
Proof.
  intros H K s R. destruct (H s R) as (s1 & M1 & X1 & S1 & R1). destruct (K s1 R1) as (s2 & M2 & X2 & S2 & R2). exists s2.
  unfold andthen. rewrite M1, M2. split; [reflexivity|]. split; [congruence|]. split; [exact (settled_trans _ _ _ S1 S2)|exact R2].
Qed.
Lemma goes_ret : goes (ret tt).
Proof. apply still_goes. intros s _. reflexivity. Qed.
Lemma goes_each {A} (l : list A) f : (forall x, In x l -> goes (f x)) -> goes (each l f).
Proof.
  induction l as [|x l IH]; intros H; cbn [each]; [exact goes_ret|]. apply goes_then; [apply H; left; reflexivity|]. apply IH. intros y I. apply H. right. exact I.
Qed.
Lemma still_then m k : still m -> still k -> still (do! m in k).
Proof. intros H K s N. unfold andthen. rewrite (H s N). exact (K s N). Qed.
Lemma still_ret : still (ret tt).
Proof. intros s _. reflexivity. Qed.
Lemma still_each {A} (l : list A) f : Forall (fun x => still (f x)) l -> still (each l f).
Proof. induction 1 as [|x l H _ IH]; cbn [each]; [exact still_ret|exact (still_then _ _ H IH)]. Qed.
Lemma has_gone cs p s : p = path_text cs -> cs <> [] -> gone late cs -> nothing_of late (r_root (v1 s)) -> has p s = (Ok false, s).
Proof. intros -> N G H. unfold has, ask. rewrite (contains_gone _ cs N (G _ H)). reflexivity. Qed.
Lemma still_has p cs k : p = path_text cs -> cs <> [] -> gone late cs -> still (k false) -> still (run! there := has p in k there).
Proof. intros P N G H s X. unfold andthen at 1. rewrite (has_gone cs p s P N G X). exact (H s X). Qed.
Lemma still_move base old new cs : append_to_path base old = path_text cs -> cs <> [] -> gone late cs -> still (patch_move_base_path T base old new).
Proof. intros P N G. unfold patch_move_base_path. cbv zeta. apply (still_has _ cs); auto. exact still_ret. Qed.
Lemma still_nest base old new ext cs : append_to_path base old = path_text cs -> cs <> [] -> gone late cs -> still (patch_move_new_path T base old new ext).
Proof.
  intros P N G. unfold patch_move_new_path. cbv zeta. apply (still_has _ cs); auto. cbn [when]. apply still_then; [exact still_ret|].
  exact (still_move _ _ _ cs P N G).
Qed.
Lemma still_deprecated base fields f : (forall c, In c fields -> append_to_path base c = path_text (f c) /\ f c <> [] /\ gone late (f c)) ->
  still (patch_deprecated_fields T base fields).
Proof.
  intros H. unfold patch_deprecated_fields. apply still_each. apply Forall_forall. intros c I. cbv zeta. destruct (H c I) as (P & N & G).
  apply (still_has _ (f c)); auto. exact still_ret.
Qed.
Lemma goes_has p cs k : p = path_text cs -> cs <> [] -> goes (k true) -> goes (k false) -> goes (run! there := has p in k there).
Proof.
  intros -> N H1 H2 s R. unfold andthen at 1, has, ask. assert (path_text cs <> []) as NP by (destruct cs; [contradiction|discriminate]).
  destruct (contains_ok (r_root (v1 s)) _ NP) as ([] & ->); [exact (H1 s R)|exact (H2 s R)].
Qed.
Lemma goes_sort cs c tbl : Forall component (cs ++ [c]) -> machine_table tbl -> Sorted Z.lt (map snd tbl) ->
  harmless E closest late (in_order_of (map fst tbl) (cs ++ [c])) -> goes (sort_keys (path_text (cs ++ [c])) tbl).
Proof.
  intros HC M O H. apply (goes_from _ _ (does_sort cs c tbl HC M O) H). intros s _. unfold sort_keys, sort_subtree_keys.
  destruct (stack_snoc cs c HC) as (-> & _). cbn [bind]. destruct (traverse_pos (r_root (v1 s)) _); eexists; (split; [reflexivity|reflexivity]).
Qed.
Ltac top := apply is_old_section; vm_compute; reflexivity.
Ltac old := apply is_old; vm_compute; reflexivity.
Ltac about_old HB := apply is_old; rewrite HB; vm_compute; reflexivity.
Ltac unmoved cs := first [apply (still_move _ _ _ cs); [vm_compute; reflexivity|discriminate|first [old|top]]
                      |apply (still_nest _ _ _ _ cs); [vm_compute; reflexivity|discriminate|old]].

Lemma still_misspelled : still (correct_common_misspellings T [$"/"]).
Proof.
  unfold correct_common_misspellings. apply still_each. apply Forall_cons; [|apply Forall_nil]. cbv zeta.
  apply still_then; [unmoved [$"build"; $"skipt"]|]. apply still_then; [unmoved [$"build"; $"skips"]|]. apply still_then; [unmoved [$"build"; $"Skip"]|].
  unmoved [$"extras"].
Qed.
Lemma goes_misspelled : goes (correct_common_misspellings T [$"/"]).
Proof. exact (still_goes _ still_misspelled). Qed.
Lemma goes_source ds : Forall component ds -> ds <> [] -> (forall c, component c -> isdigit c = false -> In c old_source_fields -> gone late (ds ++ [c])) ->
  (forall names, harmless E closest late (in_order_of names ds)) -> goes (upgrade_source T (path_text ds)).
Proof.
  intros HD HN G O. assert (forall c, existsb (str_eqb c) old_source_fields && plain_name c = true -> gone late (ds ++ [c])) as G'.
  { intros c H. apply andb_true_iff in H as (H & H1). destruct (plain_name_is _ H1). apply G; auto.
    apply existsb_exists in H as (x & I & K). apply str_eqb_eq in K as ->. exact I. }
  assert (forall p c k, p = path_text (ds ++ [c]) -> existsb (str_eqb c) old_source_fields && plain_name c = true -> goes (k false) ->
    goes (run! there := has p in k there)) as HH.
  { intros p c k -> X H s R. unfold andthen at 1. rewrite (has_gone (ds ++ [c]) _ s eq_refl (fun e => app_cons_not_nil _ _ _ (eq_sym e)) (G' c X) (ready_nothing s R)). exact (H s R). }
  unfold upgrade_source. eapply HH; [apply (SectionProofs2.below ds _ _ $"svn_url"); [exact HD|apply base_of_path|side|side]|vm_compute; reflexivity|].
  cbn [when]. apply goes_then; [exact goes_ret|].
  eapply HH; [apply (SectionProofs2.below ds _ _ $"hg_url"); [exact HD|apply base_of_path|side|side]|vm_compute; reflexivity|]. cbn [when]. apply goes_then; [exact goes_ret|].
  assert (forall e c d, ext_of e [c] -> existsb (str_eqb c) old_source_fields && plain_name c = true -> forallb comp_ok [c] = true -> goes (patch_move_base_path T (path_text ds) e d)) as HM.
  { intros e c d X1 X2 X3. apply still_goes. apply (still_move _ _ _ (ds ++ [c])); [apply SectionProofs2.below; auto using base_of_path|intros e0; destruct ds; discriminate|apply G'; exact X2]. }
  apply goes_then; [apply (HM _ $"fn"); side|]. apply goes_then; [apply (HM _ $"folder"); side|]. apply goes_then; [apply (HM _ $"git_url"); side|].
  apply goes_then; [apply (HM _ $"git_tag"); side|]. apply goes_then; [apply (HM _ $"git_rev"); side|]. apply goes_then; [apply (HM _ $"git_depth"); side|].
  destruct (exists_last HN) as (cs & c & ->). apply goes_sort; [exact HD|repeat constructor|repeat constructor|apply O].
Qed.
Definition sources_fine (root : node) : Prop := top_line $"source" root -> exists v, get_value E root $"/source" None None = Ok v.
Lemma goes_sources s : ready s -> sources_fine (r_root (v1 s)) -> exists s', upgrade_source_section T [$"/"] s = (Ok tt, s') /\ msgs s' = msgs s /\ settled (view s) (view s') /\ ready s'.
Proof.
  intros R F. unfold upgrade_source_section. cbn [each]. cbv zeta. change (append_to_path $"/" $"/source") with $"/source".
  assert (exists s', (run! there := has $"/source" in
    (if there : bool then run! data := value T $"/source" None in
       each (match data with JList l => map (fun i => append_to_path $"/source" ($"/" ++ str_of_nat i)) (seq 0 (length l)) | _ => [$"/source"] end) (upgrade_source T)
     else ret tt)) s = (Ok tt, s') /\ msgs s' = msgs s /\ settled (view s) (view s') /\ ready s') as X.
  { unfold andthen at 1, has, ask. destruct (contains_ok (r_root (v1 s)) $"/source") as (b & CV); [discriminate|]. rewrite CV. destruct b.
    2:{ exists s. split; [reflexivity|]. split; [reflexivity|]. split; [apply settled_refl|exact R]. }
    assert (top_line $"source" (r_root (v1 s))) as TL by (apply present_top; [comp|reflexivity|exact (contains_present _ [$"source"] CV)]).
    destruct (F TL) as (v & V). unfold andthen at 1, value, ask. fold E. rewrite V. revert s R F CV TL V.
    assert (goes (upgrade_source T $"/source")) as G1.
    { apply (goes_source [$"source"]); [apply Forall_cons; [comp|apply Forall_nil]|discriminate|exact (gone_source closest late)|].
      intros names. apply h_order; [comp|reflexivity|discriminate|discriminate|constructor]. }
    intros s R _ _ _ _. destruct v as [p|l|d].
    - exact (goes_each [$"/source"] _ (fun x I => match I with or_introl e => eq_rect _ (fun y => goes (upgrade_source T y)) G1 _ e | or_intror F0 => match F0 with end end) s R).
    - refine (goes_each _ _ _ s R). intros x I. apply in_map_iff in I as (i & <- & _).
      assert (append_to_path $"/source" ($"/" ++ str_of_nat i) = path_text [$"source"; str_of_nat i]) as ->.
      { assert (forallb comp_ok [str_of_nat i] = true) as Hi by (cbn [forallb]; rewrite number_ok; reflexivity).
        apply (SectionProofs2.below [$"source"] $"/source" ($"/" ++ str_of_nat i) (str_of_nat i)); [apply Forall_cons; [comp|apply Forall_nil]|left; vm_compute; reflexivity|exact Hi|].
        left. unfold path_text. cbn [map concat]. rewrite app_nil_r. reflexivity. }
      apply goes_source; [apply Forall_cons; [comp|apply Forall_cons; [apply str_of_nat_spec|apply Forall_nil]]|discriminate| |].
      + intros c C D J. exact (gone_element _ i c C D J).
      + intros names. apply h_order; [comp|reflexivity|discriminate|discriminate|]. constructor; [apply str_of_nat_spec|constructor].
    - exact (goes_each [$"/source"] _ (fun x I => match I with or_introl e => eq_rect _ (fun y => goes (upgrade_source T y)) G1 _ e | or_intror F0 => match F0 with end end) s R). }
  destruct X as (s' & M & X). exists s'. split; [|exact X]. unfold andthen at 1. rewrite M. reflexivity.
Qed.
Lemma goes_build : goes (upgrade_build_section T [$"/"]).
Proof.
  unfold upgrade_build_section. cbn [each]. apply goes_then; [|exact goes_ret]. cbv zeta. change (append_to_path $"/" $"/build") with $"/build".
  assert (forall f, is_old_field late $"build" f = true -> append_to_path $"/" ($"/build/" ++ f) = path_text [$"build"; f] -> goes (move_to_requirements T $"/" f)) as HR.
  { intros f I P. apply still_goes. unfold move_to_requirements. cbv zeta. apply (still_has _ [$"build"; f]); [exact P|discriminate|exact (is_old _ _ _ I)|exact still_ret]. }
  apply goes_then; [apply HR; vm_compute; reflexivity|]. apply goes_then; [apply HR; vm_compute; reflexivity|].
  apply (goes_has _ [$"build"]); [vm_compute; reflexivity|discriminate| |exact goes_ret].
  apply goes_then; [apply still_goes; unmoved [$"build"; $"merge_build_host"]|].
  apply goes_then; [apply still_goes; unmoved [$"build"; $"no_link"]|].
  apply goes_then; [apply still_goes; unmoved [$"build"; $"entry_points"]|].
  apply goes_then; [apply still_goes; unmoved [$"build"; $"ignore_prefix_files"]|].
  apply goes_then; [apply still_goes; unmoved [$"build"; $"detect_binary_files_with_prefix"]|].
  apply goes_then; [apply still_goes; unmoved [$"build"; $"rpaths"]|].
  apply goes_then; [apply still_goes; unmoved [$"build"; $"binary_relocation"]|].
  apply goes_then; [apply still_goes; unmoved [$"build"; $"missing_dso_whitelist"]|].
  apply goes_then; [apply still_goes; unmoved [$"build"; $"runpath_whitelist"]|].
  apply goes_then.
  { apply still_goes. intros s N. unfold upgrade_build_script_section. cbv zeta. unfold andthen at 1, value, ask.
    assert (append_to_path $"/build" $"/script_env" = path_text [$"build"; $"script_env"]) as -> by (vm_compute; reflexivity).
    rewrite PathProofs2.get_value_default by discriminate. assert (gone late [$"build"; $"script_env"]) as G by old.
    rewrite (contains_gone _ [$"build"; $"script_env"]) by (discriminate || exact (G _ N)). reflexivity. }
  apply goes_then.
  { apply still_goes. apply (still_deprecated _ _ (fun c => [$"build"; c])). intros c I. unfold build_deprecated in I. cbn [In] in I.
    repeat (destruct I as [<-|I]; [split; [vm_compute; reflexivity|split; [discriminate|old]]|]). destruct I. }
  apply (goes_sort [] $"build"); [apply Forall_cons; [comp|apply Forall_nil]|repeat constructor|repeat constructor|].
  apply h_order; [comp|reflexivity|discriminate|discriminate|constructor].
Qed.
Lemma goes_requirements : goes (upgrade_requirements_section T [$"/"]).
Proof.
  unfold upgrade_requirements_section. cbn [each]. apply goes_then; [|exact goes_ret]. cbv zeta.
  apply (goes_has _ [$"requirements"]); [vm_compute; reflexivity|discriminate| |exact goes_ret]. apply still_goes. unmoved [$"requirements"; $"run_constrained"].
Qed.
Lemma json_self s : json_eqb (JStr s) (JStr s) = true.
Proof. cbn [json_eqb prim_eqb]. apply str_eqb_eq. reflexivity. Qed.
Lemma goes_about : late = true -> goes (upgrade_about_section T [$"/"]).
Proof.
  intros HB. unfold upgrade_about_section. cbn [each]. apply goes_then; [|exact goes_ret]. cbv zeta. change (append_to_path $"/" $"/about") with $"/about".
  intros s R. unfold andthen at 1, has, ask. destruct (contains_ok (r_root (v1 s)) $"/about") as (b & CV); [discriminate|]. rewrite CV. destruct b.
  2:{ exists s. split; [reflexivity|]. split; [reflexivity|]. split; [apply settled_refl|exact R]. }
  assert (top_line $"about" (r_root (v1 s))) as TL by (apply present_top; [comp|reflexivity|exact (contains_present _ [$"about"] CV)]).
  exists s. split; [|split; [reflexivity|split; [apply settled_refl|exact R]]]. pose proof R as (P & (N & F) & SM). cbn [view fst] in *.
  destruct (F TL) as ((x & L & CL) & SL). destruct (SM TL) as (v & V).
  assert (still (each about_rename_mapping (fun on => patch_move_base_path T $"/about" (fst on) (snd on)))) as S1.
  { apply still_each. unfold about_rename_mapping. apply Forall_cons; [apply (still_move _ _ _ [$"about"; $"home"]); [vm_compute; reflexivity|discriminate|about_old HB]|]. apply Forall_cons; [apply (still_move _ _ _ [$"about"; $"dev_url"]); [vm_compute; reflexivity|discriminate|about_old HB]|].
    apply Forall_cons; [apply (still_move _ _ _ [$"about"; $"doc_url"]); [vm_compute; reflexivity|discriminate|about_old HB]|]. apply Forall_nil. }
  unfold andthen at 1. rewrite (S1 s N).
  assert (fix_bad_licenses T $"/about" s = (Ok tt, s)) as S2.
  { unfold fix_bad_licenses. cbv zeta. change (append_to_path $"/about" $"/license") with $"/about/license". unfold andthen at 1, value, ask. fold E. rewrite L.
    unfold andthen at 1, pure. cbn [license_match]. change (find_closest_license_match (t_close T) (t_licenses T) x) with (closest x). rewrite CL, json_self. reflexivity. }
  unfold andthen at 1. rewrite S2. change (append_to_path $"/about" $"/summary") with $"/about/summary". unfold andthen at 1, value, ask. fold E. rewrite V.
  assert (still (patch_deprecated_fields T $"/about" about_deprecated)) as S3.
  { apply (still_deprecated _ _ (fun c => [$"about"; c])). intros c I. unfold about_deprecated in I. cbn [In] in I.
    repeat (destruct I as [<-|I]; [split; [vm_compute; reflexivity|split; [discriminate|about_old HB]]|]). destruct I. }
  destruct v as [p|l|d]; [|destruct (SL l V)|]; unfold andthen, ret; exact (S3 s N).
Qed.
Lemma goes_tests : goes (upgrade_test_section T [$"/"]).
Proof.
  apply still_goes. unfold upgrade_test_section. cbn [each]. apply still_then; [|exact still_ret]. cbv zeta.
  apply (still_has _ [$"test"]); [vm_compute; reflexivity|discriminate|top|exact still_ret].
Qed.
Lemma goes_outputs bases : goes (upgrade_multi_output T bases).
Proof. apply still_goes. unfold upgrade_multi_output. apply (still_has _ [$"outputs"]); [vm_compute; reflexivity|discriminate|top|exact still_ret]. Qed.
Lemma package_paths root : nothing_of late root -> get_package_paths E root = Ok [$"/"].
Proof.
  intros N. unfold get_package_paths. rewrite PathProofs2.get_value_default by discriminate. assert (gone late [$"outputs"]) as G by top.
  change $"/outputs" with (path_text [$"outputs"]). rewrite (contains_gone _ [$"outputs"]) by (discriminate || exact (G _ N)). reflexivity.
Qed.
End Goes.

(** * The steps around the sections *)
Lemma version_put_in T s : writes_version (t_env T) -> n_children (r_root (v1 s)) <> [] -> n_lmf (r_root (v1 s)) = false ->
  ~ top_line $"schema_version" (r_root (v1 s)) ->
  exists s', patch_and_log T (p_add $"/schema_version" (JInt 1)) s = (Ok true, s') /\ msgs s' = msgs s
    /\ r_root (v1 s') = with_version (r_root (v1 s)).
Proof.
  intros W NC L N. change $"/schema_version" with (path_text ([] ++ [$"schema_version"])).
  destruct (c14_new_key (t_env T) (p_add (path_text ([] ++ [$"schema_version"])) (JInt 1)) [] $"schema_version" (JInt 1) (v1 s) [] (r_root (v1 s)) [version_line])
    as (r' & P & _ & K).
  - apply asks_add. discriminate.
  - apply Forall_cons; [comp|apply Forall_nil].
  - reflexivity.
  - discriminate.
  - exists [ROOT_VALUE]. split; [vm_compute; reflexivity|]. exact (traverse_pos_components (r_root (v1 s)) []).
  - reflexivity.
  - unfold bare_value, terminal. destruct (n_children (r_root (v1 s))); [contradiction|reflexivity].
  - left. exact L.
  - intros x I X. apply N. exists x. split; [exact I|exact X].
  - exact W.
  - exists {| v1 := r'; msgs := msgs s |}. unfold patch_and_log, andthen at 1, call. rewrite P. cbn [negb when andthen ret]. unfold andthen, ret.
    split; [reflexivity|]. split; [reflexivity|]. cbn [v1]. inversion K as [a b R|]; subst. exact R.
Qed.
Lemma nothing_found E root : no_expressions root -> search E (found JINJA_V0_SUB) false root = [].
Proof.
  intros H. rewrite search_is. destruct (positions_where _ root) as [|p l] eqn:Q; [reflexivity|]. exfalso.
  assert (In p (positions_where (fun n => terminal n && found JINJA_V0_SUB (searched_text false n)) root)) as I by (rewrite Q; left; reflexivity).
  apply positions_where_In in I as (n & A & B). apply andb_true_iff in B as (B1 & B2). apply v0_expression in B2. exact (H p n A B1 B2).
Qed.
Lemma lost_goes T old s : (forall kv, In kv old -> fst kv <> []) -> exists s', report_lost_comments T old s = (Ok tt, s') /\ v1 s' = v1 s
  /\ get_messages ERROR (msgs s') = get_messages ERROR (msgs s).
Proof.
  intros H. assert (exists s', report_lost_comments T old s = (Ok tt, s')) as (s' & M).
  { unfold report_lost_comments. unfold andthen at 1, ask at 1. cbv beta iota.
    assert (forall kv, In kv (filter (fun kv => negb (dmem (fst kv) (get_comments_table (t_env T) (r_root (v1 s))))) old) -> fst kv <> []) as H'.
    { intros kv I. apply filter_In in I as (I & _). exact (H kv I). }
    revert H'. generalize (filter (fun kv : str * str => negb (dmem (fst kv) (get_comments_table (t_env T) (r_root (v1 s))))) old). intros l.
    revert s. induction l as [|kv l IH]; intros s H'; cbn [each]; [eexists; reflexivity|].
    unfold andthen at 1. unfold andthen at 1, has, ask. destruct (contains_ok (r_root (v1 s)) (fst kv) (H' kv (or_introl eq_refl))) as (b & ->).
    destruct b; cbn [negb when]; [unfold ret|unfold say]; apply IH; intros x I; apply H'; right; exact I. }
  exists s'. split; [exact M|]. destruct (c83 T old s s' M) as (V & _ & O). split; [exact V|]. apply O. discriminate.
Qed.
Lemma finish_goes T s : ~ top_line $"context" (r_root (v1 s)) -> exists s', finish_v1 T s = (Ok tt, s') /\ msgs s' = msgs s /\ r_vars (v1 s') = [].
Proof.
  intros N. unfold finish_v1. unfold andthen at 1, Convert.edit at 1. unfold andthen at 1, sort_keys. cbn [v1 msgs].
  destruct (sort_subtree_keys (r_root (with_vars (v1 s) [])) $"/" TOP_LEVEL_SORT []) as [root|e] eqn:S.
  2:{ exfalso. unfold sort_subtree_keys in S. change (str_to_stack_path $"/") with (@Ok stack [ROOT_VALUE]) in S. cbn [bind] in S.
      destruct (traverse_pos _ _); discriminate. }
  unfold andthen at 1, Convert.edit at 1. cbn [v1 msgs]. unfold andthen at 1, ask. cbn [v1 r_root r_init with_root]. 
  assert (init_vars (t_env T) SV1 (r_init (with_vars (v1 s) [])) root = Ok []) as X.
  { unfold init_vars. rewrite PathProofs2.get_value_default by discriminate. change $"/context" with (path_text [$"context"]).
    rewrite (contains_gone root [$"context"]); [reflexivity|discriminate|]. intros P. apply N. apply present_top in P; [|comp|reflexivity].
    destruct (c44 _ _ _ _ _ top_table S) as [(_ & ->)|(q & _ & K)]; [exact P|].
    refine (top_rearranged _ _ _ _ P). eapply changed_again; [constructor|]. eapply weaken; [|exact K]. intros a b (P' & ->). split; [apply P'|].
    destruct a; reflexivity. }
  cbn [with_vars r_init] in X. cbn [with_vars with_root r_init r_root v1]. rewrite X. eexists. split; [reflexivity|]. split; reflexivity.
Qed.
Lemma comment_keys E root : comments_have_paths E root -> forall kv, In kv (get_comments_table E root) -> fst kv <> [].
Proof.
  intros H kv I. assert (In (fst kv) (dkeys (get_comments_table E root))) as J by (apply in_map; exact I).
  rewrite c30_keys in J. apply (proj1 (first_occurrences_In _ _)) in J. apply in_map_iff in J as (p & <- & Hp). apply positions_where_In in Hp as (n & Hn & R).
  unfold reportable, table_comment in R. destruct (is_comment n) eqn:C; [discriminate|]. cbn [orb] in R. apply (H p n Hn C).
  intros X. rewrite X in R. discriminate.
Qed.
Lemma version_source E root d : get_value E (with_version root) $"/source" d None = get_value E root $"/source" d None.
Proof.
  unfold get_value. change (str_to_stack_path $"/source") with (@Ok stack (rev [$"source"] ++ [ROOT_VALUE])). cbn [bind].
  assert (traverse (with_version root) (rev [$"source"] ++ [ROOT_VALUE]) = traverse root (rev [$"source"] ++ [ROOT_VALUE])) as ->; [|reflexivity].
  unfold traverse. rewrite !traverse_pos_components. cbn [traverse_recurse].
  assert (step_child (with_version root) $"source" = step_child root $"source") as ->.
  { unfold step_child. change (isdigit $"source") with false. cbv iota. destruct root as [v c l m u k]. unfold with_version. cbn [with_lines n_children].
    generalize 0 as j. induction l as [|a l IH]; intros j; cbn [app find_child]; [reflexivity|destruct (val_is (n_value a) $"source"); [reflexivity|apply IH]]. }
  destruct (step_child root $"source") as [[i ch]|] eqn:S; [|reflexivity]. cbn [option_map]. apply step_child_nth in S.
  cbn [node_at]. destruct root as [v c l m u k]. unfold with_version. cbn [with_lines n_children] in *.
  rewrite nth_error_app1; [reflexivity|]. apply nth_error_Some. congruence.
Qed.
Lemma version_proper root : proper_tree root = true -> proper_tree (with_version root) = true.
Proof.
  destruct root as [v c l m u k]. unfold with_version. cbn [with_lines n_children proper_tree]. intros H.
  apply andb_true_iff in H as (H1 & H2). apply andb_true_iff. split; [exact H1|]. rewrite forallb_app, H2. reflexivity.
Qed.
Lemma c129 T s : let E := t_env T in let root := r_root (v1 s) in
  writes_version E -> (forall l x, In x (t_order T l) -> In x l) ->
  proper_tree root = true -> n_children root <> [] -> n_lmf root = false -> r_sel (v1 s) = [] -> r_vars (v1 s) = [] -> no_expressions root ->
  ~ top_line $"schema_version" root -> ~ top_line $"context" root -> nothing_old root ->
  about_fine E (find_closest_license_match (t_close T) (t_licenses T)) root -> readable_parts E root -> comments_have_paths E root ->
  exists text s', without_errors (render_to_v1 T) s text s' /\ r_vars (v1 s') = [].
Proof.
  cbv zeta. intros HW HO HP NC LM HS HV HX NV NK NO HA (RS & RA) CP.
  assert (exists s1, upgrades T s = (Ok tt, s1) /\ msgs s1 = msgs s /\ rearranged (with_version (r_root (v1 s))) (r_root (v1 s1))) as (s1 & M1 & X1 & R1).
  { destruct (version_put_in T s HW NC LM NV) as (s0 & M0 & X0 & V0).
    assert (upgrade_selectors_to_conditionals T s = (Ok tt, s)) as U1.
    { unfold upgrade_selectors_to_conditionals, andthen, ask. rewrite HS. reflexivity. }
    assert (upgrade_jinja_to_context_obj T s = (Ok tt, s0)) as U2.
    { unfold upgrade_jinja_to_context_obj. unfold andthen at 1, ask at 1. rewrite HV. cbn [context_of]. unfold andthen at 1, ret at 1. cbn [is_nil negb when].
      unfold andthen at 1, ret at 1. unfold andthen at 1. rewrite M0. unfold andthen at 1, ask at 1. rewrite V0.
      rewrite (nothing_found _ _ (version_no_expressions _ HX)). change (dedupe []) with (@nil str).
      destruct (t_order T []) as [|x l] eqn:Q; [reflexivity|]. exfalso. apply (HO [] x). rewrite Q. left. reflexivity. }
    assert (GoesProofs.ready T true s0) as R0.
    { split; [rewrite V0; apply version_proper; exact HP|]. split.
      - split; cbn [view fst]; rewrite V0; [apply version_nothing; exact NO|apply version_fine; exact HA].
      - unfold summary_fine. rewrite V0. intros (a & I & K). apply in_version in I as [I| ->]; [|apply version_called in K; discriminate].
        destruct (RA (ex_intro _ a (conj I K))) as (v & V). exists v. rewrite <- V.
        apply (about_value (t_env T) (fun _ => None) (r_root (v1 s)) (with_version (r_root (v1 s))) $"summary"); [comp|apply version_about]. }
    destruct (goes_misspelled T true s0 R0) as (sa & Ma & Xa & Sa & Ra).
    assert (sources_fine T (r_root (v1 sa))) as SF.
    { assert (sa = s0) as ->.
      { pose proof (still_misspelled T true s0 (ready_nothing T true s0 R0)) as Y. congruence. }
      unfold sources_fine. rewrite V0, version_source. intros (a & I & K). apply in_version in I as [I| ->]; [|apply version_called in K; discriminate].
      exact (RS (ex_intro _ a (conj I K))). }
    destruct (goes_sources T true sa Ra SF) as (sb & Mb & Xb & Sb & Rb).
    destruct (goes_build T true sb Rb) as (sc & Mc & Xc & Sc & Rc).
    destruct (goes_requirements T true sc Rc) as (sd & Md & Xd & Sd & Rd).
    destruct (goes_about T true eq_refl sd Rd) as (se & Me & Xe & Se & Re).
    destruct (goes_tests T true se Re) as (sf & Mf & Xf & Sf & Rf).
    destruct (goes_outputs T true [$"/"] sf Rf) as (sg & Mg & Xg & Sg & Rg).
    exists sg. split.
    - unfold upgrades. unfold andthen at 1. rewrite U1. unfold andthen at 1. rewrite U2. unfold andthen at 1, ask.
      rewrite (GoesProofs.package_paths T true _ (ready_nothing T true s0 R0)). unfold andthen at 1. rewrite Ma. unfold andthen at 1. rewrite Mb.
      unfold andthen at 1. rewrite Mc. unfold andthen at 1. rewrite Md. unfold andthen at 1. rewrite Me. unfold andthen at 1. rewrite Mf. exact Mg.
    - split; [congruence|]. rewrite <- V0.
      pose proof (settled_trans _ _ _ Sa (settled_trans _ _ _ Sb (settled_trans _ _ _ Sc (settled_trans _ _ _ Sd (settled_trans _ _ _ Se (settled_trans _ _ _ Sf Sg)))))) as (R & _).
      exact R. }
  destruct (lost_goes T (get_comments_table (t_env T) (r_root (v1 s))) s1 (comment_keys _ _ CP)) as (s2 & M2 & V2 & X2).
  destruct (finish_goes T s2) as (s3 & M3 & X3 & V3).
  { rewrite V2. intros K. apply NK. apply (top_rearranged _ _ _ R1) in K as (a & I & K). apply in_version in I as [I| ->]; [exists a; split; assumption|].
    apply version_called in K. discriminate. }
  exists (render (t_env T) (v1 s3)), s3. split; [split|exact V3].
  - unfold render_to_v1. unfold andthen at 1, ask at 1. unfold andthen at 1. rewrite M1. unfold andthen at 1. rewrite M2. unfold andthen at 1. rewrite M3. reflexivity.
  - rewrite X3, X2, X1. reflexivity.
Qed.
Definition paths_check (E : env) (root : node) : bool :=
  forallb (fun p => match node_at root p with
                    | Some n => is_comment n || is_nil (n_comment n) || negb (is_nil (path_at E root p))
                    | None => true
                    end) (positions_where (fun _ => true) root).
Lemma paths_checked E root : paths_check E root = true -> comments_have_paths E root.
Proof.
  unfold paths_check. rewrite forallb_forall. intros H p n A C N X. specialize (H p). rewrite A, C, X in H.
  assert (In p (positions_where (fun _ => true) root)) as I by (apply positions_where_In; eauto). specialize (H I). cbn [orb negb is_nil] in H.
  destruct (n_comment n); [contradiction|discriminate].
Qed.
Lemma c129_files T xs m : let E := t_env T in let text := join NLs (recipe_page xs []) in
  reads_proper E -> writes_version E -> canonical E version_item -> (forall l x, In x (t_order T l) -> In x l) ->
  canonical_recipe E xs [] -> xs <> [] -> Forall simple xs -> collect_selectors E (document xs) = [] -> no_expressions (document xs) ->
  nothing_old (document xs) -> ~ top_line $"context" (document xs) ->
  about_fine E (find_closest_license_match (t_close T) (t_licenses T)) (document xs) ->
  readable_parts E (document xs) -> comments_have_paths E (document xs) ->
  exists r text' s' ys r', new_recipe E text = Ok r /\ r_root r = document xs
  /\ without_errors (render_to_v1 T) {| v1 := r; msgs := m |} text' s'
  /\ reordered (xs ++ [version_item]) ys /\ text' = join NLs (page ys)
  /\ new_recipe E text' = Ok r' /\ r_root r' = document ys /\ r_schema r' = SV1 /\ r_vars r' = [].
Proof.
  cbv zeta. intros HE HW HV HO HC NX HS HSel HX NO NK HA HR HP.
  destruct (c128 T xs m HE HW HV HO HC HS HSel HX NO HA) as (r & HN & HRt & K).
  pose proof HC as (CD & NE & _). pose proof CD as (_ & PT & _). pose proof (no_version_line xs HS NE) as NT.
  pose proof HN as HN'. rewrite (read_back (t_env T) xs [] HC) in HN'. injection HN' as HN'.
  assert (r_sel r = []) as R1 by (rewrite <- HN'; exact HSel). assert (r_vars r = []) as R2 by (rewrite <- HN'; reflexivity).
  destruct (c129 T {| v1 := r; msgs := m |}) as (text' & s' & W & WV); cbn [v1]; rewrite ?HRt; auto.
  { intros X. apply NX. unfold document, root_node in X. cbn [n_children] in X. destruct xs; [reflexivity|discriminate]. }
  destruct (K text' s' W) as (ys & r' & K1 & K2 & K3 & K4 & K5 & K6). exists r, text', s', ys, r'.
  split; [exact HN|]. split; [exact HRt|]. split; [exact W|]. split; [exact K1|]. split; [exact K2|]. split; [exact K3|]. split; [exact K4|]. split; [exact K5|].
  rewrite K6. exact WV.
Qed.
