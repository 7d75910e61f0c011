(** C134, continued (proofs only): what the conversion does with each section. *)
From Verif Require Export RenameProofs3.
From Verif Require ServiceProofs.
From Verif Require Import Lemmas FrameProofs FrameProofs2 PatchProofs PatchProofs2 PatchProofs3 PathProofs PathProofs2 RenderProofs RenderProofs2 SectionProofs SectionProofs2
  ContextProofs KeepProofs KeepProofs2 PlainProofs GoesProofs ConvertSpec PlainSpec VarsSpec AboutProofs AboutProofs2 AboutProofs3 RenameProofs RenameProofs2 RenameProofs3 RenameSpec.

Lemma has_not root s c p st : plain_name s = true -> plain_name c = true -> p = path_text [s; c] -> r_root (v1 st) = root -> ~ section_line s c root -> has p st = (Ok false, st).
Proof.
  intros S C -> <- N. destruct (plain_name_is _ S), (plain_name_is _ C). unfold has, ask. rewrite contains_gone; [reflexivity|discriminate|]. intros P. apply N. apply present_section; assumption.
Qed.
Lemma has_no_top s p st : plain_name s = true -> p = path_text [s] -> ~ top_line s (r_root (v1 st)) -> has p st = (Ok false, st).
Proof.
  intros S -> N. destruct (plain_name_is _ S). unfold has, ask. rewrite contains_gone; [reflexivity|discriminate|]. intros P. apply N. apply present_top; assumption.
Qed.
Lemma no_move T base e d s : has (append_to_path base e) s = (Ok false, s) -> patch_move_base_path T base e d s = (Ok tt, s).
Proof. intros H. unfold patch_move_base_path. cbv zeta. unfold andthen at 1. rewrite H. reflexivity. Qed.
Lemma no_nest T base e p x s : has (append_to_path base e) s = (Ok false, s) -> patch_move_new_path T base e p x s = (Ok tt, s).
Proof. intros H. unfold patch_move_new_path. cbv zeta. unfold andthen at 1. rewrite H. cbn [when]. unfold andthen at 1, ret at 1. apply no_move. exact H. Qed.

Section Runs.
Context (T : tools) (t : node) (pairs : list (node * node)).
Let E := t_env T.
Let closest := find_closest_license_match (t_close T) (t_licenses T).
Context (pairs_are : map fst pairs = n_children t) (renewed_are : Forall (fun p => section_renewed E known_names t (fst p) (snd p)) pairs).
Context (in_order : forall tb, In tb known_names -> section_in_order tb t).
Context (only : only_renamed t) (fine : values_fine E closest t).
Let upto := upto t pairs.
Lemma not_here s c todo r : existsb (fun q => str_eqb (fst q) s && str_eqb (snd q) c) not_covered = true -> In s todo -> upto todo r -> ~ section_line s c r.
Proof.
  intros H I U. apply (still_no_line t pairs pairs_are s todo r c U I). apply only. apply existsb_exists in H as ((s' & c') & J & H). apply andb_prop in H as (H1 & H2). cbn [fst snd] in *.
  apply str_eqb_eq in H1 as ->, H2 as ->. exact J.
Qed.
Lemma no_section s todo r : existsb (str_eqb s) old_sections = true -> upto todo r -> ~ top_line s r.
Proof.
  intros H U. apply (still_no_top t pairs pairs_are s todo r U). apply only. apply existsb_exists in H as (s' & J & H). apply str_eqb_eq in H as ->. exact J.
Qed.
Ltac gone_line U s c := eapply (has_not _ s c); [vm_compute; reflexivity|vm_compute; reflexivity|vm_compute; reflexivity|reflexivity|];
  eapply not_here; [vm_compute; reflexivity| |exact U]; cbn [map fst known_names source_names build_names requirements_names about_names In]; tauto.
Lemma run_misspelled s : upto [$"source"; $"build"; $"requirements"; $"about"] (r_root (v1 s)) -> correct_common_misspellings T [$"/"] s = (Ok tt, s).
Proof.
  intros U. unfold correct_common_misspellings. cbn [each]. cbv zeta. change (append_to_path $"/" $"/build") with $"/build". unfold andthen at 1.
  unfold andthen at 1. rewrite no_move by gone_line U $"build" $"skipt". unfold andthen at 1. rewrite no_move by gone_line U $"build" $"skips". unfold andthen at 1. rewrite no_move by gone_line U $"build" $"Skip".
  rewrite no_move; [reflexivity|]. apply (has_no_top $"extras"); [vm_compute; reflexivity|vm_compute; reflexivity|]. eapply no_section; [vm_compute; reflexivity|exact U].
Qed.
Lemma run_source s todo : ~ In $"source" todo -> upto ($"source" :: todo) (r_root (v1 s)) -> proper_tree (r_root (v1 s)) = true ->
  exists s', upgrade_source_section T [$"/"] s = (Ok tt, s') /\ msgs s' = msgs s /\ upto todo (r_root (v1 s')) /\ proper_tree (r_root (v1 s')) = true.
Proof.
  intros NI U HP. unfold upgrade_source_section. cbn [each]. cbv zeta. change (append_to_path $"/" $"/source") with (path_text [$"source"]).
  assert (In source_names known_names) as KN by (left; reflexivity).
  destruct (open_sec T t pairs pairs_are renewed_are in_order source_names todo (r_root (v1 s)) KN NI U) as [(U' & NT & NC)|(before & a & after & news & HC & CA & AF & LM & KY & ON & NN & LF & (b0 & a0 & HT & UN) & UP)].
  { exists s. split; [|split; [reflexivity|split; [exact U'|exact HP]]]. unfold andthen at 1. unfold andthen at 1.
    rewrite (has_no_top $"source") by (first [vm_compute; reflexivity|intros (x & I & C); exact (NC x I C)]). reflexivity. }
  pose proof (known_fine _ KN) as FN. destruct (sec_plain source_names FN) as (SC & SD). change (fst source_names) with $"source" in *.
  assert (r_root (v1 s) = with_sec (r_root (v1 s)) a before after (n_children a)) as HR by (unfold with_sec; rewrite with_same, <- HC; symmetry; apply with_same).
  assert (Forall2 (ext_for $"source") [($"/fn", $"/file_name"); ($"/folder", $"/target_directory"); ($"/git_url", $"/git"); ($"/git_tag", $"/tag"); ($"/git_rev", $"/rev"); ($"/git_depth", $"/depth")] (fst (snd source_names))) as HX.
  { repeat (apply Forall2_cons; [split; vm_compute; reflexivity|]). apply Forall2_nil. }
  destruct (moves_done T source_names FN (r_root (v1 s)) a before after news CA AF LM KY ON NN LF _ s HX HR HP) as (s1 & M1 & X1 & R1 & P1).
  destruct (sort_done T source_names FN (r_root (v1 s)) a before after news CA AF LM KY ON NN LF s1 V1_SOURCE_SECTION_SORT _ R1 P1) as (s2 & l' & M2 & X2 & R2 & PM & P2).
  exists s2. split; [|split; [congruence|split; [rewrite R2; apply UP; exact PM|exact P2]]].
  assert (top_line $"source" t) as TL by (exists a; split; [rewrite HT, sec_children; rewrite with_same; apply in_elt|exact CA]).
  destruct (proj1 fine TL) as (v & V & NV).
  assert (forall x, In x b0 -> ~ called $"source" x) as AF0 by (intros x I; apply UN; apply in_or_app; left; exact I).
  assert (get_value E (r_root (v1 s)) (path_text [$"source"]) None None = Ok v) as V'.
  { rewrite HR. rewrite (sec_value source_names FN _ a before after CA AF LM KY E (n_children a) None). rewrite HT in V. change $"/source" with (path_text [fst source_names]) in V.
    rewrite (sec_value source_names FN _ a b0 a0 CA AF0 LM KY E (n_children a) None) in V. exact V. }
  unfold andthen at 1. unfold andthen at 1. unfold has at 1, ask at 1.
  assert (contains_value (r_root (v1 s)) (path_text [$"source"]) = Ok true) as -> by (rewrite HR; apply (sec_contains $"source" SC SD _ a before after CA AF LM KY)).
  cbv iota. unfold andthen at 1, value, ask. cbv beta. fold E. rewrite V'. cbv beta.
  replace (match v with JList l => map (fun i => append_to_path (path_text [$"source"]) ($"/" ++ str_of_nat i)) (seq 0 (length l)) | _ => [path_text [$"source"]] end) with [path_text [$"source"]]
    by (destruct v as [p|l|d]; [reflexivity|destruct (NV l eq_refl)|reflexivity]).
  cbn [each]. unfold andthen at 1. unfold upgrade_source. unfold andthen at 1. assert (has (append_to_path (path_text [$"source"]) $"svn_url") s = (Ok false, s)) as -> by gone_line U $"source" $"svn_url".
  cbn [when]. unfold andthen at 1, ret at 1. unfold andthen at 1. assert (has (append_to_path (path_text [$"source"]) $"hg_url") s = (Ok false, s)) as -> by gone_line U $"source" $"hg_url".
  cbn [when]. unfold andthen at 1, ret at 1. specialize (M1 (sort_keys (path_text [$"source"]) V1_SOURCE_SECTION_SORT)). unfold run_moves in M1. cbn [fold_right fst snd] in M1.
  change (fst source_names) with $"source" in M1. rewrite M1. change (fst source_names) with $"source" in M2. rewrite M2. reflexivity.
Qed.
Lemma run_requirements s todo : ~ In $"requirements" todo -> upto ($"requirements" :: todo) (r_root (v1 s)) -> proper_tree (r_root (v1 s)) = true ->
  exists s', upgrade_requirements_section T [$"/"] s = (Ok tt, s') /\ msgs s' = msgs s /\ upto todo (r_root (v1 s')) /\ proper_tree (r_root (v1 s')) = true.
Proof.
  intros NI U HP. unfold upgrade_requirements_section. cbn [each]. cbv zeta. change (append_to_path $"/" $"/requirements") with (path_text [$"requirements"]).
  assert (In requirements_names known_names) as KN by (right; right; left; reflexivity).
  destruct (open_sec T t pairs pairs_are renewed_are in_order requirements_names todo (r_root (v1 s)) KN NI U) as [(U' & NT & NC)|(before & a & after & news & HC & CA & AF & LM & KY & ON & NN & LF & _ & UP)].
  { exists s. split; [|split; [reflexivity|split; [exact U'|exact HP]]]. unfold andthen at 1. unfold andthen at 1.
    rewrite (has_no_top $"requirements") by (first [vm_compute; reflexivity|intros (x & I & C); exact (NC x I C)]). reflexivity. }
  pose proof (known_fine _ KN) as FN. destruct (sec_plain requirements_names FN) as (SC & SD). change (fst requirements_names) with $"requirements" in *.
  assert (r_root (v1 s) = with_sec (r_root (v1 s)) a before after (n_children a)) as HR by (unfold with_sec; rewrite with_same, <- HC; symmetry; apply with_same).
  assert (Forall2 (ext_for $"requirements") [($"/run_constrained", $"/run_constraints")] (fst (snd requirements_names))) as HX.
  { repeat (apply Forall2_cons; [split; vm_compute; reflexivity|]). apply Forall2_nil. }
  destruct (moves_done T requirements_names FN (r_root (v1 s)) a before after news CA AF LM KY ON NN LF _ s HX HR HP) as (s1 & M1 & X1 & R1 & P1).
  exists s1. split; [|split; [congruence|split; [rewrite R1; apply UP; change (old_names_of requirements_names) with (map fst (fst (snd requirements_names))); apply Permutation_refl|exact P1]]].
  unfold andthen at 1. unfold andthen at 1. unfold has at 1, ask at 1.
  assert (contains_value (r_root (v1 s)) (path_text [$"requirements"]) = Ok true) as -> by (rewrite HR; apply (sec_contains $"requirements" SC SD _ a before after CA AF LM KY)).
  cbv iota. specialize (M1 (ret tt)). unfold run_moves in M1. cbn [fold_right fst snd] in M1. change (fst requirements_names) with $"requirements" in M1.
  unfold andthen in M1. destruct (patch_move_base_path T (path_text [$"requirements"]) $"/run_constrained" $"/run_constraints" s) as ([[]|e] & s3); exact M1.
Qed.
Lemma told_is sec drops a b0 a0 : t = with_sec t a b0 a0 (n_children a) -> called sec a -> (forall x, In x (b0 ++ a0) -> ~ called sec x) -> told_dropped t sec drops (told_for sec (n_children a) drops).
Proof.
  intros HT CA UN. assert (n_children t = b0 ++ a :: a0) as HC by (rewrite HT, sec_children, with_same; reflexivity). clear - HC CA UN. induction drops as [|c cs IH]; unfold told_for in *; cbn [flat_map]; [constructor|]. destruct (first_named c (n_children a)) as [n|] eqn:F; cbn [app].
  - apply dropped_told; [|exact IH]. destruct (first_split c _ n F) as (m1 & m2 & HM & CN & _). exists a, n. split; [rewrite HC; apply in_elt|]. split; [exact CA|]. split; [rewrite HM; apply in_elt|exact CN].
  - apply not_dropped; [|exact IH]. intros (a' & b & I & C & J & K). rewrite HC in I. apply in_app_or in I as [I|[<-|I]].
    + exact (UN a' (in_or_app _ _ _ (or_introl I)) C).
    + exact (first_absent c _ F b J K).
    + exact (UN a' (in_or_app _ _ _ (or_intror I)) C).
Qed.
Lemma told_nothing sec drops : ~ top_line sec t -> told_dropped t sec drops [].
Proof. intros N. induction drops as [|c cs IH]; constructor; [|exact IH]. intros (a & b & I & C & _). apply N. exists a. auto. Qed.
Lemma deprecated_more base l x s s' : patch_deprecated_fields T base l s = (Ok tt, s') -> has (append_to_path base x) s' = (Ok false, s') -> patch_deprecated_fields T base (l ++ [x]) s = (Ok tt, s').
Proof.
  intros M H. revert s M. induction l as [|c l IH]; intros s M; unfold patch_deprecated_fields in *; cbn [app each] in *.
  - injection M as ->. unfold andthen at 1. cbv zeta. unfold andthen at 1. rewrite H. reflexivity.
  - unfold andthen at 1 in M. unfold andthen at 1. match type of M with (let (_, _) := ?x in _) = _ => destruct x as ([[]|e] & s2) end; [|discriminate]. apply IH. exact M.
Qed.
Lemma run_build s todo : ~ In $"build" todo -> upto ($"build" :: todo) (r_root (v1 s)) -> proper_tree (r_root (v1 s)) = true ->
  exists s' ms, upgrade_build_section T [$"/"] s = (Ok tt, s') /\ get_messages ERROR (msgs s') = get_messages ERROR (msgs s)
  /\ get_messages WARNING (msgs s') = get_messages WARNING (msgs s) ++ ms /\ told_dropped t $"build" (snd (snd build_names)) ms
  /\ upto todo (r_root (v1 s')) /\ proper_tree (r_root (v1 s')) = true.
Proof.
  intros NI U HP. unfold upgrade_build_section. cbn [each]. cbv zeta. change (append_to_path $"/" $"/build") with (path_text [$"build"]).
  assert (forall f, has (append_to_path $"/" ($"/build/" ++ f)) s = (Ok false, s) -> move_to_requirements T $"/" f s = (Ok tt, s)) as NR.
  { intros f H. unfold move_to_requirements. cbv zeta. unfold andthen at 1. rewrite H. reflexivity. }
  assert (In build_names known_names) as KN by (right; left; reflexivity).
  destruct (open_sec T t pairs pairs_are renewed_are in_order build_names todo (r_root (v1 s)) KN NI U) as [(U' & NT & NC)|(before & a & after & news & HC & CA & AF & LM & KY & ON & NN & LF & (b0 & a0 & HT & UN) & UP)].
  { exists s, []. split; [|split; [reflexivity|split; [symmetry; apply app_nil_r|split; [apply told_nothing; exact NT|split; [exact U'|exact HP]]]]]. unfold andthen at 1.
    unfold andthen at 1. rewrite NR by gone_line U $"build" $"run_exports". unfold andthen at 1. rewrite NR by gone_line U $"build" $"ignore_run_exports". unfold andthen at 1.
    rewrite (has_no_top $"build") by (first [vm_compute; reflexivity|intros (x & I & C); exact (NC x I C)]). reflexivity. }
  pose proof (known_fine _ KN) as FN. destruct (sec_plain build_names FN) as (SC & SD). change (fst build_names) with $"build" in *.
  assert (r_root (v1 s) = with_sec (r_root (v1 s)) a before after (n_children a)) as HR by (unfold with_sec; rewrite with_same, <- HC; symmetry; apply with_same).
  assert (Forall2 (ext_for $"build") [($"merge_build_host", $"merge_build_and_host_envs"); ($"no_link", $"always_copy_files")] (fst (snd build_names))) as HX.
  { repeat (apply Forall2_cons; [split; vm_compute; reflexivity|]). apply Forall2_nil. }
  destruct (moves_done T build_names FN (r_root (v1 s)) a before after news CA AF LM KY ON NN LF _ s HX HR HP) as (s1 & M1 & X1 & R1 & P1).
  destruct (drops_done T build_names FN (r_root (v1 s)) a before after news CA AF LM KY ON LF s1 R1 P1) as (s2 & M2 & X2 & W2 & R2 & P2).
  destruct (sort_done T build_names FN (r_root (v1 s)) a before after news CA AF LM KY ON NN LF s2 V1_BUILD_SECTION_SORT _ R2 P2) as (s3 & l' & M3 & X3 & R3 & PM & P3).
  change (fst build_names) with $"build" in *. rewrite X1 in X2, W2.
  exists s3, (told_for $"build" (n_children a) (snd (snd build_names))). split; [|split; [congruence|split; [congruence|split; [exact (told_is _ _ a b0 a0 HT CA UN)|split; [rewrite R3; apply UP; exact PM|exact P3]]]]].
  assert (forall c p, plain_name c = true -> p = path_text [$"build"; c] -> existsb (str_eqb c) (map fst (fst (snd build_names)) ++ map snd (fst (snd build_names))) = false
    -> existsb (fun q => str_eqb (fst q) $"build" && str_eqb (snd q) c) not_covered = true -> first_named c (taken_all (map fst (fst (snd build_names))) (n_children a) ++ concat news) = None) as FL.
  { intros c p PC _ N1 N2. rewrite (first_later T build_names a news LF c _ N1). destruct (first_named c (n_children a)) as [n|] eqn:F; [|reflexivity]. exfalso.
    apply (not_here $"build" c ($"build" :: todo) (r_root (v1 s)) N2 (or_introl eq_refl) U). destruct (first_split c _ n F) as (m1 & m2 & HM & CN & _).
    exists a, n. split; [rewrite HC; apply in_elt|]. split; [exact CA|]. split; [rewrite HM; apply in_elt|exact CN]. }
  assert (forall c p, plain_name c = true -> p = path_text [$"build"; c] -> existsb (str_eqb c) (map fst (fst (snd build_names)) ++ map snd (fst (snd build_names))) = false
    -> existsb (fun q => str_eqb (fst q) $"build" && str_eqb (snd q) c) not_covered = true -> has p s1 = (Ok false, s1)) as H1.
  { intros c p PC PP N1 N2. destruct (plain_name_is _ PC) as (C & D). unfold has, ask. rewrite R1, PP. rewrite (sec_has $"build" SC SD _ a before after CA AF LM KY c _ C D), (FL c p PC PP N1 N2). reflexivity. }
  assert (upgrade_build_script_section T (path_text [$"build"]) s1 = (Ok tt, s1)) as MS.
  { unfold upgrade_build_script_section. cbv zeta. unfold andthen at 1, value, ask. cbv beta. rewrite R1.
    change (append_to_path (path_text [$"build"]) $"/script_env") with (path_text [$"build"; $"script_env"]).
    rewrite (sec_get $"build" SC SD _ a before after CA AF LM KY (t_env T) $"script_env" _ (Some (JList []))) by (comp || reflexivity).
    rewrite (FL $"script_env" (path_text [$"build"; $"script_env"])) by (vm_compute; reflexivity). reflexivity. }
  assert (patch_deprecated_fields T (path_text [$"build"]) build_deprecated s1 = (Ok tt, s2)) as MD.
  { change build_deprecated with (snd (snd build_names) ++ [$"pre-link"]). apply deprecated_more; [exact M2|]. unfold has, ask. rewrite R2.
    change (append_to_path (path_text [$"build"]) $"pre-link") with (path_text [$"build"; $"pre-link"]).
    rewrite (sec_has $"build" SC SD _ a before after CA AF LM KY $"pre-link") by (comp || reflexivity).
    assert (first_named $"pre-link" (taken_all (old_names_of build_names) (n_children a) ++ concat news) = None) as ->; [|reflexivity].
    rewrite first_app. change (old_names_of build_names) with ((map fst (fst (snd build_names)) ++ [$"pre-link"]) ++ tl (snd (snd build_names))).
    rewrite taken_all_split, first_taken_all by (vm_compute; reflexivity). rewrite taken_all_split. rewrite (first_none $"pre-link" (taken_all [$"pre-link"] _)).
    - apply first_none. intros y I C. destruct (lines_called _ _ _ _ LF y I) as (d & J & D). assert (d = $"pre-link") as -> by (unfold called in *; congruence).
      assert (existsb (str_eqb $"pre-link") (map snd (fst (snd build_names))) = true) as Z by (apply existsb_exists; exists $"pre-link"; split; [exact J|apply str_eqb_eq; reflexivity]). vm_compute in Z. discriminate.
    - cbn [taken_all fold_left]. intros y I. apply taken_In in I. exact (proj2 I). }
  unfold andthen at 1. unfold andthen at 1. rewrite NR by gone_line U $"build" $"run_exports". unfold andthen at 1. rewrite NR by gone_line U $"build" $"ignore_run_exports". unfold andthen at 1.
  unfold has at 1, ask at 1.
  assert (contains_value (r_root (v1 s)) (path_text [$"build"]) = Ok true) as -> by (rewrite HR; apply (sec_contains $"build" SC SD _ a before after CA AF LM KY)).
  cbv iota. match goal with |- context [(do! patch_move_base_path T (path_text [$"build"]) $"merge_build_host" $"merge_build_and_host_envs" in do! patch_move_base_path T _ $"no_link" _ in ?k) s] => specialize (M1 k) end.
  unfold run_moves in M1. cbn [fold_right fst snd] in M1. rewrite M1.
  unfold andthen at 1. rewrite no_nest by (apply (H1 $"entry_points"); vm_compute; reflexivity).
  unfold andthen at 1. rewrite no_nest by (apply (H1 $"ignore_prefix_files"); vm_compute; reflexivity).
  unfold andthen at 1. rewrite no_nest by (apply (H1 $"detect_binary_files_with_prefix"); vm_compute; reflexivity).
  unfold andthen at 1. rewrite no_nest by (apply (H1 $"rpaths"); vm_compute; reflexivity).
  unfold andthen at 1. rewrite no_nest by (apply (H1 $"binary_relocation"); vm_compute; reflexivity).
  unfold andthen at 1. rewrite no_nest by (apply (H1 $"missing_dso_whitelist"); vm_compute; reflexivity).
  unfold andthen at 1. rewrite no_nest by (apply (H1 $"runpath_whitelist"); vm_compute; reflexivity).
  unfold andthen at 1. rewrite MS. unfold andthen at 1. rewrite MD. rewrite M3. reflexivity.
Qed.
Lemma run_about s todo : ~ In $"about" todo -> upto ($"about" :: todo) (r_root (v1 s)) -> proper_tree (r_root (v1 s)) = true ->
  exists s' ml ms, upgrade_about_section T [$"/"] s = (Ok tt, s') /\ get_messages ERROR (msgs s') = get_messages ERROR (msgs s)
  /\ get_messages WARNING (msgs s') = get_messages WARNING (msgs s) ++ ml ++ ms /\ license_told E closest t ml /\ told_dropped t $"about" (snd (snd about_names)) ms
  /\ upto todo (r_root (v1 s')) /\ proper_tree (r_root (v1 s')) = true.
Proof.
  intros NI U HP. unfold upgrade_about_section. cbn [each]. cbv zeta. change (append_to_path $"/" $"/about") with (path_text [$"about"]).
  assert (In about_names known_names) as KN by (right; right; right; left; reflexivity).
  destruct (open_sec T t pairs pairs_are renewed_are in_order about_names todo (r_root (v1 s)) KN NI U) as [(U' & NT & NC)|(before & a & after & news & HC & CA & AF & LM & KY & ON & NN & LF & (b0 & a0 & HT & UN) & UP)].
  { exists s, [], []. split; [|split; [reflexivity|split; [symmetry; apply app_nil_r|split; [apply no_about; exact NT|split; [apply told_nothing; exact NT|split; [exact U'|exact HP]]]]]]. unfold andthen at 1. unfold andthen at 1.
    rewrite (has_no_top $"about") by (first [vm_compute; reflexivity|intros (x & I & C); exact (NC x I C)]). reflexivity. }
  pose proof (known_fine _ KN) as FN. destruct (sec_plain about_names FN) as (SC & SD). change (fst about_names) with $"about" in *.
  assert (r_root (v1 s) = with_sec (r_root (v1 s)) a before after (n_children a)) as HR by (unfold with_sec; rewrite with_same, <- HC; symmetry; apply with_same).
  assert (Forall2 (ext_for $"about") about_rename_mapping (fst (snd about_names))) as HX.
  { repeat (apply Forall2_cons; [split; vm_compute; reflexivity|]). apply Forall2_nil. }
  destruct (moves_done T about_names FN (r_root (v1 s)) a before after news CA AF LM KY ON NN LF _ s HX HR HP) as (s1 & M1 & X1 & R1 & P1). change (fst about_names) with $"about" in *.
  assert (top_line $"about" t) as TL by (exists a; split; [rewrite HT, sec_children; rewrite with_same; apply in_elt|exact CA]).
  destruct (proj2 fine TL) as ((lv & LV & LC) & (sv & SV & NS)).
  assert (forall x, In x b0 -> ~ called $"about" x) as AF0 by (intros x I; apply UN; apply in_or_app; left; exact I).
  assert (forall k d, plain_name k = true -> existsb (str_eqb k) (map fst (fst (snd about_names)) ++ map snd (fst (snd about_names))) = false ->
    get_value E (r_root (v1 s1)) (path_text [$"about"; k]) d None = get_value E t (path_text [$"about"; k]) d None) as G.
  { intros k d PK NK. destruct (plain_name_is _ PK) as (C & D). rewrite R1, (sec_get $"about" SC SD _ a before after CA AF LM KY E k _ d C D), (first_later T about_names a news LF k _ NK).
    rewrite HT, (sec_get $"about" SC SD t a b0 a0 CA AF0 LM KY E k _ d C D). reflexivity. }
  assert (exists s2 ml, fix_bad_licenses T (path_text [$"about"]) s1 = (Ok tt, s2) /\ v1 s2 = v1 s1 /\ get_messages ERROR (msgs s2) = get_messages ERROR (msgs s1)
    /\ get_messages WARNING (msgs s2) = get_messages WARNING (msgs s1) ++ ml /\ license_told E closest t ml) as (s2 & ml & M2 & V2 & X2 & W2 & TL2).
  { unfold fix_bad_licenses. cbv zeta. unfold andthen at 1, value, ask. cbv beta. change (append_to_path (path_text [$"about"]) $"/license") with (path_text [$"about"; $"license"]). fold E.
    rewrite (G $"license" (Some JNull)) by (vm_compute; reflexivity). change (path_text [$"about"; $"license"]) with $"/about/license". rewrite LV. cbv iota.
    destruct LC as [->|(l & -> & LC)].
    - eexists. exists [$"No `license` provided in `/about`"]. split; [reflexivity|]. split; [reflexivity|]. split; [apply ServiceProofs.get_messages_add_other; discriminate|]. split; [cbn [msgs]; apply ServiceProofs.get_messages_add_same|exact (no_license E closest t TL LV)].
    - unfold andthen at 1, pure. cbn [license_match]. fold closest. destruct LC as [LC|LC]; rewrite LC.
      + eexists. exists [$"Could not patch unrecognized license: `" ++ l ++ $"`"]. split; [reflexivity|]. split; [reflexivity|]. split; [apply ServiceProofs.get_messages_add_other; discriminate|].
        split; [cbn [msgs]; apply ServiceProofs.get_messages_add_same|exact (unknown_license E closest t l TL LV LC)].
      + rewrite json_self. exists s1, []. split; [reflexivity|]. split; [reflexivity|]. split; [reflexivity|]. split; [symmetry; apply app_nil_r|exact (known_license E closest t l TL LV LC)]. }
  destruct (drops_done T about_names FN (r_root (v1 s)) a before after news CA AF LM KY ON LF s2) as (s3 & M3 & X3 & W3 & R3 & P3); [rewrite V2; exact R1|rewrite V2; exact P1|].
  change (fst about_names) with $"about" in *. rewrite X1 in X2, W2.
  exists s3, ml, (told_for $"about" (n_children a) (snd (snd about_names))). split; [|split; [congruence|split; [rewrite W3, W2, <- app_assoc; reflexivity|split; [exact TL2|split; [exact (told_is _ _ a b0 a0 HT CA UN)|split; [rewrite R3; apply UP; apply Permutation_refl|exact P3]]]]]].
  unfold andthen at 1. unfold andthen at 1. unfold has at 1, ask at 1.
  assert (contains_value (r_root (v1 s)) (path_text [$"about"]) = Ok true) as -> by (rewrite HR; apply (sec_contains $"about" SC SD _ a before after CA AF LM KY)).
  cbv iota. assert (each about_rename_mapping (fun on => patch_move_base_path T (path_text [$"about"]) (fst on) (snd on)) s = (Ok tt, s1)) as ME by exact (M1 (ret tt)).
  unfold andthen at 1. rewrite ME. unfold andthen at 1. rewrite M2. unfold andthen at 1, value, ask. cbv beta. fold E. change (append_to_path (path_text [$"about"]) $"/summary") with (path_text [$"about"; $"summary"]).
  rewrite V2, (G $"summary" (Some (JStr []))) by (vm_compute; reflexivity). change (path_text [$"about"; $"summary"]) with $"/about/summary". rewrite SV.
  change about_deprecated with (snd (snd about_names)). unfold andthen at 1. destruct sv as [p|l|d]; [|destruct (NS l eq_refl)|]; unfold ret at 1; rewrite M3; reflexivity.
Qed.
Lemma run_tests s todo : upto todo (r_root (v1 s)) -> upgrade_test_section T [$"/"] s = (Ok tt, s).
Proof.
  intros U. unfold upgrade_test_section. cbn [each]. cbv zeta. unfold andthen at 1. unfold andthen at 1. rewrite (has_no_top $"test"); [reflexivity|vm_compute; reflexivity..|]. eapply no_section; [vm_compute; reflexivity|exact U].
Qed.
Lemma run_outputs s todo bases : upto todo (r_root (v1 s)) -> upgrade_multi_output T bases s = (Ok tt, s).
Proof.
  intros U. unfold upgrade_multi_output. unfold andthen at 1. rewrite (has_no_top $"outputs"); [reflexivity|vm_compute; reflexivity..|]. eapply no_section; [vm_compute; reflexivity|exact U].
Qed.
Lemma run_paths root todo : upto todo root -> get_package_paths E root = Ok [$"/"].
Proof.
  intros U. unfold get_package_paths. rewrite PathProofs2.get_value_default by discriminate. change $"/outputs" with (path_text [$"outputs"]).
  rewrite (contains_gone _ [$"outputs"]); [reflexivity|discriminate|]. intros P. apply (no_section $"outputs" todo root); [vm_compute; reflexivity|exact U|]. apply present_top; [comp|reflexivity|exact P].
Qed.
End Runs.

Lemma pair_up {A B} (R : A -> B -> Prop) l l' : Forall2 R l l' -> exists ps, map fst ps = l /\ map snd ps = l' /\ Forall (fun p => R (fst p) (snd p)) ps.
Proof.
  induction 1 as [|a b l l' K _ (ps & A1 & A2 & A3)]; [exists []; auto|]. exists ((a, b) :: ps). cbn [map fst snd]. split; [congruence|]. split; [congruence|]. constructor; assumption.
Qed.
Lemma c134 T s ctx t t' d : let E := t_env T in let closest := find_closest_license_match (t_close T) (t_licenses T) in let full := with_version (with_context ctx (r_root (v1 s))) in
  writes_version E -> (ctx <> [] -> writes_context E ctx) -> (forall l, Permutation (t_order T l) l) ->
  r_sel (v1 s) = [] -> NoDup (map fst (r_vars (v1 s))) -> entries_for (r_vars (v1 s)) ctx ->
  n_children (r_root (v1 s)) <> [] -> n_lmf (r_root (v1 s)) = false -> proper_tree (r_root (v1 s)) = true -> comments_have_paths E (r_root (v1 s)) ->
  addressable_document full = true -> expressions_fit E full -> renewed full t ->
  only_renamed t -> values_fine E closest t -> (forall tb, In tb known_names -> section_in_order tb t) -> names_renewed E t t' ->
  get_value E t $"/context" (Some (JDict [])) None = Ok (JDict d) ->
  exists text s' earlier of_build of_license of_about later, without_errors (render_to_v1 T) s text s' /\ rearranged t' (r_root (v1 s')) /\ r_vars (v1 s') = dict_to_vtbl d
  /\ get_messages WARNING (msgs s') = get_messages WARNING (msgs s) ++ earlier ++ of_build ++ of_license ++ of_about ++ later
  /\ told_dropped t $"build" (snd (snd build_names)) of_build /\ license_told E closest t of_license /\ told_dropped t $"about" (snd (snd about_names)) of_about.
Proof.
  cbv zeta. set (root := r_root (v1 s)). set (full := with_version (with_context ctx root)).
  intros HW HC HO HS ND HE NC LM HP CP AD XF RN NO VF IO (lines & NR & ->) GV.
  destruct (pair_up _ _ _ NR) as (pairs & P1 & P2 & P3).
  destruct (context_goes T s ctx t HW HC HO ND HE NC LM HP AD XF RN) as (PT & s0 & U2 & X0 & V0).
  assert (upgrade_selectors_to_conditionals T s = (Ok tt, s)) as U1.
  { unfold upgrade_selectors_to_conditionals, andthen, ask. rewrite HS. reflexivity. }
  assert (exists earlier, get_messages WARNING (msgs s0) = get_messages WARNING (msgs s) ++ earlier) as (earlier & W0).
  { destruct (walks_jinja T s (Ok tt) s0 U2) as (ps & W). exact (steps_grow _ _ _ _ WARNING W). }
  assert (upto t pairs (map fst known_names) (r_root (v1 s0))) as UT by (rewrite V0; exact (upto_start T t pairs P1 P3)). rewrite <- V0 in PT. change (map fst known_names) with [$"source"; $"build"; $"requirements"; $"about"] in UT.
  pose proof (run_misspelled T t pairs P1 NO s0 UT) as Ma.
  destruct (run_source T t pairs P1 P3 IO NO VF s0 [$"build"; $"requirements"; $"about"]) as (sb & Mb & Xb & Ub & Pb); [cbn [In]; intuition discriminate|exact UT|exact PT|].
  destruct (run_build T t pairs P1 P3 IO NO sb [$"requirements"; $"about"]) as (sc & mb & Mc & Xc & Wc & Tc & Uc & Pc); [cbn [In]; intuition discriminate|exact Ub|exact Pb|].
  destruct (run_requirements T t pairs P1 P3 IO sc [$"about"]) as (sd & Md & Xd & Ud & Pd); [cbn [In]; intuition discriminate|exact Uc|exact Pc|].
  destruct (run_about T t pairs P1 P3 IO VF sd []) as (se & ml & ma & Me & Xe & We & Tl & Ta & Ue & Pe); [intros []|exact Ud|exact Pd|].
  assert (upgrades T s = (Ok tt, se)) as M1.
  { unfold upgrades. unfold andthen at 1. rewrite U1. unfold andthen at 1. rewrite U2. unfold andthen at 1, ask.
    rewrite (run_paths T t pairs P1 NO _ _ UT). unfold andthen at 1. rewrite Ma. unfold andthen at 1. rewrite Mb.
    unfold andthen at 1. rewrite Mc. unfold andthen at 1. rewrite Md. unfold andthen at 1. rewrite Me. unfold andthen at 1. rewrite (run_tests T t pairs P1 NO se _ Ue). exact (run_outputs T t pairs P1 NO se _ _ Ue). }
  destruct (lost_goes T (get_comments_table (t_env T) root) se (comment_keys _ _ CP)) as (s2 & M2 & V2 & X2).
  destruct (c83 T _ se s2 M2) as (_ & W2 & _).
  destruct (finish_context T s2 d) as (s3 & M3 & X3 & V3 & R3).
  { rewrite V2, (context_value_at _ t (r_root (v1 se))); [exact GV|]. exact (upto_context t pairs P1 _ _ Ue). }
  exists (render (t_env T) (v1 s3)), s3, earlier, mb, ml, ma. eexists. split; [split|split; [|split; [exact V3|split; [|split; [exact Tc|split; [exact Tl|exact Ta]]]]]].
  - unfold render_to_v1. unfold andthen at 1, ask at 1. unfold andthen at 1. rewrite M1. unfold andthen at 1. fold root. rewrite M2. unfold andthen at 1. rewrite M3. reflexivity.
  - rewrite X3, X2, Xe, Xd, Xc, Xb. exact X0.
  - rewrite V2 in R3. refine (rearranged_trans _ _ _ _ R3). rewrite <- P2. exact (upto_end t pairs _ Ue).
  - rewrite X3, W2, We, Xd, Wc, Xb, W0, <- !app_assoc. reflexivity.
Qed.
