(** C135 (proofs only): build, requirements and about. *)
From Verif Require Export CanProofs2.
From Verif Require Import Lemmas PatchProofs PatchProofs2 RenderProofs2 RenderProofs4 SectionSpec.

Lemma can_env_entry p item acc :
  can (env_entry p item acc) (fun r w w' => w' = w /\ exists kind, env_kept item kind /\ r = with_kind kind acc).
Proof.
  destruct acc as [env secrets]. intros s r w' HP (-> & kind & HK & ->). exists s. split; [|repeat split; auto].
  destruct HK as [x N|a b Na Nb|d x HF N]; unfold env_entry.
  - rewrite (split_on_nosep _ _ N). reflexivity.
  - rewrite (split_on_app _ a b Na), (split_on_nosep _ _ Nb). reflexivity.
  - rewrite field_is in HF. rewrite HF, (split_on_nosep _ _ N). reflexivity.
Qed.
Lemma can_env_entries p items : forall acc,
  can (env_entries p items acc) (fun r w w' => w' = w /\ exists kinds, Forall2 env_kept items kinds
    /\ fst r = sets (settings_of kinds) (fst acc) /\ snd r = snd acc ++ secrets_of kinds).
Proof.
  induction items as [|x items IH]; intros acc; cbn [env_entries].
  - eapply can_impl; [|apply can_ret]. intros r w w' (-> & kinds & HF & H1 & H2). inversion HF; subst. split; [|reflexivity].
    destruct r, acc. cbn [fst snd settings_of secrets_of flat_map sets fold_left] in *. rewrite app_nil_r in H2. congruence.
  - eapply can_impl; [|apply (can_bind _ _ _ _ (can_env_entry p x acc) IH)].
    intros r w w' (-> & kinds & HF & H1 & H2). inversion HF as [|? kind ? kinds' HK HF']; subst. exists (with_kind kind acc), w.
    split; [split; [reflexivity|]; exists kind; auto|]. split; [reflexivity|]. exists kinds'. split; [exact HF'|].
    rewrite H1, H2. unfold settings_of, secrets_of. cbn [flat_map].
    destruct kind; cbn [with_kind fst snd app sets fold_left]; rewrite <- ?app_assoc; split; reflexivity.
Qed.
Lemma walked_iter v items : walked v items -> json_iter v = Ok items.
Proof. destruct 1; reflexivity. Qed.
Lemma settings_texts kinds : Forall (fun k => exists n, k = PStr n) (map fst (settings_of kinds)).
Proof.
  induction kinds as [|[k v|j|] kinds IH]; cbn; auto; try constructor; auto. exists k. reflexivity.
Qed.
Lemma same_entries (d d' : list (prim * json)) : map fst d = map fst d' -> NoDup (map fst d) -> Forall (fun k => exists n, k = PStr n) (map fst d) ->
  (forall n, assoc_prim (PStr n) d = assoc_prim (PStr n) d') -> d = d'.
Proof.
  revert d'. induction d as [|[k v] d IH]; intros [|[k' v'] d'] HK ND HP HA; try discriminate; [reflexivity|]. cbn [map fst] in *. injection HK as <- HK.
  inversion ND as [|? ? N1 N2]; subst. inversion HP as [|? ? (n & ->) P2]; subst.
  pose proof (HA n) as Hn. cbn [assoc_prim] in Hn. rewrite prim_eqb_refl in Hn. injection Hn as ->. f_equal. apply IH; auto.
  intros m. specialize (HA m). cbn [assoc_prim] in HA. destruct (prim_eqb (PStr m) (PStr n)) eqn:Q; [|exact HA].
  apply prim_eqb_str_l in Q. injection Q as ->. rewrite !(proj2 (assoc_not_in _ _)); [reflexivity| |exact N1]. rewrite <- HK. exact N1.
Qed.
Lemma mapping_once kinds d : env_mapping (settings_of kinds) d -> d = sets (settings_of kinds) [].
Proof.
  intros (K & V). destruct (sets_mapping kinds) as (K' & V'). apply same_entries.
  - congruence.
  - rewrite K. apply NoDup_rev, NoDup_nodup.
  - rewrite K. apply Forall_forall. intros k I. apply in_rev in I. rewrite ?rev_involutive in I. apply nodup_In, in_rev in I. rewrite ?rev_involutive in I.
    pose proof (settings_texts kinds) as F. rewrite Forall_forall in F. apply F. exact I.
  - intros n. rewrite V, V'. reflexivity.
Qed.
Section Sections.
Context (T : tools).
Let E := t_env T.
Hypothesis HE : reads_proper E.
Lemma can_script ds : Forall component ds -> canu (upgrade_build_script_section T (path_text ds)) (script_upgraded E ds).
Proof.
  intros HD. unfold upgrade_build_script_section, script_upgraded. cbv zeta.
  rewrite (below ds _ $"/script_env" $"script_env"), (below ds _ $"/script" $"script") by (auto using base_of_path; side).
  apply can_read. intros v. destruct (json_truthy v); [|apply can_done].
  eapply can_impl; [|apply (can_bind _ _ _ (fun items (_ : unit) w w' => exists kinds env, Forall2 env_kept items kinds /\ env_mapping (settings_of kinds) env
      /\ with_value E (ds ++ [$"script"]) (Some (JStr [])) (fun script =>
             in_lines (if json_truthy script then value_replaced E (ds ++ [$"script"]) (new_script env (secrets_of kinds) script)
                       else value_put E ds $"script" (new_script env (secrets_of kinds) script))
             >> in_lines (line_taken (ds ++ [$"script_env"]))) w w') (can_pure (json_iter v)))].
  { intros a w w' (items & kinds & env & HW & H). exists items, w. split; [split; [apply walked_iter, HW|reflexivity]|]. exists kinds, env. exact H. }
  intros items.
  eapply can_impl; [|apply (can_bind _ _ _ (fun (r : list (prim * json) * list json) (_ : unit) =>
     with_value E (ds ++ [$"script"]) (Some (JStr [])) (fun script =>
             in_lines (if json_truthy script then value_replaced E (ds ++ [$"script"]) (new_script (fst r) (snd r) script)
                       else value_put E ds $"script" (new_script (fst r) (snd r) script))
             >> in_lines (line_taken (ds ++ [$"script_env"])))) (can_env_entries _ items ([], [])))].
  { intros a w w' (kinds & env & HF & HM & H). exists (env, secrets_of kinds), w. split; [|exact H]. split; [reflexivity|].
    exists kinds. split; [exact HF|]. cbn [fst snd app]. split; [apply mapping_once, HM|reflexivity]. }
  intros r. apply can_read. intros script. rewrite new_script_is.
  assert (Forall component (ds ++ [$"script"])) as HS by (apply below_comps; [exact HD|side]).
  assert (forall p R, can (patch_and_log T p) (fun b w w' => b = true /\ in_lines R w w') ->
    canu (do! patch_and_log T p in do! patch_and_log T (p_remove (path_text (ds ++ [$"script_env"]))) in ret tt)
          (in_lines R >> in_lines (line_taken (ds ++ [$"script_env"])))) as G.
  { intros p R H. apply (flag_seq H). apply can_only. apply can_remove; [exact HE|apply below_comps; [exact HD|side]]. }
  destruct (json_truthy script); apply G.
  - apply can_replace; [exact HE|exact HS|side].
  - apply can_add; [exact HE|exact HS|side|apply str_eqb_neq; side].
Qed.
Lemma can_to_requirements bs field : Forall component bs -> comp_ok field = true -> isdigit field = false -> str_eqb field $"-" = false ->
  canu (move_to_requirements T (base_text bs) field) (to_requirements E bs field).
Proof.
  intros HB HF D ND. unfold move_to_requirements, to_requirements. cbv zeta.
  rewrite (below bs _ $"/requirements" $"requirements") by (auto using base_text_of; side).
  assert (forallb comp_ok ([$"build"] ++ [field]) = true) as OK1 by (cbn [app forallb]; rewrite HF; reflexivity).
  assert (forallb comp_ok ([$"requirements"] ++ [field]) = true) as OK2 by (cbn [app forallb]; rewrite HF; reflexivity).
  rewrite (path_of bs _ ($"/build/" ++ field) [$"build"] field HB (base_text_of bs) OK1), (path_of bs _ ($"/requirements/" ++ field) [$"requirements"] field HB (base_text_of bs) OK2)
    by (left; cbn [app path_text]; rewrite app_nil_r; reflexivity).
  replace (bs ++ [$"build"; field]) with ((bs ++ [$"build"]) ++ [field]) by (rewrite <- app_assoc; reflexivity).
  pose proof (comps bs _ _ HB OK1) as C1. pose proof (comps bs _ _ HB OK2) as C2.
  apply (can_if_has (bs ++ [$"build"]) field); [exact C1|].
  assert (Forall component (bs ++ [$"requirements"])) as CR by (apply below_comps; [exact HB|side]).
  eapply can_impl; [|apply (can_bind _ _ _ (fun x (_ : unit) => (if x : bool then nothing else in_lines (value_put E bs $"requirements" JNull))
     >> moved E (bs ++ [$"build"]) field (bs ++ [$"requirements"]) field) (can_has bs $"requirements" CR))].
  - intros a w w' (m' & K1 & K2). unfold created in K1. destruct K1 as [(P & K1)|(P & K1)]; [exists false, w|exists true, w];
    (split; [split; [reflexivity|]; split; intros Q; auto; try discriminate Q; contradiction|]); exists m'; split; auto.
  - intros x. apply can_unit.
    + destruct x; cbn [negb when]; [apply can_done|]. apply can_only. apply can_add; [exact HE|exact CR|side|apply str_eqb_neq; side].
    + apply can_only. apply can_move; auto; [apply str_eqb_neq, ND|]. rewrite <- !app_assoc. intros K. apply app_inv_head in K. vm_compute in K. discriminate K.
Qed.
Lemma can_build bases : Forall (Forall component) bases -> canu (upgrade_build_section T (map base_text bases)) (for_each (build_upgraded E) bases).
Proof.
  intros HBS. unfold upgrade_build_section. apply can_for_bases; [exact HBS|]. intros bs HB. cbv zeta.
  unfold build_upgraded. cbv zeta. apply can_unit; [apply can_to_requirements; [exact HB|side..]|].
  apply can_unit; [apply can_to_requirements; [exact HB|side..]|].
  rewrite (below bs (base_text bs) $"/build" $"build") by (auto using base_text_of; side).
  assert (Forall component (bs ++ [$"build"])) as HBB by (apply below_comps; [exact HB|side]).
  apply (can_if_has bs $"build"); [exact HBB|].
  do 2 (apply can_rename_first; [exact HE|exact HBB|apply base_of_path|side|side|side|side|side|side|side|]).
  apply can_no_renames.
  do 7 (apply can_unit; [apply can_helper_nest; [exact HE|exact HBB|apply base_of_path|side..]|]).
  apply can_unit; [apply can_script; exact HBB|].
  apply can_unit; [apply can_helper_dropped; [exact HE|exact HBB|apply base_of_path|side]|].
  apply (can_sort bs $"build" V1_BUILD_SECTION_SORT HBB); repeat constructor.
Qed.
Lemma can_requirements bases : Forall (Forall component) bases -> canu (upgrade_requirements_section T (map base_text bases)) (for_each (requirements_upgraded E) bases).
Proof.
  intros HBS. unfold upgrade_requirements_section. apply can_for_bases; [exact HBS|]. intros bs HB. cbv zeta. unfold requirements_upgraded.
  rewrite (below bs (base_text bs) $"/requirements" $"requirements") by (auto using base_text_of; side).
  assert (Forall component (bs ++ [$"requirements"])) as HBB by (apply below_comps; [exact HB|side]).
  apply (can_if_has bs $"requirements"); [exact HBB|]. apply can_helper_rename; [exact HE|exact HBB|apply base_of_path|side..].
Qed.
Lemma can_license ds : Forall component ds -> canu (fix_bad_licenses T (path_text ds)) (license_checked E (closest_license T) ds).
Proof.
  intros HD. unfold fix_bad_licenses, license_checked. cbv zeta.
  rewrite (below ds _ $"/license" $"license") by (auto using base_of_path; side).
  assert (Forall component (ds ++ [$"license"])) as HS by (apply below_comps; [exact HD|side]).
  apply can_read. intros v.
  assert (forall m : conv unit, canu m (fun _ _ => False)) as Bad by (intros m s a w' _ []).
  destruct v as [[| | | |old]|l|d]; cbn [license_match]; try apply Bad; [apply can_tell|].
  eapply can_impl; [|apply (can_bind _ _ _ (fun (c : option str) (_ : unit) =>  match c with
        | None => tell ($"Could not patch unrecognized license: `" ++ old ++ $"`")
        | Some new =>
            if list_eq_dec ascii_dec old new then nothing
            else in_lines (value_replaced E (ds ++ [$"license"]) (JStr new))
                 >> tell ($"Changed " ++ path_text (ds ++ [$"license"]) ++ $" from `" ++ old ++ $"` to `" ++ new ++ $"`")
        end) (can_pure (Ok (find_closest_license_match (t_close T) (t_licenses T) old))))].
  { intros a w w' K. exists (closest_license T old), w. split; [split; reflexivity|exact K]. }
  intros [new|]; [|apply can_tell].
  destruct (list_eq_dec ascii_dec old new) as [->|N].
  - assert (json_eqb (JStr new) (JStr new) = true) as ->; [|apply can_done]. cbn. apply str_eqb_refl.
  - assert (json_eqb (JStr old) (JStr new) = false) as ->. { cbn. apply str_eqb_neq, N. }
    eapply can_impl; [|apply (can_bind _ _ _ (fun (x : bool) (_ : unit) => if x then tell ($"Changed " ++ path_text (ds ++ [$"license"]) ++ $" from `" ++ old ++ $"` to `" ++ new ++ $"`") else nothing)
       (can_replace T HE ds $"license" (JStr new) HS ltac:(side)))].
    + intros a w w' (mid & H1 & H2). exists true, mid. auto.
    + intros [|]; [|apply can_done]. cbn [when]. unfold quoted_json. change (json_str (JStr old)) with old. rewrite <- !app_assoc. apply can_tell.
Qed.
Lemma lines_as ls : as_lines (map (fun s => JStr s) ls) = Some ls.
Proof. induction ls as [|x ls IH]; [reflexivity|]. cbn [map as_lines]. rewrite IH. reflexivity. Qed.
Lemma can_about bases : Forall (Forall component) bases -> canu (upgrade_about_section T (map base_text bases)) (for_each (about_upgraded E (closest_license T)) bases).
Proof.
  intros HBS. unfold upgrade_about_section. apply can_for_bases; [exact HBS|]. intros bs HB. cbv zeta. unfold about_upgraded. cbv zeta.
  rewrite (below bs (base_text bs) $"/about" $"about") by (auto using base_text_of; side).
  assert (Forall component (bs ++ [$"about"])) as HBB by (apply below_comps; [exact HB|side]).
  apply (can_if_has bs $"about"); [exact HBB|].
  apply can_unit.
  { unfold about_rename_mapping. cbn [each fst snd].
    eapply can_impl with (R := fun _ => renames E (bs ++ [$"about"]) [($"home", $"homepage"); ($"dev_url", $"repository"); ($"doc_url", $"documentation")] >> nothing).
    { intros a w w' H. exists w'. split; [exact H|reflexivity]. }
    do 3 (apply can_rename_first; [exact HE|exact HBB|apply base_of_path|side|side|side|side|side|side|side|]). apply can_no_renames, can_done. }
  apply can_unit; [apply can_license; exact HBB|].
  rewrite (below (bs ++ [$"about"]) _ $"/summary" $"summary") by (auto using base_of_path; side).
  assert (forall m A k B, (forall v, canu (m v) (A v)) -> canu k B ->
    canu (run! v := value T (path_text ((bs ++ [$"about"]) ++ [$"summary"])) (Some (JStr [])) in do! m v in k) (with_value E ((bs ++ [$"about"]) ++ [$"summary"]) (Some (JStr [])) A >> B)) as G.
  { intros m A k B Hm Hk. eapply can_impl; [|apply (can_read T ((bs ++ [$"about"]) ++ [$"summary"]) (Some (JStr [])) (fun v => do! m v in k) (fun v => A v >> B))].
    - intros a w w' (mid & (v & Hv & H1) & H2). exists v. split; [exact Hv|]. exists mid. auto.
    - intros v. apply can_unit; auto. }
  unfold summary_joined. apply G; [|apply can_helper_dropped; [exact HE|exact HBB|apply base_of_path|side]].
  intros v. destruct v as [p|l|d]; try apply can_done.
  eapply can_impl; [|apply (can_bind _ _ _ (fun text (_ : unit) => in_lines (value_replaced E ((bs ++ [$"about"]) ++ [$"summary"]) (JStr text))) (can_pure (join_lines l)))].
  - intros a w w' (ls & -> & K). exists (join NLs ls), w. split; [split; [unfold join_lines; rewrite lines_as; reflexivity|reflexivity]|exact K].
  - intros text. apply can_only. apply can_replace; [exact HE|apply below_comps; [exact HBB|side]|side].
Qed.
End Sections.
