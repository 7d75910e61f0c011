(** Proofs about the section upgrades: build, requirements and about. *)
From Verif Require Export SectionProofs2.
From Verif Require Import SectionSpec.

(** * Texts split at equals signs *)
Lemma first_split c (s : str) : In c s -> exists a b, s = a ++ c :: b /\ ~ In c a.
Proof.
  induction s as [|x s IH]; [intros []|]. intros I. destruct (ascii_dec x c) as [->|N].
  - exists [], s. split; [reflexivity|intros []].
  - destruct I as [->|I]; [contradiction|]. destruct (IH I) as (a & b & -> & Na). exists (x :: a), b. split; [reflexivity|]. intros [K|K]; auto.
Qed.
Lemma split_one c s a : split_on c s = [a] -> ~ In c s /\ a = s.
Proof.
  intros H. destruct (in_dec ascii_dec c s) as [I|I].
  - destruct (first_split c s I) as (x & y & -> & N). rewrite (split_on_app c x y N) in H. injection H as _ H. destruct (PatchProofs2.split_on_nonempty _ _ H).
  - rewrite (split_on_nosep c s I) in H. injection H as <-. auto.
Qed.
Lemma split_two c s a b : split_on c s = [a; b] -> s = a ++ c :: b /\ ~ In c a /\ ~ In c b.
Proof.
  intros H. destruct (in_dec ascii_dec c s) as [I|I].
  - destruct (first_split c s I) as (x & y & -> & N). rewrite (split_on_app c x y N) in H. injection H as -> H. apply split_one in H as (Ny & ->). auto.
  - rewrite (split_on_nosep c s I) in H. discriminate.
Qed.

(** * The environment as a mapping *)
Definition sets (l : list (prim * json)) (env : list (prim * json)) : list (prim * json) :=
  fold_left (fun e kv => match fst kv with PStr k => jset k (snd kv) e | _ => e end) l env.
Lemma jset_keys_are k v d : map fst (jset k v d) = if in_dec prim_dec (PStr k) (map fst d) then map fst d else map fst d ++ [PStr k].
Proof.
  induction d as [|[k' w] d IH]; [reflexivity|]. cbn [jset map fst]. destruct (prim_eqb (PStr k) k') eqn:Q.
  - apply prim_eqb_str_l in Q as ->. cbn [map fst]. destruct (in_dec prim_dec (PStr k) (PStr k :: map fst d)) as [_|N]; [reflexivity|]. exfalso. apply N. left. reflexivity.
  - cbn [map fst]. rewrite IH. destruct (in_dec prim_dec (PStr k) (map fst d)) as [I|N].
    + destruct (in_dec prim_dec (PStr k) (k' :: map fst d)) as [_|N']; [reflexivity|]. exfalso. apply N'. right. exact I.
    + destruct (in_dec prim_dec (PStr k) (k' :: map fst d)) as [[->|I]|_]; [rewrite prim_eqb_refl in Q; discriminate|contradiction|reflexivity].
Qed.
Lemma sets_mapping kinds : env_mapping (settings_of kinds) (sets (settings_of kinds) []).
Proof.
  induction kinds as [|kind kinds IH] using rev_ind; [split; [reflexivity|intros n; reflexivity]|].
  unfold settings_of in *. rewrite flat_map_app. cbn [flat_map]. rewrite app_nil_r.
  destruct kind as [k v|j|]; rewrite ?app_nil_r; try exact IH. set (l := flat_map _ kinds) in *.
  destruct IH as (K & V). unfold sets in *. rewrite fold_left_app. cbn [fold_left fst snd]. split.
  - rewrite jset_keys_are, K, map_app, rev_app_distr. cbn [map fst rev app nodup].
    destruct (in_dec prim_dec (PStr k) (rev (map fst l))) as [I|N]; destruct (in_dec prim_dec (PStr k) (rev (nodup prim_dec (rev (map fst l))))) as [I'|N']; try reflexivity.
    + exfalso. apply N'. rewrite <- in_rev. apply nodup_In. exact I.
    + exfalso. apply N. rewrite <- in_rev in I'. apply nodup_In in I'. exact I'.
  - intros n. rewrite jset_assoc, V, last_entry_app, last_entry_one. cbn [fst snd prim_str]. destruct (str_eqb n k); reflexivity.
Qed.
Lemma last_entry_sets l e x : sets (l ++ x) e = sets x (sets l e).
Proof. apply fold_left_app. Qed.
Lemma field_is k d : field k d = assoc_prim (PStr k) d.
Proof.
  induction d as [|[k' v] d IH]; [reflexivity|]. cbn [field assoc_prim]. destruct k'; cbn [prim_eqb]; try exact IH.
  destruct (list_eq_dec ascii_dec k s) as [->|N]; [rewrite str_eqb_refl; reflexivity|].
  destruct (str_eqb k s) eqn:Q; [apply str_eqb_eq in Q; contradiction|exact IH].
Qed.
Definition with_kind (kind : env_kind) (acc : list (prim * json) * list json) : list (prim * json) * list json :=
  match kind with Setting n v => (jset n (JStr v) (fst acc), snd acc) | Secret j => (fst acc, snd acc ++ [j]) | Rejected => acc end.
Lemma does_env_entry p item acc :
  does (env_entry p item acc) (fun r w w' => w' = w /\ exists kind, env_kept item kind /\ r = with_kind kind acc).
Proof.
  destruct acc as [env secrets]. unfold env_entry.
  assert (forall m R, does (do! say ERROR m in ret (env, secrets)) R) as Bad.
  { intros m R. apply does_error. intros s o s' H. unfold ret in H. injection H as <- <-. exists []. rewrite app_nil_r. reflexivity. }
  destruct item as [[| | | |s]|l|d]; try apply does_fail.
  - destruct (split_on "="%char s) as [|a [|b [|c l]]] eqn:S; cbn [map]; try apply Bad.
    + apply split_one in S as (N & ->). eapply does_impl; [|apply does_ret]. intros r w w' (-> & ->). split; [reflexivity|].
      eexists. split; [constructor; exact N|reflexivity].
    + apply split_two in S as (-> & N1 & N2). eapply does_impl; [|apply does_ret]. intros r w w' (-> & ->). split; [reflexivity|].
      eexists. split; [constructor; [exact N1|exact N2]|reflexivity].
  - destruct (assoc_prim (PStr $"then") d) as [[[| | | |s]|l|d']|] eqn:A; try apply does_fail; [|apply Bad].
    destruct (split_on "="%char s) as [|a [|b l]] eqn:S; try apply Bad.
    apply split_one in S as (N & ->). eapply does_impl; [|apply does_ret]. intros r w w' (-> & ->). split; [reflexivity|].
    eexists. split; [econstructor; [rewrite field_is; exact A|exact N]|reflexivity].
Qed.
Lemma does_env_entries p items : forall acc,
  does (env_entries p items acc) (fun r w w' => w' = w /\ exists kinds, Forall2 env_kept items kinds
    /\ fst r = sets (settings_of kinds) (fst acc) /\ snd r = snd acc ++ secrets_of kinds).
Proof.
  induction items as [|x items IH]; intros acc; cbn [env_entries].
  - eapply does_impl; [|apply does_ret]. intros r w w' (-> & ->). split; [reflexivity|]. exists []. split; [constructor|]. split; [reflexivity|].
    cbn. rewrite app_nil_r. reflexivity.
  - eapply does_impl; [|apply (does_bind _ _ _ _ (does_env_entry p x acc) IH)].
    intros r w w' (acc' & mid & (-> & kind & HK & ->) & -> & kinds & HF & H1 & H2). split; [reflexivity|].
    exists (kind :: kinds). split; [constructor; [exact HK|exact HF]|]. rewrite H1, H2. unfold settings_of, secrets_of. cbn [flat_map].
    destruct kind; cbn [with_kind fst snd app sets fold_left]; rewrite <- ?app_assoc; split; reflexivity.
Qed.
Lemma json_iter_walked v items : json_iter v = Ok items -> walked v items.
Proof. destruct v as [[| | | |s]|l|d]; cbn [json_iter]; intros [= <-]; constructor. Qed.
Lemma new_script_is env secrets script :
  JDict (set_key_conditionally (set_key_conditionally (set_key_conditionally [] $"env" (JDict env)) $"secrets" (JList secrets)) $"content" script)
  = new_script env secrets script.
Proof.
  unfold new_script. f_equal. unfold set_key_conditionally. destruct env as [|x env], secrets as [|y secrets]; cbn [json_truthy is_nil negb unless_empty app];
  destruct (json_truthy script); reflexivity.
Qed.

Section Sections.
Context (T : tools).
Let E := t_env T.
Hypothesis HE : reads_proper E.
Lemma script_section ds : Forall component ds -> doesu (upgrade_build_script_section T (path_text ds)) (script_upgraded E ds).
Proof.
  intros HD. unfold upgrade_build_script_section, script_upgraded. cbv zeta.
  rewrite (below ds _ $"/script_env" $"script_env"), (below ds _ $"/script" $"script") by (auto using base_of_path; side).
  apply with_read. intros v. destruct (json_truthy v); [|apply does_done].
  eapply does_impl; [|apply (does_bind _ _ _ (fun items (_ : unit) w w' => exists kinds env, Forall2 env_kept items kinds /\ env_mapping (settings_of kinds) env
      /\ with_value E (ds ++ [$"script"]) (Some (JStr [])) (fun script =>
             in_lines (if json_truthy script then value_replaced E (ds ++ [$"script"]) (new_script env (secrets_of kinds) script)
                       else value_put E ds $"script" (new_script env (secrets_of kinds) script))
             >> in_lines (line_taken (ds ++ [$"script_env"]))) w w') (does_pure (json_iter v)))].
  { intros a w w' (items & mid & (H1 & ->) & kinds & env & H). exists items, kinds, env. split; [apply json_iter_walked, H1|exact H]. }
  intros items.
  eapply does_impl; [|apply (does_bind _ _ _ (fun (r : list (prim * json) * list json) (_ : unit) =>
     with_value E (ds ++ [$"script"]) (Some (JStr [])) (fun script =>
             in_lines (if json_truthy script then value_replaced E (ds ++ [$"script"]) (new_script (fst r) (snd r) script)
                       else value_put E ds $"script" (new_script (fst r) (snd r) script))
             >> in_lines (line_taken (ds ++ [$"script_env"])))) (does_env_entries _ items ([], [])))].
  { intros a w w' (r & mid & (-> & kinds & HF & H1 & H2) & H). exists kinds, (fst r). split; [exact HF|]. cbn [fst snd app] in H1, H2.
    split; [rewrite H1; apply sets_mapping|]. rewrite <- H2. exact H. }
  intros r. apply with_read. intros script. rewrite new_script_is.
  assert (Forall component (ds ++ [$"script"])) as HS by (apply below_comps; [exact HD|side]).
  assert (forall p R, does (patch_and_log T p) (fun b w w' => b = true /\ in_lines R w w') ->
    doesu (do! patch_and_log T p in do! patch_and_log T (p_remove (path_text (ds ++ [$"script_env"]))) in ret tt)
          (in_lines R >> in_lines (line_taken (ds ++ [$"script_env"])))) as G.
  { intros p R H. apply does_seq; [eapply does_impl; [|exact H]; intros a w w' (_ & K); exact K|]. apply only. apply does_remove. exact HE. }
  destruct (json_truthy script); apply G.
  - apply does_replace; [exact HE|exact HS|side].
  - apply does_add; [exact HE|exact HS|side|side].
Qed.
Lemma seq_is {A : change} {B : change} (m k : conv unit) : doesu m A -> doesu k B -> doesu (do! m in k) (A >> B).
Proof. apply does_seq. Qed.
Lemma to_requirements_of bs field : Forall component bs -> comp_ok field = true -> isdigit field = false -> str_eqb field $"-" = false ->
  doesu (move_to_requirements T (base_text bs) field) (to_requirements E bs field).
Proof.
  intros HB HF D ND. unfold move_to_requirements, to_requirements. cbv zeta.
  rewrite (below bs _ $"/requirements" $"requirements") by (auto using base_text_of; side).
  assert (forallb comp_ok ([$"build"] ++ [field]) = true) as OK1 by (cbn [app forallb]; rewrite HF; reflexivity).
  assert (forallb comp_ok ([$"requirements"] ++ [field]) = true) as OK2 by (cbn [app forallb]; rewrite HF; reflexivity).
  rewrite (path_of bs _ ($"/build/" ++ field) [$"build"] field HB (base_text_of bs) OK1), (path_of bs _ ($"/requirements/" ++ field) [$"requirements"] field HB (base_text_of bs) OK2)
    by (left; cbn [app path_text]; rewrite app_nil_r; reflexivity).
  replace (bs ++ [$"build"; field]) with ((bs ++ [$"build"]) ++ [field]) by (rewrite <- app_assoc; reflexivity).
  pose proof (comps bs _ _ HB OK1) as C1. pose proof (comps bs _ _ HB OK2) as C2.
  apply (if_has (bs ++ [$"build"]) field); [exact C1|]. 
  assert (Forall component (bs ++ [$"requirements"])) as CR by (apply below_comps; [exact HB|side]).
  eapply does_impl; [|apply (does_bind _ _ _ (fun x (_ : unit) => (if x : bool then nothing else in_lines (value_put E bs $"requirements" JNull))
     >> moved E (bs ++ [$"build"]) field (bs ++ [$"requirements"]) field) (does_has bs $"requirements" CR))].
  - intros a w w' (x & mid & (-> & Hb) & m' & K1 & K2). exists m'. split; [|exact K2]. unfold created.
    destruct x; [right; split; [apply Hb; reflexivity|exact K1]|left; split; [intros P; apply Hb in P; discriminate|exact K1]].
  - intros x. apply does_seq.
    + destruct x; cbn [negb when]; [apply does_done|]. apply only. apply does_add; [exact HE|exact CR|side|side].
    + apply only. apply does_move; auto; [apply str_eqb_neq, ND|]. rewrite <- !app_assoc. intros K. apply app_inv_head in K. vm_compute in K. discriminate K.
Qed.
Lemma build bases : Forall (Forall component) bases -> doesu (upgrade_build_section T (map base_text bases)) (for_each (build_upgraded E) bases).
Proof.
  intros HBS. unfold upgrade_build_section. apply for_bases; [exact HBS|]. intros bs HB. cbv zeta.
  unfold build_upgraded. cbv zeta. apply seq_is; [apply to_requirements_of; [exact HB|side..]|].
  apply seq_is; [apply to_requirements_of; [exact HB|side..]|].
  rewrite (below bs (base_text bs) $"/build" $"build") by (auto using base_text_of; side).
  assert (Forall component (bs ++ [$"build"])) as HBB by (apply below_comps; [exact HB|side]).
  apply (if_has bs $"build"); [exact HBB|].
  do 2 (apply rename_first; [exact HE|exact HBB|apply base_of_path|side|side|side|side|side|side|side|]).
  apply no_renames.
  do 7 (apply seq_is; [apply helper_nest; [exact HE|exact HBB|apply base_of_path|side..]|]).
  apply seq_is; [apply script_section; exact HBB|].
  apply seq_is; [apply helper_dropped; [exact HE|exact HBB|apply base_of_path|side]|].
  apply (does_sort bs $"build" V1_BUILD_SECTION_SORT HBB); repeat constructor.
Qed.
Lemma requirements bases : Forall (Forall component) bases -> doesu (upgrade_requirements_section T (map base_text bases)) (for_each (requirements_upgraded E) bases).
Proof.
  intros HBS. unfold upgrade_requirements_section. apply for_bases; [exact HBS|]. intros bs HB. cbv zeta. unfold requirements_upgraded.
  rewrite (below bs (base_text bs) $"/requirements" $"requirements") by (auto using base_text_of; side).
  assert (Forall component (bs ++ [$"requirements"])) as HBB by (apply below_comps; [exact HB|side]).
  apply (if_has bs $"requirements"); [exact HBB|]. apply helper_rename; [exact HE|exact HBB|apply base_of_path|side..].
Qed.

(** * About *)
Definition closest_license (s : str) : option str := find_closest_license_match (t_close T) (t_licenses T) s.
Lemma license_step ds : Forall component ds -> doesu (fix_bad_licenses T (path_text ds)) (license_checked E closest_license ds).
Proof.
  intros HD. unfold fix_bad_licenses, license_checked. cbv zeta.
  rewrite (below ds _ $"/license" $"license") by (auto using base_of_path; side).
  assert (Forall component (ds ++ [$"license"])) as HS by (apply below_comps; [exact HD|side]).
  apply with_read. intros v.
  assert (forall R k, doesu (run! corrected := pure (Err EAttr : res (option str)) in k corrected) R /\ doesu (run! corrected := pure (Err EType : res (option str)) in k corrected) R) as Bad.
  { intros R k. split; intros s o s' H; unfold andthen, pure in H; injection H as <- <-; (split; [exists []; rewrite app_nil_r; reflexivity|intros; discriminate]). }
  destruct v as [[| | | |old]|l|d]; cbn [license_match]; try apply Bad; [apply does_tell|].
  eapply does_impl; [|apply (does_bind _ _ _ (fun (c : option str) (_ : unit) =>  match c with
        | None => tell ($"Could not patch unrecognized license: `" ++ old ++ $"`")
        | Some new =>
            if list_eq_dec ascii_dec old new then nothing
            else in_lines (value_replaced E (ds ++ [$"license"]) (JStr new))
                 >> tell ($"Changed " ++ path_text (ds ++ [$"license"]) ++ $" from `" ++ old ++ $"` to `" ++ new ++ $"`")
        end) (does_pure (Ok (find_closest_license_match (t_close T) (t_licenses T) old))))].
  { intros a w w' (c & mid & (Hc & ->) & K). injection Hc as <-. exact K. }
  intros [new|]; [|apply does_tell].
  destruct (list_eq_dec ascii_dec old new) as [->|N].
  - assert (json_eqb (JStr new) (JStr new) = true) as ->; [|apply does_done]. cbn. apply str_eqb_refl.
  - assert (json_eqb (JStr old) (JStr new) = false) as ->. { cbn. apply str_eqb_neq, N. }
    eapply does_impl; [|apply (does_bind _ _ _ (fun (x : bool) (_ : unit) => if x then tell ($"Changed " ++ path_text (ds ++ [$"license"]) ++ $" from `" ++ old ++ $"` to `" ++ new ++ $"`") else nothing)
       (does_replace T HE ds $"license" (JStr new) HS ltac:(side)))].
    + intros a w w' (x & mid & (-> & H1) & H2). exists mid. auto.
    + intros [|]; [|apply does_done]. cbn [when]. unfold quoted_json. change (json_str (JStr old)) with old. rewrite <- !app_assoc. apply does_tell.
Qed.
Lemma as_lines_are l : forall ls, as_lines l = Some ls -> l = map (fun s => JStr s) ls.
Proof.
  induction l as [|x l IH]; intros ls; cbn [as_lines]; [intros [= <-]; reflexivity|]. destruct x as [[| | | |s]|l'|d]; try discriminate.
  destruct (as_lines l) as [ls'|]; [|discriminate]. cbn [option_map]. intros [= <-]. cbn [map]. rewrite (IH ls' eq_refl). reflexivity.
Qed.
Lemma about bases : Forall (Forall component) bases -> doesu (upgrade_about_section T (map base_text bases)) (for_each (about_upgraded E closest_license) bases).
Proof.
  intros HBS. unfold upgrade_about_section. apply for_bases; [exact HBS|]. intros bs HB. cbv zeta. unfold about_upgraded. cbv zeta.
  rewrite (below bs (base_text bs) $"/about" $"about") by (auto using base_text_of; side).
  assert (Forall component (bs ++ [$"about"])) as HBB by (apply below_comps; [exact HB|side]).
  apply (if_has bs $"about"); [exact HBB|].
  apply seq_is.
  { unfold about_rename_mapping. cbn [each fst snd].
    eapply does_impl with (R := fun _ => renames E (bs ++ [$"about"]) [($"home", $"homepage"); ($"dev_url", $"repository"); ($"doc_url", $"documentation")] >> nothing).
    { intros a w w' (m & H & ->). exact H. }
    do 3 (apply rename_first; [exact HE|exact HBB|apply base_of_path|side|side|side|side|side|side|side|]). apply no_renames, does_done. }
  apply seq_is; [apply license_step; exact HBB|].
  rewrite (below (bs ++ [$"about"]) _ $"/summary" $"summary") by (auto using base_of_path; side).
  assert (forall m A k B, (forall v, doesu (m v) (A v)) -> doesu k B ->
    doesu (run! v := value T (path_text ((bs ++ [$"about"]) ++ [$"summary"])) (Some (JStr [])) in do! m v in k) (with_value E ((bs ++ [$"about"]) ++ [$"summary"]) (Some (JStr [])) A >> B)) as G.
  { intros m A k B Hm Hk. eapply does_impl; [|apply (with_read T ((bs ++ [$"about"]) ++ [$"summary"]) (Some (JStr [])) (fun v => do! m v in k) (fun v => A v >> B))].
    - intros a w w' (v & Hv & mid & H1 & H2). exists mid. split; [exists v; auto|exact H2].
    - intros v. apply does_seq; auto. }
  unfold summary_joined. apply G; [|apply helper_dropped; [exact HE|exact HBB|apply base_of_path|side]].
  intros v. destruct v as [p|l|d]; try apply does_done.
  unfold join_lines. destruct (as_lines l) as [ls|] eqn:A.
  - eapply does_impl; [|apply (does_bind _ _ _ (fun text (_ : unit) => in_lines (value_replaced E ((bs ++ [$"about"]) ++ [$"summary"]) (JStr text))) (does_pure (Ok (join NLs ls))))].
    + intros a w w' (text & mid & (Hc & ->) & K). injection Hc as <-. exists ls. split; [apply as_lines_are, A|exact K].
    + intros text. apply only. apply does_replace; [exact HE|apply below_comps; [exact HBB|side]|side].
  - intros s o s' H. unfold andthen, pure in H. injection H as <- <-. split; [exists []; rewrite app_nil_r; reflexivity|intros; discriminate].
Qed.
End Sections.
