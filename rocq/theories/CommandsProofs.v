(** Proofs about the commands: bump-recipe. *)
From Verif Require Import FrameProofs2 DepsProofs ServiceProofs CommandsSpec.

(** * Payloads and steps *)
Lemma payload_add path v : path <> [] -> asks (edit_payload $"add" path v) (RAdd path v).
Proof. exact (dep_patch_add path v). Qed.
Lemma payload_replace path v : path <> [] -> asks (edit_payload $"replace" path v) (RReplace path v).
Proof. exact (dep_patch_replace path v). Qed.
Lemma exit_patch_go E p r r' : exit_on_failed_patch E p r = Go r' <-> patch E p r = (Ok true, r').
Proof.
  unfold exit_on_failed_patch. destruct (patch E p r) as [[[|]|e] r1]; split; intros H; try discriminate; congruence.
Qed.
Lemma payload_sets (has : bool) path v : path <> [] ->
  exists q, asks (edit_payload (if has then $"replace" else $"add") path v) q /\ sets q path v.
Proof.
  intros H. destruct has.
  - exists (RReplace path v). split; [apply payload_replace; auto|right; reflexivity].
  - exists (RAdd path v). split; [apply payload_add; auto|left; reflexivity].
Qed.
Lemma lift_go {A} (x : res A) a : lift x = Go a -> x = Ok a.
Proof. unfold lift. destruct x; congruence. Qed.

Lemma number_done E inc r r' : update_build_num E inc r = Go r' -> number_step E inc r r'.
Proof.
  unfold update_build_num, number_step.
  destruct (get_value E (r_root r) $"/build" None None) as [v|e]; [|destruct e; discriminate].
  intros H. split; [eauto|]. destruct inc; cbn [then_ andb] in *.
  - unfold BUILD_NUM in H. destruct (contains_value (r_root r) $"/build/number") as [[|]|e]; cbn [lift then_] in H; [| |discriminate].
    + destruct (get_value E (r_root r) $"/build/number" None None) as [n|e]; cbn [lift then_] in H; [|discriminate].
      unfold as_int in H. destruct n as [[|b|z| |]| |]; try discriminate; apply exit_patch_go in H.
      * exists (edit_payload $"replace" $"/build/number" (JInt (Z_of_bool b + 1))), (RReplace $"/build/number" (JInt (Z_of_bool b + 1))).
        split; [apply payload_replace; discriminate|]. split; auto. exists (Z_of_bool b). split; auto. right. exists b. split; auto; destruct b; reflexivity.
      * exists (edit_payload $"replace" $"/build/number" (JInt (z + 1))), (RReplace $"/build/number" (JInt (z + 1))).
        split; [apply payload_replace; discriminate|]. split; auto. exists z. auto.
    + apply exit_patch_go in H. eexists _, (RAdd $"/build/number" (JInt 0)). split; [apply payload_add; discriminate|]. split; eauto.
  - apply exit_patch_go in H. eexists _, (RAdd $"/build/number" (JInt 0)). split; [apply payload_add; discriminate|]. split; eauto.
Qed.
Lemma version_done E target r r' : update_version E target r = Go r' -> version_step E target r r'.
Proof.
  unfold update_version, version_step, get_variable. unfold VERSION.
  assert (forall r', then_ (lift (contains_value (r_root r) $"/package/version"))
     (fun has : bool => exit_on_failed_patch E (edit_payload (if has then $"replace" else $"add") $"/package/version" (JStr target)) r) = Go r' ->
     exists p q, asks p q /\ sets q $"/package/version" (JStr target) /\ patch E p r = (Ok true, r')) as HA.
  { intros r1. destruct (contains_value (r_root r) $"/package/version") as [b|e]; cbn [lift then_]; [|discriminate].
    intros H. apply exit_patch_go in H. destruct (payload_sets b $"/package/version" (JStr target)) as (q & H1 & H2); [discriminate|]. eauto. }
  destruct (dget $"version" (r_vars r)) as [v|]; cbn [lift then_]; [|apply HA].
  destruct v as [[]| |]; try (intros [= <-]; reflexivity). apply HA.
Qed.

(** * Sources *)
Definition source_key (k : str) : Prop := k = path_text [$"source"] \/ exists i, k = path_text [$"source"; str_of_nat i].
Lemma collect_keys sv ig name is_list many l : forall i acc tbl, (is_list = false -> length l <= 1) ->
  Forall source_key (dkeys acc) -> NoDup (dkeys acc) -> (is_list = false -> acc = []) ->
  collect_sources sv ig name is_list many i l acc = Ok tbl ->
  Forall source_key (dkeys tbl) /\ NoDup (dkeys tbl) /\ (is_list = false -> length tbl <= 1)
  /\ (In $"/source" (dkeys tbl) -> is_list = false \/ In $"/source" (dkeys acc)).
Proof.
  induction l as [|x l IH]; intros i acc tbl HL HA HN HE H; cbn [collect_sources] in H.
  - injection H as <-. repeat split; auto. intros HI. apply HE in HI. subst. cbn. lia.
  - destruct (one_source sv _ x) as [[s|]|]; cbn [bind] in H; [| |discriminate].
    + destruct is_list.
      * apply IH in H; try discriminate.
        -- destruct H as (H1 & H2 & H3 & H4). repeat split; auto. intros HI. apply H4 in HI as [HI|HI]; [auto|].
           assert (forall k (v : source) d, In $"/source" (dkeys (dset k v d)) -> In $"/source" (dkeys d) \/ k = $"/source") as HK.
           { intros k v. induction d as [|[k' v'] d IHd]; cbn [dset dkeys map fst In].
             - intros [->|[]]; auto.
             - destruct (str_eqb k k') eqn:E; cbn [dkeys map fst In].
               + apply str_eqb_eq in E as ->. intros [->|HH]; auto.
               + intros [->|HH]; auto. apply IHd in HH as [HH|HH]; auto. }
           apply HK in HI as [HI|HI]; [right; exact HI|]. exfalso.
           assert (length ($"/source/" ++ str_of_nat i) = length $"/source") as HH by (rewrite HI; reflexivity).
           rewrite app_length in HH. change (length $"/source/") with 8 in HH. change (length $"/source") with 7 in HH. lia.
        -- assert (forall k (v : source) d, Forall source_key (dkeys d) -> source_key k -> Forall source_key (dkeys (dset k v d))) as HF.
           { intros k v. induction d as [|[k' v'] d IHd]; cbn [dset dkeys map fst]; intros F1 F2; auto.
             destruct (str_eqb k k'); cbn [dkeys map fst]; inversion F1; subst; constructor; auto. }
           apply HF; auto. right. exists i. cbn [path_text]. rewrite app_nil_r. reflexivity.
        -- apply dset_NoDup; auto.
      * assert (l = []) as -> by (specialize (HL eq_refl); destruct l; auto; cbn in HL; lia).
        cbn [collect_sources] in H. injection H as <-. rewrite (HE eq_refl). cbn [dset dkeys map fst]. repeat split; auto.
        -- constructor; auto. left. reflexivity.
        -- constructor; auto. constructor.
    + destruct ig; [|discriminate]. apply IH in H; auto. intros HI. specialize (HL HI). cbn in HL. lia.
Qed.
Lemma from_recipe_keys E r ig tbl : from_recipe E r ig = Ok tbl -> Forall source_key (dkeys tbl) /\ NoDup (dkeys tbl)
  /\ (In $"/source" (dkeys tbl) -> length tbl = 1).
Proof.
  unfold from_recipe. destruct (get_value E (r_root r) _ _ _) as [v|]; cbn [bind]; [|discriminate].
  destruct (match v with JList l => (l, true) | _ => ([v], false) end) as [l is_list] eqn:HLI.
  destruct (get_recipe_name E r) as [o|]; cbn [bind]; [|discriminate]. intros H.
  apply collect_keys in H; auto.
  - destruct H as (H1 & H2 & H3 & H4). repeat split; auto. intros HI. apply H4 in HI as HI'. destruct HI' as [HI'|[]].
    apply H3 in HI'. destruct tbl as [|a [|b tbl]]; cbn in *; auto; [contradiction|lia].
  - intros ->. destruct v; injection HLI as <-; cbn; auto; try discriminate.
  - constructor.
  - constructor.
Qed.
Lemma source_component i : component (str_of_nat i).
Proof. apply str_of_nat_spec. Qed.
Lemma source_sha k : source_key k -> append_to_path k $"/sha256" = k ++ $"/sha256".
Proof.
  assert (component $"source") as HC by (split; [discriminate|]; vm_compute; intuition discriminate).
  intros [->|(i & ->)].
  - reflexivity.
  - change ($"/sha256") with (cSL :: $"sha256"). apply append_path_cs; [discriminate|]. constructor; auto. constructor; auto. apply source_component.
Qed.

(** * Checksums *)
Lemma hashes_collected N l : forall acc out, collect_hashes N l acc = Go out ->
  (forall s t, In (s, t) out -> In (s, t) acc \/ exists path name url, In (path, (name, url)) l /\ checksum N path name url t
                                                   /\ s = append_to_path path $"/sha256")
  /\ (forall s, In s (dkeys acc) -> In s (dkeys out))
  /\ (forall path name url, In (path, (name, url)) l -> In (append_to_path path $"/sha256") (dkeys out)).
Proof.
  induction l as [|[path [name url]] l IH]; intros acc out H; cbn [collect_hashes] in H.
  - injection H as <-. split; [auto|]. split; auto. intros ? ? ? [].
  - destruct (sha_of_source N path name url) as [sha|e] eqn:HS; [|destruct e; discriminate].
    apply IH in H as (H1 & H2 & H3). split; [|split].
    + intros s t HI. apply H1 in HI as [HI|(p & n & u & HI & HC & HE)].
      * assert (forall k (v : str) d, In (s, t) (dset k v d) -> In (s, t) d \/ (s = k /\ t = v)) as HK.
        { intros k v. induction d as [|[k' v'] d IHd]; cbn [dset In].
          - intros [[= <- <-]|[]]; auto.
          - destruct (str_eqb k k') eqn:E; cbn [In].
            + apply str_eqb_eq in E as ->. intros [[= <- <-]|HH]; auto.
            + intros [HH|HH]; auto. apply IHd in HH as [HH|HH]; auto. }
        apply HK in HI as [HI|(-> & ->)]; auto. right. exists path, name, url. split; [left; reflexivity|]. auto.
      * right. exists p, n, u. split; [right; exact HI|auto].
    + intros s HI. apply H2. apply dmem_In. rewrite <- (dmem_In) in HI. unfold dmem in *.
      destruct (str_eqb s (append_to_path path $"/sha256")) eqn:E.
      * apply str_eqb_eq in E as ->. rewrite dget_dset_same. reflexivity.
      * rewrite dget_dset_other; auto. intros ->. rewrite str_eqb_refl in E. discriminate.
    + intros p n u [[= <- <- <-]|HI]; [|eauto]. apply H2. apply dmem_In. unfold dmem. rewrite dget_dset_same. reflexivity.
Qed.
Lemma hashes_NoDup N l : forall acc out, NoDup (dkeys acc) -> collect_hashes N l acc = Go out -> NoDup (dkeys out).
Proof.
  induction l as [|[path [name url]] l IH]; intros acc out HN H; cbn [collect_hashes] in H.
  - injection H as <-. auto.
  - destruct (sha_of_source N path name url) as [sha|e] eqn:HS; [|destruct e; discriminate].
    apply IH in H; auto. apply dset_NoDup; auto.
Qed.
Lemma hashes_written E l : forall r r', (forall s t, In (s, t) l -> s <> []) -> write_hashes E l r = Go r' -> texts_set E l r r'.
Proof.
  induction l as [|[s t] l IH]; intros r r' HN H; cbn [write_hashes] in H.
  - injection H as <-. constructor.
  - destruct (contains_value (r_root r) s) as [has|]; cbn [lift then_] in H; [|discriminate].
    destruct (exit_on_failed_patch E _ r) as [r1|] eqn:HP; cbn [then_] in H; [|discriminate].
    apply exit_patch_go in HP. destruct (payload_sets has s (JStr t)) as (q & Ha & Hq); [eapply HN; left; reflexivity|].
    econstructor; eauto. apply IH; auto. intros s' t' HI. eapply HN. right. exact HI.
Qed.
Lemma http_sources_In tbl path name url : In (path, (name, url)) (http_sources tbl) <-> is_archive tbl path name url.
Proof.
  unfold http_sources, is_archive. rewrite in_flat_map. split.
  - intros ((k & s) & HI & HH). cbn [fst snd] in HH. destruct s; [|destruct HH]. destruct HH as [[= <- <- <-]|[]]. exact HI.
  - intros HI. exists (path, SHttp name url). split; auto. left. reflexivity.
Qed.
Lemma hash_done E N r r' : (forall l, Permutation (n_order N l) l) -> update_sha256 E N r = Go r' -> hash_step E N r r'.
Proof.
  intros HP. unfold update_sha256, hash_step. destruct (from_recipe E r true) as [tbl|] eqn:HF; cbn [lift then_]; [|discriminate].
  intros H. exists tbl. split; auto. destruct (from_recipe_keys _ _ _ _ HF) as (HK & HND & H1).
  destruct (is_nil tbl) eqn:HN. { destruct tbl; [|discriminate]. left. injection H as <-. auto. }
  right. destruct (check_hash_var E N tbl r) as [o|] eqn:HC; cbn [then_] in H; [|discriminate].
  destruct o as [r1|].
  - left. injection H as <-. unfold check_hash_var in HC.
    destruct (filter (fun v => mem_str v COMMON_HASH_VAR_NAMES) (list_variables r)) as [|var [|]] eqn:HFl; try discriminate.
    assert (In var (filter (fun v => mem_str v COMMON_HASH_VAR_NAMES) (list_variables r))) as HIv by (rewrite HFl; left; reflexivity).
    apply filter_In in HIv as (HI1 & HI2). apply mem_str_In in HI2.
    destruct (length tbl =? 1) eqn:HL; [|discriminate]. apply Nat.eqb_eq in HL.
    destruct tbl as [|[k s] [|]]; try discriminate. unfold SOURCE in *. cbn [dget] in HC.
    destruct (str_eqb $"/source" k) eqn:HE; [|discriminate]. apply str_eqb_eq in HE as <-.
    destruct s as [name url|]; [|discriminate].
    destruct (mem_str SINGLE_SHA_256 _) eqn:HM; [|discriminate]. apply mem_str_In in HM.
    destruct (sha_of_source N $"/source" name url) as [sha|e] eqn:HS; [|destruct e; discriminate]. injection HC as <-.
    exists var, name, url, sha. repeat split; auto.
  - right. destruct (collect_hashes N _ []) as [l|] eqn:HCo; cbn [then_] in H; [|discriminate].
    pose proof (hashes_NoDup _ _ [] _ (NoDup_nil _) HCo) as HNDl. apply hashes_collected in HCo as (C1 & _ & C3).
    assert (forall path name url, In (path, (name, url)) (n_order N (http_sources tbl)) <-> is_archive tbl path name url) as HIo.
    { intros path name url. rewrite <- http_sources_In. split; intros HH.
      - eapply Permutation_in; [apply HP|exact HH].
      - eapply Permutation_in; [apply Permutation_sym, HP|exact HH]. }
    assert (forall path name url, is_archive tbl path name url -> append_to_path path $"/sha256" = path ++ $"/sha256") as HA.
    { intros path name url HI. apply source_sha. rewrite Forall_forall in HK. apply HK. apply (in_map fst) in HI. exact HI. }
    exists l. split; [|split; [exact HNDl|split]].
    + apply hashes_written; auto. intros s t HI. apply C1 in HI as [[]|(path & name & url & HI & _ & ->)].
      apply HIo in HI. rewrite (HA _ _ _ HI). destruct path; discriminate.
    + intros s t HI. apply C1 in HI as [[]|(path & name & url & HI & HCS & ->)]. apply HIo in HI.
      exists path, name, url. split; auto. split; auto. apply (HA _ _ _ HI).
    + intros path name url HI. rewrite <- (HA _ _ _ HI). apply HIo in HI. apply C3 in HI. unfold dkeys in HI.
      apply in_map_iff in HI as ((s & t) & HE & HI). cbn [fst] in HE. subst s. exists t. exact HI.
Qed.

(** * Failing steps do not report success *)
Definition fails {A} (s : step A) : Prop := s <> Stop (Exit SUCCESS).
Lemma fails_go {A} (a : A) : fails (Go a). Proof. discriminate. Qed.
Lemma fails_then {A B} (s : step A) (k : A -> step B) : fails s -> (forall a, fails (k a)) -> fails (then_ s k).
Proof. unfold fails. destruct s; cbn [then_]; auto. intros H _ X. apply H. congruence. Qed.
Lemma fails_lift {A} (x : res A) : fails (lift x).
Proof. destruct x; discriminate. Qed.
Lemma fails_patch E p r : fails (exit_on_failed_patch E p r).
Proof. unfold exit_on_failed_patch. destruct (patch E p r) as [[[|]|] ?]; discriminate. Qed.
Lemma fails_number E inc r : fails (update_build_num E inc r).
Proof.
  unfold update_build_num. destruct (get_value E (r_root r) $"/build" None None) as [v|e]; [|destruct e; discriminate].
  apply fails_then; [destruct inc; [apply fails_lift|discriminate]|]. intros [|]; [|apply fails_patch].
  apply fails_then; [apply fails_lift|]. intros a. destruct (as_int a); [apply fails_patch|discriminate].
Qed.
Lemma fails_version E t r : fails (update_version E t r).
Proof.
  unfold update_version. apply fails_then; [apply fails_lift|]. intros old.
  assert (fails (then_ (lift (contains_value (r_root r) VERSION)) (fun has : bool =>
      exit_on_failed_patch E (edit_payload (if has then $"replace" else $"add") VERSION (JStr t)) r))) as HF
    by (apply fails_then; [apply fails_lift|intros; apply fails_patch]).
  destruct old as [[]| |]; try discriminate. exact HF.
Qed.
Lemma fails_hashes E N r : fails (update_sha256 E N r).
Proof.
  unfold update_sha256. apply fails_then; [apply fails_lift|]. intros tbl. destruct (is_nil tbl); [discriminate|].
  apply fails_then.
  - unfold check_hash_var. destruct (filter _ _) as [|var [|]]; try discriminate. destruct (length tbl =? 1); [|discriminate].
    destruct (dget SOURCE tbl) as [[name url|]|]; try discriminate. destruct (mem_str _ _); [|discriminate].
    destruct (sha_of_source N SOURCE name url) as [|[]]; discriminate.
  - intros [r1|]; [discriminate|]. apply fails_then.
    + generalize (n_order N (http_sources tbl)) as l. intros l. generalize (@nil (str * str)) as acc.
      induction l as [|[path [name url]] l IH]; intros acc; cbn [collect_hashes]; [discriminate|].
      destruct (sha_of_source N path name url) as [|[]]; try discriminate. apply IH.
    + intros l. revert r. induction l as [|[s t] l IH]; intros r; cbn [write_hashes]; [discriminate|].
      apply fails_then; [apply fails_lift|]. intros has. apply fails_then; [apply fails_patch|]. auto.
Qed.
Lemma fails_steps E N variants o content : fails (bump_steps E N variants o content).
Proof.
  unfold bump_steps. destruct (new_recipe E _) as [r|]; [|discriminate].
  apply fails_then; [apply fails_number|]. intros r1. destruct (b_target o); [|discriminate].
  apply fails_then; [apply fails_lift|]. intros _. apply fails_then; [apply fails_version|]. intros. apply fails_hashes.
Qed.

(** * C57 *)
Lemma steps_bumped E N variants o content r' : (forall l, Permutation (n_order N l) l) ->
  bump_steps E N variants o content = Go r' ->
  exists r, new_recipe E (pre_process_remove_hash_type variants content) = Ok r /\ bumped E N o r r'.
Proof.
  intros HP. unfold bump_steps, bumped. destruct (new_recipe E _) as [r|]; [|discriminate].
  intros H. exists r. split; auto. destruct (update_build_num E (b_build_num o) r) as [r1|] eqn:HB; cbn [then_] in H; [|discriminate].
  apply number_done in HB. destruct (b_target o) as [target|].
  - destruct (get_value E (r_root r1) VERSION (Some JNull) (sub_vars r1)) as [v|] eqn:HG; cbn [lift then_] in H; [|discriminate].
    destruct (update_version E target r1) as [r2|] eqn:HV; cbn [then_] in H; [|discriminate].
    apply version_done in HV. apply hash_done in H; auto. exists r1, r2. split; [exact HB|]. split; [eauto|]. auto.
  - injection H as <-. auto.
Qed.
Lemma options_spec o : match b_target o with Some [] => true | _ => false end || (b_interval o <=? 0)%Z = false /\
  negb (b_build_num o) && match b_target o with None => true | Some _ => false end = false <-> valid_options o.
Proof.
  unfold valid_options. rewrite orb_false_iff, Z.leb_gt, andb_false_iff, negb_false_iff.
  destruct (b_target o) as [[|c t]|]; intuition (try congruence; try discriminate).
Qed.
Lemma c57_effects E N variants o file written f effs : bump_recipe E N variants o file written = (f, effs) ->
  (forall l, Permutation (n_order N l) l) ->
  (effs = [] /\ f <> Exit SUCCESS)
  \/ (valid_options o /\ exists content r r', file = ReadOk content
        /\ new_recipe E (pre_process_remove_hash_type variants content) = Ok r /\ bumped E N o r r'
        /\ if b_dry_run o then f = Exit SUCCESS /\ effs = [Print (render E r')]
           else effs = [Write (render E r')] /\ f = match written with None => Exit SUCCESS | Some e => Raise e end).
Proof.
  intros H HP. unfold bump_recipe in H.
  destruct (match b_target o with Some [] => true | _ => false end || (b_interval o <=? 0)%Z) eqn:H1.
  { injection H as <- <-. left. split; [auto|discriminate]. }
  destruct (negb (b_build_num o) && match b_target o with None => true | Some _ => false end) eqn:H2.
  { injection H as <- <-. left. split; [auto|discriminate]. }
  assert (valid_options o) as HV by (apply options_spec; auto).
  destruct file as [content| |e]; try (injection H as <- <-; left; split; [auto|discriminate]).
  destruct (bump_steps E N variants o content) as [r'|f'] eqn:HS.
  - right. split; auto. destruct (steps_bumped _ _ _ _ _ _ HP HS) as (r & HR & HB). exists content, r, r'. split; auto. split; auto. split; auto.
    destruct (b_dry_run o); injection H as <- <-; auto.
  - injection H as <- <-. left. split; auto.
    intros ->. apply (fails_steps E N variants o content HS).
Qed.
