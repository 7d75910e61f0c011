(** Proofs about the commands: version, checksums and exit codes of bump-recipe. *)
From Verif Require Import FrameProofs FrameProofs2 DepsProofs ServiceProofs CommandsProofs CommandsProofs2 CommandsSpec.

(** * C74 *)
Lemma number_frame E inc r r1 d ds : d <> $"build" -> isdigit d = false -> number_step E inc r r1 ->
  walk (r_root r1) (d :: ds) = walk (r_root r) (d :: ds) /\ r_vars r1 = r_vars r.
Proof.
  intros HN HD (_ & p & q & Ha & HP & Hq).
  assert (exists v, sets q (path_text [$"build"; $"number"]) v) as (v & Hs).
  { destruct (inc && _).
    - destruct Hq as (n & _ & ->). exists (JInt (n + 1)). right. reflexivity.
    - subst q. exists (JInt 0). left. reflexivity. }
  split; [|eapply set_vars; eauto]. eapply set_walk; eauto; [components|].
  exists [], $"build", d, [$"number"], ds. repeat split; auto. discriminate.
Qed.
Lemma hash_vars E N r r' : hash_step E N r r' -> dget $"version" (r_vars r') = dget $"version" (r_vars r).
Proof.
  intros (tbl & HF & [(-> & ->)|[(var & name & url & sha & _ & _ & HV & _ & _ & ->)|(l & HT & _ & HK & _)]]); auto.
  - change (r_vars (set_variable var (JStr sha) r)) with (dset var (JStr sha) (r_vars r)). apply dget_dset_other.
    cbn [In] in HV. intros HH. subst var. intuition discriminate.
  - destruct (texts_walk E l $"build" [] ltac:(discriminate) eq_refl r r' HT) as (_ & ->); auto.
    intros s t HI. destruct (HK s t HI) as (k & name & url & HA & _ & ->). exists k. split; auto.
    destruct (from_recipe_keys _ _ _ _ HF) as (HKs & _). rewrite Forall_forall in HKs. apply HKs. apply (in_map fst) in HA. exact HA.
Qed.
Lemma c74 E N o target r r' : bumped E N o r r' -> b_target o = Some target ->
  (forall v, dget $"version" (r_vars r) = Some v -> v <> JNull -> dget $"version" (r_vars r') = Some (JStr target))
  /\ ((dget $"version" (r_vars r) = None \/ dget $"version" (r_vars r) = Some JNull) ->
      settable E (r_root r) $"/package" $"version" (JStr target) (PStr target) ->
      get_value E (r_root r') $"/package/version" None None = Ok (JStr target)).
Proof.
  unfold bumped. intros HB HT. rewrite HT in HB. destruct HB as (r1 & r2 & H1 & _ & H2 & H3).
  assert (forall ds, walk (r_root r1) ($"package" :: ds) = walk (r_root r) ($"package" :: ds)) as HW
    by (intros ds; apply (number_frame E (b_build_num o) r r1 $"package" ds); auto; discriminate).
  assert (r_vars r1 = r_vars r) as HVr by (apply (number_frame E (b_build_num o) r r1 $"package" []); auto; discriminate).
  rewrite (hash_vars E N r2 r' H3). unfold version_step in H2. rewrite HVr in H2. split.
  - intros v Hv Hn. rewrite Hv in H2.
    assert (match v with JNull => true | _ => false end = false) as HE by (destruct v as [[]| |]; auto; contradiction).
    rewrite HE in H2. subst r2. apply dget_dset_same.
  - intros Hv HS.
    assert (exists p q, asks p q /\ sets q $"/package/version" (JStr target) /\ patch E p r1 = (Ok true, r2)) as (p & q & Ha & Hq & HP).
    { destruct Hv as [Hv|Hv]; rewrite Hv in H2; exact H2. }
    assert (get_value E (r_root r2) $"/package/version" None None = Ok (JStr target)) as HG.
    { change ($"/package/version") with (path_text ([$"package"] ++ [$"version"])) in *.
      eapply (set_reads E p q [$"package"] $"version" (JStr target) (PStr target) r1 r2); auto; try discriminate; [cbn [app]; components|].
      unfold settable in *.
      assert (forall cs, cs <> [] -> Forall component ($"package" :: cs) -> lookup (r_root r1) (path_text ($"package" :: cs)) = lookup (r_root r) (path_text ($"package" :: cs))) as HL.
      { intros cs _ HC. rewrite !lookup_walk; auto; discriminate. }
      unfold key_at in *. change (path_text [$"package"] ++ [cSL] ++ $"version") with (path_text [$"package"; $"version"]).
      change ($"/package" ++ [cSL] ++ $"version") with (path_text [$"package"; $"version"]) in HS.
      rewrite HL; [|discriminate|components]. destruct HS as [HS|(HS1 & HS2 & HS3)]; [left; exact HS|right; split; [exact HS1|split; [|exact HS3]]].
      destruct HS2 as (n & Hn & Hm). exists n. split; auto. rewrite <- Hn. change ($"/package") with (path_text [$"package"]).
      rewrite !lookup_walk; auto; try discriminate; components. }
    rewrite <- HG. change ($"/package/version") with (path_text [$"package"; $"version"]).
    apply value_walk; [discriminate|components|].
    rewrite (hash_walk E N r2 r' $"package" [$"version"]); auto; discriminate.
Qed.

(** * C75 *)
Definition src (i : nat) : list str := [$"source"; str_of_nat i].
Lemma src_sha i : path_text (src i) ++ $"/sha256" = path_text (src i ++ [$"sha256"]).
Proof. rewrite path_snoc. reflexivity. Qed.
Lemma src_components i : Forall component (src i ++ [$"sha256"]).
Proof. unfold src. cbn [app]. constructor; [split; [discriminate|vm_compute; intuition discriminate]|]. constructor; [apply source_component|components]. Qed.
Lemma src_index i j ds root root' : i <> j -> kept_update root root' (src i) \/ kept_update root root' (src i ++ [$"sha256"]) ->
  walk root' (src j ++ ds) = walk root (src j ++ ds).
Proof.
  intros HN HK. unfold src in *. destruct (number_text i) as (Di & Vi), (number_text j) as (Dj & Vj).
  assert (exists rest, kept_update root root' ([$"source"] ++ str_of_nat i :: rest)) as (rest & HK') by (destruct HK; [exists []|exists [$"sha256"]]; auto).
  apply (kept_index root root' [$"source"] (str_of_nat i) rest (str_of_nat j) ds); auto. congruence.
Qed.
Lemma src_inj i j : path_text (src i ++ [$"sha256"]) = path_text (src j ++ [$"sha256"]) -> i = j.
Proof.
  rewrite <- !src_sha. intros H. apply app_inv_tail in H. unfold src in H. cbn [path_text] in H. rewrite !app_nil_r in H.
  injection H as H. destruct (number_text i) as (_ & <-), (number_text j) as (_ & <-). congruence.
Qed.
Lemma settable_walk E root root' i v w : (forall ds, walk root' (src i ++ ds) = walk root (src i ++ ds)) ->
  settable E root (path_text (src i)) $"sha256" v w -> settable E root' (path_text (src i)) $"sha256" v w.
Proof.
  intros HW HS. unfold settable, key_at in *. rewrite <- !path_snoc in *.
  pose proof (src_components i) as HC. assert (Forall component (src i)) as HC' by (apply Forall_app in HC; tauto).
  assert (lookup root' (path_text (src i ++ [$"sha256"])) = lookup root (path_text (src i ++ [$"sha256"]))) as H1
    by (rewrite !lookup_walk; auto; discriminate).
  assert (lookup root' (path_text (src i)) = lookup root (path_text (src i))) as H2.
  { rewrite !lookup_walk; auto; try discriminate. specialize (HW []). rewrite !app_nil_r in HW. exact HW. }
  rewrite H1, H2. exact HS.
Qed.
Lemma texts_read E l : forall r r', texts_set E l r r' -> NoDup (map fst l) ->
  (forall s t, In (s, t) l -> exists i, s = path_text (src i ++ [$"sha256"]) /\ settable E (r_root r) (path_text (src i)) $"sha256" (JStr t) (PStr t)) ->
  (forall j ds, ~ In (path_text (src j ++ [$"sha256"])) (map fst l) -> walk (r_root r') (src j ++ ds) = walk (r_root r) (src j ++ ds))
  /\ forall s t, In (s, t) l -> get_value E (r_root r') s None None = Ok (JStr t).
Proof.
  induction 1 as [r|s t l r r1 r2 p q Ha Hq HP HT IH]; intros HN HS.
  - split; auto. intros s t [].
  - cbn [map fst] in HN. inversion HN as [|x y HN1 HN2]; subst. destruct (HS s t (or_introl eq_refl)) as (i & -> & Hi).
    destruct (set_reads E p q (src i) $"sha256" (JStr t) (PStr t) r r1 Ha Hq ltac:(discriminate) (src_components i) eq_refl ltac:(discriminate) Hi HP) as (HK & HG).
    destruct IH as (I1 & I2); auto.
    { intros s' t' HI. destruct (HS s' t' (or_intror HI)) as (j & -> & Hj). exists j. split; auto.
      eapply settable_walk; [|exact Hj]. intros ds. eapply src_index; [|exact HK]. intros <-. apply HN1. apply (in_map fst) in HI. exact HI. }
    split.
    + intros j ds HNI. rewrite I1; [|intros HI; apply HNI; right; exact HI].
      eapply src_index; [|exact HK]. intros <-. apply HNI. left. reflexivity.
    + intros s' t' [[= <- <-]|HI]; auto. eapply eq_trans; [|exact HG].
      apply (value_walk E (r_root r1) (r_root r2) (src i ++ [$"sha256"])); [discriminate|apply src_components|]. apply I1. exact HN1.
Qed.
Lemma c75 E N r r' tbl : update_sha256 E N r = Go r' -> (forall l, Permutation (n_order N l) l) -> from_recipe E r true = Ok tbl ->
  (forall path name url t, is_archive tbl path name url -> checksum N path name url t ->
     settable E (r_root r) path $"sha256" (JStr t) (PStr t)) ->
  forall path name url, is_archive tbl path name url -> exists t, checksum N path name url t /\
    (get_value E (r_root r') (path ++ $"/sha256") None None = Ok (JStr t)
     \/ exists var, tbl = [(path, SHttp name url)] /\ In var [$"sha256"; $"hash"; $"hash_val"; $"hash_value"]
          /\ In (path ++ $"/sha256") (get_variable_references E var r) /\ dget var (r_vars r') = Some (JStr t)).
Proof.
  intros HU HPm HF HS path name url HA. apply hash_done in HU; auto. destruct HU as (tbl' & HF' & HU). rewrite HF in HF'. injection HF' as <-.
  destruct (from_recipe_keys _ _ _ _ HF) as (HKs & HNDk & HOne).
  destruct HU as [(-> & _)|[(var & nm & u & sha & HTb & HCk & HV & _ & HRf & ->)|(l & HT & HND & HL1 & HL2)]].
  - destruct HA.
  - subst tbl. destruct HA as [[= <- <- <-]|[]]. exists sha. split; auto. right. exists var.
    split; auto. split; auto. split; auto. apply dget_dset_same.
  - destruct (HL2 path name url HA) as (t & HI). exists t.
    destruct (HL1 _ _ HI) as (path' & name' & url' & HA' & HC' & HE). apply app_inv_tail in HE as <-.
    assert (name' = name /\ url' = url) as (-> & ->).
    { unfold is_archive in *.
      assert (forall (d : sdict source) k a b, NoDup (dkeys d) -> In (k, a) d -> In (k, b) d -> a = b) as HU.
      { induction d as [|[k' x] d IHd]; intros k a b HND' Ia Ib; [destruct Ia|]. cbn [dkeys map fst] in HND'. inversion HND' as [|? ? N1 N2]; subst.
        destruct Ia as [Ia|Ia], Ib as [Ib|Ib].
        - congruence.
        - exfalso. apply N1. apply (in_map fst) in Ib. injection Ia as -> ->. exact Ib.
        - exfalso. apply N1. apply (in_map fst) in Ia. injection Ib as -> ->. exact Ia.
        - eapply IHd; eauto. }
      pose proof (HU tbl _ _ _ HNDk HA HA') as HH. injection HH as <- <-. auto. }
    split; auto. left.
    assert (source_key path) as Hk by (rewrite Forall_forall in HKs; apply HKs; apply (in_map fst) in HA; exact HA).
    destruct Hk as [->|(i & ->)].
    + assert (length tbl = 1) as HL by (apply HOne; apply (in_map fst) in HA; exact HA).
      destruct tbl as [|kv [|]]; try discriminate. destruct HA as [->|[]].
      assert (forall s0 t0, In (s0, t0) l -> s0 = $"/source/sha256") as HAll.
      { intros s0 t0 H0. destruct (HL1 _ _ H0) as (p0 & n0 & u0 & [[= <- _ _]|[]] & _ & ->). reflexivity. }
      destruct l as [|[s1 t1] [|[s2 t2] l]]; [destruct HI| |].
      * destruct HI as [[= -> ->]|[]]. inversion HT as [|? ? ? ? r1 ? p q Ha Hq HP HT']; subst. inversion HT'; subst.
        change (path_text [$"source"] ++ $"/sha256") with (path_text ([$"source"] ++ [$"sha256"])) in *.
        refine (proj2 (set_reads E p q [$"source"] $"sha256" (JStr t) (PStr t) _ _ Ha Hq _ _ eq_refl _ _ HP)); try discriminate; [cbn [app]; components|].
        eapply HS; [left; reflexivity|exact HC'].
      * exfalso. cbn [map fst] in HND. inversion HND as [|? ? N1 _]; subst. apply N1. left.
        rewrite (HAll s1 t1), (HAll s2 t2); cbn [In]; auto.
    + assert (forall s0 t0, In (s0, t0) l -> exists j, s0 = path_text (src j ++ [$"sha256"]) /\ settable E (r_root r) (path_text (src j)) $"sha256" (JStr t0) (PStr t0)) as HAll.
      { intros s0 t0 H0. destruct (HL1 _ _ H0) as (p0 & n0 & u0 & HA0 & HC0 & ->).
        assert (source_key p0) as Hk0 by (rewrite Forall_forall in HKs; apply HKs; apply (in_map fst) in HA0; exact HA0).
        destruct Hk0 as [->|(j & ->)].
        - exfalso. assert (length tbl = 1) as HL by (apply HOne; apply (in_map fst) in HA0; exact HA0).
          destruct tbl as [|kv [|]]; try discriminate. destruct HA as [HA|[]], HA0 as [HA0|[]]. subst kv.
          assert (path_text [$"source"] = $"/source/" ++ (str_of_nat i ++ [])) as HE1 by (injection HA0; congruence).
          discriminate HE1.
        - exists j. split; [apply src_sha|]. eapply HS; eauto. }
      destruct (texts_read E l r r' HT HND HAll) as (_ & HR). eapply HR. exact HI.
Qed.
