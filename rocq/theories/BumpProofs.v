(** Proofs for C137: bump-recipe on a file in the canonical layout. *)
From Verif Require Import FrameProofs2 DepsProofs ServiceProofs CommandsProofs AnswerProofs PhaseProofs2 ValueProofs AboutProofs PathProofs PathProofs2 PatchProofs PatchProofs2 FrameProofs LayoutProofs8 CommandsProofs4 HashProofs BumpSpec PlainSpec.

(** * Positions *)
Lemma map_nth_middle {A} (f : A -> A) a x b : map_nth (length a) f (a ++ x :: b) = a ++ f x :: b.
Proof. induction a as [|y a IH]; cbn [length app map_nth]; [reflexivity|]. rewrite IH. reflexivity. Qed.
Lemma nth_middle {A} (a : list A) x b : nth_error (a ++ x :: b) (length a) = Some x.
Proof. induction a as [|y a IH]; cbn [length app nth_error]; [reflexivity|exact IH]. Qed.
Lemma v2p_middle A x B : is_comment x = false -> forall k,
  nth_error (virt_to_phys_aux k (A ++ x :: B)) (length (filter (fun n => negb (is_comment n)) A)) = Some (k + length A).
Proof.
  intros C. induction A as [|y A IH]; intros k; cbn [app virt_to_phys_aux filter length].
  - rewrite C. cbn [nth_error]. f_equal. lia.
  - destruct (is_comment y); cbn [negb length nth_error]; rewrite IH; f_equal; lia.
Qed.
Lemma elements_of A : length (filter (fun n => negb (is_comment n)) (map tree_of A)) = elements A.
Proof.
  unfold elements. induction A as [|x A IH]; cbn [map filter]; [reflexivity|].
  unfold is_comment in *. destruct x as [[|a c]| | | | | | |]; cbn [tree_of key_node n_value n_comment n_children is_sent is_nil negb andb length]; rewrite ?andb_false_r; cbn [negb length]; rewrite ?IH; reflexivity.
Qed.
Lemma not_called k A y : no_entry k A -> In y (map tree_of A) -> ~ called k y.
Proof.
  intros NE I C. apply in_map_iff in I as (x & <- & I). destruct (NE x I) as (H1 & H2). unfold called in C.
  destruct x; cbn [tree_of key_node n_value entry_key] in *; try discriminate C.
  - apply H1. injection C as ->. reflexivity.
  - apply H1. injection C as ->. reflexivity.
  - apply H1. injection C as ->. reflexivity.
  - apply H1. injection C as ->. reflexivity.
  - injection C as ->. exact (H2 c eq_refl).
Qed.
Lemma step_named k pre A x B n : n_children n = pre ++ A ++ x :: B -> isdigit k = false -> called k x ->
  (forall y, In y pre -> ~ called k y) -> (forall y, In y A -> ~ called k y) -> step_child n k = Some (length (pre ++ A), x).
Proof.
  intros HC D C H1 H2. unfold step_child. rewrite D, HC, app_assoc.
  rewrite (AboutProofs.find_first k (pre ++ A) x B C); [reflexivity|]. intros y I. apply in_app_iff in I as [I|I]; auto.
Qed.
Lemma step_numbered i A x B n : n_children n = A ++ x :: B -> isdigit i = true ->
  int_of i = length (filter (fun n => negb (is_comment n)) A) -> is_comment x = false -> n_lmf x = true -> step_child n i = Some (length A, x).
Proof.
  intros HC D I C L. unfold step_child. rewrite D, HC, I. unfold virt_to_phys. rewrite (v2p_middle A x B C 0). cbn [Nat.add].
  rewrite nth_middle, L. reflexivity.
Qed.

Lemma step_into n k p A x B q m f x' : n_children n = A ++ x :: B -> step_child n k = Some (length A, x) ->
  traverse_recurse x p = Some q -> node_at x q = Some m -> update_at q f x = x' ->
  traverse_recurse n (k :: p) = Some (length A :: q) /\ node_at n (length A :: q) = Some m
  /\ update_at (length A :: q) f n = with_lines n (A ++ x' :: B).
Proof.
  intros HC HS HT HN HU. cbn [traverse_recurse node_at update_at]. rewrite HS, HT, HC, nth_middle, map_nth_middle, HU.
  split; [reflexivity|]. split; [exact HN|]. destruct n. reflexivity.
Qed.
Definition not_there (p : list str) (pre : list node) : Prop :=
  pre = [] \/ exists k p', p = k :: p' /\ isdigit k = false /\ forall y, In y pre -> ~ called k y.
Lemma not_there_named k p pre : isdigit k = false -> not_there (k :: p) pre -> forall y, In y pre -> ~ called k y.
Proof. intros D [->|(k' & p' & E & _ & H)] y I; [destruct I|]. injection E as <- <-. auto. Qed.
Lemma not_there_numbered i p pre : isdigit i = true -> not_there (i :: p) pre -> pre = [].
Proof. intros D [->|(k' & p' & E & D' & H)]; [reflexivity|]. injection E as <- <-. congruence. Qed.
Lemma value_set_last p v v' xs xs' : value_set p v v' xs xs' -> p <> [] /\ isdigit (last p []) = false.
Proof.
  intros H. induction H as [k v v' A B D NE|k p v v' c cs cs' A B D NE H IH|i k p v v' key w c rest rest' A B D HI Dk HK H IH
    |i k p v v' key c cs rest rest' A B D HI Dk HK H IH]; (split; [discriminate|]).
  - exact D.
  - destruct IH as (N & L). destruct p; [congruence|exact L].
  - exact (proj2 IH).
  - exact (proj2 IH).
Qed.

Lemma value_set_at p v v' xs xs' : value_set p v v' xs xs' -> forall pre n, n_children n = pre ++ map tree_of xs -> not_there p pre ->
  exists q, traverse_recurse n p = Some q /\ node_at n q = Some (key_node (PStr (last p [])) [] [value_node v []])
  /\ update_at q (set_children [value_node v' []]) n = with_lines n (pre ++ map tree_of xs').
Proof.
  intros H. induction H as [k v v' A B D NE|k p v v' c cs cs' A B D NE H IH|i k p v v' key w c rest rest' A B D HI Dk HK H IH
    |i k p v v' key c cs rest rest' A B D HI Dk HK H IH]; intros pre n HC HP; rewrite map_app in HC; cbn [map] in HC; rewrite map_app; cbn [map].
  - pose proof (not_there_named _ _ _ D HP) as HN. rewrite !app_assoc. rewrite app_assoc in HC.
    exists [length (pre ++ map tree_of A)]. eapply step_into; [exact HC| |reflexivity|reflexivity|reflexivity].
    rewrite <- app_assoc in HC. eapply step_named; [exact HC|exact D|reflexivity|exact HN|]. intros y. apply not_called, NE.
  - pose proof (not_there_named _ _ _ D HP) as HN. rewrite !app_assoc. rewrite app_assoc in HC.
    destruct (IH [] (tree_of (ISection (PStr k) c cs)) eq_refl (or_introl eq_refl)) as (q & HT & HA & HU).
    assert (last (k :: p) [] = last p []) as -> by (destruct p; [destruct (proj1 (value_set_last _ _ _ _ _ H) eq_refl)|reflexivity]).
    exists (length (pre ++ map tree_of A) :: q). eapply step_into; [exact HC| |exact HT|exact HA|exact HU].
    rewrite <- app_assoc in HC. eapply step_named; [exact HC|exact D|reflexivity|exact HN|]. intros y. apply not_called, NE.
  - apply not_there_numbered in HP as ->; [|exact D]. cbn [app] in *.
    destruct (IH [key_node key c [value_node w c]] (tree_of (IMapScalar key w c rest)) eq_refl) as (q & HT & HA & HU).
    { right. exists k, p. split; [reflexivity|]. split; [exact Dk|]. intros y [<-|[]] C. unfold called in C. injection C as C. exact (HK C). }
    exists (length (map tree_of A) :: q). eapply step_into; [exact HC| |exact HT|exact HA|exact HU].
    eapply step_numbered; [exact HC|exact D|rewrite HI; symmetry; apply elements_of| |reflexivity].
    unfold is_comment. cbn [tree_of n_children is_nil]. apply andb_false_r.
  - apply not_there_numbered in HP as ->; [|exact D]. cbn [app] in *.
    destruct (IH [key_node key c (map tree_of cs)] (tree_of (IMapSection key c cs rest)) eq_refl) as (q & HT & HA & HU).
    { right. exists k, p. split; [reflexivity|]. split; [exact Dk|]. intros y [<-|[]] C. unfold called in C. injection C as C. exact (HK C). }
    exists (length (map tree_of A) :: q). eapply step_into; [exact HC| |exact HT|exact HA|exact HU].
    eapply step_numbered; [exact HC|exact D|rewrite HI; symmetry; apply elements_of| |reflexivity].
    unfold is_comment. cbn [tree_of n_children is_nil]. apply andb_false_r.
Qed.
Lemma value_set_document p v v' xs xs' : value_set p v v' xs xs' ->
  exists q, traverse_recurse (document xs) p = Some q /\ node_at (document xs) q = Some (key_node (PStr (last p [])) [] [value_node v []])
  /\ update_at q (set_children [value_node v' []]) (document xs) = document xs'.
Proof. intros H. exact (value_set_at _ _ _ _ _ H [] (document xs) eq_refl (or_introl eq_refl)). Qed.

(** * Edits *)
Lemma number_of_addresses cs root q : cs <> [] -> Forall component cs -> traverse_recurse root cs = Some q -> addresses root (path_text cs) q.
Proof.
  intros N C T. exists (rev cs ++ [ROOT_VALUE]). split; [apply stack_of_path; assumption|]. rewrite traverse_pos_components. exact T.
Qed.
Lemma contains_there root cs q : cs <> [] -> Forall component cs -> traverse_recurse root cs = Some q -> contains_value root (path_text cs) = Ok true.
Proof.
  intros N C T. pose proof (number_of_addresses cs root q N C T) as A. destruct (addresses_lookup _ _ _ A) as (m & _ & L).
  unfold lookup in L. unfold contains_value. destruct (str_to_stack_path (path_text cs)) as [st|]; [|discriminate]. cbn [bind]. rewrite L. reflexivity.
Qed.
Lemma edit_done E cs v v' xs xs' r (op : str) : value_set cs v v' xs xs' -> Forall component cs -> writes_plain E v' -> r_root r = document xs ->
  last cs [] <> $"-" -> op = $"replace" \/ op = $"add" ->
  exists r', exit_on_failed_patch E (edit_payload op (path_text cs) v') r = Go r' /\ r_root r' = document xs' /\ r_vars r' = r_vars r /\ r_schema r' = r_schema r.
Proof.
  intros HV HC HW HR HL Hop. destruct (value_set_last _ _ _ _ _ HV) as (N & D).
  destruct (value_set_document _ _ _ _ _ HV) as (q & HT & HN & HU). rewrite <- HR in HT, HN, HU.
  pose proof (number_of_addresses _ _ _ N HC HT) as HA.
  destruct (replace_key E cs v' r q _ _ HC HA HN eq_refl eq_refl HW) as (r' & HP & HT' & (_ & HS & HVa)).
  exists r'. split; [|repeat split; try assumption; rewrite HT'; exact HU].
  apply exit_patch_go. assert (path_text cs <> []) as NP by (destruct cs; [congruence|discriminate]).
  destruct Hop as [->| ->]; [exact HP|].
  rewrite (add_over_existing E (edit_payload $"add" (path_text cs) v') (edit_payload $"replace" (path_text cs) v') cs v' r q _ HC HL HA HN (or_introl D)
    (payload_add _ _ NP) (payload_replace _ _ NP)). exact HP.
Qed.
Lemma not_dash s : str_eqb s $"-" = false -> s <> $"-".
Proof. intros H ->. rewrite str_eqb_refl in H. discriminate. Qed.
Ltac comps := repeat (constructor; [split; [intros X; vm_compute in X; discriminate X|vm_compute; intuition discriminate]|]); constructor.
Lemma number_go E inc xs xs' r : number_bumped E inc xs xs' -> r_root r = document xs ->
  exists r', update_build_num E inc r = Go r' /\ r_root r' = document xs' /\ r_vars r' = r_vars r /\ r_schema r' = r_schema r.
Proof.
  intros ((b & HB) & n & HW & HV) HR. cbv zeta in HW, HV. unfold update_build_num. rewrite HR, HB.
  assert (Forall component [$"build"; $"number"]) as HC by comps.
  destruct (value_set_document _ _ _ _ _ HV) as (q & HT & HN & _).
  assert (BUILD_NUM = path_text [$"build"; $"number"]) as HP by reflexivity.
  assert (last [$"build"; $"number"] [] <> $"-") as HL by (apply not_dash; vm_compute; reflexivity).
  destruct inc; cbn [then_].
  - rewrite HP, (contains_there _ _ _ (proj1 (value_set_last _ _ _ _ _ HV)) HC HT). cbn [lift then_].
    rewrite (value_at E (document xs) _ q _ None None (number_of_addresses _ _ _ (proj1 (value_set_last _ _ _ _ _ HV)) HC HT) HN).
    change (get_value_node E (key_node (PStr (last [$"build"; $"number"] [])) [] [value_node (JInt n) []]) None) with (Ok (JInt n)).
    cbn [lift then_ as_int]. exact (edit_done E _ _ _ _ _ r $"replace" HV HC HW HR HL (or_introl eq_refl)).
  - rewrite HP. exact (edit_done E _ _ _ _ _ r $"add" HV HC HW HR HL (or_intror eq_refl)).
Qed.
Lemma dset_place k (v : json) vars vars' : NoDup (map fst vars) -> variable_set k v vars vars' -> dset k v vars = vars' /\ map fst vars' = map fst vars.
Proof.
  intros ND (A & w & B & -> & ->). split; [|rewrite !map_app; reflexivity].
  induction A as [|[k' u] A IH]; cbn [app dset].
  - rewrite str_eqb_refl. reflexivity.
  - cbn [app map fst] in ND. inversion ND as [|? ? NI ND']; subst. destruct (str_eqb k k') eqn:Q.
    + apply str_eqb_eq in Q as ->. exfalso. apply NI. rewrite map_app. apply in_app_iff. right. left. reflexivity.
    + rewrite (IH ND'). reflexivity.
Qed.
Lemma dget_there k (w : json) vars : NoDup (map fst vars) -> In (k, w) vars -> dget k vars = Some w.
Proof.
  induction vars as [|[k' u] d IH]; intros ND I; [destruct I|]. cbn [dget]. cbn [map fst] in ND. inversion ND as [|? ? NI ND']; subst.
  destruct I as [I|I].
  - injection I as -> ->. rewrite str_eqb_refl. reflexivity.
  - destruct (str_eqb k k') eqn:Q; [|apply IH; assumption]. apply str_eqb_eq in Q as ->. exfalso. apply NI. apply in_map_iff. exists (k', w). auto.
Qed.
Lemma dget_is_in k (w : json) (vars : list (str * json)) : dget k vars = Some w -> In (k, w) vars.
Proof.
  induction vars as [|[k' u] d IH]; cbn [dget]; [discriminate|]. destruct (str_eqb k k') eqn:Q; intros H; [|right; auto].
  apply str_eqb_eq in Q as ->. injection H as ->. left. reflexivity.
Qed.
Lemma version_go E target xs vars xs' vars' r : version_bumped E target xs vars xs' vars' -> NoDup (map fst vars) ->
  r_root r = document xs -> r_vars r = vars ->
  exists r', update_version E target r = Go r' /\ r_root r' = document xs' /\ r_vars r' = vars' /\ r_schema r' = r_schema r /\ map fst vars' = map fst vars.
Proof.
  intros (_ & HV) ND HR HVa. unfold update_version, get_variable. rewrite HVa. destruct HV as [(w & I & Nw & -> & HS)|(HN & -> & HW & old & HS)].
  - rewrite (dget_there _ _ _ ND I). cbn [lift then_]. destruct (dset_place _ _ _ _ ND HS) as (HD & HF).
    exists (set_variable $"version" (JStr target) r).
    split; [destruct w as [[]| |]; try reflexivity; destruct (Nw eq_refl)|].
    split; [exact HR|]. split; [|split; [reflexivity|exact HF]]. unfold set_variable. cbn [mark_modified with_vars r_vars]. rewrite HVa. exact HD.
  - assert (Forall component [$"package"; $"version"]) as HC by comps.
    destruct (value_set_document _ _ _ _ _ HS) as (q & HT & _ & _).
    assert (VERSION = path_text [$"package"; $"version"]) as HP by reflexivity.
    assert (last [$"package"; $"version"] [] <> $"-") as HL by (apply not_dash; vm_compute; reflexivity).
    assert (exists r', then_ (lift (contains_value (r_root r) VERSION)) (fun has : bool =>
       exit_on_failed_patch E (edit_payload (if has then $"replace" else $"add") VERSION (JStr target)) r) = Go r'
       /\ r_root r' = document xs' /\ r_vars r' = vars /\ r_schema r' = r_schema r /\ map fst vars = map fst vars) as G.
    { rewrite HP, HR, (contains_there _ _ _ (proj1 (value_set_last _ _ _ _ _ HS)) HC HT). cbn [lift then_].
      destruct (edit_done E _ _ _ _ _ r $"replace" HS HC HW HR HL (or_introl eq_refl)) as (r' & H1 & H2 & H3 & H4). exists r'. rewrite HVa in H3. auto. }
    destruct (dget $"version" vars) as [w|] eqn:HG; cbn [lift then_]; [|exact G].
    rewrite (HN w (dget_is_in _ _ _ HG)). exact G.
Qed.

(** * Checksums *)
Lemma same_sources E r r' ig : r_root r = r_root r' -> r_vars r = r_vars r' -> r_schema r = r_schema r' -> from_recipe E r ig = from_recipe E r' ig.
Proof. unfold from_recipe, get_recipe_name, sub_vars. intros -> -> ->. reflexivity. Qed.
Lemma same_references E r r' k : r_root r = r_root r' -> r_vars r = r_vars r' -> r_schema r = r_schema r' -> get_variable_references E k r = get_variable_references E k r'.
Proof. unfold get_variable_references. intros -> -> ->. reflexivity. Qed.
Lemma path_snoc cs c : path_text (cs ++ [c]) = path_text cs ++ cSL :: c.
Proof. induction cs as [|x cs IH]; cbn [app path_text]; [rewrite app_nil_r; reflexivity|]. rewrite IH, <- app_assoc. reflexivity. Qed.
Lemma sums_go E N l xs xs' : sums_written E N l xs xs' -> Forall source_key (map fst l) -> NoDup (map fst l) ->
  forall acc, (forall k, In k (map fst l) -> ~ In (k ++ $"/sha256") (dkeys acc)) ->
  exists out, collect_hashes N l acc = Go (acc ++ out)
  /\ forall r, r_root r = document xs -> exists r', write_hashes E out r = Go r' /\ r_root r' = document xs' /\ r_vars r' = r_vars r /\ r_schema r' = r_schema r.
Proof.
  induction 1 as [xs|cs name url t old l xs xs1 xs2 HC HS HW HV H IH]; intros HK ND acc HD.
  - exists []. cbn [collect_hashes write_hashes]. rewrite app_nil_r. split; [reflexivity|]. intros r HR. exists r. auto.
  - cbn [map fst] in *. inversion HK as [|? ? K1 K2]; subst. inversion ND as [|? ? N1 N2]; subst. cbn [collect_hashes].
    unfold checksum in HS. unfold sha_of_source. rewrite HS. rewrite (source_sha _ K1).
    rewrite (CommandsProofs4.dset_fresh _ t acc (HD _ (or_introl eq_refl))).
    destruct (IH K2 N2 (acc ++ [(path_text cs ++ $"/sha256", t)])) as (out & HG & HR).
    { intros k I I'. unfold dkeys in I'. rewrite map_app in I'. apply in_app_iff in I' as [I'|[I'|[]]]; [exact (HD k (or_intror I) I')|].
      cbn [fst] in I'. apply app_inv_tail in I'. subst k. exact (N1 I). }
    exists ((path_text cs ++ $"/sha256", t) :: out). split; [refine (eq_trans HG _); rewrite <- app_assoc; reflexivity|].
    intros r Hr. cbn [write_hashes]. change (path_text cs ++ $"/sha256") with (path_text cs ++ cSL :: $"sha256"). rewrite <- path_snoc.
    destruct (value_set_document _ _ _ _ _ HV) as (q & HT & _ & _).
    assert (Forall component (cs ++ [$"sha256"])) as HC' by (apply Forall_app; split; [exact HC|comps]).
    rewrite Hr, (contains_there _ _ _ (proj1 (value_set_last _ _ _ _ _ HV)) HC' HT). cbn [lift then_].
    assert (last (cs ++ [$"sha256"]) [] <> $"-") as HL by (rewrite last_last; apply not_dash; vm_compute; reflexivity).
    destruct (edit_done E _ _ _ _ _ r $"replace" HV HC' HW Hr HL (or_introl eq_refl)) as (r1 & -> & R1 & V1 & S1). cbn [then_].
    destruct (HR r1 R1) as (r' & HWr & R2 & V2 & S2). exists r'. split; [exact HWr|]. split; [exact R2|]. split; congruence.
Qed.
Lemma archives_are tbl : archives tbl = http_sources tbl.
Proof. reflexivity. Qed.
Lemma archive_keys tbl : NoDup (dkeys tbl) -> NoDup (map fst (http_sources tbl)) /\ (forall k, In k (map fst (http_sources tbl)) -> In k (dkeys tbl)).
Proof.
  unfold http_sources. induction tbl as [|[k s] tbl IH]; intros ND; [split; [constructor|intros k []]|].
  cbn [dkeys map fst] in ND. inversion ND as [|? ? NI ND']; subst. destruct (IH ND') as (I1 & I2). cbn [flat_map snd fst].
  destruct s as [name url|]; cbn [app map fst dkeys].
  - split; [constructor; [intros I; exact (NI (I2 _ I))|exact I1]|]. intros k' [<-|I]; [left; reflexivity|right; apply I2, I].
  - split; [exact I1|]. intros k' I. right. apply I2, I.
Qed.
Lemma hash_variable (vars : list (str * json)) (k : str) : NoDup (map fst vars) ->
  (filter (fun v => mem_str v COMMON_HASH_VAR_NAMES) (map fst vars) = [k] <->
   In k sum_names /\ In k (map fst vars) /\ forall k' : str, In k' sum_names -> In k' (map fst vars) -> k' = k).
Proof.
  intros ND. set (l := filter (fun v => mem_str v COMMON_HASH_VAR_NAMES) (map fst vars)).
  assert (forall x, In x l <-> In x (map fst vars) /\ In x sum_names) as HI
    by (intros x; unfold l; rewrite filter_In, mem_str_In; reflexivity).
  assert (NoDup l) as HN by (apply NoDup_filter, ND). clearbody l. split.
  - intros ->. destruct (proj1 (HI k) (or_introl eq_refl)) as (H1 & H2). split; [exact H2|]. split; [exact H1|].
    intros k' J1 J2. destruct (proj2 (HI k') (conj J2 J1)) as [E|[]]. congruence.
  - intros (H1 & H2 & H3). destruct l as [|x [|y l]].
    + destruct (proj2 (HI k) (conj H2 H1)).
    + f_equal. destruct (proj1 (HI x) (or_introl eq_refl)) as (J1 & J2). apply H3; assumption.
    + exfalso. destruct (proj1 (HI x) (or_introl eq_refl)) as (J1 & J2). destruct (proj1 (HI y) (or_intror (or_introl eq_refl))) as (J3 & J4).
      rewrite (H3 x J2 J1), (H3 y J4 J3) in HN. inversion HN as [|? ? NI _]; subst. apply NI. left. reflexivity.
Qed.
Lemma sums_done E N xs vars xs' vars' r : (forall l, Permutation (n_order N l) l) -> sums_bumped E N xs vars xs' vars' -> NoDup (map fst vars) ->
  r_root r = document xs -> r_vars r = vars -> r_schema r = SV0 ->
  exists r', update_sha256 E N r = Go r' /\ r_root r' = document xs' /\ r_vars r' = vars' /\ r_schema r' = SV0.
Proof.
  intros HPe (tbl & HF & HC) ND HR HVa HSc. unfold update_sha256.
  rewrite (same_sources E r (recipe_with xs vars) true HR HVa HSc), HF. cbn [lift then_].
  destruct (from_recipe_keys _ _ _ _ HF) as (HK & HND & _).
  assert (forall k, get_variable_references E k r = get_variable_references E k (recipe_with xs vars)) as HG
    by (intros k; apply same_references; assumption).
  destruct HC as [(k & name & url & t & (H1 & H2 & H3 & -> & H5) & HS & -> & HV)|(HNo & -> & HW)].
  - cbn [is_nil]. unfold check_hash_var, list_variables. rewrite HVa. cbn [recipe_with r_vars] in H2, H3.
    change (dkeys vars) with (map fst vars). rewrite (proj2 (hash_variable vars k ND) (conj H1 (conj H2 H3))).
    change (length [($"/source", SHttp name url)] =? 1) with true. cbv iota.
    change (dget SOURCE [($"/source", SHttp name url)]) with (Some (SHttp name url)). cbv iota. rewrite HG. unfold SINGLE_SHA_256.
    rewrite (proj2 (mem_str_In _ _) H5). unfold checksum in HS. unfold sha_of_source, SOURCE. rewrite HS. cbn [then_].
    destruct (dset_place _ _ _ _ ND HV) as (HD & _). exists (set_variable k (JStr t) r). split; [reflexivity|]. split; [exact HR|].
    split; [|exact HSc]. unfold set_variable. cbn [mark_modified with_vars r_vars]. rewrite HVa. exact HD.
  - rewrite archives_are in HW. destruct (is_nil tbl) eqn:HNil.
    { destruct tbl; [|discriminate]. change (http_sources []) with (@nil (str * (str * str))) in HW.
      rewrite (Permutation_nil (Permutation_sym (HPe []))) in HW. inversion HW; subst. exists r. auto. }
    assert (check_hash_var E N tbl r = Go None) as ->.
    { unfold check_hash_var, list_variables. rewrite HVa. change (dkeys vars) with (map fst vars).
      destruct (filter (fun v => mem_str v COMMON_HASH_VAR_NAMES) (map fst vars)) as [|k [|]] eqn:HFi; try reflexivity.
      apply (hash_variable vars k ND) in HFi as (H1 & H2 & H3).
      destruct (length tbl =? 1) eqn:HLe; [|reflexivity]. apply Nat.eqb_eq in HLe. destruct tbl as [|[p s] [|]]; try discriminate.
      unfold SOURCE. cbn [dget]. destruct (str_eqb $"/source" p) eqn:HE; [|reflexivity]. apply str_eqb_eq in HE as <-.
      destruct s as [name url|]; [|reflexivity]. rewrite HG. destruct (mem_str SINGLE_SHA_256 _) eqn:HM; [|reflexivity].
      apply mem_str_In in HM. exfalso. apply (HNo k name url). repeat split; assumption. }
    cbn [then_]. destruct (archive_keys tbl HND) as (A1 & A2).
    pose proof (Permutation_map fst (HPe (http_sources tbl))) as HPm.
    destruct (sums_go E N _ _ _ HW) with (acc := @nil (str * str)) as (out & HCo & HWr).
    + rewrite Forall_forall in *. intros k I. apply HK, A2. exact (Permutation_in _ HPm I).
    + exact (Permutation_NoDup (Permutation_sym HPm) A1).
    + intros k _ [].
    + rewrite HCo. cbn [then_ app]. destruct (HWr r HR) as (r' & H1 & H2 & H3 & H4). exists r'. split; [exact H1|]. split; [exact H2|]. split; congruence.
Qed.

(** * The command *)
Lemma c137 E N variants o written xs vars xs' vars' : (forall v, In v variants <-> In v HASH_TYPE_VARIANTS) ->
  (forall l, Permutation (n_order N l) l) -> valid_options o ->
  canonical_recipe E xs vars -> canonical_recipe E xs' vars' -> no_mark (join NLs (recipe_page xs vars)) ->
  file_bumped E N o xs vars xs' vars' ->
  bump_recipe E N variants o (ReadOk (join NLs (recipe_page xs vars))) written
  = let text := join NLs (recipe_page xs' vars') in
    if b_dry_run o then (Exit SUCCESS, [Print text]) else (match written with None => Exit SUCCESS | Some e => Raise e end, [Write text]).
Proof.
  intros HVr HP HO HCa HCa' HM (xs1 & HB & HT). cbv zeta. unfold bump_recipe. destruct (proj2 (options_spec o) HO) as (-> & ->).
  assert (pre_process_remove_hash_type variants (join NLs (recipe_page xs vars)) = join NLs (recipe_page xs vars)) as HPre.
  { pose proof (c107 variants (join NLs (recipe_page xs vars)) [] HVr (conj HM I)) as H. unfold with_marks in H. cbn [map concat] in H. rewrite !app_nil_r in H. exact H. }
  unfold bump_steps. rewrite HPre, (read_back E xs vars HCa). set (r0 := {| r_init := _ |}).
  assert (NoDup (map fst vars)) as ND by apply HCa.
  destruct (number_go E (b_build_num o) xs xs1 r0 HB eq_refl) as (r1 & -> & R1 & V1 & S1). cbn [then_].
  change (r_vars r0) with vars in V1. change (r_schema r0) with SV0 in S1.
  destruct (b_target o) as [target|].
  - destruct HT as (xs2 & vars2 & HVe & HSu). destruct (proj1 HVe) as (old & HOld).
    assert (get_value E (r_root r1) VERSION (Some JNull) (sub_vars r1) = Ok old) as -> by (unfold sub_vars; rewrite R1, V1, S1; exact HOld).
    cbn [lift then_]. destruct (version_go E target xs1 vars xs2 vars2 r1 HVe ND R1 V1) as (r2 & -> & R2 & V2 & S2 & F2). cbn [then_].
    rewrite S1 in S2. assert (NoDup (map fst vars2)) as ND2 by (rewrite F2; exact ND).
    destruct (sums_done E N xs2 vars2 xs' vars' r2 HP HSu ND2 R2 V2 S2) as (r3 & -> & R3 & V3 & S3).
    rewrite (rendered E r3 xs' vars' R3 S3 V3 HCa'). reflexivity.
  - destruct HT as (-> & ->). rewrite (rendered E r1 xs1 vars R1 S1 V1 HCa'). reflexivity.
Qed.
Lemma line_set p v v' xs xs' : value_set p v v' xs xs' -> forall i, value_line_differs v v' (flat_map (layout i) xs) (flat_map (layout i) xs').
Proof.
  induction 1 as [k v v' A B D NE|k p v v' c cs cs' A B D NE H IH|i k p v v' key w c rest rest' A B D HI Dk HK H IH
    |i k p v v' key c cs rest rest' A B D HI Dk HK H IH]; intros j; rewrite !flat_map_app; cbn [flat_map layout].
  - exists (flat_map (layout j) A), j, (key_text (PStr k)), (flat_map (layout j) B). split; reflexivity.
  - destruct (IH (j + 2)) as (b & i & t & a & -> & ->).
    exists (flat_map (layout j) A ++ line (spaces j) (key_text (PStr k) ++ $":") c :: b), i, t, (a ++ flat_map (layout j) B).
    split; rewrite <- !app_assoc; cbn [app]; rewrite <- !app_assoc; reflexivity.
  - destruct (IH (j + 2)) as (b & i' & t & a & -> & ->).
    exists (flat_map (layout j) A ++ line (spaces j ++ $"- ") (key_text key ++ $": " ++ scalar_text w) c :: b), i', t, (a ++ flat_map (layout j) B).
    split; rewrite <- !app_assoc; cbn [app]; rewrite <- !app_assoc; reflexivity.
  - destruct (IH (j + 2)) as (b & i' & t & a & -> & ->).
    exists (flat_map (layout j) A ++ line (spaces j ++ $"- ") (key_text key ++ $":") c :: flat_map (layout (j + 4)) cs ++ b), i', t, (a ++ flat_map (layout j) B).
    split; rewrite <- !app_assoc; cbn [app]; rewrite <- !app_assoc; cbn [app]; rewrite <- ?app_assoc; reflexivity.
Qed.
Lemma page_app a b : page (a ++ b) = page a ++ page b.
Proof. unfold page. apply flat_map_app. Qed.
Lemma page_set p v v' xs xs' : value_set p v v' xs xs' -> value_line_differs v v' (page xs) (page xs').
Proof.
  intros H. assert (exists A x x' B, xs = A ++ x :: B /\ xs' = A ++ x' :: B /\ value_set p v v' (A ++ x :: B) (A ++ x' :: B)
    /\ value_line_differs v v' (layout 0 x) (layout 0 x') /\ (forall c, x <> IComment c) /\ (forall c, x' <> IComment c)) as (A & x & x' & B & -> & -> & _ & HD & N1 & N2).
  { pose proof H as H0. destruct H as [k v v' A B D NE|k p v v' c cs cs' A B D NE H|i k p v v' key w c rest rest' A B D HI Dk HK H
    |i k p v v' key c cs rest rest' A B D HI Dk HK H]; exists A; do 2 eexists; exists B; (split; [reflexivity|]); (split; [reflexivity|]); (split; [exact H0|]); (split; [|split; intros ?; discriminate]).
    - exists [], 0, (key_text (PStr k)), []. split; reflexivity.
    - destruct (line_set _ _ _ _ _ H 2) as (b & i & t & a & E1 & E2). cbn [layout]. change (0 + 2) with 2. rewrite E1, E2.
      exists (line (spaces 0) (key_text (PStr k) ++ $":") c :: b), i, t, a. split; reflexivity.
    - destruct (line_set _ _ _ _ _ H 2) as (b & i' & t & a & E1 & E2). cbn [layout]. change (0 + 2) with 2. rewrite E1, E2.
      exists (line (spaces 0 ++ $"- ") (key_text key ++ $": " ++ scalar_text w) c :: b), i', t, a. split; reflexivity.
    - destruct (line_set _ _ _ _ _ H 2) as (b & i' & t & a & E1 & E2). cbn [layout]. change (0 + 2) with 2. rewrite E1, E2.
      exists (line (spaces 0 ++ $"- ") (key_text key ++ $":") c :: flat_map (layout (0 + 4)) cs ++ b), i', t, a.
      split; cbn [app]; rewrite <- app_assoc; reflexivity. }
  rewrite !page_app. destruct HD as (b & i & t & a & E1 & E2).
  assert (forall y, (forall c, y <> IComment c) -> page (y :: B) = layout 0 y ++ [] :: page B) as HPg.
  { intros y Ny. unfold page. cbn [flat_map]. rewrite <- app_assoc. f_equal. destruct y; try reflexivity. destruct (Ny c eq_refl). }
  rewrite (HPg x N1), (HPg x' N2), E1, E2. exists (page A ++ b), i, t, (a ++ [] :: page B). split; rewrite <- !app_assoc; reflexivity.
Qed.
