(** C50 and C90, in order (proofs only). *)
From Verif Require Import Lemmas PathProofs PathProofs2 DepsProofs DepsProofs2 DepsSpec2.

Lemma json_iter_members v l : json_iter v = Ok l <-> members_of v l.
Proof.
  unfold json_iter. split.
  - destruct v as [[| | | |s]|l0|d]; try discriminate; intros [= <-]; constructor.
  - intros H. inversion H; reflexivity.
Qed.
Lemma sanitize_none x : sanitize_dep x = Ok None <-> empty_entry x.
Proof.
  unfold sanitize_dep, empty_entry. split.
  - destruct x as [[| | | |t]|l|d]; try discriminate; [auto|]. intros H. right. exists t. split; [reflexivity|].
    destruct (is_nil (strip t)) eqn:N; [|discriminate]. apply is_nil_true in N. apply trims_strip in N as (a & b & -> & A & B & _).
    cbn [app]. intros c I. apply in_app_or in I as [I|I]; auto.
  - intros [->|(t & -> & B)]; [reflexivity|]. assert (strip t = []) as ->; [|reflexivity]. apply trims_strip. exists t, []. rewrite app_nil_r.
    split; [reflexivity|]. split; [exact B|]. split; [intros c []|]. split; intros c u E; [|destruct u]; discriminate.
Qed.
Lemma sanitize_some x s : sanitize_dep x = Ok (Some s) <-> entry_text x s.
Proof.
  split; [intros H; exact (sanitize_inv _ _ H)|]. intros (t & -> & T & N). apply trims_strip in T. unfold sanitize_dep. rewrite T.
  destruct s; [contradiction|reflexivity].
Qed.
Lemma members_iff MS r package path sec section : package_path path -> forall l k ds,
  section_dependencies MS r package path sec section k l = Ok ds <-> members_listed MS r package path sec section k l ds.
Proof.
  intros HP. induction l as [|x l IH]; intros k ds; cbn [section_dependencies].
  - split; [intros [= <-]; constructor|intros H; inversion H; reflexivity].
  - assert (append_to_path path ($"/requirements/" ++ sec ++ $"/" ++ str_of_nat k) = below path ($"/requirements/" ++ sec ++ $"/" ++ str_of_nat k)) as AP.
    { change ($"/requirements/" ++ sec ++ $"/" ++ str_of_nat k) with (cSL :: $"requirements/" ++ sec ++ $"/" ++ str_of_nat k). apply package_path_below. exact HP. }
    assert (below path ($"/requirements/" ++ sec ++ $"/" ++ str_of_nat k) <> []) as BN.
    { change ($"/requirements/" ++ sec ++ $"/" ++ str_of_nat k) with (cSL :: $"requirements/" ++ sec ++ $"/" ++ str_of_nat k). apply below_nonempty. }
    split.
    + destruct (sanitize_dep x) as [[s|]|] eqn:SD; [| |discriminate]; cbn [bind].
      * cbv zeta. rewrite AP, fetch_selector by exact BN. cbn [bind].
        destruct (section_dependencies MS r package path sec section (S k) l) as [rest|] eqn:SR; [|discriminate]. cbn [bind]. intros [= <-].
        apply sanitize_some in SD. apply (ml_entry _ _ _ _ _ _ k x l s); [exact SD| |apply IH; exact SR].
        unfold dependency_for. cbn [d_by d_path d_type d_data d_sel]. split; [reflexivity|]. split; [reflexivity|]. split; [reflexivity|]. split; [apply parsed_data|reflexivity].
      * intros H. apply sanitize_none in SD. apply ml_empty; [exact SD|]. apply IH. exact H.
    + intros H. inversion H as [|? ? ? ? HE HL|? ? ? s d ? HE HD HL]; subst.
      * apply sanitize_none in HE. rewrite HE. cbn [bind]. apply IH. exact HL.
      * apply sanitize_some in HE. rewrite HE. cbn [bind]. cbv zeta. rewrite AP, fetch_selector by exact BN. cbn [bind].
        apply IH in HL. rewrite HL. cbn [bind]. destruct HD as (H1 & H2 & H3 & H4 & H5). destruct d as [by_ pa ty da se]. cbn [d_by d_path d_type d_data d_sel] in *. subst.
        do 3 f_equal. eapply parsed_unique; [apply parsed_data|exact H4].
Qed.
Lemma sections_iff MS r package path : package_path path -> forall reqs ds,
  package_sections MS r package path reqs = Ok ds <-> sections_in_order MS r package path reqs ds.
Proof.
  intros HP. induction reqs as [|[k v] reqs IH]; intros ds; cbn [package_sections].
  - split; [intros [= <-]; constructor|intros H; inversion H; reflexivity].
  - split.
    + destruct k as [| | | |sec]; try discriminate. destruct (str_to_dependency_section sec) as [section|] eqn:SS.
      * destruct (json_iter v) as [l|] eqn:JI; [|discriminate]. cbn [bind].
        destruct (section_dependencies MS r package path sec section 0 l) as [ds0|] eqn:SD; [|discriminate]. cbn [bind].
        destruct (package_sections MS r package path reqs) as [rest|] eqn:PS; [|discriminate]. cbn [bind]. intros [= <-].
        apply section_spells in SS. apply json_iter_members in JI. apply (sl_section _ _ _ _ sec section v l); [exact SS|exact JI|apply members_iff; assumption|apply IH; reflexivity].
      * intros H. apply sl_other; [|apply IH; exact H]. intros x SP. apply section_spells in SP. congruence.
    + intros H. inversion H as [|sec ? ? ? HN HL|sec section ? l ? ds0 ds1 SP MO ML HL]; subst.
      * destruct (str_to_dependency_section sec) as [section|] eqn:SS; [apply section_spells in SS; destruct (HN _ SS)|]. apply IH. exact HL.
      * apply section_spells in SP. rewrite SP. apply json_iter_members in MO. rewrite MO. cbn [bind]. apply members_iff in ML; [|exact HP]. rewrite ML. cbn [bind].
        apply IH in HL. rewrite HL. reflexivity.
Qed.
Lemma package_iff E MS r package path ds : package_path path -> package_dependencies E MS r package path = Ok ds <-> dependencies_of E MS r package path ds.
Proof.
  intros HP. unfold package_dependencies, dependencies_of.
  assert (append_to_path path $"/requirements" = below path $"/requirements") as -> by (apply (package_path_below path $"requirements" HP)).
  change (sub_vars r) with (Some (r_schema r, r_vars r)).
  destruct (get_value E (r_root r) (below path $"/requirements") (Some (JDict [])) (Some (r_schema r, r_vars r))) as [v|].
  - cbn [bind]. destruct v as [| |reqs]; try (split; [discriminate|intros (reqs & [=] & _)]).
    rewrite sections_iff by exact HP. split; [eauto|]. intros (reqs' & [= <-] & H). exact H.
  - cbn [bind]. split; [discriminate|intros (reqs & [=] & _)].
Qed.
Lemma all_iff E MS r tbl : Forall (fun kv => package_path (snd kv)) tbl -> forall m, all_package_dependencies E MS r tbl = Ok m <->
  Forall2 (fun kv ke => fst ke = fst kv /\ dependencies_of E MS r (fst kv) (snd kv) (snd ke)) tbl m.
Proof.
  induction 1 as [|[k p] tbl HP HF IH]; intros m; cbn [all_package_dependencies].
  - split; [intros [= <-]; constructor|intros H; inversion H; reflexivity].
  - cbn [snd] in HP. split.
    + destruct (package_dependencies E MS r k p) as [ds|] eqn:PD; [|discriminate]. cbn [bind].
      destruct (all_package_dependencies E MS r tbl) as [rest|] eqn:AD; [|discriminate]. cbn [bind]. intros [= <-].
      constructor; [|apply IH; reflexivity]. cbn [fst snd]. split; [reflexivity|]. apply package_iff; assumption.
    + intros H. inversion H as [|? [k' ds] ? rest (HK & HD) HL]; subst. cbn [fst snd] in HK, HD. subst k'. apply package_iff in HD; [|exact HP].
      rewrite HD. cbn [bind]. apply IH in HL. rewrite HL. reflexivity.
Qed.
Lemma c50_in_order E MS r m : get_all_dependencies E MS r = Ok m <->
  exists root tbl rd l, get_package_names_to_path E r = Ok ((root, $"/") :: tbl) /\ m = (root, rd) :: l
    /\ dependencies_of E MS r root $"/" rd
    /\ Forall2 (fun kv ke => fst ke = fst kv /\ exists own, snd ke = own ++ map (owned_by (fst kv)) rd
                 /\ dependencies_of E MS r (fst kv) (snd kv) own) tbl l.
Proof.
  assert (forall root tbl m0, get_package_names_to_path E r = Ok ((root, $"/") :: tbl) ->
    all_package_dependencies E MS r ((root, $"/") :: tbl) = Ok m0 ->
    exists rd l0, m0 = (root, rd) :: l0 /\ add_top_level_dependencies (root_package ((root, $"/") :: tbl)) m0 = (root, rd) :: map (extended rd) l0
      /\ dependencies_of E MS r root $"/" rd /\ Forall2 (fun kv ke => fst ke = fst kv /\ dependencies_of E MS r (fst kv) (snd kv) (snd ke)) tbl l0) as K.
  { intros root tbl m0 GT AD. destruct (names_table _ _ _ GT) as (n & HS & HD). cbn [map snd] in HS. injection HS as HS.
    assert (Forall (fun kv : prim * str => package_path (snd kv)) tbl) as HPP.
    { rewrite Forall_forall. intros kv Hkv. apply (in_map snd) in Hkv. rewrite HS in Hkv. apply in_map_iff in Hkv as (i & <- & _). right. exists i. reflexivity. }
    apply all_iff in AD; [|constructor; [left; reflexivity|exact HPP]]. inversion AD as [|? [k rd] ? l0 (HK & HR) HL]; subst. cbn [fst snd] in HK, HR. subst k.
    exists rd, l0. split; [reflexivity|]. split; [|split; assumption].
    assert (root_package ((root, $"/") :: tbl) = root) as ->.
    { unfold root_package. cbn [fold_left fst snd]. rewrite str_eqb_refl. clear -HPP HS. 
      assert (Forall (fun kv : prim * str => snd kv <> $"/") tbl) as HN.
      { rewrite Forall_forall. intros kv Hkv HE. apply (in_map snd) in Hkv. rewrite HS, HE in Hkv. apply in_map_iff in Hkv as (i & Hi & _).
        destruct (output_path_not_root _ Hi). }
      clear HS HPP. induction HN as [|kv t H1 H2 IH]; auto. cbn [fold_left]. apply str_eqb_neq in H1. rewrite H1. exact IH. }
    specialize (HD [] (root, $"/") tbl eq_refl). cbn [app fst] in HD.
    assert (Forall (fun kv : prim * list dependency => prim_eqb (fst kv) root = false) l0) as HD'.
    { clear -HL HD. induction HL as [|x y t t' (H1 & _) H2 IH]; constructor; apply Forall_cons_iff in HD as (A & B); [rewrite H1; auto|auto]. }
    pose proof (c50_table root rd [] l0 HD') as HT. cbn [app map] in HT. exact HT. }
  assert (forall rd tbl l0, Forall2 (fun (kv : prim * str) ke => fst ke = fst kv /\ dependencies_of E MS r (fst kv) (snd kv) (snd ke)) tbl l0 ->
    Forall2 (fun kv ke => fst ke = fst kv /\ exists own, snd ke = own ++ map (owned_by (fst kv)) rd /\ dependencies_of E MS r (fst kv) (snd kv) own) tbl (map (extended rd) l0)) as K2.
  { intros rd tbl l0 H. induction H as [|x y t t' (H1 & H2) H3 IH]; cbn [map]; constructor; auto. unfold extended. cbn [fst snd]. split; auto. exists (snd y). rewrite H1. auto. }
  split.
  - unfold get_all_dependencies. destruct (get_package_names_to_path E r) as [tbl0|] eqn:GT; [|discriminate]. cbn [bind].
    destruct (names_table _ _ _ GT) as (n & HS & HD). destruct tbl0 as [|[root p0] tbl]; [discriminate|]. cbn [map snd] in HS. injection HS as -> HS.
    destruct (all_package_dependencies E MS r ((root, $"/") :: tbl)) as [m0|] eqn:AD; [|discriminate]. cbn [bind]. intros [= <-].
    destruct (K root tbl m0 eq_refl AD) as (rd & l0 & -> & -> & HR & HL). exists root, tbl, rd, (map (extended rd) l0). split; [reflexivity|]. split; [reflexivity|]. split; [exact HR|].
    apply K2. exact HL.
  - intros (root & tbl & rd & l & GT & -> & HR & HL). unfold get_all_dependencies. rewrite GT. cbn [bind].
    assert (exists l0, Forall2 (fun (kv : prim * str) ke => fst ke = fst kv /\ dependencies_of E MS r (fst kv) (snd kv) (snd ke)) tbl l0 /\ l = map (extended rd) l0) as (l0 & HL0 & ->).
    { clear -HL. induction HL as [|x y t t' (H1 & own & H2 & H4) H3 (l0 & IH1 & IH2)]; [exists []; split; [constructor|reflexivity]|].
      exists ((fst x, own) :: l0). split; [constructor; auto|]. subst t'. cbn [map]. unfold extended at 2. cbn [fst snd]. f_equal. rewrite <- H1, (surjective_pairing y) at 1. rewrite H1, H2. reflexivity. }
    destruct (names_table _ _ _ GT) as (n & HS & _). cbn [map snd] in HS. injection HS as HS.
    assert (Forall (fun kv : prim * str => package_path (snd kv)) tbl) as HPP.
    { rewrite Forall_forall. intros kv Hkv. apply (in_map snd) in Hkv. rewrite HS in Hkv. apply in_map_iff in Hkv as (i & <- & _). right. exists i. reflexivity. }
    assert (all_package_dependencies E MS r ((root, $"/") :: tbl) = Ok ((root, rd) :: l0)) as AD.
    { apply all_iff; [constructor; [left; reflexivity|exact HPP]|]. constructor; [split; [reflexivity|exact HR]|exact HL0]. }
    rewrite AD. cbn [bind]. destruct (K root tbl _ GT AD) as (rd' & l0' & E0 & E1 & _). injection E0 as <- <-. rewrite E1. reflexivity.
Qed.

(** * Paths *)
Lemma size_iff E r path n : path <> [] -> size_at E r path n <-> (let! v := get_value E (r_root r) path (Some (JList [])) None in json_len v) = Ok n.
Proof.
  intros NE. destruct (str_to_stack_path_ok path NE) as (st & Hst). unfold size_at, get_value, lookup. rewrite Hst. cbn [bind].
  destruct (traverse (r_root r) st) as [x|].
  - split.
    + intros [([=] & _)|(v & l & -> & MO & <-)]. cbn [bind]. inversion MO; subst; cbn [json_len]; rewrite ?map_length; reflexivity.
    + destruct (get_value_node E x None) as [v|]; [|discriminate]. cbn [bind]. intros H. right.
      destruct v as [[| | | |s]|l|d]; try discriminate; injection H as <-; eexists; eexists; (split; [reflexivity|]); (split; [constructor|]); rewrite ?map_length; reflexivity.
  - cbn [bind json_len]. split.
    + intros [(_ & ->)|(v & l & [=] & _)]. reflexivity.
    + intros [= <-]. left. auto.
Qed.
Lemma concat_res_iff {A B} (f : A -> res (list B)) l : forall out, concat_res f l = Ok out <-> exists parts, Forall2 (fun x y => f x = Ok y) l parts /\ out = concat parts.
Proof.
  induction l as [|x l IH]; intros out; cbn [concat_res].
  - split; [intros [= <-]; exists []; split; [constructor|reflexivity]|]. intros (parts & H & ->). inversion H. reflexivity.
  - split.
    + destruct (f x) as [a|] eqn:F; [|discriminate]. cbn [bind]. destruct (concat_res f l) as [b|] eqn:C; [|discriminate]. cbn [bind]. intros [= <-].
      destruct (proj1 (IH b) eq_refl) as (parts & H & ->). exists (a :: parts). split; [constructor; assumption|reflexivity].
    + intros (parts & H & ->). inversion H as [|? a ? parts' F H']; subst. rewrite F. cbn [bind].
      assert (concat_res f l = Ok (concat parts')) as -> by (apply IH; eauto). reflexivity.
Qed.
Lemma section_paths_iff E r prefix sec out : section_paths E r prefix sec = Ok out <->
  exists k, size_at E r (prefix ++ $"/requirements/" ++ sec) k /\ out = numbered (prefix ++ $"/requirements/" ++ sec) k.
Proof.
  assert (prefix ++ $"/requirements/" ++ sec <> []) as NE by (intros H; apply app_eq_nil in H as (_ & H); discriminate).
  unfold section_paths, numbered. cbv zeta. split.
  - intros H. destruct (get_value E (r_root r) (prefix ++ $"/requirements/" ++ sec) (Some (JList [])) None) as [v|] eqn:G; [|discriminate]. cbn [bind] in H.
    destruct (json_len v) as [n|] eqn:N; [|discriminate]. injection H as <-. exists n. split; [|reflexivity]. apply size_iff; [exact NE|]. rewrite G. exact N.
  - intros (k & S & ->). apply size_iff in S; [|exact NE].
    destruct (get_value E (r_root r) (prefix ++ $"/requirements/" ++ sec) (Some (JList [])) None) as [v|]; [|discriminate]. cbn [bind] in *. rewrite S. reflexivity.
Qed.
Definition sized (E : env) (r : recipe) (places : list str) (out : list str) : Prop :=
  exists sizes, Forall2 (size_at E r) places sizes /\ out = concat (map (fun pk => numbered (fst pk) (snd pk)) (combine places sizes)).
Lemma combine_app {A B} (a1 : list A) : forall (b1 : list B) a2 b2, length a1 = length b1 -> combine (a1 ++ a2) (b1 ++ b2) = combine a1 b1 ++ combine a2 b2.
Proof. induction a1 as [|x a1 IH]; intros [|y b1] a2 b2 H; try discriminate; [reflexivity|]. cbn [app combine]. rewrite IH by (injection H as H; exact H). reflexivity. Qed.
Lemma two_length {A B} (R : A -> B -> Prop) l l' : Forall2 R l l' -> length l = length l'.
Proof. induction 1; [reflexivity|]. cbn [length]. f_equal. assumption. Qed.
Lemma sized_app E r p1 p2 out : sized E r (p1 ++ p2) out <-> exists o1 o2, sized E r p1 o1 /\ sized E r p2 o2 /\ out = o1 ++ o2.
Proof.
  unfold sized. split.
  - intros (sizes & F & ->). apply Forall2_app_inv_l in F as (s1 & s2 & F1 & F2 & ->).
    exists (concat (map (fun pk => numbered (fst pk) (snd pk)) (combine p1 s1))), (concat (map (fun pk => numbered (fst pk) (snd pk)) (combine p2 s2))).
    split; [eauto|]. split; [eauto|]. rewrite combine_app by (apply (two_length _ _ _ F1)). rewrite map_app, concat_app. reflexivity.
  - intros (o1 & o2 & (s1 & F1 & ->) & (s2 & F2 & ->) & ->). exists (s1 ++ s2). split; [apply Forall2_app; assumption|].
    rewrite combine_app by (apply (two_length _ _ _ F1)). rewrite map_app, concat_app. reflexivity.
Qed.
Lemma scan_iff E r prefix out : scan_requirements E r prefix = Ok out <-> sized E r (map (fun sec => prefix ++ $"/requirements/" ++ sec) (requirement_sections (r_schema r))) out.
Proof.
  unfold scan_requirements. rewrite req_sections_spec, concat_res_iff. unfold sized. generalize (requirement_sections (r_schema r)) as secs. intros secs. split.
  - intros (parts & F & ->). induction F as [|sec part secs parts H F (sizes & F' & IH)]; [exists []; split; [constructor|reflexivity]|].
    apply section_paths_iff in H as (k & S & ->). exists (k :: sizes). split; [constructor; assumption|]. cbn [map combine concat fst snd]. rewrite IH. reflexivity.
  - intros (sizes & F & ->). revert sizes F. induction secs as [|sec secs IH]; intros sizes F; cbn [map] in F.
    + exists []. inversion F. split; [constructor|reflexivity].
    + inversion F as [|? k ? sizes' S F']; subst. destruct (IH _ F') as (parts & FP & EP). exists (numbered (prefix ++ $"/requirements/" ++ sec) k :: parts).
      split; [constructor; [apply section_paths_iff; eauto|exact FP]|]. cbn [map combine concat fst snd]. rewrite EP. reflexivity.
Qed.
Lemma c90_in_order E r out : get_dependency_paths E r = Ok out <->
  exists n sizes, size_at E r $"/outputs" n /\ Forall2 (size_at E r) (section_places (r_schema r) n) sizes
    /\ out = concat (map (fun pk => numbered (fst pk) (snd pk)) (combine (section_places (r_schema r) n) sizes)).
Proof.
  assert (forall l out, concat_res (fun i => scan_requirements E r ($"/outputs/" ++ str_of_nat i)) l = Ok out <->
    sized E r (flat_map (fun scope => map (fun sec => scope ++ $"/requirements/" ++ sec) (requirement_sections (r_schema r))) (map (fun i => $"/outputs/" ++ str_of_nat i) l)) out) as K.
  { induction l as [|i l IH]; intros o; cbn [concat_res map flat_map].
    - split; [intros [= <-]; exists []; split; [constructor|reflexivity]|]. intros (sizes & F & ->). inversion F. reflexivity.
    - rewrite sized_app. split.
      + destruct (scan_requirements E r ($"/outputs/" ++ str_of_nat i)) as [a|] eqn:A; [|discriminate]. cbn [bind].
        destruct (concat_res _ l) as [b|] eqn:B; [|discriminate]. cbn [bind]. intros [= <-]. exists a, b. split; [apply scan_iff; exact A|]. split; [apply IH; reflexivity|reflexivity].
      + intros (a & b & A & B & ->). apply scan_iff in A. rewrite A. cbn [bind]. apply IH in B. rewrite B. reflexivity. }
  assert (forall n, (exists sizes, Forall2 (size_at E r) (section_places (r_schema r) n) sizes
    /\ out = concat (map (fun pk => numbered (fst pk) (snd pk)) (combine (section_places (r_schema r) n) sizes))) <->
    exists a b, scan_requirements E r [] = Ok a /\ concat_res (fun i => scan_requirements E r ($"/outputs/" ++ str_of_nat i)) (seq 0 n) = Ok b /\ out = a ++ b) as K2.
  { intros n. change (sized E r (section_places (r_schema r) n) out <-> exists a b, scan_requirements E r [] = Ok a /\ concat_res (fun i => scan_requirements E r ($"/outputs/" ++ str_of_nat i)) (seq 0 n) = Ok b /\ out = a ++ b).
    unfold section_places. cbn [flat_map]. rewrite sized_app. split; intros (a & b & A & B & ->); exists a, b.
    - split; [apply scan_iff; exact A|]. split; [apply K; exact B|reflexivity].
    - split; [apply scan_iff; exact A|]. split; [apply K; exact B|reflexivity]. }
  unfold get_dependency_paths. split.
  - intros H. destruct (scan_requirements E r []) as [a|] eqn:A; [|discriminate]. cbn [bind] in H.
    destruct (get_value E (r_root r) $"/outputs" (Some (JList [])) None) as [v|] eqn:G; [|discriminate]. cbn [bind] in H.
    destruct (json_len v) as [n|] eqn:N; [|discriminate]. cbn [bind] in H.
    destruct (concat_res _ (seq 0 n)) as [b|] eqn:B; [|discriminate]. cbn [bind] in H. injection H as <-.
    assert (size_at E r $"/outputs" n) as S by (apply size_iff; [discriminate|rewrite G; exact N]).
    exists n. destruct (proj2 (K2 n)) as (sizes & F & O); [exists a, b; auto|]. exists sizes. auto.
  - intros (n & sizes & S & F & O). destruct (proj1 (K2 n)) as (a & b & A & B & ->); [exists sizes; auto|].
    rewrite A. cbn [bind]. apply size_iff in S; [|discriminate].
    destruct (get_value E (r_root r) $"/outputs" (Some (JList [])) None) as [v|]; [|discriminate]. cbn [bind] in *. rewrite S. cbn [bind]. rewrite B. reflexivity.
Qed.
