(** C113, C114 (proofs only). *)
From Verif Require Export ScriptsProofs.
From Verif Require Import Lemmas PatchProofs PathProofs RenderProofs RegexProofs RenderProofs2 LayoutProofs6 LayoutProofs7 Scripts ScriptsSpec.

(** * The summary *)
Lemma directory_iff r dir : directory_of r = Ok dir <-> ran_in r dir.
Proof.
  unfold directory_of, ran_in. split.
  - destruct (assoc_prim (PStr $"info") r) as [[ | |i]|]; try discriminate. intros H. exists i. split; [reflexivity|].
    destruct (assoc_prim (PStr $"directory") i) as [[p| |]|]; try discriminate. destruct p; try discriminate. injection H as <-. reflexivity.
  - intros (i & -> & ->). reflexivity.
Qed.
Lemma pulled d f : forall fs (sec : sdict json), dget f (fold_left (fun sec f => match assoc_prim (PStr f) d with Some v => dset f v sec | None => sec end) fs sec) =
  if in_dec (list_eq_dec ascii_dec) f fs then match assoc_prim (PStr f) d with Some v => Some v | None => dget f sec end else dget f sec.
Proof.
  induction fs as [|g fs IH]; intros sec; cbn [fold_left]; [reflexivity|]. rewrite IH.
  destruct (list_eq_dec ascii_dec g f) as [->|N].
  - assert ((if in_dec (list_eq_dec ascii_dec) f (f :: fs) then match assoc_prim (PStr f) d with Some v => Some v | None => dget f sec end else dget f sec)
      = match assoc_prim (PStr f) d with Some v => Some v | None => dget f sec end) as ->.
    { destruct (in_dec (list_eq_dec ascii_dec) f (f :: fs)) as [|N]; [reflexivity|]. exfalso. apply N. left. reflexivity. }
    destruct (assoc_prim (PStr f) d) as [v|]; [rewrite dget_dset_same|]; destruct (in_dec (list_eq_dec ascii_dec) f fs); reflexivity.
  - assert (dget f (match assoc_prim (PStr g) d with Some v => dset g v sec | None => sec end) = dget f sec) as ->.
    { destruct (assoc_prim (PStr g) d); [apply dget_dset_other; congruence|reflexivity]. }
    destruct (in_dec (list_eq_dec ascii_dec) f fs) as [I|I]; destruct (in_dec (list_eq_dec ascii_dec) f (g :: fs)) as [J|J]; try reflexivity; exfalso.
    + apply J. right. exact I.
    + destruct J as [J|J]; contradiction.
Qed.
Lemma last_snoc f l y : last_value f (l ++ [y]) = match assoc_prim (PStr f) (snd y) with Some v => Some v | None => last_value f l end.
Proof.
  induction l as [|x l IH]; cbn [app last_value]; [destruct (assoc_prim (PStr f) (snd y)); reflexivity|]. rewrite IH.
  destruct (assoc_prim (PStr f) (snd y)); reflexivity.
Qed.
Definition shows (f : str) (l : list (str * jobject)) : option json := if in_dec (list_eq_dec ascii_dec) f pulled_fields then last_value f l else None.
Definition entry_ok (e : test_entry) (rc rd : list (str * jobject)) : Prop :=
  te_count e = length rc + length rd /\ (forall f, dget f (te_convert e) = shows f rc) /\ (forall f, dget f (te_dry e) = shows f rd).
Definition names (pname : str -> str) (l : list (str * jobject)) : list str := map (fun y => pname (fst y)) l.
Definition tallied (pname : str -> str) (rc rd : list (str * jobject)) (t : sdict test_entry) : Prop :=
  dkeys t = firsts (names pname (rc ++ rd))
  /\ forall test e, dget test t = Some e -> entry_ok e (runs_named pname test rc) (runs_named pname test rd).
Lemma pull_shows f y l sec : (forall f, dget f sec = shows f l) -> dget f (pull_fields (snd y) sec) = shows f (l ++ [y]).
Proof.
  intros H. unfold pull_fields. change FIELDS_TO_PULL with pulled_fields. rewrite pulled, H. unfold shows. rewrite last_snoc.
  destruct (in_dec (list_eq_dec ascii_dec) f pulled_fields); reflexivity.
Qed.
Lemma named_snoc pname test l y : runs_named pname test (l ++ [y]) = runs_named pname test l ++ (if list_eq_dec ascii_dec (pname (fst y)) test then [y] else []).
Proof. unfold runs_named. rewrite filter_app. cbn [filter]. destruct (list_eq_dec ascii_dec (pname (fst y)) test); reflexivity. Qed.
Lemma named_none pname test l : ~ In test (names pname l) -> runs_named pname test l = [].
Proof.
  induction l as [|y l IH]; intros N; [reflexivity|]. cbn [names map In] in N. unfold runs_named. cbn [filter].
  destruct (list_eq_dec ascii_dec (pname (fst y)) test) as [E|_]; [exfalso; apply N; left; exact E|]. apply IH. intros I. apply N. right. exact I.
Qed.
Lemma get_none {V} x (t : sdict V) : dget x t = None <-> ~ In x (dkeys t).
Proof.
  unfold dkeys. induction t as [|[k v] t IH]; cbn [dget map fst In]; [tauto|]. destruct (str_eqb x k) eqn:Q.
  - apply str_eqb_eq in Q as ->. split; [discriminate|tauto].
  - apply str_eqb_neq in Q. rewrite IH. intuition congruence.
Qed.
Definition new_entry (convert : bool) (y : str * jobject) (old : option test_entry) : test_entry :=
  let e := match old with Some e => e | None => {| te_count := 0; te_convert := []; te_dry := [] |} end in
  {| te_count := S (te_count e);
     te_convert := if convert then pull_fields (snd y) (te_convert e) else te_convert e;
     te_dry := if convert then te_dry e else pull_fields (snd y) (te_dry e) |}.
Lemma tally_step pname convert rc rd t y : tallied pname rc rd t -> (convert = true -> rd = []) ->
  tallied pname (if convert then rc ++ [y] else rc) (if convert then rd else rd ++ [y]) (dset (pname (fst y)) (new_entry convert y (dget (pname (fst y)) t)) t).
Proof.
  intros (K & E) C.
  assert (entry_ok match dget (pname (fst y)) t with Some e => e | None => {| te_count := 0; te_convert := []; te_dry := [] |} end
     (runs_named pname (pname (fst y)) rc) (runs_named pname (pname (fst y)) rd)) as E0.
  { destruct (dget (pname (fst y)) t) as [e|] eqn:G; [apply E; exact G|]. apply get_none in G. rewrite K, firsts_in in G. unfold names in G. rewrite map_app in G.
    assert (runs_named pname (pname (fst y)) rc = []) as -> by (apply named_none; intros I; apply G, in_or_app; left; exact I).
    assert (runs_named pname (pname (fst y)) rd = []) as -> by (apply named_none; intros I; apply G, in_or_app; right; exact I).
    split; [reflexivity|]. split; intros f; unfold shows; destruct (in_dec (list_eq_dec ascii_dec) f pulled_fields); reflexivity. }
  split.
  - rewrite dset_keys, K, firsts_step. f_equal. unfold names. destruct convert.
    + rewrite (C eq_refl), !app_nil_r, map_app. reflexivity.
    + rewrite app_assoc, (map_app _ (rc ++ rd) [y]). reflexivity.
  - intros test e G. destruct (list_eq_dec ascii_dec test (pname (fst y))) as [->|N].
    + rewrite dget_dset_same in G. injection G as <-. destruct E0 as (E1 & E2 & E3). unfold new_entry. cbv zeta.
      destruct convert; rewrite named_snoc; destruct (list_eq_dec ascii_dec (pname (fst y)) (pname (fst y))) as [_|X]; try contradiction; split; cbn [te_count te_convert te_dry].
      * rewrite app_length, E1. cbn [length]. lia.
      * split; [intros f; apply pull_shows; exact E2|exact E3].
      * rewrite app_length, E1. cbn [length]. lia.
      * split; [exact E2|intros f; apply pull_shows; exact E3].
    + rewrite dget_dset_other in G by exact N. destruct convert; rewrite named_snoc; (destruct (list_eq_dec ascii_dec (pname (fst y)) test); [congruence|]); rewrite app_nil_r; apply E; exact G.
Qed.
Lemma tally_all pname convert : forall l ys, Forall2 run_of l ys -> forall rc rd t, tallied pname rc rd t -> (convert = true -> rd = []) ->
  exists t', summarize_tests pname convert l t = Ok t' /\ tallied pname (if convert then rc ++ ys else rc) (if convert then rd else rd ++ ys) t'.
Proof.
  induction 1 as [|r y l ys (HD & HS) F IH]; intros rc rd t T C.
  - exists t. split; [reflexivity|]. rewrite !app_nil_r. destruct convert; exact T.
  - cbn [summarize_tests]. apply directory_iff in HD. apply statistics_iff in HS. rewrite HD, HS. cbn [bind].
    pose proof (tally_step pname convert rc rd t y T C) as T'. destruct (IH _ _ _ T') as (t' & E2 & T2).
    + intros ->. apply C. reflexivity.
    + exists t'. split; [exact E2|]. destruct convert; rewrite <- app_assoc in T2; exact T2.
Qed.
Lemma tally_needs pname convert : forall l t t', summarize_tests pname convert l t = Ok t' -> exists ys, Forall2 run_of l ys.
Proof.
  induction l as [|r l IH]; intros t t' H; [exists []; constructor|]. cbn [summarize_tests] in H.
  destruct (directory_of r) as [dir|] eqn:HD; cbn [bind] in H; [|discriminate]. destruct (statistics_of r) as [d|] eqn:HS; cbn [bind] in H; [|discriminate].
  apply IH in H as (ys & F). exists ((dir, d) :: ys). constructor; [split; [apply directory_iff; exact HD|apply statistics_iff; exact HS]|exact F].
Qed.
Lemma aggregate_runs A l ys : Forall2 run_of l ys -> exists out, aggregate_stats A l = Ok out.
Proof.
  intros F. unfold aggregate_stats. assert (exists s, add_tables A l ([], []) = Ok s) as (s & ->); [|eexists; reflexivity].
  eexists. apply tables_ok. exists (map snd ys). split; [|reflexivity]. induction F as [|r y l ys (_ & HS) F IH]; constructor; assumption.
Qed.
Lemma pick_keys {V} (t : sdict V) : forall ks, incl ks (dkeys t) -> map fst (flat_map (fun k => match dget k t with Some e => [(k, e)] | None => [] end) ks) = ks.
Proof.
  induction ks as [|k ks IH]; intros I; [reflexivity|]. cbn [flat_map]. destruct (dget k t) as [e|] eqn:G.
  - cbn [app map fst]. f_equal. apply IH. intros x J. apply I. right. exact J.
  - exfalso. apply get_none in G. apply G, I. left. reflexivity.
Qed.
Lemma c113 A pname sort convert dry : (forall l, Permutation l (sort l)) ->
  forall s, generate_summary A pname sort convert dry = Ok s -> exists rc rd, Forall2 run_of convert rc /\ Forall2 run_of dry rd
    /\ aggregate_stats A convert = Ok (sm_convert s) /\ aggregate_stats A dry = Ok (sm_dry s)
    /\ map fst (sm_tests s) = sort (firsts (map (fun y => pname (fst y)) (rc ++ rd)))
    /\ forall test e, In (test, e) (sm_tests s) ->
         te_count e = length (runs_named pname test rc) + length (runs_named pname test rd)
         /\ (forall f, In f pulled_fields -> dget f (te_convert e) = last_value f (runs_named pname test rc) /\ dget f (te_dry e) = last_value f (runs_named pname test rd))
         /\ (forall f, ~ In f pulled_fields -> dget f (te_convert e) = None /\ dget f (te_dry e) = None).
Proof.
  intros HP s H. unfold generate_summary in H.
  destruct (summarize_tests pname true convert []) as [t1|] eqn:H1; cbn [bind] in H; [|discriminate].
  destruct (summarize_tests pname false dry t1) as [t2|] eqn:H2; cbn [bind] in H; [|discriminate].
  destruct (tally_needs _ _ _ _ _ H1) as (rc & F1). destruct (tally_needs _ _ _ _ _ H2) as (rd & F2).
  destruct (aggregate_stats A convert) as [a|] eqn:HA; cbn [bind] in H; [|discriminate].
  destruct (aggregate_stats A dry) as [b|] eqn:HB; cbn [bind] in H; [|discriminate]. injection H as <-. cbn [sm_convert sm_dry sm_tests].
  exists rc, rd. split; [exact F1|]. split; [exact F2|]. split; [reflexivity|]. split; [reflexivity|].
  destruct (tally_all pname true convert rc F1 [] [] []) as (t1' & E1 & T1); [split; [reflexivity|intros test e; discriminate]|reflexivity|].
  rewrite H1 in E1. injection E1 as <-. destruct (tally_all pname false dry rd F2 _ _ t1 T1) as (t2' & E2 & T2); [discriminate|].
  rewrite H2 in E2. injection E2 as <-. cbn [app] in T2. destruct T2 as (K & E). split.
  - rewrite pick_keys; [rewrite K; reflexivity|]. intros x I. eapply Permutation_in; [apply Permutation_sym, HP|exact I].
  - intros test e I. apply in_flat_map in I as (k & _ & I). destruct (dget k t2) as [e'|] eqn:G; [|destruct I]. destruct I as [[= -> ->]|[]].
    destruct (E test e G) as (C & V & W). split; [exact C|]. split; intros f If; rewrite V, W; unfold shows;
      (destruct (in_dec (list_eq_dec ascii_dec) f pulled_fields); [try contradiction|try contradiction]); split; reflexivity.
Qed.
Lemma c113_total A pname sort convert dry rc rd : Forall2 run_of convert rc -> Forall2 run_of dry rd -> exists s, generate_summary A pname sort convert dry = Ok s.
Proof.
  intros F1 F2. unfold generate_summary.
  destruct (tally_all pname true convert rc F1 [] [] []) as (t1 & -> & T1); [split; [reflexivity|intros test e; discriminate]|reflexivity|]. cbn [bind].
  destruct (tally_all pname false dry rd F2 _ _ t1 T1) as (t2 & -> & T2); [discriminate|]. cbn [bind].
  destruct (aggregate_runs A _ _ F1) as (a & ->). destruct (aggregate_runs A _ _ F2) as (b & ->). eexists. reflexivity.
Qed.

(** * Repositories *)
Lemma listed_iff rows x : In x (flat_map (fun row => match row with x :: _ => [x] | [] => [] end) rows) <-> listed_repo rows x.
Proof.
  unfold listed_repo. rewrite in_flat_map. split.
  - intros (row & I & J). destruct row as [|y cols]; [destruct J|]. destruct J as [->|[]]. eauto.
  - intros (cols & I). eexists. split; [exact I|]. left. reflexivity.
Qed.
Lemma c114_pick sorted_set sample rows excluded num : makes_set sorted_set -> samples sample -> (0 <= num)%Z ->
  exists picked, pick_repos sorted_set sample rows excluded num = Some picked /\ NoDup picked
    /\ (forall x, In x picked -> listed_repo rows x /\ ~ In x excluded)
    /\ (Z.of_nat (length picked) <= num)%Z
    /\ ((Z.of_nat (length picked) < num)%Z -> forall x, listed_repo rows x -> ~ In x excluded -> In x picked).
Proof.
  intros HS HA HN. unfold pick_repos. cbv zeta. set (ok := filter _ _).
  assert (forall x, In x ok <-> listed_repo rows x /\ ~ In x excluded) as HO.
  { intros x. unfold ok. rewrite filter_In, listed_iff, negb_true_iff, mem_str_notIn. tauto. }
  clearbody ok. destruct (HS ok) as (ND & HI). destruct (Z.leb_spec (Z.of_nat (length (sorted_set ok))) num) as [L|L].
  - exists (sorted_set ok). split; [reflexivity|]. split; [exact ND|]. split; [intros x I; apply HO, HI; exact I|]. split; [exact L|].
    intros _ x A B. apply HI, HO. auto.
  - destruct (Z.ltb_spec num 0) as [|_]; [lia|]. destruct (HA (sorted_set ok) (Z.to_nat num) ND) as (p & E & NP & LP & IP); [lia|].
    exists p. split; [exact E|]. split; [exact NP|]. split; [intros x I; apply HO, HI, IP; exact I|]. rewrite LP. split; lia.
Qed.
Lemma find_slash_none s : find_sub [cSL] s = None <-> ~ In cSL s.
Proof.
  induction s as [|c s IH]; [cbn [find_sub starts_with In]; tauto|]. cbn [find_sub starts_with In]. destruct (ceq cSL c) eqn:Q.
  - apply ceq_eq in Q as <-. split; [discriminate|tauto].
  - destruct (find_sub [cSL] s); cbn [option_map].
    + split; [discriminate|]. intros N. exfalso. assert (Some n = None) by (apply IH; tauto). discriminate.
    + split; [|reflexivity]. intros _ [E|I]; [subst c; rewrite ceq_refl in Q; discriminate|]. apply IH; auto.
Qed.
Lemma find_slash_some s org repo : s = org ++ cSL :: repo -> ~ In cSL org -> find_sub [cSL] s = Some (length org).
Proof. intros -> N. apply find_char. exact N. Qed.
Definition fetched (get : str -> http_answer) (s : str) : option str :=
  match get (raw_url s $"main") with
  | Answer 200 t => Some t
  | _ => match get (raw_url s $"master") with Answer 200 t => Some t | _ => None end
  end.
Lemma first_answer_eq get s : first_answer get (url_options s) = fetched get s.
Proof.
  unfold url_options, fetched. cbn [map first_answer].
  change ($"https://raw.githubusercontent.com/" ++ s ++ $"/" ++ $"main" ++ $"/recipe/meta.yaml") with (raw_url s $"main").
  change ($"https://raw.githubusercontent.com/" ++ s ++ $"/" ++ $"master" ++ $"/recipe/meta.yaml") with (raw_url s $"master").
  assert (forall a (x : option str), (match a with Answer st t => if Z.eqb st 200 then Some t else x | RequestFailed => x end) = match a with Answer 200 t => Some t | _ => x end) as Q.
  { intros [st t|] x; [|reflexivity]. destruct (Z.eqb_spec st 200) as [->|N]; [reflexivity|].
    destruct st as [|p|p]; try reflexivity. repeat (destruct p as [p|p|]; try reflexivity). contradiction. }
  rewrite !Q. reflexivity.
Qed.
Lemma c114_fetch get org repo : ~ In cSL org -> let s := org ++ cSL :: repo in
  (forall text, answered get (raw_url s $"main") text -> fetch_repo get s = (s, Some (repo ++ $"/recipe/meta.yaml", text)))
  /\ (forall text, (forall t, ~ answered get (raw_url s $"main") t) -> answered get (raw_url s $"master") text -> fetch_repo get s = (s, Some (repo ++ $"/recipe/meta.yaml", text)))
  /\ ((forall t, ~ answered get (raw_url s $"main") t) -> (forall t, ~ answered get (raw_url s $"master") t) -> fetch_repo get s = ([], None)).
Proof.
  intros N s. unfold fetch_repo. rewrite (find_slash_some s org repo eq_refl N). cbv zeta. rewrite first_answer_eq.
  assert (skipn (S (length org)) s = repo) as ->.
  { unfold s. change (org ++ cSL :: repo) with (org ++ [cSL] ++ repo). rewrite app_assoc. replace (S (length org)) with (length (org ++ [cSL])) by (rewrite app_length; cbn [length]; lia).
    rewrite skipn_app, Nat.sub_diag, skipn_all. reflexivity. }
  assert (forall url (x : option str), (forall t, ~ answered get url t) -> match get url with Answer 200 t => Some t | _ => x end = x) as Q.
  { intros url x H. unfold answered in H. destruct (get url) as [st t|]; [|reflexivity]. destruct st as [|p|p]; try reflexivity.
    repeat (destruct p as [p|p|]; try reflexivity). destruct (H t eq_refl). }
  unfold fetched. split; [|split].
  - intros text E. unfold answered in E. rewrite E. reflexivity.
  - intros text H E. rewrite Q by exact H. unfold answered in E. rewrite E. reflexivity.
  - intros H1 H2. rewrite Q by exact H1. rewrite Q by exact H2. reflexivity.
Qed.
Lemma c114_no_slash get s : ~ In cSL s -> fetch_repo get s = ([], None).
Proof. intros N. unfold fetch_repo. apply find_slash_none in N. rewrite N. reflexivity. Qed.
Lemma c114_count sorted_set get picked : makes_set sorted_set ->
  NoDup (fetched_repos sorted_set get picked)
  /\ forall x, In x (fetched_repos sorted_set get picked) <-> In x picked /\ exists f, fetch_repo get x = (x, Some f).
Proof.
  intros HS. unfold fetched_repos. destruct (HS (map (fun r => fst (fetch_repo get r)) picked)) as (ND & HI). split; [apply NoDup_filter; exact ND|].
  assert (forall r, (exists f, fetch_repo get r = (r, Some f)) /\ r <> [] \/ fetch_repo get r = ([], None)) as FR.
  { intros r. unfold fetch_repo. destruct (find_sub [cSL] r) as [i|] eqn:E; [|right; reflexivity]. cbv zeta.
    destruct (first_answer get (url_options r)); [|right; reflexivity]. left. split; [eexists; reflexivity|]. intros ->. discriminate. }
  intros x. rewrite filter_In, HI, in_map_iff. split.
  - intros ((r & E & I) & NZ). destruct (FR r) as [((f & F) & NE)|F]; rewrite F in E; cbn [fst] in E; subst x; [|discriminate]. split; [exact I|]. exists f. exact F.
  - intros (I & f & F). split; [exists x; rewrite F; auto|]. destruct (FR x) as [(_ & NE)|F']; [destruct x; [contradiction|reflexivity]|rewrite F in F'; discriminate].
Qed.
