(** C53, C61, C77: repeated names (proofs only). *)
From Verif Require Import Lemmas PathProofs PatchProofs2 PatchProofs3 GraphProofs ReportProofs ScriptsProofs CommandsProofs4.
From Verif Require Import RepeatSpec.

Definition collected {A} (l : list (str * A)) : sdict A := fold_left (fun t x => dset (fst x) (snd x) t) l [].
Lemma collected_snoc {A} (l : list (str * A)) x : collected (l ++ [x]) = dset (fst x) (snd x) (collected l).
Proof. unfold collected. rewrite fold_left_app. reflexivity. Qed.
Lemma in_dset {A} k (v : A) n a : forall d, NoDup (dkeys d) -> In (n, a) (dset k v d) -> (n = k /\ a = v) \/ (n <> k /\ In (n, a) d).
Proof.
  induction d as [|[k' v'] d IH]; intros ND I; cbn [dset] in I.
  - destruct I as [[= <- <-]|[]]. left. auto.
  - unfold dkeys in ND. cbn [map fst] in ND. inversion ND as [|? ? N1 N2]; subst. destruct (str_eqb k k') eqn:Q.
    + apply str_eqb_eq in Q as ->. destruct I as [[= <- <-]|I]; [left; auto|]. right. split; [|right; exact I]. intros ->. apply N1. apply in_map_iff. exists (k', a). auto.
    + apply str_eqb_neq in Q. destruct I as [[= <- <-]|I]; [right; split; [congruence|left; reflexivity]|].
      destruct (IH N2 I) as [H|[H1 H2]]; [left; exact H|right; split; [exact H1|right; exact H2]].
Qed.
Lemma collected_nodup {A} (l : list (str * A)) : NoDup (dkeys (collected l)).
Proof.
  induction l as [|x l IH] using rev_ind; [constructor|]. rewrite collected_snoc, dset_keys.
  destruct (in_dec (list_eq_dec ascii_dec) (fst x) (dkeys (collected l))) as [I|I]; [exact IH|].
  apply NoDup_Add with (1 := Add_app (fst x) (dkeys (collected l)) []). rewrite app_nil_r. split; assumption.
Qed.
Lemma collected_keys {A} (l : list (str * A)) : dkeys (collected l) = firsts (map fst l).
Proof.
  induction l as [|x l IH] using rev_ind; [reflexivity|]. rewrite collected_snoc, dset_keys, IH, map_app. cbn [map]. apply firsts_step.
Qed.
Lemma collected_kept {A} (l : list (str * A)) : kept l (collected l).
Proof.
  split; [apply collected_keys|]. induction l as [|x l IH] using rev_ind; intros name a I; [destruct I|]. rewrite collected_snoc in I.
  destruct (in_dset _ _ _ _ _ (collected_nodup l) I) as [(-> & ->)|(N & J)].
  - exists l, []. split; [destruct x; reflexivity|]. intros [].
  - destruct (IH name a J) as (before & after & E & NI). exists before, (after ++ [x]). split; [rewrite E, <- app_assoc; reflexivity|].
    rewrite map_app, in_app_iff. cbn [map In]. intros [H|[H|[]]]; [contradiction|congruence].
Qed.
Lemma kept_unique {A} (l k k' : list (str * A)) : kept l k -> kept l k' -> k = k'.
Proof.
  intros [K1 K2] [K1' K2']. rewrite <- K1' in K1. clear K1'.
  assert (forall n a a', In (n, a) k -> In (n, a') k' -> a = a') as F.
  { intros n a a' I I'. destruct (K2 n a I) as (b & c & E & N). destruct (K2' n a' I') as (b' & c' & E' & N'). rewrite E in E'.
    apply app_eq_app in E' as (w & [[-> X]|[-> X]]); destruct w as [|y w]; cbn [app] in X; try (injection X as ->; congruence).
    - injection X as <- ->. destruct N'. rewrite map_app, in_app_iff. right. left. reflexivity.
    - injection X as <- ->. destruct N. rewrite map_app, in_app_iff. right. left. reflexivity. }
  clear K2 K2'. revert k' K1 F. induction k as [|[n a] k IH]; intros [|[n' a'] k'] E F; try discriminate; [reflexivity|].
  cbn [map fst] in E. injection E as -> E. f_equal.
  - f_equal. apply (F n'); left; reflexivity.
  - apply IH; [exact E|]. intros m b b' I I'. apply (F m); right; assumption.
Qed.
Lemma kept_exists {A} (l k : list (str * A)) : kept l k <-> k = collected l.
Proof. split; [intros K; exact (kept_unique l _ _ K (collected_kept l))| intros ->; apply collected_kept]. Qed.
Lemma kept_nodup {A} (l k : list (str * A)) : kept l k -> NoDup (map fst k).
Proof. intros [-> _]. apply firsts_nodup. Qed.
Lemma kept_same {A} (l : list (str * A)) : NoDup (map fst l) -> kept l l.
Proof.
  intros ND. split.
  - induction l as [|x l IH]; [reflexivity|]. cbn [map firsts] in *. inversion ND as [|? ? N1 N2]; subst. rewrite <- IH by exact N2. f_equal.
    symmetry. assert (forall m, ~ In (fst x) m -> filter (fun y => if list_eq_dec ascii_dec (fst x) y then false else true) m = m) as X; [|apply X; exact N1].
    induction m as [|y m IHm]; intros N; [reflexivity|]. cbn [filter]. destruct (list_eq_dec ascii_dec (fst x) y) as [E|E]; [destruct N; left; congruence|].
    f_equal. apply IHm. intros I. apply N. right. exact I.
  - intros n a I. apply in_split in I as (b & c & ->). exists b, c. split; [reflexivity|]. rewrite map_app in ND. cbn [map] in ND.
    apply NoDup_remove_2 in ND. intros I. apply ND. rewrite in_app_iff. right. exact I.
Qed.

Lemma c61_repeated files results k : kept results k -> bulk_report files results = bulk_report files k.
Proof.
  intros K. pose proof (kept_same k (kept_nodup _ _ K)) as K2. apply kept_exists in K. apply kept_exists in K2. unfold bulk_report.
  change (fold_left (fun d nr => dset (fst nr) (snd nr) d) results []) with (collected results).
  change (fold_left (fun d nr => dset (fst nr) (snd nr) d) k []) with (collected k). rewrite <- K2, <- K. reflexivity.
Qed.
Lemma map_collected {A B} (g : A -> B) : forall (l : list (str * A)) d,
  fold_left (fun t x => dset (fst x) (g (snd x)) t) l (map (fun x => (fst x, g (snd x))) d)
  = map (fun x => (fst x, g (snd x))) (fold_left (fun t x => dset (fst x) (snd x) t) l d).
Proof.
  induction l as [|x l IH]; intros d; [reflexivity|]. cbn [fold_left].
  assert (dset (fst x) (g (snd x)) (map (fun x => (fst x, g (snd x))) d) = map (fun x => (fst x, g (snd x))) (dset (fst x) (snd x) d)) as ->; [|apply IH].
  induction d as [|[k v] d IHd]; [reflexivity|]. cbn [map dset fst snd]. destruct (str_eqb (fst x) k); [reflexivity|]. cbn [map fst snd]. f_equal. exact IHd.
Qed.
Lemma c77_repeated results k min_rate : results <> [] -> kept results k ->
  exists t u, rattler_bulk_build results min_rate = (bulk_exit (br_success t) (length results) min_rate, Some t)
    /\ snd (rattler_bulk_build k min_rate) = Some u
    /\ br_files t = length results /\ br_processed t = br_processed u /\ br_success t = br_success u /\ br_errors t = br_errors u
    /\ br_with_errors t = br_with_errors u /\ br_hist t = br_hist u.
Proof.
  intros NE K. pose proof (kept_same k (kept_nodup _ _ K)) as K2. apply kept_exists in K. apply kept_exists in K2.
  assert (k <> []) as NK. { intros ->. destruct results as [|x l]; [contradiction|]. pose proof (collected_keys (x :: l)) as H. rewrite <- K in H. discriminate. }
  assert (fold_left (fun d nr => dset (fst nr) (build_recipe (snd nr)) d) results [] = fold_left (fun d nr => dset (fst nr) (build_recipe (snd nr)) d) k []) as EQ.
  { change (@nil (str * build)) with (map (fun x : str * process => (fst x, build_recipe (snd x))) []). rewrite !map_collected. f_equal.
    change (collected results = collected k). congruence. }
  assert (forall l n m, let t := fold_left add_build l {| br_files := n; br_processed := m; br_success := 0; br_errors := 0; br_with_errors := []; br_hist := [] |} in br_files t = n) as HF.
  { intros l n m. cbv zeta. assert (forall t, br_files (fold_left add_build l t) = br_files t) as X; [|apply X]. induction l as [|[a b] l IH]; intros t; [reflexivity|]. cbn [fold_left]. rewrite IH. reflexivity. }
  assert (forall (l : sdict build) n n', let t := build_statistics n l in let u := build_statistics n' l in br_processed t = br_processed u /\ br_success t = br_success u
    /\ br_errors t = br_errors u /\ br_with_errors t = br_with_errors u /\ br_hist t = br_hist u) as HS.
  { intros l n n'. unfold build_statistics. cbv zeta.
    assert (forall l t u, br_processed t = br_processed u /\ br_success t = br_success u /\ br_errors t = br_errors u /\ br_with_errors t = br_with_errors u /\ br_hist t = br_hist u ->
      let t' := fold_left add_build l t in let u' := fold_left add_build l u in
      br_processed t' = br_processed u' /\ br_success t' = br_success u' /\ br_errors t' = br_errors u' /\ br_with_errors t' = br_with_errors u' /\ br_hist t' = br_hist u') as X.
    { clear. induction l as [|[a b] l IH]; intros t u H; [exact H|]. cbn [fold_left]. apply IH. destruct H as (H1 & H2 & H3 & H4 & H5). unfold add_build. cbv zeta.
      cbn [br_processed br_success br_errors br_with_errors br_hist]. rewrite H1, H2, H3, H4, H5. repeat split; reflexivity. }
    apply X. repeat split; reflexivity. }
  unfold rattler_bulk_build. destruct results as [|x l]; [contradiction|]. destruct k as [|y k']; [contradiction|]. cbv zeta.
  rewrite EQ. eexists. eexists. split; [reflexivity|]. split; [reflexivity|]. split; [apply HF|]. apply HS.
Qed.
Lemma read_exactly E MS hash : forall files good bad, files_read E MS hash files good bad -> forall cache failed,
  fold_left (sort_result E MS) (map (read_and_parse E hash) files) (cache, failed)
  = (fold_left (fun t x => dset (fst x) (snd x) t) good cache, fold_left (fun l p => if mem_str p l then l else l ++ [p]) bad failed).
Proof.
  intros files good bad H. induction H as [|f r fs good bad (text & E1 & E2) H IH|f fs good bad F H IH]; intros cache failed; cbn [map fold_left]; [reflexivity| |].
  - unfold read_and_parse at 2. rewrite E1, E2. unfold sort_result at 2. cbn [fst snd]. apply IH.
  - assert (read_and_parse E hash f = (rf_path f, None)) as ->. { unfold read_and_parse. destruct F as [->|(t & e & -> & ->)]; reflexivity. }
    unfold sort_result at 2. cbn [fst snd]. apply IH.
Qed.
Lemma failed_firsts : forall bad done, fold_left (fun l p => if mem_str p l then l else l ++ [p]) bad (firsts done) = firsts (done ++ bad).
Proof.
  induction bad as [|p bad IH]; intros done; [rewrite app_nil_r; reflexivity|]. cbn [fold_left].
  assert ((if mem_str p (firsts done) then firsts done else firsts done ++ [p]) = firsts (done ++ [p])) as ->.
  { rewrite <- firsts_step. destruct (in_dec (list_eq_dec ascii_dec) p (firsts done)) as [I|I]; destruct (mem_str p (firsts done)) eqn:M; try reflexivity.
    - apply mem_str_In in I. congruence.
    - apply mem_str_In in M. contradiction. }
  rewrite IH, <- app_assoc. reflexivity.
Qed.
Lemma c53_read E MS hash files good bad cache : files_read E MS hash files good bad -> kept good cache ->
  graph_from_disk E MS hash files = new_graph cache (firsts bad).
Proof.
  intros R K. apply kept_exists in K. unfold graph_from_disk.
  refine (eq_trans (f_equal (fun p : sdict recipe_deps * list str => let '(cache, failed) := p in new_graph cache failed) (read_exactly E MS hash files good bad R [] [])) _). cbv beta iota.
  change (@nil str) with (firsts []) at 2. rewrite failed_firsts. cbn [app]. rewrite K. reflexivity.
Qed.
Lemma files_read_exists E MS hash : forall files, exists good bad, files_read E MS hash files good bad.
Proof.
  induction files as [|f fs (good & bad & IH)]; [exists [], []; constructor|].
  destruct (rf_content f) as [text|] eqn:C; [destruct (new_recipe E text) as [r|e] eqn:N|].
  - eexists. exists bad. apply fr_parsed with (r := r); [exists text; auto|exact IH].
  - exists good. eexists. apply fr_failed; [right; exists text, e; auto|exact IH].
  - exists good. eexists. apply fr_failed; [left; exact C|exact IH].
Qed.
Lemma c53_exactly E MS hash files : exists good bad cache, files_read E MS hash files good bad /\ kept good cache
  /\ graph_from_disk E MS hash files = new_graph cache (firsts bad)
  /\ let s := g_stats (graph_from_disk E MS hash files) in
     st_parsed s = length (firsts (map fst good)) /\ st_failed s = firsts bad /\ st_recipes s = length (firsts (map fst good)) + length (firsts bad).
Proof.
  destruct (files_read_exists E MS hash files) as (good & bad & R). pose proof (collected_kept good) as K.
  exists good, bad, (collected good). split; [exact R|]. split; [exact K|]. pose proof (c53_read _ _ _ _ _ _ _ R K) as EG. split; [exact EG|]. cbv zeta. rewrite EG.
  destruct (new_graph_stats (collected good) (firsts bad) (collected_nodup good)) as (S1 & S2 & S3 & _). rewrite S1, S2, S3.
  rewrite <- (collected_keys good). unfold dkeys. rewrite map_length. auto.
Qed.
