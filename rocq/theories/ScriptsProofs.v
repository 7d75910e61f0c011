(** C111 to C114 (proofs only). *)
From Verif Require Export ReportProofs.
From Verif Require Import Lemmas PatchProofs PathProofs RenderProofs RegexProofs RenderProofs2 LayoutProofs6 LayoutProofs7 Scripts ScriptsSpec.

(** * Statistics *)
Lemma statistics_iff r d : statistics_of r = Ok d <-> its_statistics r d.
Proof.
  unfold statistics_of, its_statistics. cbv zeta. destruct (assoc_prim (PStr $"stats") r) as [j|] eqn:E.
  - rewrite E. split.
    + intros H. left. destruct j; try discriminate. injection H as <-. reflexivity.
    + intros [[= ->]|[H _]]; [reflexivity|discriminate].
  - split.
    + intros H. right. split; [reflexivity|]. destruct (assoc_prim (PStr $"statistics") r) as [[ | |]|]; try discriminate. injection H as <-. reflexivity.
    + intros [H|[_ ->]]; [discriminate|reflexivity].
Qed.
Lemma tables_ok A : forall l s out, add_tables A l s = Ok out <-> exists ds, Forall2 its_statistics l ds /\ out = fold_left (add_stat A) (concat ds) s.
Proof.
  induction l as [|r l IH]; intros s out; cbn [add_tables].
  - split; [intros [= <-]; exists []; split; [constructor|reflexivity]|]. intros (ds & F & ->). inversion F. reflexivity.
  - split.
    + intros H. destruct (statistics_of r) as [d|e] eqn:E; cbn [bind] in H; [|discriminate]. apply statistics_iff in E. apply IH in H as (ds & F & ->).
      exists (d :: ds). split; [constructor; assumption|]. cbn [concat]. rewrite fold_left_app. reflexivity.
    + intros (ds & F & ->). inversion F as [|? d ? ds' Hd F']; subst. apply statistics_iff in Hd. rewrite Hd. cbn [bind].
      apply IH. exists ds'. split; [exact F'|]. cbn [concat]. rewrite fold_left_app. reflexivity.
Qed.
Lemma numeric_spec j : numeric j = if is_number j then Some (number j) else None.
Proof. destruct j as [p| |]; [destruct p|..]; reflexivity. Qed.

Definition values_in (k : str) (l : jobject) : list prim :=
  map (fun kv => number (snd kv)) (filter (fun kv => is_number (snd kv) && str_eqb (prim_str (fst kv)) k) l).
Definition keys_in (l : jobject) : list str := map (fun kv => prim_str (fst kv)) (filter (fun kv => is_number (snd kv)) l).
Lemma values_none k l : values_in k l = [] <-> ~ In k (keys_in l).
Proof.
  unfold values_in, keys_in. induction l as [|[p j] l IH]; cbn [filter map fst snd]; [tauto|].
  destruct (is_number j); cbn [andb map fst]; [|exact IH]. destruct (str_eqb (prim_str p) k) eqn:Q; cbn [map snd].
  - apply str_eqb_eq in Q. split; [discriminate|]. intros H. exfalso. apply H. left. exact Q.
  - apply str_eqb_neq in Q. rewrite IH. cbn [In]. tauto.
Qed.
Lemma dset_keys {V} x (v : V) (h : sdict V) : dkeys (dset x v h) = if in_dec (list_eq_dec ascii_dec) x (dkeys h) then dkeys h else dkeys h ++ [x].
Proof.
  unfold dkeys. induction h as [|[k w] h IH]; cbn [dset map fst]; [reflexivity|]. destruct (str_eqb x k) eqn:Q.
  - apply str_eqb_eq in Q as ->. cbn [map fst]. destruct (in_dec (list_eq_dec ascii_dec) k (k :: map fst h)) as [_|N]; [reflexivity|]. exfalso. apply N. left. reflexivity.
  - apply str_eqb_neq in Q. cbn [map fst]. rewrite IH. destruct (in_dec (list_eq_dec ascii_dec) x (map fst h)) as [I|I]; destruct (in_dec (list_eq_dec ascii_dec) x (k :: map fst h)) as [J|J]; try reflexivity.
    + exfalso. apply J. right. exact I.
    + exfalso. destruct J as [J|J]; [congruence|contradiction].
Qed.
Lemma firsts_step l x : (if in_dec (list_eq_dec ascii_dec) x (firsts l) then firsts l else firsts l ++ [x]) = firsts (l ++ [x]).
Proof.
  rewrite firsts_snoc. destruct (in_dec (list_eq_dec ascii_dec) x (firsts l)) as [I|I]; destruct (in_dec (list_eq_dec ascii_dec) x l) as [J|J]; try reflexivity; exfalso.
  - apply J, firsts_in. exact I.
  - apply I, firsts_in. exact J.
Qed.
(** What is true after some entries. *)
Definition summed (A : arith) (l : jobject) (s : sdict prim * list str) : Prop :=
  (forall k, dget k (fst s) = match values_in k l with [] => None | vs => Some (total_of A vs) end)
  /\ dkeys (fst s) = firsts (keys_in l)
  /\ (forall k, In k (snd s) <-> In k (keys_in l) /\ starts_with $"percent_" k = true) /\ NoDup (snd s).
Lemma values_snoc k l p j : values_in k (l ++ [(p, j)]) = values_in k l ++ (if is_number j && str_eqb (prim_str p) k then [number j] else []).
Proof. unfold values_in. rewrite filter_app, map_app. cbn [filter fst snd]. destruct (is_number j && str_eqb (prim_str p) k); reflexivity. Qed.
Lemma keys_snoc l p j : keys_in (l ++ [(p, j)]) = keys_in l ++ (if is_number j then [prim_str p] else []).
Proof. unfold keys_in. rewrite filter_app, map_app. cbn [filter fst snd]. destruct (is_number j); reflexivity. Qed.
Lemma add_summed A l s kv : summed A l s -> summed A (l ++ [kv]) (add_stat A s kv).
Proof.
  destruct kv as [p j], s as [sums pct]. intros (V & K & P & ND). cbn [fst snd] in *. unfold add_stat. cbv zeta. cbn [fst snd]. rewrite numeric_spec.
  unfold summed. rewrite keys_snoc. destruct (is_number j) eqn:Nj; cbn [fst snd].
  - split; [|split; [|split]].
    + intros k. rewrite values_snoc, Nj. cbn [andb]. destruct (str_eqb (prim_str p) k) eqn:Q.
      * apply str_eqb_eq in Q as <-. rewrite dget_dset_same, V.
        destruct (values_in (prim_str p) l) as [|v vs]; [reflexivity|]. cbn [app]. f_equal. unfold total_of. cbn [fold_left]. rewrite fold_left_app. reflexivity.
      * apply str_eqb_neq in Q. rewrite app_nil_r, dget_dset_other by congruence. apply V.
    + rewrite dset_keys, K. apply firsts_step.
    + intros k. rewrite in_app_iff. cbn [In]. destruct (starts_with $"percent_" (prim_str p)) eqn:SW; cbn [andb].
      * destruct (mem_str (prim_str p) pct) eqn:M; cbn [negb].
        -- apply mem_str_In in M. apply P in M as M'. rewrite P. split; [tauto|]. intros [[I|[<-|[]]] S]; auto.
        -- rewrite in_app_iff, P. cbn [In]. split; [intros [H|[<-|[]]]; tauto|]. intros [[I|[<-|[]]] S]; auto.
      * rewrite P. split; [tauto|]. intros [[I|[<-|[]]] S]; [auto|]. congruence.
    + destruct (starts_with $"percent_" (prim_str p) && negb (mem_str (prim_str p) pct)) eqn:B; [|exact ND].
      apply andb_prop in B as [_ B]. apply negb_true_iff, mem_str_notIn in B. apply Permutation_NoDup with (prim_str p :: pct).
      * apply Permutation_cons_append.
      * constructor; assumption.
  - rewrite app_nil_r. split; [|split; [|split]]; try assumption. intros k. rewrite values_snoc, Nj. cbn [andb]. rewrite app_nil_r. apply V.
Qed.
Lemma fold_summed A : forall l done s, summed A done s -> summed A (done ++ l) (fold_left (add_stat A) l s).
Proof.
  induction l as [|x l IH]; intros done s H; cbn [fold_left]; [rewrite app_nil_r; exact H|].
  replace (done ++ x :: l) with ((done ++ [x]) ++ l) by (rewrite <- app_assoc; reflexivity). apply IH, add_summed. exact H.
Qed.
Lemma average_get A n k key sums : dget k (average A n sums key) = match dget k sums with Some x => Some (if str_eqb k key then a_mean A x n else x) | None => None end.
Proof.
  unfold average. destruct (str_eqb k key) eqn:Q.
  - apply str_eqb_eq in Q as ->. destruct (dget key sums) eqn:E; [apply dget_dset_same|exact E].
  - apply str_eqb_neq in Q. destruct (dget key sums); [rewrite dget_dset_other by exact Q|]; destruct (dget k sums); reflexivity.
Qed.
Lemma average_keys A n key sums : dkeys (average A n sums key) = dkeys sums.
Proof.
  unfold average. destruct (dget key sums) eqn:E; [|reflexivity]. rewrite dset_keys. destruct (in_dec (list_eq_dec ascii_dec) key (dkeys sums)) as [|N]; [reflexivity|].
  exfalso. apply N. apply dmem_In. unfold dmem. rewrite E. reflexivity.
Qed.
Lemma averages_get A n k : forall ks sums, NoDup ks -> dget k (fold_left (average A n) ks sums) =
  match dget k sums with Some x => Some (if mem_str k ks then a_mean A x n else x) | None => None end.
Proof.
  induction ks as [|key ks IH]; intros sums ND; cbn [fold_left].
  - cbn. destruct (dget k sums); reflexivity.
  - inversion ND as [|? ? NI ND']; subst. rewrite IH by exact ND'. rewrite average_get. destruct (dget k sums) as [x|]; [|reflexivity].
    change (mem_str k (key :: ks)) with (str_eqb k key || mem_str k ks). destruct (str_eqb k key) eqn:Q; cbn [orb]; [|reflexivity].
    apply str_eqb_eq in Q as ->. apply mem_str_notIn in NI. rewrite NI. reflexivity.
Qed.
Lemma averages_keys A n : forall ks sums, dkeys (fold_left (average A n) ks sums) = dkeys sums.
Proof. induction ks as [|key ks IH]; intros sums; cbn [fold_left]; [reflexivity|]. rewrite IH. apply average_keys. Qed.
Lemma percentage_iff k : starts_with $"percent_" k = true <-> is_percentage k.
Proof. apply starts_with_spec. Qed.

Lemma c111 A stats out : aggregate_stats A stats = Ok out <->
  exists ds, Forall2 its_statistics stats ds
    /\ map fst out = firsts (numbered_keys ds)
    /\ forall k v, In (k, v) out -> numbers_of k ds <> []
         /\ (is_percentage k -> v = a_mean A (total_of A (numbers_of k ds)) (length stats))
         /\ (~ is_percentage k -> v = total_of A (numbers_of k ds)).
Proof.
  assert (forall s ds, s = fold_left (add_stat A) (concat ds) ([], []) -> summed A (concat ds) s) as SM.
  { intros s ds ->. apply (fold_summed A (concat ds) [] ([], [])). split; [reflexivity|]. split; [reflexivity|]. split; [|constructor]. intros k. cbn [snd In keys_in map filter]. tauto. }
  assert (forall s ds, s = fold_left (add_stat A) (concat ds) ([], []) ->
    let o := fold_left (average A (length stats)) (snd s) (fst s) in
    dkeys o = firsts (numbered_keys ds) /\ forall k, dget k o = match numbers_of k ds with [] => None | vs => Some (if starts_with $"percent_" k then a_mean A (total_of A vs) (length stats) else total_of A vs) end) as SO.
  { intros s ds E o. destruct (SM s ds E) as (V & K & P & ND). split.
    - unfold o. rewrite averages_keys. exact K.
    - intros k. unfold o. rewrite averages_get by exact ND. rewrite V. change (numbers_of k ds) with (values_in k (concat ds)).
      destruct (values_in k (concat ds)) as [|v vs] eqn:Ev; [reflexivity|].
      assert (mem_str k (snd s) = starts_with $"percent_" k) as ->; [|reflexivity].
      assert (In k (keys_in (concat ds))) as Ik.
      { destruct (in_dec (list_eq_dec ascii_dec) k (keys_in (concat ds))) as [I|N]; [exact I|]. apply values_none in N. congruence. }
      destruct (starts_with $"percent_" k) eqn:SW.
      + apply mem_str_In, P. auto.
      + apply mem_str_notIn. rewrite P. intros [_ X]. congruence. }
  assert (forall (o : sdict prim), NoDup (dkeys o) -> forall k v, In (k, v) o <-> dget k o = Some v) as DG.
  { intros o ND k v. split.
    - induction o as [|[k' v'] o IH]; [intros []|]. cbn [dkeys map fst] in ND. inversion ND as [|? ? NI ND']; subst. intros [[= -> ->]|I]; cbn [dget].
      + rewrite str_eqb_refl. reflexivity.
      + destruct (str_eqb k k') eqn:Q; [|apply IH; assumption]. apply str_eqb_eq in Q as ->. exfalso. apply NI. exact (in_map fst _ _ I).
    - clear. induction o as [|[k' v'] o IH]; cbn [dget]; [discriminate|]. destruct (str_eqb k k') eqn:Q.
      + apply str_eqb_eq in Q as ->. intros [= ->]. left. reflexivity.
      + intros H. right. apply IH. exact H. }
  unfold aggregate_stats. split.
  - intros H. destruct (add_tables A stats ([], [])) as [s|e] eqn:E; cbn [bind] in H; [|discriminate]. injection H as <-.
    apply tables_ok in E as (ds & F & ES). exists ds. split; [exact F|]. destruct (SO s ds ES) as (K & V). split; [exact K|].
    intros k v I. apply DG in I; [|rewrite K; apply firsts_nodup]. rewrite V in I. destruct (numbers_of k ds) as [|x xs]; [discriminate|]. split; [discriminate|].
    rewrite <- percentage_iff. destruct (starts_with $"percent_" k); injection I as <-; split; congruence.
  - intros (ds & F & K & V). set (s := fold_left (add_stat A) (concat ds) ([], [])).
    assert (add_tables A stats ([], []) = Ok s) as -> by (apply tables_ok; exists ds; auto). cbn [bind]. f_equal.
    destruct (SO s ds eq_refl) as (K' & V'). set (o := fold_left (average A (length stats)) (snd s) (fst s)) in *. clearbody o.
    assert (NoDup (dkeys o)) as ND by (rewrite K'; apply firsts_nodup).
    assert (forall k v, In (k, v) out -> dget k o = Some v) as G.
    { intros k v I. destruct (V k v I) as (N & P1 & P2). rewrite V'. destruct (numbers_of k ds) as [|x xs]; [contradiction|]. cbv zeta. f_equal.
      destruct (starts_with $"percent_" k) eqn:SW; symmetry; [apply P1, percentage_iff; exact SW|apply P2]. rewrite <- percentage_iff. congruence. }
    rewrite <- K in K'. clear - ND K' G. revert o ND K' G. unfold dkeys. induction out as [|[k v] out IH]; intros [|[k' v'] o] ND K' G; try discriminate; [reflexivity|].
    cbn [map fst] in *. injection K' as -> K'. f_equal.
    + specialize (G k v (or_introl eq_refl)). cbn [dget] in G. rewrite str_eqb_refl in G. congruence.
    + inversion ND as [|? ? NI ND']; subst. apply IH; [exact ND'|exact K'|]. intros k2 v2 I. specialize (G k2 v2 (or_intror I)). cbn [dget] in G.
      destruct (str_eqb k2 k) eqn:Q; [|exact G]. apply str_eqb_eq in Q as ->. exfalso. apply NI. rewrite K'. exact (in_map fst _ _ I).
Qed.
