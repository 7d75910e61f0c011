(** C108 to C110 (proofs only). *)
From Verif Require Export HashProofs CommandsProofs4 GraphProofs.
From Verif Require Import Lemmas PatchProofs PathProofs RenderProofs RegexProofs RenderProofs2 Commands ReportSpec.

(** * Messages *)
Definition error_match (p : nat) (x : shown_error) : rmatch := {| m_start := p; m_end := p + length (error_text x); m_grps := [] |}.
Lemma error_hit x t prev p : x_gap x <> [] -> gap (x_gap x) -> on_a_line (x_line x) -> ~ starts_with_space (x_line x) ->
  (t = [] \/ x_line x <> [] /\ exists t', t = cNL :: t') -> match_at RATTLER_ERROR_REGEX prev p (error_text x ++ t) = Some (error_match p x).
Proof.
  intros NG G OL NS HT. unfold match_at, RATTLER_ERROR_REGEX. cbn [seqs]. unfold error_text. rewrite <- !app_assoc.
  destruct (x_gap x) as [|g0 g] eqn:EG; [contradiction|]. inversion G as [|? ? G0 G']; subst.
  seq1. unfold L at 1. eapply lit_step; [discriminate|reflexivity|]. intros st1 R1 P1 Gr1.
  change (length (lit "Error:")) with 6 in P1. cbn [start_st pos grps] in P1, Gr1.
  seq1. unfold WS1. seq1. cbn [m]. rewrite R1. cbn [app]. rewrite G0. destruct (adv_pos st1 _ _ R1) as [P2 R2]. cbn [app] in R2. pose proof (adv_grps st1) as Gr2.
  set (st2 := adv st1) in *. clearbody st2.
  match goal with |- m WS ?st ?k = ?y => change (star_k is_space (rest st) st k = y) end.
  apply (star_greedy is_space g (x_line x ++ t)); [exact R2|exact G'| |].
  - destruct (x_line x) as [|c l] eqn:EL; cbn [app].
    + destruct HT as [->|[Z _]]; [exact I|contradiction].
    + destruct (is_space c) eqn:Q; [|reflexivity]. exfalso. apply NS. exists c, l. auto.
  - intros st3 R3 P3 Gr3. match goal with |- m DOTS ?st ?k = ?y => change (star_k any_c (rest st) st k = y) end.
    apply (star_greedy any_c (x_line x) t); [exact R3|apply on_line_any; exact OL| |].
    + destruct HT as [->|(_ & t' & ->)]; [exact I|reflexivity].
    + intros st4 R4 P4 Gr4. unfold error_match, error_text. rewrite EG. f_equal. rewrite Gr4, Gr3, Gr2, Gr1.
      replace (pos st4) with (p + length ($"Error:" ++ (g0 :: g) ++ x_line x)); [reflexivity|].
      rewrite !app_length. change (length $"Error:") with 6. cbn [length]. lia.
Qed.
Lemma error_lang u : lang RATTLER_ERROR_REGEX u -> exists c v, is_space c = true /\ u = $"Error:" ++ c :: v.
Proof.
  unfold RATTLER_ERROR_REGEX. cbn [seqs]. intros (a & b & -> & Ha & c & d & -> & Hc & _). unfold L in Ha. apply lang_L in Ha as ->.
  unfold WS1 in Hc. cbn [lang] in Hc. destruct Hc as (e & f & -> & (x & -> & Hx) & _). exists x, (f ++ d). split; [exact Hx|reflexivity].
Qed.
Lemma error_quiet s t : no_error s -> (t = [] \/ exists t', t = $"Error:" ++ t') -> quiet_in RATTLER_ERROR_REGEX s t.
Proof.
  intros N HT a b E NB. apply lang_head. intros u v HL X. apply error_lang in HL as (c & w & Sc & ->).
  refine (crossing ($"Error:" ++ [c]) s t a b (w ++ v) ltac:(discriminate) (N c Sc) _ E NB _).
  - destruct HT as [->|(t' & ->)]; [apply cross_end|]. intros i z P L _ Z.
    assert (c <> "E"%char) as NE by (intros ->; discriminate).
    change (length ($"Error:" ++ [c])) with 7 in L. do 7 (destruct i as [|i]; [try lia; cbn in Z; try discriminate; injection Z; intros; congruence|]). lia.
  - rewrite X. change ($"Error:" ++ c :: w) with (($"Error:" ++ [c]) ++ w). rewrite <- app_assoc. reflexivity.
Qed.
Lemma errors_cons first x piece more : with_errors first ((x, piece) :: more) = first ++ error_text x ++ with_errors piece more.
Proof. unfold with_errors. cbn [map concat fst snd]. rewrite <- !app_assoc. reflexivity. Qed.
Lemma scan_errors : forall more first done prev whole, errors_ok first more -> whole = done ++ with_errors first more ->
  map (group0 whole) (scan RATTLER_ERROR_REGEX prev (length done) 0 (with_errors first more)) = map (fun x => error_text (fst x)) more.
Proof.
  induction more as [|[x piece] more IH]; intros first done prev whole OK W.
  - destruct OK as [N _]. unfold with_errors. cbn [map concat].
    destruct (ConvertProofs10.scan_plain RATTLER_ERROR_REGEX [] first prev (length done) (error_quiet first [] N (or_introl eq_refl))) as (prev' & ->). reflexivity.
  - destruct OK as (N & NG & G & OL & NS & HP & OK). rewrite errors_cons in *.
    destruct (ConvertProofs10.scan_plain RATTLER_ERROR_REGEX (error_text x ++ with_errors piece more) first prev (length done)) as (prev1 & ->).
    { apply error_quiet; [exact N|right]. exists (x_gap x ++ x_line x ++ with_errors piece more). unfold error_text. rewrite <- !app_assoc. reflexivity. }
    assert (match_at RATTLER_ERROR_REGEX prev1 (length done + length first) (error_text x ++ with_errors piece more) = Some (error_match (length done + length first) x)) as M.
    { apply error_hit; try assumption. destruct HP as [[-> ->]|(NL & p & ->)]; [left; reflexivity|right; split; [exact NL|]]. exists (with_errors p more). reflexivity. }
    destruct (ConvertProofs10.scan_hit RATTLER_ERROR_REGEX prev1 (length done + length first) (error_text x) _ _ ltac:(discriminate) M eq_refl eq_refl) as (prev2 & ->).
    cbn [map fst]. f_equal.
    + unfold group0, error_match. cbn [m_start m_end]. rewrite W. rewrite <- app_length, app_assoc. apply slice_mid.
    + specialize (IH piece (done ++ first ++ error_text x) prev2 whole OK). rewrite !app_length in IH. rewrite <- Nat.add_assoc. apply IH.
      rewrite W, <- !app_assoc. reflexivity.
Qed.
Lemma c108 code first more : errors_ok first more ->
  build_recipe (Ended code (with_errors first more)) = {| bd_code := code; bd_errors := map (fun x => error_text (fst x)) more |}.
Proof. intros OK. unfold build_recipe, findall. f_equal. exact (scan_errors more first [] None _ OK eq_refl). Qed.

(** * The debug file *)
Lemma firsts_nodup l : NoDup (firsts l).
Proof.
  induction l as [|x l IH]; cbn [firsts]; constructor.
  - intros I. apply filter_In in I as [_ I]. destruct (list_eq_dec ascii_dec x x); [discriminate|contradiction].
  - apply NoDup_filter. exact IH.
Qed.
Lemma firsts_in x l : In x (firsts l) <-> In x l.
Proof.
  induction l as [|y l IH]; [reflexivity|]. cbn [firsts In]. rewrite filter_In, IH.
  destruct (list_eq_dec ascii_dec y x) as [->|N]; [tauto|]. intuition congruence.
Qed.
Lemma count_keys x (h : sdict nat) : dkeys (count_issue h x) = if in_dec (list_eq_dec ascii_dec) x (dkeys h) then dkeys h else dkeys h ++ [x].
Proof.
  unfold count_issue. generalize (S match dget x h with Some n => n | None => 0 end). intros n. unfold dkeys.
  induction h as [|[k v] h IH]; cbn [dset map fst]; [reflexivity|]. destruct (str_eqb x k) eqn:Q.
  - apply str_eqb_eq in Q as ->. cbn [map fst]. destruct (in_dec (list_eq_dec ascii_dec) k (k :: map fst h)) as [_|N]; [reflexivity|]. exfalso. apply N. left. reflexivity.
  - apply str_eqb_neq in Q. cbn [map fst]. rewrite IH. destruct (in_dec (list_eq_dec ascii_dec) x (map fst h)) as [I|I]; destruct (in_dec (list_eq_dec ascii_dec) x (k :: map fst h)) as [J|J]; try reflexivity.
    + exfalso. apply J. right. exact I.
    + exfalso. destruct J as [J|J]; [congruence|contradiction].
Qed.
Lemma firsts_snoc l : forall x, firsts (l ++ [x]) = if in_dec (list_eq_dec ascii_dec) x l then firsts l else firsts l ++ [x].
Proof.
  induction l as [|y l IH]; intros x; [reflexivity|]. cbn [app firsts]. rewrite IH.
  destruct (in_dec (list_eq_dec ascii_dec) x l) as [I|I]; destruct (in_dec (list_eq_dec ascii_dec) x (y :: l)) as [J|J]; try reflexivity.
  - exfalso. apply J. right. exact I.
  - destruct J as [->|J]; [|contradiction]. rewrite filter_app. cbn [filter]. destruct (list_eq_dec ascii_dec x x); [|contradiction]. rewrite app_nil_r. reflexivity.
  - rewrite filter_app. cbn [filter]. destruct (list_eq_dec ascii_dec y x) as [->|]; [exfalso; apply J; left; reflexivity|]. reflexivity.
Qed.
Lemma fold_keys : forall l done h, dkeys h = firsts done -> dkeys (fold_left count_issue l h) = firsts (done ++ l).
Proof.
  induction l as [|x l IH]; intros done h H; cbn [fold_left]; [rewrite app_nil_r; exact H|].
  replace (done ++ x :: l) with ((done ++ [x]) ++ l) by (rewrite <- app_assoc; reflexivity). apply IH.
  rewrite count_keys, firsts_snoc, H.
  destruct (in_dec (list_eq_dec ascii_dec) x (firsts done)) as [I|I]; destruct (in_dec (list_eq_dec ascii_dec) x done) as [J|J]; try reflexivity; exfalso.
  - apply J, firsts_in. exact I.
  - apply I, firsts_in. exact J.
Qed.
Lemma hist_keys tbl : forall t, br_hist (fold_left add_build tbl t) = fold_left count_issue (flat_map (fun nb => bd_errors (snd nb)) tbl) (br_hist t).
Proof.
  induction tbl as [|[n b] tbl IH]; intros t; cbn [fold_left flat_map snd]; [reflexivity|]. rewrite IH, fold_left_app. reflexivity.
Qed.
Lemma reporting_eq e (tbl : sdict build) : dkeys (filter (fun nb => mem_str e (bd_errors (snd nb))) tbl) = reporting e tbl.
Proof.
  unfold reporting, dkeys. f_equal. apply filter_ext. intros [n b]. cbn [snd]. destruct (in_dec (list_eq_dec ascii_dec) e (bd_errors b)) as [I|I].
  - unfold mem_str. apply existsb_exists. exists e. split; [exact I|apply str_eqb_refl].
  - destruct (mem_str e (bd_errors b)) eqn:Q; [|reflexivity]. exfalso. apply I. unfold mem_str in Q. apply existsb_exists in Q as (y & Iy & Q). apply str_eqb_eq in Q as ->. exact Iy.
Qed.
Lemma rev_descending {A} (key : A -> Z) l : ordered key l -> forall a x b y c, rev l = a ++ x :: b ++ y :: c -> (key y <= key x)%Z.
Proof.
  intros O a x b y c E. apply (O (rev c) y (rev b) x (rev a)).
  rewrite <- (rev_involutive l), E. rewrite rev_app_distr. cbn [rev]. rewrite rev_app_distr. cbn [rev]. rewrite <- !app_assoc. reflexivity.
Qed.
Lemma filter_rev' {A} (P : A -> bool) l : filter P (rev l) = rev (filter P l).
Proof. induction l as [|x l IH]; [reflexivity|]. cbn [rev filter]. rewrite filter_app, IH. cbn [filter]. destruct (P x); cbn [rev]; [reflexivity|apply app_nil_r]. Qed.
Lemma c109 sort results min_rate c t : (forall l, Permutation l (sort l)) -> NoDup (map fst results) ->
  rattler_bulk_build results min_rate = (c, Some t) ->
  let tbl := map (fun nr => (fst nr, build_recipe (snd nr))) results in
  let messages := firsts (flat_map (fun nb => bd_errors (snd nb)) tbl) in
  let groups := error_groups sort tbl (br_hist t) in
  Permutation (map fst groups) messages /\ NoDup messages
  /\ (forall e names, In (e, names) groups -> names = sort (reporting e tbl) /\ names <> [])
  /\ most_frequent_first groups
  /\ (forall k, map fst (filter (fun g => length (snd g) =? k) groups) = filter (fun e => length (reporting e tbl) =? k) messages).
Proof.
  intros HS HN HR. cbv zeta.
  assert (br_hist t = fold_left count_issue (flat_map (fun nb => bd_errors (snd nb)) (map (fun nr => (fst nr, build_recipe (snd nr))) results)) []) as HH.
  { unfold rattler_bulk_build in HR. destruct results as [|x0 l0] eqn:ER; [discriminate|]. rewrite <- ER in *. clear x0 l0 ER.
    rewrite (results_table build process build_recipe results []) in HR by exact HN. cbn [app] in HR. injection HR as _ <-.
    unfold build_statistics. rewrite hist_keys. reflexivity. }
  set (tbl := map (fun nr => (fst nr, build_recipe (snd nr))) results) in *. set (messages := firsts _).
  assert (dkeys (br_hist t) = messages) as HK by (rewrite HH; exact (fold_keys _ [] [] eq_refl)).
  unfold error_groups. rewrite HK.
  set (base := map _ messages).
  assert (base = map (fun e => (e, sort (reporting e tbl))) messages) as HB.
  { unfold base. apply map_ext. intros e. rewrite reporting_eq. reflexivity. }
  rewrite HB. clear HB base. set (base := map (fun e => (e, sort (reporting e tbl))) messages).
  set (key := fun g : str * list str => Z.of_nat (length (snd g))).
  assert (Permutation (rev (sort_by key (rev base))) base) as PB.
  { rewrite <- Permutation_rev. rewrite <- sort_perm. rewrite <- Permutation_rev. reflexivity. }
  assert (map fst base = messages) as HF by (unfold base; rewrite map_map; apply map_id).
  split; [|split; [|split; [|split]]].
  - rewrite PB, HF. reflexivity.
  - apply firsts_nodup.
  - intros e names I. apply (Permutation_in _ PB) in I. unfold base in I. apply in_map_iff in I as (e' & E & I). injection E as -> <-. split; [reflexivity|].
    intros Z. apply firsts_in, in_flat_map in I as (nb & Inb & Ie).
    assert (In (fst nb) (sort (reporting e tbl))) as J.
    { apply (Permutation_in _ (HS _)). unfold reporting. apply in_map, filter_In. split; [exact Inb|]. destruct (in_dec (list_eq_dec ascii_dec) e (bd_errors (snd nb))); [reflexivity|contradiction]. }
    rewrite Z in J. destruct J.
  - intros a x b y d E. pose proof (rev_descending key _ (sort_ordered key (rev base)) a x b y d E) as H. unfold key in H. lia.
  - intros k. rewrite filter_rev', sort_filter, <- filter_rev', rev_involutive.
    + unfold base. clear - HS. induction messages as [|e l IH]; [reflexivity|]. cbn [map filter snd].
      rewrite <- (Permutation_length (HS (reporting e tbl))). destruct (length (reporting e tbl) =? k); cbn [map fst]; rewrite IH; reflexivity.
    + intros x y Hx Hy. apply Nat.eqb_eq in Hx, Hy. unfold key. lia.
Qed.

(** * The variables *)
Lemma prim_zip k : k = PStr $"zip_keys" <-> is_zip_keys k = true.
Proof.
  unfold is_zip_keys. destruct k as [| | | |s]; try (split; discriminate).
  destruct (list_eq_dec ascii_dec s $"zip_keys") as [->|N]; split; intros H; try reflexivity; try discriminate. injection H as ->. contradiction.
Qed.
Lemma vars_listed r d t : variables_of r d t -> map fst t = map fst (filter (fun kv => has_values (snd kv) && negb (is_zip_keys (fst kv))) d).
Proof.
  intros V. induction V as [|k v vs d es t NZ _ _ IH|k j d t H _ IH]; [reflexivity|..]; cbn [map filter fst snd].
  - assert (is_zip_keys k = false) as -> by (destruct (is_zip_keys k) eqn:Q; [apply prim_zip in Q; contradiction|reflexivity]). cbn [has_values andb negb map fst]. rewrite IH. reflexivity.
  - assert (has_values j && negb (is_zip_keys k) = false) as ->; [|exact IH]. destruct H as [->|[->|H]].
    + rewrite (proj1 (prim_zip _) eq_refl). apply andb_false_r.
    + reflexivity.
    + destruct j as [p|l|l]; try reflexivity. exfalso. apply (H l). reflexivity.
Qed.
Lemma contained c v : cbc_contains c v = true <-> In (PStr v) (list_cbc_variables c).
Proof.
  unfold cbc_contains, list_cbc_variables. destruct (assoc_prim (PStr v) (cbc_vars c)) as [es|] eqn:A.
  - split; [intros _|reflexivity]. assert (~ forall k x, In (k, x) (cbc_vars c) -> ~ GraphSpec.same_name (PStr v) k) as N by (intros H; rewrite <- assoc_name in H; congruence).
    clear A. induction (cbc_vars c) as [|[k x] l IH]; [exfalso; apply N; intros ? ? []|].
    destruct (prim_eqb (PStr v) k) eqn:Q.
    + destruct k; try discriminate. apply str_eqb_eq in Q as ->. left. reflexivity.
    + right. apply IH. intros H. apply N. intros k' x' [E|I]; [injection E as <- <-; unfold GraphSpec.same_name; congruence|exact (H k' x' I)].
  - split; [discriminate|]. intros I. exfalso. apply in_map_iff in I as ([k x] & E & I). cbn [fst] in E. subst k.
    apply (proj1 (assoc_name (PStr v) (cbc_vars c)) A (PStr v) x I). unfold GraphSpec.same_name. cbn [prim_eqb]. apply str_eqb_refl.
Qed.
Lemma c110 E text c : cbc_parser E text = Ok c -> exists r d,
  new_recipe E text = Ok r /\ get_value E (r_root r) $"/" None None = Ok (JDict d)
  /\ (distinct_names (map fst d) ->
      list_cbc_variables c = map fst (filter (fun kv => has_values (snd kv) && negb (is_zip_keys (fst kv))) d))
  /\ (forall v, cbc_contains c v = true <-> In (PStr v) (list_cbc_variables c))
  /\ (forall v q, cbc_contains c v = false <-> get_cbc_variable_value c v q None = Err EKey).
Proof.
  unfold cbc_parser. destruct (new_recipe E text) as [r|e] eqn:NR; cbn [bind]; [|discriminate]. intros H. exists r.
  pose proof H as H0. unfold cbc_of_recipe in H. destruct (get_value E (r_root r) $"/" None None) as [v|] eqn:G; cbn [bind] in H; [|discriminate].
  destruct v as [p|l|d]; try discriminate. exists d. split; [reflexivity|]. split; [reflexivity|]. split; [|split].
  - intros D. unfold list_cbc_variables. apply (vars_listed r). exact (c51_table E r d c G D H0).
  - intros v. apply contained.
  - intros v q. unfold cbc_contains, get_cbc_variable_value. destruct (assoc_prim (PStr v) (cbc_vars c)) as [es|]; [|tauto].
    split; [discriminate|]. destruct es as [|[w [s|]] [|]]; try discriminate; destruct (first_entry q _); discriminate.
Qed.
