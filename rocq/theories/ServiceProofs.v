(** Proofs about message tables, licenses, fetchers and dependency scanners. *)
From Verif Require Import Lemmas PathProofs PatchProofs2 PatchProofs3 DepsProofs ServiceSpec.

(** * Message tables *)
Lemma category_eqb_eq a b : category_eqb a b = true <-> a = b.
Proof. destruct a, b; split; intros H; try discriminate; reflexivity. Qed.
Lemma category_eqb_neq a b : category_eqb a b = false <-> a <> b.
Proof. destruct a, b; split; intros H; try discriminate; try reflexivity; exfalso; apply H; reflexivity. Qed.
Lemma tbl_get_set_same c l t : tbl_get c (tbl_set c l t) = Some l.
Proof.
  induction t as [|[c' l'] t IH]; cbn [tbl_get tbl_set].
  - rewrite (proj2 (category_eqb_eq c c) eq_refl). reflexivity.
  - destruct (category_eqb c c') eqn:K; cbn [tbl_get]; rewrite K; [reflexivity|exact IH].
Qed.
Lemma tbl_get_set_other c d l t : c <> d -> tbl_get c (tbl_set d l t) = tbl_get c t.
Proof.
  intros N. induction t as [|[c' l'] t IH]; cbn [tbl_get tbl_set].
  - rewrite (proj2 (category_eqb_neq c d) N). reflexivity.
  - destruct (category_eqb d c') eqn:K; cbn [tbl_get].
    + apply category_eqb_eq in K. subst c'. rewrite (proj2 (category_eqb_neq c d) N). reflexivity.
    + rewrite IH. reflexivity.
Qed.
Lemma get_messages_add_same c m t : get_messages c (add_message c m t) = get_messages c t ++ [m].
Proof.
  unfold get_messages, add_message. destruct (tbl_get c t) as [l|] eqn:K.
  - rewrite K, tbl_get_set_same. reflexivity.
  - rewrite tbl_get_set_same, tbl_get_set_same. reflexivity.
Qed.
Lemma get_messages_add_other c d m t : c <> d -> get_messages c (add_message d m t) = get_messages c t.
Proof.
  intros N. unfold get_messages, add_message. destruct (tbl_get d t) as [l|] eqn:K.
  - rewrite K, tbl_get_set_other by exact N. reflexivity.
  - rewrite tbl_get_set_same, tbl_get_set_other, tbl_get_set_other by exact N. reflexivity.
Qed.
Lemma table_after_snoc h op : table_after (h ++ [op]) = msg_step (table_after h) op.
Proof. unfold table_after. rewrite fold_left_app. reflexivity. Qed.
Lemma logged_get c h l : logged c h l -> get_messages c (table_after h) = l.
Proof.
  induction 1 as [|h l m H IH|h l d m H IH N|h]; [reflexivity| | |]; rewrite ?table_after_snoc; cbn [msg_step].
  - rewrite get_messages_add_same, IH. reflexivity.
  - rewrite get_messages_add_other by (intros E; apply N; symmetry; exact E). exact IH.
  - reflexivity.
Qed.
Lemma logged_total c h : logged c h (get_messages c (table_after h)).
Proof.
  induction h as [|op h IH] using rev_ind; [constructor|].
  rewrite table_after_snoc. destruct op as [d m|]; cbn [msg_step].
  - destruct (category_eqb d c) eqn:K.
    + apply category_eqb_eq in K. subst d. rewrite get_messages_add_same. apply lg_mine. exact IH.
    + apply category_eqb_neq in K. rewrite get_messages_add_other by (intros E; apply K; symmetry; exact E). apply lg_other; assumption.
  - apply lg_clear.
Qed.
Lemma c63_messages h c l : logged c h l <-> get_messages c (table_after h) = l.
Proof. split; [apply logged_get|]. intros H. subst l. apply logged_total. Qed.
Lemma count_length c t : get_message_count c t = length (get_messages c t).
Proof. unfold get_message_count, get_messages. destruct (tbl_get c t); reflexivity. Qed.
Lemma c63_count h c l : logged c h l -> get_message_count c (table_after h) = length l.
Proof. intros H. rewrite count_length, (logged_get c h l H). reflexivity. Qed.
(** The table is empty exactly when nothing was logged since the last clear. *)
Lemma table_nonempty t c m : add_message c m t <> [].
Proof.
  intros H. pose proof (get_messages_add_same c m t) as G. rewrite H in G. cbn in G. destruct (get_messages c t); discriminate.
Qed.
Lemma table_empty_iff h : table_after h = [] <-> forall c, logged c h [].
Proof.
  split.
  - intros H c. rewrite c63_messages, H. reflexivity.
  - intros H. induction h as [|op h IH] using rev_ind; [reflexivity|].
    rewrite table_after_snoc. destruct op as [c m|]; [|reflexivity].
    exfalso. specialize (H c). apply logged_get in H. rewrite table_after_snoc in H. cbn [msg_step] in H.
    rewrite get_messages_add_same in H. destruct (get_messages c (table_after h)); discriminate.
Qed.
Lemma pluralize_counted n what : counted n what (str_of_nat n ++ $" " ++ pluralize n what).
Proof.
  unfold counted, pluralize. destruct (n =? 1) eqn:K.
  - apply Nat.eqb_eq in K. subst n. left. split; [reflexivity|]. replace (str_of_nat 1) with $"1" by (vm_compute; reflexivity). reflexivity.
  - apply Nat.eqb_neq in K. right. split; [exact K|]. reflexivity.
Qed.
Lemma totals_get t :
  (match tbl_get ERROR t with None => 0 | Some l => length l end) = length (get_messages ERROR t)
  /\ (match tbl_get WARNING t with None => 0 | Some l => length l end) = length (get_messages WARNING t).
Proof. unfold get_messages. destruct (tbl_get ERROR t), (tbl_get WARNING t); split; reflexivity. Qed.
Lemma c67_totals h es ws : logged ERROR h es -> logged WARNING h ws -> ~ (forall c, logged c h []) ->
  exists e w, counted (length es) $"error" e /\ counted (length ws) $"warning" w
  /\ get_totals_message (table_after h) = e ++ $" and " ++ w ++ $" were found.".
Proof.
  intros He Hw N. rewrite <- table_empty_iff in N.
  exists (str_of_nat (length es) ++ $" " ++ pluralize (length es) $"error").
  exists (str_of_nat (length ws) ++ $" " ++ pluralize (length ws) $"warning").
  split; [apply pluralize_counted|]. split; [apply pluralize_counted|].
  pose proof (totals_get (table_after h)) as [A B].
  rewrite (logged_get _ _ _ He) in A. rewrite (logged_get _ _ _ Hw) in B.
  unfold get_totals_message. rewrite A, B. destruct (table_after h); [exfalso; apply N; reflexivity|reflexivity].
Qed.
Lemma c67_empty h : get_totals_message (table_after h) = [] <-> forall c, logged c h [].
Proof.
  rewrite <- table_empty_iff. split.
  - intros H. destruct (table_after h) as [|x t] eqn:K; [reflexivity|]. exfalso.
    unfold get_totals_message in H. apply app_eq_nil in H. destruct H as [_ H]. discriminate.
  - intros H. rewrite H. reflexivity.
Qed.

(** * Licenses *)
Lemma upper_app a b : upper (a ++ b) = upper a ++ upper b.
Proof. apply map_app. Qed.
Lemma upper_length a : length (upper a) = length a.
Proof. apply map_length. Qed.
Lemma sub_spec p s : contains_sub p s = true <-> exists a b, s = a ++ p ++ b.
Proof.
  revert p. induction s as [|c s IH]; intros p.
  - cbn [contains_sub]. split.
    + intros H. rewrite orb_false_r in H || idtac. apply starts_with_spec in H. destruct H as [t H]. exists [], t. exact H.
    + intros (a & b & H). destruct a; [|discriminate]. destruct p; [reflexivity|discriminate].
  - cbn [contains_sub]. rewrite orb_true_iff, IH. split.
    + intros [H|(a & b & H)].
      * apply starts_with_spec in H. destruct H as [t H]. exists [], t. exact H.
      * exists (c :: a), b. rewrite H. reflexivity.
    + intros (a & b & H). destruct a as [|x a].
      * left. apply starts_with_spec. exists b. exact H.
      * right. injection H as _ H. exists a, b. exact H.
Qed.
Lemma lstrip_keeps a m b : m <> [] -> Forall (fun c => is_space c = false) m -> exists a', lstrip (a ++ m ++ b) = a' ++ m ++ b.
Proof.
  intros N F. induction a as [|c a IH]; cbn [app lstrip].
  - destruct m as [|x m]; [congruence|]. cbn [app lstrip]. inversion F as [|? ? Hx _]. rewrite Hx. exists []. reflexivity.
  - destruct (is_space c).
    + exact IH.
    + exists (c :: a). reflexivity.
Qed.
Lemma strip_keeps a m b : m <> [] -> Forall (fun c => is_space c = false) m -> exists a' b', strip (a ++ m ++ b) = a' ++ m ++ b'.
Proof.
  intros N F. unfold strip, rstrip.
  destruct (lstrip_keeps (rev b) (rev m) (rev a)) as [b' H].
  - intros K. apply N. rewrite <- (rev_involutive m), K. reflexivity.
  - apply Forall_rev. exact F.
  - rewrite !rev_app_distr, <- app_assoc, H, !rev_app_distr, !rev_involutive, <- app_assoc.
    destruct (lstrip_keeps a m (rev b') N F) as [a' H2]. exists a', (rev b'). exact H2.
Qed.
Lemma upper_space c : is_space (upper_c c) = false -> is_space c = false.
Proof. destruct c as [[] [] [] [] [] [] [] []]; vm_compute; congruence. Qed.
Lemma upper_comma c : upper_c c = ","%char <-> c = ","%char.
Proof. destruct c as [[] [] [] [] [] [] [] []]; vm_compute; split; congruence. Qed.
Lemma mentions_sub op s : op <> [] -> Forall (fun c => is_space c = false) op -> mentions op s ->
  contains_sub op (upper (strip s)) = true.
Proof.
  intros N F (a & m & b & -> & H).
  assert (Nm : m <> []) by (intros ->; apply N; rewrite <- H; reflexivity).
  assert (Fm : Forall (fun c => is_space c = false) m).
  { subst op. apply Forall_forall. intros c Hc. rewrite Forall_forall in F. apply upper_space. apply F. apply in_map. exact Hc. }
  destruct (strip_keeps a m b Nm Fm) as (a' & b' & ->).
  apply sub_spec. exists (upper a'), (upper b'). rewrite !upper_app, H. reflexivity.
Qed.
Lemma compound_none s : compound s ->
  existsb (fun op => contains_sub op (upper (strip s))) EXPRESSION_OPS = true \/ contains_sub $"," (upper (strip s)) = true.
Proof.
  intros [H|[H|[H|H]]].
  1-3: left; unfold EXPRESSION_OPS; cbn [existsb]; apply mentions_sub in H; [rewrite H, ?orb_true_r; reflexivity|discriminate|
    repeat constructor].
  right. apply mentions_sub; [discriminate|repeat constructor|].
  apply in_split in H. destruct H as (a & b & ->). exists a, [","%char], b. split; reflexivity.
Qed.
Lemma c62_compound close db s : compound s -> ~ known_id db s -> find_closest_license_match close db s = None.
Proof.
  intros H N. unfold find_closest_license_match.
  destruct (mem_str s (license_ids db)) eqn:K.
  - exfalso. apply mem_str_In in K. apply in_map_iff in K. destruct K as (l & E & I). apply N. exists l. split; assumption.
  - cbv zeta. destruct (existsb _ EXPRESSION_OPS) eqn:K1; [reflexivity|].
    destruct (contains_sub $"," _) eqn:K2; [reflexivity|]. exfalso.
    apply compound_none in H. rewrite K1, K2 in H. destruct H; discriminate.
Qed.
Lemma c62_exact close db s : known_id db s -> find_closest_license_match close db s = Some s.
Proof.
  intros (l & I & E). unfold find_closest_license_match.
  rewrite (proj2 (mem_str_In s (license_ids db))); [reflexivity|]. apply in_map_iff. exists l. split; assumption.
Qed.
Lemma matching_snoc db l : matching_table (db ++ [l]) = dset (l_id l) (l_id l) (dset (l_name l) (l_id l) (matching_table db)).
Proof. unfold matching_table. rewrite fold_left_app. reflexivity. Qed.
Lemma matching_values db k v : dget k (matching_table db) = Some v -> known_id db v.
Proof.
  induction db as [|l db IH] using rev_ind; intros H; [discriminate|].
  rewrite matching_snoc in H.
  assert (last : known_id (db ++ [l]) (l_id l)) by (exists l; split; [apply in_or_app; right; left; reflexivity|reflexivity]).
  destruct (str_eqb k (l_id l)) eqn:K1.
  - apply str_eqb_eq in K1. subst k. rewrite dget_dset_same in H. injection H as <-. exact last.
  - apply str_eqb_neq in K1. rewrite dget_dset_other in H by exact K1.
    destruct (str_eqb k (l_name l)) eqn:K2.
    + apply str_eqb_eq in K2. subst k. rewrite dget_dset_same in H. injection H as <-. exact last.
    + apply str_eqb_neq in K2. rewrite dget_dset_other in H by exact K2.
      destruct (IH H) as (x & I & E). exists x. split; [apply in_or_app; left; exact I|exact E].
Qed.
Lemma c62_known close db s r : find_closest_license_match close db s = Some r -> known_id db r \/ override r.
Proof.
  unfold find_closest_license_match. destruct (mem_str s (license_ids db)) eqn:K.
  - intros H. injection H as <-. left. apply mem_str_In in K. apply in_map_iff in K. destruct K as (l & E & I). exists l. split; assumption.
  - cbv zeta. destruct (existsb _ EXPRESSION_OPS); [discriminate|]. destruct (contains_sub _ _); [discriminate|].
    destruct (dget (upper (strip s)) patch_table) as [c|] eqn:P.
    + intros H. injection H as <-. right. apply dget_Some_In in P. unfold patch_table in P. destruct P as [P|[P|[]]]; injection P as _ <-; [left|right]; reflexivity.
    + destruct (close s _) as [key|]; [|discriminate]. intros H. left. apply matching_values in H. exact H.
Qed.
(** The overrides *)
Lemma trims_unique s m : trims s m -> m = strip s.
Proof. intros H. symmetry. apply trims_strip. exact H. Qed.
Lemma c62_corrected close db s r : ~ known_id db s -> corrected s r -> find_closest_license_match close db s = Some r.
Proof.
  intros N U. unfold find_closest_license_match. destruct (mem_str s (license_ids db)) eqn:K.
  - exfalso. apply mem_str_In in K. apply in_map_iff in K. destruct K as (l & E & I). apply N. exists l. split; assumption.
  - cbv zeta. destruct U as [m T U|m T U]; apply trims_unique in T; subst m; rewrite U; reflexivity.
Qed.
(** The full name of a license is recognised, unless it looks like an expression. *)
Lemma matching_name db name id : names_license db name id -> dget name (matching_table db) = Some id.
Proof.
  intros (before & l & after & E & Hn & Hi & A & B). subst db.
  induction after as [|x after IH] using rev_ind.
  - rewrite matching_snoc, dget_dset_other, <- Hn, dget_dset_same, Hi; [reflexivity|].
    intros K. apply (B l); [apply in_or_app; right; left; reflexivity|symmetry; exact K].
  - replace (before ++ l :: after ++ [x]) with ((before ++ l :: after) ++ [x]) by (rewrite <- app_assoc; reflexivity).
    rewrite matching_snoc, dget_dset_other, dget_dset_other.
    + apply IH.
      * intros y Hy. apply A. apply in_or_app. left. exact Hy.
      * intros y Hy. apply B. apply in_app_or in Hy. apply in_or_app. destruct Hy as [Hy|Hy]; [left; exact Hy|right].
        destruct Hy as [Hy|Hy]; [left; exact Hy|right; apply in_or_app; left; exact Hy].
    + intros K. apply (A x); [apply in_or_app; right; left; reflexivity|symmetry; exact K].
    + intros K. apply (B x); [|symmetry; exact K]. apply in_or_app. right. right. apply in_or_app. right. left. reflexivity.
Qed.
Lemma sub_mentions op s : contains_sub op (upper (strip s)) = true -> mentions op s.
Proof.
  intros H. apply sub_spec in H. destruct H as (a & b & H).
  destruct (strip_trims s) as (l & r & Hs & _). 
  unfold upper in H. apply map_eq_app in H. destruct H as (a' & q & H1 & H2 & H3).
  apply map_eq_app in H3. destruct H3 as (m & b' & H4 & H5 & H6).
  exists (l ++ a'), m, (b' ++ r). split; [|exact H5].
  rewrite Hs, H1, H4, <- !app_assoc. reflexivity.
Qed.
Lemma c68_name close db name id : finds_equal close -> names_license db name id -> ~ compound name ->
  (forall r, ~ corrected name r) ->
  find_closest_license_match close db name = Some id.
Proof.
  intros C H N U.
  assert (U1 : upper (strip name) <> $"UNLIMITED") by (intros K; apply (U $"NOASSERTION"); apply (cr_unlimited _ (strip name)); [apply strip_trims|exact K]).
  assert (U2 : upper (strip name) <> lit "BSD 2-CLAUSE ""SIMPLIFIED""") by (intros K; apply (U $"BSD-2-Clause"); apply (cr_bsd _ (strip name)); [apply strip_trims|exact K]).
  unfold find_closest_license_match.
  pose proof (matching_name _ _ _ H) as G.
  destruct H as (before & l & after & E & Hn & Hi & A & B).
  destruct (mem_str name (license_ids db)) eqn:K.
  - exfalso. apply mem_str_In in K. apply in_map_iff in K. destruct K as (x & Ex & I). exact (B x I Ex).
  - cbv zeta. destruct (existsb _ EXPRESSION_OPS) eqn:K1.
    + exfalso. apply N. unfold EXPRESSION_OPS in K1. cbn [existsb] in K1. rewrite !orb_true_iff in K1.
      unfold compound. destruct K1 as [K1|[K1|[K1|K1]]]; try discriminate; apply sub_mentions in K1; tauto.
    + destruct (contains_sub $"," _) eqn:K2.
      * exfalso. apply N. apply sub_mentions in K2. destruct K2 as (a & m & b & -> & Hm).
        unfold compound. right. right. right. apply in_or_app. right. apply in_or_app. left.
        destruct m as [|c [|c2 m]]; try discriminate. injection Hm as Hm. left. apply upper_comma. exact Hm.
      * unfold patch_table. cbn [dget]. rewrite (proj2 (str_eqb_neq _ _) U2), (proj2 (str_eqb_neq _ _) U1).
        rewrite C; [exact G|]. apply dget_In. rewrite G. discriminate.
Qed.

(** * Fetchers *)
Lemma http_fetch_cases io f :
  exists f', http_fetch io f = (fst (http_fetch io f), f')
  /\ h_fetched f' = (match fst (http_fetch io f) with Ok _ => true | Err _ => h_fetched f end)
  /\ h_file f' = match io_file io with Some b => Some b | None => h_file f end
  /\ h_name f' = h_name f /\ h_url f' = h_url f.
Proof.
  unfold http_fetch, extract_files. cbv zeta.
  destruct (io_download io); [eexists; split; [reflexivity|]; repeat split|].
  destruct (io_is_tar io) as [|[|]]; [eexists; split; [reflexivity|]; repeat split| |].
  - destruct (io_extract io); eexists; (split; [reflexivity|]); repeat split.
  - destruct (io_is_zip io) as [|[|]]; [eexists; split; [reflexivity|]; repeat split| |eexists; split; [reflexivity|]; repeat split].
    destruct (io_extract io); eexists; (split; [reflexivity|]); repeat split.
Qed.
Lemma fetched_snoc {C} (is_fetch : C -> Prop) h c r :
  fetched_before is_fetch (h ++ [(c, r)]) <-> fetched_before is_fetch h \/ (is_fetch c /\ r = RDone).
Proof.
  unfold fetched_before. split.
  - intros (x & F & I). apply in_app_or in I. destruct I as [I|[I|[]]].
    + left. exists x. split; assumption.
    + injection I as <- <-. right. split; [exact F|reflexivity].
  - intros [(x & F & I)|[F ->]].
    + exists x. split; [exact F|apply in_or_app; left; exact I].
    + exists c. split; [exact F|apply in_or_app; right; left; reflexivity].
Qed.
Lemma http_flag hash name url h f : session (http_reply hash) (new_http name url) h f ->
  (h_fetched f = true <-> fetched_before is_fetch_http h).
Proof.
  intros H. remember (new_http name url) as f0 eqn:E0. induction H as [f|f h g c r g' H IH St]; subst f.
  - split; [discriminate|]. intros (c & _ & []).
  - specialize (IH eq_refl). rewrite fetched_snoc. destruct c as [io| | |]; cbn [http_reply] in St.
    + destruct (http_fetch_cases io g) as (f' & E & Fl & _). rewrite E in St. injection St as <- <-. rewrite Fl.
      destruct (fst (http_fetch io g)); cbn [reply_of].
      * split; [intros _; right; split; [exists io; reflexivity|reflexivity]|reflexivity].
      * rewrite IH. split; [intros X; left; exact X|]. intros [X|[_ X]]; [exact X|discriminate].
    + injection St as _ <-. rewrite IH. split; [intros X; left; exact X|]. intros [X|[[io X] _]]; [exact X|discriminate].
    + injection St as _ <-. rewrite IH. split; [intros X; left; exact X|]. intros [X|[[io X] _]]; [exact X|discriminate].
    + injection St as _ <-. rewrite IH. split; [intros X; left; exact X|]. intros [X|[[io X] _]]; [exact X|discriminate].
Qed.
Lemma c54_http hash name url h f c : session (http_reply hash) (new_http name url) h f -> ~ is_fetch_http c ->
  (fst (http_reply hash c f) = RFail EFetchRequired <-> ~ fetched_before is_fetch_http h).
Proof.
  intros H N. rewrite <- (http_flag hash name url h f H).
  destruct c as [io| | |]; [exfalso; apply N; exists io; reflexivity| | |]; cbn [http_reply fst];
    unfold http_source_code, http_sha256, http_archive_type, fetch_guard; destruct (h_fetched f); cbn [bind reply_of].
  - split; [discriminate|]. intros X. exfalso. apply X. reflexivity.
  - split; [discriminate|reflexivity].
  - destruct (h_file f); (split; [discriminate|]); intros X; exfalso; apply X; reflexivity.
  - split; [discriminate|reflexivity].
  - split; [discriminate|]. intros X. exfalso. apply X. reflexivity.
  - split; [discriminate|reflexivity].
Qed.
Lemma git_fetch_flag cl f : gf_fetched (snd (git_fetch cl f)) = (match fst (git_fetch cl f) with Ok _ => true | Err _ => gf_fetched f end).
Proof.
  unfold git_fetch. destruct (if gf_remote f then cl else CloneIOError) as [repo| | |e]; try reflexivity.
  assert (D : forall h b, gf_fetched (with_head h b f) = gf_fetched f || b) by reflexivity.
  destruct (resolve_checkout_target (gf_target f)) as [[|x xs]|].
  - cbn [fst snd]. rewrite D, orb_true_r. reflexivity.
  - destruct (git_checkout repo (g_branch (gf_target f))); cbn [fst snd]; rewrite D; [apply orb_true_r|apply orb_false_r].
  - cbn [fst snd]. rewrite D, orb_true_r. reflexivity.
Qed.
Lemma git_flag t remote h f : session git_reply (new_git t remote) h f ->
  (gf_fetched f = true <-> fetched_before is_fetch_git h).
Proof.
  intros H. remember (new_git t remote) as f0 eqn:E0. induction H as [f|f h g c r g' H IH St]; subst f.
  - split; [discriminate|]. intros (c & _ & []).
  - specialize (IH eq_refl). rewrite fetched_snoc. destruct c as [cl|]; cbn [git_reply] in St.
    + pose proof (git_fetch_flag cl g) as Fl. destruct (git_fetch cl g) as [o f']. cbn [fst snd] in Fl. injection St as <- <-.
      rewrite Fl. destruct o; cbn [reply_of].
      * split; [intros _; right; split; [exists cl; reflexivity|reflexivity]|reflexivity].
      * rewrite IH. split; [intros X; left; exact X|]. intros [X|[_ X]]; [exact X|discriminate].
    + injection St as _ <-. rewrite IH. split; [intros X; left; exact X|]. intros [X|[[io X] _]]; [exact X|discriminate].
Qed.
Lemma c54_git t remote h f c : session git_reply (new_git t remote) h f -> ~ is_fetch_git c ->
  (fst (git_reply c f) = RFail EFetchRequired <-> ~ fetched_before is_fetch_git h).
Proof.
  intros H N. rewrite <- (git_flag t remote h f H).
  destruct c as [cl|]; [exfalso; apply N; exists cl; reflexivity|]. cbn [git_reply fst].
  unfold git_source_code, fetch_guard. destruct (gf_fetched f); cbn [reply_of].
  - split; [discriminate|]. intros X. exfalso. apply X. reflexivity.
  - split; [discriminate|reflexivity].
Qed.
(** After a successful fetch the accessors tell what was downloaded. *)
Lemma http_fetch_type io f f' : http_fetch io f = (Ok tt, f') -> io_download io = None /\ io_extract io = None
  /\ ((io_is_tar io = inr true /\ h_type f' = TARBALL) \/ (io_is_tar io = inr false /\ io_is_zip io = inr true /\ h_type f' = ZIP)).
Proof.
  unfold http_fetch, extract_files. cbv zeta. destruct (io_download io); [discriminate|]. intros H. split; [reflexivity|].
  destruct (io_is_tar io) as [|[|]]; [discriminate| |].
  - destruct (io_extract io); [discriminate|]. injection H as <-. split; [reflexivity|]. left. split; reflexivity.
  - destruct (io_is_zip io) as [|[|]]; [discriminate| |discriminate].
    destruct (io_extract io); [discriminate|]. injection H as <-. split; [reflexivity|]. right. repeat split; reflexivity.
Qed.
Lemma accessors_keep hash f h g : session (http_reply hash) f h g -> Forall (fun x => ~ is_fetch_http (fst x)) h -> g = f.
Proof.
  induction 1 as [f|f h g c r g' H IH St]; intros F; [reflexivity|].
  apply Forall_app in F. destruct F as [F1 F2]. rewrite (IH F1) in St.
  inversion F2 as [|? ? N _]. cbn [fst] in N.
  destruct c as [io| | |]; [exfalso; apply N; exists io; reflexivity| | |]; cbn [http_reply] in St; injection St as _ <-; reflexivity.
Qed.
Lemma c69_checksum hash f io b f1 h f2 : http_fetch io f = (Ok tt, f1) -> downloaded io b ->
  session (http_reply hash) f1 h f2 -> Forall (fun x => ~ is_fetch_http (fst x)) h ->
  fst (http_reply hash HSha f2) = RSha (hash b)
  /\ ((io_is_tar io = inr true /\ fst (http_reply hash HType f2) = RType TARBALL)
      \/ (io_is_tar io = inr false /\ io_is_zip io = inr true /\ fst (http_reply hash HType f2) = RType ZIP)).
Proof.
  intros H D Se F. rewrite (accessors_keep _ _ _ _ Se F). cbn [http_reply fst]. unfold http_sha256, http_archive_type.
  destruct (http_fetch_cases io f) as (f' & E & Fl & Fi & _). rewrite H in E, Fl. cbn [fst] in E, Fl. injection E as <-.
  rewrite Fl. cbn [fetch_guard bind]. unfold downloaded in D. rewrite D in Fi. rewrite Fi. split; [reflexivity|].
  destruct (http_fetch_type io f f1 H) as (_ & _ & [(T & Ty)|(T & Z & Ty)]).
  - left. split; [exact T|]. rewrite Ty. reflexivity.
  - right. split; [exact T|]. split; [exact Z|]. rewrite Ty. reflexivity.
Qed.

(** git *)
Lemma c55_branch t b repo c f : nothing_requested {| g_url := g_url t; g_branch := None; g_tag := g_tag t; g_rev := g_rev t |} ->
  g_branch t = Some b -> b <> [] -> gf_target f = t -> gf_remote f = true ->
  repo_commit repo b = Some c ->
  exists f', git_fetch (Cloned repo) f = (Ok tt, f') /\ gf_head f' = Some c /\ gf_fetched f' = true.
Proof.
  intros (T & R & _) B N G Rm C. cbn [g_tag g_rev] in T, R. unfold git_fetch. rewrite Rm, G. unfold resolve_checkout_target. rewrite T, R, B.
  destruct b as [|x b]; [congruence|]. cbn [git_checkout]. rewrite C. eexists. split; [reflexivity|]. split; [reflexivity|].
  unfold with_head. cbn [gf_fetched]. apply orb_true_r.
Qed.
Lemma c55_unknown_branch t b repo f : g_tag t = None -> g_rev t = None -> g_branch t = Some b -> b <> [] ->
  gf_target f = t -> gf_remote f = true -> repo_commit repo b = None -> fst (git_fetch (Cloned repo) f) = Err EFetch.
Proof.
  intros T R B N G Rm C. unfold git_fetch. rewrite Rm, G. unfold resolve_checkout_target. rewrite T, R, B.
  destruct b as [|x b]; [congruence|]. cbn [git_checkout]. rewrite C. reflexivity.
Qed.
Lemma c55_nothing repo f : nothing_requested (gf_target f) -> gf_remote f = true ->
  exists f', git_fetch (Cloned repo) f = (Ok tt, f') /\ gf_head f' = Some (repo_head repo) /\ gf_fetched f' = true.
Proof.
  intros (T & R & B) Rm. unfold git_fetch. rewrite Rm. unfold resolve_checkout_target. rewrite T, R, B.
  eexists. split; [reflexivity|]. split; [reflexivity|]. unfold with_head. cbn [gf_fetched]. apply orb_true_r.
Qed.
(** Whatever is requested, the branch is what is checked out. *)
Lemma c55_only_branch repo f f' name : git_fetch (Cloned repo) f = (Ok tt, f') -> gf_remote f = true ->
  requested (gf_target f) name -> name <> [] ->
  gf_head f' = match g_branch (gf_target f) with Some b => repo_commit repo b | None => Some (repo_head repo) end.
Proof.
  unfold git_fetch. intros H Rm Rq N. rewrite Rm in H.
  assert (E : resolve_checkout_target (gf_target f) = Some name).
  { unfold resolve_checkout_target. destruct Rq as [->|[[-> ->]|(-> & -> & ->)]]; reflexivity. }
  rewrite E in H. destruct name as [|x name]; [congruence|].
  destruct (g_branch (gf_target f)) as [b|]; cbn [git_checkout] in H.
  - destruct (repo_commit repo b) as [c|]; [|discriminate]. injection H as <-. reflexivity.
  - injection H as <-. reflexivity.
Qed.
Lemma c55_local cl f : gf_remote f = false -> fst (git_fetch cl f) = Err EFetch.
Proof. intros H. unfold git_fetch. rewrite H. reflexivity. Qed.

(** Retries *)
Lemma fails_spec io f : attempt_fails io -> fst (http_fetch io f) = Err EFetch.
Proof.
  unfold http_fetch, extract_files. cbv zeta. intros [e D T|e D B T|D T Z]; rewrite D.
  - destruct T as [->| ->]; reflexivity.
  - destruct B as [B|B1 B2|[A|[A1 A2]] B]; [rewrite B|rewrite B1, B2|rewrite A, B|rewrite A1, A2, B];
      destruct T as [->| ->]; reflexivity.
  - rewrite T, Z. reflexivity.
Qed.
Lemma succeeds_spec io b f : attempt_succeeds io b -> fst (http_fetch io f) = Ok tt.
Proof.
  unfold http_fetch, extract_files. cbv zeta. intros (_ & D & [A|[A1 A2]] & X); rewrite D, X; [rewrite A|rewrite A1, A2]; reflexivity.
Qed.
Lemma breaks_spec io e f : attempt_breaks io e -> fst (http_fetch io f) = Err e.
Proof.
  unfold http_fetch, extract_files. cbv zeta. intros [D|[D B]]; rewrite D; [reflexivity|].
  destruct B as [B|B1 B2|[A|[A1 A2]] B]; [rewrite B|rewrite B1, B2|rewrite A, B|rewrite A1, A2, B]; reflexivity.
Qed.
Lemma attempt_fail_step hash world id left f : attempt_fails (world id) ->
  exists f1, sha256_attempts hash world id (S left) f
  = let '(r, f2, w) := sha256_attempts hash world (S id) left f1 in (r, f2, id :: w).
Proof.
  intros A0. pose proof (fails_spec _ f A0) as A. exists (snd (http_fetch (world id) f)). cbn [sha256_attempts].
  destruct (http_fetch (world id) f) as [o f1]. cbn [fst] in A. subst o. reflexivity.
Qed.
Lemma attempt_ok_step hash world id left f b : attempt_succeeds (world id) b ->
  exists f1, sha256_attempts hash world id (S left) f = (Ok (hash b), f1, []).
Proof.
  intros A0. pose proof (succeeds_spec _ _ f A0) as A. destruct A0 as (D & _). destruct (http_fetch_cases (world id) f) as (f1 & E & Fl & Fi & _).
  exists f1. cbn [sha256_attempts]. rewrite E, A. cbn [bind]. unfold http_sha256. rewrite Fl, A. cbn [fetch_guard bind].
  unfold downloaded in D. rewrite D in Fi. rewrite Fi. reflexivity.
Qed.
Lemma sha_success hash world b : forall k id left f, attempt_succeeds (world (id + k)) b -> k < left ->
  (forall j, id <= j < id + k -> attempt_fails (world j)) ->
  exists f', sha256_attempts hash world id left f = (Ok (hash b), f', seq id k).
Proof.
  induction k as [|k IH]; intros id left f A L F; (destruct left as [|left]; [lia|]).
  - rewrite Nat.add_0_r in A. apply attempt_ok_step. exact A.
  - destruct (attempt_fail_step hash world id left f) as [f1 E]; [apply F; lia|]. rewrite E.
    destruct (IH (S id) left f1) as [f2 E2].
    + replace (S id + k) with (id + S k) by lia. exact A.
    + lia.
    + intros j Hj. apply F. lia.
    + rewrite E2. exists f2. reflexivity.
Qed.
Lemma sha_failure hash world : forall left id f, (forall j, id <= j < id + left -> attempt_fails (world j)) ->
  exists f', sha256_attempts hash world id left f = (Err EFetch, f', seq id left).
Proof.
  induction left as [|left IH]; intros id f F.
  - exists f. reflexivity.
  - destruct (attempt_fail_step hash world id left f) as [f1 E]; [apply F; lia|]. rewrite E.
    destruct (IH (S id) f1) as [f2 E2]; [intros j Hj; apply F; lia|]. rewrite E2. exists f2. reflexivity.
Qed.
Lemma sha_other hash world e : forall k id left f, attempt_breaks (world (id + k)) e -> e <> EFetch -> k < left ->
  (forall j, id <= j < id + k -> attempt_fails (world j)) ->
  exists f', sha256_attempts hash world id left f = (Err e, f', seq id k).
Proof.
  induction k as [|k IH]; intros id left f A N L F; (destruct left as [|left]; [lia|]).
  - rewrite Nat.add_0_r in A. cbn [sha256_attempts]. apply (fun H => breaks_spec _ _ f H) in A. destruct (http_fetch (world id) f) as [o f1].
    cbn [fst] in A. subst o. exists f1. cbn [bind seq]. destruct e; try reflexivity. congruence.
  - destruct (attempt_fail_step hash world id left f) as [f1 E]; [apply F; lia|]. rewrite E.
    destruct (IH (S id) left f1) as [f2 E2].
    + replace (S id + k) with (id + S k) by lia. exact A.
    + exact N.
    + lia.
    + intros j Hj. apply F. lia.
    + rewrite E2. exists f2. reflexivity.
Qed.
Lemma sha_waits hash world : forall left id f r f' w, sha256_attempts hash world id left f = (r, f', w) ->
  exists k, k <= left /\ w = seq id k.
Proof.
  induction left as [|left IH]; intros id f r f' w H; cbn [sha256_attempts] in H.
  - injection H as _ _ <-. exists 0. split; [lia|reflexivity].
  - destruct (http_fetch (world id) f) as [o f1].
    destruct (let! _ := o in http_sha256 hash f1) as [sha|e].
    + injection H as _ _ <-. exists 0. split; [lia|reflexivity].
    + destruct e; try (injection H as _ _ <-; exists 0; split; [lia|reflexivity]).
      destruct (sha256_attempts hash world (S id) left f1) as [[r2 f2] w2] eqn:E. injection H as _ _ <-.
      destruct (IH _ _ _ _ _ E) as (k & L & ->). exists (S k). split; [lia|reflexivity].
Qed.
Lemma c56_success hash world f k b : 1 <= k <= 5 -> (forall j, 1 <= j < k -> attempt_fails (world j)) -> attempt_succeeds (world k) b ->
  exists f', get_sha256 hash world f = (Ok (hash b), f', seq 1 (k - 1)).
Proof.
  intros L F A. apply sha_success.
  - replace (1 + (k - 1)) with k by lia. exact A.
  - unfold RETRY_LIMIT. lia.
  - intros j Hj. apply F. lia.
Qed.
Lemma c56_failure hash world f : (forall j, 1 <= j <= 5 -> attempt_fails (world j)) ->
  exists f', get_sha256 hash world f = (Err EFetch, f', [1; 2; 3; 4; 5]).
Proof. intros F. apply sha_failure. unfold RETRY_LIMIT. intros j Hj. apply F. lia. Qed.
Lemma c56_other hash world f k e : 1 <= k <= 5 -> (forall j, 1 <= j < k -> attempt_fails (world j)) ->
  attempt_breaks (world k) e -> e <> EFetch ->
  exists f', get_sha256 hash world f = (Err e, f', seq 1 (k - 1)).
Proof.
  intros L F A N. apply sha_other.
  - replace (1 + (k - 1)) with k by lia. exact A.
  - exact N.
  - unfold RETRY_LIMIT. lia.
  - intros j Hj. apply F. lia.
Qed.
Lemma c56_bound hash world f r f' w : get_sha256 hash world f = (r, f', w) -> length w <= 5 /\ list_sum w <= 15.
Proof.
  intros H. destruct (sha_waits _ _ _ _ _ _ _ _ H) as (k & L & ->). unfold RETRY_LIMIT in L.
  rewrite seq_length. split; [exact L|]. do 6 (destruct k as [|k]; [cbn; lia|]). lia.
Qed.

(** * Scanners *)
Lemma section_eqb_eq a b : section_eqb a b = true <-> a = b.
Proof. destruct a, b; cbn [section_eqb]; split; congruence. Qed.
Lemma pdep_eqb_same same a b : pdep_eqb same a b = true <-> same_dep same a b.
Proof. unfold pdep_eqb, same_dep. rewrite andb_true_iff, section_eqb_eq. reflexivity. Qed.
Lemma pmem_element same x l : pmem same x l = true <-> element same x l.
Proof.
  unfold pmem, element. rewrite existsb_exists. split; intros (y & I & H); exists y; (split; [exact I|]); apply pdep_eqb_same; exact H.
Qed.
Lemma same_refl same a : equivalence same -> same_dep same a a.
Proof. intros (R & _ & _). split; [apply R|reflexivity]. Qed.
Lemma same_sym same a b : equivalence same -> same_dep same a b -> same_dep same b a.
Proof. intros (_ & Sy & _) [H T]. split; [apply Sy; exact H|symmetry; exact T]. Qed.
Lemma same_trans same a b c : equivalence same -> same_dep same a b -> same_dep same b c -> same_dep same a c.
Proof. intros (_ & _ & Tr) [H T] [H2 T2]. split; [exact (Tr _ _ _ H H2)|congruence]. Qed.
Lemma element_nil same d : ~ element same d [].
Proof. intros (x & [] & _). Qed.
Lemma element_app same d a b : element same d (a ++ b) <-> element same d a \/ element same d b.
Proof.
  split.
  - intros (x & I & H). apply in_app_or in I. destruct I as [I|I]; [left|right]; exists x; split; assumption.
  - intros [(x & I & H)|(x & I & H)]; exists x; (split; [apply in_or_app|exact H]); [left|right]; exact I.
Qed.
Lemma element_same same d e l : equivalence same -> same_dep same d e -> element same e l -> element same d l.
Proof. intros Q H (x & I & K). exists x. split; [exact I|]. exact (same_trans _ _ _ _ Q H K). Qed.
Lemma element_padd same d l x : equivalence same -> (element same d (padd same l x) <-> element same d l \/ same_dep same d x).
Proof.
  intros Q. unfold padd. destruct (pmem same x l) eqn:E.
  - split; [intros H; left; exact H|]. intros [H|H]; [exact H|]. apply pmem_element in E. exact (element_same _ _ _ _ Q H E).
  - rewrite element_app. split; (intros [H|H]; [left; exact H|right]).
    + destruct H as (y & [<-|[]] & H). exact H.
    + exists x. split; [left; reflexivity|exact H].
Qed.
Lemma element_punion same d : equivalence same -> forall b a, element same d (punion same a b) <-> element same d a \/ element same d b.
Proof.
  intros Q. unfold punion. induction b as [|x b IH]; intros a; cbn [fold_left].
  - split; [intros H; left; exact H|]. intros [H|H]; [exact H|]. exfalso. exact (element_nil _ _ H).
  - rewrite IH, element_padd; [|exact Q]. change (x :: b) with ([x] ++ b). rewrite element_app. split.
    + intros [[H|H]|H]; [left; exact H|right; left|right; right; exact H]. exists x. split; [left; reflexivity|exact H].
    + intros [H|[H|H]]; [left; left; exact H| |right; exact H]. left. right. destruct H as (y & [<-|[]] & H). exact H.
Qed.
Lemma distinct_snoc same l x : equivalence same -> distinct same l -> ~ element same x l -> distinct same (l ++ [x]).
Proof.
  intros Q. unfold distinct. induction l as [|y l IH]; intros D N; cbn [app].
  - constructor; [constructor|constructor].
  - inversion D as [|? ? Dy Dl]. subst. constructor.
    + apply Forall_app. split; [exact Dy|]. constructor; [|constructor]. intros H. apply N. exists y.
      split; [left; reflexivity|apply same_sym; assumption].
    + apply IH; [exact Dl|]. intros (z & I & H). apply N. exists z. split; [right; exact I|exact H].
Qed.
Lemma distinct_padd same l x : equivalence same -> distinct same l -> distinct same (padd same l x).
Proof.
  intros Q D. unfold padd. destruct (pmem same x l) eqn:E; [exact D|]. apply distinct_snoc; [exact Q|exact D|].
  intros H. apply pmem_element in H. congruence.
Qed.
Lemma distinct_punion same b : equivalence same -> forall a, distinct same a -> distinct same (punion same a b).
Proof. intros Q. unfold punion. induction b as [|x b IH]; intros a D; cbn [fold_left]; [exact D|]. apply IH. apply distinct_padd; assumption. Qed.
Lemma distinct_filter same p l : distinct same l -> distinct same (filter p l).
Proof.
  unfold distinct. induction 1 as [|y l Dy Dl IH]; cbn [filter]; [constructor|].
  destruct (p y); [|exact IH]. constructor; [|exact IH]. rewrite Forall_forall in *. intros z I. apply filter_In in I. apply Dy, I.
Qed.

Lemma top_module_spec s m : top_module s = m <-> first_part s m.
Proof.
  unfold top_module, first_part. split.
  - intros H. revert m H. induction s as [|c s IH]; intros m H.
    + cbn in H. subst m. split; [left; reflexivity|intros []].
    + cbn [split_on] in H. destruct (ceq c ".") eqn:E.
      * apply ceq_eq in E. subst c. subst m. split; [right; exists s; reflexivity|intros []].
      * destruct (split_on "." s) as [|p r] eqn:P.
        -- exfalso. exact (split_on_nonempty _ _ P).
        -- subst m. destruct (IH p eq_refl) as [A N]. split.
           ++ destruct A as [->|[t ->]]; [left; reflexivity|right; exists t; reflexivity].
           ++ intros [X|X]; [|exact (N X)]. subst c. rewrite ceq_refl in E. discriminate.
  - intros [A N]. destruct A as [->|[t ->]].
    + rewrite split_on_nosep; [reflexivity|exact N].
    + rewrite split_on_app; [reflexivity|exact N].
Qed.
Lemma stmt_modules_spec i m : In m (stmt_modules i) <-> exists s, imported_name i s /\ first_part s m.
Proof.
  destruct i as [l|n [s|]]; cbn [stmt_modules imported_name].
  - rewrite in_map_iff. split; intros (s & A & B); exists s.
    + split; [exact B|apply top_module_spec; exact A].
    + split; [apply top_module_spec; exact B|exact A].
  - split.
    + intros [H|[]]. exists s. split; [reflexivity|apply top_module_spec; exact H].
    + intros (s' & E & H). injection E as <-. left. apply top_module_spec. exact H.
  - split; [intros []|intros (s' & E & _); discriminate].
Qed.
Lemma ends_with_spec p s : ends_with p s = true <-> exists t, s = t ++ p.
Proof.
  unfold ends_with. rewrite starts_with_spec. split; intros [t H].
  - exists (rev t). rewrite <- (rev_involutive s), H, rev_app_distr, rev_involutive. reflexivity.
  - exists (rev t). rewrite H, rev_app_distr. reflexivity.
Qed.
Lemma test_file_spec f : is_likely_test_file (sf_name f) = true <-> test_file f.
Proof. unfold is_likely_test_file, test_file. cbv zeta. rewrite orb_true_iff, starts_with_spec, ends_with_spec. reflexivity. Qed.
Lemma foreign_spec M m : is_nil m || stdlib M m || project M m = false <-> foreign M m.
Proof.
  unfold foreign. rewrite !orb_false_iff. destruct m; cbn [is_nil]; split; intuition congruence.
Qed.
Definition asked (MS : match_spec) (M : modules) (name : str) (m : str) : project_dep :=
  new_project_dependency MS (correct_module m) (if is_likely_test_file name then TESTS else RUN).
Lemma scan_modules_spec MS same M name d : equivalence same -> forall ms acc,
  element same d (fold_left (scan_module MS same M name) ms acc)
  <-> element same d acc \/ exists m, In m ms /\ foreign M m /\ same_dep same d (asked MS M name m).
Proof.
  intros Q. induction ms as [|x ms IH]; intros acc; cbn [fold_left].
  - split; [intros H; left; exact H|]. intros [H|(m & [] & _)]; exact H.
  - rewrite IH. unfold scan_module at 1. destruct (is_nil x || stdlib M x || project M x) eqn:E.
    + split.
      * intros [H|(m & I & F & H)]; [left; exact H|]. right. exists m. split; [right; exact I|]. split; assumption.
      * intros [H|(m & [->|I] & F & H)]; [left; exact H| |right; exists m; split; [exact I|split; assumption]].
        apply foreign_spec in F. congruence.
    + rewrite element_padd by exact Q. fold (asked MS M name x). split.
      * intros [[H|H]|(m & I & F & H)]; [left; exact H| |].
        -- right. exists x. split; [left; reflexivity|]. split; [apply foreign_spec; exact E|exact H].
        -- right. exists m. split; [right; exact I|]. split; assumption.
      * intros [H|(m & [->|I] & F & H)]; [left; left; exact H|left; right; exact H|].
        right. exists m. split; [exact I|]. split; assumption.
Qed.
Lemma scan_modules_distinct MS same M name : equivalence same -> forall ms acc, distinct same acc ->
  distinct same (fold_left (scan_module MS same M name) ms acc).
Proof.
  intros Q. induction ms as [|x ms IH]; intros acc D; cbn [fold_left]; [exact D|]. apply IH. unfold scan_module.
  destruct (is_nil x || stdlib M x || project M x); [exact D|]. apply distinct_padd; assumption.
Qed.
Lemma scan_imports_spec MS same M name d : equivalence same -> forall l acc,
  element same d (fold_left (fun deps i => fold_left (scan_module MS same M name) (stmt_modules i) deps) l acc)
  <-> element same d acc \/ exists i m, In i l /\ In m (stmt_modules i) /\ foreign M m /\ same_dep same d (asked MS M name m).
Proof.
  intros Q. induction l as [|x l IH]; intros acc; cbn [fold_left].
  - split; [intros H; left; exact H|]. intros [H|(i & m & [] & _)]; exact H.
  - rewrite IH, scan_modules_spec by exact Q. split.
    + intros [[H|(m & I & F & H)]|(i & m & I & J & F & H)]; [left; exact H|right; exists x, m|right; exists i, m].
      * split; [left; reflexivity|]. split; [exact I|split; assumption].
      * split; [right; exact I|]. split; [exact J|split; assumption].
    + intros [H|(i & m & [->|I] & J & F & H)]; [left; left; exact H|left; right; exists m|right; exists i, m].
      * split; [exact J|split; assumption].
      * split; [exact I|]. split; [exact J|split; assumption].
Qed.
Lemma asked_spec MS M f m d : d = asked MS M (sf_name f) m ->
  pd_data d = dependency_data_from_str MS (correct_module m)
  /\ ((test_file f /\ pd_type d = TESTS) \/ (~ test_file f /\ pd_type d = RUN)).
Proof.
  intros ->. split; [reflexivity|]. unfold asked, new_project_dependency. cbn [pd_type].
  destruct (is_likely_test_file (sf_name f)) eqn:E.
  - left. split; [apply test_file_spec; exact E|reflexivity].
  - right. split; [|reflexivity]. intros T. apply test_file_spec in T. congruence.
Qed.
Lemma asked_unique MS M f m d : pd_data d = dependency_data_from_str MS (correct_module m) ->
  ((test_file f /\ pd_type d = TESTS) \/ (~ test_file f /\ pd_type d = RUN)) -> d = asked MS M (sf_name f) m.
Proof.
  intros H T. destruct d as [a b]. cbn [pd_data pd_type] in *. subst a. unfold asked, new_project_dependency. f_equal.
  destruct (is_likely_test_file (sf_name f)) eqn:E.
  - apply test_file_spec in E. destruct T as [[_ T]|[N _]]; [exact T|contradiction].
  - destruct T as [[T _]|[_ T]]; [|exact T]. apply test_file_spec in T. congruence.
Qed.
Lemma provides_spec package m : provides package m <-> package = correct_module m.
Proof.
  assert (forall q, In (m, q) renamed_modules -> correct_module m = q) as H1.
  { intros q I. unfold renamed_modules in I. cbn [map fst snd] in I. repeat (destruct I as [[= <- <-]|I]; [vm_compute; reflexivity|]). destruct I. }
  assert (~ In m (map fst renamed_modules) -> correct_module m = m) as H2.
  { intros N. unfold correct_module. destruct (dget m IMPORT_TO_DEPENDENCY) as [q|] eqn:D; [|reflexivity]. exfalso. apply N. clear N H1.
    unfold IMPORT_TO_DEPENDENCY in D. unfold renamed_modules. cbn [map fst snd]. cbn [dget] in D.
    repeat match type of D with
    | (if str_eqb ?a ?b then _ else _) = _ => destruct (str_eqb a b) eqn:Q; [apply str_eqb_eq in Q; subst m; vm_compute; intuition fail|clear Q]
    end. discriminate. }
  unfold provides. split.
  - intros [I|(-> & N)]; symmetry; auto.
  - intros ->. destruct (in_dec (list_eq_dec ascii_dec) m (map fst renamed_modules)) as [I|N]; [left|right; auto].
    apply in_map_iff in I as ([a b] & E & I). cbn [fst] in E. subst a. rewrite (H1 b I). exact I.
Qed.
Lemma scan_file_spec MS same M f l d : equivalence same -> sf_imports f = inr l ->
  (element same d (scan_one_file MS same M (sf_name f) l) <-> exists d', asks_for MS M f d' /\ same_dep same d d').
Proof.
  intros Q E. unfold scan_one_file. rewrite scan_imports_spec by exact Q. split.
  - intros [H|(i & m & I & J & F & H)]; [exfalso; exact (element_nil _ _ H)|].
    exists (asked MS M (sf_name f) m). split; [|exact H]. exists m, (correct_module m). split.
    + apply stmt_modules_spec in J. destruct J as (s & A & B). exists l, i, s. split; [exact E|]. split; [exact I|]. split; assumption.
    + split; [exact F|]. split; [apply provides_spec; reflexivity|]. apply (asked_spec MS M f m). reflexivity.
  - intros (d' & (m & package & (l' & i & s & E' & I & A & B) & F & PV & P & T) & H). apply provides_spec in PV as ->. right. rewrite E in E'. injection E' as <-.
    exists i, m. split; [exact I|]. split; [apply stmt_modules_spec; exists s; split; assumption|]. split; [exact F|].
    rewrite <- (asked_unique MS M f m d' P T). exact H.
Qed.
Lemma scan_file_distinct MS same M name l : equivalence same -> distinct same (scan_one_file MS same M name l).
Proof.
  intros Q. unfold scan_one_file. assert (G : forall l acc, distinct same acc -> distinct same
    (fold_left (fun deps i => fold_left (scan_module MS same M name) (stmt_modules i) deps) l acc)).
  { clear l. induction l as [|x l IH]; intros acc D; cbn [fold_left]; [exact D|]. apply IH. apply scan_modules_distinct; assumption. }
  apply G. constructor.
Qed.
Lemma asks_for_readable MS M f d : asks_for MS M f d -> exists l, sf_imports f = inr l.
Proof. intros (m & package & (l & i & s & E & _) & _). exists l. exact E. Qed.
Lemma scan_files_spec MS same M d : equivalence same -> forall files acc t,
  element same d (fst (fold_left (scan_step MS same M) files (acc, t)))
  <-> element same d acc \/ exists f d', In f files /\ asks_for MS M f d' /\ same_dep same d d'.
Proof.
  intros Q. induction files as [|f files IH]; intros acc t; cbn [fold_left].
  - split; [intros H; left; exact H|]. intros [H|(f & d' & [] & _)]; exact H.
  - unfold scan_step at 2. destruct (sf_imports f) as [e|l] eqn:E; cbn [fst snd]; rewrite IH.
    + split.
      * intros [H|(g & d' & I & A & H)]; [left; exact H|]. right. exists g, d'. split; [right; exact I|split; assumption].
      * intros [H|(g & d' & [->|I] & A & H)]; [left; exact H| |right; exists g, d'; split; [exact I|split; assumption]].
        destruct (asks_for_readable _ _ _ _ A) as [l E2]. congruence.
    + rewrite element_punion, (scan_file_spec MS same M f l d Q E) by exact Q. split.
      * intros [[H|(d' & A & H)]|(g & d' & I & A & H)]; [left; exact H| |]; right.
        -- exists f, d'. split; [left; reflexivity|split; assumption].
        -- exists g, d'. split; [right; exact I|split; assumption].
      * intros [H|(g & d' & [->|I] & A & H)]; [left; left; exact H|left; right; exists d'; split; assumption|].
        right. exists g, d'. split; [exact I|split; assumption].
Qed.
Lemma scan_files_distinct MS same M : equivalence same -> forall files acc t, distinct same acc ->
  distinct same (fst (fold_left (scan_step MS same M) files (acc, t))).
Proof.
  intros Q. induction files as [|f files IH]; intros acc t D; cbn [fold_left]; [exact D|].
  unfold scan_step at 2. destruct (sf_imports f) as [e|l]; cbn [fst snd]; apply IH; [exact D|]. apply distinct_punion; assumption.
Qed.
Lemma scan_files_messages MS same M : forall files l acc t, unreadable files l ->
  get_messages EXCEPTION (snd (fold_left (scan_step MS same M) files (acc, t))) = get_messages EXCEPTION t ++ l.
Proof.
  intros files l acc t H. revert acc t. induction H as [|f fs l i E H IH|f fs l e E H IH]; intros acc t; cbn [fold_left].
  - rewrite app_nil_r. reflexivity.
  - unfold scan_step at 2. rewrite E. cbn [fst snd]. apply IH.
  - unfold scan_step at 2. rewrite E. cbn [fst snd]. rewrite IH. rewrite get_messages_add_same, <- app_assoc. reflexivity.
Qed.
Lemma keep_element same all d : equivalence same ->
  (element same d (filter (keep_dep same all) all)
   <-> element same d all /\ (pd_type d = TESTS -> ~ element same {| pd_data := pd_data d; pd_type := RUN |} all)).
Proof.
  intros Q. assert (K : forall x, same_dep same d x -> (keep_dep same all x = true <->
    (pd_type d = TESTS -> ~ element same {| pd_data := pd_data d; pd_type := RUN |} all))).
  { intros x [H T]. unfold keep_dep. rewrite negb_true_iff, andb_false_iff. rewrite T.
    assert (X : element same {| pd_data := pd_data d; pd_type := RUN |} all <-> pmem same {| pd_data := pd_data x; pd_type := RUN |} all = true).
    { rewrite pmem_element. split; apply element_same; try exact Q.
      - split; [destruct Q as (_ & Sy & _); apply Sy; exact H|reflexivity].
      - split; [exact H|reflexivity]. }
    rewrite X. destruct (section_eqb (pd_type x) TESTS) eqn:E.
    - apply section_eqb_eq in E. split.
      + intros [Y|Y]; [discriminate|]. intros _. congruence.
      + intros Y. right. specialize (Y E). destruct (pmem same _ all); [exfalso; apply Y; reflexivity|reflexivity].
    - split; [|intros _; left; reflexivity]. intros _ Y. apply section_eqb_eq in Y. congruence. }
  split.
  - intros (x & I & H). apply filter_In in I. destruct I as [I P]. split; [exists x; split; assumption|]. apply (K x H). exact P.
  - intros [(x & I & H) P]. exists x. split; [|exact H]. apply filter_In. split; [exact I|]. apply (K x H). exact P.
Qed.
Lemma c64_elements MS same M files d : equivalence same ->
  (element same d (fst (py_scan MS same M files))
   <-> same_dep same d (python_dep MS HOST) \/ same_dep same d (python_dep MS RUN)
       \/ (wanted MS same M files d /\ (pd_type d = TESTS -> ~ wanted MS same M files {| pd_data := pd_data d; pd_type := RUN |}))).
Proof.
  intros Q. unfold py_scan, wanted.
  pose proof (fun x => scan_files_spec MS same M x Q files [] new_table) as Sp.
  destruct (fold_left (scan_step MS same M) files ([], new_table)) as [all t]. cbn [fst] in *.
  rewrite !element_padd, keep_element by exact Q. rewrite !Sp.
  assert (Nil : forall x P, element same x [] \/ P <-> P).
  { intros x P. split; [intros [H|H]; [exfalso; exact (element_nil _ _ H)|exact H]|intros H; right; exact H]. }
  rewrite !Nil. unfold python_dep, new_project_dependency. tauto.
Qed.
Lemma c64_distinct MS same M files : equivalence same -> distinct same (fst (py_scan MS same M files)).
Proof.
  intros Q. unfold py_scan. pose proof (scan_files_distinct MS same M Q files [] new_table) as D.
  destruct (fold_left (scan_step MS same M) files ([], new_table)) as [all t]. cbn [fst] in *.
  apply distinct_padd; [exact Q|]. apply distinct_padd; [exact Q|]. apply distinct_filter. apply D. constructor.
Qed.
Lemma c64_messages MS same M files l : unreadable files l -> get_messages EXCEPTION (snd (py_scan MS same M files)) = l.
Proof.
  intros U. pose proof (scan_files_messages MS same M files l [] new_table U) as H. unfold py_scan.
  destruct (fold_left (scan_step MS same M) files ([], new_table)) as [all t]. cbn [snd] in *. exact H.
Qed.
Lemma c64_order MS same M files files' d : equivalence same -> (forall f, In f files <-> In f files') ->
  (element same d (fst (py_scan MS same M files)) <-> element same d (fst (py_scan MS same M files'))).
Proof.
  intros Q E. rewrite !c64_elements by exact Q.
  assert (W : forall x, wanted MS same M files x <-> wanted MS same M files' x).
  { intros x. unfold wanted. split; intros (f & d' & I & H); exists f, d'; (split; [apply E; exact I|exact H]). }
  rewrite !W. reflexivity.
Qed.
Lemma c64_tests MS same M files d : equivalence same -> element same d (fst (py_scan MS same M files)) -> pd_type d = TESTS ->
  same (pd_data d) (dependency_data_from_str MS $"python") = false ->
  ~ element same {| pd_data := pd_data d; pd_type := RUN |} (fst (py_scan MS same M files)).
Proof.
  intros Q H T N H2. apply c64_elements in H; [|exact Q]. apply c64_elements in H2; [|exact Q].
  destruct H as [[_ H]|[[H _]|[_ H]]]; [rewrite T in H; discriminate|unfold python_dep in H; cbn [pd_data] in H; congruence|].
  specialize (H T). destruct H2 as [[_ H2]|[[H2 _]|[H2 _]]]; [discriminate|unfold python_dep in H2; cbn [pd_data] in H2; congruence|].
  exact (H H2).
Qed.

(** * Mappings *)
Lemma field_assoc k d v : has_field k d v <-> assoc_prim (PStr k) d = Some v.
Proof.
  split.
  - intros (a & b & -> & N). induction a as [|[k' w] a IH]; cbn [app assoc_prim].
    + rewrite (proj2 (prim_eqb_str_l k (PStr k)) eq_refl). reflexivity.
    + destruct (prim_eqb (PStr k) k') eqn:E.
      * apply prim_eqb_str_l in E. subst k'. exfalso. apply (N w). left. reflexivity.
      * apply IH. intros x I. apply (N x). right. exact I.
  - induction d as [|[k' w] d IH]; cbn [assoc_prim]; [discriminate|]. intros H. destruct (prim_eqb (PStr k) k') eqn:E.
    + apply prim_eqb_str_l in E. injection H as ->. subst k'. exists [], d. split; [reflexivity|intros x []].
    + destruct (IH H) as (a & b & -> & N). exists ((k', w) :: a), b. split; [reflexivity|]. intros x [I|I]; [|exact (N x I)].
      injection I as -> _. rewrite (proj2 (prim_eqb_str_l k (PStr k)) eq_refl) in E. discriminate.
Qed.
Lemma no_field_assoc k d : no_field k d <-> assoc_prim (PStr k) d = None.
Proof.
  split.
  - intros N. destruct (assoc_prim (PStr k) d) as [v|] eqn:E; [|reflexivity].
    apply field_assoc in E. destruct E as (a & b & -> & _). exfalso. apply (N v). apply in_or_app. right. left. reflexivity.
  - intros E w I. induction d as [|[k' x] d IH]; [destruct I|]. cbn [assoc_prim] in E. destruct (prim_eqb (PStr k) k') eqn:P; [discriminate|].
    destruct I as [I|I]; [|exact (IH E I)]. injection I as -> _. rewrite (proj2 (prim_eqb_str_l k (PStr k)) eq_refl) in P. discriminate.
Qed.
(** ** pyproject.toml *)
Lemma add_names_spec MS same t : equivalence same -> forall l acc, distinct same acc ->
  exists deps, add_names MS same t (map (fun n => JStr n) l) acc = Ok deps /\ distinct same deps
  /\ forall x, element same x deps <-> element same x acc \/ exists n, In n l /\ same_dep same x (dep_named MS n t).
Proof.
  intros Q. induction l as [|n l IH]; intros acc D; cbn [map add_names].
  - exists acc. split; [reflexivity|]. split; [exact D|]. intros x. split; [intros H; left; exact H|]. intros [H|(n & [] & _)]; exact H.
  - change (add_names MS same t (JStr n :: map (fun n => JStr n) l) acc)
      with (add_names MS same t (map (fun n => JStr n) l) (padd same acc (dep_named MS n t))).
    destruct (IH (padd same acc (dep_named MS n t)) (distinct_padd _ _ _ Q D)) as (deps & E & Dd & Sp).
    exists deps. split; [exact E|]. split; [exact Dd|]. intros x. rewrite Sp, element_padd by exact Q. split.
    + intros [[H|H]|(m & I & H)]; [left; exact H|right; exists n; split; [left; reflexivity|exact H]|].
      right. exists m. split; [right; exact I|exact H].
    + intros [H|(m & [->|I] & H)]; [left; left; exact H|left; right; exact H|right; exists m; split; assumption].
Qed.
Lemma add_groups_spec MS same : equivalence same -> forall gs acc, distinct same acc ->
  exists deps, add_groups MS same (map (fun g => (fst g, JList (map (fun n => JStr n) (snd g)))) gs) acc = Ok deps /\ distinct same deps
  /\ forall x, element same x deps <-> element same x acc
       \/ exists g n, In g gs /\ In n (snd g) /\ same_dep same x (dep_named MS n RUN_CONSTRAINTS).
Proof.
  intros Q. induction gs as [|[k l] gs IH]; intros acc D; cbn [map add_groups fst snd].
  - exists acc. split; [reflexivity|]. split; [exact D|]. intros x. split; [intros H; left; exact H|]. intros [H|(g & n & [] & _)]; exact H.
  - cbn [json_iter bind]. destruct (add_names_spec MS same RUN_CONSTRAINTS Q l acc D) as (d1 & E1 & D1 & S1). rewrite E1. cbn [bind].
    destruct (IH d1 D1) as (deps & E & Dd & Sp). exists deps. split; [exact E|]. split; [exact Dd|]. intros x. rewrite Sp, S1. split.
    + intros [[H|(n & I & H)]|(g & n & I & J & H)]; [left; exact H|right; exists (k, l), n|right; exists g, n].
      * split; [left; reflexivity|split; assumption].
      * split; [right; exact I|split; assumption].
    + intros [H|(g & n & [<-|I] & J & H)]; [left; left; exact H|left; right; exists n; split; assumption|].
      right. exists g, n. split; [exact I|split; assumption].
Qed.
Lemma c70_elements MS same file d p l gs : equivalence same -> has_field $"project" d (JDict p) -> project_names p l -> project_groups p gs ->
  exists deps, pyproject_scan MS same file (TomlData d) = (Ok deps, new_table) /\ distinct same deps
  /\ forall x, element same x deps <->
       (exists n, In n l /\ same_dep same x (dep_named MS n RUN))
       \/ (exists g n, In g gs /\ In n (snd g) /\ same_dep same x (dep_named MS n RUN_CONSTRAINTS)).
Proof.
  intros Q P N G. apply field_assoc in P. unfold pyproject_scan. rewrite P.
  assert (E1 : (match assoc_prim (PStr $"dependencies") p with None => Ok [] | Some v => json_iter v end) = Ok (map (fun n => JStr n) l)).
  { destruct N as [[N ->]|N]; [apply no_field_assoc in N|apply field_assoc in N]; rewrite N; reflexivity. }
  rewrite E1. cbn [bind]. destruct (add_names_spec MS same RUN Q l [] (FOP_nil _)) as (d1 & E2 & D1 & S1). rewrite E2. cbn [bind].
  destruct (add_groups_spec MS same Q gs d1 D1) as (deps & E & Dd & Sp). exists deps. split.
  - destruct G as [[G Hg]|G]; [apply no_field_assoc in G|apply field_assoc in G]; rewrite G.
    + subst gs. cbn [map add_groups] in E. injection E as ->. reflexivity.
    + rewrite E. reflexivity.
  - split; [exact Dd|]. intros x. rewrite Sp, S1. split.
    + intros [[H|H]|H]; [exfalso; exact (element_nil _ _ H)|left; exact H|right; exact H].
    + intros [H|H]; [left; right; exact H|right; exact H].
Qed.
Lemma c70_failures MS same file d :
  pyproject_scan MS same file TomlMissing = (Ok [], table_after [MAdd EXCEPTION ($"`" ++ file ++ $"` file not found.")])
  /\ pyproject_scan MS same file TomlInvalid = (Ok [], table_after [MAdd EXCEPTION ($"Could not parse `" ++ file ++ $"` file.")])
  /\ (no_field $"project" d -> pyproject_scan MS same file (TomlData d)
      = (Ok [], table_after [MAdd ERROR ($"`" ++ file ++ $"` file is missing a `project` section.")])).
Proof.
  split; [reflexivity|]. split; [reflexivity|]. intros N. apply no_field_assoc in N. unfold pyproject_scan. rewrite N. reflexivity.
Qed.
(** ** Sources *)
Lemma text_of_get d k o : text_of d k o <-> source_get d k = o.
Proof.
  unfold text_of, source_get. split.
  - intros [[-> [N|F]]|(v & F & N & ->)].
    + apply no_field_assoc in N. rewrite N. reflexivity.
    + apply field_assoc in F. rewrite F. reflexivity.
    + apply field_assoc in F. rewrite F. unfold optional_str. destruct v as [[]| |]; try reflexivity. exfalso. apply N. reflexivity.
  - intros <-. destruct (assoc_prim (PStr k) d) as [v|] eqn:E.
    + apply field_assoc in E. destruct v as [[]| |]; cbn [optional_str];
        try (right; eexists; split; [exact E|split; [discriminate|reflexivity]]).
      left. split; [reflexivity|right; exact E].
    + left. split; [reflexivity|left; apply no_field_assoc; exact E].
Qed.
Lemma describes_one sv name d s : describes sv name d s <-> one_source sv name (JDict d) = Ok (Some s).
Proof.
  unfold one_source. split.
  - intros [u U|ku kb kt kr u b t r K U1 U2 B T R]; rewrite text_of_get in *.
    + rewrite U. destruct (source_get d (render_git_key sv GIT_URL)); reflexivity.
    + rewrite U1. destruct sv; cbn [git_keys render_git_key] in *; injection K as <- <- <- <-; rewrite U2, B, T, R; reflexivity.
  - destruct (source_get d $"url") as [u|] eqn:U.
    + intros H. assert (s = SHttp name u) as -> by (destruct (source_get d (render_git_key sv GIT_URL)); congruence).
      apply ds_http. apply text_of_get. exact U.
    + destruct (source_get d (render_git_key sv GIT_URL)) as [g|] eqn:G; [|discriminate]. intros H. injection H as <-.
      apply (ds_git sv name d (render_git_key sv GIT_URL) (render_git_key sv GIT_BRANCH) (render_git_key sv GIT_TAG) (render_git_key sv GIT_REV));
        try (apply text_of_get; assumption || reflexivity). destruct sv; reflexivity.
Qed.
Lemma unsupported_one sv name d : unsupported sv d <-> one_source sv name (JDict d) = Ok None.
Proof.
  unfold unsupported, one_source. rewrite !text_of_get.
  assert (E : fst (fst (fst (git_keys sv))) = render_git_key sv GIT_URL) by (destruct sv; reflexivity). rewrite E.
  destruct (source_get d $"url"), (source_get d (render_git_key sv GIT_URL)); split; intuition discriminate.
Qed.
Lemma one_source_total sv name d : exists o, one_source sv name (JDict d) = Ok o.
Proof.
  unfold one_source. destruct (source_get d $"url"), (source_get d (render_git_key sv GIT_URL)); eexists; reflexivity.
Qed.
Lemma source_path_inj i j : $"/source/" ++ str_of_nat i = $"/source/" ++ str_of_nat j -> i = j.
Proof.
  intros H. apply app_inv_head in H. destruct (str_of_nat_spec i) as (_ & A & _), (str_of_nat_spec j) as (_ & B & _). congruence.
Qed.
Lemma dset_new {A} k (v : A) d : ~ In k (dkeys d) -> dset k v d = d ++ [(k, v)].
Proof.
  unfold dkeys. induction d as [|[k' w] d IH]; intros N; [reflexivity|]. cbn [dset app]. destruct (str_eqb k k') eqn:E.
  - apply str_eqb_eq in E. subst k'. exfalso. apply N. left. reflexivity.
  - rewrite IH; [reflexivity|]. intros I. apply N. right. exact I.
Qed.
(** With unsupported sources ignored. *)
Lemma collect_list sv name many : forall ds i acc m,
  (forall j s, In ($"/source/" ++ str_of_nat j, s) acc -> j < i) -> (forall k s, In (k, s) acc -> exists j, k = $"/source/" ++ str_of_nat j) ->
  collected sv (numbered name many) (fun i => $"/source/" ++ str_of_nat i) i ds m ->
  collect_sources sv true name true many i (map JDict ds) acc = Ok (acc ++ m).
Proof.
  induction ds as [|d ds IH]; intros i acc m F G H; inversion H as [|? ? ? s m' D C|? ? ? ? U C]; subst; cbn [map collect_sources]; cbv zeta.
  - rewrite app_nil_r. reflexivity.
  - change (if many then name ++ lit "_" ++ str_of_nat i else name) with (numbered name many i). apply describes_one in D. rewrite D. cbn [bind].
    rewrite dset_new.
    + eapply eq_trans; [apply (IH (S i) (acc ++ [($"/source/" ++ str_of_nat i, s)]) m')|].
      * intros j t I. apply in_app_or in I. destruct I as [I|[I|[]]]; [apply F in I; lia|]. injection I as I _.
        destruct (str_of_nat_spec i) as (_ & A & _), (str_of_nat_spec j) as (_ & B & _). assert (i = j) by congruence. lia.
      * intros k t I. apply in_app_or in I. destruct I as [I|[I|[]]]; [exact (G k t I)|]. injection I as <- _. exists i. reflexivity.
      * exact C.
      * rewrite <- app_assoc. reflexivity.
    + intros I. unfold dkeys in I. apply in_map_iff in I. destruct I as ([k t] & K & I). cbn [fst] in K. subst k. apply F in I. lia.
  - change (if many then name ++ lit "_" ++ str_of_nat i else name) with (numbered name many i). apply (unsupported_one sv (numbered name many i)) in U. rewrite U. cbn [bind]. apply IH; [|exact G|exact C].
    intros j t I. apply F in I. lia.
Qed.
Lemma collected_total sv name path : forall ds i, exists m, collected sv name path i ds m.
Proof.
  induction ds as [|d ds IH]; intros i; [exists []; constructor|]. destruct (IH (S i)) as [m C].
  destruct (one_source_total sv (name i) d) as [[s|] E].
  - apply describes_one in E. eexists. apply co_yes; [exact E|exact C].
  - apply unsupported_one in E. exists m. apply co_no; assumption.
Qed.
(** Without: the first unsupported source ends the collection. *)
Lemma collect_strict sv name is_list many : forall ds i acc,
  (Forall (fun d => ~ unsupported sv d) ds ->
    collect_sources sv false name is_list many i (map JDict ds) acc = collect_sources sv true name is_list many i (map JDict ds) acc)
  /\ (Exists (unsupported sv) ds -> collect_sources sv false name is_list many i (map JDict ds) acc = Err (EOther $"FetchUnsupportedError")).
Proof.
  induction ds as [|d ds IH]; intros i acc; split.
  - reflexivity.
  - intros H. inversion H.
  - intros H. inversion H as [|? ? U F]. subst. cbn [map collect_sources]; cbv zeta.
    match goal with |- context [one_source sv ?n (JDict d)] => destruct (one_source_total sv n d) as [[s|] E] end; rewrite E; cbn [bind].
    + apply IH. exact F.
    + apply unsupported_one in E. contradiction.
  - intros H. cbn [map collect_sources]; cbv zeta.
    match goal with |- context [one_source sv ?n (JDict d)] => destruct (one_source_total sv n d) as [[s|] E] end; rewrite E; cbn [bind]; [|reflexivity].
    apply IH. inversion H as [? ? U|? ? X]; subst; [|exact X].
    match type of E with one_source sv ?n _ = _ => apply (unsupported_one sv n) in U end. congruence.
Qed.
Lemma c71_list E r ds o m :
  get_value E (r_root r) $"/source" (Some (JList [])) (sub_vars r) = Ok (JList (map JDict ds)) -> get_recipe_name E r = Ok o ->
  collected (r_schema r) (numbered (recipe_title o) (negb (length ds =? 1))) (fun i => $"/source/" ++ str_of_nat i) 0 ds m ->
  from_recipe E r true = Ok m
  /\ (Forall (fun d => ~ unsupported (r_schema r) d) ds -> from_recipe E r false = Ok m)
  /\ (Exists (unsupported (r_schema r)) ds -> from_recipe E r false = Err (EOther $"FetchUnsupportedError")).
Proof.
  intros V N C. unfold from_recipe. rewrite V. cbn [bind]. rewrite N. cbn [bind]. fold (recipe_title o). rewrite map_length.
  pose proof (collect_list _ _ _ _ 0 [] m (fun j s (H : In _ []) => match H with end) (fun k s (H : In _ []) => match H with end) C) as L.
  split; [exact L|]. split.
  - intros F. rewrite (proj1 (collect_strict _ _ _ _ _ _ _) F). exact L.
  - intros X. apply collect_strict. exact X.
Qed.
Lemma c71_single E r d o m :
  get_value E (r_root r) $"/source" (Some (JList [])) (sub_vars r) = Ok (JDict d) -> get_recipe_name E r = Ok o ->
  collected (r_schema r) (fun _ => recipe_title o) (fun _ => $"/source") 0 [d] m ->
  from_recipe E r true = Ok m
  /\ (~ unsupported (r_schema r) d -> from_recipe E r false = Ok m)
  /\ (unsupported (r_schema r) d -> from_recipe E r false = Err (EOther $"FetchUnsupportedError")).
Proof.
  intros V N C. unfold from_recipe. rewrite V. cbn [bind]. rewrite N. cbn [bind]. fold (recipe_title o).
  assert (L : collect_sources (r_schema r) true (recipe_title o) false (negb (length [JDict d] =? 1)) 0 (map JDict [d]) [] = Ok m).
  { cbn [map collect_sources length Nat.eqb negb]; cbv zeta.
    inversion C as [|? ? ? s m' D C'|? ? ? ? U C']; subst; inversion C'; subst.
    - apply describes_one in D. rewrite D. reflexivity.
    - apply (unsupported_one _ (recipe_title o)) in U. rewrite U. reflexivity. }
  change [JDict d] with (map JDict [d]). split; [exact L|]. split.
  - intros F. eapply eq_trans; [apply (proj1 (collect_strict _ _ _ _ [d] _ _))|exact L]. constructor; [exact F|constructor].
  - intros X. apply collect_strict. apply Exists_cons_hd. exact X.
Qed.
Lemma c71_name E r o : get_recipe_name E r = Ok o <->
  exists v, get_value E (r_root r) (DepsSpec.name_place r $"/") (Some JNull) (Some (r_schema r, r_vars r)) = Ok v
    /\ ((v = JNull /\ o = None) \/ (v <> JNull /\ o = Some (json_str v))).
Proof.
  unfold get_recipe_name. cbv zeta.
  assert ((if schema_eqb (r_schema r) SV1 && is_multi_output (r_root r) then $"/recipe/name" else $"/package/name") = DepsSpec.name_place r $"/") as ->.
  { unfold DepsSpec.name_place. cbv zeta. destruct (list_eq_dec ascii_dec $"/" $"/") as [_|N]; [|contradiction].
    change (is_multi_output (r_root r)) with (match lookup (r_root r) $"/outputs" with Some _ => true | None => false end).
    destruct (r_schema r); destruct (lookup (r_root r) $"/outputs"); reflexivity. }
  unfold sub_vars. destruct (get_value E (r_root r) (DepsSpec.name_place r $"/") (Some JNull) (Some (r_schema r, r_vars r))) as [v|e]; cbn [bind].
  - split.
    + intros [= <-]. exists v. split; [reflexivity|]. destruct v as [[]| |]; try (right; split; [discriminate|reflexivity]). left. split; reflexivity.
    + intros (v' & [= <-] & [(-> & ->)|(N & ->)]); [reflexivity|]. destruct v as [[]| |]; try reflexivity. contradiction.
  - split; [discriminate|]. intros (v & H & _). discriminate.
Qed.
