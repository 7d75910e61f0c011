(** C55, C69 (proofs only). *)
From Verif Require Import Lemmas ServiceProofs.
From Verif Require Import FetchSpec.

Lemma requested_is t : match resolve_checkout_target t with Some x => requested t x | None => nothing_requested t end.
Proof.
  unfold resolve_checkout_target, requested, nothing_requested.
  destruct (g_tag t); [auto|]. destruct (g_rev t); [auto|]. destruct (g_branch t); auto.
Qed.
Lemma requested_one t a b : requested t a -> requested t b -> a = b.
Proof. unfold requested. intros [A|[(A & B)|(A & B & C)]] [A'|[(A' & B')|(A' & B' & C')]]; congruence. Qed.
Lemma nothing_none t a : nothing_requested t -> ~ requested t a.
Proof. unfold requested, nothing_requested. intros (A & B & C) [H|[H|H]]; [congruence|destruct H; congruence|destruct H as (_ & _ & H); congruence]. Qed.
Lemma c55_outcome clone f : git_outcome clone f (fst (git_fetch clone f)) (snd (git_fetch clone f)).
Proof.
  unfold git_fetch. destruct (gf_remote f) eqn:R; [|apply go_local; exact R].
  destruct clone as [repo| | |e]; [|apply go_refused; auto|apply go_refused; auto|apply go_other; auto].
  pose proof (requested_is (gf_target f)) as Q.
  assert (forall h b, with_head h b f = git_now f h (gf_fetched f || b)) as W by reflexivity. 
  destruct (resolve_checkout_target (gf_target f)) as [[|c name]|].
  - cbn [fst snd]. rewrite W, orb_true_r. apply go_default; [exact R|reflexivity|]. intros n H. exact (requested_one _ _ _ H Q).
  - unfold git_checkout. destruct (g_branch (gf_target f)) as [b|] eqn:B.
    + destruct (repo_commit repo b) as [x|] eqn:C; cbn [fst snd]; rewrite W.
      * rewrite orb_true_r. apply (go_branch _ _ repo (c :: name) b x R eq_refl Q ltac:(discriminate) B C).
      * rewrite orb_false_r. apply (go_unknown _ _ repo (c :: name) b R eq_refl Q ltac:(discriminate) B C).
    + cbn [fst snd]. rewrite W, orb_true_r. apply (go_no_branch _ _ repo (c :: name) R eq_refl Q ltac:(discriminate) B).
  - cbn [fst snd]. rewrite W, orb_true_r. apply go_default; [exact R|reflexivity|]. intros n H. destruct (nothing_none _ _ Q H).
Qed.
Lemma c55_one clone f o g o' g' : git_outcome clone f o g -> git_outcome clone f o' g' -> o = o' /\ g = g'.
Proof.
  intros A B. destruct A; destruct B; try (split; reflexivity); try congruence;
    repeat match goal with
      | H : _ \/ _ |- _ => destruct H
      end; try congruence;
    repeat match goal with
      | H : Cloned ?a = Cloned ?b |- _ => injection H as ->
      | H : CloneOther ?a = CloneOther ?b |- _ => injection H as ->
      | H : ?c = Cloned ?a, K : ?c = Cloned ?b |- _ => rewrite H in K; injection K as ->
      | H : ?c = CloneOther ?a, K : ?c = CloneOther ?b |- _ => rewrite H in K; injection K as ->
      | H : forall name, requested _ name -> name = [], K : requested _ ?n, L : ?n <> [] |- _ => destruct (L (H n K))
      end; try (split; congruence); try (split; reflexivity).
  all: assert (b = b0) by congruence; subst; split; congruence.
Qed.

Lemma http_other hash c f : ~ is_fetch_http c -> snd (http_reply hash c f) = f.
Proof. destruct c; intros N; [destruct N; eexists; reflexivity|reflexivity|reflexivity|reflexivity]. Qed.
Lemma archive_kinds io : (io_is_tar io = inr true) \/ (io_is_tar io = inr false /\ io_is_zip io = inr true) \/ ~ archive io.
Proof.
  unfold archive. destruct (io_is_tar io) as [e|[|]]; [right; right; intros [H|(H & _)]; discriminate|left; reflexivity|].
  destruct (io_is_zip io) as [e|[|]]; [right; right; intros [H|(_ & H)]; discriminate|right; left; auto|right; right; intros [H|(_ & H)]; discriminate].
Qed.
Lemma fetch_file io f : h_file (snd (http_fetch io f)) = match io_file io with Some b => Some b | None => h_file f end.
Proof.
  unfold http_fetch, extract_files. destruct (io_download io); [reflexivity|].
  destruct (io_is_tar io) as [e|[|]]; [reflexivity|destruct (io_extract io); reflexivity|].
  destruct (io_is_zip io) as [e|[|]]; [reflexivity|destruct (io_extract io); reflexivity|reflexivity].
Qed.
Lemma fetch_type io f : (io_download io = None -> io_is_tar io = inr true -> h_type (snd (http_fetch io f)) = TARBALL)
  /\ (io_download io = None -> io_is_tar io = inr false -> io_is_zip io = inr true -> h_type (snd (http_fetch io f)) = ZIP)
  /\ (io_download io <> None \/ ~ archive io -> h_type (snd (http_fetch io f)) = h_type f).
Proof.
  unfold http_fetch, extract_files, archive. destruct (io_download io).
  { split; [discriminate|]. split; [discriminate|]. reflexivity. }
  destruct (io_is_tar io) as [e'|[|]].
  - split; [discriminate|]. split; [discriminate|]. reflexivity.
  - split; [intros _ _; destruct (io_extract io); reflexivity|]. split; [discriminate|]. intros [H|H]; [destruct H; reflexivity|destruct H; left; reflexivity].
  - split; [discriminate|]. destruct (io_is_zip io) as [e'|[|]].
    + split; [discriminate|]. reflexivity.
    + split; [intros _ _ _; destruct (io_extract io); reflexivity|]. intros [H|H]; [destruct H; reflexivity|destruct H; right; split; reflexivity].
    + split; [discriminate|]. reflexivity.
Qed.
Lemma is_fetch_dec c : is_fetch_http c \/ ~ is_fetch_http c.
Proof. destruct c; [left; eexists; reflexivity|right; intros (x & H); discriminate..]. Qed.
Lemma snoc_inj {A} (l l' : list A) x y : l ++ [x] = l' ++ [y] -> l = l' /\ x = y.
Proof. intros H. apply app_inj_tail in H. exact H. Qed.
Lemma session_state hash name url : forall h f, session (http_reply hash) (new_http name url) h f ->
  file_left h (h_file f) /\ type_seen h (h_type f).
Proof.
  intros h f S. remember (new_http name url) as f0 eqn:E. induction S as [f|f h g c r g' S IH E1]; [subst f; split; constructor|].
  specialize (IH E). destruct IH as (IF & IT).
  assert (g' = snd (http_reply hash c g)) as -> by (rewrite E1; reflexivity).
  destruct (is_fetch_dec c) as [(io & ->)|N].
  - assert (snd (http_reply hash (HFetch io) g) = snd (http_fetch io g)) as -> by (cbn [http_reply]; destruct (http_fetch io g); reflexivity).
    split.
    + rewrite fetch_file. destruct (io_file io) as [b|] eqn:F; [apply (fl_written _ _ _ _ _ IF F)|apply (fl_untouched _ _ _ _ IF F)].
    + destruct (fetch_type io g) as (T1 & T2 & T3). destruct (io_download io) as [e|] eqn:D.
      { rewrite T3 by (left; discriminate). apply ts_failed; [exact IT|left; rewrite D; discriminate]. }
      destruct (archive_kinds io) as [K|[(K & K')|K]].
      * rewrite (T1 eq_refl K). apply (ts_tar _ _ _ _ IT D K).
      * rewrite (T2 eq_refl K K'). apply (ts_zip _ _ _ _ IT D K K').
      * rewrite (T3 (or_intror K)). apply ts_failed; [exact IT|right; exact K].
  - rewrite (http_other hash c g N). split; [apply fl_other|apply ts_other]; assumption.
Qed.
Lemma nil_snoc {A} (l : list A) x : [] <> l ++ [x].
Proof. destruct l; discriminate. Qed.
Lemma file_left_one h o : file_left h o -> forall o', file_left h o' -> o = o'.
Proof.
  induction 1 as [|h o io r b H IH B|h o io r H IH B|h o c r H IH N]; intros o' H'; inversion H' as [E|h' p io' r' b' H2 B2 E|h' p io' r' H2 B2 E|h' p c' r' H2 N2 E];
    subst; try reflexivity; try (symmetry in E; apply nil_snoc in E; contradiction); try (apply nil_snoc in E; contradiction);
    try (apply snoc_inj in E; destruct E as (-> & E); injection E as E _; subst; try congruence; try (destruct N; eexists; reflexivity); try (destruct N2; eexists; reflexivity));
    try (apply IH; assumption).
Qed.
Lemma type_seen_one h t : type_seen h t -> forall t', type_seen h t' -> t = t'.
Proof.
  induction 1 as [|h t io r H IH D K|h t io r H IH D K Z|h t io r H IH D|h t c r H IH N]; intros t' H';
  inversion H' as [E|h' p io' r' H2 D2 K2 E|h' p io' r' H2 D2 K2 Z2 E|h' p io' r' H2 D2 E|h' p c' r' H2 N2 E];
    subst; try reflexivity; try (symmetry in E; apply nil_snoc in E; contradiction); try (apply nil_snoc in E; contradiction);
    try (apply snoc_inj in E; destruct E as (-> & E); injection E as E _; subst; try congruence;
         try (destruct N; eexists; reflexivity); try (destruct N2; eexists; reflexivity));
    try (apply IH; assumption); exfalso; unfold archive in *; intuition congruence.
Qed.
Lemma c69_any hash name url h f : session (http_reply hash) (new_http name url) h f -> fetched_before is_fetch_http h ->
  exists o t, file_left h o /\ type_seen h t
  /\ fst (http_reply hash HSha f) = match o with Some b => RSha (hash b) | None => RFail (EOther $"FileNotFoundError") end
  /\ fst (http_reply hash HType f) = RType t.
Proof.
  intros S F. destruct (session_state _ _ _ _ _ S) as (A & B). exists (h_file f), (h_type f). split; [exact A|]. split; [exact B|].
  assert (h_fetched f = true) as FT.
  { destruct (h_fetched f) eqn:K; [reflexivity|exfalso].
    apply (proj1 (c54_http hash name url h f HType S ltac:(intros (x & H); discriminate))); [|exact F].
    cbn [http_reply fst]. unfold http_archive_type, fetch_guard. rewrite K. reflexivity. }
  cbn [http_reply fst]. unfold http_sha256, http_archive_type, fetch_guard. rewrite FT. cbn [bind].
  split; [destruct (h_file f); reflexivity|reflexivity].
Qed.
Lemma c69_one h o t o' t' : file_left h o -> type_seen h t -> file_left h o' -> type_seen h t' -> o = o' /\ t = t'.
Proof. intros A B C D. split; [exact (file_left_one _ _ A _ C)|exact (type_seen_one _ _ B _ D)]. Qed.
