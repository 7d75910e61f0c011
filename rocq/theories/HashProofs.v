(** C107: what is done about the hash-type variable (proofs only). *)
From Verif Require Export ConvertProofs10.
From Verif Require Import Lemmas PatchProofs PathProofs RenderProofs RegexProofs Commands HashSpec.

(** * Texts that cannot start at the end of one piece and go on in the next *)
Fixpoint differs (v b : str) : bool :=
  match v, b with x :: v', y :: b' => if ceq x y then differs v' b' else true | _, _ => false end.
Lemma differs_app v b t w : differs v b = true -> v ++ w = b ++ t -> False.
Proof.
  revert b. induction v as [|x v IH]; intros [|y b] H E; cbn [differs] in H; try discriminate.
  cbn [app] in E. injection E as -> E. destruct (ceq y y) eqn:Q.
  - exact (IH b H E).
  - unfold ceq in Q. rewrite Ascii.eqb_refl in Q. discriminate.
Qed.
Definition no_cross (w s t : str) : Prop :=
  forall i v, 0 < i -> i < length w -> (exists a, s = a ++ firstn i w) -> t = skipn i w ++ v -> False.
Lemma crossing w s t a b v : w <> [] -> ~ has_text w s -> no_cross w s t -> s = a ++ b -> b <> [] -> b ++ t = w ++ v -> False.
Proof.
  intros NW NH NC E NB H. apply app_eq_app in H as (l & [[-> ->]|[-> ->]]).
  - apply NH. exists a, l. rewrite E. reflexivity.
  - destruct l as [|c l].
    + rewrite app_nil_r in NH. apply NH. exists a, []. rewrite app_nil_r. exact E.
    + apply (NC (length b) v).
      * destruct b; [contradiction|cbn [length]; lia].
      * rewrite app_length. cbn [length]. lia.
      * exists a. rewrite firstn_app, Nat.sub_diag, firstn_all. cbn [firstn]. rewrite app_nil_r. exact E.
      * rewrite skipn_app, Nat.sub_diag, skipn_all. reflexivity.
Qed.
Definition cross_ok (w k : str) : bool := forallb (fun i => differs (skipn i w) k) (seq 1 (length w - 1)).
Lemma cross_key w k s t : cross_ok w k = true -> no_cross w s (k ++ t).
Proof.
  intros H i v P L _ E. unfold cross_ok in H. rewrite forallb_forall in H. refine (differs_app _ _ _ _ (H i _) (eq_sym E)). apply in_seq. lia.
Qed.
Definition cross_ok2 (w k : str) : bool := forallb (fun i => differs (skipn i w) k) (seq 2 (length w - 2)).
Lemma cross_key2 w k s t : hd cNL w = "'"%char -> ~ ends_with_char "'"%char s -> cross_ok2 w k = true -> no_cross w s (k ++ t).
Proof.
  intros HD NQ H i v P L (a & S) E. unfold cross_ok2 in H. rewrite forallb_forall in H. destruct (Nat.eq_dec i 1) as [->|N].
  - apply NQ. exists a. rewrite S. destruct w as [|c w]; [discriminate|]. cbn [hd] in HD. subst c. reflexivity.
  - refine (differs_app _ _ _ _ (H i _) (eq_sym E)). apply in_seq. lia.
Qed.
Definition nl_only_last (w : str) : bool := forallb (fun c => negb (ceq c cNL)) (removelast w).
Lemma cross_line w s t : nl_only_last w = true -> s = [] \/ ends_with_char cNL s -> no_cross w s t.
Proof.
  intros H S i v P L (a & E) _.
  assert (firstn i w <> []) as N by (destruct i, w; cbn [length] in L; try lia; discriminate).
  destruct S as [->|(x & ->)]; [destruct a; destruct (firstn i w); try contradiction; discriminate|].
  destruct (exists_last N) as (f & c & F). rewrite F, app_assoc in E. apply app_inj_tail in E as [_ <-].
  unfold nl_only_last in H. rewrite forallb_forall in H. specialize (H cNL).
  assert (In cNL (removelast w)) as I.
  { rewrite <- (firstn_skipn i w). rewrite removelast_app.
    - apply in_or_app. left. rewrite F. apply in_or_app. right. left. reflexivity.
    - intros Z. apply (f_equal (@length ascii)) in Z. rewrite skipn_length in Z. cbn [length] in Z. lia. }
  specialize (H I). discriminate.
Qed.
Lemma cross_end w s : no_cross w s [].
Proof. intros i v P L _ E. apply (f_equal (@length ascii)) in E. rewrite app_length, skipn_length in E. cbn [length] in E. lia. Qed.

(** * Removing a text *)
Definition silent (w s t : str) : Prop := forall a b v, s = a ++ b -> b <> [] -> b ++ t = w ++ v -> False.
Lemma not_starting w s : (forall v, s = w ++ v -> False) -> starts_with w s = false.
Proof. intros H. destruct (starts_with w s) eqn:E; [exfalso|reflexivity]. apply starts_with_spec in E as (v & E). exact (H v E). Qed.
Lemma replace_plain w n t : forall s, silent w s t -> replace_all_aux w n 0 (s ++ t) = s ++ replace_all_aux w n 0 t.
Proof.
  induction s as [|c s IH]; intros Q; [reflexivity|]. cbn [app replace_all_aux].
  rewrite (not_starting w (c :: s ++ t)) by (intros v E; exact (Q [] (c :: s) v eq_refl ltac:(discriminate) E)).
  f_equal. apply IH. intros a b v E. apply (Q (c :: a) b v). rewrite E. reflexivity.
Qed.
Lemma replace_skip w n t : forall u, replace_all_aux w n (length u) (u ++ t) = replace_all_aux w n 0 t.
Proof. induction u as [|c u IH]; [destruct t; reflexivity|]. cbn [app length replace_all_aux]. exact IH. Qed.
Lemma replace_hit w n t : w <> [] -> replace_all_aux w n 0 (w ++ t) = n ++ replace_all_aux w n 0 t.
Proof.
  intros N. destruct w as [|c w]; [contradiction|]. cbn [app replace_all_aux].
  assert (starts_with (c :: w) (c :: w ++ t) = true) as -> by (apply starts_with_spec; exists t; reflexivity).
  f_equal. cbn [length]. replace (S (length w) - 1) with (length w) by lia. apply replace_skip.
Qed.
Definition silent_ok (w s : str) : bool := forallb (fun i => differs w (skipn i s)) (seq 0 (length s)).
Lemma silent_mark w s t : silent_ok w s = true -> silent w s t.
Proof.
  intros H a b v E N X. unfold silent_ok in H. rewrite forallb_forall in H.
  assert (skipn (length a) s = b) as B by (rewrite E, skipn_app, Nat.sub_diag, skipn_all; reflexivity).
  refine (differs_app w b t v _ (eq_sym X)). rewrite <- B. apply H. apply in_seq. rewrite E, app_length. destruct b; [contradiction|cbn [length]; lia].
Qed.

(** * The marks *)
Definition set_texts : list str := map (fun n => old_mark (HSet n)) hash_names.
Definition key_texts : list str := flat_map (fun n => [old_mark (HKey true n true); old_mark (HKey true n false); old_mark (HKey false n true); old_mark (HKey false n false)]) hash_names.
Lemma in_set n : In n hash_names -> In (old_mark (HSet n)) set_texts.
Proof. intros I. exact (in_map (fun n => old_mark (HSet n)) _ _ I). Qed.
Lemma in_key q n c : In n hash_names -> In (old_mark (HKey q n c)) key_texts.
Proof. intros I. apply in_flat_map. exists n. split; [exact I|]. destruct q, c; cbn [In]; auto. Qed.
Lemma set_in w : In w set_texts -> exists n, In n hash_names /\ w = old_mark (HSet n).
Proof. intros I. apply in_map_iff in I as (n & <- & I). eauto. Qed.
Lemma set_facts w : In w set_texts -> nl_only_last w = true /\ w <> [] /\ forall k, In k key_texts -> cross_ok w k = true /\ silent_ok w k = true.
Proof.
  intros I.
  assert (forallb (fun w => nl_only_last w && negb (str_eqb w []) && forallb (fun k => cross_ok w k && silent_ok w k) key_texts) set_texts = true) as A by (vm_compute; reflexivity).
  rewrite forallb_forall in A. specialize (A w I). apply andb_prop in A as [A C]. apply andb_prop in A as [A B]. split; [exact A|]. split.
  - intros ->. vm_compute in B. discriminate.
  - intros k Ik. rewrite forallb_forall in C. specialize (C k Ik). apply andb_prop in C. exact C.
Qed.
Lemma set_other w w' : In w set_texts -> In w' set_texts -> w = w' \/ silent_ok w w' = true.
Proof.
  intros I I'.
  assert (forallb (fun w => forallb (fun w' => str_eqb w w' || silent_ok w w') set_texts) set_texts = true) as A by (vm_compute; reflexivity).
  rewrite forallb_forall in A. specialize (A w I). rewrite forallb_forall in A. specialize (A w' I'). apply orb_prop in A as [A|A]; [left; apply str_eqb_eq; exact A|right; exact A].
Qed.

(** * Removing the lines that set a variable *)
Definition shown_without (vs : list str) (m : hash_mark) : str :=
  match m with HSet _ => if mem_str (old_mark m) vs then [] else old_mark m | HKey _ _ _ => old_mark m end.
Lemma marks_cons f first m piece more : with_marks f first ((m, piece) :: more) = first ++ f m ++ with_marks f piece more.
Proof. unfold with_marks. cbn [map concat fst snd]. rewrite <- !app_assoc. reflexivity. Qed.
Lemma piece_silent w vs first more : In w set_texts -> marks_ok first more ->
  silent w first (match more with [] => [] | (m, piece) :: more' => shown_without vs m ++ with_marks (shown_without vs) piece more' end).
Proof.
  intros I OK a b v E N X. destruct (set_facts w I) as (NL & NE & K). destruct (set_in w I) as (n & In_ & Ew).
  refine (crossing w first _ a b v NE _ _ E N X).
  - destruct more as [|[m piece] more]; destruct OK as [NM _]; rewrite Ew; exact (NM (HSet n) In_).
  - destruct more as [|[m piece] more]; [apply cross_end|]. destruct OK as (_ & Im & C & _). destruct m as [n'|q n' c].
    + apply cross_line; [exact NL|exact C].
    + cbn [shown_without]. apply cross_key. apply K. apply in_key. exact Im.
Qed.
Lemma remove_one w vs : In w set_texts -> forall more first, marks_ok first more ->
  replace_all_aux w [] 0 (with_marks (shown_without vs) first more) = with_marks (shown_without (w :: vs)) first more.
Proof.
  intros I. induction more as [|[m piece] more IH]; intros first OK.
  - pose proof (piece_silent w vs first [] I OK) as S. unfold with_marks. cbn [map concat]. rewrite (replace_plain w [] [] first S). reflexivity.
  - rewrite !marks_cons. pose proof (piece_silent w vs first _ I OK) as S. cbv beta iota in S. rewrite (replace_plain w [] _ first S). f_equal.
    destruct OK as (_ & Im & _ & OK). rewrite <- (IH piece OK). destruct m as [n|q n c]; cbn [shown_without].
    + unfold mem_str. cbn [existsb]. destruct (str_eqb (old_mark (HSet n)) w) eqn:Q.
      * apply str_eqb_eq in Q. cbn [orb]. destruct (existsb (str_eqb (old_mark (HSet n))) vs); [reflexivity|]. rewrite Q.
        rewrite replace_hit by (destruct (set_facts w I) as (_ & NE & _); exact NE). reflexivity.
      * cbn [orb]. destruct (existsb (str_eqb (old_mark (HSet n))) vs); [reflexivity|].
        destruct (set_other w (old_mark (HSet n)) I (in_set n Im)) as [Z|Z]; [rewrite <- Z, str_eqb_refl in Q; discriminate|].
        rewrite (replace_plain w [] _ (old_mark (HSet n)) (silent_mark w _ _ Z)). reflexivity.
    + destruct (set_facts w I) as (_ & _ & K). destruct (K _ (in_key q n c Im)) as [_ Z].
      rewrite (replace_plain w [] _ (old_mark (HKey q n c)) (silent_mark w _ _ Z)). reflexivity.
Qed.
Lemma remove_all : forall ws vs more first, (forall w, In w ws -> In w set_texts) -> marks_ok first more ->
  fold_left (fun s v => replace_all v [] s) ws (with_marks (shown_without vs) first more) = with_marks (shown_without (rev ws ++ vs)) first more.
Proof.
  induction ws as [|w ws IH]; intros vs more first H OK; [reflexivity|]. cbn [fold_left rev]. unfold replace_all at 2.
  rewrite (remove_one w vs (H w (or_introl eq_refl)) more first OK). rewrite <- app_assoc. apply (IH (w :: vs)); [intros x Hx; apply H; right; exact Hx|exact OK].
Qed.
Lemma shown_eq f g : forall more first, (forall m, In (mark_name m) hash_names -> f m = g m) -> marks_ok first more -> with_marks f first more = with_marks g first more.
Proof.
  induction more as [|[m piece] more IH]; intros first H OK; [reflexivity|]. rewrite !marks_cons. destruct OK as (_ & Im & _ & OK). rewrite (H m Im), (IH piece H OK). reflexivity.
Qed.

(** * The uses as a key *)
Lemma key_lang u : lang PRE_PROCESS_JINJA_HASH_TYPE_KEY u -> exists q n c, In n hash_names /\ u = old_mark (HKey q n c).
Proof.
  unfold PRE_PROCESS_JINJA_HASH_TYPE_KEY. cbn [seqs]. intros (a & b & -> & Ha & c & d & -> & Hc & e & f & -> & He & g & h & -> & Hg & i & j & -> & Hi & Hj).
  unfold L in *. rewrite lang_L in Hc, Hg, Hj. subst c g j. cbn [lang] in Ha, He, Hi.
  assert (exists q, a = quote_if q) as (q & ->).
  { destruct Ha as [Ha| ->]; [exists true; apply (proj1 (lang_L (lit "'") a)) in Ha; subst; reflexivity|exists false; reflexivity]. }
  assert (exists q, i = quote_if q) as (z & ->).
  { destruct Hi as [Hi| ->]; [exists true; apply (proj1 (lang_L (lit "'") i)) in Hi; subst; reflexivity|exists false; reflexivity]. }
  exists q, e, z. split; [|cbn [old_mark]; reflexivity].
  unfold hash_names. cbn [In]. destruct He as [He|[He|He]].
  - left. symmetry. exact (proj1 (lang_L (lit "hash_type") e) He).
  - right; left. symmetry. exact (proj1 (lang_L (lit "hash") e) He).
  - right; right; left. symmetry. exact (proj1 (lang_L (lit "hashtype") e) He).
Qed.
Definition bare (m : hash_mark) : str := match m with HSet _ => [] | HKey _ _ _ => old_mark m end.
Lemma key_cross w k : In w key_texts -> In k key_texts -> w <> [] /\ nl_only_last w = true
  /\ (cross_ok w k = true \/ hd cNL k <> "'"%char /\ hd cNL w = "'"%char /\ cross_ok2 w k = true).
Proof.
  intros Iw Ik.
  assert (forallb (fun w => forallb (fun k => negb (str_eqb w []) && nl_only_last w
      && (cross_ok w k || negb (ceq (hd cNL k) "'"%char) && ceq (hd cNL w) "'"%char && cross_ok2 w k)) key_texts) key_texts = true) as A by (vm_compute; reflexivity).
  rewrite forallb_forall in A. specialize (A w Iw). rewrite forallb_forall in A. specialize (A k Ik).
  apply andb_prop in A as [A C]. apply andb_prop in A as [A B]. split; [intros ->; vm_compute in A; discriminate|]. split; [exact B|].
  apply orb_prop in C as [C|C]; [left; exact C|right]. apply andb_prop in C as [C D]. apply andb_prop in C as [C C2].
  split; [intros Z; rewrite Z in C; vm_compute in C; discriminate|]. split; [apply Ascii.eqb_eq; exact C2|exact D].
Qed.
Lemma key_quiet first more : marks_ok first more -> quiet_in PRE_PROCESS_JINJA_HASH_TYPE_KEY first (texts bare more).
Proof.
  intros OK a b E N. apply lang_head. intros u v HL X. apply key_lang in HL as (q & n & c & Hn & ->).
  pose proof (in_key q n c Hn) as Iw.
  refine (crossing (old_mark (HKey q n c)) first (texts bare more) a b v _ _ _ E N X).
  - apply (key_cross _ _ Iw Iw).
  - destruct more as [|[m piece] more]; destruct OK as [NM _]; exact (NM (HKey q n c) Hn).
  - destruct more as [|[m piece] more]; [apply cross_end|]. destruct OK as (_ & Im & C & _).
    assert (texts bare ((m, piece) :: more) = bare m ++ (piece ++ texts bare more)) as -> by (unfold texts; cbn [map concat fst snd]; rewrite <- app_assoc; reflexivity).
    destruct m as [n'|q' n' c']; cbn [bare].
    + apply cross_line; [apply (key_cross _ _ Iw Iw)|exact C].
    + destruct (key_cross _ _ Iw (in_key q' n' c' Im)) as (_ & _ & [K|(K1 & K2 & K3)]); [apply cross_key; exact K|].
      apply cross_key2; [exact K2| |exact K3]. apply C. destruct q'; [exfalso; apply K1; reflexivity|reflexivity].
Qed.
Lemma key_hit q n c t : In n hash_names -> hit PRE_PROCESS_JINJA_HASH_TYPE_KEY (fun _ _ => $"sha256:") (old_mark (HKey q n c)) $"sha256:" t.
Proof.
  intros I. split; [destruct q; discriminate|]. intros done prev. remember (length done) as p eqn:Z. clear Z.
  destruct I as [<-|[<-|[<-|[]]]]; destruct q, c;
    (eexists; split; [cbv - [Nat.add]; reflexivity|]; split; [reflexivity|]; split; [|reflexivity];
     cbn [m_end]; match goal with |- _ = p + ?l => let k := eval vm_compute in l in change l with k end; lia).
Qed.
Lemma key_passes : forall more first, marks_ok first more -> passes PRE_PROCESS_JINJA_HASH_TYPE_KEY (fun _ _ => $"sha256:") bare new_mark more.
Proof.
  induction more as [|[m piece] more IH]; intros first OK; cbn [passes]; [exact I|].
  destruct OK as (_ & Im & _ & OK). split; [|split; [apply key_quiet; exact OK|exact (IH piece OK)]].
  destruct m as [n|q n c].
  - left. split; [reflexivity|]. intros a b E N. destruct a; [destruct b; [contradiction|discriminate]|discriminate].
  - right. apply key_hit. exact Im.
Qed.
Lemma c107 variants first more : (forall v, In v variants <-> In v HASH_TYPE_VARIANTS) -> marks_ok first more ->
  pre_process_remove_hash_type variants (with_marks old_mark first more) = with_marks new_mark first more.
Proof.
  intros V OK. unfold pre_process_remove_hash_type.
  assert (forall v, In v HASH_TYPE_VARIANTS <-> In v set_texts) as HV.
  { intros v. assert (forallb (fun x => mem_str x set_texts) HASH_TYPE_VARIANTS && forallb (fun x => mem_str x HASH_TYPE_VARIANTS) set_texts = true) as A by (vm_compute; reflexivity).
    apply andb_prop in A as [A B]. rewrite forallb_forall in A, B.
    split; intros H; [specialize (A v H); rename A into Z|specialize (B v H); rename B into Z]; unfold mem_str in Z; apply existsb_exists in Z as (y & Iy & Q); apply str_eqb_eq in Q; subst y; exact Iy. }
  rewrite <- (shown_eq (shown_without []) old_mark more first) by (first [exact OK | intros [n|q n c] _; reflexivity]).
  rewrite (remove_all variants [] more first) by (first [exact OK | intros w Hw; apply HV, V; exact Hw]). rewrite app_nil_r.
  rewrite (shown_eq _ bare more first).
  - exact (passes_whole PRE_PROCESS_JINJA_HASH_TYPE_KEY (fun _ _ => $"sha256:") bare new_mark first more (key_quiet first more OK) (key_passes more first OK)).
  - intros [n|q n c] Hm; [|reflexivity]. cbn [shown_without bare].
    assert (mem_str (old_mark (HSet n)) (rev variants) = true) as ->; [|reflexivity].
    unfold mem_str. apply existsb_exists. exists (old_mark (HSet n)). split; [|apply str_eqb_refl]. apply -> in_rev. apply V, HV, in_set. exact Hm.
  - exact OK.
Qed.
