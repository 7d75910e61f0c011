(** C84 and C85: markers and pins (proofs only). *)
From Verif Require Export ConvertProofs3 ConvertProofs7.
From Verif Require Import Lemmas PatchProofs PathProofs RenderProofs RegexProofs ConvertSpec.

(** * Markers *)
Fixpoint lastc (prev : option ascii) (s : str) : option ascii := match s with [] => prev | c :: s' => lastc (Some c) s' end.
Lemma lastc_snoc prev s c : lastc prev (s ++ [c]) = Some c.
Proof. revert prev. induction s as [|d s IH]; intros prev; [reflexivity|]. cbn [app lastc]. apply IH. Qed.
Lemma sub_plain_prev r whole f t : forall s prev p,
  (forall a b, s = a ++ b -> b <> [] -> match_at r (lastc prev a) (p + length a) (b ++ t) = None) ->
  sub_aux r whole f prev p 0 (s ++ t) = s ++ sub_aux r whole f (lastc prev s) (p + length s) 0 t.
Proof.
  induction s as [|c s IH]; intros prev p Q.
  - cbn [app length lastc]. rewrite Nat.add_0_r. reflexivity.
  - cbn [app sub_aux]. pose proof (Q [] (c :: s) eq_refl ltac:(discriminate)) as N. cbn [app lastc length] in N. rewrite Nat.add_0_r in N. rewrite N.
    rewrite (IH (Some c) (S p)); [cbn [length lastc]; rewrite Nat.add_succ_r; reflexivity|].
    intros a b Hs NE. specialize (Q (c :: a) b). cbn [lastc length] in Q. rewrite Nat.add_succ_r in Q. apply Q; [rewrite Hs; reflexivity|exact NE].
Qed.
Definition MARK := JINJA_REPLACE_V0_STARTING_MARKER.
Lemma mark_none prev p s : starts_with $"{{" s = false -> match_at MARK prev p s = None.
Proof.
  intros H. destruct (match_at MARK prev p s) as [x|] eqn:M; [|reflexivity]. exfalso. apply match_lang in M as (u & v & -> & HL).
  unfold MARK, JINJA_REPLACE_V0_STARTING_MARKER in HL. cbn [seqs lang] in HL. destruct HL as (a & b & -> & Ha & Hb). apply lang_L in Hb as ->.
  cbn [lang] in Ha. subst a. cbn [app] in H. rewrite <- app_assoc in H || idtac.
  assert (starts_with $"{{" ($"{{" ++ v) = true) as X by (apply starts_with_spec; exists v; reflexivity). cbn [app] in *. congruence.
Qed.
Lemma mark_dollar p s : match_at MARK (Some "$"%char) p s = None.
Proof. reflexivity. Qed.
Lemma mark_hit prev p t : prev <> Some "$"%char -> exists x, match_at MARK prev p ($"{{" ++ t) = Some x /\ m_start x = p /\ m_end x = p + 2.
Proof.
  intros N. unfold match_at, MARK, JINJA_REPLACE_V0_STARTING_MARKER. cbn [seqs].
  match goal with |- context [m (Seq ?a ?b) ?st ?k] => change (m (Seq a b) st k) with (m a st (fun st' => m b st' k)) end.
  assert (forall (k : mst -> option rmatch), m (NotAfter (ceq "$"%char)) (start_st prev p ($"{{" ++ t)) k = k (start_st prev p ($"{{" ++ t))) as ->.
  { intros k. cbn [m start_st prevc]. destruct prev as [c|]; [|reflexivity]. destruct (ceq "$"%char c) eqn:Q; [|reflexivity]. apply ceq_eq in Q. congruence. }
  unfold L. destruct (m_lit (lit "{{") ltac:(discriminate) (start_st prev p ($"{{" ++ t)) (fun st => Some {| m_start := p; m_end := pos st; m_grps := grps st |}) t eq_refl) as (st' & -> & R & P & G).
  eexists. split; [reflexivity|]. cbn [m_start m_end]. rewrite P. auto.
Qed.
Lemma two_braces s t : starts_with $"{{" (s ++ t) = true -> s <> [] -> has_text $"{{" s \/ (s = $"{" /\ exists t', t = "{"%char :: t').
Proof.
  intros H N. apply starts_with_spec in H as (b & H). change ($"{{" ++ b) with ("{"%char :: "{"%char :: b) in H.
  destruct s as [|c [|d s]]; [contradiction|..]; cbn [app] in H.
  - injection H as -> H. right. split; [reflexivity|]. exists b. exact H.
  - injection H as -> -> H. left. exists [], s. reflexivity.
Qed.
Lemma piece_quiet prev p s t : ~ has_text $"{{" s -> (~ ends_with_char "{"%char s \/ forall t', t <> "{"%char :: t') ->
  forall a b, s = a ++ b -> b <> [] -> match_at MARK (lastc prev a) (p + length a) (b ++ t) = None.
Proof.
  intros H K a b E N. apply mark_none. destruct (starts_with $"{{" (b ++ t)) eqn:S; [|reflexivity]. exfalso.
  apply two_braces in S as [S|(-> & t' & ->)]; [|..|exact N].
  - apply H. destruct S as (x & y & ->). exists (a ++ x), y. rewrite E, <- !app_assoc. reflexivity.
  - destruct K as [K|K]; [apply K; exists a; exact E|exact (K t' eq_refl)].
Qed.
Lemma lastc_not prev s c : prev <> Some c -> ~ ends_with_char c s -> lastc prev s <> Some c.
Proof.
  intros P N H. destruct s as [|d s] using rev_ind; [exact (P H)|]. rewrite lastc_snoc in H. injection H as ->. apply N. exists s. reflexivity.
Qed.
Lemma marked_cons shown first b piece more : marked shown first ((b, piece) :: more) = first ++ shown b ++ marked shown piece more.
Proof. unfold marked. cbn [map concat fst snd]. rewrite <- app_assoc. reflexivity. Qed.
Lemma mark_sub whole : forall more first prev p, pieces_ok first more -> prev <> Some "$"%char ->
  sub_aux MARK whole (fun _ => $"${{") prev p 0 (marked old_marker first more) = marked new_marker first more.
Proof.
  induction more as [|[b piece] more IH]; intros first prev p H NP.
  - unfold marked. cbn [map concat]. rewrite !app_nil_r. destruct H as [H _].
    rewrite <- (app_nil_r first) at 1. rewrite (sub_plain_prev MARK whole _ [] first prev p); [cbn [sub_aux]; apply app_nil_r|].
    apply piece_quiet; [exact H|right; discriminate].
  - rewrite !marked_cons. cbn [pieces_ok] in H. destruct H as (H & EB & ED & PE & PB & OK).
    assert (forall prev' p', prev' <> Some "$"%char -> sub_aux MARK whole (fun _ => $"${{") prev' p' 0 (marked old_marker piece more) = marked new_marker piece more) as K.
    { intros prev' p' N'. apply IH; assumption. }
    rewrite (sub_plain_prev MARK whole _ _ first prev p) by (apply piece_quiet; [exact H|left; exact EB]). f_equal.
    assert (forall t', marked old_marker piece more <> "{"%char :: t') as NB.
    { intros t' E. destruct piece as [|c piece].
      - rewrite (PE eq_refl) in E. discriminate.
      - unfold marked in E. cbn [app] in E. injection E as -> _. exact (PB piece eq_refl). }
    destruct b; cbn [old_marker new_marker].
    + change ($"${{" ++ marked old_marker piece more) with ("$"%char :: "{"%char :: "{"%char :: marked old_marker piece more).
      cbn [sub_aux]. rewrite mark_none by reflexivity. rewrite mark_dollar. rewrite mark_none.
      * rewrite K by discriminate. reflexivity.
      * destruct (starts_with $"{{" ("{"%char :: marked old_marker piece more)) eqn:S; [|reflexivity]. exfalso.
        apply starts_with_spec in S as (z & S). change ($"{{" ++ z) with ("{"%char :: "{"%char :: z) in S. injection S as S. exact (NB z S).
    + destruct (mark_hit (lastc prev first) (p + length first) (marked old_marker piece more)) as (x & M & Ms & Me).
      { apply lastc_not; [exact NP|apply ED; reflexivity]. }
      change ($"{{" ++ marked old_marker piece more) with ("{"%char :: "{"%char :: marked old_marker piece more) in *.
      cbn [sub_aux]. rewrite M, Ms, Me. replace (p + length first + 2 - (p + length first) - 1) with 1 by lia. f_equal.
      apply K. discriminate.
Qed.
Lemma c84 first more : pieces_ok first more -> to_v1_marker (marked old_marker first more) = marked new_marker first more.
Proof. intros H. unfold to_v1_marker, re_sub, re_sub_f. apply mark_sub; [exact H|discriminate]. Qed.
Lemma new_as_old first more : marked new_marker first more = marked old_marker first (map (fun x => (true, snd x)) more).
Proof. unfold marked. f_equal. rewrite map_map. reflexivity. Qed.
Lemma new_pieces : forall more first, pieces_ok first more -> pieces_ok first (map (fun x => (true, snd x)) more).
Proof.
  induction more as [|[b piece] more IH]; intros first H; [exact H|]. cbn [pieces_ok map snd] in *. destruct H as (H & EB & ED & PE & PB & OK).
  split; [exact H|]. split; [exact EB|]. split; [discriminate|]. split; [intros Q; rewrite (PE Q); reflexivity|]. split; [exact PB|]. exact (IH piece OK).
Qed.
Lemma c84_twice first more : pieces_ok first more -> to_v1_marker (to_v1_marker (marked old_marker first more)) = to_v1_marker (marked old_marker first more).
Proof.
  intros H. rewrite (c84 first more H), new_as_old, (c84 first _ (new_pieces more first H)). rewrite <- new_as_old. unfold marked. rewrite map_map. reflexivity.
Qed.

(** * Pins *)
Lemma quiet_lit p c s t : ~ In c p -> ~ has_text (p ++ [c]) s ->
  (t = [] \/ exists q t', t = q ++ c :: t' /\ ~ In c q /\ (forall b, b <> [] -> p ++ [c] <> b ++ q ++ [c])) -> quiet_in (L_ (p ++ [c])) s t.
Proof.
  intros NP NS HT a b E N. apply no_lit_at. destruct (starts_with (p ++ [c]) (b ++ t)) eqn:S; [exfalso|reflexivity].
  apply starts_with_spec in S as (v & S).
  assert (~ has_text (p ++ [c]) b) as NB by (intros (x & y & ->); apply NS; exists (a ++ x), y; rewrite E, <- !app_assoc; reflexivity).
  destruct (Nat.le_gt_cases (length (p ++ [c])) (length b)) as [L|L].
  - apply NB. pose proof (f_equal (firstn (length (p ++ [c]))) S) as F. rewrite firstn_app in F.
    replace (length (p ++ [c]) - length b) with 0 in F by lia. rewrite firstn_O, app_nil_r in F.
    rewrite firstn_app, Nat.sub_diag, firstn_O, app_nil_r, firstn_all in F. exists [], (skipn (length (p ++ [c])) b).
    cbn [app]. rewrite <- F at 1. symmetry. apply firstn_skipn.
  - destruct HT as [->|(q & t' & -> & NQ & HQ)].
    + rewrite app_nil_r in S. rewrite S in L. rewrite app_length in L. lia.
    + assert (exists y, p ++ [c] = b ++ y /\ y <> [] /\ exists v', q ++ c :: t' = y ++ v') as (y & Ey & Ny & v' & Ev).
      { exists (skipn (length b) (p ++ [c])). pose proof (f_equal (firstn (length b)) S) as F. rewrite firstn_app, Nat.sub_diag, firstn_O, app_nil_r, firstn_all in F.
        rewrite firstn_app in F. replace (length b - length (p ++ [c])) with 0 in F by lia. rewrite firstn_O, app_nil_r in F.
        split; [rewrite F at 1; symmetry; apply firstn_skipn|]. split; [intros Z; apply (f_equal (@length ascii)) in Z; rewrite skipn_length in Z; cbn [length] in Z; lia|].
        exists v. pose proof (f_equal (skipn (length b)) S) as G. rewrite skipn_app, skipn_all, Nat.sub_diag in G. cbn [app skipn] in G.
        rewrite skipn_app in G. replace (length b - length (p ++ [c])) with 0 in G by lia. exact G. }
      destruct (exists_last Ny) as (y' & d & ->). rewrite app_assoc in Ey. apply app_inj_tail in Ey as [Ey <-].
      assert (~ In c y') as NY by (intros I; apply NP; rewrite Ey; apply in_or_app; right; exact I).
      assert (q = y') as ->.
      { rewrite <- app_assoc in Ev. cbn [app] in Ev. clear -Ev NQ NY. revert y' Ev NY. induction q as [|x q IH]; intros y' Ev NY.
        - destruct y' as [|z y']; [reflexivity|]. injection Ev as <- _. exfalso. apply NY. left. reflexivity.
        - destruct y' as [|z y']; cbn [app] in Ev; injection Ev as -> Ev; [exfalso; apply NQ; left; reflexivity|].
          f_equal. apply IH; [intros I; apply NQ; right; exact I|exact Ev|intros I; apply NY; right; exact I]. }
      apply (HQ b N). rewrite Ey, <- app_assoc. reflexivity.
Qed.
Lemma first_c (c : ascii) (p q v w : str) : ~ In c p -> ~ In c q -> p ++ c :: v = q ++ c :: w -> p = q.
Proof.
  revert q. induction p as [|x p IH]; intros q NP NQ E.
  - destruct q as [|z q]; [reflexivity|]. injection E as <- _. exfalso. apply NQ. left. reflexivity.
  - destruct q as [|z q]; cbn [app] in E; injection E as -> E; [exfalso; apply NP; left; reflexivity|].
    f_equal. apply IH; [intros I; apply NP; right; exact I|intros I; apply NQ; right; exact I|exact E].
Qed.
Lemma quiet_token p c s t : ~ In c p -> ~ In c s -> ~ has_text (p ++ [c]) (s ++ [c]) -> quiet_in (L_ (p ++ [c])) (s ++ [c]) t.
Proof.
  intros NP NS NH a b E N. apply no_lit_at. destruct (starts_with (p ++ [c]) (b ++ t)) eqn:S; [exfalso|reflexivity].
  apply starts_with_spec in S as (v & S). destruct (exists_last N) as (b' & d & ->). rewrite app_assoc in E. apply app_inj_tail in E as [E <-].
  rewrite <- !app_assoc in S. cbn [app] in S. symmetry in S. apply first_c in S as <-.
  - apply NH. exists a, []. rewrite E, <- !app_assoc. reflexivity.
  - exact NP.
  - intros I. apply NS. rewrite E. apply in_or_app. right. exact I.
Qed.
Definition mid_pin (p : pin) : str := match p with MinPin => $"lower_bound=" | MaxPin => $"max_pin=" end.
Lemma has_text_dec p s : contains_sub p s = false -> ~ has_text p s.
Proof. intros H X. apply contains_sub_spec in X. congruence. Qed.
Ltac no_eq := let H := fresh in intros H; vm_compute in H; repeat (destruct H as [H|H]; [discriminate|]); exact H.
Lemma pin_heads (R : pin -> str) (n : nat) : (forall k, exists q, R k = q ++ $"=" /\ ~ In "="%char q /\ n <= length q) ->
  forall p more, length p <= n -> texts R more = [] \/ exists q t', texts R more = q ++ "="%char :: t' /\ ~ In "="%char q /\ (forall b, b <> [] -> p ++ $"=" <> b ++ q ++ $"=").
Proof.
  intros HR p [|[k a] more] L; [left; reflexivity|right]. destruct (HR k) as (q & E & NQ & LQ). exists q, (a ++ texts R more).
  rewrite texts_cons, E, <- app_assoc. split; [reflexivity|]. split; [exact NQ|]. intros b N X. apply (f_equal (@length ascii)) in X. rewrite !app_length in X.
  change (length ($"=")) with 1 in X. destruct b; [contradiction|]. cbn [length] in X. lia.
Qed.
Lemma pin_pass old new (R0 R1 : pin -> str) : ~ In "="%char old -> length old = 7 ->
  (forall k, exists q, R0 k = q ++ $"=" /\ ~ In "="%char q /\ 7 <= length q) ->
  (forall k, R0 k = R1 k /\ ~ has_text (old ++ $"=") (R0 k) \/ R0 k = old ++ $"=" /\ R1 k = new) ->
  forall first more, ~ has_text (old ++ $"=") first -> Forall (fun x => ~ has_text (old ++ $"=") (snd x)) more ->
  re_sub (L_ (old ++ $"=")) new (pinned R0 first more) = pinned R1 first more.
Proof.
  intros NO LO HR HK first more HF HM. unfold re_sub.
  assert (forall s more', ~ has_text (old ++ $"=") s -> quiet_in (L_ (old ++ $"=")) s (texts R0 more')) as Q.
  { intros s more' NS. apply quiet_lit; [exact NO|exact NS|]. apply (pin_heads R0 7 HR). lia. }
  apply (passes_whole (L_ (old ++ $"=")) (fun _ _ => new) R0 R1 first more).
  - apply Q. exact HF.
  - clear first HF. induction HM as [|[k a] more H HM IH]; [exact I|]. cbn [passes]. split; [|split; [apply Q; exact H|exact IH]].
    destruct (HK k) as [[E N]|[E E']].
    + left. split; [exact E|]. destruct (HR k) as (q & Eq & NQ & _). rewrite Eq in *. apply quiet_token; assumption.
    + right. rewrite E, E'. apply lit_hit. destruct old; discriminate.
Qed.
Lemma c85_pins first more : unpinned first -> Forall (fun x => unpinned (snd x)) more -> pre_pins (pinned old_pin first more) = pinned new_pin first more.
Proof.
  intros HF HM. unfold pre_pins. change PRE_MIN_PIN with (L_ ($"min_pin" ++ $"=")). change PRE_MAX_PIN with (L_ ($"max_pin" ++ $"=")).
  rewrite (pin_pass $"min_pin" $"lower_bound=" old_pin mid_pin).
  - rewrite (pin_pass $"max_pin" $"upper_bound=" mid_pin new_pin); [reflexivity|no_eq|reflexivity|..].
    + intros []; [exists $"lower_bound"|exists $"max_pin"]; (split; [reflexivity|]; split; [no_eq|]; vm_compute; lia).
    + intros []; [left; split; [reflexivity|apply has_text_dec; vm_compute; reflexivity]|right; split; reflexivity].
    + apply HF.
    + eapply Forall_impl; [|exact HM]. intros x [_ H]. exact H.
  - no_eq.
  - reflexivity.
  - intros []; [exists $"min_pin"|exists $"max_pin"]; (split; [reflexivity|]; split; [no_eq|]; vm_compute; lia).
  - intros []; [right; split; reflexivity|left; split; [reflexivity|apply has_text_dec; vm_compute; reflexivity]].
  - apply HF.
  - eapply Forall_impl; [|exact HM]. intros x [H _]. exact H.
Qed.
