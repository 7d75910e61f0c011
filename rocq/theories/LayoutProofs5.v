(** From lines to text: the Jinja variables and the whole recipe (proofs only). *)
From Verif Require Export LayoutProofs4.

(** * Statement lines *)
(** The end of a Jinja statement line: any text, then the closing mark, then a white-space run that ends with a newline. *)
Definition END_SET : re := seqs [DOTS; L "%}"; WS; C cNL].
Lemma end_set_ends {A} y w s st (k : mst -> option A) x :
  rest st = y ++ $"%}" ++ (w ++ [cNL]) ++ s -> ~ In cNL y -> blank w -> match s with c :: _ => is_space c = false | [] => True end ->
  (forall st', rest st' = s -> pos st' = pos st + length (y ++ $"%}" ++ (w ++ [cNL])) -> grps st' = grps st -> k st' = Some x) ->
  m END_SET st k = Some x.
Proof.
  intros R NN B Hs Hk.
  assert (forall st1, rest st1 = $"%}" ++ (w ++ [cNL]) ++ s -> pos st1 = pos st + length y -> grps st1 = grps st ->
    m (seqs [L "%}"; WS; C cNL]) st1 k = Some x) as H1.
  { intros st1 R1 P1 G1. cbn [seqs]. apply m_seq. unfold L.
    destruct (m_lit (lit "%}") ltac:(discriminate) st1 (fun st' => m (Seq WS (C cNL)) st' k) ((w ++ [cNL]) ++ s) R1) as (st2 & -> & R2 & P2 & G2).
    apply m_seq. unfold WS. cbn [m]. rewrite R2. rewrite <- app_assoc.
    pose proof R2 as R2'. rewrite <- app_assoc in R2'.
    apply star_last.
    - apply Forall_forall. exact B.
    - intros b1 b2 E N F. rewrite fwd_add. destruct b1 as [|c b1]; [contradiction|]. cbn [app] in E. injection E as <- E.
      assert (b1 = [] /\ b2 = s) as [-> ->].
      { destruct b1 as [|d b1]; [split; [reflexivity|symmetry; exact E]|]. rewrite E in Hs. cbn [app] in Hs. inversion F as [|? ? _ F']; subst. inversion F'; subst. congruence. }
      pose proof (fwd_rest w st2 _ R2') as R3. pose proof (fwd_rest [cNL] _ s R3) as R4.
      unfold C. cbn [m]. rewrite R4. destruct s as [|d s]; [reflexivity|].
      destruct (ceq cNL d) eqn:Ed; [|reflexivity]. apply ceq_eq in Ed as <-. discriminate Hs.
    - pose proof (fwd_rest w st2 _ R2') as R3. pose proof (fwd_pos w st2 _ R2') as P3.
      eapply m_chr; [exact R3|]. destruct (adv_pos _ _ _ R3) as [P4 R4]. apply Hk.
      + exact R4.
      + rewrite P4, P3, P2, P1. rewrite !app_length. cbn [length]. lia.
      + rewrite adv_grps, fwd_grps, G2, G1. reflexivity. }
  unfold END_SET. change (seqs [DOTS; L "%}"; WS; C cNL]) with (Seq DOTS (seqs [L "%}"; WS; C cNL])). apply m_seq.
  unfold DOTS. cbn [m]. rewrite R. apply star_last.
  - apply Forall_forall. intros c I. unfold any_c. destruct (ceq c cNL) eqn:Ec; [apply ceq_eq in Ec; subst; contradiction|reflexivity].
  - intros b1 b2 E N F. rewrite fwd_add.
    pose proof (fwd_rest y st _ R) as R1.
    assert (rest (fwd (length b1) (fwd (length y) st)) = b2) as R2 by (apply fwd_rest; rewrite R1; exact E).
    destruct (m (seqs [L "%}"; WS; C cNL]) (fwd (length b1) (fwd (length y) st)) k) as [z|] eqn:K; [|reflexivity]. exfalso.
    apply m_sound in K as (u & st' & Ru & (u1 & u2 & -> & L1 & _) & _). apply lang_L in L1 as ->. rewrite R2 in Ru.
    assert (forall d, In d b1 -> d <> cNL) as NB1.
    { intros d I ->. rewrite Forall_forall in F. specialize (F _ I). discriminate. }
    destruct b1 as [|c1 b1]; [contradiction|]. change (lit "%}") with (["%"%char; "}"%char] : str) in E, Ru. cbn [app] in E, Ru.
    injection E as <- E. destruct b1 as [|c2 b1]; [cbn [app] in E; rewrite <- E in Ru; discriminate|]. cbn [app] in E. injection E as <- E.
    assert (forall b1 b2 w', blank w' -> (forall d, In d b1 -> d <> cNL) -> (w' ++ [cNL]) ++ s = b1 ++ b2 -> exists c t, b2 = c :: t /\ is_space c = true) as G.
    { clear. induction b1 as [|c b1 IH]; intros b2 w' B N E.
      - cbn [app] in E. subst b2. destruct w' as [|c w']; [exists cNL, s; auto|]. exists c. eexists. split; [reflexivity|]. apply B. left. reflexivity.
      - destruct w' as [|d w'].
        + cbn [app] in E. injection E as <- E. exfalso. apply (N cNL (or_introl eq_refl) eq_refl).
        + cbn [app] in E. injection E as <- E. apply (IH b2 w'); [intros e I; apply B; right; exact I| |exact E]. intros e I. apply N. right. exact I. }
    assert ((w ++ [cNL]) ++ s = b1 ++ b2) as E' by exact E.
    destruct (G b1 b2 w B (fun d I => NB1 d (or_intror (or_intror I))) E') as (c & t & -> & Sc). cbn [app] in Ru. injection Ru as -> _. discriminate Sc.
  - apply H1; [apply fwd_rest; exact R|apply (fwd_pos y st _ R)|apply fwd_grps].
Qed.
