(** C125 (proofs only). *)
From Verif Require Export LayoutProofs8 ConvertProofs10.
From Verif Require Import Lemmas DepsProofs PathProofs RegexProofs RenderProofs ConvertProofs6 LayoutProofs5 LayoutProofs7 SetSpec.

(** No empty line at the start of the text. *)
Definition not_empty_line (p : str) : Prop := forall a b, p = a ++ cNL :: b -> ~ blank a.
Lemma end_set_ends2 {A} y w s st (k : mst -> option A) x :
  rest st = y ++ $"%}" ++ (w ++ [cNL]) ++ s -> ~ In cNL y -> blank w -> not_empty_line s ->
  (forall st', rest st' = s -> pos st' = pos st + length (y ++ $"%}" ++ (w ++ [cNL])) -> grps st' = grps st -> k st' = Some x) ->
  m END_SET st k = Some x.
Proof.
  intros R NN B Hs Hk.
  assert (forall st1, rest st1 = $"%}" ++ (w ++ [cNL]) ++ s -> pos st1 = pos st + length y -> grps st1 = grps st ->
    m (seqs [L "%}"; WS; C cNL]) st1 k = Some x) as H1.
  { intros st1 R1 P1 G1. cbn [seqs]. apply m_seq. unfold L.
    destruct (m_lit (lit "%}") ltac:(discriminate) st1 (fun st' => m (Seq WS (C cNL)) st' k) ((w ++ [cNL]) ++ s) R1) as (st2 & -> & R2 & P2 & G2).
    apply m_seq. unfold WS. cbn [m]. rewrite R2. rewrite <- app_assoc.
    pose proof R2 as R2'. rewrite <- app_assoc in R2'.
    apply star_last.
    - apply Forall_forall. exact B.
    - intros b1 b2 E N F. rewrite fwd_add. pose proof (fwd_rest w st2 _ R2') as R3.
      assert (rest (fwd (length b1) (fwd (length w) st2)) = b2) as R4 by (apply fwd_rest; rewrite R3; exact E).
      unfold C. cbn [m]. rewrite R4. destruct b2 as [|d b2]; [reflexivity|].
      destruct (ceq cNL d) eqn:Ed; [|reflexivity]. apply ceq_eq in Ed as <-. exfalso.
      destruct b1 as [|c b1]; [contradiction|]. cbn [app] in E. injection E as <- E. inversion F as [|? ? _ F']; subst.
      apply (Hs b1 b2 eq_refl). intros c I. rewrite Forall_forall in F'. apply F'. exact I.
    - pose proof (fwd_rest w st2 _ R2') as R3. pose proof (fwd_pos w st2 _ R2') as P3.
      eapply m_chr; [exact R3|]. destruct (adv_pos _ _ _ R3) as [P4 R4]. apply Hk.
      + exact R4.
      + rewrite P4, P3, P2, P1. rewrite !app_length. cbn [length]. lia.
      + rewrite adv_grps, fwd_grps, G2, G1. reflexivity. }
  unfold END_SET. change (seqs [DOTS; L "%}"; WS; C cNL]) with (Seq DOTS (seqs [L "%}"; WS; C cNL])). apply m_seq.
  unfold DOTS. cbn [m]. rewrite R. apply star_last.
  - apply Forall_forall. intros c I. unfold any_c. destruct (ceq c cNL) eqn:Ec; [apply ceq_eq in Ec; subst; contradiction|reflexivity].
  - intros b1 b2 E N F. rewrite fwd_add.
    pose proof (fwd_rest y st _ R) as R1.
    assert (rest (fwd (length b1) (fwd (length y) st)) = b2) as R2 by (apply fwd_rest; rewrite R1; exact E).
    destruct (m (seqs [L "%}"; WS; C cNL]) (fwd (length b1) (fwd (length y) st)) k) as [z|] eqn:K; [|reflexivity]. exfalso.
    apply m_sound in K as (u & st' & Ru & (u1 & u2 & -> & L1 & _) & _). apply lang_L in L1 as ->. rewrite R2 in Ru.
    assert (forall d, In d b1 -> d <> cNL) as NB1.
    { intros d I ->. rewrite Forall_forall in F. specialize (F _ I). discriminate. }
    destruct b1 as [|c1 b1]; [contradiction|]. change (lit "%}") with (["%"%char; "}"%char] : str) in E, Ru. cbn [app] in E, Ru.
    injection E as <- E. destruct b1 as [|c2 b1]; [cbn [app] in E; rewrite <- E in Ru; discriminate|]. cbn [app] in E. injection E as <- E.
    assert (forall b1 b2 w', blank w' -> (forall d, In d b1 -> d <> cNL) -> (w' ++ [cNL]) ++ s = b1 ++ b2 -> exists c t, b2 = c :: t /\ is_space c = true) as G.
    { clear. induction b1 as [|c b1 IH]; intros b2 w' B N E.
      - cbn [app] in E. subst b2. destruct w' as [|c w']; [exists cNL, s; auto|]. exists c. eexists. split; [reflexivity|]. apply B. left. reflexivity.
      - destruct w' as [|d w'].
        + cbn [app] in E. injection E as <- E. exfalso. apply (N cNL (or_introl eq_refl) eq_refl).
        + cbn [app] in E. injection E as <- E. apply (IH b2 w'); [intros e I; apply B; right; exact I| |exact E]. intros e I. apply N. right. exact I. }
    assert ((w ++ [cNL]) ++ s = b1 ++ b2) as E' by exact E.
    destruct (G b1 b2 w B (fun d I => NB1 d (or_intror (or_intror I))) E') as (c & t & -> & Sc). cbn [app] in Ru. injection Ru as -> _. discriminate Sc.
  - apply H1; [apply fwd_rest; exact R|apply (fwd_pos y st _ R)|apply fwd_grps].
Qed.

Lemma blank_no c s : blank s -> is_space c = false -> ~ In c s.
Proof. intros B N I. rewrite (B c I) in N. discriminate. Qed.
Lemma blank_ws g : blank g -> lang WS g.
Proof. intros B. unfold WS. cbn [lang]. apply Forall_forall. exact B. Qed.
Lemma name_no c k : variable_name k -> is_word c || ceq c "-"%char || ceq c "."%char = false -> ~ In c k.
Proof. intros [_ F] N I. rewrite Forall_forall in F. apply F in I. congruence. Qed.

Definition head (s : setting) : str := $"{%" ++ sl_g0 s ++ $"set" ++ sl_g1 s ++ sl_name s ++ sl_g2 s ++ $"=".
Lemma set_text_head s r : set_text s ++ r = head s ++ sl_value s ++ $"%}" ++ r.
Proof. unfold set_text, head. rewrite <- !app_assoc. reflexivity. Qed.
Lemma head_lang s : setting_ok s -> lang SET_HEAD (head s).
Proof.
  intros (_ & B0 & B1 & [_ F] & B2 & _). unfold SET_HEAD, head. cbn [seqs].
  do 2 eexists. split; [reflexivity|]. split; [apply lang_L; reflexivity|].
  do 2 eexists. split; [reflexivity|]. split; [apply blank_ws; exact B0|].
  do 2 eexists. split; [reflexivity|]. split; [apply lang_L; reflexivity|].
  do 2 eexists. split; [reflexivity|]. split; [apply blank_ws; exact B1|].
  do 2 eexists. split; [reflexivity|]. split.
  { unfold JINJA_VAR. cbn [lang]. eapply Forall_impl; [|exact F]. intros c H. apply name_char_facts in H. apply H. }
  do 2 eexists. split; [reflexivity|]. split; [apply blank_ws; exact B2|]. apply lang_L. reflexivity.
Qed.
Definition head0 (s : setting) : str := $"{%" ++ sl_g0 s ++ $"set" ++ sl_g1 s ++ sl_name s ++ sl_g2 s.
Lemma head_head0 s : head s = head0 s ++ ["="%char].
Proof. unfold head, head0. rewrite <- !app_assoc. reflexivity. Qed.
Lemma head0_no c s : setting_ok s -> is_space c = false -> is_word c || ceq c "-"%char || ceq c "."%char = false ->
  ~ In c $"{%" -> ~ In c $"set" -> ~ In c (head0 s).
Proof.
  intros (_ & B0 & B1 & V & B2 & _) N1 N2 N3 N4 I. unfold head0 in I. repeat (apply in_app_or in I as [I|I]); try contradiction.
  - exact (blank_no _ _ B0 N1 I).
  - exact (blank_no _ _ B1 N1 I).
  - exact (name_no _ _ V N2 I).
  - exact (blank_no _ _ B2 N1 I).
Qed.
Lemma head_eq u : lang SET_HEAD u -> exists v, u = v ++ ["="%char].
Proof.
  unfold SET_HEAD. cbn [seqs lang]. intros (a1 & r1 & -> & _ & a2 & r2 & -> & _ & a3 & r3 & -> & _ & a4 & r4 & -> & _ & a5 & r5 & -> & _ & a6 & r6 & -> & _ & H).
  apply lang_L in H as ->. rewrite !app_assoc. eexists. reflexivity.
Qed.
Lemma set_match2 s t prev p : setting_ok s -> not_empty_line t ->
  match_at JINJA_V0_SET_LINE prev p (set_text s ++ (sl_after s ++ [cNL]) ++ t) =
  Some {| m_start := p; m_end := p + length (set_text s ++ sl_after s ++ [cNL]); m_grps := [] |}.
Proof.
  intros OK NE. pose proof OK as (_ & B0 & B1 & V & B2 & NV & _ & BA).
  unfold match_at. rewrite set_parts. rewrite set_text_head.
  set (X := {| m_start := p; m_end := p + length (set_text s ++ sl_after s ++ [cNL]); m_grps := [] |}).
  set (kf := fun st => Some {| m_start := p; m_end := pos st; m_grps := grps st |}).
  set (w := sl_after s) in *. set (v := sl_value s) in *.
  assert (forall st' y, rest st' = y ++ $"%}" ++ (w ++ [cNL]) ++ t -> ~ In cNL y -> grps st' = [] ->
    pos st' + length (y ++ $"%}" ++ (w ++ [cNL])) = m_end X -> m END_SET st' kf = Some X) as K.
  { intros st' y R N G P. apply (end_set_ends2 y w t st' kf X R N BA NE). intros st2 R2 P2 G2. unfold kf. rewrite P2, G2, G, P. reflexivity. }
  assert (length (set_text s ++ w ++ [cNL]) = length (head s ++ v ++ $"%}" ++ w ++ [cNL])) as LEN by (rewrite set_text_head; reflexivity).
  destruct (m SET_HEAD (start_st prev p (head s ++ v ++ $"%}" ++ (w ++ [cNL]) ++ t)) (fun st' => m END_SET st' kf)) as [x|] eqn:M.
  - apply (m_sound_pos SET_HEAD eq_refl) in M as (u & st' & R & P & G & HL & Hx).
    cbn [start_st rest pos grps] in R, P, G. pose proof (head_eq _ HL) as (u1 & Eu). apply set_head_lang in HL as (u2 & E2 & NP).
    assert (exists y z, u = head s ++ z /\ v = z ++ y /\ rest st' = y ++ $"%}" ++ (w ++ [cNL]) ++ t) as (y & z & Ez & Ev & Ry).
    { set (Z := $"%}" ++ (w ++ [cNL]) ++ t) in *. rewrite head_head0 in R. rewrite Eu in R. rewrite <- !app_assoc in R. cbn [app] in R.
      assert (~ In "="%char (head0 s)) as N0 by (apply head0_no; [exact OK|reflexivity|reflexivity|vm_compute; intuition discriminate|vm_compute; intuition discriminate]).
      apply app_eq_app in R as (l & [[E1 E3]|[E1 E3]]).
      - destruct l as [|c l].
        + cbn [app] in E3. injection E3 as E3. rewrite app_nil_r in E1. exists v, []. rewrite app_nil_r. split; [rewrite Eu, head_head0, E1; reflexivity|]. split; [reflexivity|exact E3].
        + exfalso. cbn [app] in E3. injection E3 as <- _. apply N0. rewrite E1. apply in_or_app. right. left. reflexivity.
      - destruct l as [|c l].
        + cbn [app] in E3. injection E3 as E3. rewrite app_nil_r in E1. exists v, []. rewrite app_nil_r. split; [rewrite Eu, head_head0, E1; reflexivity|]. split; [reflexivity|symmetry; exact E3].
        + cbn [app] in E3. injection E3 as <- E3.
          assert (u = head s ++ l ++ ["="%char]) as Eu' by (rewrite Eu, E1, head_head0, <- !app_assoc; reflexivity).
          symmetry in E3. change (l ++ "="%char :: rest st') with (l ++ ["="%char] ++ rest st') in E3. rewrite app_assoc in E3.
          apply app_eq_app in E3 as (q & [[E4 E5]|[E4 E5]]).
          * destruct q as [|d q].
            -- rewrite app_nil_r in E4. exists [], v. cbn [app] in E5. rewrite app_nil_r. split; [rewrite Eu', E4; reflexivity|]. split; [reflexivity|symmetry; exact E5].
            -- exfalso. unfold Z in E5. change (lit "%}") with (["%"%char; "}"%char] : str) in E5. cbn [app] in E5. injection E5 as <- _. apply NP.
               assert (u = $"{%" ++ u2) as Q by exact E2. rewrite Eu', E4 in Q. unfold head in Q. rewrite <- !app_assoc in Q. apply app_inv_head in Q. rewrite <- Q.
               do 7 (apply in_or_app; right). left. reflexivity.
          * exists q, (l ++ ["="%char]). split; [exact Eu'|]. split; [exact E4|]. exact E5. }
    rewrite (K st' y) in Hx; [congruence|exact Ry| |exact G|].
    + intros I. apply NV. rewrite Ev. apply in_or_app. right. exact I.
    + rewrite P. unfold X. cbn [m_end]. rewrite LEN, Ez, Ev, !app_length. lia.
  - exfalso. revert M. apply (m_complete SET_HEAD eq_refl (head s) (v ++ $"%}" ++ (w ++ [cNL]) ++ t)).
    + apply head_lang. exact OK.
    + reflexivity.
    + intros st' R P G. cbv beta. rewrite (K st' v); [discriminate|exact R|exact NV|exact G|].
      rewrite P. cbn [start_st pos]. unfold X. cbn [m_end]. rewrite LEN, !app_length. lia.
Qed.

(** * Name and value *)
Lemma set_key s r : setting_ok s -> strip (slice_find (set_text s ++ r) $"set" $"=") = sl_name s.
Proof.
  intros OK. pose proof OK as (_ & B0 & B1 & V & B2 & NV & _ & BA). unfold slice_find. rewrite set_text_head.
  assert (find_sub $"set" (head s ++ sl_value s ++ $"%}" ++ r) = Some (length ($"{%" ++ sl_g0 s))) as ->.
  { unfold head. rewrite <- !app_assoc. change (lit "{%") with (["{"%char; "%"%char] : str). cbn [app find_sub starts_with]. change (lit "set") with (["s"%char; "e"%char; "t"%char] : str).
    cbn [starts_with app]. change (ceq "s"%char "{"%char) with false. change (ceq "s"%char "%"%char) with false. cbn [andb].
    assert (forall g q, blank g -> find_sub ["s"%char; "e"%char; "t"%char] (g ++ "s"%char :: "e"%char :: "t"%char :: q) = Some (length g)) as H.
    { clear. induction g as [|c g IH]; intros q B; [reflexivity|]. cbn [app find_sub starts_with].
      destruct (ceq "s"%char c) eqn:E; [apply ceq_eq in E; subst; specialize (B _ (or_introl eq_refl)); discriminate|]. cbn [andb].
      rewrite IH by (intros d I; apply B; right; exact I). reflexivity. }
    rewrite H by exact B0. reflexivity. }
  assert (find_sub $"=" (head s ++ sl_value s ++ $"%}" ++ r) = Some (length (head0 s))) as ->.
  { rewrite head_head0, <- app_assoc. cbn [app]. apply find_char.
    apply head0_no; [exact OK|reflexivity|reflexivity|vm_compute; intuition discriminate|vm_compute; intuition discriminate]. }
  rewrite <- app_length.
  replace (length (head0 s)) with (length (($"{%" ++ sl_g0 s) ++ $"set") + length (sl_g1 s ++ sl_name s ++ sl_g2 s)) by (unfold head0; rewrite !app_length; lia).
  replace (head s ++ sl_value s ++ $"%}" ++ r) with ((($"{%" ++ sl_g0 s) ++ $"set") ++ (sl_g1 s ++ sl_name s ++ sl_g2 s) ++ ($"=" ++ sl_value s ++ $"%}" ++ r)) by (unfold head; rewrite <- !app_assoc; reflexivity).
  rewrite slice_mid, LayoutProofs7.strip_pad by assumption. apply name_stripped. exact V.
Qed.
Lemma set_val s r : setting_ok s -> slice_find (set_text s ++ r) $"=" $"%}" = sl_value s.
Proof.
  intros OK. pose proof OK as (_ & B0 & B1 & V & B2 & NV & NP & BA). unfold slice_find. rewrite set_text_head.
  assert (find_sub $"=" (head s ++ sl_value s ++ $"%}" ++ r) = Some (length (head0 s))) as ->.
  { rewrite head_head0, <- app_assoc. cbn [app]. apply find_char.
    apply head0_no; [exact OK|reflexivity|reflexivity|vm_compute; intuition discriminate|vm_compute; intuition discriminate]. }
  assert (find_sub $"%}" (head s ++ sl_value s ++ $"%}" ++ r) = Some (length (head s ++ sl_value s))) as ->.
  { rewrite app_assoc. change (lit "%}") with (["%"%char; "}"%char] : str). cbn [app]. apply find_pair.
    rewrite head_head0, <- !app_assoc. cbn [app]. intros H. apply has_pair_sep in H as [H|H]; [|  |discriminate|discriminate].
    - revert H. apply no_pair_char. apply head0_no; [exact OK|reflexivity|reflexivity|vm_compute; intuition discriminate|vm_compute; intuition discriminate].
    - destruct H as (a & b & H). apply app_eq_app in H as (l & [[E1 E2]|[E1 E2]]).
      + destruct l as [|c [|d l]].
        * discriminate E2.
        * cbn [app] in E2. discriminate E2.
        * cbn [app] in E2. injection E2 as <- <- _. apply NP. exists a, l. exact E1.
      + destruct l as [|c l]; [discriminate E2|]. destruct l; discriminate E2. }
  replace (length (head0 s) + length (lit "=")) with (length (head s)) by (rewrite head_head0, app_length; reflexivity).
  rewrite app_length. apply slice_mid.
Qed.
