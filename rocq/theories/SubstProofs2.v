(** C124: the value of one expression, continued (proofs only). *)
From Verif Require Export SubstProofs.
From Verif Require Import Lemmas DepsProofs RegexProofs PreProofs2 ConvertProofs2 ConvertProofs6 ConvertProofs10 SubstSpec.

(** * Steps of the matcher *)
Lemma chr_step {A} p c t st (k : mst -> option A) : rest st = c :: t -> p c = true -> m (Chr p) st k = k (adv st).
Proof. intros R P. cbn [m]. rewrite R, P. reflexivity. Qed.
Ltac grp1 := match goal with |- m (Grp ?n ?a) ?st ?k = ?x =>
  change (m (Grp n a) st k) with (m a st (fun st' => k {| prevc := prevc st'; pos := pos st'; rest := rest st'; grps := (n, (pos st, pos st')) :: grps st' |})) end; cbv beta.
Ltac star1 := match goal with |- m (StarC ?p) ?st ?k = ?x => change (m (StarC p) st k) with (star_k p (rest st) st k) end.

(** * Elements *)
Lemma idx_hit name d t : name_text name -> digit_text d ->
  exists x, re_search JINJA_FUNCTION_IDX_ACCESS (name ++ $"[" ++ d ++ $"]" ++ t) = Some x /\ group 2 (name ++ $"[" ++ d ++ $"]" ++ t) x = Some d.
Proof.
  intros (NN & NW) D. apply digit_text_all in D as (DN & DD).
  destruct name as [|c name]; [contradiction|]. inversion NW as [|? ? Wc Wn]; subst. destruct d as [|d0 d]; [contradiction|].
  inversion DD as [|? ? D0 D']; subst.
  set (s := (c :: name) ++ $"[" ++ (d0 :: d) ++ $"]" ++ t). set (q := S (length name)).
  set (x := {| m_start := 0; m_end := q + 1 + S (length d) + 1; m_grps := [(2, (q + 1, q + 1 + S (length d))); (1, (0, q))] |}).
  assert (match_at JINJA_FUNCTION_IDX_ACCESS None 0 s = Some x) as M.
  { unfold match_at, JINJA_FUNCTION_IDX_ACCESS. cbn [seqs]. seq1. grp1. seq1.
    rewrite (chr_step is_word c (name ++ $"[" ++ (d0 :: d) ++ $"]" ++ t)) by (reflexivity || exact Wc). set (st0 := adv _). star1.
    assert (rest st0 = name ++ $"[" ++ (d0 :: d) ++ $"]" ++ t) as R0 by reflexivity.
    assert (pos st0 = 1) as P0 by reflexivity. assert (grps st0 = []) as G0 by reflexivity. clearbody st0.
    apply (star_greedy is_word name ($"[" ++ (d0 :: d) ++ $"]" ++ t) st0 _ x R0 Wn eq_refl). intros st1 R1 P1 G1. cbv beta.
    seq1. unfold L at 1. apply (lit_step $"[" _ _ ((d0 :: d) ++ $"]" ++ t)); [discriminate|exact R1|]. intros st2 R2 P2 G2. cbv beta.
    cbn [pos grps] in P2, G2. cbn [start_st pos] in G2. change (length $"[") with 1 in P2.
    seq1. unfold DIG1. grp1. seq1. rewrite (chr_step is_digit d0 (d ++ $"]" ++ t)) by assumption. star1. set (st3 := adv st2). destruct (adv_pos st2 d0 _ R2) as [P3 R3]. fold st3 in P3, R3.
    assert (grps st3 = grps st2) as G3 by apply adv_grps. clearbody st3.
    apply (star_greedy is_digit d ($"]" ++ t) st3 _ x R3 D' eq_refl). intros st4 R4 P4 G4. cbv beta.
    unfold L. apply (lit_step $"]" _ _ t); [discriminate|exact R4|]. intros st5 R5 P5 G5. cbn [pos grps] in P5, G5. change (length $"]") with 1 in P5.
    assert (pos st1 = q) as Z1 by (unfold q; lia). assert (pos st2 = q + 1) as Z2 by lia. assert (pos st4 = q + 1 + S (length d)) as Z4 by lia.
    unfold x. rewrite G5, G4, G3, G2, G1, G0. rewrite P5, Z4, Z2, Z1. reflexivity. }
  exists x. split.
  - unfold re_search. destruct s eqn:Es; [discriminate|]. cbn [search_from]. rewrite M. reflexivity.
  - unfold group, x. cbn [m_grps find fst snd Nat.eqb]. f_equal. unfold s, q.
    replace (S (length name) + 1) with (length ((c :: name) ++ $"[")) by (rewrite app_length; reflexivity).
    rewrite (app_assoc (c :: name)). apply (slice_mid ((c :: name) ++ $"[") (d0 :: d) ($"]" ++ t)).
Qed.
Lemma no_element_found s : ~ In "["%char s -> re_search JINJA_FUNCTION_IDX_ACCESS s = None.
Proof.
  intros N. apply no_search; [reflexivity|]. intros u HL HT. assert (exists u, lang JINJA_FUNCTION_IDX_ACCESS u /\ has_text u s) as X by eauto.
  apply element_has in X as (c & d & _ & _ & _ & a & b & ->). apply N. apply in_or_app. right. right. left. reflexivity.
Qed.
Lemma no_sum_found s : ~ In "+"%char s -> re_search JINJA_FUNCTION_ADD_CONCAT s = None.
Proof.
  intros N. apply no_search; [reflexivity|]. intros u HL HT. assert (exists u, lang JINJA_FUNCTION_ADD_CONCAT u /\ has_text u s) as X by eauto.
  apply sum_has in X as (c & q1 & g & h & q2 & d & _ & _ & _ & _ & _ & _ & a & b & ->). apply N.
  apply in_or_app. right. apply in_or_app. left. right. apply in_or_app. right. apply in_or_app. right. left. reflexivity.
Qed.

(** * Sums *)
Lemma token_step {A} a t st (k : mst -> option A) x : token a -> match t with c :: _ => is_quote c = false /\ word_dot c = false | [] => True end ->
  rest st = a ++ t -> (forall st', rest st' = t -> pos st' = pos st + length a -> grps st' = grps st -> k st' = Some x) ->
  m JINJA_TOKEN st k = Some x.
Proof.
  intros (q1 & b & q2 & -> & Q1 & Q2 & NB & FB) HT R K. unfold JINJA_TOKEN. cbn [seqs].
  assert (Forall (fun c => word_dot c = true) b) as FB' by (eapply Forall_impl; [|exact FB]; intros c; apply dot_spec).
  destruct b as [|c b]; [contradiction|]. inversion FB' as [|? ? Wc Wb]; subst.
  assert (forall st1, rest st1 = (c :: b) ++ q2 ++ t -> pos st1 = pos st + length q1 -> grps st1 = grps st ->
    m (Seq (Chr word_dot) (Seq (StarC word_dot) (Opt (Chr is_quote)))) st1 k = Some x) as K1.
  { intros st1 R1 P1 G1. seq1. rewrite (chr_step word_dot c (b ++ q2 ++ t)) by assumption. seq1. star1. set (st2 := adv st1). destruct (adv_pos st1 c _ R1) as [P2 R2]. fold st2 in P2, R2.
    assert (grps st2 = grps st1) as G2 by apply adv_grps. clearbody st2.
    apply (star_greedy word_dot b (q2 ++ t) st2 _ x R2 Wb).
    { destruct Q2 as [->|[-> | ->]]; try reflexivity. cbn [app]. destruct t; [exact I|exact (proj2 HT)]. }
    intros st3 R3 P3 G3. cbv beta. cbn [m]. rewrite R3.
    destruct Q2 as [->|Q2].
    - cbn [app]. assert (k st3 = Some x) as KX.
      { apply K; [exact R3| |rewrite G3, G2; exact G1]. rewrite P3, P2, P1. rewrite !app_length. cbn [length]. lia. }
      destruct t as [|c0 t]; [exact KX|]. rewrite (proj1 HT). exact KX.
    - assert (exists q, q2 = [q] /\ is_quote q = true) as (q & -> & Hq) by (destruct Q2 as [-> | ->]; eexists; split; reflexivity).
      cbn [app]. rewrite Hq. destruct (adv_pos st3 q _ R3) as [P4 R4]. rewrite (K (adv st3)); [reflexivity|exact R4| |rewrite adv_grps, G3, G2; exact G1].
      rewrite P4, P3, P2, P1. rewrite !app_length. cbn [length]. lia. }
  seq1. destruct Q1 as [->|Q1].
  - cbn [app] in R. assert (m (Opt (Chr is_quote)) st (fun st' => m (Seq (Chr word_dot) (Seq (StarC word_dot) (Opt (Chr is_quote)))) st' k)
      = m (Seq (Chr word_dot) (Seq (StarC word_dot) (Opt (Chr is_quote)))) st k) as EQ.
    { change (m (Opt (Chr is_quote)) st ?f) with (match m (Chr is_quote) st f with Some y => Some y | None => f st end).
      assert (forall f : mst -> option A, m (Chr is_quote) st f = None) as Z; [|rewrite Z; reflexivity].
      intros f. cbn [m]. rewrite R. cbn [app]. destruct (dot_facts c Wc) as (_ & _ & _ & ->). reflexivity. }
    etransitivity; [exact EQ|]. apply K1; [rewrite R; rewrite <- !app_assoc; reflexivity|cbn [length]; lia|reflexivity].
  - assert (exists q, q1 = [q] /\ is_quote q = true) as (q & -> & Hq) by (destruct Q1 as [-> | ->]; eexists; split; reflexivity).
    cbn [app] in R. change (m (Opt (Chr is_quote)) st ?f) with (match m (Chr is_quote) st f with Some y => Some y | None => f st end).
    destruct (adv_pos st q _ R) as [P1 R1].
    assert (forall f : mst -> option A, m (Chr is_quote) st f = f (adv st)) as Z by (intros f; cbn [m]; rewrite R, Hq; reflexivity).
    rewrite Z. rewrite (K1 (adv st)); [reflexivity|rewrite R1, <- !app_assoc; reflexivity|cbn [length]; lia|apply adv_grps].
Qed.
Lemma token_head a : token a -> exists c t, a = c :: t /\ is_space c = false.
Proof.
  intros (q1 & b & q2 & -> & Q1 & Q2 & NB & FB). destruct Q1 as [->|[-> | ->]]; [|eexists _, _; split; reflexivity..].
  destruct b as [|c b]; [contradiction|]. inversion FB as [|? ? H _]; subst. apply dot_spec in H. apply dot_facts in H as (H & _). eexists _, _. split; [reflexivity|exact H].
Qed.
Lemma sum_hit a g h b : token a -> token b -> gap g -> gap h ->
  exists x, re_search JINJA_FUNCTION_ADD_CONCAT (a ++ g ++ $"+" ++ h ++ b) = Some x
    /\ group 1 (a ++ g ++ $"+" ++ h ++ b) x = Some a /\ group 2 (a ++ g ++ $"+" ++ h ++ b) x = Some b.
Proof.
  intros TA TB G H. set (s := a ++ g ++ $"+" ++ h ++ b). set (q := length a + length g + 1 + length h).
  set (x := {| m_start := 0; m_end := q + length b; m_grps := [(2, (q, q + length b)); (1, (0, length a))] |}).
  assert (match_at JINJA_FUNCTION_ADD_CONCAT None 0 s = Some x) as M.
  { unfold match_at, JINJA_FUNCTION_ADD_CONCAT. cbn [seqs]. seq1. grp1.
    apply (token_step a (g ++ $"+" ++ h ++ b)); [exact TA| |reflexivity|].
    { destruct g as [|c g]; [split; reflexivity|]. inversion G as [|? ? Gc _]; subst. apply space_facts in Gc as (_ & _ & _ & Q & W & _). split; [exact Q|exact W]. }
    intros st1 R1 P1 G1. cbn [start_st pos grps] in P1, G1. cbv beta.
    seq1. unfold WS. star1.
    match goal with |- star_k _ (rest ?st) _ _ = _ => apply (star_greedy is_space g ($"+" ++ h ++ b) st _ x R1 G eq_refl) end. intros st2 R2 P2 G2. cbn [start_st pos grps] in P2, G2. cbv beta.
    seq1. unfold L. apply (lit_step $"+" _ _ (h ++ b)); [discriminate|exact R2|]. intros st3 R3 P3 G3. change (length $"+") with 1 in P3. cbv beta.
    seq1. unfold WS. star1.
    apply (star_greedy is_space h b st3 _ x R3 H); [destruct (token_head b TB) as (c & t & -> & Hc); exact Hc|]. intros st4 R4 P4 G4. cbv beta.
    grp1.
    apply (token_step b []); [exact TB|exact I|rewrite app_nil_r; exact R4|]. intros st5 R5 P5 G5. cbn [pos grps]. unfold x.
    rewrite G5, G4, G3, G2, G1, P5, P4, P3, P2, P1. unfold q. cbn [Nat.add]. reflexivity. }
  exists x. split; [|split].
  - unfold re_search. destruct s eqn:Es.
    + cbn [search_from]. rewrite M. reflexivity.
    + cbn [search_from]. rewrite M. reflexivity.
  - unfold group, x. cbn [m_grps find fst snd Nat.eqb]. f_equal. exact (slice_mid [] a (g ++ $"+" ++ h ++ b)).
  - unfold group, x. cbn [m_grps find fst snd Nat.eqb]. f_equal. unfold s, q.
    replace (length a + length g + 1 + length h) with (length (a ++ g ++ $"+" ++ h)) by (rewrite !app_length; change (length $"+") with 1; lia).
    pose proof (slice_mid (a ++ g ++ $"+" ++ h) b []) as Z. rewrite app_nil_r, <- !app_assoc in Z. exact Z.
Qed.

(** * The parts of an expression *)
Lemma set_key key k1 lo k2 up k3 ix : 
  match search_text JINJA_FUNCTION_LOWER key with Some t => (strip (replace_all t [] key), true) | None => (key, false) end = (k1, lo) ->
  match search_text JINJA_FUNCTION_UPPER k1 with Some t => (strip (replace_all t [] k1), true) | None => (k1, false) end = (k2, up) ->
  match re_search JINJA_FUNCTION_IDX_ACCESS k2 with
                    | Some x => match group 2 k2 x with
                                | Some d => (strip (replace_all ($"[" ++ d ++ $"]") [] k2), Some (int_of d))
                                | None => (k2, None)
                                end
                    | None => (k2, None)
                    end = (k3, ix) ->
  set_key_and_matches key = {| jk_key := k3; jk_lower := lo; jk_upper := up; jk_idx := ix;
    jk_add := match re_search JINJA_FUNCTION_ADD_CONCAT k3 with
              | Some x => match group 1 k3 x, group 2 k3 x with Some a, Some b => Some (a, b) | _, _ => None end
              | None => None
              end |}.
Proof. intros H1 H2 H3. unfold set_key_and_matches. rewrite H1, H2, H3. reflexivity. Qed.
Lemma bare_parts key : bare_key key -> set_key_and_matches key = {| jk_key := key; jk_lower := false; jk_upper := false; jk_idx := None; jk_add := None |}.
Proof.
  intros (H1 & H2 & H3). erewrite (set_key key key false key false key None).
  - rewrite no_search; [reflexivity..|]. intros u HL HT. assert (exists u, lang JINJA_FUNCTION_ADD_CONCAT u /\ has_text u key) as X by eauto.
    apply sum_has in X as (c & q1 & g & h & q2 & d & Wc & Wd & G & H & Q1 & Q2 & X). exact (H3 c q1 g h q2 d Wc Wd G H Q1 Q2 X).
  - unfold search_text. rewrite no_search; [reflexivity..|]. intros u HL HT. apply lower_lang in HL as (g & -> & G). apply (H1 g $"lower" G); [left; reflexivity|exact HT].
  - unfold search_text. rewrite no_search; [reflexivity..|]. intros u HL HT. apply upper_lang in HL as (g & -> & G). apply (H1 g $"upper" G); [right; left; reflexivity|exact HT].
  - rewrite no_search; [reflexivity..|]. intros u HL HT. assert (exists u, lang JINJA_FUNCTION_IDX_ACCESS u /\ has_text u key) as X by eauto.
    apply element_has in X as (c & d & Wc & ND & D & X). apply (H2 c d Wc); [|exact X]. apply digit_text_is. unfold isdigit. destruct d; [contradiction|].
    apply forallb_forall. rewrite Forall_forall in D. exact D.
Qed.
Lemma token_chars a c : token a -> In c a -> c <> "|"%char /\ c <> "["%char.
Proof.
  intros (q1 & b & q2 & -> & Q1 & Q2 & NB & FB) I.
  assert (forall q, quote_text q -> In c q -> c <> "|"%char /\ c <> "["%char) as HQ.
  { intros q [->|[-> | ->]] J; [destruct J|destruct J as [<-|[]]; split; discriminate..]. }
  apply in_app_or in I as [I|I]; [exact (HQ q1 Q1 I)|]. apply in_app_or in I as [I|I]; [|exact (HQ q2 Q2 I)].
  rewrite Forall_forall in FB. specialize (FB c I). apply dot_spec in FB. apply dot_facts in FB as (_ & H1 & H2 & _). auto.
Qed.
Lemma gap_chars g c : gap g -> In c g -> c <> "|"%char /\ c <> "["%char /\ c <> "+"%char.
Proof. intros G I. unfold gap in G. rewrite Forall_forall in G. specialize (G c I). apply space_facts in G as (H1 & H2 & H3 & _). auto. Qed.
Lemma sum_parts a g h b : token a -> token b -> gap g -> gap h ->
  jk_add (set_key_and_matches (a ++ g ++ $"+" ++ h ++ b)) = Some (a, b).
Proof.
  intros TA TB G H. set (key := a ++ g ++ $"+" ++ h ++ b).
  assert (forall c, In c key -> c <> "|"%char /\ c <> "["%char) as HC.
  { intros c I. unfold key in I. apply in_app_or in I as [I|I]; [exact (token_chars a c TA I)|].
    apply in_app_or in I as [I|I]; [destruct (gap_chars g c G I) as (? & ? & _); auto|].
    apply in_app_or in I as [I|I]; [destruct I as [<-|[]]; split; discriminate|].
    apply in_app_or in I as [I|I]; [destruct (gap_chars h c H I) as (? & ? & _); auto|exact (token_chars b c TB I)]. }
  assert (~ In "|"%char key) as NB by (intros I; destruct (HC _ I); congruence).
  assert (~ In "["%char key) as NE by (intros I; destruct (HC _ I); congruence).
  rewrite (set_key key key false key false key None).
  - cbn [jk_add]. destruct (sum_hit a g h b TA TB G H) as (x & X1 & X2 & X3). fold key in X1, X2, X3. rewrite X1, X2, X3. reflexivity.
  - change JINJA_FUNCTION_LOWER with (FILT $"lower"). rewrite no_bar by exact NB. reflexivity.
  - change JINJA_FUNCTION_UPPER with (FILT $"upper"). rewrite no_bar by exact NB. reflexivity.
  - rewrite no_element_found by exact NE. reflexivity.
Qed.
Lemma base_chars name el pick c : name_text name -> element el pick -> In c (name ++ el) -> c <> "|"%char /\ c <> "+"%char.
Proof.
  intros (_ & W) EL I. apply in_app_or in I as [I|I].
  - rewrite Forall_forall in W. specialize (W c I). apply word_facts in W as (_ & H1 & _ & H2 & _). auto.
  - destruct EL as [|d n D _]; [destruct I|]. apply digit_text_all in D as (_ & D). rewrite Forall_forall in D.
    apply in_app_or in I as [I|I]; [destruct I as [<-|[]]; split; discriminate|].
    apply in_app_or in I as [I|I]; [|destruct I as [<-|[]]; split; discriminate].
    specialize (D c I). apply digit_facts in D as (H1 & _ & H2). auto.
Qed.
Lemma base_tight name el pick : name_text name -> element el pick -> tight (name ++ el).
Proof.
  intros (N & W) EL. destruct name as [|c name]; [contradiction|]. inversion W as [|? ? Wc _]; subst. split.
  - intros d t E. injection E as <- _. apply word_facts in Wc as (H & _). exact H.
  - intros d t E. destruct EL as [|ds n D _].
    + rewrite app_nil_r in E. rewrite Forall_forall in W. assert (In d (c :: name)) as I by (rewrite E; apply in_or_app; right; left; reflexivity).
      specialize (W d I). apply word_facts in W as (H & _). exact H.
    + rewrite !app_assoc in E. apply app_inj_tail in E as (_ & <-). reflexivity.
Qed.
Lemma filtered_tight a g w1 c : a <> [] -> tight a -> is_space c = false -> tight (a ++ g ++ w1 ++ [c]).
Proof.
  intros N (H1 & H2) SC. split.
  - intros d t E. destruct a as [|x a]; [contradiction|]. injection E as <- _. exact (H1 x a eq_refl).
  - intros d t E. rewrite !app_assoc in E. apply app_inj_tail in E as (_ & <-). exact SC.
Qed.
Lemma idx_part name el pick k2 : name_text name -> element el pick -> k2 = name ++ el ->
  match re_search JINJA_FUNCTION_IDX_ACCESS k2 with
                    | Some x => match group 2 k2 x with
                                | Some d => (strip (replace_all ($"[" ++ d ++ $"]") [] k2), Some (int_of d))
                                | None => (k2, None)
                                end
                    | None => (k2, None)
                    end = (name, match el with [] => None | _ => Some (int_of (removelast (tl el))) end).
Proof.
  intros HN EL ->. assert (~ In "["%char name) as NB.
  { intros I. destruct HN as (_ & W). rewrite Forall_forall in W. specialize (W _ I). apply word_facts in W as (_ & _ & H & _). congruence. }
  destruct EL as [|d n D _].
  - rewrite app_nil_r, no_element_found by exact NB. reflexivity.
  - destruct (idx_hit name d [] HN D) as (x & H1 & H2). rewrite !app_nil_r in H1, H2. rewrite H1, H2.
    assert (match $"[" ++ d ++ $"]" with [] => None | _ :: _ => Some (int_of (removelast (tl ($"[" ++ d ++ $"]")))) end = Some (int_of d)) as ->.
    { change (Some (int_of (removelast (d ++ ["]"%char]))) = Some (int_of d)). rewrite removelast_last. reflexivity. }
    f_equal. unfold replace_all.
    assert (replace_all_aux ($"[" ++ d ++ $"]") [] 0 (name ++ $"[" ++ d ++ $"]") = name) as ->.
    { rewrite replace_plain.
      - rewrite <- (app_nil_r ($"[" ++ d ++ $"]")) at 2. rewrite replace_hit by discriminate. cbn [replace_all_aux app]. apply app_nil_r.
      - intros a b v -> NBb E. destruct b as [|y b]; [contradiction|]. injection E as -> _. apply NB. apply in_or_app. right. left. reflexivity. }
    apply tight_strip. pose proof (base_tight name [] _ HN no_element) as T. rewrite app_nil_r in T. exact T.
Qed.
Lemma value_parts name el pick fs change : name_text name -> element el pick -> filters fs change ->
  exists lo up, set_key_and_matches (name ++ el ++ fs) =
    {| jk_key := name; jk_lower := lo; jk_upper := up; jk_idx := match el with [] => None | _ => Some (int_of (removelast (tl el))) end; jk_add := None |}
    /\ forall s t, change s t -> t = (if up then upper (if lo then lower s else s) else if lo then lower s else s).
Proof.
  intros HN EL HF.
  assert (forall c, In c (name ++ el) -> c <> "|"%char /\ c <> "+"%char) as HC by (intros c; exact (base_chars name el pick c HN EL)).
  assert (~ In "|"%char (name ++ el)) as NB by (intros I; destruct (HC _ I); congruence).
  assert (tight (name ++ el)) as TB by exact (base_tight name el pick HN EL).
  assert (name ++ el <> []) as NE by (destruct HN as (N & _); destruct name; [contradiction|discriminate]).
  assert (re_search JINJA_FUNCTION_ADD_CONCAT name = None) as NS.
  { apply no_sum_found. intros I. destruct (HC "+"%char); [apply in_or_app; left; exact I|congruence]. }
  pose proof (fun k2 => idx_part name el pick k2 HN EL) as IX.
  assert (forall g, gap g -> ~ In "|"%char ((name ++ el) ++ g)) as NBG.
  { intros g G I. apply in_app_or in I as [I|I]; [exact (NB I)|]. destruct (gap_chars g _ G I) as (H & _). congruence. }
  assert (forall g, gap g -> strip ((name ++ el) ++ g) = name ++ el) as SG.
  { intros g G. apply trims_strip. exists [], g. split; [reflexivity|]. split; [intros c []|]. split; [apply gap_blank; exact G|exact TB]. }
  assert (forall w h, ~ has_text ($"|" ++ h ++ w) []) as NT by (intros w h (x & y & E); destruct x; discriminate).
  rewrite app_assoc. destruct HF as [|g h G H|g h G H|g h g' h' G H G' H'].
  - rewrite app_nil_r. exists false, false. split; [|intros s t ->; reflexivity]. erewrite set_key; [rewrite NS; reflexivity| | |apply IX; reflexivity].
    + change JINJA_FUNCTION_LOWER with (FILT $"lower"). rewrite no_bar by exact NB. reflexivity.
    + change JINJA_FUNCTION_UPPER with (FILT $"upper"). rewrite no_bar by exact NB. reflexivity.
  - exists true, false. split; [|intros s t; apply lowered_is]. erewrite set_key; [rewrite NS; reflexivity| | |apply IX; reflexivity].
    + change JINJA_FUNCTION_LOWER with (FILT $"lower"). rewrite app_assoc.
      pose proof (bar_hit $"lower" _ _ ((name ++ el) ++ g) h [] eq_refl eq_refl (NBG g G) H) as Z. rewrite app_nil_r in Z. rewrite Z.
      pose proof (bar_removed $"lower" ((name ++ el) ++ g) h [] (NBG g G) (NT _ _)) as Z2. rewrite !app_nil_r in Z2. rewrite Z2, SG by exact G. reflexivity.
    + change JINJA_FUNCTION_UPPER with (FILT $"upper"). rewrite no_bar by exact NB. reflexivity.
  - exists false, true. split; [|intros s t; apply uppered_is]. erewrite set_key; [rewrite NS; reflexivity| | |apply IX; reflexivity].
    + change JINJA_FUNCTION_LOWER with (FILT $"lower"). rewrite app_assoc.
      pose proof (one_bar $"lower" "l"%char $"ower" "u"%char $"pper" ((name ++ el) ++ g) h eq_refl eq_refl eq_refl ltac:(discriminate) (NBG g G) H) as Z.
      change ("u"%char :: $"pper") with $"upper" in Z. rewrite Z; [reflexivity|]. vm_compute. intuition discriminate.
    + change JINJA_FUNCTION_UPPER with (FILT $"upper").
      pose proof (bar_hit $"upper" _ _ ((name ++ el) ++ g) h [] eq_refl eq_refl (NBG g G) H) as Z. rewrite app_nil_r in Z. rewrite Z.
      pose proof (bar_removed $"upper" ((name ++ el) ++ g) h [] (NBG g G) (NT _ _)) as Z2. rewrite !app_nil_r in Z2. rewrite Z2, SG by exact G. reflexivity.
  - exists true, true. split; [|intros s t U; rewrite upper_of_lower; apply uppered_is; exact U].
    assert (gap (g ++ g')) as GG by (apply Forall_app; split; assumption).
    erewrite set_key; [rewrite NS; reflexivity| | |apply IX; reflexivity].
    + change JINJA_FUNCTION_LOWER with (FILT $"lower").
      match goal with |- context [search_text _ ?k] => replace k with (((name ++ el) ++ g) ++ ($"|" ++ h ++ $"lower") ++ g' ++ $"|" ++ h' ++ $"upper")
        by (repeat rewrite <- app_assoc; reflexivity) end.
      rewrite (bar_hit $"lower" _ _ ((name ++ el) ++ g) h _ eq_refl eq_refl (NBG g G) H).
      rewrite bar_removed; [|exact (NBG g G)|].
      * rewrite tight_strip; [reflexivity|]. rewrite <- app_assoc.
        replace (g ++ g' ++ $"|" ++ h' ++ $"upper") with (g ++ (g' ++ $"|" ++ h' ++ $"uppe") ++ $"r") by (rewrite <- !app_assoc; reflexivity).
        apply filtered_tight; [exact NE|exact TB|reflexivity].
      * intros HT.
        pose proof (one_bar $"lower" "l"%char $"ower" "u"%char $"pper" g' h' eq_refl eq_refl eq_refl ltac:(discriminate)) as Z.
        change ("u"%char :: $"pper") with $"upper" in Z. unfold search_text in Z.
        assert (re_search (FILT $"lower") (g' ++ $"|" ++ h' ++ $"upper") = None) as Z2.
        { destruct (re_search (FILT $"lower") (g' ++ $"|" ++ h' ++ $"upper")); [|reflexivity]. discriminate Z.
          - intros I. destruct (gap_chars g' _ G' I) as (X & _). congruence.
          - exact H'.
          - vm_compute. intuition discriminate. }
        pose proof (proj2 (found_g (FILT $"lower") (g' ++ $"|" ++ h' ++ $"upper") (filt_look _))) as F. rewrite Z2 in F.
        discriminate F. exists ($"|" ++ h ++ $"lower"). split; [apply filt_lang; exists h; auto|exact HT].
    + change JINJA_FUNCTION_UPPER with (FILT $"upper").
      replace (((name ++ el) ++ g) ++ g' ++ $"|" ++ h' ++ $"upper") with (((name ++ el) ++ g ++ g') ++ $"|" ++ h' ++ $"upper") by (rewrite <- !app_assoc; reflexivity).
      pose proof (bar_hit $"upper" _ _ ((name ++ el) ++ g ++ g') h' [] eq_refl eq_refl (NBG _ GG) H') as Z. rewrite app_nil_r in Z. rewrite Z.
      pose proof (bar_removed $"upper" ((name ++ el) ++ g ++ g') h' [] (NBG _ GG) (NT _ _)) as Z2. rewrite !app_nil_r in Z2. rewrite Z2, SG by exact GG. reflexivity.
Qed.

(** * Values *)
Lemma token_value_is E vars t j : token t -> token_value E vars t j -> eval_jinja_token E vars t = j.
Proof.
  intros TT H. unfold eval_jinja_token. destruct H as [v V|n V D N|x V D F|q s V F Q Es|V D F NQ]; rewrite V; [reflexivity|..].
  - assert (isdigit t = true) as -> by (apply digit_text_is; exact D). rewrite (decimal_is t n N). reflexivity.
  - destruct (isdigit t) eqn:I; [apply digit_text_is in I; contradiction|]. rewrite F. reflexivity.
  - assert (isdigit t = false) as ->.
    { rewrite Es. unfold isdigit. cbn [forallb]. destruct Q as [-> | ->]; reflexivity. }
    rewrite F, Es. cbn [rev]. rewrite rev_app_distr. cbn [rev app].
    assert (ceq q q = true) as -> by (unfold ceq; apply Ascii.eqb_refl). assert (is_quote q = true) as -> by (apply quote_spec; exact Q).
    cbn [andb]. rewrite removelast_last. reflexivity.
  - destruct (isdigit t) eqn:I; [apply digit_text_is in I; contradiction|]. rewrite F. destruct t as [|a t]; [reflexivity|].
    destruct (exists_last (l := a :: t) ltac:(discriminate)) as (t' & b & Et). rewrite Et at 1. rewrite rev_app_distr. cbn [rev app].
    destruct (ceq a b && is_quote a) eqn:C; [|reflexivity]. exfalso. apply andb_prop in C as (C & Q). apply ceq_eq in C as <-. apply quote_spec in Q.
    destruct t' as [|a' t'].
    + injection Et as ->. destruct TT as (q1 & b & q2 & ET & _ & _ & NB & FB). destruct q1 as [|x q1].
      * destruct b as [|y b]; [contradiction|]. injection ET as <- _. inversion FB as [|? ? Y _]; subst. apply dot_spec in Y. apply dot_facts in Y as (_ & _ & _ & Y).
        apply quote_spec in Q. congruence.
      * injection ET as _ ET. destruct q1; [|discriminate]. destruct b; [contradiction|discriminate].
    + injection Et as <- Et. apply (NQ a t' Q). rewrite Et. reflexivity.
Qed.
Lemma whole_is j z : whole j z -> is_num j = Some (PInt z).
Proof. intros H. destruct H; reflexivity. Qed.
Lemma number_is j p : number j p <-> is_num j = Some p.
Proof.
  split.
  - intros H. destruct H as [j z H|x]; [exact (whole_is j z H)|reflexivity].
  - destruct j as [[|b|z|x|s]|l|d]; cbn [is_num]; intros H; try discriminate H; injection H as <-; constructor; [destruct b|]; constructor.
Qed.
Lemma whole_num j z : is_num j = Some (PInt z) -> whole j z.
Proof. destruct j as [[|b|z0|x|s]|l|d]; cbn [is_num]; intros H; try discriminate H; injection H as <-; [destruct b|]; constructor. Qed.
Lemma sum_text_is E l r s : sum_text E l r s -> add_text E l r = s.
Proof.
  intros H. unfold add_text. destruct H as [l r a b Wl Wr|l r a b Nl Nr NW|l r NN].
  - rewrite (whole_is _ _ Wl), (whole_is _ _ Wr). reflexivity.
  - apply number_is in Nl, Nr. rewrite Nl, Nr. destruct a, b; try reflexivity. exfalso. apply NW. eexists _, _. split; apply whole_num; eassumption.
  - destruct (is_num l) as [a|] eqn:Nl; [|reflexivity]. destruct (is_num r) as [b|] eqn:Nr; [|destruct a; reflexivity].
    exfalso. apply NN. exists a, b. split; apply number_is; assumption.
Qed.
Lemma evaluates_is E vars key o : evaluates E vars key o -> jval E vars key = o.
Proof.
  intros H. unfold jval. destruct H as [key v B V|key B V|name el pick fs change v s1 s2 HN EL HF V HC HP|name el pick fs change HN EL HF V|a g h b l r s TA TB G H VL VR S].
  - rewrite (bare_parts key B). cbn [jk_add jk_key jk_lower jk_upper jk_idx]. rewrite V. reflexivity.
  - rewrite (bare_parts key B). cbn [jk_add jk_key]. rewrite V. reflexivity.
  - destruct (value_parts name el pick fs change HN EL HF) as (lo & up & -> & HS). cbn [jk_add jk_key jk_lower jk_upper jk_idx]. rewrite V. cbv zeta.
    pose proof (HS _ _ HC) as E1. rewrite <- E1. f_equal. destruct EL as [|d n D N]; [symmetry; exact HP|].
    change ($"[" ++ d ++ $"]") with ("["%char :: d ++ ["]"%char]). cbn [tl]. rewrite removelast_last, (decimal_is d n N).
    destruct (nth_error s1 n); symmetry; exact HP.
  - destruct (value_parts name el pick fs change HN EL HF) as (lo & up & -> & _). cbn [jk_add jk_key]. rewrite V. reflexivity.
  - rewrite (sum_parts a g h b TA TB G H). rewrite (token_value_is E vars a l TA VL), (token_value_is E vars b r TB VR), (sum_text_is E l r s S). reflexivity.
Qed.
