(** C65, continued: what the patterns match (proofs only). *)
From Verif Require Export ConvertProofs.
From Verif Require Import Lemmas ConvertSpec.

Lemma star_greedy {A} p u : forall t st (k : mst -> option A) x, rest st = u ++ t -> Forall (fun c => p c = true) u ->
  match t with c :: _ => p c = false | [] => True end ->
  (forall st', rest st' = t -> pos st' = pos st + length u -> grps st' = grps st -> k st' = Some x) -> star_k p (rest st) st k = Some x.
Proof.
  induction u as [|c u IH]; intros t st k x R F N H.
  - cbn [app] in R. rewrite R. assert (k st = Some x) as K by (apply H; [exact R|cbn [length]; lia|reflexivity]).
    destruct t as [|d t]; cbn [star_k]; [exact K|]. rewrite N. exact K.
  - inversion F as [|? ? Pc Fu]; subst. rewrite R. cbn [app star_k]. rewrite Pc. destruct (adv_pos st c (u ++ t) R) as [Hp Hr].
    assert (star_k p (u ++ t) (adv st) k = Some x) as K.
    { rewrite <- Hr. apply (IH t (adv st) k x Hr Fu N). intros st' R' P' G'. apply H; [exact R'|cbn [length]; lia|rewrite G'; apply adv_grps]. }
    rewrite K. reflexivity.
Qed.
(** A text that cannot be white space. *)
Lemma star_stop {A} p st (k : mst -> option A) : match rest st with c :: _ => p c = false | [] => True end -> star_k p (rest st) st k = k st.
Proof. intros H. destruct (rest st) as [|c t]; cbn [star_k]; [reflexivity|]. rewrite H. reflexivity. Qed.
Lemma lit_step {A} s st (k : mst -> option A) t x : s <> [] -> rest st = s ++ t ->
  (forall st', rest st' = t -> pos st' = pos st + length s -> grps st' = grps st -> k st' = Some x) -> m (L_ s) st k = Some x.
Proof. intros N R H. destruct (m_lit s N st k t R) as (st' & -> & R' & P' & G'). exact (H st' R' P' G'). Qed.
(** A version: the major digit, then all the digits. *)
Lemma version_step {A} n1 n2 major minor t st (k : mst -> option A) x : is_version major minor ->
  match t with c :: _ => is_digit c = false | [] => True end -> rest st = major :: minor ++ t ->
  (forall st', pos st' = pos st + S (length minor) ->
     grps st' = (n2, (S (pos st), pos st + S (length minor))) :: (n1, (pos st, S (pos st))) :: grps st -> k st' = Some x) ->
  m (Seq (Grp n1 (Alt (L "3") (L "2"))) (Grp n2 DIG1)) st k = Some x.
Proof.
  intros (M & N & D) T R H.
  assert (forall st', rest st' = minor ++ t -> pos st' = S (pos st) -> grps st' = (n1, (pos st, S (pos st))) :: grps st ->
    m (Grp n2 DIG1) st' k = Some x) as K.
  { intros st1 R1 P1 G1. unfold DIG1. cbn [m]. destruct minor as [|d minor]; [contradiction|]. cbn [app] in R1.
    inversion D as [|? ? Dd Dm]; subst. rewrite R1, Dd. destruct (adv_pos st1 d _ R1) as [Hp Hr].
    apply (star_greedy is_digit minor t (adv st1) _ x Hr Dm T). intros st2 R2 P2 G2. apply H; cbn [pos grps length].
    - lia.
    - rewrite G2, adv_grps, G1. rewrite P2, Hp, P1. replace (S (S (pos st)) + length minor) with (pos st + S (S (length minor))) by lia. reflexivity. }
  cbn [m]. destruct M as [-> | ->].
  - unfold L at 2. rewrite (m_lit_no $"3"); [|rewrite R; reflexivity].
    apply (lit_step $"2" st _ (minor ++ t)); [discriminate|exact R|]. intros st' R' P' G'. apply K; cbn [rest pos grps].
    + exact R'.
    + rewrite P'. change (length $"2") with 1. lia.
    + rewrite P', G'. change (length $"2") with 1. rewrite Nat.add_1_r. reflexivity.
  - assert (m (L "3") st (fun st' => m (Grp n2 DIG1) {| prevc := prevc st'; pos := pos st'; rest := rest st';
        grps := (n1, (pos st, pos st')) :: grps st' |} k) = Some x) as Z.
    { apply (lit_step $"3" st _ (minor ++ t)); [discriminate|exact R|]. intros st' R' P' G'. apply K; cbn [rest pos grps].
      + exact R'.
      + rewrite P'. change (length $"3") with 1. lia.
      + rewrite P', G'. change (length $"3") with 1. rewrite Nat.add_1_r. reflexivity. }
    cbn [m] in Z. rewrite Z. reflexivity.
Qed.
Lemma slice_at a b t c whole : whole = a ++ t ++ c -> b = length a + length t -> slice (length a) b whole = t.
Proof. intros -> ->. apply slice_mid. Qed.

Definition f_version (s : str) (x : rmatch) : str := lit "match(python, """ ++ grp 1 s x ++ grp 2 s x ++ $"." ++ grp 3 s x ++ lit """)".
Definition f_eq (s : str) (x : rmatch) : str := lit "match(python, ""==" ++ grp 1 s x ++ $"." ++ grp 2 s x ++ lit """)".
Definition f_ne (s : str) (x : rmatch) : str := lit "match(python, ""!=" ++ grp 1 s x ++ $"." ++ grp 2 s x ++ lit """)".

Lemma eq_hit major minor t : is_version major minor -> match t with c :: _ => is_digit c = false | [] => True end ->
  hit SEL_PY_EQ f_eq (token_v0 (PyIs major minor)) (token_v1 (PyIs major minor)) t.
Proof.
  intros V T. split; [discriminate|]. intros done prev. cbn [token_v0 token_v1]. set (p := length done).
  exists {| m_start := p; m_end := p + S (S (S (length minor)));
            m_grps := [(2, (S (p + 2), p + 2 + S (length minor))); (1, (p + 2, S (p + 2)))] |}.
  split; [|split; [reflexivity|split; [cbn [m_end]; rewrite app_length; cbn [length]; reflexivity|]]].
  - unfold match_at. change (seqs [L "py"; Grp 1 (Alt (L "3") (L "2")); Grp 2 DIG1]) with SEL_PY_EQ.
    change SEL_PY_EQ with (Seq (L_ $"py") (Seq (Grp 1 (Alt (L "3") (L "2"))) (Grp 2 DIG1))).
    match goal with |- m (Seq ?a ?b) ?st ?k = ?x => change (m (Seq a b) st k) with (m a st (fun st' => m b st' k)) end.
    apply (lit_step $"py" _ _ (major :: minor ++ t)); [discriminate|cbn [start_st rest]; rewrite <- app_assoc; reflexivity|].
    intros st1 R1 P1 G1. cbn [start_st pos grps] in P1, G1. change (length $"py") with 2 in P1.
    apply (version_step 1 2 major minor t st1 _ _ V T R1). intros st2 P2 G2. rewrite P2, G2, G1, P1.
    replace (p + 2 + S (length minor)) with (p + S (S (S (length minor)))) by lia. reflexivity.
  - unfold f_eq, grp, group. cbn [m_grps find fst Nat.eqb].
    rewrite <- app_assoc. cbn [app].
    replace (p + 2) with (length (done ++ $"py")) by (rewrite app_length; reflexivity).
    rewrite (slice_at (done ++ $"py") _ [major] (minor ++ t));
      [|rewrite <- !app_assoc; reflexivity|cbn [length]; lia].
    replace (S (length (done ++ $"py"))) with (length (done ++ $"py" ++ [major])) by (rewrite !app_length; cbn [length]; change (length $"py") with 2; lia).
    rewrite (slice_at (done ++ $"py" ++ [major]) _ minor t);
      [|rewrite <- !app_assoc; reflexivity|rewrite !app_length; cbn [length]; lia].
    reflexivity.
Qed.
Lemma no_space_op op rest : In op [$"<"; $">"; $"<="; $">="; $"=="; $"!="] -> match op ++ rest with c :: _ => is_space c = false | [] => True end.
Proof. cbn [In]. intros [<-|[<-|[<-|[<-|[<-|[<-|[]]]]]]]; reflexivity. Qed.
(** What follows an operator makes the shorter alternatives fail. *)
Lemma op_step {A} op : In op [$"<"; $">"; $"<="; $">="; $"=="; $"!="] -> forall t st (k : mst -> option A) x,
  rest st = op ++ t -> (forall st', match rest st' with c :: _ => c = "="%char | [] => False end -> k st' = None) ->
  match t with c :: _ => c <> "="%char | [] => True end ->
  (forall st', rest st' = t -> pos st' = pos st + length op -> grps st' = grps st -> k st' = Some x) ->
  m (Alt (L "<") (Alt (L ">") (Alt (L "<=") (Alt (L ">=") (Alt (L "==") (L "!=")))))) st k = Some x.
Proof.
  intros I t st k x R NK _ H.
  assert (forall a b, m (Alt a b) st k = match m a st k with Some y => Some y | None => m b st k end) as AE by reflexivity.
  assert (forall s, starts_with s (rest st) = false -> m (L_ s) st k = None) as NO by (intros s; apply m_lit_no).
  assert (forall s, s <> [] -> s = op -> m (L_ s) st k = Some x) as YES.
  { intros s N ->. exact (lit_step op st k t x N R H). }
  assert (forall s u, s <> [] -> op = s ++ u -> match u with c :: _ => c = "="%char | [] => False end -> m (L_ s) st k = None) as PRE.
  { intros s u N -> U. rewrite <- app_assoc in R. destruct (m_lit s N st k _ R) as (st' & -> & R' & _). apply NK. rewrite R'. destruct u; [contradiction|exact U]. }
  unfold L. rewrite !AE. cbn [In] in I. destruct I as [<-|[<-|[<-|[<-|[<-|[<-|[]]]]]]].
  - rewrite (YES (lit "<")); [reflexivity|discriminate|reflexivity].
  - rewrite (NO (lit "<")), (YES (lit ">")); [reflexivity|discriminate|reflexivity|rewrite R; reflexivity].
  - rewrite (PRE (lit "<") $"="), (NO (lit ">")), (YES (lit "<=")); try reflexivity; try discriminate. rewrite R; reflexivity.
  - rewrite (NO (lit "<")), (PRE (lit ">") $"="), (NO (lit "<=")), (YES (lit ">=")); try reflexivity; try discriminate; rewrite R; reflexivity.
  - rewrite (NO (lit "<")), (NO (lit ">")), (NO (lit "<=")), (NO (lit ">=")), (YES (lit "==")); try reflexivity; try discriminate; rewrite R; reflexivity.
  - rewrite (NO (lit "<")), (NO (lit ">")), (NO (lit "<=")), (NO (lit ">=")), (NO (lit "==")), (YES (lit "!=")); try reflexivity; try discriminate; rewrite R; reflexivity.
Qed.
Definition OPS : re := Alt (L "<") (Alt (L ">") (Alt (L "<=") (Alt (L ">=") (Alt (L "==") (L "!="))))).
Lemma version_hit g1 op g2 major minor t : token_ok (PyCompare g1 op g2 major minor) -> match t with c :: _ => is_digit c = false | [] => True end ->
  hit SEL_PY_VERSION f_version (token_v0 (PyCompare g1 op g2 major minor)) (token_v1 (PyCompare g1 op g2 major minor)) t.
Proof.
  intros (G1 & G2 & O & V) T. split; [discriminate|]. intros done prev. cbn [token_v0 token_v1]. set (p := length done).
  set (p1 := p + 2 + length g1). set (p2 := p1 + length op). set (p3 := p2 + length g2).
  exists {| m_start := p; m_end := p3 + S (length minor);
            m_grps := [(3, (S p3, p3 + S (length minor))); (2, (p3, S p3)); (1, (p1, p2))] |}.
  split; [|split; [reflexivity|split]].
  - unfold match_at.
    change SEL_PY_VERSION with (Seq (L_ $"py") (Seq WS (Seq (Grp 1 OPS) (Seq WS (Seq (Grp 2 (Alt (L "3") (L "2"))) (Grp 3 DIG1)))))).
    match goal with |- m (Seq ?a ?b) ?st ?k = ?x => change (m (Seq a b) st k) with (m a st (fun st' => m b st' k)) end.
    apply (lit_step $"py" _ _ (g1 ++ op ++ g2 ++ major :: minor ++ t)); [discriminate|cbn [start_st rest]; rewrite <- !app_assoc; reflexivity|].
    intros st1 R1 P1 Gr1. cbn [start_st pos grps] in P1, Gr1. change (length $"py") with 2 in P1.
    match goal with |- m (Seq ?a ?b) ?st ?k = ?x => change (m (Seq a b) st k) with (m a st (fun st' => m b st' k)) end.
    unfold WS at 1. cbv beta. match goal with |- m (StarC ?q) ?st ?k = ?x => change (m (StarC q) st k) with (star_k q (rest st) st k) end.
    apply (star_greedy is_space g1 (op ++ g2 ++ major :: minor ++ t) st1 _ _ R1 G1); [exact (no_space_op op _ O)|].
    intros st2 R2 P2 Gr2.
    match goal with |- m (Seq (Grp 1 OPS) ?b) ?st ?k = ?x => change (m (Seq (Grp 1 OPS) b) st k) with
      (m OPS st (fun st' => m b {| prevc := prevc st'; pos := pos st'; rest := rest st'; grps := (1, (pos st, pos st')) :: grps st' |} k)) end.
    unfold OPS. apply (op_step op O (g2 ++ major :: minor ++ t)); [exact R2| | |].
    + intros st3 H3.
      match goal with |- m (Seq WS ?b) ?st ?k = _ => change (m (Seq WS b) st k) with (star_k is_space (rest st) st (fun st' => m b st' k)) end.
      cbn [rest]. destruct (rest st3) as [|c r3] eqn:R3; [contradiction|]. subst c. cbn [star_k]. change (is_space "="%char) with false. cbv iota.
      match goal with |- m (Seq (Grp 2 ?o) ?b) ?st ?k = _ => change (m (Seq (Grp 2 o) b) st k) with
        (m o st (fun st' => m b {| prevc := prevc st'; pos := pos st'; rest := rest st'; grps := (2, (pos st, pos st')) :: grps st' |} k)) end.
      match goal with |- m (Alt ?a ?b) ?st ?k = _ => change (m (Alt a b) st k) with (match m a st k with Some y => Some y | None => m b st k end) end.
      unfold L. rewrite !m_lit_no; [reflexivity|reflexivity|reflexivity].
    + destruct g2 as [|c g2]; cbn [app].
      * destruct V as ([-> | ->] & _); discriminate.
      * inversion G2 as [|? ? Sc _]; subst. intros ->. discriminate.
    + intros st3 R3 P3 Gr3.
      match goal with |- m (Seq WS ?b) ?st ?k = _ => change (m (Seq WS b) st k) with (star_k is_space (rest st) st (fun st' => m b st' k)) end.
      apply (star_greedy is_space g2 (major :: minor ++ t)); [exact R3|exact G2|destruct V as ([-> | ->] & _); reflexivity|].
      intros st4 R4 P4 Gr4. cbn [pos grps] in P4, Gr4.
      apply (version_step 2 3 major minor t st4 _ _ V T R4). intros st5 P5 Gr5.
      rewrite P5, Gr5, Gr4, Gr3, Gr2, Gr1, P4, P3, P2, P1. reflexivity.
  - cbn [m_end]. rewrite !app_length. cbn [length]. change (length $"py") with 2. unfold p3, p2, p1. lia.
  - unfold f_version, grp, group. cbn [m_grps find fst Nat.eqb].
    replace p1 with (length (done ++ $"py" ++ g1)) by (unfold p1; rewrite !app_length; change (length $"py") with 2; unfold p; lia).
    rewrite (slice_at (done ++ $"py" ++ g1) _ op (g2 ++ major :: minor ++ t));
      [|rewrite <- !app_assoc; reflexivity|rewrite !app_length; change (length $"py") with 2; unfold p2, p1, p; lia].
    replace (slice p3 (S p3) _) with [major].
    2: { symmetry. replace p3 with (length (done ++ $"py" ++ g1 ++ op ++ g2)) at 1 by (unfold p3, p2, p1; rewrite !app_length; change (length $"py") with 2; unfold p; lia).
         apply (slice_at _ _ [major] (minor ++ t)); [rewrite <- !app_assoc; reflexivity|
           unfold p3, p2, p1, p; rewrite !app_length; change (length $"py") with 2; cbn [length]; lia]. }
    replace (S p3) with (length (done ++ $"py" ++ g1 ++ op ++ g2 ++ [major])) by (unfold p3, p2, p1; rewrite !app_length; change (length $"py") with 2; cbn [length]; unfold p; lia).
    rewrite (slice_at (done ++ $"py" ++ g1 ++ op ++ g2 ++ [major]) _ minor t);
      [|rewrite <- !app_assoc; reflexivity|
        unfold p3, p2, p1, p; rewrite !app_length; change (length $"py") with 2; cbn [length]; lia].
    unfold token_v1, python_match. rewrite <- !app_assoc. reflexivity.
Qed.
Lemma lit_hit s new t : s <> [] -> hit (L_ s) (fun _ _ => new) s new t.
Proof.
  intros N. split; [exact N|]. intros done prev. set (p := length done).
  exists {| m_start := p; m_end := p + length s; m_grps := [] |}. split; [|auto]. unfold match_at.
  apply (lit_step s _ _ t); [exact N|reflexivity|]. intros st' R P G. cbn [start_st pos grps] in *. rewrite P, G. reflexivity.
Qed.

(** * Tokens a pass leaves alone *)
Lemma lang_head r s : (forall u v, lang r u -> s = u ++ v -> False) -> still r s.
Proof. intros H prev p. destruct (match_at r prev p s) as [x|] eqn:M; [|reflexivity]. apply match_lang in M as (u & v & E & HL). destruct (H u v HL E). Qed.
(** A text that starts with [p] and has no other one, when the pattern does not match it from the start. *)
Lemma spotted_head r s : spotted r -> match s with c :: _ => ceq c "p"%char = false | [] => True end -> still r s.
Proof.
  intros SP H. apply lang_head. intros u v HL E. destruct (SP u HL) as (c & w & -> & _). destruct s as [|d s]; [discriminate|].
  change ($"py" ++ c :: w) with ("p"%char :: "y"%char :: c :: w) in E. cbn [app] in E. injection E as -> _. discriminate.
Qed.
Lemma one_p_quiet r s t : spotted r -> no_p s -> still r ("p"%char :: s ++ t) -> quiet_in r ("p"%char :: s) t.
Proof.
  intros SP F H a b E N. destruct a as [|x a].
  - cbn [app] in E. subst b. exact H.
  - cbn [app] in E. injection E as <- E. apply spotted_head; [exact SP|]. destruct b as [|c b]; [contradiction|]. cbn [app].
    rewrite E in F. apply Forall_app in F as [_ F]. inversion F; assumption.
Qed.
Lemma no_version_at major rest : major = "2"%char \/ major = "3"%char -> still SEL_PY_VERSION ($"py" ++ major :: rest).
Proof.
  intros M. apply lang_head. intros u v. unfold SEL_PY_VERSION. cbn [seqs lang].
  intros (a & b & -> & A & w & d & -> & W & o & e & -> & O & _) E. apply lang_L in A as ->. rewrite <- !app_assoc in E. apply app_inv_head in E.
  destruct w as [|c w].
  - unfold L in O. rewrite !lang_L in O. destruct O as [->|[->|[->|[->|[->| ->]]]]]; cbn [app] in E; destruct M as [-> | ->]; discriminate.
  - inversion W; subst. cbn [app] in E. injection E as -> _. destruct M; subst; discriminate.
Qed.
Lemma no_eq_at major rest : still SEL_PY_EQ ($"py" ++ major :: "k"%char :: rest).
Proof.
  apply lang_head. intros u v. unfold SEL_PY_EQ. cbn [seqs lang].
  intros (a & b & -> & A & o & e & -> & O & D) E. apply lang_L in A as ->. rewrite <- !app_assoc in E. apply app_inv_head in E.
  unfold L in O. rewrite !lang_L in O. unfold DIG1 in D. cbn [lang] in D. destruct D as (d1 & d2 & -> & (c & -> & Dc) & _).
  destruct O as [-> | ->]; cbn in E; injection E as _ <- _; discriminate.
Qed.
Lemma no_lit_at s t : starts_with s t = false -> still (L_ s) t.
Proof. intros H prev p. apply m_lit_no. exact H. Qed.
