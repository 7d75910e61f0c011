(** C87: environment variables (proofs only). *)
From Verif Require Export ConvertProofs9.
From Verif Require Import Lemmas PatchProofs PathProofs RenderProofs RegexProofs Commands ConvertSpec.

Lemma scan_plain r t : forall s prev p, quiet_in r s t -> exists prev', scan r prev p 0 (s ++ t) = scan r prev' (p + length s) 0 t.
Proof.
  induction s as [|c s IH]; intros prev p Q.
  - exists prev. cbn [app length]. rewrite Nat.add_0_r. reflexivity.
  - cbn [app scan]. pose proof (Q [] (c :: s) eq_refl ltac:(discriminate) prev p) as N. cbn [app] in N. rewrite N.
    destruct (IH (Some c) (S p)) as (prev' & E); [|exists prev'; rewrite E; cbn [length]; rewrite Nat.add_succ_r; reflexivity].
    intros a b Hs NE. apply (Q (c :: a) b); [rewrite Hs; reflexivity|exact NE].
Qed.
Lemma scan_skip r t : forall u prev p, exists prev', scan r prev p (length u) (u ++ t) = scan r prev' (p + length u) 0 t.
Proof.
  induction u as [|c u IH]; intros prev p.
  - exists prev. cbn [app length]. rewrite Nat.add_0_r. reflexivity.
  - cbn [app length scan]. destruct (IH (Some c) (S p)) as (prev' & ->). exists prev'. rewrite Nat.add_succ_r. reflexivity.
Qed.
Lemma scan_hit r prev p u t x : u <> [] -> match_at r prev p (u ++ t) = Some x -> m_start x = p -> m_end x = p + length u ->
  exists prev', scan r prev p 0 (u ++ t) = x :: scan r prev' (p + length u) 0 t.
Proof.
  intros N M B E. destruct u as [|c u]; [contradiction|]. cbn [app scan]. cbn [app] in M. rewrite M, B, E. cbn [length].
  replace (p + S (length u) - p - 1) with (length u) by lia.
  destruct (scan_skip r t u (Some c) (S p)) as (prev' & ->). exists prev'. rewrite Nat.add_succ_r. reflexivity.
Qed.
(** The longest run from which the rest matches. *)
Lemma star_longest {A} p : forall u t st (k : mst -> option A) x, rest st = u ++ t -> Forall (fun c => p c = true) u ->
  (forall st' a, t = a ++ rest st' -> a <> [] -> Forall (fun c => p c = true) a -> k st' = None) ->
  (forall st', rest st' = t -> pos st' = pos st + length u -> grps st' = grps st -> k st' = Some x) -> star_k p (rest st) st k = Some x.
Proof.
  induction u as [|c u IH]; intros t st k x R F N H.
  - cbn [app] in R. assert (k st = Some x) as K by (apply H; [exact R|cbn [length]; lia|reflexivity]).
    rewrite R. destruct t as [|d t]; cbn [star_k]; [exact K|]. destruct (p d) eqn:D; [|exact K].
    destruct (star_k p t (adv st) k) as [y|] eqn:S; [|exact K]. exfalso. destruct (adv_pos st d t R) as [Hp Hr].
    apply star_sound_pos in S as (u & st' & Hu & _ & _ & Fu & Hk); [|exact Hr].
    rewrite (N st' (d :: u)) in Hk; [discriminate| |discriminate|constructor; assumption]. rewrite Hr in Hu. rewrite Hu. reflexivity.
  - inversion F as [|? ? Pc Fu]; subst. rewrite R. cbn [app star_k]. rewrite Pc. destruct (adv_pos st c (u ++ t) R) as [Hp Hr].
    assert (star_k p (u ++ t) (adv st) k = Some x) as K.
    { rewrite <- Hr. apply (IH t (adv st) k x Hr Fu N). intros st' R' P' G'. apply H; [exact R'|cbn [length]; lia|rewrite G'; apply adv_grps]. }
    rewrite K. reflexivity.
Qed.
Lemma on_line_any s : on_a_line s -> Forall (fun c => any_c c = true) s.
Proof.
  intros H. apply Forall_forall. intros c I. unfold any_c. destruct (ceq c cNL) eqn:E; [|reflexivity]. apply ceq_eq in E as ->. contradiction.
Qed.
Lemma any_on_line s : Forall (fun c => any_c c = true) s -> on_a_line s.
Proof. intros F I. rewrite Forall_forall in F. specialize (F _ I). discriminate F. Qed.

Definition use_match (p : nat) (e : env_use) : rmatch :=
  let q := p + length (e_gap e) + 8 in
  {| m_start := p; m_end := q + 1 + length (e_key e) + 2;
     m_grps := [(3, (q + 1 + length (e_key e), q + 2 + length (e_key e))); (2, (q + 1, q + 1 + length (e_key e))); (1, (q, q + 1))] |}.
Ltac seq1 := match goal with |- m (Seq ?a ?b) ?st ?k = ?x => change (m (Seq a b) st k) with (m a st (fun st' => m b st' k)) end; cbv beta.
Lemma use_hit e t prev p : use_ok e -> last_on_line t -> match_at PRE_ENVIRON prev p (old_use e ++ t) = Some (use_match p e).
Proof.
  intros (NG & G & Q & OL & _) LL. unfold match_at, PRE_ENVIRON. cbn [seqs]. unfold old_use. rewrite <- !app_assoc.
  destruct (e_gap e) as [|g0 g] eqn:EG; [contradiction|]. inversion G as [|? ? G0 G']; subst.
  seq1. unfold WS1. seq1. cbn [m start_st rest app]. rewrite G0.
  set (st0 := adv _). set (rst := $"environ[" ++ [e_quote e] ++ e_key e ++ [e_quote e] ++ $"]" ++ t).
  assert (rest st0 = g ++ rst) as R0 by reflexivity. assert (pos st0 = S p) as P0 by reflexivity. assert (grps st0 = []) as Gr0 by reflexivity. clearbody st0.
  change (star_k is_space (rest st0) st0 (fun st' => m (Seq (L "environ[") (Seq (Grp 1 (Chr is_quote)) (Seq (Grp 2 DOTS) (Seq (Grp 3 (Chr is_quote)) (L "]"))))) st'
    (fun st => Some {| m_start := p; m_end := pos st; m_grps := grps st |})) = Some (use_match p e)).
  apply (star_greedy is_space g rst); [exact R0|exact G'|reflexivity|]. intros st1 R1 P1 Gr1.
  seq1. unfold L at 1. apply (lit_step (lit "environ[") st1 _ ([e_quote e] ++ e_key e ++ [e_quote e] ++ $"]" ++ t)); [discriminate|exact R1|].
  intros st2 R2 P2 Gr2. change (length (lit "environ[")) with 8 in P2.
  seq1. cbn [m]. rewrite R2. cbn [app]. rewrite Q. destruct (adv_pos st2 _ _ R2) as [P3 R3]. cbn [app] in R3. pose proof (adv_grps st2) as Gr3.
  set (st3 := adv st2) in *. clearbody st3. cbn [pos rest grps].
  unfold DOTS at 1; cbn [m rest pos grps].   match goal with |- star_k any_c (rest st3) ?st ?k = _ => set (stq := st); set (kk := k) end.
  change (star_k any_c (rest stq) stq kk = Some (use_match p e)).
  apply (star_longest any_c (e_key e) (e_quote e :: "]"%char :: t)).
  - cbn [rest]. exact R3.
  - apply on_line_any. exact OL.
  - intros st' a Ea Na Fa. unfold kk. cbn [rest pos grps]. destruct (rest st') as [|c s'] eqn:Rs; [reflexivity|].
    destruct (is_quote c) eqn:Qc; [|reflexivity].
    match goal with |- m (L "]") ?st ?k = None => set (stz := st) end. unfold L. apply m_lit_no.
    assert (rest stz = s') as Rz.
    { unfold stz. cbn [rest]. assert (forall z, rest z = c :: s' -> rest (adv z) = s') as A by (intros z Hz; apply (adv_pos z c s' Hz)). apply A. reflexivity || exact Rs. }
    rewrite Rz. destruct (starts_with (lit "]") s') eqn:S; [exfalso|reflexivity]. apply starts_with_spec in S as (v & ->).
    change (lit "]" ++ v) with ("]"%char :: v) in Ea. destruct a as [|a0 a]; [contradiction|]. cbn [app] in Ea. injection Ea as <- Ea.
    destruct a as [|a1 a]; cbn [app] in Ea; injection Ea.
    + intros _ <-. discriminate Qc.
    + intros Et <-. rewrite (LL a c v) in Qc; [discriminate|exact Et|]. apply any_on_line. inversion Fa as [|? ? _ F1]; subst. inversion F1; assumption.
  - intros st4 R4 P4 Gr4. unfold kk. cbn [rest pos grps]. rewrite R4, Q.
    match goal with |- m (L "]") ?st ?k = _ => set (stz := st) end.
    match type of stz with mst => idtac end.
    assert (rest stz = "]"%char :: t /\ pos stz = S (pos st4) /\ grps stz = (3, (pos st4, S (pos st4))) :: (2, (pos stq, pos st4)) :: grps st4) as (Rz & Pz & Gz).
    { unfold stz. cbn [rest pos grps]. match goal with |- context [adv ?z] => destruct (adv_pos z (e_quote e) ("]"%char :: t) eq_refl) as [Pa Ra]; pose proof (adv_grps z) as Ga end.
      rewrite Ra, Pa, Ga. cbn [pos grps]. auto. }
    clearbody stz. unfold L. apply (lit_step (lit "]") stz _ t); [discriminate|exact Rz|]. intros st5 R5 P5 Gr5.
    rewrite P5, Gr5, Gz, Pz, Gr4, P4. unfold stq. cbn [pos grps]. rewrite P3, P2, P1, P0, Gr3, Gr2, Gr1, Gr0.
    change (length (lit "]")) with 1. unfold use_match. rewrite EG. cbn [length].
    f_equal. f_equal; [lia|]. repeat first [lia | f_equal].
Qed.

Lemma uses_cons R e piece more first : with_uses R first ((e, piece) :: more) = first ++ R e ++ with_uses R piece more.
Proof. unfold with_uses. cbn [map concat fst snd]. rewrite <- app_assoc. reflexivity. Qed.
Definition ENV : str := $"environ".
Lemma env_no : ~ In "["%char ENV.
Proof. intros H. vm_compute in H. repeat (destruct H as [H|H]; [discriminate|]). exact H. Qed.
Lemma gap_no g : gap g -> ~ In "["%char g.
Proof. intros G I. unfold gap in G. rewrite Forall_forall in G. specialize (G _ I). discriminate G. Qed.
Lemma env_start e t : use_ok e -> exists q t', old_use e ++ t = q ++ "["%char :: t' /\ ~ In "["%char q /\ (forall b, b <> [] -> ENV ++ $"[" <> b ++ q ++ $"[").
Proof.
  intros (NG & G & _). exists (e_gap e ++ ENV), ([e_quote e] ++ e_key e ++ [e_quote e] ++ $"]" ++ t). split; [|split].
  - unfold old_use. rewrite <- !app_assoc. reflexivity.
  - intros I. apply in_app_or in I as [I|I]; [exact (gap_no _ G I)|exact (env_no I)].
  - intros b NB E. apply (f_equal (@length ascii)) in E. rewrite !app_length in E. destruct b; [contradiction|]. cbn [length] in E. lia.
Qed.
Lemma gap_split (b t : str) : forall (w v : str), gap w -> b <> [] -> (forall c, is_space c = true -> ~ ends_with_char c b) -> b ++ t = w ++ v ->
  exists b', b' <> [] /\ b' ++ t = v /\ b = w ++ b'.
Proof.
  revert b. intros b w. revert b. induction w as [|c w IH]; intros b v G NB NE E.
  - exists b. auto.
  - inversion G as [|? ? Gc Gw]; subst. destruct b as [|d b]; [contradiction|]. cbn [app] in E. injection E as -> E.
    destruct (IH b v Gw) as (b' & N' & E1 & E2).
    + intros ->. apply (NE c Gc). exists []. reflexivity.
    + intros c' S' (x & ->). apply (NE c' S'). exists (c :: x). reflexivity.
    + exact E.
    + exists b'. split; [exact N'|]. split; [exact E1|]. rewrite E2. reflexivity.
Qed.
Lemma environ_quiet s t : ~ has_text $"environ[" s -> (forall c, is_space c = true -> ~ ends_with_char c s) ->
  (t = [] \/ exists q t', t = q ++ "["%char :: t' /\ ~ In "["%char q /\ (forall b, b <> [] -> ENV ++ $"[" <> b ++ q ++ $"[")) -> quiet_in PRE_ENVIRON s t.
Proof.
  intros NS NE HT a b E NB prev p. destruct (match_at PRE_ENVIRON prev p (b ++ t)) as [x|] eqn:M; [exfalso|reflexivity].
  apply match_lang in M as (u & v & Eu & HL). unfold PRE_ENVIRON in HL. cbn [seqs] in HL.
  destruct HL as (w & y & -> & Hw & y1 & y2 & -> & Hy1 & _). unfold L in Hy1. apply lang_L in Hy1. subst y1.
  assert (gap w) as Gw.
  { unfold WS1, WS in Hw. cbn [lang] in Hw. destruct Hw as (c1 & w1 & -> & (c & -> & Pc) & F). constructor; assumption. }
  rewrite <- !app_assoc in Eu. assert (exists b', b' <> [] /\ b' ++ t = $"environ[" ++ y2 ++ v /\ b = w ++ b') as (b' & NB' & Eb & Ew).
  { apply (gap_split b t w _ Gw NB); [|exact Eu]. intros c Sc (z & ->). apply (NE c Sc). exists (a ++ z). rewrite E, <- app_assoc. reflexivity. }
  assert (quiet_in (L_ (ENV ++ $"[")) s t) as Q by (apply (quiet_lit ENV "["%char); [exact env_no|exact NS|exact HT]).
  specialize (Q (a ++ w) b'). assert (s = (a ++ w) ++ b') as Es by (rewrite E, Ew, <- app_assoc; reflexivity).
  specialize (Q Es NB' None 0). rewrite Eb in Q. unfold match_at in Q.
  destruct (m_lit (ENV ++ $"[") ltac:(discriminate) (start_st None 0 (lit "environ[" ++ y2 ++ v)) (fun st => Some {| m_start := 0; m_end := pos st; m_grps := grps st |}) (y2 ++ v) eq_refl) as (st' & Hm & _).
  rewrite Hm in Q. discriminate.
Qed.
Lemma environ_quiet_end s : ~ has_text $"environ[" s -> quiet_in PRE_ENVIRON s [].
Proof.
  intros NS a b E NB prev p. destruct (match_at PRE_ENVIRON prev p (b ++ [])) as [x|] eqn:M; [exfalso|reflexivity].
  apply match_lang in M as (u & v & Eu & HL). apply NS. apply (has_trans _ u); [apply environ_has; exact HL|]. rewrite app_nil_r in Eu. exists a, v. rewrite E, Eu. reflexivity.
Qed.
Fixpoint matches_of (p : nat) (more : list (env_use * str)) : list rmatch :=
  match more with [] => [] | (e, piece) :: more' => use_match p e :: matches_of (p + length (old_use e) + length piece) more' end.
Lemma use_len e : use_ok e -> length (old_use e) = length (e_gap e) + 8 + 1 + length (e_key e) + 2.
Proof. intros _. unfold old_use. rewrite !app_length. change (length $"environ[") with 8. change (length $"]") with 1. cbn [length]. lia. Qed.
Lemma scan_uses : forall more first prev p, uses_ok first more ->
  scan PRE_ENVIRON prev p 0 (with_uses old_use first more) = matches_of (p + length first) more.
Proof.
  induction more as [|[e piece] more IH]; intros first prev p H.
  - destruct H as [H _]. unfold with_uses. cbn [map concat matches_of].
    destruct (scan_plain PRE_ENVIRON [] first prev p (environ_quiet_end first H)) as (prev' & ->). reflexivity.
  - destruct H as (H & NE & UO & LL & OK). rewrite uses_cons.
    destruct (scan_plain PRE_ENVIRON (old_use e ++ with_uses old_use piece more) first prev p) as (prev1 & ->).
    { apply environ_quiet; [exact H|exact NE|right; apply env_start; exact UO]. }
    pose proof (use_hit e (with_uses old_use piece more) prev1 (p + length first) UO LL) as M.
    destruct (scan_hit PRE_ENVIRON prev1 (p + length first) (old_use e) _ _ ltac:(destruct UO as (NG & _); unfold old_use; destruct (e_gap e); [contradiction|discriminate]) M eq_refl) as (prev2 & ->).
    { rewrite (use_len e UO). unfold use_match. cbn [m_end]. lia. }
    cbn [matches_of]. f_equal. apply IH. exact OK.
Qed.
Definition core_old (e : env_use) : str := $"environ[" ++ [e_quote e] ++ e_key e ++ [e_quote e] ++ $"]".
Definition core_new (e : env_use) : str := $"env.get(" ++ [e_quote e] ++ e_key e ++ [e_quote e] ++ $")".
Lemma pair_of done e t : environ_pair (done ++ old_use e ++ t) (use_match (length done) e) = (core_old e, core_new e).
Proof.
  assert (grp 1 (done ++ old_use e ++ t) (use_match (length done) e) = [e_quote e]) as G1.
  { unfold grp, group, use_match. cbn [m_grps find fst Nat.eqb]. unfold old_use.
    replace (done ++ (e_gap e ++ $"environ[" ++ [e_quote e] ++ e_key e ++ [e_quote e] ++ $"]") ++ t)
      with ((done ++ e_gap e ++ $"environ[") ++ [e_quote e] ++ (e_key e ++ [e_quote e] ++ $"]" ++ t)) by (rewrite <- !app_assoc; reflexivity).
    replace (length done + length (e_gap e) + 8) with (length (done ++ e_gap e ++ $"environ[")) by (rewrite !app_length; change (length $"environ[") with 8; lia).
    apply (slice_mid (done ++ e_gap e ++ $"environ[") [e_quote e]). }
  assert (grp 2 (done ++ old_use e ++ t) (use_match (length done) e) = e_key e) as G2.
  { unfold grp, group, use_match. cbn [m_grps find fst Nat.eqb]. unfold old_use.
    replace (done ++ (e_gap e ++ $"environ[" ++ [e_quote e] ++ e_key e ++ [e_quote e] ++ $"]") ++ t)
      with ((done ++ e_gap e ++ $"environ[" ++ [e_quote e]) ++ e_key e ++ ([e_quote e] ++ $"]" ++ t)) by (rewrite <- !app_assoc; reflexivity).
    replace (length done + length (e_gap e) + 8 + 1) with (length (done ++ e_gap e ++ $"environ[" ++ [e_quote e])) by (rewrite !app_length; change (length $"environ[") with 8; cbn [length]; lia).
    apply slice_mid. }
  unfold environ_pair. cbv zeta. rewrite G1, G2. reflexivity.
Qed.
Lemma pairs_of whole : forall more done, whole = done ++ concat (map (fun x => old_use (fst x) ++ snd x) more) ->
  map (environ_pair whole) (matches_of (length done) more) = map (fun x => (core_old (fst x), core_new (fst x))) more.
Proof.
  induction more as [|[e piece] more IH]; intros done E; [reflexivity|]. cbn [matches_of map fst]. cbn [map concat fst snd] in E. rewrite <- app_assoc in E. f_equal.
  - rewrite E. apply pair_of.
  - rewrite <- app_length, <- app_length. apply IH. rewrite E, <- !app_assoc. reflexivity.
Qed.
(** Replacing one use at a time. *)
Lemma replace_first_mid old new a t : (forall x b, a = x ++ b -> b <> [] -> starts_with old (b ++ old ++ t) = false) ->
  replace_first old new (a ++ old ++ t) = a ++ new ++ t.
Proof.
  induction a as [|c a IH]; intros H.
  - cbn [app]. assert (starts_with old (old ++ t) = true) as S by (apply starts_with_spec; exists t; reflexivity).
    assert (replace_first old new (old ++ t) = new ++ skipn (length old) (old ++ t)) as -> by (destruct (old ++ t); cbn [replace_first]; rewrite S; reflexivity).
    rewrite skipn_app, skipn_all, Nat.sub_diag. reflexivity.
  - cbn [app replace_first]. pose proof (H [] (c :: a) eq_refl ltac:(discriminate)) as N. cbn [app] in N. rewrite N. f_equal. apply IH.
    intros x b E NB. apply (H (c :: x) b); [rewrite E; reflexivity|exact NB].
Qed.
Lemma has_sep p a c b : ~ In c p -> has_text p (a ++ c :: b) -> has_text p a \/ has_text p b.
Proof.
  intros N (x & y & E). revert a E. induction x as [|d x IH]; intros a E.
  - cbn [app] in E. left. revert a E N. induction p as [|e p IHp]; intros a E N; [exists [], a; reflexivity|].
    destruct a as [|f a]; cbn [app] in E; injection E as -> E; [exfalso; apply N; left; reflexivity|].
    destruct (IHp a E) as (z & w & _).
    { intros I. apply N. right. exact I. }
    clear IHp. assert (exists w', a = p ++ w') as (w' & ->).
    { assert (~ In c p) as NP by (intros I; apply N; right; exact I). clear -E NP. revert a E. induction p as [|e p IH]; intros a E; [exists a; reflexivity|].
      destruct a as [|f a]; cbn [app] in E; injection E as -> E; [exfalso; apply NP; left; reflexivity|].
      destruct (IH ltac:(intros I; apply NP; right; exact I) a E) as (w' & ->). exists w'. reflexivity. }
    exists [], w'. reflexivity.
  - destruct a as [|f a]; cbn [app] in E; injection E as -> E.
    + right. exists x, y. exact E.
    + destruct (IH a E) as [(z & w & ->)|K]; [left; exists (d :: z), w; reflexivity|right; exact K].
Qed.
Lemma no_sep p (s : str) : forall a, Forall (fun c => ~ In c p) s -> s <> [] -> forall b, ~ has_text p a -> ~ has_text p b -> ~ has_text p (a ++ s ++ b).
Proof.
  induction s as [|c s IH]; intros a F NS b HA HB; [contradiction|]. inversion F as [|? ? Fc Fs]; subst. cbn [app].
  intros X. apply has_sep in X as [X|X]; [exact (HA X)| |exact Fc]. destruct s as [|d s]; [exact (HB X)|].
  apply (IH [] Fs ltac:(discriminate) b); [|exact HB|exact X]. intros (x & y & E). destruct x, p; try discriminate E.
  apply HA. exists [], a. reflexivity.
Qed.
Lemma gap_seps g : gap g -> Forall (fun c => ~ In c $"environ[") g.
Proof.
  intros G. eapply Forall_impl; [|exact G]. intros c S I. vm_compute in I. repeat (destruct I as [<-|I]; [discriminate S|]). exact I.
Qed.
Lemma quote_sep q : is_quote q = true -> Forall (fun c => ~ In c $"environ[") [q].
Proof. intros Q. constructor; [|constructor]. intros I. vm_compute in I. repeat (destruct I as [<-|I]; [discriminate Q|]). exact I. Qed.
Lemma done_next done e : use_ok e -> ~ has_text $"environ[" done -> ~ has_text $"environ[" (done ++ new_use e).
Proof.
  intros (NG & G & Q & _ & K) H. unfold new_use. apply (no_sep _ (e_gap e)); [apply gap_seps; exact G|exact NG|exact H|].
  assert (~ has_text $"environ[" ($"env.get(")) as X1 by (apply has_text_dec; vm_compute; reflexivity).
  assert (~ has_text $"environ[" ($")")) as X2 by (apply has_text_dec; vm_compute; reflexivity).
  apply (no_sep _ [e_quote e]); [apply quote_sep; exact Q|discriminate|exact X1|]. apply (no_sep _ [e_quote e]); [apply quote_sep; exact Q|discriminate|exact K|exact X2].
Qed.
Lemma closed_next done e s : use_ok e -> ~ has_text $"environ[" done -> ~ has_text $"environ[" s -> ~ has_text $"environ[" ((done ++ new_use e) ++ s).
Proof.
  intros U H S. assert (new_use e = (e_gap e ++ $"env.get(" ++ [e_quote e] ++ e_key e ++ [e_quote e]) ++ $")") as -> by (unfold new_use; rewrite <- !app_assoc; reflexivity).
  rewrite app_assoc, <- app_assoc. apply (no_sep _ $")"); [|discriminate| |exact S].
  - constructor; [|constructor]. intros I. vm_compute in I. repeat (destruct I as [I|I]; [discriminate I|]). exact I.
  - destruct U as (NG & G & Q & _ & K). apply (no_sep _ (e_gap e)); [apply gap_seps; exact G|exact NG|exact H|].
    assert (~ has_text $"environ[" ($"env.get(")) as X1 by (apply has_text_dec; vm_compute; reflexivity).
    assert (~ has_text $"environ[" []) as X2 by (apply has_text_dec; vm_compute; reflexivity).
    apply (no_sep _ [e_quote e]); [apply quote_sep; exact Q|discriminate|exact X1|]. rewrite <- (app_nil_r [e_quote e]).
    apply (no_sep _ [e_quote e]); [apply quote_sep; exact Q|discriminate|exact K|exact X2].
Qed.
Lemma env_prefix e s : starts_with $"environ[" s = false -> starts_with (core_old e) s = false.
Proof.
  intros H. destruct (starts_with (core_old e) s) eqn:S; [|reflexivity]. exfalso. apply starts_with_spec in S as (v & ->).
  assert (starts_with $"environ[" (core_old e ++ v) = true); [|congruence]. apply starts_with_spec. unfold core_old. rewrite <- app_assoc. eexists. reflexivity.
Qed.
Lemma replace_use done e t : use_ok e -> ~ has_text $"environ[" (done ++ e_gap e) ->
  replace_first (core_old e) (core_new e) (done ++ old_use e ++ t) = (done ++ new_use e) ++ t.
Proof.
  intros U H. assert (done ++ old_use e ++ t = (done ++ e_gap e) ++ core_old e ++ t) as -> by (unfold old_use, core_old; rewrite <- !app_assoc; reflexivity).
  rewrite replace_first_mid; [unfold new_use, core_new; rewrite <- !app_assoc; reflexivity|].
  intros x b E NB. apply env_prefix.
  assert (quiet_in (L_ (ENV ++ $"[")) (done ++ e_gap e) (core_old e ++ t)) as Q.
  { apply (quiet_lit ENV "["%char); [exact env_no|exact H|right]. exists ENV, ([e_quote e] ++ e_key e ++ [e_quote e] ++ $"]" ++ t).
    split; [unfold core_old; rewrite <- !app_assoc; reflexivity|]. split; [exact env_no|]. intros z NZ EZ. apply (f_equal (@length ascii)) in EZ. rewrite !app_length in EZ.
    destruct z; [contradiction|]. cbn [length] in EZ. lia. }
  specialize (Q x b E NB None 0). unfold match_at in Q. destruct (starts_with $"environ[" (b ++ core_old e ++ t)) eqn:S; [|reflexivity].
  apply starts_with_spec in S as (v & S). rewrite S in Q.
  destruct (m_lit (ENV ++ $"[") ltac:(discriminate) (start_st None 0 ($"environ[" ++ v)) (fun st => Some {| m_start := 0; m_end := pos st; m_grps := grps st |}) v eq_refl) as (st' & Hm & _).
  rewrite Hm in Q. discriminate.
Qed.
Lemma fold_uses : forall more done, ~ has_text $"environ[" done -> uses_ok [] more \/ (exists first, uses_ok first more) ->
  fold_left (fun t on => replace_first (fst on) (snd on) t) (map (fun x => (core_old (fst x), core_new (fst x))) more)
    (done ++ concat (map (fun x => old_use (fst x) ++ snd x) more)) = done ++ concat (map (fun x => new_use (fst x) ++ snd x) more).
Proof.
  induction more as [|[e piece] more IH]; intros done H OK; [reflexivity|].
  assert (use_ok e /\ uses_ok piece more) as [U OK'] by (destruct OK as [OK|(first & OK)]; destruct OK as (_ & _ & U & _ & OK'); auto).
  cbn [map fst snd concat fold_left]. rewrite <- (app_assoc (old_use e)). rewrite replace_use.
  - rewrite app_assoc. rewrite IH.
    + rewrite <- !app_assoc. reflexivity.
    + apply closed_next; [exact U|exact H|]. destruct more as [|[]]; apply OK'.
    + right. exists piece. exact OK'.
  - exact U.
  - destruct U as (NG & G & _). rewrite <- (app_nil_r (e_gap e)). apply no_sep; [apply gap_seps; exact G|exact NG|exact H|]. apply has_text_dec. vm_compute. reflexivity.
Qed.
Lemma c87 first more : uses_ok first more -> pre_environ (with_uses old_use first more) = with_uses new_use first more.
Proof.
  intros OK. unfold pre_environ. rewrite (scan_uses more first None 0 OK). cbn [plus].
  rewrite (pairs_of (with_uses old_use first more) more first eq_refl). unfold with_uses. apply fold_uses; [|right; exists first; exact OK].
  destruct more as [|[]]; apply OK.
Qed.
