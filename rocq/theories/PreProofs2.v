(** C84, C85, C87, C107 for every text, and C121 (proofs only). *)
From Verif Require Export PreProofs HashProofs PreSpec2.
From Verif Require Import Lemmas PatchProofs PathProofs RenderProofs LayoutProofs RegexProofs Commands ConvertProofs ConvertProofs6 ConvertProofs8 Convert PreSpec2.

(** * Texts *)
Lemma m_sound_len {A} r : forall st (k : mst -> option A) x, m r st k = Some x ->
  exists u st', rest st = u ++ rest st' /\ pos st' = pos st + length u /\ lang r u /\ k st' = Some x.
Proof.
  induction r as [p| |a IHa b IHb|a IHa b IHb|p|a IHa|n a IHa|p]; intros st k x H; cbn [m] in H; cbn [lang].
  - destruct (rest st) as [|c t] eqn:R; [discriminate|]. destruct (p c) eqn:P; [|discriminate]. destruct (adv_pos _ _ _ R) as [Hp Hr].
    exists [c], (adv st). split; [rewrite Hr; reflexivity|]. split; [cbn [length]; lia|]. split; [exists c; auto|exact H].
  - exists [], st. cbn [length]. rewrite Nat.add_0_r. auto.
  - apply IHa in H as (u & st' & Hu & Pu & Lu & H). apply IHb in H as (v & st'' & Hv & Pv & Lv & H).
    exists (u ++ v), st''. split; [rewrite Hu, Hv, app_assoc; reflexivity|]. split; [rewrite app_length; lia|]. split; [exists u, v; auto|exact H].
  - destruct (m a st k) as [y|] eqn:K.
    + injection H as ->. apply IHa in K as (u & st' & Hu & Pu & Lu & K). exists u, st'. auto 6.
    + apply IHb in H as (u & st' & Hu & Pu & Lu & H). exists u, st'. auto 6.
  - apply (star_sound_pos p (rest st)) in H as (u & st' & Hu & Pu & _ & Lu & H); [|reflexivity]. exists u, st'. auto.
  - destruct (m a st k) as [y|] eqn:K.
    + injection H as ->. apply IHa in K as (u & st' & Hu & Pu & Lu & K). exists u, st'. auto 6.
    + exists [], st. cbn [length]. rewrite Nat.add_0_r. auto 6.
  - apply IHa in H as (u & st' & Hu & Pu & Lu & H). exists u, {| prevc := prevc st'; pos := pos st'; rest := rest st'; grps := (n, (pos st, pos st')) :: grps st' |}.
    auto.
  - exists [], st. cbn [length]. rewrite Nat.add_0_r. destruct (prevc st) as [c|]; [destruct (p c); [discriminate|]|]; auto.
Qed.
Lemma sub_texts r (form : str -> Prop) new s : no_look r = true -> (forall u, form u <-> lang r u) -> ~ form [] ->
  replaced_in form (fun _ w _ => w = new) s (re_sub r new s).
Proof.
  intros NL HF NE. apply sub_all_of; [exact NL|intros u; apply HF|]. intros done t prev x HS M. unfold match_at in M.
  apply m_sound_len in M as (u & st & R & P & LU & M). injection M as <-. cbn [start_st rest pos] in *.
  exists u, (rest st). split; [exact R|]. split; [intros ->; apply NE, HF; exact LU|]. cbn [m_start m_end]. split; [reflexivity|].
  split; [lia|]. split; [apply HF; exact LU|reflexivity].
Qed.
Lemma no_look_L s : no_look (L_ s) = true.
Proof. induction s as [|c s IH]; [reflexivity|]. destruct s as [|d s]; [reflexivity|]. exact IH. Qed.
Lemma sub_text old new s : old <> [] -> text_for old new s (re_sub (L_ old) new s).
Proof.
  intros N. apply (sub_texts (L_ old) (fun u => u = old)); [apply no_look_L|intros u; symmetry; apply lang_L|]. intros E. apply N. symmetry. exact E.
Qed.
Lemma replace_text old new : old <> [] -> forall n s, length s <= n -> text_for old new s (replace_all_aux old new 0 s).
Proof.
  intros N. induction n as [|n IH]; intros s Hl.
  - destruct s; [constructor|cbn [length] in Hl; lia].
  - destruct s as [|c s]; [constructor|]. destruct (starts_with old (c :: s)) eqn:S.
    + apply Lemmas.starts_with_spec in S as (t & E). rewrite E. rewrite replace_hit by exact N.
      apply text_replaced; [reflexivity|reflexivity|]. apply IH. apply (f_equal (@length ascii)) in E. rewrite app_length in E. cbn [length] in *.
      destruct old; [contradiction|cbn [length] in E; lia].
    + cbn [replace_all_aux]. rewrite S. apply character_kept; [|apply IH; cbn [length] in Hl; lia].
      intros u v E ->. assert (starts_with old (c :: s) = true); [|congruence]. apply Lemmas.starts_with_spec. exists v. exact E.
Qed.
Lemma text_for_unique old new s a : old <> [] -> text_for old new s a -> forall b, text_for old new s b -> a = b.
Proof.
  intros N H. unfold text_for in *. induction H as [|c s s' HN H IH|u w s s' HF HR H IH]; intros b Hb.
  - inversion Hb as [| |u w t t' HF HR H2 EX]; [reflexivity|].
    apply app_eq_nil in EX as [-> _]. exfalso. apply N. symmetry. exact HF.
  - remember (c :: s) as x eqn:EX. destruct Hb as [|c2 t t' HN2 H2|u w t t' HF HR H2]; [discriminate| |].
    + injection EX as -> ->. f_equal. apply IH. exact H2.
    + exfalso. apply (HN u t); [reflexivity|exact HF].
  - remember (u ++ s) as x eqn:EX. destruct Hb as [|c2 t t' HN2 H2|u2 w2 t t' HF2 HR2 H2].
    + symmetry in EX. apply app_eq_nil in EX as [-> _]. exfalso. apply N. symmetry. exact HF.
    + exfalso. apply (HN2 u s); [exact EX|exact HF].
    + subst u u2. apply app_inv_head in EX. subst t. rewrite (IH _ H2). congruence.
Qed.

(** * Markers *)
Lemma markers whole : forall n s prev p, length s <= n -> markers_changed prev s (sub_aux MARK whole (fun _ => $"${{") prev p 0 s).
Proof.
  induction n as [|n IH]; intros s prev p Hl.
  - destruct s; [constructor|cbn [length] in Hl; lia].
  - destruct s as [|c s]; [constructor|]. destruct (match_at MARK prev p (c :: s)) as [x|] eqn:M.
    + assert (prev <> Some "$"%char) as P by (intros ->; rewrite mark_dollar in M; discriminate).
      destruct (starts_with $"{{" (c :: s)) eqn:S; [|rewrite mark_none in M by exact S; discriminate].
      apply Lemmas.starts_with_spec in S as (t & E). rewrite E in *. destruct (mark_hit prev p t P) as (y & M2 & S & EN). rewrite M in M2. injection M2 as <-.
      change ($"{{" ++ t) with ("{"%char :: "{"%char :: t) in *. cbn [sub_aux]. rewrite M, S, EN. replace (p + 2 - p - 1) with 1 by lia.
      change ("{"%char :: "{"%char :: t) with ($"{{" ++ t). apply marker_changed; [exact P|]. cbn [length] in Hl. apply (f_equal (@length ascii)) in E. cbn [length] in E.
      destruct t as [|d t]; [constructor|]. apply IH. cbn [length] in *. lia.
    + cbn [sub_aux]. rewrite M. apply other_kept; [|apply IH; cbn [length] in Hl; lia].
      destruct prev as [d|].
      * destruct (ceq "$"%char d) eqn:Q; [apply ceq_eq in Q as <-; left; reflexivity|right]. intros v E. rewrite E in M.
        destruct (mark_hit (Some d) p v) as (x & X & _); [|congruence]. intros [= ->]. discriminate Q.
      * right. intros v E. rewrite E in M. destruct (mark_hit None p v) as (x & X & _); [discriminate|congruence].
Qed.
Lemma c84_all s : markers_changed None s (to_v1_marker s).
Proof. exact (markers s (length s) s None 0 (le_n _)). Qed.
Lemma c84_unique prev s a : markers_changed prev s a -> forall b, markers_changed prev s b -> a = b.
Proof.
  intros H. induction H as [prev|prev s s' P H IH|prev c s s' C H IH]; intros b Hb.
  - inversion Hb; reflexivity.
  - change ($"{{" ++ s) with ("{"%char :: "{"%char :: s) in Hb. inversion Hb as [|? t t' P2 H2 E1 E2|? d t t' C2 H2 E1 E2]; subst.
    + rewrite (IH _ H2). reflexivity.
    + exfalso. destruct C2 as [C2|C2]; [exact (P C2)|exact (C2 s eq_refl)].
  - inversion Hb as [|? t t' P2 H2 E1 E2|? d t t' C2 H2 E1 E2]; subst.
    + exfalso. destruct C as [C|C]; [exact (P2 C)|exact (C t eq_refl)].
    + rewrite (IH _ H2). reflexivity.
Qed.

(** * Environment variables *)
Lemma noted_all {X} r (f : rmatch -> X) (form : str -> Prop) (R : str -> X -> str -> Prop) (whole : str) : no_look r = true -> (forall u, form u -> lang r u) ->
  (forall done s prev x, whole = done ++ s -> match_at r prev (length done) s = Some x -> exists u v, s = u ++ v /\ u <> []
     /\ m_start x = length done /\ m_end x = length done + length u /\ form u /\ R u (f x) v) ->
  forall n s done prev, length s <= n -> whole = done ++ s -> noted_in form R s (map f (scan r prev (length done) 0 s)).
Proof.
  intros NL HF HM. induction n as [|n IH]; intros s done prev Hl HW.
  - destruct s; [constructor|cbn [length] in Hl; lia].
  - destruct s as [|c s]; [constructor|]. destruct (match_at r prev (length done) (c :: s)) as [x|] eqn:M.
    + destruct (HM _ _ _ _ HW M) as (u & v & E & NE & S & EN & F & K). rewrite E in *.
      destruct (ConvertProofs10.scan_hit r prev (length done) u v x NE M S EN) as (prev' & ->). cbn [map].
      apply one_noted; [exact F|exact K|]. rewrite <- app_length. apply IH; [|rewrite <- app_assoc; exact HW].
      rewrite app_length in Hl. destruct u; [contradiction|cbn [length] in Hl; lia].
    + cbn [scan]. rewrite M. apply character_passed.
      * intros u v E F. destruct (lang_match_g r prev (length done) u v NL (HF u F)) as (x & X0). rewrite <- E in X0. congruence.
      * replace (S (length done)) with (length (done ++ [c])) by (rewrite app_length; cbn [length]; lia).
        apply IH; [cbn [length] in Hl; lia|rewrite <- app_assoc; exact HW].
Qed.
Lemma first_one old new s : first_for old new s (replace_first old new s).
Proof.
  assert ((~ has_text old s /\ replace_first old new s = s) \/ exists a b, s = a ++ old ++ b /\ replace_first old new s = a ++ new ++ b
    /\ forall a' b', s = a' ++ old ++ b' -> length a <= length a') as [[H ->]|(a & b & -> & -> & H)]; [|apply none_found; exact H|apply first_found; exact H].
  induction s as [|c s IH].
  - cbn [replace_first]. destruct (starts_with old []) eqn:S.
    + apply Lemmas.starts_with_spec in S as (t & E). right. exists [], t. split; [exact E|]. split; [|intros; cbn [length]; lia].
      symmetry in E. apply app_eq_nil in E as [-> ->]. reflexivity.
    + left. split; [|reflexivity]. intros (a & b & E). symmetry in E. apply app_eq_nil in E as [_ E]. apply app_eq_nil in E as [-> ->]. discriminate S.
  - cbn [replace_first]. destruct (starts_with old (c :: s)) eqn:S.
    + apply Lemmas.starts_with_spec in S as (t & E). right. exists [], t. split; [exact E|]. split; [|intros; cbn [length]; lia].
      rewrite E, skipn_app, skipn_all, Nat.sub_diag. reflexivity.
    + assert (forall a b, c :: s = a ++ old ++ b -> exists a', a = c :: a' /\ s = a' ++ old ++ b) as K.
      { intros [|d a] b E; [exfalso; assert (starts_with old (c :: s) = true); [apply Lemmas.starts_with_spec; exists b; exact E|congruence]|].
        cbn [app] in E. injection E as -> E. exists a. auto. }
      destruct IH as [[H E]|(a & b & E & E2 & H)].
      * left. split; [|rewrite E; reflexivity]. intros (a & b & X). apply K in X as (a' & _ & X). apply H. exists a', b. exact X.
      * right. exists (c :: a), b. split; [rewrite E; reflexivity|]. split; [rewrite E2; reflexivity|].
        intros a' b' X. apply K in X as (a2 & -> & X). cbn [length]. specialize (H _ _ X). lia.
Qed.
Definition ask_of (s : str) (x : rmatch) : lookup := {| l_quote := hd cNL (grp 1 s x); l_key := grp 2 s x |}.
Lemma lookup_lang u : lookup_text u -> lang PRE_ENVIRON u.
Proof.
  intros (g & q & key & q' & -> & NG & G & Q & Q' & OK). unfold PRE_ENVIRON. cbn [seqs lang].
  exists g, ($"environ[" ++ [q] ++ key ++ [q'] ++ $"]"). split; [reflexivity|]. split.
  { destruct g as [|c g]; [contradiction|]. inversion G; subst. exists [c], g. split; [reflexivity|]. split; [exists c; auto|assumption]. }
  exists $"environ[", ([q] ++ key ++ [q'] ++ $"]"). split; [reflexivity|]. split; [apply lang_L; reflexivity|].
  exists [q], (key ++ [q'] ++ $"]"). split; [reflexivity|]. split; [exists q; auto|].
  exists key, ([q'] ++ $"]"). split; [reflexivity|]. split; [apply on_line_any; exact OK|].
  exists [q'], $"]". split; [reflexivity|]. split; [exists q'; auto|]. apply lang_L. reflexivity.
Qed.
Lemma environ_match s done t prev x : s = done ++ t -> match_at PRE_ENVIRON prev (length done) t = Some x -> exists u v, t = u ++ v /\ u <> []
     /\ m_start x = length done /\ m_end x = length done + length u /\ lookup_text u
     /\ (asked u (ask_of s x) v /\ grp 1 s x = [l_quote (ask_of s x)]).
Proof.
  intros HS M. unfold match_at, PRE_ENVIRON in M. cbn [seqs] in M.
  set (F := fun st => Some {| m_start := length done; m_end := pos st; m_grps := grps st |}) in M.
  change (m WS1 (start_st prev (length done) t) (fun st => m (L "environ[") st (fun st => m (Grp 1 (Chr is_quote)) st
    (fun st => m (Grp 2 DOTS) st (fun st => m (Grp 3 (Chr is_quote)) st (fun st => m (L "]") st F))))) = Some x) in M.
  apply m_sound_pos in M as (g & a1 & R1 & P1 & G1 & L1 & M); [|reflexivity].
  apply m_sound_pos in M as (e & a2 & R2 & P2 & G2 & L2 & M); [|reflexivity]. apply lang_L in L2 as ->.
  change (m (Chr is_quote) a2 (fun st => (fun st => m (Grp 2 DOTS) st (fun st => m (Grp 3 (Chr is_quote)) st (fun st => m (L "]") st F)))
     {| prevc := prevc st; pos := pos st; rest := rest st; grps := (1, (pos a2, pos st)) :: grps st |}) = Some x) in M.
  apply m_sound_pos in M as (qs & a3 & R3 & P3 & G3 & L3 & M); [|reflexivity]. destruct L3 as (q & -> & Q). cbv beta in M.
  match type of M with m _ ?a _ = _ => set (b3 := a) in M end.
  assert (rest b3 = rest a3) as Rb3 by reflexivity. assert (pos b3 = pos a3) as Pb3 by reflexivity.
  assert (grps b3 = (1, (pos a2, pos a3)) :: grps a3) as Gb3 by reflexivity. clearbody b3.
  unfold DOTS in M. cbn [m] in M. apply star_max in M as (key & a4 & R4 & P4 & G4 & F4 & M & Mx); [|reflexivity].
  change (m (Grp 3 (Chr is_quote)) {| prevc := prevc a4; pos := pos a4; rest := rest a4; grps := (2, (pos b3, pos a4)) :: grps a4 |} (fun st => m (L "]") st F) = Some x) in M.
  match type of M with m _ ?a _ = _ => set (b4 := a) in M end.
  assert (rest b4 = rest a4) as Rb4 by reflexivity. assert (pos b4 = pos a4) as Pb4 by reflexivity.
  assert (grps b4 = (2, (pos b3, pos a4)) :: grps a4) as Gb4 by reflexivity. clearbody b4.
  change (m (Chr is_quote) b4 (fun st => (fun st => m (L "]") st F)
     {| prevc := prevc st; pos := pos st; rest := rest st; grps := (3, (pos b4, pos st)) :: grps st |}) = Some x) in M.
  apply m_sound_pos in M as (qs & a5 & R5 & P5 & G5 & L5 & M); [|reflexivity]. destruct L5 as (q' & -> & Q'). cbv beta in M.
  apply m_sound_pos in M as (cl & a6 & R6 & P6 & G6 & L6 & M); [|reflexivity]. apply lang_L in L6 as ->. injection M as <-.
  cbn [start_st rest pos grps] in *. set (v := rest a6) in *.
  assert (rest a4 = [q'] ++ lit "]" ++ v) as E4 by (rewrite <- Rb4, R5, R6; reflexivity).
  assert (t = g ++ lit "environ[" ++ [q] ++ key ++ [q'] ++ lit "]" ++ v) as E0 by (rewrite R1, R2, R3, <- Rb3, R4, E4; reflexivity).
  assert (on_a_line key) as OK by (apply any_on_line; exact F4).
  destruct L1 as (c1 & g1 & -> & (c & -> & SC) & SG). cbn [lang WS] in SG.
  assert (gap ([c] ++ g1)) as GG by (constructor; [exact SC|exact SG]).
  change (length (lit "environ[")) with 8 in *. change (length (lit "]")) with 1 in *. cbn [length] in *.
  exists (([c] ++ g1) ++ lit "environ[" ++ [q] ++ key ++ [q'] ++ lit "]"), v. split; [rewrite E0, <- !app_assoc; reflexivity|]. split; [discriminate|].
  cbn [m_start m_end]. split; [reflexivity|].
  split; [rewrite !app_length in *; cbn [length] in *; change (length (lit "environ[")) with 8; change (length (lit "]")) with 1; lia|].
  split; [exists ([c] ++ g1), q, key, q'; split; [reflexivity|]; repeat (split; [first [discriminate|assumption]|]); assumption|].
  assert (grp 1 s {| m_start := length done; m_end := pos a6; m_grps := grps a6 |} = [q]) as GQ.
  { unfold grp, group. cbn [m_grps]. rewrite G6, G5, Gb4, G4, Gb3. cbn [find fst snd Nat.eqb].
    apply (slice_pos s (done ++ ([c] ++ g1) ++ lit "environ[") [q] (key ++ [q'] ++ lit "]" ++ v)).
    - rewrite HS, E0, <- !app_assoc. reflexivity.
    - rewrite !app_length in *. change (length (lit "environ[")) with 8. cbn [length] in *. lia.
    - cbn [length]. lia. }
  assert (grp 2 s {| m_start := length done; m_end := pos a6; m_grps := grps a6 |} = key) as GK.
  { unfold grp, group. cbn [m_grps]. rewrite G6, G5, Gb4, G4, Gb3. cbn [find fst snd Nat.eqb].
    apply (slice_pos s (done ++ ([c] ++ g1) ++ lit "environ[" ++ [q]) key ([q'] ++ lit "]" ++ v)).
    - rewrite HS, E0, <- !app_assoc. reflexivity.
    - rewrite !app_length in *. change (length (lit "environ[")) with 8. cbn [length] in *. lia.
    - lia. }
  unfold ask_of. rewrite GQ, GK. cbn [hd l_quote]. split; [|reflexivity].
  exists ([c] ++ g1), q'. cbn [l_quote l_key]. split; [reflexivity|]. repeat (split; [first [discriminate|assumption]|]).
  intros p d r EV OP QD. destruct (Mx ([q'] ++ lit "]" ++ p) ([d] ++ lit "]" ++ r)) as (st2 & R' & K).
  { rewrite E4, EV, <- !app_assoc. reflexivity. }
  { discriminate. }
  { constructor; [apply quote_any; exact Q'|]. constructor; [reflexivity|]. apply on_line_any. exact OP. }
  revert K. change ([d] ++ lit "]" ++ r) with (d :: lit "]" ++ r) in R'. rewrite R' at 1. unfold quote in QD. rewrite QD.
  apply (m_complete_g (L "]"%string) eq_refl (lit "]"%string) r); [apply lang_L; reflexivity| |intros; discriminate].
  cbn [rest]. apply (adv_pos {| prevc := prevc st2; pos := pos st2; rest := rest st2; grps := (2, (pos b3, pos st2)) :: grps st2 |} d). exact R'.
Qed.
Lemma in_turn_fold {X} (f : str -> X -> str) (P : X -> str -> str -> Prop) : (forall x s, P x s (f s x)) ->
  forall l s, in_turn (map P l) s (fold_left f l s).
Proof. intros H. induction l as [|x l IH]; intros s; cbn [map fold_left]; [constructor|]. econstructor; [apply H|apply IH]. Qed.
Lemma fold_map {X Y} (f : str -> Y -> str) (g : X -> Y) l : forall s, fold_left f (map g l) s = fold_left (fun s x => f s (g x)) l s.
Proof. induction l as [|x l IH]; intros s; [reflexivity|]. cbn [map fold_left]. apply IH. Qed.
Lemma noted_weaken {X} (form : str -> Prop) (R R' : str -> X -> str -> Prop) s l : (forall u x v, R u x v -> R' u x v) -> noted_in form R s l -> noted_in form R' s l.
Proof. intros W H. induction H; constructor; auto. Qed.
Definition noted_pair u (y : lookup * str * str) v : Prop :=
  asked u (fst (fst y)) v /\ snd (fst y) = old_lookup (fst (fst y)) /\ snd y = new_lookup (fst (fst y)).
Lemma asks_of s0 l t : noted_in lookup_text noted_pair t (map (fun x => (ask_of s0 x, fst (environ_pair s0 x), snd (environ_pair s0 x))) l) ->
  Forall (fun x => environ_pair s0 x = (old_lookup (ask_of s0 x), new_lookup (ask_of s0 x))) l /\ noted_in lookup_text asked t (map (ask_of s0) l).
Proof.
  intros H. remember (map (fun x => (ask_of s0 x, fst (environ_pair s0 x), snd (environ_pair s0 x))) l) as ys eqn:EY.
  revert l EY. induction H as [|c t ys N H IH|u y t ys FU RU H IH]; intros l EY.
  - destruct l; [|discriminate]. split; [constructor|]. apply none_noted.
  - destruct (IH l EY) as [A B]. split; [exact A|]. apply character_passed; assumption.
  - destruct l as [|x l]; [discriminate|]. cbn [map] in EY. injection EY as -> EY. destruct (IH l EY) as [A B]. destruct RU as (RA & R1 & R2). cbn [fst snd] in *.
    split; [constructor; [|exact A]; rewrite <- R1, <- R2; apply surjective_pairing|]. cbn [map]. apply one_noted; assumption.
Qed.
Lemma folds_same s0 l : Forall (fun x => environ_pair s0 x = (old_lookup (ask_of s0 x), new_lookup (ask_of s0 x))) l -> forall t,
  fold_left (fun t on => replace_first (fst on) (snd on) t) (map (environ_pair s0) l) t
  = fold_left (fun t a => replace_first (old_lookup a) (new_lookup a) t) (map (ask_of s0) l) t.
Proof. intros F. induction F as [|x l E F IH]; intros t; [reflexivity|]. cbn [map fold_left]. rewrite E. cbn [fst snd]. apply IH. Qed.
Lemma c87_all s : lookups_changed s (pre_environ s).
Proof.
  assert (noted_in lookup_text noted_pair s (map (fun x => (ask_of s x, fst (environ_pair s x), snd (environ_pair s x))) (scan PRE_ENVIRON None 0 0 s))) as H.
  { apply (noted_all PRE_ENVIRON _ lookup_text noted_pair s eq_refl lookup_lang) with (n := length s) (done := []); [|reflexivity|reflexivity].
    intros done t prev x HS M. destruct (environ_match s done t prev x HS M) as (u & v & E & N & S & EN & LT & A & GQ). exists u, v.
    split; [exact E|]. split; [exact N|]. split; [exact S|]. split; [exact EN|]. split; [exact LT|]. unfold noted_pair. cbn [fst snd]. unfold environ_pair. cbv zeta. cbn [fst snd]. rewrite GQ. repeat (split; [first [assumption|reflexivity]|]). reflexivity. }
  exists (map (ask_of s) (scan PRE_ENVIRON None 0 0 s)). unfold pre_environ. revert H.
  generalize (scan PRE_ENVIRON None 0 0 s). intros l H.
  assert (Forall (fun x => environ_pair s x = (old_lookup (ask_of s x), new_lookup (ask_of s x))) l /\ noted_in lookup_text asked s (map (ask_of s) l)) as [F N].
  { exact (asks_of s l s H). }
  split; [exact N|].
  rewrite (folds_same s l F s).
  apply (in_turn_fold (fun t a => replace_first (old_lookup a) (new_lookup a) t)). intros a t. apply first_one.
Qed.

(** * Pins, the hash type, everything *)
Lemma c85_all s : exists mid, text_for $"min_pin=" $"lower_bound=" s mid /\ text_for $"max_pin=" $"upper_bound=" mid (pre_pins s).
Proof. eexists. split; [apply (sub_text $"min_pin="); discriminate|apply (sub_text $"max_pin="); discriminate]. Qed.
Lemma hash_key_lang u : hash_key u <-> lang PRE_PROCESS_JINJA_HASH_TYPE_KEY u.
Proof.
  split; [|intros H; exact (key_lang u H)]. intros (q & n & c & I & ->).
  destruct (key_hit q n c [] I) as (_ & H). destruct (H [] None) as (x & M & S & EN & _). unfold match_at in M.
  apply m_sound_len in M as (u & st & R & P & LU & M). injection M as <-. cbn [m_start m_end start_st rest pos length] in *.
  rewrite app_nil_r in R. assert (rest st = []) as RN.
  { apply (f_equal (@length ascii)) in R. rewrite app_length in R. destruct (rest st); [reflexivity|cbn [length] in R; lia]. }
  rewrite RN, app_nil_r in R. rewrite R. exact LU.
Qed.
Lemma in_turn_app P : forall Q s t u, in_turn P s t -> in_turn Q t u -> in_turn (P ++ Q) s u.
Proof. intros Q s t u H. revert u. induction H; intros u' K; [exact K|]. cbn [app]. econstructor; [eassumption|auto]. Qed.
Lemma c107_all variants s : Forall (fun v => v <> []) variants ->
  in_turn (map (fun line => text_for line []) variants ++ [replaced_in hash_key (fun _ w _ => w = $"sha256:")]) s (pre_process_remove_hash_type variants s).
Proof.
  intros V. unfold pre_process_remove_hash_type. apply (in_turn_app _ _ _ (fold_left (fun s v => replace_all v [] s) variants s)).
  - revert s. induction V as [|v l N V IH]; intros s; cbn [map fold_left]; [constructor|]. econstructor; [|apply IH]. exact (replace_text v [] N (length s) s (le_n _)).
  - econstructor; [|constructor]. apply sub_texts; [reflexivity|exact hash_key_lang|]. intros (q & n & c & I & X). destruct q; discriminate X.
Qed.
Lemma c107_turns variants s : (forall v, In v variants <-> In v HASH_TYPE_VARIANTS) ->
  (forall v, In v variants <-> In v set_lines)
  /\ in_turn (map (fun line => text_for line []) variants ++ [replaced_in hash_key (fun _ w _ => w = $"sha256:")]) s (pre_process_remove_hash_type variants s).
Proof.
  intros V. split.
  - intros v. rewrite V. unfold HASH_TYPE_VARIANTS, set_lines, hash_names. cbn [map In old_mark]. intuition.
  - apply c107_all. apply Forall_forall. intros v I. apply V in I. unfold HASH_TYPE_VARIANTS in I. cbn [map In] in I. destruct I as [<-|[<-|[<-|[]]]]; discriminate.
Qed.
Lemma c121 variants s : (forall v, In v variants <-> In v HASH_TYPE_VARIANTS) ->
  (forall v, In v variants <-> In v set_lines) /\ pre_processed variants s (pre_process_recipe_text variants s).
Proof.
  intros V. destruct (c107_turns variants (pre_environ (pre_pins (pre_multiline (pre_parentheses (pre_dots s))))) V) as [A B]. split; [exact A|].
  unfold pre_processed, pre_process_recipe_text. destruct (c119 s) as (m1 & D1 & D2). destruct (c85_all (pre_multiline (pre_parentheses (pre_dots s)))) as (m2 & P1 & P2).
  cbn [app]. econstructor; [exact D1|]. econstructor; [exact D2|]. econstructor; [apply c118|]. econstructor; [apply c120|].
  econstructor; [exact P1|]. econstructor; [exact P2|]. econstructor; [apply c87_all|]. exact B.
Qed.
