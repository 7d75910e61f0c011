(** C125: the table (proofs only). *)
From Verif Require Export SetProofs.
From Verif Require Import Lemmas DepsProofs PathProofs PathProofs2 RegexProofs RenderProofs ConvertProofs ConvertProofs6 SetSpec.

Lemma no_setting_tail a b : no_setting (a ++ b) -> no_setting b.
Proof. intros N g B (x & y & ->). apply (N g B). exists (a ++ x), y. rewrite <- !app_assoc. reflexivity. Qed.
Lemma set_start u prev p x : match_at JINJA_V0_SET_LINE prev p u = Some x -> exists g t, u = $"{%" ++ g ++ $"set" ++ t /\ blank g.
Proof.
  unfold match_at. rewrite set_parts. intros M. apply (m_sound_pos SET_HEAD eq_refl) in M as (h & st' & R & _ & _ & HL & _).
  cbn [start_st rest] in R. unfold SET_HEAD in HL. cbn [seqs lang] in HL.
  destruct HL as (a1 & r1 & -> & H1 & a2 & r2 & -> & H2 & a3 & r3 & -> & H3 & _). apply lang_L in H1 as ->. apply lang_L in H3 as ->.
  exists a2, (r3 ++ rest st'). split; [rewrite R, <- !app_assoc; reflexivity|]. unfold WS in H2. cbn [lang] in H2. rewrite Forall_forall in H2. exact H2.
Qed.
Lemma set_quiet b t : no_setting b -> (t = [] \/ exists t', t = "{"%char :: t') -> quiet_in JINJA_V0_SET_LINE b t.
Proof.
  intros N T a b' -> NE prev p. apply no_setting_tail in N.
  destruct (match_at JINJA_V0_SET_LINE prev p (b' ++ t)) as [x|] eqn:M; [|reflexivity]. exfalso.
  apply set_start in M as (g & r & E & B). destruct T as [->|(t' & ->)].
  - rewrite app_nil_r in E. apply (N g B). exists [], r. cbn [app]. rewrite <- !app_assoc. exact E.
  - assert ($"{%" ++ g ++ $"set" ++ r = ($"{%" ++ g ++ $"set") ++ r) as E' by (rewrite <- !app_assoc; reflexivity). rewrite E' in E.
    apply app_eq_app in E as (l & [[E1 E2]|[E1 E2]]).
    + apply (N g B). exists [], l. exact E1.
    + destruct l as [|c l].
      * rewrite app_nil_r in E1. apply (N g B). exists [], []. rewrite app_nil_r. symmetry. exact E1.
      * cbn [app] in E2. injection E2 as <- _. destruct b' as [|d b']; [contradiction|]. cbn [app] in E1.
        change (lit "{%") with (["{"%char; "%"%char] : str) in E1. cbn [app] in E1. injection E1 as _ E1.
        assert (In "{"%char ("%"%char :: g ++ $"set")) as I by (rewrite E1; apply in_or_app; right; left; reflexivity).
        destruct I as [I|I]; [discriminate|]. apply in_app_or in I as [I|I]; [specialize (B _ I); discriminate|].
        revert I. vm_compute. intuition discriminate.
Qed.

(** * Empty lines belong to the white space of the statement before them *)
Lemma empty_line_dec p : (exists a b, p = a ++ cNL :: b /\ blank a) \/ not_empty_line p.
Proof.
  induction p as [|c p IH].
  - right. intros [|] b E; discriminate.
  - destruct (ceq c cNL) eqn:Ec.
    + apply ceq_eq in Ec as ->. left. exists [], p. split; [reflexivity|intros c []].
    + destruct (is_space c) eqn:Sc.
      * destruct IH as [(a & b & -> & B)|N].
        -- left. exists (c :: a), b. split; [reflexivity|]. intros d [<-|I]; [exact Sc|exact (B d I)].
        -- right. intros [|d a] b E B.
           ++ cbn [app] in E. injection E as -> _. discriminate.
           ++ cbn [app] in E. injection E as <- E. apply (N a b E). intros e I. apply B. right. exact I.
      * right. intros [|d a] b E B.
        -- cbn [app] in E. injection E as -> _. discriminate.
        -- cbn [app] in E. injection E as <- _. rewrite (B c (or_introl eq_refl)) in Sc. discriminate.
Qed.
Lemma split_empty : forall n p, length p <= n -> exists e p', cNL :: p = e ++ [cNL] ++ p' /\ blank e /\ not_empty_line p'.
Proof.
  induction n as [|n IH]; intros p H.
  - destruct p; [|cbn in H; lia]. exists [], []. split; [reflexivity|]. split; [intros c []|]. intros [|] b E; discriminate.
  - destruct (empty_line_dec p) as [(a & b & -> & B)|N].
    + destruct (IH b) as (e & p' & E & Be & N); [rewrite app_length in H; cbn [length] in H; lia|].
      exists (cNL :: a ++ e), p'. split; [cbn [app]; rewrite E, <- app_assoc; reflexivity|]. split; [|exact N].
      intros c [<-|I]; [reflexivity|]. apply in_app_or in I as [I|I]; auto.
    + exists [], p. split; [reflexivity|]. split; [intros c []|exact N].
Qed.
Fixpoint tidy (l : list setting) (last : str) : Prop :=
  match l with [] => True | s :: l' => not_empty_line (set_lines l' last) /\ tidy l' last end.
Lemma set_lines_cons s l last : set_lines (s :: l) last = sl_before s ++ set_text s ++ sl_after s ++ cNL :: set_lines l last.
Proof. unfold set_lines. cbn [map concat]. rewrite <- !app_assoc. reflexivity. Qed.
Lemma set_text_hd s : exists t, set_text s = "{"%char :: t.
Proof. eexists. reflexivity. Qed.
Definition same (s s' : setting) : Prop := sl_name s = sl_name s' /\ sl_value s = sl_value s'.
Lemma set_text_upd s b a : set_text {| sl_before := b; sl_g0 := sl_g0 s; sl_g1 := sl_g1 s; sl_name := sl_name s; sl_g2 := sl_g2 s; sl_value := sl_value s; sl_after := a |} = set_text s.
Proof. reflexivity. Qed.
Lemma tidied : forall l last, Forall setting_ok l -> no_setting last ->
  exists e l' last', cNL :: set_lines l last = e ++ [cNL] ++ set_lines l' last' /\ blank e /\ not_empty_line (set_lines l' last')
    /\ Forall setting_ok l' /\ no_setting last' /\ tidy l' last' /\ Forall2 same l l'.
Proof.
  induction l as [|s l IH]; intros last F NL.
  - destruct (split_empty _ last (le_n _)) as (e & p' & E & B & N). exists e, [], p'. change (set_lines [] ?x) with x.
    split; [exact E|]. split; [exact B|]. split; [exact N|]. split; [constructor|]. split; [|split; [exact I|constructor]].
    destruct e as [|c e]; cbn [app] in E; injection E as E1; [subst; exact NL|]. subst last.
    change (cNL :: p') with ([cNL] ++ p') in NL. rewrite app_assoc in NL. apply no_setting_tail in NL. exact NL.
  - inversion F as [|? ? OK F']; subst. destruct (IH last F' NL) as (e & l' & last' & E & B & N & FO & NL' & T & S).
    destruct OK as (N0 & B0 & B1 & V & B2 & NV & NP & BA).
    destruct (split_empty _ (sl_before s) (le_n _)) as (e1 & b1 & E1 & Be1 & Nb1).
    set (s' := {| sl_before := b1; sl_g0 := sl_g0 s; sl_g1 := sl_g1 s; sl_name := sl_name s; sl_g2 := sl_g2 s; sl_value := sl_value s; sl_after := sl_after s ++ e |}).
    exists e1, (s' :: l'), last'.
    assert (set_lines (s' :: l') last' = b1 ++ set_text s ++ sl_after s ++ e ++ cNL :: set_lines l' last') as E3.
    { rewrite set_lines_cons. unfold s'. cbn [sl_before sl_after]. rewrite set_text_upd, <- !app_assoc. reflexivity. }
    split.
    { rewrite E3, set_lines_cons. change (cNL :: sl_before s ++ ?x) with ((cNL :: sl_before s) ++ x). rewrite E1, E, <- !app_assoc. reflexivity. }
    split; [exact Be1|]. split.
    { rewrite E3. destruct (set_text_hd s) as [q ->]. intros a b Eq Ba. cbn [app] in Eq. apply app_eq_app in Eq as (x & [[X1 X2]|[X1 X2]]).
      - destruct x as [|c x]; [discriminate X2|]. cbn [app] in X2. injection X2 as <- X2. apply (Nb1 a x X1 Ba).
      - destruct x as [|c x]; [discriminate X2|]. cbn [app] in X2. injection X2 as <- X2.
        specialize (Ba "{"%char). rewrite X1 in Ba. assert (is_space "{"%char = true) as D by (apply Ba; apply in_or_app; right; left; reflexivity). discriminate D. }
    split.
    { constructor; [|exact FO]. unfold setting_ok, s'. cbn. repeat split; try assumption; try apply V; try (apply blank_app; assumption).
      destruct e1 as [|c e1]; cbn [app] in E1; [injection E1 as E1; rewrite <- E1; exact N0|].
      injection E1 as _ E1. rewrite E1 in N0. change (cNL :: b1) with ([cNL] ++ b1) in N0. rewrite app_assoc in N0. apply no_setting_tail in N0. exact N0. }
    split; [exact NL'|]. split; [split; [exact N|exact T]|]. constructor; [split; reflexivity|exact S].
Qed.

(** * The statements that are found *)
Lemma scan_settings : forall l last, Forall setting_ok l -> no_setting last -> tidy l last -> forall pre prev,
  map (group0 (pre ++ set_lines l last)) (scan JINJA_V0_SET_LINE prev (length pre) 0 (set_lines l last)) =
  map (fun s => set_text s ++ sl_after s ++ [cNL]) l.
Proof.
  induction l as [|s l IH]; intros last F NL T pre prev.
  - change (set_lines [] last) with last.
    destruct (ConvertProofs10.scan_plain JINJA_V0_SET_LINE [] last prev (length pre)) as (prev' & E); [apply set_quiet; [exact NL|left; reflexivity]|].
    rewrite app_nil_r in E. rewrite E. reflexivity.
  - inversion F as [|? ? OK F']; subst. destruct T as [N T]. rewrite set_lines_cons.
    destruct (set_text_hd s) as [q Eq].
    destruct (ConvertProofs10.scan_plain JINJA_V0_SET_LINE (set_text s ++ sl_after s ++ cNL :: set_lines l last) (sl_before s) prev (length pre)) as (prev' & E).
    { apply set_quiet; [apply OK|]. right. rewrite Eq. eexists. reflexivity. }
    rewrite E. clear E.
    set (line := set_text s ++ sl_after s ++ [cNL]).
    assert (set_text s ++ sl_after s ++ cNL :: set_lines l last = line ++ set_lines l last) as EL by (unfold line; rewrite <- !app_assoc; reflexivity).
    rewrite EL. pose proof (set_match2 s (set_lines l last) prev' (length pre + length (sl_before s)) OK N) as M.
    assert (set_text s ++ (sl_after s ++ [cNL]) ++ set_lines l last = line ++ set_lines l last) as EL2 by (unfold line; rewrite <- !app_assoc; reflexivity).
    rewrite EL2 in M.
    destruct (ConvertProofs10.scan_hit JINJA_V0_SET_LINE prev' _ line (set_lines l last) _ ltac:(unfold line; rewrite Eq; discriminate) M eq_refl eq_refl) as (prev2 & ->).
    cbn [map]. f_equal.
    + unfold group0. cbn [m_start m_end]. fold line. rewrite <- app_length. rewrite (app_assoc pre). apply slice_mid.
    + rewrite <- app_length, <- (app_length (pre ++ sl_before s)). rewrite (app_assoc pre), (app_assoc _ line). apply (IH last F' NL T).
Qed.
Lemma fold_keys {A B} (key : A -> str) (val : A -> B) : forall l d,
  dkeys (fold_left (fun t a => dset (key a) (val a) t) l d) = dkeys (fold_left (fun t a => dset (key a) tt t) l (map (fun kv => (fst kv, tt)) d)).
Proof.
  induction l as [|a l IH]; intros d; cbn [fold_left].
  - unfold dkeys. rewrite map_map. reflexivity.
  - rewrite IH. f_equal. f_equal. induction d as [|[k v] d IHd]; [reflexivity|]. cbn [map dset fst]. destruct (str_eqb (key a) k); [reflexivity|]. cbn [map fst]. rewrite IHd. reflexivity.
Qed.
Lemma fold_dedupe {A} (key : A -> str) : forall l d, fold_left (fun t a => dset (key a) tt t) l d = fold_left (fun t x => dset x tt t) (map key l) d.
Proof. induction l as [|a l IH]; intros d; [reflexivity|]. cbn [fold_left map]. apply IH. Qed.
Lemma fold_other {A B} (key : A -> str) (val : A -> B) k : forall l d, ~ In k (map key l) -> dget k (fold_left (fun t a => dset (key a) (val a) t) l d) = dget k d.
Proof.
  induction l as [|a l IH]; intros d N; [reflexivity|]. cbn [fold_left map] in *. rewrite IH by (intros I; apply N; right; exact I).
  apply dget_dset_other. intros E. apply N. left. congruence.
Qed.
Definition val_of (E : env) (v : str) : json := match lit_eval E (strip v) with Some j => j | None => JStr (strip v) end.
Lemma val_of_spec E v : set_value E v (val_of E v).
Proof.
  exists (strip v). split; [apply strip_trims|]. unfold val_of. destruct (lit_eval E (strip v)); auto.
Qed.
Lemma vars_fold E l last : Forall setting_ok l -> no_setting last ->
  init_vars_v0 E (set_lines l last) = fold_left (fun t s => dset (sl_name s) (val_of E (sl_value s)) t) l [].
Proof.
  intros F NL.
  assert (exists l' last', set_lines l last = set_lines l' last' /\ Forall setting_ok l' /\ no_setting last' /\ tidy l' last' /\ Forall2 same l l') as (l' & last' & -> & F' & NL' & T & S).
  { destruct l as [|s l]; [exists [], last; repeat split; auto|]. inversion F as [|? ? OK F0]; subst.
    destruct (tidied l last F0 NL) as (e & l' & last' & E0 & B & N & FO & NL' & T & S).
    destruct OK as (N0 & B0 & B1 & V & B2 & NV & NP & BA).
    exists ({| sl_before := sl_before s; sl_g0 := sl_g0 s; sl_g1 := sl_g1 s; sl_name := sl_name s; sl_g2 := sl_g2 s; sl_value := sl_value s; sl_after := sl_after s ++ e |} :: l'), last'.
    split; [rewrite !set_lines_cons, E0; cbn [sl_before sl_after]; rewrite set_text_upd, <- !app_assoc; reflexivity|].
    split; [constructor; [|exact FO]|].
    { unfold setting_ok. cbn. repeat split; try assumption; try apply V. apply blank_app; assumption. }
    split; [exact NL'|]. split; [split; assumption|]. constructor; [split; reflexivity|exact S]. }
  unfold init_vars_v0, findall. pose proof (scan_settings l' last' F' NL' T [] None) as Sc. cbn [app length] in Sc. rewrite Sc. clear Sc F NL T NL'.
  generalize (@nil (str * json)) as d. induction S as [|s s' l l' [En Ev] S IH]; intros d; [reflexivity|].
  inversion F' as [|? ? OK F0]; subst. cbn [map fold_left]. cbv zeta. rewrite set_key, set_val by exact OK.
  rewrite <- Ev, <- En. apply (IH F0).
Qed.
Lemma c125 E l last : Forall setting_ok l -> no_setting last -> table_of E l (init_vars_v0 E (set_lines l last)).
Proof.
  intros F NL. rewrite vars_fold by assumption. split; [|split].
  - change (map fst ?x) with (dkeys x). rewrite (fold_keys sl_name). cbn [map]. rewrite fold_dedupe. rewrite <- dedupe_spec. reflexivity.
  - intros a s b -> N. rewrite fold_left_app. cbn [fold_left]. rewrite (fold_other sl_name) by exact N. rewrite dget_dset_same.
    eexists. split; [reflexivity|apply val_of_spec].
  - intros k N. rewrite (fold_other sl_name) by exact N. reflexivity.
Qed.
Lemma c125_recipe E l last r : Forall setting_ok l -> no_setting last -> new_recipe E (set_lines l last) = Ok r -> r_schema r = SV0 -> table_of E l (r_vars r).
Proof.
  intros F NL H S. unfold new_recipe in H. destruct (parse_tree E (set_lines l last)) as [root|]; [|discriminate]. cbn [bind] in H.
  destruct (detect_schema E root) as [sv|]; [|discriminate]. cbn [bind] in H.
  destruct sv; unfold init_vars in H.
  - cbn [bind] in H. injection H as <-. cbn [r_vars]. apply c125; assumption.
  - destruct (get_value E root $"/context" (Some (JDict [])) None) as [[]|]; cbn [bind] in H; try discriminate; injection H as <-; discriminate S.
Qed.
