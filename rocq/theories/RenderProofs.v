(** Quoting (proofs only). *)
From Verif Require Export RegexProofs RenderSpec.

(** * Patterns without groups: what is found *)
Lemma match_at_lang r prev p s x : no_groups r = true -> match_at r prev p s = Some x ->
  exists u v, s = u ++ v /\ lang r u /\ m_start x = p /\ m_end x = p + length u.
Proof.
  intros NG H. unfold match_at in H. apply (m_sound_pos r NG) in H as (u & st' & R & P & _ & HL & Hk).
  injection Hk as <-. exists u, (rest st'). cbn [start_st rest pos m_start m_end] in *. auto.
Qed.
Lemma lang_match_at r prev p u v : no_groups r = true -> lang r u -> exists x, match_at r prev p (u ++ v) = Some x.
Proof.
  intros NG HL. destruct (match_at r prev p (u ++ v)) as [x|] eqn:E; [eauto|]. exfalso. revert E. unfold match_at.
  apply (m_complete r NG u v); [exact HL|reflexivity|]. intros; discriminate.
Qed.
Lemma search_from_lang r : no_groups r = true -> forall s prev p,
  (exists x, search_from r prev p s = Some x) <-> exists u, lang r u /\ has_text u s.
Proof.
  intros NG. induction s as [|c s IH]; intros prev p.
  - cbn [search_from]. split.
    + intros (x & H). destruct (match_at r prev p []) eqn:M; [|discriminate]. apply match_at_lang in M as (u & v & E & HL & _); [|exact NG].
      exists u. split; [exact HL|]. exists [], v. exact E.
    + intros (u & HL & a & b & E). symmetry in E. apply app_eq_nil in E as [-> E]. apply app_eq_nil in E as [-> ->].
      destruct (lang_match_at r prev p [] [] NG HL) as (x & Hx). cbn [app] in Hx. rewrite Hx. eauto.
  - cbn [search_from]. destruct (match_at r prev p (c :: s)) as [x|] eqn:M.
    + split; [intros _|eauto]. apply match_at_lang in M as (u & v & E & HL & _); [|exact NG].
      exists u. split; [exact HL|]. exists [], v. exact E.
    + rewrite (IH (Some c) (S p)). split.
      * intros (u & HL & T). exists u. split; [exact HL|]. apply has_text_cons. exact T.
      * intros (u & HL & a & b & E). exists u. split; [exact HL|]. destruct a as [|d a].
        -- destruct (lang_match_at r prev p u b NG HL) as (x & Hx). cbn [app] in E. rewrite <- E in Hx. congruence.
        -- injection E as -> ->. exists a, b. reflexivity.
Qed.
Lemma found_lang r s : no_groups r = true -> found r s = true <-> exists u, lang r u /\ has_text u s.
Proof.
  intros NG. rewrite <- (search_from_lang r NG s None 0). unfold found, re_search.
  destruct (search_from r None 0 s); split; [eauto|reflexivity|discriminate|intros (x & H); discriminate].
Qed.
Lemma scan_lang r : no_groups r = true -> ~ lang r [] -> forall s prev p,
  scan r prev p 0 s = [] <-> ~ exists u, lang r u /\ has_text u s.
Proof.
  intros NG NE. induction s as [|c s IH]; intros prev p; cbn [scan].
  - split; [|reflexivity]. intros _ (u & HL & a & b & E). symmetry in E. apply app_eq_nil in E as [-> E]. apply app_eq_nil in E as [-> ->]. auto.
  - destruct (match_at r prev p (c :: s)) as [x|] eqn:M.
    + split; [discriminate|]. intros H. exfalso. apply H. apply match_at_lang in M as (u & v & E & HL & _); [|exact NG].
      exists u. split; [exact HL|]. exists [], v. exact E.
    + rewrite (IH (Some c) (S p)). split; intros H (u & HL & T); apply H; exists u; (split; [exact HL|]).
      * destruct T as (a & b & E). destruct a as [|d a].
        -- destruct (lang_match_at r prev p u b NG HL) as (x & Hx). cbn [app] in E. rewrite <- E in Hx. congruence.
        -- injection E as -> ->. exists a, b. reflexivity.
      * apply has_text_cons. exact T.
Qed.
Lemma scan_items r : no_groups r = true -> forall s pre prev n x, In x (scan r prev (length pre) n s) ->
  exists u, lang r u /\ group0 (pre ++ s) x = u.
Proof.
  intros NG. induction s as [|c s IH]; intros pre prev n x I; cbn [scan] in I; [contradiction|].
  assert (forall n', In x (scan r (Some c) (S (length pre)) n' s) -> exists u, lang r u /\ group0 (pre ++ c :: s) x = u) as G.
  { intros n' I'. replace (pre ++ c :: s) with ((pre ++ [c]) ++ s) by (rewrite <- app_assoc; reflexivity).
    apply (IH (pre ++ [c]) (Some c) n'). rewrite app_length. cbn [length]. rewrite Nat.add_1_r. exact I'. }
  destruct n as [|n]; [|apply (G n I)].
  destruct (match_at r prev (length pre) (c :: s)) as [y|] eqn:M; [|apply (G 0 I)].
  destruct I as [<-|I]; [|apply (G _ I)].
  apply match_at_lang in M as (u & v & E & HL & S1 & S2); [|exact NG]. exists u. split; [exact HL|].
  unfold group0. rewrite S1, S2, E. apply slice_mid.
Qed.
Lemma findall_lang r s x : no_groups r = true -> In x (findall r s) -> lang r x.
Proof.
  intros NG I. unfold findall in I. apply in_map_iff in I as (y & <- & I).
  destruct (scan_items r NG s [] None 0 y I) as (u & HL & E). cbn [app] in E. rewrite E. exact HL.
Qed.

(** * C42 *)
Lemma existsb_In c l : existsb (ceq c) l = true <-> In c l.
Proof.
  rewrite existsb_exists. split; [intros (x & I & E); apply ceq_eq in E as ->; exact I|intros I; exists c; split; [exact I|apply ceq_refl]].
Qed.
Definition expression_list : list ascii := lit "0123456789abcdefghijklmnopqrstuvwxyzABCDEFGHIJKLMNOPQRSTUVWXYZ_|'()[], =.-~+".
Lemma expression_chars c : jinja_c c = true <-> expression_char c.
Proof.
  assert (jinja_c c = existsb (ceq c) expression_list || ceq c cDQ) as -> by (destruct c as [[] [] [] [] [] [] [] []]; vm_compute; reflexivity).
  unfold expression_char. fold expression_list. rewrite orb_true_iff, existsb_In, ceq_eq. reflexivity.
Qed.
Lemma lang_v0_sub u : lang JINJA_V0_SUB u <->
  exists w v x, u = $"{{" ++ w ++ v ++ x ++ $"}}" /\ blank w /\ Forall expression_char v /\ blank x.
Proof.
  unfold JINJA_V0_SUB. cbn [seqs]. cbn [lang]. unfold L, WS, JINJA_VAR. split.
  - intros (a & b & -> & H1 & w & d & -> & H2 & v & e & -> & H3 & x & g & -> & H4 & H5).
    apply lang_L in H1 as ->. apply lang_L in H5 as ->. cbn [lang] in H2, H3, H4. exists w, v, x. split; [reflexivity|].
    rewrite Forall_forall in H2, H4. split; [exact H2|]. split; [|exact H4]. eapply Forall_impl; [|exact H3]. intros c. apply expression_chars.
  - intros (w & v & x & -> & H2 & H3 & H4). exists ($"{{"), (w ++ v ++ x ++ $"}}"). split; [reflexivity|]. split; [apply lang_L; reflexivity|].
    exists w, (v ++ x ++ $"}}"). split; [reflexivity|]. split; [apply Forall_forall; exact H2|].
    exists v, (x ++ $"}}"). split; [reflexivity|]. split; [eapply Forall_impl; [|exact H3]; intros c; apply expression_chars|].
    exists x, ($"}}"). split; [reflexivity|]. split; [apply Forall_forall; exact H4|]. apply lang_L. reflexivity.
Qed.
Lemma any_c_no x : Forall (fun c => any_c c = true) x <-> ~ In cNL x.
Proof.
  rewrite Forall_forall. split.
  - intros H I. apply H in I. discriminate.
  - intros H c I. unfold any_c. destruct (ceq c cNL) eqn:E; [apply ceq_eq in E as ->; contradiction|reflexivity].
Qed.
Lemma lang_call u : lang JINJA_FUNCTION_MATCH u <-> exists x y, u = $"match(" ++ x ++ $"," ++ y ++ $")" /\ ~ In cNL x /\ ~ In cNL y.
Proof.
  unfold JINJA_FUNCTION_MATCH. cbn [seqs]. cbn [lang]. unfold L, DOTS. split.
  - intros (a & b & -> & H1 & x & d & -> & H2 & c & e & -> & H3 & y & g & -> & H4 & H5).
    apply lang_L in H1 as ->. apply lang_L in H3 as ->. apply lang_L in H5 as ->. exists x, y. split; [reflexivity|].
    split; apply any_c_no; assumption.
  - intros (x & y & -> & H2 & H4). exists ($"match("), (x ++ $"," ++ y ++ $")"). split; [reflexivity|]. split; [apply lang_L; reflexivity|].
    exists x, ($"," ++ y ++ $")"). split; [reflexivity|]. split; [apply any_c_no; exact H2|].
    exists ($","), (y ++ $")"). split; [reflexivity|]. split; [apply lang_L; reflexivity|].
    exists y, ($")"). split; [reflexivity|]. split; [apply any_c_no; exact H4|apply lang_L; reflexivity].
Qed.
Lemma exempt_spec s : negb (is_nil (findall JINJA_V0_SUB s)) || found JINJA_FUNCTION_MATCH s = true <-> exempt s.
Proof.
  unfold exempt. rewrite orb_true_iff, (found_lang JINJA_FUNCTION_MATCH s eq_refl).
  assert (negb (is_nil (findall JINJA_V0_SUB s)) = true <-> exists u, lang JINJA_V0_SUB u /\ has_text u s) as ->.
  { assert (~ lang JINJA_V0_SUB []) as NE by (rewrite lang_v0_sub; intros (w & v & x & E & _); discriminate).
    unfold findall. pose proof (scan_lang JINJA_V0_SUB eq_refl NE s None 0) as H.
    destruct (scan JINJA_V0_SUB None 0 0 s) as [|y l]; cbn [map is_nil negb].
    - split; [discriminate|]. intros X. exfalso. apply (proj1 H eq_refl X).
    - split; [|reflexivity]. intros _. 
      destruct (search_from JINJA_V0_SUB None 0 s) as [z|] eqn:SF.
      + apply (search_from_lang JINJA_V0_SUB eq_refl s None 0). eauto.
      + exfalso. assert (y :: l = []) as X; [|discriminate]. apply H. intros X. apply (search_from_lang JINJA_V0_SUB eq_refl s None 0) in X as (z & X). congruence. }
  split; (intros [H|H]; [left|right]).
  - destruct H as (u & HL & T). apply lang_v0_sub in HL as (w & v & x & -> & HH). exists w, v, x. tauto.
  - destruct H as (u & HL & T). apply lang_call in HL as (x & y & -> & HH). exists x, y. tauto.
  - destruct H as (w & v & x & T & HH). exists ($"{{" ++ w ++ v ++ x ++ $"}}"). split; [apply lang_v0_sub; exists w, v, x; tauto|exact T].
  - destruct H as (x & y & T & HH). exists ($"match(" ++ x ++ $"," ++ y ++ $")"). split; [apply lang_call; exists x, y; tauto|exact T].
Qed.
Lemma starts_with_spec p s : starts_with p s = true <-> exists b, s = p ++ b.
Proof.
  revert s. induction p as [|c p IH]; intros s; cbn [starts_with].
  - split; [intros _; exists s; reflexivity|reflexivity].
  - destruct s as [|d s]; [split; [discriminate|intros (b & E); discriminate]|]. rewrite andb_true_iff, ceq_eq, IH. split.
    + intros [-> (b & ->)]. exists b. reflexivity.
    + intros (b & E). injection E as -> ->. split; [reflexivity|]. exists b. reflexivity.
Qed.
Lemma contains_sub_spec p s : contains_sub p s = true <-> has_text p s.
Proof.
  induction s as [|c s IH]; cbn [contains_sub]; rewrite orb_true_iff, starts_with_spec.
  - split.
    + intros [(b & E)|H]; [exists [], b; exact E|discriminate].
    + intros (a & b & E). left. symmetry in E. apply app_eq_nil in E as [-> E]. exists b. symmetry. exact E.
  - rewrite IH. split.
    + intros [(b & E)|H]; [exists [], b; exact E|apply has_text_cons; exact H].
    + intros (a & b & E). destruct a as [|d a]; [left; exists b; exact E|right]. injection E as -> ->. exists a, b. reflexivity.
Qed.
Lemma needs_spec s : mem_str s (map (fun c => [c]) TO_QUOTE)
    || (negb (contains_sub $"${{" s) && (existsb (ceq cSQ) s || existsb (ceq cDQ) s)) || starts_special s = true <-> needs_quotes s.
Proof.
  unfold needs_quotes. rewrite !orb_true_iff, andb_true_iff, orb_true_iff, !existsb_In, negb_true_iff.
  assert (contains_sub $"${{" s = false <-> ~ has_text $"${{" s) as ->.
  { rewrite <- contains_sub_spec. destruct (contains_sub $"${{" s); split; congruence. }
  assert (starts_special s = true <-> exists c t, s = c :: t /\ In c reserved) as ->.
  { unfold starts_special. destruct s as [|c s]; [split; [discriminate|intros (c & t & E & _); discriminate]|].
    rewrite existsb_In. change TO_QUOTE with reserved. split; [intros H; exists c, s; auto|intros (c' & t & E & H); injection E as -> ->; exact H]. }
  split.
  - intros [[H|H]|H]; [left|right; tauto|left; exact H].
    unfold mem_str in H. apply existsb_exists in H as (x & I & E). apply str_eqb_eq in E as <-. apply in_map_iff in I as (c & <- & I).
    exists c, []. split; [reflexivity|exact I].
  - intros [H|H]; [right; exact H|left; right; tauto].
Qed.

(** The escapes. *)
Lemma hex_digits n : n < 16 -> hex_value (hex_digit n) = Some n /\ printable (hex_digit n).
Proof. intros H. do 16 (destruct n as [|n]; [vm_compute; repeat split; lia|]). lia. Qed.
Lemma code_hex c : code c = ((0 * 16 + 0) * 16 + code c / 16) * 16 + code c mod 16 /\ code c / 16 < 16 /\ code c mod 16 < 16.
Proof.
  pose proof (nat_ascii_bounded c) as B. change (nat_of_ascii c) with (code c) in B.
  pose proof (Nat.div_mod (code c) 16 ltac:(lia)). pose proof (Nat.mod_upper_bound (code c) 16 ltac:(lia)).
  assert (code c / 16 < 16) by (apply Nat.div_lt_upper_bound; lia). lia.
Qed.
Lemma ceq_false a b : ceq a b = false <-> a <> b.
Proof.
  pose proof (ceq_eq a b) as H. destruct (ceq a b); split; [discriminate|intros N; exfalso; apply N, H; reflexivity|intros _ E; apply H in E; discriminate|reflexivity].
Qed.
Lemma json_char_spec c t s : json_chars t s -> json_chars (json_char c ++ t) (c :: s) /\ Forall printable (json_char c).
Proof.
  intros H. unfold json_char.
  assert (forall e n, In (e, n) short_escapes -> printable e) as PE.
  { intros e n. apply (proj1 (Forall_forall (fun p => printable (fst p)) short_escapes)  ltac:(repeat constructor; vm_compute; lia) (e, n)). }
  assert (printable cBS) as PB by (split; vm_compute; lia).
  assert (forall e, In (e, code c) short_escapes -> json_chars ([cBS; e] ++ t) (c :: s) /\ Forall printable [cBS; e]) as SH.
  { intros e I. split; [apply (jc_short e c t s I H)|]. constructor; [exact PB|]. constructor; [exact (PE _ _ I)|constructor]. }
  destruct (ceq c cDQ) eqn:E1; [apply ceq_eq in E1 as ->; apply SH; vm_compute; tauto|].
  destruct (ceq c cBS) eqn:E2; [apply ceq_eq in E2 as ->; apply SH; vm_compute; tauto|].
  destruct (code c =? 10) eqn:E3; [apply Nat.eqb_eq in E3; apply SH; rewrite E3; vm_compute; tauto|].
  destruct (code c =? 13) eqn:E4; [apply Nat.eqb_eq in E4; apply SH; rewrite E4; vm_compute; tauto|].
  destruct (code c =? 9) eqn:E5; [apply Nat.eqb_eq in E5; apply SH; rewrite E5; vm_compute; tauto|].
  destruct (code c =? 12) eqn:E6; [apply Nat.eqb_eq in E6; apply SH; rewrite E6; vm_compute; tauto|].
  destruct (code c =? 8) eqn:E7; [apply Nat.eqb_eq in E7; apply SH; rewrite E7; vm_compute; tauto|].
  destruct (code_hex c) as (D & D1 & D2). destruct (hex_digits _ D1) as [X1 P1]. destruct (hex_digits _ D2) as [X2 P2].
  destruct ((code c <? 32) || (126 <? code c)) eqn:E8.
  - split.
    + eapply jc_hex; [| |exact X1|exact X2|exact D|exact H]; reflexivity.
    + repeat (constructor; [first [exact PB | exact P1 | exact P2 | split; vm_compute; lia]|]). constructor.
  - apply orb_false_iff in E8 as [L1 L2]. apply Nat.ltb_ge in L1, L2. split.
    + apply jc_plain; [apply ceq_false; exact E1|apply ceq_false; exact E2|lia|exact H].
    + constructor; [split; lia|constructor].
Qed.
Lemma json_body s : json_chars (flat_map json_char s) s /\ Forall printable (flat_map json_char s).
Proof.
  induction s as [|c s [IH1 IH2]]; [split; constructor|]. cbn [flat_map]. destruct (json_char_spec c _ _ IH1) as [H1 H2].
  split; [exact H1|]. apply Forall_app. auto.
Qed.
Lemma quote_eq s m : (m = MNone -> exempt s -> quote_special_strings s m = s) /\ (m <> MNone -> quote_special_strings s m = s)
  /\ (~ needs_quotes s -> quote_special_strings s m = s)
  /\ (m = MNone -> ~ exempt s -> needs_quotes s -> quote_special_strings s m = cDQ :: flat_map json_char s ++ [cDQ]).
Proof.
  unfold quote_special_strings. rewrite <- orb_assoc.
  pose proof (exempt_spec s) as EX. pose proof (needs_spec s) as NS. revert EX NS.
  generalize (negb (is_nil (findall JINJA_V0_SUB s)) || found JINJA_FUNCTION_MATCH s). intros b EX.
  generalize (mem_str s (map (fun c => [c]) TO_QUOTE) || (negb (contains_sub $"${{" s) && (existsb (ceq cSQ) s || existsb (ceq cDQ) s)) || starts_special s). intros b' NS.
  split; [|split; [|split]].
  - intros -> X. apply EX in X as ->. reflexivity.
  - intros N. destruct m; [contradiction N; reflexivity|..]; reflexivity.
  - intros N. destruct (is_multi m || b); [reflexivity|]. destruct b'; [contradiction N; tauto|reflexivity].
  - intros -> X N. destruct b; [contradiction X; tauto|]. destruct b'; [reflexivity|]. apply NS in N. discriminate.
Qed.
Lemma c42 s m : quote_special_strings s m = s
  \/ (needs_quotes s /\ exists body, quote_special_strings s m = $"""" ++ body ++ $"""" /\ Forall printable body /\ json_chars body s).
Proof.
  unfold quote_special_strings. destruct (is_multi m || _ || _); [auto|].
  destruct (mem_str s (map (fun c => [c]) TO_QUOTE) || (negb (contains_sub $"${{" s) && (existsb (ceq cSQ) s || existsb (ceq cDQ) s)) || starts_special s) eqn:E; [right|auto].
  apply needs_spec in E. split; [exact E|]. exists (flat_map json_char s). destruct (json_body s). auto.
Qed.
Lemma c42_when s : ~ exempt s -> needs_quotes s ->
  exists body, quote_special_strings s MNone = $"""" ++ body ++ $"""" /\ Forall printable body /\ json_chars body s.
Proof.
  intros X N. destruct (quote_eq s MNone) as (_ & _ & _ & H). rewrite (H eq_refl X N). exists (flat_map json_char s). destruct (json_body s). auto.
Qed.
Lemma c42_verbatim s m : m <> MNone \/ exempt s \/ ~ needs_quotes s -> quote_special_strings s m = s.
Proof.
  destruct (quote_eq s m) as (A & B & C & _). intros [H|[H|H]]; auto. destruct m; auto; apply B; discriminate.
Qed.
Lemma c42_unique t s s' : json_chars t s -> json_chars t s' -> s = s'.
Proof.
  assert (forall c c', code c = code c' -> c = c') as CI by (intros c c' E; rewrite <- (ascii_nat_embedding c), <- (ascii_nat_embedding c'); unfold code in E; congruence).
  assert (forall e n n', In (e, n) short_escapes -> In (e, n') short_escapes -> n = n') as SE.
  { assert (Forall (fun p => Forall (fun q => fst p = fst q -> snd p = snd q) short_escapes) short_escapes) as F.
    { unfold short_escapes. repeat constructor; intros E; try reflexivity; discriminate. }
    intros e n n' I I'. rewrite Forall_forall in F. specialize (F _ I). rewrite Forall_forall in F. exact (F _ I' eq_refl). }
  assert (forall n, ~ In ("u"%char, n) short_escapes) as NU by (intros n I; repeat destruct I as [I|I]; try discriminate; contradiction).
  intros H. revert s'. induction H as [|c t s N1 N2 L H IH|e c t s I H IH|h1 h2 h3 h4 a1 a2 a3 a4 c t s X1 X2 X3 X4 V H IH]; intros s' H'.
  - inversion H'. reflexivity.
  - inversion H' as [|c' t' s0 M1 M2 L' H0 Q1 Q2|e c' t' s0 I' H0 Q1 Q2|h1 h2 h3 h4 a1 a2 a3 a4 c' t' s0 X1 X2 X3 X4 V H0 Q1 Q2]; subst; try contradiction.
    f_equal. apply IH. exact H0.
  - inversion H' as [|c' t' s0 M1 M2 L' H0 Q1 Q2|e' c' t' s0 I' H0 Q1 Q2|h1 h2 h3 h4 a1 a2 a3 a4 c' t' s0 X1 X2 X3 X4 V H0 Q1 Q2]; subst.
    + contradiction.
    + f_equal; [apply CI; exact (SE _ _ _ I I')|apply IH; exact H0].
    + exfalso. exact (NU _ I).
  - inversion H' as [|c' t' s0 M1 M2 L' H0 Q1 Q2|e' c' t' s0 I' H0 Q1 Q2|k1 k2 k3 k4 b1 b2 b3 b4 c' t' s0 Y1 Y2 Y3 Y4 W H0 Q1 Q2]; subst.
    + contradiction.
    + exfalso. exact (NU _ I').
    + f_equal; [apply CI; congruence|apply IH; exact H0].
Qed.
