(** Variables are read back; the whole recipe (proofs only). *)
From Verif Require Export LayoutProofs6.

Lemma name_char_facts c : is_word c || ceq c "-"%char || ceq c "."%char = true ->
  jinja_c c = true /\ is_space c = false /\ c <> "="%char /\ c <> "}"%char /\ is_linebreak c = false.
Proof.
  assert (forallb (fun n => let c := ch n in negb (is_word c || ceq c "-"%char || ceq c "."%char)
    || (jinja_c c && negb (is_space c) && negb (ceq c "="%char) && negb (ceq c "}"%char) && negb (is_linebreak c))) (seq 0 256) = true) as A by (vm_compute; reflexivity).
  rewrite forallb_forall in A. intros H. specialize (A (code c)).
  assert (In (code c) (seq 0 256)) as I.
  { apply in_seq. split; [lia|]. unfold code. pose proof (nat_ascii_bounded c). lia. }
  specialize (A I). unfold ch, code in A. rewrite ascii_nat_embedding in A. cbv zeta in A. rewrite H in A. cbn [negb orb] in A.
  apply andb_prop in A as [A A5]. apply andb_prop in A as [A A4]. apply andb_prop in A as [A A3]. apply andb_prop in A as [A1 A2].
  apply negb_true_iff in A2, A3, A4, A5. apply ceq_neq in A3, A4. auto.
Qed.
Lemma linebreak_nl : is_linebreak cNL = true. Proof. reflexivity. Qed.

Definition SET_HEAD : re := seqs [L "{%"; WS; L "set"; WS; JINJA_VAR; WS; L "="].
Lemma set_parts {A} st (k : mst -> option A) : m JINJA_V0_SET_LINE st k = m SET_HEAD st (fun st' => m END_SET st' k).
Proof. reflexivity. Qed.
Lemma set_head_lang u : lang SET_HEAD u -> exists u2, u = $"{%" ++ u2 /\ ~ In "%"%char u2.
Proof.
  unfold SET_HEAD. cbn [seqs]. intros H. 
  change (exists x y, u = x ++ y /\ lang (L "{%") x /\ lang (Seq WS (Seq (L "set") (Seq WS (Seq JINJA_VAR (Seq WS (L "=")))))) y) in H.
  destruct H as (x & y & -> & Hx & Hy). apply lang_L in Hx as ->. exists y. split; [reflexivity|].
  change (exists x z, y = x ++ z /\ lang WS x /\ lang (Seq (L "set") (Seq WS (Seq JINJA_VAR (Seq WS (L "="))))) z) in Hy.
  destruct Hy as (w1 & z & -> & Hw1 & Hz).
  change (exists x y, z = x ++ y /\ lang (L "set") x /\ lang (Seq WS (Seq JINJA_VAR (Seq WS (L "=")))) y) in Hz.
  destruct Hz as (x & y & -> & Hx & Hy). apply lang_L in Hx as ->.
  change (exists x z, y = x ++ z /\ lang WS x /\ lang (Seq JINJA_VAR (Seq WS (L "="))) z) in Hy.
  destruct Hy as (w2 & z & -> & Hw2 & Hz).
  change (exists x y, z = x ++ y /\ lang JINJA_VAR x /\ lang (Seq WS (L "=")) y) in Hz.
  destruct Hz as (j & y & -> & Hj & Hy).
  change (exists x z, y = x ++ z /\ lang WS x /\ lang (L "=") z) in Hy.
  destruct Hy as (w3 & z & -> & Hw3 & Hz). apply lang_L in Hz as ->.
  unfold WS, JINJA_VAR in *. cbn [lang] in *. rewrite Forall_forall in *.
  intros I. repeat (apply in_app_or in I as [I|I]).
  - specialize (Hw1 _ I). discriminate.
  - revert I. vm_compute. intuition discriminate.
  - specialize (Hw2 _ I). discriminate.
  - specialize (Hj _ I). discriminate.
  - specialize (Hw3 _ I). discriminate.
  - revert I. vm_compute. intuition discriminate.
Qed.
Lemma set_match k v w s prev p : variable_name k -> (forall c, In c (variable_text v) -> is_linebreak c = false) -> blank w ->
  match s with c :: _ => is_space c = false | [] => True end ->
  match_at JINJA_V0_SET_LINE prev p (statement (k, v) ++ (w ++ [cNL]) ++ s) =
  Some {| m_start := p; m_end := p + length (statement (k, v) ++ (w ++ [cNL])); m_grps := [] |}.
Proof.
  intros [NE F] U B Hs. unfold match_at. rewrite set_parts.
  set (X := {| m_start := p; m_end := p + length (statement (k, v) ++ (w ++ [cNL])); m_grps := [] |}).
  set (T := statement (k, v) ++ (w ++ [cNL]) ++ s). set (kf := fun st => Some {| m_start := p; m_end := pos st; m_grps := grps st |}).
  set (BB := $"{% set " ++ k ++ $" = " ++ variable_text v ++ $" ").
  assert (T = BB ++ $"%}" ++ (w ++ [cNL]) ++ s) as ET.
  { unfold T, BB, statement. cbn [fst snd]. rewrite <- !app_assoc. reflexivity. }
  assert (~ In cNL BB) as NB.
  { unfold BB. intros I. repeat (apply in_app_or in I as [I|I]).
    - revert I. vm_compute. intuition discriminate.
    - rewrite Forall_forall in F. apply F in I. apply name_char_facts in I. rewrite linebreak_nl in I. intuition discriminate.
    - revert I. vm_compute. intuition discriminate.
    - apply U in I. discriminate.
    - revert I. vm_compute. intuition discriminate. }
  assert (forall st' y, rest st' = y ++ $"%}" ++ (w ++ [cNL]) ++ s -> ~ In cNL y -> grps st' = [] ->
    pos st' + length (y ++ $"%}" ++ (w ++ [cNL])) = m_end X -> m END_SET st' kf = Some X) as K.
  { intros st' y R N G P. apply (end_set_ends y w s st' kf X R N B Hs). intros st2 R2 P2 G2. unfold kf. rewrite P2, G2, G, P. reflexivity. }
  assert (length BB + length ($"%}" ++ (w ++ [cNL])) = length (statement (k, v) ++ (w ++ [cNL]))) as LEN.
  { unfold BB, statement. cbn [fst snd]. rewrite !app_length. change (length (lit " %}")) with 3. change (length (lit "%}")) with 2. change (length (lit " ")) with 1. lia. }
  destruct (m SET_HEAD (start_st prev p T) (fun st' => m END_SET st' kf)) as [x|] eqn:M.
  - apply (m_sound_pos SET_HEAD eq_refl) in M as (u & st' & R & P & G & HL & Hx).
    cbn [start_st rest pos grps] in R, P, G. apply set_head_lang in HL as (u2 & -> & NP).
    rewrite ET in R. symmetry in R. apply app_eq_app in R as (l & [[E1 E2]|[E1 E2]]).
    + assert (l = []) as ->.
      { destruct l as [|c l]; [reflexivity|]. exfalso. change (lit "%}") with (["%"%char; "}"%char] : str) in E2. cbn [app] in E2. injection E2 as <- _.
        apply NP. unfold BB in E1. change (lit "{% set ") with ($"{%" ++ $" set ") in E1. rewrite <- !app_assoc in E1. apply app_inv_head in E1. rewrite E1.
        apply in_or_app. right. apply in_or_app. right. apply in_or_app. right. apply in_or_app. right. right. left. reflexivity. }
      cbn [app] in E2. rewrite app_nil_r in E1.
      rewrite (K st' []) in Hx; [congruence|symmetry; exact E2|intros []|exact G|].
      rewrite P, E1. cbn [app]. unfold X. cbn [m_end]. lia.
    + rewrite (K st' l) in Hx; [congruence|exact E2| |exact G|].
      * intros I. apply NB. rewrite E1. apply in_or_app. right. exact I.
      * rewrite P. unfold X. cbn [m_end]. rewrite <- LEN, E1, !app_length. lia.
  - exfalso. revert M.
    apply (m_complete SET_HEAD eq_refl ($"{% set " ++ k ++ $" =") ($" " ++ variable_text v ++ $" " ++ $"%}" ++ (w ++ [cNL]) ++ s)).
    + unfold SET_HEAD. cbn [seqs].
      exists $"{%", ($" set " ++ k ++ $" ="). split; [reflexivity|]. split; [apply lang_L; reflexivity|].
      exists $" ", ($"set " ++ k ++ $" ="). split; [reflexivity|]. split; [repeat constructor|].
      exists $"set", ($" " ++ k ++ $" ="). split; [reflexivity|]. split; [apply lang_L; reflexivity|].
      exists $" ", (k ++ $" ="). split; [reflexivity|]. split; [repeat constructor|].
      exists k, $" =". split; [reflexivity|]. split.
      { unfold JINJA_VAR. cbn [lang]. eapply Forall_impl; [|exact F]. intros c H. apply name_char_facts in H. apply H. }
      exists $" ", $"=". split; [reflexivity|]. split; [repeat constructor|]. apply lang_L. reflexivity.
    + cbn [start_st rest]. rewrite ET. unfold BB. rewrite <- !app_assoc. reflexivity.
    + intros st' R P G. cbv beta. rewrite (K st' ($" " ++ variable_text v ++ $" ")); [discriminate| | |exact G|].
      * rewrite R, <- !app_assoc. reflexivity.
      * intros I. apply NB. unfold BB. apply in_or_app. right. apply in_or_app. right.
        apply in_app_or in I as [[<-|[]]|I]; [apply in_or_app; left; left; reflexivity|]. apply in_or_app. right. exact I.
      * rewrite P. cbn [start_st pos]. unfold X. cbn [m_end]. rewrite <- LEN. unfold BB. rewrite !app_length.
        change (length (lit "{% set ")) with 7. change (length (lit " = ")) with 3. change (length (lit " =")) with 2. change (length (lit " ")) with 1. lia.
Qed.

(** * Name and value of a statement *)
Lemma blank_app a b : blank a -> blank b -> blank (a ++ b).
Proof. intros A B c I. apply in_app_or in I as [I|I]; auto. Qed.
Lemma rstrip_all_blank t : blank t -> rstrip t = [].
Proof. intros B. change t with ([] ++ t). rewrite rstrip_app_blank by exact B. reflexivity. Qed.
Lemma lstrip_blank_app a s : blank a -> lstrip (a ++ s) = lstrip s.
Proof.
  induction a as [|c a IH]; intros B; [reflexivity|]. cbn [app lstrip]. rewrite (B c (or_introl eq_refl)). apply IH. intros d I. apply B. right. exact I.
Qed.
Lemma blank_dec t : blank t \/ exists c, In c t /\ is_space c = false.
Proof.
  induction t as [|c t IH]; [left; intros c []|]. destruct (is_space c) eqn:S.
  - destruct IH as [B|(d & I & D)]; [left; intros d [<-|I]; [exact S|exact (B d I)]|right; exists d; split; [right; exact I|exact D]].
  - right. exists c. split; [left; reflexivity|exact S].
Qed.
Lemma strip_pad a t b : blank a -> blank b -> strip (a ++ t ++ b) = strip t.
Proof.
  intros A B. unfold strip. rewrite app_assoc, rstrip_app_blank by exact B. destruct (blank_dec t) as [BT|H].
  - rewrite (rstrip_all_blank (a ++ t)) by (apply blank_app; assumption). rewrite rstrip_all_blank by exact BT. reflexivity.
  - rewrite rstrip_app by exact H. apply lstrip_blank_app. exact A.
Qed.
Lemma find_char c a b : ~ In c a -> find_sub [c] (a ++ c :: b) = Some (length a).
Proof.
  induction a as [|d a IH]; intros N.
  - cbn [app find_sub starts_with]. rewrite ceq_refl. reflexivity.
  - cbn [app find_sub starts_with]. destruct (ceq c d) eqn:E; [apply ceq_eq in E; subst; exfalso; apply N; left; reflexivity|].
    cbn [andb]. rewrite IH by (intros I; apply N; right; exact I). reflexivity.
Qed.
Lemma find_pair x y a b : ~ has_text [x; y] (a ++ [x]) -> find_sub [x; y] (a ++ x :: y :: b) = Some (length a).
Proof.
  induction a as [|d a IH]; intros N.
  - cbn [app find_sub starts_with]. rewrite !ceq_refl. reflexivity.
  - cbn [app find_sub]. assert (starts_with [x; y] (d :: a ++ x :: y :: b) = false) as ->.
    { destruct (starts_with [x; y] (d :: a ++ x :: y :: b)) eqn:S; [|reflexivity]. exfalso. apply N. apply starts_with_spec in S as [t E].
      destruct a as [|e a].
      - cbn [app] in E. injection E as -> Ey _. exists [], []. rewrite <- Ey. reflexivity.
      - cbn [app] in E. injection E as -> -> _. exists [], (a ++ [x]). reflexivity. }
    rewrite IH; [reflexivity|]. intros H. apply N. apply (has_text_cons _ d). exact H.
Qed.
Lemma no_pair_char x y s : ~ In y s -> ~ has_text [x; y] s.
Proof. intros N (a & b & ->). apply N. apply in_or_app. right. right. left. reflexivity. Qed.
Lemma name_stripped k : variable_name k -> strip k = k.
Proof.
  intros [NE F]. assert (forall c, In c k -> is_space c = false) as S.
  { rewrite Forall_forall in F. intros c I. apply F in I. apply name_char_facts in I. apply I. }
  unfold strip. rewrite rstrip_clean.
  - destruct k as [|c k]; [reflexivity|]. cbn [lstrip]. rewrite (S c (or_introl eq_refl)). reflexivity.
  - intros t c E. apply S. rewrite E. apply in_or_app. right. left. reflexivity.
Qed.
Lemma statement_key k v w : variable_name k -> strip (slice_find (statement (k, v) ++ w) $"set" $"=") = k.
Proof.
  intros V. unfold slice_find, statement. cbn [fst snd].
  set (tail := variable_text v ++ $" %}").
  assert (($"{% set " ++ k ++ $" = " ++ tail) ++ w = ($"{% set " ++ k ++ $" ") ++ "="%char :: ($" " ++ tail ++ w)) as E1 by (rewrite <- !app_assoc; reflexivity).
  assert (find_sub $"set" (($"{% set " ++ k ++ $" = " ++ tail) ++ w) = Some 3) as ->.
  { change (($"{% set " ++ k ++ $" = " ++ tail) ++ w) with ("{"%char :: "%"%char :: " "%char :: "s"%char :: "e"%char :: "t"%char :: " "%char :: (k ++ $" = " ++ tail) ++ w). reflexivity. }
  rewrite E1. change (lit "=") with (["="%char] : str). rewrite find_char.
  2:{ intros I. repeat (apply in_app_or in I as [I|I]).
      - revert I. vm_compute. intuition discriminate.
      - destruct V as [_ F]. rewrite Forall_forall in F. apply F in I. apply name_char_facts in I. intuition congruence.
      - revert I. vm_compute. intuition discriminate. }
  change (lit "{% set ") with ($"{% set" ++ $" ").
  replace (3 + length (lit "set")) with (length (lit "{% set")) by reflexivity.
  replace (length (($"{% set" ++ $" ") ++ k ++ $" ")) with (length (lit "{% set") + length ($" " ++ k ++ $" ")) by (rewrite !app_length; lia).
  replace ((($"{% set" ++ $" ") ++ k ++ $" ") ++ "="%char :: $" " ++ tail ++ w) with ($"{% set" ++ ($" " ++ k ++ $" ") ++ ("="%char :: $" " ++ tail ++ w)) by (rewrite <- !app_assoc; reflexivity).
  rewrite slice_mid, strip_pad; [exact (name_stripped k V)| |]; intros c [<-|[]]; reflexivity.
Qed.
Lemma statement_value k v w : variable_name k -> strip (variable_text v) = variable_text v -> ~ has_text $"%}" (variable_text v) ->
  strip (slice_find (statement (k, v) ++ w) $"=" $"%}") = variable_text v.
Proof.
  intros V S N. unfold slice_find, statement. cbn [fst snd]. set (t := variable_text v) in *.
  assert (($"{% set " ++ k ++ $" = " ++ t ++ $" %}") ++ w = ($"{% set " ++ k ++ $" ") ++ "="%char :: ($" " ++ t ++ $" %}" ++ w)) as E1 by (rewrite <- !app_assoc; reflexivity).
  assert (($"{% set " ++ k ++ $" = " ++ t ++ $" %}") ++ w = ($"{% set " ++ k ++ $" = " ++ t ++ $" ") ++ "%"%char :: "}"%char :: w) as E2 by (rewrite <- !app_assoc; reflexivity).
  assert (find_sub $"=" (($"{% set " ++ k ++ $" = " ++ t ++ $" %}") ++ w) = Some (length ($"{% set " ++ k ++ $" "))) as ->.
  { rewrite E1. apply find_char. intros I. repeat (apply in_app_or in I as [I|I]).
    - revert I. vm_compute. intuition discriminate.
    - destruct V as [_ F]. rewrite Forall_forall in F. apply F in I. apply name_char_facts in I. intuition congruence.
    - revert I. vm_compute. intuition discriminate. }
  assert (find_sub $"%}" (($"{% set " ++ k ++ $" = " ++ t ++ $" %}") ++ w) = Some (length ($"{% set " ++ k ++ $" = " ++ t ++ $" "))) as ->.
  { rewrite E2. apply find_pair. rewrite <- !app_assoc.
    change ($"{% set " ++ k ++ $" = " ++ t ++ $" " ++ ["%"%char]) with (($"{%") ++ " "%char :: ($"set" ++ " "%char :: (k ++ " "%char :: ($"=" ++ " "%char :: (t ++ " "%char :: ["%"%char]))))).
    intros H. apply has_pair_sep in H as [H|H]; [revert H; apply no_pair_char; vm_compute; intuition discriminate| |discriminate|discriminate].
    apply has_pair_sep in H as [H|H]; [revert H; apply no_pair_char; vm_compute; intuition discriminate| |discriminate|discriminate].
    apply has_pair_sep in H as [H|H]; [revert H; apply no_pair_char| |discriminate|discriminate].
    { intros I. destruct V as [_ F]. rewrite Forall_forall in F. apply F in I. apply name_char_facts in I. intuition congruence. }
    apply has_pair_sep in H as [H|H]; [revert H; apply no_pair_char; vm_compute; intuition discriminate| |discriminate|discriminate].
    apply has_pair_sep in H as [H|H]; [exact (N H)| |discriminate|discriminate].
    revert H. apply no_pair_char. vm_compute. intuition discriminate. }
  replace (length ($"{% set " ++ k ++ $" ") + length (lit "=")) with (length ($"{% set " ++ k ++ $" =")) by (rewrite !app_length; change (length (lit " =")) with 2; change (length (lit " ")) with 1; change (length (lit "=")) with 1; lia).
  replace (length ($"{% set " ++ k ++ $" = " ++ t ++ $" ")) with (length ($"{% set " ++ k ++ $" =") + length ($" " ++ t ++ $" ")) by (rewrite !app_length; change (length (lit " =")) with 2; change (length (lit " ")) with 1; change (length (lit " = ")) with 3; lia).
  replace (($"{% set " ++ k ++ $" = " ++ t ++ $" %}") ++ w) with (($"{% set " ++ k ++ $" =") ++ ($" " ++ t ++ $" ") ++ ($"%}" ++ w)) by (rewrite <- !app_assoc; reflexivity).
  rewrite slice_mid, strip_pad; [exact S| |]; intros c [<-|[]]; reflexivity.
Qed.
