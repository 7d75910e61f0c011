(** C77, the messages of a build (proofs only). *)
From Verif Require Import Lemmas RegexProofs ConvertProofs2 CommandsProofs4.
From Verif Require Import CommandsSpec.
Import ListNotations.

Lemma white_is c : white c <-> is_space c = true.
Proof.
  unfold white. assert (forallb (fun k => Bool.eqb (is_space (ascii_of_nat k)) (existsb (Nat.eqb k) [9; 10; 11; 12; 13; 28; 29; 30; 31; 32])) (seq 0 256) = true) as A by (vm_compute; reflexivity).
  rewrite forallb_forall in A. assert (nat_of_ascii c < 256) as B by apply nat_ascii_bounded.
  assert (In (nat_of_ascii c) (seq 0 256)) as I by (apply in_seq; lia). specialize (A _ I). cbv beta in A. rewrite ascii_nat_embedding in A. apply Bool.eqb_prop in A.
  rewrite A, existsb_exists. split.
  - intros H. exists (nat_of_ascii c). split; [exact H|apply Nat.eqb_refl].
  - intros (k & H & K). apply Nat.eqb_eq in K. rewrite K. exact H.
Qed.
Lemma any_not c : any_c c = false <-> c = cNL.
Proof. unfold any_c. split; intros H. - apply negb_false_iff in H. apply ceq_eq in H. exact H. - subst. rewrite ceq_refl. reflexivity. Qed.

(** A text is the longest part of a class, and the rest. *)
Lemma longest p (s : str) : exists u t, s = u ++ t /\ Forall (fun c => p c = true) u /\ match t with c :: _ => p c = false | [] => True end.
Proof.
  induction s as [|c s (u & t & -> & F & N)]; [exists [], []; repeat split; constructor|].
  destruct (p c) eqn:P; [exists (c :: u), t|exists [], (c :: u ++ t)]; repeat split; auto.
Qed.
(** The parts of a message. *)
Definition parts (s w l t : str) : Prop :=
  s = $"Error:" ++ w ++ l ++ t /\ w <> [] /\ (forall c, In c w -> white c) /\ (forall c u, l ++ t = c :: u -> ~ white c) /\ ~ In cNL l /\ (t = [] \/ exists u, t = cNL :: u).
Lemma message_parts s : message_here s -> exists w l t, parts s w l t.
Proof.
  intros (c & u & -> & W). destruct (longest is_space u) as (w & r & -> & F & N). destruct (longest any_c r) as (l & t & -> & FL & NT).
  exists (c :: w), l, t. split; [reflexivity|]. split; [discriminate|]. rewrite Forall_forall in F, FL. split; [|split; [|split]].
  - intros d [<-|I]; [exact W|]. apply white_is. exact (F d I).
  - intros d v E HW. rewrite E in N. apply white_is in HW. congruence.
  - intros I. apply FL in I. cbv beta in I. discriminate I.
  - destruct t as [|d t]; [left; reflexivity|]. right. exists t. apply any_not in NT. subst d. reflexivity.
Qed.
Lemma parts_here s w l t : parts s w l t -> message_here s.
Proof. intros (-> & NE & W & _). destruct w as [|c w]; [contradiction|]. exists c, (w ++ l ++ t). split; [reflexivity|]. apply W. left. reflexivity. Qed.
Lemma match_parts prev p s w l t : parts s w l t ->
  exists g, match_at RATTLER_ERROR_REGEX prev p s = Some {| m_start := p; m_end := p + length ($"Error:" ++ w ++ l); m_grps := g |}.
Proof.
  intros (-> & NE & W & N & NL & T). exists []. unfold match_at, RATTLER_ERROR_REGEX. cbn [seqs].
  set (k := fun st => Some {| m_start := p; m_end := pos st; m_grps := grps st |}).
  change (m (L "Error:") (start_st prev p ($"Error:" ++ w ++ l ++ t)) (fun st' => m (Seq WS1 DOTS) st' k)
    = Some {| m_start := p; m_end := p + length ($"Error:" ++ w ++ l); m_grps := [] |}). unfold L.
  destruct (m_lit (lit "Error:") ltac:(discriminate) (start_st prev p ($"Error:" ++ w ++ l ++ t)) (fun st' => m (Seq WS1 DOTS) st' k) (w ++ l ++ t) eq_refl)
    as (st1 & -> & R1 & P1 & G1).
  destruct w as [|c w]; [contradiction|]. cbn [app] in R1.
  change (match rest st1 with d :: _ => if is_space d then m WS (adv st1) (fun st' => m DOTS st' k) else None | [] => None end
    = Some {| m_start := p; m_end := p + length ($"Error:" ++ (c :: w) ++ l); m_grps := [] |}).
  rewrite R1. rewrite (proj1 (white_is c) (W c (or_introl eq_refl))). destruct (adv_pos st1 c _ R1) as (P2 & R2).
  unfold WS. cbn [m]. apply (star_greedy is_space w (l ++ t)).
  - exact R2.
  - apply Forall_forall. intros d I. apply white_is. apply W. right. exact I.
  - destruct (l ++ t) as [|d u]; [exact I|]. specialize (N d u eq_refl). destruct (is_space d) eqn:D; [|reflexivity]. exfalso. apply N, white_is. exact D.
  - intros st3 R3 P3 G3. unfold DOTS. cbn [m]. apply (star_greedy any_c l t).
    + exact R3.
    + apply Forall_forall. intros d I. destruct (any_c d) eqn:D; [reflexivity|]. apply any_not in D. subst d. contradiction.
    + destruct T as [->|(u & ->)]; [exact I|]. apply any_not. reflexivity.
    + intros st4 R4 P4 G4. unfold k. f_equal. f_equal.
      * rewrite P4, P3, P2, P1. rewrite !app_length. cbn [length start_st pos]. lia.
      * rewrite G4, G3, adv_grps, G1. reflexivity.
Qed.
Lemma match_none prev p s : ~ message_here s -> match_at RATTLER_ERROR_REGEX prev p s = None.
Proof.
  intros N. unfold match_at, RATTLER_ERROR_REGEX. cbn [seqs].
  set (k := fun st => Some {| m_start := p; m_end := pos st; m_grps := grps st |}).
  change (m (L "Error:") (start_st prev p s) (fun st' => m (Seq WS1 DOTS) st' k) = None).
  destruct (starts_with $"Error:" s) eqn:S; [|apply m_lit_no; exact S]. apply starts_with_spec in S as (t & ->).
  destruct (m_lit (lit "Error:") ltac:(discriminate) (start_st prev p ($"Error:" ++ t)) (fun st' => m (Seq WS1 DOTS) st' k) t eq_refl) as (st1 & K & R1 & _ & _).
  unfold L. rewrite K. change (match rest st1 with d :: _ => if is_space d then m WS (adv st1) (fun st' => m DOTS st' k) else None | [] => None end = None).
  rewrite R1. destruct t as [|c t]; [reflexivity|]. destruct (is_space c) eqn:C; [|reflexivity]. exfalso. apply N. exists c, t. split; [reflexivity|apply white_is; exact C].
Qed.
Lemma here_dec s : message_here s \/ ~ message_here s.
Proof.
  destruct (starts_with $"Error:" s) eqn:S.
  - apply starts_with_spec in S as ([|c t] & ->).
    + right. intros (c & t & H & _). apply app_inv_head in H. discriminate H.
    + destruct (is_space c) eqn:C.
      * left. exists c, t. split; [reflexivity|apply white_is; exact C].
      * right. intros (d & u & H & W). apply app_inv_head in H. injection H as <- <-. apply white_is in W. congruence.
  - right. intros (c & t & -> & _). assert (starts_with $"Error:" ($"Error:" ++ c :: t) = true) by (apply starts_with_spec; eauto). congruence.
Qed.

(** * The scan *)
Lemma scan_skip r : forall u prev p s, exists prev', scan r prev p (length u) (u ++ s) = scan r prev' (p + length u) 0 s.
Proof.
  induction u as [|c u IH]; intros prev p s.
  - exists prev. cbn [length app]. rewrite Nat.add_0_r. reflexivity.
  - cbn [length app scan]. destruct (IH (Some c) (S p) s) as (prev' & ->). exists prev'. f_equal. lia.
Qed.
Lemma scan_messages : forall n whole before s prev, length s <= n -> whole = before ++ s ->
  error_messages s (map (group0 whole) (scan RATTLER_ERROR_REGEX prev (length before) 0 s)).
Proof.
  induction n as [|n IH]; intros whole before s prev HL HW; (destruct s as [|c s]; [apply no_message; intros a b E (d & t & -> & _); apply (f_equal (@length ascii)) in E; rewrite !app_length in E; cbn [length] in E; lia|]); cbn [length] in HL; [lia|].
  destruct (here_dec (c :: s)) as [H|H].
  - destruct (message_parts _ H) as (w & l & t & P). destruct (match_parts prev (length before) _ _ _ _ P) as (g & M).
    cbn [scan]. rewrite M. cbn [map m_start m_end]. pose proof P as (E & NE & W & N & NL & T).
    assert (group0 whole {| m_start := length before; m_end := length before + length ($"Error:" ++ w ++ l); m_grps := g |} = $"Error:" ++ w ++ l) as ->.
    { unfold group0. cbn [m_start m_end]. rewrite HW, E. replace ($"Error:" ++ w ++ l ++ t) with (($"Error:" ++ w ++ l) ++ t) by (rewrite <- !app_assoc; reflexivity). apply slice_mid. }
    assert (exists tl, $"Error:" ++ w ++ l = c :: tl /\ s = tl ++ t) as (tl & Etl & Es).
    { change ($"Error:") with ("E"%char :: $"rror:") in E |- *. injection E as -> ->. exists ($"rror:" ++ w ++ l). split; [reflexivity|]. rewrite <- !app_assoc. reflexivity. }
    rewrite E. rewrite Etl at 2. cbn [length]. replace (length before + S (length tl) - length before - 1) with (length tl) by lia.
    rewrite Es. destruct (scan_skip RATTLER_ERROR_REGEX tl (Some c) (S (length before)) t) as (prev' & ->).
    replace (S (length before) + length tl) with (length (before ++ c :: tl)) by (rewrite app_length; cbn [length]; lia).
    apply (message [] w l t); auto.
    + intros a1 a2 A NA. exfalso. symmetry in A. apply app_eq_nil in A as (_ & ->). contradiction.
    + apply IH; [rewrite Es, app_length in HL; lia|]. rewrite HW, Es, <- app_assoc. reflexivity.
  - cbn [scan]. rewrite (match_none _ _ _ H).
    assert (error_messages s (map (group0 whole) (scan RATTLER_ERROR_REGEX (Some c) (length (before ++ [c])) 0 s))) as K.
    { apply IH; [lia|]. rewrite HW, <- app_assoc. reflexivity. }
    replace (length (before ++ [c])) with (S (length before)) in K by (rewrite app_length; cbn [length]; lia).
    set (out := map (group0 whole) _) in *. clearbody out.
    inversion K as [s0 F E1 E2|a w l t ms F NE W N NL T HM E1 E2].
    + apply no_message. intros a b E. destruct a as [|d a]; [cbn [app] in E; subst b; exact H|]. injection E as <- E. exact (F a b E).
    + change (c :: a ++ $"Error:" ++ w ++ l ++ t) with ((c :: a) ++ $"Error:" ++ w ++ l ++ t). apply message; auto.
      intros a1 a2 A NA. destruct a1 as [|d a1].
      * cbn [app] in A. subst a2. cbn [app]. rewrite E1. exact H.
      * injection A as <- A. exact (F a1 a2 A NA).
Qed.

(** * Uniqueness *)
Lemma first_one {A} (p : A -> bool) (u u' t t' : list A) : u ++ t = u' ++ t' -> Forall (fun c => p c = true) u -> Forall (fun c => p c = true) u' ->
  match t with c :: _ => p c = false | [] => True end -> match t' with c :: _ => p c = false | [] => True end -> u = u' /\ t = t'.
Proof.
  revert u' t t'. induction u as [|c u IH]; intros [|d u'] t t' E F F' N N'; cbn [app] in E.
  - auto.
  - subst t. inversion F'; congruence.
  - subst t'. inversion F; congruence.
  - injection E as <- E. inversion F; inversion F'; subst. destruct (IH u' t t' E) as (-> & ->); auto.
Qed.
Lemma parts_one s w l t w' l' t' : parts s w l t -> parts s w' l' t' -> w = w' /\ l = l' /\ t = t'.
Proof.
  intros (E & _ & W & N & NL & T) (E' & _ & W' & N' & NL' & T'). rewrite E in E'. apply app_inv_head in E'.
  assert (forall l t : str, (forall c u, l ++ t = c :: u -> ~ white c) -> match l ++ t with c :: _ => is_space c = false | [] => True end) as A.
  { intros l0 t0 H. destruct (l0 ++ t0) as [|c u]; [exact I|]. specialize (H c u eq_refl). destruct (is_space c) eqn:C; [|reflexivity]. exfalso. apply H, white_is, C. }
  assert (forall w : str, (forall c, In c w -> white c) -> Forall (fun c => is_space c = true) w) as B.
  { intros w0 H. apply Forall_forall. intros c I. apply white_is, H, I. }
  destruct (first_one is_space w w' (l ++ t) (l' ++ t') E' (B _ W) (B _ W') (A _ _ N) (A _ _ N')) as (-> & E2).
  assert (forall t : str, t = [] \/ (exists u, t = cNL :: u) -> match t with c :: _ => any_c c = false | [] => True end) as D.
  { intros t0 [->|(u & ->)]; [exact I|]. apply any_not. reflexivity. }
  assert (forall l : str, ~ In cNL l -> Forall (fun c => any_c c = true) l) as G.
  { intros l0 H. apply Forall_forall. intros c I. destruct (any_c c) eqn:C; [reflexivity|]. apply any_not in C. subst c. contradiction. }
  destruct (first_one any_c l l' t t' E2 (G _ NL) (G _ NL') (D _ T) (D _ T')) as (-> & ->). auto.
Qed.
Lemma first_head {A} (P : list A -> Prop) a a' s s' : a ++ s = a' ++ s' -> P s -> P s' ->
  (forall a1 a2, a = a1 ++ a2 -> a2 <> [] -> ~ P (a2 ++ s)) -> (forall a1 a2, a' = a1 ++ a2 -> a2 <> [] -> ~ P (a2 ++ s')) -> a = a' /\ s = s'.
Proof.
  revert a'. induction a as [|c a IH]; intros [|d a'] E HP HP' F F'; cbn [app] in E.
  - auto.
  - exfalso. apply (F' [] (d :: a') eq_refl); [discriminate|]. cbn [app]. rewrite <- E. exact HP.
  - exfalso. apply (F [] (c :: a) eq_refl); [discriminate|]. cbn [app]. rewrite E. exact HP'.
  - injection E as <- E. destruct (IH a' E HP HP') as (-> & ->); auto.
    + intros a1 a2 H. apply (F (c :: a1) a2). rewrite H. reflexivity.
    + intros a1 a2 H. apply (F' (c :: a1) a2). rewrite H. reflexivity.
Qed.
Lemma messages_one s ms : error_messages s ms -> forall ms', error_messages s ms' -> ms = ms'.
Proof.
  induction 1 as [s F|a w l t ms F NE W N NL T HM IH]; intros ms' H.
  - destruct H as [s _|a w l t ms F' NE W N NL T HM]; [reflexivity|]. exfalso. apply (F a _ eq_refl). apply (parts_here _ w l t). repeat split; auto.
  - assert (parts ($"Error:" ++ w ++ l ++ t) w l t) as P by (repeat split; auto).
    inversion H as [s0 F' E1 E2|a' w' l' t' ms0 F' NE' W' N' NL' T' HM' E1 E2].
    + exfalso. subst s0. apply (F' a _ eq_refl). apply (parts_here _ _ _ _ P).
    + assert (parts ($"Error:" ++ w' ++ l' ++ t') w' l' t') as P' by (repeat split; auto).
      destruct (first_head message_here a' a _ _ E1 (parts_here _ _ _ _ P') (parts_here _ _ _ _ P) F' F) as (-> & E).
      change ($"Error:" ++ w' ++ l' ++ t' = $"Error:" ++ w ++ l ++ t) in E. rewrite E in P'.
      destruct (parts_one _ _ _ _ _ _ _ P P') as (-> & -> & ->). f_equal. apply IH. exact HM'.
Qed.
Lemma c77_errors p errors : build_errors p errors <-> bd_errors (build_recipe p) = errors.
Proof.
  destruct p as [code stderr|]; cbn [build_errors build_recipe bd_errors]; [|split; intros H; symmetry; exact H].
  assert (error_messages stderr (findall RATTLER_ERROR_REGEX stderr)) as K by (apply (scan_messages (length stderr) stderr [] stderr None); auto).
  split; intros H; [exact (messages_one _ _ K _ H)|]. subst errors. exact K.
Qed.
Lemma c77_statistics results min_rate : NoDup (map fst results) -> results <> [] ->
  let bad := filter (fun nr => match snd nr with Ended code _ => negb (code =? 0)%Z | TookTooLong => true end) results in
  exists t errors, rattler_bulk_build results min_rate = (bulk_exit (length results - length bad) (length results) min_rate, Some t)
  /\ br_files t = length results /\ br_processed t = length results
  /\ br_success t + br_errors t = length results /\ br_errors t = length bad /\ br_with_errors t = map fst bad
  /\ Forall2 (fun nr e => build_errors (snd nr) e) results errors /\ counts (br_hist t) (concat errors).
Proof.
  intros N E bad. destruct (c77 results min_rate N E) as (t & H1 & H2 & H3 & H4 & H5 & H6 & H7). exists t, (map (fun nr => bd_errors (build_recipe (snd nr))) results).
  repeat (split; [assumption|]). split; [|rewrite flat_map_concat_map in H7; exact H7].
  clear. induction results as [|nr l IH]; constructor; [apply c77_errors; reflexivity|exact IH].
Qed.
