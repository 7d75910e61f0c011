(** The text of a canonical recipe is read back (proofs only). *)
From Verif Require Export LayoutProofs5.

(** * Joining and splitting lines *)
Lemma join_app a b : b <> [] -> join NLs (a ++ b) = concat (map (fun l => l ++ NLs) a) ++ join NLs b.
Proof.
  intros N. induction a as [|x a IH]; [reflexivity|]. cbn [app map concat]. rewrite <- !app_assoc, <- IH.
  destruct a as [|y a]; [destruct b; [contradiction|reflexivity]|reflexivity].
Qed.
Lemma splitlines_line l : forall cur s, (forall c, In c l -> is_linebreak c = false) ->
  splitlines_aux cur (l ++ cNL :: s) = (rev cur ++ l) :: splitlines_aux [] s.
Proof.
  induction l as [|c l IH]; intros cur s H.
  - cbn [app splitlines_aux]. change (is_linebreak cNL) with true. change (code cNL =? 13) with false. cbv iota. rewrite app_nil_r. reflexivity.
  - cbn [app splitlines_aux]. rewrite (H c (or_introl eq_refl)). rewrite IH by (intros d I; apply H; right; exact I).
    cbn [rev]. rewrite <- app_assoc. reflexivity.
Qed.
Lemma splitlines_last l : forall cur, (forall c, In c l -> is_linebreak c = false) -> rev cur ++ l <> [] -> splitlines_aux cur l = [rev cur ++ l].
Proof.
  induction l as [|c l IH]; intros cur H N.
  - cbn [splitlines_aux]. rewrite app_nil_r in *. destruct cur; [contradiction|reflexivity].
  - cbn [splitlines_aux]. rewrite (H c (or_introl eq_refl)). rewrite IH.
    + cbn [rev]. rewrite <- app_assoc. reflexivity.
    + intros d I. apply H. right. exact I.
    + cbn [rev]. destruct (rev cur); discriminate.
Qed.
Definition unbroken (l : str) : Prop := forall c, In c l -> is_linebreak c = false.
(** Joined lines are split again; an empty last line is lost. *)
Lemma split_join ls l : Forall unbroken ls -> unbroken l ->
  splitlines (join NLs (ls ++ [l])) = ls ++ (if is_nil l then [] else [l]).
Proof.
  intros F U. unfold splitlines. induction ls as [|x ls IH].
  - cbn [app join]. destruct l as [|c l]; [reflexivity|]. rewrite splitlines_last; [reflexivity|exact U|discriminate].
  - inversion F as [|? ? Ux Fx]; subst. change (join NLs ((x :: ls) ++ [l])) with (join NLs (x :: (ls ++ [l]))).
    assert (join NLs (x :: (ls ++ [l])) = x ++ cNL :: join NLs (ls ++ [l])) as ->.
    { destruct (ls ++ [l]) eqn:El; [destruct ls; discriminate|]. reflexivity. }
    rewrite splitlines_line by exact Ux. rewrite IH by exact Fx. reflexivity.
Qed.

(** * Texts without Jinja lines *)
Lemma has_pair_sep x y c0 a s : x <> c0 -> y <> c0 -> has_text [x; y] (a ++ c0 :: s) -> has_text [x; y] a \/ has_text [x; y] s.
Proof.
  intros Nx Ny (u & v & E). revert u E. induction a as [|c a IH]; intros u E.
  - right. destruct u as [|d u]; [cbn [app] in E; injection E as E1 _; congruence|]. cbn [app] in E. injection E as _ E. exists u, v. exact E.
  - destruct u as [|d u].
    + cbn [app] in E. injection E as -> E. destruct a as [|e a].
      * cbn [app] in E. injection E as E1 _. congruence.
      * cbn [app] in E. injection E as -> E. left. exists [], a. reflexivity.
    + cbn [app] in E. injection E as -> E. destruct (IH u E) as [(p & q & ->)|H]; [left; exists (d :: p), q; reflexivity|right; exact H].
Qed.
Lemma has_pair_app x y a s : x <> cNL -> y <> cNL -> has_text [x; y] (a ++ cNL :: s) -> has_text [x; y] a \/ has_text [x; y] s.
Proof. apply has_pair_sep. Qed.
Definition quiet (s : str) : Prop := ~ has_text $"{%" s /\ ~ has_text $"{#" s.
Lemma quiet_tail c s : quiet (c :: s) -> quiet s.
Proof. intros [A B]. split; intros H; [apply A|apply B]; apply has_text_cons; exact H. Qed.
Lemma quiet_join ls : Forall inert ls -> quiet (join NLs ls).
Proof.
  induction ls as [|l ls IH]; intros F.
  - split; apply has_text_nil; discriminate.
  - inversion F as [|? ? (U & A & B) F']; subst. destruct ls as [|l2 ls]; [split; assumption|].
    change (join NLs (l :: l2 :: ls)) with (l ++ cNL :: join NLs (l2 :: ls)). destruct (IH F') as [A' B'].
    split; intros H; apply has_pair_app in H; try discriminate; destruct H as [H|H]; auto.
Qed.
Lemma quiet_starts s : quiet s -> starts_with $"{%" s = false /\ starts_with $"{#" s = false.
Proof.
  intros [A B]. split.
  - destruct (starts_with $"{%" s) eqn:H; [|reflexivity]. exfalso. apply starts_with_spec in H as [t ->]. apply A. exists [], t. reflexivity.
  - destruct (starts_with $"{#" s) eqn:H; [|reflexivity]. exfalso. apply starts_with_spec in H as [t ->]. apply B. exists [], t. reflexivity.
Qed.
Lemma quiet_no_line prev p s : quiet s -> match_at JINJA_V0_LINE prev p s = None.
Proof.
  intros Q. destruct (quiet_starts s Q) as [A B]. unfold match_at.
  match goal with |- ?e = None => destruct e as [x|] eqn:K; [|reflexivity] end. exfalso.
  apply m_sound in K as (u & st' & R & HL & _). cbn [start_st rest] in R.
  unfold JINJA_V0_LINE in HL. cbn [seqs lang] in HL. destruct HL as (u1 & u2 & -> & [(a & b & -> & La & _)|(a & b & -> & La & _)] & _);
    apply lang_L in La as ->; rewrite <- !app_assoc in R; [assert (starts_with $"{%" s = true); [|congruence]|assert (starts_with $"{#" s = true); [|congruence]];
    apply starts_with_spec; eexists; exact R.
Qed.
Lemma quiet_no_set prev p s : quiet s -> match_at JINJA_V0_SET_LINE prev p s = None.
Proof.
  intros Q. destruct (quiet_starts s Q) as [A _]. unfold match_at.
  match goal with |- ?e = None => destruct e as [x|] eqn:K; [|reflexivity] end. exfalso.
  apply m_sound in K as (u & st' & R & HL & _). cbn [start_st rest] in R.
  unfold JINJA_V0_SET_LINE in HL. cbn [seqs] in HL. change (lang (Seq ?a ?b) u) with (exists x y, u = x ++ y /\ lang a x /\ lang b y) in HL.
  destruct HL as (a & b & -> & La & _). apply lang_L in La as ->. rewrite <- app_assoc in R.
  assert (starts_with $"{%" s = true); [|congruence]. apply starts_with_spec. eexists. exact R.
Qed.
Lemma quiet_sub whole f s : forall prev p, quiet s -> sub_aux JINJA_V0_LINE whole f prev p 0 s = s.
Proof.
  induction s as [|c s IH]; intros prev p Q; [reflexivity|]. cbn [sub_aux]. rewrite quiet_no_line by exact Q.
  rewrite IH by (exact (quiet_tail _ _ Q)). reflexivity.
Qed.
Lemma quiet_scan s : forall prev p, quiet s -> scan JINJA_V0_SET_LINE prev p 0 s = [].
Proof.
  induction s as [|c s IH]; intros prev p Q; [reflexivity|]. cbn [scan]. rewrite quiet_no_set by exact Q. apply IH. exact (quiet_tail _ _ Q).
Qed.
Lemma sub_skip r whole f u s : forall prev p, exists prev', sub_aux r whole f prev p (length u) (u ++ s) = sub_aux r whole f prev' (p + length u) 0 s.
Proof.
  induction u as [|c u IH]; intros prev p.
  - exists prev. cbn [length app]. rewrite Nat.add_0_r. reflexivity.
  - cbn [length app sub_aux]. destruct (IH (Some c) (S p)) as [prev' H]. exists prev'. rewrite H. f_equal. lia.
Qed.
Lemma scan_skip r u s : forall prev p, exists prev', scan r prev p (length u) (u ++ s) = scan r prev' (p + length u) 0 s.
Proof.
  induction u as [|c u IH]; intros prev p.
  - exists prev. cbn [length app]. rewrite Nat.add_0_r. reflexivity.
  - cbn [length app scan]. destruct (IH (Some c) (S p)) as [prev' H]. exists prev'. rewrite H. f_equal. lia.
Qed.

(** * Statement lines are removed *)
Lemma line_match prev p mid s : ~ In cNL mid ->
  exists x, match_at JINJA_V0_LINE prev p ($"{%" ++ mid ++ $"%}" ++ cNL :: s) = Some x /\ m_start x = p /\ m_end x = p + length ($"{%" ++ mid ++ $"%}") + 1.
Proof.
  intros N. unfold match_at.
  set (k := fun st => Some {| m_start := p; m_end := pos st; m_grps := grps st |}).
  set (st0 := start_st prev p ($"{%" ++ mid ++ $"%}" ++ cNL :: s)).
  set (k1 := fun st' => m (C cNL) {| prevc := prevc st'; pos := pos st'; rest := rest st'; grps := (1, (pos st0, pos st')) :: grps st' |} k).
  assert (forall st1, rest st1 = cNL :: s -> k1 st1 = Some {| m_start := p; m_end := S (pos st1); m_grps := (1, (pos st0, pos st1)) :: grps st1 |}) as K1.
  { intros st1 R1. unfold k1. eapply m_chr; [exact R1|]. unfold k, adv. cbn [rest]. rewrite R1. cbn [pos grps]. reflexivity. }
  destruct (m_lit (lit "{%") ltac:(discriminate) st0 (fun st' => m (Seq DOTS (L "%}")) st' k1) (mid ++ $"%}" ++ cNL :: s) eq_refl) as (st1 & E1 & R1 & P1 & G1).
  assert (exists st2, m (Seq DOTS (L "%}")) st1 k1 = k1 st2 /\ rest st2 = cNL :: s /\ pos st2 = pos st1 + length mid + 2) as (st2 & E2 & R2 & P2).
  { destruct (m_lit (lit "%}") ltac:(discriminate) (fwd (length mid) st1) k1 (cNL :: s) (fwd_rest mid st1 _ R1)) as (st2 & E2 & R2 & P2 & G2).
    exists st2. split; [|split; [exact R2|rewrite P2, (fwd_pos mid st1 _ R1); reflexivity]].
    rewrite (K1 st2 R2). apply m_seq. unfold DOTS. cbn [m]. rewrite R1. apply star_last.
    - apply Forall_forall. intros c I. unfold any_c. destruct (ceq c cNL) eqn:Ec; [apply ceq_eq in Ec; subst; contradiction|reflexivity].
    - intros b1 b2 E NB F. rewrite fwd_add. apply m_lit_no.
      assert (rest (fwd (length b1) (fwd (length mid) st1)) = b2) as -> by (apply fwd_rest; rewrite (fwd_rest mid st1 _ R1); exact E).
      destruct b1 as [|c1 b1]; [contradiction|]. change (lit "%}") with (["%"%char; "}"%char] : str) in E. cbn [app] in E. injection E as <- E.
      destruct b1 as [|c2 b1]; [cbn [app] in E; subst b2; reflexivity|]. cbn [app] in E. injection E as <- E.
      destruct b1 as [|c3 b1]; [cbn [app] in E; subst b2; reflexivity|]. cbn [app] in E. injection E as <- E.
      rewrite Forall_forall in F. specialize (F cNL ltac:(right; right; left; reflexivity)). discriminate.
    - unfold L. rewrite E2. apply K1. exact R2. }
  eexists. split; [|split].
  - unfold JINJA_V0_LINE. change (seqs [Grp 1 (Alt (seqs [L "{%"; DOTS; L "%}"]) (seqs [L "{#"; DOTS; L "#}"])); C cNL])
      with (Seq (Grp 1 (Alt (Seq (L "{%") (Seq DOTS (L "%}"))) (seqs [L "{#"; DOTS; L "#}"]))) (C cNL)).
    apply m_seq. apply m_grp. apply m_alt_l. apply m_seq. etransitivity; [exact E1|]. cbv beta. rewrite E2. apply K1. exact R2.
  - reflexivity.
  - cbn [m_end]. rewrite P2, P1. unfold st0. cbn [start_st pos]. rewrite !app_length. change (length (lit "{%")) with 2. change (length (lit "%}")) with 2. lia.
Qed.
Lemma sub_hit r whole f prev p c s x : match_at r prev p (c :: s) = Some x ->
  sub_aux r whole f prev p 0 (c :: s) = f x ++ sub_aux r whole f (Some c) (S p) (m_end x - m_start x - 1) s.
Proof. intros H. cbn [sub_aux]. rewrite H. reflexivity. Qed.
Lemma scan_hit r prev p c s x : match_at r prev p (c :: s) = Some x ->
  scan r prev p 0 (c :: s) = x :: scan r (Some c) (S p) (m_end x - m_start x - 1) s.
Proof. intros H. cbn [scan]. rewrite H. reflexivity. Qed.
Lemma sub_line whole f prev p mid s : (forall x, f x = []) -> ~ In cNL mid ->
  exists prev' p', sub_aux JINJA_V0_LINE whole f prev p 0 (($"{%" ++ mid ++ $"%}") ++ cNL :: s) = sub_aux JINJA_V0_LINE whole f prev' p' 0 s.
Proof.
  intros Hf N. destruct (line_match prev p mid s N) as (x & Hx & S & En).
  set (u := "%"%char :: mid ++ $"%}" ++ [cNL]).
  assert (forall z, ($"{%" ++ mid ++ $"%}") ++ cNL :: z = "{"%char :: (u ++ z)) as Eu.
  { intros z. unfold u. cbn [app]. rewrite <- !app_assoc. reflexivity. }
  assert ($"{%" ++ mid ++ $"%}" ++ cNL :: s = "{"%char :: (u ++ s)) as Eu2 by (rewrite <- Eu, <- !app_assoc; reflexivity).
  rewrite Eu. rewrite Eu2 in Hx. rewrite (sub_hit _ _ _ _ _ _ _ _ Hx), Hf. cbn [app]. rewrite S, En.
  replace (p + length ($"{%" ++ mid ++ $"%}") + 1 - p - 1) with (length u).
  - destruct (sub_skip JINJA_V0_LINE whole f u s (Some "{"%char) (Datatypes.S p)) as [prev' H]. exists prev', (Datatypes.S p + length u). exact H.
  - unfold u. cbn [length]. rewrite !app_length. change (length (lit "{%")) with 2. cbn [length]. lia.
Qed.
