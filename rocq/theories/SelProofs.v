(** The selector pattern: the matcher computes the bracketed part of a comment. *)
From Verif Require Export PatchProofs3 SelSpec.

Fixpoint up_to_close (s : str) : option nat :=
  match s with
  | [] => None
  | c :: s' => if ceq c cNL then None
               else match up_to_close s' with
                    | Some n => Some (S n)
                    | None => if ceq c cRB then Some 1 else None
                    end
  end.
Fixpoint sel_pos (s : str) : option (nat * nat) :=
  match s with
  | [] => None
  | c :: s' => match (if ceq cLB c then up_to_close s' else None) with
               | Some n => Some (0, S n)
               | None => option_map (fun x => (S (fst x), snd x)) (sel_pos s')
               end
  end.
Definition sel_text (s : str) : option str := option_map (fun x => firstn (snd x) (skipn (fst x) s)) (sel_pos s).

Lemma nl_not_rb : ceq cRB cNL = false. Proof. reflexivity. Qed.
Lemma star_dots p s : forall st, rest st = s -> grps st = [] ->
  star_k any_c s st (fun st' => m (C cRB) st' (fun st => Some {| m_start := p; m_end := pos st; m_grps := grps st |}))
  = option_map (fun n => {| m_start := p; m_end := pos st + n; m_grps := [] |}) (up_to_close s).
Proof.
  induction s as [|c s IH]; intros st Hr Hg; cbn [star_k up_to_close].
  - unfold C. cbn [m]. rewrite Hr. reflexivity.
  - unfold any_c. destruct (ceq c cNL) eqn:N; cbn [negb].
    + unfold C. cbn [m]. rewrite Hr. apply ceq_eq in N as ->. rewrite nl_not_rb. reflexivity.
    + rewrite IH.
      2:{ unfold adv. rewrite Hr. reflexivity. }
      2:{ unfold adv. rewrite Hr. exact Hg. }
      assert (pos (adv st) = S (pos st)) as Hp by (unfold adv; rewrite Hr; reflexivity). rewrite Hp.
      destruct (up_to_close s) as [n|]; cbn [option_map].
      * do 2 f_equal. lia.
      * unfold C. cbn [m]. rewrite Hr. rewrite (ceq_sym c cRB). destruct (ceq cRB c); [|reflexivity].
        cbn [option_map]. unfold adv. rewrite Hr. cbn [pos grps]. rewrite Hg. do 2 f_equal. lia.
Qed.
Lemma match_at_sel prev p s : match_at SELECTOR prev p s =
  match s with
  | c :: s' => if ceq cLB c then option_map (fun n => {| m_start := p; m_end := p + S n; m_grps := [] |}) (up_to_close s') else None
  | [] => None
  end.
Proof.
  unfold match_at, SELECTOR. cbn [seqs m]. unfold C at 1. cbn [m]. cbn [start_st rest].
  destruct s as [|c s]; [reflexivity|]. cbn [start_st rest]. destruct (ceq cLB c); [|reflexivity].
  unfold DOTS. cbn [m]. cbn [adv start_st rest].
  rewrite (star_dots p s); [|reflexivity|reflexivity]. cbn [pos]. destruct (up_to_close s); cbn [option_map]; [|reflexivity].
  do 2 f_equal. unfold start_st. cbn [pos]. lia.
Qed.
Lemma search_sel s : forall prev p, search_from SELECTOR prev p s =
  option_map (fun x => {| m_start := p + fst x; m_end := p + fst x + snd x; m_grps := [] |}) (sel_pos s).
Proof.
  induction s as [|c s IH]; intros prev p; cbn [search_from sel_pos]; rewrite match_at_sel; [reflexivity|].
  destruct (ceq cLB c).
  - destruct (up_to_close s) as [n|]; cbn [option_map].
    + cbn [fst snd]. rewrite Nat.add_0_r. reflexivity.
    + rewrite IH. destruct (sel_pos s) as [[a b]|]; cbn [option_map fst snd]; [|reflexivity]. do 2 f_equal; lia.
  - rewrite IH. destruct (sel_pos s) as [[a b]|]; cbn [option_map fst snd]; [|reflexivity]. do 2 f_equal; lia.
Qed.
Lemma search_text_sel s : search_text SELECTOR s = sel_text s.
Proof.
  unfold search_text, re_search, sel_text. rewrite search_sel. destruct (sel_pos s) as [[a b]|]; cbn [option_map fst snd]; [|reflexivity].
  unfold group0, slice. cbn [m_start m_end]. do 2 f_equal; lia.
Qed.
Lemma found_sel s : found SELECTOR s = is_some (sel_pos s).
Proof. unfold found, re_search. rewrite search_sel. destruct (sel_pos s); reflexivity. Qed.
Lemma matched_sel s : matched SELECTOR s = match s with c :: s' => ceq cLB c && is_some (up_to_close s') | [] => false end.
Proof.
  unfold matched, re_match. rewrite match_at_sel. destruct s as [|c s]; auto. destruct (ceq cLB c); auto.
  destruct (up_to_close s); reflexivity.
Qed.

(** ** Declarative reading *)
Lemma up_to_close_spec s n : up_to_close s = Some n <->
  exists b c, s = b ++ cRB :: c /\ n = S (length b) /\ ~ In cNL b
              /\ forall x y, c = x ++ cRB :: y -> In cNL x.
Proof.
  revert n; induction s as [|a s IH]; intros n; cbn [up_to_close].
  - split; [discriminate|]. intros (b & c & H & _). destruct b; discriminate.
  - destruct (ceq a cNL) eqn:N.
    + split; [discriminate|]. intros (b & c & H & _ & Hb & _). apply ceq_eq in N as ->. destruct b as [|x b].
      * injection H as H _. discriminate.
      * injection H as <- _. exfalso. apply Hb. left; auto.
    + apply ceq_neq in N. destruct (up_to_close s) as [k|] eqn:U.
      * destruct (proj1 (IH k) eq_refl) as (b & c & -> & -> & Hb & Hc). split.
        -- intros [= <-]. exists (a :: b), c. split; auto. split; auto. split; auto. intros [H|H]; auto.
        -- intros (b' & c' & H & -> & Hb' & Hc'). destruct b' as [|x b'].
           ++ injection H as -> H. exfalso. apply Hb. eapply Hc'. symmetry. exact H.
           ++ injection H as <- H. f_equal.
              assert (Some (S (length b)) = Some (S (length b'))) as HH; [|injection HH as ->; reflexivity].
              apply IH. exists b', c'. split; auto. split; auto. split; auto. intros Hx. apply Hb'. right; auto.
      * split.
        -- destruct (ceq a cRB) eqn:R; [|discriminate]. apply ceq_eq in R as ->. intros [= <-]. exists [], s.
           split; auto. split; auto. split; auto. intros x y ->. destruct (in_dec ascii_dec cNL x) as [|Hx]; auto. exfalso.
           (* last closing bracket before the newline exists *)
           assert (exists n, up_to_close (x ++ cRB :: y) = Some n) as (n & Hn); [|congruence].
           clear -Hx. induction x as [|z x IH]; cbn [app up_to_close].
           ++ rewrite nl_not_rb. destruct (up_to_close y); eauto. rewrite ceq_refl. eauto.
           ++ destruct (ceq z cNL) eqn:Z; [apply ceq_eq in Z as ->; exfalso; apply Hx; left; auto|].
              destruct IH as (n & ->); [intros H; apply Hx; right; auto|]. eauto.
        -- intros (b & c & H & -> & Hb & Hc). destruct b as [|x b].
           ++ injection H as -> H. rewrite ceq_refl. reflexivity.
           ++ exfalso. injection H as <- H. assert (None = Some (S (length b))) as HH; [|discriminate].
              apply IH. exists b, c. split; auto. split; auto. split; auto. intros Hx. apply Hb. right; auto.
Qed.
Lemma up_to_close_none s : up_to_close s = None <-> forall b c, s = b ++ cRB :: c -> In cNL b.
Proof.
  induction s as [|a s IH]; cbn [up_to_close].
  - split; auto. intros _ [|x b] c H; discriminate.
  - destruct (ceq a cNL) eqn:N.
    + apply ceq_eq in N as ->. split; auto. intros _ [|x b] c H; injection H as H _; [discriminate|left; auto].
    + apply ceq_neq in N. destruct (up_to_close s) as [k|].
      * split; [discriminate|]. intros H. exfalso. assert (Some k = None) as HH; [|discriminate]. apply IH.
        intros b c ->. destruct (H (a :: b) c eq_refl) as [Hx|Hx]; [congruence|auto].
      * destruct (ceq a cRB) eqn:R.
        -- apply ceq_eq in R as ->. split; [discriminate|]. intros H. destruct (H [] s eq_refl).
        -- apply ceq_neq in R. split; auto. intros _ [|x b] c H; injection H as H1 H2; [congruence|].
           right. eapply IH; eauto.
Qed.
Lemma sel_pos_none s : sel_pos s = None <-> no_selector s.
Proof.
  unfold no_selector. induction s as [|a s IH]; cbn [sel_pos].
  - split; auto. intros _ [|x a] b c H; discriminate.
  - split.
    + intros H. destruct (ceq cLB a) eqn:Ea.
      * destruct (up_to_close s) eqn:U; [discriminate|]. destruct (sel_pos s); [discriminate|].
        intros [|x a'] b c Hs; injection Hs as H1 H2.
        -- apply (proj1 (up_to_close_none s) U b c). exact H2.
        -- exact (proj1 IH eq_refl a' b c H2).
      * destruct (sel_pos s); [discriminate|]. intros [|x a'] b c Hs; injection Hs as H1 H2.
        -- subst a. rewrite ceq_refl in Ea. discriminate.
        -- exact (proj1 IH eq_refl a' b c H2).
    + intros H. assert (sel_pos s = None) as HN.
      { apply IH. intros a' b c ->. apply (H (a :: a') b c). reflexivity. }
      rewrite HN. destruct (ceq cLB a) eqn:Ea; auto. apply ceq_eq in Ea as <-.
      destruct (up_to_close s) eqn:U; auto. exfalso.
      apply up_to_close_spec in U as (b & c & -> & _ & Hb & _). apply Hb. apply (H [] b c). reflexivity.
Qed.
Lemma sel_pos_split before b after : ~ In cLB before -> ~ In cNL b -> (forall x y, after = x ++ cRB :: y -> In cNL x) ->
  sel_pos (before ++ cLB :: b ++ cRB :: after) = Some (length before, length b + 2).
Proof.
  intros Hl Hn Ha. induction before as [|x before IH]; cbn [app sel_pos length].
  - rewrite ceq_refl. assert (up_to_close (b ++ cRB :: after) = Some (S (length b))) as ->.
    { apply up_to_close_spec. exists b, after. auto. }
    do 2 f_equal. lia.
  - destruct (ceq cLB x) eqn:Ex; [apply ceq_eq in Ex as <-; exfalso; apply Hl; left; auto|].
    rewrite IH by (intros H; apply Hl; right; auto). reflexivity.
Qed.
Lemma sel_text_split before b after : ~ In cLB before -> ~ In cNL b -> (forall x y, after = x ++ cRB :: y -> In cNL x) ->
  sel_text (before ++ cLB :: b ++ cRB :: after) = Some (cLB :: b ++ [cRB]).
Proof.
  intros Hl Hn Ha. unfold sel_text. rewrite sel_pos_split by auto. cbn [option_map fst snd]. f_equal.
  rewrite skipn_app, skipn_all, Nat.sub_diag. cbn [skipn app].
  replace (length b + 2) with (length (cLB :: b ++ [cRB])) by (cbn [length]; rewrite app_length; cbn; lia).
  replace (cLB :: b ++ cRB :: after) with ((cLB :: b ++ [cRB]) ++ after) by (cbn [app]; rewrite <- app_assoc; reflexivity).
  rewrite firstn_app, Nat.sub_diag, firstn_all. cbn [firstn]. apply app_nil_r.
Qed.
Lemma firstn_sel b c : firstn (S (S (length b))) (cLB :: b ++ cRB :: c) = cLB :: b ++ [cRB].
Proof.
  replace (cLB :: b ++ cRB :: c) with ((cLB :: b ++ [cRB]) ++ c) by (cbn [app]; rewrite <- app_assoc; reflexivity).
  replace (S (S (length b))) with (length (cLB :: b ++ [cRB])) by (cbn [length]; rewrite app_length; cbn; lia).
  rewrite firstn_app, Nat.sub_diag, firstn_all. apply app_nil_r.
Qed.
(** Every match has this shape. *)
Lemma sel_text_shape s sel : sel_text s = Some sel -> exists before b after, s = before ++ sel ++ after
  /\ sel = cLB :: b ++ [cRB] /\ ~ In cNL b /\ (forall x y, after = x ++ cRB :: y -> In cNL x)
  /\ (forall x y, before = x ++ cLB :: y -> In cNL y).
Proof.
  unfold sel_text. revert sel. induction s as [|a s IH]; intros sel; cbn [sel_pos]; [discriminate|].
  destruct (ceq cLB a) eqn:Ea.
  - apply ceq_eq in Ea as <-. destruct (up_to_close s) as [n|] eqn:U.
    + intros H. cbn [option_map fst snd skipn] in H. apply up_to_close_spec in U as (b & c & -> & -> & Hb & Hc).
      rewrite firstn_sel in H. injection H as <-. exists [], b, c. split; [cbn [app]; rewrite <- app_assoc; reflexivity|]. split; auto.
      split; auto. split; auto. intros [|x xs] y H; discriminate.
    + intros H. destruct (sel_pos s) as [[o l]|]; [|discriminate]. cbn [option_map fst snd skipn] in H.
      destruct (IH sel H) as (before & b & after & Hs & Hsel & Hb & Ha & Hbe).
      exists (cLB :: before), b, after. split; [cbn [app]; rewrite <- Hs; reflexivity|]. split; auto. split; auto. split; auto.
      intros [|x xs] y Hy.
      * injection Hy as <-. rewrite up_to_close_none in U. subst s sel.
        specialize (U (before ++ cLB :: b) after). rewrite in_app_iff in U.
        destruct U as [U|[U|U]]; auto; try discriminate; try contradiction.
        cbn [app]. rewrite <- !app_assoc. cbn [app]. rewrite <- ?app_assoc. reflexivity.
      * injection Hy as <- Hy. eauto.
  - intros H. destruct (sel_pos s) as [[o l]|]; [|discriminate]. cbn [option_map fst snd skipn] in H.
    destruct (IH sel H) as (before & b & after & Hs & Hsel & Hb & Ha & Hbe).
    exists (a :: before), b, after. split; [cbn [app]; rewrite <- Hs; reflexivity|]. split; auto. split; auto. split; auto.
    intros [|x xs] y Hy; injection Hy as H1 H2; [subst a; rewrite ceq_refl in Ea; discriminate|eauto].
Qed.
Lemma sel_text_one_line s sel : one_line s -> (sel_text s = Some sel <-> selector_in s sel).
Proof.
  intros H1. split.
  - intros H. apply sel_text_shape in H as (before & b & after & -> & -> & Hb & Ha & Hbe).
    unfold one_line in H1. rewrite !in_app_iff in H1.
    exists before, b, after. split; auto. split; [reflexivity|]. split.
    + intros Hin. apply in_split in Hin as (x & y & ->). apply H1. left. rewrite in_app_iff. right. right. eapply Hbe. reflexivity.
    + intros Hin. apply in_split in Hin as (x & y & ->). apply H1. right. right. rewrite in_app_iff. left. eapply Ha. reflexivity.
  - intros (before & b & after & -> & -> & Hl & Hr). unfold one_line in H1.
    assert (forall t : str, $"[" ++ t = cLB :: t) as EL by reflexivity.
    assert (forall t : str, $"]" ++ t = cRB :: t) as ER by reflexivity.
    rewrite !EL. change $"]" with [cRB]. change ((cLB :: b ++ [cRB]) ++ after) with (cLB :: (b ++ [cRB]) ++ after).
    rewrite <- app_assoc. cbn [app]. apply sel_text_split; auto.
    + intros Hin. apply H1. rewrite !in_app_iff. right. left. right. left. exact Hin.
    + intros x y ->. exfalso. apply Hr. rewrite in_app_iff. right. left. reflexivity.
Qed.
Lemma sel_text_none s : sel_text s = None <-> no_selector s.
Proof. rewrite <- sel_pos_none. unfold sel_text. destruct (sel_pos s) as [x|]; cbn [option_map]; split; try discriminate; auto. Qed.

(** ** The specification's selector *)
Lemma to_last_close_spec s : to_last_close s = option_map (fun n => firstn n s) (up_to_close s).
Proof.
  induction s as [|c s IH]; cbn [to_last_close up_to_close]; auto.
  destruct (ascii_dec c cNL) as [->|N]; [reflexivity|].
  destruct (ceq c cNL) eqn:E; [apply ceq_eq in E; congruence|]. rewrite IH.
  destruct (up_to_close s) as [n|]; cbn [option_map]; auto.
  destruct (ascii_dec c cRB) as [->|R]; [reflexivity|]. destruct (ceq c cRB) eqn:E2; [apply ceq_eq in E2; congruence|]. reflexivity.
Qed.
Lemma selector_of_spec s : selector_of s = sel_text s.
Proof.
  unfold sel_text. induction s as [|c s IH]; cbn [selector_of sel_pos]; auto.
  rewrite to_last_close_spec, IH. rewrite (ceq_sym cLB c).
  destruct (ascii_dec c cLB) as [->|N].
  - rewrite ceq_refl. destruct (up_to_close s) as [n|]; cbn [option_map fst snd]; [reflexivity|].
    destruct (sel_pos s) as [[a b]|]; reflexivity.
  - destruct (ceq c cLB) eqn:E; [apply ceq_eq in E; congruence|]. destruct (sel_pos s) as [[a b]|]; reflexivity.
Qed.
Lemma search_selector s : search_text SELECTOR s = selector_of s.
Proof. rewrite selector_of_spec. apply search_text_sel. Qed.
Lemma found_selector s : found SELECTOR s = is_some (selector_of s).
Proof. rewrite found_sel, selector_of_spec. unfold sel_text. destruct (sel_pos s); reflexivity. Qed.
Lemma selector_of_one_line s sel : one_line s -> (selector_of s = Some sel <-> selector_in s sel).
Proof. rewrite selector_of_spec. apply sel_text_one_line. Qed.
Lemma selector_of_none s : selector_of s = None <-> no_selector s.
Proof. rewrite selector_of_spec. apply sel_text_none. Qed.
Lemma matched_selector s : matched SELECTOR s = true <-> exists b c, s = $"[" ++ b ++ $"]" ++ c /\ ~ In cNL b.
Proof.
  rewrite matched_sel. split.
  - destruct s as [|c s]; [discriminate|]. rewrite andb_true_iff. intros (H1 & H2). apply ceq_eq in H1 as <-.
    destruct (up_to_close s) as [n|] eqn:U; [|discriminate]. apply up_to_close_spec in U as (b & c & -> & _ & Hb & _).
    exists b, c. split; auto.
  - intros (b & c & -> & Hb). change ($"[" ++ b ++ $"]" ++ c) with (cLB :: b ++ cRB :: c). cbv beta iota. rewrite ceq_refl. cbn [andb].
    destruct (up_to_close (b ++ cRB :: c)) eqn:U; auto. exfalso. apply Hb.
    rewrite up_to_close_none in U. eapply U. reflexivity.
Qed.
