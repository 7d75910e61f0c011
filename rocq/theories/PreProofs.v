(** C118 to C120 (proofs only). *)
From Verif Require Export ConvertProofs10 PreSpec.
From Verif Require Import Lemmas PatchProofs PathProofs RenderProofs LayoutProofs RegexProofs Commands ConvertProofs ConvertProofs6 PreSpec.

(** * Matches *)
Fixpoint advn (n : nat) (st : mst) : mst := match n with 0 => st | S n => advn n (adv st) end.
Lemma advn_rest u : forall v st, rest st = u ++ v -> rest (advn (length u) st) = v.
Proof. induction u as [|c u IH]; intros v st R; cbn [length advn]; [exact R|]. apply IH. exact (proj2 (adv_pos st c (u ++ v) R)). Qed.
(** A greedy star takes the longest run from which the rest matches. *)
Lemma star_max {A} p s : forall st (k : mst -> option A) x, rest st = s -> star_k p s st k = Some x ->
  exists u st', rest st = u ++ rest st' /\ pos st' = pos st + length u /\ grps st' = grps st /\ Forall (fun c => p c = true) u /\ k st' = Some x
  /\ forall v w, rest st' = v ++ w -> v <> [] -> Forall (fun c => p c = true) v -> exists st2, rest st2 = w /\ k st2 = None.
Proof.
  induction s as [|c s IH]; intros st k x R H; cbn [star_k] in H.
  - exists [], st. cbn [length]. rewrite Nat.add_0_r. repeat (split; auto). intros v w E N. rewrite R in E. symmetry in E. apply app_eq_nil in E as [-> _]. contradiction.
  - destruct (p c) eqn:P.
    + destruct (adv_pos _ _ _ R) as [Hp Hr]. destruct (star_k p s (adv st) k) as [y|] eqn:K.
      * injection H as ->.
        destruct (IH _ _ _ Hr K) as (u & st' & Hu & Hl & Hg & Fu & Hk & Hm). exists (c :: u), st'.
        split; [rewrite R, <- Hr, Hu; reflexivity|]. split; [cbn [length]; lia|]. split; [rewrite Hg; apply adv_grps|].
        split; [constructor; assumption|]. split; [exact Hk|exact Hm].
      * exists [], st. cbn [length]. rewrite Nat.add_0_r. split; [reflexivity|]. split; [reflexivity|]. split; [reflexivity|]. split; [constructor|]. split; [exact H|].
        intros v w E N F. destruct v as [|d v]; [contradiction|]. rewrite R in E. cbn [app] in E. injection E as <- E.
        apply Forall_inv_tail in F as F'. rewrite E in K, Hr. exists (advn (length v) (adv st)). split; [exact (advn_rest v w (adv st) Hr)|].
        clear -K F' Hr. revert st w K Hr F'. induction v as [|e v IH]; intros st w K Hr F'; cbn [length advn].
        -- cbn [app] in *. destruct w as [|e w]; cbn [star_k] in K; [exact K|]. destruct (p e); [|exact K]. destruct (star_k p w (adv (adv st)) k); [discriminate|exact K].
        -- pose proof (Forall_inv F') as Pe. apply Forall_inv_tail in F' as F2. cbn [app star_k] in K. cbv beta in Pe. rewrite Pe in K. destruct (adv_pos (adv st) e (v ++ w) Hr) as [_ Hr'].
           apply (IH (adv st) w); [|exact Hr'|exact F2]. destruct (star_k p (v ++ w) (adv (adv st)) k); [discriminate|reflexivity].
    + exists [], st. cbn [length]. rewrite Nat.add_0_r. repeat (split; auto). intros v w E N F. destruct v as [|d v]; [contradiction|].
      rewrite R in E. injection E as <- _. inversion F; subst. congruence.
Qed.
(** Replacing every match. *)
Lemma sub_all r (f : rmatch -> str) (form : str -> Prop) (R : str -> str -> str -> Prop) (whole : str) : no_look r = true -> (forall u, form u -> lang r u) ->
  (forall done s prev x, whole = done ++ s -> match_at r prev (length done) s = Some x -> exists u v, s = u ++ v /\ u <> []
     /\ m_start x = length done /\ m_end x = length done + length u /\ form u /\ R u (f x) v) ->
  forall n s done prev, length s <= n -> whole = done ++ s -> replaced_in form R s (sub_aux r whole f prev (length done) 0 s).
Proof.
  intros NL HF HM. induction n as [|n IH]; intros s done prev Hl HW.
  - destruct s; [constructor|cbn [length] in Hl; lia].
  - destruct s as [|c s]; [constructor|]. destruct (match_at r prev (length done) (c :: s)) as [x|] eqn:M.
    + destruct (HM _ _ _ _ HW M) as (u & v & E & NE & S & EN & F & K). rewrite E in *.
      destruct (sub_hit r whole f prev (length done) u v x NE M S EN) as (prev' & ->).
      apply text_replaced; [exact F|exact K|]. rewrite <- app_length. apply IH; [|rewrite <- app_assoc; exact HW].
      rewrite app_length in Hl. destruct u; [contradiction|cbn [length] in Hl; lia].
    + cbn [sub_aux]. rewrite M. apply character_kept.
      * intros u v E F. destruct (lang_match_g r prev (length done) u v NL (HF u F)) as (x & X). rewrite <- E in X. congruence.
      * replace (S (length done)) with (length (done ++ [c])) by (rewrite app_length; cbn [length]; lia).
        apply IH; [cbn [length] in Hl; lia|rewrite <- app_assoc; exact HW].
Qed.
Lemma sub_all_of r (f : rmatch -> str) (form : str -> Prop) (R : str -> str -> str -> Prop) (s : str) : no_look r = true -> (forall u, form u -> lang r u) ->
  (forall done t prev x, s = done ++ t -> match_at r prev (length done) t = Some x -> exists u v, t = u ++ v /\ u <> []
     /\ m_start x = length done /\ m_end x = length done + length u /\ form u /\ R u (f x) v) ->
  replaced_in form R s (re_sub_f r f s).
Proof. intros NL HF HM. exact (sub_all r f form R s NL HF HM (length s) s [] None (le_n _) eq_refl). Qed.
Lemma slice_at done u t a b : a = length done -> b = length done + length u -> slice a b (done ++ u ++ t) = u.
Proof. intros -> ->. apply slice_mid. Qed.
Ltac stepm H u st := apply m_sound_pos in H as (u & st & ? & ? & ? & ? & H); [|first [reflexivity|assumption]].
Lemma find_2 {A} (f : A -> bool) a l : find f (a :: l) = if f a then Some a else find f l.
Proof. reflexivity. Qed.

(** * Empty parentheses *)
Lemma empty_call_lang u : empty_call u -> lang PRE_EMPTY_PARENTHESIS u.
Proof.
  intros (g & name & (G & N) & ->). unfold PRE_EMPTY_PARENTHESIS. cbn [seqs lang].
  exists ($"|" ++ g ++ name), $"()". split; [rewrite <- !app_assoc; reflexivity|]. split; [|apply lang_L; reflexivity].
  exists $"|", (g ++ name). split; [reflexivity|]. split; [apply lang_L; reflexivity|]. exists g, name. split; [reflexivity|]. split; [exact G|].
  cbn [In] in N. destruct N as [<-|[<-|[]]]; [left|right]; apply lang_L; reflexivity.
Qed.
Lemma c118 s : replaced_in empty_call without_parentheses s (pre_parentheses s).
Proof.
  apply sub_all_of; [reflexivity|exact empty_call_lang|]. intros done t prev x HS M. unfold match_at, PRE_EMPTY_PARENTHESIS in M.
  cbn [seqs m] in M. stepm M u1 st1. stepm M u2 st2.
  change (m (Alt (L "lower") (L "upper")) st2 (fun st' => (fun st'' => m (L "()") st'' (fun st3 => Some {| m_start := length done; m_end := pos st3;
     m_grps := (3, (pos st'', pos st3)) :: grps st3 |})) {| prevc := prevc st'; pos := pos st'; rest := rest st';
       grps := (1, (pos (start_st prev (length done) t), pos st')) :: (2, (pos st2, pos st')) :: grps st' |}) = Some x) in M.
  stepm M u3 st3. cbv beta in M. stepm M u4 st4. injection M as <-. cbn [m_start m_end pos rest grps start_st] in *.
  apply lang_L in H2, H14. cbn [lang] in H6, H10. subst u1 u4. rewrite H, H3, H7 in HS |- *. cbn [rest] in H11. rewrite H11 in *. clear H11.
  exists (lit "|" ++ u2 ++ u3 ++ lit "()"), (rest st4). split; [rewrite <- !app_assoc; reflexivity|]. split; [discriminate|]. split; [reflexivity|].
  split; [rewrite !app_length; lia|]. assert (In u3 [$"lower"; $"upper"]) as I.
  { cbn [In]. destruct H10 as [L|L]; apply lang_L in L as ->; auto. }
  split; [exists u2, u3; split; [split; assumption|reflexivity]|]. unfold without_parentheses, grp, group. cbn [m_grps].
  rewrite H13. cbn [find fst snd Nat.eqb]. rewrite (app_assoc (lit "|") u2), (app_assoc _ u3). f_equal. symmetry.
  rewrite HS. rewrite <- !app_assoc. rewrite (app_assoc (lit "|") u2), (app_assoc _ u3). apply slice_at; [reflexivity|].
  rewrite !app_length. lia.
Qed.

(** * Functions after a dot *)
Definition after_dots (start : nat) (B : re) (st' : mst) : option rmatch :=
  m (L ".") {| prevc := prevc st'; pos := pos st'; rest := rest st'; grps := (1, (start, pos st')) :: grps st' |}
    (fun st'' => m B st'' (fun st3 => Some {| m_start := start; m_end := pos st3; m_grps := (2, (pos st'', pos st3)) :: grps st3 |})).
Lemma dot_tail B start st x : no_groups B = true -> grps st = [] -> m DOTS st (after_dots start B) = Some x ->
  exists y b v, rest st = y ++ $"." ++ b ++ v /\ on_a_line y /\ lang B b
  /\ x = {| m_start := start; m_end := pos st + length y + 1 + length b;
            m_grps := [(2, (pos st + length y + 1, pos st + length y + 1 + length b)); (1, (start, pos st + length y))] |}
  /\ forall p q r, b ++ v = p ++ $"." ++ q ++ r -> on_a_line p -> ~ lang B q.
Proof.
  intros NB G H. unfold DOTS in H. cbn [m] in H. apply star_max in H as (y & st1 & R1 & P1 & G1 & F1 & H & HM); [|reflexivity].
  unfold after_dots in H. stepm H u2 st2. stepm H u3 st3. injection H as <-. cbn [rest pos grps] in *. apply lang_L in H3 as ->.
  exists y, u3, (rest st3). rewrite H0 in R1. rewrite H4 in R1. split; [exact R1|]. split; [apply any_on_line; exact F1|]. split; [assumption|].
  split.
  - f_equal; [rewrite H5, H1, P1; change (length (lit ".")) with 1; lia|]. rewrite H6, H2, H5, H1, P1, G1, G. change (length (lit ".")) with 1.
    repeat f_equal; lia.
  - intros p q r E N LQ. destruct (HM (lit "." ++ p) (lit "." ++ q ++ r)) as (s2 & RS & K); [|discriminate| |].
    + rewrite H0, H4, E. reflexivity.
    + apply Forall_app. split; [repeat constructor|apply on_line_any; exact N].
    + revert K. unfold after_dots. apply (m_complete_g (L "."%string) eq_refl (lit "."%string) (q ++ r)); [apply lang_L; reflexivity|exact RS|].
      intros s3 R3. apply (m_complete B NB q r s3 _ LQ R3). intros; discriminate.
Qed.
Lemma dots_of r B (start tail : str -> Prop) (s : str) : no_look r = true -> no_groups B = true -> (forall q, tail q <-> lang B q) ->
  (forall x, start x -> x <> []) ->
  (forall u, call_after_dot start tail u -> lang r u) ->
  (forall prev p t x, match_at r prev p t = Some x -> exists a st, t = a ++ rest st /\ pos st = p + length a /\ grps st = []
     /\ (forall y, on_a_line y -> start (a ++ y)) /\ m DOTS st (after_dots p B) = Some x) ->
  replaced_in (call_after_dot start tail) (dot_to_bar start tail) s (re_sub_f r (pipe_groups s) s).
Proof.
  intros NL NB HB HN HF HM. apply sub_all_of; [exact NL|exact HF|]. intros done t prev x HS M.
  destruct (HM _ _ _ _ M) as (a & st & -> & HP & HG & HA & D). destruct (dot_tail _ _ _ _ NB HG D) as (y & b & v & E & N & L & -> & HL).
  rewrite E in *. exists ((a ++ y) ++ $"." ++ b), v. split; [rewrite <- !app_assoc; reflexivity|].
  split; [intros X; apply app_eq_nil in X as [X _]; exact (HN _ (HA y N) X)|].
  cbn [m_start m_end]. split; [reflexivity|]. split; [rewrite !app_length, HP; change (length $".") with 1; lia|].
  split; [exists (a ++ y), b; split; [reflexivity|]; split; [exact (HA y N)|apply HB; exact L]|].
  exists (a ++ y), b. split; [reflexivity|]. split; [|split; [exact (HA y N)|split; [apply HB; exact L|intros p q r0 X Y Z; apply (HL p q r0 X Y), HB; exact Z]]].
  unfold pipe_groups, grp, group. cbn [m_grps find fst snd Nat.eqb]. rewrite HS. f_equal; [|f_equal].
  - rewrite (app_assoc a y). apply slice_at; [reflexivity|rewrite HP, app_length; lia].
  - replace (done ++ a ++ y ++ lit "." ++ b ++ v) with ((done ++ a ++ y ++ lit ".") ++ b ++ v) by (rewrite <- !app_assoc; reflexivity).
    apply slice_at; rewrite !app_length, HP; change (length $".") with 1; lia.
Qed.
Definition SET_END : re := seqs [DOTS; L "("; DOTS; L ")"; WS; L "%}"].
Definition SUB_END : re := seqs [StarC is_word; L "("; DOTS; L ")"; WS; L "}}"].
Lemma set_end_lang q : set_end q <-> lang SET_END q.
Proof.
  unfold SET_END. cbn [seqs lang]. split.
  - intros (z & t & b & -> & Z & T & B). exists z, ($"(" ++ t ++ $")" ++ b ++ $"%}"). split; [reflexivity|]. split; [apply on_line_any; exact Z|].
    exists $"(", (t ++ $")" ++ b ++ $"%}"). split; [reflexivity|]. split; [apply lang_L; reflexivity|].
    exists t, ($")" ++ b ++ $"%}"). split; [reflexivity|]. split; [apply on_line_any; exact T|].
    exists $")", (b ++ $"%}"). split; [reflexivity|]. split; [apply lang_L; reflexivity|]. exists b, $"%}". split; [reflexivity|]. split; [exact B|apply lang_L; reflexivity].
  - intros (z & q1 & -> & Z & o & q2 & -> & O & t & q3 & -> & T & c & q4 & -> & C & b & e & -> & B & K).
    apply lang_L in O as ->. apply lang_L in C as ->. apply lang_L in K as ->. exists z, t, b. split; [reflexivity|].
    split; [apply any_on_line; exact Z|]. split; [apply any_on_line; exact T|exact B].
Qed.
Lemma sub_end_lang q : sub_end q <-> lang SUB_END q.
Proof.
  unfold SUB_END. cbn [seqs lang]. split.
  - intros (z & t & b & -> & Z & T & B). exists z, ($"(" ++ t ++ $")" ++ b ++ $"}}"). split; [reflexivity|]. split; [exact Z|].
    exists $"(", (t ++ $")" ++ b ++ $"}}"). split; [reflexivity|]. split; [apply lang_L; reflexivity|].
    exists t, ($")" ++ b ++ $"}}"). split; [reflexivity|]. split; [apply on_line_any; exact T|].
    exists $")", (b ++ $"}}"). split; [reflexivity|]. split; [apply lang_L; reflexivity|]. exists b, $"}}". split; [reflexivity|]. split; [exact B|apply lang_L; reflexivity].
  - intros (z & q1 & -> & Z & o & q2 & -> & O & t & q3 & -> & T & c & q4 & -> & C & b & e & -> & B & K).
    apply lang_L in O as ->. apply lang_L in C as ->. apply lang_L in K as ->. exists z, t, b. split; [reflexivity|].
    split; [exact Z|]. split; [apply any_on_line; exact T|exact B].
Qed.
Lemma c119_set s : replaced_in (call_after_dot set_start set_end) (dot_to_bar set_start set_end) s (re_sub_f PRE_DOT_ASSIGNMENT (pipe_groups s) s).
Proof.
  apply (dots_of _ SET_END); [reflexivity|reflexivity|exact set_end_lang|intros x (a & b & c & -> & _); discriminate| |].
  - intros u (x & y & -> & (a & b & c & -> & A & B & C) & Y). apply set_end_lang in Y. unfold PRE_DOT_ASSIGNMENT. cbn [seqs lang].
    exists ($"{%" ++ a ++ $"set" ++ b ++ $"=" ++ c), ($"." ++ y). split; [rewrite <- !app_assoc; reflexivity|]. split.
    + exists $"{%", (a ++ $"set" ++ b ++ $"=" ++ c). split; [reflexivity|]. split; [apply lang_L; reflexivity|].
      exists a, ($"set" ++ b ++ $"=" ++ c). split; [reflexivity|]. split; [exact A|].
      exists $"set", (b ++ $"=" ++ c). split; [reflexivity|]. split; [apply lang_L; reflexivity|].
      exists b, ($"=" ++ c). split; [reflexivity|]. split; [apply on_line_any; exact B|].
      exists $"=", c. split; [reflexivity|]. split; [apply lang_L; reflexivity|apply on_line_any; exact C].
    + exists $".", y. split; [reflexivity|]. split; [apply lang_L; reflexivity|exact Y].
  - intros prev p t x M. unfold match_at, PRE_DOT_ASSIGNMENT in M. cbn [seqs m] in M.
    stepm M u1 s1. stepm M u2 s2. stepm M u3 s3. stepm M u4 s4. stepm M u5 s5. cbn [start_st rest pos grps] in *.
    apply lang_L in H2 as ->. apply lang_L in H10 as ->. apply lang_L in H18 as ->.
    exists (lit "{%" ++ u2 ++ lit "set" ++ u4 ++ lit "="), s5. split; [rewrite H, H3, H7, H11, H15, <- !app_assoc; reflexivity|].
    split; [rewrite !app_length; lia|]. split; [congruence|]. split; [|exact M].
    intros y N. exists u2, u4, y. split; [rewrite <- !app_assoc; reflexivity|]. split; [assumption|]. split; [apply any_on_line; assumption|exact N].
Qed.
Lemma c119_sub s : replaced_in (call_after_dot sub_start sub_end) (dot_to_bar sub_start sub_end) s (re_sub_f PRE_DOT_SUBSTITUTION (pipe_groups s) s).
Proof.
  apply (dots_of _ SUB_END); [reflexivity|reflexivity|exact sub_end_lang|intros x (a & b & -> & _); discriminate| |].
  - intros u (x & y & -> & (a & c & -> & A & C) & Y). apply sub_end_lang in Y. unfold PRE_DOT_SUBSTITUTION. cbn [seqs lang].
    exists ($"{{" ++ a ++ c), ($"." ++ y). split; [rewrite <- !app_assoc; reflexivity|]. split.
    + exists $"{{", (a ++ c). split; [reflexivity|]. split; [apply lang_L; reflexivity|].
      exists a, c. split; [reflexivity|]. split; [exact A|]. exists [], c. split; [reflexivity|]. split; [constructor|apply on_line_any; exact C].
    + exists $".", y. split; [reflexivity|]. split; [apply lang_L; reflexivity|exact Y].
  - intros prev p t x M. unfold match_at, PRE_DOT_SUBSTITUTION in M. cbn [seqs m] in M.
    stepm M u1 s1. stepm M u2 s2. apply (m_sound_pos (StarC is_word) eq_refl s2) in M as (u3 & s3 & ? & ? & ? & ? & M). cbn [start_st rest pos grps] in *. apply lang_L in H2 as ->.
    exists (lit "{{" ++ u2 ++ u3), s3. split; [rewrite H, H3, H7, <- !app_assoc; reflexivity|].
    split; [rewrite !app_length; lia|]. split; [congruence|]. split; [|exact M].
    intros y N. exists u2, (u3 ++ y). split; [rewrite <- !app_assoc; reflexivity|]. split; [assumption|].
    intros I. apply in_app_or in I as [I|I]; [exact (words_line u3 H10 I)|exact (N I)].
Qed.
Lemma c119 s : exists m, replaced_in (call_after_dot set_start set_end) (dot_to_bar set_start set_end) s m
  /\ replaced_in (call_after_dot sub_start sub_end) (dot_to_bar sub_start sub_end) m (pre_dots s).
Proof. eexists. split; [apply c119_set|]. unfold pre_dots. cbv zeta. apply c119_sub. Qed.

(** * Quoted texts over two lines *)
Definition REST4 : re := Chr is_quote.
Definition REST3 : re := seqs [L "\n"; Grp 4 DOTS; Chr is_quote].
Definition REST2 : re := seqs [L ":"; WS; Chr is_quote; Grp 3 DOTS; L "\n"; Grp 4 DOTS; Chr is_quote].
Definition REST1 : re := seqs [Grp 2 DOTS; L ":"; WS; Chr is_quote; Grp 3 DOTS; L "\n"; Grp 4 DOTS; Chr is_quote].
Lemma rest3_lang y q : on_a_line y -> quote q -> lang REST3 ($"\n" ++ y ++ [q]).
Proof.
  intros Y Q. unfold REST3. cbn [seqs lang]. exists $"\n", (y ++ [q]). split; [reflexivity|]. split; [apply lang_L; reflexivity|].
  exists y, [q]. split; [reflexivity|]. split; [apply on_line_any; exact Y|]. exists q. auto.
Qed.
Lemma rest2_lang b q x y q' : gap b -> quote q -> on_a_line x -> on_a_line y -> quote q' ->
  lang REST2 ($":" ++ b ++ [q] ++ x ++ $"\n" ++ y ++ [q']).
Proof.
  intros B Q X Y Q'. unfold REST2. cbn [seqs lang]. exists $":", (b ++ [q] ++ x ++ $"\n" ++ y ++ [q']). split; [reflexivity|]. split; [apply lang_L; reflexivity|].
  exists b, ([q] ++ x ++ $"\n" ++ y ++ [q']). split; [reflexivity|]. split; [exact B|].
  exists [q], (x ++ $"\n" ++ y ++ [q']). split; [reflexivity|]. split; [exists q; auto|].
  exists x, ($"\n" ++ y ++ [q']). split; [reflexivity|]. split; [apply on_line_any; exact X|exact (rest3_lang y q' Y Q')].
Qed.
Lemma rest1_lang k b q x y q' : on_a_line k -> gap b -> quote q -> on_a_line x -> on_a_line y -> quote q' ->
  lang REST1 (k ++ $":" ++ b ++ [q] ++ x ++ $"\n" ++ y ++ [q']).
Proof.
  intros K B Q X Y Q'. unfold REST1. cbn [seqs lang]. exists k, ($":" ++ b ++ [q] ++ x ++ $"\n" ++ y ++ [q']). split; [reflexivity|].
  split; [apply on_line_any; exact K|exact (rest2_lang b q x y q' B Q X Y Q')].
Qed.
Lemma quoted_lang u : quoted_lines u -> lang PRE_QUOTED_MULTILINE u.
Proof.
  intros (i & k & b & q & x & y & q' & -> & I & K & B & Q & X & Y & Q').
  unfold PRE_QUOTED_MULTILINE. cbn [seqs lang]. exists i, (k ++ $":" ++ b ++ [q] ++ x ++ $"\n" ++ y ++ [q']). split; [reflexivity|].
  split; [exact I|exact (rest1_lang k b q x y q' K B Q X Y Q')].
Qed.
Lemma quote_any q : quote q -> any_c q = true.
Proof. unfold quote, is_quote, any_c. intros H. apply orb_prop in H as [H|H]; apply ceq_eq in H as ->; reflexivity. Qed.
Lemma slice_pos whole pre u post a b : whole = pre ++ u ++ post -> a = length pre -> b = a + length u -> slice a b whole = u.
Proof. intros -> -> ->. apply slice_mid. Qed.
Ltac starm H u st HM := apply star_max in H as (u & st & ? & ? & ? & ? & H & HM); [|reflexivity].
Lemma c120 s : replaced_in quoted_lines as_block s (pre_multiline s).
Proof.
  unfold pre_multiline. apply sub_all_of; [reflexivity|exact quoted_lang|]. intros done t prev xm HS M. unfold match_at in M.
  set (F := fun st : mst => Some {| m_start := length done; m_end := pos st; m_grps := grps st |}) in M.
  assert (forall r u v st, no_look r = true -> lang r u -> rest st = u ++ v -> m r st F <> None) as TOT.
  { intros r u v st NL LU R. apply (m_complete_g r NL u v st F LU R). intros; discriminate. }
  change (m (Grp 1 WS) (start_st prev (length done) t) (fun st' => m REST1 st' F) = Some xm) in M.
  unfold WS in M. cbn [m] in M. apply star_max in M as (i & a1 & Ri & Pi & Gi & Fi & M & Mi); [|reflexivity].
  match type of M with m REST1 ?a F = _ => set (b1 := a) in M end.
  assert (rest b1 = rest a1) as Rb1 by reflexivity. assert (pos b1 = pos a1) as Pb1 by reflexivity.
  assert (grps b1 = (1, (length done, pos a1)) :: grps a1) as Gb1 by reflexivity. clearbody b1.
  change (m (Grp 2 DOTS) b1 (fun st' => m REST2 st' F) = Some xm) in M.
  unfold DOTS in M. cbn [m] in M. apply star_max in M as (k & a2 & Rk & Pk & Gk & Fk & M & Mk); [|reflexivity].
  match type of M with m REST2 ?a F = _ => set (b2 := a) in M end.
  assert (rest b2 = rest a2) as Rb2 by reflexivity. assert (pos b2 = pos a2) as Pb2 by reflexivity.
  assert (grps b2 = (2, (pos b1, pos a2)) :: grps a2) as Gb2 by reflexivity. clearbody b2.
  change (m (L ":") b2 (fun c => m WS c (fun d => m (Chr is_quote) d (fun e => m (Grp 3 DOTS) e (fun f => m REST3 f F)))) = Some xm) in M.
  apply m_sound_pos in M as (u1 & c2 & Rc & Pc & Gc & Lc & M); [|reflexivity]. apply lang_L in Lc as ->.
  apply m_sound_pos in M as (b & d2 & Rd & Pd & Gd & Ld & M); [|reflexivity]. cbn [lang WS] in Ld.
  apply m_sound_pos in M as (qs & e2 & Re & Pe & Ge & Le & M); [|reflexivity]. destruct Le as (q & -> & Q).
  unfold DOTS in M. cbn [m] in M. apply star_max in M as (x & a3 & Rx & Px & Gx & Fx & M & Mx); [|reflexivity].
  match type of M with m REST3 ?a F = _ => set (b3 := a) in M end.
  assert (rest b3 = rest a3) as Rb3 by reflexivity. assert (pos b3 = pos a3) as Pb3 by reflexivity.
  assert (grps b3 = (3, (pos e2, pos a3)) :: grps a3) as Gb3 by reflexivity. clearbody b3.
  change (m (L "\n") b3 (fun c => m (Grp 4 DOTS) c (fun d => m REST4 d F)) = Some xm) in M.
  apply m_sound_pos in M as (u4 & c3 & Rn & Pn & Gn & Ln & M); [|reflexivity]. apply lang_L in Ln as ->.
  unfold DOTS in M. cbn [m] in M. apply star_max in M as (y & a4 & Ry & Py & Gy & Fy & M & My); [|reflexivity].
  match type of M with m REST4 ?a F = _ => set (b4 := a) in M end.
  assert (rest b4 = rest a4) as Rb4 by reflexivity. assert (pos b4 = pos a4) as Pb4 by reflexivity.
  assert (grps b4 = (4, (pos c3, pos a4)) :: grps a4) as Gb4 by reflexivity. clearbody b4.
  apply m_sound_pos in M as (qs & e4 & Rz & Pz & Gz & Lz & M); [|reflexivity]. destruct Lz as (q' & -> & Q').
  injection M as <-. cbn [start_st rest pos grps] in *.
  set (v := rest e4) in *.
  assert (rest a4 = [q'] ++ v) as E4 by (rewrite <- Rb4; exact Rz).
  assert (rest a3 = lit "\n" ++ y ++ [q'] ++ v) as E3 by (rewrite <- Rb3, Rn, Ry, E4; reflexivity).
  assert (rest a2 = lit ":" ++ b ++ [q] ++ x ++ lit "\n" ++ y ++ [q'] ++ v) as E2 by (rewrite <- Rb2, Rc, Rd, Re, Rx, E3; reflexivity).
  assert (rest a1 = k ++ lit ":" ++ b ++ [q] ++ x ++ lit "\n" ++ y ++ [q'] ++ v) as E1 by (rewrite <- Rb1, Rk, E2; reflexivity).
  assert (t = i ++ k ++ lit ":" ++ b ++ [q] ++ x ++ lit "\n" ++ y ++ [q'] ++ v) as E0 by (rewrite Ri, E1; reflexivity).
  assert (on_a_line k) as Ok_ by (apply any_on_line; exact Fk). assert (on_a_line x) as Ox by (apply any_on_line; exact Fx).
  assert (on_a_line y) as Oy by (apply any_on_line; exact Fy).
  exists (i ++ k ++ lit ":" ++ b ++ [q] ++ x ++ lit "\n" ++ y ++ [q']), v.
  split; [rewrite E0, <- !app_assoc; reflexivity|]. split; [intros X; apply app_eq_nil in X as [_ X]; apply app_eq_nil in X as [_ X]; discriminate|].
  cbn [m_start m_end]. split; [reflexivity|].
  change (length (lit ":")) with 1 in *. change (length (lit "\n")) with 2 in *. cbn [length] in *.
  split; [rewrite !app_length; change (length (lit ":")) with 1; change (length (lit "\n")) with 2; cbn [length]; lia|].
  split; [exists i, k, b, q, x, y, q'; repeat (split; [first [reflexivity|assumption]|]); assumption|].
  exists i, k, b, q, x, y, q'. split; [reflexivity|]. split.
  { unfold grp, group. cbn [m_grps]. rewrite Gz, Gb4, Gy, Gn, Gb3, Gx, Ge, Gd, Gc, Gb2, Gk, Gb1, Gi. cbn [find fst snd Nat.eqb].
    rewrite E0 in HS.
    rewrite (slice_pos s done i (k ++ lit ":" ++ b ++ [q] ++ x ++ lit "\n" ++ y ++ [q'] ++ v) (length done) (pos a1)); [|exact HS|reflexivity|exact Pi].
    rewrite (slice_pos s (done ++ i) k (lit ":" ++ b ++ [q] ++ x ++ lit "\n" ++ y ++ [q'] ++ v) (pos b1) (pos a2));
      [|rewrite HS, <- !app_assoc; reflexivity|rewrite app_length; lia|lia].
    rewrite (slice_pos s (done ++ i ++ k ++ lit ":" ++ b ++ [q]) x (lit "\n" ++ y ++ [q'] ++ v) (pos e2) (pos a3));
      [|rewrite HS, <- !app_assoc; reflexivity|rewrite !app_length; change (length (lit ":")) with 1; cbn [length]; lia|lia].
    rewrite (slice_pos s (done ++ i ++ k ++ lit ":" ++ b ++ [q] ++ x ++ lit "\n") y ([q'] ++ v) (pos c3) (pos a4));
      [|rewrite HS, <- !app_assoc; reflexivity|rewrite !app_length; change (length (lit ":")) with 1; change (length (lit "\n")) with 2; cbn [length]; lia|lia].
    reflexivity. }
  repeat (split; [assumption|]). split; [|split; [|split]].
  - intros c k' EK. destruct (is_space c) eqn:SP; [|reflexivity]. exfalso.
    destruct (Mi [c] (k' ++ lit ":" ++ b ++ [q] ++ x ++ lit "\n" ++ y ++ [q'] ++ v)) as (st2 & R2 & K); [rewrite E1, EK; reflexivity|discriminate|repeat constructor; exact SP|].
    revert K. eapply (TOT REST1 (k' ++ lit ":" ++ b ++ [q] ++ x ++ lit "\n" ++ y ++ [q']) v); [reflexivity| |cbn [rest]; rewrite R2, <- !app_assoc; reflexivity].
    apply rest1_lang; auto. intros I. apply Ok_. rewrite EK. right. exact I.
  - intros OB p g c r EX G QC.
    destruct (Mk (lit ":" ++ b ++ [q] ++ p) (lit ":" ++ g ++ [c] ++ r ++ lit "\n" ++ y ++ [q'] ++ v)) as (st2 & R2 & K).
    { rewrite E2, EX, <- !app_assoc. reflexivity. }
    { discriminate. }
    { rewrite !Forall_app. split; [repeat constructor|]. split; [apply on_line_any; exact OB|]. split; [constructor; [apply quote_any; exact Q|constructor]|].
      apply on_line_any. intros I. apply Ox. rewrite EX. apply in_or_app. left. exact I. }
    revert K. eapply (TOT REST2 (lit ":" ++ g ++ [c] ++ r ++ lit "\n" ++ y ++ [q']) v); [reflexivity| |cbn [rest]; rewrite R2, <- !app_assoc; reflexivity].
    apply rest2_lang; auto. intros I. apply Ox. rewrite EX. do 4 (apply in_or_app; right). exact I.
  - intros (a & d & EY). destruct (Mx (lit "\n" ++ a) (lit "\n" ++ d ++ [q'] ++ v)) as (st2 & R2 & K).
    { rewrite E3, EY, <- !app_assoc. reflexivity. }
    { discriminate. }
    { apply Forall_app. split; [repeat constructor|]. apply on_line_any. intros I. apply Oy. rewrite EY. apply in_or_app. left. exact I. }
    revert K. eapply (TOT REST3 (lit "\n" ++ d ++ [q']) v); [reflexivity| |cbn [rest]; rewrite R2, <- !app_assoc; reflexivity].
    apply rest3_lang; auto. intros I. apply Oy. rewrite EY. do 2 (apply in_or_app; right). exact I.
  - intros p c r EV OP QC. destruct (My (q' :: p) (c :: r)) as (st2 & R2 & K).
    { rewrite E4, EV. reflexivity. }
    { discriminate. }
    { constructor; [apply quote_any; exact Q'|apply on_line_any; exact OP]. }
    revert K. eapply (TOT REST4 [c] r); [reflexivity|exists c; auto|cbn [rest]; rewrite R2; reflexivity].
Qed.

(** There is only one result for the parentheses. *)
Lemma same_call u v s t : empty_call u -> empty_call v -> u ++ s = v ++ t -> u = v /\ s = t.
Proof.
  intros (g & n & (Hg & Hn) & ->) (g' & n' & (Hg' & Hn') & ->) E0. rewrite <- !app_assoc in E0. apply app_inv_head in E0.
  revert g' Hg' E0. induction g as [|c g IH]; intros [|d g'] Hg' E0.
  - destruct Hn as [<-|[<-|[]]], Hn' as [<-|[<-|[]]]; cbn [app] in E0; try discriminate E0; apply app_inv_head, app_inv_head in E0; subst; split; reflexivity.
  - exfalso. inversion Hg'; subst. destruct Hn as [<-|[<-|[]]]; injection E0 as Ed _; subst d; discriminate.
  - exfalso. inversion Hg; subst. destruct Hn' as [<-|[<-|[]]]; injection E0 as Ed _; subst c; discriminate.
  - inversion Hg; inversion Hg'; subst. injection E0 as -> E0. apply IH in E0 as [E1 ->]; auto. split; [|reflexivity].
    injection E1 as E1. cbn [app]. do 2 f_equal. exact E1.
Qed.
Lemma c118_unique s a b : replaced_in empty_call without_parentheses s a -> replaced_in empty_call without_parentheses s b -> a = b.
Proof.
  intros H. revert b. induction H as [|c s s' HN H IH|u w s s' HF HR H IH]; intros b Hb.
  - inversion Hb as [| |u w s s' HF HR H EU EV]; subst; [reflexivity|]. apply app_eq_nil in EU as [-> _]. destruct HF as (? & ? & _ & E0). discriminate E0.
  - remember (c :: s) as x eqn:EX. destruct Hb as [|c2 t t' HN2 H2|u w t t' HF HR H2]; [discriminate| |].
    + injection EX as -> ->. f_equal. apply IH. exact H2.
    + exfalso. apply (HN u t); [reflexivity|exact HF].
  - remember (u ++ s) as x eqn:EX. destruct Hb as [|c2 t t' HN2 H2|u2 w2 t t' HF2 HR2 H2].
    + symmetry in EX. apply app_eq_nil in EX as [-> _]. destruct HF as (? & ? & _ & E0). discriminate E0.
    + exfalso. apply (HN2 u s); [exact EX|exact HF].
    + symmetry in EX. destruct (same_call u u2 s t HF HF2 EX) as [-> ->]. rewrite (IH _ H2). f_equal.
      unfold without_parentheses in *. rewrite HR in HR2. apply app_inv_tail in HR2. exact HR2.
Qed.
