(** C124: the value of one expression (proofs only). *)
From Verif Require Export ConvertProofs10 JinjaProofs HashProofs.
From Verif Require Import Lemmas DepsProofs LayoutProofs7 SelectorProofs2 RenderProofs RegexProofs PreProofs2 SubstSpec.

(** The text for the expression, as the program computes it. *)
Definition jval (E : env) (vars : vtbl) (key : str) : option str :=
  let k := set_key_and_matches key in
  match jk_add k with
  | Some (a, b) => Some (add_text E (eval_jinja_token E vars a) (eval_jinja_token E vars b))
  | None =>
      match dget (jk_key k) vars with
      | Some v =>
          let value := json_str v in
          let value := if jk_lower k then lower value else value in
          let value := if jk_upper k then upper value else value in
          Some (match jk_idx k with
                | Some i => match nth_error value i with Some c => [c] | None => value end
                | None => value
                end)
      | None => None
      end
  end.
Definition jkey_of (sv : schema) (x : str) : str := strip (drop_last 2 (skipn (jinja_start sv) x)).
Lemma one_is E sv vars s x : render_jinja_one E sv vars s x =
  match jval E vars (jkey_of sv x) with
  | Some v => replace_all x v s
  | None => match sv with SV0 => if str_eqb (firstn 2 s) $"{{" then "$"%char :: s else s | SV1 => s end
  end.
Proof.
  unfold render_jinja_one, jval, jkey_of. cbv zeta. destruct (jk_add _) as [[a b]|]; [reflexivity|]. destruct (dget _ vars); reflexivity.
Qed.
Lemma key_found sv x key : holds_key sv x key -> jkey_of sv x = key.
Proof.
  intros (w & u & -> & Bw & Bu & H1 & H2). unfold jkey_of.
  assert (drop_last 2 (skipn (jinja_start sv) (opening sv ++ w ++ key ++ u ++ $"}}")) = w ++ key ++ u) as ->.
  { assert (skipn (jinja_start sv) (opening sv ++ w ++ key ++ u ++ $"}}") = (w ++ key ++ u) ++ $"}}") as ->
      by (destruct sv; cbn [jinja_start opening]; rewrite <- !app_assoc; reflexivity).
    unfold drop_last. rewrite app_length. change (length $"}}") with 2. rewrite Nat.add_sub, firstn_app, Nat.sub_diag, firstn_all.
    cbn [firstn]. apply app_nil_r. }
  apply trims_strip. exists w, u. split; [reflexivity|]. split; [exact Bw|]. split; [exact Bu|]. split; assumption.
Qed.

(** * Searching *)
Lemma search_first r a : forall t prev p, quiet_in r a t -> exists prev', search_from r prev p (a ++ t) = search_from r prev' (p + length a) t.
Proof.
  induction a as [|c a IH]; intros t prev p Q.
  - exists prev. cbn [app length]. rewrite Nat.add_0_r. reflexivity.
  - cbn [app]. assert (match_at r prev p (c :: a ++ t) = None) as N by (apply (Q [] (c :: a) eq_refl); discriminate).
    destruct (IH t (Some c) (S p)) as (prev' & H).
    { intros x b E NE. apply (Q (c :: x) b); [rewrite E; reflexivity|exact NE]. }
    exists prev'. cbn [search_from]. rewrite N, H. cbn [length]. f_equal. lia.
Qed.
Lemma no_search r s : no_look r = true -> (forall u, lang r u -> ~ has_text u s) -> re_search r s = None.
Proof.
  intros NL H. pose proof (proj1 (found_g r s NL)) as F. destruct (re_search r s); [|reflexivity].
  destruct (F eq_refl) as (u & HL & HT). destruct (H u HL HT).
Qed.
Lemma match_only r u t prev p : no_look r = true -> lang r u -> (forall u' t', lang r u' -> u ++ t = u' ++ t' -> u' = u) ->
  exists x, match_at r prev p (u ++ t) = Some x /\ m_start x = p /\ m_end x = p + length u.
Proof.
  intros NL HL U. destruct (lang_match_g r prev p u t NL HL) as (x & Hx). exists x. split; [exact Hx|].
  unfold match_at in Hx. apply m_sound_len in Hx as (u' & st & R & P & LU & K). injection K as <-. cbn [start_st rest pos m_start m_end] in *.
  split; [reflexivity|]. rewrite (U u' (rest st) LU R) in P. exact P.
Qed.

(** * Characters *)
Ltac every_char c := destruct c as [[] [] [] [] [] [] [] []].
Lemma word_facts c : is_word c = true -> is_space c = false /\ c <> "|"%char /\ c <> "["%char /\ c <> "+"%char /\ is_quote c = false /\ word_dot c = true.
Proof. every_char c; vm_compute; intros H; try discriminate H; repeat split; discriminate. Qed.
Lemma space_facts c : is_space c = true -> c <> "|"%char /\ c <> "["%char /\ c <> "+"%char /\ is_quote c = false /\ word_dot c = false /\ is_word c = false.
Proof. every_char c; vm_compute; intros H; try discriminate H; repeat split; discriminate. Qed.
Lemma dot_facts c : word_dot c = true -> is_space c = false /\ c <> "|"%char /\ c <> "["%char /\ is_quote c = false.
Proof. every_char c; vm_compute; intros H; try discriminate H; repeat split; discriminate. Qed.
Lemma quote_facts c : is_quote c = true -> is_space c = false /\ c <> "|"%char /\ c <> "["%char /\ word_dot c = false /\ is_digit c = false.
Proof. every_char c; vm_compute; intros H; try discriminate H; repeat split; discriminate. Qed.
Lemma digit_facts c : is_digit c = true -> c <> "|"%char /\ c <> "]"%char /\ c <> "+"%char.
Proof. every_char c; vm_compute; intros H; try discriminate H; repeat split; discriminate. Qed.
Lemma lower_only i c d : nth_error capital i = Some c -> nth_error small i = Some d -> d = lower_c c.
Proof.
  do 26 (destruct i as [|i]; [intros [= <-] [= <-]; reflexivity|]). destruct i; discriminate.
Qed.
Lemma upper_only i c d : nth_error small i = Some c -> nth_error capital i = Some d -> d = upper_c c.
Proof.
  do 26 (destruct i as [|i]; [intros [= <-] [= <-]; reflexivity|]). destruct i; discriminate.
Qed.
Ltac in_list := repeat (first [left; reflexivity|right]).
Lemma lower_other c : ~ In c capital -> lower_c c = c.
Proof. every_char c; intros H; try reflexivity; exfalso; apply H; in_list. Qed.
Lemma upper_other c : ~ In c small -> upper_c c = c.
Proof. every_char c; intros H; try reflexivity; exfalso; apply H; in_list. Qed.
Lemma upper_lower c : upper_c (lower_c c) = upper_c c.
Proof. every_char c; reflexivity. Qed.
Lemma lowered_is s t : lowered s t -> t = lower s.
Proof.
  intros H. unfold lowered in H. induction H as [|c d s t H _ IH]; [reflexivity|]. unfold lower. cbn [map]. fold (lower s). f_equal; [|exact IH].
  destruct H as [(i & H1 & H2)|[H ->]]; [exact (lower_only i c d H1 H2)|symmetry; apply lower_other; exact H].
Qed.
Lemma uppered_is s t : uppered s t -> t = upper s.
Proof.
  intros H. unfold uppered in H. induction H as [|c d s t H _ IH]; [reflexivity|]. unfold upper. cbn [map]. fold (upper s). f_equal; [|exact IH].
  destruct H as [(i & H1 & H2)|[H ->]]; [exact (upper_only i c d H1 H2)|symmetry; apply upper_other; exact H].
Qed.
Lemma upper_of_lower s : upper (lower s) = upper s.
Proof. unfold upper, lower. rewrite map_map. apply map_ext, upper_lower. Qed.
Lemma int_app a b : forall n, int_acc n (a ++ b) = int_acc (int_acc n a) b.
Proof. induction a as [|c a IH]; intros n; [reflexivity|]. cbn [app int_acc]. apply IH. Qed.
Lemma decimal_is d n : decimal d n -> int_of d = n.
Proof.
  intros H. induction H as [|d n c i _ IH H]; [reflexivity|]. unfold int_of in *. rewrite int_app, IH. cbn [int_acc].
  assert (digit_val c = i) as ->; [|reflexivity].
  do 10 (destruct i as [|i]; [injection H as <-; reflexivity|]). destruct i; discriminate.
Qed.
Lemma digit_text_is d : digit_text d <-> isdigit d = true.
Proof. exact (digits_spec d). Qed.
Lemma digit_text_all d : digit_text d -> d <> [] /\ Forall (fun c => is_digit c = true) d.
Proof.
  intros H. split; [exact (proj1 H)|]. apply digit_text_is in H. unfold isdigit in H. destruct d; [discriminate|]. apply Forall_forall.
  rewrite forallb_forall in H. exact H.
Qed.
Lemma gap_blank g : gap g <-> blank g.
Proof. unfold gap, blank. apply Forall_forall. Qed.
Lemma blank_cut g : forall h c d s t, gap g -> gap h -> is_space c = false -> is_space d = false -> g ++ c :: s = h ++ d :: t -> g = h /\ c = d /\ s = t.
Proof.
  induction g as [|x g IH]; intros [|y h] c d s t G H C D E.
  - injection E as -> ->. auto.
  - injection E as -> _. inversion H; congruence.
  - injection E as -> _. inversion G; congruence.
  - injection E as -> E. inversion G; inversion H; subst. destruct (IH h c d s t) as (-> & -> & ->); auto.
Qed.

(** * Filters *)
Definition FILT (w : str) : re := seqs [L "|"; WS; Grp 1 (L_ w)].
Lemma filt_lang w u : lang (FILT w) u <-> exists g, u = $"|" ++ g ++ w /\ gap g.
Proof.
  unfold FILT. cbn [seqs lang]. split.
  - intros (a & b & -> & A & g & n & -> & G & N). lits. apply lang_L in N. rewrite N. exists g. split; [reflexivity|exact G].
  - intros (g & -> & G). exists $"|", (g ++ w). split; [reflexivity|]. split; [apply lang_L; reflexivity|].
    exists g, w. split; [reflexivity|]. split; [exact G|apply lang_L; reflexivity].
Qed.
Lemma filt_look w : no_look (FILT w) = true.
Proof. unfold FILT. cbn [seqs no_look]. rewrite no_look_L. reflexivity. Qed.
Lemma no_bar w s : ~ In "|"%char s -> search_text (FILT w) s = None.
Proof.
  intros N. unfold search_text. rewrite no_search; [reflexivity|apply filt_look|]. intros u HL (a & b & ->). apply filt_lang in HL as (g & -> & _).
  apply N. apply in_or_app. right. left. reflexivity.
Qed.
Lemma one_bar w c w1 d w2 a h : w = c :: w1 -> is_space c = false -> is_space d = false -> c <> d -> ~ In "|"%char a -> gap h -> ~ In "|"%char (d :: w2) ->
  search_text (FILT w) (a ++ $"|" ++ h ++ d :: w2) = None.
Proof.
  intros -> SC SD NE NA H ND. unfold search_text. rewrite no_search; [reflexivity|apply filt_look|]. intros u HL (x & b & E).
  apply filt_lang in HL as (g & -> & G).
  assert (~ In "|"%char x) as NX.
  { intros I. assert (In "|"%char (h ++ d :: w2)) as J.
    { clear - E I NA. revert a E NA. apply in_split in I as (x1 & x2 & ->). intros a E NA.
      change (a ++ "|"%char :: h ++ d :: w2 = (x1 ++ "|"%char :: x2) ++ "|"%char :: (g ++ c :: w1) ++ b) in E.
      assert (a ++ "|"%char :: (h ++ d :: w2) = x1 ++ "|"%char :: (x2 ++ "|"%char :: (g ++ c :: w1) ++ b)) as E'
        by (rewrite E, <- app_assoc; reflexivity). clear E.
      revert x1 E'. induction a as [|y a IH]; intros [|z x1] E.
      - injection E as E. rewrite E. apply in_or_app. right. left. reflexivity.
      - injection E as _ E. rewrite E. apply in_or_app. right. left. reflexivity.
      - injection E as -> _. exfalso. apply NA. left. reflexivity.
      - injection E as _ E. apply (IH ltac:(intros I; apply NA; right; exact I) x1 E). }
    apply in_app_or in J as [J|J]; [|exact (ND J)]. unfold gap in H. rewrite Forall_forall in H. specialize (H _ J). discriminate. }
  assert (a ++ "|"%char :: (h ++ d :: w2) = x ++ "|"%char :: (g ++ c :: (w1 ++ b))) as E'.
  { etransitivity; [exact E|]. cbn [app]. f_equal. change ($"|" ++ g ++ c :: w1) with ("|"%char :: g ++ c :: w1). cbn [app]. rewrite <- app_assoc. reflexivity. }
  pose proof (cut_same _ _ _ _ _ NA NX E') as <-. apply app_inv_head in E'. injection E' as E'.
  apply blank_cut in E' as (_ & E' & _); [congruence|assumption..].
Qed.
Lemma bar_hit w c w1 a h r : w = c :: w1 -> is_space c = false -> ~ In "|"%char a -> gap h ->
  search_text (FILT w) (a ++ ($"|" ++ h ++ w) ++ r) = Some ($"|" ++ h ++ w).
Proof.
  intros -> SC NA H. unfold search_text, re_search.
  destruct (search_first (FILT (c :: w1)) a (($"|" ++ h ++ c :: w1) ++ r) None 0) as (prev & ->).
  { intros x b -> NB prev p. destruct (match_at _ _ _ _) eqn:M; [|reflexivity]. exfalso. apply match_lang_g in M as (u & v & E & HL).
    apply filt_lang in HL as (g & -> & _). destruct b as [|y b]; [contradiction|]. injection E as -> _. apply NA. apply in_or_app. right. left. reflexivity. }
  destruct (match_only (FILT (c :: w1)) ($"|" ++ h ++ c :: w1) r prev (0 + length a)) as (x & Hx & S1 & S2).
  - apply filt_look.
  - apply filt_lang. exists h. auto.
  - intros u t HL E. apply filt_lang in HL as (g & -> & G). 
    assert (h ++ c :: (w1 ++ r) = g ++ c :: (w1 ++ t)) as E'.
    { change ("|"%char :: (h ++ c :: w1) ++ r = "|"%char :: (g ++ c :: w1) ++ t) in E. injection E as E. rewrite <- !app_assoc in E. exact E. }
    apply blank_cut in E' as (-> & _ & _); [reflexivity|assumption..].
  - assert (search_from (FILT (c :: w1)) prev (0 + length a) (($"|" ++ h ++ c :: w1) ++ r) = Some x) as ->.
    { change (($"|" ++ h ++ c :: w1) ++ r) with ("|"%char :: (h ++ c :: w1) ++ r) in *. cbn [search_from]. rewrite Hx. reflexivity. }
    cbn [option_map]. unfold group0. rewrite S1, S2. f_equal. apply slice_mid.
Qed.
Lemma bar_removed w a h r : ~ In "|"%char a -> ~ has_text ($"|" ++ h ++ w) r -> replace_all ($"|" ++ h ++ w) [] (a ++ ($"|" ++ h ++ w) ++ r) = a ++ r.
Proof.
  intros NA NR. unfold replace_all. rewrite replace_plain.
  - rewrite replace_hit by discriminate. cbn [app]. f_equal. apply replace_none; [discriminate|exact NR].
  - intros x b v -> NB E. destruct b as [|y b]; [contradiction|]. injection E as -> _. apply NA. apply in_or_app. right. left. reflexivity.
Qed.
