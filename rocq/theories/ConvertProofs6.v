(** C80 to C83 (proofs only). *)
From Verif Require Export ConvertProofs5.
From Verif Require Import Lemmas PatchProofs PatchProofs3 PathProofs PathSpec PatchSpec RenderSpec RenderProofs RenderProofs2 RegexProofs ConvertSpec.
From Coq Require Import Permutation.

(** * What a pattern with groups finds *)
Fixpoint no_look (r : re) : bool :=
  match r with
  | Seq a b | Alt a b => no_look a && no_look b
  | Opt a | Grp _ a => no_look a
  | NotAfter _ => false
  | _ => true
  end.
Lemma star_complete_g {A} p u : forall v st (k : mst -> option A), rest st = u ++ v -> Forall (fun c => p c = true) u ->
  (forall st', rest st' = v -> k st' <> None) -> star_k p (rest st) st k <> None.
Proof. intros v st k R F H. apply (star_complete p u v st k R F). intros st' R' _ _. exact (H st' R'). Qed.
Lemma m_complete_g {A} r : no_look r = true -> forall u v st (k : mst -> option A), lang r u -> rest st = u ++ v ->
  (forall st', rest st' = v -> k st' <> None) -> m r st k <> None.
Proof.
  induction r as [p| |a IHa b IHb|a IHa b IHb|p|a IHa|n a IHa|p]; intros NG u v st k HL R H; cbn [no_look] in NG; cbn [lang] in HL; cbn [m]; try discriminate.
  - destruct HL as (c & -> & P). rewrite R. cbn [app]. rewrite P. destruct (adv_pos st c v R) as [Hp Hr]. apply H. exact Hr.
  - subst u. apply H. exact R.
  - apply andb_prop in NG as [NA NB]. destruct HL as (x & y & -> & La & Lb). rewrite <- app_assoc in R.
    apply (IHa NA x (y ++ v) st _ La R). intros st' R'. apply (IHb NB y v st' k Lb R'). exact H.
  - apply andb_prop in NG as [NA NB]. destruct (m a st k) as [y|] eqn:K; [discriminate|].
    destruct HL as [La|Lb]; [exfalso; apply (IHa NA u v st k La R H); exact K|exact (IHb NB u v st k Lb R H)].
  - exact (star_complete_g p u v st k R HL H).
  - destruct (m a st k) as [y|] eqn:K; [discriminate|]. destruct HL as [->|La]; [|exfalso; apply (IHa NG u v st k La R H); exact K].
    apply H. exact R.
  - apply (IHa NG u v st _ HL R). intros st' R'. apply H. exact R'.
Qed.
Lemma lang_match_g r prev p u v : no_look r = true -> lang r u -> exists x, match_at r prev p (u ++ v) = Some x.
Proof.
  intros NG HL. destruct (match_at r prev p (u ++ v)) as [x|] eqn:E; [eauto|]. exfalso. revert E. unfold match_at.
  apply (m_complete_g r NG u v); [exact HL|reflexivity|]. intros; discriminate.
Qed.
Lemma match_lang_g r prev p s x : match_at r prev p s = Some x -> exists u v, s = u ++ v /\ lang r u.
Proof. intros H. apply m_sound in H as (u & st & R & HL & _). exists u, (rest st). auto. Qed.
Lemma search_lang_g r : no_look r = true -> forall s prev p,
  (exists x, search_from r prev p s = Some x) <-> exists u, lang r u /\ has_text u s.
Proof.
  intros NG. induction s as [|c s IH]; intros prev p.
  - cbn [search_from]. split.
    + intros (x & H). destruct (match_at r prev p []) eqn:M; [|discriminate]. apply match_lang_g in M as (u & v & E & HL).
      exists u. split; [exact HL|]. exists [], v. exact E.
    + intros (u & HL & a & b & E). symmetry in E. apply app_eq_nil in E as [-> E]. apply app_eq_nil in E as [-> ->].
      destruct (lang_match_g r prev p [] [] NG HL) as (x & Hx). cbn [app] in Hx. rewrite Hx. eauto.
  - cbn [search_from]. destruct (match_at r prev p (c :: s)) as [x|] eqn:M.
    + split; [intros _|eauto]. apply match_lang_g in M as (u & v & E & HL).
      exists u. split; [exact HL|]. exists [], v. exact E.
    + rewrite (IH (Some c) (S p)). split.
      * intros (u & HL & T). exists u. split; [exact HL|]. apply has_text_cons. exact T.
      * intros (u & HL & a & b & E). exists u. split; [exact HL|]. destruct a as [|d a].
        -- destruct (lang_match_g r prev p u b NG HL) as (x & Hx). cbn [app] in E. rewrite <- E in Hx. congruence.
        -- injection E as -> ->. exists a, b. reflexivity.
Qed.
Lemma found_g r s : no_look r = true -> match re_search r s with Some _ => true | None => false end = true <-> exists u, lang r u /\ has_text u s.
Proof.
  intros NG. rewrite <- (search_lang_g r NG s None 0). unfold re_search.
  destruct (search_from r None 0 s); split; [eauto|reflexivity|discriminate|intros (x & H); discriminate].
Qed.
Lemma has_text_app a b c s : has_text (a ++ b ++ c) s -> has_text b s.
Proof. intros (x & y & ->). exists (x ++ a), (c ++ y). rewrite <- !app_assoc. reflexivity. Qed.
Lemma has_text_right a b s : has_text (a ++ b) s -> has_text b s.
Proof. intros H. apply (has_text_app a b []). rewrite app_nil_r. exact H. Qed.

(** * Computed texts *)
Ltac lits := unfold L in *; repeat match goal with H : lang (L_ ?s) ?u |- _ => apply lang_L in H; subst u end.
Lemma lower_lang u : lang JINJA_FUNCTION_LOWER u <-> exists g, u = $"|" ++ g ++ $"lower" /\ gap g.
Proof.
  unfold JINJA_FUNCTION_LOWER. cbn [seqs lang]. split.
  - intros (a & b & -> & A & g & n & -> & G & N). lits. exists g. split; [reflexivity|exact G].
  - intros (g & -> & G). exists $"|", (g ++ $"lower"). split; [reflexivity|]. split; [apply lang_L; reflexivity|].
    exists g, $"lower". split; [reflexivity|]. split; [exact G|apply lang_L; reflexivity].
Qed.
Lemma upper_lang u : lang JINJA_FUNCTION_UPPER u <-> exists g, u = $"|" ++ g ++ $"upper" /\ gap g.
Proof.
  unfold JINJA_FUNCTION_UPPER. cbn [seqs lang]. split.
  - intros (a & b & -> & A & g & n & -> & G & N). lits. exists g. split; [reflexivity|exact G].
  - intros (g & -> & G). exists $"|", (g ++ $"upper"). split; [reflexivity|]. split; [apply lang_L; reflexivity|].
    exists g, $"upper". split; [reflexivity|]. split; [exact G|apply lang_L; reflexivity].
Qed.
Lemma replace_lang u : lang JINJA_FUNCTION_REPLACE u <-> exists g args, u = $"|" ++ g ++ $"replace(" ++ args ++ $")" /\ gap g /\ on_a_line args.
Proof.
  unfold JINJA_FUNCTION_REPLACE. cbn [seqs lang]. split.
  - intros (a & b & -> & A & g & n & -> & G & x & y & -> & N & o & z & -> & O & args & c & -> & R & K). lits. exists g, args.
    split; [reflexivity|]. split; [exact G|]. apply any_c_no. exact R.
  - intros (g & args & -> & G & R). exists $"|", (g ++ $"replace(" ++ args ++ $")"). split; [reflexivity|]. split; [apply lang_L; reflexivity|].
    exists g, ($"replace(" ++ args ++ $")"). split; [reflexivity|]. split; [exact G|].
    exists $"replace", ($"(" ++ args ++ $")"). split; [reflexivity|]. split; [apply lang_L; reflexivity|].
    exists $"(", (args ++ $")"). split; [reflexivity|]. split; [apply lang_L; reflexivity|].
    exists args, $")". split; [reflexivity|]. split; [apply any_c_no; exact R|apply lang_L; reflexivity].
Qed.
Lemma dig_lang u : lang DIG1 u <-> u <> [] /\ Forall (fun c => is_digit c = true) u.
Proof.
  unfold DIG1. cbn [lang]. split.
  - intros (a & b & -> & (c & -> & D) & F). split; [discriminate|]. constructor; assumption.
  - intros (N & F). destruct F as [|c u D F]; [contradiction|]. exists [c], u. split; [reflexivity|]. split; [exists c; auto|exact F].
Qed.
Lemma element_has s : (exists u, lang JINJA_FUNCTION_IDX_ACCESS u /\ has_text u s) <->
  exists c digits, word c /\ digits <> [] /\ Forall (fun c => is_digit c = true) digits /\ has_text (c :: $"[" ++ digits ++ $"]") s.
Proof.
  unfold JINJA_FUNCTION_IDX_ACCESS. split.
  - intros (u & HL & H). cbn [seqs lang] in HL. destruct HL as (w & b & -> & (w1 & w2 & -> & (c & -> & Wc) & F) & o & x & -> & O & d & k & -> & D & K).
    lits. apply dig_lang in D as (N & D). destruct (exists_last (l := [c] ++ w2) ltac:(discriminate)) as (w' & c' & Ew). rewrite Ew in H.
    exists c', d. split; [|split; [exact N|split; [exact D|]]].
    + assert (In c' ([c] ++ w2)) as I by (rewrite Ew; apply in_or_app; right; left; reflexivity). destruct I as [<-|I]; [exact Wc|].
      rewrite Forall_forall in F. exact (F c' I).
    + rewrite <- app_assoc in H. apply has_text_right in H. exact H.
  - intros (c & d & W & N & D & H). exists (c :: $"[" ++ d ++ $"]"). split; [|exact H]. cbn [seqs lang].
    exists [c], ($"[" ++ d ++ $"]"). split; [reflexivity|]. split; [exists [c], []; split; [reflexivity|]; split; [exists c; auto|constructor]|].
    exists $"[", (d ++ $"]"). split; [reflexivity|]. split; [apply lang_L; reflexivity|].
    exists d, $"]". split; [reflexivity|]. split; [apply dig_lang; auto|apply lang_L; reflexivity].
Qed.
Lemma quote_spec c : is_quote c = true <-> c = cSQ \/ c = cDQ.
Proof. unfold is_quote. rewrite orb_true_iff, !ceq_eq. tauto. Qed.
Lemma dot_spec c : word_dot c = true <-> word c \/ c = "."%char.
Proof. unfold word_dot, word. rewrite orb_true_iff, ceq_eq. tauto. Qed.
Lemma token_lang u : lang JINJA_TOKEN u <-> exists q1 w q2, u = q1 ++ w ++ q2 /\ w <> [] /\ Forall (fun c => word_dot c = true) w
  /\ (q1 = [] \/ q1 = [cSQ] \/ q1 = [cDQ]) /\ (q2 = [] \/ q2 = [cSQ] \/ q2 = [cDQ]).
Proof.
  assert (forall q, (q = [] \/ (exists c, q = [c] /\ is_quote c = true)) <-> (q = [] \/ q = [cSQ] \/ q = [cDQ])) as Q.
  { intros q. split; (intros [->|H]; [left; reflexivity|right]).
    - destruct H as (c & -> & H). apply quote_spec in H as [-> | ->]; auto.
    - destruct H as [-> | ->]; eexists; (split; [reflexivity|reflexivity]). }
  unfold JINJA_TOKEN. cbn [seqs lang]. split.
  - intros (q1 & b & -> & Q1 & x & d & -> & (c & -> & W) & w & q2 & -> & F & Q2). exists q1, (c :: w), q2. apply Q in Q1, Q2.
    split; [reflexivity|]. split; [discriminate|]. split; [constructor; assumption|]. auto.
  - intros (q1 & w & q2 & -> & N & F & Q1 & Q2). destruct F as [|c w W F]; [contradiction|]. apply Q in Q1, Q2.
    exists q1, ((c :: w) ++ q2). split; [reflexivity|]. split; [exact Q1|]. exists [c], (w ++ q2). split; [reflexivity|]. split; [exists c; auto|].
    exists w, q2. auto.
Qed.
Lemma sum_has s : (exists u, lang JINJA_FUNCTION_ADD_CONCAT u /\ has_text u s) <->
  exists c q1 g1 g2 q2 d, (word c \/ c = "."%char) /\ (word d \/ d = "."%char) /\ gap g1 /\ gap g2
    /\ (q1 = [] \/ q1 = [cSQ] \/ q1 = [cDQ]) /\ (q2 = [] \/ q2 = [cSQ] \/ q2 = [cDQ]) /\ has_text (c :: q1 ++ g1 ++ $"+" ++ g2 ++ q2 ++ [d]) s.
Proof.
  unfold JINJA_FUNCTION_ADD_CONCAT. split.
  - intros (u & HL & H). cbn [seqs] in HL. cbn [lang] in HL.
    destruct HL as (t1 & b & -> & T1 & g1 & x & -> & G1 & o & y & -> & O & g2 & t2 & -> & G2 & T2). lits.
    change (lang JINJA_TOKEN t1) in T1. change (lang JINJA_TOKEN t2) in T2.
    apply token_lang in T1 as (qa & w1 & qb & -> & N1 & F1 & Qa & Qb). apply token_lang in T2 as (qc & w2 & qd & -> & N2 & F2 & Qc & Qd).
    destruct (exists_last N1) as (w1' & c & ->). destruct w2 as [|d w2]; [contradiction|].
    apply Forall_app in F1 as [_ F1]. inversion F1 as [|? ? Wc _]; subst. inversion F2 as [|? ? Wd _]; subst.
    exists c, qb, g1, g2, qc, d. rewrite <- !dot_spec. split; [exact Wc|]. split; [exact Wd|]. split; [exact G1|]. split; [exact G2|].
    split; [exact Qb|]. split; [exact Qc|]. destruct H as (a & z & ->). exists (a ++ qa ++ w1'), (w2 ++ qd ++ z).
    repeat (rewrite <- ?app_assoc; cbn [app]). reflexivity.
  - intros (c & q1 & g1 & g2 & q2 & d & W & D & G1 & G2 & Q1 & Q2 & H). eexists. split; [|exact H]. rewrite <- !dot_spec in *. cbn [seqs]. cbn [lang].
    exists (c :: q1), (g1 ++ $"+" ++ g2 ++ q2 ++ [d]). split; [reflexivity|].
    split; [change (lang JINJA_TOKEN (c :: q1)); apply token_lang; exists [], [c], q1; repeat split; auto; discriminate|].
    exists g1, ($"+" ++ g2 ++ q2 ++ [d]). split; [reflexivity|]. split; [exact G1|].
    exists $"+", (g2 ++ q2 ++ [d]). split; [reflexivity|]. split; [apply lang_L; reflexivity|].
    exists g2, (q2 ++ [d]). split; [reflexivity|]. split; [exact G2|].
    change (lang JINJA_TOKEN (q2 ++ [d])). apply token_lang. exists q2, [d], []. repeat split; auto. discriminate.
Qed.
Lemma computed_spec s : search_any_regex JINJA_FUNCTIONS_SET s = true <-> computed s.
Proof.
  unfold search_any_regex, JINJA_FUNCTIONS_SET. cbn [existsb]. rewrite !orb_true_iff.
  rewrite (found_g JINJA_FUNCTION_LOWER s eq_refl), (found_g JINJA_FUNCTION_UPPER s eq_refl), (found_g JINJA_FUNCTION_REPLACE s eq_refl),
    (found_g JINJA_FUNCTION_IDX_ACCESS s eq_refl), (found_g JINJA_FUNCTION_ADD_CONCAT s eq_refl), (found_g JINJA_FUNCTION_MATCH s eq_refl).
  rewrite element_has, sum_has. split.
  - intros [(u & HL & H)|[(u & HL & H)|[(u & HL & H)|[H|[H|[(u & HL & H)|H]]]]]].
    + apply lower_lang in HL as (g & -> & G). apply (computed_case s g $"lower"); [exact G|left; reflexivity|exact H].
    + apply upper_lang in HL as (g & -> & G). apply (computed_case s g $"upper"); [exact G|right; left; reflexivity|exact H].
    + apply replace_lang in HL as (g & args & -> & G & R). exact (computed_replace s g args G R H).
    + destruct H as (c & d & W & N & D & H). exact (computed_element s c d W N D H).
    + destruct H as (c & q1 & g1 & g2 & q2 & d & W & D & G1 & G2 & Q1 & Q2 & H). exact (computed_sum s c q1 g1 g2 q2 d W D G1 G2 Q1 Q2 H).
    + apply lang_call in HL as (x & y & -> & X & Y). exact (computed_match s x y X Y H).
    + discriminate.
  - intros [g name G I H|g args G R H|c d W N D H|c q1 g1 g2 q2 d W D G1 G2 Q1 Q2 H|x y X Y H].
    + destruct I as [<-|[<-|[]]]; [left|right; left]; eexists; (split; [|exact H]).
      * apply lower_lang. exists g. auto.
      * apply upper_lang. exists g. auto.
    + right; right; left. eexists. split; [|exact H]. apply replace_lang. exists g, args. auto.
    + right; right; right; left. exists c, d. auto.
    + right; right; right; right; left. exists c, q1, g1, g2, q2, d. auto 8.
    + do 5 right. left. eexists. split; [|exact H]. apply lang_call. exists x, y. auto.
Qed.

(** * The context object *)
Lemma context_value_spec v : match context_value v with Some w => supported v = true /\ context_entry v w | None => supported v = false end.
Proof.
  destruct v as [p|l|d]; [|reflexivity|reflexivity]. destruct p as [|b|z|x|s]; cbn [context_value supported]; try (split; [reflexivity|constructor]); [reflexivity|].
  split; [reflexivity|]. destruct (search_any_regex JINJA_FUNCTIONS_SET s) eqn:C.
  - apply entry_computed. apply computed_spec. exact C.
  - apply entry_text. rewrite <- computed_spec, C. discriminate.
Qed.
Lemma dset_new {V} k (v : V) d : ~ In k (map fst d) -> dset k v d = d ++ [(k, v)].
Proof.
  induction d as [|[k' v'] d IH]; intros H; [reflexivity|]. cbn [dset app]. destruct (str_eqb k k') eqn:Q.
  - apply str_eqb_eq in Q as ->. exfalso. apply H. left. reflexivity.
  - rewrite IH; [reflexivity|]. intros I. apply H. right. exact I.
Qed.
Lemma c80_of vars : forall acc s, NoDup (map fst acc ++ map fst vars) -> exists ctx s',
  context_of vars acc s = (Ok (acc ++ ctx), s')
  /\ Forall2 (fun a b => fst a = fst b /\ context_entry (snd a) (snd b)) (filter (fun kv => supported (snd kv)) vars) ctx
  /\ v1 s' = v1 s
  /\ get_messages WARNING (msgs s') = get_messages WARNING (msgs s)
       ++ map (fun kv => unsupported_message (fst kv)) (filter (fun kv => negb (supported (snd kv))) vars)
  /\ get_messages ERROR (msgs s') = get_messages ERROR (msgs s) /\ get_messages EXCEPTION (msgs s') = get_messages EXCEPTION (msgs s).
Proof.
  induction vars as [|[n v] vars IH]; intros acc s ND.
  - exists [], s. cbn [context_of filter map]. rewrite !app_nil_r. repeat split; auto.
  - cbn [context_of filter snd]. pose proof (context_value_spec v) as C. destruct (context_value v) as [w|].
    + destruct C as (S & CE). rewrite S. cbn [negb].
      assert (~ In n (map fst acc)) as NI.
      { cbn [map fst] in ND. apply NoDup_remove_2 in ND. intros I. apply ND. apply in_or_app. left. exact I. }
      rewrite (dset_new n w acc NI).
      destruct (IH (acc ++ [(n, w)]) s) as (ctx & s' & Hc & F & V & M).
      { rewrite map_app, <- app_assoc. exact ND. }
      exists ((n, w) :: ctx), s'. rewrite Hc, <- app_assoc. split; [reflexivity|]. split; [constructor; auto|]. auto.
    + rewrite C. cbn [negb]. unfold andthen, say.
      destruct (IH acc {| v1 := v1 s; msgs := add_message WARNING (unsupported_message n) (msgs s) |}) as (ctx & s' & Hc & F & V & W & Er & Ex).
      { cbn [map fst] in ND. apply NoDup_remove_1 in ND. exact ND. }
      exists ctx, s'. fold (unsupported_message n). split; [exact Hc|]. split; [exact F|]. cbn [v1 msgs] in *. split; [exact V|].
      pose proof (add_one_more WARNING (unsupported_message n) (msgs s)) as O. rewrite W, Er, Ex, (O WARNING), (O ERROR), (O EXCEPTION).
      cbn [category_eqb map fst]. rewrite <- app_assoc. auto.
Qed.
