(** The parser reads the canonical layout back (proofs only). *)
From Verif Require Export JinjaProofs.

(** * Headers of text blocks *)
Lemma block_mark_app u s : block_mark (u ++ s) -> ~ In ":"%char u -> block_mark s.
Proof.
  intros (a & w & c & b & E & W) N. revert a E. induction u as [|d u IH]; intros a E; [exists a, w, c, b; auto|].
  destruct a as [|e a].
  - cbn [app] in E. injection E as -> E. exfalso. apply N. left. reflexivity.
  - cbn [app] in E. injection E as -> E. apply (IH (fun I => N (or_intror I)) a E).
Qed.
Lemma slice_app a b u v : slice (length u + a) (length u + b) (u ++ v) = slice a b v.
Proof.
  unfold slice. replace (length u + b - (length u + a)) with (b - a) by lia.
  rewrite skipn_app. rewrite (skipn_all2 u) by lia. cbn [app]. replace (length u + a - length u) with a by lia. reflexivity.
Qed.
Lemma rstrip_app_blank s w : blank w -> rstrip (s ++ w) = rstrip s.
Proof.
  intros B. unfold rstrip. rewrite rev_app_distr. f_equal.
  assert (forall w' y, blank w' -> lstrip (w' ++ y) = lstrip y) as G.
  { induction w' as [|c w' IH]; intros y B'; [reflexivity|]. cbn [app lstrip]. rewrite (B' c (or_introl eq_refl)).
    apply IH. intros d I. apply B'. right. exact I. }
  apply G. intros c I. apply B. apply in_rev. exact I.
Qed.
Lemma variant_clean m : block_variant m -> ends_clean (mlv_str m) /\ mlv_str m <> [].
Proof.
  intros H. assert (forall a : str, ends_clean (a ++ ["|"%char]) /\ ends_clean (a ++ [">"%char]) /\ ends_clean (a ++ ["+"%char]) /\ ends_clean (a ++ ["-"%char])) as G.
  { intros a. repeat split; intros t c E; apply app_inj_tail in E as [_ <-]; reflexivity. }
  destruct H as [<-|[<-|[<-|[<-|[<-|[<-|[]]]]]]]; (split; [|discriminate]).
  - apply (G []). - apply (G ["|"%char]). - apply (G ["|"%char]). - apply (G []). - apply (G [">"%char]). - apply (G [">"%char]).
Qed.
Lemma header_text i k m c : block_variant m -> separable (key_text k ++ $": " ++ mlv_str m) c ->
  exists tail, line (spaces i) (key_text k ++ $": " ++ mlv_str m) c = spaces i ++ key_text k ++ $": " ++ mlv_str m ++ tail
               /\ (tail = [] \/ tail = $"  " ++ c).
Proof.
  intros V (P & _ & CT). destruct CT as [->|[[t ->] EC]].
  - exists []. split; [|left; reflexivity]. unfold line. rewrite app_nil_r, app_assoc, rstrip_app_blank.
    + rewrite app_nil_r. apply rstrip_clean. intros t d E. destruct (variant_clean m V) as [C N].
      destruct (mlv_str m) as [|e ms _] using rev_ind; [contradiction|].
      rewrite !app_assoc in E. apply app_inj_tail in E as [_ ->]. apply (C ms d eq_refl).
    + intros d [<-|[<-|[]]]; reflexivity.
  - exists ($"  " ++ cHASH :: t). split; [|right; reflexivity]. rewrite line_start by exact P.
    rewrite line_with_comment; [|discriminate|exact EC]. rewrite <- !app_assoc. reflexivity.
Qed.
Lemma m_alt_l {A} a b st (k : mst -> option A) x : m a st k = Some x -> m (Alt a b) st k = Some x.
Proof. intros H. cbn [m]. rewrite H. reflexivity. Qed.
Lemma m_alt_r {A} a b st (k : mst -> option A) x : m a st k = None -> m b st k = Some x -> m (Alt a b) st k = Some x.
Proof. intros H H2. cbn [m]. rewrite H. exact H2. Qed.
Lemma m_opt_l {A} a st (k : mst -> option A) x : m a st k = Some x -> m (Opt a) st k = Some x.
Proof. intros H. cbn [m]. rewrite H. reflexivity. Qed.
Lemma m_opt_r {A} a st (k : mst -> option A) x : m a st k = None -> k st = Some x -> m (Opt a) st k = Some x.
Proof. intros H H2. cbn [m]. rewrite H. exact H2. Qed.
Lemma m_seq {A} a b st (k : mst -> option A) x : m a st (fun st' => m b st' k) = Some x -> m (Seq a b) st k = Some x.
Proof. intros H. exact H. Qed.
Lemma m_grp {A} n a st (k : mst -> option A) x :
  m a st (fun st' => k {| prevc := prevc st'; pos := pos st'; rest := rest st'; grps := (n, (pos st, pos st')) :: grps st' |}) = Some x ->
  m (Grp n a) st k = Some x.
Proof. intros H. exact H. Qed.
Lemma m_chr {A} c st (k : mst -> option A) x t : rest st = c :: t -> k (adv st) = Some x -> m (C c) st k = Some x.
Proof. intros R H. unfold C. cbn [m]. rewrite R, ceq_refl. exact H. Qed.
Lemma m_chr_no {A} c st (k : mst -> option A) : match rest st with d :: _ => ceq c d = false | [] => True end -> m (C c) st k = None.
Proof. intros R. unfold C. cbn [m]. destruct (rest st) as [|d t]; [reflexivity|]. rewrite R. reflexivity. Qed.
Lemma m_cls {A} p c st (k : mst -> option A) x t : rest st = c :: t -> p c = true -> k (adv st) = Some x -> m (Chr p) st k = Some x.
Proof. intros R P H. cbn [m]. rewrite R, P. exact H. Qed.
Lemma m_star_0 {A} p st (k : mst -> option A) x : match rest st with d :: _ => p d = false | [] => True end -> k st = Some x -> m (StarC p) st k = Some x.
Proof. intros R H. cbn [m]. apply (star_run p [] (rest st) st k x); [constructor|exact R|exact H]. Qed.
Lemma L_one a : L (String a EmptyString) = C a. Proof. reflexivity. Qed.

Lemma after_mark_match m tail st s0 : block_variant m -> (tail = [] \/ exists t, tail = cSP :: t) ->
  rest st = $": " ++ mlv_str m ++ tail -> grps st = [] ->
  exists x g3, Regex.m (seqs [L ":"; WS1; Grp 1 (Alt (L "|") (L ">")); AFTER_MARK]) st
      (fun st' => Some {| m_start := s0; m_end := pos st'; m_grps := grps st' |}) = Some x
    /\ m_grps x = (3, g3) :: (if length (mlv_str m) =? 2 then [(2, (pos st + 3, pos st + 4))] else [])
                    ++ [(1, (pos st + 2, pos st + 3))].
Proof.
  intros V T R G.
  destruct st as [pv p r g]. cbn [rest grps pos] in *. subst g r.
  assert (forall st1 g1, grps st1 = g1 -> exists x g3,
    Regex.m (Grp 3 (Alt WS (seqs [WS1; L "#"; DOTS]))) st1 (fun st' => Some {| m_start := s0; m_end := pos st'; m_grps := grps st' |}) = Some x
    /\ m_grps x = (3, g3) :: g1) as F.
  { intros st1 g1 <-. cbn [Regex.m]. unfold WS. cbn [Regex.m].
    match goal with |- context[star_k is_space (rest st1) st1 ?k] =>
      destruct (star_total is_space (rest st1) st1 k (fun st' => {| m_start := s0; m_end := pos st'; m_grps := (3, (pos st1, pos st')) :: grps st' |}) ltac:(intros; reflexivity)) as (st' & K & Gr) end.
    rewrite K. eexists. exists (pos st1, pos st'). split; [reflexivity|]. cbn [m_grps]. rewrite Gr. reflexivity. }
  replace (p + 2) with (S (S p)) by lia. replace (p + 3) with (S (S (S p))) by lia. replace (p + 4) with (S (S (S (S p)))) by lia.
  destruct V as [<-|[<-|[<-|[<-|[<-|[<-|[]]]]]]]; destruct T as [->|[t ->]];
    (edestruct F as (x & g3 & Hx & Gx); [reflexivity|]; exists x, g3; split;
     [ apply m_seq; rewrite L_one; eapply m_chr; [reflexivity|];
       apply m_seq; apply m_seq; eapply m_cls; [reflexivity|reflexivity|];
       apply m_star_0; [reflexivity|];
       apply m_seq; apply m_grp; rewrite ?L_one;
       (apply m_alt_l; eapply m_chr; [reflexivity|]) || (apply m_alt_r; [apply m_chr_no; reflexivity|eapply m_chr; [reflexivity|]]);
       unfold AFTER_MARK; cbn [seqs]; apply m_seq; rewrite ?L_one;
       first [ apply m_opt_l; apply m_grp; first [apply m_alt_l; eapply m_chr; [reflexivity|] | apply m_alt_r; [apply m_chr_no; reflexivity|eapply m_chr; [reflexivity|]]]; exact Hx
             | apply m_opt_r; [reflexivity|]; exact Hx ]
     | rewrite Gx; reflexivity ]).
Qed.
Lemma header_match i k m c : block_variant m -> separable (key_text k ++ $": " ++ mlv_str m) c -> ~ block_mark c ->
  ~ In cNL (key_text k) ->
  let l := line (spaces i) (key_text k ++ $": " ++ mlv_str m) c in
  exists x, re_match MULTILINE l = Some x
    /\ match group 1 l x with Some c => c | None => [] end ++ match group 2 l x with Some c => c | None => [] end = mlv_str m.
Proof.
  intros V S NB NN l. destruct (header_text i k m c V S) as (tail & El & HT). fold l in El.
  set (R := key_text k ++ $": " ++ mlv_str m ++ tail) in *.
  assert (rest (start_st None 0 l) = spaces i ++ R) as R0 by exact El.
  pose proof (fwd_rest (spaces i) _ R R0) as R1. pose proof (fwd_pos (spaces i) _ R R0) as P1.
  set (st1 := fwd (length (spaces i)) (start_st None 0 l)) in *.
  assert (grps st1 = []) as G1 by apply fwd_grps.
  pose proof (fwd_rest (key_text k) st1 _ R1) as R2. pose proof (fwd_pos (key_text k) st1 _ R1) as P2.
  set (st2 := fwd (length (key_text k)) st1) in *.
  assert (grps st2 = []) as G2 by (unfold st2; rewrite fwd_grps; exact G1).
  assert (tail = [] \/ exists t, tail = cSP :: t) as HT'.
  { destruct HT as [->| ->]; [left; reflexivity|right]. eexists. reflexivity. }
  destruct (after_mark_match m tail st2 0 V HT' R2 G2) as (x & g3 & Hx & Gx).
  exists x. split.
  - unfold re_match, match_at. rewrite multiline_parts. unfold WS at 1. cbn [Regex.m]. rewrite R0.
    apply star_run.
    { unfold spaces. apply Forall_forall. intros d I. apply repeat_spec in I as ->. reflexivity. }
    { destruct S as ((d & t & E & Sd & _) & _). unfold R. rewrite (app_assoc $": "), app_assoc, E. exact Sd. }
    fold st1. unfold DOTS. cbn [Regex.m]. rewrite R1. unfold R. apply star_last.
    { apply Forall_forall. intros d I. unfold any_c. destruct (ceq d cNL) eqn:Ed; [apply ceq_eq in Ed; subst; contradiction|reflexivity]. }
    { intros b1 b2 E N1 _. match goal with |- ?e = None => destruct e eqn:K; [|reflexivity] end. exfalso.
      apply m_sound in K as (u & st3 & H3 & HL & _). apply lang_mark in HL as (w2 & e & b & -> & W & B & He).
      rewrite fwd_add in H3. fold st2 in H3. rewrite (fwd_rest b1 st2 b2) in H3 by (rewrite R2; exact E).
      destruct b1 as [|z b1]; [contradiction|]. change (lit ": ") with ([":"%char] ++ [cSP]) in E. cbn [app] in E.
      injection E as _ E. apply NB.
      assert (block_mark ((cSP :: mlv_str m) ++ tail)) as BM.
      { cbn [app]. rewrite E. exists b1, w2, e, (b ++ rest st3). split; [|auto]. f_equal. rewrite H3.
        rewrite <- !app_assoc. reflexivity. }
      apply block_mark_app in BM.
      2:{ clear -V. destruct V as [<-|[<-|[<-|[<-|[<-|[<-|[]]]]]]]; vm_compute; intuition discriminate. }
      destruct HT as [->| ->].
      - exfalso. destruct BM as (a & w & c' & b' & E' & _). destruct a; discriminate.
      - apply block_mark_app in BM; [exact BM|]. vm_compute. intuition discriminate. }
    exact Hx.
  - assert (l = (spaces i ++ key_text k) ++ $": " ++ mlv_str m ++ tail) as El2 by (rewrite El; unfold R; rewrite app_assoc; reflexivity).
    assert (pos st2 = length (spaces i ++ key_text k)) as P3 by (rewrite P2, P1, app_length; reflexivity).
    unfold group. rewrite Gx, P3. destruct V as [<-|[<-|[<-|[<-|[<-|[<-|[]]]]]]]; cbn [mlv_str];
      match goal with |- context[length (lit ?s) =? 2] => let b := eval vm_compute in (length (lit s) =? 2) in change (length (lit s) =? 2) with b end;
      cbn [app find fst Nat.eqb]; rewrite El2, ?slice_app; reflexivity.
Qed.

Lemma mlv_round m : block_variant m -> mlv_of_str (mlv_str m) = Some m.
Proof. intros [<-|[<-|[<-|[<-|[<-|[<-|[]]]]]]]; reflexivity. Qed.

(** * Nodes of lines *)
Lemma parse_yaml_plain E s j : yload E s = YOk j -> parse_yaml E s None = Ok j.
Proof. intros H. unfold parse_yaml. rewrite H. reflexivity. Qed.
Lemma plain_line_node E i b c j following n : plain_line E b c j ->
  match j with
  | JDict ((k, v) :: _) => Ok (key_line_node k v c)
  | JList (JDict ((k, v) :: _) :: _) => Ok (Nd VSent c [key_line_node k v c] true MNone false)
  | JList (JDict [] :: _) => Err EIndex
  | JList (x :: _) => Ok (Nd (VJ x) c [] true MNone false)
  | _ => Err EIndex
  end = Ok n ->
  line_to_node E (line (spaces i) b c) following = Ok (n, 0).
Proof.
  intros (S & NB & Y) H. pose proof S as (P & _). unfold line_to_node. rewrite line_strip by exact P.
  rewrite (no_mark_no_match (line (spaces i) b c)).
  2:{ rewrite line_start by exact P. intros B. apply NB. apply (block_mark_spaces i). exact B. }
  unfold parse_line_node. rewrite (parse_yaml_read _ _ _ Y). unfold bind. rewrite line_not_hash by exact P.
  rewrite (line_comment_line b c S). cbv zeta.
  destruct j as [p|[|[p| |[|[k v] d]] l]|[|[k v] d]]; try discriminate; injection H as <-; reflexivity.
Qed.
Lemma comment_line_node E i c j following : starts_with_hash c -> ends_clean c -> ~ block_mark c -> yload E c = YOk j ->
  line_to_node E (rstrip (spaces i ++ c)) following = Ok (Nd VSent c [] false MNone false, 0)
  /\ rstrip (spaces i ++ c) = spaces i ++ c /\ strip (spaces i ++ c) = c.
Proof.
  intros [t ->] EC NB Y.
  assert (rstrip (spaces i ++ cHASH :: t) = spaces i ++ cHASH :: t) as Er.
  { rewrite rstrip_app; [rewrite (rstrip_clean (cHASH :: t) EC); reflexivity|]. exists cHASH. split; [left; reflexivity|reflexivity]. }
  assert (strip (spaces i ++ cHASH :: t) = cHASH :: t) as Es by (unfold strip; rewrite Er, lstrip_spaces; reflexivity).
  rewrite Er. split; [|auto]. unfold line_to_node. rewrite Es, no_mark_no_match.
  2:{ intros B. apply NB, (block_mark_spaces i). exact B. }
  unfold parse_line_node. rewrite (parse_yaml_plain _ _ _ Y). reflexivity.
Qed.
