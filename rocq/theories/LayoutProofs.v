(** Lines of the canonical layout: what the pattern matcher and the line parser make of them (proofs only). *)
From Verif Require Export SelectorProofs2 LayoutSpec.
Global Arguments rstrip : simpl never.
Global Arguments strip : simpl never.
Global Arguments is_space : simpl never.

(** * The language of a pattern *)
Fixpoint lang (r : re) (s : str) : Prop :=
  match r with
  | Chr p => exists c, s = [c] /\ p c = true
  | Eps | NotAfter _ => s = []
  | Seq a b => exists u v, s = u ++ v /\ lang a u /\ lang b v
  | Alt a b => lang a s \/ lang b s
  | StarC p => Forall (fun c => p c = true) s
  | Opt a => s = [] \/ lang a s
  | Grp _ a => lang a s
  end.
Lemma star_sound {A} p s : forall st (k : mst -> option A) x, rest st = s -> star_k p s st k = Some x ->
  exists u st', rest st = u ++ rest st' /\ Forall (fun c => p c = true) u /\ k st' = Some x.
Proof.
  induction s as [|c s IH]; intros st k x R H; cbn [star_k] in H.
  - exists [], st. split; [reflexivity|]. split; [constructor|exact H].
  - destruct (p c) eqn:P.
    + destruct (star_k p s (adv st) k) as [y|] eqn:K.
      * injection H as ->. assert (rest (adv st) = s) as R' by (unfold adv; rewrite R; reflexivity).
        destruct (IH _ _ _ R' K) as (u & st' & Hu & Fu & Hk). exists (c :: u), st'. split; [|split].
        -- rewrite R. rewrite <- R'. rewrite Hu. reflexivity.
        -- constructor; assumption.
        -- exact Hk.
      * exists [], st. split; [reflexivity|]. split; [constructor|exact H].
    + exists [], st. split; [reflexivity|]. split; [constructor|exact H].
Qed.
Lemma m_sound {A} r : forall st (k : mst -> option A) x, m r st k = Some x ->
  exists u st', rest st = u ++ rest st' /\ lang r u /\ k st' = Some x.
Proof.
  induction r as [p| |a IHa b IHb|a IHa b IHb|p|a IHa|n a IHa|p]; intros st k x H; cbn [m] in H; cbn [lang].
  - destruct (rest st) as [|c t] eqn:R; [discriminate|]. destruct (p c) eqn:P; [|discriminate].
    exists [c], (adv st). split; [unfold adv; rewrite R; reflexivity|]. split; [exists c; auto|exact H].
  - exists [], st. auto.
  - apply IHa in H as (u & st' & Hu & Lu & H). apply IHb in H as (v & st'' & Hv & Lv & H).
    exists (u ++ v), st''. split; [rewrite Hu, Hv, app_assoc; reflexivity|]. split; [exists u, v; auto|exact H].
  - destruct (m a st k) as [y|] eqn:K.
    + injection H as ->. apply IHa in K as (u & st' & Hu & Lu & K). exists u, st'. auto.
    + apply IHb in H as (u & st' & Hu & Lu & H). exists u, st'. auto.
  - apply (star_sound p (rest st)) in H; [exact H|reflexivity].
  - destruct (m a st k) as [y|] eqn:K.
    + injection H as ->. apply IHa in K as (u & st' & Hu & Lu & K). exists u, st'. auto.
    + exists [], st. auto.
  - apply IHa in H as (u & st' & Hu & Lu & H).
    exists u, {| prevc := prevc st'; pos := pos st'; rest := rest st'; grps := (n, (pos st, pos st')) :: grps st' |}.
    auto.
  - exists [], st. split; [reflexivity|]. split; [reflexivity|]. destruct (prevc st) as [c|]; [destruct (p c); [discriminate|]|]; exact H.
Qed.

Lemma lang_L_char c u : lang (C c) u -> u = [c].
Proof. intros (d & -> & H). apply ceq_eq in H as ->. reflexivity. Qed.

(** * Moving through the text *)
Fixpoint fwd (n : nat) (st : mst) : mst := match n with 0 => st | S n' => fwd n' (adv st) end.
Lemma fwd_add a b st : fwd (a + b) st = fwd b (fwd a st).
Proof. revert st. induction a as [|a IH]; intros st; [reflexivity|]. cbn [Nat.add fwd]. apply IH. Qed.
Lemma fwd_rest u : forall st v, rest st = u ++ v -> rest (fwd (length u) st) = v.
Proof.
  induction u as [|c u IH]; intros st v H; [exact H|]. cbn [length fwd]. apply IH. unfold adv. rewrite H. reflexivity.
Qed.
Lemma fwd_pos u : forall st v, rest st = u ++ v -> pos (fwd (length u) st) = pos st + length u.
Proof.
  induction u as [|c u IH]; intros st v H; cbn [length fwd]; [lia|].
  rewrite (IH (adv st) v); unfold adv; rewrite H; cbn [app]; [cbn [pos]; lia|reflexivity].
Qed.
Lemma adv_grps st : grps (adv st) = grps st.
Proof. unfold adv. destruct (rest st); reflexivity. Qed.
Lemma fwd_grps n : forall st, grps (fwd n st) = grps st.
Proof. induction n as [|n IH]; intros st; [reflexivity|]. cbn [fwd]. rewrite IH. apply adv_grps. Qed.

Lemma star_none {A} p b : forall st (k : mst -> option A),
  (forall b1 b2, b = b1 ++ b2 -> b1 <> [] -> Forall (fun c => p c = true) b1 -> k (fwd (length b1) st) = None) ->
  star_k p b st k = k st.
Proof.
  induction b as [|c b IH]; intros st k H; cbn [star_k]; [reflexivity|].
  destruct (p c) eqn:P; [|reflexivity].
  rewrite IH.
  - specialize (H [c] b eq_refl ltac:(discriminate) ltac:(constructor; [exact P|constructor])). cbn [length fwd] in H.
    rewrite H. reflexivity.
  - intros b1 b2 -> _ F. apply (H (c :: b1) b2); [reflexivity|discriminate|constructor; assumption].
Qed.
Lemma star_last {A} p a : forall b st (k : mst -> option A) x,
  Forall (fun c => p c = true) a ->
  (forall b1 b2, b = b1 ++ b2 -> b1 <> [] -> Forall (fun c => p c = true) b1 -> k (fwd (length a + length b1) st) = None) ->
  k (fwd (length a) st) = Some x -> star_k p (a ++ b) st k = Some x.
Proof.
  induction a as [|c a IH]; intros b st k x F H K.
  - cbn [app]. rewrite star_none; [exact K|]. intros b1 b2 E N F1. exact (H b1 b2 E N F1).
  - cbn [app star_k]. inversion F as [|? ? Pc Fa]; subst. rewrite Pc.
    rewrite (IH b (adv st) k x Fa); [reflexivity| |exact K].
    intros b1 b2 E N F1. exact (H b1 b2 E N F1).
Qed.
(** A star that is followed by something other than a character of its class consumes exactly its class. *)
Lemma star_run {A} p a : forall b st (k : mst -> option A) x,
  Forall (fun c => p c = true) a -> match b with c :: _ => p c = false | [] => True end ->
  k (fwd (length a) st) = Some x -> star_k p (a ++ b) st k = Some x.
Proof.
  intros b st k x F Hb K. apply star_last; [exact F| |exact K].
  intros b1 b2 E N F1. destruct b1 as [|d b1]; [contradiction|]. subst b. cbn [app] in Hb.
  inversion F1. congruence.
Qed.
Lemma star_total {A} p s : forall st (k : mst -> option A) f, (forall st', k st' = Some (f st')) ->
  exists st', star_k p s st k = Some (f st') /\ grps st' = grps st.
Proof.
  induction s as [|c s IH]; intros st k f H; cbn [star_k].
  - exists st. rewrite H. auto.
  - destruct (p c).
    + destruct (IH (adv st) k f H) as (st' & K & G). rewrite K. exists st'. split; [reflexivity|]. rewrite G. apply adv_grps.
    + exists st. rewrite H. auto.
Qed.

(** * Trailing comments *)
Fixpoint hash_from (sp : bool) (s : str) : option nat :=
  match s with
  | [] => None
  | c :: s' => if sp && ceq c cHASH then Some 0 else option_map S (hash_from (is_space c) s')
  end.
Fixpoint spaces_hash (s : str) : option nat :=
  match s with
  | [] => None
  | c :: s' => if is_space c then option_map S (spaces_hash s') else if ceq c cHASH then Some 0 else None
  end.
Lemma space_not_hash c : is_space c = true -> ceq c cHASH = false.
Proof. intros H. apply ceq_neq. intros ->. discriminate. Qed.
Lemma hash_from_true s : hash_from true s = match spaces_hash s with Some n => Some n | None => hash_from false s end.
Proof.
  induction s as [|c s IH]; [reflexivity|]. cbn [hash_from spaces_hash andb].
  destruct (is_space c) eqn:S.
  - rewrite (space_not_hash c S). rewrite IH. destruct (spaces_hash s); reflexivity.
  - destruct (ceq c cHASH); reflexivity.
Qed.
Lemma star_hash p s : forall st, rest st = s -> grps st = [] ->
  star_k is_space s st (fun st' => m (Grp 2 (L "#")) st' (fun st => Some {| m_start := p; m_end := pos st; m_grps := grps st |}))
  = option_map (fun n => {| m_start := p; m_end := pos st + n + 1; m_grps := [(2, (pos st + n, pos st + n + 1))] |}) (spaces_hash s).
Proof.
  assert (forall st, grps st = [] -> m (Grp 2 (L "#")) st (fun st => Some {| m_start := p; m_end := pos st; m_grps := grps st |})
    = match rest st with
      | c :: _ => if ceq c cHASH then Some {| m_start := p; m_end := pos st + 1; m_grps := [(2, (pos st, pos st + 1))] |} else None
      | [] => None end) as Hm.
  { intros st G. cbn [m L L_ lit list_ascii_of_string C]. unfold L, lit. cbn [list_ascii_of_string L_ C m]. unfold C. cbn [m].
    destruct (rest st) as [|c t] eqn:R; [reflexivity|]. rewrite (ceq_sym _ c).
    change "#"%char with cHASH. destruct (ceq c cHASH); [|reflexivity]. unfold adv. rewrite R. cbn [pos grps].
    rewrite G. rewrite Nat.add_1_r. reflexivity. }
  induction s as [|c s IH]; intros st R G; cbn [star_k spaces_hash].
  - rewrite Hm by exact G. rewrite R. reflexivity.
  - destruct (is_space c) eqn:S.
    + rewrite IH; [|unfold adv; rewrite R; reflexivity|rewrite adv_grps; exact G].
      assert (pos (adv st) = Datatypes.S (pos st)) as Hp by (unfold adv; rewrite R; reflexivity). rewrite Hp.
      destruct (spaces_hash s) as [n|]; cbn [option_map].
      * replace (Datatypes.S (pos st) + n) with (pos st + Datatypes.S n) by lia. reflexivity.
      * rewrite Hm by exact G. rewrite R. rewrite (space_not_hash c S). reflexivity.
    + rewrite Hm by exact G. rewrite R. destruct (ceq c cHASH); [|reflexivity].
      cbn [option_map]. rewrite !Nat.add_0_r. reflexivity.
Qed.
Lemma match_at_hash prev p s : match_at DETECT_TRAILING_COMMENT prev p s =
  match s with
  | c :: s' => if is_space c then option_map (fun n => {| m_start := p; m_end := p + 1 + n + 1; m_grps := [(2, (p + 1 + n, p + 1 + n + 1))] |}) (spaces_hash s') else None
  | [] => None
  end.
Proof.
  unfold match_at, DETECT_TRAILING_COMMENT. cbn [seqs]. unfold WS.
  match goal with |- m (Seq ?a (Seq ?b ?c)) ?st ?k = _ => change (m (Seq a (Seq b c)) st k) with (m a st (fun st' => m b st' (fun st'' => m c st'' k))) end.
  destruct s as [|c s]; [reflexivity|]. cbn [m start_st rest]. destruct (is_space c) eqn:S; [|reflexivity].
  cbn [adv start_st rest].
  match goal with |- star_k is_space s ?st ?k = _ => etransitivity; [exact (star_hash p s st eq_refl eq_refl)|] end.
  cbn [pos]. unfold start_st. cbn [pos]. rewrite Nat.add_1_r. reflexivity.
Qed.
Lemma search_hash s : forall prev p, option_map (group_start 2) (search_from DETECT_TRAILING_COMMENT prev p s)
  = option_map (fun n => Some (p + n)) (hash_from false s).
Proof.
  induction s as [|c s IH]; intros prev p; cbn [search_from hash_from andb]; rewrite match_at_hash; [reflexivity|].
  destruct (is_space c) eqn:S.
  - rewrite hash_from_true. destruct (spaces_hash s) as [n|]; cbn [option_map].
    + unfold group_start. cbn [m_grps find fst Nat.eqb option_map snd]. do 2 f_equal. lia.
    + rewrite IH. destruct (hash_from false s); cbn [option_map]; [|reflexivity]. do 2 f_equal. lia.
  - rewrite IH. destruct (hash_from false s); cbn [option_map]; [|reflexivity]. do 2 f_equal. lia.
Qed.
Lemma line_comment_spec s : line_comment s = match hash_from false s with Some n => skipn n s | None => [] end.
Proof.
  unfold line_comment, re_search. pose proof (search_hash s None 0) as H.
  destruct (search_from DETECT_TRAILING_COMMENT None 0 s) as [x|], (hash_from false s) as [n|]; cbn [option_map] in H;
    try discriminate; [|reflexivity]. injection H as ->. reflexivity.
Qed.
Lemma hash_from_app_none a : forall sp b, hash_from sp (a ++ b) = None -> hash_from sp a = None.
Proof.
  induction a as [|c a IH]; intros sp b H; [reflexivity|]. cbn [app hash_from] in *.
  destruct (sp && ceq c cHASH); [discriminate|]. destruct (hash_from (is_space c) (a ++ b)) eqn:K; [discriminate|].
  rewrite (IH _ _ K). reflexivity.
Qed.
Lemma hash_from_mark s : hash_from false s <> None -> comment_mark s.
Proof.
  assert (forall s c, is_space c = true -> hash_from true s <> None -> comment_mark (c :: s)) as G1.
  { clear s. intros s. assert (forall sp, hash_from sp s <> None -> (sp = true /\ exists b, s = cHASH :: b) \/ comment_mark s) as G.
    { induction s as [|d s IH]; intros sp H; [contradiction|]. cbn [hash_from] in H.
      destruct (sp && ceq d cHASH) eqn:K.
      - apply andb_prop in K as [-> K]. apply ceq_eq in K as ->. left. eauto.
      - right. destruct (hash_from (is_space d) s) eqn:K2; [|contradiction].
        destruct (IH (is_space d)) as [[S [b ->]]|(a & e & b & -> & S)].
        + rewrite K2. discriminate.
        + exists [], d, b. auto.
        + exists (d :: a), e, b. auto. }
    intros c S H. destruct (G _ H) as [[_ [b ->]]|(a & e & b & -> & S2)].
    - exists [], c, b. auto.
    - exists (c :: a), e, b. auto. }
  induction s as [|c s IH]; intros H; [contradiction|]. cbn [hash_from andb] in H.
  destruct (hash_from (is_space c) s) eqn:K; [|contradiction].
  destruct (is_space c) eqn:S.
  - apply G1; [exact S|]. rewrite K. discriminate.
  - destruct IH as (a & e & b & -> & S2); [rewrite K; discriminate|]. exists (c :: a), e, b. auto.
Qed.
Lemma hash_from_snoc b : forall sp c, hash_from sp b = None -> ceq c cHASH = false -> hash_from sp (b ++ [c]) = None.
Proof.
  induction b as [|d b IH]; intros sp c H N; cbn [app hash_from] in *.
  - rewrite N, andb_false_r. reflexivity.
  - destruct (sp && ceq d cHASH); [discriminate|]. destruct (hash_from (is_space d) b) eqn:K; [discriminate|].
    rewrite IH by assumption. reflexivity.
Qed.
Lemma hash_from_at a c r : forall sp, hash_from sp a = None -> is_space c = true ->
  hash_from sp (a ++ c :: cHASH :: r) = Some (length a + 1).
Proof.
  induction a as [|d a IH]; intros sp H S; cbn [app hash_from length] in *.
  - rewrite (space_not_hash c S), andb_false_r, S. reflexivity.
  - destruct (sp && ceq d cHASH); [discriminate|]. destruct (hash_from (is_space d) a) eqn:K; [discriminate|].
    rewrite IH by assumption. reflexivity.
Qed.

(** * Stripping *)
Lemma lstrip_app x y : (exists c, In c x /\ is_space c = false) -> lstrip (x ++ y) = lstrip x ++ y.
Proof.
  induction x as [|d x IH]; intros (c & I & S); [destruct I|]. cbn [app lstrip]. destruct (is_space d) eqn:D; [|reflexivity].
  apply IH. exists c. split; [|exact S]. destruct I as [->|I]; [congruence|exact I].
Qed.
Lemma lstrip_snoc x c : is_space c = false -> lstrip (x ++ [c]) = lstrip x ++ [c].
Proof.
  intros S. induction x as [|d x IH]; cbn [app lstrip]; [rewrite S; reflexivity|]. destruct (is_space d); [exact IH|reflexivity].
Qed.
Lemma rstrip_app u t : (exists c, In c t /\ is_space c = false) -> rstrip (u ++ t) = u ++ rstrip t.
Proof.
  intros (c & I & S). unfold rstrip. rewrite rev_app_distr, lstrip_app, rev_app_distr, rev_involutive; [reflexivity|].
  exists c. split; [apply -> in_rev; exact I|exact S].
Qed.
Lemma rstrip_cons c t : is_space c = false -> rstrip (c :: t) = c :: rstrip t.
Proof. intros S. unfold rstrip. cbn [rev]. rewrite lstrip_snoc by exact S. rewrite rev_app_distr. reflexivity. Qed.
Lemma rstrip_idem s : rstrip (rstrip s) = rstrip s.
Proof. unfold rstrip. rewrite rev_involutive, lstrip_idem. reflexivity. Qed.
Lemma rstrip_blank s : exists w, s = rstrip s ++ w /\ blank w.
Proof.
  destruct (lstrip_blank (rev s)) as (b & B & E). exists (rev b). split.
  - unfold rstrip. rewrite <- rev_app_distr, <- E, rev_involutive. reflexivity.
  - intros c I. apply B. apply in_rev. exact I.
Qed.
Lemma rstrip_clean s : ends_clean s -> rstrip s = s.
Proof.
  intros H. destruct s as [|d s _] using rev_ind; [reflexivity|]. unfold rstrip. rewrite rev_app_distr. cbn [rev app lstrip].
  rewrite (H s d eq_refl). cbn [rev]. rewrite rev_involutive. reflexivity.
Qed.
Lemma spaces_app a b : spaces (a + b) = spaces a ++ spaces b.
Proof. unfold spaces. apply repeat_app. Qed.
Lemma lstrip_spaces i s : lstrip (spaces i ++ s) = lstrip s.
Proof. induction i as [|i IH]; [reflexivity|]. exact IH. Qed.
Lemma num_tab_spaces_plain i c s : is_space c = false -> num_tab_spaces (spaces i ++ c :: s) = i.
Proof.
  intros S. induction i as [|i IH].
  - cbn [spaces repeat app num_tab_spaces]. destruct (ceq c cSP) eqn:E; [|reflexivity]. apply ceq_eq in E as ->. discriminate.
  - cbn [spaces repeat app num_tab_spaces]. rewrite ceq_refl. f_equal. exact IH.
Qed.

Lemma starts_plain_hd s : starts_plain s -> exists c, In c s /\ is_space c = false.
Proof. intros (c & t & -> & S & _). exists c. split; [left; reflexivity|exact S]. Qed.
Lemma starts_plain_app s t : starts_plain s -> starts_plain (s ++ t).
Proof. intros (c & u & -> & S & H). exists c, (u ++ t). auto. Qed.
Lemma starts_plain_rstrip s : starts_plain s -> starts_plain (rstrip s).
Proof. intros (c & t & -> & S & H). rewrite rstrip_cons by exact S. exists c, (rstrip t). auto. Qed.
Lemma line_start u b c : starts_plain b -> line u b c = u ++ line [] b c.
Proof. intros P. unfold line. cbn [app]. apply rstrip_app. apply starts_plain_hd. apply starts_plain_app. exact P. Qed.
Lemma line_plain b c : starts_plain b -> starts_plain (line [] b c).
Proof. intros P. unfold line. cbn [app]. apply starts_plain_rstrip, starts_plain_app. exact P. Qed.
Lemma line_dash i b c : line (spaces i ++ $"- ") b c = line (spaces i) ($"- " ++ b) c.
Proof. unfold line. rewrite <- !app_assoc. reflexivity. Qed.
Lemma line_rstrip b c : rstrip (line [] b c) = line [] b c.
Proof. unfold line. apply rstrip_idem. Qed.
Lemma line_strip i b c : starts_plain b -> strip (line (spaces i) b c) = line [] b c.
Proof.
  intros P. unfold strip. replace (rstrip (line (spaces i) b c)) with (line (spaces i) b c) by (unfold line; rewrite rstrip_idem; reflexivity).
  rewrite line_start by exact P. rewrite lstrip_spaces. destruct (line_plain b c P) as (d & t & -> & S & _).
  cbn [lstrip]. rewrite S. reflexivity.
Qed.
Lemma line_indent i b c : starts_plain b -> num_tab_spaces (line (spaces i) b c) = i.
Proof.
  intros P. rewrite line_start by exact P. destruct (line_plain b c P) as (d & t & -> & S & _). apply num_tab_spaces_plain. exact S.
Qed.
Lemma line_nonblank i b c : starts_plain b -> is_nil (strip (line (spaces i) b c)) = false.
Proof. intros P. rewrite line_strip by exact P. destruct (line_plain b c P) as (d & t & -> & S & _). reflexivity. Qed.
Lemma line_not_nil i b c : starts_plain b -> is_nil (line (spaces i) b c) = false.
Proof.
  intros P. rewrite line_start by exact P. destruct (line_plain b c P) as (d & t & -> & S & _). destruct (spaces i); reflexivity.
Qed.
Lemma line_not_hash b c : starts_plain b -> starts_with [cHASH] (line [] b c) = false.
Proof.
  intros P. destruct (line_plain b c P) as (d & t & -> & S & H). cbn [starts_with].
  destruct (ceq cHASH d) eqn:E; [apply ceq_eq in E; congruence|reflexivity].
Qed.
Lemma line_with_comment b c : c <> [] -> ends_clean c -> line [] b c = b ++ $"  " ++ c.
Proof.
  intros N H. unfold line. cbn [app]. apply rstrip_clean.
  intros t d E. destruct c as [|e c _] using rev_ind; [contradiction|]. apply (H c d).
  change (lit "  ") with ([cSP; cSP] : str) in E. rewrite !app_assoc in E. apply app_inj_tail in E as [_ ->]. reflexivity.
Qed.
Lemma line_comment_line b c : separable b c -> line_comment (line [] b c) = c.
Proof.
  intros (P & NM & CT). rewrite line_comment_spec.
  assert (hash_from false b = None) as Hb.
  { destruct (hash_from false b) eqn:E; [|reflexivity]. exfalso. apply NM, hash_from_mark. rewrite E. discriminate. }
  assert (hash_from false (b ++ [cSP]) = None) as Hb1 by (apply hash_from_snoc; [exact Hb|reflexivity]).
  destruct CT as [->|[[t ->] EC]].
  - assert (hash_from false (line [] b []) = None) as ->; [|reflexivity].
    unfold line. cbn [app]. rewrite app_nil_r. destruct (rstrip_blank (b ++ $"  ")) as (w & E & _).
    apply (hash_from_app_none _ false w). rewrite <- E. change (lit "  ") with ([cSP] ++ [cSP] : str). rewrite app_assoc.
    apply hash_from_snoc; [exact Hb1|reflexivity].
  - rewrite line_with_comment; [|discriminate|exact EC].
    change (b ++ $"  " ++ cHASH :: t) with (b ++ [cSP] ++ cSP :: cHASH :: t). rewrite app_assoc.
    rewrite hash_from_at; [|exact Hb1|reflexivity].
    rewrite app_length. cbn [length].
    replace ((b ++ [cSP]) ++ cSP :: cHASH :: t) with (((b ++ [cSP]) ++ [cSP]) ++ cHASH :: t) by (rewrite <- !app_assoc; reflexivity).
    replace (length b + 1 + 1) with (length ((b ++ [cSP]) ++ [cSP])) by (rewrite !app_length; reflexivity).
    rewrite skipn_app, skipn_all, Nat.sub_diag. reflexivity.
Qed.

(** * Block marks *)
Lemma lang_mark r u : lang (seqs [L ":"; WS1; Grp 1 (Alt (L "|") (L ">")); r]) u ->
  exists w c b, u = $":" ++ w ++ c :: b /\ w <> [] /\ blank w /\ (c = "|"%char \/ c = ">"%char).
Proof.
  cbn [seqs lang]. intros (x & y & -> & H1 & w & z & -> & H2 & g & b & -> & H3 & _).
  apply lang_L_char in H1 as ->.
  unfold WS1, WS in H2. cbn [lang] in H2. destruct H2 as (w1 & w2 & -> & (d & -> & D) & F).
  exists ([d] ++ w2). destruct H3 as [H3|H3]; apply lang_L_char in H3 as ->.
  - exists "|"%char, b. split; [reflexivity|]. split; [discriminate|]. split; [|auto].
    intros c [<-|I]; [exact D|]. rewrite Forall_forall in F. apply F. exact I.
  - exists ">"%char, b. split; [reflexivity|]. split; [discriminate|]. split; [|auto].
    intros c [<-|I]; [exact D|]. rewrite Forall_forall in F. apply F. exact I.
Qed.
Definition AFTER_MARK : re := seqs [Opt (Grp 2 (Alt (L "+") (L "-"))); Grp 3 (Alt WS (seqs [WS1; L "#"; DOTS]))].
Lemma multiline_parts {A} st (k : mst -> option A) : m MULTILINE st k =
  m WS st (fun st1 => m DOTS st1 (fun st2 => m (seqs [L ":"; WS1; Grp 1 (Alt (L "|") (L ">")); AFTER_MARK]) st2 k)).
Proof. reflexivity. Qed.
Lemma no_mark_no_match s : ~ block_mark s -> re_match MULTILINE s = None.
Proof.
  intros N. unfold re_match, match_at. rewrite multiline_parts.
  match goal with |- ?x = None => destruct x eqn:E; [|reflexivity] end.
  exfalso. apply N. apply m_sound in E as (w & st1 & H1 & _ & E). apply m_sound in E as (d & st2 & H2 & _ & E).
  apply m_sound in E as (u & st3 & H3 & HL & _). apply lang_mark in HL as (w2 & c & b & -> & W & B & Hc).
  cbn [start_st rest] in H1. exists (w ++ d), w2, c, (b ++ rest st3). split; [|auto].
  rewrite H1, H2, H3. rewrite <- !app_assoc. reflexivity.
Qed.
Lemma block_mark_spaces i s : block_mark (spaces i ++ s) -> block_mark s.
Proof.
  intros (a & w & c & b & E & W). exists (skipn i a), w, c, b. split; [|exact W].
  revert a E. induction i as [|i IH]; intros a E; [exact E|]. destruct a as [|d a].
  - cbn [spaces repeat app] in E. discriminate.
  - cbn [spaces repeat app] in E. injection E as _ E. cbn [skipn]. apply IH. exact E.
Qed.
