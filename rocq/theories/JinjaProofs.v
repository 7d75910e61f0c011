(** Markers, and lines with Jinja expressions (proofs only). *)
From Verif Require Export RenderProofs.

(** * C43 *)
Lemma split_sep (M u v a b : str) c : ~ In c M -> M <> [] -> u ++ c :: v = a ++ M ++ b ->
  (exists b', u = a ++ M ++ b' /\ b = b' ++ c :: v) \/ (exists a', a = u ++ c :: a' /\ v = a' ++ M ++ b).
Proof.
  intros N NE. revert a. induction u as [|d u IH]; intros a E.
  - destruct a as [|e a].
    + exfalso. destruct M as [|x M]; [congruence|]. injection E as -> _. apply N. left. reflexivity.
    + injection E as <- E. right. exists a. auto.
  - destruct a as [|e a].
    + cbn [app] in E. assert (exists b', d :: u = M ++ b' /\ b = b' ++ c :: v) as (b' & E1 & E2); [|left; exists b'; auto].
      clear IH NE. change (d :: u ++ c :: v) with ((d :: u) ++ c :: v) in E. revert E. generalize (d :: u). clear d u. intros u.
      revert u. induction M as [|x M IHM]; intros u E.
      * exists u. auto.
      * destruct u as [|y u]; [injection E as -> _; exfalso; apply N; left; reflexivity|]. injection E as <- E.
        destruct (IHM (fun I => N (or_intror I)) u E) as (b' & -> & ->). exists b'. auto.
    + injection E as <- E. destruct (IH a E) as [(b' & -> & ->)|(a' & -> & ->)]; [left; exists b'|right; exists a']; auto.
Qed.
Lemma marker_chars : ~ In "{"%char marker /\ ~ In "}"%char marker /\ marker <> [].
Proof. repeat split; [intros I; apply existsb_In in I; vm_compute in I; discriminate..|discriminate]. Qed.
Lemma before_no p : before_marker p -> ~ has_text marker p.
Proof.
  intros B (a & b & ->). assert (b ++ marker = []) as E by (apply (B a); rewrite <- !app_assoc; reflexivity).
  apply app_eq_nil in E as [_ E]. exact (proj2 (proj2 marker_chars) E).
Qed.
Lemma before_step q x p : ~ has_text marker q -> jinja_expression x -> ~ has_text marker x -> before_marker p -> before_marker (q ++ x ++ p).
Proof.
  intros NQ (body & ->) NX B a b E. destruct marker_chars as (MO & MC & NE).
  assert (q ++ "{"%char :: (("{"%char :: body) ++ ["}"%char]) ++ "}"%char :: (p ++ marker) = a ++ marker ++ b) as E'.
  { rewrite <- E. rewrite <- !app_assoc. cbn [app]. reflexivity. }
  apply (split_sep marker) in E' as [(b' & -> & _)|(a' & -> & E')]; [exfalso; apply NQ; exists a, b'; reflexivity| |exact MO|exact NE].
  apply (split_sep marker) in E' as [(b' & E' & _)|(a'' & -> & E')]; [| |exact MC|exact NE].
  - exfalso. apply NX. exists ("{"%char :: a'), (b' ++ ["}"%char]).
    change ($"{{" ++ body ++ $"}}") with ("{"%char :: ("{"%char :: body) ++ $"}}"). cbn [app]. f_equal.
    transitivity ((("{"%char :: body) ++ ["}"%char]) ++ ["}"%char]); [rewrite <- app_assoc; reflexivity|]. rewrite E', <- !app_assoc. reflexivity.
  - exact (B _ _ E').
Qed.
Lemma sw_app_false p q r : (forall b, q ++ p = p ++ b -> b = []) -> q <> [] -> p <> [] -> starts_with p (q ++ p ++ r) = false.
Proof.
  intros H NQ NP. destruct (starts_with p (q ++ p ++ r)) eqn:E; [|reflexivity]. apply starts_with_spec in E as (b & E). exfalso.
  assert (exists b', q ++ p = p ++ b') as (b' & E').
  { clear H NP. exists (skipn (length p) (q ++ p)). assert (firstn (length p) (q ++ p) = p) as F.
    { rewrite app_assoc in E. apply (f_equal (firstn (length p))) in E. rewrite (firstn_app (length p) (q ++ p) r), (firstn_app (length p) p b) in E.
      rewrite Nat.sub_diag in E. replace (length p - length (q ++ p)) with 0 in E by (rewrite app_length; lia). rewrite !firstn_O, !app_nil_r, firstn_all in E. exact E. }
    transitivity (firstn (length p) (q ++ p) ++ skipn (length p) (q ++ p)); [symmetry; apply firstn_skipn|]. rewrite F at 1. reflexivity. }
  specialize (H b' E') as ->. rewrite app_nil_r in E'. apply (f_equal (@length _)) in E'. rewrite app_length in E'. destruct q; [congruence|cbn [length] in E'; lia].
Qed.
Lemma replace_first_at q x r : before_marker q -> replace_first marker x (q ++ marker ++ r) = q ++ x ++ r.
Proof.
  destruct marker_chars as (_ & _ & NE). induction q as [|c q IH]; intros B.
  - cbn [app]. assert (starts_with marker (marker ++ r) = true) as S by (apply starts_with_spec; eauto).
    destruct (marker ++ r) eqn:E; [apply app_eq_nil in E as [E _]; congruence|]. cbn [replace_first]. rewrite S, <- E.
    rewrite skipn_app, skipn_all, Nat.sub_diag. reflexivity.
  - cbn [app replace_first]. change (c :: q ++ marker ++ r) with ((c :: q) ++ marker ++ r).
    rewrite sw_app_false; [|intros b E; apply (B [] b E)|discriminate|exact NE].
    f_equal. apply IH. intros a b E. apply (B (c :: a) b). cbn [app]. f_equal. exact E.
Qed.
Lemma contains_marker q r : contains_sub marker (q ++ marker ++ r) = true.
Proof. apply contains_sub_spec. exists q, r. reflexivity. Qed.
Lemma sub_markers ps : forall xs q last, Forall before_marker ps -> Forall fits xs -> length xs <= length ps ->
  (match ps with p :: _ => before_marker (q ++ p) | [] => True end) -> (ps <> [] -> ~ has_text marker q) ->
  substitute_markers_mut xs (q ++ marked ps ++ last) = (q ++ filled ps xs ++ marked (skipn (length xs) ps) ++ last, []).
Proof.
  induction ps as [|p ps IH]; intros xs q last FP FX HL B NQ.
  - destruct xs; [reflexivity|cbn [length] in HL; lia].
  - destruct xs as [|x xs]; [reflexivity|]. cbn [substitute_markers_mut]. inversion FP as [|? ? Bp FP']; subst. inversion FX as [|? ? [JX NX] FX']; subst.
    assert (q ++ marked (p :: ps) ++ last = (q ++ p) ++ marker ++ marked ps ++ last) as -> by (unfold marked; cbn [map concat]; rewrite <- !app_assoc; reflexivity).
    change SUB_MARKER with marker. rewrite contains_marker, replace_first_at by exact B.
    assert (q ++ filled (p :: ps) (x :: xs) ++ marked (skipn (length (x :: xs)) (p :: ps)) ++ last =
            (q ++ p ++ x) ++ filled ps xs ++ marked (skipn (length xs) ps) ++ last) as -> by (cbn [filled length skipn]; rewrite <- !app_assoc; reflexivity).
    assert ((q ++ p) ++ x ++ marked ps ++ last = (q ++ p ++ x) ++ marked ps ++ last) as -> by (rewrite <- !app_assoc; reflexivity).
    assert (~ has_text marker (q ++ p)) as NQP by (apply before_no; exact B).
    assert (forall p', before_marker p' -> before_marker ((q ++ p ++ x) ++ p')) as ST.
    { intros p' B'. replace ((q ++ p ++ x) ++ p') with ((q ++ p) ++ x ++ p') by (rewrite <- !app_assoc; reflexivity). apply before_step; assumption. }
    apply IH; [exact FP'|exact FX'|cbn [length] in HL; lia| |].
    + destruct ps as [|p' ps]; [exact I|]. inversion FP'; subst. apply ST. assumption.
    + destruct ps as [|p' ps]; [congruence|]. intros _. inversion FP' as [|? ? Bp' _]; subst.
      intros (a & b & E). apply (before_no _ (ST p' Bp')). exists a, (b ++ p'). rewrite E, <- !app_assoc. reflexivity.
Qed.
Lemma filled_app ps xs ys : length ps = length xs -> filled ps (xs ++ ys) = filled ps xs.
Proof.
  revert xs. induction ps as [|p ps IH]; intros [|x xs] E; try discriminate; [destruct ys; reflexivity|]. cbn [filled app].
  f_equal. f_equal. apply IH. cbn [length] in E. lia.
Qed.
Lemma filled_clean ps : forall xs q last, Forall before_marker ps -> Forall fits xs -> length xs = length ps -> ~ has_text marker last ->
  ~ has_text marker q -> (match ps with p :: _ => before_marker (q ++ p) | [] => ~ has_text marker (q ++ last) end) ->
  ~ has_text marker (q ++ filled ps xs ++ last).
Proof.
  induction ps as [|p ps IH]; intros xs q last FP FX HL NLast NQ B.
  - cbn [filled app]. exact B.
  - destruct xs as [|x xs]; [discriminate|]. inversion FP as [|? ? Bp FP']; subst. inversion FX as [|? ? [JX NX] FX']; subst.
    cbn [filled]. replace (q ++ (p ++ x ++ filled ps xs) ++ last) with ((q ++ p ++ x) ++ filled ps xs ++ last) by (rewrite <- !app_assoc; reflexivity).
    assert (~ has_text marker (q ++ p)) as NQP by (apply before_no; exact B).
    assert (~ has_text marker (q ++ p ++ x)) as NQX.
    { destruct JX as (body & ->). destruct marker_chars as (MO & MC & NE). intros (a & b & E).
      replace (q ++ p ++ $"{{" ++ body ++ $"}}") with ((q ++ p) ++ "{"%char :: ("{"%char :: body ++ $"}}")) in E by (rewrite <- !app_assoc; reflexivity).
      apply (split_sep marker) in E as [(b' & E & _)|(a' & _ & E)]; [apply NQP; exists a, b'; exact E| |exact MO|exact NE].
      apply NX. exists ("{"%char :: a'), b. cbn [app]. rewrite <- E. reflexivity. }
    apply IH; [exact FP'|exact FX'|cbn [length] in HL; lia|exact NLast|exact NQX|].
    destruct ps as [|p' ps].
    + intros (a & b & E). destruct JX as (body & ->). destruct marker_chars as (MO & MC & NE).
      replace ((q ++ p ++ $"{{" ++ body ++ $"}}") ++ last) with ((q ++ p ++ $"{{" ++ body ++ ["}"%char]) ++ "}"%char :: last) in E by (rewrite <- !app_assoc; reflexivity).
      apply (split_sep marker) in E as [(b' & E & _)|(a' & _ & E)]; [|apply NLast; exists a', b; exact E|exact MC|exact NE].
      apply NQX. exists a, (b' ++ ["}"%char]). 
      transitivity ((q ++ p ++ $"{{" ++ body ++ ["}"%char]) ++ ["}"%char]); [rewrite <- !app_assoc; reflexivity|]. rewrite E, <- !app_assoc. reflexivity.
    + inversion FP'; subst. replace ((q ++ p ++ x) ++ p') with ((q ++ p) ++ x ++ p') by (rewrite <- !app_assoc; reflexivity). apply before_step; assumption.
Qed.
Lemma c43 ps last xs : Forall before_marker ps -> Forall fits xs -> length xs <= length ps ->
  substitute_markers (marked ps ++ last) xs = filled ps xs ++ marked (skipn (length xs) ps) ++ last.
Proof.
  intros FP FX HL. unfold substitute_markers.
  assert (~ has_text marker []) as NN by (apply has_text_nil; exact (proj2 (proj2 marker_chars))).
  pose proof (sub_markers ps xs [] last FP FX HL) as H. cbn [app] in H. rewrite H; [reflexivity| |intros _; exact NN].
  destruct ps; [exact I|]. inversion FP; assumption.
Qed.
Lemma sub_app xs : forall ys s s', substitute_markers_mut xs s = (s', []) -> substitute_markers_mut (xs ++ ys) s = substitute_markers_mut ys s'.
Proof.
  induction xs as [|x xs IH]; intros ys s s' H; cbn [substitute_markers_mut app] in *; [injection H as ->; reflexivity|].
  destruct (contains_sub SUB_MARKER s); [apply IH; exact H|discriminate].
Qed.
Lemma c43_rest ps last xs ys : Forall before_marker ps -> Forall fits xs -> length xs = length ps -> ~ has_text marker last ->
  substitute_markers_mut (xs ++ ys) (marked ps ++ last) = (filled ps xs ++ last, ys).
Proof.
  intros FP FX HL NLast. assert (~ has_text marker []) as NN by (apply has_text_nil; exact (proj2 (proj2 marker_chars))).
  assert (match ps with p :: _ => before_marker ([] ++ p) | [] => True end) as B by (destruct ps; [exact I|inversion FP; assumption]).
  pose proof (sub_markers ps xs [] last FP FX ltac:(lia) B (fun _ => NN)) as H. cbn [app] in H.
  rewrite (sub_app xs ys _ _ H). rewrite HL, skipn_all. cbn [marked map concat app].
  assert (~ has_text marker (filled ps xs ++ last)) as NF.
  { apply (filled_clean ps xs [] last FP FX HL NLast NN). destruct ps; [exact NLast|exact B]. }
  change (marked [] ++ last) with last.
  destruct ys as [|y ys]; [reflexivity|]. cbn [substitute_markers_mut]. change SUB_MARKER with marker.
  destruct (contains_sub marker (filled ps xs ++ last)) eqn:E; [apply contains_sub_spec in E; contradiction|reflexivity].
Qed.
(** Every text has such a decomposition. *)
Lemma first_marker s : has_text marker s -> exists p r, s = p ++ marker ++ r /\ before_marker p.
Proof.
  destruct marker_chars as (_ & _ & NE).
  induction s as [|c s IH]; intros H; [exfalso; revert H; apply has_text_nil; exact NE|].
  destruct (starts_with marker (c :: s)) eqn:S.
  - apply starts_with_spec in S as (b & E). exists [], b. split; [exact E|]. intros a b' E'. cbn [app] in E'.
    apply (f_equal (@length _)) in E'. rewrite !app_length in E'. destruct b'; [reflexivity|cbn [length] in E'; lia].
  - destruct IH as (p & r & E & B).
    { destruct H as (a & b & E). destruct a as [|d a]; [exfalso; assert (starts_with marker (c :: s) = true) by (apply starts_with_spec; exists b; exact E); congruence|].
      injection E as -> ->. exists a, b. reflexivity. }
    exists (c :: p), r. split; [rewrite E; reflexivity|]. intros a b E'. destruct a as [|d a].
    + exfalso. cbn [app] in E'. assert (starts_with marker (c :: s) = true); [|congruence].
      apply starts_with_spec. exists (b ++ r). rewrite E. transitivity ((c :: p ++ marker) ++ r); [cbn [app]; rewrite <- app_assoc; reflexivity|].
      rewrite E', <- app_assoc. reflexivity.
    + cbn [app] in E'. injection E' as -> E'. exact (B _ _ E').
Qed.
Lemma c43_decompose s : exists ps last, s = marked ps ++ last /\ Forall before_marker ps /\ ~ has_text marker last.
Proof.
  remember (length s) as n eqn:HN. revert s HN. induction n as [n IH] using lt_wf_ind. intros s ->.
  destruct (contains_sub marker s) eqn:C.
  - apply contains_sub_spec, first_marker in C as (p & r & -> & B).
    destruct (IH (length r)) with (s := r) as (ps & last & E & F & N); [rewrite !app_length; change (length marker) with 38; lia|reflexivity|].
    exists (p :: ps), last. split; [unfold marked; cbn [map concat]; fold (marked ps); rewrite <- !app_assoc, <- E; reflexivity|]. split; [constructor; assumption|exact N].
  - exists [], s. split; [reflexivity|]. split; [constructor|]. rewrite <- contains_sub_spec. congruence.
Qed.
Lemma c43_source s x : In x (findall JINJA_V0_SUB s) -> jinja_expression x.
Proof.
  intros I. apply findall_lang in I; [|reflexivity]. apply lang_v0_sub in I as (w & v & u & -> & _). exists (w ++ v ++ u). rewrite <- !app_assoc. reflexivity.
Qed.


(** * Lines with Jinja expressions *)
Lemma cut_same (c : ascii) a : forall b v t, ~ In c a -> ~ In c b -> a ++ c :: v = b ++ c :: t -> a = b.
Proof.
  induction a as [|x a IH]; intros [|y b] v t NA NB E; [reflexivity| | |].
  - injection E as -> _. exfalso. apply NB. left. reflexivity.
  - injection E as -> _. exfalso. apply NA. left. reflexivity.
  - injection E as -> E. f_equal. apply (IH b v t); [intros I; apply NA; right; exact I|intros I; apply NB; right; exact I|exact E].
Qed.
Lemma expression_body x : expression x -> exists body, x = $"{{" ++ body ++ $"}}" /\ ~ In "}"%char body /\ ~ In "{"%char body.
Proof.
  intros (w & v & u & -> & Bw & Fv & Bu). exists (w ++ v ++ u). split; [rewrite <- !app_assoc; reflexivity|].
  rewrite Forall_forall in Fv.
  split; intros I; apply in_app_or in I as [I|I]; try (apply Bw in I; discriminate);
    apply in_app_or in I as [I|I]; try (apply Bu in I; discriminate);
    apply Fv, expression_chars in I; vm_compute in I; discriminate.
Qed.
Lemma expression_prefix x y s t : expression x -> expression y -> x ++ s = y ++ t -> x = y.
Proof.
  intros X Y E. apply expression_body in X as (a & -> & NA & _). apply expression_body in Y as (b & -> & NB & _).
  change ("{"%char :: "{"%char :: (a ++ $"}}") ++ s = "{"%char :: "{"%char :: (b ++ $"}}") ++ t) in E. injection E as E.
  rewrite <- !app_assoc in E. change (a ++ "}"%char :: ("}"%char :: s) = b ++ "}"%char :: ("}"%char :: t)) in E.
  rewrite (cut_same _ _ _ _ _ NA NB E). reflexivity.
Qed.
Lemma match_expression prev p x t : expression x ->
  exists y, match_at JINJA_V0_SUB prev p (x ++ t) = Some y /\ m_start y = p /\ m_end y = p + length x.
Proof.
  intros X. assert (lang JINJA_V0_SUB x) as LX by (apply lang_v0_sub; exact X).
  destruct (lang_match_at JINJA_V0_SUB prev p x t eq_refl LX) as (y & Hy). exists y. split; [exact Hy|].
  apply match_at_lang in Hy as (u & v & E & LU & S1 & S2); [|reflexivity]. apply lang_v0_sub in LU.
  rewrite (expression_prefix x u t v X LU E). auto.
Qed.
Lemma match_other prev p c s : c <> "{"%char -> match_at JINJA_V0_SUB prev p (c :: s) = None.
Proof.
  intros N. destruct (match_at JINJA_V0_SUB prev p (c :: s)) as [y|] eqn:K; [|reflexivity].
  apply match_at_lang in K as (u & v & E & LU & _); [|reflexivity]. apply lang_v0_sub in LU. apply expression_body in LU as (b & -> & _).
  injection E as -> _. congruence.
Qed.
Lemma expression_long x : expression x -> exists c k, x = c :: k.
Proof. intros X. apply expression_body in X as (b & -> & _). eexists _, _. reflexivity. Qed.
Lemma scan_skip r q : forall prev p s, exists prev', scan r prev p (length q) (q ++ s) = scan r prev' (p + length q) 0 s.
Proof.
  induction q as [|c q IH]; intros prev p s; [exists prev; cbn [length app]; rewrite Nat.add_0_r; reflexivity|].
  destruct (IH (Some c) (S p) s) as (prev' & H). exists prev'. cbn [length app scan]. rewrite H. f_equal. lia.
Qed.
Lemma sub_skip r whole f q : forall prev p s, exists prev', sub_aux r whole f prev p (length q) (q ++ s) = sub_aux r whole f prev' (p + length q) 0 s.
Proof.
  induction q as [|c q IH]; intros prev p s; [exists prev; cbn [length app]; rewrite Nat.add_0_r; reflexivity|].
  destruct (IH (Some c) (S p) s) as (prev' & H). exists prev'. cbn [length app sub_aux]. rewrite H. f_equal. lia.
Qed.
Lemma scan_piece q : forall prev p s, ~ In "{"%char q -> exists prev', scan JINJA_V0_SUB prev p 0 (q ++ s) = scan JINJA_V0_SUB prev' (p + length q) 0 s.
Proof.
  induction q as [|c q IH]; intros prev p s N; [exists prev; cbn [length app]; rewrite Nat.add_0_r; reflexivity|].
  destruct (IH (Some c) (S p) s) as (prev' & H); [intros I; apply N; right; exact I|]. exists prev'. cbn [length app scan].
  rewrite match_other by (intros ->; apply N; left; reflexivity). rewrite H. f_equal. lia.
Qed.
Lemma sub_piece whole f q : forall prev p s, ~ In "{"%char q ->
  exists prev', sub_aux JINJA_V0_SUB whole f prev p 0 (q ++ s) = q ++ sub_aux JINJA_V0_SUB whole f prev' (p + length q) 0 s.
Proof.
  induction q as [|c q IH]; intros prev p s N; [exists prev; cbn [length app]; rewrite Nat.add_0_r; reflexivity|].
  destruct (IH (Some c) (S p) s) as (prev' & H); [intros I; apply N; right; exact I|]. exists prev'. cbn [length app sub_aux].
  rewrite match_other by (intros ->; apply N; left; reflexivity). rewrite H. f_equal. f_equal. f_equal. lia.
Qed.
Lemma scan_expression prev p x s : expression x ->
  exists y prev', scan JINJA_V0_SUB prev p 0 (x ++ s) = y :: scan JINJA_V0_SUB prev' (p + length x) 0 s /\ m_start y = p /\ m_end y = p + length x.
Proof.
  intros X. destruct (match_expression prev p x s X) as (y & Hy & S1 & S2). destruct (expression_long x X) as (c & k & ->).
  destruct (scan_skip JINJA_V0_SUB k (Some c) (S p) s) as (prev' & H). exists y, prev'. split; [|auto].
  change ((c :: k) ++ s) with (c :: k ++ s) in *. cbn [scan]. rewrite Hy. f_equal.
  replace (m_end y - m_start y - 1) with (length k) by (rewrite S1, S2; cbn [length]; lia). rewrite H. f_equal. cbn [length]. lia.
Qed.
Lemma sub_expression whole f prev p x s : expression x ->
  exists y prev', sub_aux JINJA_V0_SUB whole f prev p 0 (x ++ s) = f y ++ sub_aux JINJA_V0_SUB whole f prev' (p + length x) 0 s.
Proof.
  intros X. destruct (match_expression prev p x s X) as (y & Hy & S1 & S2). destruct (expression_long x X) as (c & k & ->).
  destruct (sub_skip JINJA_V0_SUB whole f k (Some c) (S p) s) as (prev' & H). exists y, prev'.
  change ((c :: k) ++ s) with (c :: k ++ s) in *. cbn [sub_aux]. rewrite Hy. f_equal.
  replace (m_end y - m_start y - 1) with (length k) by (rewrite S1, S2; cbn [length]; lia). rewrite H. f_equal. cbn [length]. lia.
Qed.
Definition braceless (p : str) : Prop := ~ In "{"%char p.
Lemma scan_filled ps : forall xs last pre prev, length xs = length ps -> Forall braceless ps -> braceless last -> Forall expression xs ->
  map (group0 (pre ++ filled ps xs ++ last)) (scan JINJA_V0_SUB prev (length pre) 0 (filled ps xs ++ last)) = xs.
Proof.
  induction ps as [|q ps IH]; intros [|x xs] last pre prev HL FP BL FX; try discriminate HL.
  - cbn [filled app]. destruct (scan_piece last prev (length pre) [] BL) as (prev' & H). rewrite app_nil_r in H. rewrite H. reflexivity.
  - inversion FP as [|? ? BQ FP']; subst. inversion FX as [|? ? X FX']; subst. cbn [filled].
    rewrite <- (app_assoc q), <- (app_assoc x).
    destruct (scan_piece q prev (length pre) (x ++ filled ps xs ++ last) BQ) as (prev1 & ->).
    destruct (scan_expression prev1 (length pre + length q) x (filled ps xs ++ last) X) as (y & prev2 & -> & S1 & S2).
    cbn [map]. f_equal.
    + unfold group0. rewrite S1, S2, <- app_length. rewrite app_assoc. apply slice_mid.
    + replace (length pre + length q + length x) with (length (pre ++ q ++ x)) by (rewrite !app_length; lia).
      replace (pre ++ q ++ x ++ filled ps xs ++ last) with ((pre ++ q ++ x) ++ filled ps xs ++ last) by (rewrite <- !app_assoc; reflexivity).
      apply IH; [cbn [length] in HL; lia|assumption..].
Qed.
Lemma sub_filled whole ps : forall xs last prev p, length xs = length ps -> Forall braceless ps -> braceless last -> Forall expression xs ->
  sub_aux JINJA_V0_SUB whole (fun _ => marker) prev p 0 (filled ps xs ++ last) = marked ps ++ last.
Proof.
  induction ps as [|q ps IH]; intros [|x xs] last prev p HL FP BL FX; try discriminate HL.
  - cbn [filled app]. destruct (sub_piece whole (fun _ => marker) last prev p [] BL) as (prev' & H). rewrite app_nil_r in H. rewrite H. apply app_nil_r.
  - inversion FP as [|? ? BQ FP']; subst. inversion FX as [|? ? X FX']; subst. cbn [filled].
    rewrite <- (app_assoc q), <- (app_assoc x).
    destruct (sub_piece whole (fun _ => marker) q prev p (x ++ filled ps xs ++ last) BQ) as (prev1 & ->).
    destruct (sub_expression whole (fun _ => marker) prev1 (p + length q) x (filled ps xs ++ last) X) as (y & prev2 & ->).
    rewrite IH; [|cbn [length] in HL; lia|assumption..]. unfold marked. cbn [map concat]. rewrite <- !app_assoc. reflexivity.
Qed.

(** The recursion over a value, one step at a time. *)
Fixpoint sub_all (l : list json) (subs : list str) : list json * list str :=
  match l with
  | [] => ([], subs)
  | x :: l' => let '(y, subs1) := recursive_sub_markers x subs in let '(ys, subs2) := sub_all l' subs1 in (y :: ys, subs2)
  end.
Lemma sub_list l subs : recursive_sub_markers (JList l) subs = let '(l', s') := sub_all l subs in (JList l', s').
Proof. reflexivity. Qed.
Lemma sub_dict d subs : recursive_sub_markers (JDict d) subs = let '(l', s') := sub_all (map snd d) subs in (JDict (combine (map fst d) l'), s').
Proof.
  cbn [recursive_sub_markers].
  match goal with |- (let '(_, _) := ?g d subs in _) = _ =>
    assert (forall d subs, g d subs = let '(l', s') := sub_all (map snd d) subs in (combine (map fst d) l', s')) as H end.
  { clear. induction d as [|[k x] d IH]; intros subs; [reflexivity|]. cbn [map snd fst sub_all].
    destruct (recursive_sub_markers x subs) as [y s1]. rewrite IH. destruct (sub_all (map snd d) s1). reflexivity. }
  rewrite H. destruct (sub_all (map snd d) subs). reflexivity.
Qed.
Lemma combine_fst_snd {A B} (d : list (A * B)) : combine (map fst d) (map snd d) = d.
Proof. induction d as [|[a b] d IH]; [reflexivity|]. cbn [map combine fst snd]. rewrite IH. reflexivity. Qed.
Scheme restored_mut := Minimality for restored Sort Prop
  with restored_list_mut := Minimality for restored_list Sort Prop.
Lemma restored_sound v xs v' ys : restored v xs v' ys -> Forall fits xs -> recursive_sub_markers v xs = (v', ys) /\ Forall fits ys.
Proof.
  intros H. pattern v, xs, v', ys. revert v xs v' ys H.
  apply (restored_mut _ (fun l xs l' ys => Forall fits xs -> sub_all l xs = (l', ys) /\ Forall fits ys)); cbv beta.
  - intros ps last xs ys FP NL HL NQ FX. apply Forall_app in FX as [FX FY]. split; [|exact FY]. cbn [recursive_sub_markers].
    change (JStr (marked ps ++ last)) with (JP (PStr (marked ps ++ last))). cbv iota.
    rewrite c42_verbatim by (right; right; exact NQ). rewrite c43_rest by assumption. reflexivity.
  - intros p xs NS FX. split; [|exact FX]. destruct p; try reflexivity. exfalso. exact (NS _ eq_refl).
  - intros l xs l' ys _ IH FX. destruct (IH FX) as [E F]. split; [|exact F]. rewrite sub_list, E. reflexivity.
  - intros d xs d' ys EK _ IH FX. destruct (IH FX) as [E F]. split; [|exact F]. rewrite sub_dict, E, EK, combine_fst_snd. reflexivity.
  - intros xs FX. split; [reflexivity|exact FX].
  - intros v xs v' ys l l' zs _ IHv _ IHl FX. destruct (IHv FX) as [Ev Fy]. destruct (IHl Fy) as [El Fz]. split; [|exact Fz].
    cbn [sub_all]. rewrite Ev, El. reflexivity.
Qed.
Lemma filled_fits ps : forall xs last, length xs = length ps -> Forall expression xs -> ~ has_text marker (filled ps xs ++ last) -> Forall fits xs.
Proof.
  induction ps as [|p ps IH]; intros [|x xs] last HL FX N; try discriminate HL; [constructor|].
  inversion FX as [|? ? X FX']; subst. cbn [filled] in N. constructor.
  - split; [apply expression_body in X as (b & -> & _); exists b; reflexivity|]. intros (a & b & ->). apply N.
    exists (p ++ a), (b ++ filled ps xs ++ last). rewrite <- !app_assoc. reflexivity.
  - apply (IH xs last); [cbn [length] in HL; lia|exact FX'|]. intros (a & b & E). apply N. exists (p ++ x ++ a), b.
    rewrite <- !app_assoc, E. rewrite <- ?app_assoc. reflexivity.
Qed.
Lemma filled_exempt ps xs last : length xs = length ps -> xs <> [] -> Forall expression xs -> exempt (filled ps xs ++ last).
Proof.
  intros HL NE FX. destruct xs as [|x xs]; [congruence|]. destruct ps as [|p ps]; [discriminate|]. inversion FX as [|? ? X _]; subst.
  destruct X as (w & v & u & -> & Bw & Fv & Bu). left. exists w, v, u. split; [|auto]. cbn [filled].
  exists p, (filled ps xs ++ last). rewrite <- !app_assoc. reflexivity.
Qed.
Lemma parse_yaml_read E s j : read_as E s j -> parse_yaml E s None = Ok j.
Proof.
  intros [Y|(ps & last & xs & j0 & -> & HL & NE & FP & BL & FX & NM & NY & Y & HR)]; unfold parse_yaml; [rewrite Y; reflexivity|].
  assert (findall JINJA_V0_SUB (filled ps xs ++ last) = xs) as EF by (apply (scan_filled ps xs last [] None HL FP BL FX)).
  assert (re_sub JINJA_V0_SUB SUB_MARKER (filled ps xs ++ last) = marked ps ++ last) as ES by (apply (sub_filled _ ps xs last None 0 HL FP BL FX)).
  destruct (restored_sound _ _ _ _ HR (filled_fits ps xs last HL FX NM)) as [ER _].
  rewrite EF, ES, Y. cbn [ybind sub_jinja]. rewrite ER. cbn [fst yres_to_res].
  rewrite (c42_verbatim (filled ps xs ++ last) MNone) by (right; left; apply filled_exempt; assumption).
  destruct (yload E (filled ps xs ++ last)) as [j'| |] eqn:Y'; [exfalso; exact (NY j' eq_refl)|reflexivity..].
Qed.
Lemma c43_undone ps last xs :
  length xs = length ps -> Forall before_marker ps -> Forall (fun p => ~ In "{"%char p) ps -> ~ In "{"%char last ->
  Forall expression xs -> Forall fits xs ->
  substitute_markers (re_sub JINJA_V0_SUB SUB_MARKER (filled ps xs ++ last)) (findall JINJA_V0_SUB (filled ps xs ++ last)) = filled ps xs ++ last.
Proof.
  intros HL FB FP BL FX FF.
  assert (findall JINJA_V0_SUB (filled ps xs ++ last) = xs) as -> by (apply (scan_filled ps xs last [] None HL FP BL FX)).
  assert (re_sub JINJA_V0_SUB SUB_MARKER (filled ps xs ++ last) = marked ps ++ last) as -> by (apply (sub_filled _ ps xs last None 0 HL FP BL FX)).
  rewrite c43; [|exact FB|exact FF|lia]. rewrite HL, skipn_all. reflexivity.
Qed.
