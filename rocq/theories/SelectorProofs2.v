(** Proofs about selector expressions: precedence, combination, rendering, equality. *)
From Verif Require Export SelectorProofs HistProofs.
#[local] Arguments init_value : simpl never.

Lemma word_check s : match s with [] => false | _ => true end && forallb (fun c => negb (is_space c)) s = true -> word s.
Proof.
  intros H. apply andb_true_iff in H. destruct H as [H1 H2]. split; [intros ->; discriminate H1|].
  intros c Hc. rewrite forallb_forall in H2. apply negb_true_iff. apply H2. exact Hc.
Qed.

(** * Precedence *)
Lemma conjunction_grouped ws f : conjunction ws f -> right_grouped ws f.
Proof. induction 1; [apply rg_one; assumption|apply rg_and; assumption]. Qed.
Lemma conjunction_cases ws f : conjunction ws f -> operand ws f \/ exists a o b, ws = a ++ o :: b /\ says_and o.
Proof. destruct 1 as [ws f H|ws f o ws' g H1 H2 H3]; [left; exact H|right; eauto]. Qed.
Lemma python_grouped ws f : python_reading ws f -> ors_first ws -> right_grouped ws f.
Proof.
  induction 1 as [ws f H|ws f o ws' g H Ho HP IH]; intros HF; [apply conjunction_grouped; exact H|].
  destruct (conjunction_cases ws f H) as [H1|(a & o1 & b & -> & H1)].
  - apply rg_or; [exact H1|exact Ho|]. apply IH. intros a o1 b o2 c E H3.
    apply (HF (ws ++ o :: a) o1 b o2 c); [rewrite E, <- app_assoc; reflexivity|exact H3].
  - exfalso. apply (HF a o1 b o ws'); [rewrite <- app_assoc; reflexivity|exact H1|exact Ho].
Qed.
Lemma c32_partial text ws f : words_of text ws -> python_reading ws f -> ors_first ws -> forall p,
  get_selected_platforms (selector_parser (in_brackets text) SV0) p = f p.
Proof. intros HW HP HO p. exact (proj1 (c31 text ws f HW (python_grouped ws f HP HO) p)). Qed.
(** Every sequence of operands joined by operators has both readings. *)
Lemma python_implied ws g : python_reading ws g ->
  exists f, right_grouped ws f /\ forall p, f p = true -> g p = true.
Proof.
  induction 1 as [ws f H|ws f o ws' g H Ho HP (h & Hh & Eh)]; [exists f; split; [apply conjunction_grouped; exact H|auto]|].
  induction H as [ws f H|ws f o1 ws1 g1 H Ho1 HC (k & Hk & Ek)].
  - exists (fun p => f p || h p). split; [apply rg_or; assumption|]. intros p Hp.
    apply orb_true_iff in Hp as [Hp|Hp]; apply orb_true_iff; auto.
  - exists (fun p => f p && k p). rewrite <- app_assoc. split; [apply rg_and; assumption|]. intros p Hp.
    apply andb_true_iff in Hp as (H1 & H2). specialize (Ek p H2). apply orb_true_iff in Ek as [Ek|Ek]; apply orb_true_iff; auto.
    left. apply andb_true_iff. auto.
Qed.
Lemma c32_never_more text ws g : words_of text ws -> python_reading ws g -> forall p,
  get_selected_platforms (selector_parser (in_brackets text) SV0) p = true -> g p = true.
Proof.
  intros HW HP p. destruct (python_implied ws g HP) as (f & Hf & Ef).
  rewrite (proj1 (c31 _ _ f HW Hf p)). apply Ef.
Qed.
Lemma both_readings ws f : right_grouped ws f -> exists g, python_reading ws g.
Proof.
  induction 1 as [ws f H|ws f o ws' g H Ho _ (h & IH)|ws f o ws' g H Ho _ (h & IH)].
  - exists f. apply py_one, cj_one. exact H.
  - inversion IH as [ws1 f1 H1 E1 E2|ws1 f1 o1 ws2 g1 H1 H2 H3 E1 E2]; subst.
    + exists (fun p => f p && h p). apply py_one, cj_and; assumption.
    + exists (fun p => (f p && f1 p) || g1 p). replace (ws ++ o :: ws1 ++ o1 :: ws2) with ((ws ++ o :: ws1) ++ o1 :: ws2)
        by (rewrite <- app_assoc; reflexivity).
      apply (py_or _ (fun p => f p && f1 p) o1 ws2 g1); [apply cj_and; assumption|exact H2|exact H3].
  - exists (fun p => f p || h p). apply py_or; [apply cj_one; exact H|exact Ho|exact IH].
Qed.

(** * Splitting around a blank *)
Lemma split_aux_app a : forall cur c t, is_space c = true ->
  split_ws_aux cur (a ++ c :: t) = split_ws_aux cur a ++ split_ws t.
Proof.
  induction a as [|d a IH]; intros cur c t Hc; cbn [app split_ws_aux].
  - rewrite Hc. destruct cur; reflexivity.
  - destruct (is_space d); [destruct cur; rewrite (IH _ c t Hc); reflexivity|apply IH; exact Hc].
Qed.
Lemma split_app a c t : is_space c = true -> split_ws (a ++ c :: t) = split_ws a ++ split_ws t.
Proof. intros H. exact (split_aux_app a [] c t H). Qed.
Lemma split_lstrip s : split_ws (lstrip s) = split_ws s.
Proof.
  induction s as [|c s IH]; [reflexivity|]. cbn [lstrip]. destruct (is_space c) eqn:E; [|reflexivity].
  rewrite IH. symmetry. apply (split_blank [c] s). intros d [<-|[]]. exact E.
Qed.
Lemma lstrip_blank s : exists b, blank b /\ s = b ++ lstrip s.
Proof.
  induction s as [|c s (b & Hb & IH)]; [exists []; split; [intros c []|reflexivity]|]. cbn [lstrip].
  destruct (is_space c) eqn:E; [|exists []; split; [intros d []|reflexivity]].
  exists (c :: b). split; [intros d [<-|Hd]; auto|]. cbn [app]. rewrite <- IH. reflexivity.
Qed.
Lemma split_rstrip s : split_ws (rstrip s) = split_ws s.
Proof.
  unfold rstrip. destruct (lstrip_blank (rev s)) as (b & Hb & E).
  rewrite <- (rev_involutive s) at 2. rewrite E at 2. rewrite rev_app_distr.
  assert (HB : blank (rev b)) by (intros d Hd; apply Hb; apply in_rev; exact Hd).
  destruct (rev b) as [|c t]; [rewrite app_nil_r; reflexivity|].
  rewrite split_app by (apply HB; left; reflexivity).
  rewrite <- (app_nil_r t), split_blank by (intros d Hd; apply HB; right; exact Hd).
  change (split_ws []) with (@nil str). rewrite app_nil_r. reflexivity.
Qed.
Lemma split_strip s : split_ws (strip s) = split_ws s.
Proof. unfold strip. rewrite split_lstrip. apply split_rstrip. Qed.

(** * Combining *)
Lemma combine_grouped op (v : bool -> bool -> bool) wb g
  (Hop : (op = $"and" /\ v = andb) \/ (op = $"or" /\ v = orb)) (HG : right_grouped wb g) wa f :
  right_grouped wa f -> only_joined_by op wa ->
  exists h, right_grouped (wa ++ op :: wb) h /\ forall p, h p = v (f p) (g p).
Proof.
  assert (HJ : forall ws f, operand ws f -> forall wb g, right_grouped wb g ->
    exists h, right_grouped (ws ++ op :: wb) h /\ forall p, h p = v (f p) (g p)).
  { intros ws1 f1 H1 wb1 g1 H2. destruct Hop as [[-> ->]|[-> ->]].
    - exists (fun p => f1 p && g1 p). split; [apply rg_and; auto; reflexivity|reflexivity].
    - exists (fun p => f1 p || g1 p). split; [apply rg_or; auto; reflexivity|reflexivity]. }
  induction 1 as [ws f H|ws f o ws' g' H Ho _ IH|ws f o ws' g' H Ho _ IH]; intros HO.
  - apply HJ; assumption.
  - assert (Hv : v = andb).
    { destruct Hop as [[-> ->]|[-> _]]; [reflexivity|]. exfalso.
      assert (E : lower o = $"or") by (apply HO; [apply in_or_app; right; left; reflexivity|left; exact Ho]).
      unfold says_and in Ho. rewrite Ho in E. discriminate E. }
    destruct IH as (h & Hh & Eh).
    { intros w Hw. apply HO. apply in_or_app. right. right. exact Hw. }
    rewrite <- app_assoc. cbn [app]. exists (fun p => f p && h p). split; [apply rg_and; assumption|].
    intros p. rewrite Eh, Hv. apply andb_assoc.
  - assert (Hv : v = orb).
    { destruct Hop as [[-> _]|[-> ->]]; [|reflexivity]. exfalso.
      assert (E : lower o = $"and") by (apply HO; [apply in_or_app; right; left; reflexivity|right; exact Ho]).
      unfold says_or in Ho. rewrite Ho in E. discriminate E. }
    destruct IH as (h & Hh & Eh).
    { intros w Hw. apply HO. apply in_or_app. right. right. exact Hw. }
    rewrite <- app_assoc. cbn [app]. exists (fun p => f p || h p). split; [apply rg_or; assumption|].
    intros p. rewrite Eh, Hv. apply orb_assoc.
Qed.
Lemma words_join a wa b wb op : words_of a wa -> words_of b wb -> word op ->
  words_of (a ++ $" " ++ op ++ $" " ++ b) (wa ++ op :: wb).
Proof.
  intros Ha Hb Ho. rewrite <- (split_words a wa Ha), <- (split_words b wb Hb).
  replace (split_ws a ++ op :: split_ws b) with (split_ws (a ++ $" " ++ op ++ $" " ++ b)); [apply words_of_split|].
  change ($" " ++ op ++ $" " ++ b) with (cSP :: op ++ cSP :: b). rewrite split_app by reflexivity. f_equal.
  rewrite split_app by reflexivity.
  assert (E : words_of op [op]).
  { rewrite <- (app_nil_r op) at 1. apply (words_cons [] op [] []); auto; [intros c []|constructor; intros c []]. }
  rewrite (split_words op [op] E). reflexivity.
Qed.
Definition join_bool (m : sel_mode) : bool -> bool -> bool := match m with SMAnd => andb | _ => orb end.
Lemma c33 E path b r q n a mode wa wb f g :
  no_emptied_element (r_root r) -> mode <> SMReplace ->
  addresses (r_root r) path q -> node_at (r_root r) q = Some n ->
  selector_of (n_comment n) = Some (in_brackets a) -> one_line b ->
  words_of a wa -> right_grouped wa f -> words_of b wb -> right_grouped wb g ->
  only_joined_by (join_word mode) wa ->
  exists r' s', add_selector E path (in_brackets b) mode r = (Ok tt, r')
  /\ get_selector_at_path path None r' = Ok s'
  /\ forall p, get_selected_platforms (selector_parser s' SV0) p = join_bool mode (f p) (g p).
Proof.
  intros HN HM HA Hn HS Hb Wa Ga Wb Gb HO.
  destruct (c24 E path (in_brackets b) b r q n a mode HN HM HA Hn HS (conj eq_refl Hb)) as (r' & H1 & _ & _ & H2 & _).
  exists r', ($"[" ++ a ++ $" " ++ join_word mode ++ $" " ++ b ++ $"]"). split; [exact H1|]. split; [exact H2|].
  intros p. replace ($"[" ++ a ++ $" " ++ join_word mode ++ $" " ++ b ++ $"]")
    with (in_brackets (a ++ $" " ++ join_word mode ++ $" " ++ b))
    by (unfold in_brackets; rewrite <- !app_assoc; reflexivity).
  destruct (combine_grouped (join_word mode) (join_bool mode) wb g) with (wa := wa) (f := f) as (h & Hh & Eh); auto.
  { destruct mode; [left|right|contradiction]; split; reflexivity. }
  assert (HJ : word (join_word mode)) by (apply word_check; destruct mode; reflexivity).
  rewrite (proj1 (c31 _ _ h (words_join a wa b wb (join_word mode) Wa Wb HJ) Hh p)). apply Eh.
Qed.

Lemma around_last_exists wa f : right_grouped wa f -> exists F x, around_last wa F x /\ forall p, f p = F x p.
Proof.
  induction 1 as [ws f H|ws f o ws' g H Ho _ (F & x & IH & IE)|ws f o ws' g H Ho _ (F & x & IH & IE)].
  - exists (fun h => h), f. split; [apply al_one; exact H|reflexivity].
  - exists (fun h p => f p && F h p), x. split; [apply al_and; assumption|]. intros p. rewrite IE. reflexivity.
  - exists (fun h p => f p || F h p), x. split; [apply al_or; assumption|]. intros p. rewrite IE. reflexivity.
Qed.
Lemma combine_around mode wb g wa F x : mode <> SMReplace -> right_grouped wb g -> around_last wa F x ->
  exists h, right_grouped (wa ++ join_word mode :: wb) h /\ forall p, h p = F (fun p => join_bool mode (x p) (g p)) p.
Proof.
  intros HM HG. induction 1 as [ws x H|ws f o ws' F x H Ho _ (h & Hh & Eh)|ws f o ws' F x H Ho _ (h & Hh & Eh)].
  - destruct mode; [| |contradiction].
    + exists (fun p => x p && g p). split; [apply rg_and; auto; reflexivity|reflexivity].
    + exists (fun p => x p || g p). split; [apply rg_or; auto; reflexivity|reflexivity].
  - exists (fun p => f p && h p). rewrite <- app_assoc. split; [apply rg_and; assumption|].
    intros p. rewrite Eh. reflexivity.
  - exists (fun p => f p || h p). rewrite <- app_assoc. split; [apply rg_or; assumption|].
    intros p. rewrite Eh. reflexivity.
Qed.
Lemma c33_exact E path b r q n a mode wa wb F x g :
  no_emptied_element (r_root r) -> mode <> SMReplace ->
  addresses (r_root r) path q -> node_at (r_root r) q = Some n ->
  selector_of (n_comment n) = Some (in_brackets a) -> one_line b ->
  words_of a wa -> around_last wa F x -> words_of b wb -> right_grouped wb g ->
  exists r' s', add_selector E path (in_brackets b) mode r = (Ok tt, r')
  /\ get_selector_at_path path None r' = Ok s'
  /\ forall p, get_selected_platforms (selector_parser s' SV0) p
               = F (fun p => match mode with SMAnd => x p && g p | _ => x p || g p end) p.
Proof.
  intros HN HM HA Hn HS Hb Wa Ga Wb Gb.
  destruct (c24 E path (in_brackets b) b r q n a mode HN HM HA Hn HS (conj eq_refl Hb)) as (r' & H1 & _ & _ & H2 & _).
  exists r', ($"[" ++ a ++ $" " ++ join_word mode ++ $" " ++ b ++ $"]"). split; [exact H1|]. split; [exact H2|].
  intros p. replace ($"[" ++ a ++ $" " ++ join_word mode ++ $" " ++ b ++ $"]")
    with (in_brackets (a ++ $" " ++ join_word mode ++ $" " ++ b))
    by (unfold in_brackets; rewrite <- !app_assoc; reflexivity).
  destruct (combine_around mode wb g wa F x HM Gb Ga) as (h & Hh & Eh).
  assert (HJ : word (join_word mode)) by (apply word_check; destruct mode; reflexivity).
  rewrite (proj1 (c31 _ _ h (words_join a wa b wb (join_word mode) Wa Wb HJ) Hh p)). rewrite Eh. destruct mode; reflexivity.
Qed.

(** * Rendering *)
Lemma selector_eqb_refl_root a b : s_schema a = s_schema b -> s_root a = s_root b -> selector_eqb a b = true.
Proof.
  intros H1 H2. unfold selector_eqb, selector_str. rewrite H1, H2, str_eqb_refl. destruct (s_schema b); reflexivity.
Qed.
Lemma render_content text sv : init_content (selector_render (selector_parser text sv)) sv
  = match sv with SV0 => strip (init_content text SV0) | SV1 => text end.
Proof.
  destruct sv; unfold selector_render, selector_parser; cbv zeta; cbn [s_schema s_content].
  - apply content_brackets.
  - reflexivity.
Qed.
Lemma lstrip_idem s : lstrip (lstrip s) = lstrip s.
Proof. induction s as [|c s IH]; [reflexivity|]. cbn [lstrip]. destruct (is_space c) eqn:E; [exact IH|]. cbn [lstrip]. rewrite E. reflexivity. Qed.
Lemma strip_idem s : strip (strip s) = strip s.
Proof.
  (* the front of [rstrip s] is stripped by lstrip, which leaves its end alone *)
  unfold strip. destruct (lstrip (rstrip s)) as [|c t] eqn:E; [reflexivity|].
  assert (HR : rstrip (c :: t) = c :: t).
  { destruct (lstrip_blank (rstrip s)) as (b & _ & Eb). rewrite E in Eb.
    unfold rstrip in *. assert (HL : rev (lstrip (rev s)) = b ++ c :: t) by exact Eb.
    assert (HL2 : lstrip (rev s) = rev (c :: t) ++ rev b) by (rewrite <- (rev_involutive (lstrip (rev s))), HL, rev_app_distr; reflexivity).
    destruct (rev_cons_not_nil (c :: t)) as (x & l & El); [discriminate|]. rewrite El in *.
    pose proof (lstrip_idem (rev s)) as HI. rewrite HL2 in HI. cbn [app lstrip] in HI |- *.
    destruct (is_space x) eqn:Ex.
    - exfalso. revert HI. generalize (l ++ rev b). intros z HI. apply (f_equal (@length ascii)) in HI.
      destruct (lstrip_blank z) as (b2 & _ & E2). apply (f_equal (@length ascii)) in E2.
      rewrite app_length in E2. cbn [length] in HI. lia.
    - rewrite <- El. apply rev_involutive. }
  rewrite HR, <- E. apply lstrip_idem.
Qed.
Lemma c36 text sv : let s := selector_parser text sv in let s' := selector_parser (selector_render s) sv in
  selector_eqb s s' = true /\ (forall p, get_selected_platforms s' p = get_selected_platforms s p)
  /\ selector_render s' = selector_render s.
Proof.
  cbv zeta. assert (HR : s_root (selector_parser (selector_render (selector_parser text sv)) sv) = s_root (selector_parser text sv)).
  { unfold selector_parser at 1. cbv zeta. cbn [s_root]. rewrite render_content. destruct sv.
    - rewrite split_strip. reflexivity.
    - reflexivity. }
  split; [|split].
  - apply selector_eqb_refl_root; [reflexivity|symmetry; exact HR].
  - intros p. unfold get_selected_platforms. rewrite HR. reflexivity.
  - destruct sv; [|reflexivity].
    assert (HE : forall t, selector_render (selector_parser t SV0) = $"[" ++ strip (init_content t SV0) ++ $"]") by reflexivity.
    rewrite (HE (selector_render _)), render_content. cbv beta iota. rewrite strip_idem, HE. reflexivity.
Qed.

(** * Equality *)
Definition stable (v : svalue) : Prop := init_value (svalue_str v) = v /\ word (svalue_str v).
Lemma lower_idem s : lower (lower s) = lower s.
Proof. unfold lower. rewrite map_map. apply map_ext. intros [[] [] [] [] [] [] [] []]; reflexivity. Qed.
Lemma init_stable w : word w -> stable (init_value w).
Proof.
  intros Hw. destruct (init_value w) as [p|o|a|o|s] eqn:E.
  - split; [destruct p; vm_compute; reflexivity|apply word_check; destruct p; vm_compute; reflexivity].
  - split; [destruct o; vm_compute; reflexivity|apply word_check; destruct o; vm_compute; reflexivity].
  - split; [destruct a; vm_compute; reflexivity|apply word_check; destruct a; vm_compute; reflexivity].
  - split; [destruct o; vm_compute; reflexivity|apply word_check; destruct o; vm_compute; reflexivity].
  - assert (s = w).
    { unfold init_value in E. destruct (platform_of _); [discriminate E|]. destruct (os_of _); [discriminate E|].
      destruct (arch_of _); [discriminate E|]. destruct (logic_of _); [discriminate E|]. congruence. }
    subst s. split; [exact E|exact Hw].
Qed.
Lemma stable_inj v v' : stable v -> stable v' -> svalue_str v = svalue_str v' -> v = v'.
Proof. intros [H _] [H' _] E. rewrite <- H, <- H', E. reflexivity. Qed.

Definition binary (v : svalue) : bool := match v with SVOp AND | SVOp OR => true | _ => false end.
Definition shaped (st : list svalue) : Prop :=
  exists bins nb, st = bins ++ nb /\ Forall (fun v => binary v = true) bins
  /\ Forall (fun v => binary v = false /\ stable v) nb.
Lemma pop_nots_spec ops out ops1 out1 : pop_nots ops out = (ops1, out1) ->
  exists k, ops = nots k ++ ops1 /\ out1 = nots k ++ out /\ no_top_not ops1.
Proof.
  revert out. induction ops as [|v ops IH]; intros out H; cbn [pop_nots] in H.
  - injection H as <- <-. exists 0. repeat split.
  - destruct (is_not v) eqn:E.
    + destruct (IH _ H) as (k & -> & -> & HT). exists (S k). destruct v as [| | |[]|]; try discriminate E.
      split; [reflexivity|]. split; [|exact HT]. cbn [repeat app].
      change (SVOp NOT :: out) with ([SVOp NOT] ++ out). rewrite app_assoc, <- repeat_cons. reflexivity.
    + injection H as <- <-. exists 0. split; [reflexivity|]. split; [reflexivity|exact E].
Qed.
Lemma not_stable : stable (SVOp NOT).
Proof. apply (init_stable $"not"). apply word_check. reflexivity. Qed.
Lemma nots_forall k : Forall (fun v => binary v = false /\ stable v) (nots k).
Proof. apply Forall_forall. intros v Hv. apply repeat_spec in Hv. subst v. split; [reflexivity|apply not_stable]. Qed.
Lemma shunt_shaped ts : Forall word ts -> forall k bins out,
  Forall (fun v => binary v = true) bins -> Forall (fun v => binary v = false /\ stable v) out ->
  shaped (shunt ts (nots k ++ bins) out).
Proof.
  induction 1 as [|t ts Ht _ IH]; intros k bins out HB HO; cbn [shunt].
  - exists (rev bins), (nots k ++ out). split; [rewrite rev_app_distr, rev_repeat, <- app_assoc; reflexivity|].
    split; [apply Forall_rev; exact HB|]. apply Forall_app. split; [apply nots_forall|exact HO].
  - pose proof (init_stable t Ht) as HS. destruct (is_logical_op (init_value t)) eqn:EL.
    + destruct (is_not (init_value t)) eqn:EN.
      * cbv beta iota. destruct (init_value t) as [| | |[]|]; try discriminate EN. exact (IH (S k) bins out HB HO).
      * destruct (pop_nots (nots k ++ bins) out) as [ops1 out1] eqn:EP. cbv beta iota.
        assert (HT : no_top_not bins).
        { destruct bins as [|v bins]; [exact I|]. inversion HB as [|x l H1 H2]; subst. cbn. destruct v as [| | |[]|]; try discriminate H1; reflexivity. }
        rewrite (pop_nots_app k bins out HT) in EP. injection EP as <- <-.
        apply (IH 0 (init_value t :: bins) (nots k ++ out)).
        -- constructor; [|exact HB]. destruct (init_value t) as [| | |[]|]; try discriminate EN; try discriminate EL; reflexivity.
        -- apply Forall_app. split; [apply nots_forall|exact HO].
    + apply (IH k bins (init_value t :: out) HB). constructor; [|exact HO]. split; [|exact HS].
      destruct (init_value t) as [| | |[]|]; try discriminate EL; reflexivity.
Qed.

Inductive chain : stree -> Prop :=
| chain_leaf v : stable v -> is_logical_op v = false -> chain (SNode v SNone SNone)
| chain_not0 : chain (SNode (SVOp NOT) SNone SNone)
| chain_not t : chain t -> chain (SNode (SVOp NOT) t SNone).
Definition ochain (t : stree) : Prop := t = SNone \/ chain t.
Inductive spine : stree -> Prop :=
| spine_chain t : ochain t -> spine t
| spine_bin o l r : o <> NOT -> ochain l -> spine r -> spine (SNode (SVOp o) l r).

Lemma process_chain fuel : forall nb t rest, Forall (fun v => binary v = false /\ stable v) nb ->
  process_postfix fuel nb = (t, rest) -> ochain t /\ Forall (fun v => binary v = false /\ stable v) rest.
Proof.
  induction fuel as [|f IH]; intros nb t rest HF H; cbn [process_postfix] in H.
  - injection H as <- <-. split; [left; reflexivity|exact HF].
  - destruct nb as [|v nb]; [injection H as <- <-; split; [left; reflexivity|exact HF]|].
    inversion HF as [|x l [Hb Hs] HF']; subst.
    assert (HL : is_logical_op v = false -> (SNode v SNone SNone, nb) = (t, rest) ->
      ochain t /\ Forall (fun v => binary v = false /\ stable v) rest).
    { intros HL E. injection E as <- <-. split; [right; apply chain_leaf; assumption|exact HF']. }
    destruct v as [p|o|a|o|s]; try (apply HL; [reflexivity|exact H]).
    destruct o; try discriminate Hb. destruct (process_postfix f nb) as [l st1] eqn:E. injection H as <- <-.
    destruct (IH nb l st1 HF' E) as [[->|HC] HR]; (split; [right|exact HR]); [apply chain_not0|apply chain_not; exact HC].
Qed.
Lemma process_spine fuel : forall bins nb t rest, Forall (fun v => binary v = true) bins ->
  Forall (fun v => binary v = false /\ stable v) nb -> length bins < fuel ->
  process_postfix fuel (bins ++ nb) = (t, rest) -> spine t /\ Forall (fun v => binary v = false /\ stable v) rest.
Proof.
  induction fuel as [|f IH]; intros bins nb t rest HB HN Hl H; [lia|].
  destruct bins as [|v bins].
  { destruct (process_chain (S f) nb t rest HN H) as [H1 H2]. split; [apply spine_chain; exact H1|exact H2]. }
  inversion HB as [|x l Hv HB']; subst. cbn [app process_postfix] in H. cbn [length] in Hl.
  destruct v as [p|o|a|o|s]; try discriminate Hv.
  destruct (process_postfix f (bins ++ nb)) as [r st1] eqn:E1.
  destruct (IH bins nb r st1 HB' HN ltac:(lia) E1) as [HS HR1].
  destruct (process_postfix f st1) as [l st2] eqn:E2.
  destruct (process_chain f st1 l st2 HR1 E2) as [HC HR2].
  destruct o; try discriminate Hv; injection H as <- <-; (split; [apply spine_bin; [discriminate|exact HC|exact HS]|exact HR2]).
Qed.
Lemma words_all_words text ws : words_of text ws -> Forall word ws.
Proof. induction 1; constructor; assumption. Qed.
Lemma root_spine text sv : spine (s_root (selector_parser text sv)).
Proof.
  unfold selector_parser. cbv zeta. cbn [s_root]. generalize (init_content text sv). intros c.
  pose proof (words_all_words _ _ (words_of_split c)) as HW.
  unfold parse_selector_tree. cbv zeta.
  destruct (shunt_shaped (split_ws c) HW 0 [] []) as (bins & nb & E & HB & HN); [constructor|constructor|].
  cbn [repeat app] in E. rewrite E.
  destruct (process_postfix _ (bins ++ nb)) as [t rest] eqn:EP. cbn [fst].
  apply (process_spine (S (length (bins ++ nb))) bins nb t rest HB HN); [rewrite app_length; lia|exact EP].
Qed.

Fixpoint swords (t : stree) : list str :=
  match t with
  | SNone => []
  | SNode v l r => svalue_str v :: match l with SNone => [] | _ => $"L" :: swords l end
                   ++ match r with SNone => [] | _ => $"R" :: swords r end
  end.
Fixpoint all_stable (t : stree) : Prop :=
  match t with SNone => True | SNode v l r => stable v /\ all_stable l /\ all_stable r end.
Lemma chain_stable t : ochain t -> all_stable t.
Proof.
  intros [->|H]; [exact I|]. induction H as [v H _| |t H IH]; cbn.
  - tauto.
  - pose proof not_stable. tauto.
  - pose proof not_stable. tauto.
Qed.
Lemma op_stable o : stable (SVOp o).
Proof. destruct o; [apply (init_stable $"and")|apply (init_stable $"or")|apply (init_stable $"not")]; apply word_check; reflexivity. Qed.
Lemma spine_stable t : spine t -> all_stable t.
Proof.
  induction 1 as [t H|o l r Ho HC _ IH]; [apply chain_stable; exact H|]. cbn.
  pose proof (op_stable o). pose proof (chain_stable l HC). tauto.
Qed.
Lemma word_split w : word w -> split_ws w = [w].
Proof.
  intros H. apply split_words. rewrite <- (app_nil_r w) at 1.
  apply (words_cons [] w [] []); auto; [intros c []|constructor; intros c []].
Qed.
Lemma node_str_words t : all_stable t -> split_ws (node_str t) = swords t.
Proof.
  induction t as [|v l IHl r IHr]; [reflexivity|]. intros ([_ Hv] & Hl & Hr). cbn [node_str swords].
  specialize (IHl Hl). specialize (IHr Hr).
  set (R := match r with SNone => [] | _ => $"R" :: swords r end).
  set (sR := match r with SNone => [] | _ => $" R " ++ node_str r end).
  assert (HR : sR = [] /\ R = [] \/ exists t, sR = cSP :: t /\ split_ws t = R).
  { unfold sR, R. destruct r as [|v2 l2 r2]; [left; split; reflexivity|]. right.
    exists ($"R" ++ cSP :: node_str (SNode v2 l2 r2)). split; [reflexivity|].
    rewrite split_app by reflexivity. rewrite IHr. reflexivity. }
  assert (HX : forall x, split_ws (x ++ sR) = split_ws x ++ R).
  { intros x. destruct HR as [[-> ->]|(t & -> & <-)]; [rewrite !app_nil_r; reflexivity|]. apply split_app. reflexivity. }
  rewrite app_assoc, HX. rewrite app_comm_cons. f_equal.
  destruct l as [|v1 l1 r1]; [rewrite app_nil_r; apply word_split; exact Hv|].
  change ($" L " ++ node_str (SNode v1 l1 r1)) with (cSP :: $"L" ++ cSP :: node_str (SNode v1 l1 r1)).
  rewrite split_app by reflexivity. rewrite (word_split _ Hv), split_app by reflexivity. rewrite IHl. reflexivity.
Qed.

Definition ok_rest (x : list str) : Prop := x = [] \/ exists y, x = $"R" :: y.
Lemma chain_node t : chain t -> exists v l r, t = SNode v l r.
Proof. destruct 1; eauto. Qed.
Lemma chain_inj t : chain t -> forall t' x x', chain t' -> ok_rest x -> ok_rest x' ->
  swords t ++ x = swords t' ++ x' -> t = t' /\ x = x'.
Proof.
  induction 1 as [v Hv Hl| |t Ht IH]; intros t' x x' Ht' Hx Hx' E.
  - destruct Ht' as [v' Hv' Hl'| |t' Ht'].
    + cbn in E. injection E as E1 E2. rewrite (stable_inj v v' Hv Hv' E1). auto.
    + cbn in E. injection E as E1 E2. rewrite (stable_inj v (SVOp NOT) Hv not_stable E1) in Hl. discriminate Hl.
    + exfalso. cbn [swords app] in E. apply (f_equal (hd [])) in E. cbn [hd] in E.
      rewrite (stable_inj v (SVOp NOT) Hv not_stable E) in Hl. discriminate Hl.
  - destruct Ht' as [v' Hv' Hl'| |t' Ht'].
    + cbn in E. injection E as E1 E2. rewrite <- (stable_inj (SVOp NOT) v' not_stable Hv' E1) in Hl'. discriminate Hl'.
    + cbn in E. injection E as E2. auto.
    + destruct (chain_node t' Ht') as (v & l & r & ->). cbn [swords app] in E.
      injection E as E2. subst x. destruct Hx as [Hx|(y & Hx)]; discriminate Hx.
  - destruct (chain_node t Ht) as (v & l & r & Et).
    destruct Ht' as [v' Hv' Hl'| |t' Ht'].
    + exfalso. rewrite Et in E. cbn [swords app] in E. apply (f_equal (hd [])) in E. cbn [hd] in E.
      rewrite <- (stable_inj (SVOp NOT) v' not_stable Hv' E) in Hl'. discriminate Hl'.
    + exfalso. rewrite Et in E. cbn [swords app] in E. injection E as E2. subst x'. destruct Hx' as [Hx'|(y & Hx')]; discriminate Hx'.
    + destruct (chain_node t' Ht') as (v' & l' & r' & Et').
      assert (E2 : swords t ++ x = swords t' ++ x').
      { rewrite Et, Et' in E |- *. cbn [swords] in E |- *. rewrite !app_nil_r in E.
        injection E as E HE. cbn [app]. rewrite <- ?app_assoc in *. rewrite E, HE. reflexivity. }
      destruct (IH t' x x' Ht' Hx Hx' E2) as [-> ->]. auto.
Qed.
Lemma spine_inj t : spine t -> forall t', spine t' -> swords t = swords t' -> t = t'.
Proof.
  assert (HN : forall u, swords u = [] -> u = SNone) by (intros [|v l r] H; [reflexivity|discriminate H]).
  assert (HCB : forall u o l r, ochain u -> o <> NOT -> swords u = swords (SNode (SVOp o) l r) -> False).
  { intros u o l r [->|H] Ho E; [discriminate E|]. destruct H as [v Hv Hl| |u H]; cbn [swords app] in E;
      apply (f_equal (hd [])) in E; cbn [hd] in E.
    - rewrite (stable_inj v (SVOp o) Hv (op_stable o) E) in Hl. discriminate Hl.
    - apply Ho. pose proof (stable_inj _ _ not_stable (op_stable o) E). congruence.
    - apply Ho. pose proof (stable_inj _ _ not_stable (op_stable o) E). congruence. }
  induction 1 as [t H|o l r Ho Hl Hr IH]; intros t' H' E.
  - destruct H' as [t' H'|o' l' r' Ho' Hl' Hr'].
    + destruct H as [->|H]; [symmetry; apply HN; symmetry; exact E|]. destruct H' as [->|H']; [apply HN; exact E|].
      apply (chain_inj t H t' [] [] H'); [left; reflexivity|left; reflexivity|rewrite E; reflexivity].
    + exfalso. exact (HCB t o' l' r' H Ho' E).
  - destruct H' as [t' H'|o' l' r' Ho' Hl' Hr'].
    + exfalso. symmetry in E. exact (HCB t' o l r H' Ho E).
    + cbn [swords] in E. injection E as E0 E1.
      assert (o = o') by (pose proof (stable_inj _ _ (op_stable o) (op_stable o') E0); congruence). subst o'. clear E0.
      assert (HR : forall r : stree, ok_rest match r with SNone => [] | SNode _ _ _ => $"R" :: swords r end).
      { intros [|v2 l2 r2]; [left; reflexivity|right; eauto]. }
      assert (HRI : match r with SNone => [] | SNode _ _ _ => $"R" :: swords r end
                    = match r' with SNone => [] | SNode _ _ _ => $"R" :: swords r' end -> r = r').
      { intros ER. apply (IH r' Hr'). destruct r as [|vr lr rr], r' as [|vr' lr' rr']; try discriminate ER; [reflexivity|].
        apply (f_equal (@tl str)) in ER. exact ER. }
      destruct Hl as [->|Hl], Hl' as [->|Hl'].
      * cbn [app] in E1. rewrite (HRI E1). reflexivity.
      * exfalso. destruct (chain_node l' Hl') as (v & a & b & Ec). rewrite Ec in E1. cbn [app] in E1.
        destruct (HR r) as [EE|(y & EE)]; rewrite EE in E1; discriminate E1.
      * exfalso. destruct (chain_node l Hl) as (v & a & b & Ec). rewrite Ec in E1. cbn [app] in E1.
        destruct (HR r') as [EE|(y & EE)]; rewrite EE in E1; discriminate E1.
      * assert (E2 : swords l ++ match r with SNone => [] | SNode _ _ _ => $"R" :: swords r end
                   = swords l' ++ match r' with SNone => [] | SNode _ _ _ => $"R" :: swords r' end).
        { destruct (chain_node l Hl) as (v & a & b & Ec), (chain_node l' Hl') as (v' & a' & b' & Ec').
          rewrite Ec, Ec' in E1 |- *. apply (f_equal (@tl str)) in E1. exact E1. }
        destruct (chain_inj l Hl l' _ _ Hl' (HR r) (HR r') E2) as [-> ER]. rewrite (HRI ER). reflexivity.
Qed.
Lemma none_tree t : spine t -> node_str t = $"None" -> forall p, eval_node t p = false.
Proof.
  intros HS E p. pose proof (node_str_words t (spine_stable t HS)) as HW. rewrite E in HW.
  change (split_ws $"None") with [$"None"] in HW. destruct t as [|v l r]; [reflexivity|].
  cbn [swords] in HW. injection HW as Ev ER.
  assert (v = SVText $"None").
  { pose proof (spine_stable _ HS) as (Hv & _ & _). destruct Hv as [Hv _]. rewrite <- Hv, <- Ev. vm_compute. reflexivity. }
  subst v. reflexivity.
Qed.
Lemma c66 a va b vb : selector_eqb (selector_parser a va) (selector_parser b vb) = true ->
  va = vb /\ forall p, get_selected_platforms (selector_parser a va) p = get_selected_platforms (selector_parser b vb) p.
Proof.
  intros H. unfold selector_eqb in H. apply andb_true_iff in H. destruct H as [H1 H2].
  assert (HV : va = vb) by (destruct va, vb; [reflexivity|discriminate H1|discriminate H1|reflexivity]).
  split; [exact HV|]. subst vb. apply str_eqb_eq in H2. unfold selector_str in H2.
  change (s_schema (selector_parser a va)) with va in H2. change (s_schema (selector_parser b va)) with va in H2.
  apply app_inv_head in H2. apply app_inv_head in H2. apply app_inv_head in H2.
  unfold get_selected_platforms. pose proof (root_spine a va) as HA. pose proof (root_spine b va) as HB.
  remember (s_root (selector_parser a va)) as ta eqn:Ea. remember (s_root (selector_parser b va)) as tb eqn:Eb. clear Ea Eb.
  intros p. destruct ta as [|v l r], tb as [|v' l' r'].
  - reflexivity.
  - symmetry. apply (none_tree _ HB). symmetry. exact H2.
  - apply (none_tree _ HA). exact H2.
  - assert (ET : SNode v l r = SNode v' l' r'); [|rewrite ET; reflexivity]. apply (spine_inj _ HA _ HB).
    rewrite <- (node_str_words _ (spine_stable _ HA)), <- (node_str_words _ (spine_stable _ HB)), H2. reflexivity.
Qed.

(** * Remaining facts for the property file *)
Lemma calls_nothing w : (forall p, ~ In (lower w) (map lit (called p))) -> forall p, calls w p = false.
Proof. intros H p. unfold calls. destruct (in_dec _ _ _) as [HI|_]; [contradiction (H p HI)|reflexivity]. Qed.
Lemma systems_partition p :
  let l := get_platforms_by_os $"linux" p in let o := get_platforms_by_os $"osx" p in let w := get_platforms_by_os $"win" p in
  (l = true /\ o = false /\ w = false) \/ (l = false /\ o = true /\ w = false) \/ (l = false /\ o = false /\ w = true).
Proof. destruct p; vm_compute; tauto. Qed.
Lemma unix_union p : get_platforms_by_os $"unix" p = get_platforms_by_os $"linux" p || get_platforms_by_os $"osx" p.
Proof. destruct p; vm_compute; reflexivity. Qed.
Lemma platform_plain p : plain_word (platform_str p).
Proof. destruct p; repeat split; vm_compute; discriminate. Qed.
Lemma platform_itself p q : get_selected_platforms (selector_parser (in_brackets (platform_str p)) SV0) q = true <-> q = p.
Proof.
  assert (HW : words_of (platform_str p) [platform_str p]).
  { rewrite <- (word_split (platform_str p)); [apply words_of_split|]. apply word_check. destruct p; reflexivity. }
  rewrite (proj1 (c31 _ _ _ HW (rg_one _ _ (operand_word _ (platform_plain p))) q)).
  destruct p, q; vm_compute; split; intros H; try reflexivity; discriminate H.
Qed.
Lemma tables s p :
  (get_platforms_by_os s p = true <-> In (lower (strip s)) (map os_str all_os) /\ In (lower (strip s)) (map lit (called p)))
  /\ (get_platforms_by_arch s p = true <-> In (lower (strip s)) (map arch_str all_arch) /\ In (lower (strip s)) (map lit (called p))).
Proof.
  unfold get_platforms_by_os, get_platforms_by_arch, os_of, arch_of. generalize (lower (strip s)). clear s. intros s. split.
  - destruct (find_str os_str all_os s) as [(o & -> & <-)|[-> H]].
    + rewrite <- !mem_str_In. destruct o, p; vm_compute; split; intros H; try (split; reflexivity); try reflexivity;
        try discriminate H; destruct H as [_ H]; discriminate H.
    + split; [intros HH; discriminate HH|tauto].
  - destruct (find_str arch_str all_arch s) as [(a & -> & <-)|[-> H]].
    + rewrite <- !mem_str_In. destruct a, p; vm_compute; split; intros H; try (split; reflexivity); try reflexivity;
        try discriminate H; destruct H as [_ H]; discriminate H.
    + split; [intros HH; discriminate HH|tauto].
Qed.
Fixpoint nodup_b (l : list str) : bool := match l with [] => true | x :: l' => negb (mem_str x l') && nodup_b l' end.
Lemma nodup_check l : nodup_b l = true -> NoDup l.
Proof.
  induction l as [|x l IH]; intros H; [constructor|]. cbn [nodup_b] in H. apply andb_true_iff in H. destruct H as [H1 H2].
  constructor; [apply mem_str_notIn; apply negb_true_iff; exact H1|apply IH; exact H2].
Qed.
Lemma enumerations : (forall p, In p all_platforms) /\ (forall o, In o all_os) /\ (forall a, In a all_arch)
  /\ NoDup (map platform_str all_platforms ++ map os_str all_os ++ map arch_str all_arch).
Proof.
  split; [intros []; cbn; tauto|]. split; [intros []; cbn; tauto|]. split; [intros []; cbn; tauto|].
  apply nodup_check. vm_compute. reflexivity.
Qed.
Lemma no_arch s : get_platforms_by_arch s LINUX_AARCH_64 = false.
Proof. unfold get_platforms_by_arch. destruct (arch_of _) as [[]|]; reflexivity. Qed.
Lemma applies s q : does_selector_apply s q = true <-> q = None \/ exists p, q = Some p /\ get_selected_platforms s p = true.
Proof.
  destruct q as [p|]; cbn [does_selector_apply]; split.
  - intros H. right. exists p. auto.
  - intros [H|(p' & H & H')]; [discriminate H|]. injection H as <-. exact H'.
  - intros _. left. reflexivity.
  - intros _. reflexivity.
Qed.
Lemma negation text text' ws f p : words_of text ws -> operand ws f -> words_of text' ($"not" :: ws) ->
  does_selector_apply (selector_parser (in_brackets text') SV0) (Some p)
  = negb (does_selector_apply (selector_parser (in_brackets text) SV0) (Some p)).
Proof.
  intros HW HO HW'. cbn [does_selector_apply].
  rewrite (proj1 (c31 text ws f HW (rg_one _ _ HO) p)).
  exact (proj1 (c31 text' _ _ HW' (rg_one _ _ (operand_not $"not" ws f eq_refl HO)) p)).
Qed.
Lemma selector_equivalence a b c : selector_eqb a a = true /\ selector_eqb a b = selector_eqb b a
  /\ (selector_eqb a b = true -> selector_eqb b c = true -> selector_eqb a c = true).
Proof.
  assert (HS : forall x y, schema_eqb x y = true <-> x = y) by (intros [] []; split; intros H; try reflexivity; discriminate H).
  split; [apply selector_eqb_refl_root; reflexivity|]. unfold selector_eqb. split.
  - rewrite str_eqb_sym. f_equal. destruct (s_schema a), (s_schema b); reflexivity.
  - rewrite !andb_true_iff, !HS, !str_eqb_eq. intros [-> ->] [-> ->]. auto.
Qed.
Lemma init_same w w' : w = w' \/ (lower w = lower w' /\ (In (lower w) (map logic_str all_logic_ops) \/ exists p, In (lower w) (map lit (called p)))) ->
  init_value w = init_value w'.
Proof.
  intros [->|[E H]]; [reflexivity|]. unfold init_value, platform_of, os_of, arch_of, logic_of. rewrite <- E.
  revert H. generalize (lower w). intros l H.
  destruct (find_str platform_str all_platforms l) as [(x & -> & _)|[-> H1]]; [reflexivity|].
  destruct (find_str os_str all_os l) as [(x & -> & _)|[-> H2]]; [reflexivity|].
  destruct (find_str arch_str all_arch l) as [(x & -> & _)|[-> H3]]; [reflexivity|].
  destruct (find_str logic_str all_logic_ops l) as [(x & -> & _)|[-> H4]]; [reflexivity|].
  exfalso. destruct H as [H|(p & H)]; [contradiction|]. apply called_known in H. unfold known in H.
  rewrite !in_app_iff in H. tauto.
Qed.
Lemma shunt_same ws ws' : Forall2 (fun w w' => init_value w = init_value w') ws ws' ->
  forall ops out, shunt ws ops out = shunt ws' ops out.
Proof.
  induction 1 as [|w w' ws ws' E _ IH]; intros ops out; [reflexivity|]. cbn [shunt]. rewrite <- E.
  destruct (is_logical_op (init_value w)); [|apply IH].
  destruct (if is_not (init_value w) then _ else _) as [ops1 out1]. apply IH.
Qed.
Lemma same_words a b ws ws' : words_of a ws -> words_of b ws' ->
  Forall2 (fun w w' => w = w' \/ (lower w = lower w' /\ (In (lower w) (map logic_str all_logic_ops) \/ exists p, In (lower w) (map lit (called p))))) ws ws' ->
  selector_eqb (selector_parser (in_brackets a) SV0) (selector_parser (in_brackets b) SV0) = true.
Proof.
  intros HA HB HF. apply selector_eqb_refl_root; [reflexivity|]. unfold selector_parser. cbv zeta. cbn [s_root].
  rewrite !content_brackets, (split_words a ws HA), (split_words b ws' HB). unfold parse_selector_tree.
  rewrite (shunt_same ws ws'); [reflexivity|]. clear - HF. induction HF; constructor; [apply init_same; assumption|assumption].
Qed.
