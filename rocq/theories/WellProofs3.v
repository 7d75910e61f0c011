(** Proofs about parsed documents (C88, C89): comments of one line; the YAML reader of the examples. *)
From Verif Require Export WellProofs2 Samples.
From Verif Require Import WellSpec.

(** * Comments of parsed documents have one line *)
Lemma lines_one_line s : forall cur l, SelSpec.one_line cur -> In l (splitlines_aux cur s) -> SelSpec.one_line l.
Proof.
  assert (forall cur, SelSpec.one_line cur -> SelSpec.one_line (rev cur)) as HR by (intros cur H HI; apply H, in_rev; exact HI).
  assert (SelSpec.one_line []) as H0 by (intros []).
  induction s as [s IH] using (well_founded_induction (Wf_nat.well_founded_ltof _ (@length ascii))). intros cur l HC HI.
  destruct s as [|c s']; cbn [splitlines_aux] in HI.
  - destruct cur; [destruct HI|]. destruct HI as [<-|[]]. apply HR; auto.
  - assert (forall t, length t < length (c :: s') -> forall cur l, SelSpec.one_line cur -> In l (splitlines_aux cur t) -> SelSpec.one_line l) as IH'
      by (intros t Ht; apply IH; exact Ht). cbn [length] in IH'.
    destruct (is_linebreak c) eqn:B.
    + destruct (code c =? 13).
      * destruct s' as [|d s'']; [destruct HI as [<-|[]]; apply HR; auto|]. destruct (code d =? 10); destruct HI as [<-|HI]; try (apply HR; auto).
        -- apply (IH' s'') in HI; auto.
        -- apply (IH' (d :: s'')) in HI; auto.
      * destruct HI as [<-|HI]; [apply HR; auto|]. apply (IH' s') in HI; auto.
    + apply (IH' s') in HI; auto. intros [HZ|HZ]; [|apply HC; exact HZ]. subst c. discriminate.
Qed.
Lemma lstrip_sub s x : In x (lstrip s) -> In x s.
Proof. induction s as [|c s IH]; [auto|]. cbn [lstrip]. destruct (is_space c); [intros H; right; apply IH; exact H|auto]. Qed.
Lemma strip_sub s x : In x (strip s) -> In x s.
Proof. unfold strip, rstrip. intros H. apply lstrip_sub in H. apply in_rev in H. apply lstrip_sub in H. apply in_rev in H. exact H. Qed.
Definition short (n : node) : Prop := SelSpec.one_line (n_comment n).
Definition shorts (n : node) : Prop := forall p m, node_at n p = Some m -> short m.
Lemma shorts_split n : shorts n <-> short n /\ forall c, In c (n_children n) -> shorts c.
Proof.
  split.
  - intros H. split; [apply (H [] n eq_refl)|]. intros c Hc p m Hm. apply In_nth_error in Hc as (i & Hi). apply (H (i :: p)).
    cbn [node_at]. rewrite Hi. exact Hm.
  - intros (H1 & H2) [|i p] m Hm; cbn [node_at] in Hm; [injection Hm as <-; exact H1|].
    destruct (nth_error (n_children n) i) as [c|] eqn:C; [|discriminate]. apply (H2 c (nth_error_In _ _ C) p m Hm).
Qed.
Lemma shorts_set n l : shorts n -> (forall c, In c l -> shorts c) -> shorts (set_children l n).
Proof. intros H HL. apply shorts_split in H as (H & _). apply shorts_split. destruct n. split; [exact H|exact HL]. Qed.
Lemma shorts_update p f : forall n m, shorts n -> node_at n p = Some m -> shorts (f m) -> shorts (update_at p f n).
Proof.
  induction p as [|i p IH]; intros n m Hn Hm Hs; cbn [node_at update_at] in *; [injection Hm as <-; auto|].
  destruct (nth_error (n_children n) i) as [x|] eqn:X; [|discriminate]. pose proof Hn as Hn'. apply shorts_split in Hn' as (_ & HC).
  apply shorts_set; auto. intros c Hc. apply in_map_nth in Hc as [Hc|(y & Hy & ->)]; auto. assert (y = x) as -> by congruence.
  apply (IH x m); auto. apply HC. eapply nth_error_In; eauto.
Qed.
Lemma short_leaf v c l ml k : SelSpec.one_line c -> shorts (Nd v c [] l ml k).
Proof. intros H. apply shorts_split. split; [exact H|intros x []]. Qed.
Lemma short_key k v c : SelSpec.one_line c -> shorts (key_line_node k v c).
Proof.
  intros H. unfold key_line_node. apply shorts_split. split; [exact H|]. cbn [n_children].
  assert (forall x, In x [Nd (VJ v) c [] false MNone false] -> shorts x) as HS by (intros x [<-|[]]; apply short_leaf; auto).
  destruct v as [[]|l|d]; try exact HS. intros x [].
Qed.
Lemma short_line E line ls n u : SelSpec.one_line line -> line_to_node E line ls = Ok (n, u) -> shorts n.
Proof.
  intros HL. assert (SelSpec.one_line (strip line)) as HS by (intros HI; apply HL, strip_sub, HI).
  assert (SelSpec.one_line (line_comment (strip line))) as HC.
  { rewrite line_comment_spec. destruct (hash_from false (strip line)) as [k|]; [|intros []]. intros HI. apply HS. eapply skipn_in; eauto. }
  unfold line_to_node. destruct (parse_line_node E (strip line)) as [n0|] eqn:P; [|discriminate]. cbn [bind].
  assert (shorts n0) as H0.
  { unfold parse_line_node in P. destruct (parse_yaml E (strip line) None) as [j|]; [|discriminate]. cbn [bind] in P.
    destruct (starts_with [cHASH] (strip line)); [injection P as <-; apply short_leaf; auto|]. cbv zeta in P.
    destruct j as [p|[|[q|l|[|(k & v) d]] rest]|[|(k & v) d]]; try discriminate; injection P as <-; try (apply short_leaf; auto).
    - apply shorts_split. split; [exact HC|]. intros x [<-|[]]. apply short_key; auto.
    - apply short_key; auto. }
  destruct (re_match MULTILINE line) as [x|]; [|intros [= <- <-]; exact H0]. cbv zeta.
  destruct (mlv_of_str _) as [ml|]; [|discriminate]. destruct (take_multiline _ _) as [vals|]; [|discriminate]. intros [= <- <-].
  apply shorts_set; auto. intros c [<-|[]]. apply short_leaf. intros [].
Qed.
Lemma loop_short E ls : (forall l, In l ls -> SelSpec.one_line l) -> forall st k st', shorts (p_root st) -> parse_loop E st k ls = Ok st' -> shorts (p_root st').
Proof.
  induction ls as [|line ls IH]; intros HL st k st' H; cbn [parse_loop]; [intros [= <-]; exact H|].
  assert (forall l, In l ls -> SelSpec.one_line l) as HL' by (intros l Hl; apply HL; right; exact Hl).
  destruct k; [|apply IH; auto]. destruct (is_nil (strip line)); [apply IH; auto|].
  destruct (line_to_node E line ls) as [[n u]|] eqn:L; [|discriminate]. cbn [bind].
  destruct (place_node st (num_tab_spaces line) n) as [st1|] eqn:PL; [|discriminate]. cbn [bind]. apply IH; auto.
  apply place_inv in PL as (P & pn & HP & ->). apply (shorts_update P _ _ pn); auto. unfold append_child.
  assert (shorts pn) as Hpn by (intros q m Hm; apply (H (P ++ q)); rewrite node_at_app, HP; exact Hm).
  apply shorts_set; auto. intros c Hc. apply in_app_or in Hc as [Hc|[<-|[]]].
  - apply shorts_split in Hpn as (_ & Hpn). auto.
  - apply (short_line E line ls n u); auto. apply HL. left. reflexivity.
Qed.
Lemma parsed_one_line E text r : new_recipe E text = Ok r -> every_comment SelSpec.one_line (r_root r).
Proof.
  unfold new_recipe. destruct (parse_tree E text) as [root|] eqn:P; [|discriminate]. cbn [bind].
  destruct (detect_schema E root) as [sv|]; [|discriminate]. cbn [bind].
  destruct (init_vars E sv text root) as [vars|]; [|discriminate]. cbn [bind]. intros [= <-]. cbn [r_root].
  unfold parse_tree, parse_lines in P. destruct (parse_loop E init_pstate 0 _) as [st|] eqn:L; [|discriminate]. injection P as <-.
  intros p n Hn _. revert p n Hn. apply loop_short in L; [exact L| |apply short_leaf; intros []].
  intros l Hl. apply (lines_one_line (re_sub JINJA_V0_LINE [] text) [] l); [intros []|exact Hl].
Qed.

(** * The reader of the examples *)
Lemma plain_proper s : proper_value (plain s) = true.
Proof.
  unfold plain. repeat match goal with |- context[if ?b then _ else _] => destruct b; [reflexivity|] end.
  destruct s as [|c t]; [reflexivity|]. destruct (ceq c "-"%char && isdigit t); [reflexivity|].
  destruct (split_on "."%char (c :: t)) as [|a [|b [|]]]; try reflexivity. destruct (isdigit a && isdigit b); reflexivity.
Qed.
Lemma scalar_proper s j : scalar s = YOk j -> proper_value j = true.
Proof.
  unfold scalar. destruct s as [|c t]; [intros [= <-]; reflexivity|].
  destruct (ceq c cDQ); [destruct (undq t); [intros [= <-]; reflexivity|discriminate]|].
  destruct (ceq c cSQ); [destruct (unsq t); [intros [= <-]; reflexivity|discriminate]|].
  destruct (str_eqb (c :: t) $"[]"); [intros [= <-]; reflexivity|].
  destruct (str_eqb (c :: t) $"{}"); [intros [= <-]; reflexivity|].
  destruct (ceq c cLB).
  { destruct (rev t) as [|e mid]; [discriminate|]. destruct (ceq e cRB); [|discriminate]. intros [= <-]. cbn [proper_value].
    rewrite forallb_forall. intros x Hx. apply in_map_iff in Hx as (y & <- & _). apply plain_proper. }
  destruct (existsb (ceq c) $"*&!%@`"); [discriminate|]. destruct (existsb (ceq c) $"{}],"); [discriminate|].
  destruct (existsb (ceq c) $"|>"); [intros [= <-]; reflexivity|].
  destruct (colon_pos None true 0 (c :: t)); [discriminate|]. intros [= <-]. apply plain_proper.
Qed.
Lemma put_key_proper k j d : proper_value j = true -> proper_value (JDict d) = true -> proper_value (JDict (put_key k j d)) = true.
Proof.
  intros HJ. cbn [proper_value]. intros H. apply andb_true_iff in H as (H1 & H2). apply andb_true_iff. split.
  - clear H2. induction d as [|(k' & v) d IH]; [reflexivity|]. cbn [put_key distinct_keys] in *. apply andb_true_iff in H1 as (H1 & H2).
    destruct (prim_eqb k k') eqn:Q; cbn [distinct_keys]; [rewrite H1, H2; reflexivity|]. rewrite (IH H2), andb_true_r.
    apply negb_true_iff in H1. apply negb_true_iff. clear IH H2. induction d as [|(k2 & v2) d IH]; cbn [put_key existsb fst] in *.
    + rewrite Q. reflexivity.
    + apply orb_false_iff in H1 as (H1 & H2). destruct (prim_eqb k k2); cbn [existsb fst]; rewrite H1; [exact H2|apply IH; exact H2].
  - clear H1. induction d as [|(k' & v) d IH]; cbn [put_key forallb snd] in *; [rewrite HJ; reflexivity|].
    apply andb_true_iff in H2 as (H1 & H2). destruct (prim_eqb k k'); cbn [forallb snd]; [rewrite HJ, H2; reflexivity|rewrite H1, IH; auto].
Qed.
Lemma block_proper f : forall ls j rest, block f ls = Some (YOk j, rest) -> proper_value j = true.
Proof.
  induction f as [|f IH]; intros ls j rest; [discriminate|]. cbn [block]. destruct ls as [|(n & s) ls']; [intros [= <- <-]; reflexivity|].
  destruct (is_dash s).
  - match goal with |- ?g f _ [] = _ -> _ => set (items := g) end.
    enough (forall g ls acc, forallb proper_value acc = true -> items g ls acc = Some (YOk j, rest) -> proper_value j = true) as HI by (apply HI; reflexivity).
    clear s ls'. intros g. induction g as [|g IHg]; intros ls acc HA; [discriminate|]. cbn [items]. fold items.
    destruct ls as [|(n' & s') rest']; [intros [= <- <-]; exact HA|].
    destruct ((n' =? n) && is_dash s').
    + cbv zeta. match goal with |- match ?x with _ => _ end = _ -> _ => destruct x as [[[j0| |] rest'']|] eqn:X end; try discriminate.
      intros H. apply IHg in H; auto. rewrite forallb_app, HA. cbn [forallb]. rewrite andb_true_r. cbn [andb].
      destruct (is_nil _).
      * destruct rest' as [|(k0 & s0) rest']; [injection X as <- _; reflexivity|]. destruct (n <? k0); [eapply IH; eauto|injection X as <- _; reflexivity].
      * eapply IH; eauto.
    + destruct (n' <? n); [intros [= <- <-]; exact HA|]. destruct (n' =? n); [intros [= <- <-]; exact HA|discriminate].
  - destruct (colon_pos None true 0 s); [|intros H; injection H as H _; eapply scalar_proper; eauto].
    match goal with |- ?g f _ [] = _ -> _ => set (entries := g) end.
    enough (forall g ls acc, proper_value (JDict acc) = true -> entries g ls acc = Some (YOk j, rest) -> proper_value j = true) as HI by (apply HI; reflexivity).
    clear s ls'. intros g. induction g as [|g IHg]; intros ls acc HA; [discriminate|]. cbn [entries]. fold entries.
    destruct ls as [|(n' & s') rest']; [intros [= <- <-]; exact HA|].
    destruct (n' =? n); [|destruct (n' <? n); [intros [= <- <-]; exact HA|discriminate]].
    destruct (is_dash s'); [intros [= <- <-]; exact HA|].
    destruct (colon_pos None true 0 s') as [i|]; [|discriminate].
    destruct (key_of (strip (firstn i s'))) as [k|]; [|discriminate]. cbv zeta.
    destruct (is_nil (strip (skipn (S i) s'))).
    + destruct rest' as [|(n2 & s2) rest'].
      * intros H. apply IHg in H; auto. apply put_key_proper; auto.
      * destruct ((n <? n2) || ((n2 =? n) && is_dash s2)).
        -- match goal with |- match ?x with _ => _ end = _ -> _ => destruct x as [[[j0| |] rest'']|] eqn:X end; try discriminate.
           intros H. apply IHg in H; auto. apply put_key_proper; auto. eapply IH; eauto.
        -- intros H. apply IHg in H; auto. apply put_key_proper; auto.
    + destruct (is_dash (strip (skipn (S i) s'))); [discriminate|].
      destruct (scalar (strip (skipn (S i) s'))) as [j0| |] eqn:SC; try discriminate. apply scalar_proper in SC.
      destruct rest' as [|(n2 & s2) rest'].
      * intros H. apply IHg in H; auto. apply put_key_proper; auto.
      * destruct (n <? n2); [discriminate|]. intros H. apply IHg in H; auto. apply put_key_proper; auto.
Qed.
Lemma mini_proper : reads_proper mini_env.
Proof.
  intros s j. change (mini_load s = YOk j -> proper_value j = true). unfold mini_load.
  destruct (block_scalar s) as [b|] eqn:B.
  - intros [= <-]. unfold block_scalar in B. destruct (splitlines s) as [|h ls]; [discriminate|]. cbv zeta in B.
    repeat match goal with H : (if ?b then _ else _) = Some _ |- _ => destruct b; [injection H as <-; reflexivity|] end. discriminate.
  - cbv zeta. destruct (block (2 * length s + 5) (prep s)) as [[[j0| |] rest]|] eqn:K; try discriminate.
    destruct rest; [|discriminate]. intros [= <-]. eapply block_proper; eauto.
Qed.
