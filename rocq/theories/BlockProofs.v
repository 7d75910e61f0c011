(** Proofs for C131. *)
From Verif Require Import Lemmas PatchProofs PatchProofs2 SelProofs2 LayoutProofs4 SelProofs3 WellProofs WellProofs3 FrameProofs FrameProofs2 LayoutProofs6 TextProofs.
From Verif Require Import BlockSpec.
Import ListNotations.

(** * Lines of a text *)
Lemma ends_line_is c : ends_line c <-> is_linebreak c = true.
Proof.
  unfold ends_line. assert (forallb (fun k => Bool.eqb (is_linebreak (ascii_of_nat k)) (existsb (Nat.eqb k) [10; 11; 12; 13; 28; 29; 30])) (seq 0 256) = true) as A by (vm_compute; reflexivity).
  rewrite forallb_forall in A. assert (nat_of_ascii c < 256) as B by apply nat_ascii_bounded.
  assert (In (nat_of_ascii c) (seq 0 256)) as I by (apply in_seq; lia). specialize (A _ I). cbv beta in A. rewrite ascii_nat_embedding in A. apply Bool.eqb_prop in A.
  rewrite A, existsb_exists. split.
  - intros H. exists (nat_of_ascii c). split; [exact H|apply Nat.eqb_refl].
  - intros (k & H & K). apply Nat.eqb_eq in K. rewrite K. exact H.
Qed.
Lemma not_ends_line c : ~ ends_line c <-> is_linebreak c = false.
Proof. rewrite ends_line_is. destruct (is_linebreak c); split; congruence. Qed.
Lemma split_once cur b t : is_linebreak b = true -> ~ (b = "013"%char /\ exists t', t = cNL :: t') -> splitlines_aux cur (b :: t) = rev cur :: splitlines_aux [] t.
Proof.
  intros HB N. cbn [splitlines_aux]. rewrite HB. destruct (code b =? 13) eqn:C; [|reflexivity]. apply Nat.eqb_eq in C.
  destruct t as [|d t]; [reflexivity|]. destruct (code d =? 10) eqn:D; [|reflexivity]. exfalso. apply Nat.eqb_eq in D. apply N. split.
  - rewrite <- (ascii_nat_embedding b). unfold code in C. rewrite C. reflexivity.
  - exists t. f_equal. rewrite <- (ascii_nat_embedding d). unfold code in D. rewrite D. reflexivity.
Qed.
Lemma split_word l : forall cur s, (forall c, In c l -> is_linebreak c = false) -> splitlines_aux cur (l ++ s) = splitlines_aux (rev l ++ cur) s.
Proof.
  induction l as [|c l IH]; intros cur s H; [reflexivity|]. cbn [app splitlines_aux rev]. rewrite (H c (or_introl eq_refl)). rewrite IH by (intros d I; apply H; right; exact I).
  rewrite <- app_assoc. reflexivity.
Qed.
Lemma lines_split s ls : text_lines s ls -> splitlines s = ls.
Proof.
  unfold splitlines. induction 1 as [|l N H|l b t ls H HE HT IH]; [reflexivity| |].
  - rewrite splitlines_last; auto. intros c I. apply not_ends_line. exact (H c I).
  - rewrite split_word by (intros c I; apply not_ends_line; exact (H c I)). rewrite app_nil_r. destruct HE as [t|b t HB HN]; cbn [app].
    + cbn [splitlines_aux]. change (is_linebreak "013"%char) with true. cbv iota. change (code "013"%char =? 13) with true. cbv iota. change (code cNL =? 10) with true. cbv iota.
      rewrite IH, rev_involutive. reflexivity.
    + apply ends_line_is in HB. rewrite split_once, IH, rev_involutive by assumption. reflexivity.
Qed.
Lemma split_lines_aux : forall n s cur, length s <= n -> (forall c, In c cur -> is_linebreak c = false) -> text_lines (rev cur ++ s) (splitlines_aux cur s).
Proof.
  induction n as [|n IH]; intros s cur L C; (destruct s as [|b t]; [|cbn [length] in L]).
  - cbn [splitlines_aux]. rewrite app_nil_r. destruct cur as [|c cur]; [constructor|]. apply last_line; [intros X; apply (f_equal (@length ascii)) in X; rewrite rev_length in X; discriminate|].
    intros d I. apply not_ends_line. apply C. apply in_rev. exact I.
  - lia.
  - cbn [splitlines_aux]. rewrite app_nil_r. destruct cur as [|c cur]; [constructor|]. apply last_line; [intros X; apply (f_equal (@length ascii)) in X; rewrite rev_length in X; discriminate|].
    intros d I. apply not_ends_line. apply C. apply in_rev. exact I.
  - assert (CR : forall c, In c (rev cur) -> ~ ends_line c) by (intros d I; apply not_ends_line; apply C; apply in_rev; exact I).
    destruct (is_linebreak b) eqn:B.
    + destruct (andb (code b =? 13) match t with d :: _ => code d =? 10 | [] => false end) eqn:T.
      * apply andb_prop in T as (T1 & T2). destruct t as [|d t]; [discriminate|]. cbn [splitlines_aux]. rewrite B, T1, T2.
        apply Nat.eqb_eq in T1, T2. assert (b = "013"%char) as -> by (rewrite <- (ascii_nat_embedding b); unfold code in T1; rewrite T1; reflexivity).
        assert (d = cNL) as -> by (rewrite <- (ascii_nat_embedding d); unfold code in T2; rewrite T2; reflexivity).
        apply (line_ends (rev cur) ["013"%char; cNL] t); [exact CR|constructor|]. cbn [length] in L. apply (IH t []); [lia|intros d []].
      * assert (~ (b = "013"%char /\ exists t', t = cNL :: t')) as N by (intros (-> & t' & ->); discriminate T).
        rewrite split_once by assumption. apply (line_ends (rev cur) [b] t); [exact CR|constructor; [apply ends_line_is; exact B|exact N]|]. apply (IH t []); [lia|intros d []].
    + cbn [splitlines_aux]. rewrite B. assert (rev cur ++ b :: t = rev (b :: cur) ++ t) as -> by (cbn [rev]; rewrite <- app_assoc; reflexivity).
      apply IH; [lia|]. intros c [<-|I]; [exact B|exact (C c I)].
Qed.
Lemma split_lines s : text_lines s (splitlines s).
Proof. apply (split_lines_aux (length s) s []); [lia|intros c []]. Qed.
Lemma c131_lines s ls : text_lines s ls <-> splitlines s = ls.
Proof. split; [apply lines_split|]. intros <-. apply split_lines. Qed.
Lemma nl_in s : existsb (ceq cNL) s = true <-> In cNL s.
Proof.
  rewrite existsb_exists. split.
  - intros (x & I & H). apply ceq_eq in H as <-. exact I.
  - intros I. exists cNL. split; [exact I|apply ceq_eq; reflexivity].
Qed.
Lemma c131_written E v lines : written_as E v lines <-> value_lines E v lines.
Proof.
  unfold written_as. split.
  - unfold generate_subtree. intros H.
    assert (forall p, (forall s, p = PStr s -> ~ In cNL s) -> (let! r := new_recipe E (stringify_yaml (VJ (JP p)) MNone) in Ok (n_children (r_root r))) = Ok lines -> value_lines E (JP p) lines) as HP.
    { clear H. intros p N X. destruct (new_recipe E (stringify_yaml (VJ (JP p)) MNone)) as [r|] eqn:R; cbn [bind] in X; [|discriminate X]. injection X as <-. apply lines_scalar; assumption. }
    destruct v as [[]|l|d]; try (apply HP; [intros ? X; discriminate X|exact H]).
    + destruct (existsb (ceq cNL) s) eqn:X.
      * injection H as <-. apply (lines_block E s (splitlines s)); [apply nl_in; exact X|apply split_lines].
      * apply HP; [|exact H]. intros s' [= <-] I. apply nl_in in I. congruence.
    + destruct (new_recipe E (ydump E (JList l))) as [r|] eqn:R; cbn [bind] in H; [|discriminate H]. injection H as <-. apply lines_list. exact R.
    + destruct (new_recipe E (ydump E (JDict d))) as [r|] eqn:R; cbn [bind] in H; [|discriminate H]. injection H as <-. apply lines_dict. exact R.
  - intros [s ls I T|p r N R|l r R|d r R]; unfold generate_subtree.
    + apply nl_in in I. rewrite I. apply lines_split in T as <-. reflexivity.
    + destruct p; try (rewrite R; reflexivity). destruct (existsb (ceq cNL) s) eqn:X; [|rewrite R; reflexivity]. exfalso. apply nl_in in X. exact (N s eq_refl X).
    + rewrite R. reflexivity.
    + rewrite R. reflexivity.
Qed.
(** * The text around a changed line; what is known of the line above it *)
Section Above.
Variables (E : env) (S : list str -> list str -> Prop) (R : node -> node -> Prop) (Par : node -> Prop).
Hypothesis HS : grow S.
Hypothesis HR : forall c c', R c c' -> is_comment c = false /\ is_comment c' = false /\ is_leaf c' = is_leaf c.
Hypothesis K1 : forall c c' pre dd P P', R c c' -> Par P -> 0 < dd -> (n_children c <> [] -> f_first_coll c (Some P) = f_first_coll c' (Some P')) ->
  S (child_lines E P pre dd c) (child_lines E P' pre dd c').
Hypothesis K2 : forall n d first c c', R c c' -> is_leaf c = true ->
  S (render_single E n d first c) (render_single E (with_lines n [c']) d first c').
Lemma context_above q : forall root root', changed_at R q root root' -> q <> [] -> (forall above i n, q = above ++ [i] -> node_at root above = Some n -> Par n) ->
  begins_once root = true -> begins_once root' = true -> proper_tree root = true -> proper_tree root' = true ->
  forall d P P', f_first_coll root P = f_first_coll root' P' -> S (render_tree E root d P) (render_tree E root' d P').
Proof.
  intros root root' H. induction H as [n n' _|n before c c' after p Hn H IH]; intros NE HPar B B' PT PT' d P P' HF; [congruence|]. clear NE.
  set (n' := with_lines n (before ++ c' :: after)) in *.
  assert (is_nil (n_children c) = is_nil (n_children c')) as KN.
  { destruct H as [m m' Hm|m before2 e e' after2 p2 Hm Hd].
    - destruct (HR _ _ Hm) as (A1 & A2 & A3). unfold is_leaf in A3. rewrite A1, A2 in A3. cbn [negb] in A3. rewrite !andb_true_r in A3. auto.
    - rewrite Hm. cbn [with_lines n_children]. destruct before2; reflexivity. }
  destruct (first_kept n before c c' after n' eq_refl Hn KN B B' PT PT') as (F1 & F2).
  assert (forall pre dd, 0 < dd -> S (child_lines E n pre dd c) (child_lines E n' pre dd c')) as KC.
  { intros pre dd D. destruct H as [m m' Hm|m before2 e e' after2 p2 Hm Hd].
    - apply K1; auto. apply (HPar [] (length before) n); reflexivity.
    - set (m' := with_lines m (before2 ++ e' :: after2)) in *.
      assert (is_comment m = false) as C1 by (unfold is_comment; rewrite Hm; destruct before2; apply andb_false_r).
      assert (is_comment m' = false) as C2 by (unfold is_comment; cbn [m' with_lines n_children]; destruct before2; apply andb_false_r).
      assert (is_leaf m = false) as L1 by (unfold is_leaf; rewrite Hm; destruct before2; reflexivity).
      assert (is_leaf m' = false) as L2 by (unfold is_leaf; cbn [m' with_lines n_children]; destruct before2; reflexivity).
      unfold child_lines, is_empty_key. rewrite C1, C2, L1, L2, !andb_false_r. apply IH; auto; [discriminate| | | | | |].
      + intros above i x X Hx. apply (HPar (length before :: above) i x); [cbn [app]; f_equal; exact X|]. cbn [node_at]. rewrite Hn, nth_error_app2, Nat.sub_diag by lia. exact Hx.
      + pose proof (begins_children _ B) as F. rewrite Hn in F. rewrite Forall_app in F. destruct F as (_ & F). inversion F. assumption.
      + pose proof (begins_children _ B') as F. cbn [n' with_lines n_children] in F. rewrite Forall_app in F. destruct F as (_ & F). inversion F. assumption.
      + pose proof (proper_children _ PT) as F. rewrite Hn in F. rewrite Forall_app in F. destruct F as (_ & F). inversion F. assumption.
      + pose proof (proper_children _ PT') as F. cbn [n' with_lines n_children] in F. rewrite Forall_app in F. destruct F as (_ & F). inversion F. assumption.
      + apply F1. rewrite Hm. destruct before2; discriminate. }
  assert (is_comment c = is_comment c' /\ is_leaf c = is_leaf c') as (EC & EL).
  { destruct H as [m m' Hm|m before2 e e' after2 p2 Hm Hd].
    - destruct (HR _ _ Hm) as (A1 & A2 & A3). rewrite A1, A2, A3. auto.
    - unfold is_leaf, is_comment. cbn [with_lines n_children n_value n_comment]. rewrite Hm. destruct before2; cbn [app is_nil]; rewrite !andb_false_r; auto. }
  (* the body *)
  destruct n as [v cm chs l ml k]. cbn [n_children] in Hn. subst chs.
  assert (n' = Nd v cm (before ++ c' :: after) l ml k) as En' by reflexivity. clearbody n'. subst n'.
  rewrite !render_eq. rewrite HF.
  assert (is_collection (Nd v cm (before ++ c' :: after) l ml k) = is_collection (Nd v cm (before ++ c :: after) l ml k)) as HC.
  { unfold is_collection. cbn [n_value n_lmf n_children]. destruct before; reflexivity. }
  rewrite HC.
  set (n1 := Nd v cm (before ++ c :: after) l ml k) in *. set (n2 := Nd v cm (before ++ c' :: after) l ml k) in *.
  assert (forall h delta, 0 < delta -> S (h ++ kids E n1 d delta (before ++ c :: after)) (h ++ kids E n2 d delta (before ++ c' :: after))) as HB0.
  { intros h delta D.
    match goal with |- S (_ ++ ?x) (_ ++ ?y) => enough (S x y) as HX by (pose proof (HS h x y [] HX) as Z; rewrite !app_nil_r in Z; exact Z) end.
    unfold kids. rewrite !flat_map_app. cbn [flat_map].
    rewrite (flat_map_same _ (fun c0 => child_lines E n2 (dspaces d ++ (if d =? 0 then [] else TAB)) (d + delta) c0 ++ (if (d =? 0) && negb (is_comment c0) then [[]] else [])) before)
      by (intros x Hx; rewrite (child_lines_parent E n1 n2); [reflexivity|apply F2; auto]).
    rewrite (flat_map_same _ (fun c0 => child_lines E n2 (dspaces d ++ (if d =? 0 then [] else TAB)) (d + delta) c0 ++ (if (d =? 0) && negb (is_comment c0) then [[]] else [])) after)
      by (intros x Hx; rewrite (child_lines_parent E n1 n2); [reflexivity|apply F2; auto]).
    rewrite EC. rewrite <- !app_assoc. apply HS. apply KC. lia. }
  assert (forall (b : bool), 0 < (if b then 2 else 1)) as D2 by (intros []; lia).
  pose proof (fun h b => HB0 h _ (D2 b)) as HB.
  destruct k; [|apply HB]. destruct before as [|b before].
  - cbn [app]. destruct after as [|a after]; [|apply HB]. destruct (is_leaf c) eqn:LC.
    + rewrite <- EL. cbn [app] in *. destruct H as [m m' Hm|m before2 e e' after2 p2 Hm Hd].
      * exact (K2 (Nd v cm [m] l ml true) d (f_first_coll (Nd v cm [m'] l ml true) P') m m' Hm LC).
      * exfalso. unfold is_leaf in LC. rewrite Hm in LC. destruct before2; discriminate LC.
    + rewrite <- EL. apply HB.
  - cbn [app]. destruct before; apply HB.
Qed.
End Above.
Lemma block_grow name u cm ls : grow (becomes_block name u cm ls).
Proof.
  intros A L L' B (b & k & c & a & -> & -> ). exists (A ++ b), k, c, (a ++ B). rewrite <- !app_assoc. split; reflexivity.
Qed.
Section Block.
Variables (E : env) (u : json) (ls : list str) (n0 : node) (name : str).
Hypothesis HN : n_value n0 = VJ (JStr name).
Let R := fun a b => a = n0 /\ key_with_value a u /\ b = with_lines a [block_line ls].
Let Par := fun P => f_first_coll n0 (Some P) = false.
Lemma block_R c d : R c d -> is_comment c = false /\ is_comment d = false /\ is_leaf d = is_leaf c.
Proof.
  intros (-> & (K & _ & x & HX & HV & HC & _) & ->).
  unfold is_leaf, is_comment. cbn [with_lines n_children n_value]. rewrite HX. cbn [is_nil andb]. rewrite !andb_false_r. auto.
Qed.
Lemma block_K1 c d pre dd P P' : R c d -> Par P -> 0 < dd -> (n_children c <> [] -> f_first_coll c (Some P) = f_first_coll d (Some P')) ->
  becomes_block name u (n_comment n0) ls (child_lines E P pre dd c) (child_lines E P' pre dd d).
Proof.
  intros HR HP D HF. destruct (block_R _ _ HR) as (C1 & C2 & EL). destruct HR as (-> & (K & LM & x & HX & HV & HC & LX & MX) & Hd).
  assert (is_leaf n0 = false) as L by (unfold is_leaf; rewrite HX; reflexivity).
  unfold child_lines, is_empty_key. rewrite C1, C2, EL, L, !andb_false_r. rewrite HX in HF. specialize (HF ltac:(discriminate)).
  unfold Par in HP. rewrite HP in HF. subst d. destruct n0 as [v cm chs l ml k]. cbn [n_children n_keyf n_lmf n_value n_comment] in *. subst chs k l v.
  change (with_lines (Nd (VJ (JStr name)) cm [x] false ml true) [block_line ls]) with (Nd (VJ (JStr name)) cm [block_line ls] false ml true) in *.
  rewrite !render_eq. rewrite HP, <- HF. cbv zeta.
  assert (is_leaf x = true) as -> by (unfold is_leaf, is_comment; rewrite HC, HV; reflexivity).
  change (is_leaf (block_line ls)) with true. cbv iota. unfold render_single. cbv zeta. rewrite LX, MX, HV. cbn [block_line n_lmf n_value n_comment n_ml is_multi].
  cbv iota. exists [], (TAB_SPACE_COUNT * (dd - 1)), (n_comment x), []. cbn [app]. split; [reflexivity|]. change (is_multi MPipe) with true. cbv iota. rewrite map_map. f_equal. eapply eq_trans; [|symmetry; apply app_nil_r]. apply map_ext. intros l.
  unfold dspaces, TAB, spaces. rewrite Nat.add_comm, repeat_app, <- app_assoc. reflexivity.
Qed.
Lemma block_K2 n d first c c' : R c c' -> is_leaf c = true -> becomes_block name u (n_comment n0) ls (render_single E n d first c) (render_single E (with_lines n [c']) d first c').
Proof. intros (-> & (K & LM & x & HX & _) & Hd) L. unfold is_leaf in L. rewrite HX in L. discriminate L. Qed.
Lemma block_lines q root root' : changed_at R q root root' -> q <> [] -> (forall above i n, q = above ++ [i] -> node_at root above = Some n -> Par n) ->
  begins_once root = true -> begins_once root' = true -> proper_tree root = true -> proper_tree root' = true ->
  becomes_block name u (n_comment n0) ls (render_lines E root) (render_lines E root').
Proof.
  intros. apply (context_above E (becomes_block name u (n_comment n0) ls) R Par (block_grow _ _ _ _) block_R block_K1 block_K2 q); auto.
Qed.
End Block.
Lemma block_proper u ls a b : (key_with_value a u /\ b = with_lines a [block_line ls]) -> proper_tree a = true -> proper_tree b = true.
Proof.
  intros (_ & ->) P. rewrite proper_split in P |- *. cbn [with_lines n_value n_children forallb]. apply andb_prop in P as (-> & _).
  cbn [block_line proper_tree forallb proper_value andb]. rewrite !andb_true_r. induction ls as [|l ls IH]; [reflexivity|]. cbn [map forallb proper_value]. exact IH.
Qed.
Lemma block_begins u ls a b : (key_with_value a u /\ b = with_lines a [block_line ls]) -> begins_once a = true -> begins_once b = true.
Proof.
  intros ((_ & LM & _) & ->) _. rewrite begins_split. unfold collection_element. cbn [with_lines n_value n_children n_lmf forallb]. rewrite LM, andb_false_r. reflexivity.
Qed.
Lemma block_value u ls a b : (key_with_value a u /\ b = with_lines a [block_line ls]) -> (n_value b = n_value a \/ n_children a = []) /\ is_nil (n_children b) = is_nil (n_children a).
Proof. intros ((_ & _ & c & HC & _) & ->). split; [left; reflexivity|]. rewrite HC. reflexivity. Qed.
Lemma not_first root q n : ~ begins_element root q -> begins_once root = true -> node_at root q = Some n -> n_children n <> [] ->
  forall above i P, q = above ++ [i] -> node_at root above = Some P -> f_first_coll n (Some P) = false.
Proof.
  intros NB B Hn NC above i P -> HP. unfold f_first_coll. change (is_collection P) with (collection_element P). destruct (collection_element P) eqn:C; [|reflexivity]. cbn [andb].
  rewrite node_at_app, HP in Hn. cbn [node_at] in Hn. destruct (nth_error (n_children P) i) as [x|] eqn:X; [|discriminate]. injection Hn as ->.
  assert (begins_once P = true) as BP.
  { clear -B HP. revert root B HP. induction above as [|j above IH]; intros root B HP; cbn [node_at] in HP; [injection HP as <-; exact B|].
    destruct (nth_error (n_children root) j) as [y|] eqn:Y; [|discriminate]. apply (IH y); [|exact HP]. pose proof (begins_children _ B) as F. rewrite Forall_forall in F. apply F. eapply nth_error_In. exact Y. }
  destruct (n_children P) as [|f others] eqn:K; [reflexivity|]. destruct i as [|i].
  - exfalso. apply NB. exists above, P. auto.
  - cbn [nth_error] in X. apply (begins_first P f others n BP C K); [eapply nth_error_In; exact X|exact NC].
Qed.
Lemma c131_text E p s t ls r r' q n name u : asks p (RReplace s (JStr t)) -> patch E p r = (Ok true, r') -> In cNL t -> text_lines t ls ->
  well_formed (r_root r) -> proper_tree (r_root r) = true -> begins_once (r_root r) = true ->
  addresses (r_root r) s q -> q <> [] -> node_at (r_root r) q = Some n -> key_with_value n u -> n_value n = VJ (JStr name) -> ~ begins_element (r_root r) q ->
  exists L L', render E r = join [cNL] L /\ render E r' = join [cNL] L' /\ becomes_block name u (n_comment n) ls L L'.
Proof.
  intros HA HP I T W P B AD NE Hn KV HV NB. destruct (c13_success _ _ _ _ _ _ HA HP) as ((_ & S1 & S2) & lines & HL & HC).
  assert (written_as E (JStr t) [block_line ls]) as HW by (apply c131_written; constructor; assumption).
  unfold written_as in HL, HW. rewrite HW in HL. injection HL as <-.
  assert (changed_at (fun a b => a = n /\ key_with_value a u /\ b = with_lines a [block_line ls]) q (r_root r) (r_root r')) as H.
  { destruct HC as [(q' & n' & A1 & A2 & A3 & A4 & A5)|(q' & i & x & A1 & A2 & A3 & A4 & _ & A5)].
    - pose proof (address_same _ _ _ _ A1 AD) as ->. assert (n' = n) as -> by congruence.
      apply (changed_weaken (fun a b => a = n /\ content_replaced [block_line ls] a b)); [|apply changed_with_node; assumption].
      intros a b (-> & ->). auto.
    - pose proof (address_same _ _ _ _ AD A1) as ->. assert (x = n) as -> by congruence. destruct KV as (_ & LM & _). congruence. }
  assert (changed_at (fun a b => key_with_value a u /\ b = with_lines a [block_line ls]) q (r_root r) (r_root r')) as H' by (eapply changed_weaken; [|exact H]; intros a b (_ & Z); exact Z).
  eexists _, _. split; [reflexivity|]. split; [reflexivity|]. rewrite S1, S2.
  assert (n_children n <> []) as NC by (destruct KV as (_ & _ & c & -> & _); discriminate).
  pose proof (block_lines E u ls n name HV q _ _ H NE (not_first _ _ _ NB B Hn NC) B
    (changed_begins _ (block_begins u ls) (block_value u ls) _ _ _ H' B) P (changed_proper _ (block_proper u ls) _ _ _ H' P)) as D.
  pose proof (block_grow _ _ _ _ (var_lines (r_schema r) (r_vars r)) _ _ [] D) as Z. rewrite !app_nil_r in Z. exact Z.
Qed.
(** * Reading a block *)
Lemma block_read t ls : In cNL t -> text_lines t ls -> normalize_multiline (n_value (block_line ls)) MPipe = Ok (block_text ls).
Proof.
  intros I T. unfold normalize_multiline. cbn [block_line n_value nval_lines].
  assert (as_lines (map (fun l => JStr l) ls) = Some ls) as -> by (clear; induction ls as [|l ls IH]; [reflexivity|]; cbn [map as_lines]; rewrite IH; reflexivity).
  f_equal. unfold block_text. change (mlv_str MPipe) with $"|". apply f_equal.
  destruct T as [|l N H|l b t ls H HE HT]; [contradiction| |].
  - cbn [join map concat]. rewrite app_nil_r. reflexivity.
  - clear. revert l. induction ls as [|m ls IH]; intros l; [cbn [join map concat]; rewrite app_nil_r; reflexivity|].
    change (join (cNL :: TAB) (l :: m :: ls)) with (l ++ (cNL :: TAB) ++ join (cNL :: TAB) (m :: ls)).
    change (concat (map (fun l0 => [cNL] ++ $"  " ++ l0) (l :: m :: ls))) with (([cNL] ++ $"  " ++ l) ++ concat (map (fun l0 => [cNL] ++ $"  " ++ l0) (m :: ls))).
    rewrite <- IH. rewrite <- !app_assoc. reflexivity.
Qed.
Lemma c131_read E p q s cs c t ls r r' n : asks p q -> sets q s (JStr t) -> In cNL t -> text_lines t ls -> s = path_text (cs ++ [c]) -> Forall component (cs ++ [c]) ->
  isdigit c = false -> c <> $"-" -> lookup (r_root r) s = Some n -> n_keyf n = true ->
  patch E p r = (Ok true, r') -> get_value E (r_root r') s None None = yres_to_res (yload E (block_text ls)).
Proof.
  intros Ha Hq I T -> HC D ND HL HK HP.
  assert (self_move q = false /\ is_test q = false) as (SM & IT) by (destruct Hq; subst; auto).
  apply (patch_success E p _ r r' Ha SM IT) in HP as (root' & HP & <- & _).
  destruct (stack_snoc cs c HC) as (HST & _). unfold lookup in HL. rewrite HST in HL.
  pose proof HL as HL'. unfold traverse in HL'.
  destruct (traverse_pos (r_root r) (c :: rev cs ++ [ROOT_VALUE])) as [pos|] eqn:HT; [|discriminate].
  pose proof (reached_name _ _ _ _ _ D HT HL') as HV.
  assert (written_as E (JStr t) [block_line ls]) as HW by (apply c131_written; constructor; assumption). unfold written_as in HW.
  assert (r_root r' = update_at pos (set_children [block_line ls]) (r_root r)) as HR.
  { destruct Hq as [-> | ->]; unfold perform in HP; cbn [request_path] in HP; rewrite HST in HP.
    - unfold patch_add, patch_add_find_target in HP.
      destruct (str_eqb c $"-") eqn:HD; [apply str_eqb_eq in HD; contradiction|].
      rewrite (twi_name_eq _ _ _ D), HT in HP. cbn [bind] in HP. cbn [at_pos at_virt at_phys at_create at_append is_nil] in HP.
      destruct (is_valid_patch_node (node_at (r_root r) pos) None); [|discriminate]. cbn [negb] in HP. rewrite HW in HP.
      cbn [orb negb] in HP. injection HP as <-. apply update_at_ext. reflexivity.
    - unfold patch_replace in HP. rewrite (twi_name_eq _ _ _ D), HT in HP.
      destruct (is_valid_patch_node (node_at (r_root r) pos) None); [|discriminate]. cbn [negb] in HP. rewrite HW in HP.
      injection HP as <-. reflexivity. }
  assert (component c) as HCc by (apply Forall_app in HC as (_ & HC); inversion HC; auto).
  unfold get_value. rewrite HST. cbn [bind]. rewrite HR, (update_read _ _ _ _ _ HT HL') by congruence.
  assert (is_root (set_children [block_line ls] n) = false) as HRt by (apply (named_not_root c); auto; rewrite set_children_value; auto).
  unfold get_value_node, is_single_key. rewrite set_children_keyf, HK, HRt, children_set. change (is_leaf (block_line ls)) with true. cbn [andb negb]. cbv iota.
  change (n_ml (block_line ls)) with MPipe. change (is_multi MPipe) with true. cbv iota. rewrite (block_read t ls I T). reflexivity.
Qed.
