(** Proofs for C104 to C106. *)
From Verif Require Import Lemmas PatchProofs SelProofs2 LayoutProofs4 SelProofs3 WellProofs WellProofs3 FrameProofs.
From Verif Require Import TextSpec.

Lemma coll_same n : is_collection n = collection_element n. Proof. reflexivity. Qed.
Lemma leaf_same n : is_leaf n = terminal n. Proof. reflexivity. Qed.
Definition grow (S : list str -> list str -> Prop) : Prop := forall A L L' B, S L L' -> S (A ++ L ++ B) (A ++ L' ++ B).
Lemma begins_children n : begins_once n = true -> Forall (fun c => begins_once c = true) (n_children n).
Proof. destruct n as [v c chs l m k]. cbn [begins_once n_children]. intros H. apply andb_prop in H as (_ & H). apply Forall_forall. apply forallb_forall, H. Qed.
Lemma eq_kids a b : node_eqb a b = true -> is_nil (n_children a) = is_nil (n_children b).
Proof.
  destruct a as [v c chs l m k], b as [v' c' chs' l' m' k']. cbn [node_eqb n_children]. intros H. apply andb_prop in H as (_ & H). destruct chs, chs'; try discriminate H; reflexivity.
Qed.
Lemma begins_first n first others x : begins_once n = true -> collection_element n = true -> n_children n = first :: others ->
  In x others -> n_children x <> [] -> node_eqb x first = false.
Proof.
  destruct n as [v c chs l m k]. cbn [begins_once n_children]. intros H HC -> Hx NX. rewrite HC in H. apply andb_prop in H as (H & _).
  destruct (node_eqb x first) eqn:Q; [|reflexivity]. pose proof (eq_kids _ _ Q) as K. apply node_eqb_value in Q.
  destruct (n_children x) as [|y ys] eqn:Cx; [congruence|]. rewrite <- K in H. cbn [is_nil orb] in H. rewrite forallb_forall in H. specialize (H x Hx). rewrite Cx, Q in H. discriminate H.
Qed.
Lemma proper_children n : proper_tree n = true -> Forall (fun c => proper_tree c = true) (n_children n).
Proof. destruct n as [v c chs l m k]. cbn [proper_tree n_children]. intros H. apply andb_prop in H as (_ & H). apply Forall_forall. apply forallb_forall, H. Qed.
Lemma not_equal_kids a b : n_children a <> [] -> n_children b = [] -> node_eqb a b = false.
Proof. intros H1 H2. destruct (node_eqb a b) eqn:Q; auto. apply eq_kids in Q. rewrite H2 in Q. destruct (n_children a); [congruence|discriminate Q]. Qed.

(** Which lines of a parent are its first line *)
Lemma first_kept n before c c' after n' : n' = with_lines n (before ++ c' :: after) -> n_children n = before ++ c :: after ->
  is_nil (n_children c) = is_nil (n_children c') ->
  begins_once n = true -> begins_once n' = true -> proper_tree n = true -> proper_tree n' = true ->
  (n_children c <> [] -> f_first_coll c (Some n) = f_first_coll c' (Some n'))
  /\ (forall x, In x before \/ In x after -> n_children x <> [] -> f_first_coll x (Some n) = f_first_coll x (Some n')).
Proof.
  intros En' Hn KN B B' P P'.
  assert (collection_element n' = collection_element n) as HC.
  { rewrite En'. unfold collection_element, with_lines. cbn [n_value n_lmf n_children]. rewrite Hn. destruct before; reflexivity. }
  assert (n_children n' = before ++ c' :: after) as Hn' by (rewrite En'; reflexivity).
  unfold f_first_coll. cbv iota. change (is_collection n) with (collection_element n). change (is_collection n') with (collection_element n'). rewrite HC. destruct (collection_element n) eqn:C; cbn [andb]; [|split; reflexivity].
  pose proof (proper_children _ P) as PC. pose proof (proper_children _ P') as PC'. rewrite Hn in PC. rewrite Hn' in PC'.
  rewrite Forall_app in PC, PC'. destruct PC as (PC1 & PC). destruct PC' as (_ & PC'). inversion PC as [|? ? PC2 PC3]. inversion PC' as [|? ? PC2' PC3'].
  destruct before as [|b before]; cbn [app] in *.
  - rewrite Hn, Hn'. split.
    + intros _. rewrite !node_eqb_refl by assumption. reflexivity.
    + intros y [[]|Hy] NY. rewrite (begins_first _ _ _ y B C Hn Hy NY), (begins_first _ _ _ y B' HC Hn' Hy NY). reflexivity.
  - rewrite Hn, Hn'. split; [|reflexivity]. intros NK.
    assert (n_children c' <> []) as NK' by (destruct (n_children c), (n_children c'); try discriminate; congruence).
    rewrite (begins_first _ _ _ c B C Hn), (begins_first _ _ _ c' B' HC Hn'); auto; apply in_or_app; right; left; reflexivity.
Qed.
Lemma child_lines_parent E n n' pre dd x : (n_children x <> [] -> f_first_coll x (Some n) = f_first_coll x (Some n')) -> child_lines E n pre dd x = child_lines E n' pre dd x.
Proof.
  intros H. unfold child_lines. destruct (is_comment x) eqn:C; [reflexivity|]. destruct (is_empty_key x); [reflexivity|]. destruct (is_leaf x) eqn:L; [reflexivity|].
  destruct x as [v c chs l m k]. rewrite !render_eq. rewrite H; [reflexivity|]. unfold is_leaf in L. rewrite C in L. cbn [n_children] in *. destruct chs; [discriminate L|discriminate].
Qed.

Lemma flat_map_same {A B} (f g : A -> list B) l : (forall x, In x l -> f x = g x) -> flat_map f l = flat_map g l.
Proof. induction l as [|a l IH]; intros H; [reflexivity|]. cbn [flat_map]. rewrite H, IH; auto; [intros; apply H; right; auto|left; reflexivity]. Qed.

Section Context.
Variables (E : env) (S : list str -> list str -> Prop) (R : node -> node -> Prop).
Hypothesis HS : grow S.
Hypothesis HR : forall c c', R c c' -> is_comment c = false /\ is_comment c' = false /\ is_leaf c' = is_leaf c.
Hypothesis K1 : forall c c' pre dd P P', R c c' -> 0 < dd -> (n_children c <> [] -> f_first_coll c (Some P) = f_first_coll c' (Some P')) ->
  S (child_lines E P pre dd c) (child_lines E P' pre dd c').
Hypothesis K2 : forall n d first c c', R c c' -> is_leaf c = true ->
  S (render_single E n d first c) (render_single E (with_lines n [c']) d first c').
Lemma context q : forall root root', changed_at R q root root' -> q <> [] ->
  begins_once root = true -> begins_once root' = true -> proper_tree root = true -> proper_tree root' = true ->
  forall d P P', f_first_coll root P = f_first_coll root' P' -> S (render_tree E root d P) (render_tree E root' d P').
Proof.
  intros root root' H. induction H as [n n' _|n before c c' after p Hn H IH]; intros NE B B' PT PT' d P P' HF; [congruence|]. clear NE.
  set (n' := with_lines n (before ++ c' :: after)) in *.
  assert (is_nil (n_children c) = is_nil (n_children c')) as KN.
  { destruct H as [m m' Hm|m before2 e e' after2 p2 Hm Hd].
    - destruct (HR _ _ Hm) as (A1 & A2 & A3). unfold is_leaf in A3. rewrite A1, A2 in A3. cbn [negb] in A3. rewrite !andb_true_r in A3. auto.
    - rewrite Hm. cbn [with_lines n_children]. destruct before2; reflexivity. }
  destruct (first_kept n before c c' after n' eq_refl Hn KN B B' PT PT') as (F1 & F2).
  assert (forall pre dd, 0 < dd -> S (child_lines E n pre dd c) (child_lines E n' pre dd c')) as KC.
  { intros pre dd D. destruct H as [m m' Hm|m before2 e e' after2 p2 Hm Hd].
    - apply K1; auto.
    - set (m' := with_lines m (before2 ++ e' :: after2)) in *.
      assert (is_comment m = false) as C1 by (unfold is_comment; rewrite Hm; destruct before2; apply andb_false_r).
      assert (is_comment m' = false) as C2 by (unfold is_comment; cbn [m' with_lines n_children]; destruct before2; apply andb_false_r).
      assert (is_leaf m = false) as L1 by (unfold is_leaf; rewrite Hm; destruct before2; reflexivity).
      assert (is_leaf m' = false) as L2 by (unfold is_leaf; cbn [m' with_lines n_children]; destruct before2; reflexivity).
      unfold child_lines, is_empty_key. rewrite C1, C2, L1, L2, !andb_false_r. apply IH; auto; [discriminate| | | | |].
      + pose proof (begins_children _ B) as F. rewrite Hn in F. rewrite Forall_app in F. destruct F as (_ & F). inversion F. assumption.
      + pose proof (begins_children _ B') as F. cbn [n' with_lines n_children] in F. rewrite Forall_app in F. destruct F as (_ & F). inversion F. assumption.
      + pose proof (proper_children _ PT) as F. rewrite Hn in F. rewrite Forall_app in F. destruct F as (_ & F). inversion F. assumption.
      + pose proof (proper_children _ PT') as F. cbn [n' with_lines n_children] in F. rewrite Forall_app in F. destruct F as (_ & F). inversion F. assumption.
      + apply F1. rewrite Hm. destruct before2; discriminate. }
  assert (is_comment c = is_comment c' /\ is_leaf c = is_leaf c') as (EC & EL).
  { destruct H as [m m' Hm|m before2 e e' after2 p2 Hm Hd].
    - destruct (HR _ _ Hm) as (A1 & A2 & A3). rewrite A1, A2, A3. auto.
    - unfold is_leaf, is_comment. cbn [with_lines n_children n_value n_comment]. rewrite Hm. destruct before2; cbn [app is_nil]; rewrite !andb_false_r; auto. }
  (* the body *)
  destruct n as [v cm chs l ml k]. cbn [n_children] in Hn. subst chs.
  assert (n' = Nd v cm (before ++ c' :: after) l ml k) as En' by reflexivity. clearbody n'. subst n'.
  rewrite !render_eq. rewrite HF.
  assert (is_collection (Nd v cm (before ++ c' :: after) l ml k) = is_collection (Nd v cm (before ++ c :: after) l ml k)) as HC.
  { unfold is_collection. cbn [n_value n_lmf n_children]. destruct before; reflexivity. }
  rewrite HC.
  set (n1 := Nd v cm (before ++ c :: after) l ml k) in *. set (n2 := Nd v cm (before ++ c' :: after) l ml k) in *.
  assert (forall h delta, 0 < delta -> S (h ++ kids E n1 d delta (before ++ c :: after)) (h ++ kids E n2 d delta (before ++ c' :: after))) as HB0.
  { intros h delta D.
    match goal with |- S (_ ++ ?x) (_ ++ ?y) => enough (S x y) as HX by (pose proof (HS h x y [] HX) as Z; rewrite !app_nil_r in Z; exact Z) end.
    unfold kids. rewrite !flat_map_app. cbn [flat_map].
    rewrite (flat_map_same _ (fun c0 => child_lines E n2 (dspaces d ++ (if d =? 0 then [] else TAB)) (d + delta) c0 ++ (if (d =? 0) && negb (is_comment c0) then [[]] else [])) before)
      by (intros x Hx; rewrite (child_lines_parent E n1 n2); [reflexivity|apply F2; auto]).
    rewrite (flat_map_same _ (fun c0 => child_lines E n2 (dspaces d ++ (if d =? 0 then [] else TAB)) (d + delta) c0 ++ (if (d =? 0) && negb (is_comment c0) then [[]] else [])) after)
      by (intros x Hx; rewrite (child_lines_parent E n1 n2); [reflexivity|apply F2; auto]).
    rewrite EC. rewrite <- !app_assoc. apply HS. apply KC. lia. }
  assert (forall (b : bool), 0 < (if b then 2 else 1)) as D2 by (intros []; lia).
  pose proof (fun h b => HB0 h _ (D2 b)) as HB.
  destruct k; [|apply HB]. destruct before as [|b before].
  - cbn [app]. destruct after as [|a after]; [|apply HB]. destruct (is_leaf c) eqn:LC.
    + rewrite <- EL. cbn [app] in *. destruct H as [m m' Hm|m before2 e e' after2 p2 Hm Hd].
      * exact (K2 (Nd v cm [m] l ml true) d (f_first_coll (Nd v cm [m'] l ml true) P') m m' Hm LC).
      * exfalso. unfold is_leaf in LC. rewrite Hm in LC. destruct before2; discriminate LC.
    + rewrite <- EL. apply HB.
  - cbn [app]. destruct before; apply HB.
Qed.
End Context.

(** * Comments *)
Lemma one_grow P : grow (one_line_differs P).
Proof.
  intros A L L' B (b & l & l' & a & -> & -> & H). exists (A ++ b), l, l', (a ++ B). rewrite <- !app_assoc. auto.
Qed.
Lemma two_grow P : grow (two_lines_differ P).
Proof.
  intros A L L' B (b & l & m & l' & m' & a & -> & -> & H). exists (A ++ b), l, m, l', m', (a ++ B). rewrite <- !app_assoc. auto.
Qed.
Lemma one_here (P : str -> str -> Prop) l l' : P l l' -> one_line_differs P [l] [l'].
Proof. intros H. exists [], l, l', []. auto. Qed.
Definition comments_differ (c' : str) (n : node) : list str -> list str -> Prop :=
  if lone_element n then two_lines_differ (recommented c') else one_line_differs (recommented c').
Lemma recomment c' a c : (c = [] \/ starts_with_hash c) -> recommented c' (rstrip (a ++ $"  " ++ c)) (rstrip (a ++ $"  " ++ c')).
Proof. intros H. exists a, c. auto. Qed.
Lemma with_comment_leaf c' c : well_line c -> terminal c = true -> terminal (with_comment c' c) = true.
Proof.
  intros (_ & W & _) T. destruct c as [v cm chs l ml k]. unfold terminal, is_comment in *. cbn [with_comment n_children n_value n_comment] in *.
  destruct chs; [|discriminate T]. cbn [is_nil andb] in *. destruct v; [|reflexivity]. destruct (W eq_refl eq_refl) as ((t & ->) & _). discriminate T.
Qed.
Lemma render_plain E v cm chs l ml k d parent : on_one_line (Nd v cm chs l ml k) = false ->
  let n' := Nd v cm chs l ml k in
  let first := f_first_coll n' parent in
  let sp := dspaces d in
  let visible := (0 <? d) && negb (is_collection n') in
  let delta := if visible && l then 2 else 1 in
  let head := if visible then
                [ rstrip ((if first then skipn TAB_SPACE_COUNT sp else sp)
                          ++ (if l || first then $"- " else []) ++ nval_str E v ++ $":  " ++ cm) ]
              else [] in
  render_tree E n' d parent = head ++ kids E n' d delta chs.
Proof.
  intros O. cbv zeta. rewrite render_eq. cbv zeta. unfold on_one_line in O. cbn [n_keyf n_children] in O. destruct k; [|reflexivity]. destruct chs as [|c [|]]; try reflexivity.
  cbn [andb] in O. rewrite (leaf_same c), O. reflexivity.
Qed.
Section Comments.
Variables (E : env) (c' : str) (n0 : node).
Hypothesis W : well_line n0.
Hypothesis WC : forall c, In c (n_children n0) -> well_line c.
Hypothesis WL : written_line n0.
Hypothesis NC : is_comment n0 = false.
Let R := fun a b => a = n0 /\ comment_changed c' a b.
Lemma not_bare_nothing : n_value n0 = VSent -> n_children n0 = [] -> False.
Proof.
  intros A B. destruct W as (_ & H & _). destruct (H A B) as ((t & Ht) & _). unfold is_comment in NC. rewrite A, B, Ht in NC. discriminate NC.
Qed.
Lemma comment_R c d : R c d -> is_comment c = false /\ is_comment d = false /\ is_leaf d = is_leaf c.
Proof.
  intros (-> & ->). split; [exact NC|]. pose proof not_bare_nothing as N.
  assert (is_comment (if on_one_line n0 then Nd (n_value n0) c' (map (with_comment c') (n_children n0)) (n_lmf n0) (n_ml n0) (n_keyf n0) else with_comment c' n0) = false) as C.
  { unfold is_comment. destruct (on_one_line n0); cbn [with_comment n_value n_children n_comment]; destruct (n_value n0); try reflexivity;
      destruct (n_children n0); try (exfalso; apply N; reflexivity); cbn [map is_nil]; rewrite andb_false_r; reflexivity. }
  split; [exact C|]. unfold is_leaf. rewrite C, NC. destruct (on_one_line n0); cbn [with_comment n_children]; destruct (n_children n0); reflexivity.
Qed.
Lemma recomm a c : (c = [] \/ starts_with_hash c) -> recommented c' (rstrip (a ++ $"  " ++ c)) (rstrip (a ++ $"  " ++ c')).
Proof. apply recomment. Qed.
Lemma recs ps c : (c = [] \/ starts_with_hash c) -> recommented c' (rstrip (fold_right (@app ascii) ($"  " ++ c) ps)) (rstrip (fold_right (@app ascii) ($"  " ++ c') ps)).
Proof.
  intros H. assert (forall t, fold_right (@app ascii) t ps = concat ps ++ t) as F.
  { intros t. induction ps as [|x ps IH]; cbn [fold_right concat]; [reflexivity|]. rewrite IH, app_assoc. reflexivity. }
  rewrite !F. apply recomment, H.
Qed.
Lemma recs_colon ps c : (c = [] \/ starts_with_hash c) -> recommented c' (rstrip (fold_right (@app ascii) ($":  " ++ c) ps)) (rstrip (fold_right (@app ascii) ($":  " ++ c') ps)).
Proof.
  intros H. pose proof (recs (ps ++ [$":"]) c H) as Q. rewrite !fold_right_app in Q. exact Q.
Qed.
Lemma own_form : n_comment n0 = [] \/ starts_with_hash (n_comment n0).
Proof. apply W. Qed.
Lemma comment_K1 c d pre dd P P' : R c d -> 0 < dd -> (n_children c <> [] -> f_first_coll c (Some P) = f_first_coll d (Some P')) ->
  comments_differ c' n0 (child_lines E P pre dd c) (child_lines E P' pre dd d).
Proof.
  intros HR D HF. destruct (comment_R _ _ HR) as (C1 & C2 & EL). destruct HR as (-> & HD).
  assert (n_keyf d = n_keyf n0 /\ n_value d = n_value n0 /\ n_comment d = c') as (EK & EV & EC) by (rewrite HD; destruct (on_one_line n0); auto).
  unfold child_lines, is_empty_key. rewrite C1, C2, EL, EK. destruct (is_leaf n0) eqn:L.
  - assert (n_children n0 = []) as HN by (unfold is_leaf in L; destruct (n_children n0); [reflexivity|discriminate L]).
    assert (lone_element n0 = false) as LE by (unfold lone_element; rewrite HN; apply andb_false_r).
    unfold comments_differ. rewrite LE, EV, EC. destruct (n_keyf n0); cbn [andb].
    + apply one_here. exact (recs_colon [pre; stringify_yaml (n_value n0) MNone] _ own_form).
    + apply one_here. exact (recs [pre; $"- "; stringify_yaml (n_value n0) MNone] _ own_form).
  - assert (f_first_coll n0 (Some P) = f_first_coll d (Some P')) as HF'.
    { apply HF. unfold is_leaf in L. rewrite C1 in L. destruct (n_children n0); [discriminate L|discriminate]. }
    clear HF. rename HF' into HF. rewrite andb_false_r. destruct WL as (NCo & NB & _). destruct (on_one_line n0) eqn:OL.
    + destruct n0 as [v cm chs l ml k] eqn:E0. unfold on_one_line in OL. cbn [n_keyf n_children n_value n_lmf n_ml] in *.
      apply andb_prop in OL as (-> & OL). destruct chs as [|c [|]]; try discriminate OL.
      assert (d = Nd v c' [with_comment c' c] l ml true) as Ed.
      { rewrite HD. unfold on_one_line. cbn [n_keyf n_children n_value n_lmf n_ml map andb]. rewrite OL. reflexivity. }
      clear HD C2 EL EK EV EC. subst d.
      rewrite !render_eq. rewrite HF. rewrite (leaf_same c), OL.
      assert (well_line c) as WLc by (apply WC; left; reflexivity).
      assert (terminal (with_comment c' c) = true) as OL' by (apply with_comment_leaf; assumption).
      rewrite (leaf_same (with_comment c' c)), OL'. unfold render_single.
      assert (n_comment c = [] \/ starts_with_hash (n_comment c)) as FC by apply WLc.
      assert (cm = [] \/ starts_with_hash cm) as FM by exact (proj2 (proj2 (proj2 W))).
      cbn [with_comment n_value n_comment n_lmf n_ml]. unfold comments_differ, lone_element. cbn [n_keyf n_children andb]. rewrite OL. cbn [andb].
      destruct (n_lmf c) eqn:LM.
      * match goal with |- two_lines_differ _ [rstrip (?x ++ ?y ++ _); rstrip (?s ++ ?t ++ ?u ++ ?w ++ _)] _ =>
          exists [], (rstrip (x ++ y ++ $":  " ++ cm)), (rstrip (s ++ t ++ u ++ w ++ $"  " ++ n_comment c)), (rstrip (x ++ y ++ $":  " ++ c')), (rstrip (s ++ t ++ u ++ w ++ $"  " ++ c')), [] end.
        split; [reflexivity|]. split; [reflexivity|]. split.
        -- match goal with |- recommented _ (rstrip (?x ++ _)) _ => exact (recs_colon [x; nval_str E v] _ FM) end.
        -- exact (recs [(dspaces dd); TAB; ($"- "); (stringify_yaml (n_value c) (n_ml c))] _ FC).
      * destruct (f_first_coll (Nd v c' [with_comment c' c] l ml true) (Some P')).
        -- apply one_here. exact (recs [(dspaces (dd - 1)); ($"- "); (nval_str E v); ($": "); (stringify_yaml (n_value c) MNone)] _ FC).
        -- destruct (is_multi (n_ml c)).
           ++ match goal with |- one_line_differs _ (_ :: ?rest) _ => change (one_line_differs (recommented c') ([] ++ [rstrip (dspaces dd ++ nval_str E v ++ $": " ++ mlv_str (n_ml c) ++ $"  " ++ cm)] ++ rest)
                ([] ++ [rstrip (dspaces dd ++ nval_str E v ++ $": " ++ mlv_str (n_ml c) ++ $"  " ++ c')] ++ rest)) end.
              apply one_grow, one_here. exact (recs [(dspaces dd); (nval_str E v); ($": "); (mlv_str (n_ml c))] _ FM).
           ++ apply one_here. exact (recs [(dspaces dd); (nval_str E v); ($": "); (stringify_yaml (n_value c) MNone)] _ FC).
    + assert (lone_element n0 = false) as LE.
      { unfold lone_element. unfold on_one_line in OL. destruct (n_keyf n0); [|reflexivity]. cbn [andb] in *. destruct (n_children n0) as [|c [|]]; try reflexivity. rewrite OL. reflexivity. }
      unfold comments_differ. rewrite LE.
      assert (d = with_comment c' n0) as Ed by (rewrite HD, OL; reflexivity). clear HD C2 EL EK EV EC. subst d.
      assert (forall x, f_first_coll x (Some n0) = f_first_coll x (Some (with_comment c' n0))) as FX.
      { intros x. unfold f_first_coll, is_collection. cbv iota. unfold collection_element in NCo. cbn [with_comment n_value n_lmf n_children]. rewrite NCo. reflexivity. }
      pose proof own_form as FM. assert (on_one_line (with_comment c' n0) = false) as OL' by exact OL.
      destruct n0 as [v cm chs l ml k] eqn:E0. change (with_comment c' (Nd v cm chs l ml k)) with (Nd v c' chs l ml k) in *. cbn [n_value n_children n_lmf n_ml n_keyf n_comment] in *. rewrite !render_plain by assumption. cbv zeta. rewrite HF.
      change (is_collection (Nd v cm chs l ml k)) with (collection_element (Nd v cm chs l ml k)).
      change (is_collection (Nd v c' chs l ml k)) with (collection_element (Nd v cm chs l ml k)). rewrite NCo.
      assert (0 <? dd = true) as -> by (apply Nat.ltb_lt; exact D). cbn [andb negb].
      assert (forall delta, kids E (Nd v cm chs l ml k) dd delta chs = kids E (Nd v c' chs l ml k) dd delta chs) as HK.
      { intros delta. unfold kids. apply flat_map_same. intros x _. rewrite (child_lines_parent E _ (Nd v c' chs l ml k)); [reflexivity|intros _; apply FX]. }
      rewrite HK. match goal with |- one_line_differs ?P (?x ++ ?r) (?y ++ ?r) => change (one_line_differs P ([] ++ x ++ r) ([] ++ y ++ r)) end.
      apply one_grow, one_here. match goal with |- recommented _ (rstrip (?x ++ ?y ++ _)) _ => exact (recs_colon [x; y; nval_str E v] _ FM) end.
Qed.
Lemma comment_K2 n d first c e : R c e -> is_leaf c = true ->
  comments_differ c' n0 (render_single E n d first c) (render_single E (with_lines n [e]) d first e).
Proof.
  intros (-> & HD) L. pose proof own_form as FM.
  assert (n_children n0 = []) as HN by (unfold is_leaf in L; destruct (n_children n0); [reflexivity|discriminate L]).
  assert (e = with_comment c' n0) as -> by (rewrite HD; unfold on_one_line; rewrite HN, andb_false_r; reflexivity). clear HD.
  assert (lone_element n0 = false) as LE by (unfold lone_element; rewrite HN; apply andb_false_r). unfold comments_differ. rewrite LE.
  unfold render_single. cbn [with_comment with_lines n_value n_comment n_lmf n_ml]. destruct (n_lmf n0) eqn:LM.
  - match goal with |- one_line_differs ?P [?h; ?x] [?h; ?y] => change (one_line_differs P ([h] ++ [x] ++ []) ([h] ++ [y] ++ [])) end.
    apply one_grow, one_here. exact (recs [(dspaces d); TAB; ($"- "); (stringify_yaml (n_value n0) (n_ml n0))] _ FM).
  - destruct WL as (_ & _ & [HM|HM]); [congruence|]. rewrite HM. change (is_multi MNone) with false. cbv iota. destruct first; apply one_here.
    + exact (recs [(dspaces (d - 1)); ($"- "); (nval_str E (n_value n)); ($": "); (stringify_yaml (n_value n0) MNone)] _ FM).
    + exact (recs [(dspaces d); (nval_str E (n_value n)); ($": "); (stringify_yaml (n_value n0) MNone)] _ FM).
Qed.
Lemma comment_lines q root root' : changed_at R q root root' -> q <> [] ->
  begins_once root = true -> begins_once root' = true -> proper_tree root = true -> proper_tree root' = true ->
  comments_differ c' n0 (render_lines E root) (render_lines E root').
Proof.
  intros H NE B B' P P'. unfold render_lines. refine (context E (comments_differ c' n0) R _ comment_R comment_K1 comment_K2 q root root' H NE B B' P P' 0 None None eq_refl).
  unfold comments_differ. destruct (lone_element n0); [apply two_grow|apply one_grow].
Qed.
End Comments.

Lemma proper_split n : proper_tree n = match n_value n with VSent => true | VJ j => proper_value j end && forallb proper_tree (n_children n).
Proof. destruct n. reflexivity. Qed.
Lemma begins_split n : begins_once n = (if collection_element n
       then match n_children n with
            | first :: others => is_nil (n_children first) || forallb (fun x => is_nil (n_children x) || negb (nval_eqb (n_value x) (n_value first))) others
            | [] => true
            end
       else true) && forallb begins_once (n_children n).
Proof. destruct n. reflexivity. Qed.
Lemma changed_proper (R : node -> node -> Prop) (HR : forall a b, R a b -> proper_tree a = true -> proper_tree b = true) q :
  forall root root', changed_at R q root root' -> proper_tree root = true -> proper_tree root' = true.
Proof.
  intros root root' H. induction H as [n n' H|n before c c' after p Hn H IH]; intros P; [eauto|]. rewrite proper_split in P |- *. cbn [with_lines n_value n_children].
  apply andb_prop in P as (P1 & P2). rewrite P1. cbn [andb]. rewrite Hn in P2. rewrite forallb_app in P2 |- *. cbn [forallb] in *.
  apply andb_prop in P2 as (P2 & P3). apply andb_prop in P3 as (P3 & P4). rewrite P2, P4, IH; auto.
Qed.
Lemma changed_begins (R : node -> node -> Prop) (HR : forall a b, R a b -> begins_once a = true -> begins_once b = true)
  (HV : forall a b, R a b -> (n_value b = n_value a \/ n_children a = []) /\ is_nil (n_children b) = is_nil (n_children a)) q :
  forall root root', changed_at R q root root' -> begins_once root = true -> begins_once root' = true.
Proof.
  intros root root' H. induction H as [n n' H|n before c c' after p Hn H IH]; intros P; [eauto|]. rewrite begins_split in P |- *.
  assert ((n_value c' = n_value c \/ n_children c = []) /\ is_nil (n_children c') = is_nil (n_children c)) as (V & K).
  { destruct H as [m m' Hm|m before2 e e' after2 p2 Hm Hd]; [exact (HV _ _ Hm)|]. split; [left; reflexivity|]. rewrite Hm. cbn [with_lines n_children]. destruct before2; reflexivity. }
  assert (collection_element (with_lines n (before ++ c' :: after)) = collection_element n) as ->.
  { unfold collection_element, with_lines. cbn [n_value n_lmf n_children]. rewrite Hn. destruct before; reflexivity. }
  cbn [with_lines n_value n_children]. apply andb_prop in P as (P1 & P2). rewrite Hn in P1, P2. apply andb_true_intro. split.
  - destruct (collection_element n); [|reflexivity]. destruct before as [|b before]; cbn [app] in *.
    + rewrite K. destruct V as [->|V]; [exact P1|]. rewrite V. reflexivity.
    + rewrite forallb_app in P1 |- *. cbn [forallb] in *. rewrite K. destruct V as [->|V]; [exact P1|]. rewrite V in P1 |- *. exact P1.
  - rewrite forallb_app in P2 |- *. cbn [forallb] in *. apply andb_prop in P2 as (P2 & P3). apply andb_prop in P3 as (P3 & P4). rewrite P2, P4, IH; auto.
Qed.
Lemma changed_with_node (R : node -> node -> Prop) q : forall root root' n, changed_at R q root root' -> node_at root q = Some n ->
  changed_at (fun a b => a = n /\ R a b) q root root'.
Proof.
  intros root root' n H. induction H as [m m' H|m before c c' after p Hm H IH]; intros Hn.
  - cbn [node_at] in Hn. injection Hn as <-. apply changed_here. auto.
  - apply changed_below with (c := c); auto. apply IH. destruct m as [v cm chs l ml k]. cbn [n_children] in Hm. subst chs. cbn [node_at n_children] in Hn. rewrite nth_error_app2, Nat.sub_diag in Hn by lia. exact Hn.
Qed.
Lemma comment_proper c' a b : comment_changed c' a b -> proper_tree a = true -> proper_tree b = true.
Proof.
  intros -> P. rewrite proper_split in P |- *. destruct (on_one_line a); cbn [with_comment n_value n_children]; [|exact P].
  apply andb_prop in P as (P1 & P2). rewrite P1. cbn [andb]. rewrite forallb_forall in P2 |- *. intros x Hx. apply in_map_iff in Hx as (y & <- & Hy).
  specialize (P2 y Hy). destruct y. exact P2.
Qed.
Lemma comment_begins c' a b : comment_changed c' a b -> begins_once a = true -> begins_once b = true.
Proof.
  intros -> P. destruct (on_one_line a) eqn:O; [|destruct a; exact P].
  unfold on_one_line in O. apply andb_prop in O as (_ & O). rewrite begins_split in P |- *. cbn [n_value n_children]. destruct (n_children a) as [|c [|]] eqn:HC; try discriminate O. cbn [map forallb] in *.
  apply andb_true_intro. split; [match goal with |- (if ?x then _ else _) = _ => destruct x end; rewrite ?orb_true_r; reflexivity|].
  apply andb_prop in P as (_ & P). apply andb_prop in P as (P & _). rewrite andb_true_r. destruct c as [v cm ch l m k]. exact P.
Qed.
Lemma comment_value c' a b : comment_changed c' a b -> (n_value b = n_value a \/ n_children a = []) /\ is_nil (n_children b) = is_nil (n_children a).
Proof. intros ->. destruct (on_one_line a); (split; [left; reflexivity|]); [cbn [n_children]; destruct (n_children a)|]; reflexivity. Qed.
Lemma node_at_child root q n c : node_at root q = Some n -> In c (n_children n) -> exists i, node_at root (q ++ [i]) = Some c.
Proof.
  intros H HI. apply In_nth_error in HI as (i & HI). exists i. revert root H. induction q as [|j q IH]; intros root H.
  - cbn [node_at app] in *. injection H as <-. rewrite HI. reflexivity.
  - destruct root as [v cm chs l ml k]. cbn [node_at app n_children] in *. destruct (nth_error chs j); [|discriminate H]. apply IH, H.
Qed.
(** Any change of the comment of a line, in the text. *)
Lemma comment_text_changed E r r' q n c' : well_formed (r_root r) -> proper_tree (r_root r) = true -> begins_once (r_root r) = true ->
  q <> [] -> node_at (r_root r) q = Some n -> is_comment n = false -> written_line n ->
  changed_at (comment_changed c') q (r_root r) (r_root r') -> same_but_tree r r' ->
  text_recommented E n c' r r'.
Proof.
  intros (_ & W) P B NE Hn NC WL H (_ & S1 & S2). eexists _, _. split; [reflexivity|]. split; [reflexivity|]. rewrite S1, S2.
  assert (WC : forall c, In c (n_children n) -> well_line c) by (intros c Hc; destruct (node_at_child _ _ _ _ Hn Hc) as (i & Hi); exact (W _ _ Hi)).
  pose proof (comment_lines E c' n (W _ _ Hn) WC WL NC q _ _ (changed_with_node _ _ _ _ _ H Hn) NE B
    (changed_begins _ (comment_begins c') (comment_value c') _ _ _ H B) P (changed_proper _ (comment_proper c') _ _ _ H P)) as D.
  unfold comments_differ in D. destruct (lone_element n).
  - pose proof (two_grow _ (var_lines (r_schema r) (r_vars r)) _ _ [] D) as Z. rewrite !app_nil_r in Z. exact Z.
  - pose proof (one_grow _ (var_lines (r_schema r) (r_vars r)) _ _ [] D) as Z. rewrite !app_nil_r in Z. exact Z.
Qed.

(** * C104 *)
Lemma c104 E e path r q n : edits_comment_at e path -> succeeded E e r ->
  well_formed (r_root r) -> proper_tree (r_root r) = true -> begins_once (r_root r) = true ->
  addresses (r_root r) path q -> q <> [] -> node_at (r_root r) q = Some n -> written_line n ->
  exists c', changed_at (comment_changed c') q (r_root r) (r_root (after E e r)) /\ text_recommented E n c' r (after E e r).
Proof.
  intros HE HS W P B HA NE Hn WL. pose proof (well_no_emptied _ W) as HN. destruct (no_emptied_at _ _ _ _ HN HA Hn) as (NC & _).
  assert (exists c', changed_at (comment_changed c') q (r_root r) (r_root (after E e r)) /\ same_but_tree r (after E e r)) as (c' & H1 & H2).
  { destruct e as [| | |p sel mode|p|p c]; cbn [edits_comment_at] in HE; try contradiction; subst p; cbn [after succeeded] in *.
    - rewrite (add_selector_at E path sel mode r q n HA Hn) in HS |- *. destruct (negb (matched SELECTOR sel)); [discriminate HS|].
      eexists. cbn [snd]. destruct (edited_facts E q (new_selector_comment (n_comment n) sel mode) n r _ path eq_refl HA Hn) as (H1 & H2 & _). eauto.
    - destruct HS as (s & HS). rewrite (remove_selector_at E path r q n HA Hn) in HS |- *. destruct (selector_of (n_comment n)) as [x|]; [|discriminate HS].
      eexists. cbn [snd]. destruct (edited_facts E q (comment_without_selector (n_comment n) x) n r _ path eq_refl HA Hn) as (H1 & H2 & _). eauto.
    - assert (strip c <> [] /\ matched SELECTOR (strip c) = false) as (C1 & C2).
      { unfold add_comment in HS. cbv zeta in HS. destruct (is_nil (strip c)) eqn:N; [discriminate HS|]. destruct (matched SELECTOR (strip c)); [discriminate HS|].
        split; [|reflexivity]. intros Z. rewrite Z in N. discriminate N. }
      rewrite (add_comment_at path c r q n HA Hn C1 C2). eexists. cbn [snd mark_modified with_root r_root]. split.
      + apply (changed_at_update (comment_changed _) _ _ _ n Hn). apply put_comment_spec.
      + repeat split. }
  exists c'. split; [exact H1|]. exact (comment_text_changed E r _ q n c' W P B NE Hn NC WL H1 H2).
Qed.

(** * C105 *)
Definition valued_at (u w : json) (a b : node) : Prop :=
  (key_with_value a u /\ b = with_lines a [plain_line w]) \/ (plain_element a u /\ b = Nd (VJ w) [] [] true MNone false).
Section Values.
Variables (E : env) (u w : json) (n0 : node).
Hypothesis W : well_line n0.
Hypothesis WC : forall c, In c (n_children n0) -> well_line c.
Let R := fun a b => a = n0 /\ valued_at u w a b.
Lemma revalue a c : (c = [] \/ starts_with_hash c) ->
  revalued u w (rstrip (a ++ stringify_yaml (VJ u) MNone ++ $"  " ++ c)) (rstrip (a ++ stringify_yaml (VJ w) MNone ++ $"  ")).
Proof.
  intros H. exists a, c. split; [exact H|]. split; [reflexivity|].
  assert (blank $"  ") as B by (intros z [<-|[<-|[]]]; reflexivity). rewrite app_assoc, (rstrip_app_blank _ _ B). reflexivity.
Qed.
Lemma revs ps c : (c = [] \/ starts_with_hash c) ->
  revalued u w (rstrip (fold_right (@app ascii) (stringify_yaml (VJ u) MNone ++ $"  " ++ c) ps)) (rstrip (fold_right (@app ascii) (stringify_yaml (VJ w) MNone ++ $"  ") ps)).
Proof.
  intros H. assert (forall t, fold_right (@app ascii) t ps = concat ps ++ t) as F.
  { intros t. induction ps as [|x ps IH]; cbn [fold_right concat]; [reflexivity|]. rewrite IH, app_assoc. reflexivity. }
  rewrite !F. apply revalue, H.
Qed.
Lemma value_R c d : R c d -> is_comment c = false /\ is_comment d = false /\ is_leaf d = is_leaf c.
Proof.
  intros (-> & [((K & _ & x & HX & HV & HC & _) & ->)|((HV & HC & _) & ->)]).
  - unfold is_leaf, is_comment. cbn [with_lines n_children n_value]. rewrite HX. cbn [is_nil andb]. rewrite !andb_false_r. auto.
  - unfold is_leaf, is_comment. cbn [n_children n_value]. rewrite HV, HC. auto.
Qed.
Lemma value_K1 c d pre dd P P' : R c d -> 0 < dd -> (n_children c <> [] -> f_first_coll c (Some P) = f_first_coll d (Some P')) ->
  one_line_differs (revalued u w) (child_lines E P pre dd c) (child_lines E P' pre dd d).
Proof.
  intros HR D HF. destruct (value_R _ _ HR) as (C1 & C2 & EL). destruct HR as (-> & [((K & LM & x & HX & HV & HC & LX & MX) & Hd)|((HV & HC & LM & K & M) & Hd)]).
  - assert (is_leaf n0 = false) as L by (unfold is_leaf; rewrite HX; reflexivity).
    unfold child_lines, is_empty_key. rewrite C1, C2, EL, L, !andb_false_r. rewrite HX in HF. specialize (HF ltac:(discriminate)).
    assert (n_comment x = [] \/ starts_with_hash (n_comment x)) as FX by (apply WC; rewrite HX; left; reflexivity).
    subst d. destruct n0 as [v cm chs l ml k]. cbn [n_children n_keyf n_lmf] in *. subst chs k l. change (with_lines (Nd v cm [x] false ml true) [plain_line w]) with (Nd v cm [plain_line w] false ml true) in *.
    rewrite !render_eq. rewrite HF. cbv zeta.
    assert (is_leaf x = true) as -> by (unfold is_leaf, is_comment; rewrite HC, HV; reflexivity).
    change (is_leaf (plain_line w)) with true. cbv iota. unfold render_single. cbv zeta. rewrite LX, MX, HV. cbn [plain_line n_lmf n_value n_comment n_ml is_multi].
    cbv iota. destruct (f_first_coll (Nd v cm [plain_line w] false ml true) (Some P')); apply one_here.
    + exact (revs [dspaces (dd - 1); $"- "; nval_str E v; $": "] _ FX).
    + exact (revs [dspaces dd; nval_str E v; $": "] _ FX).
  - assert (is_leaf n0 = true) as L by (unfold is_leaf, is_comment; rewrite HC, HV; reflexivity).
    unfold child_lines, is_empty_key. rewrite C1, C2, EL, L, K. subst d. cbn [n_keyf andb n_value n_comment]. rewrite HV. apply one_here.
    exact (revs [pre; $"- "] _ (proj2 (proj2 (proj2 W)))).
Qed.
Lemma value_K2 n d first c c' : R c c' -> is_leaf c = true -> one_line_differs (revalued u w) (render_single E n d first c) (render_single E (with_lines n [c']) d first c').
Proof.
  intros (-> & [((K & LM & x & HX & _) & Hd)|((HV & HC & LM & K & M) & ->)]) L; [unfold is_leaf in L; rewrite HX in L; discriminate L|].
  unfold render_single. cbv zeta. rewrite LM, HV, M. cbn [with_lines n_lmf n_value n_comment n_ml].
  match goal with |- one_line_differs _ [?h; _] [?h'; _] => change h' with h; apply (one_grow (revalued u w) [h] [_] [_] []) end. apply one_here.
  exact (revs [dspaces d; TAB; $"- "] _ (proj2 (proj2 (proj2 W)))).
Qed.
Lemma value_lines q root root' : changed_at R q root root' -> q <> [] ->
  begins_once root = true -> begins_once root' = true -> proper_tree root = true -> proper_tree root' = true ->
  one_line_differs (revalued u w) (render_lines E root) (render_lines E root').
Proof.
  intros. apply (context E (one_line_differs (revalued u w)) R (one_grow _) value_R value_K1 value_K2 q); auto.
Qed.
End Values.
Lemma valued_proper u w a b : proper_value w = true -> valued_at u w a b -> proper_tree a = true -> proper_tree b = true.
Proof.
  intros PW [(_ & ->)|(_ & ->)] P; rewrite proper_split in P |- *; cbn [with_lines n_value n_children forallb]; [|rewrite PW; reflexivity].
  apply andb_prop in P as (-> & _). cbn [plain_line proper_tree forallb]. rewrite PW. reflexivity.
Qed.
Lemma valued_begins u w a b : valued_at u w a b -> begins_once a = true -> begins_once b = true.
Proof.
  intros [((_ & LM & _) & ->)|(_ & ->)] _; [|reflexivity]. rewrite begins_split. unfold collection_element. cbn [with_lines n_value n_children n_lmf forallb]. rewrite LM, andb_false_r. reflexivity.
Qed.
Lemma valued_value u w a b : valued_at u w a b -> (n_value b = n_value a \/ n_children a = []) /\ is_nil (n_children b) = is_nil (n_children a).
Proof.
  intros [((_ & _ & c & HC & _) & ->)|((_ & HC & _) & ->)].
  - split; [left; reflexivity|]. rewrite HC. reflexivity.
  - rewrite HC. split; [right|]; reflexivity.
Qed.
Lemma value_text_changed E r r' q n u w : well_formed (r_root r) -> proper_tree (r_root r) = true -> begins_once (r_root r) = true -> proper_value w = true ->
  q <> [] -> node_at (r_root r) q = Some n -> changed_at (valued_at u w) q (r_root r) (r_root r') -> same_but_tree r r' ->
  exists L L', render E r = join [cNL] L /\ render E r' = join [cNL] L' /\ one_line_differs (revalued u w) L L'.
Proof.
  intros (_ & W) P B PW NE Hn H (_ & S1 & S2). eexists _, _. split; [reflexivity|]. split; [reflexivity|]. rewrite S1, S2.
  assert (WC : forall c, In c (n_children n) -> well_line c) by (intros c Hc; destruct (node_at_child _ _ _ _ Hn Hc) as (i & Hi); exact (W _ _ Hi)).
  pose proof (value_lines E u w n (W _ _ Hn) WC q _ _ (changed_with_node _ _ _ _ _ H Hn) NE B
    (changed_begins _ (valued_begins u w) (valued_value u w) _ _ _ H B) P (changed_proper _ (fun a b => valued_proper u w a b PW) _ _ _ H P)) as D.
  pose proof (one_grow _ (var_lines (r_schema r) (r_vars r)) _ _ [] D) as Z. rewrite !app_nil_r in Z. exact Z.
Qed.
Lemma line_replaced_at i x q : forall root root' n, changed_at (line_replaced i [x]) q root root' -> node_at root (q ++ [i]) = Some n ->
  changed_at (fun a b => a = n /\ b = x) (q ++ [i]) root root'.
Proof.
  intros root root' n H. induction H as [m m' H|m before c c' after p Hm H IH]; intros Hn.
  - destruct H as (before & y & after & Hc & HL & ->). subst i. cbn [app node_at] in *. rewrite Hc in Hn. rewrite nth_error_app2, Nat.sub_diag in Hn by lia. cbn [nth_error] in Hn. injection Hn as ->.
    eapply changed_below; [exact Hc|]. apply changed_here. auto.
  - cbn [app node_at] in *. rewrite Hm in Hn. rewrite nth_error_app2, Nat.sub_diag in Hn by lia. apply changed_below with (c := c); auto.
Qed.
Lemma changed_weaken (R R' : node -> node -> Prop) q : forall root root', (forall a b, R a b -> R' a b) -> changed_at R q root root' -> changed_at R' q root root'.
Proof. intros root root' HR H. induction H; econstructor; eauto. Qed.
Lemma address_same root s q q' : addresses root s q -> addresses root s q' -> q = q'.
Proof. intros (st & H1 & H2) (st' & H1' & H2'). congruence. Qed.
Lemma c105 E p s v r r' q n u w : asks p (RReplace s (JP v)) -> patch E p r = (Ok true, r') -> written_as E (JP v) [plain_line w] -> proper_value w = true ->
  well_formed (r_root r) -> proper_tree (r_root r) = true -> begins_once (r_root r) = true ->
  addresses (r_root r) s q -> q <> [] -> node_at (r_root r) q = Some n ->
  key_with_value n u \/ (plain_element n u /\ exists c above, str_to_stack_path s = Ok (c :: above) /\ isdigit c = true) ->
  exists L L', render E r = join [cNL] L /\ render E r' = join [cNL] L' /\ one_line_differs (revalued u w) L L'.
Proof.
  intros HA HP HW PW W P B AD NE Hn HN. destruct (c13_success _ _ _ _ _ _ HA HP) as (HS & lines & HL & HC).
  unfold written_as in HL, HW. rewrite HW in HL. injection HL as <-.
  apply (value_text_changed E r r' q n u w W P B PW NE Hn); [|exact HS].
  destruct HC as [(q' & n' & A1 & A2 & A3 & A4 & A5)|(q' & i & x & A1 & A2 & A3 & A4 & _ & A5)].
  - pose proof (address_same _ _ _ _ A1 AD) as ->. assert (n' = n) as -> by congruence.
    apply (changed_weaken (fun a b => a = n /\ content_replaced [plain_line w] a b)); [|apply changed_with_node; assumption].
    intros a b (-> & ->). left. split; [|reflexivity]. destruct HN as [HN|((HV & HC & LM & _) & c & above & HST & HD)]; [exact HN|].
    exfalso. destruct (A4 LM) as [Z|(c' & above' & HST' & HD')]; [unfold collection_element in Z; rewrite HV in Z; discriminate Z|]. rewrite HST in HST'. injection HST' as <- _. congruence.
  - pose proof (address_same _ _ _ _ AD A1) as ->. assert (x = n) as -> by congruence. cbn [as_element map plain_line n_value n_comment n_children n_ml n_keyf] in A5.
    apply (changed_weaken (fun a b => a = n /\ b = Nd (VJ w) [] [] true MNone false)); [|apply line_replaced_at; assumption].
    intros a b (-> & ->). right. split; [|reflexivity]. destruct HN as [(_ & LM & _)|(HN & _)]; [congruence|exact HN].
Qed.

(** * C106 *)
Lemma sections_shown E root : document_root root -> render_lines E root = flat_map (section_lines E root) (n_children root).
Proof.
  destruct root as [v cm chs l ml k]. intros (HK & HL). cbn [n_keyf n_lmf] in *. subst k l. unfold section_lines, render_lines. cbn [n_children].
  rewrite render_eq. cbv zeta. cbn [Nat.ltb Nat.leb andb]. cbn [app].
  transitivity (flat_map (fun c => child_lines E (Nd v cm chs false ml false) [] 1 c ++ (if is_comment c then [] else [[]])) chs); [apply kids_root|].
  apply flat_map_same. intros c _. change (with_lines (Nd v cm chs false ml false) [c]) with (Nd v cm [c] false ml false). rewrite render_eq. cbv zeta. cbn [Nat.ltb Nat.leb andb app].
  refine (eq_trans _ (eq_sym (kids_root E (Nd v cm [c] false ml false) [c]))). cbn [flat_map]. rewrite app_nil_r. f_equal. apply child_lines_parent. intros _.
  unfold f_first_coll, is_collection. cbn [n_value n_lmf n_children]. rewrite !andb_false_r. reflexivity.
Qed.
Definition kept_below (names : list str) (root root' : node) : Prop :=
  n_keyf root' = n_keyf root /\ n_lmf root' = n_lmf root /\ n_value root' = n_value root /\ n_comment root' = n_comment root /\ n_ml root' = n_ml root
  /\ length (n_children root') = length (n_children root)
  /\ forall i c, nth_error (n_children root) i = Some c ->
       (exists c', nth_error (n_children root') i = Some c' /\ n_value c' = n_value c /\ ((forall k, In k names -> n_value c <> VJ (JStr k)) -> c' = c)).
Lemma kept_refl names root : kept_below names root root.
Proof. repeat split; auto. intros i c H. exists c. auto. Qed.
Lemma kept_trans n1 n2 a b c : kept_below n1 a b -> kept_below n2 b c -> kept_below (n1 ++ n2) a c.
Proof.
  intros (A1 & A2 & A3 & A4 & A5 & A6 & A7) (B1 & B2 & B3 & B4 & B5 & B6 & B7). repeat split; try congruence.
  intros i x Hx. destruct (A7 i x Hx) as (y & Hy & VY & KY). destruct (B7 i y Hy) as (z & Hz & VZ & KZ). exists z. split; [exact Hz|]. split; [congruence|].
  intros H. assert (y = x) as -> by (apply KY; intros k Hk; apply H, in_or_app; auto). apply KZ. intros k Hk. apply H, in_or_app; auto.
Qed.
Lemma nth_map_nth {A} (f : A -> A) l : forall i j, nth_error (map_nth i f l) j = if i =? j then option_map f (nth_error l j) else nth_error l j.
Proof.
  induction l as [|x l IH]; intros [|i] [|j]; cbn [map_nth nth_error Nat.eqb option_map]; auto. destruct (i =? j); reflexivity.
Qed.
Lemma map_nth_length {A} (f : A -> A) l : forall i, length (map_nth i f l) = length l.
Proof. induction l as [|x l IH]; intros [|i]; cbn [map_nth length]; auto. Qed.
Lemma confined_kept root root' c : isdigit c = false -> confined root root' [c] -> kept_below [c] root root'.
Proof.
  intros D [->|(q & f & Hf & (q1 & q2 & H1 & ->) & ->)]; [apply kept_refl|]. cbn [traverse_recurse] in H1. unfold step_child in H1. rewrite D in H1.
  destruct (find_child c 0 (n_children root)) as [[i x]|] eqn:F; [|discriminate H1]. cbn [option_map] in H1. injection H1 as <-.
  apply find_child_hit in F as (_ & F & V). rewrite Nat.sub_0_r in F. cbn [app update_at].
  destruct root as [v cm chs l ml k]. unfold kept_below. cbn [set_children n_keyf n_lmf n_value n_comment n_ml n_children] in *. repeat split.
  - apply map_nth_length.
  - intros j y Hy. rewrite nth_map_nth, Hy. destruct (Nat.eqb_spec i j) as [->|N]; [|exists y; auto]. cbn [option_map].
    exists (update_at q2 f y). split; [reflexivity|]. split; [apply update_value, Hf|]. intros H. exfalso. assert (y = x) as -> by congruence.
    apply (H c (or_introl eq_refl)). unfold val_is in V. destruct (n_value x) as [|[[]| |]]; try discriminate V. apply str_eqb_eq in V as ->. reflexivity.
Qed.
Lemma kept_more n1 n2 a b : (forall k, In k n1 -> In k n2) -> kept_below n1 a b -> kept_below n2 a b.
Proof.
  intros H (A1 & A2 & A3 & A4 & A5 & A6 & A7). repeat split; auto. intros i c Hc. destruct (A7 i c Hc) as (c' & H1 & H2 & H3). exists c'. repeat split; auto.
Qed.
Lemma perform_kept E q root names : inside_sections q names -> kept_below names root (snd (perform E q root)).
Proof.
  intros HS. unfold perform. destruct (str_to_stack_path (request_path q)) as [st|e] eqn:Hst; [|apply kept_refl].
  assert (forall s, In s (edited_paths q) -> forall st, str_to_stack_path s = Ok st ->
     exists c rest, st = rev (c :: rest) ++ [ROOT_VALUE] /\ isdigit c = false /\ rest <> [] /\ In c names) as HP.
  { intros s Hs st0 H0. destruct (HS s Hs) as (k & rest & -> & HC & D & NR & HI). rewrite stack_of_path in H0 by (auto; discriminate). injection H0 as <-.
    exists k, rest. auto. }
  assert (forall c root', In c names -> isdigit c = false -> forall a, confined a root' [c] -> kept_below names a root') as KC.
  { intros c root' HI D a HC. apply (kept_more [c]); [intros k [<-|[]]; exact HI|]. apply confined_kept; auto. }
  destruct q as [p v|p|p v|from p|from p|p v]; cbn [request_path edited_paths] in *; try apply kept_refl.
  - destruct (HP p (or_introl eq_refl) _ Hst) as (c & rest & -> & D & HR & HI). apply (KC c); auto. exact (add_confined E root [] c rest v D HR).
  - destruct (HP p (or_introl eq_refl) _ Hst) as (c & rest & -> & D & HR & HI). apply (KC c); auto. exact (remove_confined root [] c rest HR).
  - destruct (HP p (or_introl eq_refl) _ Hst) as (c & rest & -> & D & HR & HI). apply (KC c); auto. exact (replace_confined E root [] c rest v D).
  - unfold patch_move. destruct (get_value E root from None None) as [v|[]]; try apply kept_refl.
    destruct (patch_add_find_target root st); [|apply kept_refl]. destruct (negb _); [apply kept_refl|].
    destruct (str_to_stack_path from) as [fs|] eqn:Hfs; [|apply kept_refl].
    assert (kept_below names root (snd (patch_remove root fs))) as HRm.
    { destruct (HP from (or_introl eq_refl) _ Hfs) as (c & rest & -> & D & HR & HI). apply (KC c); auto. exact (remove_confined root [] c rest HR). }
    destruct (patch_remove root fs) as [[[|]|] root']; cbn [snd] in *; auto.
    destruct (HP p (or_intror (or_introl eq_refl)) _ Hst) as (c & rest & -> & D & HR & HI).
    apply (kept_more (names ++ names)); [intros k Hk; apply in_app_or in Hk as [|]; assumption|]. eapply kept_trans; [exact HRm|]. apply (KC c); auto. exact (add_confined E root' [] c rest v D HR).
  - unfold patch_copy. destruct (get_value E root from None None) as [v|[]]; try apply kept_refl.
    destruct (HP p (or_introl eq_refl) _ Hst) as (c & rest & -> & D & HR & HI). apply (KC c); auto. exact (add_confined E root [] c rest v D HR).
Qed.
Lemma c106 E p q r names : asks p q -> inside_sections q names -> document_root (r_root r) ->
  let r' := snd (patch E p r) in
  document_root (r_root r') /\ exists V parts parts',
  render E r = join [cNL] (V ++ concat parts) /\ render E r' = join [cNL] (V ++ concat parts')
  /\ length parts = length (n_children (r_root r)) /\ length parts' = length parts
  /\ forall i c, nth_error (n_children (r_root r)) i = Some c -> (forall k, In k names -> n_value c <> VJ (JStr k)) ->
       nth_error parts i = Some (section_lines E (r_root r) c) /\ nth_error parts' i = nth_error parts i.
Proof.
  intros HA HN HD. cbv zeta.
  assert (r_root (snd (patch E p r)) = r_root r \/ r_root (snd (patch E p r)) = snd (perform E q (r_root r))) as HR.
  { rewrite (patch_asks E p q r HA). destruct (self_move q); [left; reflexivity|right]. unfold finish.
    destruct (fst (perform E q (r_root r))) as [[|]|]; try reflexivity. destruct (is_test q); reflexivity. }
  assert (r_schema (snd (patch E p r)) = r_schema r /\ r_vars (snd (patch E p r)) = r_vars r) as (S1 & S2).
  { rewrite (patch_asks E p q r HA). destruct (self_move q); [auto|]. unfold finish. destruct (fst (perform E q (r_root r))) as [[|]|]; try (split; reflexivity). destruct (is_test q); split; reflexivity. }
  assert (kept_below names (r_root r) (r_root (snd (patch E p r)))) as (K1 & K2 & K3 & K4 & K5 & K6 & K7).
  { destruct HR as [->| ->]; [apply kept_refl|apply perform_kept, HN]. }
  set (r' := snd (patch E p r)) in *. assert (document_root (r_root r')) as HD' by (destruct HD; split; congruence). split; [exact HD'|].
  exists (var_lines (r_schema r) (r_vars r)), (map (section_lines E (r_root r)) (n_children (r_root r))), (map (section_lines E (r_root r')) (n_children (r_root r'))).
  rewrite !map_length. rewrite <- !flat_map_concat_map, <- !sections_shown by assumption. split; [reflexivity|]. split; [unfold render, render_all; rewrite S1, S2; reflexivity|].
  split; [reflexivity|]. split; [exact K6|]. intros i c Hc Hk. destruct (K7 i c Hc) as (c' & Hc' & _ & Ec). rewrite (Ec Hk) in Hc'.
  rewrite !nth_error_map, Hc, Hc'. cbn [option_map]. split; [reflexivity|]. f_equal. unfold section_lines. f_equal. unfold with_lines. congruence.
Qed.
Definition keeps_flags (f : node -> node) : Prop := forall n, n_keyf (f n) = n_keyf n /\ n_lmf (f n) = n_lmf n.
Lemma update_root f q n : keeps_flags f -> document_root n -> document_root (update_at q f n).
Proof.
  intros Hf (H1 & H2). destruct q as [|i q]; cbn [update_at].
  - destruct (Hf n) as (F1 & F2). split; congruence.
  - destruct n. split; assumption.
Qed.
Lemma set_flags g : keeps_flags (fun n => set_children (g n) n).
Proof. intros n. destruct n. split; reflexivity. Qed.
Lemma parsed_root E text r : new_recipe E text = Ok r -> document_root (r_root r).
Proof.
  apply (parse_invariant E document_root).
  - split; reflexivity.
  - intros root P pn line ls n u H _ _. apply update_root; [|exact H]. intros m. destruct m. split; reflexivity.
Qed.
Lemma remove_root root st : document_root root -> document_root (snd (patch_remove root st)).
Proof.
  intros H. unfold patch_remove. repeat match goal with |- context [match ?x with _ => _ end] => destruct x; try exact H end; apply update_root; auto; apply set_flags.
Qed.
Lemma add_root E root st v : document_root root -> document_root (snd (patch_add E root st v)).
Proof.
  intros H. unfold patch_add. destruct (patch_add_find_target root st) as [t|]; [|exact H]. destruct (at_pos t); [|exact H]. destruct (negb _); [exact H|]. destruct (generate_subtree E _); [|exact H].
  cbn [snd]. apply update_root; auto. intros n. destruct n. destruct (at_phys t); [split; reflexivity|]. destruct (_ || _); split; reflexivity.
Qed.
Lemma replace_root E root st v : document_root root -> document_root (snd (patch_replace E root st v)).
Proof.
  intros H. unfold patch_replace. destruct (traverse_with_index root st) as [[[[q|] vi] ph]|]; try exact H. destruct (negb _); [exact H|]. destruct (generate_subtree E v); [|exact H].
  destruct ph; cbn [snd]; apply update_root; auto; intros m; destruct m; split; reflexivity.
Qed.
Lemma perform_root E q root : document_root root -> document_root (snd (perform E q root)).
Proof.
  intros H. unfold perform. destruct (str_to_stack_path (request_path q)) as [st|e]; [|exact H]. destruct q as [p v|p|p v|from p|from p|p v].
  - apply add_root, H.
  - apply remove_root, H.
  - apply replace_root, H.
  - unfold patch_move. destruct (get_value E root from None None) as [v|[]]; try exact H. destruct (patch_add_find_target root st); [|exact H]. destruct (negb _); [exact H|].
    destruct (str_to_stack_path from) as [fs|]; [|exact H]. pose proof (remove_root root fs H) as HR. destruct (patch_remove root fs) as [[[|]|] root']; cbn [snd] in *; auto. apply add_root, HR.
  - unfold patch_copy. destruct (get_value E root from None None) as [v|[]]; try exact H. apply add_root, H.
  - exact H.
Qed.
Lemma put_comment_flags c : keeps_flags (put_comment c).
Proof. intros n. rewrite (put_comment_spec c n). destruct (on_one_line n); destruct n; split; reflexivity. Qed.
Lemma after_root E e r : document_root (r_root r) -> document_root (r_root (after E e r)).
Proof.
  intros H. destruct (is_line_edit e) eqn:L.
  - destruct (line_edit_root E e r L) as [->|(q & n & c & s & _ & Hn & -> & _)]; auto. apply update_root; auto. apply put_comment_flags.
  - destruct e as [p|k v|k|path sel mode|path|path cm]; try discriminate; cbn [after].
    + destruct (patch_root E p r) as [(q & _ & _ & ->)| ->]; auto. apply perform_root; auto.
    + exact H.
    + unfold del_variable. destruct (dmem k (r_vars r)); exact H.
Qed.
Lemma run_root E h : forall r, document_root (r_root r) -> document_root (r_root (run E h r)).
Proof. induction h as [|e h IH]; intros r H; [exact H|]. rewrite run_cons. apply IH, after_root, H. Qed.
