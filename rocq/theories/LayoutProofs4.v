(** The renderer writes the canonical layout (proofs only). *)
From Verif Require Export LayoutProofs3.

Definition child_lines (E : env) (n' : node) (pre : str) (dd : nat) (c : node) : list str :=
  if is_comment c then [ rstrip (pre ++ n_comment c) ]
  else if is_empty_key c then [ rstrip (pre ++ stringify_yaml (n_value c) MNone ++ $":  " ++ n_comment c) ]
  else if is_leaf c then [ rstrip (pre ++ $"- " ++ stringify_yaml (n_value c) MNone ++ $"  " ++ n_comment c) ]
  else render_tree E c dd (Some n').
Definition kids (E : env) (n' : node) (d delta : nat) (cs : list node) : list str :=
  flat_map (fun c => child_lines E n' (dspaces d ++ (if d =? 0 then [] else TAB)) (d + delta) c
                     ++ (if (d =? 0) && negb (is_comment c) then [[]] else [])) cs.
Lemma render_eq E v cm chs l ml k d parent :
  let n' := Nd v cm chs l ml k in
  let first := f_first_coll n' parent in
  let sp := dspaces d in
  let visible := (0 <? d) && negb (is_collection n') in
  let delta := if visible && l then 2 else 1 in
  let head := if visible then
                [ rstrip ((if first then skipn TAB_SPACE_COUNT sp else sp)
                          ++ (if l || first then $"- " else []) ++ nval_str E v ++ $":  " ++ cm) ]
              else [] in
  let body := head ++ kids E n' d delta chs in
  render_tree E n' d parent =
  match k, chs with
  | true, [c] => if is_leaf c then render_single E n' d first c else body
  | _, _ => body
  end.
Proof.
  cbv zeta. cbn [render_tree].
  assert (forall delta cs, (fix go (cs : list node) : list str :=
           match cs with
           | [] => []
           | c :: cs' =>
               (if is_comment c then [ rstrip (dspaces d ++ (if d =? 0 then [] else TAB) ++ n_comment c) ]
                else if is_empty_key c then
                  [ rstrip (dspaces d ++ (if d =? 0 then [] else TAB) ++ stringify_yaml (n_value c) MNone ++ $":  " ++ n_comment c) ]
                else if is_leaf c then
                  [ rstrip (dspaces d ++ (if d =? 0 then [] else TAB) ++ $"- " ++ stringify_yaml (n_value c) MNone ++ $"  " ++ n_comment c) ]
                else render_tree E c (d + delta) (Some (Nd v cm chs l ml k)))
               ++ (if (d =? 0) && negb (is_comment c) then [[]] else [])
               ++ go cs'
           end) cs = kids E (Nd v cm chs l ml k) d delta cs) as G.
  { intros delta cs. induction cs as [|c cs IH]; [reflexivity|]. unfold kids. cbn [flat_map]. fold (kids E (Nd v cm chs l ml k) d delta cs).
    rewrite <- IH. unfold child_lines. rewrite <- !app_assoc. reflexivity. }
  rewrite G. reflexivity.
Qed.

Lemma dspaces_S d : dspaces (S d) = spaces (2 * d).
Proof. unfold dspaces. cbn [Nat.sub]. rewrite Nat.sub_0_r. reflexivity. Qed.
Lemma spaces_tab d : spaces (2 * d) ++ TAB = spaces (2 * S d).
Proof. replace (2 * S d) with (2 * d + 2) by lia. rewrite spaces_app. reflexivity. Qed.
Lemma skip_spaces d : skipn TAB_SPACE_COUNT (spaces (2 * S d)) = spaces (2 * d).
Proof. replace (2 * S d) with (S (S (2 * d))) by lia. reflexivity. Qed.

Lemma kids_deep E n' d cs : kids E n' (S d) 1 cs = flat_map (child_lines E n' (spaces (2 * S d)) (S (S d))) cs.
Proof.
  unfold kids. apply flat_map_ext. intros c. cbn [Nat.eqb andb]. rewrite app_nil_r, dspaces_S, spaces_tab.
  replace (S d + 1) with (S (S d)) by lia. reflexivity.
Qed.
Lemma kids_root E n' cs : kids E n' 0 1 cs = flat_map (fun c => child_lines E n' [] 1 c ++ (if is_comment c then [] else [[]])) cs.
Proof.
  unfold kids. apply flat_map_ext. intros c. cbn [Nat.eqb andb Nat.add]. change (dspaces 0 ++ []) with (@nil ascii).
  f_equal. destruct (is_comment c); reflexivity.
Qed.

Definition draws (E : env) (x : item) : Prop :=
  forall d n', f_first_coll (tree_of x) (Some n') = false -> child_lines E n' (spaces (2 * d)) (S d) (tree_of x) = layout (2 * d) x.
Lemma draws_list E n' d xs : Forall (draws E) xs -> Forall (fun x => f_first_coll (tree_of x) (Some n') = false) xs ->
  flat_map (child_lines E n' (spaces (2 * d)) (S d)) (map tree_of xs) = flat_map (layout (2 * d)) xs.
Proof.
  induction xs as [|x xs IH]; intros D F; [reflexivity|]. inversion D; subst. inversion F; subst. cbn [map flat_map].
  f_equal; [auto|apply IH; assumption].
Qed.
Lemma not_first n' xs : is_collection n' = false -> Forall (fun x => f_first_coll (tree_of x) (Some n') = false) xs.
Proof. intros H. apply Forall_forall. intros x _. unfold f_first_coll. rewrite H. reflexivity. Qed.
Lemma beside_not_first v c k c0 chs0 rest x : entry_beside k x ->
  f_first_coll (tree_of x) (Some (Nd v c (key_node k c0 chs0 :: rest) true MNone false)) = false.
Proof.
  intros H. unfold f_first_coll. cbn [n_children].
  assert (node_eqb (tree_of x) (key_node k c0 chs0) = false) as ->; [|apply andb_false_r].
  destruct (node_eqb (tree_of x) (key_node k c0 chs0)) eqn:Eq; [|reflexivity]. exfalso.
  apply node_eqb_value in Eq. destruct x; cbn [entry_beside entry_key] in H; try contradiction;
    cbn [tree_of key_node n_value nval_eqb json_eqb] in Eq; congruence.
Qed.

Lemma proper_kids k c cs : proper_tree (key_node k c (map tree_of cs)) = true -> Forall (fun x => proper_tree (tree_of x) = true) cs.
Proof.
  intros H. cbn [key_node proper_tree] in H. apply andb_prop in H as [_ H]. rewrite forallb_forall in H.
  apply Forall_forall. intros x I. apply H. apply in_map. exact I.
Qed.
Lemma leaf_value v c : is_leaf (value_node v c) = true. Proof. reflexivity. Qed.
Lemma tree_not_leaf x : match x with IComment _ | IEmpty _ _ | IElem _ _ => True | ISection _ _ cs => cs <> [] | _ => True end ->
  is_leaf (tree_of x) = match x with IEmpty _ _ | IElem _ _ => true | IComment [] => true | _ => false end.
Proof.
  destruct x as [c|k c|k v c|k m ls c|k c cs|v c|k v c rs|k c cs rs]; intros H; try reflexivity.
  - destruct c; reflexivity.
  - destruct cs; [contradiction|reflexivity].
Qed.

(** A section key, as an ordinary entry ([first = false]) or as the first key of a mapping ([first = true]). *)
Lemma draw_section E k c cs d parent pre :
  Forall (canonical E) cs -> proper_section cs -> Forall (draws E) cs ->
  pre = (if f_first_coll (key_node k c (map tree_of cs)) parent then skipn TAB_SPACE_COUNT (spaces (2 * d)) ++ $"- " else spaces (2 * d)) ->
  render_tree E (key_node k c (map tree_of cs)) (S d) parent =
  line pre (key_text k ++ $":") c :: flat_map (layout (2 * S d)) cs.
Proof.
  intros CC [NE PS] D Hpre. unfold key_node. rewrite render_eq. fold (key_node k c (map tree_of cs)).
  set (first := f_first_coll (key_node k c (map tree_of cs)) parent) in *.
  assert (is_collection (key_node k c (map tree_of cs)) = false) as IC by reflexivity.
  rewrite IC. change (0 <? S d) with true. cbn [andb negb orb].
  assert (forall body, body = line pre (key_text k ++ $":") c :: flat_map (layout (2 * S d)) cs ->
    (forall y v0 c0, cs = [y] -> y = IElem v0 c0 -> render_single E (key_node k c (map tree_of cs)) (S d) first (tree_of y) = body) ->
    match map tree_of cs with
    | [c1] => if is_leaf c1 then render_single E (key_node k c (map tree_of cs)) (S d) first c1 else body
    | _ => body
    end = line pre (key_text k ++ $":") c :: flat_map (layout (2 * S d)) cs) as G.
  { intros body <- HS. destruct cs as [|y [|z l]]; [contradiction| |reflexivity].
    cbn [map]. cbn [map] in HS. inversion CC as [|? ? Cy _]; subst. rewrite tree_not_leaf.
    - destruct y as [[|? ?]|k' c'|k' v' c'|k' m' l' c'|k' c' cs'|v' c'|k' v' c' rs'|k' c' cs' rs']; try reflexivity.
      + inversion Cy as [? ? [t Ht]| | | | | | |]. discriminate.
      + exfalso. exact (PS k' c' eq_refl).
      + exact (HS _ v' c' eq_refl eq_refl).
    - destruct y; try exact I. inversion Cy as [| | | |? ? ? ? [N _]| | |]. exact N. }
  assert (rstrip ((if first then skipn TAB_SPACE_COUNT (dspaces (S d)) else dspaces (S d)) ++ (if first then $"- " else []) ++ nval_str E (VJ (JP k)) ++ $":  " ++ c)
          = line pre (key_text k ++ $":") c) as HL.
  { unfold line. rewrite Hpre, dspaces_S. destruct first; rewrite <- !app_assoc; reflexivity. }
  apply G.
  - rewrite HL. cbn [app]. f_equal. rewrite kids_deep. apply draws_list; [exact D|apply not_first; exact IC].
  - intros y v0 c0 -> ->. rewrite HL. cbn [app]. unfold render_single. cbn [map tree_of n_lmf key_node n_value n_comment n_ml].
    f_equal.
    + rewrite Hpre. unfold line. rewrite !dspaces_S. destruct first; [|rewrite <- !app_assoc; reflexivity].
      destruct d as [|d]; [rewrite <- !app_assoc; reflexivity|]. cbn [Nat.sub]. rewrite dspaces_S, skip_spaces. rewrite <- !app_assoc. reflexivity.
    + rewrite dspaces_S. unfold kids. cbn [flat_map]. unfold child_lines, is_comment, is_empty_key, is_leaf. cbn [tree_of n_value n_keyf n_children n_comment is_sent andb is_nil negb Nat.eqb app].
      rewrite dspaces_S, <- !app_assoc. reflexivity.
Qed.
Lemma block_texts m ls pre : block_variant m ->
  map (fun j => rstrip (pre ++ TAB ++ stringify_yaml (VJ j) m)) (map (fun l => JStr l) ls) = map (fun l => rstrip (pre ++ TAB ++ l)) ls.
Proof.
  intros V. rewrite map_map. apply map_ext. intros l. do 3 f_equal. cbn [stringify_yaml]. unfold quote_special_strings.
  assert (is_multi m = true) as ->; [|reflexivity]. destruct V as [<-|[<-|[<-|[<-|[<-|[<-|[]]]]]]]; reflexivity.
Qed.
Lemma draw_item E x : canonical E x -> proper_tree (tree_of x) = true -> draws E x.
Proof.
  assert (forall xs, Forall (canonical E) xs -> Forall (fun x => proper_tree (tree_of x) = true) xs ->
    Forall (fun y => canonical E y -> proper_tree (tree_of y) = true -> draws E y) xs -> Forall (draws E) xs) as FF.
  { intros xs C P H. rewrite Forall_forall in *. auto. }
  induction x as [c|k c|k v c|k m ls c|k c cs IH|v c|k v c rs IH|k c cs rs IHc IHr] using item_ind';
    intros H P d n' F.
  - inversion H as [? j [t ->] EC NB Y| | | | | | |]; subst. reflexivity.
  - cbn [layout]. unfold line. rewrite <- !app_assoc. reflexivity.
  - change (child_lines E n' (spaces (2 * d)) (S d) (tree_of (IScalar k v c))) with (render_tree E (key_node k c [value_node v c]) (S d) (Some n')).
    unfold key_node. rewrite render_eq. rewrite leaf_value. fold (key_node k c [value_node v c]). cbn [tree_of] in F. rewrite F.
    unfold render_single. cbn [value_node n_lmf n_ml is_multi key_node n_value n_comment]. change (is_multi MNone) with false. cbv iota.
    rewrite dspaces_S. cbn [layout]. unfold line. rewrite <- !app_assoc. reflexivity.
  - inversion H as [| | |? ? ? ? w V SEP H5 H7 H8 H9| | | |]; subst.
    change (child_lines E n' (spaces (2 * d)) (S d) (tree_of (IBlock k m ls c)))
      with (render_tree E (key_node k c [Nd (VJ (JList (map (fun l => JStr l) ls))) [] [] false m false]) (S d) (Some n')).
    unfold key_node. rewrite render_eq. fold (key_node k c [Nd (VJ (JList (map (fun l => JStr l) ls))) [] [] false m false]). cbn [tree_of] in F. rewrite F.
    match goal with |- context[is_leaf ?n] => change (is_leaf n) with true end.
    unfold render_single. cbn [n_lmf n_ml key_node n_value n_comment].
    assert (is_multi m = true) as ->. { destruct V as [<-|[<-|[<-|[<-|[<-|[<-|[]]]]]]]; reflexivity. }
    rewrite dspaces_S. cbn [layout]. unfold line. f_equal.
    + rewrite <- !app_assoc. reflexivity.
    + rewrite (block_texts m ls _ V). apply map_ext. intros l. rewrite app_assoc, spaces_app. reflexivity.
  - inversion H as [| | | |? ? ? PL PS CC| | |]; subst. cbn [tree_of] in F, P.
    assert (is_leaf (tree_of (ISection k c cs)) = false) as NL.
    { rewrite tree_not_leaf; [reflexivity|]. apply PS. }
    assert (child_lines E n' (spaces (2 * d)) (S d) (tree_of (ISection k c cs)) = render_tree E (key_node k c (map tree_of cs)) (S d) (Some n')) as ->.
    { unfold child_lines, is_empty_key. rewrite NL. cbn [tree_of key_node n_keyf andb]. reflexivity. }
    rewrite (draw_section E k c cs d (Some n') (spaces (2 * d)) CC PS).
    + cbn [layout]. do 2 f_equal. replace (2 * S d) with (2 * d + 2) by lia. reflexivity.
    + apply FF; [exact CC|exact (proper_kids _ _ _ P)|exact IH].
    + rewrite F. reflexivity.
  - cbn [layout]. unfold line. rewrite <- !app_assoc. reflexivity.
  - inversion H as [| | | | | |? ? ? ? NV PL CR EB|]; subst. cbn [tree_of] in F, P.
    set (fst_key := key_node k c [value_node v c]) in *. set (n0 := Nd VSent c (fst_key :: map tree_of rs) true MNone false) in *.
    assert (proper_tree fst_key && forallb proper_tree (map tree_of rs) = true) as P' by exact P. apply andb_prop in P' as [PF PR].
    change (tree_of (IMapScalar k v c rs)) with n0.
    assert (child_lines E n' (spaces (2 * d)) (S d) n0 = render_tree E n0 (S d) (Some n')) as ->.
    { unfold child_lines. assert (is_comment n0 = false) as -> by (unfold is_comment; cbn [n0 n_children is_nil]; apply andb_false_r). reflexivity. }
    unfold n0. rewrite render_eq. fold n0. change (is_collection n0) with true. cbn [negb]. rewrite andb_false_r. cbn [andb app].
    rewrite kids_deep. cbn [flat_map layout]. 
    assert (child_lines E n0 (spaces (2 * S d)) (S (S d)) fst_key = [line (spaces (2 * d) ++ $"- ") (key_text k ++ $": " ++ scalar_text v) c]) as ->.
    { change (child_lines E n0 (spaces (2 * S d)) (S (S d)) fst_key) with (render_tree E fst_key (S (S d)) (Some n0)).
      unfold fst_key, key_node. rewrite render_eq. rewrite leaf_value. fold (key_node k c [value_node v c]). fold fst_key.
      assert (f_first_coll fst_key (Some n0) = true) as ->.
      { unfold f_first_coll. change (is_collection n0) with true. cbn [n0 n_children andb]. apply node_eqb_refl. exact PF. }
      unfold render_single. cbn [value_node n_lmf]. cbn [Nat.sub]. rewrite dspaces_S. unfold fst_key. cbn [key_node n_value n_comment]. unfold line. rewrite <- !app_assoc. reflexivity. }
    cbn [app]. f_equal. replace (2 * d + 2) with (2 * S d) by lia. apply draws_list.
    + apply FF; [exact CR| |exact IH].
      rewrite forallb_forall in PR. apply Forall_forall. intros x I. apply PR. apply in_map. exact I.
    + rewrite Forall_forall in *. intros x I. unfold n0, fst_key. apply beside_not_first. apply EB. exact I.
  - inversion H as [| | | | | | |? ? ? ? PL PS CC CR EB]; subst. cbn [tree_of] in F, P.
    set (fst_key := key_node k c (map tree_of cs)) in *. set (n0 := Nd VSent c (fst_key :: map tree_of rs) true MNone false) in *.
    assert (proper_tree fst_key && forallb proper_tree (map tree_of rs) = true) as P' by exact P. apply andb_prop in P' as [PF PR].
    change (tree_of (IMapSection k c cs rs)) with n0.
    assert (child_lines E n' (spaces (2 * d)) (S d) n0 = render_tree E n0 (S d) (Some n')) as ->.
    { unfold child_lines. assert (is_comment n0 = false) as -> by (unfold is_comment; cbn [n0 n_children is_nil]; apply andb_false_r). reflexivity. }
    unfold n0. rewrite render_eq. fold n0. change (is_collection n0) with true. cbn [negb]. rewrite andb_false_r. cbn [andb app].
    rewrite kids_deep. cbn [flat_map layout].
    assert (Forall (draws E) cs) as DC by (apply FF; [exact CC|exact (proper_kids _ _ _ PF)|exact IHc]).
    assert (child_lines E n0 (spaces (2 * S d)) (S (S d)) fst_key = line (spaces (2 * d) ++ $"- ") (key_text k ++ $":") c :: flat_map (layout (2 * S (S d))) cs) as ->.
    { assert (is_leaf fst_key = false) as NL.
      { change fst_key with (tree_of (ISection k c cs)). rewrite tree_not_leaf; [reflexivity|]. apply PS. }
      assert (child_lines E n0 (spaces (2 * S d)) (S (S d)) fst_key = render_tree E fst_key (S (S d)) (Some n0)) as ->.
      { unfold child_lines, is_empty_key. rewrite NL. unfold fst_key. cbn [key_node n_keyf andb]. reflexivity. }
      assert (f_first_coll fst_key (Some n0) = true) as F1.
      { unfold f_first_coll. change (is_collection n0) with true. cbn [n0 n_children andb]. apply node_eqb_refl. exact PF. }
      unfold fst_key in *. apply draw_section; [exact CC|exact PS|exact DC|].
      rewrite F1, skip_spaces. reflexivity. }
    cbn [app]. f_equal. replace (2 * d + 4) with (2 * S (S d)) by lia. f_equal.
    replace (2 * d + 2) with (2 * S d) by lia. apply draws_list.
    + apply FF; [exact CR| |exact IHr].
      rewrite forallb_forall in PR. apply Forall_forall. intros x I. apply PR. apply in_map. exact I.
    + rewrite Forall_forall in *. intros x I. unfold n0, fst_key. apply beside_not_first. apply EB. exact I.
Qed.

Lemma render_page E xs : Forall (canonical E) xs -> proper_tree (document xs) = true -> render_lines E (document xs) = page xs.
Proof.
  intros C P. unfold render_lines, document, root_node. rewrite render_eq. change (0 <? 0) with false. cbn [andb app].
  set (n' := Nd (VJ (JStr ROOT_VALUE)) [] (map tree_of xs) false MNone false).
  rewrite kids_root. unfold page. unfold document, root_node in P. cbn [proper_tree] in P. apply andb_prop in P as [_ P]. rewrite forallb_forall in P.
  assert (forall x, In x xs -> proper_tree (tree_of x) = true) as PX by (intros x I; apply P, in_map, I). clear P.
  assert (is_collection n' = false) as IC by reflexivity. clearbody n'.
  induction xs as [|x xs IH]; [reflexivity|]. inversion C as [|? ? Cx Cxs]; subst. cbn [map flat_map]. f_equal.
  - assert (child_lines E n' [] 1 (tree_of x) = layout 0 x) as ->.
    { apply (draw_item E x Cx (PX x (or_introl eq_refl)) 0 n'). unfold f_first_coll. rewrite IC. reflexivity. }
    f_equal. destruct x as [[|? ?]|k c|k v c|k m ls c|k c cs|v c|k v c rs|k c cs rs]; try reflexivity.
    + inversion Cx as [? ? [t Ht]| | | | | | |]. discriminate.
    + destruct c; reflexivity.
    + destruct c; reflexivity.
  - apply IH; [exact Cxs|]. intros y I. apply PX. right. exact I.
Qed.
