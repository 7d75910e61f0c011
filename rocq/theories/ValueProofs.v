(** Proofs for C123. *)
From Verif Require Export RenderProofs4.
From Verif Require Import ValueSpec.

Lemma page_lines E k c cs : Forall (canonical E) cs -> proper_tree (key_node k c (map tree_of cs)) = true ->
  (forall x, cs = [x] -> is_leaf (tree_of x) = false) ->
  render_lines E (key_node k c (map tree_of cs)) = page cs.
Proof.
  intros C P NS. unfold render_lines, key_node. rewrite render_eq. change (0 <? 0) with false. cbn [andb app].
  set (n' := Nd (VJ (JP k)) c (map tree_of cs) false MNone true).
  assert (kids E n' 0 1 (map tree_of cs) = page cs) as HB.
  { rewrite kids_root. unfold page. apply proper_kids in P. rewrite Forall_forall in P.
    assert (is_collection n' = false) as IC by reflexivity. clearbody n'. clear NS.
    induction cs as [|x xs IH]; [reflexivity|]. inversion C as [|? ? Cx Cxs]; subst. cbn [map flat_map]. f_equal.
    - assert (child_lines E n' [] 1 (tree_of x) = layout 0 x) as ->.
      { apply (draw_item E x Cx (P x (or_introl eq_refl)) 0 n'). unfold f_first_coll. rewrite IC. reflexivity. }
      f_equal. destruct x as [[|? ?]|k' c'|k' v c'|k' m ls c'|k' c' cs|v c'|k' v c' rs|k' c' cs rs]; try reflexivity.
      + inversion Cx as [? ? [t Ht]| | | | | | |]. discriminate.
      + destruct c'; reflexivity.
      + destruct c'; reflexivity.
    - apply IH; [exact Cxs|]. intros y I. apply P. right. exact I. }
  destruct cs as [|x [|y l]]; cbn [map] in *; [exact HB| |exact HB].
  rewrite (NS x eq_refl). exact HB.
Qed.
Lemma value_at E root s q x d p : addresses root s q -> node_at root q = Some x -> get_value E root s d p = get_value_node E x p.
Proof.
  intros A N. destruct (addresses_lookup _ _ _ A) as (n & N' & L). rewrite N in N'. injection N' as <-.
  unfold lookup in L. unfold get_value. destruct (str_to_stack_path s) as [st|]; [|discriminate]. cbn [bind]. rewrite L. reflexivity.
Qed.
Lemma root_name k : k <> PStr $"/" -> is_root (key_node k [] []) = false /\ forall c chs, is_root (key_node k c chs) = false.
Proof.
  intros H. assert (forall c chs, is_root (key_node k c chs) = false) as G; [|split; auto].
  intros c chs. unfold is_root, key_node. cbn [n_value nval_eqb json_eqb].
  destruct k as [| | | |s]; try reflexivity. cbn [prim_eqb]. apply str_eqb_neq. intros ->. apply H. reflexivity.
Qed.
Lemma mapping_lines E k v c rest : Forall (canonical E) rest -> Forall (entry_beside k) rest ->
  proper_tree (tree_of (IMapScalar k v c rest)) = true ->
  render_lines E (tree_of (IMapScalar k v c rest)) = line $"- " (key_text k ++ $": " ++ scalar_text v) c :: [] :: page rest.
Proof.
  intros C EB P. cbn [tree_of] in *. unfold render_lines. rewrite render_eq. change (0 <? 0) with false. cbn [andb app].
  set (fst_key := key_node k c [value_node v c]) in *. set (n0 := Nd VSent c (fst_key :: map tree_of rest) true MNone false) in *.
  assert (proper_tree fst_key && forallb proper_tree (map tree_of rest) = true) as P' by exact P. apply andb_prop in P' as [PF PR].
  rewrite kids_root. cbn [flat_map].
  assert (child_lines E n0 [] 1 fst_key = [line $"- " (key_text k ++ $": " ++ scalar_text v) c]) as ->.
  { change (child_lines E n0 [] 1 fst_key) with (render_tree E fst_key 1 (Some n0)).
    unfold fst_key, key_node. rewrite render_eq. rewrite leaf_value. fold (key_node k c [value_node v c]). fold fst_key.
    assert (f_first_coll fst_key (Some n0) = true) as ->.
    { unfold f_first_coll. change (is_collection n0) with true. cbn [n0 n_children andb]. apply node_eqb_refl. exact PF. }
    unfold render_single. cbn [value_node n_lmf]. cbn [Nat.sub]. change (dspaces 0) with (@nil ascii). unfold fst_key. cbn [key_node n_value n_comment].
    unfold line. rewrite <- !app_assoc. reflexivity. }
  change (is_comment fst_key) with false. cbv iota. cbn [app]. do 2 f_equal. unfold page.
  assert (forall x, In x rest -> proper_tree (tree_of x) = true) as PX.
  { rewrite forallb_forall in PR. intros x I. apply PR. apply in_map. exact I. }
  assert (forall x, In x rest -> f_first_coll (tree_of x) (Some n0) = false) as F.
  { rewrite Forall_forall in EB. intros x I. unfold n0, fst_key. apply beside_not_first. apply EB. exact I. }
  clear P PR EB. clearbody n0.
  induction rest as [|x xs IH]; [reflexivity|]. inversion C as [|? ? Cx Cxs]; subst. cbn [map flat_map]. f_equal.
  - assert (child_lines E n0 [] 1 (tree_of x) = layout 0 x) as ->.
    { apply (draw_item E x Cx (PX x (or_introl eq_refl)) 0 n0). apply F. left. reflexivity. }
    f_equal. destruct x as [[|? ?]|k' c'|k' v' c'|k' m ls c'|k' c' cs|v' c'|k' v' c' rs|k' c' cs rs]; try reflexivity.
    + inversion Cx as [? ? [t Ht]| | | | | | |]. discriminate.
    + destruct c'; reflexivity.
    + destruct c'; reflexivity.
  - apply IH; [exact Cxs| |]; intros y I; [apply PX|apply F]; right; exact I.
Qed.
Lemma mapping_section_lines E k c cs rest : Forall (canonical E) cs -> proper_section cs -> Forall (canonical E) rest -> Forall (entry_beside k) rest ->
  proper_tree (tree_of (IMapSection k c cs rest)) = true ->
  render_lines E (tree_of (IMapSection k c cs rest)) = line $"- " (key_text k ++ $":") c :: flat_map (layout 2) cs ++ [] :: page rest.
Proof.
  intros CC PS C EB P. cbn [tree_of] in *. unfold render_lines. rewrite render_eq. change (0 <? 0) with false. cbn [andb app].
  set (fst_key := key_node k c (map tree_of cs)) in *. set (n0 := Nd VSent c (fst_key :: map tree_of rest) true MNone false) in *.
  assert (proper_tree fst_key && forallb proper_tree (map tree_of rest) = true) as P' by exact P. apply andb_prop in P' as [PF PR].
  rewrite kids_root. cbn [flat_map].
  assert (child_lines E n0 [] 1 fst_key = line $"- " (key_text k ++ $":") c :: flat_map (layout 2) cs) as ->.
  { assert (is_leaf fst_key = false) as NL.
    { change fst_key with (tree_of (ISection k c cs)). rewrite tree_not_leaf; [reflexivity|]. apply PS. }
    assert (child_lines E n0 [] 1 fst_key = render_tree E fst_key 1 (Some n0)) as ->.
    { unfold child_lines, is_empty_key. rewrite NL. unfold fst_key. cbn [key_node n_keyf andb]. reflexivity. }
    assert (f_first_coll fst_key (Some n0) = true) as F1.
    { unfold f_first_coll. change (is_collection n0) with true. cbn [n0 n_children andb]. apply node_eqb_refl. exact PF. }
    unfold fst_key in *. apply (draw_section E k c cs 0 (Some n0) $"- "); [exact CC|exact PS| |rewrite F1; reflexivity].
    apply proper_kids in PF. rewrite Forall_forall in *. intros x I. apply draw_item; auto. }
  assert (is_comment fst_key = false) as -> by reflexivity. rewrite <- app_assoc. cbn [app]. do 3 f_equal. unfold page.
  assert (forall x, In x rest -> proper_tree (tree_of x) = true) as PX.
  { rewrite forallb_forall in PR. intros x I. apply PR. apply in_map. exact I. }
  assert (forall x, In x rest -> f_first_coll (tree_of x) (Some n0) = false) as F.
  { rewrite Forall_forall in EB. intros x I. unfold n0, fst_key. apply beside_not_first. apply EB. exact I. }
  clear P PR EB. clearbody n0.
  induction rest as [|x xs IH]; [reflexivity|]. inversion C as [|? ? Cx Cxs]; subst. cbn [map flat_map]. f_equal.
  - assert (child_lines E n0 [] 1 (tree_of x) = layout 0 x) as ->.
    { apply (draw_item E x Cx (PX x (or_introl eq_refl)) 0 n0). apply F. left. reflexivity. }
    f_equal. destruct x as [[|? ?]|k' c'|k' v' c'|k' m ls c'|k' c' cs'|v' c'|k' v' c' rs|k' c' cs' rs]; try reflexivity.
    + inversion Cx as [? ? [t Ht]| | | | | | |]. discriminate.
    + destruct c'; reflexivity.
    + destruct c'; reflexivity.
  - apply IH; [exact Cxs| |]; intros y I; [apply PX|apply F]; right; exact I.
Qed.
Section Read.
Variables (E : env) (p : jparser) (text block : str -> json -> Prop).
Hypothesis HT : forall s j, text s j -> parse_yaml E s p = Ok j.
Hypothesis HB : forall s j, block s j -> match p with Some (sv, vars) => yres_to_res (render_jinja_vars E sv vars s) | None => yres_to_res (yload E s) end = Ok j.
Lemma c123_reads root s q x j d : addresses root s q -> node_at root q = Some (tree_of x) -> canonical E x -> proper_tree (tree_of x) = true ->
  not_the_root x -> value_reads text block x j -> get_value E root s d p = Ok j.
Proof.
  intros A N C P NR V. rewrite (value_at E root s q _ d p A N). clear A N. unfold get_value_node.
  assert (forall k, entry_key x = Some k -> forall c chs, is_root (key_node k c chs) = false) as HR.
  { intros k Hk. apply root_name. intros ->. exact (NR Hk). }
  inversion V; subst.
  - cbn [tree_of]. rewrite (HR k eq_refl). match goal with |- context[is_single_key ?n] => change (is_single_key n) with true end. cbn [andb negb].
    cbn [key_node n_children value_node n_ml is_multi n_value]. change (is_multi MNone) with false. cbv iota.
    destruct j as [[| | | |t]| |]; try reflexivity. exfalso. exact (H t eq_refl).
  - cbn [tree_of]. rewrite (HR k eq_refl). match goal with |- context[is_single_key ?n] => change (is_single_key n) with true end. cbn [andb negb].
    cbn [key_node n_children value_node n_ml is_multi n_value]. change (is_multi MNone) with false. cbv iota.
    rewrite (HT _ _ H). cbn [bind n_lmf]. destruct j; reflexivity.
  - cbn [tree_of]. match goal with |- context[is_single_key ?n] => change (is_single_key n) with false end. cbn [andb n_children]. change (is_leaf (Nd (VJ j) c [] true MNone false)) with true. cbv iota. cbn [n_value].
    destruct j as [[| | | |t]| |]; try reflexivity. exfalso. exact (H t eq_refl).
  - cbn [tree_of]. match goal with |- context[is_single_key ?n] => change (is_single_key n) with false end. cbn [andb n_children]. change (is_leaf (Nd (VJ (JStr s0)) c [] true MNone false)) with true. cbv iota. cbn [n_value].
    rewrite (HT _ _ H). cbn [bind]. destruct j; reflexivity.
  - cbn [tree_of]. rewrite (HR k eq_refl). match goal with |- context[is_single_key ?n] => change (is_single_key n) with true end. cbn [andb negb key_node n_children n_ml n_value].
    inversion C as [| | |? ? ? ? w VA _ _ _ _ _| | | |]; subst.
    assert (is_multi m = true) as -> by (destruct VA as [<-|[<-|[<-|[<-|[<-|[<-|[]]]]]]]; reflexivity).
    unfold normalize_multiline. cbn [nval_lines].
    assert (as_lines (map (fun l => JStr l) ls) = Some ls) as -> by (clear; induction ls as [|l ls IH]; [reflexivity|]; cbn [map as_lines]; rewrite IH; reflexivity).
    cbn [bind]. assert (mlv_str m ++ [cNL] ++ TAB ++ join (cNL :: TAB) ls = mlv_str m ++ NLs ++ $"  " ++ join (NLs ++ $"  ") ls) as E1 by reflexivity.
    rewrite E1. exact (HB _ _ H).
  - inversion C as [| | | |? ? ? PL [PS1 PS2] CC| | |]; subst. cbn [tree_of] in *.
    assert (forall y, cs = [y] -> is_leaf (tree_of y) = false) as NL.
    { intros y ->. specialize (H y eq_refl). inversion CC as [|? ? Cy _]; subst. rewrite tree_not_leaf.
      - destruct y as [[|? ?]|k' c'|k' v' c'|k' m' l' c'|k' c' cs'|v' c'|k' v' c' rs'|k' c' cs' rs']; try reflexivity; try contradiction.
        + inversion Cy as [? ? [t Ht]| | | | | | |]. discriminate.
        + exfalso. exact (PS2 k' c' eq_refl).
      - destruct y; try exact I. inversion Cy as [| | | |? ? ? ? [NN _]| | |]. exact NN. }
    assert (is_single_key (key_node k c (map tree_of cs)) = false) as ->.
    { unfold is_single_key, key_node. cbn [n_keyf n_children andb]. destruct cs as [|y [|z l]]; try reflexivity. cbn [map]. exact (NL y eq_refl). }
    cbn [andb]. cbv iota.
    assert (is_leaf (key_node k c (map tree_of cs)) = false) as ->.
    { unfold is_leaf, key_node. cbn [n_children]. destruct cs; [contradiction|reflexivity]. }
    rewrite (page_lines E k c cs CC P NL). rewrite (HT _ _ H0). cbn [bind key_node n_children].
    destruct j as [pj|l|dd]; try reflexivity;
    (destruct cs as [|y [|z l']]; try reflexivity; cbn [map]; specialize (H y eq_refl);
     destruct y; cbn [tree_of key_node n_lmf]; try reflexivity; try contradiction; destruct H as (l0 & Hl); discriminate).
  - cbn [tree_of map]. rewrite (HR k eq_refl). match goal with |- context[is_single_key ?n] => change (is_single_key n) with true end. cbn [andb negb key_node n_children n_ml is_multi n_value n_lmf].
    change (is_multi MNone) with false. cbv iota. rewrite (HT _ _ H). cbn [bind]. destruct j0; reflexivity.
  - cbn [tree_of map]. rewrite (HR k eq_refl). match goal with |- context[is_single_key ?n] => change (is_single_key n) with true end. cbn [andb negb key_node n_children n_ml is_multi n_value n_lmf].
    change (is_multi MNone) with false. cbv iota. destruct j as [[| | | |t]| |]; try reflexivity. exfalso. exact (H t eq_refl).
  - cbn [tree_of]. match goal with |- context[is_single_key ?n] => change (is_single_key n) with false end. cbn [andb key_node n_children]. match goal with |- context[is_leaf ?n] => change (is_leaf n) with true end. cbv iota. cbn [n_value].
    destruct k as [| | | |t]; try reflexivity. exfalso. exact (H t eq_refl).
  - cbn [tree_of]. match goal with |- context[is_single_key ?n] => change (is_single_key n) with false end. cbn [andb key_node n_children]. match goal with |- context[is_leaf ?n] => change (is_leaf n) with true end. cbv iota. cbn [n_value].
    cbn [key_node n_value]. cbv iota beta. rewrite (HT _ _ H). cbn [bind]. destruct j; reflexivity.
  - inversion C as [| | | | | |? ? ? ? NV PL CR EB|]; subst.
    assert (is_single_key (tree_of (IMapScalar k v c rest)) = false) as -> by reflexivity. cbn [andb]. cbv iota.
    assert (is_leaf (tree_of (IMapScalar k v c rest)) = false) as -> by reflexivity.
    rewrite (mapping_lines E k v c rest CR EB P). rewrite (HT _ _ H). cbn [bind tree_of n_children].
    destruct j as [pj|l|dd]; try reflexivity; (destruct rest; reflexivity).
  - inversion C as [| | | | | | |? ? ? ? PL PS CC CR EB]; subst.
    assert (is_single_key (tree_of (IMapSection k c cs rest)) = false) as -> by reflexivity. cbn [andb]. cbv iota.
    assert (is_leaf (tree_of (IMapSection k c cs rest)) = false) as -> by reflexivity.
    rewrite (mapping_section_lines E k c cs rest CC PS CR EB P). rewrite (HT _ _ H). cbn [bind tree_of n_children].
    destruct j as [pj|l|dd]; try reflexivity; (destruct rest; reflexivity).
Qed.
(** The whole recipe. *)
Lemma c123_root_reads root s q xs j d : addresses root s q -> node_at root q = Some (document xs) -> Forall (canonical E) xs ->
  proper_tree (document xs) = true -> xs <> [] -> (forall x, xs = [x] -> n_lmf (tree_of x) = true -> exists l, j = JList l) ->
  text (join NLs (page xs)) j -> get_value E root s d p = Ok j.
Proof.
  intros A N C P NE ONE R. rewrite (value_at E root s q _ d p A N). unfold get_value_node.
  assert (is_root (document xs) = true) as -> by reflexivity. rewrite andb_false_r.
  assert (is_leaf (document xs) = false) as -> by (destruct xs; [contradiction|reflexivity]).
  rewrite (render_page E xs C P), (HT _ _ R). cbn [bind].
  destruct j as [pj|l|dd]; try reflexivity;
  (destruct xs as [|y [|z l']]; try reflexivity; unfold document, root_node; cbn [n_children map];
   destruct (n_lmf (tree_of y)) eqn:Hy; try reflexivity; destruct (ONE y eq_refl Hy) as (l0 & Hl); discriminate).
Qed.
End Read.
Lemma c123 E root s q x j d : addresses root s q -> node_at root q = Some (tree_of x) -> canonical E x -> proper_tree (tree_of x) = true ->
  not_the_root x -> value_read E x j -> get_value E root s d None = Ok j.
Proof.
  apply (c123_reads E None (read_as E) (read_block E)); [intros; apply parse_yaml_read; assumption|]. intros t j' H. unfold read_block in H. rewrite H. reflexivity.
Qed.
Lemma c123_root E root s q xs j d : addresses root s q -> node_at root q = Some (document xs) -> Forall (canonical E) xs ->
  proper_tree (document xs) = true -> xs <> [] -> (forall x, xs = [x] -> n_lmf (tree_of x) = true -> exists l, j = JList l) ->
  read_as E (join NLs (page xs)) j -> get_value E root s d None = Ok j.
Proof. apply (c123_root_reads E None (read_as E)). intros; apply parse_yaml_read; assumption. Qed.

(** * With variables *)
Lemma parse_yaml_sub E p s j0 j : read_as E s j0 -> sub_jinja E p j0 = YOk j -> parse_yaml E s p = Ok j.
Proof.
  intros [Y|(ps & last & xs & j1 & -> & HL & NE & FP & BL & FX & NM & NY & Y & HR)] HS; unfold parse_yaml; [rewrite Y; cbn [ybind]; rewrite HS; reflexivity|].
  assert (findall JINJA_V0_SUB (filled ps xs ++ last) = xs) as EF by (apply (scan_filled ps xs last [] None HL FP BL FX)).
  assert (re_sub JINJA_V0_SUB SUB_MARKER (filled ps xs ++ last) = marked ps ++ last) as ES by (apply (sub_filled _ ps xs last None 0 HL FP BL FX)).
  destruct (restored_sound _ _ _ _ HR (filled_fits ps xs last HL FX NM)) as [ER _].
  rewrite EF, ES, Y. cbn [ybind]. rewrite ER. cbn [fst]. rewrite HS.
  rewrite (c42_verbatim (filled ps xs ++ last) MNone) by (right; left; apply filled_exempt; assumption).
  destruct (yload E (filled ps xs ++ last)) as [j'| |] eqn:Y'; [exfalso; exact (NY j' eq_refl)|reflexivity..].
Qed.
Section Fill.
Variables (E : env) (sv : schema) (vars : vtbl).
Let f := render_jinja_vars E sv vars.
Definition sub_list (n : nat) := fix go (l : list json) : option (list json) + yres :=
  match l with
  | [] => inl (Some [])
  | x :: l' => match recursive_sub_vars n f x with
               | YOk y => match go l' with inl (Some l'') => inl (Some (y :: l'')) | e => e end
               | e => inr e
               end
  end.
Definition sub_dict (n : nat) := fix go (d : list (prim * json)) : option (list (prim * json)) + yres :=
  match d with
  | [] => inl (Some [])
  | (k, x) :: d' => match recursive_sub_vars n f x with
                    | YOk y => match go d' with inl (Some d'') => inl (Some ((k, y) :: d'')) | e => e end
                    | e => inr e
                    end
  end.
Definition sub_coll (n : nat) (d : json) : yres :=
  match d with
  | JList l => match sub_list n l with inl (Some l') => YOk (JList l') | inl None => YFail | inr e => e end
  | JDict l => match sub_dict n l with inl (Some l') => YOk (JDict l') | inl None => YFail | inr e => e end
  | JP _ => YOk d
  end.
Lemma sub_list_cons n x l : sub_list n (x :: l) = match recursive_sub_vars n f x with YOk y => match sub_list n l with inl (Some l'') => inl (Some (y :: l'')) | e => e end | e => inr e end.
Proof. reflexivity. Qed.
Lemma sub_dict_cons n k x l : sub_dict n ((k, x) :: l) = match recursive_sub_vars n f x with YOk y => match sub_dict n l with inl (Some l'') => inl (Some ((k, y) :: l'')) | e => e end | e => inr e end.
Proof. reflexivity. Qed.
Lemma sub_unfold n data : recursive_sub_vars (S n) f data
  = match data with JStr s => match f (quote_special_strings s MNone) with YOk d => sub_coll n d | e => e end | d => sub_coll n d end.
Proof. reflexivity. Qed.
Lemma sub_list_spec n (IH : forall j j', recursive_sub_vars n f j = YOk j' <-> filled_in E sv vars n j j') : forall l l',
  sub_list n l = inl (Some l') <-> Forall2 (filled_in E sv vars n) l l'.
Proof.
  induction l as [|x l IHl]; intros l'; [|rewrite sub_list_cons].
  - split; [intros [= <-]; constructor|intros H; inversion H; reflexivity].
  - split.
    + intros H. destruct (recursive_sub_vars n f x) as [y| |] eqn:X; [|discriminate H..]. destruct (sub_list n l) as [[l0|]|] eqn:L; try discriminate H.
      injection H as <-. constructor; [apply IH; exact X|apply IHl; reflexivity].
    + intros H. inversion H as [|? y ? l0 H1 H2]; subst. apply IH in H1. apply IHl in H2. rewrite H1, H2. reflexivity.
Qed.
Lemma sub_dict_spec n (IH : forall j j', recursive_sub_vars n f j = YOk j' <-> filled_in E sv vars n j j') : forall l l',
  sub_dict n l = inl (Some l') <-> Forall2 (fun a b => fst a = fst b /\ filled_in E sv vars n (snd a) (snd b)) l l'.
Proof.
  induction l as [|(k, x) l IHl]; intros l'; [|rewrite sub_dict_cons].
  - split; [intros [= <-]; constructor|intros H; inversion H; reflexivity].
  - split.
    + intros H. destruct (recursive_sub_vars n f x) as [y| |] eqn:X; [|discriminate H..]. destruct (sub_dict n l) as [[l0|]|] eqn:L; try discriminate H.
      injection H as <-. constructor; [split; [reflexivity|apply IH; exact X]|apply IHl; reflexivity].
    + intros H. inversion H as [|? (k', y) ? l0 (K & H1) H2]; subst. cbn [fst snd] in *. subst k'. apply IH in H1. apply IHl in H2. rewrite H1, H2. reflexivity.
Qed.
Lemma sub_coll_spec n (IH : forall j j', recursive_sub_vars n f j = YOk j' <-> filled_in E sv vars n j j') d j' :
  sub_coll n d = YOk j' <-> (exists p, d = JP p /\ j' = JP p) \/ ((forall p, d <> JP p) /\ filled_in E sv vars (S n) d j').
Proof.
  destruct d as [p|l|d]; cbn [sub_coll].
  - split; [intros [= <-]; left; exists p; auto|]. intros [(p' & [= <-] & ->)|(N & _)]; [reflexivity|contradiction (N p eq_refl)].
  - pose proof (sub_list_spec n IH l) as SL. destruct (sub_list n l) as [[l0|]|e] eqn:L.
    + split; [intros [= <-]; right; split; [discriminate|]; constructor; apply SL; reflexivity|].
      intros [(p' & X & _)|(N & H)]; [discriminate X|]. inversion H as [| | |? ? l' F|]; subst. apply SL in F. injection F as ->. reflexivity.
    + split; [discriminate|]. intros [(p' & X & _)|(N & H)]; [discriminate X|]. inversion H as [| | |? ? l' F|]; subst. apply SL in F. discriminate F.
    + split; [|intros [(p' & X & _)|(N & H)]; [discriminate X|]; inversion H as [| | |? ? l' F|]; subst; apply SL in F; discriminate F].
      intros ->. exfalso. clear SL. revert L. induction l as [|x l IHl]; [discriminate|]. rewrite sub_list_cons.
      destruct (recursive_sub_vars n f x) eqn:X; [|discriminate..]. destruct (sub_list n l) as [[|]|]; try discriminate. intros [= ->]. apply IHl. reflexivity.
  - pose proof (sub_dict_spec n IH d) as SL. destruct (sub_dict n d) as [[l0|]|e] eqn:L.
    + split; [intros [= <-]; right; split; [discriminate|]; constructor; apply SL; reflexivity|].
      intros [(p' & X & _)|(N & H)]; [discriminate X|]. inversion H as [| | | |? ? l' F]; subst. apply SL in F. injection F as ->. reflexivity.
    + split; [discriminate|]. intros [(p' & X & _)|(N & H)]; [discriminate X|]. inversion H as [| | | |? ? l' F]; subst. apply SL in F. discriminate F.
    + split; [|intros [(p' & X & _)|(N & H)]; [discriminate X|]; inversion H as [| | | |? ? l' F]; subst; apply SL in F; discriminate F].
      intros ->. exfalso. clear SL. revert L. induction d as [|(k, x) d IHl]; [discriminate|]. rewrite sub_dict_cons.
      destruct (recursive_sub_vars n f x) eqn:X; [|discriminate..]. destruct (sub_dict n d) as [[|]|]; try discriminate. intros [= ->]. apply IHl. reflexivity.
Qed.
Lemma sub_filled_in : forall n j j', recursive_sub_vars n f j = YOk j' <-> filled_in E sv vars n j j'.
Proof.
  induction n as [|n IH]; intros j j'; [split; [discriminate|intros H; inversion H]|]. rewrite sub_unfold. pose proof (sub_coll_spec n IH) as SC.
  destruct j as [p|l|d]; [|rewrite SC; split; [intros [(p & X & _)|(_ & H)]; [discriminate X|exact H]|intros H; right; split; [discriminate|exact H]]..].
  destruct p as [| | | |s];
    try (rewrite SC; split; [intros [(p & X & ->)|(N & _)]; [rewrite <- X; constructor; discriminate|exfalso; eapply N; reflexivity]
        |intros H; left; inversion H as [? p N| | | |]; subst; eexists; split; reflexivity]).
  unfold f, render_jinja_vars. split.
  - destruct (yload E _) as [d| |] eqn:Y; intros H; [|discriminate H..]. apply SC in H as [(p & -> & ->)|(N & H)]; [apply fi_text; exact Y|eapply fi_text_more; [exact N|exact Y|exact H]].
  - intros H. inversion H as [? p N|? ? p R|? ? d ? N R F| |]; subst.
    + exfalso. exact (N s eq_refl).
    + unfold read_block in R. rewrite R. apply SC. left. exists p. auto.
    + unfold read_block in R. rewrite R. apply SC. right. auto.
Qed.
End Fill.
Lemma c123_filled E sv vars root s q x j d : addresses root s q -> node_at root q = Some (tree_of x) -> canonical E x -> proper_tree (tree_of x) = true ->
  not_the_root x -> value_filled E sv vars x j -> get_value E root s d (Some (sv, vars)) = Ok j.
Proof.
  apply (c123_reads E (Some (sv, vars))).
  - intros t j' (j0 & R & F). apply (parse_yaml_sub E _ t j0); [exact R|]. apply sub_filled_in. exact F.
  - intros t j' H. unfold read_block in H. unfold render_jinja_vars. rewrite H. reflexivity.
Qed.
Lemma c123_root_filled E sv vars root s q xs j0 j d : addresses root s q -> node_at root q = Some (document xs) -> Forall (canonical E) xs ->
  proper_tree (document xs) = true -> xs <> [] -> (forall x, xs = [x] -> n_lmf (tree_of x) = true -> exists l, j = JList l) ->
  read_as E (join NLs (page xs)) j0 -> filled_in E sv vars (rec_limit E) j0 j -> get_value E root s d (Some (sv, vars)) = Ok j.
Proof.
  intros A N C P NE ONE R F. apply (c123_root_reads E (Some (sv, vars)) (fun t j => exists j0, read_as E t j0 /\ filled_in E sv vars (rec_limit E) j0 j)) with (q := q) (xs := xs); auto.
  - intros t j' (j1 & R' & F'). apply (parse_yaml_sub E _ t j1); [exact R'|]. apply sub_filled_in. exact F'.
  - exists j0. auto.
Qed.
