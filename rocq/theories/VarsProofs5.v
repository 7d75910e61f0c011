(** C132 (proofs only): from file to file. *)
From Verif Require Export VarsProofs4 SimpleProofs.
From Verif Require Import Lemmas PreProofs2 ConvertProofs5 LayoutProofs8 AgainProofs PlainProofs VarsSpec2.
From Verif Require PreSpec2.

Lemma searched v c chs l m k : searched_text false (Nd (VJ v) c chs l m k) = scalar_text v.
Proof. unfold searched_text, scalar_text. cbn [n_value]. apply app_nil_r. Qed.
Lemma leaf_kept n : n_children n = [] -> ~ value_with_expression n -> renewed n n.
Proof. intros C V. assert (n = with_lines n []) as Q by (rewrite <- C; destruct n; reflexivity). rewrite Q at 2. apply line_kept; [exact V|]. rewrite C. constructor. Qed.
Lemma value_same v c l : ~ has_expression (scalar_text v) -> renewed (Nd (VJ v) c [] l MNone false) (Nd (VJ v) c [] l MNone false).
Proof. intros H. apply leaf_kept; [reflexivity|]. intros (_ & X). rewrite searched in X. contradiction. Qed.
Lemma lines_kept n l : n_children n <> [] -> Forall2 renewed (n_children n) l -> renewed n (with_lines n l).
Proof. intros N F. apply line_kept; [|exact F]. intros (X & _). unfold terminal in X. destruct (n_children n); [contradiction|discriminate]. Qed.
Fixpoint new_markers_tree x z (H : new_markers x z) {struct H} : renewed (tree_of x) (tree_of z).
Proof.
  destruct H as [k s s' X M|s s' X M|c|k c X|k v c X|v c X|k c cs ds N F].
  - change (tree_of (IScalar k (JStr s') [])) with (with_lines (tree_of (IScalar k (JStr s) [])) [value_node (JStr s') []]). apply lines_kept; [discriminate|].
    constructor; [|constructor]. apply marker_renewed; [|exact M]. split; [reflexivity|]. rewrite searched. exact X.
  - apply marker_renewed; [|exact M]. split; [reflexivity|]. rewrite searched. exact X.
  - apply leaf_kept; [reflexivity|]. intros (_ & X). apply expression_brace in X. exact X.
  - apply leaf_kept; [reflexivity|]. intros (_ & Y). change (tree_of (IEmpty k c)) with (Nd (VJ (JP k)) c [] false MNone true) in Y. rewrite searched in Y. contradiction.
  - change (tree_of (IScalar k v c)) with (with_lines (tree_of (IScalar k v c)) [value_node v c]) at 2. apply lines_kept; [discriminate|]. constructor; [|constructor].
    apply value_same. exact X.
  - apply value_same. exact X.
  - change (tree_of (ISection k c ds)) with (with_lines (tree_of (ISection k c cs)) (map tree_of ds)). apply lines_kept.
    + cbn [tree_of key_node n_children]. destruct cs; [contradiction|discriminate].
    + cbn [tree_of key_node n_children]. clear N. induction F as [|x z xs zs H F IH]; cbn [map]; constructor; [exact (new_markers_tree x z H)|exact IH].
Qed.
Lemma new_markers_document xs zs : xs <> [] -> Forall2 new_markers xs zs -> renewed (document xs) (document zs).
Proof.
  intros N F. change (document zs) with (with_lines (document xs) (map tree_of zs)). apply lines_kept; cbn [document root_node n_children]; [destruct xs; [contradiction|discriminate]|].
  clear N. induction F as [|x z xs zs H F IH]; cbn [map]; constructor; [exact (new_markers_tree x z H)|exact IH].
Qed.
Fixpoint new_markers_simple x z (H : new_markers x z) {struct H} : simple x -> simple z.
Proof.
  destruct H as [k s s' X M|s s' X M|c|k c X|k v c X|v c X|k c cs ds N F]; intros S; try constructor. inversion S as [| | | |? ? ? G]; subst. clear S N.
  induction F as [|x z xs zs H F IH]; [constructor|]. inversion G as [|? ? G1 G2]; subst. constructor; [exact (new_markers_simple x z H G1)|exact (IH G2)].
Qed.
Lemma all_simple xs zs : Forall2 new_markers xs zs -> Forall simple xs -> Forall simple zs.
Proof. intros F. induction F as [|x z xs zs H F IH]; intros G; [constructor|]. inversion G as [|? ? G1 G2]; subst. constructor; [exact (new_markers_simple x z H G1)|exact (IH G2)]. Qed.
Lemma new_version z : new_markers version_item z -> z = version_item.
Proof. intros H. inversion H; reflexivity. Qed.
Lemma new_version_item x z : new_markers x z -> is_version_item x -> is_version_item z.
Proof.
  intros H V Q. assert (val_is (n_value (tree_of x)) $"schema_version" = true -> z = version_item) as K by (intros P; apply new_version; rewrite <- (V P); exact H).
  destruct H as [k s s' X M|s s' X M|c|k c X|k v c X|v c X|k c cs ds N F]; try exact (K Q). exfalso. cbn [tree_of n_value val_is] in Q. apply str_eqb_eq in Q.
  assert (In brace s) as B.
  { apply expression_brace in X. exact (quoted_brace _ _ X). }
  apply (markers_kept _ _ _ _ M) in B. rewrite Q in B. revert B. apply braceless_is. reflexivity.
Qed.
Lemma context_document ctx xs : with_context ctx (document xs) = document (xs ++ context_items ctx).
Proof.
  unfold with_context, context_items. destruct ctx as [|kv ctx]; [rewrite app_nil_r; reflexivity|]. unfold document, root_node. cbn [with_lines n_children]. rewrite map_app. unfold context_line.
  cbn [map tree_of key_node]. rewrite map_map. reflexivity.
Qed.
Lemma context_simple ctx : Forall simple (context_items ctx).
Proof. unfold context_items. destruct ctx as [|kv ctx]; constructor; [|constructor]. constructor. apply Forall_forall. intros x I. apply in_map_iff in I as (e & <- & _). constructor. Qed.
Lemma c132_files T xs vars ctx zs d m : let E := t_env T in let text := join NLs (recipe_page xs vars) in let full := xs ++ context_items ctx ++ [version_item] in
  writes_version E -> (ctx <> [] -> writes_context E ctx) -> (forall l, Permutation (t_order T l) l) ->
  canonical_recipe E xs vars -> xs <> [] -> Forall simple xs -> collect_selectors E (document xs) = [] -> entries_for vars ctx ->
  comments_have_paths E (document xs) -> nothing_old (document xs) -> addressable_document (document full) = true -> expressions_fit E (document full) ->
  Forall2 new_markers full zs -> canonical_document E zs ->
  about_fine E (find_closest_license_match (t_close T) (t_licenses T)) (document zs) -> readable_parts E (document zs) ->
  get_value E (document zs) $"/context" (Some (JDict [])) None = Ok (JDict d) ->
  exists r text' s' ys r', new_recipe E text = Ok r /\ r_root r = document xs
  /\ without_errors (render_to_v1 T) {| v1 := r; msgs := m |} text' s'
  /\ reordered zs ys /\ text' = join NLs (page ys)
  /\ new_recipe E text' = Ok r' /\ r_root r' = document ys /\ r_schema r' = SV1 /\ r_vars r' = dict_to_vtbl d.
Proof.
  cbv zeta. intros HW HC HO CR NX HS HSel HE CP NO AD XF FZ CZ HA RP GV. set (full := xs ++ context_items ctx ++ [version_item]) in *.
  pose proof (read_back (t_env T) xs vars CR) as RB. cbv zeta in RB. match type of RB with _ = Ok ?r0 => set (r := r0) in RB end.
  pose proof CR as (CD & NE & ND & _). pose proof CD as (_ & PT & _).
  assert (with_version (with_context ctx (document xs)) = document full) as HF by (rewrite context_document, version_document; unfold full; rewrite app_assoc; reflexivity).
  assert (full <> []) as NF by (unfold full; destruct xs; [contradiction|discriminate]).
  pose proof (new_markers_document _ _ NF FZ) as RN.
  destruct (c132_recipe T {| v1 := r; msgs := m |} ctx (document zs) d) as (text' & s' & W & RA & V); cbn [v1 r r_root r_sel r_vars]; rewrite ?HF; auto.
  { destruct xs; [contradiction|discriminate]. }
  assert (Forall simple full) as HS2.
  { unfold full. apply Forall_app. split; [exact HS|]. apply Forall_app. split; [apply context_simple|repeat constructor]. }
  pose proof (all_simple _ _ FZ HS2) as HSZ. destruct (rearranged_document _ _ RA HSZ) as (ys & HY & R).
  assert (Forall is_version_item full) as FV.
  { unfold full. apply Forall_app. split; [apply others_named; assumption|]. apply Forall_app. split; [|constructor; [intros _; reflexivity|constructor]].
    unfold context_items. destruct ctx; constructor; [|constructor]. intros X. discriminate X. }
  assert (Forall is_version_item zs) as FVZ.
  { clear - FZ FV. clearbody full. induction FZ as [|x z xl zl H F IH]; constructor; inversion FV as [|? ? G1 G2]; subst; [exact (new_version_item _ _ H G1)|exact (IH G2)]. }
  assert (Exists (eq version_item) zs) as EV.
  { unfold full in FZ. apply Forall2_app_inv_l in FZ as (z1 & z2 & _ & F2 & ->). apply Forall2_app_inv_l in F2 as (z3 & z4 & _ & F4 & ->).
    inversion F4 as [|? z ? zl H4 F5]; subst. apply new_version in H4 as ->. apply Exists_app. right. apply Exists_app. right. constructor. reflexivity. }
  pose proof (reordered_document _ _ _ R HSZ CZ) as CY.
  assert (lookup (r_root (v1 s')) (path_text [$"schema_version"]) = Some version_line) as HL.
  { rewrite HY. apply version_found.
    - eapply (reordered_forall is_version_item); [|exact R|exact FVZ]. intros k c cs ds _ K X. specialize (K X). discriminate.
    - eapply version_stays; [exact R|exact FVZ|exact EV]. }
  destruct (c127_again T _ text' s' ys HL (proj1 W) HY CY) as (r' & H1 & H2 & H3 & H4 & _ & _).
  exists r, text', s', ys, r'. split; [exact RB|]. split; [reflexivity|]. split; [exact W|]. split; [exact R|]. split.
  { destruct (c79 T _ text' s' (proj1 W)) as (K1 & K2 & _). rewrite K2. apply rendered_v1; assumption. }
  split; [exact H1|]. split; [rewrite H2; exact HY|]. split; [exact H3|]. rewrite H4. exact V.
Qed.
