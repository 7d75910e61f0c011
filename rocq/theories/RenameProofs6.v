(** C134 (proofs only): from file to file. *)
From Verif Require Import Lemmas PreProofs2 ConvertProofs5 LayoutProofs8 AgainProofs PlainProofs VarsProofs5 VarsSpec2 FrameProofs2 AboutProofs RenameProofs4 RenameProofs3 RenameSpec.
From Verif Require PreSpec2.

Lemma version_tree w : simple w -> tree_of w = version_line -> w = version_item.
Proof.
  intros S H. destruct S as [c|k c|k v c|v c|k c cs F]; cbn [tree_of key_node] in H; try discriminate.
  - injection H as -> -> -> _. reflexivity.
  - exfalso. injection H as -> -> H. destruct cs as [|x [|y cs]]; [discriminate| |discriminate]. injection H as H. inversion F as [|? ? G _]; subst.
    destruct G as [c'|k' c'|k' v' c'|v' c'|k' c' cs' F']; cbn [tree_of key_node] in H; discriminate.
Qed.
Lemma same_line E t x y : section_renewed E known_names t x y -> called $"schema_version" x -> y = x.
Proof.
  intros H C. inversion H as [a N|tb a others news I K O R]; subst; [reflexivity|]. exfalso. unfold called in *. rewrite C in K. injection K as K.
  unfold known_names in I. repeat (destruct I as [<-|I]; [vm_compute in K; discriminate|]). destruct I.
Qed.
Lemma same_called E t sec x y : section_renewed E known_names t x y -> called sec y -> called sec x.
Proof. intros H C. inversion H as [a N|tb a others news I K O R]; subst; [exact C|]. unfold called in *. destruct x; exact C. Qed.
Lemma renewed_version E t : forall zs ws, Forall2 (section_renewed E known_names t) (map tree_of zs) (map tree_of ws) -> Forall simple ws -> Forall is_version_item zs ->
  Forall is_version_item ws /\ (Exists (eq version_item) zs -> Exists (eq version_item) ws).
Proof.
  induction zs as [|z zs IH]; intros [|w ws] NR HSW FVZ; cbn [map] in NR; inversion NR as [|? ? ? ? K NR']; subst.
  - split; [constructor|intros X; inversion X].
  - inversion HSW as [|? ? S1 S2]; subst. inversion FVZ as [|? ? V1 V2]; subst. destruct (IH ws NR' S2 V2) as (G2 & G3). split.
    + constructor; [|exact G2]. intros X. assert (called $"schema_version" (tree_of w)) as C by (apply FrameProofs2.val_is_eq in X; exact X). pose proof (same_called _ _ _ _ _ K C) as C'. apply version_tree; [exact S1|].
      rewrite (same_line _ _ _ _ K C'), (V1 (is_called_iff _ _ C')). reflexivity.
    + intros X. inversion X as [? ? Y|? ? Y]; subst; [|apply Exists_cons_tl, G3, Y]. constructor. symmetry. apply version_tree; [exact S1|]. apply (same_line _ _ _ _ K). reflexivity.
Qed.
Lemma c134_files T xs vars ctx zs ws d m : let E := t_env T in let closest := find_closest_license_match (t_close T) (t_licenses T) in
  let text := join NLs (recipe_page xs vars) in let full := xs ++ context_items ctx ++ [version_item] in
  writes_version E -> (ctx <> [] -> writes_context E ctx) -> (forall l, Permutation (t_order T l) l) ->
  canonical_recipe E xs vars -> xs <> [] -> Forall simple xs -> collect_selectors E (document xs) = [] -> entries_for vars ctx ->
  comments_have_paths E (document xs) -> addressable_document (document full) = true -> expressions_fit E (document full) ->
  Forall2 new_markers full zs ->
  only_renamed (document zs) -> values_fine E closest (document zs) -> (forall names, In names known_names -> section_in_order names (document zs)) ->
  names_renewed E (document zs) (document ws) -> Forall simple ws -> canonical_document E ws ->
  get_value E (document zs) $"/context" (Some (JDict [])) None = Ok (JDict d) ->
  exists r text' s' ys r', new_recipe E text = Ok r /\ r_root r = document xs
  /\ without_errors (render_to_v1 T) {| v1 := r; msgs := m |} text' s'
  /\ reordered ws ys /\ text' = join NLs (page ys)
  /\ new_recipe E text' = Ok r' /\ r_root r' = document ys /\ r_schema r' = SV1 /\ r_vars r' = dict_to_vtbl d.
Proof.
  cbv zeta. intros HW HC HO CR NX HS HSel HE CP AD XF FZ OR VF IO NR HSW CW GV. set (full := xs ++ context_items ctx ++ [version_item]) in *.
  pose proof (read_back (t_env T) xs vars CR) as RB. cbv zeta in RB. match type of RB with _ = Ok ?r0 => set (r := r0) in RB end.
  pose proof CR as (CD & NE & ND & _). pose proof CD as (_ & PT & _).
  assert (with_version (with_context ctx (document xs)) = document full) as HF by (rewrite context_document, version_document; unfold full; rewrite app_assoc; reflexivity).
  assert (full <> []) as NF by (unfold full; destruct xs; [contradiction|discriminate]).
  pose proof (new_markers_document _ _ NF FZ) as RN.
  destruct (c134 T {| v1 := r; msgs := m |} ctx (document zs) (document ws) d) as (text' & s' & _ & _ & _ & _ & _ & W & RA & V & _); cbn [v1 r r_root r_sel r_vars]; rewrite ?HF; auto.
  { destruct xs; [contradiction|discriminate]. }
  assert (Forall simple full) as HS2.
  { unfold full. apply Forall_app. split; [exact HS|]. apply Forall_app. split; [apply context_simple|repeat constructor]. }
  destruct (rearranged_document _ _ RA HSW) as (ys & HY & R).
  assert (Forall is_version_item full) as FV.
  { unfold full. apply Forall_app. split; [apply others_named; assumption|]. apply Forall_app. split; [|constructor; [intros _; reflexivity|constructor]].
    unfold context_items. destruct ctx; constructor; [|constructor]. intros X. discriminate X. }
  assert (Forall is_version_item zs) as FVZ.
  { clear - FZ FV. clearbody full. induction FZ as [|x z xl zl H F IH]; constructor; inversion FV as [|? ? G1 G2]; subst; [exact (new_version_item _ _ H G1)|exact (IH G2)]. }
  assert (Exists (eq version_item) zs) as EV.
  { unfold full in FZ. apply Forall2_app_inv_l in FZ as (z1 & z2 & _ & F2 & ->). apply Forall2_app_inv_l in F2 as (z3 & z4 & _ & F4 & ->).
    inversion F4 as [|? z ? zl H4 F5]; subst. apply new_version in H4 as ->. apply Exists_app. right. apply Exists_app. right. constructor. reflexivity. }
  destruct NR as (lines & NR & HL0). assert (lines = map tree_of ws) as -> by (apply (f_equal n_children) in HL0; rewrite with_lines_children in HL0; symmetry; exact HL0).
  cbn [document root_node n_children] in NR.
  assert (Forall is_version_item ws /\ Exists (eq version_item) ws) as (FVW & EW).
  { destruct (renewed_version _ _ _ _ NR HSW FVZ) as (A & B). split; [exact A|exact (B EV)]. }
  pose proof (reordered_document _ _ _ R HSW CW) as CY.
  assert (lookup (r_root (v1 s')) (path_text [$"schema_version"]) = Some version_line) as HL.
  { rewrite HY. apply version_found.
    - eapply (reordered_forall is_version_item); [|exact R|exact FVW]. intros k c cs ds _ K X. specialize (K X). discriminate.
    - eapply version_stays; [exact R|exact FVW|exact EW]. }
  destruct (c127_again T _ text' s' ys HL (proj1 W) HY CY) as (r' & H1 & H2 & H3 & H4 & _ & _).
  exists r, text', s', ys, r'. split; [exact RB|]. split; [reflexivity|]. split; [exact W|]. split; [exact R|]. split.
  { destruct (c79 T _ text' s' (proj1 W)) as (K1 & K2 & _). rewrite K2. apply rendered_v1; assumption. }
  split; [exact H1|]. split; [rewrite H2; exact HY|]. split; [exact H3|]. rewrite H4. exact V.
Qed.
