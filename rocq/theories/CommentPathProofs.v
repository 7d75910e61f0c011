(** Every line with a comment has a path, in documents whose keys can be addressed (used for C132, C134, C136; proofs only). *)
From Verif Require WellProofs.
From Verif Require PhaseSpec.
From Verif Require Import Lemmas ConvertProofs5 LayoutProofs8 AgainProofs PlainProofs AboutProofs VarsProofs5 VarsSpec2 RenameProofs6 RenameSpec CanProofs5 VarsSpec SectionSpec ContextSpec CanSpec PlainSpec LayoutSpec KeepSpec SimpleSpec GoesSpec PathSpec.

Lemma top_addressable root l : n_children root = l -> addressable root = true -> forall c, In c l -> addressable_name c = true.
Proof.
  intros <-. destruct root as [v c chs lm ml k]. cbn [addressable n_children]. intros H. apply andb_prop in H as (H & _). revert H. generalize (@nil node).
  induction chs as [|x chs IH]; intros b H y I; [destruct I|]. cbn [addressable_list] in H; apply andb_prop in H as (H & H1); apply andb_prop in H as (H & _). destruct I as [<-|I]; [exact H|exact (IH _ H1 y I)].
Qed.
(** The first lines are enough. *)
Definition top_shown (c : node) : Prop := (n_lmf c || n_keyf c || negb (terminal c)) = true /\ addressable_name c = true.
Lemma shown_text E before c : top_shown c -> is_comment c = false -> own_text E before c <> [].
Proof.
  intros (H1 & H2) HC. unfold own_text, addressable_name in *. destruct (n_lmf c); [discriminate|]. cbn [orb] in *. rewrite HC in H2. rewrite orb_false_r in H2.
  destruct (terminal c && negb (n_keyf c)) eqn:HT; [exfalso; apply andb_prop in HT as (HT & HK); rewrite HT in H1; destruct (n_keyf c); discriminate|]. cbn [orb] in H2.
  destruct (n_value c) as [|v]; [discriminate|]. destruct v as [v| |]; try discriminate. destruct v as [| | | |s]; try discriminate. apply andb_prop in H2 as (H2 & _). apply andb_prop in H2 as (_ & H2).
  cbv zeta. destruct (str_eqb _ _) eqn:HS; [|discriminate]. exfalso. apply str_eqb_eq in HS. change (s = [cSL]) in HS. subst s. discriminate H2.
Qed.
Lemma shown_paths E root : n_comment root = [] -> Forall top_shown (n_children root) -> comments_have_paths E root.
Proof.
  intros HC HF p n HN HI HM. destruct p as [|i p]; cbn [node_at path_at] in *; [congruence|].
  destruct (nth_error (n_children root) i) as [c|] eqn:HX; [|discriminate]. intros HE. apply app_eq_nil in HE as (HE & _). revert HE.
  apply shown_text; [rewrite Forall_forall in HF; apply HF; eapply nth_error_In; exact HX|].
  destruct (is_comment c) eqn:HK; [|reflexivity]. exfalso. unfold is_comment in HK. destruct p as [|j p]; cbn [node_at] in HN; [injection HN as ->; unfold is_comment in HI; congruence|].
  apply andb_prop in HK as (_ & HK). destruct (n_children c); [|discriminate]. destruct j; discriminate.
Qed.
Lemma document_shown root : addressable_document root = true -> Forall top_shown (n_children root).
Proof.
  unfold addressable_document. intros H. apply andb_prop in H as (H & HA). apply andb_prop in H as (_ & HF). rewrite forallb_forall in HF.
  apply Forall_forall. intros c I. split; [exact (HF c I)|exact (top_addressable root _ eq_refl HA c I)].
Qed.
Lemma part_paths E xs more : addressable_document (document (xs ++ more)) = true -> comments_have_paths E (document xs).
Proof.
  intros H. apply document_shown in H. apply shown_paths; [reflexivity|]. cbn [document root_node n_children] in *. rewrite map_app in H. apply Forall_app in H. apply H.
Qed.
Lemma update_comment f q n : (forall m, n_comment (f m) = n_comment m) -> n_comment n = [] -> n_comment (update_at q f n) = [].
Proof. intros Hf H. destruct q as [|i q]; cbn [update_at]; [rewrite Hf; exact H|]. destruct n. exact H. Qed.
Lemma read_paths E text r : new_recipe E text = Ok r -> addressable_document (r_root r) = true -> comments_have_paths E (r_root r).
Proof.
  intros HN HA. apply shown_paths; [|apply document_shown, HA]. revert HN. apply (WellProofs.parse_invariant E (fun root => n_comment root = [])).
  - reflexivity.
  - intros root P pn line ls n u H _ _. apply update_comment; [|exact H]. intros m. destruct m. reflexivity.
Qed.
Lemma c132_files_read T xs vars ctx zs d m : let E := t_env T in let text := join NLs (recipe_page xs vars) in let full := xs ++ context_items ctx ++ [version_item] in
  writes_version E -> (ctx <> [] -> writes_context E ctx) -> (forall l, Permutation (t_order T l) l) ->
  canonical_recipe E xs vars -> xs <> [] -> Forall simple xs -> collect_selectors E (document xs) = [] -> entries_for vars ctx ->
  nothing_old (document xs) -> addressable_document (document full) = true -> expressions_fit E (document full) ->
  Forall2 new_markers full zs -> canonical_document E zs ->
  about_fine E (find_closest_license_match (t_close T) (t_licenses T)) (document zs) -> readable_parts E (document zs) ->
  get_value E (document zs) $"/context" (Some (JDict [])) None = Ok (JDict d) ->
  exists r text' s' ys r', new_recipe E text = Ok r /\ r_root r = document xs
  /\ without_errors (render_to_v1 T) {| v1 := r; msgs := m |} text' s'
  /\ reordered zs ys /\ text' = join NLs (page ys)
  /\ new_recipe E text' = Ok r' /\ r_root r' = document ys /\ r_schema r' = SV1 /\ r_vars r' = dict_to_vtbl d.
Proof.
  cbv zeta. intros H1 H2 H3 H4 H5 H6 H7 H8 H10 H11. apply (c132_files T xs vars ctx zs d m); try assumption. exact (part_paths _ _ _ H11).
Qed.
Lemma c134_files_read T xs vars ctx zs ws d m : let E := t_env T in let closest := find_closest_license_match (t_close T) (t_licenses T) in
  let text := join NLs (recipe_page xs vars) in let full := xs ++ context_items ctx ++ [version_item] in
  writes_version E -> (ctx <> [] -> writes_context E ctx) -> (forall l, Permutation (t_order T l) l) ->
  canonical_recipe E xs vars -> xs <> [] -> Forall simple xs -> collect_selectors E (document xs) = [] -> entries_for vars ctx ->
  addressable_document (document full) = true -> expressions_fit E (document full) ->
  Forall2 new_markers full zs ->
  only_renamed (document zs) -> values_fine E closest (document zs) -> (forall names, In names known_names -> section_in_order names (document zs)) ->
  names_renewed E (document zs) (document ws) -> Forall simple ws -> canonical_document E ws ->
  get_value E (document zs) $"/context" (Some (JDict [])) None = Ok (JDict d) ->
  exists r text' s' ys r', new_recipe E text = Ok r /\ r_root r = document xs
  /\ without_errors (render_to_v1 T) {| v1 := r; msgs := m |} text' s'
  /\ reordered ws ys /\ text' = join NLs (page ys)
  /\ new_recipe E text' = Ok r' /\ r_root r' = document ys /\ r_schema r' = SV1 /\ r_vars r' = dict_to_vtbl d.
Proof.
  cbv zeta. intros H1 H2 H3 H4 H5 H6 H7 H8 H11. apply (c134_files T xs vars ctx zs ws d m); try assumption. exact (part_paths _ _ _ H11).
Qed.
Lemma conversion_of_read_text T text0 r m : let E := t_env T in let s := {| v1 := r; msgs := m |} in
  reads_proper E -> (forall l x, In x (t_order T l) -> In x l) ->
  new_recipe E text0 = Ok r -> addressable_document (r_root r) = true -> PhaseSpec.ready E (r_root r) ->
  exists s1, upgrade_selectors_to_conditionals T s = (Ok tt, s1) /\ conditions_made E (r_root r) (r_root (v1 s1))
  /\ get_messages WARNING (msgs s1) = get_messages WARNING m ++ PhaseSpec.selector_reports E (r_root r)
  /\ forall text root warnings,
     (exists s', without_errors (render_to_v1 T) s text s' /\ r_root (v1 s') = root /\ get_messages WARNING (msgs s') = warnings)
     <-> CanSpec.conversion E (t_order T) (license_of T) (r_vars r) (r_root r) (view s1) root warnings /\ text = join NLs (render_lines E root).
Proof.
  cbv zeta. intros H1 H2 H3 H4 H5. apply (conversion_of_text T text0 r m); try assumption. exact (read_paths _ _ _ H3 H4).
Qed.
