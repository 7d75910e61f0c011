(** Proofs for C127: the line of the new format, and reading the converted recipe again. *)
From Verif Require Export KeepProofs2 RenderProofs4.
From Verif Require Import FrameProofs PathProofs2 ConvertProofs5 PlainProofs PlainSpec PathSpec KeepSpec.

Lemma version_plain : plain_section version_line.
Proof.
  intros p m H. destruct p as [|[|j] p]; cbn [node_at version_line n_children nth_error] in H.
  - injection H as <-. split; [vm_compute; reflexivity|]. discriminate.
  - destruct p as [|[|j] p]; cbn [node_at n_children nth_error] in H; [|discriminate|discriminate]. injection H as <-.
    split; [vm_compute; reflexivity|]. intros _ X. apply v0_expression in X. revert X. vm_compute. discriminate.
  - destruct j; discriminate.
Qed.
Lemma top_first k root : ~ top_line k root -> first_named k (n_children root) = None.
Proof.
  intros H. destruct (first_named k (n_children root)) as [x|] eqn:F; [|reflexivity]. exfalso. apply H.
  apply holds_first in F as (i & F). apply find_child_hit in F as (_ & F & V). rewrite Nat.sub_0_r in F.
  exists x. split; [exact (nth_error_In _ _ F)|]. destruct (n_value x) as [|[[| | | |t]|l|d]] eqn:Vx; try discriminate. cbn [val_is] in V. apply str_eqb_eq in V as ->. exact Vx.
Qed.
Lemma first_top k root : top_line k root -> exists x, In x (n_children root) /\ val_is (n_value x) k = true.
Proof. intros (x & HI & V). exists x. rewrite V. cbn [val_is]. rewrite str_eqb_refl. auto. Qed.

Notation SVK := $"schema_version" (only parsing).
Lemma version_put E w w' : writes_version E -> good False SVK version_line (fst w) -> in_lines (value_put E [] SVK (JInt 1)) w w' ->
  good True SVK version_line (fst w').
Proof.
  intros HW (_ & HT & HU) (H & _). assert (~ top_line SVK (fst w)) as N.
  { intros K. apply first_top in K as (x & HI & V). rewrite Forall_forall in HU. destruct (HU x HI V) as ([] & _). }
  pose proof (top_first _ _ N) as F. rewrite (put_version E _ _ HW N H). unfold with_version. split; [|split]; cbn [with_lines n_children].
  - intros _. apply holds_first. cbn [with_lines n_children]. rewrite first_app, F. reflexivity.
  - apply Forall_app. split; [exact HT|]. constructor; [|constructor]. split; [reflexivity|]. right. exists SVK. split; [reflexivity|].
    split; [apply comp_ok_spec; vm_compute; reflexivity|reflexivity].
  - apply Forall_app. split; [eapply Forall_impl; [|exact HU]; intros a Ha K; destruct (Ha K) as ([] & _)|]. constructor; [auto|constructor].
Qed.

Lemma c127_line T s text s' : reads_proper (t_env T) -> (forall l x, In x (t_order T l) -> In x l) ->
  addressable_document (r_root (v1 s)) = true -> mapping_at_top (r_root (v1 s)) -> proper_tree (r_root (v1 s)) = true ->
  r_sel (v1 s) = collect_selectors (t_env T) (r_root (v1 s)) -> NoDup (map fst (r_vars (v1 s))) ->
  context_as_key (t_env T) (r_vars (v1 s)) -> writes_version (t_env T) -> ~ top_line SVK (r_root (v1 s)) ->
  without_errors (render_to_v1 T) s text s' -> lookup (r_root (v1 s')) (path_text [SVK]) = Some version_line.
Proof.
  intros HE HO HAD HM HPT HSel ND HC HW NT H.
  assert (component SVK) as CK by (apply comp_ok_spec; vm_compute; reflexivity). apply lookup_holds; [exact CK|reflexivity|].
  destruct (whole_conversion T s text s' HE HPT ND H) as (s1 & s2 & s3 & v & m & root & H1 & H2 & _ & _ & H5 & H6 & H7 & _).
  assert (good False SVK version_line (r_root (v1 s))) as G0.
  { apply good_start; auto. right. split; [tauto|]. apply top_first, NT. }
  pose proof (selectors_stay T False SVK version_line s s1 HE HAD HPT HSel G0 ltac:(intros []) H1) as G1.
  unfold context_upgraded in H2. destruct H2 as (w1 & K1 & w2 & (ctx & Hctx & K2) & w3 & K3 & K4).
  assert (good False SVK version_line (fst w1)) as G2.
  { revert K1 G1. match goal with |- ?A _ _ -> _ => enough (stays False SVK version_line A) as X by exact (X _ _) end. apply stay_map. intros x _. apply stay_tell. }
  assert (good False SVK version_line (fst w2)) as G3.
  { revert K2 G2. match goal with |- ?A _ _ -> _ => enough (stays False SVK version_line A) as X by exact (X _ _) end.
    destruct ctx as [|x ctx]; [apply stay_nothing|]. set (l := x :: ctx) in *. apply stay_seq.
    + intros w w' (keys & _ & _ & K). revert w w' K. destruct keys as [|y keys]; [apply stay_nothing|apply stay_tell].
    + apply stay_put; [discriminate|apply comp_ok_spec; vm_compute; reflexivity|vm_compute; reflexivity|apply HC, Hctx]. }
  pose proof (version_put _ _ _ HW G3 K3) as G4.
  pose proof (stay_markers (t_env T) (t_order T) True SVK version_line HO (fun _ => version_plain) _ _ K4 G4) as (G5 & _).
  assert (~ In SVK upgraded_sections) as NK.
  { intros K. apply (in_map (str_eqb SVK)) in K. rewrite str_eqb_refl in K. vm_compute in K. intuition discriminate. }
  pose proof (keep_sections (t_env T) SVK version_line NK _ m _ _ H5 (G5 I)) as G6. rewrite H7. eapply sort_keeps; [|exact H6|exact G6].
  unfold machine_table, TOP_LEVEL_SORT. repeat constructor; cbn; lia.
Qed.

Lemma version_detected E root : lookup root (path_text [SVK]) = Some version_line -> detect_schema E root = Ok SV1.
Proof.
  intros H. unfold detect_schema, get_value. unfold lookup in H. change (path_text [SVK]) with $"/schema_version" in H.
  destruct (str_to_stack_path $"/schema_version") as [st|]; [|discriminate]. cbn [bind]. rewrite H. reflexivity.
Qed.
Lemma c127_again T s text s' ys : lookup (r_root (v1 s')) (path_text [SVK]) = Some version_line ->
  render_to_v1 T s = (Ok text, s') -> r_root (v1 s') = document ys -> canonical_document (t_env T) ys ->
  exists r, new_recipe (t_env T) text = Ok r /\ r_root r = r_root (v1 s') /\ r_schema r = SV1 /\ r_vars r = r_vars (v1 s')
  /\ r_sel r = collect_selectors (t_env T) (r_root (v1 s')) /\ render (t_env T) r = text.
Proof.
  intros HL H HR HC. destruct (render_parts T s text s' H) as (old & s1 & root & vars & _ & _ & _ & I & V & X).
  assert (r_schema (v1 s') = SV1) as HS by (rewrite V; reflexivity).
  assert (init_vars (t_env T) SV1 text (r_root (v1 s')) = Ok (r_vars (v1 s'))) as HI by (rewrite V; exact I).
  assert (text = render (t_env T) (v1 s')) as HT by exact X.
  assert (parse_tree (t_env T) text = Ok (r_root (v1 s'))) as HP.
  { rewrite HT, (rendered_v1 _ _ ys HR HS HC), HR. exact (read_tree _ ys [] HC (Forall_nil _)). }
  unfold new_recipe. rewrite HP. cbn [bind]. rewrite (version_detected _ _ HL). cbn [bind]. rewrite HI. cbn [bind].
  eexists. split; [reflexivity|]. cbn [r_root r_schema r_vars r_sel]. repeat split. rewrite HT at 2. unfold render. cbn [r_root r_schema r_vars]. rewrite HS. reflexivity.
Qed.
