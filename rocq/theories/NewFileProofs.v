(** Proofs for C140: files of the new recipe format in the canonical layout. *)
From Verif Require Import FrameProofs2 DepsProofs ServiceProofs CommandsProofs AnswerProofs PhaseProofs2 ValueProofs AboutProofs PathProofs PathProofs2 PatchProofs PatchProofs2 FrameProofs LayoutProofs8 CommandsProofs4 CanProofs CanProofs5 BumpProofs EditProofs BumpProofs2 DepFileProofs HashProofs NewFileSpec.
Import BumpSpec2.

Lemma first_named xs k A x B : xs = A ++ x :: B -> isdigit k = false -> no_entry k A -> entry_key x = Some (PStr k) ->
  traverse (document xs) [k; ROOT_VALUE] = Some (tree_of x).
Proof.
  intros -> D NE HK. unfold traverse, traverse_pos. cbn [rev app]. cbn [traverse_recurse].
  rewrite (selects_step k A x B [] (document (A ++ x :: B)) eq_refl (or_introl eq_refl)).
  2:{ unfold selects. rewrite D. split; assumption. }
  cbn [app]. unfold document, root_node. cbn [n_children node_at]. rewrite map_app. cbn [map].
  cbn [option_map node_at n_children]. rewrite BumpProofs.nth_middle. reflexivity.
Qed.
Lemma new_detected E xs : marked_new xs -> detect_schema E (document xs) = Ok SV1.
Proof.
  intros (A & c & B & HX & NE). unfold detect_schema, get_value.
  change (str_to_stack_path $"/schema_version") with (@Ok stack [$"schema_version"; ROOT_VALUE]). cbn [bind].
  rewrite (first_named xs $"schema_version" A _ B HX eq_refl NE eq_refl). reflexivity.
Qed.
Lemma table_of d : Forall (fun kv : prim * json => exists k, fst kv = PStr k) d -> NoDup (map fst d) ->
  forall acc, (forall kv, In kv d -> ~ In (prim_str (fst kv)) (dkeys acc)) ->
  fold_left (fun t kv => dset (prim_str (fst kv)) (snd kv) t) d acc = acc ++ map (fun kv => (prim_str (fst kv), snd kv)) d.
Proof.
  induction d as [|[p v] d IH]; intros F ND acc HN; cbn [fold_left map]; [symmetry; apply app_nil_r|].
  inversion F as [|? ? (k & K1) K2]; subst. cbn [fst] in K1. subst p. cbn [map fst] in ND. inversion ND as [|? ? N1 N2]; subst. cbn [fst snd].
  pose proof (HN _ (or_introl eq_refl)) as HN0. cbn [fst prim_str] in HN0 |- *. rewrite (CommandsProofs4.dset_fresh _ v acc HN0), IH; [rewrite <- app_assoc; reflexivity|exact K2|exact N2|].
  intros kv I I'. unfold dkeys in I'. rewrite map_app in I'. apply in_app_iff in I' as [I'|[I'|[]]]; [exact (HN kv (or_intror I) I')|].
  rewrite Forall_forall in K2. destruct (K2 kv I) as (k' & HK). cbn [fst] in I'. rewrite HK in I'. cbn [prim_str] in I'. subst k'.
  apply N1. rewrite <- HK. apply in_map, I.
Qed.
Lemma context_vars E xs vars text : canonical_document E xs -> context_read E xs vars -> init_vars E SV1 text (document xs) = Ok vars.
Proof.
  intros CD [(NE & ->)|(d & _ & HG & HF & ND & ->)]; unfold init_vars.
  - unfold get_value. change (str_to_stack_path $"/context") with (@Ok stack [$"context"; ROOT_VALUE]). cbn [bind].
    assert (traverse (document xs) [$"context"; ROOT_VALUE] = None) as ->; [|reflexivity].
    unfold traverse, traverse_pos. cbn [rev app]. cbn [traverse_recurse]. unfold step_child.
    change (isdigit $"context") with false. cbv iota. unfold document, root_node. cbn [n_children].
    rewrite (LayoutProofs8.find_child_none E _ _ (proj1 (proj1 CD)) NE). reflexivity.
  - assert (get_value E (document xs) $"/context" (Some (JDict [])) None = Ok (JDict d)) as ->.
    { revert HG. unfold get_value. destruct (str_to_stack_path $"/context") as [st|]; [|discriminate]. cbn [bind].
      destruct (traverse (document xs) st); [tauto|discriminate]. }
    cbn [bind]. unfold dict_to_vtbl. rewrite (table_of d HF ND); [reflexivity|]. intros kv _ [].
Qed.
Lemma new_read_back E xs vars : new_file E xs vars ->
  let text := join NLs (page xs) in
  new_recipe E text = Ok {| r_init := text; r_root := document xs; r_schema := SV1; r_vars := vars;
                            r_sel := collect_selectors E (document xs); r_mod := false |}.
Proof.
  intros (CD & HM & HC) text. unfold new_recipe. subst text. pose proof (read_tree E xs [] CD (Forall_nil _)) as HT.
  change (recipe_page xs []) with (page xs) in HT. rewrite HT. cbn [bind].
  rewrite (new_detected E xs HM). cbn [bind]. rewrite (context_vars E xs vars _ CD HC). reflexivity.
Qed.
Lemma context_names E xs vars : context_read E xs vars -> NoDup (map fst vars).
Proof.
  intros [(_ & ->)|(d & _ & _ & HF & ND & ->)]; [constructor|]. rewrite map_map. cbn [fst]. revert HF ND. induction d as [|[p v] d IH]; intros F ND; [constructor|].
  inversion F as [|? ? (k & K1) K2]; subst. cbn [fst] in K1. subst p. cbn [map fst] in *. inversion ND as [|? ? N1 N2]; subst. constructor; [|apply IH; assumption].
  intros I. apply in_map_iff in I as (kv & HE & I). rewrite Forall_forall in K2. destruct (K2 kv I) as (k' & HK). rewrite HK in HE. cbn [prim_str] in HE. subst k'.
  apply N1. rewrite <- HK. apply in_map, I.
Qed.

Lemma c140_read E xs vars : new_file E xs vars -> exists r, new_recipe E (join NLs (page xs)) = Ok r /\ r_root r = document xs
  /\ r_schema r = SV1 /\ r_vars r = vars /\ render E r = join NLs (page xs).
Proof.
  intros HF. pose proof (new_read_back E xs vars HF) as H. cbv zeta in H. set (r0 := {| r_init := _ |}) in H. exists r0.
  split; [exact H|]. do 3 (split; [reflexivity|]). exact (rendered_v1 E r0 xs eq_refl eq_refl (proj1 HF)).
Qed.
Lemma c140_patched E j written xs vars xs' : new_file E xs vars -> canonical_document E xs' -> edited_in_turn E (patch_list j) xs xs' ->
  patch_command E (JsonData j) (ReadOk (join NLs (page xs))) written
  = (match written with None => Exit SUCCESS | Some e => Raise e end, [Write (join NLs (page xs'))]).
Proof.
  intros HF CD' HE. unfold patch_command. rewrite (new_read_back E xs vars HF). set (r0 := {| r_init := _ |}).
  destruct (edits_done E _ xs xs' HE r0 eq_refl) as (r' & HL & HR' & _ & HS & HV). change (match j with JList l => l | _ => [j] end) with (patch_list j).
  rewrite HL, (rendered_v1 E r' xs' HR' HS CD'). reflexivity.
Qed.
Lemma c140_dependency E MS dep mode smode vars xs xs' : new_file E xs vars -> canonical_document E xs' -> dependency_added E MS dep mode smode SV1 vars xs xs' ->
  exists r r', new_recipe E (join NLs (page xs)) = Ok r /\ add_dependency E MS dep mode smode r = (Ok true, r')
  /\ render E r' = join NLs (page xs').
Proof.
  intros HF CD' HA. pose proof (new_read_back E xs vars HF) as HRB. cbv zeta in HRB. set (r0 := {| r_init := _ |}) in HRB. exists r0.
  destruct (add_once _ _ _ _ _ _ _ _ _ HA r0 eq_refl eq_refl eq_refl) as (r' & HAd & HR' & _ & HS & HV).
  exists r'. split; [exact HRB|]. split; [exact HAd|]. exact (rendered_v1 E r' xs' HR' HS CD').
Qed.
Lemma c140_bumped E N variants o written xs vars xs' vars' : (forall v, In v variants <-> In v HASH_TYPE_VARIANTS) ->
  (forall l, Permutation (n_order N l) l) -> valid_options o ->
  new_file E xs vars -> canonical_document E xs' -> no_mark (join NLs (page xs)) ->
  file_put E N SV1 o xs vars xs' vars' ->
  bump_recipe E N variants o (ReadOk (join NLs (page xs))) written
  = let text := join NLs (page xs') in
    if b_dry_run o then (Exit SUCCESS, [Print text]) else (match written with None => Exit SUCCESS | Some e => Raise e end, [Write text]).
Proof.
  intros HVr HP HO HF HCa' HM (xs1 & HB & HT). cbv zeta. unfold bump_recipe. destruct (proj2 (options_spec o) HO) as (-> & ->).
  assert (pre_process_remove_hash_type variants (join NLs (page xs)) = join NLs (page xs)) as HPre.
  { pose proof (c107 variants (join NLs (page xs)) [] HVr (conj HM I)) as H. unfold with_marks in H. cbn [map concat] in H. rewrite !app_nil_r in H. exact H. }
  unfold bump_steps. rewrite HPre, (new_read_back E xs vars HF). set (r0 := {| r_init := _ |}).
  assert (NoDup (map fst vars)) as ND by exact (context_names E xs vars (proj2 (proj2 HF))).
  destruct (number_put_go E (b_build_num o) xs xs1 r0 HB eq_refl) as (r1 & -> & R1 & V1 & S1). cbn [then_].
  change (r_vars r0) with vars in V1. change (r_schema r0) with SV1 in S1.
  destruct (b_target o) as [target|].
  - destruct HT as (xs2 & vars2 & HVe & HSu). destruct (proj1 HVe) as (old & HOld).
    assert (get_value E (r_root r1) VERSION (Some JNull) (sub_vars r1) = Ok old) as -> by (unfold sub_vars; rewrite R1, V1, S1; exact HOld).
    cbn [lift then_]. destruct (version_put_go E _ target xs1 vars xs2 vars2 r1 HVe ND R1 V1) as (r2 & -> & R2 & V2 & S2 & F2). cbn [then_].
    rewrite S1 in S2. assert (NoDup (map fst vars2)) as ND2 by (rewrite F2; exact ND).
    destruct (all_put E N SV1 xs2 vars2 xs' vars' r2 HP HSu ND2 R2 V2 S2) as (r3 & -> & R3 & V3 & S3).
    rewrite (rendered_v1 E r3 xs' R3 S3 HCa'). reflexivity.
  - destruct HT as (-> & ->). rewrite (rendered_v1 E r1 xs1 R1 S1 HCa'). reflexivity.
Qed.
