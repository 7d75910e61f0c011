(** Proofs for C152. *)
From Verif Require Import LayoutProofs3 LayoutProofs4 LayoutProofs8 CommentFileProofs NewFileProofs ValueProofs AnswerProofs DepsProofs3 ServiceProofs.
From Verif Require Export AgreeProofs PackageSpec.

Section Tree.
Variables (E : env) (xs : list item) (r : recipe).
Hypothesis HR : r_root r = document xs.
Hypothesis HC : Forall (canonical E) xs.
Hypothesis HK : no_slash_key xs.
Hypothesis HA : addressable_document (document xs) = true.
Hypothesis HP : proper_tree (document xs) = true.

Lemma name_there p d package : named E (r_schema r) xs (r_vars r) p package -> get_value E (r_root r) p d (Some (r_schema r, r_vars r)) = Ok (JP package).
Proof. intros (v & c & E1 & V1). exact (value_there E xs r HR HC HK HA HP _ _ _ _ E1 V1). Qed.
Lemma recipe_named root : get_value E (r_root r) (name_place r $"/") (Some JNull) (Some (r_schema r, r_vars r)) = Ok (JP root) ->
  get_recipe_name E r = Ok (match root with PNull => None | _ => Some (prim_str root) end).
Proof.
  intros H. apply c71_name. exists (JP root). split; [exact H|]. destruct root; try (right; split; [discriminate|reflexivity]). left. split; reflexivity.
Qed.
Lemma packages_there outputs tbl : packages_listed E (r_schema r) xs (r_vars r) outputs tbl -> packages_answered E r outputs tbl.
Proof.
  intros [root H1 H2|c os l root names H1 H2 H3 H4 H5 H6].
  - assert (component $"outputs") as HCo by (split; [discriminate|vm_compute; intuition discriminate]).
    destruct (missing_at_top E xs r HR $"outputs" (JList []) None HCo eq_refl H1) as (O1 & O2). change (cSL :: $"outputs") with $"/outputs" in O1, O2.
    assert (name_place r $"/" = $"/package/name") as NR by (unfold name_place; rewrite O2; destruct (r_schema r); reflexivity).
    split; [rewrite outputs_lookup, O2; reflexivity|]. split; [unfold get_package_paths; rewrite O1; reflexivity|]. split.
    + apply c50_names. exists (JList []), 0. split; [exact O1|]. split; [reflexivity|]. split; [reflexivity|]. split; [|constructor; constructor].
      constructor; [|constructor]. cbn [fst snd]. rewrite NR. exact (name_there _ _ _ H2).
    + intros root' [[= <-]|[]]. apply recipe_named. rewrite NR. exact (name_there _ _ _ H2).
  - set (f := fun i => path_text [$"outputs"; str_of_nat i]).
    assert (forall i, f i = output_scope i) as Hf. { intros i. unfold f, output_scope. cbn [path_text]. rewrite app_nil_r. reflexivity. }
    assert (length names = length (map output_scope (seq 0 (length names)))) as HLen by (rewrite map_length, seq_length; reflexivity).
    pose proof (entry_lookup E xs r HR HC HK HA HP _ _ H1) as HOn.
    assert (name_place r $"/" = root_name_at (r_schema r)) as NR by (unfold name_place; rewrite HOn; destruct (r_schema r); reflexivity).
    assert (forall i, name_place r (output_scope i) = output_name_at (r_schema r) i) as NO.
    { intros i. unfold name_place, output_name_at. rewrite HOn. destruct (list_eq_dec ascii_dec (output_scope i) $"/") as [Q|Q]; [discriminate Q|]. destruct (r_schema r); reflexivity. }
    pose proof (fun d => proj1 (read_entries E xs r HR HC HK HA HP _ _ H1) _ d H2) as G.
    split; [rewrite outputs_lookup, HOn; reflexivity|]. split; [|split].
    + unfold get_package_paths. rewrite G. cbn [bind json_len map snd]. rewrite combine_snd by exact HLen. rewrite H3. reflexivity.
    + apply c50_names. exists (JList l), (length l). split; [exact (G _)|]. split; [reflexivity|]. split; [cbn [map snd]; rewrite combine_snd, H3 by exact HLen; f_equal; apply map_ext; intros i; symmetry; exact (Hf i)|]. split.
      * constructor; [cbn [fst snd]; rewrite NR; exact (name_there _ _ _ H4)|].
        assert (Forall2 (fun kv (_ : prim) => get_value E (r_root r) (name_place r (snd kv)) None (Some (r_schema r, r_vars r)) = Ok (JP (fst kv))) (combine (map (fun x => x) names) (map output_scope (seq 0 (length names)))) names) as F2.
        { apply (outputs_numbered (fun i o => named E (r_schema r) xs (r_vars r) (output_name_at (r_schema r) i) o) output_scope _ (fun x => x)).
          - intros i o Ho. cbn [fst snd]. rewrite NO. exact (name_there _ _ _ Ho).
          - intros i name Ho. cbn [Nat.add]. exact (H5 i name Ho). }
        rewrite map_id in F2. clear - F2. induction F2; constructor; auto.
      * apply (pairs_fst (fun a b => prim_eqb a b = false)). cbn [map fst]. rewrite combine_fst by exact HLen. exact H6.
    + intros root' [[= <-]|HI]; [apply recipe_named; rewrite NR; exact (name_there _ _ _ H4)|]. apply in_combine_r in HI. apply in_map_iff in HI as (i & Q & _). discriminate Q.
Qed.
End Tree.

Lemma c152 E xs vars outputs tbl : canonical_recipe E xs vars -> no_slash_key xs -> addressable_document (document xs) = true -> packages_listed E SV0 xs vars outputs tbl ->
  exists r, new_recipe E (join NLs (recipe_page xs vars)) = Ok r /\ packages_answered E r outputs tbl.
Proof.
  intros HC HK HA HD. eexists. split; [exact (read_back E xs vars HC)|]. destruct HC as (((HC & _) & HP & _) & _). apply (packages_there E xs); auto.
Qed.
Lemma c152_new E xs vars outputs tbl : new_file E xs vars -> no_slash_key xs -> addressable_document (document xs) = true -> packages_listed E SV1 xs vars outputs tbl ->
  exists r, new_recipe E (join NLs (page xs)) = Ok r /\ packages_answered E r outputs tbl.
Proof.
  intros HC HK HA HD. eexists. split; [exact (new_read_back E xs vars HC)|]. destruct HC as (((HC & _) & HP & _) & _). apply (packages_there E xs); auto.
Qed.
Lemma c152_session E MS acts xs vars xs' vars' outputs tbl : canonical_recipe E xs vars -> canonical_recipe E xs' vars' -> no_slash_key xs' -> addressable_document (document xs') = true ->
  acted_in_turn E MS SV0 acts xs vars xs' vars' -> packages_listed E SV0 xs' vars' outputs tbl ->
  exists r, new_recipe E (join NLs (recipe_page xs vars)) = Ok r /\ packages_answered E (session E MS acts r) outputs tbl.
Proof.
  intros HC HC' HK HX HA HD. eexists. split; [exact (read_back E xs vars HC)|]. set (r0 := {| r_init := _ |}).
  destruct (act_all E MS SV0 acts xs vars xs' vars' HA r0 eq_refl eq_refl eq_refl) as (_ & H2 & H3 & H4). destruct HC' as (((HC' & _) & HP & _) & _).
  apply (packages_there E xs'); auto. rewrite H3, H4. exact HD.
Qed.
