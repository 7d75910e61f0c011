(** C135 (proofs only): tests, outputs, and all sections together. *)
From Verif Require Export CanProofs3.
From Verif Require Import Lemmas PatchProofs PatchProofs2 RenderProofs2 RenderProofs4 SectionSpec.

Lemma first_once l a b : first_check l a -> first_check l b -> a = b.
Proof.
  assert (forall l1 v l2, Forall (fun u => ~ checks_pip u) (l1 ++ v :: l2) -> checks_pip v -> False) as No.
  { intros l1 v l2 F C. rewrite Forall_forall in F. apply (F v); [|exact C]. apply in_or_app. right. left. reflexivity. }
  intros HA HB. destruct HA as [b1 v1 a1 F1 C1|l F1]; inversion HB as [b2 v2 a2 F2 C2 EQ|l' F2]; subst; try reflexivity; try (exfalso; eapply No; eauto; fail).
  f_equal. clear HB. revert b2 EQ F2. induction b1 as [|x b1 IH]; intros [|y b2] EQ F2; cbn [app length] in *; try reflexivity; injection EQ as -> EQ.
  - inversion F2; contradiction.
  - inversion F1; contradiction.
  - f_equal. inversion F1; inversion F2; subst. apply IH; auto.
Qed.
Section Sections.
Context (T : tools).
Let E := t_env T.
Hypothesis HE : reads_proper E.
Lemma can_regroup m A B C : canu m (A >> B >> C) -> canu m ((A >> B) >> C).
Proof. apply can_impl. intros a w w' (m2 & (m1 & H1 & H2) & H3). exists m1. split; [exact H1|]. exists m2. split; [exact H2|exact H3]. Qed.
Lemma can_add' cs c v : Forall component (cs ++ [c]) -> isdigit c = false -> str_eqb c $"-" = false ->
  can (patch_and_log T (p_add (path_text (cs ++ [c])) v)) (fun b w w' => b = true /\ in_lines (value_put E cs c v) w w').
Proof. intros HC D N. apply can_add; [exact HE|exact HC|exact D|apply str_eqb_neq, N]. Qed.
Lemma can_read_proper p d (A A' : json -> change) k : match d with Some u => proper_value u | None => true end = true ->
  (forall v, proper_value v = true -> forall w w', A' v w w' -> A v w w') -> (forall v, canu (k v) (A v)) ->
  canu (run! v := value T p d in k v) (fun w w' => exists v, get_value E (fst w) p d None = Ok v /\ A' v w w').
Proof.
  intros PD HI HK s [] w' HP (v & Hv & H). unfold andthen, value, ask. fold E. cbn [fst view] in Hv. rewrite Hv.
  apply (HK v s tt w' HP). apply HI; [|exact H]. exact (get_value_proper E _ _ _ _ HE HP PD Hv).
Qed.
Lemma can_pip bs : Forall component bs -> canu (upgrade_test_pip_check T (base_text bs) (path_text (bs ++ [$"test"]))) (pip_check_found E bs (bs ++ [$"test"])).
Proof.
  intros HB. unfold upgrade_test_pip_check, pip_check_found. cbv zeta.
  assert (Forall component (bs ++ [$"test"])) as HT by (apply below_comps; [exact HB|side]).
  set (test := bs ++ [$"test"]) in *.
  rewrite (path_of bs _ $"/requirements/host" [$"requirements"] $"host") by (auto using base_text_of; side).
  rewrite (below test _ $"/commands" $"commands"), (below test _ $"/requirements" $"requirements") by (auto using base_of_path; side).
  rewrite (path_of test _ $"/python/pip_check" [$"python"] $"pip_check") by (auto using base_of_path; side).
  rewrite <- app_assoc. cbn [app]. apply can_read. intros host.
  eapply can_impl; [|apply (can_bind _ _ _ (fun (x : bool) (_ : unit) => if x then
     (with_value E (test ++ [$"commands"]) (Some (JList [])) (fun v w w' => exists items hit, walked v items /\ first_check items hit
       /\ (match hit with
           | Some i =>
               in_lines (line_taken (test ++ [$"commands"; str_of_nat i]))
               >> (if length items =? 1
                   then in_lines (line_taken (test ++ [$"commands"]))
                        >> if_there (test ++ [$"requirements"]) (in_lines (line_taken (test ++ [$"requirements"])))
                   else nothing)
           | None => nothing
           end
           >> created E test $"python"
           >> in_lines (value_put E (test ++ [$"python"]) $"pip_check" (JBool (is_some hit)))) w w')) else nothing) (can_pure (json_in $"python" host)))].
  { intros a w w' (HS & H). destruct (in_searchable $"python" host HS) as (x & Hx). exists x, w. split; [split; [exact Hx|reflexivity]|].
    apply json_in_mentions in Hx. destruct H as [(P & H)|(P & H)]; destruct x; try exact H; exfalso.
    - apply Hx in P. discriminate.
    - apply P, Hx. reflexivity. }
  intros [|]; [|apply can_done]. apply can_read. intros v.
  eapply can_impl; [|apply (can_bind _ _ _ (fun items (_ : unit) => match find_pip_check 0 items with
           | Some i =>
               in_lines (line_taken (test ++ [$"commands"; str_of_nat i]))
               >> (if length items =? 1
                   then in_lines (line_taken (test ++ [$"commands"]))
                        >> if_there (test ++ [$"requirements"]) (in_lines (line_taken (test ++ [$"requirements"])))
                   else nothing)
           | None => nothing
           end
           >> created E test $"python"
           >> in_lines (value_put E (test ++ [$"python"]) $"pip_check" (JBool (is_some (find_pip_check 0 items))))) (can_pure (json_iter v)))].
  { intros a w w' (items & hit & HW & HF & H). exists items, w. split; [split; [apply walked_iter, HW|reflexivity]|].
    rewrite (first_once _ _ _ (find_first items) HF). exact H. }
  intros items. set (hit := find_pip_check 0 items). clearbody hit.
  assert (forall x, canu (do! patch_add_missing_path T (path_text test) $"/python" JNull in
      do! patch_and_log T (p_add (path_text ((test ++ [$"python"]) ++ [$"pip_check"])) x) in ret tt)
    (created E test $"python" >> in_lines (value_put E (test ++ [$"python"]) $"pip_check" x))) as G.
  { intros x. apply can_unit; [apply can_helper_add; [exact HE|exact HT|apply base_of_path|side..]|]. apply can_only, can_add'; [|side|side].
    apply (comps test [$"python"] $"pip_check" HT); side. }
  destruct hit as [i|]; cbn [is_some andb].
  - assert (forall m B k C, canu m B -> canu k C -> canu (do! (do! patch_and_log T (p_remove (append_to_path (path_text (test ++ [$"commands"])) ($"/" ++ str_of_nat i))) in ret tt) in do! m in k)
        ((in_lines (line_taken (test ++ [$"commands"; str_of_nat i])) >> B) >> C)) as G2.
    { intros m B k C Hm Hk. apply can_regroup. apply can_unit; [|apply can_unit; [exact Hm|exact Hk]].
      assert (Forall component (test ++ [$"commands"])) as HC by (apply below_comps; [exact HT|side]).
      assert (forallb comp_ok [str_of_nat i] = true) as Hi by (cbn [forallb]; rewrite number_ok; reflexivity).
      rewrite (below (test ++ [$"commands"]) _ ($"/" ++ str_of_nat i) (str_of_nat i));
          [|exact HC|apply base_of_path|exact Hi|left; cbn [path_text]; rewrite app_nil_r; reflexivity].
      replace (test ++ [$"commands"; str_of_nat i]) with ((test ++ [$"commands"]) ++ [str_of_nat i]) by (rewrite <- app_assoc; reflexivity).
      apply can_only, can_remove; [exact HE|apply below_comps; auto]. }
    apply G2; [|apply G]. destruct (length items =? 1); [|apply can_done].
    apply flag_seq; [apply can_remove; [exact HE|apply below_comps; [exact HT|side]]|].
    apply (can_if_has test $"requirements"); [apply below_comps; [exact HT|side]|]. apply can_only, can_remove; [exact HE|apply below_comps; [exact HT|side]].
  - apply can_impl with (R := fun _ => nothing >> nothing >> created E test $"python" >> in_lines (value_put E (test ++ [$"python"]) $"pip_check" (JBool false)));
      [|apply can_unit; [apply can_done|apply can_unit; [apply can_done|apply G]]].
    intros a w w' (m1 & -> & H). exists w. split; [reflexivity|]. exists w. split; [reflexivity|exact H].
Qed.
Lemma can_tests bases : Forall (Forall component) bases -> canu (upgrade_test_section T (map base_text bases)) (for_each (tests_upgraded E) bases).
Proof.
  intros HBS. unfold upgrade_test_section. apply can_for_bases; [exact HBS|]. intros bs HB. cbv zeta. unfold tests_upgraded. cbv zeta.
  rewrite (below bs (base_text bs) $"/test" $"test") by (auto using base_text_of; side). rewrite path_plus_s.
  assert (Forall component (bs ++ [$"test"])) as HT by (apply below_comps; [exact HB|side]).
  pose proof (can_pip bs HB) as HPIP.
  apply (can_if_has bs $"test"); [exact HT|].
  set (test := bs ++ [$"test"]) in *.
  rewrite (below test _ $"/files" $"files"), (below test _ $"/source_files" $"source_files"), (below test _ $"/requires" $"requires"),
    (below test _ $"/imports" $"imports"), (below test _ $"/python" $"python") by (auto using base_of_path; side).
  assert (Forall component (test ++ [$"files"])) as HF by (apply below_comps; [exact HT|side]).
  rewrite (below (test ++ [$"files"]) _ $"/recipe" $"recipe") by (auto using base_of_path; side).
  assert (forall m A k B k' C, canu m A -> canu k B -> canu k' C ->
    canu (run! x := has (path_text (test ++ [$"files"])) in do! (if x : bool then m else k) in k') (if_else_there (test ++ [$"files"]) A B >> C)) as G.
  { intros m A k B k' C Hm Hk Hk'. eapply can_impl; [|apply (can_cases test $"files" (fun x : bool => do! (if x then m else k) in k') (A >> C) (B >> C) HF); apply can_unit; auto].
    intros a w w' (mid & [(P & H1)|(P & H1)] & H2); [left|right]; (split; [exact P|]); exists mid; auto. }
  unfold files_nested, nest at 1. cbv zeta. apply can_regroup. apply G.
  - apply can_read. intros v. apply flag_seq; [apply can_remove; [exact HE|exact HF]|]. apply flag_seq; [apply can_add'; [exact HF|side|side]|].
    apply can_only, can_add'; [apply below_comps; [exact HF|side]|side|side].
  - apply (can_if_has test $"source_files"); [apply below_comps; [exact HT|side]|]. apply can_helper_add; [exact HE|exact HT|apply base_of_path|side..].
  - apply can_unit; [apply (can_helper_move T HE test _ HT (base_of_path _) $"/source_files" $"source_files" [$"files"] $"source"); side|].
    apply can_regroup. apply can_has_then; [apply below_comps; [exact HT|side]|apply can_helper_add; [exact HE|exact HT|apply base_of_path|side..]|
      apply can_unit; [apply (can_helper_move T HE test _ HT (base_of_path _) $"/requires" $"requires" [$"requirements"] $"run"); side|]].
    apply can_unit; [exact HPIP|].
    apply can_unit; [apply can_helper_rename; [exact HE|exact HT|apply base_of_path|side..]|].
    apply can_has_then; [apply below_comps; [exact HT|side]| |].
    { apply can_unit; [apply can_helper_add; [exact HE|exact HT|apply base_of_path|side..]|].
      apply (can_helper_move T HE test _ HT (base_of_path _) $"/imports" $"imports" [$"python"] $"imports"); side. }
    apply can_unit; [apply can_helper_rename; [exact HE|exact HT|apply base_of_path|side..]|].
    apply can_unit; [apply (can_sort test $"python" V1_PYTHON_TEST_SORT); [apply below_comps; [exact HT|side]|repeat constructor|repeat constructor]|].
    apply (can_read_proper (path_text test) None (fun v w w' => exists tests, split_tests v = Ok tests /\
       (in_lines (value_put E bs $"tests" (JList tests)) >> in_lines (line_taken test)) w w')); [reflexivity| |].
    { intros v PV w w' (ts & H1 & H2). exists ts. split; [apply split_tests_are; [exact PV|exact H1]|exact H2]. }
    intros v.
    eapply can_impl; [|apply (can_bind _ _ _ (fun ts (_ : unit) => in_lines (value_put E bs $"tests" (JList ts)) >> in_lines (line_taken test)) (can_pure (split_tests v)))].
    { intros a w w' (ts & H1 & H2). exists ts, w. split; [split; [exact H1|reflexivity]|exact H2]. }
    intros ts. apply flag_seq; [apply can_add'; [apply below_comps; [exact HB|side]|side|side]|]. apply can_only. apply (can_remove T HE bs $"test"). exact HT.
Qed.

(** * Outputs *)
Lemma can_output out : Forall component out -> out <> [] -> canu
  (run! has_name := has (append_to_path (path_text out) $"/name") in
   run! has_version := (if has_name : bool then ret true else has (append_to_path (path_text out) $"/version")) in
   do! when has_version (patch_add_missing_path T (path_text out) $"/package" JNull) in
   do! patch_move_base_path T (path_text out) $"/name" $"/package/name" in
   do! patch_move_base_path T (path_text out) $"/version" $"/package/version" in
   sort_keys (path_text out) TOP_LEVEL_SORT) (output_upgraded E out).
Proof.
  intros HO HN. unfold output_upgraded.
  rewrite (below out _ $"/name" $"name"), (below out _ $"/version" $"version") by (auto using base_of_path; side).
  assert (Forall component (out ++ [$"name"])) as C1 by (apply below_comps; [exact HO|side]).
  assert (Forall component (out ++ [$"version"])) as C2 by (apply below_comps; [exact HO|side]).
  match goal with |- can _ (fun _ => ?A >> ?B) => set (REST := B) end.
  assert (canu (do! patch_move_base_path T (path_text out) $"/name" $"/package/name" in
   do! patch_move_base_path T (path_text out) $"/version" $"/package/version" in sort_keys (path_text out) TOP_LEVEL_SORT) REST) as HR.
  { unfold REST. apply can_unit; [apply (can_helper_move T HE out _ HO (base_of_path _) $"/name" $"name" [$"package"] $"name"); side|].
    apply can_unit; [apply (can_helper_move T HE out _ HO (base_of_path _) $"/version" $"version" [$"package"] $"version"); side|].
    destruct (exists_last HN) as (cs & c & ->). apply (can_sort cs c TOP_LEVEL_SORT HO); repeat constructor. }
  eapply can_impl; [|apply (can_cases out $"name" (fun x : bool => run! has_version := (if x then ret true else has (path_text (out ++ [$"version"]))) in
      do! when has_version (patch_add_missing_path T (path_text out) $"/package" JNull) in
      do! patch_move_base_path T (path_text out) $"/name" $"/package/name" in
      do! patch_move_base_path T (path_text out) $"/version" $"/package/version" in sort_keys (path_text out) TOP_LEVEL_SORT)
     (created E out $"package" >> REST) (if_there (out ++ [$"version"]) (created E out $"package") >> REST) C1)].
  - intros a w w' (m & H1 & H2).
    assert (present (fst w) (out ++ [$"name"]) \/ ~ present (fst w) (out ++ [$"name"])) as [P|P].
    { rewrite (present_stack _ out _ C1). destruct (traverse_pos (fst w) _); [left; discriminate|right; auto]. }
    + left. split; [exact P|]. exists m. split; [|exact H2]. destruct H1 as [(Q & H1)|(Q & H1)]; [exact H1|]. exfalso. apply Q. left. exact P.
    + right. split; [exact P|]. exists m. split; [|exact H2]. destruct H1 as [([Q|Q] & H1)|(Q & H1)]; [contradiction| |].
      * left. auto.
      * right. split; [intros V; apply Q; right; exact V|exact H1].
  - eapply can_impl; [|apply (can_bind _ _ _ (fun (x : bool) (_ : unit) => (if x then created E out $"package" else nothing) >> REST) (can_ret true))].
    { intros a w w' H. exists true, w. split; [split; reflexivity|exact H]. }
    intros [|]; cbn [when]; apply can_unit; try exact HR; [|apply can_done].
    apply can_helper_add; [exact HE|exact HO|apply base_of_path|side..].
  - apply can_has_then; [exact C2| |exact HR]. apply can_helper_add; [exact HE|exact HO|apply base_of_path|side..].
Qed.
Lemma can_outputs outs : Forall (Forall component) outs -> Forall (fun o => o <> []) outs ->
  canu (upgrade_multi_output T (map base_text ([] :: outs))) (outputs_upgraded E outs).
Proof.
  intros HO HN. unfold upgrade_multi_output, outputs_upgraded.
  change $"/outputs" with (path_text ([] ++ [$"outputs"])). change [$"outputs"] with ([] ++ [$"outputs"]) at 2.
  apply (can_if_has [] $"outputs"); [apply comps_ok; side|].
  apply can_unit; [apply can_helper_rename; [exact HE|constructor|right; reflexivity|side..]|].
  cbn [map each base_text]. change (str_eqb $"/" ROOT_VALUE) with true. cbv iota.
  eapply can_impl with (R := fun _ => nothing >> all_of (map (output_upgraded E) outs)).
  { intros a w w' H. exists w. split; [reflexivity|exact H]. }
  apply can_unit; [apply can_done|].
  induction HO as [|o l H1 H2 IH]; cbn [map each all_of]; [apply can_done|]. inversion HN as [|? ? N1 N2]; subst.
  apply can_unit; [|apply IH, N2].
  assert (base_text o = path_text o) as -> by (destruct o; [contradiction|reflexivity]).
  assert (str_eqb (path_text o) ROOT_VALUE = false) as ->.
  { apply str_eqb_neq. intros K. destruct o as [|x o]; [contradiction|]. inversion H1 as [|? ? (Hx & _) _]; subst. destruct x as [|y x]; [contradiction|].
    cbn [path_text app] in K. discriminate K. }
  apply can_output; auto.
Qed.
Lemma can_sections n : canu (section_upgrades T (map base_text ([] :: outputs_of n))) (sections_upgraded E (closest_license T) (outputs_of n)).
Proof.
  destruct (outputs_of_ok n) as (H1 & H2).
  assert (Forall (Forall component) ([] :: outputs_of n)) as H by (constructor; [constructor|exact H1]).
  unfold section_upgrades, sections_upgraded. cbv zeta.
  apply can_unit; [apply can_misspellings; auto|]. apply can_unit; [apply can_sources; auto|]. apply can_unit; [apply can_build; auto|].
  apply can_unit; [apply can_requirements; auto|]. apply can_unit; [apply can_about; auto|]. apply can_unit; [apply can_tests; auto|]. apply can_outputs; auto.
Qed.
End Sections.
(** From [can] and [does] to the statements. *)
Lemma exactly (m : conv unit) A s w' : doesu m A -> canu m A -> proper_tree (r_root (v1 s)) = true ->
  ((exists s', without_errors m s tt s' /\ view s' = w') <-> A (view s) w').
Proof.
  intros HD HC HP. split.
  - intros (s' & H & <-). exact (proj1 (from_does m A s s' HD HP H)).
  - intros H. destruct (HC s tt w' HP H) as (s' & M & G & V & _). exists s'. split; [split; [exact M|exact G]|exact V].
Qed.
Lemma once_only (m : conv unit) A s w1 w2 : canu m A -> proper_tree (r_root (v1 s)) = true -> A (view s) w1 -> A (view s) w2 -> w1 = w2.
Proof. intros HC HP H1 H2. destruct (HC s tt w1 HP H1) as (s1 & M1 & _ & <- & _). destruct (HC s tt w2 HP H2) as (s2 & M2 & _ & <- & _). congruence. Qed.
