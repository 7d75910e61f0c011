(** Proofs about the section upgrades: tests, outputs, and all sections together. *)
From Verif Require Export SectionProofs3.
From Verif Require Import SectionSpec.

Lemma text_eqb x v : json_eqb (JStr x) v = true <-> v = JStr x.
Proof.
  destruct v as [[| | | |s]|l|d]; cbn; split; try discriminate; intros H.
  - apply str_eqb_eq in H. congruence.
  - injection H as ->. apply str_eqb_refl.
Qed.
Lemma json_in_mentions x v b : json_in x v = Ok b -> (b = true <-> mentions x v).
Proof.
  destruct v as [[| | | |s]|l|d]; cbn [json_in mentions]; intros [= <-].
  - apply contains_sub_spec.
  - rewrite existsb_exists. split; [intros (u & H1 & H2); apply text_eqb in H2; subst; exact H1|intros H; exists (JStr x); split; [exact H|exact (proj2 (text_eqb x (JStr x)) eq_refl)]].
  - destruct (assoc_prim (PStr x) d) as [u|] eqn:A; cbn [is_some].
    + split; auto. intros _. exists u. apply assoc_in, A.
    + split; [discriminate|]. intros (u & Hu). apply assoc_not_in in A. exfalso. apply A. apply (in_map fst) in Hu. exact Hu.
Qed.
Lemma mem_checks s : mem_str s pip_check_variants = true <-> checks_pip (JStr s).
Proof.
  rewrite mem_str_In. unfold pip_check_variants, checks_pip. cbn [In]. split; [intuition congruence|].
  intros [H|[H|H]]; injection H as ->; auto.
Qed.
Lemma find_pip l : forall i, match find_pip_check i l with
  | Some j => exists before v rest, l = before ++ v :: rest /\ Forall (fun u => ~ checks_pip u) before /\ checks_pip v /\ j = i + length before
  | None => Forall (fun u => ~ checks_pip u) l
  end.
Proof.
  induction l as [|x l IH]; intros i; cbn [find_pip_check]; [constructor|].
  assert (~ checks_pip x -> match find_pip_check (S i) l with
    | Some j => exists before v rest, x :: l = before ++ v :: rest /\ Forall (fun u => ~ checks_pip u) before /\ checks_pip v /\ j = i + length before
    | None => Forall (fun u => ~ checks_pip u) (x :: l) end) as G.
  { intros N. specialize (IH (S i)). destruct (find_pip_check (S i) l); [|constructor; auto].
    destruct IH as (b & v & rest & -> & Hb & Hv & ->). exists (x :: b), v, rest. split; [reflexivity|]. split; [constructor; auto|]. split; auto. cbn [length]. lia. }
  destruct x as [[| | | |s]|l'|d]; try (apply G; unfold checks_pip; intuition discriminate).
  destruct (mem_str s pip_check_variants) eqn:M.
  - exists [], (JStr s), l. split; [reflexivity|]. split; [constructor|]. split; [apply mem_checks, M|cbn [length]; lia].
  - apply G. intros K. apply mem_checks in K. congruence.
Qed.
Lemma find_first l : first_check l (find_pip_check 0 l).
Proof.
  pose proof (find_pip l 0) as H. destruct (find_pip_check 0 l) as [j|]; [|constructor; exact H].
  destruct H as (b & v & rest & -> & Hb & Hv & ->). cbn [Nat.add]. constructor; auto.
Qed.

(** * The tests *)
Lemma take_out_is key d tests : NoDup (map fst d) ->
  take_out key (JDict d, tests) = Ok (JDict (filter (not_key key) d), tests ++ match field key d with Some u => [JDict [(PStr key, u)]] | None => [] end).
Proof.
  intros ND. unfold take_out. cbn [json_in bind]. rewrite field_is. destruct (assoc_prim (PStr key) d) as [u|] eqn:A; cbn [is_some].
  - rewrite (pdel_filter key d ND). reflexivity.
  - apply assoc_not_in in A. rewrite (no_key_filter key d A), app_nil_r. reflexivity.
Qed.
Lemma field_filter a b d : a <> b -> field a (filter (not_key b) d) = field a d.
Proof.
  intros N. rewrite !field_is. induction d as [|[k v] d IH]; [reflexivity|]. cbn [filter]. destruct (not_key b (k, v)) eqn:K; cbn [assoc_prim].
  - rewrite IH. reflexivity.
  - rewrite IH. destruct (prim_eqb (PStr a) k) eqn:Q; [|reflexivity]. apply prim_eqb_str_l in Q as ->. exfalso.
    unfold not_key in K. cbn [fst prim_eqb] in K. apply negb_false_iff, str_eqb_eq in K. congruence.
Qed.
Lemma distinct_nodup d : distinct_keys d = true -> NoDup (map fst d).
Proof.
  induction d as [|[k v] d IH]; cbn [distinct_keys map fst]; [constructor|]. intros H. apply andb_true_iff in H as (H1 & H2).
  constructor; [|exact (IH H2)]. intros I. apply negb_true_iff in H1. assert (existsb (fun kv => prim_eqb (fst kv) k) d = true); [|congruence].
  apply in_map_iff in I as ((k' & u) & <- & I). apply existsb_exists. exists (k', u). split; [exact I|apply prim_eqb_refl].
Qed.
Lemma split_dict d : NoDup (map fst d) -> split_tests (JDict d) = Ok
  (let one k := match field k d with Some u => [JDict [(PStr k, u)]] | None => [] end in
   one $"python" ++ one $"downstream" ++ (match filter ordinary d with [] => [] | rest => [JDict rest] end)).
Proof.
  intros ND. unfold split_tests. rewrite (take_out_is $"python" d [] ND). cbn [bind app].
  rewrite (take_out_is $"downstream" _ _ (nodup_filter_keys _ d ND)). cbn [bind fst snd].
  rewrite (field_filter $"downstream" $"python" d) by discriminate. rewrite filter_filter.
  change (filter (fun x => not_key $"python" x && not_key $"downstream" x) d) with (filter ConvertProofs7.plain d). rewrite plain_ordinary.
  cbn [json_truthy]. cbv zeta. rewrite app_assoc. destruct (filter ordinary d) as [|x rest]; cbn [is_nil negb]; rewrite <- ?app_assoc, ?app_nil_r; reflexivity.
Qed.
Lemma in_searchable x v : searchable v -> exists b, json_in x v = Ok b.
Proof. destruct v as [[| | | |s]|l|d]; cbn [searchable json_in]; intros []; eauto. Qed.
Lemma searchable_in x v b : json_in x v = Ok b -> searchable v.
Proof. destruct v as [[| | | |s]|l|d]; cbn [searchable json_in]; try discriminate; auto. Qed.
Lemma split_other v tests : (forall d, v <> JDict d) -> (split_tests v = Ok tests <->
  searchable v /\ ~ mentions $"python" v /\ ~ mentions $"downstream" v /\ tests = if json_truthy v then [v] else []).
Proof.
  intros ND.
  assert (forall key b, json_in key v = Ok b -> take_out key (v, []) = if b then Err EType else Ok (v, [])) as TK.
  { intros key b H. unfold take_out. rewrite H. cbn [bind]. destruct b; [|reflexivity]. destruct v as [[| | | |s]|l|d]; try reflexivity. destruct (ND d eq_refl). }
  split.
  - unfold split_tests. intros H. destruct (json_in $"python" v) as [b1|e] eqn:J1.
    2:{ unfold take_out in H at 1. rewrite J1 in H. discriminate. }
    rewrite (TK _ _ J1) in H. destruct b1; [discriminate|]. cbn [bind] in H. destruct (json_in $"downstream" v) as [b2|e] eqn:J2.
    2:{ unfold take_out in H at 1. rewrite J2 in H. discriminate. }
    rewrite (TK _ _ J2) in H. destruct b2; [discriminate|]. cbn [bind fst snd app] in H. injection H as <-.
    split; [exact (searchable_in _ _ _ J1)|]. apply json_in_mentions in J1, J2. split; [intros K; apply J1 in K; discriminate|].
    split; [intros K; apply J2 in K; discriminate|]. reflexivity.
  - intros (S & N1 & N2 & ->). unfold split_tests. destruct (in_searchable $"python" v S) as (b1 & J1). destruct (in_searchable $"downstream" v S) as (b2 & J2).
    rewrite (TK _ _ J1). destruct b1; [exfalso; apply N1; apply (json_in_mentions _ _ _ J1); reflexivity|]. cbn [bind].
    rewrite (TK _ _ J2). destruct b2; [exfalso; apply N2; apply (json_in_mentions _ _ _ J2); reflexivity|]. cbn [bind fst snd]. reflexivity.
Qed.
Lemma split_tests_are v tests : proper_value v = true -> (split_tests v = Ok tests <-> tests_of v tests).
Proof.
  intros PV. destruct v as [p|l|d]; [apply split_other; discriminate|apply split_other; discriminate|].
  cbn [proper_value] in PV. apply andb_true_iff in PV as (PV & _). rewrite (split_dict d (distinct_nodup d PV)). unfold tests_of. split; [intros [= <-]; reflexivity|intros ->; reflexivity].
Qed.
Lemma get_value_proper E root path d v : reads_proper E -> proper_tree root = true -> match d with Some u => proper_value u | None => true end = true ->
  get_value E root path d None = Ok v -> proper_value v = true.
Proof.
  intros HE HP HD. unfold get_value. destruct (str_to_stack_path path) as [st|]; [|discriminate]. cbn [bind]. unfold traverse.
  destruct (traverse_pos root st) as [q|]; [destruct (node_at root q) as [n|] eqn:Hn|]; try (destruct d; [intros [= <-]; exact HD|discriminate]).
  pose proof (proper_at _ _ _ HP Hn) as Pn. unfold get_value_node. cbv zeta.
  assert (forall c, In c (n_children n) -> match n_value c with VSent => true | VJ j => proper_value j end = true) as PC.
  { intros c I. pose proof (proper_children _ Pn) as PC. rewrite forallb_forall in PC. specialize (PC c I). destruct c as [x ? ? ? ? ?]. cbn [proper_tree] in PC.
    apply andb_true_iff in PC as (PC & _). exact PC. }
  assert (match n_value n with VSent => true | VJ j => proper_value j end = true) as PV.
  { destruct n as [x ? ? ? ? ?]. cbn [proper_tree] in Pn. apply andb_true_iff in Pn as (Pn & _). exact Pn. }
  assert (forall t, yres_to_res (yload E t) = Ok v -> proper_value v = true) as PY.
  { intros t. destruct (yload E t) as [j| |] eqn:Y; cbn [yres_to_res]; try discriminate. intros [= <-]. exact (HE _ _ Y). }
  destruct (if is_single_key n && negb (is_root n) then match n_children n with c :: _ => Some c | [] => None end else None) as [c|] eqn:SG.
  - assert (In c (n_children n)) as IC. { destruct (is_single_key n && negb (is_root n)); [|discriminate]. destruct (n_children n); [discriminate|]. injection SG as ->. left. reflexivity. }
    destruct (is_multi (n_ml c)).
    + destruct (normalize_multiline (n_value c) (n_ml c)) as [t|]; [|discriminate]. cbn [bind]. apply PY.
    + specialize (PC c IC). destruct (n_value c) as [|[[| | | |s]|l|dd]]; try (intros [= <-]; first [exact PC|reflexivity]).
      destruct (parse_yaml E s None) as [u|] eqn:Y; [|discriminate]. cbn [bind]. pose proof (parse_yaml_proper E s u HE Y) as PU.
      destruct u as [p|l|dd]; [destruct (n_lmf c)| |destruct (n_lmf c)]; intros [= <-]; try exact PU; cbn [proper_value forallb] in *; rewrite PU; reflexivity.
  - assert (forall s, (let! u := parse_yaml E s None in match u, n_children n with JList _, _ => Ok u | _, [c] => if n_lmf c then Ok (JList [u]) else Ok u | _, _ => Ok u end) = Ok v -> proper_value v = true) as PT.
    { intros s. destruct (parse_yaml E s None) as [u|] eqn:Y; [|discriminate]. cbn [bind]. pose proof (parse_yaml_proper E s u HE Y) as PU.
      destruct u as [p|l|dd]; [| intros [= <-]; exact PU|]; (destruct (n_children n) as [|c [|c' l']]; [| destruct (n_lmf c)|]); intros [= <-]; try exact PU;
      cbn [proper_value forallb] in *; rewrite PU; reflexivity. }
    destruct (is_leaf n); [|apply PT]. destruct (n_value n) as [|[[| | | |s]|l|dd]]; try (intros [= <-]; first [exact PV|reflexivity]). apply PT.
Qed.

Section Sections.
Context (T : tools).
Let E := t_env T.
Hypothesis HE : reads_proper E.
Lemma regroup m A B C : doesu m (A >> B >> C) -> doesu m ((A >> B) >> C).
Proof. apply does_impl. intros a w w' (m1 & H1 & m2 & H2 & H3). exists m2. split; [|exact H3]. exists m1. split; [exact H1|exact H2]. Qed.
Lemma just_patch p R : does (patch_and_log T p) (fun b w w' => b = true /\ in_lines R w w') -> does (patch_and_log T p) (fun _ => in_lines R).
Proof. apply does_impl. intros a w w' (_ & H). exact H. Qed.
Lemma removed cs c : does (patch_and_log T (p_remove (path_text (cs ++ [c])))) (fun _ => in_lines (line_taken (cs ++ [c]))).
Proof. apply just_patch, does_remove, HE. Qed.
Lemma added cs c v : Forall component (cs ++ [c]) -> isdigit c = false -> str_eqb c $"-" = false ->
  does (patch_and_log T (p_add (path_text (cs ++ [c])) v)) (fun _ => in_lines (value_put E cs c v)).
Proof. intros HC D N. apply just_patch, does_add; [exact HE|exact HC|exact D|apply str_eqb_neq, N]. Qed.
Lemma seq_all {X} (m : conv X) (k : conv unit) A B : does m (fun _ => A) -> doesu k B -> doesu (do! m in k) (A >> B).
Proof. intros H1 H2. apply (does_seq m k A (fun _ => B) H1 H2). Qed.
Lemma done_after {X} (m : conv X) A : does m (fun _ => A) -> doesu (do! m in ret tt) A.
Proof. intros H. eapply does_impl; [|apply (seq_all m (ret tt) A nothing H does_done)]. intros a w w' (mid & H1 & ->). exact H1. Qed.
Lemma with_read_proper p d (A A' : json -> change) k : match d with Some u => proper_value u | None => true end = true ->
  (forall v, proper_value v = true -> forall w w', A v w w' -> A' v w w') -> (forall v, doesu (k v) (A v)) ->
  doesu (run! v := value T p d in k v) (fun w w' => exists v, get_value E (fst w) p d None = Ok v /\ A' v w w').
Proof.
  intros PD HI HK s o s' H. unfold andthen in H. destruct (value T p d s) as [[v|e] s1] eqn:V.
  - unfold value, ask in V. fold E in V. injection V as V <-. destruct (HK v s o s' H) as (G & K). split; [exact G|]. intros a Ha He Hp.
    destruct (K a Ha He Hp) as (K1 & K2). split; [|exact K2]. exists v. split; [exact V|]. apply HI; [|exact K1].
    exact (get_value_proper E _ _ _ _ HE Hp PD V).
  - unfold value, ask in V. fold E in V. injection V as V <-. injection H as <- <-. split; [exists []; rewrite app_nil_r; reflexivity|intros; discriminate].
Qed.
Lemma pip bs : Forall component bs -> doesu (upgrade_test_pip_check T (base_text bs) (path_text (bs ++ [$"test"]))) (pip_check_found E bs (bs ++ [$"test"])).
Proof.
  intros HB. unfold upgrade_test_pip_check, pip_check_found. cbv zeta.
  assert (Forall component (bs ++ [$"test"])) as HT by (apply below_comps; [exact HB|side]).
  set (test := bs ++ [$"test"]) in *.
  rewrite (path_of bs _ $"/requirements/host" [$"requirements"] $"host") by (auto using base_text_of; side).
  rewrite (below test _ $"/commands" $"commands"), (below test _ $"/requirements" $"requirements") by (auto using base_of_path; side).
  rewrite (path_of test _ $"/python/pip_check" [$"python"] $"pip_check") by (auto using base_of_path; side).
  rewrite <- app_assoc. cbn [app]. apply with_read. intros host.
  eapply does_impl; [|apply (does_bind _ _ _ (fun (x : bool) (_ : unit) => if x then
     (with_value E (test ++ [$"commands"]) (Some (JList [])) (fun v w w' => exists items hit, walked v items /\ first_check items hit
       /\ (match hit with
           | Some i =>
               in_lines (line_taken (test ++ [$"commands"; str_of_nat i]))
               >> (if length items =? 1
                   then in_lines (line_taken (test ++ [$"commands"]))
                        >> if_there (test ++ [$"requirements"]) (in_lines (line_taken (test ++ [$"requirements"])))
                   else nothing)
           | None => nothing
           end
           >> created E test $"python"
           >> in_lines (value_put E (test ++ [$"python"]) $"pip_check" (JBool (is_some hit)))) w w')) else nothing) (does_pure (json_in $"python" host)))].
  { intros a w w' (x & mid & (H1 & ->) & H2). split; [exact (searchable_in _ _ _ H1)|]. apply json_in_mentions in H1. destruct x; [left; split; [apply H1; reflexivity|exact H2]|right; split; [intros P; apply H1 in P; discriminate|exact H2]]. }
  intros [|]; [|apply does_done]. apply with_read. intros v.
  eapply does_impl; [|apply (does_bind _ _ _ (fun items (_ : unit) => match find_pip_check 0 items with
           | Some i =>
               in_lines (line_taken (test ++ [$"commands"; str_of_nat i]))
               >> (if length items =? 1
                   then in_lines (line_taken (test ++ [$"commands"]))
                        >> if_there (test ++ [$"requirements"]) (in_lines (line_taken (test ++ [$"requirements"])))
                   else nothing)
           | None => nothing
           end
           >> created E test $"python"
           >> in_lines (value_put E (test ++ [$"python"]) $"pip_check" (JBool (is_some (find_pip_check 0 items))))) (does_pure (json_iter v)))].
  { intros a w w' (items & mid & (H1 & ->) & H2). exists items, (find_pip_check 0 items). split; [apply json_iter_walked, H1|]. split; [apply find_first|exact H2]. }
  intros items. set (hit := find_pip_check 0 items). clearbody hit.
  assert (forall x, doesu (do! patch_add_missing_path T (path_text test) $"/python" JNull in
      do! patch_and_log T (p_add (path_text ((test ++ [$"python"]) ++ [$"pip_check"])) x) in ret tt)
    (created E test $"python" >> in_lines (value_put E (test ++ [$"python"]) $"pip_check" x))) as G.
  { intros x. apply seq_is; [apply helper_add; [exact HE|exact HT|apply base_of_path|side..]|]. apply done_after, added; [|side|side].
    apply (comps test [$"python"] $"pip_check" HT); side. }
  destruct hit as [i|]; cbn [is_some andb].
  - assert (forall m B k C, doesu m B -> doesu k C -> doesu (do! (do! patch_and_log T (p_remove (append_to_path (path_text (test ++ [$"commands"])) ($"/" ++ str_of_nat i))) in ret tt) in do! m in k)
        ((in_lines (line_taken (test ++ [$"commands"; str_of_nat i])) >> B) >> C)) as G2.
    { intros m B k C Hm Hk. apply does_impl with (R := fun _ => in_lines (line_taken (test ++ [$"commands"; str_of_nat i])) >> B >> C); [|apply seq_is; [|apply seq_is; [exact Hm|exact Hk]]].
      - intros a w w' (m1 & H1 & m2 & H2 & H3). exists m2. split; [|exact H3]. exists m1. split; [exact H1|exact H2].
      - assert (Forall component (test ++ [$"commands"])) as HC by (apply below_comps; [exact HT|side]).
        rewrite (below (test ++ [$"commands"]) _ ($"/" ++ str_of_nat i) (str_of_nat i));
          [|exact HC|apply base_of_path|cbn [forallb]; rewrite number_ok; reflexivity|left; cbn [path_text]; rewrite app_nil_r; reflexivity].
        replace (test ++ [$"commands"; str_of_nat i]) with ((test ++ [$"commands"]) ++ [str_of_nat i]) by (rewrite <- app_assoc; reflexivity).
        apply done_after, removed. }
    apply G2; [|apply G]. destruct (length items =? 1); [|apply does_done].
    apply seq_all; [apply removed|]. apply (if_has test $"requirements"); [apply below_comps; [exact HT|side]|]. apply done_after, removed.
  - apply does_impl with (R := fun _ => nothing >> nothing >> created E test $"python" >> in_lines (value_put E (test ++ [$"python"]) $"pip_check" (JBool false)));
      [|apply seq_is; [apply does_done|apply seq_is; [apply does_done|apply G]]].
    intros a w w' (m1 & -> & m2 & -> & H3). exists w. split; [reflexivity|exact H3].
Qed.
Lemma path_plus_s bs : path_text (bs ++ [$"test"]) ++ $"s" = path_text (bs ++ [$"tests"]).
Proof. induction bs as [|b bs IH]; [reflexivity|]. cbn [app path_text]. rewrite <- IH. rewrite <- ?app_assoc. cbn [app]. rewrite <- ?app_assoc. reflexivity. Qed.
Lemma tests bases : Forall (Forall component) bases -> doesu (upgrade_test_section T (map base_text bases)) (for_each (tests_upgraded E) bases).
Proof.
  intros HBS. unfold upgrade_test_section. apply for_bases; [exact HBS|]. intros bs HB. cbv zeta. unfold tests_upgraded. cbv zeta.
  rewrite (below bs (base_text bs) $"/test" $"test") by (auto using base_text_of; side). rewrite path_plus_s.
  assert (Forall component (bs ++ [$"test"])) as HT by (apply below_comps; [exact HB|side]).
  pose proof (pip bs HB) as HPIP.
  apply (if_has bs $"test"); [exact HT|].
  set (test := bs ++ [$"test"]) in *.
  rewrite (below test _ $"/files" $"files"), (below test _ $"/source_files" $"source_files"), (below test _ $"/requires" $"requires"),
    (below test _ $"/imports" $"imports"), (below test _ $"/python" $"python") by (auto using base_of_path; side).
  assert (Forall component (test ++ [$"files"])) as HF by (apply below_comps; [exact HT|side]).
  rewrite (below (test ++ [$"files"]) _ $"/recipe" $"recipe") by (auto using base_of_path; side).
  assert (forall m A k B k' C, doesu m A -> doesu k B -> doesu k' C ->
    doesu (run! x := has (path_text (test ++ [$"files"])) in do! (if x : bool then m else k) in k') (if_else_there (test ++ [$"files"]) A B >> C)) as G.
  { intros m A k B k' C Hm Hk Hk'. eapply does_impl; [|apply (does_bind _ _ _ (fun (x : bool) (_ : unit) => (if x then A else B) >> C) (does_has test $"files" HF))].
    - intros a w w' (x & mid & (-> & Hb) & m1 & H1 & H2). exists m1. split; [|exact H2].
      destruct x; [left; split; [apply Hb; reflexivity|exact H1]|right; split; [intros P; apply Hb in P; discriminate|exact H1]].
    - intros [|]; apply seq_is; auto. }
  unfold files_nested, nest at 1. cbv zeta. apply regroup. apply G.
  - apply with_read. intros v. apply seq_all; [apply removed|]. apply seq_all; [apply added; [exact HF|side|side]|].
    apply done_after, added; [apply below_comps; [exact HF|side]|side|side].
  - apply (if_has test $"source_files"); [apply below_comps; [exact HT|side]|]. apply helper_add; [exact HE|exact HT|apply base_of_path|side..].
  - apply seq_is; [apply (helper_move T HE test _ HT (base_of_path _) $"/source_files" $"source_files" [$"files"] $"source"); side|].
    apply regroup. apply has_then; [apply below_comps; [exact HT|side]|apply helper_add; [exact HE|exact HT|apply base_of_path|side..]|
      apply seq_is; [apply (helper_move T HE test _ HT (base_of_path _) $"/requires" $"requires" [$"requirements"] $"run"); side|]].
    apply seq_is; [exact HPIP|].
    apply seq_is; [apply helper_rename; [exact HE|exact HT|apply base_of_path|side..]|].
    apply has_then; [apply below_comps; [exact HT|side]| |].
    { apply seq_is; [apply helper_add; [exact HE|exact HT|apply base_of_path|side..]|].
      apply (helper_move T HE test _ HT (base_of_path _) $"/imports" $"imports" [$"python"] $"imports"); side. }
    apply seq_is; [apply helper_rename; [exact HE|exact HT|apply base_of_path|side..]|].
    apply seq_is; [apply (does_sort test $"python" V1_PYTHON_TEST_SORT); [apply below_comps; [exact HT|side]|repeat constructor|repeat constructor]|].
    apply (with_read_proper (path_text test) None (fun v w w' => exists tests, split_tests v = Ok tests /\
       (in_lines (value_put E bs $"tests" (JList tests)) >> in_lines (line_taken test)) w w')); [reflexivity| |].
    { intros v PV w w' (ts & H1 & H2). exists ts. split; [apply split_tests_are; [exact PV|exact H1]|exact H2]. }
    intros v.
    eapply does_impl; [|apply (does_bind _ _ _ (fun ts (_ : unit) => in_lines (value_put E bs $"tests" (JList ts)) >> in_lines (line_taken test)) (does_pure (split_tests v)))].
    { intros a w w' (ts & mid & (H1 & ->) & H2). exists ts. split; [exact H1|exact H2]. }
    intros ts. apply seq_all; [apply added; [apply below_comps; [exact HB|side]|side|side]|]. apply done_after. apply (removed bs $"test").
Qed.

(** * Outputs *)
Lemma output_one out : Forall component out -> out <> [] -> doesu
  (run! has_name := has (append_to_path (path_text out) $"/name") in
   run! has_version := (if has_name : bool then ret true else has (append_to_path (path_text out) $"/version")) in
   do! when has_version (patch_add_missing_path T (path_text out) $"/package" JNull) in
   do! patch_move_base_path T (path_text out) $"/name" $"/package/name" in
   do! patch_move_base_path T (path_text out) $"/version" $"/package/version" in
   sort_keys (path_text out) TOP_LEVEL_SORT) (output_upgraded E out).
Proof.
  intros HO HN. unfold output_upgraded.
  rewrite (below out _ $"/name" $"name"), (below out _ $"/version" $"version") by (auto using base_of_path; side).
  assert (Forall component (out ++ [$"name"])) as C1 by (apply below_comps; [exact HO|side]).
  assert (Forall component (out ++ [$"version"])) as C2 by (apply below_comps; [exact HO|side]).
  match goal with |- does _ (fun _ => ?A >> ?B) => set (REST := B) end.
  eapply does_impl; [|apply (does_bind _ _ _ (fun (x : bool) (_ : unit) w w' => 
     (if x then created E out $"package" >> REST else if_there (out ++ [$"version"]) (created E out $"package") >> REST) w w') (does_has out $"name" C1))].
  { intros a w w' (x & mid & (-> & Hb) & H). destruct x.
    - destruct H as (m & H1 & H2). exists m. split; [|exact H2]. left. split; [left; apply Hb; reflexivity|exact H1].
    - destruct H as (m & H1 & H2). exists m. split; [|exact H2]. destruct H1 as [(P & H1)|(P & ->)]; [left|right].
      + split; [right; exact P|exact H1].
      + split; [intros [Q|Q]; [apply Hb in Q; discriminate|contradiction]|reflexivity]. }
  assert (doesu (do! patch_move_base_path T (path_text out) $"/name" $"/package/name" in
   do! patch_move_base_path T (path_text out) $"/version" $"/package/version" in sort_keys (path_text out) TOP_LEVEL_SORT) REST) as HR.
  { unfold REST. apply seq_is; [apply (helper_move T HE out _ HO (base_of_path _) $"/name" $"name" [$"package"] $"name"); side|].
    apply seq_is; [apply (helper_move T HE out _ HO (base_of_path _) $"/version" $"version" [$"package"] $"version"); side|].
    destruct (exists_last HN) as (cs & c & ->). apply (does_sort cs c TOP_LEVEL_SORT HO); repeat constructor. }
  intros [|].
  - eapply does_impl; [|apply (does_bind _ _ _ (fun (x : bool) (_ : unit) => (if x then created E out $"package" else nothing) >> REST) (does_ret true))].
    { intros a w w' (x & mid & (-> & ->) & H). exact H. }
    intros [|]; cbn [when]; apply seq_is; try exact HR; [|apply does_done].
    apply helper_add; [exact HE|exact HO|apply base_of_path|side..].
  - apply has_then; [exact C2| |exact HR]. apply helper_add; [exact HE|exact HO|apply base_of_path|side..].
Qed.
Lemma outputs outs : Forall (Forall component) outs -> Forall (fun o => o <> []) outs ->
  doesu (upgrade_multi_output T (map base_text ([] :: outs))) (outputs_upgraded E outs).
Proof.
  intros HO HN. unfold upgrade_multi_output, outputs_upgraded.
  change $"/outputs" with (path_text ([] ++ [$"outputs"])). change [$"outputs"] with ([] ++ [$"outputs"]) at 2.
  apply (if_has [] $"outputs"); [apply comps_ok; side|].
  apply seq_is; [apply helper_rename; [exact HE|constructor|right; reflexivity|side..]|].
  cbn [map each base_text]. change (str_eqb $"/" ROOT_VALUE) with true. cbv iota.
  eapply does_impl with (R := fun _ => nothing >> all_of (map (output_upgraded E) outs)).
  { intros a w w' (m & -> & H). exact H. }
  apply seq_is; [apply does_done|].
  induction HO as [|o l H1 H2 IH]; cbn [map each all_of]; [apply does_done|]. inversion HN as [|? ? N1 N2]; subst.
  apply seq_is; [|apply IH, N2].
  assert (base_text o = path_text o) as -> by (destruct o; [contradiction|reflexivity]).
  assert (str_eqb (path_text o) ROOT_VALUE = false) as ->.
  { apply str_eqb_neq. intros K. destruct o as [|x o]; [contradiction|]. inversion H1 as [|? ? (Hx & _) _]; subst. destruct x as [|y x]; [contradiction|].
    cbn [path_text app] in K. discriminate K. }
  apply output_one; auto.
Qed.
Lemma outputs_of_ok n : Forall (Forall component) (outputs_of n) /\ Forall (fun o => o <> []) (outputs_of n).
Proof.
  unfold outputs_of. split; apply Forall_forall; intros o Ho; apply in_map_iff in Ho as (i & <- & _); [|discriminate].
  apply comps_ok. cbn [forallb]. rewrite number_ok. reflexivity.
Qed.
Lemma package_paths root bases : get_package_paths E root = Ok bases -> exists v n,
  get_value E root $"/outputs" (Some (JList [])) None = Ok v /\ json_len v = Ok n /\ bases = map base_text ([] :: outputs_of n).
Proof.
  unfold get_package_paths. destruct (get_value E root $"/outputs" (Some (JList [])) None) as [v|] eqn:G; [|discriminate]. cbn [bind].
  destruct (json_len v) as [n|] eqn:L; [|discriminate]. cbn [bind]. intros [= <-]. exists v, n. split; [reflexivity|]. split; [exact L|].
  cbn [map base_text]. f_equal. unfold outputs_of. rewrite map_map. apply map_ext. intros i. cbn [base_text path_text]. rewrite app_nil_r. reflexivity.
Qed.
Definition section_upgrades (bases : list str) : conv unit :=
  do! correct_common_misspellings T bases in
  do! upgrade_source_section T bases in
  do! upgrade_build_section T bases in
  do! upgrade_requirements_section T bases in
  do! upgrade_about_section T bases in
  do! upgrade_test_section T bases in
  upgrade_multi_output T bases.
Lemma sections n : doesu (section_upgrades (map base_text ([] :: outputs_of n))) (sections_upgraded E (closest_license T) (outputs_of n)).
Proof.
  destruct (outputs_of_ok n) as (H1 & H2).
  assert (Forall (Forall component) ([] :: outputs_of n)) as H by (constructor; [constructor|exact H1]).
  unfold section_upgrades, sections_upgraded. cbv zeta.
  apply seq_is; [apply misspellings; auto|]. apply seq_is; [apply SectionProofs2.sources; auto|]. apply seq_is; [apply SectionProofs3.build; auto|].
  apply seq_is; [apply SectionProofs3.requirements; auto|]. apply seq_is; [apply SectionProofs3.about; auto|]. apply seq_is; [apply tests; auto|]. apply outputs; auto.
Qed.

(** * From the beginning *)
Lemma step_proper s s' : step E s s' -> proper_tree (r_root (v1 s)) = true -> proper_tree (r_root (v1 s')) = true.
Proof.
  intros H HP. destruct H as [c m t s H|p r' s H|path x r' s H|path tbl root s H]; cbn [v1].
  - exact HP.
  - pose proof (after_proper E (EPatch p) (v1 s) HE HP) as K. cbn [after] in K. rewrite H in K. exact K.
  - pose proof (after_proper E (ERemSel path) (v1 s) HE HP) as K. cbn [after] in K. rewrite H in K. exact K.
  - unfold sort_subtree_keys in H. destruct (str_to_stack_path path) as [st|]; [|discriminate]. cbn [bind] in H.
    destruct (traverse_pos (r_root (v1 s)) st) as [q|] eqn:Q; injection H as <-; [|exact HP]. cbn [with_root r_root].
    apply proper_update; [exact HP|]. intros m Hm. cbn [is_nil].
    pose proof (proper_at _ _ _ HP Hm) as Pm. apply proper_set; [exact Pm|]. pose proof (proper_children _ Pm) as Pc.
    rewrite forallb_forall in *. intros x Hx. apply Pc. eapply Permutation_in; [apply Permutation_sym, sort_perm|exact Hx].
Qed.
Lemma steps_proper s ps s' : steps E s ps s' -> proper_tree (r_root (v1 s)) = true -> proper_tree (r_root (v1 s')) = true.
Proof.
  induction 1 as [s|s s1 ps s2 H1 H2 IH|s p s1 ps s2 (H1 & _) H2 IH]; intros HP; auto.
  - apply IH. exact (step_proper _ _ H1 HP).
  - apply IH. pose proof (after_proper E (EPatch p) (v1 s) HE HP) as K. cbn [after] in K. rewrite H1 in K. exact K.
Qed.
Lemma grown {A} (a b c : list A) l k : b = a ++ l -> c = b ++ k -> c = a -> b = a /\ c = b.
Proof.
  intros -> -> H. rewrite <- app_assoc in H. assert (l ++ k = []) as K by (apply (app_inv_head a); rewrite app_nil_r; exact H).
  apply app_eq_nil in K as [-> ->]. rewrite !app_nil_r. auto.
Qed.
Lemma all_upgrades s s' : proper_tree (r_root (v1 s)) = true -> without_errors (upgrades T) s tt s' -> exists s1 s2 v n,
  without_errors (upgrade_selectors_to_conditionals T) s tt s1 /\ without_errors (upgrade_jinja_to_context_obj T) s1 tt s2
  /\ get_value E (r_root (v1 s2)) $"/outputs" (Some (JList [])) None = Ok v /\ json_len v = Ok n
  /\ sections_upgraded E (closest_license T) (outputs_of n) (view s2) (view s') /\ same_but_tree (v1 s2) (v1 s').
Proof.
  intros HP (H & HR).
  change (upgrades T) with (do! upgrade_selectors_to_conditionals T in do! upgrade_jinja_to_context_obj T in
    run! bases := ask (fun r => get_package_paths E (r_root r)) in section_upgrades bases) in H.
  unfold andthen at 1 in H. destruct (upgrade_selectors_to_conditionals T s) as [[[]|e] s1] eqn:S1; [|discriminate].
  unfold andthen at 1 in H. destruct (upgrade_jinja_to_context_obj T s1) as [[[]|e] s2] eqn:S2; [|discriminate].
  unfold andthen at 1 in H. unfold ask at 1 in H. destruct (get_package_paths E (r_root (v1 s2))) as [bases|e] eqn:G; [|discriminate].
  pose proof (walks_selectors T _ _ _ S1) as (ps1 & W1). pose proof (walks_jinja T _ _ _ S2) as (ps2 & W2).
  pose proof (steps_proper _ _ _ W1 HP) as P1. pose proof (steps_proper _ _ _ W2 P1) as P2.
  destruct (steps_grow _ _ _ _ ERROR W1) as (l1 & G1). destruct (steps_grow _ _ _ _ ERROR W2) as (l2 & G2).
  destruct (package_paths _ _ G) as (v & n & Hv & Hn & ->).
  destruct (sections n _ _ _ H) as ((l3 & G3) & K). fold (errors s2) (errors s1) (errors s) (errors s') in *.
  assert (errors s2 = errors s ++ (l1 ++ l2)) as G12 by (rewrite G2, G1, app_assoc; reflexivity).
  destruct (grown _ _ _ _ _ G12 G3 HR) as (Q1 & Q2). destruct (grown _ _ _ _ _ G1 G2 Q1) as (Q3 & Q4).
  destruct (K tt eq_refl Q2 P2) as (K1 & K2 & K3).
  exists s1, s2, v, n. split; [split; [exact S1|exact Q3]|]. split; [split; [exact S2|exact Q4]|]. auto.
Qed.
End Sections.
(** From [does] to the statements. *)
Lemma from_does (m : conv unit) A s s' : doesu m A -> proper_tree (r_root (v1 s)) = true -> without_errors m s tt s' ->
  A (view s) (view s') /\ same_but_tree (v1 s) (v1 s').
Proof. intros H HP (HM & HR). destruct (H _ _ _ HM) as (_ & K). destruct (K tt eq_refl HR HP) as (K1 & _ & K2). auto. Qed.
