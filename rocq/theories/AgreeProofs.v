(** Proofs for C151. *)
From Verif Require Import LayoutProofs3 LayoutProofs4 LayoutProofs8 CommentFileProofs NewFileProofs ValueProofs AnswerProofs.
From Verif Require Import DepsProofs.
From Verif Require Export DepPathProofs AgreeSpec.

Lemma listed_numbers MS sv scope package sec section i es ts ds d : section_lists MS sv scope package sec section i es ts ds -> In d ds ->
  exists j, j < i + line_count es /\ d_path d = scope ++ $"/requirements/" ++ sec ++ $"/" ++ str_of_nat j.
Proof.
  intros H. induction H as [i|i c1 es ts ds H IH|i v c1 x es ts ds HE H IH|i v c1 x s d0 es ts ds HE B1 B2 B3 B4 B5 H IH]; intros HI.
  - contradiction.
  - exact (IH HI).
  - destruct (IH HI) as (j & J & P). exists j. split; [|exact P]. unfold line_count in *. cbn [filter length]. lia.
  - destruct HI as [<-|HI].
    + exists i. split; [unfold line_count; cbn [filter length]; lia|exact B2].
    + destruct (IH HI) as (j & J & P). exists j. split; [|exact P]. unfold line_count in *. cbn [filter length]. lia.
Qed.
Lemma required_numbers MS sv scope package es reqs ds d : requirement_lines MS sv scope package es reqs ds -> In d ds ->
  exists sec section c ls j, In (ISection (PStr sec) c ls) es /\ spells sec section /\ j < line_count ls
    /\ d_path d = scope ++ $"/requirements/" ++ sec ++ $"/" ++ str_of_nat j.
Proof.
  intros H. induction H as [|c1 es reqs ds H IH|x k v es reqs ds HX HS H IH|sec section c1 ls ts ds es reqs ds' HS HL H IH]; intros HI.
  - contradiction.
  - destruct (IH HI) as (sec & section & c & ls & j & I1 & R). exists sec, section, c, ls, j. split; [right; exact I1|exact R].
  - destruct (IH HI) as (sec & section & c & ls & j & I1 & R). exists sec, section, c, ls, j. split; [right; exact I1|exact R].
  - apply in_app_or in HI as [HI|HI].
    + destruct (listed_numbers _ _ _ _ _ _ _ _ _ _ _ HL HI) as (j & J & P). exists sec, section, c1, ls, j. split; [left; reflexivity|auto].
    + destruct (IH HI) as (sec' & section' & c & ls' & j & I1 & R). exists sec', section', c, ls', j. split; [right; exact I1|exact R].
Qed.
Lemma each_line MS sv scope package sec section i es ts ds : section_lists MS sv scope package sec section i es ts ds -> forall j, j < line_count es ->
  (exists d, In d ds /\ d_path d = scope ++ $"/requirements/" ++ sec ++ $"/" ++ str_of_nat (i + j)) \/ exists x, nth_error ts j = Some x /\ empty_entry x.
Proof.
  induction 1 as [i|i c1 es ts ds H IH|i v c1 x es ts ds HE H IH|i v c1 x s d0 es ts ds HE B1 B2 B3 B4 B5 H IH]; intros j HJ.
  - cbn [line_count filter length] in HJ. lia.
  - exact (IH j HJ).
  - destruct j as [|j]; [right; exists x; auto|]. unfold line_count in HJ. cbn [filter length] in HJ.
    destruct (IH j) as [(d & I1 & P)|(y & P)]; [unfold line_count; lia| |]; [left; exists d; rewrite Nat.add_succ_r; auto|right; exists y; auto].
  - destruct j as [|j]; [left; exists d0; rewrite Nat.add_0_r; split; [left; reflexivity|exact B2]|]. unfold line_count in HJ. cbn [filter length] in HJ.
    destruct (IH j) as [(d & I1 & P)|(y & P)]; [unfold line_count; lia| |]; [left; exists d; rewrite Nat.add_succ_r; split; [right; exact I1|exact P]|right; exists y; auto].
Qed.
Lemma section_there MS sv scope package es reqs ds sec section : requirement_lines MS sv scope package es reqs ds -> spells sec section ->
  no_entry sec es \/ exists section' c ls ts ds', In (ISection (PStr sec) c ls) es /\ section_lists MS sv scope package sec section' 0 ls ts ds'
    /\ incl ds' ds /\ In (PStr sec, JList ts) reqs.
Proof.
  intros H HS. induction H as [|c1 es reqs ds H IH|x k v es reqs ds HX HN H IH|sec' section' c1 ls ts ds es reqs ds' HS' HL H IH].
  - left. intros x [].
  - destruct IH as [N|(s & c & ls & ts & ds' & I1 & I2 & I3 & I4)]; [left; intros x [<-|I]; [split; [discriminate|intros; discriminate]|exact (N x I)]|].
    right. exists s, c, ls, ts, ds'. split; [right; exact I1|auto].
  - destruct IH as [N|(s & c & ls & ts & ds' & I1 & I2 & I3 & I4)].
    + left. intros y [<-|I]; [|exact (N y I)]. rewrite HX. split; [intros [= ->]; exact (HN _ HS)|intros ? ->; discriminate HX].
    + right. exists s, c, ls, ts, ds'. split; [right; exact I1|]. split; [exact I2|]. split; [exact I3|right; exact I4].
  - destruct (list_eq_dec ascii_dec sec' sec) as [->|NE].
    + right. exists section', c1, ls, ts, ds. split; [left; reflexivity|]. split; [exact HL|]. split; [apply incl_appl, incl_refl|left; reflexivity].
    + destruct IH as [N|(s & c & ls' & ts' & ds'' & I1 & I2 & I3 & I4)].
      * left. intros y [<-|I]; [|exact (N y I)]. split; [cbn [entry_key]; intros [= Q]; exact (NE Q)|intros; discriminate].
      * right. exists s, c, ls', ts', ds''. split; [right; exact I1|]. split; [exact I2|]. split; [apply incl_appr; exact I3|right; exact I4].
Qed.
Lemma usual_spells sv sec : In sec (requirement_sections sv) -> exists section, spells sec section.
Proof. intros HI. destruct sv; repeat destruct HI as [<-|HI]; try contradiction; eexists; apply section_spells; vm_compute; reflexivity. Qed.
Definition comment_node (n : node) : bool := match n_value n with VSent => negb (n_lmf n) | _ => false end.
Lemma count_nodes cs : line_count cs = length (filter (fun n => negb (comment_node n)) (map tree_of cs)).
Proof. unfold line_count. induction cs as [|x cs IH]; [reflexivity|]. cbn [map filter]. destruct x; cbn; rewrite ?IH; reflexivity. Qed.

Section Tree.
Variables (E : env) (MS : match_spec) (xs : list item) (r : recipe).
Hypothesis HR : r_root r = document xs.
Hypothesis HC : Forall (canonical E) xs.
Hypothesis HK : no_slash_key xs.
Hypothesis HA : addressable_document (document xs) = true.
Hypothesis HP : proper_tree (document xs) = true.

Lemma entry_lookup p y : entry_at [] 0 xs p y -> lookup (r_root r) p = Some (tree_of y).
Proof.
  intros HI. rewrite HR. destruct (entry_found E xs p y HC HK HA HP HI) as (q & AD & Hq & _).
  destruct (addresses_lookup _ _ _ AD) as (m & Hm & HL). rewrite Hq in Hm. injection Hm as <-. exact HL.
Qed.
Lemma section_size place k c cs n : entry_at [] 0 xs place (ISection k c cs) -> lines_at E xs place n -> n = line_count cs.
Proof.
  intros HE HL. pose proof (entry_lookup _ _ HE) as L1. destruct HL as [place k' c' cs' ts HE' HO HV HT|place HN].
  - pose proof (entry_lookup _ _ HE') as L2. rewrite L1 in L2. apply (f_equal (fun o => match o with Some n => n_children n | None => [] end)) in L2. cbn [tree_of key_node n_children] in L2.
    rewrite !count_nodes, L2. reflexivity.
  - rewrite (nothing_found E xs r HR HC HK HA HP _ HN) in L1. discriminate L1.
Qed.
Lemma sized_path (places : list str) (sizes : list nat) place j : Forall2 (lines_at E xs) places sizes -> In place places ->
  (forall n, lines_at E xs place n -> j < n) ->
  In (place ++ $"/" ++ str_of_nat j) (concat (map (fun pk => numbered (fst pk) (snd pk)) (combine places sizes))).
Proof.
  intros H. induction H as [|p k ps ks Hk _ IH]; intros HI HJ; [contradiction|]. cbn [combine map concat]. apply in_or_app. destruct HI as [<-|HI].
  - left. cbn [fst snd]. unfold numbered. apply in_map_iff. exists j. split; [reflexivity|]. apply in_seq. pose proof (HJ _ Hk). lia.
  - right. exact (IH HI HJ).
Qed.
Lemma own_in_paths sv n sizes scope package ds d : usual_sections sv xs -> Forall2 (lines_at E xs) (section_places sv n) sizes ->
  In scope ([] :: map output_scope (seq 0 n)) -> scope_dependencies E MS sv xs (r_vars r) scope package ds -> In d ds ->
  In (d_path d) (concat (map (fun pk => numbered (fst pk) (snd pk)) (combine (section_places sv n) sizes))).
Proof.
  intros HU HF HS HD HI. destruct HD as [scope package c cs reqs ds H1 H2 H3|package H|scope x package H1 H2 H3]; [|contradiction|contradiction].
  destruct (required_numbers _ _ _ _ _ _ _ _ H3 HI) as (sec & section & c' & ls & j & I1 & I2 & I3 & ->).
  replace (scope ++ $"/requirements/" ++ sec ++ $"/" ++ str_of_nat j) with ((scope ++ $"/requirements/" ++ sec) ++ $"/" ++ str_of_nat j) by (rewrite <- !app_assoc; reflexivity).
  apply sized_path; [exact HF| |].
  - unfold section_places. apply in_flat_map. exists scope. split; [exact HS|]. apply in_map_iff. exists sec. split; [reflexivity|].
    exact (HU _ _ _ _ _ _ H1 I1 eq_refl I2).
  - intros k Hk. rewrite (section_size (scope ++ $"/requirements/" ++ sec) (PStr sec) c' ls k); [exact I3| |exact Hk].
    replace (scope ++ $"/requirements/" ++ sec) with (at_key (scope ++ $"/requirements") (PStr sec)) by (unfold at_key; rewrite <- app_assoc; reflexivity).
    apply (entry_in [] 0 xs _ (PStr $"requirements") c cs H1). exact (entry_key_in _ 0 (PStr sec) _ cs I1 eq_refl).
Qed.
Lemma outputs_counted n c os l : outputs_at E xs n -> entry_at [] 0 xs $"/outputs" (ISection (PStr $"outputs") c os) ->
  value_read E (ISection (PStr $"outputs") c os) (JList l) -> n = length l.
Proof.
  intros HO HE HV. pose proof (proj1 (read_entries E xs r HR HC HK HA HP _ _ HE) _ None HV) as G. destruct HO as [k' c' cs' l' HE' HV'|HN].
  - pose proof (proj1 (read_entries E xs r HR HC HK HA HP _ _ HE') _ None HV') as G'. rewrite G in G'. injection G' as <-. reflexivity.
  - pose proof (entry_lookup _ _ HE) as L. rewrite (nothing_found E xs r HR HC HK HA HP $"/outputs") in L; [discriminate L|].
    apply (missing_name xs $"outputs" []); [split; [split; [discriminate|vm_compute; intuition discriminate]|reflexivity]|constructor|exact HN].
Qed.
Lemma both m l : dependencies_in_file E MS (r_schema r) xs (r_vars r) m -> dependency_paths E (r_schema r) xs l ->
  get_all_dependencies E MS r = Ok m /\ get_dependency_paths E r = Ok l.
Proof.
  intros HM HL. split; [|exact (proj1 (paths_found E xs r HR HC HK HA HP l HL))].
  destruct HM as [(package & ds & H & ->)|H]; [apply (listed_dependencies E MS xs r); auto|apply (listed_packages E MS xs r); auto].
Qed.
Lemma agree m l : usual_sections (r_schema r) xs -> dependencies_in_file E MS (r_schema r) xs (r_vars r) m -> dependency_paths E (r_schema r) xs l ->
  get_all_dependencies E MS r = Ok m /\ get_dependency_paths E r = Ok l /\ reported_paths_in m l.
Proof.
  intros HU HM HL. destruct (both m l HM HL) as (B1 & B2). split; [exact B1|]. split; [exact B2|]. clear B1 B2.
  - destruct HL as (n & sizes & HO & HF & ->). intros package ds d HI HD. destruct HM as [(package' & ds' & H & ->)|H].
    + destruct HI as [[= <- <-]|[]]. destruct H as (_ & _ & (c & cs & reqs & I1 & I2 & I3)). apply (own_in_paths _ n sizes [] package' ds'); auto; [left; reflexivity|].
      apply (requirements_there _ _ _ _ _ _ _ c cs reqs); auto. exact (entry_key_in [] 0 (PStr $"requirements") _ xs I1 eq_refl).
    + destruct H as (c & os & vs & root & rd & outs & H1 & H2 & H3 & H4 & H5 & H6 & H7 & ->). pose proof (outputs_counted n c os vs HO H1 H2) as ->.
      assert (forall d, In d rd -> In (d_path d) (concat (map (fun pk => numbered (fst pk) (snd pk)) (combine (section_places (r_schema r) (length vs)) sizes)))) as HRd.
      { intros d' Hd'. apply (own_in_paths _ (length vs) sizes [] root rd); auto. left. reflexivity. }
      destruct HI as [[= <- <-]|HI]; [exact (HRd d HD)|]. apply in_map_iff in HI as ((name & own) & [= <- <-] & HI). cbn [fst snd] in HD.
      apply in_app_or in HD as [HD|HD].
      * destruct (In_nth_error _ _ HI) as (i & Hi). destruct (H6 i name own Hi) as (_ & Hs). apply (own_in_paths _ (length vs) sizes (output_scope i) name own); auto.
        right. apply in_map. apply in_seq. split; [lia|]. rewrite H3. cbn [Nat.add]. apply nth_error_Some. rewrite Hi. discriminate.
      * apply in_map_iff in HD as (d' & <- & Hd'). exact (HRd d' Hd').
Qed.
Lemma own_reported sv scope package ds sec n j : scope_dependencies E MS sv xs (r_vars r) scope package ds -> In sec (requirement_sections sv) ->
  lines_at E xs (scope ++ $"/requirements/" ++ sec) n -> j < n ->
  (exists d, In d ds /\ d_path d = scope ++ $"/requirements/" ++ sec ++ $"/" ++ str_of_nat j)
  \/ passed_over E sv xs (r_vars r) (scope ++ $"/requirements/" ++ sec ++ $"/" ++ str_of_nat j).
Proof.
  intros HD HI HL HJ. destruct (usual_spells sv sec HI) as (section & HS). destruct (spells_component _ _ HS) as (C1 & C2 & _).
  assert (plain_name $"requirements") as PR by (split; [split; [discriminate|vm_compute; intuition discriminate]|reflexivity]).
  assert (nothing_at xs (scope ++ $"/requirements/" ++ sec) -> False) as NN.
  { intros HN. pose proof (nothing_found E xs r HR HC HK HA HP _ HN) as L. inversion HL as [place k c cs ts HE HO HV HT Q1 Q2|place HN' Q1 Q2]; subst; [|lia].
    rewrite (entry_lookup _ _ HE) in L. discriminate L. }
  assert (path_text [$"requirements"; sec] = $"/requirements/" ++ sec) as PT by (cbn [path_text]; rewrite app_nil_r; reflexivity).
  destruct HD as [scope package c cs reqs ds H1 H2 H3|package H|scope x package H1 H2 H3].
  - destruct (section_there _ _ _ _ _ _ _ _ _ H3 HS) as [N|(s' & c' & ls & ts & ds' & I1 & I2 & I3 & I4)].
    + exfalso. apply NN. replace (scope ++ $"/requirements/" ++ sec) with ((scope ++ $"/requirements") ++ path_text [sec]) by (cbn [path_text]; rewrite app_nil_r, <- app_assoc; reflexivity).
      eapply missing_below; [split; assumption|constructor|exact H1| |exact N]. cbn [entries_in]. intros ->.
      destruct (entry_found E xs _ _ HC HK HA HP H1) as (_ & _ & _ & HQ & _). destruct HQ as ((PS & _) & _). exact (PS eq_refl).
    + assert (entry_at [] 0 xs (scope ++ $"/requirements/" ++ sec) (ISection (PStr sec) c' ls)) as HE.
      { replace (scope ++ $"/requirements/" ++ sec) with (at_key (scope ++ $"/requirements") (PStr sec)) by (unfold at_key; rewrite <- app_assoc; reflexivity).
        apply (entry_in [] 0 xs _ (PStr $"requirements") c cs H1). exact (entry_key_in _ 0 (PStr sec) _ cs I1 eq_refl). }
      rewrite (section_size _ _ _ _ _ HE HL) in HJ. destruct (each_line _ _ _ _ _ _ _ _ _ _ I2 j HJ) as [(d & D1 & D2)|(x & D1 & D2)].
      * left. exists d. split; [exact (I3 d D1)|exact D2].
      * right. exists scope, c, cs, reqs, sec, ts, j, x. auto 10.
  - exfalso. apply NN. cbn [app]. rewrite <- PT. apply missing_name; [exact PR|constructor; [exact C1|constructor]|exact H].
  - exfalso. apply NN. rewrite <- PT. eapply missing_below; [exact PR|constructor; [exact C1|constructor]|exact H1| |].
    + destruct x; try contradiction; exact H2.
    + destruct x; try contradiction; exact H3.
Qed.
Lemma agree_back m l : dependencies_in_file E MS (r_schema r) xs (r_vars r) m -> dependency_paths E (r_schema r) xs l -> paths_reported E (r_schema r) xs (r_vars r) m l.
Proof.
  intros HM (n & sizes & HO & HF & ->) p HI.
  assert (exists scope sec k j, In scope ([] :: map output_scope (seq 0 n)) /\ In sec (requirement_sections (r_schema r))
    /\ lines_at E xs (scope ++ $"/requirements/" ++ sec) k /\ j < k /\ p = scope ++ $"/requirements/" ++ sec ++ $"/" ++ str_of_nat j) as (scope & sec & k & j & S1 & S2 & S3 & S4 & ->).
  { apply in_concat in HI as (ps & HI & Hp). apply in_map_iff in HI as ((place & k) & <- & HI). cbn [fst snd] in Hp. unfold numbered in Hp. apply in_map_iff in Hp as (j & <- & Hj). apply in_seq in Hj.
    assert (In place (section_places (r_schema r) n) /\ lines_at E xs place k) as (HPl & HLk).
    { clear - HF HI. induction HF as [|p0 k0 ps ks H _ IH]; [contradiction|]. destruct HI as [[= -> ->]|HI]; [split; [left; reflexivity|exact H]|]. destruct (IH HI). split; [right; assumption|assumption]. }
    unfold section_places in HPl. apply in_flat_map in HPl as (scope & HSc & HPl). apply in_map_iff in HPl as (sec & <- & HSec).
    exists scope, sec, k, j. split; [exact HSc|]. split; [exact HSec|]. split; [exact HLk|]. split; [lia|]. rewrite <- !app_assoc. reflexivity. }
  destruct HM as [(package & ds & H & ->)|H].
  - destruct H as (H0 & _ & (c & cs & reqs & I1 & I2 & I3)).
    assert (n = 0) as ->.
    { destruct HO as [k' c' cs' l' HE' HV'|HN]; [exfalso|reflexivity]. pose proof (entry_lookup _ _ HE') as L.
      rewrite (nothing_found E xs r HR HC HK HA HP $"/outputs") in L; [discriminate L|].
      apply (missing_name xs $"outputs" []); [split; [split; [discriminate|vm_compute; intuition discriminate]|reflexivity]|constructor|exact H0]. }
    destruct S1 as [<-|[]]. destruct (own_reported (r_schema r) [] package ds sec k j) as [(d & D1 & D2)|D]; auto.
    + apply (requirements_there _ _ _ _ _ _ _ c cs reqs); auto. exact (entry_key_in [] 0 (PStr $"requirements") _ xs I1 eq_refl).
    + left. exists package, ds, d. split; [left; reflexivity|auto].
  - destruct H as (c & os & vs & root & rd & outs & H1 & H2 & H3 & H4 & H5 & H6 & H7 & ->). pose proof (outputs_counted n c os vs HO H1 H2) as ->.
    destruct S1 as [<-|S1].
    + destruct (own_reported (r_schema r) [] root rd sec k j) as [(d & D1 & D2)|D]; auto. left. exists root, rd, d. split; [left; reflexivity|auto].
    + apply in_map_iff in S1 as (i & <- & Hi). apply in_seq in Hi. destruct (nth_error outs i) as [(name & own)|] eqn:Q; [|apply nth_error_None in Q; lia].
      destruct (own_reported (r_schema r) (output_scope i) name own sec k j) as [(d & D1 & D2)|D]; auto; [exact (proj2 (H6 i name own Q))|].
      left. exists name, (own ++ map (owned_by name) rd), d. split; [|split; [apply in_or_app; left; exact D1|exact D2]].
      right. apply in_map_iff. exists (name, own). split; [reflexivity|]. exact (nth_error_In _ _ Q).
Qed.
End Tree.

Lemma c151 E MS xs vars m l : canonical_recipe E xs vars -> no_slash_key xs -> addressable_document (document xs) = true -> usual_sections SV0 xs ->
  dependencies_in_file E MS SV0 xs vars m -> dependency_paths E SV0 xs l ->
  exists r, new_recipe E (join NLs (recipe_page xs vars)) = Ok r /\ get_all_dependencies E MS r = Ok m /\ get_dependency_paths E r = Ok l /\ reported_paths_in m l.
Proof.
  intros HC HK HA HU HM HD. eexists. split; [exact (read_back E xs vars HC)|]. destruct HC as (((HC & _) & HP & _) & _). apply (agree E MS xs); auto.
Qed.
Lemma c151_new E MS xs vars m l : new_file E xs vars -> no_slash_key xs -> addressable_document (document xs) = true -> usual_sections SV1 xs ->
  dependencies_in_file E MS SV1 xs vars m -> dependency_paths E SV1 xs l ->
  exists r, new_recipe E (join NLs (page xs)) = Ok r /\ get_all_dependencies E MS r = Ok m /\ get_dependency_paths E r = Ok l /\ reported_paths_in m l.
Proof.
  intros HC HK HA HU HM HD. eexists. split; [exact (new_read_back E xs vars HC)|]. destruct HC as (((HC & _) & HP & _) & _). apply (agree E MS xs); auto.
Qed.
Lemma c151_session E MS acts xs vars xs' vars' m l : canonical_recipe E xs vars -> canonical_recipe E xs' vars' -> no_slash_key xs' -> addressable_document (document xs') = true ->
  usual_sections SV0 xs' -> acted_in_turn E MS SV0 acts xs vars xs' vars' -> dependencies_in_file E MS SV0 xs' vars' m -> dependency_paths E SV0 xs' l ->
  exists r, new_recipe E (join NLs (recipe_page xs vars)) = Ok r /\ get_all_dependencies E MS (session E MS acts r) = Ok m
    /\ get_dependency_paths E (session E MS acts r) = Ok l /\ reported_paths_in m l.
Proof.
  intros HC HC' HK HX HU HA HM HD. eexists. split; [exact (read_back E xs vars HC)|]. set (r0 := {| r_init := _ |}).
  destruct (act_all E MS SV0 acts xs vars xs' vars' HA r0 eq_refl eq_refl eq_refl) as (_ & H2 & H3 & H4). destruct HC' as (((HC' & _) & HP & _) & _).
  apply (agree E MS xs'); auto; rewrite ?H3, ?H4; assumption.
Qed.
(** The other direction. *)
Lemma c151_back E MS xs vars m l : canonical_recipe E xs vars -> no_slash_key xs -> addressable_document (document xs) = true ->
  dependencies_in_file E MS SV0 xs vars m -> dependency_paths E SV0 xs l ->
  exists r, new_recipe E (join NLs (recipe_page xs vars)) = Ok r /\ get_all_dependencies E MS r = Ok m /\ get_dependency_paths E r = Ok l /\ paths_reported E SV0 xs vars m l.
Proof.
  intros HC HK HA HM HD. eexists. split; [exact (read_back E xs vars HC)|]. destruct HC as (((HC & _) & HP & _) & _). match goal with |- get_all_dependencies _ _ ?r0 = _ /\ _ => destruct (both E MS xs r0 eq_refl HC HK HA HP m l HM HD) as (B1 & B2); pose proof (agree_back E MS xs r0 eq_refl HC HK HA HP m l HM HD); auto end.
Qed.
Lemma c151_back_new E MS xs vars m l : new_file E xs vars -> no_slash_key xs -> addressable_document (document xs) = true ->
  dependencies_in_file E MS SV1 xs vars m -> dependency_paths E SV1 xs l ->
  exists r, new_recipe E (join NLs (page xs)) = Ok r /\ get_all_dependencies E MS r = Ok m /\ get_dependency_paths E r = Ok l /\ paths_reported E SV1 xs vars m l.
Proof.
  intros HC HK HA HM HD. eexists. split; [exact (new_read_back E xs vars HC)|]. destruct HC as (((HC & _) & HP & _) & _). match goal with |- get_all_dependencies _ _ ?r0 = _ /\ _ => destruct (both E MS xs r0 eq_refl HC HK HA HP m l HM HD) as (B1 & B2); pose proof (agree_back E MS xs r0 eq_refl HC HK HA HP m l HM HD); auto end.
Qed.
Lemma c151_back_session E MS acts xs vars xs' vars' m l : canonical_recipe E xs vars -> canonical_recipe E xs' vars' -> no_slash_key xs' -> addressable_document (document xs') = true ->
  acted_in_turn E MS SV0 acts xs vars xs' vars' -> dependencies_in_file E MS SV0 xs' vars' m -> dependency_paths E SV0 xs' l ->
  exists r, new_recipe E (join NLs (recipe_page xs vars)) = Ok r /\ get_all_dependencies E MS (session E MS acts r) = Ok m
    /\ get_dependency_paths E (session E MS acts r) = Ok l /\ paths_reported E SV0 xs' vars' m l.
Proof.
  intros HC HC' HK HX HA HM HD. eexists. split; [exact (read_back E xs vars HC)|]. set (r0 := {| r_init := _ |}).
  destruct (act_all E MS SV0 acts xs vars xs' vars' HA r0 eq_refl eq_refl eq_refl) as (_ & H2 & H3 & H4). destruct HC' as (((HC' & _) & HP & _) & _).
  rewrite <- H3 in HM, HD. rewrite <- H4 in HM. destruct (both E MS xs' _ H2 HC' HK HX HP m l HM HD) as (B1 & B2). pose proof (agree_back E MS xs' _ H2 HC' HK HX HP m l HM HD) as B3. rewrite H3, H4 in B3. auto.
Qed.
