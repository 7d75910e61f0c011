(** C133, continued (proofs only). *)
From Verif Require Export AboutProofs.
From Verif Require Import Lemmas FrameProofs FrameProofs2 PatchProofs PatchProofs2 PatchProofs3 PathProofs PathProofs2 RenderProofs RenderProofs2 SectionProofs SectionProofs2
  ContextProofs KeepProofs KeepProofs2 PlainProofs GoesProofs ConvertSpec PlainSpec VarsSpec AboutSpec AboutProofs.

(** * Lines taken one after the other *)
Definition taken_all (cs : list str) (l : list node) : list node := fold_left (fun l c => taken c l) cs l.
Lemma taken_all_app cs l l' : taken_all cs (l ++ l') = taken_all cs l ++ taken_all cs l'.
Proof. revert l l'; induction cs as [|c cs IH]; intros l l'; cbn [taken_all fold_left]; [reflexivity|]. fold (taken_all cs). rewrite taken_app. apply IH. Qed.
Lemma taken_all_none cs l : (forall c y, In c cs -> In y l -> ~ called c y) -> taken_all cs l = l.
Proof.
  revert l; induction cs as [|c cs IH]; intros l H; [reflexivity|]. change (taken_all (c :: cs) l) with (taken_all cs (taken c l)).
  rewrite (taken_none c l (fun y => H c y (or_introl eq_refl))). apply IH. intros k y I. apply H. right. exact I.
Qed.
Lemma taken_all_nil cs : taken_all cs [] = [].
Proof. induction cs as [|c cs IH]; [reflexivity|exact IH]. Qed.
Lemma taken_all_here cs c x : In c cs -> called c x -> taken_all cs [x] = [].
Proof.
  induction cs as [|k cs IH]; intros I C; [destruct I|]. change (taken_all (k :: cs) [x]) with (taken_all cs (taken k [x])). unfold taken. cbn [filter]. destruct (is_called k x) eqn:V; cbn [negb].
  - apply taken_all_nil.
  - apply IH; [|exact C]. destruct I as [->|I]; [|exact I]. apply is_called_eq in C. congruence.
Qed.
Lemma taken_all_split cs ds l : taken_all (cs ++ ds) l = taken_all ds (taken_all cs l).
Proof. apply fold_left_app. Qed.
Lemma first_taken_all k cs l : existsb (str_eqb k) cs = false -> first_named k (taken_all cs l) = first_named k l.
Proof.
  revert l; induction cs as [|c cs IH]; intros l H; [reflexivity|]. cbn [existsb] in H. apply orb_false_iff in H as (H1 & H2). apply str_eqb_neq in H1.
  change (taken_all (c :: cs) l) with (taken_all cs (taken c l)). rewrite (IH _ H2). apply first_taken. exact H1.
Qed.
Definition old_names : list str := map snd old_about_fields.
Lemma old_name c : old_about_name c <-> In c old_names.
Proof.
  unfold old_about_name, old_names. split; intros I; [apply (in_map snd) in I; exact I|]. apply in_map_iff in I as ([s k] & <- & I). cbn [snd].
  unfold old_about_fields in I |- *. apply in_map_iff in I as (x & [= <- <-] & I). apply in_map_iff. exists x. auto.
Qed.
Lemma kept_is l k : kept_lines l k -> k = taken_all old_names l.
Proof.
  induction 1 as [|x l l' N _ IH|c x l l' O C _ IH]; [symmetry; apply taken_all_nil| |].
  - change (x :: l) with ([x] ++ l). rewrite taken_all_app, <- IH, taken_all_none; [reflexivity|]. intros c y I [<-|[]]. apply N. apply old_name. exact I.
  - change (x :: l) with ([x] ++ l). rewrite taken_all_app, <- IH, (taken_all_here _ c x); [reflexivity|apply old_name; exact O|exact C].
Qed.
(** * What one renaming keeps *)
Section Renamed.
Context (c d : str) (l ls : list node) (HL : forall y, In y ls -> called d y).
Lemma names_differ k y : called d y -> k <> d -> ~ called k y.
Proof. intros A N B. unfold called in *. congruence. Qed.
Lemma step_once k : k <> d -> once k l -> once k (taken c l ++ ls).
Proof. intros N O. apply once_app; [apply once_taken; exact O|]. intros y I. exact (names_differ k y (HL y I) N). Qed.
Lemma step_first k : k <> c -> k <> d -> first_named k (taken c l ++ ls) = first_named k l.
Proof.
  intros N1 N2. rewrite first_app, (first_taken k c l N1), (first_none k ls); [destruct (first_named k l); reflexivity|]. intros y I. exact (names_differ k y (HL y I) N2).
Qed.
Lemma step_absent k : k <> d -> (forall y, In y l -> ~ called k y) -> forall y, In y (taken c l ++ ls) -> ~ called k y.
Proof. intros N H y I. apply in_app_or in I as [I|I]; [apply taken_In in I as (I & _); exact (H y I)|exact (names_differ k y (HL y I) N)]. Qed.
Lemma step_in k x : k <> c -> called k x -> In x l -> In x (taken c l ++ ls).
Proof. intros N C I. apply in_or_app. left. apply taken_In. split; [exact I|]. unfold called in *. congruence. Qed.
End Renamed.
Lemma still_there k c x l : k <> c -> called k x -> In x l -> taken c l <> [].
Proof. intros N C I H. assert (In x (taken c l)) as J by (apply taken_In; split; [exact I|unfold called in *; congruence]). rewrite H in J. destruct J. Qed.
Lemma line_for_same T l l' cd ls : first_named (fst cd) l' = first_named (fst cd) l -> line_for T l cd ls -> line_for T l' cd ls.
Proof. intros F H. unfold line_for in *. rewrite F. exact H. Qed.
Lemma line_called T l cd ls : line_for T l cd ls -> forall y, In y ls -> called (snd cd) y.
Proof. intros [(_ & ->)|(n & v & x & _ & _ & _ & C & _ & ->)] y I; [destruct I|]. destruct I as [<-|[]]. exact C. Qed.

(** * The dropped fields *)
Definition told (l : list node) (cs : list str) : list str :=
  flat_map (fun c => match first_named c l with Some _ => [unsupported_field [$"about"; c]] | None => [] end) cs.
Section Drops.
Context (root a : node) (before after : list node).
Context (a_called : called $"about" a) (a_first : forall x, In x before -> ~ called $"about" x) (a_lmf : n_lmf a = false).
Context (T : tools).
Lemma drops l0 cs : forall l s, NoDup cs -> (forall c, In c cs -> plain_name c = true /\ append_to_path $"/about" c = path_text [$"about"; c] /\ once c l /\ first_named c l = first_named c l0) ->
  r_root (v1 s) = with_about root a before after l -> proper_tree (r_root (v1 s)) = true ->
  exists s', patch_deprecated_fields T $"/about" cs s = (Ok tt, s')
  /\ get_messages ERROR (msgs s') = get_messages ERROR (msgs s)
  /\ get_messages WARNING (msgs s') = get_messages WARNING (msgs s) ++ told l0 cs
  /\ r_root (v1 s') = with_about root a before after (taken_all cs l) /\ proper_tree (r_root (v1 s')) = true.
Proof.
  induction cs as [|c cs IH]; intros l s ND H HR HP.
  - exists s. split; [reflexivity|]. split; [reflexivity|]. split; [symmetry; apply app_nil_r|]. split; [exact HR|exact HP].
  - destruct (H c (or_introl eq_refl)) as (N1 & P1 & O1 & F1). inversion ND as [|? ? NI ND']; subst.
    destruct (drop_step root a before after a_called a_first a_lmf T s l c N1 P1 HR HP O1) as (s1 & M1 & X1 & W1 & HR1 & HP1).
    destruct (IH (taken c l) s1 ND') as (s2 & M2 & X2 & W2 & HR2 & HP2); [|exact HR1|exact HP1|].
    { intros k I. destruct (H k (or_intror I)) as (N & P & O & F). split; [exact N|]. split; [exact P|]. split; [apply once_taken; exact O|].
      rewrite first_taken; [exact F|]. intros ->. contradiction. }
    exists s2. split.
    { unfold patch_deprecated_fields. cbn [each]. unfold andthen at 1. cbv zeta in M1. cbv zeta. rewrite M1. exact M2. }
    split; [congruence|]. split; [|split; [exact HR2|exact HP2]]. rewrite W2, W1, <- app_assoc. f_equal. unfold told. cbn [flat_map]. rewrite <- F1. reflexivity.
Qed.
End Drops.

(** * The whole section *)
Ltac apart := first [discriminate|vm_compute; discriminate].
Lemma about_goes T s before a after kept news : let E := t_env T in let root := r_root (v1 s) in
  GoesProofs.ready T false s -> n_children root = before ++ a :: after -> called $"about" a -> (forall x, In x (before ++ after) -> ~ called $"about" x) ->
  about_in_order root -> kept_lines (n_children a) kept -> Forall2 (new_line E root) about_new_names news ->
  exists s' ms, upgrade_about_section T [$"/"] s = (Ok tt, s') /\ get_messages ERROR (msgs s') = get_messages ERROR (msgs s)
  /\ get_messages WARNING (msgs s') = get_messages WARNING (msgs s) ++ ms /\ told_of_dropped root about_no_longer ms
  /\ r_root (v1 s') = with_about root a before after (kept ++ concat news)
  /\ proper_tree (r_root (v1 s')) = true
  /\ (forall k, In k [$"license"; $"summary"] -> first_named k (kept ++ concat news) = first_named k (n_children a)).
Proof.
  cbv zeta. set (E := t_env T). set (root := r_root (v1 s)). intros RD HC AC AF AO HK HN. set (l0 := n_children a) in *.
  assert (forall x, In x before -> ~ called $"about" x) as AF1 by (intros x I; apply AF; apply in_or_app; auto).
  assert (root = with_about root a before after l0) as HR0.
  { unfold with_about, l0. assert (with_lines a (n_children a) = a) as -> by (destruct a; reflexivity). rewrite <- HC. destruct root; reflexivity. }
  destruct (AO a) as (LM & ON & NN); [rewrite HC; apply in_elt|exact AC|].
  assert (forall c, In c old_names -> once c l0) as O0 by (intros c I l1 x l2 H C; apply (ON c l1 x l2); [apply old_name; exact I|exact H|exact C]).
  pose proof RD as (PT & (NO & FA) & SF). cbn [view fst] in NO, FA. fold root in PT, NO, FA, SF.
  assert (top_line $"about" root) as TL by (exists a; split; [rewrite HC; apply in_elt|exact AC]).
  destruct (FA TL) as ((lic & LV & LC) & SL). destruct (SF TL) as (sv & SV). fold E in LV, SL, SV.
  change $"/about/license" with (path_text [$"about"; $"license"]) in LV. change $"/about/summary" with (path_text [$"about"; $"summary"]) in SL, SV.
  rewrite HR0, (about_get root a before after AC AF1 LM E $"license" l0) in LV by (comp || reflexivity).
  destruct (first_named $"license" l0) as [ln|] eqn:FL; [|discriminate].
  destruct (first_split $"license" l0 ln FL) as (b1 & b2 & HL0 & LNC & _). assert (In ln l0) as LI by (rewrite HL0; apply in_elt).
  inversion HN as [|cd1 n1 cds1 news1 K1 HN1]; subst. inversion HN1 as [|cd2 n2 cds2 news2 K2 HN2]; subst. inversion HN2 as [|cd3 n3 cds3 news3 K3 HN3]; subst. inversion HN3; subst. clear HN HN1 HN2 HN3.
  assert (forall cd ls, plain_name (fst cd) = true -> new_line E root cd ls -> line_for T l0 cd ls) as LF.
  { intros cd ls PN K. apply plain_name_is in PN as (C & D). inversion K as [c d NS|c d v x SL1 V W CX PX]; subst; cbn [fst snd] in *.
    - left. split; [|reflexivity]. cbn [fst]. destruct (first_named c l0) as [n|] eqn:F; [|reflexivity]. exfalso. apply NS. destruct (first_split c l0 n F) as (m1 & m2 & HM & CN & _).
      exists a, n. split; [rewrite HC; apply in_elt|]. split; [exact AC|]. split; [fold l0; rewrite HM; apply in_elt|exact CN].
    - right. cbn [fst snd]. rewrite HR0, (about_get root a before after AC AF1 LM E c l0 None C D) in V. destruct (first_named c l0) as [n|] eqn:F; [|discriminate].
      exists n, v, x. auto 8. }
  apply LF in K1; [|vm_compute; reflexivity]. apply LF in K2; [|vm_compute; reflexivity]. apply LF in K3; [|vm_compute; reflexivity].
  pose proof (line_called _ _ _ _ K1) as Q1. pose proof (line_called _ _ _ _ K2) as Q2. pose proof (line_called _ _ _ _ K3) as Q3. cbn [snd] in Q1, Q2, Q3.
  assert (forall c d, In (c, d) about_new_names -> forall z, In z l0 -> ~ called d z) as NN' by (intros c d I z J; exact (NN c d z I J)).
  assert (In ($"home", $"homepage") about_new_names /\ In ($"dev_url", $"repository") about_new_names /\ In ($"doc_url", $"documentation") about_new_names) as (I1 & I2 & I3)
    by (unfold about_new_names; repeat split; cbn [In]; auto).
  assert (forall c, existsb (str_eqb c) old_names = true -> In c old_names) as OI by (intros c H; apply existsb_exists in H as (x & I & X); apply str_eqb_eq in X as ->; exact I).
  (* the three moves *)
  set (l1 := taken $"home" l0 ++ n1). set (l2 := taken $"dev_url" l1 ++ n2). set (l3 := taken $"doc_url" l2 ++ n3).
  destruct (move_step root a before after AC AF1 LM T s l0 $"home" $"homepage" n1) as (s1 & M1 & X1 & HR1 & HP1);
    [vm_compute; reflexivity|vm_compute; reflexivity|vm_compute; reflexivity|exact HR0|exact PT|apply O0, OI; vm_compute; reflexivity|exact (NN' _ _ I1)| |exact K1|].
  { apply (still_there $"license" _ ln); [apart|exact LNC|exact LI]. }
  fold l1 in HR1.
  assert (In ln l1) as LI1 by (apply (step_in $"home" l0 n1 $"license"); [apart|exact LNC|exact LI]).
  destruct (move_step root a before after AC AF1 LM T s1 l1 $"dev_url" $"repository" n2) as (s2 & M2 & X2 & HR2 & HP2);
    [vm_compute; reflexivity|vm_compute; reflexivity|vm_compute; reflexivity|exact HR1|exact HP1| | | | |].
  { apply (step_once $"home" $"homepage" l0 n1 Q1); [apart|apply O0, OI; vm_compute; reflexivity]. }
  { apply (step_absent $"home" $"homepage" l0 n1 Q1); [apart|exact (NN' _ _ I2)]. }
  { apply (still_there $"license" _ ln); [apart|exact LNC|exact LI1]. }
  { apply (line_for_same T l0); [|exact K2]. apply (step_first $"home" $"homepage" l0 n1 Q1); apart. }
  fold l2 in HR2.
  assert (In ln l2) as LI2 by (apply (step_in $"dev_url" l1 n2 $"license"); [apart|exact LNC|exact LI1]).
  destruct (move_step root a before after AC AF1 LM T s2 l2 $"doc_url" $"documentation" n3) as (s3 & M3 & X3 & HR3 & HP3);
    [vm_compute; reflexivity|vm_compute; reflexivity|vm_compute; reflexivity|exact HR2|exact HP2| | | | |].
  { apply (step_once $"dev_url" $"repository" l1 n2 Q2); [apart|]. apply (step_once $"home" $"homepage" l0 n1 Q1); [apart|apply O0, OI; vm_compute; reflexivity]. }
  { apply (step_absent $"dev_url" $"repository" l1 n2 Q2); [apart|]. apply (step_absent $"home" $"homepage" l0 n1 Q1); [apart|exact (NN' _ _ I3)]. }
  { apply (still_there $"license" _ ln); [apart|exact LNC|exact LI2]. }
  { apply (line_for_same T l0); [|exact K3]. cbn [fst]. rewrite (step_first $"dev_url" $"repository" l1 n2 Q2) by apart. apply (step_first $"home" $"homepage" l0 n1 Q1); apart. }
  fold l3 in HR3.
  assert (forall k, forallb (fun x => negb (str_eqb k x)) [$"home"; $"homepage"; $"dev_url"; $"repository"; $"doc_url"; $"documentation"] = true -> first_named k l3 = first_named k l0) as F3.
  { intros k H. cbn [forallb] in H. rewrite !andb_true_iff, !negb_true_iff, !str_eqb_neq in H. destruct H as (H1 & H2 & H3 & H4 & H5 & H6 & _).
    unfold l3. rewrite (step_first $"doc_url" $"documentation" l2 n3 Q3) by assumption. unfold l2. rewrite (step_first $"dev_url" $"repository" l1 n2 Q2) by assumption.
    apply (step_first $"home" $"homepage" l0 n1 Q1); assumption. }
  assert (forall k, forallb (fun x => negb (str_eqb k x)) [$"home"; $"homepage"; $"dev_url"; $"repository"; $"doc_url"; $"documentation"] = true -> once k l0 -> once k l3) as O3.
  { intros k H O. cbn [forallb] in H. rewrite !andb_true_iff, !negb_true_iff, !str_eqb_neq in H. destruct H as (H1 & H2 & H3 & H4 & H5 & H6 & _).
    unfold l3. apply (step_once $"doc_url" $"documentation" l2 n3 Q3); [assumption|]. unfold l2. apply (step_once $"dev_url" $"repository" l1 n2 Q2); [assumption|].
    apply (step_once $"home" $"homepage" l0 n1 Q1); assumption. }
  (* the license and the summary *)
  assert (fix_bad_licenses T $"/about" s3 = (Ok tt, s3)) as U1.
  { unfold fix_bad_licenses. cbv zeta. change (append_to_path $"/about" $"/license") with (path_text [$"about"; $"license"]). unfold andthen at 1, value, ask. cbv beta. fold E.
    rewrite HR3, (about_get root a before after AC AF1 LM E $"license" l3) by (comp || reflexivity). rewrite F3, FL, LV by (vm_compute; reflexivity).
    unfold andthen at 1, pure. cbn [license_match]. rewrite LC, json_self. reflexivity. }
  assert (exists v, get_value E (r_root (v1 s3)) (path_text [$"about"; $"summary"]) (Some (JStr [])) None = Ok v /\ forall l, v <> JList l) as (v & V & NV).
  { exists sv. rewrite HR3, (about_get root a before after AC AF1 LM E $"summary" l3) by (comp || reflexivity). rewrite F3 by (vm_compute; reflexivity).
    rewrite HR0 in SV, SL. rewrite (about_get root a before after AC AF1 LM E $"summary" l0) in SV by (comp || reflexivity). rewrite SV. split; [reflexivity|]. intros l ->. apply (SL l).
    rewrite (about_get root a before after AC AF1 LM E $"summary" l0) by (comp || reflexivity). exact SV. }
  (* the dropped fields *)
  destruct (drops root a before after AC AF1 LM T l0 about_no_longer l3 s3) as (s4 & M4 & X4 & W4 & HR4 & HP4); [| |exact HR3|exact HP3|].
  { repeat (apply NoDup_cons; [cbn [In]; intuition discriminate|]). apply NoDup_nil. }
  { intros c I. unfold about_no_longer in I. cbn [In] in I. repeat (destruct I as [<-|I]; [split; [vm_compute; reflexivity|split; [vm_compute; reflexivity|split]];
      [apply O3; [vm_compute; reflexivity|apply O0, OI; vm_compute; reflexivity]|apply F3; vm_compute; reflexivity]|]). destruct I. }
  assert (taken_all about_no_longer l3 = kept ++ concat [n1; n2; n3]) as FE.
  { apply kept_is in HK. rewrite HK. unfold l3, l2, l1. clear - Q1 Q2 Q3.
    change old_names with ([$"home"; $"dev_url"; $"doc_url"] ++ about_no_longer). rewrite (taken_all_split [$"home"; $"dev_url"; $"doc_url"] about_no_longer l0).
    cbn [taken_all fold_left]. fold taken_all. cbn [concat]. rewrite app_nil_r.
    assert (forall d ls c, (forall y, In y ls -> called d y) -> c <> d -> taken c ls = ls) as X.
    { intros d ls c Q N. apply taken_none. intros y I. exact (names_differ d c y (Q y I) N). }
    assert (forall d ls, (forall y, In y ls -> called d y) -> existsb (str_eqb d) about_no_longer = false -> taken_all about_no_longer ls = ls) as Y.
    { intros d ls Q N. apply taken_all_none. intros c y I J. apply (names_differ d c y (Q y J)). intros ->. assert (existsb (str_eqb d) about_no_longer = true); [|congruence].
      apply existsb_exists. exists d. split; [exact I|apply str_eqb_eq; reflexivity]. }
    rewrite !taken_app. rewrite (X $"homepage" n1 $"dev_url" Q1), (X $"homepage" n1 $"doc_url" Q1), (X $"repository" n2 $"doc_url" Q2) by apart.
    change (fold_left (fun l c => taken c l) about_no_longer ?q) with (taken_all about_no_longer q). rewrite !taken_all_app.
    rewrite (Y $"homepage" n1 Q1), (Y $"repository" n2 Q2), (Y $"documentation" n3 Q3) by (vm_compute; reflexivity). rewrite <- !app_assoc. reflexivity. }
  exists s4, (told l0 about_no_longer). split; [|split; [|split; [|split; [|split; [|split; [exact HP4|]]]]]].
  - unfold upgrade_about_section. cbn [each]. cbv zeta. change (append_to_path $"/" $"/about") with $"/about". unfold andthen at 1. unfold andthen at 1, has, ask. cbv beta. fold root.
    assert (contains_value root $"/about" = Ok true) as ->.
    { rewrite HR0. unfold contains_value. change (str_to_stack_path $"/about") with (@Ok stack (rev [$"about"] ++ [ROOT_VALUE])). cbn [bind]. unfold traverse.
      rewrite traverse_pos_components. cbn [traverse_recurse]. rewrite (about_step root a before after AC AF1 LM l0). cbn [option_map]. rewrite about_at. reflexivity. }
    cbv iota. unfold andthen at 1. unfold about_rename_mapping. cbn [each fst snd]. unfold andthen at 1. rewrite M1. unfold andthen at 1. rewrite M2. unfold andthen at 1. rewrite M3. unfold ret at 1.
    unfold andthen at 1. rewrite U1. unfold andthen at 1, value, ask. cbv beta. fold E. change (append_to_path $"/about" $"/summary") with (path_text [$"about"; $"summary"]). rewrite V.
    change about_deprecated with about_no_longer. unfold andthen at 1. destruct v as [p|l|d]; [|destruct (NV l eq_refl)|]; unfold ret at 1; rewrite M4; reflexivity.
  - congruence.
  - rewrite W4. f_equal. congruence.
  - unfold told. clear - HC AC AF HR0. assert (forall cs, told_of_dropped root cs (flat_map (fun c => match first_named c l0 with Some _ => [unsupported_field [$"about"; c]] | None => [] end) cs)) as X; [|apply X].
    induction cs as [|c cs IH]; cbn [flat_map]; [constructor|]. destruct (first_named c l0) as [n|] eqn:F; cbn [app].
    + apply told_this; [|exact IH]. destruct (first_split c l0 n F) as (m1 & m2 & HM & CN & _). exists a, n. split; [rewrite HC; apply in_elt|]. split; [exact AC|]. split; [fold l0; rewrite HM; apply in_elt|exact CN].
    + apply told_not; [|exact IH]. intros (a' & b & I & C & J & K). rewrite HC in I. apply in_app_or in I as [I|[<-|I]].
      * exact (AF a' (in_or_app _ _ _ (or_introl I)) C).
      * exact (first_absent c l0 F b J K).
      * exact (AF a' (in_or_app _ _ _ (or_intror I)) C).
  - rewrite HR4, FE. reflexivity.
  - intros k I. rewrite <- FE. rewrite first_taken_all by (cbn [In] in I; destruct I as [<-|[<-|[]]]; vm_compute; reflexivity).
    apply F3. cbn [In] in I. destruct I as [<-|[<-|[]]]; vm_compute; reflexivity.
Qed.
