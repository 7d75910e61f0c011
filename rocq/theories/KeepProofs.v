(** Proofs for C101: the section steps. *)
From Verif Require Export ContextProofs KeepSpec.
From Verif Require Import PathProofs2 FrameProofs SectionSpec ContextSpec KeepSpec.

(** The first line called [k] is [n]. *)
Definition holds (k : str) (n root : node) : Prop := exists i, find_child k 0 (n_children root) = Some (i, n).
Definition keeps (k : str) (n : node) (A : change) : Prop := forall w w', A w w' -> holds k n (fst w) -> holds k n (fst w').

Lemma find_child_shift k l : forall i, find_child k i l = option_map (fun jx => (i + fst jx, snd jx)) (find_child k 0 l).
Proof.
  induction l as [|x l IH]; intros i; cbn [find_child]; [reflexivity|]. destruct (val_is (n_value x) k).
  - cbn [option_map fst snd]. rewrite Nat.add_0_r. reflexivity.
  - rewrite (IH (S i)), (IH 1). destruct (find_child k 0 l) as [[j y]|]; cbn [option_map fst snd]; [|reflexivity]. f_equal. f_equal. lia.
Qed.
Lemma holds_list k n root : holds k n root <-> option_map snd (find_child k 0 (n_children root)) = Some n.
Proof.
  unfold holds. destruct (find_child k 0 (n_children root)) as [[i x]|]; cbn [option_map snd]; split.
  - intros (j & [= _ ->]). reflexivity.
  - intros [= ->]. eauto.
  - intros (j & H). discriminate.
  - discriminate.
Qed.
Definition first_named (k : str) (l : list node) : option node := option_map snd (find_child k 0 l).
Lemma first_cons k x l : first_named k (x :: l) = if val_is (n_value x) k then Some x else first_named k l.
Proof.
  unfold first_named. cbn [find_child]. destruct (val_is (n_value x) k); [reflexivity|]. rewrite (find_child_shift k l 1).
  destruct (find_child k 0 l) as [[j y]|]; reflexivity.
Qed.
Lemma first_app k a b : first_named k (a ++ b) = match first_named k a with Some x => Some x | None => first_named k b end.
Proof. induction a as [|x a IH]; [reflexivity|]. cbn [app]. rewrite !first_cons, IH. destruct (val_is (n_value x) k); reflexivity. Qed.
Lemma holds_first k n root : holds k n root <-> first_named k (n_children root) = Some n.
Proof. apply holds_list. Qed.
Lemma first_middle k a x b y : val_is (n_value x) k = false -> val_is (n_value y) k = false -> first_named k (a ++ y :: b) = first_named k (a ++ x :: b).
Proof. intros H1 H2. rewrite !first_app, !first_cons, H1, H2. reflexivity. Qed.
Lemma first_without k a x b : val_is (n_value x) k = false -> first_named k (a ++ b) = first_named k (a ++ x :: b).
Proof. intros H1. rewrite !first_app, first_cons, H1. reflexivity. Qed.

(** Paths that start with another key. *)
Definition elsewhere (k : str) (cs : list str) : Prop :=
  match cs with [] => False | c :: _ => c <> k /\ isdigit c = false end /\ Forall component cs.
Lemma first_step root c st q : isdigit c = false -> traverse_pos root (st ++ [c; ROOT_VALUE]) = Some q ->
  exists i q' x, q = i :: q' /\ nth_error (n_children root) i = Some x /\ val_is (n_value x) c = true.
Proof.
  intros D H. unfold traverse_pos in H. rewrite rev_app_distr in H. cbn [rev app] in H.
  cbn [traverse_recurse] in H. unfold step_child in H. rewrite D in H.
  destruct (find_child c 0 (n_children root)) as [[i x]|] eqn:F; [|discriminate].
  destruct (traverse_recurse x (rev st)) as [q'|]; [|discriminate]. injection H as <-. apply find_child_hit in F as (_ & F & V). rewrite Nat.sub_0_r in F.
  exists i, q', x. auto.
Qed.
Lemma addresses_first root c cs q : isdigit c = false -> Forall component (c :: cs) -> addresses root (path_text (c :: cs)) q ->
  exists i q' x, q = i :: q' /\ nth_error (n_children root) i = Some x /\ val_is (n_value x) c = true.
Proof.
  intros D HC (st & HS & H). rewrite stack_of_path in HS by (auto; discriminate). injection HS as <-. cbn [rev] in H. rewrite <- app_assoc in H.
  exact (first_step root c (rev cs) q D H).
Qed.
Lemma addresses_first_slash root c cs q : isdigit c = false -> Forall component (c :: cs) -> addresses root (path_text (c :: cs) ++ $"/") q ->
  exists i q' x, q = i :: q' /\ nth_error (n_children root) i = Some x /\ val_is (n_value x) c = true.
Proof.
  intros D HC (st & HS & H). change $"/" with [cSL] in HS. rewrite stack_of_path_slash in HS by auto. injection HS as <-. cbn [rev] in H. rewrite <- app_assoc in H.
  exact (first_step root c (rev cs) q D H).
Qed.
Definition keeps_name (R : node -> node -> Prop) : Prop := forall a b, R a b -> n_value b = n_value a /\ n_lmf b = n_lmf a.
Lemma changed_name R p a b : keeps_name R -> changed_at R p a b -> n_value b = n_value a /\ n_lmf b = n_lmf a.
Proof. intros HR H. destruct H as [n n' H|n before c c' after p H1 H2]; [apply HR, H|split; reflexivity]. Qed.
Lemma changed_elsewhere R i q root root' x c k n : keeps_name R -> changed_at R (i :: q) root root' ->
  nth_error (n_children root) i = Some x -> val_is (n_value x) c = true -> c <> k -> holds k n root -> holds k n root'.
Proof.
  intros HR H HX HV N HK. inversion H as [|n0 before y y' after p H1 H2 H3 H4]. subst.
  rewrite H1, nth_error_app2, Nat.sub_diag in HX by lia. injection HX as ->.
  destruct (changed_name R q x y' HR H2) as (HN & _). pose proof (val_is_inj _ _ _ HV N) as V1.
  apply holds_first. apply holds_first in HK. rewrite <- HK, H1. cbn [with_lines n_children]. apply first_middle; [exact V1|rewrite HN; exact V1].
Qed.
Lemma removed_name i : keeps_name (line_removed i).
Proof. intros a b (x & y & z & _ & _ & ->). split; reflexivity. Qed.
Lemma inserted_name i l : keeps_name (lines_inserted i l).
Proof. intros a b (x & y & _ & _ & ->). split; reflexivity. Qed.
Lemma replaced_name i l : keeps_name (line_replaced i l).
Proof. intros a b (x & y & z & _ & _ & ->). split; reflexivity. Qed.
Lemma appended_name l : keeps_name (lines_appended l).
Proof. intros a b ->. split; reflexivity. Qed.
Lemma content_name l : keeps_name (content_replaced l).
Proof. intros a b ->. split; reflexivity. Qed.

Lemma taken_keeps k n cs root root' : elsewhere k cs -> line_taken cs root root' -> holds k n root -> holds k n root'.
Proof.
  intros (HC & HF) (q & i & HA & _ & H) HK. destruct cs as [|c cs]; [destruct HC|]. destruct HC as (N & D).
  destruct (addresses_first _ _ _ _ D HF HA) as (j & q' & x & Hq & HX & HV). destruct q as [|j0 q0].
  - injection Hq as <- <-. inversion H as [n0 n1 HR|]. subst. destruct HR as (a & y & b & H1 & <- & ->).
    rewrite H1, nth_error_app2, Nat.sub_diag in HX by lia. injection HX as ->.
    apply holds_first. apply holds_first in HK. rewrite <- HK, H1. cbn [with_lines n_children]. apply first_without. eapply val_is_inj; eauto.
  - injection Hq as Hj _; subst j0. eapply changed_elsewhere; [|exact H|exact HX|exact HV|exact N|exact HK]. apply removed_name.
Qed.
Lemma value_replaced_keeps E k n cs v root root' : elsewhere k cs -> value_replaced E cs v root root' -> holds k n root -> holds k n root'.
Proof.
  intros (HC & HF) (q & lines & HA & _ & _ & H) HK. destruct cs as [|c cs]; [destruct HC|]. destruct HC as (N & D).
  destruct (addresses_first _ _ _ _ D HF HA) as (j & q' & x & -> & HX & HV).
  eapply changed_elsewhere; [|exact H|exact HX|exact HV|exact N|exact HK]. apply content_name.
Qed.
Lemma root_addressed root q : addresses root $"/" q -> q = [].
Proof.
  intros (st & HS & H). change $"/" with (path_text [] ++ [cSL]) in HS. rewrite stack_of_path_slash in HS by constructor. injection HS as <-.
  vm_compute in H. congruence.
Qed.
Lemma put_keeps E k n ds c v root root' : elsewhere k (ds ++ [c]) -> value_put E ds c v root root' -> holds k n root -> holds k n root'.
Proof.
  intros HE H HK. destruct H as [H|q m lines NP HA Hm _ HL W H|q i m lines NP HA Hm HL HC W H].
  - eapply value_replaced_keeps; eauto.
  - destruct ds as [|d ds].
    + change (path_text [] ++ $"/") with $"/" in HA. apply root_addressed in HA as ->. inversion H as [n0 n1 HR|]. subst. rewrite HR.
      apply holds_first. apply holds_first in HK. cbn [with_lines n_children]. rewrite first_app, HK. reflexivity.
    + destruct HE as (HE & HF). cbn [app] in HE, HF. destruct HE as (N & D). change (d :: ds ++ [c]) with ((d :: ds) ++ [c]) in HF. apply Forall_app in HF as (HF & _).
      destruct (addresses_first_slash _ _ _ _ D HF HA) as (j & q' & x & -> & HX & HV).
      eapply changed_elsewhere; [|exact H|exact HX|exact HV|exact N|exact HK]. apply appended_name.
  - destruct ds as [|d ds]; [discriminate|]. destruct HE as (HE & HF). cbn [app] in HE, HF. destruct HE as (N & D).
    change (d :: ds ++ [c]) with ((d :: ds) ++ [c]) in HF. apply Forall_app in HF as (HF & _).
    destruct (addresses_first _ _ _ _ D HF HA) as (j & q' & x & Hq & HX & HV). destruct q as [|j0 q0].
    + exfalso. destruct HA as (st & HS & HA). rewrite stack_of_path in HS by (auto; discriminate). injection HS as <-.
      destruct ds as [|e ds]; [cbn [last] in HL; congruence|]. pose proof (eq_trans (eq_sym (traverse_pos_components root (d :: e :: ds))) HA) as HA1. clear HA. rename HA1 into HA. cbn [traverse_recurse] in HA.
      destruct (step_child root d) as [[a y]|]; [|discriminate]. destruct (step_child y e) as [[a' y']|]; [|discriminate].
      destruct (traverse_recurse y' ds); discriminate HA.
    + injection Hq as Hj _; subst j0. eapply changed_elsewhere; [|exact H|exact HX|exact HV|exact N|exact HK]. apply inserted_name.
Qed.

(** Putting steps together. *)
Section Keeps.
Context (E : env) (k : str) (n : node).
Notation keep := (keeps k n).
Lemma keep_nothing : keep nothing.
Proof. intros w w' ->. auto. Qed.
Lemma keep_tell m : keep (tell m).
Proof. intros w w' (H & _) HK. rewrite H. exact HK. Qed.
Lemma keep_seq A B : keep A -> keep B -> keep (A >> B).
Proof. intros HA HB w w' (m & H1 & H2) HK. apply (HB _ _ H2), (HA _ _ H1), HK. Qed.
Lemma keep_all l : Forall keep l -> keep (all_of l).
Proof. induction 1 as [|A l HA HL IH]; cbn [all_of]; [apply keep_nothing|apply keep_seq; assumption]. Qed.
Lemma keep_map {X} (f : X -> change) l : (forall x, In x l -> keep (f x)) -> keep (all_of (map f l)).
Proof. intros H. apply keep_all. apply Forall_forall. intros A HA. apply in_map_iff in HA as (x & <- & Hx). apply H, Hx. Qed.
Lemma keep_if_there cs A : keep A -> keep (if_there cs A).
Proof. intros H w w' [(_ & K)|(_ & ->)]; [exact (H _ _ K)|auto]. Qed.
Lemma keep_if_missing cs A : keep A -> keep (if_missing cs A).
Proof. intros H w w' [(_ & K)|(_ & ->)]; [exact (H _ _ K)|auto]. Qed.
Lemma keep_with_value cs d A : (forall v, keep (A v)) -> keep (with_value E cs d A).
Proof. intros H w w' (v & _ & K). exact (H v _ _ K). Qed.
Lemma keep_either P A B : keep A -> keep B -> keep (either P A B).
Proof. intros HA HB w w' [(_ & H)|(_ & H)]; eauto. Qed.
Lemma keep_provided P A : keep A -> keep (provided P A).
Proof. intros H w w' (_ & K). exact (H _ _ K). Qed.
Lemma keep_taken cs : elsewhere k cs -> keep (in_lines (line_taken cs)).
Proof. intros H w w' (K & _). eapply taken_keeps; eauto. Qed.
Lemma keep_put ds c v : elsewhere k (ds ++ [c]) -> keep (in_lines (value_put E ds c v)).
Proof. intros H w w' (K & _). eapply put_keeps; eauto. Qed.
Lemma keep_replaced cs v : elsewhere k cs -> keep (in_lines (value_replaced E cs v)).
Proof. intros H w w' (K & _). eapply value_replaced_keeps; eauto. Qed.
Lemma keep_moved ds c es d : elsewhere k (ds ++ [c]) -> elsewhere k (es ++ [d]) -> keep (moved E ds c es d).
Proof. intros H1 H2. apply keep_with_value. intros v w w' (_ & H). revert w w' H. apply keep_seq; [apply keep_taken, H1|apply keep_put, H2]. Qed.
Lemma keep_move ds c es d : elsewhere k (ds ++ [c]) -> elsewhere k (es ++ [d]) -> keep (move E ds c es d).
Proof. intros H1 H2. apply keep_if_there, keep_moved; assumption. Qed.
Lemma keep_rename ds c d : elsewhere k (ds ++ [c]) -> elsewhere k (ds ++ [d]) -> keep (rename E ds c d).
Proof. apply keep_move. Qed.
Lemma keep_created ds c : elsewhere k (ds ++ [c]) -> keep (created E ds c).
Proof. intros H. apply keep_if_missing, keep_put, H. Qed.
Lemma keep_nest ds c i d : elsewhere k (ds ++ [c]) -> elsewhere k (ds ++ [i]) -> elsewhere k ((ds ++ [i]) ++ [d]) -> keep (nest E ds c i d).
Proof. intros H1 H2 H3. apply keep_seq; [apply keep_if_there, keep_created, H2|apply keep_move; assumption]. Qed.
Lemma keep_dropped ds c : elsewhere k (ds ++ [c]) -> keep (dropped ds c).
Proof. intros H. apply keep_if_there, keep_seq; [apply keep_taken, H|apply keep_tell]. Qed.
Lemma sorted_name tbl : keeps_name (fun a b => sorted_lines tbl (n_children a) (n_children b) /\ b = with_lines a (n_children b)).
Proof. intros a b (_ & ->). split; reflexivity. Qed.
Lemma keep_order names cs : elsewhere k cs -> keep (in_order_of names cs).
Proof.
  intros (HC & HF). apply keep_if_there. intros w w' ((tbl & q & _ & _ & HA & H) & _) HK. destruct cs as [|c cs]; [destruct HC|]. destruct HC as (N & D).
  destruct (addresses_first _ _ _ _ D HF HA) as (j & q' & x & -> & HX & HV).
  eapply changed_elsewhere; [|exact H|exact HX|exact HV|exact N|exact HK]. apply sorted_name.
Qed.
End Keeps.

(** The sections the section steps touch. *)
Definition upgraded_sections : list str := skipn 2 known_sections.
Lemma upgraded_known k : ~ In k known_sections -> ~ In k upgraded_sections.
Proof. intros H K. apply H. unfold known_sections. right. right. exact K. Qed.
(** The packages of a recipe. *)
Definition a_base (bs : list str) : Prop := bs = [] \/ exists i, bs = [$"outputs"; str_of_nat i].
Lemma base_elsewhere k bs x cs : ~ In k upgraded_sections -> a_base bs -> (bs = [] -> existsb (str_eqb x) upgraded_sections = true /\ isdigit x = false) ->
  forallb comp_ok (x :: cs) = true -> elsewhere k (bs ++ x :: cs).
Proof.
  intros NK [->|(i & ->)] HX HC.
  - destruct (HX eq_refl) as (H1 & H2). split; [|apply comps_ok, HC]. cbn [app]. split; [|exact H2]. intros ->. apply NK.
    apply existsb_exists in H1 as (y & Hy & H1). apply str_eqb_eq in H1 as ->. exact Hy.
  - split; [|cbn [app]; constructor; [apply comp_ok_spec; vm_compute; reflexivity|constructor; [apply comp_ok_spec, number_ok|apply comps_ok, HC]]].
    cbn [app]. split; [|reflexivity]. intros <-. apply NK. unfold upgraded_sections, known_sections. cbn [skipn In]. tauto.
Qed.

Section Parts.
Context (E : env) (k : str) (n : node).
Hypothesis NK : ~ In k upgraded_sections.
Section One.
Context (bs : list str).
Hypothesis HB : a_base bs.
Lemma els x cs : existsb (str_eqb x) upgraded_sections && negb (isdigit x) && forallb comp_ok (x :: cs) = true -> elsewhere k (bs ++ x :: cs).
Proof. rewrite !andb_true_iff, negb_true_iff. intros ((H1 & H2) & H3). apply base_elsewhere; auto. Qed.
Ltac els := rewrite <- ?app_assoc; cbn [app]; apply els; vm_compute; reflexivity.
Ltac part := first [ apply keep_order | apply keep_nest | apply keep_rename | apply keep_move | apply keep_moved | apply keep_created | apply keep_dropped
  | apply keep_seq | apply keep_nothing | apply keep_tell | apply keep_if_there | apply keep_if_missing
  | apply keep_taken | apply keep_put | apply keep_replaced ].
Lemma keep_misspellings : keeps k n (misspellings_corrected E bs).
Proof. unfold misspellings_corrected, renames. repeat part; els. Qed.
Lemma keep_source ds : (exists cs, ds = bs ++ $"source" :: cs /\ forallb comp_ok cs = true) -> keeps k n (source_upgraded E ds).
Proof.
  intros (cs & -> & HC). unfold source_upgraded, renames.
  assert (forall c, comp_ok c = true -> elsewhere k ((bs ++ $"source" :: cs) ++ [c])) as HX.
  { intros c Hc. rewrite <- app_assoc. cbn [app]. apply els. rewrite !andb_true_iff. split; [split; vm_compute; reflexivity|].
    cbn [forallb]. rewrite forallb_app, HC. cbn [forallb]. rewrite Hc. vm_compute. reflexivity. }
  repeat part; try (apply HX; vm_compute; reflexivity).
  apply els. rewrite !andb_true_iff. split; [split; vm_compute; reflexivity|]. cbn [forallb]. rewrite HC. vm_compute. reflexivity.
Qed.
Lemma keep_sources : keeps k n (sources_upgraded E bs).
Proof.
  unfold sources_upgraded. apply keep_if_there, keep_with_value. intros v. destruct v as [p|l|d].
  - apply keep_source. exists []. auto.
  - apply keep_map. intros i _. apply keep_source. exists [str_of_nat i]. rewrite <- app_assoc. split; [reflexivity|]. cbn [forallb]. rewrite number_ok. reflexivity.
  - apply keep_source. exists []. auto.
Qed.
Lemma keep_script : keeps k n (script_upgraded E (bs ++ [$"build"])).
Proof.
  unfold script_upgraded. apply keep_with_value. intros v. destruct (json_truthy v); [|apply keep_nothing].
  intros w w' (items & kinds & env & _ & _ & _ & H). revert w w' H. change (keeps k n (with_value E ((bs ++ [$"build"]) ++ [$"script"]) (Some (JStr []))
    (fun script => in_lines (if json_truthy script then value_replaced E ((bs ++ [$"build"]) ++ [$"script"]) (new_script env (secrets_of kinds) script)
                       else value_put E (bs ++ [$"build"]) $"script" (new_script env (secrets_of kinds) script))
             >> in_lines (line_taken ((bs ++ [$"build"]) ++ [$"script_env"]))))).
  apply keep_with_value. intros script. apply keep_seq; [|apply keep_taken; els]. destruct (json_truthy script); [apply keep_replaced; els|apply keep_put; els].
Qed.
Lemma keep_build : keeps k n (build_upgraded E bs).
Proof.
  unfold build_upgraded, to_requirements, renames, all_dropped. cbv zeta.
  repeat first [apply keep_script | part]; els.
Qed.
Lemma keep_requirements : keeps k n (requirements_upgraded E bs).
Proof. unfold requirements_upgraded. repeat part; els. Qed.
Lemma keep_about closest : keeps k n (about_upgraded E closest bs).
Proof.
  unfold about_upgraded, renames, all_dropped, license_checked, summary_joined. cbv zeta.
  repeat part; try els.
  - apply keep_with_value. intros v. destruct v as [[| | | |s]|l|d]; try (intros w w' F; exact (False_ind _ F)); [apply keep_tell|]. destruct (closest s) as [c|]; [|apply keep_tell].
    destruct (list_eq_dec ascii_dec s c); [apply keep_nothing|]. apply keep_seq; [apply keep_replaced; els|apply keep_tell].
  - apply keep_with_value. intros v. destruct v as [p|l|d]; try apply keep_nothing. intros w w' (ls & _ & H). revert w w' H. apply keep_replaced. els.
Qed.
Lemma keep_tests : keeps k n (tests_upgraded E bs).
Proof.
  unfold tests_upgraded. cbv zeta. apply keep_if_there. repeat part; try els.
  - intros w w' H. revert H. apply keep_either.
    + apply keep_with_value. intros v. repeat part; els.
    + repeat part; els.
  - unfold pip_check_found. apply keep_with_value. intros host. apply keep_provided. apply keep_either; [|apply keep_nothing]. apply keep_with_value. intros v w w' (items & hit & _ & _ & H).
    revert w w' H. destruct hit as [i|].
    + apply keep_seq.
      * apply keep_seq; [|destruct (length items =? 1); [repeat part; els|apply keep_nothing]]. apply keep_taken.
        rewrite <- ?app_assoc. cbn [app]. apply els. rewrite !andb_true_iff. split; [split; vm_compute; reflexivity|]. cbn [forallb]. rewrite number_ok. vm_compute. reflexivity.
      * repeat part; els.
    + repeat part; els.
  - apply keep_with_value. intros v w w' (tests & _ & H). revert w w' H. repeat part; els.
Qed.
End One.
Lemma keep_output i : keeps k n (output_upgraded E [$"outputs"; str_of_nat i]).
Proof.
  assert (a_base []) as HB by (left; reflexivity).
  assert (forall cs, forallb comp_ok cs = true -> elsewhere k ($"outputs" :: str_of_nat i :: cs)) as HX.
  { intros cs HC. apply (els [] HB $"outputs" (str_of_nat i :: cs)). rewrite !andb_true_iff. split; [split; vm_compute; reflexivity|].
    cbn [forallb]. rewrite number_ok, HC. vm_compute. reflexivity. }
  unfold output_upgraded. repeat first [apply keep_seq|apply keep_move|apply keep_order]; try (apply HX; vm_compute; reflexivity).
  intros w w' H. revert H. apply keep_either; [apply keep_created; apply HX; vm_compute; reflexivity|apply keep_nothing].
Qed.
Lemma keep_sections closest m : keeps k n (sections_upgraded E closest (outputs_of m)).
Proof.
  assert (forall A, (forall bs, a_base bs -> keeps k n (A bs)) -> keeps k n (for_each A ([] :: outputs_of m))) as HF.
  { intros A HA. apply keep_map. intros bs [<-|HI]; [apply HA; left; reflexivity|]. apply HA. right. unfold outputs_of in HI. apply in_map_iff in HI as (i & <- & _). eauto. }
  unfold sections_upgraded. cbv zeta.
  apply keep_seq; [apply HF; intros bs HB; apply keep_misspellings, HB|].
  apply keep_seq; [apply HF; intros bs HB; apply keep_sources, HB|].
  apply keep_seq; [apply HF; intros bs HB; apply keep_build, HB|].
  apply keep_seq; [apply HF; intros bs HB; apply keep_requirements, HB|].
  apply keep_seq; [apply HF; intros bs HB; apply keep_about, HB|].
  apply keep_seq; [apply HF; intros bs HB; apply keep_tests, HB|].
  unfold outputs_upgraded. apply keep_if_there. apply keep_seq.
  - apply keep_rename; apply (els [] (or_introl eq_refl)); vm_compute; reflexivity.
  - apply keep_map. intros bs HI. unfold outputs_of in HI. apply in_map_iff in HI as (i & <- & _). apply keep_output.
Qed.
End Parts.
