(** The selector step as a whole: the theorem (C91). *)
From Verif Require Export PhaseProofs4.
From Verif Require Import PhaseSpec.

Lemma preorder_list_nodup cs : Forall (fun c => NoDup (preorder c)) cs -> forall i,
  NoDup (preorder_list i cs) /\ forall p, In p (preorder_list i cs) -> exists j q, p = j :: q /\ i <= j.
Proof.
  induction cs as [|c cs IH]; intros HF i; cbn [preorder_list].
  - split; [constructor|]. intros p [].
  - inversion HF as [|? ? H1 H2]; subst. destruct (IH H2 (S i)) as (A & B). split.
    + apply nodup_app; auto.
      * apply map_inj_nodup; auto. intros x y [= ->]. reflexivity.
      * intros x Hx Hy. apply in_map_iff in Hx as (q & <- & _). apply B in Hy as (j & q' & [= <- <-] & L). lia.
    + intros p Hp. apply in_app_iff in Hp as [Hp|Hp].
      * apply in_map_iff in Hp as (q & <- & _). exists i, q. auto.
      * apply B in Hp as (j & q & -> & L). exists j, q. split; auto. lia.
Qed.
Lemma preorder_nodup n : NoDup (preorder n).
Proof.
  induction n as [v c chs l ml k IH] using node_ind'. rewrite preorder_eq. cbn [n_children].
  destruct (preorder_list_nodup chs IH 0) as (A & B). constructor; auto. intros H. apply B in H as (j & q & H & _). discriminate.
Qed.
Lemma filter_nodup {A} (f : A -> bool) l : NoDup l -> NoDup (filter f l).
Proof.
  induction 1 as [|x l H1 H2 IH]; cbn [filter]; [constructor|]. destruct (f x); auto. constructor; auto.
  intros H. apply filter_In in H. tauto.
Qed.
Lemma dict_eta {V} (d : list (str * V)) : NoDup (dkeys d) -> d = flat_map (fun k => match dget k d with Some v => [(k, v)] | None => [] end) (dkeys d).
Proof.
  induction d as [|[k v] d IH]; intros H; cbn [dkeys map fst flat_map]; auto. inversion H as [|? ? H1 H2]; subst.
  change (map fst d) with (dkeys d) in *. cbn [dget]. rewrite str_eqb_refl. cbn [app]. f_equal. rewrite IH at 1 by auto.
  clear IH. revert H1. generalize (dkeys d) as ks. induction ks as [|x ks IHk]; intros HN; cbn [flat_map]; auto.
  cbn [dget]. assert (str_eqb x k = false) as ->. { apply str_eqb_neq. intros ->. apply HN. left; auto. }
  f_equal. apply IHk. intros HI. apply HN. right; auto.
Qed.

Section Whole.
Context (T : tools).
Let E := t_env T.
Context (root : node).
Hypothesis HAD : addressable_document root = true.
Hypothesis HR : ready E root.
Notation line_of := (line_of root).
Notation info := (info T root).

Definition all_lines : list (str * position) :=
  flat_map (fun sel => map (pair sel) (positions_where (has_selector sel) root)) (first_occurrences (selectors_of_lines root)).
Lemma visits_positions (f : node -> bool) :
  filter (fun np : node * stack => f (fst np)) (visits E root)
  = map (fun p => (line_of p, stack_at E root [ROOT_VALUE] p)) (positions_where f root).
Proof.
  rewrite visits_spec. unfold positions_where.
  assert (forall p, In p (preorder root) -> exists m, node_at root p = Some m) as HI by apply preorder_node_at.
  induction (preorder root) as [|p ps IH]; cbn [map filter]; auto.
  destruct (HI p) as (m & Hm); [left; auto|]. cbn [fst]. rewrite Hm.
  assert (forall q, In q ps -> exists m, node_at root q = Some m) as HI' by (intros q Hq; apply HI; right; auto).
  specialize (IH HI'). destruct (f m) eqn:Ef; cbn [map]; rewrite IH; auto.
  assert (line_of p = m) as HL by (unfold PhaseProofs4.line_of; rewrite Hm; reflexivity). rewrite HL. reflexivity.
Qed.
Lemma selector_listed sel p : In p (positions_where (has_selector sel) root) <-> exists n, node_at root p = Some n /\ selector_of (n_comment n) = Some sel.
Proof.
  rewrite positions_where_In. unfold has_selector. split; intros (n & Hn & H); exists n; split; auto.
  - destruct (selector_of (n_comment n)) as [s|]; [|discriminate]. destruct (list_eq_dec ascii_dec s sel); [congruence|discriminate].
  - rewrite H. destruct (list_eq_dec ascii_dec sel sel); [reflexivity|contradiction].
Qed.
Lemma selectors_in sel : In sel (selectors_of_lines root) <-> exists p, In p (positions_where (has_selector sel) root).
Proof.
  unfold selectors_of_lines. rewrite in_flat_map. split.
  - intros (p & Hp & H). exists p. apply selector_listed. destruct (preorder_node_at _ _ Hp) as (n & Hn). exists n. split; auto.
    unfold comment_at in H. rewrite Hn in H. destruct (selector_of (n_comment n)); [|destruct H]. destruct H as [->|[]]. reflexivity.
  - intros (p & Hp). pose proof Hp as Hp'. apply selector_listed in Hp' as (n & Hn & HS). exists p. split; [eapply node_at_preorder; eauto|].
    unfold comment_at. rewrite Hn, HS. left; auto.
Qed.
Lemma table_lines s : each (collect_selectors E root) (fun entry => each (snd entry) (upgrade_selector T (fst entry))) s
  = each (map info all_lines) (upgrade_info T) s.
Proof.
  assert (NoDup (dkeys (collect_selectors E root))) as ND.
  { rewrite collect_selectors_keys. apply first_occurrences_NoDup. }
  rewrite (dict_eta _ ND), collect_selectors_keys. unfold all_lines.
  assert (forall sel, In sel (first_occurrences (selectors_of_lines root)) ->
     dget sel (collect_selectors E root) = Some (map (fun p => (line_of p, stack_at E root [ROOT_VALUE] p)) (positions_where (has_selector sel) root))) as HG.
  { intros sel HI. unfold collect_selectors. rewrite collect_get, visits_positions. apply (proj1 (first_occurrences_In _ _)) in HI.
    apply selectors_in in HI as (p & Hp). destruct (positions_where (has_selector sel) root); [destruct Hp|reflexivity]. }
  revert HG. generalize (first_occurrences (selectors_of_lines root)) as sels. clear ND. intros sels. revert s.
  induction sels as [|sel sels IH]; intros s HG; cbn [flat_map]; [reflexivity|].
  rewrite (HG sel) by (left; auto). cbn [app each fst snd]. rewrite map_app, each_app. unfold andthen.
  assert (forall l s, each (map (fun p => (line_of p, stack_at E root [ROOT_VALUE] p)) l) (upgrade_selector T sel) s
            = each (map info (map (pair sel) l)) (upgrade_info T) s) as HE.
  { clear. induction l as [|p l IH]; intros s; [reflexivity|]. cbn [map each]. unfold andthen at 1 2. unfold upgrade_info at 1, PhaseProofs4.info at 1 2. cbn [fst snd]. fold E.
    destruct (upgrade_selector T sel (line_of p, stack_at E root [ROOT_VALUE] p) s) as [[[]|e] s']; auto. }
  rewrite HE. destruct (each (map info (map (pair sel) (positions_where (has_selector sel) root))) (upgrade_info T) s) as [[[]|e] s1]; auto.
  apply IH. intros x Hx. apply HG. right; auto.
Qed.
Lemma all_lines_in sel p : In (sel, p) all_lines <-> exists n, node_at root p = Some n /\ selector_of (n_comment n) = Some sel.
Proof.
  unfold all_lines. rewrite in_flat_map. rewrite <- selector_listed. split.
  - intros (x & _ & H). apply in_map_iff in H as (q & [= -> ->] & H). exact H.
  - intros H. exists sel. split; [apply first_occurrences_In, selectors_in; eauto|]. apply in_map. exact H.
Qed.
Lemma all_lines_listed : Forall (listed root) all_lines.
Proof. apply Forall_forall. intros [sel p] H. apply all_lines_in in H. exact H. Qed.
Lemma all_lines_nodup : NoDup (map snd all_lines).
Proof.
  unfold all_lines. pose proof (first_occurrences_NoDup (selectors_of_lines root)) as ND. revert ND.
  generalize (first_occurrences (selectors_of_lines root)) as sels. induction sels as [|sel sels IH]; intros ND; cbn [flat_map map]; [constructor|].
  inversion ND as [|? ? H1 H2]; subst. rewrite map_app. apply nodup_app; auto.
  - rewrite map_map. cbn [snd]. rewrite map_id. apply filter_nodup, preorder_nodup.
  - intros p Hp Hq. rewrite map_map in Hp. cbn [snd] in Hp. rewrite map_id in Hp. apply selector_listed in Hp as (n & Hn & HS).
    apply in_map_iff in Hq as ([sel' p'] & Heq & Hq). cbn [snd] in Heq. subst p'. apply in_flat_map in Hq as (x & Hx & Hq).
    apply in_map_iff in Hq as (p' & [= -> ->] & Hq). apply selector_listed in Hq as (n' & Hn' & HS'). congruence.
Qed.
Lemma reports : flat_map (fun sp => PhaseProofs4.report T root (snd sp)) all_lines = selector_reports E root.
Proof.
  unfold all_lines, selector_reports. generalize (first_occurrences (selectors_of_lines root)) as sels.
  induction sels as [|sel sels IH]; cbn [flat_map]; auto. rewrite flat_map_app, IH. f_equal.
  unfold positions_where. assert (forall p, In p (preorder root) -> exists m, node_at root p = Some m) as HI by apply preorder_node_at.
  induction (preorder root) as [|p ps IHp]; cbn [filter map flat_map]; auto.
  destruct (HI p) as (m & Hm); [left; auto|]. rewrite Hm.
  assert (forall q, In q ps -> exists m, node_at root q = Some m) as HI' by (intros q Hq; apply HI; right; auto). specialize (IHp HI').
  destruct (has_selector sel m) eqn:HS; [|rewrite andb_false_r; exact IHp]. rewrite andb_true_r. cbn [map flat_map snd].
  unfold PhaseProofs4.report at 1, PhaseProofs4.line_of at 1. rewrite Hm. fold E. destruct (not_conditional m); cbn [app map]; rewrite IHp; reflexivity.
Qed.
Lemma target_site d : In d (targets root (rev all_lines)) <-> site root d.
Proof.
  unfold targets. rewrite in_map_iff. split.
  - intros ([sel p] & <- & H). apply filter_In in H as (H & HC). apply in_rev in H. cbn [snd] in *.
    destruct (listed_entry root (sel, p)) as (n & HE); auto.
    { pose proof all_lines_listed as HL. rewrite Forall_forall in HL. apply HL. exact H. }
    cbn [fst snd] in HE. destruct (entry_target E root HAD HR p n sel HE) as [(L & ->)|(L & HB & q & k & -> & -> & Hk & Hch & _ & Hb & _)].
    + destruct HE as (Hn & HT & HS & _). exists n, sel. split; auto. left. split; auto.
    + destruct HE as (_ & _ & HS & _). exists k, sel. split; auto. right. exists n. auto.
  - intros (n & sel & Hn & [(HT & HL & HS)|(m & Hch & Hb & HB & HS)]).
    + exists (sel, d). cbn [snd]. split; [unfold owner; rewrite Hn, HL; reflexivity|]. apply filter_In. split.
      * apply -> in_rev. apply all_lines_in. eauto.
      * cbn [snd]. unfold converts, PhaseProofs4.line_of. rewrite Hn, HT, HL. reflexivity.
    + assert (node_at root (d ++ [0]) = Some m) as Hm by (rewrite node_at_app, Hn; cbn [node_at]; rewrite Hch; reflexivity).
      pose proof Hb as Hb'. unfold bare_value in Hb'. rewrite !andb_true_iff, !negb_true_iff in Hb'. destruct Hb' as ((B1 & B2) & B3).
      exists (sel, d ++ [0]). cbn [snd]. split; [unfold owner; rewrite Hm, B2, B3; apply removelast_last|]. apply filter_In. split.
      * apply -> in_rev. apply all_lines_in. eauto.
      * cbn [snd]. unfold converts, PhaseProofs4.line_of. rewrite Hm, B1, HB. apply orb_true_r.
Qed.
Lemma c91 s : r_root (v1 s) = root -> r_sel (v1 s) = collect_selectors E root ->
  exists s', upgrade_selectors_to_conditionals T s = (Ok tt, s') /\ same_but_tree (v1 s) (v1 s')
  /\ (forall p n sel, node_at root p = Some n -> conditional_element n sel ->
        exists n', node_at (r_root (v1 s')) p = Some n' /\ element_after E n n' sel)
  /\ (forall q k sel, node_at root q = Some k -> conditional_switch k sel ->
        exists k', node_at (r_root (v1 s')) q = Some k' /\ key_after E (path_at E root q) k k' sel)
  /\ (forall p n, node_at root p = Some n -> (forall q, site root q -> ~ above q p) ->
        exists n', node_at (r_root (v1 s')) p = Some n' /\ same_line n n')
  /\ (forall c, get_messages c (msgs s') = get_messages c (msgs s) ++ (match c with WARNING => selector_reports E root | _ => [] end)).
Proof.
  intros HRt HSel. unfold upgrade_selectors_to_conditionals, ask, andthen. rewrite HSel, table_lines.
  destruct (all_entries T root HAD HR all_lines [] s) as (s' & A & B & C & M).
  - exact all_lines_listed.
  - exact all_lines_nodup.
  - cbn [rev]. rewrite HRt. exact (inv_start E root HAD).
  - cbn [app] in B. exists s'. split; [exact A|]. split; auto.
    assert (forall q n sel, node_at root q = Some n -> (conditional_element n sel \/ conditional_switch n sel) ->
       exists n', node_at (r_root (v1 s')) q = Some n' /\ done_at E root q n n') as HD.
    { intros q n sel Hn HC. destruct (inv_done _ _ _ _ B q) as (a & b & HA & HB & HD).
      - apply target_site. exists n, sel. auto.
      - rewrite Hn in HA. injection HA as <-. eauto. }
    split; [|split; [|split]].
    + intros p n sel Hn HC. destruct (HD p n sel Hn (or_introl HC)) as (n' & Hn' & [(sel' & HC' & HE)|(sel' & HC' & _)]); exists n'; split; auto.
      * destruct HC as (_ & _ & HS), HC' as (_ & _ & HS'). congruence.
      * exfalso. destruct HC as (HT & _). destruct HC' as (m & Hch & _). unfold terminal in HT. rewrite Hch in HT. discriminate.
    + intros q k sel Hk HC. destruct (HD q k sel Hk (or_intror HC)) as (k' & Hk' & [(sel' & HC' & _)|(sel' & HC' & HE)]); exists k'; split; auto.
      * exfalso. destruct HC' as (HT & _). destruct HC as (m & Hch & _). unfold terminal in HT. rewrite Hch in HT. discriminate.
      * destruct HC as (m & Hch & _ & _ & HS), HC' as (m' & Hch' & _ & _ & HS'). congruence.
    + intros p n Hn HS. apply (inv_beside _ _ _ _ B); auto. intros d Hd. apply HS. apply target_site. exact Hd.
    + intros c. rewrite M. destruct c; auto. rewrite reports. reflexivity.
Qed.
End Whole.
