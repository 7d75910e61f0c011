(** C135 (proofs only): steps that can be done are done. *)
From Verif Require Export SectionProofs4.
From Verif Require Import Lemmas PatchProofs PatchProofs2 TextProofs AnswerProofs RenderProofs2 RenderProofs4 SectionSpec.

(** * Orders given by names *)
Lemma strict_nth l i j x y : Sorted Z.lt l -> nth_error l i = Some x -> nth_error l j = Some y -> i < j -> (x < y)%Z.
Proof.
  intros S. apply Sorted_StronglySorted in S; [|intros a b c; lia]. revert i j. induction S as [|a l S IH F]; intros i j Hx Hy L; [destruct i; discriminate|].
  destruct i as [|i], j as [|j]; try lia.
  - injection Hx as <-. cbn [nth_error] in Hy. rewrite Forall_forall in F. apply F. exact (nth_error_In _ _ Hy).
  - apply (IH i j); auto. lia.
Qed.
Lemma strict_le l i j x y : Sorted Z.lt l -> nth_error l i = Some x -> nth_error l j = Some y -> ((x <= y)%Z <-> i <= j).
Proof.
  intros S Hx Hy. destruct (lt_eq_lt_dec i j) as [[L|Q]|L]; [|subst j|].
  - pose proof (strict_nth _ _ _ _ _ S Hx Hy L). split; lia.
  - rewrite Hx in Hy. injection Hy as ->. split; lia.
  - pose proof (strict_nth _ _ _ _ _ S Hy Hx L). split; lia.
Qed.
Section Tables.
Context (tbl tbl' : list (str * Z)).
Hypothesis HN : map fst tbl = map fst tbl'.
Hypothesis HS : Sorted Z.lt (map snd tbl).
Hypothesis HS' : Sorted Z.lt (map snd tbl').
Definition alike (a b : place) : Prop :=
  match a, b with
  | Front, Front | Back, Back => True
  | Known x, Known y => exists i, nth_error (map snd tbl) i = Some x /\ nth_error (map snd tbl') i = Some y
  | _, _ => False
  end.
Lemma places_alike n : alike (place_of tbl n) (place_of tbl' n).
Proof.
  unfold place_of. destruct (is_comment n); [exact I|]. destruct (n_value n) as [|[[| | | |s]|l|d]]; try exact I.
  assert (match find (fun kv : list ascii * Z => if list_eq_dec ascii_dec (fst kv) s then true else false) tbl,
                find (fun kv : list ascii * Z => if list_eq_dec ascii_dec (fst kv) s then true else false) tbl' with
          | Some (_, x), Some (_, y) => exists i, nth_error (map snd tbl) i = Some x /\ nth_error (map snd tbl') i = Some y
          | None, None => True | _, _ => False end) as H.
  { clear HS HS'. revert tbl' HN. induction tbl as [|[k x] t IH]; intros [|[k' x'] t'] HN'; try discriminate; [exact I|]. cbn [map fst] in HN'. injection HN' as <- HN'.
    cbn [find fst]. destruct (list_eq_dec ascii_dec k s); [exists 0; auto|]. specialize (IH t' HN').
    match type of IH with match ?a with Some _ => _ | None => _ end => destruct a as [[k1 x1]|] end;
      match type of IH with match ?a with Some _ => _ | None => _ end => destruct a as [[k2 x2]|] end; try exact IH. destruct IH as (i & H). exists (S i). exact H. }
  match type of H with match ?a with Some _ => _ | None => _ end => destruct a as [[k1 x1]|] end;
    match type of H with match ?a with Some _ => _ | None => _ end => destruct a as [[k2 x2]|] end; try contradiction; exact H.
Qed.
Lemma alike_after a a' b b' : alike a a' -> alike b b' -> not_after a b -> not_after a' b'.
Proof.
  destruct a, a', b, b'; cbn [alike not_after]; try tauto. intros (i & X1 & X2) (j & Y1 & Y2) L.
  apply (strict_le _ _ _ _ _ HS' X2 Y2). apply (strict_le _ _ _ _ _ HS X1 Y1). exact L.
Qed.
Lemma alike_eqb a a' b b' : alike a a' -> alike b b' -> place_eqb a b = place_eqb a' b'.
Proof.
  destruct a, a', b, b'; cbn [alike place_eqb]; try tauto. intros (i & X1 & X2) (j & Y1 & Y2).
  destruct (Nat.eq_dec i j) as [->|N].
  - rewrite X1 in Y1. rewrite X2 in Y2. injection Y1 as ->. injection Y2 as ->. rewrite !Z.eqb_refl. reflexivity.
  - assert ((k =? k1)%Z = false) as ->. { apply Z.eqb_neq. intros ->. pose proof (strict_le _ _ _ _ _ HS X1 Y1). pose proof (strict_le _ _ _ _ _ HS Y1 X1). lia. }
    symmetry. apply Z.eqb_neq. intros ->. pose proof (strict_le _ _ _ _ _ HS' X2 Y2). pose proof (strict_le _ _ _ _ _ HS' Y2 X2). lia.
Qed.
Lemma place_eqb_eq a b : place_eqb a b = true -> b = a.
Proof. destruct a, b; cbn [place_eqb]; try discriminate; auto. intros H. apply Z.eqb_eq in H as ->. reflexivity. Qed.
Lemma same_order l l' : sorted_lines tbl l l' -> sorted_lines tbl' l l'.
Proof.
  intros (P & O & F). split; [exact P|]. split.
  - intros a x b y c H. exact (alike_after _ _ _ _ (places_alike x) (places_alike y) (O a x b y c H)).
  - intros p. destruct (existsb (fun n => place_eqb (place_of tbl' n) p) l) eqn:X.
    + apply existsb_exists in X as (n0 & _ & X). apply place_eqb_eq in X as ->.
      assert (forall n, place_eqb (place_of tbl' n) (place_of tbl' n0) = place_eqb (place_of tbl n) (place_of tbl n0)) as Q
        by (intros n; symmetry; apply alike_eqb; apply places_alike).
      rewrite (filter_ext _ _ Q l'), (filter_ext _ _ Q l). apply F.
    + assert (forall k, (forall n, In n k -> In n l) -> filter (fun n => place_eqb (place_of tbl' n) p) k = []) as Z.
      { intros k. induction k as [|n k IH]; intros H; [reflexivity|]. cbn [filter]. rewrite IH by (intros m I; apply H; right; exact I).
        destruct (place_eqb (place_of tbl' n) p) eqn:Q; [|reflexivity]. assert (existsb (fun n => place_eqb (place_of tbl' n) p) l = true); [|congruence].
        apply existsb_exists. exists n. split; [apply H; left; reflexivity|exact Q]. }
      rewrite (Z l'), (Z l); auto. intros n I. exact (Permutation_in _ (Permutation_sym P) I).
Qed.
End Tables.

(** * Each change has one result *)
Lemma app_inj_len {A} (a b x y : list A) : length a = length b -> a ++ x = b ++ y -> a = b /\ x = y.
Proof. revert b. induction a as [|u a IH]; intros [|v b] L H; try discriminate; auto. injection H as -> H. injection L as L. destruct (IH b L H) as (-> & ->). auto. Qed.
Lemma changed_once (R : node -> node -> Prop) q : (forall n a b, R n a -> R n b -> a = b) -> forall n a b, changed_at R q n a -> changed_at R q n b -> a = b.
Proof.
  intros HR. induction q as [|i q IH]; intros n a b HA HB.
  - inversion HA; inversion HB; subst. eapply HR; eauto.
  - inversion HA as [|n1 b1 c1 c1' a1 p1 E1 K1]; inversion HB as [|n2 b2 c2 c2' a2 p2 E2 K2]; subst.
    rewrite E1 in E2. assert (length b1 = length b2) as L by congruence. destruct (app_inj_len b1 b2 _ _ L E2) as (-> & H). injection H as -> ->.
    rewrite (IH _ _ _ K1 K2). reflexivity.
Qed.
Lemma removed_once i n a b : line_removed i n a -> line_removed i n b -> a = b.
Proof.
  intros (b1 & x1 & a1 & E1 & L1 & ->) (b2 & x2 & a2 & E2 & L2 & ->). rewrite E1 in E2.
  destruct (app_inj_len b1 b2 _ _ (eq_trans L1 (eq_sym L2)) E2) as (-> & H). injection H as -> ->. reflexivity.
Qed.
Lemma inserted_once i l n a b : lines_inserted i l n a -> lines_inserted i l n b -> a = b.
Proof.
  intros (b1 & a1 & E1 & L1 & ->) (b2 & a2 & E2 & L2 & ->). rewrite E1 in E2.
  destruct (app_inj_len b1 b2 _ _ (eq_trans L1 (eq_sym L2)) E2) as (-> & ->). reflexivity.
Qed.
Lemma taken_once cs root a b : line_taken cs root a -> line_taken cs root b -> a = b.
Proof.
  intros (q & i & A1 & _ & C1) (q' & i' & A2 & _ & C2). pose proof (address_same _ _ _ _ A1 A2) as Q. apply app_inj_tail in Q as (<- & <-).
  exact (changed_once _ q (removed_once i) _ _ _ C1 C2).
Qed.
Lemma replaced_once E cs v root a b : value_replaced E cs v root a -> value_replaced E cs v root b -> a = b.
Proof.
  intros (q & l & A1 & _ & W1 & C1) (q' & l' & A2 & _ & W2 & C2). pose proof (address_same _ _ _ _ A1 A2) as <-.
  unfold written_as in W1, W2. rewrite W1 in W2. injection W2 as <-. refine (changed_once _ q _ _ _ _ C1 C2). unfold content_replaced. congruence.
Qed.
(** Taking and writing: what the change says can be done is done. *)
Lemma remove_works E cs c r root' : Forall component (cs ++ [c]) -> proper_tree (r_root r) = true -> line_taken (cs ++ [c]) (r_root r) root' ->
  exists r', patch E (p_remove (path_text (cs ++ [c]))) r = (Ok true, r') /\ r_root r' = root'.
Proof.
  intros HC HP HL. destruct (c12_when E _ (cs ++ [c]) r HP (asks_remove _ (path_nonnil _ _)) HC) as (_ & W).
  destruct (patch E (p_remove (path_text (cs ++ [c]))) r) as [o r'] eqn:P. cbn [fst] in W.
  assert (o = Ok true) as ->. { apply W. destruct HL as (q & i & A & (x & X & B) & _). exists q, i, x. auto. }
  exists r'. split; [reflexivity|]. destruct (remove_success E cs c r r' HP P) as (_ & K). exact (taken_once _ _ _ _ K HL).
Qed.
Lemma replace_works E ds c v r root' : Forall component (ds ++ [c]) -> isdigit c = false -> value_replaced E (ds ++ [c]) v (r_root r) root' ->
  exists r', patch E (p_replace (path_text (ds ++ [c])) v) r = (Ok true, r') /\ r_root r' = root'.
Proof.
  intros HC D HL. pose proof HL as (q & lines & A & (n & N & B) & W & C).
  pose proof (c13_when E _ (ds ++ [c]) v r q n lines (asks_replace (path_text (ds ++ [c])) v (path_nonnil _ _)) HC A N B W) as S.
  destruct (patch E (p_replace (path_text (ds ++ [c])) v) r) as [o r'] eqn:P. cbn [fst] in S. subst o.
  exists r'. split; [reflexivity|]. destruct (replace_success E ds c v r r' HC D P) as (_ & K). exact (replaced_once _ _ _ _ _ _ K HL).
Qed.
(** The target of an addition, from the place. *)
Lemma place_target ds c root : Forall component (ds ++ [c]) -> isdigit c = false -> c <> $"-" -> place_for ds c root ->
  exists t q, patch_add_find_target root (c :: rev ds ++ [ROOT_VALUE]) = Ok t /\ at_pos t = Some q /\ is_valid_patch_node (node_at root q) (at_virt t) = true
    /\ at_append t = false /\ at_create t = match traverse_pos root (c :: rev ds ++ [ROOT_VALUE]) with Some _ => [] | None => c end.
Proof.
  intros HC D ND H. destruct (stack_snoc ds c HC) as (HT & HT'). pose proof (present_stack root ds c HC) as HP.
  assert (Forall component ds) as HD by (apply Forall_app in HC as (HC & _); exact HC).
  unfold patch_add_find_target. apply str_eqb_neq in ND. rewrite ND. rewrite twi_name_eq by auto. cbn [bind].
  destruct H as [q A (n & N & B)|q n NP A N B L|q n NP A N DL B].
  - apply (addresses_stack _ _ _ _ HT) in A. rewrite A. eexists _, q. split; [reflexivity|]. cbn [at_pos at_virt at_append at_create]. split; [reflexivity|]. split; [|auto].
    rewrite N, valid_bare, B. reflexivity.
  - destruct (traverse_pos root (c :: rev ds ++ [ROOT_VALUE])) as [q1|] eqn:Q; [exfalso; apply NP; apply HP; discriminate|].
    assert (traverse_with_index root (rev ds ++ [ROOT_VALUE]) = Ok (Some q, None, None)) as ->.
    { destruct ds as [|d ds0] using rev_ind; [|clear IHds0].
      - cbn [rev app]. rewrite twi_name_eq by reflexivity. apply (addresses_stack _ _ _ _ HT') in A. cbn [rev app] in A. rewrite A. reflexivity.
      - rewrite last_last in L. destruct (isdigit d) eqn:DD.
        + apply (twi_container _ _ _ n HD A N). right. auto.
        + apply (addresses_stack _ _ _ _ HT') in A. rewrite rev_app_distr in *. cbn [rev app] in *. rewrite twi_name_eq by exact DD. rewrite A. reflexivity. }
    cbn [bind]. eexists _, q. split; [reflexivity|]. cbn [at_pos at_virt at_append at_create]. split; [reflexivity|]. split; [|auto].
    rewrite N, valid_bare, B. reflexivity.
  - destruct (traverse_pos root (c :: rev ds ++ [ROOT_VALUE])) as [q1|] eqn:Q; [exfalso; apply NP; apply HP; discriminate|].
    destruct ds as [|d ds0] using rev_ind; [discriminate|]. clear IHds0. rewrite last_last in DL.
    destruct (traverse_parent ds0 d root q HD A) as (qp & np & i & x & -> & Hqp & Hnp & Hs).
    assert (x = n) as ->. { rewrite node_at_app, Hnp in N. cbn [node_at] in N. rewrite (step_child_nth _ _ _ _ Hs) in N. congruence. }
    rewrite rev_app_distr. cbn [rev app]. rewrite (twi_index_eq _ _ _ _ _ _ _ DL Hqp Hnp Hs). rewrite collection_spec, B. cbn [bind].
    eexists _, qp. split; [reflexivity|]. cbn [at_pos at_virt at_append at_create]. split; [reflexivity|]. split; [|auto].
    rewrite Hnp. exact (valid_index_intro _ _ _ _ DL Hs).
Qed.
Lemma put_place E ds c v root root' : value_put E ds c v root root' -> place_for ds c root.
Proof.
  intros [(q & l & A & O & _)|q n l NP A N B L W C|q i n l NP A N D B W C].
  - exact (place_there _ _ _ q A O).
  - exact (place_below _ _ _ q n NP A N B L).
  - exact (place_beside _ _ _ (q ++ [i]) n NP A N D B).
Qed.
Lemma put_present E ds c v root root' : value_put E ds c v root root' -> present root (ds ++ [c]) -> exists lines, written_as E v lines.
Proof. intros [(q & l & A & O & W & _)|q n l NP A N B L W C|q i n l NP A N D B W C] P; [eauto|contradiction|contradiction]. Qed.
Lemma put_absent E ds c v root root' : value_put E ds c v root root' -> ~ present root (ds ++ [c]) -> exists lines, written_as E (JDict [(PStr c, v)]) lines.
Proof. intros [(q & l & A & O & W & _)|q n l NP A N B L W C|q i n l NP A N D B W C] P; [destruct P; exists q; exact A|eauto|eauto]. Qed.
(** One result of putting a value. *)
Lemma put_once E ds c v root a b : Forall component (ds ++ [c]) -> value_put E ds c v root a -> value_put E ds c v root b -> a = b.
Proof.
  intros HC. assert (forall q q', addresses root (path_text ds ++ $"/") q -> addresses root (path_text ds) q' -> isdigit (last ds []) = true -> q = q') as SA.
  { intros q q' A A' D. destruct (exists_last (l := ds)) as (d0 & d & ->); [intros ->; discriminate|]. assert (Forall component (d0 ++ [d])) as HD by (apply Forall_app in HC as (HD & _); exact HD).
    destruct (stack_snoc d0 d HD) as (T1 & _). destruct (stack_snoc (d0 ++ [d]) c HC) as (_ & T2). apply (addresses_stack _ _ _ _ T1) in A'. apply (addresses_stack _ _ _ _ T2) in A.
    rewrite rev_app_distr in A. cbn [rev app] in A. congruence. }
  intros [H1|q n l NP A N B L W C|q i n l NP A N D B W C] [H2|q' n' l' NP' A' N' B' L' W' C'|q' i' n' l' NP' A' N' D' B' W' C'];
    try (destruct H1 as (q1 & l1 & A1 & _); exfalso; (apply NP' || apply NP); exists q1; exact A1);
    try (destruct H2 as (q1 & l1 & A1 & _); exfalso; (apply NP' || apply NP); exists q1; exact A1).
  - exact (replaced_once _ _ _ _ _ _ H1 H2).
  - pose proof (address_same _ _ _ _ A A') as <-. unfold written_as in W, W'. rewrite W in W'. injection W' as <-.
    refine (changed_once _ q _ _ _ _ C C'). unfold lines_appended. congruence.
  - exfalso. pose proof (SA _ _ A A' D') as ->. rewrite N in N'. injection N' as <-. rewrite (L D') in B'. discriminate.
  - exfalso. pose proof (SA _ _ A' A D) as ->. rewrite N in N'. injection N' as <-. rewrite (L' D) in B. discriminate.
  - pose proof (address_same _ _ _ _ A A') as Q. apply app_inj_tail in Q as (<- & <-). unfold written_as in W, W'. rewrite W in W'. injection W' as <-.
    exact (changed_once _ q (inserted_once i _) _ _ _ C C').
Qed.
Lemma add_runs E ds c v root root' : Forall component (ds ++ [c]) -> isdigit c = false -> c <> $"-" -> value_put E ds c v root root' ->
  fst (patch_add E root (c :: rev ds ++ [ROOT_VALUE]) v) = Ok true.
Proof.
  intros HC D ND H. destruct (place_target ds c root HC D ND (put_place _ _ _ _ _ _ H)) as (t & q & FT & Q & V & AP & CR).
  unfold patch_add. rewrite FT, Q, V. cbn [negb]. cbv zeta.
  assert (exists new, generate_subtree E (if is_nil (at_create t) then v else JDict [(PStr (at_create t), v)]) = Ok new) as (new & ->).
  { rewrite CR. pose proof (present_stack root ds c HC) as HP. destruct (traverse_pos root (c :: rev ds ++ [ROOT_VALUE])).
    - exact (put_present _ _ _ _ _ _ H (proj2 HP ltac:(discriminate))).
    - assert (is_nil c = false) as -> by (apply Forall_app in HC as (_ & HC); inversion HC; apply component_nonnil; auto).
      refine (put_absent _ _ _ _ _ _ H _). intros P. apply HP in P. contradiction. }
  reflexivity.
Qed.
Lemma add_works E ds c v r root' : Forall component (ds ++ [c]) -> isdigit c = false -> c <> $"-" -> value_put E ds c v (r_root r) root' ->
  exists r', patch E (p_add (path_text (ds ++ [c])) v) r = (Ok true, r') /\ r_root r' = root'.
Proof.
  intros HC D ND H. pose proof (add_runs E ds c v _ _ HC D ND H) as A. destruct (stack_snoc ds c HC) as (HT & _).
  destruct (patch_add E (r_root r) (c :: rev ds ++ [ROOT_VALUE]) v) as [o root1] eqn:PA. cbn [fst] in A. subst o.
  destruct (patch_works E (p_add (path_text (ds ++ [c])) v) _ r root1 (asks_add _ v (path_nonnil _ _)) eq_refl eq_refl) as (r' & P & R & _).
  { unfold perform. cbn [request_path]. rewrite HT. exact PA. }
  exists r'. split; [exact P|]. destruct (add_success E ds c v r r' HC D ND P) as (_ & K). exact (put_once _ _ _ _ _ _ _ HC K H).
Qed.
Lemma move_can E ds c es d v r mid root' : Forall component (ds ++ [c]) -> Forall component (es ++ [d]) ->
  isdigit d = false -> d <> $"-" -> ds ++ [c] <> es ++ [d] -> proper_tree (r_root r) = true ->
  get_value E (r_root r) (path_text (ds ++ [c])) None None = Ok v -> place_for es d (r_root r) ->
  line_taken (ds ++ [c]) (r_root r) mid -> value_put E es d v mid root' ->
  exists r', patch E (p_move (path_text (ds ++ [c])) (path_text (es ++ [d]))) r = (Ok true, r') /\ r_root r' = root'.
Proof.
  intros HC HC' D ND NE HP HV PL HL HW.
  destruct (stack_snoc es d HC') as (HT & _). destruct (stack_snoc ds c HC) as (HF & _).
  destruct (remove_works E ds c r mid HC HP HL) as (r1 & P1 & R1).
  apply (patch_success E _ _ r r1 (asks_remove _ (path_nonnil _ _))) in P1 as (root1 & P1 & Q1 & _); auto.
  unfold perform in P1. cbn [request_path] in P1. rewrite HF in P1. assert (root1 = mid) as -> by congruence.
  pose proof (add_runs E es d v mid root' HC' D ND HW) as A.
  destruct (patch_add E mid (d :: rev es ++ [ROOT_VALUE]) v) as [o root2] eqn:PA. cbn [fst] in A. subst o.
  destruct (place_target es d (r_root r) HC' D ND PL) as (t & q & FT & Q & V & _).
  destruct (patch_works E (p_move (path_text (ds ++ [c])) (path_text (es ++ [d]))) _ r root2 (asks_move _ _ (path_nonnil _ _))) as (r' & P & R & _).
  { cbn. apply str_eqb_neq. intros K. apply NE. symmetry. apply path_text_inj; auto using snoc_nonnil. }
  { reflexivity. }
  { unfold perform. cbn [request_path]. rewrite HT. unfold patch_move. rewrite HV, FT, Q. cbn [at_opt]. rewrite V. cbn [negb]. rewrite HF, P1. exact PA. }
  exists r'. split; [exact P|]. rewrite R.
  destruct (patch_works E (p_add (path_text (es ++ [d])) v) _ r1 root2 (asks_add _ v (path_nonnil _ _)) eq_refl eq_refl) as (r2 & P2 & R2 & _).
  { unfold perform. cbn [request_path]. rewrite HT, R1. exact PA. }
  destruct (add_success E es d v r1 r2 HC' D ND P2) as (_ & K). rewrite R1, R2 in K. exact (put_once _ _ _ _ _ _ _ HC' K HW).
Qed.
