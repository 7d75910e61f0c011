(** The two kinds of replacement of the selector step (C91). *)
From Verif Require Export PhaseProofs.
From Verif Require Import PhaseSpec.

Ltac known :=
  intros ? ? H; cbn [In] in H;
  repeat (destruct H as [H|H]; [injection H as <- <-; cbn [In]; repeat (first [left; reflexivity | right])|]); destruct H.
Lemma asks_replace path v : path <> [] -> asks (p_replace path v) (RReplace path v).
Proof.
  intros N. exists [(PStr $"op", JStr $"replace"); (PStr $"path", JStr path); (PStr $"value", v)].
  split; [reflexivity|]. split; [known|]. split; [left; vm_compute; reflexivity|].
  split; [vm_compute; reflexivity|]. split; [reflexivity|]. split; auto.
Qed.
Lemma addresses_snoc cs root q : Forall component cs -> addresses root (path_text cs) q -> exists ds c, cs = ds ++ [c].
Proof.
  intros HC HA. pose proof (addresses_nonempty _ _ _ HA) as N. destruct (exists_last (l := cs)) as (ds & c & ->); eauto.
  intros ->. apply N. reflexivity.
Qed.
Lemma remove_insert {A} i (x : A) l d : nth_error l i = Some d -> remove_nth (i + 1) (insert_at i [x] l) = map_nth i (fun _ => x) l.
Proof.
  intros H. pose proof (map_nth_split i (fun _ => x) l d H) as HS. rewrite HS.
  assert (length (firstn i l) = i) as HL by (apply firstn_length_le; assert (i < length l) by (apply nth_error_Some; congruence); lia).
  assert (skipn i l = d :: skipn (S i) l) as HK.
  { clear -H. revert i H. induction l as [|y l IH]; intros [|i] H; cbn in *; try discriminate; [congruence|auto]. }
  unfold remove_nth, insert_at. rewrite HK. 
  replace (i + 1) with (length (firstn i l ++ [x])) by (rewrite app_length, HL; cbn; lia).
  change (firstn i l ++ [x] ++ d :: skipn (S i) l) with (firstn i l ++ ([x] ++ d :: skipn (S i) l)).
  rewrite app_assoc, firstn_app, firstn_all, Nat.sub_diag. cbn [firstn]. rewrite app_nil_r.
  rewrite <- app_assoc. f_equal. cbn [app]. f_equal.
  rewrite skipn_app. rewrite skipn_all2 by lia. 
  replace (S (length (firstn i l ++ [x])) - length (firstn i l ++ [x])) with 1 by lia. reflexivity.
Qed.
Lemma replace_element E ds c v r q x x' lines : Forall component (ds ++ [c]) -> isdigit c = true ->
  addresses (r_root r) (path_text (ds ++ [c])) q -> node_at (r_root r) q = Some x -> terminal x = true ->
  written_as E v lines -> as_element v lines = [x'] ->
  exists r', patch E (p_replace (path_text (ds ++ [c])) v) r = (Ok true, r')
  /\ r_root r' = update_at q (fun _ => x') (r_root r) /\ same_but_tree r r'.
Proof.
  intros HC D HA Hx HT HW HE. pose proof (asks_replace _ v (addresses_nonempty _ _ _ HA)) as HK.
  destruct (stack_snoc ds c HC) as (HS & HS'). destruct (traverse_parent ds c (r_root r) q HC HA) as (qp & np & i & y & -> & Hqp & Hnp & Hs).
  pose proof (step_child_nth _ _ _ _ Hs) as Hi.
  assert (y = x) as ->. { rewrite node_at_app, Hnp in Hx. cbn [node_at] in Hx. rewrite Hi in Hx. congruence. }
  assert (is_collection x = false) as HN.
  { rewrite collection_spec. unfold collection_element. unfold terminal in HT. apply andb_prop in HT as (-> & _). apply andb_false_r. }
  edestruct (patch_works E (p_replace (path_text (ds ++ [c])) v) (RReplace (path_text (ds ++ [c])) v) r) as (r' & P1 & P2 & P3 & _);
    [exact HK|reflexivity|reflexivity| |exists r'; split; [exact P1|split; [exact P2|exact P3]]].
  unfold perform. cbn [request_path]. rewrite HS. unfold patch_replace.
  rewrite (twi_index_eq _ _ _ _ _ _ _ D Hqp Hnp Hs), HN, Hnp, (valid_index_intro _ _ _ _ D Hs). cbn [negb].
  unfold written_as in HW. rewrite HW. cbv zeta. rewrite as_list_members_spec, HE. cbn [length]. f_equal.
  rewrite update_at_app. apply update_at_ext. intros m Hm. rewrite Hnp in Hm. injection Hm as <-. cbn [update_at]. f_equal.
  apply (remove_insert i x' _ x Hi).
Qed.
Lemma replace_key E cs v r q k lines : Forall component cs -> addresses (r_root r) (path_text cs) q ->
  node_at (r_root r) q = Some k -> n_lmf k = false -> bare_value k = false -> written_as E v lines ->
  exists r', patch E (p_replace (path_text cs) v) r = (Ok true, r')
  /\ r_root r' = update_at q (set_children lines) (r_root r) /\ same_but_tree r r'.
Proof.
  intros HC HA Hk HL HB HW. pose proof (asks_replace _ v (addresses_nonempty _ _ _ HA)) as HK.
  destruct (addresses_snoc cs _ _ HC HA) as (ds & c & ->).
  destruct (stack_snoc ds c HC) as (HS & HS'). destruct (traverse_parent ds c (r_root r) q HC HA) as (qp & np & i & y & -> & Hqp & Hnp & Hs).
  pose proof (step_child_nth _ _ _ _ Hs) as Hi.
  assert (y = k) as ->. { rewrite node_at_app, Hnp in Hk. cbn [node_at] in Hk. rewrite Hi in Hk. congruence. }
  assert (isdigit c = false) as D.
  { destruct (isdigit c) eqn:D; auto. unfold step_child in Hs. rewrite D in Hs.
    destruct (nth_error (virt_to_phys (n_children np)) (int_of c)) as [j|]; [|discriminate].
    destruct (nth_error (n_children np) j) as [d|]; [|discriminate]. destruct (n_lmf d) eqn:L; [|discriminate]. injection Hs as -> ->. congruence. }
  edestruct (patch_works E (p_replace (path_text (ds ++ [c])) v) (RReplace (path_text (ds ++ [c])) v) r) as (r' & P1 & P2 & P3 & _);
    [exact HK|reflexivity|reflexivity| |exists r'; split; [exact P1|split; [exact P2|exact P3]]].
  unfold perform. cbn [request_path]. rewrite HS. unfold patch_replace.
  rewrite (twi_name_eq _ _ _ D), (traverse_pos_step _ _ _ _ _ _ _ Hqp Hnp Hs), Hk, valid_bare, HB. cbn [negb].
  unfold written_as in HW. rewrite HW. reflexivity.
Qed.
(** After the replacement the same path still leads to the line. *)
Lemma addresses_replaced ds c root q x x' : Forall component (ds ++ [c]) -> isdigit c = true ->
  addresses root (path_text (ds ++ [c])) q -> node_at root q = Some x ->
  n_lmf x' = n_lmf x -> is_comment x' = is_comment x -> addresses (update_at q (fun _ => x') root) (path_text (ds ++ [c])) q.
Proof.
  intros HC D HA Hx HL HM. destruct (stack_snoc ds c HC) as (HS & HS').
  destruct (traverse_parent ds c root q HC HA) as (qp & np & i & y & -> & Hqp & Hnp & Hs). pose proof (step_child_nth _ _ _ _ Hs) as Hi.
  assert (y = x) as ->. { rewrite node_at_app, Hnp in Hx. cbn [node_at] in Hx. rewrite Hi in Hx. congruence. }
  exists (c :: rev ds ++ [ROOT_VALUE]). split; auto. rewrite update_at_app.
  eapply traverse_pos_step.
  - apply traverse_pos_update; [exact Hqp|]. intros m Hm. rewrite Hnp in Hm. injection Hm as <-. unfold label.
    pose proof (label_inner i [] (fun _ => x') np) as (A & B & C). rewrite A, B, C. reflexivity.
  - apply node_at_update_same. exact Hnp.
  - cbn [update_at]. exact (step_here np c i x (fun _ => x') Hs HL HM (or_intror D)).
Qed.
