(** Proofs for C154. *)
From Verif Require Import RefProofs NewFileProofs.
From Verif Require Export QueryProofs MentionSpec.

Definition key_known (ks : list prim) (n : node) : Prop :=
  n_keyf n = true \/ n_children n <> [] -> n_value n = VSent \/ exists k, n_value n = VJ (JP k) /\ In k ks.
Definition all_known (E : env) (ks : list prim) (n : node) : Prop := forall p i, Forall (fun np => key_known ks (fst np)) (traverse_all E n p i).
Lemma known_list E ks : forall cs, Forall (all_known E ks) cs -> forall q mp, Forall (fun np => key_known ks (fst np)) (ta_list E q cs mp).
Proof.
  induction 1 as [|n cs Hn _ IH]; intros q [|i mp]; cbn [ta_list]; try constructor. apply Forall_app. split; [apply Hn|apply IH].
Qed.
Lemma known_node E ks n : key_known ks n -> Forall (all_known E ks) (n_children n) -> all_known E ks n.
Proof. intros H1 H2 p i. rewrite traverse_all_eq. constructor; [exact H1|]. apply known_list. exact H2. Qed.
Lemma known_key ks k c chs : In k ks -> key_known ks (key_node k c chs).
Proof. intros H _. right. exists k. split; [reflexivity|exact H]. Qed.
Lemma known_leaf E ks v c lm m : all_known E ks (Nd v c [] lm m false).
Proof. apply known_node; [|constructor]. intros [H|H]; [discriminate H|contradiction H; reflexivity]. Qed.
Lemma known_items E ks xs : Forall (fun x => forall ks, incl (keys_of x) ks -> all_known E ks (tree_of x)) xs -> incl (flat_map keys_of xs) ks ->
  Forall (all_known E ks) (map tree_of xs).
Proof.
  induction 1 as [|x xs Hx _ IH]; intros HI; cbn [map flat_map] in *; constructor.
  - apply Hx. intros k Hk. apply HI, in_or_app. left. exact Hk.
  - apply IH. intros k Hk. apply HI, in_or_app. right. exact Hk.
Qed.
Lemma known_item E : forall x ks, incl (keys_of x) ks -> all_known E ks (tree_of x).
Proof.
  induction x as [c|k c|k v c|k m ls c|k c cs IH|v c|k v c rest IH|k c cs rest IHc IHr] using item_ind'; intros ks HI; cbn [tree_of keys_of] in *;
    try (apply known_leaf).
  - apply known_node; [apply known_key, HI; left; reflexivity|constructor].
  - apply known_node; [apply known_key, HI; left; reflexivity|]. constructor; [apply known_leaf|constructor].
  - apply known_node; [apply known_key, HI; left; reflexivity|]. constructor; [apply known_leaf|constructor].
  - apply known_node; [apply known_key, HI; left; reflexivity|]. apply known_items; [exact IH|]. intros x Hx. apply HI. right. exact Hx.
  - apply known_node; [intros _; left; reflexivity|]. cbn [n_children]. constructor.
    + apply known_node; [apply known_key, HI; left; reflexivity|]. constructor; [apply known_leaf|constructor].
    + apply known_items; [exact IH|]. intros x Hx. apply HI. right. exact Hx.
  - apply known_node; [intros _; left; reflexivity|]. cbn [n_children]. constructor.
    + apply known_node; [apply known_key, HI; left; reflexivity|]. apply known_items; [exact IHc|]. intros x Hx. apply HI. right. apply in_or_app. left. exact Hx.
    + apply known_items; [exact IHr|]. intros x Hx. apply HI. right. apply in_or_app. right. exact Hx.
Qed.
Lemma known_visits E xs l : visits E (document xs) = (document xs, [ROOT_VALUE]) :: l ->
  Forall (fun np => key_known (flat_map keys_of xs) (fst np)) l.
Proof.
  unfold visits. rewrite traverse_all_eq. intros H. injection H as H. rewrite <- H. apply known_list. cbn [document root_node n_children].
  apply known_items; [|apply incl_refl]. apply Forall_forall. intros x _. apply known_item.
Qed.

(** * Searching *)
Definition hit (rx : str -> bool) (wc : bool) (n : node) : bool := is_leaf n && rx (searched_text wc n).
Lemma hit_is E rx wc root : search E rx wc root = map (fun np => stack_path_to_str (snd np)) (filter (fun np => hit rx wc (fst np)) (visits E root)).
Proof.
  unfold search. f_equal. apply filter_ext. intros (n, st). cbn [fst]. unfold hit, searched_text. f_equal. f_equal.
  destruct wc; cbn [andb]; [|rewrite app_nil_r; reflexivity]. destruct (n_comment n); [cbn [is_nil negb]; rewrite app_nil_r; reflexivity|reflexivity].
Qed.
Lemma matched_shown rx wc l ws : shows l ws -> (wc = true -> forall p c l, In (RLine p c (CValue (JList l))) ws -> c = []) ->
  map (fun np => stack_path_to_str (snd np)) (filter (fun np : node * stack => hit rx wc (fst np)) l) = flat_map (path_matching rx wc) ws.
Proof.
  assert (forall n v c, is_leaf n = true -> n_value n = VJ v -> n_comment n = c -> hit rx wc n = rx (scalar_text v ++ note_of wc c)) as HH.
  { intros n v c H1 H2 <-. unfold hit, searched_text, scalar_text, note_of. rewrite H1, H2. destruct (n_comment n); reflexivity. }
  induction 1 as [|c st l ws H _ IH|ns sts p c v l ws H1 H2 H3 _ IH]; intros HB; [reflexivity| |].
  - cbn [flat_map path_matching app]. rewrite <- IH by (intros W p d m HI; exact (HB W p d m (or_intror HI))). destruct c; [contradiction|reflexivity].
  - cbn [flat_map]. rewrite <- IH by (intros W q d m HI; exact (HB W q d m (or_intror HI))). rewrite filter_app, map_app. f_equal. clear IH.
    destruct H1 as [k c p|k w c p|k c p ls m|n p c Hn Hc|w c p]; cbn [length] in H2; row_cases sts; paths H3; cbn [path_matching combine filter fst].
    + rewrite (HH (key_node k c []) (JP k) c eq_refl eq_refl eq_refl), <- P1. destruct (rx _); reflexivity.
    + change (hit rx wc (key_node k c [value_node w c])) with false. cbv iota. rewrite (HH (value_node w c) w c eq_refl eq_refl eq_refl), <- P2. destruct (rx _); reflexivity.
    + change (hit rx wc (key_node k c [?b])) with false. cbv iota. rewrite (HH (Nd (VJ (JList ls)) [] [] false m false) (JList ls) [] eq_refl eq_refl eq_refl), <- P2.
      assert (note_of wc c = note_of wc []) as ->. { destruct wc; [|reflexivity]. rewrite (HB eq_refl p c ls (or_introl eq_refl)). reflexivity. }
      destruct (rx _); reflexivity.
    + unfold hit, is_leaf. destruct (n_children n); [contradiction|reflexivity].
    + rewrite (HH (Nd (VJ w) c [] true MNone false) w c eq_refl eq_refl eq_refl), <- P1. destruct (rx _); reflexivity.
Qed.
Lemma was_searched E xs r : r_root r = document xs -> Forall (canonical E) xs -> no_slash_key xs -> xs <> [] -> searched E xs r.
Proof.
  intros HR HC HK HX rx. rewrite HR. destruct (walk_file E xs HC HK) as (l & HV & HS).
  assert (forall wc, hit rx wc (document xs) = false) as RL by (intros wc; destruct xs; [contradiction|reflexivity]).
  rewrite !hit_is, HV. cbn [filter fst]. rewrite !RL. split.
  - apply matched_shown; [exact HS|discriminate].
  - intros HN. apply matched_shown; [exact HS|]. intros _. exact HN.
Qed.

(** * References *)
Lemma no_mention_short sv var : ~ mentions sv var ROOT_VALUE.
Proof. intros (a & x & v & y & b & _ & H & _). apply (f_equal (@length ascii)) in H. rewrite !app_length in H. change (length ROOT_VALUE) with 1 in H. change (length $"}}") with 2 in H. lia. Qed.
Lemma mentioned_shown sv var f ks l ws : (forall s, f s = true <-> mentions sv var s) -> (forall s, In (PStr s) ks -> ~ mentions sv var s) ->
  shows l ws -> Forall (fun np => key_known ks (fst np)) l ->
  map (fun np => stack_path_to_str (snd np)) (filter (fun np : node * stack => mentionsb sv var (fst np)) l) = flat_map (path_of_text f) ws.
Proof.
  intros Hf Hk. assert (forall n, key_known ks n -> n_keyf n = true \/ n_children n <> [] -> mentionsb sv var n = false) as HN.
  { intros n H1 H2. destruct (mentionsb sv var n) eqn:M; [|reflexivity]. apply mentionsb_iff in M as (s & V & M). exfalso.
    destruct (H1 H2) as [H|(k & H & HI)]; rewrite V in H; [discriminate H|]. injection H as <-. exact (Hk s HI M). }
  assert (forall n v, n_value n = VJ v -> mentionsb sv var n = match v with JP (PStr s) => f s | _ => false end) as HV.
  { intros n v V. unfold mentionsb. rewrite V. destruct v as [[| | | |s]| |]; try reflexivity. pose proof (found_ref sv var s) as Q. pose proof (Hf s) as Q'.
    destruct (found _ s), (f s); auto; [symmetry; apply Q', Q; reflexivity|apply Q, Q'; reflexivity]. }
  induction 1 as [|c st l ws H _ IH|ns sts p c v l ws H1 H2 H3 _ IH]; intros HF; [reflexivity| |].
  - inversion HF; subst. cbn [flat_map path_of_text app]. rewrite <- IH by assumption. reflexivity.
  - apply Forall_app in HF as (HF1 & HF2). cbn [flat_map]. rewrite <- IH by assumption. rewrite filter_app, map_app. f_equal. clear IH.
    destruct H1 as [k c p|k w c p|k c p ls m|n p c Hn Hc|w c p]; cbn [length] in H2; row_cases sts; paths H3; cbn [combine] in HF1;
      pose proof (Forall_inv HF1) as K1; cbn [fst] in K1; cbn [path_of_text combine filter fst].
    + rewrite (HN _ K1 (or_introl eq_refl)). reflexivity.
    + rewrite (HN _ K1 (or_introl eq_refl)), (HV (value_node w c) w eq_refl). destruct w as [[| | | |s]| |]; try reflexivity. destruct (f s); [|reflexivity]. rewrite <- P2. reflexivity.
    + rewrite (HN _ K1 (or_introl eq_refl)). reflexivity.
    + rewrite (HN _ K1 (or_intror Hn)). reflexivity.
    + rewrite (HV (Nd (VJ w) c [] true MNone false) w eq_refl). destruct w as [[| | | |s]| |]; try reflexivity. destruct (f s); [|reflexivity]. rewrite <- P1. reflexivity.
Qed.
Lemma were_found E xs r : r_root r = document xs -> Forall (canonical E) xs -> no_slash_key xs -> references_found E (r_schema r) xs (r_vars r) r.
Proof.
  intros HR HC HK var f HI Hf Hk. destruct (walk_file E xs HC HK) as (l & HV & HS).
  assert (dmem var (r_vars r) = true) as HM by (apply dmem_In; exact HI). unfold get_variable_references. rewrite HM, dedupe_spec, HR, HV. f_equal.
  change (filter _ ?l) with (filter (fun np : node * stack => mentionsb (r_schema r) var (fst np)) l). cbn [filter fst].
  assert (mentionsb (r_schema r) var (document xs) = false) as ->.
  { destruct (mentionsb _ _ _) eqn:M; [|reflexivity]. apply mentionsb_iff in M as (s & [= <-] & M). destruct (no_mention_short _ _ M). }
  apply (mentioned_shown (r_schema r) var f (flat_map keys_of xs)); auto. apply (known_visits E). exact HV.
Qed.

Lemma c154 E xs vars : canonical_recipe E xs vars -> no_slash_key xs -> xs <> [] ->
  exists r, new_recipe E (join NLs (recipe_page xs vars)) = Ok r /\ searched E xs r /\ references_found E SV0 xs vars r.
Proof.
  intros HC HK HX. eexists. split; [exact (read_back E xs vars HC)|]. destruct HC as (((HC & _) & _ & _) & _). set (r := {| r_init := _ |}).
  split; [apply was_searched|apply (were_found E xs r)]; auto.
Qed.
Lemma c154_new E xs vars : new_file E xs vars -> no_slash_key xs -> xs <> [] ->
  exists r, new_recipe E (join NLs (page xs)) = Ok r /\ searched E xs r /\ references_found E SV1 xs vars r.
Proof.
  intros HC HK HX. eexists. split; [exact (new_read_back E xs vars HC)|]. destruct HC as (((HC & _) & _ & _) & _). set (r := {| r_init := _ |}).
  split; [apply was_searched|apply (were_found E xs r)]; auto.
Qed.
Lemma c154_session E MS l xs vars xs' vars' : canonical_recipe E xs vars -> canonical_recipe E xs' vars' -> no_slash_key xs' -> xs' <> [] ->
  acted_in_turn E MS SV0 l xs vars xs' vars' ->
  exists r, new_recipe E (join NLs (recipe_page xs vars)) = Ok r /\ searched E xs' (session E MS l r) /\ references_found E SV0 xs' vars' (session E MS l r).
Proof.
  intros HC HC' HK HX HA. eexists. split; [exact (read_back E xs vars HC)|]. set (r0 := {| r_init := _ |}).
  destruct (act_all E MS SV0 l xs vars xs' vars' HA r0 eq_refl eq_refl eq_refl) as (_ & H2 & H3 & H4). destruct HC' as (((HC' & _) & _ & _) & _).
  split; [apply was_searched; auto|]. rewrite <- H3 in *. pose proof (were_found E xs' _ H2 HC' HK) as W. rewrite ?H3, ?H4 in W. rewrite ?H3. exact W.
Qed.
