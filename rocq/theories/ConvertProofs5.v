(** C78 to C83: messages, result, variables, tests, environment and comments of a conversion (proofs only). *)
From Verif Require Export ConvertProofs4.
From Verif Require Import Lemmas PatchProofs PatchProofs3 PathProofs PathSpec PatchSpec RenderSpec RenderProofs RenderProofs2 RegexProofs ConvertSpec.
From Coq Require Import Permutation.

Lemma one_more_grows c m t t' d : one_more c m t t' -> exists l, get_messages d t' = get_messages d t ++ l.
Proof. intros H. rewrite (H d). destruct (category_eqb d c); [eexists; reflexivity|exists []; rewrite app_nil_r; reflexivity]. Qed.
Lemma steps_grow E s ps s' c : steps E s ps s' -> exists l, get_messages c (msgs s') = get_messages c (msgs s) ++ l.
Proof.
  induction 1 as [s|s s1 ps s2 H1 H2 (l & IH)|s p s1 ps s2 [_ H1] H2 (l & IH)]; [exists []; rewrite app_nil_r; reflexivity|..].
  - assert (exists k, get_messages c (msgs s1) = get_messages c (msgs s) ++ k) as (k & K).
    { destruct H1; cbn [msgs]; try (exists []; rewrite app_nil_r; reflexivity). exact (one_more_grows _ _ _ _ c H). }
    exists (k ++ l). rewrite IH, K, app_assoc. reflexivity.
  - destruct (one_more_grows _ _ _ _ c H1) as (k & K). exists (k ++ l). rewrite IH, K, app_assoc. reflexivity.
Qed.
Lemma among_app {A} (l m k : list A) : among l m -> among l (k ++ m).
Proof. intros H. induction k as [|x k IH]; [exact H|]. constructor. exact IH. Qed.
Lemma steps_errors E s ps s' : steps E s ps s' ->
  exists l, get_messages ERROR (msgs s') = get_messages ERROR (msgs s) ++ l /\ among (map failure ps) l.
Proof.
  induction 1 as [s|s s1 ps s2 H1 H2 (l & IH & IA)|s p s1 ps s2 [_ H1] H2 (l & IH & IA)].
  - exists []. rewrite app_nil_r. split; [reflexivity|constructor].
  - assert (exists k, get_messages ERROR (msgs s1) = get_messages ERROR (msgs s) ++ k) as (k & K).
    { destruct H1; cbn [msgs]; try (exists []; rewrite app_nil_r; reflexivity). exact (one_more_grows _ _ _ _ ERROR H). }
    exists (k ++ l). rewrite IH, K, app_assoc. split; [reflexivity|apply among_app; exact IA].
  - exists (failure p :: l). rewrite IH, (H1 ERROR). cbn [category_eqb]. rewrite <- app_assoc. split; [reflexivity|]. apply (among_keep (map failure ps) (failure p) l). exact IA.
Qed.

Lemma render_parts T s text s' : render_to_v1 T s = (Ok text, s') -> exists old s1 root vars,
  (do! upgrades T in report_lost_comments T old) s = (Ok tt, s1) /\ msgs s' = msgs s1
  /\ sort_subtree_keys (r_root (v1 s1)) $"/" TOP_LEVEL_SORT [] = Ok root
  /\ init_vars (t_env T) SV1 (r_init (v1 s1)) root = Ok vars
  /\ v1 s' = {| r_init := r_init (v1 s1); r_root := root; r_schema := SV1; r_vars := vars; r_sel := r_sel (v1 s1); r_mod := r_mod (v1 s1) |}
  /\ text = render (t_env T) (v1 s').
Proof.
  intros H. unfold render_to_v1 in H. unfold andthen at 1 in H. unfold ask at 1 in H. cbv beta iota in H.
  exists (get_comments_table (t_env T) (r_root (v1 s))).
  unfold andthen in H. unfold andthen. destruct (upgrades T s) as [[[]|e] s0]; [|discriminate].
  destruct (report_lost_comments T (get_comments_table (t_env T) (r_root (v1 s))) s0) as [[[]|e] s1]; [|discriminate].
  exists s1. unfold finish_v1, andthen, Convert.edit, sort_keys, ask in H. cbn [v1 msgs with_vars r_root r_init r_schema r_vars r_sel r_mod with_root] in H.
  destruct (sort_subtree_keys (r_root (v1 s1)) $"/" TOP_LEVEL_SORT []) as [root|e]; [|discriminate].
  cbn [v1 msgs with_vars r_root r_init r_schema r_vars r_sel r_mod with_root] in H.
  destruct (init_vars (t_env T) SV1 (r_init (v1 s1)) root) as [vars|e] eqn:V; [|discriminate].
  cbn [v1 msgs with_vars r_root r_init r_schema r_vars r_sel r_mod with_root] in H. injection H as <- <-.
  exists root, vars. cbn [v1 msgs]. auto 8.
Qed.
Lemma c78_trace T s text s' : render_to_v1 T s = (Ok text, s') ->
  exists ps s1 root, steps (t_env T) s ps s1 /\ msgs s' = msgs s1
    /\ sort_subtree_keys (r_root (v1 s1)) $"/" TOP_LEVEL_SORT [] = Ok root /\ r_root (v1 s') = root
    /\ exists l, get_messages ERROR (msgs s') = get_messages ERROR (msgs s) ++ l /\ among (map failure ps) l.
Proof.
  intros H. destruct (render_parts T s text s' H) as (old & s1 & root & vars & P & M & S & _ & V & _).
  pose proof (walks_andthen T _ _ (walks_upgrades T) (fun _ => walks_comments T old) s (Ok tt) s1 P) as (ps & W).
  exists ps, s1, root. rewrite V, M. cbn [r_root]. split; [exact W|]. split; [reflexivity|]. split; [exact S|]. split; [reflexivity|].
  exact (steps_errors _ _ _ _ W).
Qed.
Lemma c78_grow T s o s' c : render_to_v1 T s = (o, s') -> exists l, get_messages c (msgs s') = get_messages c (msgs s) ++ l.
Proof.
  intros H. unfold render_to_v1 in H. unfold andthen at 1 in H. unfold ask at 1 in H. cbv beta iota in H.
  set (old := get_comments_table (t_env T) (r_root (v1 s))) in H.
  pose proof (walks_andthen T _ _ (walks_upgrades T) (fun _ => walks_comments T old) s) as W. unfold andthen in W, H.
  assert (forall o1 s1, (match upgrades T s with (Ok _, s2) => report_lost_comments T old s2 | (Err e, s2) => (Err e, s2) end) = (o1, s1) ->
    exists l, get_messages c (msgs s1) = get_messages c (msgs s) ++ l) as G.
  { intros o1 s1 K. specialize (W o1 s1 K). destruct o1 as [[]|e].
    - destruct W as (ps & W). exact (steps_grow _ _ _ _ c W).
    - destruct W as (ps & s2 & W & <-). exact (steps_grow _ _ _ _ c W). }
  clear W. destruct (upgrades T s) as [[[]|e] s0]; [|injection H as <- <-; exact (G _ _ eq_refl)].
  destruct (report_lost_comments T old s0) as [[[]|e] s1]; [|injection H as <- <-; exact (G _ _ eq_refl)].
  destruct (G _ _ eq_refl) as (l & L). exists l. rewrite <- L. f_equal.
  unfold finish_v1, andthen, Convert.edit, sort_keys, ask in H. cbn [v1 msgs] in H.
  destruct (sort_subtree_keys _ _ _ _) as [root|e]; [|injection H as <- <-; reflexivity]. cbn [v1 msgs] in H.
  match type of H with context [init_vars ?a ?b ?c ?d] => destruct (init_vars a b c d) end; injection H as <- <-; reflexivity.
Qed.
Lemma last_entry_app n a b : last_entry n (a ++ b) = match last_entry n b with Some v => Some v | None => last_entry n a end.
Proof.
  unfold last_entry. rewrite rev_app_distr. generalize (rev a) (rev b). intros x y. clear a b.
  induction y as [|kv y IH]; [reflexivity|]. cbn [app find]. destruct (list_eq_dec ascii_dec (prim_str (fst kv)) n); [reflexivity|exact IH].
Qed.
Lemma last_entry_one n kv : last_entry n [kv] = if str_eqb n (prim_str (fst kv)) then Some (snd kv) else None.
Proof.
  unfold last_entry. cbn [rev app find]. destruct (list_eq_dec ascii_dec (prim_str (fst kv)) n) as [<-|N].
  - rewrite str_eqb_refl. reflexivity.
  - destruct (str_eqb n (prim_str (fst kv))) eqn:Q; [apply str_eqb_eq in Q; congruence|reflexivity].
Qed.
Lemma vtbl_last n d : dget n (dict_to_vtbl d) = last_entry n d.
Proof.
  unfold dict_to_vtbl.
  assert (forall d t, dget n (fold_left (fun t kv => dset (prim_str (fst kv)) (snd kv) t) d t)
     = match last_entry n d with Some v => Some v | None => dget n t end) as G.
  { clear d. induction d as [|kv d IH]; intros t; [reflexivity|]. cbn [fold_left]. rewrite IH.
    change (kv :: d) with ([kv] ++ d). rewrite last_entry_app, last_entry_one. destruct (last_entry n d); [reflexivity|].
    destruct (str_eqb n (prim_str (fst kv))) eqn:Q.
    - apply str_eqb_eq in Q as ->. apply dget_dset_same.
    - apply dget_dset_other. intros ->. rewrite str_eqb_refl in Q. discriminate. }
  rewrite G. destruct (last_entry n d); reflexivity.
Qed.
Lemma c79 T s text s' : render_to_v1 T s = (Ok text, s') ->
  r_schema (v1 s') = SV1 /\ text = render (t_env T) (v1 s')
  /\ (forall a x b y c, n_children (r_root (v1 s')) = a ++ x :: b ++ y :: c -> not_after (place_of TOP_LEVEL_SORT x) (place_of TOP_LEVEL_SORT y))
  /\ exists d, get_value (t_env T) (r_root (v1 s')) $"/context" (Some (JDict [])) None = Ok (JDict d)
     /\ forall name, dget name (r_vars (v1 s')) = last_entry name d.
Proof.
  intros H. destruct (render_parts T s text s' H) as (old & s1 & root & vars & P & M & S & I & V & X).
  rewrite V. cbn [r_schema r_root r_vars]. split; [reflexivity|]. split; [rewrite X, V; reflexivity|]. split.
  - assert (machine_table TOP_LEVEL_SORT) as MT by (repeat constructor).
    assert (sorted_lines TOP_LEVEL_SORT (n_children (r_root (v1 s1))) (n_children root)) as (_ & O & _); [|exact O].
    unfold sort_subtree_keys in S. change (str_to_stack_path $"/") with (@Ok stack [$"/"]) in S. cbn [bind] in S.
    change (traverse_pos (r_root (v1 s1)) [$"/"]) with (Some ([] : list nat)) in S. injection S as <-. cbn [update_at is_nil].
    destruct (r_root (v1 s1)) as [v c chs lm ml kf]. cbn [set_children n_children]. apply sort_lines. exact MT.
  - unfold init_vars in I. destruct (get_value (t_env T) root $"/context" (Some (JDict [])) None) as [j|e]; [|discriminate]. cbn [bind] in I.
    destruct j as [p|l|d]; try discriminate. injection I as <-. exists d. split; [reflexivity|]. intros name. apply vtbl_last.
Qed.
