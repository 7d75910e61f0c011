(** Sorting, equality (proofs only). *)
From Verif Require Export LayoutProofs8 JinjaProofs.

(** * C44 *)
Lemma insert_perm {A} (key : A -> Z) x l : Permutation (x :: l) (insert_by key x l).
Proof.
  induction l as [|y l IH]; cbn [insert_by]; [reflexivity|]. destruct (key x <=? key y)%Z; [reflexivity|].
  rewrite perm_swap. constructor. exact IH.
Qed.
Lemma sort_perm {A} (key : A -> Z) l : Permutation l (sort_by key l).
Proof. induction l as [|x l IH]; cbn [sort_by]; [constructor|]. rewrite <- insert_perm. constructor. exact IH. Qed.
Definition ordered {A} (key : A -> Z) (l : list A) : Prop := forall a x b y c, l = a ++ x :: b ++ y :: c -> (key x <= key y)%Z.
Lemma ordered_cons {A} (key : A -> Z) x l : ordered key (x :: l) <-> Forall (fun y => (key x <= key y)%Z) l /\ ordered key l.
Proof.
  split.
  - intros H. split.
    + apply Forall_forall. intros y I. apply in_split in I as (b & c & ->). apply (H [] x b y c). reflexivity.
    + intros a y b z c ->. apply (H (x :: a) y b z c). reflexivity.
  - intros [F O] a y b z c E. destruct a as [|d a].
    + injection E as -> ->. rewrite Forall_forall in F. apply F. apply in_or_app. right. left. reflexivity.
    + injection E as -> ->. apply (O a y b z c). reflexivity.
Qed.
Lemma insert_ordered {A} (key : A -> Z) x l : ordered key l -> ordered key (insert_by key x l).
Proof.
  induction l as [|y l IH]; intros O; cbn [insert_by].
  - apply ordered_cons. split; [constructor|exact O].
  - destruct (key x <=? key y)%Z eqn:E.
    + apply ordered_cons. split; [|exact O]. apply Z.leb_le in E. apply ordered_cons in O as [F _]. constructor; [exact E|].
      eapply Forall_impl; [|exact F]. cbn. intros z Hz. lia.
    + apply Z.leb_gt in E. apply ordered_cons in O as [F O]. apply ordered_cons. split; [|apply IH; exact O].
      apply Forall_forall. intros z I. apply (Permutation_in _ (Permutation_sym (insert_perm key x l))) in I as [<-|I]; [lia|].
      rewrite Forall_forall in F. apply F. exact I.
Qed.
Lemma sort_ordered {A} (key : A -> Z) l : ordered key (sort_by key l).
Proof.
  induction l as [|x l IH]; cbn [sort_by]; [intros [|? ?] ? ? ? ? E; discriminate|]. apply insert_ordered. exact IH.
Qed.
Lemma insert_filter {A} (key : A -> Z) (P : A -> bool) x l : (forall y, P x = true -> P y = true -> key x = key y) -> 
  filter P (insert_by key x l) = filter P (x :: l).
Proof.
  intros H. induction l as [|y l IH]; cbn [insert_by]; [reflexivity|]. destruct (key x <=? key y)%Z eqn:E; [reflexivity|].
  cbn [filter] in *. rewrite IH. apply Z.leb_gt in E. destruct (P x) eqn:PX, (P y) eqn:PY; try reflexivity.
  specialize (H y eq_refl PY). lia.
Qed.
Lemma sort_filter {A} (key : A -> Z) (P : A -> bool) l : (forall x y, P x = true -> P y = true -> key x = key y) ->
  filter P (sort_by key l) = filter P l.
Proof.
  intros H. induction l as [|x l IH]; [reflexivity|]. cbn [sort_by]. rewrite insert_filter by (intros y; apply H). cbn [filter]. rewrite IH. reflexivity.
Qed.
Lemma insert_id {A} (key : A -> Z) x l : Forall (fun y => (key x <= key y)%Z) l -> insert_by key x l = x :: l.
Proof. intros F. destruct l as [|y l]; [reflexivity|]. cbn [insert_by]. inversion F; subst. rewrite (proj2 (Z.leb_le _ _)) by assumption. reflexivity. Qed.
Lemma sort_id {A} (key : A -> Z) l : ordered key l -> sort_by key l = l.
Proof. induction l as [|x l IH]; intros O; [reflexivity|]. apply ordered_cons in O as [F O]. cbn [sort_by]. rewrite IH by exact O. apply insert_id. exact F. Qed.
(** A place as a number. *)
Definition rank (p : place) : Z := match p with Front => (- MAXSIZE)%Z | Known k => k | Back => MAXSIZE end.
Lemma dget_find {A} s (tbl : list (str * A)) : dget s tbl = option_map snd (find (fun kv => if list_eq_dec ascii_dec (fst kv) s then true else false) tbl).
Proof.
  induction tbl as [|[k v] tbl IH]; [reflexivity|]. cbn [dget find fst]. destruct (list_eq_dec ascii_dec k s) as [->|N].
  - rewrite str_eqb_refl. reflexivity.
  - rewrite (proj2 (str_eqb_neq s k)) by congruence. exact IH.
Qed.
Lemma key_rank tbl n : sort_key tbl n = rank (place_of tbl n).
Proof.
  unfold sort_key, place_of. destruct (is_comment n); [reflexivity|]. destruct (n_value n) as [|[[| | | |s]| |]]; try reflexivity.
  rewrite dget_find. match goal with |- context[find ?f tbl] => destruct (find f tbl) as [[k v]|]; reflexivity end.
Qed.
Definition inside (p : place) : Prop := match p with Known k => (- MAXSIZE < k < MAXSIZE)%Z | _ => True end.
Lemma place_inside tbl n : machine_table tbl -> inside (place_of tbl n).
Proof.
  intros M. unfold place_of. destruct (is_comment n); [exact I|]. destruct (n_value n) as [|[[| | | |s]| |]]; try exact I.
  match goal with |- context[find ?f tbl] => destruct (find f tbl) as [[k v]|] eqn:F; [|exact I] end. apply find_some in F as [F _]. unfold machine_table in M. rewrite Forall_forall in M. apply (M _ F).
Qed.
Lemma rank_le a b : inside a -> inside b -> (rank a <= rank b)%Z -> not_after a b.
Proof. destruct a, b; cbn [inside rank not_after]; unfold MAXSIZE; intros; try exact I; try lia. Qed.
Lemma place_eqb_rank a b : place_eqb a b = true -> rank a = rank b.
Proof. destruct a, b; cbn [place_eqb rank]; intros H; try discriminate; try reflexivity. apply Z.eqb_eq in H. exact H. Qed.
Lemma sort_lines tbl l : machine_table tbl -> sorted_lines tbl l (sort_by (sort_key tbl) l).
Proof.
  intros M. split; [apply sort_perm|]. split.
  - intros a x b y c E. pose proof (sort_ordered (sort_key tbl) l a x b y c E) as H. rewrite !key_rank in H.
    apply rank_le; [apply place_inside; exact M..|exact H].
  - intros p. apply sort_filter. intros x y Hx Hy. apply place_eqb_rank in Hx, Hy. rewrite !key_rank. congruence.
Qed.
Lemma c44 root s tbl rename root' : machine_table tbl -> sort_subtree_keys root s tbl rename = Ok root' ->
  (lookup root s = None /\ root' = root)
  \/ exists q, addresses root s q /\ changed_at (fun n n' => sorted_lines tbl (n_children n) (n_children n')
       /\ n' = Nd (if is_nil rename then n_value n else VJ (JStr rename)) (n_comment n) (n_children n') (n_lmf n) (n_ml n) (n_keyf n)) q root root'.
Proof.
  intros M H. unfold sort_subtree_keys in H. destruct (str_to_stack_path s) as [st|] eqn:ST; [|discriminate]. cbn [bind] in H.
  destruct (traverse_pos root st) as [q|] eqn:TP.
  - right. injection H as <-. exists q. split; [apply (addresses_stack root s st q ST); exact TP|].
    destruct (traverse_pos_some _ _ _ TP) as (n & Hn). eapply changed_at_update; [exact Hn|].
    destruct n as [v c chs lm ml kf]. destruct (is_nil rename); cbn [set_value set_children n_children n_value n_comment n_lmf n_ml n_keyf]; (split; [apply sort_lines; exact M|reflexivity]).
  - left. injection H as <-. split; [|reflexivity]. unfold lookup. rewrite ST. unfold traverse. rewrite TP. reflexivity.
Qed.
Lemma c44_total root s tbl rename : s <> [] -> exists root', sort_subtree_keys root s tbl rename = Ok root'.
Proof.
  intros N. unfold sort_subtree_keys. destruct (str_to_stack_path_ok s N) as (st & ->). cbn [bind]. destruct (traverse_pos root st); eauto.
Qed.
(** The description leaves no freedom: sorting sorted lines changes nothing, and there is only one way to sort. *)
Lemma sorted_unique tbl l l' l'' : machine_table tbl -> sorted_lines tbl l l' -> sorted_lines tbl l l'' -> l' = l''.
Proof.
  intros M (P1 & O1 & F1) (P2 & O2 & F2).
  assert (forall p, filter (fun n => place_eqb (place_of tbl n) p) l' = filter (fun n => place_eqb (place_of tbl n) p) l'') as F by (intros p; rewrite F1, F2; reflexivity).
  clear F1 F2. assert (Permutation l' l'') as P by (rewrite <- P1; exact P2). clear P1 P2 l.
  revert l'' O2 F P. induction l' as [|x l' IH]; intros l'' O2 F P; [apply Permutation_nil in P as ->; reflexivity|].
  destruct l'' as [|y l'']; [symmetry in P; apply Permutation_nil in P; discriminate|].
  assert (forall p, place_eqb p p = true) as ER by (intros [|k|]; cbn [place_eqb]; [reflexivity|apply Z.eqb_refl|reflexivity]).
  assert (forall a b, place_eqb a b = true -> a = b) as EE by (intros [|k|] [|k'|] E; cbn [place_eqb] in E; try discriminate; try reflexivity; apply Z.eqb_eq in E as ->; reflexivity).
  assert (forall a b, not_after a b -> not_after b a -> a = b) as AS.
  { intros [|k|] [|k'|]; cbn [not_after]; intros; try contradiction; try reflexivity. f_equal. lia. }
  assert (forall a, not_after a a) as NR by (intros [|k|]; cbn [not_after]; try exact I; lia).
  assert (forall z, In z (x :: l') -> not_after (place_of tbl x) (place_of tbl z)) as LX.
  { intros z [<-|I]; [apply NR|]. apply in_split in I as (b & c & ->). apply (O1 [] x b z c). reflexivity. }
  assert (forall z, In z (y :: l'') -> not_after (place_of tbl y) (place_of tbl z)) as LY.
  { intros z [<-|I]; [apply NR|]. apply in_split in I as (b & c & ->). apply (O2 [] y b z c). reflexivity. }
  assert (place_of tbl x = place_of tbl y) as EP.
  { apply AS; [apply LX; apply (Permutation_in _ (Permutation_sym P)); left; reflexivity|apply LY; apply (Permutation_in _ P); left; reflexivity]. }
  pose proof (F (place_of tbl x)) as F0. cbn [filter] in F0. rewrite <- EP, ER in F0. injection F0 as -> _.
  f_equal. apply IH.
  - intros a u b v c ->. apply (O1 (y :: a) u b v c). reflexivity.
  - intros a u b v c ->. apply (O2 (y :: a) u b v c). reflexivity.
  - intros p. specialize (F p). cbn [filter] in F. destruct (place_eqb (place_of tbl y) p); [injection F as F|]; exact F.
  - apply Permutation_cons_inv in P. exact P.
Qed.
Lemma sorted_again tbl l l' : machine_table tbl -> sorted_lines tbl l l' -> sorted_lines tbl l' l'.
Proof. intros M (P & O & F). split; [reflexivity|]. split; [exact O|reflexivity]. Qed.

(** * C45 *)
Lemma c45 E a b : recipe_eq E a b = true <-> r_schema a = r_schema b /\ render E a = render E b.
Proof.
  unfold recipe_eq. rewrite andb_true_iff, str_eqb_eq. destruct (r_schema a), (r_schema b); cbn [schema_eqb]; intuition congruence.
Qed.
Lemma c45_canonical E a b xs ys vs ws : r_root a = document xs -> r_root b = document ys -> r_vars a = vs -> r_vars b = ws ->
  r_schema a = SV0 -> r_schema b = SV0 -> canonical_recipe E xs vs -> canonical_recipe E ys ws ->
  recipe_eq E a b = true -> r_root a = r_root b /\ r_vars a = r_vars b.
Proof.
  intros RA RB VA VB SA SB CA CB H. apply c45 in H as [_ H].
  rewrite (rendered E a xs vs RA SA VA CA), (rendered E b ys ws RB SB VB CB) in H.
  pose proof (read_back E xs vs CA) as A. pose proof (read_back E ys ws CB) as B. cbv zeta in A, B. rewrite H in A. rewrite A in B.
  pose proof (f_equal (fun r => match r with Ok r => r_root r | Err _ => document xs end) B) as B1.
  pose proof (f_equal (fun r => match r with Ok r => r_vars r | Err _ => vs end) B) as B2. cbn [r_root r_vars] in B1, B2. split; congruence.
Qed.
