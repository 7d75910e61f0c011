(** General lemmas about the model's data structures (proofs only). *)
From Verif Require Export Access.
Global Arguments is_comment : simpl never.
Global Arguments is_leaf : simpl never.
Global Arguments is_collection : simpl never.
Global Arguments is_single_key : simpl never.
Global Arguments is_empty_key : simpl never.
Global Arguments is_root : simpl never.
Global Arguments isdigit : simpl never.
Global Arguments is_digit : simpl never.
Global Arguments digit_val : simpl never.
Global Arguments ch : simpl never.
Global Arguments code : simpl never.
Global Arguments int_of : simpl never.
Global Arguments str_of_nat : simpl never.
Global Arguments lit : simpl never.

(** * Characters and strings *)
Lemma ceq_eq a b : ceq a b = true <-> a = b.
Proof. apply Ascii.eqb_eq. Qed.
Lemma ceq_refl a : ceq a a = true.
Proof. apply ceq_eq; reflexivity. Qed.
Lemma ceq_neq a b : ceq a b = false <-> a <> b.
Proof. apply Ascii.eqb_neq. Qed.
Lemma ceq_sym a b : ceq a b = ceq b a.
Proof. apply Ascii.eqb_sym. Qed.

Lemma str_eqb_eq a b : str_eqb a b = true <-> a = b.
Proof.
  revert b; induction a as [|x a IH]; intros [|y b]; cbn; split; intros H; try discriminate; auto.
  - apply andb_prop in H as [H1 H2]. apply ceq_eq in H1. apply IH in H2. congruence.
  - injection H as -> ->. rewrite ceq_refl. apply IH. reflexivity.
Qed.
Lemma str_eqb_refl a : str_eqb a a = true.
Proof. apply str_eqb_eq; reflexivity. Qed.
Lemma str_eqb_neq a b : str_eqb a b = false <-> a <> b.
Proof.
  split; intros H.
  - intros ->. rewrite str_eqb_refl in H. discriminate.
  - destruct (str_eqb a b) eqn:E; auto. apply str_eqb_eq in E. contradiction.
Qed.
Lemma str_eqb_sym a b : str_eqb a b = str_eqb b a.
Proof.
  destruct (str_eqb b a) eqn:H.
  - apply str_eqb_eq in H. subst. apply str_eqb_refl.
  - apply str_eqb_neq. apply str_eqb_neq in H. congruence.
Qed.
Definition str_dec (a b : str) : {a = b} + {a <> b} := list_eq_dec ascii_dec a b.

Lemma mem_str_In x l : mem_str x l = true <-> In x l.
Proof.
  unfold mem_str. rewrite existsb_exists. split.
  - intros (y & Hy & E). apply str_eqb_eq in E. subst; auto.
  - intros H. exists x. split; auto. apply str_eqb_refl.
Qed.
Lemma mem_str_notIn x l : mem_str x l = false <-> ~ In x l.
Proof.
  rewrite <- mem_str_In. destruct (mem_str x l); split; intros H; try congruence.
Qed.

Lemma starts_with_spec p s : starts_with p s = true <-> exists t, s = p ++ t.
Proof.
  revert s; induction p as [|x p IH]; intros s; cbn.
  - split; eauto.
  - destruct s as [|y s].
    + split; [discriminate|]. intros (t & H). discriminate.
    + rewrite andb_true_iff, ceq_eq, IH. split.
      * intros (-> & t & ->). eauto.
      * intros (t & H). injection H as -> ->. eauto.
Qed.

Lemma is_nil_true {A} (l : list A) : is_nil l = true <-> l = [].
Proof. destruct l; split; cbn; congruence. Qed.
Lemma is_nil_false {A} (l : list A) : is_nil l = false <-> l <> [].
Proof. destruct l; split; cbn; congruence. Qed.

Lemma skipn_S {A} i (l : list A) : skipn (S i) l = tl (skipn i l).
Proof. revert l; induction i as [|i IH]; intros [|x l]; auto. apply IH. Qed.

(** * Ordered dictionaries *)
Section DictLemmas.
Context {V : Type}.
Implicit Types (d : sdict V) (k : str) (v : V).

Lemma dget_dset_same k v d : dget k (dset k v d) = Some v.
Proof.
  induction d as [|[k' v'] d IH]; cbn.
  - rewrite str_eqb_refl; auto.
  - destruct (str_eqb k k') eqn:E; cbn; rewrite E; auto.
Qed.
Lemma dget_dset_other k k' v d : k <> k' -> dget k (dset k' v d) = dget k d.
Proof.
  intros H. induction d as [|[q w] d IH]; cbn.
  - destruct (str_eqb k k') eqn:E; auto. apply str_eqb_eq in E. contradiction.
  - destruct (str_eqb k' q) eqn:E; cbn.
    + apply str_eqb_eq in E; subst q.
      destruct (str_eqb k k') eqn:E2; auto. apply str_eqb_eq in E2; contradiction.
    + destruct (str_eqb k q); auto.
Qed.
Lemma dget_In k d : dget k d <> None <-> In k (dkeys d).
Proof.
  induction d as [|[k' v] d IH]; cbn.
  - split; [congruence|tauto].
  - destruct (str_eqb k k') eqn:E.
    + apply str_eqb_eq in E; subst. split; auto. discriminate.
    + apply str_eqb_neq in E. rewrite IH. split; auto. intros [H|H]; auto. congruence.
Qed.
Lemma dmem_In k d : dmem k d = true <-> In k (dkeys d).
Proof.
  unfold dmem. rewrite <- dget_In. destruct (dget k d); split; intros; congruence.
Qed.
Lemma dget_Some_In k v d : dget k d = Some v -> In (k, v) d.
Proof.
  induction d as [|[k' w] d IH]; cbn; [discriminate|].
  destruct (str_eqb k k') eqn:E; auto.
  apply str_eqb_eq in E; subst. intros H; injection H as ->; auto.
Qed.
Lemma dkeys_dset k v d : dkeys (dset k v d) = if dmem k d then dkeys d else dkeys d ++ [k].
Proof.
  unfold dkeys, dmem. induction d as [|[k' v'] d IH]; cbn; auto.
  destruct (str_eqb k k') eqn:E; cbn; auto.
  destruct (dget k d); cbn in IH |- *; rewrite IH; reflexivity.
Qed.
Lemma dset_NoDup k v d : NoDup (dkeys d) -> NoDup (dkeys (dset k v d)).
Proof.
  intros H. rewrite dkeys_dset. destruct (dmem k d) eqn:E; auto.
  assert (~ In k (dkeys d)) as HN by (rewrite <- dmem_In; congruence).
  clear E. induction (dkeys d) as [|x l IH]; cbn.
  - repeat constructor; auto.
  - inversion H; subst. constructor.
    + rewrite in_app_iff. cbn. intros [?|[?|[]]]; subst; auto. apply HN; cbn; auto.
    + apply IH; auto. intros ?; apply HN; cbn; auto.
Qed.
Lemma dget_ddel_same k d : NoDup (dkeys d) -> dget k (ddel k d) = None.
Proof.
  induction d as [|[k' v'] d IH]; cbn; auto. intros H; inversion H; subst.
  destruct (str_eqb k k') eqn:E.
  - apply str_eqb_eq in E; subst.
    destruct (dget k' d) eqn:E2; auto.
    exfalso. apply H2. apply dget_In. congruence.
  - cbn. rewrite E. auto.
Qed.
Lemma dget_ddel_other k k' d : k <> k' -> dget k (ddel k' d) = dget k d.
Proof.
  intros H. induction d as [|[q w] d IH]; cbn; auto.
  destruct (str_eqb k' q) eqn:E; cbn.
  - apply str_eqb_eq in E; subst q.
    destruct (str_eqb k k') eqn:E2; auto. apply str_eqb_eq in E2; contradiction.
  - destruct (str_eqb k q); auto.
Qed.
Lemma dkeys_ddel k d : NoDup (dkeys d) -> dkeys (ddel k d) = filter (fun x => negb (str_eqb k x)) (dkeys d).
Proof.
  unfold dkeys. induction d as [|[k' v'] d IH]; cbn; auto. intros H; inversion H; subst.
  destruct (str_eqb k k') eqn:E; cbn.
  - apply str_eqb_eq in E; subst. symmetry.
    clear IH H H3. induction (map fst d) as [|x l IHl]; cbn; auto.
    destruct (str_eqb k' x) eqn:E; cbn.
    + apply str_eqb_eq in E; subst. exfalso; apply H2; cbn; auto.
    + f_equal. apply IHl. intros ?; apply H2; cbn; auto.
  - f_equal; auto.
Qed.
Lemma ddel_NoDup k d : NoDup (dkeys d) -> NoDup (dkeys (ddel k d)).
Proof. intros H. rewrite dkeys_ddel; auto. apply NoDup_filter; auto. Qed.
End DictLemmas.

(** * Induction principles *)
Definition node_ind' (P : node -> Prop)
  (H : forall v c chs l ml k, Forall P chs -> P (Nd v c chs l ml k)) : forall n, P n :=
  fix rec (n : node) : P n :=
  match n with
  | Nd v c chs l ml k =>
      H v c chs l ml k ((fix go (cs : list node) : Forall P cs :=
                           match cs with
                           | [] => Forall_nil P
                           | x :: cs' => Forall_cons x (rec x) (go cs')
                           end) chs)
  end.

Definition json_ind' (P : json -> Prop)
  (HP : forall p, P (JP p))
  (HL : forall l, Forall P l -> P (JList l))
  (HD : forall d, Forall (fun kv => P (snd kv)) d -> P (JDict d)) : forall j, P j :=
  fix rec (j : json) : P j :=
  match j with
  | JP p => HP p
  | JList l => HL l ((fix go (l : list json) : Forall P l :=
                        match l with
                        | [] => Forall_nil P
                        | x :: l' => Forall_cons x (rec x) (go l')
                        end) l)
  | JDict d => HD d ((fix go (d : list (prim * json)) : Forall (fun kv => P (snd kv)) d :=
                        match d with
                        | [] => Forall_nil _
                        | kv :: d' => Forall_cons kv (rec (snd kv)) (go d')
                        end) d)
  end.

(** * Positions *)
Lemma node_eta n : n = Nd (n_value n) (n_comment n) (n_children n) (n_lmf n) (n_ml n) (n_keyf n).
Proof. destruct n; reflexivity. Qed.
Lemma children_set chs n : n_children (set_children chs n) = chs.
Proof. destruct n; reflexivity. Qed.
Lemma set_children_id n : set_children (n_children n) n = n.
Proof. destruct n; reflexivity. Qed.

Lemma node_at_app n p q : node_at n (p ++ q) = match node_at n p with Some m => node_at m q | None => None end.
Proof.
  revert n; induction p as [|i p IH]; intros n; cbn; auto.
  destruct (nth_error (n_children n) i); auto.
Qed.

Section MapNth.
Context {A : Type}.
Implicit Types (l : list A) (f : A -> A).
Lemma map_nth_length i f l : length (map_nth i f l) = length l.
Proof. revert i; induction l as [|x l IH]; intros [|i]; cbn; auto. Qed.
Lemma nth_map_nth_same i f l : nth_error (map_nth i f l) i = option_map f (nth_error l i).
Proof. revert i; induction l as [|x l IH]; intros [|i]; cbn; auto. Qed.
Lemma nth_map_nth_other i j f l : i <> j -> nth_error (map_nth i f l) j = nth_error l j.
Proof.
  revert i j; induction l as [|x l IH]; intros [|i] [|j] H; cbn; auto; try congruence.
Qed.
Lemma map_nth_id i f l : (forall x, nth_error l i = Some x -> f x = x) -> map_nth i f l = l.
Proof.
  revert i; induction l as [|x l IH]; intros [|i] H; cbn; auto.
  - f_equal. apply H. reflexivity.
  - f_equal. apply IH. intros y Hy. apply H. exact Hy.
Qed.
Lemma map_nth_ext i f g l : (forall x, nth_error l i = Some x -> f x = g x) -> map_nth i f l = map_nth i g l.
Proof.
  revert i; induction l as [|x l IH]; intros [|i] H; cbn; auto.
  - f_equal. apply H. reflexivity.
  - f_equal. apply IH. intros y Hy. apply H. exact Hy.
Qed.
Lemma map_nth_split i f l x : nth_error l i = Some x -> map_nth i f l = firstn i l ++ f x :: skipn (S i) l.
Proof.
  revert i; induction l as [|y l IH]; intros [|i] H; cbn in *; try discriminate.
  - injection H as ->. reflexivity.
  - f_equal. apply IH; auto.
Qed.
End MapNth.

Lemma node_at_update_same n p f x : node_at n p = Some x -> node_at (update_at p f n) p = Some (f x).
Proof.
  revert n; induction p as [|i p IH]; intros n H; cbn in *.
  - congruence.
  - rewrite children_set, nth_map_nth_same.
    destruct (nth_error (n_children n) i); cbn in *; [auto|discriminate].
Qed.
(** two positions none of which is above the other *)
Fixpoint disjoint (p q : position) : bool :=
  match p, q with
  | i :: p', j :: q' => if i =? j then disjoint p' q' else true
  | _, _ => false
  end.
Lemma node_at_update_disjoint n p q f : disjoint p q = true -> node_at (update_at p f n) q = node_at n q.
Proof.
  revert n q; induction p as [|i p IH]; intros n [|j q] H; cbn in *; try discriminate.
  rewrite children_set. destruct (Nat.eqb_spec i j) as [->|N].
  - rewrite nth_map_nth_same. destruct (nth_error (n_children n) j); cbn; auto.
  - rewrite nth_map_nth_other; auto.
Qed.
Lemma update_at_ext n p f g : (forall x, node_at n p = Some x -> f x = g x) -> update_at p f n = update_at p g n.
Proof.
  revert n; induction p as [|i p IH]; intros n H; cbn in *; auto.
  f_equal. apply map_nth_ext. intros x Hx. apply IH. intros y Hy. apply H. rewrite Hx. exact Hy.
Qed.
Lemma update_at_id n p f : (forall x, node_at n p = Some x -> f x = x) -> update_at p f n = n.
Proof.
  revert n; induction p as [|i p IH]; intros n H; cbn in *; auto.
  rewrite map_nth_id; [apply set_children_id|].
  intros x Hx. apply IH. intros y Hy. apply H. rewrite Hx. exact Hy.
Qed.
Lemma update_at_app n p q f : update_at (p ++ q) f n = update_at p (update_at q f) n.
Proof. revert n; induction p as [|i p IH]; intros n; cbn; auto. f_equal. apply map_nth_ext; auto. Qed.

(** * traverse finds existing positions *)
Lemma find_child_spec part i l j c :
  find_child part i l = Some (j, c) ->
  i <= j /\ nth_error l (j - i) = Some c /\ val_is (n_value c) part = true
  /\ forall k c', k < j - i -> nth_error l k = Some c' -> val_is (n_value c') part = false.
Proof.
  revert i; induction l as [|x l IH]; intros i H; cbn in H; [discriminate|].
  destruct (val_is (n_value x) part) eqn:E.
  - injection H as -> ->. rewrite Nat.sub_diag. repeat split; auto. intros k c' Hk. lia.
  - apply IH in H as (H1 & H2 & H3 & H4).
    replace (j - i) with (S (j - S i)) by lia. cbn. repeat split; auto; try lia.
    intros [|k] c' Hk Hc; cbn in Hc; [congruence|].
    apply (H4 k); auto. lia.
Qed.
Lemma find_child_none part i l : find_child part i l = None <-> forall c, In c l -> val_is (n_value c) part = false.
Proof.
  revert i; induction l as [|x l IH]; intros i; cbn.
  - split; auto. intros _ c [].
  - destruct (val_is (n_value x) part) eqn:E.
    + split; [discriminate|]. intros H. rewrite H in E; auto. discriminate.
    + rewrite IH. split; intros H; auto. intros c [<-|Hc]; auto.
Qed.
Lemma step_child_nth n part i c : step_child n part = Some (i, c) -> nth_error (n_children n) i = Some c.
Proof.
  unfold step_child. destruct (isdigit part).
  - destruct (nth_error (virt_to_phys _) _) as [j|]; [|discriminate].
    destruct (nth_error (n_children n) j) as [d|] eqn:E; [|discriminate].
    destruct (n_lmf d); [|discriminate]. intros H; injection H as -> ->. auto.
  - intros H. apply find_child_spec in H as (H1 & H2 & _). rewrite Nat.sub_0_r in H2. auto.
Qed.
Lemma traverse_recurse_some n parts p : traverse_recurse n parts = Some p -> exists m, node_at n p = Some m.
Proof.
  revert n p; induction parts as [|x parts IH]; intros n p H; cbn in H.
  - injection H as <-. cbn; eauto.
  - destruct (step_child n x) as [[i c]|] eqn:E; [|discriminate].
    destruct (traverse_recurse c parts) as [q|] eqn:E2; [|discriminate].
    injection H as <-. cbn. rewrite (step_child_nth _ _ _ _ E). eauto.
Qed.
Lemma traverse_pos_some n st p : traverse_pos n st = Some p -> exists m, node_at n p = Some m.
Proof.
  unfold traverse_pos. destruct (rev st) as [|a [|b l]]; [discriminate| |].
  - destruct (str_eqb a ROOT_VALUE); [|discriminate]. intros H; injection H as <-. cbn; eauto.
  - apply traverse_recurse_some.
Qed.
Lemma traverse_some_iff n st : (exists m, traverse n st = Some m) <-> exists p, traverse_pos n st = Some p.
Proof.
  unfold traverse. split.
  - intros (m & H). destruct (traverse_pos n st); eauto. discriminate.
  - intros (p & H). rewrite H. apply traverse_pos_some in H. exact H.
Qed.
Lemma traverse_recurse_app n a b :
  traverse_recurse n (a ++ b) =
  match traverse_recurse n a with
  | Some p => match node_at n p with
              | Some m => option_map (app p) (traverse_recurse m b)
              | None => None
              end
  | None => None
  end.
Proof.
  revert n; induction a as [|x a IH]; intros n; cbn.
  - destruct (traverse_recurse n b); auto.
  - destruct (step_child n x) as [[i c]|] eqn:E; auto.
    rewrite IH. destruct (traverse_recurse c a) as [p|]; cbn; auto.
    rewrite (step_child_nth _ _ _ _ E).
    destruct (node_at c p) as [m|]; auto. destruct (traverse_recurse m b); auto.
Qed.
