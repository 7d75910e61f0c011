(** Proofs about paths and lookup (C01-C08). *)
From Verif Require Export Lemmas PathSpec.

(** * C01: path text and stacks *)
Lemma split_on_nosep c w : ~ In c w -> split_on c w = [w].
Proof.
  induction w as [|x w IH]; cbn; intros H; auto.
  destruct (ceq x c) eqn:E; [apply ceq_eq in E; subst; exfalso; auto|].
  rewrite IH; auto.
Qed.
Lemma split_on_app c w s : ~ In c w -> split_on c (w ++ c :: s) = w :: split_on c s.
Proof.
  induction w as [|x w IH]; cbn; intros H.
  - rewrite ceq_refl. reflexivity.
  - destruct (ceq x c) eqn:E; [apply ceq_eq in E; subst; exfalso; auto|].
    rewrite IH; auto.
Qed.
Lemma split_word_path w cs : ~ In cSL w -> Forall component cs -> split_on cSL (w ++ path_text cs) = w :: cs.
Proof.
  intros Hw Hcs. revert w Hw; induction Hcs as [|c cs [Hc1 Hc2] Hcs IH]; intros w Hw; cbn [path_text].
  - rewrite app_nil_r. apply split_on_nosep; auto.
  - rewrite split_on_app; auto. f_equal. apply IH; auto.
Qed.
Lemma split_path cs : Forall component cs -> split_on cSL (path_text cs) = [] :: cs.
Proof. intros H. apply (split_word_path [] cs); auto. Qed.

Lemma last_char_app s c : last_char (s ++ [c]) = Some c.
Proof. unfold last_char. rewrite rev_app_distr. reflexivity. Qed.
Lemma last_char_app2 s t : t <> [] -> last_char (s ++ t) = last_char t.
Proof.
  intros H. destruct (@exists_last _ t H) as (t' & c & ->).
  rewrite app_assoc, !last_char_app. reflexivity.
Qed.
Lemma last_char_In s c : last_char s = Some c -> In c s.
Proof.
  unfold last_char. destruct (rev s) as [|x l] eqn:E; [discriminate|].
  intros H; injection H as ->. apply in_rev. rewrite E. cbn; auto.
Qed.
Lemma last_char_some s : s <> [] -> exists c, last_char s = Some c.
Proof. intros H. destruct (@exists_last _ s H) as (t & c & ->). exists c. apply last_char_app. Qed.
Lemma path_text_app a b : path_text (a ++ b) = path_text a ++ path_text b.
Proof. induction a as [|x a IH]; cbn; auto. rewrite IH, app_assoc. reflexivity. Qed.
Lemma last_char_path cs : cs <> [] -> Forall component cs -> exists c, last_char (path_text cs) = Some c /\ c <> cSL.
Proof.
  intros H Hf. destruct (@exists_last _ cs H) as (cs' & x & ->).
  apply Forall_app in Hf as [_ Hx]. inversion Hx as [|? ? [Hx1 Hx2] _]; subst.
  rewrite path_text_app. cbn. rewrite app_nil_r.
  destruct (last_char_some x Hx1) as (c & Hc).
  exists c. split.
  - change (cSL :: x) with ([cSL] ++ x). rewrite app_assoc, last_char_app2; auto.
  - intros ->. apply last_char_In in Hc. auto.
Qed.
Lemma map_root_id cs : Forall component cs -> map (fun p : str => if is_nil p then ROOT_VALUE else p) cs = cs.
Proof.
  induction 1 as [|c cs [H1 _] _ IH]; [reflexivity|]. rewrite map_cons, IH.
  destruct c; [contradiction|reflexivity].
Qed.
Lemma stack_of_path cs : cs <> [] -> Forall component cs ->
  str_to_stack_path (path_text cs) = Ok (rev cs ++ [ROOT_VALUE]).
Proof.
  intros H Hf. unfold str_to_stack_path.
  destruct (last_char_path cs H Hf) as (c & -> & Hc).
  apply ceq_neq in Hc. rewrite Hc, split_path, map_cons, map_root_id; auto.
Qed.
Lemma stack_of_path_slash cs : Forall component cs ->
  str_to_stack_path (path_text cs ++ [cSL]) = Ok (rev cs ++ [ROOT_VALUE]).
Proof.
  intros Hf. unfold str_to_stack_path.
  rewrite last_char_app, ceq_refl, removelast_last, split_path, map_cons, map_root_id; auto.
Qed.
Lemma fold_path acc cs : Forall component cs ->
  fold_left (fun acc v => if str_eqb v ROOT_VALUE then acc else acc ++ $"/" ++ v) cs acc = acc ++ path_text cs.
Proof.
  intros H; revert acc; induction H as [|c cs [H1 H2] _ IH]; intros acc; cbn [fold_left path_text].
  - rewrite app_nil_r; auto.
  - destruct (str_eqb c ROOT_VALUE) eqn:E.
    + apply str_eqb_eq in E; subst. exfalso; apply H2. left; reflexivity.
    + rewrite IH, <- app_assoc. reflexivity.
Qed.
Lemma path_of_stack cs : Forall component cs -> stack_path_to_str (rev cs ++ [ROOT_VALUE]) = path_text cs.
Proof.
  intros H. unfold stack_path_to_str. rewrite rev_app_distr, rev_involutive. cbn [rev app fold_left].
  rewrite str_eqb_refl, fold_path; auto.
Qed.

Lemma c01_round_trip cs p : cs <> [] -> Forall component cs -> with_optional_slash (path_text cs) p ->
  exists st, str_to_stack_path p = Ok st /\ rev st = $"/" :: cs /\ stack_path_to_str st = path_text cs.
Proof.
  intros H Hf Hp. exists (rev cs ++ [ROOT_VALUE]).
  assert (str_to_stack_path p = Ok (rev cs ++ [ROOT_VALUE])) as E.
  { destruct Hp as [->| ->]; [apply stack_of_path|apply stack_of_path_slash]; auto. }
  split; auto. split.
  - rewrite rev_app_distr, rev_involutive. reflexivity.
  - apply path_of_stack; auto.
Qed.
Lemma c01_injective cs1 cs2 : cs1 <> [] -> cs2 <> [] -> Forall component cs1 -> Forall component cs2 ->
  str_to_stack_path (path_text cs1) = str_to_stack_path (path_text cs2) -> cs1 = cs2.
Proof.
  intros H1 H2 F1 F2. rewrite !stack_of_path by auto. intros H. injection H as H.
  apply app_inj_tail in H as [H _]. apply (f_equal (@rev str)) in H. rewrite !rev_involutive in H. exact H.
Qed.

(** * C02: append_to_path *)
Lemma append_general base ext :
  append_to_path base ext =
  (match last_char base with
   | Some c => if ceq c cSL then removelast base else base
   | None => []
   end) ++ [cSL] ++ (match ext with c :: e => if ceq c cSL then e else ext | [] => [] end).
Proof.
  unfold append_to_path.
  replace (match ext with [] => ext | c :: ext' => if ceq c cSL then ext' else ext end)
    with (match ext with c :: e => if ceq c cSL then e else ext | [] => [] end) by (destruct ext; reflexivity).
  destruct base as [|b base]; [reflexivity|]. cbn [is_nil].
  destruct (last_char_some (b :: base)) as (c & Hc); [discriminate|]. rewrite Hc.
  destruct (ceq c cSL) eqn:E.
  - apply ceq_eq in E; subst c. rewrite app_assoc. f_equal.
    pose proof (@app_removelast_last _ (b :: base) cSL) as Hl.
    assert (last (b :: base) cSL = cSL) as HL.
    { clear Hl. unfold last_char in Hc. rewrite <- (rev_involutive (b :: base)).
      destruct (rev (b :: base)) as [|x l]; [discriminate|]. injection Hc as ->.
      cbn. rewrite last_last. reflexivity. }
    rewrite HL in Hl. apply Hl. discriminate.
  - rewrite <- app_assoc. reflexivity.
Qed.
Lemma c02_append bs es base ext :
  Forall component bs -> Forall component es -> es <> [] ->
  base = path_text bs \/ base = path_text bs ++ [cSL] ->
  ext = path_text es \/ path_text es = cSL :: ext ->
  append_to_path base ext = path_text (bs ++ es).
Proof.
  intros Hb He Hn B X. rewrite append_general, path_text_app.
  assert (match last_char base with Some c => if ceq c cSL then removelast base else base | None => [] end
          = path_text bs) as ->.
  { destruct B as [->| ->].
    - destruct bs as [|b bs]; [reflexivity|].
      destruct (last_char_path (b :: bs)) as (c & -> & Hc); auto; [discriminate|].
      apply ceq_neq in Hc. rewrite Hc. reflexivity.
    - rewrite last_char_app, ceq_refl, removelast_last. reflexivity. }
  f_equal. destruct es as [|e es]; [contradiction|].
  inversion He as [|? ? [He1 He2] ?]; subst.
  cbn [path_text] in *. destruct X as [->|X].
  - rewrite ceq_refl. reflexivity.
  - injection X as <-. destruct e as [|x e]; [contradiction|]. cbn.
    destruct (ceq x cSL) eqn:E; [apply ceq_eq in E; subst; exfalso; apply He2; cbn; auto|]. reflexivity.
Qed.

(** * C05: virtual and physical indices *)
Lemma is_comment_spec n : is_comment n = true <-> comment_line n.
Proof.
  unfold is_comment, comment_line. rewrite !andb_true_iff, negb_true_iff, is_nil_false, is_nil_true.
  destruct (n_value n); cbn; intuition congruence.
Qed.
Lemma leaf_terminal n : is_leaf n = terminal n.
Proof. reflexivity. Qed.
Lemma terminal_not_comment n : terminal n = true -> is_comment n = false.
Proof. unfold terminal. rewrite andb_true_iff, negb_true_iff. tauto. Qed.

Lemma count_elements_app a b : count_elements (a ++ b) = count_elements a + count_elements b.
Proof. unfold count_elements. rewrite filter_app, app_length. reflexivity. Qed.

Lemma v2p_sound k l i j : nth_error (virt_to_phys_aux k l) i = Some j ->
  k <= j /\ exists c, nth_error l (j - k) = Some c /\ is_comment c = false
  /\ i = count_elements (firstn (j - k) l)
  /\ nth_error (filter (fun c => negb (is_comment c)) l) i = Some c.
Proof.
  revert k i; induction l as [|x l IH]; intros k i H; cbn in H.
  - destruct i; discriminate.
  - destruct (is_comment x) eqn:E.
    + apply IH in H as (H1 & c & H2 & H3 & H4 & H5). split; [lia|]. exists c.
      replace (j - k) with (S (j - S k)) by lia.
      unfold count_elements in *. cbn. rewrite E. cbn. auto.
    + destruct i as [|i]; cbn in H.
      * injection H as ->. split; auto. exists x. rewrite Nat.sub_diag. cbn. rewrite E. auto.
      * apply IH in H as (H1 & c & H2 & H3 & H4 & H5). split; [lia|]. exists c.
        replace (j - k) with (S (j - S k)) by lia.
        unfold count_elements in *. cbn. rewrite E. cbn. rewrite H4 in *. auto.
Qed.
Lemma v2p_complete k l j c : nth_error l j = Some c -> is_comment c = false ->
  nth_error (virt_to_phys_aux k l) (count_elements (firstn j l)) = Some (k + j).
Proof.
  revert k j; induction l as [|x l IH]; intros k j H Hc; cbn.
  - destruct j; discriminate.
  - destruct j as [|j]; cbn in H |- *.
    + injection H as ->. rewrite Hc. cbn. rewrite Nat.add_0_r. reflexivity.
    + unfold count_elements in *. cbn. destruct (is_comment x) eqn:E; cbn;
        rewrite (IH (S k) j H Hc); f_equal; lia.
Qed.
Lemma v2p_length k l : length (virt_to_phys_aux k l) = count_elements l.
Proof.
  unfold count_elements. revert k; induction l as [|x l IH]; intros k; cbn; auto.
  destruct (is_comment x); cbn; rewrite IH; auto.
Qed.
Lemma v2p_filter l i :
  match nth_error (virt_to_phys l) i with Some j => nth_error l j | None => None end
  = nth_error (filter (fun c => negb (is_comment c)) l) i.
Proof.
  destruct (nth_error (virt_to_phys l) i) as [j|] eqn:E.
  - apply v2p_sound in E as (_ & c & H1 & _ & _ & H2). rewrite Nat.sub_0_r in H1. congruence.
  - apply nth_error_None in E. unfold virt_to_phys in E. rewrite v2p_length in E.
    symmetry. apply nth_error_None. exact E.
Qed.

Section ListSet.
Context {A : Type}.
Lemma list_set_length i (x : A) l : length (list_set i x l) = length l.
Proof. revert i; induction l as [|y l IH]; intros [|i]; cbn; auto. Qed.
Lemma nth_list_set_same i (x : A) l : i < length l -> nth_error (list_set i x l) i = Some x.
Proof. revert i; induction l as [|y l IH]; intros [|i] H; cbn in *; auto; try lia. apply IH; lia. Qed.
Lemma nth_list_set_other i j (x : A) l : i <> j -> nth_error (list_set i x l) j = nth_error l j.
Proof. revert i j; induction l as [|y l IH]; intros [|i] [|j] H; cbn; auto; try congruence. Qed.
End ListSet.

Definition p2v_fold (mapping : list nat) (n m : nat) : list nat :=
  fold_left (fun nm i => list_set (nth i mapping 0) i nm) (seq 0 m) (repeat 0 n).
Lemma p2v_fold_S mapping n m :
  p2v_fold mapping n (S m) = list_set (nth m mapping 0) m (p2v_fold mapping n m).
Proof. unfold p2v_fold. rewrite seq_S, fold_left_app. reflexivity. Qed.
Lemma p2v_fold_length mapping n m : length (p2v_fold mapping n m) = n.
Proof.
  induction m as [|m IH].
  - apply repeat_length.
  - rewrite p2v_fold_S, list_set_length. exact IH.
Qed.
Lemma p2v_fold_none mapping n m j : j < n -> (forall i, i < m -> nth i mapping 0 <> j) ->
  nth_error (p2v_fold mapping n m) j = Some 0.
Proof.
  intros Hj; induction m as [|m IH]; intros H.
  - unfold p2v_fold; cbn. apply nth_error_repeat; auto.
  - rewrite p2v_fold_S, nth_list_set_other; auto.
Qed.
Lemma p2v_fold_some mapping n m i j :
  (forall a b, a < m -> b < m -> nth a mapping 0 = nth b mapping 0 -> a = b) ->
  (forall a, a < m -> nth a mapping 0 < n) ->
  i < m -> nth i mapping 0 = j -> nth_error (p2v_fold mapping n m) j = Some i.
Proof.
  revert i j; induction m as [|m IH]; intros i j Hinj Hlt Hi Hj; [lia|].
  rewrite p2v_fold_S. destruct (Nat.eq_dec i m) as [->|N].
  - rewrite Hj, nth_list_set_same; auto. rewrite p2v_fold_length, <- Hj. apply Hlt; lia.
  - rewrite nth_list_set_other.
    + apply IH; [intros a b Ha Hb; apply Hinj; lia | intros a Ha; apply Hlt; lia | lia | exact Hj].
    + intros E. apply N. apply Hinj; lia.
Qed.
Lemma v2p_nth l i : i < length (virt_to_phys l) ->
  nth_error (virt_to_phys l) i = Some (nth i (virt_to_phys l) 0).
Proof. intros H. apply nth_error_nth'. exact H. Qed.
Lemma v2p_inj l a b j : nth_error (virt_to_phys l) a = Some j -> nth_error (virt_to_phys l) b = Some j -> a = b.
Proof.
  intros Ha Hb. apply v2p_sound in Ha as (_ & _ & _ & _ & Ha & _). apply v2p_sound in Hb as (_ & _ & _ & _ & Hb & _).
  congruence.
Qed.
Lemma p2v_length l : length (phys_to_virt l) = length l.
Proof. apply p2v_fold_length. Qed.
Lemma p2v_of_v2p l i j : nth_error (virt_to_phys l) i = Some j -> nth_error (phys_to_virt l) j = Some i.
Proof.
  intros H. assert (i < length (virt_to_phys l)) as Hi.
  { apply nth_error_Some. congruence. }
  apply p2v_fold_some; auto.
  - intros a b Ha Hb E. apply v2p_nth in Ha. apply v2p_nth in Hb. eapply v2p_inj; eauto. congruence.
  - intros a Ha. apply v2p_nth in Ha. apply v2p_sound in Ha as (_ & c & Hc & _).
    apply nth_error_Some. rewrite Nat.sub_0_r in Hc. congruence.
  - apply v2p_nth in Hi. congruence.
Qed.
Lemma p2v_nth l j c : nth_error l j = Some c -> is_comment c = false ->
  nth_error (phys_to_virt l) j = Some (count_elements (firstn j l)).
Proof. intros H Hc. apply p2v_of_v2p. apply (v2p_complete 0 l j c H Hc). Qed.
Lemma p2v_comment l j c : nth_error l j = Some c -> is_comment c = true -> nth_error (phys_to_virt l) j = Some 0.
Proof.
  intros H Hc. apply p2v_fold_none.
  - apply nth_error_Some. congruence.
  - intros i Hi E. apply v2p_nth in Hi. rewrite E in Hi. apply v2p_sound in Hi as (_ & d & Hd & Hn & _).
    rewrite Nat.sub_0_r in Hd. congruence.
Qed.

Lemma step_child_index n part : isdigit part = true ->
  option_map snd (step_child n part) =
  match nth_error (filter (fun c => negb (is_comment c)) (n_children n)) (int_of part) with
  | Some c => if n_lmf c then Some c else None
  | None => None
  end.
Proof.
  intros H. unfold step_child. rewrite H, <- v2p_filter.
  destruct (nth_error (virt_to_phys (n_children n)) (int_of part)) as [j|]; cbn; auto.
  destruct (nth_error (n_children n) j) as [c|]; auto. destruct (n_lmf c); auto.
Qed.

(** * Numbers as text *)
Lemma digits_fuel_acc fuel n acc : exists d, d <> [] /\ forallb is_digit d = true /\
  (n < fuel -> digits_fuel fuel n acc = d ++ acc /\ forall a, int_acc a d = a * 10 ^ length d + n).
Proof.
  revert n acc; induction fuel as [|f IH]; intros n acc.
  - exists [ch 48]. split; [discriminate|]. split; [reflexivity|]. lia.
  - assert (forall r, r < 10 -> is_digit (ch (48 + r)) = true /\ digit_val (ch (48 + r)) = r) as HD.
    { intros r Hr. do 10 (destruct r as [|r]; [vm_compute; auto|]). lia. }
    destruct (HD (n mod 10)) as [HD1 HD2]; [apply Nat.mod_upper_bound; lia|].
    cbn [digits_fuel]. cbv zeta. set (dc := ch (48 + n mod 10)) in *. clearbody dc. destruct (Nat.ltb_spec n 10) as [L|G].
    + exists [dc]. split; [discriminate|]. split; [cbn; rewrite HD1; auto|].
      intros _. split; auto. intros a. cbn [int_acc length Nat.pow]. rewrite HD2, Nat.mod_small; lia.
    + destruct (IH (n / 10) (dc :: acc)) as (d & Hd1 & Hd2 & Hd3).
      exists (d ++ [dc]). split; [destruct d; discriminate|].
      split; [rewrite forallb_app, Hd2; cbn; rewrite HD1; auto|].
      intros Hf. destruct Hd3 as (E & V).
      { apply Nat.div_lt_upper_bound; lia. }
      split; [rewrite E, <- app_assoc; reflexivity|].
      intros a.
      assert (forall s t b, int_acc b (s ++ t) = int_acc (int_acc b s) t) as HA.
      { clear. induction s as [|x s IHs]; intros t b; cbn; auto. }
      rewrite HA, V. cbn [int_acc]. rewrite HD2, app_length. cbn [length].
      rewrite Nat.pow_add_r. pose proof (Nat.div_mod n 10). cbn [Nat.pow]. nia.
Qed.
Lemma str_of_nat_spec n : isdigit (str_of_nat n) = true /\ int_of (str_of_nat n) = n /\ component (str_of_nat n).
Proof.
  unfold str_of_nat. destruct (digits_fuel_acc (S n) n []) as (d & H1 & H2 & H3).
  destruct H3 as (E & V); [lia|]. rewrite E, app_nil_r. split; [|split].
  - unfold isdigit. destruct d; auto.
  - unfold int_of. rewrite V. lia.
  - split; auto. intros HIn. rewrite forallb_forall in H2. apply H2 in HIn. discriminate.
Qed.

(** * Document order *)
Fixpoint preorder_list (i : nat) (cs : list node) : list position :=
  match cs with
  | [] => []
  | c :: cs' => map (cons i) (preorder c) ++ preorder_list (S i) cs'
  end.
Lemma preorder_eq n : preorder n = [] :: preorder_list 0 (n_children n).
Proof.
  destruct n as [v c chs l ml k]. reflexivity.
Qed.
Fixpoint ta_list (E : env) (path : stack) (cs : list node) (mp : list nat) : list (node * stack) :=
  match cs, mp with
  | x :: cs', i :: mp' => traverse_all E x (Some path) i ++ ta_list E path cs' mp'
  | _, _ => []
  end.
Lemma traverse_all_eq E n path idx :
  traverse_all E n path idx =
  (n, ta_path E n path idx) :: ta_list E (ta_path E n path idx) (n_children n) (phys_to_virt (n_children n)).
Proof.
  destruct n as [v c chs l ml k]. cbn [traverse_all n_children]. f_equal.
  generalize (ta_path E (Nd v c chs l ml k) path idx) as q. intros q.
  generalize (phys_to_virt chs). induction chs as [|x chs IH]; intros [|i mp]; cbn; auto.
  rewrite IH. reflexivity.
Qed.

(** The stack of a position below a node whose own stack is [path]. *)
Definition own_stack (E : env) (siblings : list node) (i : nat) (n : node) (path : stack) : stack :=
  ta_path E n (Some path) (nth i (phys_to_virt siblings) 0).
Fixpoint stack_at (E : env) (n : node) (path : stack) (p : position) : stack :=
  match p with
  | [] => path
  | i :: p' => match nth_error (n_children n) i with
               | None => path
               | Some c => stack_at E c (own_stack E (n_children n) i c path) p'
               end
  end.
Lemma ta_list_spec E path chs0 cs i :
  (forall k c, nth_error cs k = Some c -> nth_error chs0 (i + k) = Some c) ->
  i + length cs = length chs0 ->
  Forall (fun c => forall path idx,
     traverse_all E c (Some path) idx =
     map (fun p => (match node_at c p with Some m => m | None => c end, stack_at E c (ta_path E c (Some path) idx) p))
         (preorder c)) cs ->
  ta_list E path cs (skipn i (phys_to_virt chs0)) =
  map (fun p => match p with
                | [] => (root_node [], [])
                | j :: q => match nth_error chs0 j with
                            | Some c => (match node_at c q with Some m => m | None => c end,
                                         stack_at E c (own_stack E chs0 j c path) q)
                            | None => (root_node [], [])
                            end
                end) (preorder_list i cs).
Proof.
  revert i; induction cs as [|c cs IH]; intros i Hn Hl HF; cbn [preorder_list map ta_list]; auto.
  inversion HF as [|? ? Hc HF']; subst. cbn in Hl.
  assert (nth_error chs0 i = Some c) as Hi. { specialize (Hn 0 c). cbn in Hn. rewrite Nat.add_0_r in Hn. auto. }
  assert (i < length (phys_to_virt chs0)) as Hlt by (rewrite p2v_length; lia).
  destruct (skipn i (phys_to_virt chs0)) as [|v mp] eqn:Es.
  { apply (f_equal (@length nat)) in Es. rewrite skipn_length in Es. cbn in Es. lia. }
  assert (nth i (phys_to_virt chs0) 0 = v) as Hv.
  { rewrite <- (firstn_skipn i (phys_to_virt chs0)), Es, app_nth2; rewrite firstn_length_le; try lia.
    rewrite Nat.sub_diag. reflexivity. }
  assert (skipn (S i) (phys_to_virt chs0) = mp) as Hm.
  { rewrite skipn_S, Es. reflexivity. }
  rewrite map_app. f_equal.
  - rewrite Hc, map_map. apply map_ext. intros p. rewrite Hi. unfold own_stack. rewrite Hv. reflexivity.
  - rewrite <- Hm. apply IH; auto; try lia.
    intros k d Hk. rewrite Nat.add_succ_l, <- Nat.add_succ_r. apply Hn. exact Hk.
Qed.
Lemma preorder_list_In chs cs i p :
  (forall k c, nth_error cs k = Some c -> nth_error chs (i + k) = Some c) ->
  In p (preorder_list i cs) -> exists j q d, p = j :: q /\ nth_error chs j = Some d /\ In q (preorder d).
Proof.
  revert i; induction cs as [|d cs IHc]; intros i Hn HI; cbn in HI; [tauto|].
  apply in_app_iff in HI as [HI|HI].
  - apply in_map_iff in HI as (q & <- & HI). exists i, q, d. repeat split; auto.
    specialize (Hn 0 d). rewrite Nat.add_0_r in Hn. auto.
  - apply (IHc (S i)); auto. intros k c Hk. rewrite Nat.add_succ_l, <- Nat.add_succ_r. apply Hn; auto.
Qed.
Lemma preorder_node_at n q : In q (preorder n) -> exists m, node_at n q = Some m.
Proof.
  revert q. induction n as [v c chs l ml k IHd] using node_ind'. intros q Hq.
  rewrite preorder_eq in Hq. destruct Hq as [<-|Hq]; [cbn; eauto|]. cbn [n_children] in Hq.
  apply (preorder_list_In chs) in Hq as (j & r & d & -> & Hd & Hr); auto.
  cbn. rewrite Hd. rewrite Forall_forall in IHd. apply (IHd d); auto. eapply nth_error_In; eauto.
Qed.
Lemma traverse_all_spec E n : forall path idx,
  traverse_all E n path idx =
  map (fun p => (match node_at n p with Some m => m | None => n end, stack_at E n (ta_path E n path idx) p))
      (preorder n).
Proof.
  induction n as [v c chs l ml k IH] using node_ind'. intros path idx.
  rewrite traverse_all_eq, preorder_eq. cbn [map n_children node_at stack_at]. f_equal.
  change (phys_to_virt chs) with (skipn 0 (phys_to_virt chs)).
  rewrite (ta_list_spec E (ta_path E (Nd v c chs l ml k) path idx) chs chs 0); auto.
  - apply map_ext_in. intros p Hp.
    apply (preorder_list_In chs) in Hp as (j & q & d & -> & Hd & Hq); auto.
    cbn [node_at stack_at n_children]. rewrite Hd.
    destruct (preorder_node_at d q Hq) as (m & ->). reflexivity.
  - eapply Forall_impl; [|exact IH]. intros a Ha p i. apply Ha.
Qed.
Lemma node_at_preorder n q m : node_at n q = Some m -> In q (preorder n).
Proof.
  revert n; induction q as [|i q IH]; intros n H; rewrite preorder_eq; cbn [node_at] in H.
  - left; auto.
  - right. destruct (nth_error (n_children n) i) as [c|] eqn:E; [|discriminate].
    assert (forall cs j, nth_error cs i = Some c -> In ((j + i) :: q) (preorder_list j cs)) as Hgen.
    { clear -IH H. revert IH H. revert q c. induction i as [|i IHi]; intros q c IHq Hq [|d cs] j E; cbn in E; try discriminate.
      - injection E as ->. cbn. apply in_app_iff; left. rewrite Nat.add_0_r. apply in_map. auto.
      - cbn. apply in_app_iff; right. replace (j + S i) with (S j + i) by lia. apply (IHi q c); auto. }
    apply (Hgen (n_children n) 0); auto.
Qed.

(** * Path text of a position *)
Lemma spts_cons x path :
  stack_path_to_str (x :: path) = stack_path_to_str path ++ (if str_eqb x [cSL] then [] else cSL :: x).
Proof.
  unfold stack_path_to_str. cbn [rev]. rewrite fold_left_app. cbn [fold_left].
  change ROOT_VALUE with [cSL]. destruct (str_eqb x [cSL]); [rewrite app_nil_r; reflexivity|reflexivity].
Qed.
Lemma nval_str_terminal_path E n path idx sib :
  idx = count_elements sib ->
  stack_path_to_str (ta_path E n (Some path) idx) = stack_path_to_str path ++ own_text E sib n.
Proof.
  intros ->. unfold ta_path, own_text.
  destruct (n_lmf n).
  - rewrite spts_cons. destruct (str_eqb (str_of_nat (count_elements sib)) [cSL]) eqn:Hq; auto.
    apply str_eqb_eq in Hq. exfalso.
    destruct (str_of_nat_spec (count_elements sib)) as (_ & _ & _ & HI). apply HI. rewrite Hq. left; auto.
  - unfold is_empty_key. rewrite leaf_terminal.
    destruct (terminal n), (n_keyf n); cbn [andb orb negb]; try (rewrite app_nil_r; reflexivity);
      rewrite spts_cons; reflexivity.
Qed.
Lemma has_children_not_comment n i c : nth_error (n_children n) i = Some c -> is_comment n = false.
Proof.
  intros H. destruct (is_comment n) eqn:E; auto. apply is_comment_spec in E as (_ & _ & E).
  rewrite E in H. destruct i; discriminate.
Qed.
Lemma stack_at_text E n path p m : node_at n p = Some m -> is_comment m = false ->
  stack_path_to_str (stack_at E n path p) = stack_path_to_str path ++ path_at E n p.
Proof.
  revert n path; induction p as [|i p IH]; intros n path H Hm; cbn [stack_at path_at node_at] in *.
  - rewrite app_nil_r; auto.
  - destruct (nth_error (n_children n) i) as [c|] eqn:Ei; [|discriminate].
    rewrite (IH c _ H Hm), app_assoc. f_equal. unfold own_stack.
    apply nval_str_terminal_path.
    assert (is_comment c = false) as Hc.
    { destruct p as [|j p]; cbn in H; [congruence|].
      destruct (nth_error (n_children c) j) eqn:Ej; [|discriminate].
      eapply has_children_not_comment; eauto. }
    rewrite (nth_error_nth _ _ _ (p2v_nth _ _ _ Ei Hc)). reflexivity.
Qed.
Lemma visits_spec E root : visits E root =
  map (fun p => (match node_at root p with Some m => m | None => root end, stack_at E root [ROOT_VALUE] p))
      (preorder root).
Proof. unfold visits. rewrite traverse_all_spec. reflexivity. Qed.
Lemma visits_filter E root (f : node -> bool) : (forall n, f n = true -> is_comment n = false) ->
  map (fun np => stack_path_to_str (snd np)) (filter (fun np : node * stack => f (fst np)) (visits E root))
  = map (path_at E root) (positions_where f root).
Proof.
  intros Hf. rewrite visits_spec. unfold positions_where.
  assert (forall p, In p (preorder root) -> exists m, node_at root p = Some m) as HI by apply preorder_node_at.
  induction (preorder root) as [|p ps IH]; cbn [map filter]; auto.
  destruct (HI p) as (m & Hm); [left; auto|]. cbn [fst]. rewrite Hm.
  destruct (f m) eqn:Ef; cbn [map].
  - f_equal.
    + cbn [snd]. rewrite (stack_at_text E root _ p m); auto.
    + apply IH. intros q Hq. apply HI. right; auto.
  - apply IH. intros q Hq. apply HI. right; auto.
Qed.
Lemma list_value_paths_spec E root : list_value_paths E root = map (path_at E root) (positions_where terminal root).
Proof.
  unfold list_value_paths. apply (visits_filter E root terminal). apply terminal_not_comment.
Qed.

(** * C03: every listed path resolves *)
Lemma addressable_list_nth before l i c : addressable_list before l = true -> nth_error l i = Some c ->
  addressable_name c = true /\
  (is_key_line c = true -> forall b, In b (before ++ firstn i l) -> same_name b c = false).
Proof.
  revert before i; induction l as [|x l IH]; intros before i H Hi; [destruct i; discriminate|].
  cbn in H. rewrite !andb_true_iff in H. destruct H as ((H1 & H2) & H3).
  destruct i as [|i]; cbn in Hi.
  - injection Hi as ->. split; auto. intros Hk b Hb. rewrite Hk in H2. cbn in H2.
    cbn [firstn] in Hb. rewrite app_nil_r in Hb. apply negb_true_iff in H2.
    destruct (same_name b c) eqn:Es; auto.
    assert (existsb (fun b => same_name b c) before = true) as Hx by (apply existsb_exists; eauto). congruence.
  - destruct (IH _ _ H3 Hi) as (G1 & G2). split; auto. intros Hk b Hb. apply G2; auto.
    cbn [firstn] in Hb. rewrite <- app_assoc. exact Hb.
Qed.
Lemma addressable_children n i c : addressable n = true -> nth_error (n_children n) i = Some c -> addressable c = true.
Proof.
  destruct n as [v cm chs l ml k]. cbn. rewrite andb_true_iff. intros (_ & H) Hi.
  revert i Hi; induction chs as [|x chs IH]; intros [|i] Hi; cbn in Hi; try discriminate;
    apply andb_prop in H as (H1 & H2).
  - congruence.
  - eapply IH; eauto.
Qed.
Lemma addressable_names n : addressable n = true -> addressable_list [] (n_children n) = true.
Proof. destruct n. cbn. rewrite andb_true_iff. tauto. Qed.
Lemma find_child_first part l i c k :
  nth_error l i = Some c -> val_is (n_value c) part = true ->
  (forall b, In b (firstn i l) -> val_is (n_value b) part = false) -> find_child part k l = Some (k + i, c).
Proof.
  revert i k; induction l as [|x l IH]; intros [|i] k Hi Hv Hb; cbn in Hi |- *; try discriminate.
  - injection Hi as ->. rewrite Hv, Nat.add_0_r. reflexivity.
  - rewrite (Hb x); [|left; auto]. rewrite (IH i (S k)); auto.
    + f_equal. f_equal. lia.
    + intros b HB. apply Hb. right; auto.
Qed.
Lemma own_component E n i c : addressable n = true -> nth_error (n_children n) i = Some c -> is_comment c = false ->
  (terminal c && negb (n_keyf c) && negb (n_lmf c) = false) ->
  exists x, component x /\ own_text E (firstn i (n_children n)) c = cSL :: x /\ step_child n x = Some (i, c).
Proof.
  intros Ha Hi Hc Hp. unfold own_text. destruct (n_lmf c) eqn:El.
  - destruct (str_of_nat_spec (count_elements (firstn i (n_children n)))) as (D & V & Cp).
    exists (str_of_nat (count_elements (firstn i (n_children n)))). split; auto. split; auto.
    unfold step_child. rewrite D, V. unfold virt_to_phys. rewrite (v2p_complete 0 _ _ _ Hi Hc). cbn. rewrite Hi, El. reflexivity.
  - rewrite andb_true_r in Hp. rewrite Hp.
    destruct (addressable_list_nth [] _ _ _ (addressable_names _ Ha) Hi) as (G1 & G2). cbn [app] in G2.
    assert (is_key_line c = true) as Hk by (unfold is_key_line; rewrite El, Hc, Hp; reflexivity).
    unfold addressable_name in G1. rewrite El, Hp, Hc in G1. cbn [orb] in G1.
    destruct (n_value c) as [|j] eqn:Ev; [discriminate|]. destruct j as [p|l|d]; try discriminate.
    destruct p; try discriminate. rewrite !andb_true_iff, !negb_true_iff in G1. destruct G1 as ((N1 & N2) & N3).
    exists s. cbn [nval_str json_str prim_str].
    assert (component s) as Cs.
    { split; [apply is_nil_false; auto|]. intros HI.
      assert (existsb (ceq cSL) s = true) as HX by (apply existsb_exists; exists cSL; split; auto; apply ceq_refl).
      congruence. }
    split; auto. split.
    + destruct (str_eqb s [cSL]) eqn:Es; auto. apply str_eqb_eq in Es. destruct Cs as (_ & HI).
      exfalso; apply HI. rewrite Es. left; auto.
    + unfold step_child. rewrite N3. rewrite (find_child_first s (n_children n) i c 0); auto.
      * rewrite Ev. cbn. apply str_eqb_refl.
      * intros b Hb. specialize (G2 Hk b Hb). unfold same_name in G2. rewrite Ev in G2. exact G2.
Qed.
Lemma path_at_resolves E n p m : addressable n = true -> node_at n p = Some m -> terminal m = true ->
  exists cs, Forall component cs /\ path_at E n p = path_text cs /\ traverse_recurse n cs = Some (owner n p)
  /\ (forall i p', p = i :: p' -> cs = [] -> exists c, nth_error (n_children n) i = Some c /\ terminal c = true
                      /\ n_keyf c = false /\ n_lmf c = false)
  \/ p = [].
Proof.
  revert n; induction p as [|i p IH]; intros n Ha Hm Ht; [exists []; right; auto|].
  cbn [node_at] in Hm. destruct (nth_error (n_children n) i) as [c|] eqn:Ei; [|discriminate].
  pose proof (addressable_children _ _ _ Ha Ei) as Hac.
  assert (is_comment c = false) as Hc.
  { destruct p as [|j p]; cbn in Hm; [injection Hm as ->; apply terminal_not_comment; auto|].
    destruct (nth_error (n_children c) j) eqn:Ej; [|discriminate].
    eapply has_children_not_comment; eauto. }
  destruct (terminal c && negb (n_keyf c) && negb (n_lmf c)) eqn:Hp.
  - rewrite !andb_true_iff, !negb_true_iff in Hp. destruct Hp as ((T & K) & Lm).
    assert (p = []) as ->.
    { destruct p as [|j p]; auto. cbn in Hm. unfold terminal in T. apply andb_prop in T as (T & _).
      apply is_nil_true in T. rewrite T in Hm. destruct j; discriminate. }
    exists []. left. split; [constructor|]. split.
    + cbn. rewrite Ei. unfold own_text. rewrite Lm, T, K. reflexivity.
    + split.
      * cbn. unfold owner. cbn. rewrite Ei, Lm, K. reflexivity.
      * intros i' p' H _. injection H as <- <-. eauto.
  - destruct (own_component E n i c Ha Ei Hc Hp) as (x & Cx & Tx & Sx).
    destruct (IH c Hac Hm Ht) as (cs & [(F & T & R & _)| ->]).
    + destruct p as [|j p].
      * cbn [node_at] in Hm. injection Hm as ->.
        exists [x]. left. split; [constructor; auto|]. split.
        { cbn. rewrite Ei, Tx, !app_nil_r. reflexivity. }
        split.
        { cbn. rewrite Sx. cbn. unfold owner. cbn. rewrite Ei.
          rewrite Ht in Hp. cbn [andb] in Hp. destruct (n_keyf m), (n_lmf m); cbn in *; try discriminate; auto. }
        { intros; discriminate. }
      * exists (x :: cs). left. split; [constructor; auto|]. split.
        { cbn [path_at path_text] in *. rewrite Ei, Tx, T. reflexivity. }
        split.
        { cbn [traverse_recurse]. rewrite Sx, R. cbn [option_map]. f_equal.
          unfold owner. cbn [node_at]. rewrite Ei. cbn [node_at] in Hm. rewrite Hm.
          destruct (n_lmf m || n_keyf m); reflexivity. }
        { intros; discriminate. }
    + exists [x]. left. cbn [node_at] in Hm. injection Hm as ->. split; [constructor; auto|]. split.
      { cbn. rewrite Ei, Tx, !app_nil_r. reflexivity. }
      split.
      { cbn. rewrite Sx. cbn. unfold owner. cbn. rewrite Ei.
        rewrite Ht in Hp. cbn [andb] in Hp. destruct (n_keyf m), (n_lmf m); cbn in *; try discriminate; auto. }
      { intros; discriminate. }
Qed.
Lemma positions_where_In f root p : In p (positions_where f root) <-> exists n, node_at root p = Some n /\ f n = true.
Proof.
  unfold positions_where. rewrite filter_In. split.
  - intros (_ & H). destruct (node_at root p); eauto. discriminate.
  - intros (n & Hn & Hf). split; [eapply node_at_preorder; eauto|]. rewrite Hn. auto.
Qed.
Lemma c03_resolves E root p : addressable_document root = true -> In p (positions_where terminal root) ->
  exists st, str_to_stack_path (path_at E root p) = Ok st /\ traverse_pos root st = Some (owner root p).
Proof.
  unfold addressable_document. rewrite !andb_true_iff. intros ((HN & HB) & HA) HI.
  apply positions_where_In in HI as (m & Hm & Ht).
  destruct (path_at_resolves E root p m HA Hm Ht) as (cs & [(F & T & R & X)| ->]).
  - destruct p as [|i p].
    { cbn in Hm. injection Hm as <-. unfold terminal in Ht. apply andb_prop in Ht as (Ht & _).
      rewrite Ht in HN. discriminate. }
    assert (cs <> []) as Hne.
    { intros ->. destruct (X i p eq_refl eq_refl) as (c & Hc & H1 & H2 & H3).
      rewrite forallb_forall in HB. specialize (HB c (nth_error_In _ _ Hc)).
      rewrite H1, H2, H3 in HB. discriminate. }
    exists (rev cs ++ [ROOT_VALUE]). rewrite T, stack_of_path; auto. split; auto.
    unfold traverse_pos. rewrite rev_app_distr, rev_involutive. cbn [rev app].
    destruct cs; [contradiction|]. exact R.
  - cbn in Hm. injection Hm as <-. unfold terminal in Ht. apply andb_prop in Ht as (Ht & _).
    rewrite Ht in HN. discriminate.
Qed.
