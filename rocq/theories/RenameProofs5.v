(** C134: the tree with the new names is determined, and checks of the hypotheses. *)
From Verif Require Import AboutProofs4 AboutProofs3 VarsProofs4 PlainProofs PatchSpec PlainSpec RenameProofs3 RenameProofs2 RenameProofs RenameSpec.

Lemma others_one olds l a b : other_lines olds l a -> other_lines olds l b -> a = b.
Proof. intros A B. rewrite (others_are _ _ _ A), (others_are _ _ _ B). reflexivity. Qed.
Lemma renamed_one E root sec cd a b : renamed_line E root sec cd a -> renamed_line E root sec cd b -> a = b.
Proof.
  intros A B. inversion A as [c d NS|c d v x SL V W C P]; subst; inversion B as [c1 d1 NS1|c1 d1 v1 x1 SL1 V1 W1 C1 P1]; subst; try reflexivity; try contradiction.
  rewrite V in V1. injection V1 as <-. unfold written_as in W, W1. rewrite W in W1. congruence.
Qed.
Lemma section_one E root a x y : section_renewed E known_names root a x -> section_renewed E known_names root a y -> x = y.
Proof.
  intros A B. inversion A as [a1 N1|t1 a1 o1 n1 I1 C1 O1 R1]; subst; inversion B as [a2 N2|t2 a2 o2 n2 I2 C2 O2 R2]; subst; try reflexivity.
  - destruct (N1 _ I2 C2).
  - destruct (N2 _ I1 C1).
  - assert (t2 = t1) as -> by (apply known_once; [exact I2|exact I1|unfold called in *; congruence]). rewrite (others_one _ _ _ _ O1 O2).
    enough (n1 = n2) as -> by reflexivity. clear A B. revert n2 R2. induction R1 as [|cd n cds ns H L IH]; intros n2 L2; inversion L2; subst; [reflexivity|].
    f_equal; [eapply renamed_one; eassumption|apply IH; assumption].
Qed.
Lemma names_one E root a b : names_renewed E root a -> names_renewed E root b -> a = b.
Proof.
  intros (l1 & H1 & ->) (l2 & H2 & ->). enough (l1 = l2) as -> by reflexivity. revert l2 H2. induction H1 as [|x y xs ys K H IH]; intros l2 H2; inversion H2; subst; [reflexivity|].
  f_equal; [eapply section_one; eassumption|apply IH; assumption].
Qed.

(** * Checks *)
Definition new_line_of (E : env) (root : node) (sec : str) (cd : str * str) : option (list node) :=
  if has_section_line sec (fst cd) root then
    match get_value E root (path_text [sec; fst cd]) None None with
    | Ok v => match generate_subtree E (JDict [(PStr (snd cd), v)]) with
              | Ok [x] => if is_called (snd cd) x && proper_tree x then Some [x] else None
              | _ => None
              end
    | Err _ => None
    end
  else Some [].
Fixpoint all_some {A B} (f : A -> option B) (l : list A) : option (list B) :=
  match l with
  | [] => Some []
  | x :: r => match f x, all_some f r with Some y, Some ys => Some (y :: ys) | _, _ => None end
  end.
Definition renew_section (E : env) (root a : node) : option node :=
  match find (fun t => is_called (fst t) a) known_names with
  | None => Some a
  | Some t => match all_some (new_line_of E root (fst t)) (fst (snd t)) with
              | Some news => Some (with_lines a (filter (fun x => negb (existsb (fun c => is_called c x) (old_names_of t))) (n_children a) ++ concat news))
              | None => None
              end
  end.
Definition renew_names (E : env) (root : node) : option node :=
  match all_some (renew_section E root) (n_children root) with Some l => Some (with_lines root l) | None => None end.
Lemma all_some_is {A B} (f : A -> option B) (R : A -> B -> Prop) : (forall x y, f x = Some y -> R x y) -> forall l ys, all_some f l = Some ys -> Forall2 R l ys.
Proof.
  intros H. induction l as [|x l IH]; intros ys K; cbn [all_some] in K.
  - injection K as <-. constructor.
  - destruct (f x) as [y|] eqn:F; [|discriminate]. destruct (all_some f l) as [zs|]; [|discriminate]. injection K as <-. constructor; [apply H; exact F|apply IH; reflexivity].
Qed.
Lemma section_line_is s c root : has_section_line s c root = true -> section_line s c root.
Proof.
  intros H. apply existsb_exists in H as (b & I & H). apply andb_prop in H as (B & H). apply existsb_exists in H as (x & J & H). exists b, x. split; [exact I|]. split; [apply called_iff; exact B|]. split; [exact J|apply called_iff; exact H].
Qed.
Lemma new_line_is E root sec cd ls : new_line_of E root sec cd = Some ls -> renamed_line E root sec cd ls.
Proof.
  destruct cd as (c & d). unfold new_line_of. cbn [fst snd]. destruct (has_section_line sec c root) eqn:S; [|intros H; injection H as <-; apply no_old_line; intros K; apply has_section_line_iff in K; congruence].
  destruct (get_value E root (path_text [sec; c]) None None) as [v|] eqn:V; [|discriminate]. destruct (generate_subtree E (JDict [(PStr d, v)])) as [[|x [|]]|] eqn:G; try discriminate.
  destruct (is_called d x && proper_tree x) eqn:Q; [|discriminate]. apply andb_prop in Q as (Q1 & Q2). intros H. injection H as <-. apply (written_anew E root sec c d v x); [apply section_line_is; exact S|exact V|exact G|apply called_iff; exact Q1|exact Q2].
Qed.
Lemma others_filter olds l : other_lines olds l (filter (fun x => negb (existsb (fun c => is_called c x) olds)) l).
Proof.
  induction l as [|x l IH]; [constructor|]. cbn [filter]. destruct (existsb (fun c => is_called c x) olds) eqn:O; cbn [negb].
  - apply existsb_exists in O as (c & I & C). apply (other_not olds c); [exact I|apply called_iff; exact C|exact IH].
  - apply other_this; [|exact IH]. intros c I C. assert (existsb (fun c => is_called c x) olds = true); [|congruence]. apply existsb_exists. exists c. split; [exact I|apply is_called_iff; exact C].
Qed.
Lemma renew_names_is E root root' : renew_names E root = Some root' -> names_renewed E root root'.
Proof.
  unfold renew_names. destruct (all_some (renew_section E root) (n_children root)) as [l|] eqn:A; [|discriminate]. intros H. injection H as <-. exists l. split; [|reflexivity].
  revert A. apply all_some_is. clear. intros a a' H. unfold renew_section in H. destruct (find (fun t => is_called (fst t) a) known_names) as [t|] eqn:F.
  - apply find_some in F as (I & C). destruct (all_some (new_line_of E root (fst t)) (fst (snd t))) as [news|] eqn:N; [|discriminate]. injection H as <-.
    apply (known_section E known_names root t a); [exact I|apply called_iff; exact C|apply others_filter|]. revert N. apply all_some_is. intros cd ls. apply new_line_is.
  - injection H as <-. apply other_section. intros t I C. pose proof (find_none _ _ F t I) as X. cbv beta in X. rewrite (is_called_iff _ _ C) in X. discriminate.
Qed.
Definition in_order_check (root : node) : bool :=
  forallb (fun t => Nat.leb (length (filter (is_called (fst t)) (n_children root))) 1
    && forallb (fun a => negb (is_called (fst t) a)
      || negb (n_lmf a) && n_keyf a
         && forallb (fun c => forallb (fun x => negb (is_called c x) || negb (bare_value x)) (n_children a)
                              && Nat.leb (length (filter (is_called c) (n_children a))) 1) (old_names_of t)
         && forallb (fun cd => forallb (fun x => negb (is_called (snd cd) x)) (n_children a)) (fst (snd t))) (n_children root)) known_names.
Lemma only_one_called c l l1 x l2 : Nat.leb (length (filter (is_called c) l)) 1 = true -> l = l1 ++ x :: l2 -> called c x -> forall y, In y (l1 ++ l2) -> ~ called c y.
Proof.
  intros B -> K y Y D. rewrite filter_app in B. cbn [filter] in B. rewrite (is_called_iff _ _ K), app_length in B. cbn [length] in B. apply Nat.leb_le in B.
  apply is_called_iff in D. apply in_app_iff in Y as [Y|Y].
  - assert (In y (filter (is_called c) l1)) as Z by (apply filter_In; auto). destruct (filter (is_called c) l1); [contradiction|]. cbn [length] in B. lia.
  - assert (In y (filter (is_called c) l2)) as Z by (apply filter_In; auto). destruct (filter (is_called c) l2); [contradiction|]. cbn [length] in B. lia.
Qed.
Lemma in_order_checked root : in_order_check root = true -> forall tb, In tb known_names -> section_in_order tb root.
Proof.
  unfold in_order_check. rewrite forallb_forall. intros H tb I l1 a l2 HC C. specialize (H tb I). apply andb_prop in H as (H0 & H). rewrite forallb_forall in H.
  assert (In a (n_children root)) as IA by (rewrite HC; apply in_elt). specialize (H a IA). rewrite (is_called_iff _ _ C) in H. cbn [negb orb] in H. rewrite !andb_true_iff in H. destruct H as (((H1 & H2) & H3) & H4).
  apply negb_true_iff in H1. rewrite forallb_forall in H3, H4. split; [exact H1|]. split; [exact H2|]. split; [exact (only_one_called _ _ _ _ _ H0 HC C)|]. split.
  - intros c m1 x m2 O E K. specialize (H3 c O). apply andb_prop in H3 as (A & B). rewrite forallb_forall in A. split; [|exact (only_one_called _ _ _ _ _ B E K)].
    assert (In x (n_children a)) as J by (rewrite E; apply in_elt). apply A in J. rewrite (is_called_iff _ _ K) in J. cbn [negb orb] in J. apply negb_true_iff in J. exact J.
  - intros c d x O J D. specialize (H4 (c, d) O). cbn [snd] in H4. rewrite forallb_forall in H4. specialize (H4 x J). rewrite (is_called_iff _ _ D) in H4. discriminate.
Qed.
Definition only_renamed_check (root : node) : bool :=
  forallb (fun s => negb (has_top s root)) old_sections && forallb (fun p => negb (has_section_line (fst p) (snd p) root)) not_covered.
Lemma only_renamed_checked root : only_renamed_check root = true -> only_renamed root.
Proof.
  unfold only_renamed_check. rewrite !andb_true_iff, !forallb_forall. intros (A & B). split.
  - intros s I H. apply has_top_iff in H. specialize (A s I). rewrite H in A. discriminate.
  - intros s c I H. apply has_section_line_iff in H. specialize (B (s, c) I). cbn [fst snd] in B. rewrite H in B. discriminate.
Qed.
