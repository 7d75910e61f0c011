(** Proofs for C145. *)
From Verif Require Import LayoutProofs3 LayoutProofs8 CommentFileProofs NewFileProofs.
From Verif Require Export SessionProofs SelProofs3 PathProofs2 QuerySpec.

Inductive row_nodes : list node -> str -> str -> content -> Prop :=
| rn_nothing k c p : row_nodes [key_node k c []] p c (CNothing k)
| rn_value k v c p : row_nodes [key_node k c [value_node v c]; value_node v c] p c (CValue v)
| rn_block k c p ls m : row_nodes [key_node k c [Nd (VJ (JList ls)) [] [] false m false]; Nd (VJ (JList ls)) [] [] false m false] p c (CValue (JList ls))
| rn_section n p c : n_children n <> [] -> n_comment n = c -> row_nodes [n] p c CSection
| rn_element v c p : row_nodes [Nd (VJ v) c [] true MNone false] p c (CValue v).
Inductive shows : list (node * stack) -> list row -> Prop :=
| shows_nil : shows [] []
| shows_comment c st l ws : c <> [] -> shows l ws -> shows ((Nd VSent c [] false MNone false, st) :: l) (RComment c :: ws)
| shows_line ns sts p c v l ws : row_nodes ns p c v -> length sts = length ns -> Forall (fun st => stack_path_to_str st = p) sts -> shows l ws ->
    shows (combine ns sts ++ l) (RLine p c v :: ws).
Lemma shows_app l ws l' ws' : shows l ws -> shows l' ws' -> shows (l ++ l') (ws ++ ws').
Proof.
  induction 1 as [|c st l ws H _ IH|ns sts p c v l ws H1 H2 H3 _ IH]; intros K; [exact K|cbn [app]; constructor; auto|].
  rewrite <- app_assoc. cbn [app]. constructor; auto.
Qed.
Fixpoint list_rows (up : str) (n : nat) (xs : list item) : list row :=
  match xs with [] => [] | x :: xs' => rows up n x ++ list_rows up (number_after n x) xs' end.
Lemma file_rows_list n xs : file_rows n xs = list_rows [] n xs.
Proof. revert n. induction xs as [|x xs IH]; intros n; [reflexivity|]. cbn [file_rows list_rows]. rewrite IH. reflexivity. Qed.
Lemma below_list here : forall xs m, (fix go (m : nat) (l : list item) : list row :=
    match l with [] => [] | y :: l' => rows here m y ++ go (number_after m y) l' end) m xs = list_rows here m xs.
Proof. induction xs as [|x xs IH]; intros m; [reflexivity|]. cbn [list_rows]. rewrite <- IH. reflexivity. Qed.
Lemma key_stack E k c chs path n : key_text k <> [cSL] ->
  stack_path_to_str (ta_path E (key_node k c chs) (Some path) n) = at_key (stack_path_to_str path) k.
Proof.
  intros H. assert (ta_path E (key_node k c chs) (Some path) n = key_text k :: path) as ->.
  { unfold ta_path, key_node, is_empty_key, is_leaf, is_comment. destruct chs; reflexivity. }
  rewrite spts_cons. unfold at_key. destruct (str_eqb (key_text k) [cSL]) eqn:Q; [apply str_eqb_eq in Q; contradiction|reflexivity].
Qed.
Lemma number_stack E n path i : n_lmf n = true -> stack_path_to_str (ta_path E n (Some path) i) = at_number (stack_path_to_str path) i.
Proof.
  intros H. unfold ta_path. rewrite H, spts_cons. unfold at_number. destruct (str_eqb (str_of_nat i) [cSL]) eqn:Q; [|reflexivity].
  apply str_eqb_eq in Q. exfalso. destruct (str_of_nat_spec i) as (_ & _ & _ & HI). apply HI. rewrite Q. left. reflexivity.
Qed.
Lemma skipn_nth {A} : forall (L : list A) j i, nth_error L j = Some i -> skipn j L = i :: skipn (S j) L.
Proof. induction L as [|x L IH]; intros [|j] i H; try discriminate; [injection H as ->; reflexivity|]. exact (IH j i H). Qed.
Lemma ta_list_step E path A c cs :
  ta_list E path (c :: cs) (skipn (length A) (phys_to_virt (A ++ c :: cs)))
  = traverse_all E c (Some path) (nth (length A) (phys_to_virt (A ++ c :: cs)) 0)
    ++ ta_list E path cs (skipn (length (A ++ [c])) (phys_to_virt ((A ++ [c]) ++ cs))).
Proof.
  rewrite <- app_assoc. cbn [app]. set (L := phys_to_virt (A ++ c :: cs)).
  assert (length A < length L) as HL by (unfold L; rewrite p2v_length, app_length; cbn [length]; lia).
  destruct (nth_error L (length A)) as [i|] eqn:Q; [|apply nth_error_None in Q; lia].
  rewrite (nth_error_nth _ _ 0 Q), (skipn_nth _ _ _ Q). cbn [ta_list]. rewrite app_length. cbn [length]. rewrite Nat.add_1_r. reflexivity.
Qed.
Lemma number_of A c cs : is_comment c = false -> nth (length A) (phys_to_virt (A ++ c :: cs)) 0 = count_elements A.
Proof.
  intros H. assert (nth_error (A ++ c :: cs) (length A) = Some c) as Q by (rewrite nth_error_app2, Nat.sub_diag by lia; reflexivity).
  rewrite (nth_error_nth _ _ 0 (p2v_nth _ _ _ Q H)). rewrite firstn_app, Nat.sub_diag, firstn_all, firstn_O, app_nil_r. reflexivity.
Qed.
Lemma count_snoc A c : count_elements (A ++ [c]) = if is_comment c then count_elements A else S (count_elements A).
Proof. unfold count_elements. rewrite filter_app, app_length. cbn [filter]. destruct (is_comment c); cbn [negb length]; lia. Qed.
Definition walks E (x : item) : Prop := forall path n, shows (traverse_all E (tree_of x) (Some path) n) (rows (stack_path_to_str path) n x).
Lemma tree_comment E x : canonical E x -> is_comment (tree_of x) = match x with IComment _ => true | _ => false end.
Proof. intros H. destruct H as [c j (t & ->) _ _ _|k c|k v c|k m ls c w|k c cs|v c|k v c rest|k c cs rest]; try reflexivity; destruct c; reflexivity. Qed.
Lemma walk_list E path : forall xs A, Forall (canonical E) xs -> Forall (walks E) xs ->
  shows (ta_list E path (map tree_of xs) (skipn (length A) (phys_to_virt (A ++ map tree_of xs)))) (list_rows (stack_path_to_str path) (count_elements A) xs).
Proof.
  induction xs as [|x xs IH]; intros A HC HW; [cbn [map ta_list list_rows]; constructor|].
  inversion HC as [|? ? HC1 HC2]; subst. inversion HW as [|? ? HW1 HW2]; subst.
  cbn [map list_rows]. rewrite ta_list_step. specialize (IH (A ++ [tree_of x]) HC2 HW2). rewrite count_snoc in IH.
  pose proof (tree_comment E x HC1) as TC.
  destruct x as [c|k c|k v c|k m ls c|k c cs|v c|k v c rest|k c cs rest]; rewrite TC in IH; cbn [number_after];
    (apply shows_app; [|exact IH]); try (rewrite number_of by exact TC; apply HW1).
  inversion HC1 as [? ? (t & Ht)| | | | | | |]; subst. cbn [tree_of rows]. rewrite traverse_all_eq. cbn [n_children].
  change (ta_list E ?p [] ?m) with (@nil (node * stack)). constructor; [discriminate|constructor].
Qed.
Lemma walk E : forall x, canonical E x -> Forall (fun k => key_text k <> [cSL]) (keys_of x) -> walks E x.
Proof.
  assert (forall xs, Forall (fun x => canonical E x -> Forall (fun k => key_text k <> [cSL]) (keys_of x) -> walks E x) xs ->
    Forall (canonical E) xs -> Forall (fun k => key_text k <> [cSL]) (flat_map keys_of xs) -> Forall (walks E) xs) as all.
  { induction 1 as [|x xs Hx _ IH]; intros HC HK; [constructor|]. inversion HC; subst. cbn [flat_map] in HK. apply Forall_app in HK as (K1 & K2).
    constructor; auto. }
  assert (forall path k c chs i l ws, key_text k <> [cSL] -> chs <> [] -> shows l ws ->
    shows ((key_node k c chs, ta_path E (key_node k c chs) (Some path) i) :: l) (RLine (at_key (stack_path_to_str path) k) c CSection :: ws)) as sect.
  { intros path k c chs i l ws Hk Hn HS. apply (shows_line [key_node k c chs] [ta_path E (key_node k c chs) (Some path) i]); [|reflexivity| |exact HS].
    - constructor; [exact Hn|reflexivity].
    - constructor; [apply key_stack; exact Hk|constructor]. }
  assert (forall path k v c i, key_text k <> [cSL] ->
    shows (traverse_all E (key_node k c [value_node v c]) (Some path) i) [RLine (at_key (stack_path_to_str path) k) c (CValue v)]) as scal.
  { intros path k v c i Hk. rewrite traverse_all_eq. set (q := ta_path E (key_node k c [value_node v c]) (Some path) i).
    assert (stack_path_to_str q = at_key (stack_path_to_str path) k) as Q by (apply key_stack; exact Hk).
    apply (shows_line [key_node k c [value_node v c]; value_node v c] [q; q] _ _ _ []); [constructor|reflexivity| |constructor].
    constructor; [exact Q|]. constructor; [exact Q|constructor]. }
  induction x as [c|k c|k v c|k m ls c|k c cs IH|v c|k v c rest IH|k c cs rest IHc IHr] using item_ind'; intros HC HK path n; cbn [keys_of] in HK.
  - inversion HC as [? ? (t & Ht)| | | | | | |]; subst. cbn [tree_of rows]. rewrite traverse_all_eq. constructor; [discriminate|constructor].
  - inversion HK as [|? ? Hk _]; subst. cbn [tree_of rows]. rewrite traverse_all_eq. cbn [n_children key_node ta_list phys_to_virt].
    apply (shows_line [key_node k c []] [ta_path E (key_node k c []) (Some path) n] _ _ _ []); [constructor|reflexivity| |constructor].
    constructor; [apply key_stack; exact Hk|constructor].
  - inversion HK as [|? ? Hk _]; subst. cbn [tree_of rows]. apply scal. exact Hk.
  - inversion HK as [|? ? Hk _]; subst. cbn [tree_of rows]. rewrite traverse_all_eq. set (lsj := map (fun l => JStr l) ls). set (b := Nd (VJ (JList lsj)) [] [] false m false).
    set (q := ta_path E (key_node k c [b]) (Some path) n). assert (stack_path_to_str q = at_key (stack_path_to_str path) k) as Q by (apply key_stack; exact Hk).
    apply (shows_line [key_node k c [b]; b] [q; q] _ _ _ []); [apply rn_block|reflexivity| |constructor].
    constructor; [exact Q|]. constructor; [exact Q|constructor].
  - inversion HK as [|? ? Hk HK']; subst. inversion HC as [| | | |? ? ? _ (Hn & _) Hcs| | |]; subst. cbn [tree_of rows]. rewrite below_list, traverse_all_eq.
    apply sect; [exact Hk|destruct cs; [contradiction|discriminate]|]. rewrite <- (key_stack E k c (map tree_of cs) path n Hk).
    exact (walk_list E (ta_path E (key_node k c (map tree_of cs)) (Some path) n) cs [] Hcs (all cs IH Hcs HK')).
  - cbn [tree_of rows]. rewrite traverse_all_eq. cbn [n_children].
    apply (shows_line [Nd (VJ v) c [] true MNone false] [ta_path E (Nd (VJ v) c [] true MNone false) (Some path) n] _ _ _ []); [constructor|reflexivity| |constructor].
    constructor; [apply number_stack; reflexivity|constructor].
  - inversion HK as [|? ? Hk HK']; subst. inversion HC as [| | | | | |? ? ? ? _ _ Hr _|]; subst. cbn [tree_of rows]. rewrite below_list, traverse_all_eq. cbn [n_children].
    set (el := Nd VSent c _ true MNone false). set (q := ta_path E el (Some path) n).
    assert (stack_path_to_str q = at_number (stack_path_to_str path) n) as Q by (apply number_stack; reflexivity). rewrite <- Q.
    apply (shows_line [el] [q]); [constructor; [discriminate|reflexivity]|reflexivity|constructor; [reflexivity|constructor]|].
    change (RLine ?p ?c ?v :: ?l) with ([RLine p c v] ++ l). 
    pose proof (ta_list_step E q [] (key_node k c [value_node v c]) (map tree_of rest)) as ST. cbn [length skipn app] in ST. rewrite ST.
    apply shows_app; [apply scal; exact Hk|]. exact (walk_list E q rest [key_node k c [value_node v c]] Hr (all rest IH Hr HK')).
  - inversion HK as [|? ? Hk HK']; subst. apply Forall_app in HK' as (HK1 & HK2).
    inversion HC as [| | | | | | |? ? ? ? _ (Hn & _) Hcs Hr _]; subst. cbn [tree_of rows]. rewrite !below_list, traverse_all_eq. cbn [n_children].
    set (el := Nd VSent c _ true MNone false). set (q := ta_path E el (Some path) n).
    assert (stack_path_to_str q = at_number (stack_path_to_str path) n) as Q by (apply number_stack; reflexivity). rewrite <- Q.
    apply (shows_line [el] [q]); [constructor; [discriminate|reflexivity]|reflexivity|constructor; [reflexivity|constructor]|].
    pose proof (ta_list_step E q [] (key_node k c (map tree_of cs)) (map tree_of rest)) as ST. cbn [length skipn app] in ST. rewrite ST.
    rewrite traverse_all_eq. cbn [app]. apply sect; [exact Hk|destruct cs; [contradiction|discriminate]|]. 
    apply shows_app; [|exact (walk_list E q rest [key_node k c (map tree_of cs)] Hr (all rest IHr Hr HK2))].
    set (i := nth 0 _ 0). rewrite <- (key_stack E k c (map tree_of cs) q i Hk).
    exact (walk_list E (ta_path E (key_node k c (map tree_of cs)) (Some q) i) cs [] Hcs (all cs IHc Hcs HK1)).
Qed.
Lemma walk_file E xs : Forall (canonical E) xs -> no_slash_key xs ->
  exists l, visits E (document xs) = (document xs, [ROOT_VALUE]) :: l /\ shows l (file_rows 0 xs).
Proof.
  intros HC HK. unfold visits. rewrite traverse_all_eq. eexists. split; [reflexivity|]. rewrite file_rows_list. 
  assert (Forall (walks E) xs) as HW.
  { unfold no_slash_key in HK. clear -HC HK. induction HC as [|x xs Hx _ IH]; [constructor|]. cbn [flat_map] in HK. apply Forall_app in HK as (K1 & K2).
    constructor; [apply walk; auto|auto]. }
  exact (walk_list E [ROOT_VALUE] xs [] HC HW).
Qed.

(** * The queries *)
Ltac row_cases sts := destruct sts as [|s1 [|s2 [|s3 sts]]]; try discriminate.
Ltac paths H3 := pose proof (Forall_inv H3) as P1; try (pose proof (Forall_inv (Forall_inv_tail H3)) as P2); cbv beta in *.
Lemma values_shown l ws : shows l ws -> map (fun np => stack_path_to_str (snd np)) (filter (fun np : node * stack => is_leaf (fst np)) l) = flat_map value_path ws.
Proof.
  induction 1 as [|c st l ws H _ IH|ns sts p c v l ws H1 H2 H3 _ IH]; [reflexivity| |].
  - cbn [flat_map value_path app]. rewrite <- IH. destruct c; [contradiction|reflexivity].
  - cbn [flat_map]. rewrite <- IH, filter_app, map_app. f_equal. clear IH.
    destruct H1 as [k c p|k w c p|k c p ls m|n p c Hn Hc|w c p]; cbn [length] in H2; row_cases sts; paths H3; cbn [combine filter fst map value_path].
    + change (is_leaf (key_node k c [])) with true. cbn [map snd]. rewrite P1. reflexivity.
    + change (is_leaf (key_node k c [value_node w c])) with false. cbn [map snd]. rewrite <- P2. reflexivity.
    + change (is_leaf (key_node k c [?b])) with false. rewrite <- P2. reflexivity.
    + unfold is_leaf. destruct (n_children n); [contradiction|reflexivity].
    + rewrite <- P1. reflexivity.
Qed.
Lemma found_shown v l ws : shows l ws -> map (fun np => stack_path_to_str (snd np)) (filter (fun np : node * stack => holds_value v (fst np)) l) = flat_map (path_of_value v) ws.
Proof.
  induction 1 as [|c st l ws H _ IH|ns sts p c u l ws H1 H2 H3 _ IH]; [reflexivity| |].
  - cbn [flat_map path_of_value app]. rewrite <- IH. destruct c; [contradiction|reflexivity].
  - cbn [flat_map]. rewrite <- IH, filter_app, map_app. f_equal. clear IH.
    destruct H1 as [k c p|k w c p|k c p ls m|n p c Hn Hc|w c p]; cbn [length] in H2; row_cases sts; paths H3; cbn [path_of_value combine filter fst].
    + unfold holds_value. change (terminal (key_node k c [])) with true. cbn [andb n_value key_node n_keyf]. rewrite <- P1.
      destruct (prim_dec k v) as [->|N]; [destruct v; [destruct (prim_dec PNull PNull); [|congruence]|..]; cbn [orb map]; reflexivity|].
      destruct v; cbn [orb map]; reflexivity.
    + unfold holds_value at 1. change (terminal (key_node k c [value_node w c])) with false. cbn [andb]. unfold holds_value. change (terminal (value_node w c)) with true.
      cbn [andb n_value value_node n_keyf]. replace (match v with PNull => false | _ => false end) with false by (destruct v; reflexivity). rewrite orb_false_r.
      destruct w as [w| |]; [destruct (prim_dec w v); cbn [map snd]; [rewrite P2|]; reflexivity|reflexivity..].
    + destruct v; reflexivity.
    + unfold holds_value, terminal. destruct (n_children n); [contradiction|reflexivity].
    + unfold holds_value. change (terminal (Nd (VJ w) c [] true MNone false)) with true. cbn [andb n_value n_keyf]. rewrite <- P1.
      replace (match v with PNull => false | _ => false end) with false by (destruct v; reflexivity). rewrite orb_false_r.
      destruct w as [w| |]; [destruct (prim_dec w v); reflexivity|reflexivity..].
Qed.
Lemma twice_once (a b : list str) x : first_occurrences (a ++ x :: x :: b) = first_occurrences (a ++ x :: b).
Proof.
  unfold first_occurrences. f_equal. rewrite !rev_app_distr. cbn [rev]. rewrite <- !app_assoc. cbn [app]. generalize (rev b) as u. clear b. induction u as [|y u IH]; cbn [app nodup].
  - destruct (in_dec (list_eq_dec ascii_dec) x (x :: rev a)) as [_|N]; [reflexivity|exfalso; apply N; left; reflexivity].
  - rewrite IH. destruct (in_dec (list_eq_dec ascii_dec) y (u ++ x :: x :: rev a)) as [I|I], (in_dec (list_eq_dec ascii_dec) y (u ++ x :: rev a)) as [J|J]; auto; exfalso.
    + apply J. rewrite in_app_iff in *. cbn [In] in *. tauto.
    + apply I. rewrite in_app_iff in *. cbn [In] in *. tauto.
Qed.
Lemma selectors_shown l ws : shows l ws -> forall pre, first_occurrences (pre ++ flat_map line_sel l) = first_occurrences (pre ++ flat_map row_selector ws).
Proof.
  induction 1 as [|c st l ws H _ IH|ns sts p c v l ws H1 H2 H3 _ IH]; intros pre; [reflexivity| |].
  - cbn [flat_map]. rewrite app_assoc, IH, <- app_assoc. reflexivity.
  - rewrite flat_map_app. cbn [flat_map]. rewrite app_assoc, IH, <- app_assoc.
    change (row_selector (RLine p c v)) with (match selector_of c with Some s => [s] | None => [] end).
    destruct H1 as [k c p|k w c p|k c p ls m|n p c Hn Hc|w c p]; cbn [length] in H2; row_cases sts; cbn [combine flat_map];
      unfold line_sel; cbn [fst n_comment key_node value_node]; try (rewrite app_nil_r; reflexivity).
    + destruct (selector_of c) as [s|]; [|reflexivity]. cbn [app]. apply twice_once.
    + rewrite Hc, app_nil_r. reflexivity.
Qed.
Lemma selector_paths_shown sel l ws : shows l ws -> Forall (fun w => match w with RComment c => selector_of c <> Some sel | _ => True end) ws ->
  forall pre, first_occurrences (pre ++ map (fun np => stack_path_to_str (snd np)) (filter (fun np : node * stack => has_selector sel (fst np)) l))
  = first_occurrences (pre ++ flat_map (path_with_selector sel) ws).
Proof.
  induction 1 as [|c st l ws H _ IH|ns sts p c v l ws H1 H2 H3 _ IH]; intros HF pre; [reflexivity| |]; inversion HF as [|? ? HF1 HF2]; subst; specialize (IH HF2).
  - cbn [flat_map filter fst]. unfold has_selector at 1. cbn [n_comment]. cbn [path_with_selector app].
    destruct (selector_of c) as [s|]; [|apply IH]. destruct (list_eq_dec ascii_dec s sel) as [->|_]; [contradiction HF1; reflexivity|apply IH].
  - rewrite filter_app, map_app. cbn [flat_map]. rewrite app_assoc, IH, <- app_assoc.
    assert (forall n, has_selector sel n = match selector_of (n_comment n) with Some s => if list_eq_dec ascii_dec s sel then true else false | None => false end) as HS by reflexivity.
    destruct H1 as [k c p|k w c p|k c p ls m|n p c Hn Hc|w c p]; cbn [length] in H2; row_cases sts; paths H3; cbn [combine filter fst path_with_selector]; rewrite ?HS;
      cbn [n_comment key_node value_node].
    + destruct (selector_of c) as [s|]; [|reflexivity]. destruct (list_eq_dec ascii_dec s sel); [|reflexivity]. cbn [map snd]. rewrite P1. reflexivity.
    + destruct (selector_of c) as [s|]; [|reflexivity]. destruct (list_eq_dec ascii_dec s sel); [|reflexivity]. cbn [map snd]. rewrite P1, P2. cbn [app]. apply twice_once.
    + cbn [selector_of]. destruct (selector_of c) as [s|]; [|reflexivity]. destruct (list_eq_dec ascii_dec s sel); [|reflexivity]. cbn [map snd]. rewrite P1. reflexivity.
    + rewrite Hc. destruct (selector_of c) as [s|]; [|reflexivity]. destruct (list_eq_dec ascii_dec s sel); [|reflexivity]. cbn [map snd]. rewrite P1. reflexivity.
    + destruct (selector_of c) as [s|]; [|reflexivity]. destruct (list_eq_dec ascii_dec s sel); [|reflexivity]. cbn [map snd]. rewrite P1. reflexivity.
Qed.
(** The comments table. *)
Lemma first_kept old new s : (forall a b, s = a ++ b -> starts_with old b = false) -> replace_first old new s = s.
Proof.
  induction s as [|x s IH]; intros H; cbn [replace_first].
  - rewrite (H [] [] eq_refl). reflexivity.
  - rewrite (H [] (x :: s) eq_refl). f_equal. apply IH. intros a b ->. exact (H (x :: a) b eq_refl).
Qed.
Lemma told_table c o n : told c o -> is_comment n = false -> n_comment n = c -> table_comment n = o.
Proof.
  intros HT HC HN. unfold table_comment. rewrite HC, HN. cbn [orb]. destruct HT as [|c (t & ->) HS|sel b HB|sel b t HB (N1 & N2 & N3 & N4)].
  - reflexivity.
  - cbn [is_nil]. rewrite found_selector. apply selector_of_none in HS. rewrite HS. reflexivity.
  - change (is_nil ($"# " ++ sel)) with false. cbn iota. rewrite found_selector. pose proof (selector_of_hash sel b [] HB) as S. rewrite app_nil_r in S. rewrite S by (intros x y Q; destruct x; discriminate).
    cbn [is_some]. assert (re_sub SELECTOR [] ($"# " ++ sel) = $"# ") as ->; [|reflexivity].
    unfold re_sub, re_sub_f. generalize ($"# " ++ sel) at 1 as w. intros w. rewrite (sel_shape _ _ HB). destruct HB as (_ & HB).
    change ($"# " ++ cLB :: b ++ [cRB]) with ($"# " ++ cLB :: b ++ cRB :: []). rewrite sub_selector; [reflexivity|vm_compute; intuition discriminate|exact HB|intros []].
  - change (is_nil ($"# " ++ sel ++ $" " ++ t)) with false. cbn iota. rewrite found_selector, (selector_of_hash sel b ($" " ++ t) HB); [|].
    2:{ apply no_close. intros [HI|HI]; [discriminate|exact (N3 HI)]. }
    cbn [is_some]. assert (re_sub SELECTOR [] ($"# " ++ sel ++ $" " ++ t) = $"#  " ++ t) as ->.
    { unfold re_sub, re_sub_f. generalize ($"# " ++ sel ++ $" " ++ t) at 1 as w. intros w. rewrite (sel_shape _ _ HB). destruct HB as (_ & HB).
      change ($"# " ++ (cLB :: b ++ [cRB]) ++ $" " ++ t) with ($"# " ++ cLB :: (b ++ [cRB]) ++ $" " ++ t). rewrite <- app_assoc. cbn [app].
      rewrite sub_selector; [reflexivity|vm_compute; intuition discriminate|exact HB|intros [HI|HI]; [discriminate|exact (N3 HI)]]. }
    assert (exists x u, t = x :: u /\ is_space x = false) as (x & u & Ht & Hx).
    { destruct t as [|x u]; [congruence|]. exists x, u. split; [reflexivity|]. exact (lstrip_first _ _ _ N1). }
    assert (strip ($"#  " ++ t) = $"#  " ++ t) as ->.
    { unfold strip in *. rewrite (rstrip_app $"#  " t) by (exists x; rewrite Ht; split; [left; reflexivity|exact Hx]).
      assert (rstrip t = t) as ->; [|reflexivity]. rewrite Ht in N1 |- *. rewrite (rstrip_cons x u Hx) in N1 |- *. cbn [lstrip] in N1. rewrite Hx in N1. exact N1. }
    assert (replace_first $"#  # " $"# " ($"#  " ++ t) = $"#  " ++ t) as ->.
    { apply first_kept. intros a d Q. destruct (starts_with $"#  # " d) eqn:S; [|reflexivity]. exfalso. apply starts_with_spec in S as (z & ->).
      assert (In cHASH t) as HI; [|exact (N4 HI)]. destruct a as [|a0 [|a1 [|a2 a]]]; cbn [app] in Q.
      - injection Q as Q. rewrite Q. left. reflexivity.
      - discriminate.
      - discriminate.
      - injection Q as _ _ _ Q. rewrite Q. apply in_or_app. right. left. reflexivity. }
    change (replace_first $"#  " $"# " ($"#  " ++ t)) with ($"# " ++ t).
    assert (mem_str ($"# " ++ t) [$""; $"#"] = false) as ->; [|reflexivity]. rewrite Ht. reflexivity.
Qed.
Lemma row_not_comment ns p c v : row_nodes ns p c v -> Forall (fun n => is_comment n = false) ns.
Proof.
  destruct 1 as [k c p|k w c p|k c p ls m|n p c Hn Hc|w c p]; repeat constructor. unfold is_comment. destruct (n_children n); [contradiction|]. rewrite andb_false_r. reflexivity.
Qed.
Definition report (t : list (str * str)) (np : node * stack) : list (str * str) :=
  match table_comment (fst np) with Some c => dset (stack_path_to_str (snd np)) c t | None => t end.
Lemma dset_last (p d : str) t : dset p d (t ++ [(p, d)]) = t ++ [(p, d)] \/ In p (map fst t).
Proof.
  induction t as [|[q e] t IH]; [left; cbn [app dset]; rewrite str_eqb_refl; reflexivity|]. cbn [app dset map fst In]. destruct (str_eqb p q) eqn:Q; [apply str_eqb_eq in Q; auto|].
  destruct IH as [->|IH]; auto.
Qed.
Lemma comments_shown l ws : shows l ws -> forall rep, comments_told ws rep -> forall t, NoDup (map fst t ++ flat_map row_path ws) ->
  fold_left report l t = t ++ rep.
Proof.
  induction 1 as [|c st l ws H _ IH|ns sts p c v l ws H1 H2 H3 _ IH]; intros rep HT t ND.
  - inversion HT; subst. rewrite app_nil_r. reflexivity.
  - inversion HT; subst. cbn [fold_left]. unfold report at 2. cbn [fst]. unfold table_comment. destruct c; [contradiction|]. cbn [orb is_comment is_sent n_value n_comment is_nil n_children negb andb].
    apply IH; auto.
  - cbn [flat_map row_path app] in ND. rewrite fold_left_app. pose proof (row_not_comment _ _ _ _ H1) as NC.
    assert (NoDup (map fst t ++ flat_map row_path ws)) as ND' by exact (NoDup_remove_1 _ _ _ ND).
    assert (~ In p (map fst t)) as NI by (intros HI; apply (NoDup_remove_2 _ _ _ ND), in_or_app; left; exact HI).
    assert (exists o rep', told c o /\ comments_told ws rep' /\ rep = match o with Some d => (p, d) :: rep' | None => rep' end) as (o & rep' & T & HT' & ->).
    { inversion HT; subst; [exists None, rep|eexists (Some _), _]; repeat split; eassumption. }
    assert (fold_left report (combine ns sts) t = match o with Some d => t ++ [(p, d)] | None => t end) as ->.
    { destruct H1 as [k c p|k w c p|k c p ls m|n p c Hn Hc|w c p]; cbn [length] in H2; row_cases sts; paths H3; cbn [combine fold_left]; unfold report; cbn [fst snd];
        pose proof (Forall_inv NC) as K1; try (pose proof (Forall_inv (Forall_inv_tail NC)) as K2); cbv beta in K1;
        rewrite ?P1, ?P2.
      - rewrite (told_table c o _ T K1 eq_refl). destruct o; [apply LayoutProofs8.dset_fresh; exact NI|reflexivity].
      - rewrite (told_table c o _ T K1 eq_refl), (told_table c o _ T K2 eq_refl). destruct o as [d|]; [|reflexivity].
        rewrite (LayoutProofs8.dset_fresh p d t NI). destruct (dset_last p d t) as [->|HI]; [reflexivity|contradiction].
      - rewrite (told_table c o _ T K1 eq_refl), (told_table [] None _ told_nothing K2 eq_refl). destruct o; [apply LayoutProofs8.dset_fresh; exact NI|reflexivity].
      - rewrite (told_table c o _ T K1 Hc). destruct o; [apply LayoutProofs8.dset_fresh; exact NI|reflexivity].
      - rewrite (told_table c o _ T K1 eq_refl). destruct o; [apply LayoutProofs8.dset_fresh; exact NI|reflexivity]. }
    destruct o as [d|]; [|apply IH; auto]. rewrite (IH rep' HT'); [rewrite <- app_assoc; reflexivity|]. rewrite map_app, <- app_assoc. exact ND.
Qed.

Lemma listed (x : list (node * stack)) : match match x with [] => None | p :: l => Some (p :: l) end with
  | None => [] | Some infos => first_occurrences (map (fun i => stack_path_to_str (snd i)) infos) end
  = first_occurrences (map (fun np => stack_path_to_str (snd np)) x).
Proof. destruct x; reflexivity. Qed.
Lemma answered E xs r : r_root r = document xs -> Forall (canonical E) xs -> no_slash_key xs -> xs <> [] -> answers E xs r.
Proof.
  intros HR HC HK HX. unfold answers. rewrite HR. destruct (walk_file E xs HC HK) as (l & HV & HS).
  assert (is_leaf (document xs) = false) as RL by (destruct xs; [contradiction|reflexivity]).
  assert (terminal (document xs) = false) as RT by (destruct xs; [contradiction|reflexivity]).
  split; [|split].
  - unfold list_value_paths. rewrite HV. cbn [filter fst]. rewrite RL. exact (values_shown l _ HS).
  - intros v. unfold find_value. f_equal. rewrite HV. cbn [filter fst]. rewrite find_value_hit_spec. unfold holds_value at 1. rewrite RT. cbn [andb].
    rewrite <- (found_shown v l _ HS). f_equal. apply filter_ext. intros np. apply find_value_hit_spec.
  - intros rep ND HT. unfold get_comments_table. rewrite HV. cbn [fold_left fst]. exact (comments_shown l _ HS rep HT [] ND).
Qed.
Lemma selectors_answered E xs r : r_root r = document xs -> r_sel r = collect_selectors E (r_root r) -> Forall (canonical E) xs -> no_slash_key xs -> selector_answers xs r.
Proof.
  intros HR HSel HC HK. rewrite HR in HSel. destruct (walk_file E xs HC HK) as (l & HV & HS). split.
  - unfold list_selectors. rewrite HSel. unfold collect_selectors. rewrite collect_keys, HV. cbn [flat_map]. exact (selectors_shown l _ HS []).
  - intros sel HF. rewrite c08_selector_paths, HSel. unfold collect_selectors. rewrite collect_get, HV. cbn [filter fst]. unfold has_selector at 1. cbn [document root_node n_comment selector_of].
    assert (Forall (fun w => match w with RComment c => selector_of c <> Some sel | _ => True end) (file_rows 0 xs)) as HF'.
    { apply Forall_forall. intros [c|] HI; [exact (HF c HI)|exact I]. }
    pose proof (selector_paths_shown sel l _ HS HF' []) as SP. cbn [app] in SP. rewrite <- SP. exact (listed _).
Qed.
Lemma c145 E xs vars : canonical_recipe E xs vars -> no_slash_key xs -> xs <> [] ->
  exists r, new_recipe E (join NLs (recipe_page xs vars)) = Ok r /\ answers E xs r /\ selector_answers xs r.
Proof.
  intros HC HK HX. eexists. split; [exact (read_back E xs vars HC)|]. destruct HC as (((HC & _) & _ & _) & _).
  split; [apply answered|apply (selectors_answered E)]; auto.
Qed.
Lemma c145_new E xs vars : new_file E xs vars -> no_slash_key xs -> xs <> [] ->
  exists r, new_recipe E (join NLs (page xs)) = Ok r /\ answers E xs r /\ selector_answers xs r.
Proof.
  intros HC HK HX. eexists. split; [exact (new_read_back E xs vars HC)|]. destruct HC as (((HC & _) & _ & _) & _).
  split; [apply answered|apply (selectors_answered E)]; auto.
Qed.
Lemma c145_session E MS l xs vars xs' vars' : canonical_recipe E xs vars -> canonical_recipe E xs' vars' -> no_slash_key xs' -> xs' <> [] ->
  acted_in_turn E MS SV0 l xs vars xs' vars' ->
  exists r, new_recipe E (join NLs (recipe_page xs vars)) = Ok r /\ answers E xs' (session E MS l r).
Proof.
  intros HC HC' HK HX HA. eexists. split; [exact (read_back E xs vars HC)|]. set (r0 := {| r_init := _ |}).
  destruct (act_all E MS SV0 l xs vars xs' vars' HA r0 eq_refl eq_refl eq_refl) as (_ & H2 & _ & _).
  apply answered; auto. destruct HC' as (((HC' & _) & _ & _) & _). exact HC'.
Qed.

(** A call other than add_comment that reports success leaves the selector table up to date. *)
Lemma patch_table E p r : fst (patch E p r) = Ok true -> r_sel r = collect_selectors E (r_root r) ->
  r_sel (snd (patch E p r)) = collect_selectors E (r_root (snd (patch E p r))).
Proof.
  intros HO HS. destruct (patch_step E p r) as [(_ & _ & H)|(_ & _ & [(p' & from & path & HE & _ & HN)|H])]; [exact H| |].
  - injection HE as <-. contradiction.
  - cbn [after] in H. rewrite H. exact HS.
Qed.
Lemma edit_table E e r : ~ is_comment_edit e -> succeeded E e r -> r_sel r = collect_selectors E (r_root r) ->
  r_sel (after E e r) = collect_selectors E (r_root (after E e r)).
Proof. intros NC HO HS. destruct (HistProofs.step E e r) as [(_ & _ & H)|(H & _)]; [auto|contradiction]. Qed.
Lemma selector_table E path sel mode r r' o : add_selector E path sel mode r = (o, r') -> r_sel r = collect_selectors E (r_root r) ->
  r_sel r' = collect_selectors E (r_root r').
Proof.
  intros HA HS. assert (~ is_comment_edit (EAddSel path sel mode)) as NC by (intros (p & c & H); discriminate H).
  destruct (HistProofs.step E (EAddSel path sel mode) r) as [(_ & _ & H)|(_ & _ & [(p & f & t & H & _)|H])].
  - specialize (H NC HS). cbn [after] in H. rewrite HA in H. exact H.
  - discriminate H.
  - cbn [after] in H. rewrite HA in H. cbn [snd] in H. subst. exact HS.
Qed.
Lemma dependency_table E MS dep mode smode r : fst (add_dependency E MS dep mode smode r) = Ok true -> r_sel r = collect_selectors E (r_root r) ->
  r_sel (snd (add_dependency E MS dep mode smode r)) = collect_selectors E (r_root (snd (add_dependency E MS dep mode smode r))).
Proof.
  unfold add_dependency. destruct (negb _); [discriminate|]. cbv zeta. destruct (calc_is_new_section _ _) as [[is_new|]|]; try discriminate.
  destruct (bind _ _) as [[(op, path)|]|]; try discriminate. destruct (patch_add_dep E dep op path smode is_new r) as [o r1] eqn:HP.
  destruct o as [[|]|]; try discriminate. intros HO HS. assert (r_sel r1 = collect_selectors E (r_root r1)) as H1.
  { unfold patch_add_dep in HP. destruct (preserved_selector op path smode r) as [preserve|]; [|discriminate HP]. cbv zeta in HP.
    set (pp := dep_patch _ _ _) in HP. pose proof (patch_table E pp r) as HT. destruct (patch E pp r) as [o1 r2]. cbn [fst snd] in HT.
    destruct o1 as [b|]; [|discriminate HP]. destruct preserve as [sel|].
    - destruct (add_selector E path sel SMReplace r2) as [o2 r3] eqn:HA. destruct o2; [|discriminate HP]. injection HP as -> <-.
      exact (selector_table E path sel SMReplace r2 r3 _ HA (HT eq_refl HS)).
    - injection HP as -> <-. auto. }
  unfold add_dep_selector in *. destruct (d_sel dep) as [sel|]; [|exact H1]. destruct (ends_with _ _).
  - destruct (bind _ _) as [n|]; [|exact H1]. destruct (add_selector E _ _ _ r1) as [o2 r2] eqn:HA. cbn [snd]. exact (selector_table _ _ _ _ _ _ _ HA H1).
  - destruct (add_selector E _ _ _ r1) as [o2 r2] eqn:HA. cbn [snd]. exact (selector_table _ _ _ _ _ _ _ HA H1).
Qed.
Lemma session_table E MS l : forall r, all_accepted E MS l r -> (forall path c, ~ In (AEdit (EAddComment path c)) l) ->
  r_sel r = collect_selectors E (r_root r) -> r_sel (session E MS l r) = collect_selectors E (r_root (session E MS l r)).
Proof.
  induction l as [|a l IH]; intros r HA HN HS; [exact HS|]. destruct HA as (HA & HL). cbn [session]. apply IH; [exact HL|intros path c HI; apply (HN path c); right; exact HI|].
  destruct a as [e|dep mode smode|dep]; cbn [accepted made] in *.
  - assert (~ is_comment_edit e) as NC by (intros (path & c & ->); apply (HN path c); left; reflexivity).
    destruct e; try (apply edit_table; assumption). cbn [after]. apply patch_table; assumption.
  - apply dependency_table; assumption.
  - unfold remove_dependency in *. apply patch_table; assumption.
Qed.
Lemma c145_session_selectors E MS l xs vars xs' vars' : canonical_recipe E xs vars -> canonical_recipe E xs' vars' -> no_slash_key xs' ->
  (forall path c, ~ In (AEdit (EAddComment path c)) l) -> acted_in_turn E MS SV0 l xs vars xs' vars' ->
  exists r, new_recipe E (join NLs (recipe_page xs vars)) = Ok r /\ selector_answers xs' (session E MS l r).
Proof.
  intros HC HC' HK HN HA. eexists. split; [exact (read_back E xs vars HC)|]. set (r0 := {| r_init := _ |}).
  destruct (act_all E MS SV0 l xs vars xs' vars' HA r0 eq_refl eq_refl eq_refl) as (H1 & H2 & _ & _).
  apply (selectors_answered E); auto; [|destruct HC' as (((HC' & _) & _ & _) & _); exact HC'].
  apply session_table; auto.
Qed.
