(** The parser reads the canonical layout back: tree structure (proofs only). *)
From Verif Require Export LayoutProofs2.

Section ItemInd.
  Variable P : item -> Prop.
  Hypothesis Hc : forall c, P (IComment c).
  Hypothesis He : forall k c, P (IEmpty k c).
  Hypothesis Hs : forall k v c, P (IScalar k v c).
  Hypothesis Hb : forall k m ls c, P (IBlock k m ls c).
  Hypothesis Hse : forall k c cs, Forall P cs -> P (ISection k c cs).
  Hypothesis Hel : forall v c, P (IElem v c).
  Hypothesis Hm : forall k v c rest, Forall P rest -> P (IMapScalar k v c rest).
  Hypothesis Hms : forall k c cs rest, Forall P cs -> Forall P rest -> P (IMapSection k c cs rest).
  Fixpoint item_ind' (x : item) : P x :=
    let all := fix go (l : list item) : Forall P l :=
      match l with [] => Forall_nil P | y :: l' => Forall_cons y (item_ind' y) (go l') end in
    match x with
    | IComment c => Hc c
    | IEmpty k c => He k c
    | IScalar k v c => Hs k v c
    | IBlock k m ls c => Hb k m ls c
    | ISection k c cs => Hse k c cs (all cs)
    | IElem v c => Hel v c
    | IMapScalar k v c rest => Hm k v c rest (all rest)
    | IMapSection k c cs rest => Hms k c cs rest (all cs) (all rest)
    end.
End ItemInd.

Fixpoint last_ends (l : list item) : bool :=
  match l with [] => false | [y] => ends_in_block y | _ :: l' => last_ends l' end.
Lemma ends_section k c cs : ends_in_block (ISection k c cs) = last_ends cs.
Proof. cbn [ends_in_block]. induction cs as [|y [|z l] IH]; [reflexivity|reflexivity|]. exact IH. Qed.
Lemma ends_map_scalar k v c cs : ends_in_block (IMapScalar k v c cs) = last_ends cs.
Proof. cbn [ends_in_block]. induction cs as [|y [|z l] IH]; [reflexivity|reflexivity|]. exact IH. Qed.
Lemma ends_map_section k c cs rest : ends_in_block (IMapSection k c cs rest) = match rest with [] => last_ends cs | _ => last_ends rest end.
Proof.
  cbn [ends_in_block]. destruct rest as [|r rest].
  - induction cs as [|y [|z l] IH]; [reflexivity|reflexivity|]. exact IH.
  - revert r. induction rest as [|z l IH]; intros r; [reflexivity|exact (IH z)].
Qed.

(** * The choice of the parent *)
Definition choose (st : pstate) (new_indent : nat) : res (list position) :=
  if p_indent st <? new_indent then
    match node_at (p_root st) (p_last st) with
    | None => Err EIndex
    | Some last =>
        let stk := p_last st :: p_stack st in
        if is_collection last
           && negb (match n_children last with c :: _ => is_single_key c | [] => true end)
        then Ok ((p_last st ++ [0]) :: stk)
        else Ok stk
    end
  else if new_indent <? p_indent st then
    match pop_n ((p_indent st - new_indent) / TAB_SPACE_COUNT) (p_stack st) with
    | Some stk => Ok stk
    | None => Err EIndex
    end
  else Ok (p_stack st).
Definition placed (root : node) (P : position) (stk : list position) (i len : nat) : pstate :=
  {| p_root := root; p_stack := P :: stk; p_indent := i; p_last := P ++ [len] |}.
Lemma place_choose st i n P stk pn : choose st i = Ok (P :: stk) -> node_at (p_root st) P = Some pn ->
  place_node st i n = Ok (placed (update_at P (append_child n) (p_root st)) P stk i (length (n_children pn))).
Proof.
  intros H N. change (place_node st i n) with (let! stack := choose st i in
    match stack with
    | [] => Err EIndex
    | parent :: _ =>
      match node_at (p_root st) parent with
      | None => Err EIndex
      | Some pn =>
          Ok {| p_root := update_at parent (append_child n) (p_root st);
                p_stack := stack;
                p_indent := i;
                p_last := parent ++ [length (n_children pn)] |}
      end
    end). rewrite H. unfold bind. rewrite N. reflexivity.
Qed.
Definition At (st : pstate) (i : nat) (P : position) (stk : list position) : Prop :=
  exists k, p_indent st = i + 2 * k /\ pop_n k (p_stack st) = Some (P :: stk).
Lemma At_choose st i P stk : At st i P stk -> choose st i = Ok (P :: stk).
Proof.
  intros (k & I & H). unfold choose. destruct (p_indent st <? i) eqn:A; [apply Nat.ltb_lt in A; lia|].
  destruct (i <? p_indent st) eqn:B.
  - replace ((p_indent st - i) / TAB_SPACE_COUNT) with k; [rewrite H; reflexivity|].
    rewrite I. replace (i + 2 * k - i) with (k * 2) by lia. symmetry. apply Nat.div_mul. discriminate.
  - apply Nat.ltb_ge in B. assert (k = 0) as -> by lia. cbn [pop_n] in H. injection H as ->. reflexivity.
Qed.
Lemma At_placed root P stk i len : At (placed root P stk i len) i P stk.
Proof. exists 0. cbn [placed p_indent p_stack pop_n]. split; [lia|reflexivity]. Qed.
Lemma pop_n_S {A} k : forall (l : list A) x y, pop_n k l = Some (x :: y) -> pop_n (S k) l = Some y.
Proof.
  induction k as [|k IH]; intros l x y H.
  - cbn [pop_n] in *. injection H as ->. reflexivity.
  - destruct l as [|z l]; [discriminate|]. exact (IH l x y H).
Qed.
Lemma At_up st i Q P stk : At st (i + 2) Q (P :: stk) -> At st i P stk.
Proof. intros (k & I & H). exists (S k). split; [lia|]. apply (pop_n_S k _ Q). exact H. Qed.

(** * Appending below the last node *)
Definition put (chs : list node) (n : node) : node := set_children (n_children n ++ chs) n.
Lemma put_one c n : put [c] n = append_child c n. Proof. reflexivity. Qed.
Lemma put_put a b n : put b (put a n) = put (a ++ b) n.
Proof. destruct n. unfold put. cbn [n_children set_children]. rewrite app_assoc. reflexivity. Qed.
Lemma update_twice n p f g : update_at p g (update_at p f n) = update_at p (fun x => g (f x)) n.
Proof.
  revert n. induction p as [|i p IH]; intros n; [reflexivity|]. destruct n as [v c chs l m k].
  cbn [update_at n_children set_children]. f_equal.
  revert i. induction chs as [|x chs IHl]; intros [|i]; cbn [map_nth]; [reflexivity..| |].
  - rewrite IH. reflexivity.
  - rewrite IHl. reflexivity.
Qed.
Lemma node_at_appended root P pn n : node_at root P = Some pn ->
  node_at (update_at P (append_child n) root) (P ++ [length (n_children pn)]) = Some n.
Proof.
  intros H. rewrite node_at_app, (node_at_update_same _ _ _ _ H). destruct pn as [v c chs l m k].
  cbn [append_child set_children n_children node_at]. rewrite nth_error_app2 by lia. rewrite Nat.sub_diag. reflexivity.
Qed.
Lemma map_nth_end f (l : list node) x : map_nth (length l) f (l ++ [x]) = l ++ [f x].
Proof. induction l as [|y l IH]; [reflexivity|]. cbn [length app map_nth]. rewrite IH. reflexivity. Qed.
Lemma update_appended root P pn n f : node_at root P = Some pn ->
  update_at (P ++ [length (n_children pn)]) f (update_at P (append_child n) root) = update_at P (append_child (f n)) root.
Proof.
  intros H. rewrite update_at_app, update_twice. apply update_at_ext. intros x Hx. rewrite H in Hx. injection Hx as <-.
  destruct pn as [v c chs l m k]. unfold append_child. cbn [n_children set_children update_at]. rewrite map_nth_end. reflexivity.
Qed.
Lemma open_child root P pn n stk i j : node_at root P = Some pn -> i < j ->
  is_collection n && negb (match n_children n with c :: _ => is_single_key c | [] => true end) = false ->
  let len := length (n_children pn) in
  choose (placed (update_at P (append_child n) root) P stk i len) j = Ok ((P ++ [len]) :: P :: stk).
Proof.
  intros H L C len. unfold choose, placed. cbn [p_indent p_root p_last p_stack].
  destruct (i <? j) eqn:A; [|apply Nat.ltb_ge in A; lia]. unfold len. rewrite (node_at_appended _ _ _ _ H). cbv zeta. rewrite C. reflexivity.
Qed.
Lemma open_collection root P pn n stk i j : node_at root P = Some pn -> i < j ->
  is_collection n && negb (match n_children n with c :: _ => is_single_key c | [] => true end) = true ->
  let len := length (n_children pn) in
  choose (placed (update_at P (append_child n) root) P stk i len) j = Ok (((P ++ [len]) ++ [0]) :: (P ++ [len]) :: P :: stk).
Proof.
  intros H L C len. unfold choose, placed. cbn [p_indent p_root p_last p_stack].
  destruct (i <? j) eqn:A; [|apply Nat.ltb_ge in A; lia]. unfold len. rewrite (node_at_appended _ _ _ _ H). cbv zeta. rewrite C. reflexivity.
Qed.

(** * One line *)
Lemma parse_step E st l ls n used i P stk pn :
  is_nil (strip l) = false -> line_to_node E l ls = Ok (n, used) -> num_tab_spaces l = i ->
  choose st i = Ok (P :: stk) -> node_at (p_root st) P = Some pn ->
  parse_loop E st 0 (l :: ls) =
  parse_loop E (placed (update_at P (append_child n) (p_root st)) P stk i (length (n_children pn))) used ls.
Proof.
  intros S L I C N. cbn [parse_loop]. rewrite S, L. unfold bind at 1. rewrite I, (place_choose _ _ _ _ _ _ C N). reflexivity.
Qed.
Lemma parse_skip E st u ls : parse_loop E st (length u) (u ++ ls) = parse_loop E st 0 ls.
Proof. induction u as [|l u IH]; [reflexivity|]. exact IH. Qed.
Lemma parse_blank E st ls : parse_loop E st 0 ([] :: ls) = parse_loop E st 0 ls.
Proof. reflexivity. Qed.

(** * Text blocks *)
Definition follows (i : nat) (ls : list str) : Prop :=
  exists l r, ls = l :: r /\ is_nil l = false /\ num_tab_spaces l <= i.
Lemma block_line i l : strip l = l -> (i <? num_tab_spaces (rstrip (spaces (i + 2) ++ l))) || is_nil (rstrip (spaces (i + 2) ++ l)) = true
  /\ strip (rstrip (spaces (i + 2) ++ l)) = l.
Proof.
  intros S. destruct l as [|c l].
  - rewrite app_nil_r. assert (rstrip (spaces (i + 2)) = []) as ->.
    { unfold rstrip, spaces. assert (rev (repeat cSP (i + 2)) = repeat cSP (i + 2)) as ->.
      { generalize (i + 2). intros n. induction n as [|n IH]; [reflexivity|]. cbn [repeat rev]. rewrite IH.
        clear IH. induction n as [|n IH]; [reflexivity|]. cbn [repeat app]. rewrite IH. reflexivity. }
      generalize (i + 2). intros n. assert (lstrip (repeat cSP n) = []) as ->; [|reflexivity].
      induction n as [|n IH]; [reflexivity|exact IH]. }
    cbn [is_nil]. rewrite orb_true_r. split; reflexivity.
  - assert (is_space c = false) as Sc.
    { unfold strip in S. destruct (lstrip_blank (rstrip (c :: l))) as (b & B & E).
      destruct (is_space c) eqn:Sc; [|reflexivity]. exfalso. rewrite S in E.
      destruct (rstrip_blank (c :: l)) as (w & E2 & _). rewrite E in E2. apply (f_equal (@length ascii)) in E2.
      rewrite !app_length in E2. assert (b = []) as -> by (destruct b; [reflexivity|cbn [length] in E2; lia]).
      cbn [app] in E. rewrite E in S. cbn [lstrip] in S. rewrite Sc in S. apply (f_equal (@length ascii)) in S.
      assert (forall s, length (lstrip s) <= length s) as LL.
      { induction s as [|d s IHs]; [reflexivity|]. cbn [lstrip]. destruct (is_space d); cbn [length]; lia. }
      specialize (LL l). cbn [length] in S. lia. }
    assert (rstrip (c :: l) = c :: l) as R.
    { unfold strip in S. rewrite rstrip_cons in * by exact Sc. cbn [lstrip] in S. rewrite Sc in S. exact S. }
    assert (rstrip (spaces (i + 2) ++ c :: l) = spaces (i + 2) ++ c :: l) as R2.
    { rewrite rstrip_app; [rewrite R; reflexivity|]. exists c. split; [left; reflexivity|exact Sc]. }
    rewrite R2. split.
    + rewrite num_tab_spaces_plain by exact Sc. apply orb_true_intro. left. apply Nat.ltb_lt. lia.
    + unfold strip. rewrite R2, lstrip_spaces. cbn [lstrip]. rewrite Sc. reflexivity.
Qed.
Lemma take_block i j ls rest : Forall (fun l => strip l = l) ls -> j <= i -> follows j rest ->
  take_multiline i (map (fun l => rstrip (spaces (i + 2) ++ l)) ls ++ rest) = Some ls.
Proof.
  intros F LE (l0 & r & -> & NN & LI). induction ls as [|l ls IH].
  - cbn [map app take_multiline]. rewrite NN, orb_false_r. destruct (i <? num_tab_spaces l0) eqn:A; [apply Nat.ltb_lt in A; lia|reflexivity].
  - inversion F as [|? ? S F']; subst. cbn [map app take_multiline]. destruct (block_line i l S) as [-> ->].
    rewrite IH by exact F'. reflexivity.
Qed.

(** * First lines *)
Lemma head_lines E i x : canonical E x -> exists l r, layout i x = l :: r /\ is_nil l = false /\ num_tab_spaces l = i.
Proof.
  assert (forall b c r, starts_plain b -> exists l r', line (spaces i) b c :: r = l :: r' /\ is_nil l = false /\ num_tab_spaces l = i) as G.
  { intros b c r P. exists (line (spaces i) b c), r. split; [reflexivity|]. split; [apply line_not_nil|apply line_indent]; exact P. }
  intros H. inversion H as [c j [t ->] EC NB Y|k c (S & _)|k v c N (S & _)|k m ls c w V S|k c cs (S & _)|v c N (S & _)|k v c rest N (S & _)|k c cs rest (S & _)];
    subst; cbn [layout]; try (apply G; apply S).
  - destruct (comment_line_node E i (cHASH :: t) j [] (ex_intro _ t eq_refl) EC NB Y) as (_ & Er & _).
    exists (spaces i ++ cHASH :: t), []. rewrite Er. split; [reflexivity|]. split; [destruct i; reflexivity|].
    apply num_tab_spaces_plain. reflexivity.
  - rewrite line_dash. apply G. apply S.
  - rewrite line_dash. apply G. apply S.
Qed.

(** * Documents *)
Lemma key_line_value k v c : v <> JNull -> key_line_node k v c = key_node k c [value_node v c].
Proof. intros N. destruct v as [[]| |]; try reflexivity. contradiction. Qed.
Definition reads_back (E : env) (x : item) : Prop :=
  forall st i P stk pn rest, choose st i = Ok (P :: stk) -> node_at (p_root st) P = Some pn ->
    (ends_in_block x = true -> follows i rest) ->
    exists st', parse_loop E st 0 (layout i x ++ rest) = parse_loop E st' 0 rest
      /\ p_root st' = update_at P (put [tree_of x]) (p_root st) /\ At st' i P stk.
Lemma reads_back_list E xs : Forall (canonical E) xs -> Forall (reads_back E) xs -> xs <> [] ->
  forall st i P stk pn rest, choose st i = Ok (P :: stk) -> node_at (p_root st) P = Some pn ->
    (last_ends xs = true -> follows i rest) ->
    exists st', parse_loop E st 0 (flat_map (layout i) xs ++ rest) = parse_loop E st' 0 rest
      /\ p_root st' = update_at P (put (map tree_of xs)) (p_root st) /\ At st' i P stk.
Proof.
  induction xs as [|x xs IH]; intros C R NE st i P stk pn rest Ch N F; [contradiction|].
  inversion C as [|? ? Cx Cxs]; subst. inversion R as [|? ? Rx Rxs]; subst.
  destruct xs as [|y xs].
  - cbn [flat_map map]. rewrite app_nil_r. exact (Rx st i P stk pn rest Ch N F).
  - clear NE. destruct (Rx st i P stk pn (flat_map (layout i) (y :: xs) ++ rest) Ch N) as (st1 & H1 & T1 & A1).
    { intros _. inversion Cxs as [|? ? Cy _]; subst. destruct (head_lines E i y Cy) as (l & r & Hl & NN & I).
      exists l, (r ++ flat_map (layout i) xs ++ rest). cbn [flat_map]. rewrite Hl. cbn [app]. rewrite <- app_assoc.
      split; [reflexivity|]. split; [exact NN|lia]. }
    destruct (IH Cxs Rxs ltac:(discriminate) st1 i P stk (put [tree_of x] pn) rest (At_choose _ _ _ _ A1)) as (st2 & H2 & T2 & A2).
    { rewrite T1. apply node_at_update_same. exact N. }
    { exact F. }
    exists st2. split; [|split; [|exact A2]].
    + change (flat_map (layout i) (x :: y :: xs)) with (layout i x ++ flat_map (layout i) (y :: xs)).
      rewrite <- app_assoc, H1. exact H2.
    + rewrite T2, T1, update_twice. apply update_at_ext. intros n _. rewrite put_put. reflexivity.
Qed.

Lemma parse_item E x : canonical E x -> reads_back E x.
Proof.
  assert (forall xs, Forall (canonical E) xs -> Forall (fun y => canonical E y -> reads_back E y) xs -> Forall (reads_back E) xs) as FF.
  { intros xs C H. rewrite Forall_forall in *. auto. }
  induction x as [c|k c|k v c|k m ls c|k c cs IH|v c|k v c rs IH|k c cs rs IHc IHr] using item_ind';
    intros H st i P stk pn rest Ch N F.
  - (* comment *)
    inversion H as [? j H1 H2 H3 H4| | | | | | |]; subst. destruct (comment_line_node E i c j rest H1 H2 H3 H4) as (L & Er & Es).
    assert (num_tab_spaces (rstrip (spaces i ++ c)) = i /\ is_nil (strip (rstrip (spaces i ++ c))) = false) as [I NN].
    { rewrite Er, Es. destruct H1 as [t ->]. split; [apply num_tab_spaces_plain; reflexivity|reflexivity]. }
    cbn [layout app]. rewrite (parse_step E st _ _ _ 0 i P stk pn NN L I Ch N).
    eexists. split; [reflexivity|]. split; [reflexivity|apply At_placed].
  - (* key without value *)
    inversion H as [|? ? PL| | | | | |]; subst. pose proof PL as ((SP & _) & _).
    pose proof (plain_line_node E i _ _ _ rest _ PL eq_refl) as L.
    cbn [layout app]. rewrite (parse_step E st _ _ _ 0 i P stk pn (line_nonblank _ _ _ SP) L (line_indent _ _ _ SP) Ch N).
    eexists. split; [reflexivity|]. split; [reflexivity|apply At_placed].
  - (* key with a value *)
    inversion H as [| |? ? ? NV PL| | | | |]; subst. pose proof PL as ((SP & _) & _).
    pose proof (plain_line_node E i _ _ _ rest _ PL eq_refl) as L. rewrite key_line_value in L by exact NV.
    cbn [layout app]. rewrite (parse_step E st _ _ _ 0 i P stk pn (line_nonblank _ _ _ SP) L (line_indent _ _ _ SP) Ch N).
    eexists. split; [reflexivity|]. split; [reflexivity|apply At_placed].
  - (* text block *)
    inversion H as [| | |? ? ? ? w H3 SEP H5 H7 H8 H9| | | |]; subst. pose proof SEP as (SP & _). cbn [layout app].
    set (hd := line (spaces i) (key_text k ++ $": " ++ mlv_str m) c).
    set (body := map (fun l => rstrip (spaces (i + 2) ++ l)) ls).
    assert (line_to_node E hd (body ++ rest) = Ok (tree_of (IBlock k m ls c), length body)) as L.
    { unfold line_to_node. unfold hd at 1. rewrite line_strip by exact SP. unfold parse_line_node.
      rewrite (parse_yaml_plain _ _ _ H8). unfold bind at 1. rewrite line_not_hash by exact SP. cbv zeta.
      rewrite (line_comment_line _ c SEP). unfold bind.
      destruct (header_match i k m c H3 SEP H5 H7) as (x & MM & G). fold hd in MM, G. rewrite MM, G.
      rewrite (mlv_round m H3). unfold hd at 1. rewrite line_indent by exact SP. unfold body at 1.
      rewrite (take_block i i ls rest H9 (le_n i)); [|apply F; reflexivity]. unfold body. rewrite map_length. reflexivity. }
    assert (is_nil (strip hd) = false /\ num_tab_spaces hd = i) as [NN I] by (split; [apply line_nonblank|apply line_indent]; exact SP).
    rewrite (parse_step E st _ _ _ _ i P stk pn NN L I Ch N), parse_skip.
    eexists. split; [reflexivity|]. split; [reflexivity|apply At_placed].
  - (* section *)
    inversion H as [| | | |? ? ? PL [NE PS] CC| | |]; subst. pose proof PL as ((SP & _) & _).
    pose proof (plain_line_node E i _ _ _ (flat_map (layout (i + 2)) cs ++ rest) _ PL eq_refl) as L.
    cbn [layout app]. rewrite (parse_step E st _ _ _ 0 i P stk pn (line_nonblank _ _ _ SP) L (line_indent _ _ _ SP) Ch N).
    change (key_line_node k JNull c) with (key_node k c []).
    rewrite ends_section in F.
    destruct (reads_back_list E cs CC (FF _ CC IH) NE
      (placed (update_at P (append_child (key_node k c [])) (p_root st)) P stk i (length (n_children pn)))
      (i + 2) (P ++ [length (n_children pn)]) (P :: stk) (key_node k c []) rest) as (st2 & H2' & T2 & A2).
    { apply open_child; [exact N|lia|reflexivity]. }
    { apply node_at_appended. exact N. }
    { intros X. destruct (F X) as (l & r & -> & NN & LE). exists l, r. split; [reflexivity|]. split; [exact NN|lia]. }
    exists st2. split; [exact H2'|]. split.
    + rewrite T2. cbn [placed p_root]. rewrite update_appended by exact N. reflexivity.
    + exact (At_up _ _ _ _ _ A2).
  - (* list element *)
    inversion H as [| | | | |? ? NV PL| |]; subst. pose proof PL as ((SP & _) & _).
    assert (line_to_node E (line (spaces i) ($"- " ++ scalar_text v) c) rest = Ok (tree_of (IElem v c), 0)) as L.
    { apply (plain_line_node E i _ _ _ rest _ PL). destruct v as [p|l|d]; [reflexivity|reflexivity|discriminate NV]. }
    cbn [layout app]. rewrite (parse_step E st _ _ _ 0 i P stk pn (line_nonblank _ _ _ SP) L (line_indent _ _ _ SP) Ch N).
    eexists. split; [reflexivity|]. split; [reflexivity|apply At_placed].
  - (* mapping, first key has a value *)
    inversion H as [| | | | | |? ? ? ? NV PL CR EB|]; subst. pose proof PL as ((SP & _) & _).
    pose proof (plain_line_node E i _ _ _ (flat_map (layout (i + 2)) rs ++ rest) _ PL eq_refl) as L. rewrite key_line_value in L by exact NV.
    cbn [layout app]. rewrite line_dash.
    rewrite (parse_step E st _ _ _ 0 i P stk pn (line_nonblank _ _ _ SP) L (line_indent _ _ _ SP) Ch N).
    rewrite ends_map_scalar in F. destruct rs as [|r0 rs].
    { eexists. split; [reflexivity|]. split; [reflexivity|apply At_placed]. }
    set (n0 := Nd VSent c [key_node k c [value_node v c]] true MNone false).
    destruct (reads_back_list E (r0 :: rs) CR (FF _ CR IH) ltac:(discriminate)
      (placed (update_at P (append_child n0) (p_root st)) P stk i (length (n_children pn)))
      (i + 2) (P ++ [length (n_children pn)]) (P :: stk) n0 rest) as (st2 & H2' & T2 & A2).
    { apply open_child; [exact N|lia|reflexivity]. }
    { apply node_at_appended. exact N. }
    { intros X. destruct (F X) as (l & r & -> & NN & LE). exists l, r. split; [reflexivity|]. split; [exact NN|lia]. }
    exists st2. split; [exact H2'|]. split.
    + rewrite T2. cbn [placed p_root]. rewrite update_appended by exact N. reflexivity.
    + exact (At_up _ _ _ _ _ A2).
  - (* mapping, first key has a section *)
    inversion H as [| | | | | | |? ? ? ? PL [NE PS] CC CR EB]; subst. pose proof PL as ((SP & _) & _).
    cbn [layout app]. rewrite line_dash, <- app_assoc.
    pose proof (plain_line_node E i _ _ _ (flat_map (layout (i + 4)) cs ++ flat_map (layout (i + 2)) rs ++ rest) _ PL eq_refl) as L.
    rewrite (parse_step E st _ _ _ 0 i P stk pn (line_nonblank _ _ _ SP) L (line_indent _ _ _ SP) Ch N).
    change (key_line_node k JNull c) with (key_node k c []).
    set (n0 := Nd VSent c [key_node k c []] true MNone false). set (Q := P ++ [length (n_children pn)]).
    rewrite ends_map_section in F.
    set (st1 := placed (update_at P (append_child n0) (p_root st)) P stk i (length (n_children pn))).
    assert (node_at (p_root st1) Q = Some n0) as NQ by (apply node_at_appended; exact N).
    destruct (reads_back_list E cs CC (FF _ CC IHc) NE st1
      (i + 4) (Q ++ [0]) (Q :: P :: stk) (key_node k c []) (flat_map (layout (i + 2)) rs ++ rest)) as (st2 & H2' & T2 & A2).
    { apply open_collection; [exact N|lia|reflexivity]. }
    { rewrite node_at_app, NQ. reflexivity. }
    { intros X. destruct rs as [|r0 rs].
      - destruct (F X) as (l & r & -> & NN & LE). exists l, r. split; [reflexivity|]. split; [exact NN|lia].
      - inversion CR as [|? ? C0 _]; subst. destruct (head_lines E (i + 2) r0 C0) as (l & r & Hl & NN & I).
        exists l, (r ++ flat_map (layout (i + 2)) rs ++ rest). cbn [flat_map]. rewrite Hl. cbn [app]. rewrite <- app_assoc.
        split; [reflexivity|]. split; [exact NN|lia]. }
    replace (i + 4) with (i + 2 + 2) in A2 by lia. apply At_up in A2.
    assert (p_root st2 = update_at P (append_child (Nd VSent c [key_node k c (map tree_of cs)] true MNone false)) (p_root st)) as T2'.
    { rewrite T2. rewrite update_at_app. unfold st1. cbn [placed p_root]. unfold Q. rewrite update_appended by exact N. reflexivity. }
    destruct rs as [|r0 rs].
    { exists st2. split; [exact H2'|]. split; [exact T2'|exact (At_up _ _ _ _ _ A2)]. }
    destruct (reads_back_list E (r0 :: rs) CR (FF _ CR IHr) ltac:(discriminate) st2
      (i + 2) Q (P :: stk) (Nd VSent c [key_node k c (map tree_of cs)] true MNone false) rest) as (st3 & H3' & T3 & A3).
    { apply At_choose. exact A2. }
    { rewrite T2'. apply node_at_appended. exact N. }
    { intros X. destruct (F X) as (l & r & -> & NN & LE). exists l, r. split; [reflexivity|]. split; [exact NN|lia]. }
    exists st3. split; [etransitivity; [exact H2'|exact H3']|]. split.
    + rewrite T3, T2'. unfold Q. rewrite update_appended by exact N. reflexivity.
    + exact (At_up _ _ _ _ _ A3).
Qed.

Lemma parse_page_loop E xs : canonical_page E xs -> forall st rest, At st 0 [] [] ->
  exists st', parse_loop E st 0 (page xs ++ rest) = parse_loop E st' 0 rest
    /\ p_root st' = put (map tree_of xs) (p_root st) /\ At st' 0 [] [].
Proof.
  intros [C NB]. induction xs as [|x xs IH]; intros st rest A.
  - exists st. split; [reflexivity|]. split; [|exact A]. unfold put. cbn [map]. rewrite app_nil_r, set_children_id. reflexivity.
  - inversion C as [|? ? Cx Cxs]; subst. inversion NB as [|? ? Bx Bxs]; subst.
    set (gap := match x with IComment _ => [] | _ => [[] : str] end).
    destruct (parse_item E x Cx st 0 [] [] (p_root st) (gap ++ page xs ++ rest) (At_choose _ _ _ _ A) eq_refl) as (st1 & H1 & T1 & A1).
    { intros X. congruence. }
    destruct (IH Cxs Bxs st1 rest A1) as (st2 & H2 & T2 & A2). exists st2. split; [|split; [|exact A2]].
    + transitivity (parse_loop E st 0 (layout 0 x ++ gap ++ page xs ++ rest)).
      { f_equal. unfold page at 1. cbn [flat_map]. rewrite <- !app_assoc. reflexivity. }
      rewrite H1, <- H2. unfold gap. destruct x; reflexivity.
    + rewrite T2, T1. cbn [update_at]. rewrite put_put. reflexivity.
Qed.
Lemma parse_page E xs : canonical_page E xs -> parse_lines E (page xs) = Ok (document xs).
Proof.
  intros C. unfold parse_lines. destruct (parse_page_loop E xs C init_pstate [] (ex_intro _ 0 (conj eq_refl eq_refl))) as (st & H & T & _).
  - rewrite app_nil_r in H. rewrite H. unfold bind. cbn [parse_loop]. rewrite T. reflexivity.
Qed.
