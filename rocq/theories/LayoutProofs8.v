(** The whole recipe is read back (proofs only). *)
From Verif Require Export LayoutProofs7.

Definition var_block (vars : list (str * json)) : str := concat (map (fun kv => statement kv ++ NLs) vars).
Lemma var_line_statement kv : var_line kv = statement kv.
Proof. destruct kv as [k v]. reflexivity. Qed.
Lemma statement_braces kv : exists mid, statement kv = $"{%" ++ mid ++ $"%}" /\
  (variable_name (fst kv) -> (forall c, In c (variable_text (snd kv)) -> is_linebreak c = false) -> ~ In cNL mid).
Proof.
  exists ($" set " ++ fst kv ++ $" = " ++ variable_text (snd kv) ++ $" "). split.
  - unfold statement. rewrite <- !app_assoc. reflexivity.
  - intros [_ F] U I. repeat (apply in_app_or in I as [I|I]).
    + revert I. vm_compute. intuition discriminate.
    + rewrite Forall_forall in F. apply F in I. apply name_char_facts in I. rewrite linebreak_nl in I. intuition discriminate.
    + revert I. vm_compute. intuition discriminate.
    + apply U in I. discriminate.
    + revert I. vm_compute. intuition discriminate.
Qed.
Lemma sub_vars E whole f vars s : (forall x, f x = []) -> Forall (readable_variable E) vars -> forall prev p,
  exists prev' p', sub_aux JINJA_V0_LINE whole f prev p 0 (var_block vars ++ s) = sub_aux JINJA_V0_LINE whole f prev' p' 0 s.
Proof.
  intros Hf F. induction vars as [|kv vars IH]; intros prev p.
  - exists prev, p. reflexivity.
  - inversion F as [|? ? (V & S & N & U & _) F']; subst. destruct (statement_braces kv) as (mid & Em & Hm).
    unfold var_block. cbn [map concat]. fold (var_block vars). rewrite Em, <- app_assoc.
    assert ((($"{%" ++ mid ++ $"%}") ++ NLs) ++ var_block vars ++ s = ($"{%" ++ mid ++ $"%}") ++ cNL :: (var_block vars ++ s)) as -> by (rewrite <- app_assoc; reflexivity).
    destruct (sub_line whole f prev p mid (var_block vars ++ s) Hf (Hm V U)) as (prev1 & p1 & ->). apply (IH F').
Qed.

(** What the scan for statements finds. *)
Lemma statement_hd kv : exists t, statement kv = "{"%char :: t.
Proof. eexists. reflexivity. Qed.
Lemma var_block_cons kv vars : var_block (kv :: vars) = statement kv ++ cNL :: var_block vars.
Proof. unfold var_block. cbn [map concat]. rewrite <- app_assoc. reflexivity. Qed.
(** After the statements: white space, then the text of the document, which starts with a visible character. *)
Lemma scan_vars E vars w s : Forall (readable_variable E) vars -> quiet s ->
  (w = [] \/ w = NLs) -> match s with c :: _ => is_space c = false | [] => w = [] end ->
  forall pre prev, exists ls,
    map (group0 (pre ++ var_block vars ++ w ++ s)) (scan JINJA_V0_SET_LINE prev (length pre) 0 (var_block vars ++ w ++ s)) = ls
    /\ Forall2 (fun kv l => exists b, l = statement kv ++ b) vars ls.
Proof.
  intros F Q Hw Hs. induction vars as [|kv vars IH]; intros pre prev.
  - exists []. split; [|constructor]. cbn [var_block map concat app]. change (var_block [] ++ w ++ s) with (w ++ s).
    rewrite quiet_scan; [reflexivity|]. destruct Hw as [->| ->]; [exact Q|]. cbn [NLs app].
    destruct Q as [A B]. split; intros H; apply (has_pair_app _ _ [] s) in H; try discriminate; destruct H as [H|H]; auto; revert H; apply has_text_nil; discriminate.
  - inversion F as [|? ? (V & S & N & U & _) F']; subst.
    set (b := match vars with [] => w | _ => [] end). set (s' := match vars with [] => s | _ => var_block vars ++ w ++ s end).
    assert (var_block (kv :: vars) ++ w ++ s = statement kv ++ (b ++ [cNL]) ++ s') as ET.
    { rewrite var_block_cons. unfold b, s'. destruct vars as [|kv2 vars].
      - change (var_block []) with (@nil ascii). rewrite <- app_assoc. cbn [app]. destruct Hw as [->| ->]; reflexivity.
      - rewrite <- app_assoc. reflexivity. }
    assert (blank b) as Bb.
    { unfold b. destruct vars; [|intros c []]. destruct Hw as [->| ->]; [intros c []|intros c [<-|[]]; reflexivity]. }
    assert (match s' with c :: _ => is_space c = false | [] => True end) as Hs'.
    { unfold s'. destruct vars as [|kv2 vars]; [destruct s; [exact I|exact Hs]|]. rewrite var_block_cons. destruct (statement_hd kv2) as [t ->]. reflexivity. }
    destruct kv as [k v]. cbn [fst snd] in *. rewrite ET.
    pose proof (set_match k v b s' prev (length pre) V U Bb Hs') as M.
    destruct (statement_hd (k, v)) as [t Et]. set (c0 := "{"%char) in *.
    set (line := statement (k, v) ++ (b ++ [cNL])).
    assert (statement (k, v) ++ (b ++ [cNL]) ++ s' = c0 :: (t ++ (b ++ [cNL])) ++ s') as E0.
    { rewrite Et. cbn [app]. rewrite <- !app_assoc. reflexivity. }
    rewrite E0 in M. rewrite E0. rewrite (scan_hit _ _ _ _ _ _ M). cbn [m_end m_start map].
    replace (length pre + length (statement (k, v) ++ b ++ [cNL]) - length pre - 1) with (length (t ++ (b ++ [cNL]))).
    2:{ rewrite Et. cbn [app length]. lia. }
    destruct (scan_skip JINJA_V0_SET_LINE (t ++ (b ++ [cNL])) s' (Some c0) (Datatypes.S (length pre))) as [prev' H'].
    rewrite H'. 
    assert (group0 (pre ++ c0 :: (t ++ b ++ [cNL]) ++ s') {| m_start := length pre; m_end := length pre + length (statement (k, v) ++ b ++ [cNL]); m_grps := [] |} = line) as G0.
    { unfold group0. cbn [m_start m_end]. fold line. rewrite <- E0.
      replace (statement (k, v) ++ (b ++ [cNL]) ++ s') with (line ++ s') by (unfold line; rewrite <- app_assoc; reflexivity).
      apply slice_mid. }
    rewrite G0.
    destruct vars as [|kv2 vars].
    + assert (scan JINJA_V0_SET_LINE prev' (Datatypes.S (length pre) + length (t ++ b ++ [cNL])) 0 s' = []) as -> by (apply quiet_scan; exact Q).
      eexists. split; [reflexivity|]. constructor; [|constructor]. exists (b ++ [cNL]). reflexivity.
    + assert (b = []) as Eb by reflexivity.
      destruct (IH F' (pre ++ line) prev') as (ls & Els & F2).
      exists (line :: ls). split.
      * f_equal. rewrite <- Els. 
        assert (Datatypes.S (length pre) + length (t ++ b ++ [cNL]) = length (pre ++ line)) as ->.
        { unfold line. rewrite Et. repeat (rewrite app_length || cbn [app length]). lia. }
        unfold s'. f_equal.
        assert (pre ++ c0 :: (t ++ b ++ [cNL]) ++ s' = (pre ++ line) ++ var_block (kv2 :: vars) ++ w ++ s) as E3.
        { rewrite <- E0. unfold line. rewrite <- !app_assoc. reflexivity. }
        unfold s' in E3. rewrite E3. reflexivity.
      * constructor; [|exact F2]. exists (b ++ [cNL]). reflexivity.
Qed.
Lemma dset_fresh {A} k (v : A) d : ~ In k (dkeys d) -> dset k v d = d ++ [(k, v)].
Proof.
  induction d as [|[k' v'] d IH]; intros N; [reflexivity|]. cbn [dset].
  destruct (str_eqb k k') eqn:E; [apply str_eqb_eq in E; subst; exfalso; apply N; left; reflexivity|].
  rewrite IH by (intros I; apply N; right; exact I). reflexivity.
Qed.
Lemma fold_vars E vars ls : Forall2 (fun kv l => exists b, l = statement kv ++ b) vars ls -> Forall (readable_variable E) vars ->
  forall t, NoDup (dkeys t ++ map fst vars) ->
  fold_left (fun t line =>
               let key := strip (slice_find line $"set" $"=") in
               let value := strip (slice_find line $"=" $"%}") in
               dset key (match lit_eval E value with Some j => j | None => JStr value end) t) ls t = t ++ vars.
Proof.
  induction 1 as [|[k v] l vars ls (b & ->) H IH]; intros F t ND; cbn [fold_left].
  - rewrite app_nil_r. reflexivity.
  - inversion F as [|? ? (V & S & N & U & LE) F']; subst. cbn [fst snd] in *.
    rewrite (statement_key k v b V), (statement_value k v b V S N), LE. cbv zeta. cbn [map fst] in ND.
    rewrite dset_fresh.
    + rewrite IH; [rewrite <- app_assoc; reflexivity|exact F'|]. unfold dkeys in *. rewrite map_app. cbn [map fst]. rewrite <- app_assoc. exact ND.
    + apply NoDup_remove_2 in ND. intros I. apply ND. apply in_or_app. left. exact I.
Qed.

(** * Heads of pages *)
Lemma page_head E xs : canonical_document E xs -> page xs = [] \/ exists c t r, page xs = (c :: t) :: r /\ is_space c = false.
Proof.
  intros ((C & _) & _). destruct xs as [|x xs]; [left; reflexivity|right]. inversion C as [|? ? Cx _]; subst.
  destruct (head_lines E 0 x Cx) as (l & r & Hl & NN & I0).
  unfold page. cbn [flat_map]. rewrite Hl. cbn [app].
  assert (exists c t, l = c :: t /\ is_space c = false) as (c & t & -> & Sc).
  { assert (forall b c', starts_plain b -> exists c t, line (spaces 0) b c' = c :: t /\ is_space c = false) as G.
    { intros b c' P. change (spaces 0) with (@nil ascii). destruct (line_plain b c' P) as (c & t & -> & S & _). eauto. }
    inversion Cx as [c j [t ->] EC NB Y|k c (S & _)|k v c N (S & _)|k m ls c w V S|k c cs (S & _)|v c N (S & _)|k v c rest N (S & _)|k c cs rest (S & _)];
      subst; cbn [layout] in Hl; injection Hl as <- _; try (apply G; apply S); try (match goal with |- context[line $"- " ?b ?c] => pose proof (line_dash 0 b c) as D; change (spaces 0 ++ $"- ") with ($"- ") in D; rewrite D; apply G; apply S end).
    rewrite rstrip_clean by exact EC. exists cHASH, t. split; reflexivity. }
  eauto.
Qed.

(** * Reading the text back *)
Lemma page_text E xs : canonical_document E xs -> parse_lines E (splitlines (join NLs (page xs))) = Ok (document xs)
  /\ parse_lines E (splitlines (cNL :: join NLs (page xs))) = Ok (document xs).
Proof.
  intros (CP & PT & IN).
  assert (forall ls, parse_lines E ([] :: ls) = parse_lines E ls) as BL by reflexivity.
  assert (splitlines (cNL :: join NLs (page xs)) = [] :: splitlines (join NLs (page xs))) as -> by reflexivity.
  rewrite BL. assert (parse_lines E (splitlines (join NLs (page xs))) = Ok (document xs)) as H; [|auto].
  destruct xs as [|x xs _] using rev_ind; [reflexivity|].
  assert (page (xs ++ [x]) = page xs ++ layout 0 x ++ match x with IComment _ => [] | _ => [[]] end) as EP.
  { unfold page. rewrite flat_map_app. cbn [flat_map]. rewrite app_nil_r. reflexivity. }
  assert (Forall unbroken (page (xs ++ [x]))) as UB.
  { eapply Forall_impl; [|exact IN]. intros l (U & _). exact U. }
  assert (parse_lines E (page xs ++ layout 0 x) = Ok (document (xs ++ [x]))) as HP.
  { destruct CP as [C B]. apply Forall_app in C as [C Cx]. apply Forall_app in B as [B Bx]. inversion Cx as [|? ? Cx' _]; subst. inversion Bx as [|? ? Bx' _]; subst.
    unfold parse_lines. destruct (parse_page_loop E xs (conj C B) init_pstate (layout 0 x) (ex_intro _ 0 (conj eq_refl eq_refl))) as (st & H & T & A).
    rewrite H. destruct (parse_item E x Cx' st 0 [] [] (p_root st) [] (At_choose _ _ _ _ A) eq_refl) as (st1 & H1 & T1 & A1).
    { intros X. congruence. }
    rewrite app_nil_r in H1. rewrite H1. unfold bind. cbn [parse_loop]. rewrite T1, T. cbn [update_at]. rewrite put_put.
    unfold document. rewrite map_app. reflexivity. }
  assert (exists l0 r0, layout 0 x = r0 ++ [l0]) as (l0 & r0 & EL).
  { destruct CP as [C _]. apply Forall_app in C as [_ Cx]. inversion Cx as [|? ? Cx' _]; subst.
    destruct (head_lines E 0 x Cx') as (l & r & Hl & _). rewrite Hl. destruct (exists_last (l := l :: r)) as (r0 & l0 & ->); [discriminate|]. eauto. }
  destruct (match x with IComment _ => true | _ => false end) eqn:IC.
  - assert (page (xs ++ [x]) = (page xs ++ r0) ++ [l0]) as EP2 by (rewrite EP, EL; destruct x; try discriminate; rewrite app_nil_r, app_assoc; reflexivity).
    rewrite EP2 in UB |- *. apply Forall_app in UB as [U1 U2]. inversion U2; subst. rewrite split_join by assumption.
    assert (is_nil l0 = false) as ->.
    { destruct x; try discriminate. destruct CP as [C _]. apply Forall_app in C as [_ Cx]. inversion Cx as [|? ? Cx' _]; subst.
      destruct (head_lines E 0 _ Cx') as (l & r & Hl & NN & _). cbn [layout] in EL, Hl. injection Hl as Hl _.
      destruct r0 as [|z r0]; [|destruct r0; discriminate]. injection EL as EL. rewrite <- EL, Hl. exact NN. }
    rewrite <- app_assoc, <- EL. exact HP.
  - assert (page (xs ++ [x]) = (page xs ++ layout 0 x) ++ [[]]) as EP2 by (rewrite EP, app_assoc; destruct x; try discriminate; reflexivity).
    rewrite EP2 in UB |- *. apply Forall_app in UB as [U1 U2]. inversion U2; subst. rewrite split_join by assumption.
    cbn [is_nil]. rewrite app_nil_r. exact HP.
Qed.
Lemma text_eq E sv vars xs : Forall (canonical E) xs -> proper_tree (document xs) = true -> sv = SV0 ->
  render_all E sv vars (document xs) = join NLs (recipe_page xs vars).
Proof.
  intros C P ->. unfold render_all. rewrite (render_page E xs C P). unfold var_lines, recipe_page. f_equal.
  destruct vars as [|kv vars]; [reflexivity|]. rewrite (map_ext var_line statement var_line_statement), <- app_assoc. reflexivity.
Qed.
Lemma recipe_text xs vars : join NLs (recipe_page xs vars) = match vars with [] => join NLs (page xs)
  | _ => var_block vars ++ match page xs with [] => [] | _ => cNL :: join NLs (page xs) end end.
Proof.
  unfold recipe_page. destruct vars as [|kv vars]; [reflexivity|]. rewrite join_app by (destruct (page xs); discriminate).
  unfold var_block. rewrite map_map. destruct (page xs); reflexivity.
Qed.
Lemma read_tree E xs vars : canonical_document E xs -> Forall (readable_variable E) vars ->
  parse_tree E (join NLs (recipe_page xs vars)) = Ok (document xs).
Proof.
  intros CD F. pose proof CD as (CP & PT & IN). pose proof (quiet_join _ IN) as Q. destruct (page_text E xs CD) as [H1 H2].
  unfold parse_tree, re_sub, re_sub_f. rewrite recipe_text. destruct vars as [|kv vars].
  - rewrite quiet_sub by exact Q. exact H1.
  - match goal with |- context[sub_aux _ ?wh ?f None 0 0 (?vb ++ ?tl)] => destruct (sub_vars E wh f (kv :: vars) tl (fun _ => eq_refl) F None 0) as (prev' & p' & ->) end.
    rewrite quiet_sub.
    + destruct (page xs) as [|l ls] eqn:EP; [exact H1|exact H2].
    + destruct (page xs) as [|l ls] eqn:EP; [exact Q|].
      destruct Q as [A B]. split; intros H; apply (has_pair_app _ _ []) in H; try discriminate; destruct H as [H|H]; auto; revert H; apply has_text_nil; discriminate.
Qed.
Lemma read_vars E xs vars : canonical_document E xs -> Forall (readable_variable E) vars -> NoDup (map fst vars) ->
  init_vars_v0 E (join NLs (recipe_page xs vars)) = vars.
Proof.
  intros CD F ND. pose proof CD as (CP & PT & IN). pose proof (quiet_join _ IN) as Q. unfold init_vars_v0, findall.
  assert (exists w s, join NLs (recipe_page xs vars) = var_block vars ++ w ++ s /\ quiet s /\ (w = [] \/ w = NLs)
    /\ match s with c :: _ => is_space c = false | [] => w = [] end) as (w & s & -> & Qs & Hw & Hs).
  { rewrite recipe_text. destruct (page_head E xs CD) as [EP|(c & t & r & EP & Sc)].
    - exists [], []. rewrite EP. split; [destruct vars; reflexivity|]. split; [split; apply has_text_nil; discriminate|auto].
    - destruct vars as [|kv vars].
      + exists [], (join NLs (page xs)). split; [reflexivity|]. split; [exact Q|]. split; [auto|].
        rewrite EP. destruct r; exact Sc.
      + exists NLs, (join NLs (page xs)). split; [rewrite EP; reflexivity|]. split; [exact Q|]. split; [auto|]. rewrite EP. destruct r; exact Sc. }
  destruct (scan_vars E vars w s F Qs Hw Hs [] None) as (ls & Els & F2). cbn [app length] in Els. rewrite Els.
  exact (fold_vars E vars ls F2 F [] ND).
Qed.

(** * Schema detection *)
Lemma find_child_none E name xs : Forall (canonical E) xs -> no_entry name xs -> forall i, find_child name i (map tree_of xs) = None.
Proof.
  intros C N. induction C as [|x xs Cx C IH]; intros i; [reflexivity|]. cbn [map find_child].
  destruct (N x (or_introl eq_refl)) as [N1 N2].
  assert (val_is (n_value (tree_of x)) name = false) as ->.
  { destruct x as [c|k c|k v c|k m ls c|k c cs|v c|k v c rest|k c cs rest]; cbn [tree_of key_node n_value val_is]; try reflexivity; cbn [entry_key] in N1.
    1-4: destruct k; try reflexivity; cbn [val_is]; apply str_eqb_neq; intros ->; apply N1; reflexivity.
    destruct v as [[| | | |] | |]; try reflexivity. apply str_eqb_neq. intros ->. eapply N2. reflexivity. }
  apply IH. intros y I. apply N. right. exact I.
Qed.
Lemma schema_v0 E xs : Forall (canonical E) xs -> no_entry $"schema_version" xs -> detect_schema E (document xs) = Ok SV0.
Proof.
  intros C N. unfold detect_schema, get_value. 
  change (str_to_stack_path $"/schema_version") with (@Ok stack [$"schema_version"; ROOT_VALUE]). cbn [bind].
  assert (traverse (document xs) [$"schema_version"; ROOT_VALUE] = None) as ->; [|reflexivity].
  unfold traverse, traverse_pos. cbn [rev app]. cbn [traverse_recurse]. unfold step_child.
  change (isdigit $"schema_version") with false. cbv iota. unfold document, root_node. cbn [n_children].
  rewrite (find_child_none E _ _ C N). reflexivity.
Qed.

(** * Conclusion *)
Lemma read_back E xs vars : canonical_recipe E xs vars ->
  let text := join NLs (recipe_page xs vars) in
  new_recipe E text = Ok {| r_init := text; r_root := document xs; r_schema := SV0; r_vars := vars;
                            r_sel := collect_selectors E (document xs); r_mod := false |}.
Proof.
  intros (CD & NE & ND & F) text. unfold new_recipe. subst text. rewrite (read_tree E xs vars CD F). cbn [bind].
  rewrite (schema_v0 E xs (proj1 (proj1 CD)) NE). cbn [bind]. unfold init_vars. rewrite (read_vars E xs vars CD F ND). cbn [bind].
  reflexivity.
Qed.
Lemma rendered E r xs vars : r_root r = document xs -> r_schema r = SV0 -> r_vars r = vars -> canonical_recipe E xs vars ->
  render E r = join NLs (recipe_page xs vars).
Proof.
  intros HR HS HV (CD & _). unfold render. rewrite HR, HS, HV. apply text_eq; [apply CD|apply CD|reflexivity].
Qed.
Lemma rendered_v1 E r xs : r_root r = document xs -> r_schema r = SV1 -> canonical_document E xs ->
  render E r = join NLs (page xs).
Proof.
  intros HR HS CD. unfold render. rewrite HR, HS. unfold render_all, var_lines. cbn [app]. f_equal. apply render_page; apply CD.
Qed.
