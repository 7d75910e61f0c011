(** Proofs about parsed documents (C88, C89): the lines. *)
From Verif Require Export WellProofs.
From Verif Require Import WellSpec.

Definition sound (n : node) : Prop := forall p m, node_at n p = Some m -> well_line m.
Lemma sound_split n : sound n <-> well_line n /\ forall c, In c (n_children n) -> sound c.
Proof.
  split.
  - intros H. split; [apply (H [] n eq_refl)|]. intros c Hc p m Hm. apply In_nth_error in Hc as (i & Hi). apply (H (i :: p)).
    cbn [node_at]. rewrite Hi. exact Hm.
  - intros (H1 & H2) [|i p] m Hm; cbn [node_at] in Hm; [injection Hm as <-; exact H1|].
    destruct (nth_error (n_children n) i) as [c|] eqn:C; [|discriminate]. apply (H2 c (nth_error_In _ _ C) p m Hm).
Qed.
Lemma sound_at n p m : sound n -> node_at n p = Some m -> sound m.
Proof. intros H Hm q x Hx. apply (H (p ++ q)). rewrite node_at_app, Hm. exact Hx. Qed.
(** Exchanging the lines below a line. *)
Definition begins (l : list node) : Prop := exists c below, l = c :: below /\ is_comment c = false.
Lemma well_set n l : well_line n -> (n_value n = VSent -> n_lmf n = true -> begins l) -> (n_value n = VSent -> n_lmf n = false -> l = [] -> n_children n = []) ->
  well_line (set_children l n).
Proof.
  destruct n as [v c chs lm ml k]. intros (H1 & H2 & H3 & H4) HB HE. unfold well_line.
  cbn [set_children n_value n_children n_lmf n_comment n_keyf] in *. split; [exact H1|]. split; [|split; [exact HB|exact H4]].
  intros -> ->. destruct lm.
  - destruct (HB eq_refl eq_refl) as (x & y & Hx & _). discriminate.
  - apply H2; auto.
Qed.
Lemma sound_set n l : sound n -> (n_value n = VSent -> n_lmf n = true -> begins l) -> (n_value n = VSent -> n_lmf n = false -> l = [] -> n_children n = []) ->
  (forall c, In c l -> sound c) -> sound (set_children l n).
Proof.
  intros H HB HE HL. apply sound_split. apply sound_split in H as (H & _). split; [apply well_set; auto|].
  destruct n as [v c chs lm ml k]. exact HL.
Qed.
Lemma comment_set l n : is_comment (set_children l n) = true -> l = [] /\ n_value n = VSent.
Proof.
  destruct n as [v c chs lm ml k]. unfold is_comment. cbn [set_children n_value n_comment n_children]. rewrite !andb_true_iff.
  intros ((H1 & _) & H2). destruct l; [|discriminate]. destruct v; [auto|discriminate].
Qed.
Lemma sound_update p f : forall n m, sound n -> node_at n p = Some m -> sound (f m) -> (is_comment (f m) = true -> is_comment m = true) ->
  sound (update_at p f n) /\ (is_comment (update_at p f n) = true -> is_comment n = true).
Proof.
  induction p as [|i p IH]; intros n m Hn Hm Hs Hc; cbn [node_at update_at] in *; [injection Hm as <-; auto|].
  destruct (nth_error (n_children n) i) as [x|] eqn:X; [|discriminate].
  assert (sound x) as Hx by (apply (sound_at n [i]); auto; cbn [node_at]; rewrite X; reflexivity).
  destruct (IH x m Hx Hm Hs Hc) as (I1 & I2).
  assert (forall l j, nth_error l j = Some x -> map_nth j (update_at p f) l <> []) as HNE.
  { intros [|y l] [|j]; cbn [map_nth nth_error]; try discriminate. }
  split.
  - apply sound_set; auto.
    + intros HV HL. pose proof (Hn [] n eq_refl) as (_ & _ & HB & _). destruct (HB HV HL) as (c & below & HC & HI). rewrite HC in *.
      destruct i as [|i]; cbn [map_nth nth_error] in *.
      * injection X as ->. exists (update_at p f x), below. split; auto. destruct (is_comment (update_at p f x)); auto. rewrite I2 in HI; auto.
      * exists c, (map_nth i (update_at p f) below). auto.
    + intros _ _ HZ. apply HNE in X. contradiction.
    + intros c Hin. apply in_map_nth in Hin as [Hin|(y & Hy & ->)].
      * apply sound_split in Hn as (_ & Hn). auto.
      * assert (y = x) as -> by congruence. exact I1.
  - intros HZ. apply comment_set in HZ as (HZ & _). apply HNE in X. contradiction.
Qed.

(** * Reading *)
Lemma hash_from_hash s : forall b n, hash_from b s = Some n -> starts_with_hash (skipn n s).
Proof.
  induction s as [|c s IH]; intros b n; cbn [hash_from]; [discriminate|]. destruct (b && ceq c cHASH) eqn:H.
  - intros [= <-]. apply andb_true_iff in H as (_ & H). apply ceq_eq in H as ->. exists s. reflexivity.
  - destruct (hash_from (is_space c) s) as [k|] eqn:K; cbn [option_map]; [|discriminate]. intros [= <-]. apply (IH _ _ K).
Qed.
Lemma line_comment_hash s : line_comment s = [] \/ starts_with_hash (line_comment s).
Proof. rewrite line_comment_spec. destruct (hash_from false s) as [n|] eqn:H; [right; eapply hash_from_hash; eauto|auto]. Qed.
Lemma sound_leaf v c l ml k : (k = true -> exists x, v = VJ (JP x)) -> v <> VSent -> (c = [] \/ starts_with_hash c) -> sound (Nd v c [] l ml k).
Proof.
  intros H1 H2 H3. apply sound_split. split; [|intros x []]. split; [exact H1|]. cbn [n_value n_children n_lmf n_comment].
  split; [intros ->; contradiction|]. split; [intros ->; contradiction|exact H3].
Qed.
Lemma key_line_sound k v c : (c = [] \/ starts_with_hash c) -> sound (key_line_node k v c).
Proof.
  intros H. unfold key_line_node. apply sound_split. split.
  - split; [intros _; exists k; reflexivity|]. cbn [n_value n_children n_lmf n_comment]. split; [discriminate|]. split; [discriminate|exact H].
  - cbn [n_children]. assert (forall x, In x [Nd (VJ v) c [] false MNone false] -> sound x) as HS.
    { intros x [<-|[]]. apply sound_leaf; auto; discriminate. }
    destruct v as [[]|l|d]; try exact HS. intros x [].
Qed.
Lemma line_node_sound E s n : parse_line_node E s = Ok n -> sound n /\ (is_comment n = true -> n_lmf n = false).
Proof.
  unfold parse_line_node. destruct (parse_yaml E s None) as [j|]; [|discriminate]. cbn [bind]. pose proof (line_comment_hash s) as HC.
  destruct (starts_with [cHASH] s) eqn:SW.
  - assert (starts_with_hash s) as HS.
    { destruct s as [|c t]; cbn [starts_with] in SW; [discriminate|]. apply andb_true_iff in SW as (SW & _). apply ceq_eq in SW. exists t. rewrite SW. reflexivity. }
    intros [= <-]. split; [|reflexivity]. apply sound_split. split; [|intros x []]. split; [discriminate|]. cbn [n_value n_children n_lmf n_comment].
    split; [auto|]. split; [discriminate|auto].
  - cbv zeta. destruct j as [p|[|[q|l|[|(k & v) d]] rest]|[|(k & v) d]]; try discriminate; intros [= <-].
    + split; [apply sound_leaf; auto; discriminate|reflexivity].
    + split; [apply sound_leaf; auto; discriminate|discriminate].
    + split; [apply sound_leaf; auto; discriminate|discriminate].
    + split.
      * apply sound_split. split; [|intros x [<-|[]]; apply key_line_sound; auto]. split; [discriminate|]. cbn [n_value n_children n_lmf n_comment].
        split; [discriminate|]. split; [|exact HC]. intros _ _. exists (key_line_node k v (line_comment s)), []. auto.
      * unfold is_comment. cbn [n_children is_nil]. rewrite andb_false_r. discriminate.
    + split; [apply key_line_sound; auto|reflexivity].
Qed.
Lemma line_to_node_sound E line ls n u : line_to_node E line ls = Ok (n, u) -> sound n.
Proof.
  unfold line_to_node. destruct (parse_line_node E (strip line)) as [n0|] eqn:P; [|discriminate]. cbn [bind].
  apply line_node_sound in P as (P & _). destruct (re_match MULTILINE line) as [x|]; [|intros [= <- <-]; exact P]. cbv zeta.
  destruct (mlv_of_str _) as [ml|]; [|discriminate]. destruct (take_multiline _ _) as [vals|]; [|discriminate]. intros [= <- <-].
  apply sound_set; auto.
  - intros _ _. eexists _, []. split; [reflexivity|]. reflexivity.
  - discriminate.
  - intros c [<-|[]]. apply sound_leaf; [discriminate|discriminate|auto].
Qed.
Lemma sound_append n c : sound n -> sound c -> sound (append_child c n).
Proof.
  intros Hn Hc. unfold append_child. apply sound_set; auto.
  - intros HV HL. pose proof (Hn [] n eq_refl) as (_ & _ & HB & _). destruct (HB HV HL) as (x & below & -> & HI). exists x, (below ++ [c]). auto.
  - intros _ _ HZ. apply app_eq_nil in HZ as (_ & HZ). discriminate.
  - intros x Hx. apply in_app_or in Hx as [Hx|[<-|[]]]; auto. apply sound_split in Hn as (_ & Hn). auto.
Qed.
Lemma append_not_comment n c : is_comment (append_child c n) = false.
Proof. destruct (is_comment (append_child c n)) eqn:H; auto. apply comment_set in H as (H & _). apply app_eq_nil in H as (_ & H). discriminate. Qed.
Lemma parsed_sound E text r : new_recipe E text = Ok r -> well_formed (r_root r).
Proof.
  apply (parse_invariant E well_formed).
  - split; [reflexivity|]. apply sound_leaf; auto; discriminate.
  - intros root P pn line ls n u (H0 & H) HP HL.
    destruct (sound_update P (append_child n) root pn H HP) as (S1 & S2).
    + apply sound_append; [apply (sound_at _ _ _ H HP)|apply (line_to_node_sound _ _ _ _ _ HL)].
    + rewrite append_not_comment. discriminate.
    + split; [|exact S1]. destruct (is_comment (update_at _ _ _)) eqn:Z; auto. rewrite (S2 eq_refl) in H0. discriminate.
Qed.
Lemma well_no_emptied root : well_formed root -> no_emptied_element root.
Proof.
  intros (H0 & H). split; auto. intros p n Hn HV HC. destruct (H p n Hn) as (_ & H2 & _). destruct (H2 HV HC) as ((t & Ht) & _).
  rewrite Ht. discriminate.
Qed.
Lemma well_not_elements root : well_formed root -> comment_lines_not_elements root.
Proof.
  intros (H0 & H) p n Hn HC. destruct (H p n Hn) as (_ & H2 & _). unfold is_comment in HC. rewrite !andb_true_iff in HC.
  destruct HC as ((H3 & _) & H4). apply H2; [destruct (n_value n); [reflexivity|discriminate]|destruct (n_children n); [reflexivity|discriminate]].
Qed.
Lemma well_hash root : well_formed root -> every_comment starts_with_hash root.
Proof. intros (H0 & H) p n Hn HC. destruct (H p n Hn) as (_ & _ & _ & [H4|H4]); [contradiction|exact H4]. Qed.

(** * Edits *)
Lemma generate_sound E v l : generate_subtree E v = Ok l -> forall c, In c l -> sound c.
Proof.
  assert (forall t, (let! r := new_recipe E t in Ok (n_children (r_root r))) = Ok l -> forall c, In c l -> sound c) as HN.
  { intros t. destruct (new_recipe E t) as [r|] eqn:N; [|discriminate]. cbn [bind]. intros [= <-].
    apply parsed_sound in N as (_ & N). apply sound_split in N as (_ & N). exact N. }
  unfold generate_subtree. destruct v as [[]|jl|d]; try apply HN.
  destruct (existsb (ceq cNL) s); [|apply HN]. intros [= <-] c [<-|[]]. apply sound_leaf; auto; discriminate.
Qed.
(** The lines of a solid value. *)
Definition solid_lines (l : list node) : Prop := l <> [] /\ forall c, In c l -> sound c /\ is_comment c = false.
Lemma sound_not_comment c : sound c -> (n_value c = VSent -> n_lmf c = true) -> is_comment c = false.
Proof.
  intros H HV. destruct (is_comment c) eqn:C; auto. destruct (H [] c eq_refl) as (_ & H2 & _). unfold is_comment in C. rewrite !andb_true_iff in C.
  destruct C as ((C1 & _) & C2). assert (n_value c = VSent) as V by (destruct (n_value c); [reflexivity|discriminate]).
  assert (n_children c = []) as K by (destruct (n_children c); [reflexivity|discriminate]). destruct (H2 V K) as (_ & H3). rewrite (HV V) in H3. discriminate.
Qed.
Lemma set_lmf_comment b c : is_comment (set_lmf b c) = is_comment c.
Proof. destruct c. reflexivity. Qed.
Lemma sound_lmf c : sound c -> (n_value c = VSent -> n_lmf c = true) -> sound (set_lmf true c).
Proof.
  intros H HV. destruct c as [v cm chs lm ml k]. cbn [n_value n_lmf set_lmf] in *. destruct v as [|j].
  - rewrite HV in H; auto.
  - apply sound_split in H as ((H1 & H2 & H3 & H4) & HS). apply sound_split. split; [|exact HS].
    split; [exact H1|]. cbn [n_value n_children n_lmf n_comment] in *. split; [discriminate|]. split; [discriminate|exact H4].
Qed.
Lemma begins_solid l : solid_lines l -> begins l.
Proof. intros (H1 & H2). destruct l as [|c below]; [contradiction|]. exists c, below. split; auto. apply H2. left. reflexivity. Qed.
Lemma solid_members v l : l <> [] -> (forall c, In c l -> sound c /\ (n_value c = VSent -> n_lmf c = true)) -> solid_lines (as_list_members v l).
Proof.
  intros HN HL. unfold as_list_members. destruct (is_prim v).
  - split; [destruct l; [contradiction|discriminate]|]. intros c Hc. apply in_map_iff in Hc as (x & <- & Hx). destruct (HL x Hx) as (H1 & H2).
    split; [apply sound_lmf; auto|]. rewrite set_lmf_comment. apply sound_not_comment; auto.
  - split; [discriminate|]. intros c [<-|[]]. split.
    + apply sound_split. split; [|cbn [n_children]; intros c Hc; apply HL; exact Hc]. split; [discriminate|]. cbn [n_value n_children n_lmf n_comment].
      split; [contradiction|]. split; [|auto]. intros _ _. apply begins_solid. split; auto. intros c Hc. destruct (HL c Hc). split; auto. apply sound_not_comment; auto.
    + unfold is_comment. cbn [n_comment is_nil negb]. rewrite andb_false_r. reflexivity.
Qed.
Lemma solid_plain l : l <> [] -> (forall c, In c l -> sound c /\ (n_value c = VSent -> n_lmf c = true)) -> solid_lines l.
Proof. intros HN HL. split; auto. intros c Hc. destruct (HL c Hc). split; auto. apply sound_not_comment; auto. Qed.
Lemma solid_generate E v l : generate_subtree E v = Ok l -> l <> [] /\ Forall (fun c => n_value c = VSent -> n_lmf c = true) l ->
  l <> [] /\ forall c, In c l -> sound c /\ (n_value c = VSent -> n_lmf c = true).
Proof.
  intros G (HN & HF). split; auto. intros c Hc. split; [apply (generate_sound E v l G c Hc)|]. rewrite Forall_forall in HF. auto.
Qed.
Lemma set_keeps_root l n : l <> [] -> is_comment (set_children l n) = true -> is_comment n = true.
Proof. intros H HC. apply comment_set in HC as (HC & _). contradiction. Qed.
Lemma well_update p f root m : well_formed root -> node_at root p = Some m -> sound (f m) -> (is_comment (f m) = true -> is_comment m = true) ->
  well_formed (update_at p f root).
Proof.
  intros (H0 & H) Hm HS HC. destruct (sound_update p f root m H Hm HS HC) as (S1 & S2). split; [|exact S1].
  destruct (is_comment (update_at _ _ _)) eqn:Z; auto. rewrite (S2 eq_refl) in H0. discriminate.
Qed.
Lemma insert_nonnil {A} i (new l : list A) : new <> [] -> insert_at i new l <> [].
Proof. unfold insert_at. destruct (firstn i l); [|discriminate]. destruct new; [contradiction|discriminate]. Qed.
Lemma begins_insert i new l : solid_lines new -> begins l -> begins (insert_at i new l).
Proof.
  intros HN (c & below & -> & HC). unfold insert_at. destruct i as [|i]; cbn [firstn].
  - destruct (begins_solid _ HN) as (x & y & -> & HX). exists x, (y ++ skipn 0 (c :: below)). auto.
  - exists c. eexists. split; [reflexivity|exact HC].
Qed.
Lemma sound_changed m l : sound m -> l <> [] -> (begins (n_children m) -> begins l) -> (forall c, In c l -> sound c \/ In c (n_children m)) ->
  sound (set_children l m).
Proof.
  intros H HN HB HL. pose proof H as H'. apply sound_split in H' as (_ & HS). apply sound_set; auto.
  - intros V L. apply HB. destruct (H [] m eq_refl) as (_ & _ & H3 & _). apply H3; auto.
  - intros _ _ Z. contradiction.
  - intros c Hc. apply HL in Hc as [Hc|Hc]; auto.
Qed.
Lemma create_is_head root st t : patch_add_find_target root st = Ok t -> at_create t = [] \/ exists above, st = at_create t :: above.
Proof.
  unfold patch_add_find_target. destruct st as [|p0 rest0]; [intros [= <-]; auto|]. cbv zeta. destruct (str_eqb p0 $"-") eqn:D.
  - destruct (traverse_with_index root rest0) as [[[o v] i]|]; [|discriminate]. cbn [bind]. destruct o; [intros [= <-]; auto|]. destruct rest0; intros [= <-]; auto.
  - destruct (traverse_with_index root (p0 :: rest0)) as [[[o v] i]|]; [|discriminate]. cbn [bind]. destruct o; [intros [= <-]; auto|].
    destruct (traverse_with_index root rest0) as [[[o2 v2] i2]|]; [|discriminate]. cbn [bind]. intros [= <-]. right. exists rest0. reflexivity.
Qed.
Lemma add_well E root st path v : str_to_stack_path path = Ok st -> adds_solid E path v -> well_formed root -> well_formed (snd (patch_add E root st v)).
Proof.
  intros HP (HV & HV2) H. unfold patch_add. destruct (patch_add_find_target root st) as [t|] eqn:FT; [|exact H]. destruct (at_pos t) as [p|]; [|exact H].
  destruct (node_at root p) as [m|] eqn:Hm; [|exact H].
  destruct (negb (is_valid_patch_node (Some m) (at_virt t))); [exact H|]. cbv zeta.
  set (value := if is_nil (at_create t) then v else JDict [(PStr (at_create t), v)]).
  destruct (generate_subtree E value) as [l|] eqn:G; [|exact H]. cbn [snd].
  assert (l <> [] /\ forall c, In c l -> sound c /\ (n_value c = VSent -> n_lmf c = true)) as (LN & LS).
  { apply (solid_generate E value l G). unfold value in G. destruct (is_nil (at_create t)) eqn:NC; [apply HV; exact G|].
    destruct (create_is_head _ _ _ FT) as [Z|(above & Z)]; [rewrite Z in NC; discriminate|]. rewrite Z in HP. apply (HV2 _ _ HP). exact G. }
  set (new := if at_append t || _ then as_list_members value l else l).
  assert (solid_lines new) as HN.
  { unfold new. destruct (at_append t || _); [apply solid_members|apply solid_plain]; auto. }
  clearbody new. pose proof (sound_at _ _ _ (proj2 H) Hm) as SM. destruct HN as (NN & NS).
  apply (well_update p _ root m H Hm).
  - destruct (at_phys t) as [i|].
    + apply sound_changed; auto; [apply insert_nonnil; auto|apply begins_insert; split; auto|]. intros c Hc. apply insert_in in Hc as [Hc|Hc]; auto. left. apply NS; auto.
    + destruct (at_append t || negb (is_nil (at_create t))); apply sound_changed; auto.
      * intros Z. apply app_eq_nil in Z as (_ & Z). contradiction.
      * intros (x & y & -> & HX). exists x, (y ++ new). auto.
      * intros c Hc. apply in_app_or in Hc as [Hc|Hc]; auto. left. apply NS; auto.
      * intros _. apply begins_solid. split; auto.
      * intros c Hc. left. apply NS; auto.
  - destruct (at_phys t) as [i|]; [apply set_keeps_root, insert_nonnil; auto|].
    destruct (at_append t || negb (is_nil (at_create t))); apply set_keeps_root; auto. intros Z. apply app_eq_nil in Z as (_ & Z). contradiction.
Qed.
Lemma replace_well E root st v : writes_solid E v -> well_formed root -> well_formed (snd (patch_replace E root st v)).
Proof.
  intros HV H. unfold patch_replace. destruct (traverse_with_index root st) as [[[o virt] phys]|] eqn:T; [|exact H].
  destruct o as [p|]; [|exact H]. destruct (node_at root p) as [m|] eqn:Hm; [|exact H].
  destruct (negb (is_valid_patch_node (Some m) virt)); [exact H|].
  destruct (generate_subtree E v) as [l|] eqn:G; [|exact H].
  assert (l <> [] /\ forall c, In c l -> sound c /\ (n_value c = VSent -> n_lmf c = true)) as (LN & LS).
  { apply (solid_generate E v l G). apply HV. exact G. }
  pose proof (sound_at _ _ _ (proj2 H) Hm) as SM.
  destruct phys as [i|]; cbv zeta; cbn [snd].
  - pose proof (solid_members v l LN LS) as HN. set (new := as_list_members v l) in *. clearbody new.
    assert (i < length (n_children m)) as Hi.
    { destruct st as [|p0 pp]; [discriminate|]. apply twi_inv in T. inversion T as [| | |q n j c D Tq Hq Hv Hj HC]; subst.
      assert (n = m) as -> by congruence. apply nth_error_Some. congruence. }
    destruct HN as (NN & NS). apply (well_update p _ root m H Hm); rewrite (remove_insert i new (n_children m) Hi).
    + apply sound_changed; auto.
      * intros Z. apply app_eq_nil in Z as (_ & Z). apply app_eq_nil in Z as (Z & _). contradiction.
      * intros (x & y & HX & HC). rewrite HX. destruct i as [|i]; cbn [firstn].
        -- destruct (begins_solid new (conj NN NS)) as (a & b & -> & HA). eexists a, _. split; [reflexivity|exact HA].
        -- eexists x, _. split; [reflexivity|exact HC].
      * intros c Hc. apply in_app_or in Hc as [Hc|Hc]; [right; eapply firstn_in; eauto|].
        apply in_app_or in Hc as [Hc|Hc]; [left; apply NS; auto|right; eapply skipn_in; eauto].
    + apply set_keeps_root. intros Z. apply app_eq_nil in Z as (_ & Z). apply app_eq_nil in Z as (Z & _). contradiction.
  - apply (well_update p _ root m H Hm).
    + apply sound_changed; auto.
      * intros _. apply begins_solid, solid_plain; auto.
      * intros c Hc. left. apply LS; auto.
    + apply set_keeps_root; auto.
Qed.
Lemma remove_well root st path : proper_tree root = true -> str_to_stack_path path = Ok st -> element_stays root path -> well_formed root ->
  well_formed (snd (patch_remove root st)).
Proof.
  intros HP HS HE H. destruct (fst (patch_remove root st)) as [[|]|e] eqn:F.
  - assert (patch_remove root st = (Ok true, snd (patch_remove root st))) as HR by (rewrite <- F; destruct (patch_remove root st); reflexivity).
    apply patch_remove_success in HR as (p & i & HT & _ & m & Hm & ->); auto.
    assert (addresses root path (p ++ [i])) as HA by (exists st; auto).
    pose proof (sound_at _ _ _ (proj2 H) Hm) as SM.
    assert (n_value m = VSent -> begins (remove_nth i (n_children m))) as HB by (intros V; apply (HE p i m HA Hm V)).
    assert (n_value m = VSent -> remove_nth i (n_children m) <> []) as HB'.
    { intros V. destruct (HB V) as (x & y & -> & _). discriminate. }
    apply (well_update p _ root m H Hm).
    + pose proof SM as SM'. apply sound_split in SM' as (_ & SC). apply sound_set; auto.
      * intros V _ Z. exfalso. apply (HB' V Z).
      * intros c Hc. apply remove_in in Hc. auto.
    + intros Z. apply comment_set in Z as (Z & V). exfalso. apply (HB' V Z).
  - rewrite patch_remove_fail; auto. congruence.
  - rewrite patch_remove_fail; auto. congruence.
Qed.
Lemma set_comment_sound c n : sound n -> n_value n <> VSent -> (c = [] \/ starts_with_hash c) -> sound (set_comment c n).
Proof.
  intros H HV HC. apply sound_split in H as ((H1 & H2 & H3 & H4) & HS). apply sound_split. destruct n as [v cm chs lm ml k].
  cbn [set_comment n_value n_children] in *. split; [|exact HS]. split; [exact H1|]. cbn [n_value n_children n_lmf n_comment] in *.
  split; [contradiction|]. split; [contradiction|exact HC].
Qed.
Lemma leaf_valued n c : sound n -> In c (n_children n) -> is_leaf c = true -> n_value c <> VSent.
Proof.
  intros H Hc HL V. apply sound_split in H as (_ & H). destruct (H c Hc [] c eq_refl) as (_ & H2 & _). unfold is_leaf in HL.
  apply andb_true_iff in HL as (L1 & L2). assert (n_children c = []) as K by (destruct (n_children c); [reflexivity|discriminate]).
  destruct (H2 V K) as ((t & Ht) & _). unfold is_comment in L2. rewrite V, Ht, K in L2. discriminate.
Qed.
Lemma put_comment_sound c n : sound n -> is_comment n = false -> (c = [] \/ starts_with_hash c) ->
  sound (put_comment c n) /\ is_comment (put_comment c n) = false.
Proof.
  intros H HN HC.
  assert (n_value n = VSent -> n_children n <> []) as HK.
  { intros V K. destruct (H [] n eq_refl) as (_ & H2 & _). destruct (H2 V K) as ((t & Ht) & _). unfold is_comment in HN. rewrite V, Ht, K in HN. discriminate. }
  assert (sound (set_comment c n)) as HS.
  { pose proof H as H'. apply sound_split in H' as ((H1 & H2 & H3 & H4) & HS). apply sound_split. destruct n as [v cm chs lm ml k].
    cbn [set_comment n_value n_children] in *. split; [|exact HS]. split; [exact H1|]. cbn [n_value n_children n_lmf n_comment] in *.
    split; [intros V K; apply HK in K; auto; contradiction|]. split; [exact H3|exact HC]. }
  unfold put_comment. cbv zeta. destruct (is_single_key (set_comment c n)) eqn:SK.
  - assert (n_children (set_comment c n) = n_children n) as EC by (destruct n; reflexivity). rewrite EC.
    assert (n_value (set_comment c n) = n_value n) as EV by (destruct n; reflexivity).
    assert (n_keyf (set_comment c n) = n_keyf n) as EK by (destruct n; reflexivity).
    unfold is_single_key in SK. rewrite EC, EK in SK. apply andb_true_iff in SK as (K & SK).
    destruct (n_children n) as [|x [|]] eqn:CH; try discriminate.
    assert (n_value n <> VSent) as NV.
    { destruct (H [] n eq_refl) as (H1 & _). destruct (H1 K) as (k & ->). discriminate. }
    assert (n_value x <> VSent) as XV by (apply (leaf_valued n); auto; rewrite CH; left; reflexivity).
    split.
    + apply sound_set; auto.
      * rewrite EV. contradiction.
      * rewrite EV. contradiction.
      * cbn [map]. intros y [<-|[]]. apply set_comment_sound; auto. apply sound_split in H as (_ & H). apply H. rewrite CH. left. reflexivity.
    + match goal with |- ?x = false => destruct x eqn:Z end; auto. apply comment_set in Z as (_ & Z). rewrite EV in Z. contradiction.
  - split; auto. destruct n as [v cm chs lm ml k]. unfold is_comment. cbn [set_comment n_value n_children n_comment] in *.
    destruct v; [|reflexivity]. destruct chs; [exfalso; apply HK; reflexivity|]. cbn [is_nil]. apply andb_false_r.
Qed.
Lemma without_hash old sel : search_text SELECTOR old = Some sel -> starts_with_hash old ->
  comment_without_selector old sel = [] \/ starts_with_hash (comment_without_selector old sel).
Proof.
  rewrite search_selector. intros HS (t & ->). apply selector_of_bracketed in HS as (b & HB & _). unfold comment_without_selector. cbv zeta.
  destruct (str_eqb _ _); [auto|]. right. apply hash_replace_all; [eexists; reflexivity|]. apply hash_replace_all; [eexists; reflexivity|].
  unfold replace_all. cbn [replace_all_aux]. destruct (starts_with sel (cHASH :: t)) eqn:S; [|eexists; reflexivity].
  exfalso. apply starts_with_spec in S as (u & Hu). rewrite HB in Hu. discriminate.
Qed.
Lemma line_edit_well E e r : is_line_edit e = true -> well_formed (r_root r) -> well_formed (r_root (after E e r)).
Proof.
  intros L H. destruct (line_edit_root E e r L) as [->|(q & n & c & s & HA & Hn & -> & HC)]; auto.
  pose proof (sound_at _ _ _ (proj2 H) Hn) as SM. pose proof (addressed_not_comment _ _ _ _ (proj1 H) HA Hn) as NC.
  assert (c = [] \/ starts_with_hash c) as HC'.
  { destruct HC as [HC|[HC|(sel & -> & HS)]]; auto. apply without_hash; auto. destruct (proj2 H q n Hn) as (_ & _ & _ & [H4|H4]); auto.
    rewrite H4 in HS. discriminate. }
  destruct (put_comment_sound c n SM NC HC') as (S1 & S2). apply (well_update q _ (r_root r) n H Hn); auto. rewrite S2. discriminate.
Qed.
Lemma after_well E e r : proper_tree (r_root r) = true -> considerate E e r -> well_formed (r_root r) -> well_formed (r_root (after E e r)).
Proof.
  intros HP HC H. destruct (is_line_edit e) eqn:L; [apply line_edit_well; auto|].
  destruct e as [p|k v|k|path sel mode|path|path cm]; try discriminate; cbn [after].
  - destruct (patch_root E p r) as [(q & HA & _ & ->)| ->]; auto. specialize (HC q HA). unfold perform.
    destruct (str_to_stack_path (request_path q)) as [st|] eqn:HS; [|exact H].
    destruct q as [path v|path|path v|from path|from path|path v]; cbn [request_path] in HS.
    + apply (add_well E _ _ path); auto.
    + apply (remove_well _ st path); auto.
    + apply replace_well; auto.
    + destruct HC as (HC1 & HC2). unfold patch_move. destruct (get_value E (r_root r) from None None) as [v|[]]; try exact H.
      destruct (patch_add_find_target (r_root r) st) as [t|]; [|exact H]. destruct (negb (is_valid_patch_node _ _)); [exact H|].
      destruct (str_to_stack_path from) as [fs|] eqn:F; [|exact H]. pose proof (remove_well (r_root r) fs from HP F HC1 H) as HR.
      destruct (patch_remove (r_root r) fs) as [[[|]|e] root']; cbn [snd] in *; auto. apply (add_well E _ _ path); auto.
    + unfold patch_copy. destruct (get_value E (r_root r) from None None) as [v|[]]; try exact H. apply (add_well E _ _ path); auto.
    + exact H.
  - exact H.
  - unfold del_variable. destruct (dmem k (r_vars r)); exact H.
Qed.
Lemma run_well E h : forall r, reads_proper E -> proper_tree (r_root r) = true -> all_considerate E h r -> well_formed (r_root r) ->
  well_formed (r_root (run E h r)).
Proof.
  induction h as [|e h IH]; intros r HE HP HC H; [exact H|]. rewrite run_cons. destruct HC as (HC & HC'). apply IH; auto.
  - apply after_proper; auto.
  - apply after_well; auto.
Qed.
