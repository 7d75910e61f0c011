(** C117 (proofs only). *)
From Verif Require Export ContextProofs SectionProofs4 PlainSpec.
From Verif Require Import Lemmas FrameProofs FrameProofs2 PatchProofs PatchProofs2 PathProofs PathProofs2 RenderProofs RenderProofs2 SectionProofs PlainSpec.

Ltac comp := split; [discriminate|vm_compute; intuition discriminate].
(** * Rearranged trees *)
Lemma weaken (R R' : node -> node -> Prop) q n n' : (forall a b, R a b -> R' a b) -> changed_at R q n n' -> changed_at R' q n n'.
Proof. intros H. induction 1 as [n n' K|n before c c' after p HC K IH]; [apply changed_here; auto|eapply changed_below; eauto]. Qed.
Definition like (m m' : node) : Prop := m = m' \/ exists q, changed_at order_changed q m m'.
Lemma like_one q n n' : changed_at order_changed q n n' ->
  n_value n' = n_value n /\ n_lmf n' = n_lmf n /\ forall m', In m' (n_children n') -> exists m, In m (n_children n) /\ like m m'.
Proof.
  intros H. inversion H as [a b (HP & HE) | a before c c' after p HC H']; subst.
  - rewrite HE. destruct n; cbn [with_lines n_value n_lmf n_children] in *. split; [reflexivity|]. split; [reflexivity|].
    intros m' I. exists m'. split; [|left; reflexivity]. eapply Permutation_in; [apply Permutation_sym; exact HP|exact I].
  - destruct n; cbn [with_lines n_value n_lmf n_children] in *. split; [reflexivity|]. split; [reflexivity|]. subst.
    intros m' I. apply in_app_or in I as [I|[<-|I]].
    + exists m'. split; [apply in_or_app; left; exact I|left; reflexivity].
    + exists c. split; [apply in_or_app; right; left; reflexivity|right; eauto].
    + exists m'. split; [apply in_or_app; right; right; exact I|left; reflexivity].
Qed.
Lemma like_facts n n' : like n n' ->
  n_value n' = n_value n /\ n_lmf n' = n_lmf n /\ forall m', In m' (n_children n') -> exists m, In m (n_children n) /\ like m m'.
Proof.
  intros [->|(q & H)]; [|exact (like_one q n n' H)]. split; [reflexivity|]. split; [reflexivity|]. intros m' I. exists m'. split; [exact I|left; reflexivity].
Qed.
Lemma like_called s n n' : like n n' -> called s n' -> called s n.
Proof. intros L H. apply like_facts in L as (V & _). unfold called in *. congruence. Qed.
Lemma top_line_back s n n' : like n n' -> top_line s n' -> top_line s n.
Proof.
  intros L (a & I & C). apply like_facts in L as (_ & _ & L). destruct (L a I) as (m & J & K). exists m. split; [exact J|exact (like_called _ _ _ K C)].
Qed.
Lemma section_line_back s c n n' : like n n' -> section_line s c n' -> section_line s c n.
Proof.
  intros L (a & b & I & C & J & D). apply like_facts in L as (_ & _ & L). destruct (L a I) as (m & I' & K). pose proof (like_called _ _ _ K C) as C'.
  apply like_facts in K as (_ & _ & K). destruct (K b J) as (m2 & J' & K2). exists m, m2. repeat split; auto. exact (like_called _ _ _ K2 D).
Qed.
Lemma source_line_back c n n' : like n n' -> source_line c n' -> source_line c n.
Proof.
  intros L [H|(a & e & b & I & C & J & F & J2 & D)]; [left; exact (section_line_back _ _ _ _ L H)|right].
  apply like_facts in L as (_ & _ & L). destruct (L a I) as (m & I' & K). pose proof (like_called _ _ _ K C) as C'.
  apply like_facts in K as (_ & _ & K). destruct (K e J) as (m2 & J' & K2). apply like_facts in K2 as (_ & F2 & K2).
  destruct (K2 b J2) as (m3 & J3 & K3). exists m, m2, m3. repeat split; auto; [congruence|]. exact (like_called _ _ _ K3 D).
Qed.
(** [fields_of true] are all old fields; [fields_of false] those that are gone before the section [about] is looked at. *)
Definition fields_of (b : bool) : list (str * str) :=
  old_build_fields ++ [($"requirements", $"run_constrained")] ++ (if b then old_about_fields else []).
Definition nothing_of (b : bool) (root : node) : Prop := nothing_among (fields_of b) root.
Lemma nothing_like b n n' : like n n' -> nothing_of b n -> nothing_of b n'.
Proof.
  intros L (A & B & C). repeat split.
  - intros s I H. exact (A s I (top_line_back _ _ _ L H)).
  - intros s c I H. exact (B s c I (section_line_back _ _ _ _ L H)).
  - intros c I H. exact (C c I (source_line_back _ _ _ L H)).
Qed.
Lemma nothing_rearranged k n n' : rearranged n n' -> nothing_of k n -> nothing_of k n'.
Proof. induction 1 as [|b c q R IH H]; intros N; [exact N|]. apply (nothing_like k b c); [right; eauto|auto]. Qed.
Lemma top_rearranged s n n' : rearranged n n' -> top_line s n' -> top_line s n.
Proof. induction 1 as [|b c q R IH H]; intros N; [exact N|]. apply IH. apply (top_line_back _ b c); [right; eauto|exact N]. Qed.
Lemma rearranged_trans a b c : rearranged a b -> rearranged b c -> rearranged a c.
Proof. intros H. induction 1 as [|x y q R IH K]; [exact H|]. eapply changed_again; eauto. Qed.

(** * What is found at a path *)
Lemma named_step n s i ch : isdigit s = false -> step_child n s = Some (i, ch) -> In ch (n_children n) /\ called s ch.
Proof.
  intros D H. split; [exact (nth_error_In _ _ (step_child_nth _ _ _ _ H))|]. unfold step_child in H. rewrite D in H.
  apply find_child_hit in H as (_ & _ & V). apply val_is_eq. exact V.
Qed.
Lemma index_step n s i ch : isdigit s = true -> step_child n s = Some (i, ch) -> In ch (n_children n) /\ n_lmf ch = true.
Proof.
  intros D H. split; [exact (nth_error_In _ _ (step_child_nth _ _ _ _ H))|]. unfold step_child in H. rewrite D in H.
  destruct (nth_error (virt_to_phys (n_children n)) (int_of s)) as [j|]; [|discriminate]. destruct (nth_error (n_children n) j) as [c|]; [|discriminate].
  destruct (n_lmf c) eqn:L; [|discriminate]. injection H as <- <-. exact L.
Qed.
Lemma addresses_rec root cs c q : Forall component (cs ++ [c]) -> addresses root (path_text (cs ++ [c])) q -> traverse_recurse root (cs ++ [c]) = Some q.
Proof.
  intros HC H. destruct (stack_snoc cs c HC) as (HS & _). apply (addresses_stack _ _ _ _ HS) in H.
  rewrite <- traverse_pos_components, rev_app_distr. exact H.
Qed.
Lemma present_top root s : component s -> isdigit s = false -> present root [s] -> top_line s root.
Proof.
  intros C D (q & H). apply (addresses_rec root [] s) in H; [|exact (Forall_cons _ C (Forall_nil _))]. cbn [app traverse_recurse] in H.
  destruct (step_child root s) as [[i ch]|] eqn:S; [|discriminate]. exists ch. exact (named_step _ _ _ _ D S).
Qed.
Lemma present_section root s c : component s -> component c -> isdigit s = false -> isdigit c = false -> present root [s; c] -> section_line s c root.
Proof.
  intros C1 C2 D1 D2 (q & H). apply (addresses_rec root [s] c) in H; [|exact (Forall_cons _ C1 (Forall_cons _ C2 (Forall_nil _)))]. cbn [app traverse_recurse] in H.
  destruct (step_child root s) as [[i ch]|] eqn:S; [|discriminate]. destruct (step_child ch c) as [[j m]|] eqn:S2; [|discriminate].
  destruct (named_step _ _ _ _ D1 S). destruct (named_step _ _ _ _ D2 S2). exists ch, m. auto.
Qed.
Lemma present_element root i c : component c -> isdigit c = false -> present root [$"source"; str_of_nat i; c] -> source_line c root.
Proof.
  intros C D (q & H). apply (addresses_rec root [$"source"; str_of_nat i] c) in H.
  2: { apply Forall_cons; [split; [discriminate|vm_compute; intuition discriminate]|].
       apply Forall_cons; [apply str_of_nat_spec|exact (Forall_cons _ C (Forall_nil _))]. }
  cbn [app traverse_recurse] in H.
  destruct (step_child root $"source") as [[a ch]|] eqn:S; [|discriminate]. destruct (step_child ch (str_of_nat i)) as [[j e]|] eqn:S2; [|discriminate].
  destruct (step_child e c) as [[k b]|] eqn:S3; [|discriminate].
  destruct (named_step root $"source" _ _ eq_refl S). destruct (index_step ch (str_of_nat i) j e (proj1 (str_of_nat_spec i)) S2). destruct (named_step _ _ _ _ D S3).
  right. exists ch, e, b. auto 8.
Qed.

(** * Steps that find nothing to do *)
Definition about_node (root : node) : option node := option_map snd (step_child root $"about").
Definition context_node (root : node) : option node := option_map snd (step_child root $"context").
(** Lines change their order, but neither at the top nor in the section [about]. *)
Inductive aside (a : node) : node -> Prop :=
| aside_none : aside a a
| aside_more b c i q x : aside a b -> changed_at order_changed (i :: q) b c -> nth_error (n_children b) i = Some x ->
    ~ called $"about" x -> aside a c.
Lemma aside_trans a b c : aside a b -> aside b c -> aside a c.
Proof. intros H. induction 1 as [|x y i q z R IH K N C]; [exact H|]. eapply aside_more; eauto. Qed.
Section Harmless.
Context (E : env) (closest : str -> option str) (late : bool).
Definition calm (w : world) : Prop := nothing_of late (fst w) /\ about_fine E closest (fst w).
Definition settled (w w' : world) : Prop :=
  rearranged (fst w) (fst w') /\ about_node (fst w') = about_node (fst w) /\ context_node (fst w') = context_node (fst w) /\ snd w' = snd w
  /\ aside (fst w) (fst w').
Definition harmless (A : change) : Prop := forall w w', calm w -> A w w' -> settled w w'.
Lemma settled_refl w : settled w w.
Proof. split; [constructor|]. repeat (split; [reflexivity|]). constructor. Qed.
Lemma settled_trans a b c : settled a b -> settled b c -> settled a c.
Proof.
  intros (A1 & A2 & A3 & A4 & A5) (B1 & B2 & B3 & B4 & B5). split; [exact (rearranged_trans _ _ _ A1 B1)|]. repeat (split; [congruence|]). exact (aside_trans _ _ _ A5 B5).
Qed.
Lemma about_path root c : lookup root (path_text [$"about"; c]) = match str_to_stack_path (path_text [$"about"; c]) with
    | Ok st => traverse root st | _ => None end.
Proof. reflexivity. Qed.
Lemma about_value root root' c d : component c -> about_node root' = about_node root ->
  get_value E root' (path_text [$"about"; c]) d None = get_value E root (path_text [$"about"; c]) d None.
Proof.
  intros C H. assert (Forall component [$"about"; c]) as HC.
  { apply Forall_cons; [split; [discriminate|vm_compute; intuition discriminate]|exact (Forall_cons _ C (Forall_nil _))]. }
  destruct (stack_snoc [$"about"] c HC) as (HS & _). unfold get_value. cbn [app] in HS. rewrite HS. cbn [bind].
  assert (traverse root' (c :: rev [$"about"] ++ [ROOT_VALUE]) = traverse root (c :: rev [$"about"] ++ [ROOT_VALUE])) as ->; [|reflexivity].
  change (c :: rev [$"about"] ++ [ROOT_VALUE]) with (rev [$"about"; c] ++ [ROOT_VALUE]).
  unfold traverse. rewrite !traverse_pos_components. cbn [traverse_recurse]. unfold about_node in H.
  destruct (step_child root' $"about") as [[i a]|] eqn:S1, (step_child root $"about") as [[j b]|] eqn:S2; cbn [option_map snd] in H; try discriminate; [|reflexivity].
  injection H as ->. pose proof (step_child_nth _ _ _ _ S1) as N1. pose proof (step_child_nth _ _ _ _ S2) as N2.
  destruct (step_child b c) as [[k m]|]; cbn [option_map]; [|reflexivity]. cbn [node_at]. rewrite N1, N2. reflexivity.
Qed.
Lemma settled_calm w w' : settled w w' -> calm w -> calm w'.
Proof.
  intros (R & A & _) (N & F). split; [exact (nothing_rearranged _ _ _ R N)|]. intros H. destruct (F (top_rearranged _ _ _ R H)) as (F1 & F2).
  assert (forall d, get_value E (fst w') $"/about/license" d None = get_value E (fst w) $"/about/license" d None) as L.
  { intros d. apply (about_value _ _ $"license" d); [split; [discriminate|vm_compute; intuition discriminate]|exact A]. }
  assert (forall d, get_value E (fst w') $"/about/summary" d None = get_value E (fst w) $"/about/summary" d None) as S.
  { intros d. apply (about_value _ _ $"summary" d); [split; [discriminate|vm_compute; intuition discriminate]|exact A]. }
  rewrite L. split; [exact F1|]. intros l. rewrite S. apply F2.
Qed.
Lemma h_nothing : harmless nothing.
Proof. intros w w' _ ->. apply settled_refl. Qed.
Lemma h_then A B : harmless A -> harmless B -> harmless (A >> B).
Proof. intros HA HB w w' C (m & H1 & H2). pose proof (HA _ _ C H1) as S1. exact (settled_trans _ _ _ S1 (HB _ _ (settled_calm _ _ S1 C) H2)). Qed.
Lemma h_all l : Forall harmless l -> harmless (all_of l).
Proof. induction 1 as [|A l H _ IH]; [exact h_nothing|exact (h_then _ _ H IH)]. Qed.
Lemma h_there cs A : harmless A -> harmless (if_there cs A).
Proof. intros H w w' C [(_ & K)|(_ & ->)]; [exact (H _ _ C K)|apply settled_refl]. Qed.
Definition gone (cs : list str) : Prop := forall root, nothing_of late root -> ~ present root cs.
Lemma h_gone cs A : gone cs -> harmless (if_there cs A).
Proof. intros H w w' C [(P & _)|(_ & ->)]; [destruct (H _ (proj1 C) P)|apply settled_refl]. Qed.
Lemma h_rename ds c d : gone (ds ++ [c]) -> harmless (rename E ds c d).
Proof. apply h_gone. Qed.
Lemma h_renames ds l : Forall (fun cd => gone (ds ++ [fst cd])) l -> harmless (renames E ds l).
Proof. intros H. apply h_all. apply Forall_map. eapply Forall_impl; [|exact H]. intros [c d] G. apply h_rename. exact G. Qed.
Lemma h_dropped ds l : Forall (fun c => gone (ds ++ [c])) l -> harmless (all_dropped ds l).
Proof. intros H. apply h_all. apply Forall_map. eapply Forall_impl; [|exact H]. intros c G. apply h_gone. exact G. Qed.
Lemma h_nest ds c into d : gone (ds ++ [c]) -> harmless (nest E ds c into d).
Proof. intros G. apply h_then; apply h_gone; exact G. Qed.
Lemma h_missing cs d A : cs <> [] -> gone cs -> harmless (A d) -> harmless (with_value E cs (Some d) A).
Proof.
  intros N G H w w' C (v & V & K). assert (v = d) as ->; [|exact (H _ _ C K)].
  assert (path_text cs <> []) as NP by (destruct cs; [contradiction|discriminate]).
  rewrite (PathProofs2.get_value_default E _ _ None d NP) in V.
  assert (contains_value (fst w) (path_text cs) = Ok false) as X; [|rewrite X in V; injection V as <-; reflexivity].
  destruct (str_to_stack_path_ok _ NP) as (st & Hst). unfold contains_value. rewrite Hst. cbn [bind].
  destruct (traverse (fst w) st) as [n|] eqn:T; [|reflexivity]. exfalso. apply (G _ (proj1 C)).
  unfold traverse in T. destruct (traverse_pos (fst w) st) as [q|] eqn:TP; [|discriminate]. exists q.
  apply (addresses_stack _ _ _ _ Hst). exact TP.
Qed.
Lemma find_child_other p before after c c' j : val_is (n_value c) p = false -> n_value c' = n_value c ->
  option_map snd (find_child p j (before ++ c' :: after)) = option_map snd (find_child p j (before ++ c :: after)).
Proof.
  intros V K. revert j; induction before as [|b l IH]; intros j; cbn [app find_child].
  - rewrite K, V. reflexivity.
  - destruct (val_is (n_value b) p); [reflexivity|apply IH].
Qed.
Lemma nth_split_at {A} (before after : list A) c x : nth_error (before ++ c :: after) (length before) = Some x -> x = c.
Proof. rewrite nth_error_app2, Nat.sub_diag by lia. cbn [nth_error]. congruence. Qed.
Lemma addresses_any root cs q : cs <> [] -> Forall component cs -> addresses root (path_text cs) q -> traverse_recurse root cs = Some q.
Proof. intros N C H. destruct (exists_last N) as (ds & c & ->). exact (addresses_rec root ds c q C H). Qed.
Lemma h_order names s rest : component s -> isdigit s = false -> s <> $"about" -> s <> $"context" -> Forall component rest -> harmless (in_order_of names (s :: rest)).
Proof.
  intros C D NA NC CR. apply h_there. intros w w' _ ((tbl & q & _ & _ & A & K) & HM). destruct w as [r ws], w' as [r' ws']. cbn [fst snd] in *. subst ws'.
  assert (changed_at order_changed q r r') as K'.
  { revert K. apply weaken. intros n n' (P & R). split; [apply P|exact R]. }
  unfold settled. cbn [fst snd]. split; [eapply changed_again; [constructor|exact K']|].
  apply addresses_any in A; [|discriminate|constructor; auto]. cbn [traverse_recurse] in A.
  destruct (step_child r s) as [[i ch]|] eqn:S; [|discriminate]. destruct (traverse_recurse ch rest) as [q'|]; [|discriminate]. cbn [option_map] in A. injection A as <-.
  inversion K' as [|n before c c' after p HC K2]; subst. pose proof (named_step _ _ _ _ D S) as (_ & V).
  pose proof (step_child_nth _ _ _ _ S) as N. rewrite HC in N. apply nth_split_at in N as ->.
  pose proof (proj1 (like_one _ _ _ K2)) as V2.
  unfold about_node, context_node, step_child. change (isdigit $"about") with false. change (isdigit $"context") with false. cbv iota. destruct r; cbn [with_lines n_children] in *. rewrite HC.
  assert (~ called $"about" c) as CA by (unfold called in *; congruence).
  split; [|split; [|split; [reflexivity|]]]; [apply find_child_other; [|exact V2]|apply find_child_other; [|exact V2]|].
  - destruct (val_is (n_value c) $"about") eqn:X; [|reflexivity]. apply val_is_eq in X. unfold called in V. rewrite V in X. injection X as ->. contradiction.
  - destruct (val_is (n_value c) $"context") eqn:X; [|reflexivity]. apply val_is_eq in X. unfold called in V. rewrite V in X. injection X as ->. contradiction.
  - rewrite HC in K'. eapply aside_more; [apply aside_none|exact K'| |exact CA]. cbn [n_children]. rewrite nth_error_app2, Nat.sub_diag by lia. reflexivity.
Qed.

(** * The sections *)
Lemma gone_top s : component s -> isdigit s = false -> In s old_sections -> gone [s].
Proof. intros C D I root (N & _) P. exact (N s I (present_top _ _ C D P)). Qed.
Lemma gone_field s c : component s -> component c -> isdigit s = false -> isdigit c = false -> In (s, c) (fields_of late) -> gone [s; c].
Proof. intros C1 C2 D1 D2 I root (_ & N & _) P. exact (N s c I (present_section _ _ _ C1 C2 D1 D2 P)). Qed.
Lemma gone_source c : component c -> isdigit c = false -> In c old_source_fields -> gone [$"source"; c].
Proof. intros C D I root (_ & _ & N) P. apply (N c I). left. apply present_section; auto. comp. Qed.
Lemma gone_element i c : component c -> isdigit c = false -> In c old_source_fields -> gone [$"source"; str_of_nat i; c].
Proof. intros C D I root (_ & _ & N) P. exact (N c I (present_element _ _ _ C D P)). Qed.
Definition plain_name (c : str) : bool := negb (isdigit c) && negb (is_nil c) && negb (existsb (Ascii.eqb cSL) c).
Lemma plain_name_is c : plain_name c = true -> component c /\ isdigit c = false.
Proof.
  unfold plain_name. rewrite !andb_true_iff, !negb_true_iff. intros ((H2 & H3) & H4). split; [|exact H2].
  split; [intros ->; discriminate|]. intros I. assert (existsb (Ascii.eqb cSL) c = true); [|congruence].
  apply existsb_exists. exists cSL. split; [exact I|apply Ascii.eqb_refl].
Qed.
Definition is_old_field (s c : str) : bool := existsb (fun p => str_eqb s (fst p) && str_eqb c (snd p)) (fields_of late) && plain_name s && plain_name c.
Lemma is_old s c : is_old_field s c = true -> gone [s; c].
Proof.
  unfold is_old_field. rewrite !andb_true_iff. intros ((H & H1) & H2). destruct (plain_name_is _ H1), (plain_name_is _ H2). apply gone_field; auto.
  apply existsb_exists in H as ([a a'] & I & K). cbn [fst snd] in K. rewrite andb_true_iff in K. destruct K as (K1 & K2).
  apply str_eqb_eq in K1 as ->. apply str_eqb_eq in K2 as ->. exact I.
Qed.
Definition is_old_top (s : str) : bool := existsb (str_eqb s) old_sections && plain_name s.
Lemma is_old_section s : is_old_top s = true -> gone [s].
Proof.
  unfold is_old_top. rewrite andb_true_iff. intros (H & H1). destruct (plain_name_is _ H1). apply gone_top; auto.
  apply existsb_exists in H as (a & I & K). apply str_eqb_eq in K as ->. exact I.
Qed.
Ltac field := apply is_old; vm_compute; reflexivity.
Ltac lfield H := apply is_old; unfold is_old_field; rewrite H; vm_compute; reflexivity.
Lemma h_misspelled : harmless (misspellings_corrected E []).
Proof.
  apply h_then; [apply h_renames; repeat (apply Forall_cons; [field|]); apply Forall_nil|]. apply h_rename. apply is_old_section; vm_compute; reflexivity.
Qed.
Lemma h_source ds : (forall c, component c -> isdigit c = false -> In c old_source_fields -> gone (ds ++ [c])) ->
  (forall names, harmless (in_order_of names ds)) -> harmless (source_upgraded E ds).
Proof.
  intros G O. assert (forall c, existsb (str_eqb c) old_source_fields && plain_name c = true -> gone (ds ++ [c])) as G'.
  { intros c H. apply andb_true_iff in H as (H & H1). destruct (plain_name_is _ H1). apply G; auto.
    apply existsb_exists in H as (x & I & K). apply str_eqb_eq in K as ->. exact I. }
  unfold source_upgraded. apply h_then; [apply h_gone; apply G'; vm_compute; reflexivity|].
  apply h_then; [apply h_gone; apply G'; vm_compute; reflexivity|]. apply h_then; [|apply O].
  apply h_renames. repeat (apply Forall_cons; [apply G'; vm_compute; reflexivity|]). apply Forall_nil.
Qed.
Lemma h_sources : harmless (sources_upgraded E []).
Proof.
  unfold sources_upgraded. apply h_there. intros w w' C (v & _ & K). revert w w' C K.
  assert (harmless (source_upgraded E [$"source"])) as HS.
  { apply h_source; [exact gone_source|]. intros names. apply h_order; [comp|reflexivity|discriminate|discriminate|constructor]. }
  destruct v as [p|l|d]; [exact HS| |exact HS]. apply h_all. apply Forall_map. apply Forall_forall. intros i _.
  apply h_source; [intros c C D I; exact (gone_element i c C D I)|]. intros names. cbn [app].
  apply h_order; [comp|reflexivity|discriminate|discriminate|]. constructor; [apply str_of_nat_spec|constructor].
Qed.
Lemma h_build : harmless (build_upgraded E []).
Proof.
  unfold build_upgraded. cbv zeta. cbn [app]. apply h_then; [apply h_gone; field|]. apply h_then; [apply h_gone; field|]. apply h_there.
  apply h_then; [apply h_renames; repeat (apply Forall_cons; [field|]); apply Forall_nil|]. do 7 (apply h_then; [apply h_nest; field|]).
  apply h_then; [apply h_missing; [discriminate|field|]; exact h_nothing|].
  apply h_then; [apply h_dropped; repeat (apply Forall_cons; [field|]); apply Forall_nil|].
  apply h_order; [comp|reflexivity|discriminate|discriminate|constructor].
Qed.
Lemma h_requirements : harmless (requirements_upgraded E []).
Proof. apply h_there. apply h_rename. field. Qed.
Lemma h_about : late = true -> harmless (about_upgraded E closest []).
Proof.
  intros HB.
  intros w w' C [(P & K)|(_ & ->)]; [|apply settled_refl]. apply present_top in P; [|comp|reflexivity].
  revert K. destruct C as (N & F). destruct (F P) as ((s & L & CL) & SM).
  (* inside the section, the name is there and the values are as assumed *)
  destruct w as [r ws]. cbn [fst] in *. intros (m1 & K1 & m2 & K2 & m3 & K3 & K4).
  assert (settled (r, ws) m1) as S1 by (revert K1; apply (h_renames [$"about"]); [repeat (apply Forall_cons; [lfield HB|]); apply Forall_nil|split; assumption]).
  pose proof (settled_calm _ _ S1 (conj N F)) as C1.
  assert (forall d, get_value E (fst m1) $"/about/license" d None = get_value E r $"/about/license" d None) as V1.
  { intros d. apply (about_value _ _ $"license" d); [comp|apply S1]. }
  assert (forall d, get_value E (fst m1) $"/about/summary" d None = get_value E r $"/about/summary" d None) as V2.
  { intros d. apply (about_value _ _ $"summary" d); [comp|apply S1]. }
  assert (m2 = m1) as ->.
  { destruct K2 as (v & V & K2). change (path_text (([] ++ [$"about"]) ++ [$"license"])) with $"/about/license" in V.
    rewrite V1, L in V. injection V as <-. cbv beta iota in K2. rewrite CL in K2. destruct (list_eq_dec ascii_dec s s) as [_|X]; [exact K2|contradiction]. }
  assert (m3 = m1) as ->.
  { destruct K3 as (v & V & K3). change (path_text (([] ++ [$"about"]) ++ [$"summary"])) with $"/about/summary" in V.
    rewrite V2 in V. destruct v as [p|l|d]; [exact K3|destruct (SM l V)|exact K3]. }
  eapply settled_trans; [exact S1|]. revert C1 K4. apply h_dropped. repeat (apply Forall_cons; [lfield HB|]); apply Forall_nil.
Qed.
Lemma h_tests : harmless (tests_upgraded E []).
Proof. apply h_gone. apply is_old_section; vm_compute; reflexivity. Qed.
Lemma h_outputs l : harmless (outputs_upgraded E l).
Proof. apply h_gone. apply is_old_section; vm_compute; reflexivity. Qed.
Lemma h_sections : late = true -> harmless (sections_upgraded E closest []).
Proof.
  intros HB.
  assert (forall A : list str -> change, harmless (A []) -> harmless (for_each A [[]])) as X.
  { intros A H. unfold for_each. cbn [map all_of]. apply h_then; [exact H|exact h_nothing]. }
  unfold sections_upgraded. cbv zeta. apply h_then; [exact (X _ h_misspelled)|]. apply h_then; [exact (X _ h_sources)|].
  apply h_then; [exact (X _ h_build)|]. apply h_then; [exact (X _ h_requirements)|]. apply h_then; [exact (X _ (h_about HB))|].
  apply h_then; [exact (X _ h_tests)|]. apply h_outputs.
Qed.
Lemma no_outputs w v n : calm w -> get_value E (fst w) $"/outputs" (Some (JList [])) None = Ok v -> json_len v = Ok n -> n = 0.
Proof.
  intros C V L. assert (v = JList []) as ->; [|injection L as <-; reflexivity].
  destruct C as (C & _). assert (gone [$"outputs"]) as G by (apply is_old_section; vm_compute; reflexivity).
  assert ($"/outputs" <> []) as NP by discriminate. rewrite (PathProofs2.get_value_default E _ _ None _ NP) in V.
  destruct (contains_value (fst w) $"/outputs") as [[]|] eqn:X; [|congruence|].
  - exfalso. apply (G _ C). destruct (str_to_stack_path_ok _ NP) as (st & Hst). unfold contains_value in X. rewrite Hst in X. cbn [bind] in X.
    unfold traverse in X. destruct (traverse_pos (fst w) st) as [q|] eqn:TP; [|discriminate]. exists q. exact (proj2 (addresses_stack _ _ _ _ Hst) TP).
  - unfold contains_value in X. destruct (str_to_stack_path_ok _ NP) as (st & Hst). rewrite Hst in X. discriminate.
Qed.
End Harmless.
Lemma top_table : machine_table TOP_LEVEL_SORT.
Proof. repeat constructor. Qed.
Lemma plain_rest T s text s' : reads_proper (t_env T) -> proper_tree (r_root (v1 s)) = true -> NoDup (map fst (r_vars (v1 s))) ->
  without_errors (render_to_v1 T) s text s' -> exists s1 s2,
  without_errors (upgrade_selectors_to_conditionals T) s tt s1
  /\ context_upgraded (t_env T) (t_order T) (r_vars (v1 s)) (view s1) (view s2)
  /\ (nothing_old (r_root (v1 s2)) -> about_fine (t_env T) (closest_license T) (r_root (v1 s2)) -> rearranged (r_root (v1 s2)) (r_root (v1 s'))).
Proof.
  intros HE HP ND H. destruct (whole_conversion T s text s' HE HP ND H) as (s1 & s2 & s3 & v & n & root & H1 & H2 & H3 & H4 & H5 & H6 & H7 & _).
  exists s1, s2. split; [exact H1|]. split; [exact H2|]. intros N F.
  pose proof (conj N F : calm (t_env T) (closest_license T) true (view s2)) as C.
  pose proof (no_outputs _ _ _ _ _ _ C H3 H4) as ->. pose proof (h_sections _ _ _ eq_refl _ _ C H5) as (R & _ & _). cbn [view fst] in R.
  eapply rearranged_trans; [exact R|]. rewrite H7. destruct (c44 _ _ _ _ _ top_table H6) as [(_ & ->)|(q & _ & K)]; [constructor|].
  eapply changed_again; [constructor|]. eapply weaken; [|exact K]. intros a b (P & ->). split; [apply P|].
  destruct a; reflexivity.
Qed.
(** * Recipes without selectors, variables and expressions *)
Lemma in_version root a : In a (n_children (with_version root)) -> In a (n_children root) \/ a = version_line.
Proof. destruct root. unfold with_version. cbn [with_lines n_children]. intros I. apply in_app_or in I as [I|[<-|[]]]; auto. Qed.
Lemma version_called s : called s version_line -> s = $"schema_version".
Proof. unfold called, version_line. cbn [n_value]. congruence. Qed.
Lemma version_nothing root : nothing_old root -> nothing_old (with_version root).
Proof.
  assert (forall s l, existsb (str_eqb $"schema_version") l = false -> In s l -> s <> $"schema_version") as X.
  { intros s l H I ->. assert (existsb (str_eqb $"schema_version") l = true); [|congruence]. apply existsb_exists. exists $"schema_version". split; [exact I|apply str_eqb_eq; reflexivity]. }
  intros (A & B & C). split; [|split].
  - intros s I (a & J & K). apply in_version in J as [J| ->]; [exact (A s I (ex_intro _ a (conj J K)))|].
    apply version_called in K. revert K. apply (X s old_sections); [vm_compute; reflexivity|exact I].
  - intros s c I (a & b & J & K & J2 & K2). apply in_version in J as [J| ->]; [apply (B s c I); exists a, b; auto|].
    apply version_called in K. revert K. apply (X s (map fst old_fields)); [vm_compute; reflexivity|]. change s with (fst (s, c)). apply in_map. exact I.
  - intros c I [(a & b & J & K & J2 & K2)|(a & e & b & J & K & J2 & F & J3 & K3)].
    + apply in_version in J as [J| ->]; [apply (C c I); left; exists a, b; auto|]. apply version_called in K. discriminate.
    + apply in_version in J as [J| ->]; [apply (C c I); right; exists a, e, b; auto 8|]. apply version_called in K. discriminate.
Qed.
Lemma version_about root : about_node (with_version root) = about_node root.
Proof.
  unfold about_node, step_child. change (isdigit $"about") with false. cbv iota. destruct root as [v c l m u k]. unfold with_version. cbn [with_lines n_children].
  generalize 0 as j. induction l as [|a l IH]; intros j; cbn [app find_child]; [|destruct (val_is (n_value a) $"about"); [reflexivity|apply IH]].
  reflexivity.
Qed.
Lemma version_fine E closest root : about_fine E closest root -> about_fine E closest (with_version root).
Proof.
  intros F (a & I & K). apply in_version in I as [I| ->]; [|apply version_called in K; discriminate].
  destruct (F (ex_intro _ a (conj I K))) as (F1 & F2).
  assert (forall d, get_value E (with_version root) $"/about/license" d None = get_value E root $"/about/license" d None) as L.
  { intros d. apply (about_value E closest root (with_version root) $"license" d); [comp|apply version_about]. }
  assert (forall d, get_value E (with_version root) $"/about/summary" d None = get_value E root $"/about/summary" d None) as S.
  { intros d. apply (about_value E closest root (with_version root) $"summary" d); [comp|apply version_about]. }
  rewrite L. split; [exact F1|]. intros l. rewrite S. apply F2.
Qed.
Lemma version_no_expressions root : no_expressions root -> no_expressions (with_version root).
Proof.
  intros H p n A T. destruct root as [v c l m u k]. unfold with_version in A. destruct p as [|i p]; cbn [node_at with_lines n_children] in A.
  - injection A as <-. unfold terminal in T. destruct l; exfalso; revert T; cbn [n_children app is_nil andb]; discriminate.
  - destruct (nth_error (l ++ [version_line]) i) as [x|] eqn:N; [|discriminate]. destruct (Nat.lt_ge_cases i (length l)) as [Hl|Hl].
    + rewrite nth_error_app1 in N by exact Hl. apply (H (i :: p) n); [|exact T]. cbn [node_at n_children]. rewrite N. exact A.
    + rewrite nth_error_app2 in N by exact Hl. destruct (i - length l) as [|[|]]; cbn [nth_error] in N; try discriminate. injection N as <-.
      destruct p as [|[|j] p]; cbn [node_at version_line n_children nth_error] in A.
      * injection A as <-. discriminate.
      * destruct p as [|[|j] p]; cbn [node_at n_children nth_error] in A; [|discriminate|discriminate]. injection A as <-.
        intros X. apply v0_expression in X. revert X. vm_compute. discriminate.
      * destruct j; discriminate.
Qed.
Lemma put_version E root root' : writes_version E -> ~ top_line $"schema_version" root ->
  value_put E [] $"schema_version" (JInt 1) root root' -> root' = with_version root.
Proof.
  intros W N H. inversion H as [(q & lines & A & _)|q n lines _ A _ _ _ WL K|q i n lines _ _ _ D _ _ _]; [| |discriminate].
  - exfalso. apply N. apply present_top; [comp|reflexivity|]. exists q. exact A.
  - unfold writes_version, written_as in W, WL. rewrite W in WL. injection WL as <-.
    destruct A as (st & Hst & TP). change (str_to_stack_path (path_text [] ++ $"/")) with (@Ok stack (rev [] ++ [ROOT_VALUE])) in Hst. injection Hst as <-.
    pose proof (traverse_pos_components root []) as Y. cbn [rev app] in Y, TP. rewrite Y in TP. cbn [traverse_recurse] in TP. injection TP as <-.
    inversion K as [a b R|]; subst. exact R.
Qed.
Lemma plain_all T s text s' : reads_proper (t_env T) -> writes_version (t_env T) -> (forall l x, In x (t_order T l) -> In x l) ->
  proper_tree (r_root (v1 s)) = true -> r_sel (v1 s) = [] -> r_vars (v1 s) = [] -> no_expressions (r_root (v1 s)) ->
  ~ top_line $"schema_version" (r_root (v1 s)) -> nothing_old (r_root (v1 s)) -> about_fine (t_env T) (closest_license T) (r_root (v1 s)) ->
  without_errors (render_to_v1 T) s text s' -> rearranged (with_version (r_root (v1 s))) (r_root (v1 s')).
Proof.
  intros HE HW HO HP HS HV HX HN N F H. assert (NoDup (map fst (r_vars (v1 s)))) as ND by (rewrite HV; constructor).
  destruct (plain_rest T s text s' HE HP ND H) as (s1 & s2 & (H1 & _) & H2 & H3).
  assert (s1 = s) as ->.
  { unfold upgrade_selectors_to_conditionals, andthen, ask in H1. rewrite HS in H1. cbv beta iota in H1. cbn [each] in H1. unfold ret in H1. congruence. }
  rewrite HV in H2. destruct H2 as (m1 & K1 & m2 & (ctx & EC & K2) & m3 & (K3 & _) & (f & Hf & K4)).
  cbn [filter map all_of] in K1. unfold nothing in K1. subst m1. unfold entries_for in EC. cbn [filter] in EC. inversion EC; subst ctx. unfold nothing in K2. subst m2.
  cbn [view fst] in K3. apply (put_version _ _ _ HW HN) in K3.
  assert (positions_where f (fst m3) = []) as PW.
  { destruct (positions_where f (fst m3)) as [|p l] eqn:Q; [reflexivity|]. exfalso.
    assert (In p (positions_where f (fst m3))) as I by (rewrite Q; left; reflexivity). apply positions_where_In in I as (n & A & B).
    apply Hf in B as (B1 & B2). rewrite K3 in A. exact (version_no_expressions _ HX p n A B1 B2). }
  rewrite PW in K4. cbn [map] in K4. change (first_occurrences []) with (@nil str) in K4.
  destruct (t_order T []) as [|x l] eqn:Q; [|exfalso; apply (HO [] x); rewrite Q; left; reflexivity].
  cbn [map all_of] in K4. unfold nothing in K4. subst m3. cbn [view fst] in K3. rewrite <- K3.
  apply H3; rewrite K3; [apply version_nothing; exact N|apply version_fine; exact F].
Qed.

(** * Checking the hypotheses *)
Definition is_called (s : str) (n : node) : bool := val_is (n_value n) s.
Lemma is_called_iff s n : called s n -> is_called s n = true.
Proof. unfold called, is_called. intros ->. cbn [val_is]. apply str_eqb_eq. reflexivity. Qed.
Definition has_top (s : str) (root : node) : bool := existsb (is_called s) (n_children root).
Definition has_section_line (s c : str) (root : node) : bool := existsb (fun a => is_called s a && existsb (is_called c) (n_children a)) (n_children root).
Definition has_source_line (c : str) (root : node) : bool :=
  has_section_line $"source" c root
  || existsb (fun a => is_called $"source" a && existsb (fun e => existsb (is_called c) (n_children e)) (n_children a)) (n_children root).
Definition nothing_old_check (root : node) : bool :=
  forallb (fun s => negb (has_top s root)) old_sections
  && forallb (fun p => negb (has_section_line (fst p) (snd p) root)) old_fields
  && forallb (fun c => negb (has_source_line c root)) old_source_fields.
Lemma has_top_iff s root : top_line s root -> has_top s root = true.
Proof. intros (a & I & K). apply existsb_exists. exists a. split; [exact I|apply is_called_iff; exact K]. Qed.
Lemma has_section_line_iff s c root : section_line s c root -> has_section_line s c root = true.
Proof.
  intros (a & b & I & K & J & L). apply existsb_exists. exists a. split; [exact I|]. rewrite (is_called_iff _ _ K). apply existsb_exists. exists b.
  split; [exact J|apply is_called_iff; exact L].
Qed.
Lemma nothing_old_checked root : nothing_old_check root = true -> nothing_old root.
Proof.
  unfold nothing_old_check. rewrite !andb_true_iff, !forallb_forall. intros ((A & B) & C). split; [|split].
  - intros s I H. apply has_top_iff in H. specialize (A s I). rewrite H in A. discriminate.
  - intros s c I H. apply has_section_line_iff in H. specialize (B (s, c) I). cbn [fst snd] in B. rewrite H in B. discriminate.
  - intros c I H. specialize (C c I). assert (has_source_line c root = true) as X; [|rewrite X in C; discriminate].
    unfold has_source_line. destruct H as [H|(a & e & b & I1 & K & I2 & _ & I3 & L)]; [rewrite (has_section_line_iff _ _ _ H); reflexivity|].
    apply orb_true_iff. right. apply existsb_exists. exists a. split; [exact I1|]. rewrite (is_called_iff _ _ K). apply existsb_exists. exists e.
    split; [exact I2|]. apply existsb_exists. exists b. split; [exact I3|apply is_called_iff; exact L].
Qed.
Definition no_expressions_check (root : node) : bool :=
  forallb (fun p => match node_at root p with Some n => negb (found JINJA_V0_SUB (searched_text false n)) | None => true end) (preorder root).
Lemma no_expressions_checked root : no_expressions_check root = true -> no_expressions root.
Proof.
  intros H p n A _ X. apply v0_expression in X. unfold no_expressions_check in H. rewrite forallb_forall in H.
  specialize (H p (node_at_preorder _ _ _ A)). rewrite A, X in H. discriminate.
Qed.
