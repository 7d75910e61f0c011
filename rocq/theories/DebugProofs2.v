(** C130, continued: the whole text for debugging and the text of one node (proofs only). *)
From Verif Require Import Lemmas PathProofs DepsProofs2 DebugProofs DebugSpec.
Require Import Lia.

(** * The text of one node *)
Lemma last_line (u u' t t' : str) : ~ In cNL t -> ~ In cNL t' -> u ++ cNL :: t = u' ++ cNL :: t' -> u = u' /\ t = t'.
Proof.
  revert u'. induction u as [|a u IH]; intros [|a' u'] N N' H; cbn [app] in H.
  - injection H as H. auto.
  - injection H as <- H. exfalso. apply N. rewrite H. apply in_or_app. right. left. reflexivity.
  - injection H as -> H. exfalso. apply N'. rewrite <- H. apply in_or_app. right. left. reflexivity.
  - injection H as <- H. apply IH in H as (-> & ->); auto.
Qed.
Lemma code_is c k : (code c =? k) = true -> c = ascii_of_nat k.
Proof. intros H. apply Nat.eqb_eq in H. subst k. symmetry. apply ascii_nat_embedding. Qed.
Lemma repr_char_cases q c : (repr_char q c = [cBS; c] /\ (c = q \/ c = cBS)) \/ (repr_char q c = [cBS; "n"%char] /\ c = cNL)
  \/ (repr_char q c = [cBS; "t"%char] /\ c = ascii_of_nat 9) \/ (repr_char q c = [cBS; "r"%char] /\ c = ascii_of_nat 13) \/ (repr_char q c = [c] /\ c <> cBS /\ c <> cNL).
Proof.
  unfold repr_char. destruct (ceq c q || ceq c cBS) eqn:A.
  - left. split; [reflexivity|]. apply orb_true_iff in A as [A|A]; [left|right]; apply Ascii.eqb_eq; exact A.
  - apply orb_false_iff in A as (_ & A). destruct (code c =? 10) eqn:B; [right; left; split; [reflexivity|apply code_is; exact B]|].
    destruct (code c =? 9) eqn:C; [right; right; left; split; [reflexivity|apply code_is; exact C]|].
    destruct (code c =? 13) eqn:D; [right; right; right; left; split; [reflexivity|apply code_is; exact D]|].
    right; right; right; right. split; [reflexivity|]. split; intros ->; [discriminate A|discriminate B].
Qed.
Fixpoint unescape (s : str) : str :=
  match s with
  | [] => []
  | c :: s' => if ceq c cBS then match s' with
                                 | [] => []
                                 | x :: r => (if ceq x "n" then cNL else if ceq x "t" then ascii_of_nat 9 else if ceq x "r" then ascii_of_nat 13 else x) :: unescape r
                                 end
               else c :: unescape s'
  end.
Lemma unescape_repr q s : q = cSQ \/ q = cDQ -> unescape (flat_map (repr_char q) s) = s.
Proof.
  intros Q. induction s as [|c s IH]; [reflexivity|]. cbn [flat_map].
  destruct (repr_char_cases q c) as [(-> & K)|[(-> & ->)|[(-> & ->)|[(-> & ->)|(-> & B & _)]]]]; cbn [app unescape].
  - change (ceq cBS cBS) with true. cbv iota. rewrite IH. destruct K as [->| ->]; [destruct Q as [->| ->]|]; reflexivity.
  - change (ceq cBS cBS) with true. cbv iota. rewrite IH. reflexivity.
  - change (ceq cBS cBS) with true. cbv iota. rewrite IH. reflexivity.
  - change (ceq cBS cBS) with true. cbv iota. rewrite IH. reflexivity.
  - destruct (ceq c cBS) eqn:X; [apply Ascii.eqb_eq in X; contradiction|]. rewrite IH. reflexivity.
Qed.
Lemma repr_quote s : exists q, (q = cSQ \/ q = cDQ) /\ repr_str s = q :: flat_map (repr_char q) s ++ [q].
Proof. unfold repr_str. cbv zeta. destruct (existsb _ s && _); [exists cDQ|exists cSQ]; auto. Qed.
Lemma repr_inj s t : repr_str s = repr_str t -> s = t.
Proof.
  destruct (repr_quote s) as (q & Q & ->), (repr_quote t) as (q' & Q' & ->). intros H. injection H as <- H. apply app_inv_tail in H.
  rewrite <- (unescape_repr q s Q), H. apply unescape_repr. exact Q.
Qed.
Lemma repr_one_line s : ~ In cNL (repr_str s).
Proof.
  destruct (repr_quote s) as (q & Q & ->). assert (q <> cNL) as NQ by (destruct Q as [->| ->]; discriminate).
  intros [H|H]; [contradiction|]. apply in_app_or in H as [H|[H|[]]]; [|contradiction]. apply in_flat_map in H as (c & _ & H).
  destruct (repr_char_cases q c) as [(E & K)|[(E & K)|[(E & K)|[(E & K)|(E & B & N)]]]]; rewrite E in H; cbn [In] in H.
  - destruct H as [H|[H|[]]]; [discriminate|]. subst c. destruct K as [K|K]; [congruence|discriminate].
  - destruct H as [H|[H|[]]]; discriminate.
  - destruct H as [H|[H|[]]]; discriminate.
  - destruct H as [H|[H|[]]]; discriminate.
  - destruct H as [H|[]]; contradiction.
Qed.
Lemma number_one_line n : ~ In cNL (str_of_nat n).
Proof.
  pose proof (str_of_nat_spec n) as (D & _ & _). unfold isdigit in D. destruct (str_of_nat n) as [|c s]; [intros []|]. rewrite forallb_forall in D. intros H. specialize (D _ H). discriminate.
Qed.
Lemma described E n : exists t, described_as E n t /\
  node_str E n = text_of_lines [$"Node: " ++ t; $"  - Comment:      " ++ repr_str (n_comment n); $"  - Child count:  " ++ str_of_nat (length (n_children n));
    $"  - List?:        " ++ yes_no (n_lmf n); $"  - Multiline?:   " ++ mlv_str (n_ml n); $"  - Key?:         " ++ yes_no (n_keyf n)].
Proof.
  assert (forall t, (let value := if is_comment n then $"Comment node" else nval_str E (n_value n) in if is_collection n then $"Collection node" else value) = t ->
    node_str E n = text_of_lines [$"Node: " ++ t; $"  - Comment:      " ++ repr_str (n_comment n); $"  - Child count:  " ++ str_of_nat (length (n_children n));
    $"  - List?:        " ++ yes_no (n_lmf n); $"  - Multiline?:   " ++ mlv_str (n_ml n); $"  - Key?:         " ++ yes_no (n_keyf n)]) as X.
  { intros t <-. unfold node_str, text_of_lines, NLs. cbv zeta. cbn [flat_map]. rewrite app_nil_r. rewrite <- !app_assoc. reflexivity. }
  eexists. split; [|apply X; reflexivity]. cbv zeta. destruct (is_comment n) eqn:C.
  - unfold is_comment in C. rewrite !andb_true_iff, negb_true_iff in C. destruct C as ((A & B) & D).
    assert (is_collection n = false) as -> by (unfold is_collection; destruct (n_children n); [cbn [is_nil negb]; rewrite andb_false_r; reflexivity|discriminate]).
    apply described_comment. split; [destruct (n_value n); [reflexivity|discriminate]|]. split; [destruct (n_comment n); discriminate|destruct (n_children n); [reflexivity|discriminate]].
  - destruct (is_collection n) eqn:K.
    + unfold is_collection in K. rewrite !andb_true_iff, negb_true_iff in K. destruct K as ((A & B) & D).
      apply described_element; [destruct (n_value n); [reflexivity|discriminate]|exact B|destruct (n_children n); discriminate].
    + destruct (n_value n) as [|j] eqn:V; cbn [nval_str]; [|apply described_value; exact V]. apply described_nothing; [exact V| |].
      * intros (_ & A & B). unfold is_comment in C. rewrite V, B in C. destruct (n_comment n); [contradiction|discriminate].
      * unfold is_collection in K. rewrite V in K. cbn [is_sent andb] in K. destruct (n_lmf n); [right|left; reflexivity]. destruct (n_children n); [reflexivity|discriminate].
Qed.
Lemma yes_no_inj a b : yes_no a = yes_no b -> a = b.
Proof. destruct a, b; intros H; try reflexivity; discriminate. Qed.
Lemma mlv_inj a b : mlv_str a = mlv_str b -> a = b.
Proof. destruct a, b; intros H; try reflexivity; discriminate. Qed.
Lemma in_lit_app t s : (forall c, In c t -> c <> cNL) -> ~ In cNL s -> ~ In cNL (t ++ s).
Proof. intros A B H. apply in_app_or in H as [H|H]; [exact (A _ H eq_refl)|contradiction]. Qed.
Ltac no_nl := let c := fresh in let H := fresh in intros c H; vm_compute in H; repeat (destruct H as [<-|H]; [discriminate|]); contradiction.
Lemma six_lines (t t' A A' B B' C C' D D' K K' : str) : ~ In cNL A -> ~ In cNL A' -> ~ In cNL B -> ~ In cNL B' -> ~ In cNL C -> ~ In cNL C' -> ~ In cNL D -> ~ In cNL D' -> ~ In cNL K -> ~ In cNL K' ->
  text_of_lines [t; A; B; C; D; K] = text_of_lines [t'; A'; B'; C'; D'; K'] -> t = t' /\ A = A' /\ B = B' /\ C = C' /\ D = D' /\ K = K'.
Proof.
  assert (forall t A B C D K : str, text_of_lines [t; A; B; C; D; K] = (((((t ++ cNL :: A) ++ cNL :: B) ++ cNL :: C) ++ cNL :: D) ++ cNL :: K) ++ [cNL]) as X.
  { intros. unfold text_of_lines. cbn [flat_map]. rewrite app_nil_r. repeat (progress (cbn [app]; rewrite <- ?app_assoc)). reflexivity. }
  rewrite !X. intros a a' b b' c c' d d' k k' H. apply app_inj_tail in H as (H & _).
  apply last_line in H as (H & ->); [|assumption..]. apply last_line in H as (H & ->); [|assumption..]. apply last_line in H as (H & ->); [|assumption..].
  apply last_line in H as (H & ->); [|assumption..]. apply last_line in H as (H & ->); [|assumption..]. auto 10.
Qed.
Lemma c130_node_same E a b : node_str E a = node_str E b ->
  n_comment a = n_comment b /\ length (n_children a) = length (n_children b) /\ n_lmf a = n_lmf b /\ n_ml a = n_ml b /\ n_keyf a = n_keyf b
  /\ exists t, described_as E a t /\ described_as E b t.
Proof.
  destruct (described E a) as (t & D & ->), (described E b) as (t' & D' & ->).
  assert (forall k, ~ In cNL (yes_no k)) as YN by (intros [] H; vm_compute in H; repeat (destruct H as [H|H]; [discriminate|]); contradiction).
  assert (forall k, ~ In cNL ($"  - Key?:         " ++ yes_no k)) as N5 by (intros k; apply in_lit_app; [no_nl|apply YN]).
  assert (forall k, ~ In cNL ($"  - Multiline?:   " ++ mlv_str k)) as N4 by (intros k; apply in_lit_app; [no_nl|destruct k; intros H; vm_compute in H; repeat (destruct H as [H|H]; [discriminate|]); contradiction]).
  assert (forall k, ~ In cNL ($"  - List?:        " ++ yes_no k)) as N3 by (intros k; apply in_lit_app; [no_nl|apply YN]).
  assert (forall k, ~ In cNL ($"  - Child count:  " ++ str_of_nat k)) as N2 by (intros k; apply in_lit_app; [no_nl|apply number_one_line]).
  assert (forall k, ~ In cNL ($"  - Comment:      " ++ repr_str k)) as N1 by (intros k; apply in_lit_app; [no_nl|apply repr_one_line]).
  intros H. apply six_lines in H as (H0 & H1 & H2 & H3 & H4 & H5); auto.
  apply app_inv_head in H0, H1, H2, H3, H4, H5. split; [apply repr_inj; exact H1|]. split; [apply number_inj; exact H2|]. split; [apply yes_no_inj; exact H3|].
  split; [apply mlv_inj; exact H4|]. split; [apply yes_no_inj; exact H5|]. subst t'. exists t. auto.
Qed.
(** * The whole text *)
Lemma selectors_lines E tbl : exists ls, selector_lines E tbl ls /\ selectors_text E tbl = text_of_lines ls.
Proof.
  induction tbl as [|(sel & infos) tbl (ls & F & H)]; [exists []; split; [constructor|reflexivity]|].
  assert (exists l, Forall2 (fun info l => exists t, called_as E (fst info) t /\ l = $"    - " ++ t ++ $" -> " ++ stack_path_to_str (snd info)) infos l
    /\ concat (map (fun info => TAB ++ TAB ++ $"- " ++ selector_info_str E info ++ NLs) infos) = text_of_lines l) as (l & FL & HL).
  { clear. induction infos as [|info infos (l & F & H)]; [exists []; split; [constructor|reflexivity]|].
    exists (($"    - " ++ short_str E (fst info) ++ $" -> " ++ stack_path_to_str (snd info)) :: l). split; [constructor; [|exact F]; eexists; split; [apply short_called|reflexivity]|].
    cbn [map concat]. rewrite H. unfold text_of_lines. cbn [flat_map]. unfold selector_info_str, NLs. rewrite <- !app_assoc. reflexivity. }
  exists (($"  " ++ sel) :: l ++ ls). split; [constructor; assumption|].
  unfold selectors_text in *. cbn [map concat fst snd]. rewrite H, HL. unfold text_of_lines. cbn [flat_map]. rewrite flat_map_app, <- !app_assoc. reflexivity.
Qed.
Lemma joined_lines (l : list str) : l <> [] -> join NLs l ++ NLs = text_of_lines l.
Proof.
  induction l as [|x l IH]; intros N; [contradiction|]. destruct l as [|y l]; [unfold text_of_lines; cbn [flat_map join]; rewrite app_nil_r; reflexivity|].
  rewrite join_cons by discriminate. unfold text_of_lines in *. cbn [flat_map] in *. rewrite <- app_assoc, <- app_assoc, IH by discriminate. rewrite <- !app_assoc. reflexivity.
Qed.
Lemma c130_text E name r : exists sel, selector_lines E (r_sel r) sel /\
  recipe_str E name r = text_of_lines ([$"--------------------"; name ++ $" Instance"; $"- Schema Version: " ++ match r_schema r with SV0 => $"0" | SV1 => $"1" end;
    $"- Variables Table:"; json_dumps 0 (JDict (map (fun kv => (PStr (fst kv), snd kv)) (r_vars r))); $"- Selectors Table:"]
    ++ sel ++ [$"- is_modified?: " ++ yes_no (r_mod r); $"- Tree:"] ++ str_tree_recurse E (r_root r) 0 ++ [$"--------------------"]).
Proof.
  destruct (selectors_lines E (r_sel r)) as (sel & F & H). exists sel. split; [exact F|]. unfold recipe_str. cbv zeta. rewrite H.
  assert (join NLs (str_tree_recurse E (r_root r) 0) ++ NLs = text_of_lines (str_tree_recurse E (r_root r) 0)) as T by (apply joined_lines; rewrite tree_unfold; discriminate).
  rewrite (app_assoc (join NLs _)), T. unfold text_of_lines. rewrite !flat_map_app. cbn [flat_map]. rewrite !app_nil_r, <- !app_assoc. reflexivity.
Qed.
