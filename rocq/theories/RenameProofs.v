(** C134 (proofs only). *)
From Verif Require Export AboutProofs2 RenameSpec.
From Verif Require Import Lemmas FrameProofs FrameProofs2 PatchProofs PatchProofs2 PatchProofs3 PathProofs PathProofs2 RenderProofs RenderProofs2 SectionProofs SectionProofs2
  ContextProofs KeepProofs KeepProofs2 PlainProofs GoesProofs ConvertSpec PlainSpec VarsSpec AboutProofs AboutProofs2 RenameSpec.

(** * A section of a tree *)
Section Sec.
Context (sec : str) (sec_c : component sec) (sec_d : isdigit sec = false) (root a : node) (before after : list node).
Context (a_called : called sec a) (a_first : forall x, In x before -> ~ called sec x) (a_lmf : n_lmf a = false) (a_key : n_keyf a = true).
Definition with_sec (l : list node) : node := with_lines root (before ++ with_lines a l :: after).
Lemma sec_children l : n_children (with_sec l) = before ++ with_lines a l :: after.
Proof. unfold with_sec. apply with_lines_children. Qed.
Lemma sec_step l : step_child (with_sec l) sec = Some (length before, with_lines a l).
Proof.
  unfold step_child. rewrite sec_d. cbv iota. rewrite sec_children. rewrite (find_first sec before (with_lines a l) after); [reflexivity| |exact a_first].
  unfold called in *. destruct a. exact a_called.
Qed.
Lemma sec_at l : node_at (with_sec l) [length before] = Some (with_lines a l).
Proof. cbn [node_at]. rewrite sec_children, nth_error_app2, Nat.sub_diag by lia. reflexivity. Qed.
Lemma sec_here l : traverse_pos (with_sec l) (rev [sec] ++ [ROOT_VALUE]) = Some [length before].
Proof. rewrite traverse_pos_components. cbn [traverse_recurse]. rewrite sec_step. reflexivity. Qed.
Lemma sec_stack : str_to_stack_path (path_text [sec]) = Ok (rev [sec] ++ [ROOT_VALUE]) /\ str_to_stack_path (path_text [sec] ++ [cSL]) = Ok (rev [sec] ++ [ROOT_VALUE]).
Proof. split; [exact (proj1 (stack_snoc [] sec (Forall_cons _ sec_c (Forall_nil _))))|apply stack_of_path_slash; exact (Forall_cons _ sec_c (Forall_nil _))]. Qed.
Lemma sec_addressed l : addresses (with_sec l) (path_text [sec] ++ [cSL]) [length before].
Proof. exists (rev [sec] ++ [ROOT_VALUE]). split; [apply sec_stack|apply sec_here]. Qed.
Lemma sec_contains l : contains_value (with_sec l) (path_text [sec]) = Ok true.
Proof. unfold contains_value. rewrite (proj1 sec_stack). cbn [bind]. unfold traverse. rewrite sec_here, sec_at. reflexivity. Qed.
Lemma sec_traverse c l : isdigit c = false -> traverse_recurse (with_sec l) [sec; c] = option_map (fun jn => [length before; fst jn]) (find_child c 0 l).
Proof.
  intros D. cbn [traverse_recurse]. rewrite sec_step. unfold step_child. rewrite D, with_lines_children. destruct (find_child c 0 l) as [[j x]|]; reflexivity.
Qed.
Lemma sec_components c : component c -> Forall component [sec; c].
Proof. intros C. apply Forall_cons; [exact sec_c|exact (Forall_cons _ C (Forall_nil _))]. Qed.
Lemma sec_found c l : component c -> isdigit c = false -> traverse (with_sec l) (rev [sec; c] ++ [ROOT_VALUE]) = first_named c l.
Proof.
  intros C D. unfold traverse. rewrite traverse_pos_components, (sec_traverse c l D). unfold first_named. destruct (find_child c 0 l) as [[j x]|] eqn:F; [|reflexivity].
  cbn [option_map fst snd]. change [length before; j] with ([length before] ++ [j]). rewrite node_at_app, sec_at. cbn [node_at]. rewrite with_lines_children.
  apply find_child_hit in F as (_ & H & _). rewrite Nat.sub_0_r in H. rewrite H. reflexivity.
Qed.
Lemma sec_has c l : component c -> isdigit c = false ->
  contains_value (with_sec l) (path_text [sec; c]) = Ok (match first_named c l with Some _ => true | None => false end).
Proof.
  intros C D. destruct (stack_snoc [sec] c (sec_components c C)) as (HS & _). unfold contains_value. cbn [app] in HS. rewrite HS. cbn [bind].
  change (c :: rev [sec] ++ [ROOT_VALUE]) with (rev [sec; c] ++ [ROOT_VALUE]). rewrite (sec_found c l C D). reflexivity.
Qed.
Lemma sec_get E c l d : component c -> isdigit c = false ->
  get_value E (with_sec l) (path_text [sec; c]) d None
  = match first_named c l with Some n => get_value_node E n None | None => match d with Some v => Ok v | None => Err EKey end end.
Proof.
  intros C D. destruct (stack_snoc [sec] c (sec_components c C)) as (HS & _). unfold get_value. cbn [app] in HS. rewrite HS. cbn [bind].
  change (c :: rev [sec] ++ [ROOT_VALUE]) with (rev [sec; c] ++ [ROOT_VALUE]). rewrite (sec_found c l C D). destruct (first_named c l); [reflexivity|]. destruct d; reflexivity.
Qed.
Lemma sec_proper_parts l : proper_tree (with_sec l) = true <->
  (match n_value root with VSent => true | VJ j => proper_value j end = true /\ forallb proper_tree before = true /\ forallb proper_tree after = true
   /\ match n_value a with VSent => true | VJ j => proper_value j end = true) /\ forallb proper_tree l = true.
Proof.
  clear. unfold with_sec. destruct root as [v c chs m u k], a as [v2 c2 chs2 m2 u2 k2]. cbn [with_lines proper_tree n_value].
  rewrite andb_true_iff, forallb_app, andb_true_iff. cbn [forallb with_lines proper_tree]. rewrite !andb_true_iff. tauto.
Qed.
Lemma sec_proper l l' : proper_tree (with_sec l) = true -> forallb proper_tree l' = true -> proper_tree (with_sec l') = true.
Proof. rewrite !sec_proper_parts. tauto. Qed.
Lemma sec_proper_lines l : proper_tree (with_sec l) = true -> forallb proper_tree l = true.
Proof. rewrite sec_proper_parts. tauto. Qed.
Lemma changed_sec (R : node -> node -> Prop) l root' : changed_at R [length before] (with_sec l) root' ->
  exists x, R (with_lines a l) x /\ root' = with_lines root (before ++ x :: after).
Proof.
  intros H. inversion H as [|n b0 c c' a0 p HC K HL HR]; subst. rewrite sec_children in HC.
  assert (b0 = before /\ c = with_lines a l /\ a0 = after) as (-> & -> & ->).
  { clear - HC HL. rename HL into HL'. assert (length b0 = length before) as HL by congruence. clear HL'. revert b0 HC HL. generalize before as b1. induction b1 as [|y b1 IH]; intros [|z b0] HC HL; cbn [app length] in *; try discriminate.
    - injection HC as -> ->. auto.
    - injection HC as -> HC. injection HL as HL. destruct (IH _ HC HL) as (-> & -> & ->). auto. }
  inversion K as [x y R0|]; subst. exists c'. split; [exact R0|]. unfold with_sec. destruct root; reflexivity.
Qed.

(** ** One line is removed *)
Lemma remove_line E r l1 x l2 c : component c -> isdigit c = false -> r_root r = with_sec (l1 ++ x :: l2) -> proper_tree (r_root r) = true ->
  called c x -> (forall y, In y l1 -> ~ called c y) -> bare_value x = false ->
  exists r', patch E (p_remove (path_text [sec; c])) r = (Ok true, r') /\ r_root r' = with_sec (l1 ++ l2).
Proof.
  intros C D HR HP HC HF HB. set (p := p_remove (path_text [sec; c])). assert (asks p (RRemove (path_text [sec; c]))) as Q by (apply asks_remove; discriminate).
  assert (addresses (r_root r) (path_text [sec; c]) ([length before] ++ [length l1])) as A.
  { destruct (stack_snoc [sec] c (sec_components c C)) as (HS & _). cbn [app] in HS. apply (addresses_stack _ _ _ _ HS).
    change (c :: rev [sec] ++ [ROOT_VALUE]) with (rev [sec; c] ++ [ROOT_VALUE]). rewrite traverse_pos_components, HR, (sec_traverse c _ D), (find_first c l1 x l2 HC HF). reflexivity. }
  assert (node_at (r_root r) ([length before] ++ [length l1]) = Some x) as AN.
  { rewrite node_at_app, HR, sec_at. cbn [node_at]. rewrite with_lines_children, nth_error_app2, Nat.sub_diag by lia. reflexivity. }
  destruct (c12_when E p [sec; c] r HP Q (sec_components c C)) as (_ & W). assert (fst (patch E p r) = Ok true) as OKp by (apply W; exists [length before], (length l1), x; auto).
  destruct (patch E p r) as [o r'] eqn:P. cbn [fst] in OKp. subst o. exists r'. split; [reflexivity|].
  destruct (c12_success E p _ r r' HP Q P) as (q & i & A' & K & _).
  assert (q ++ [i] = [length before] ++ [length l1]) as QI.
  { destruct A as (st & S1 & S2), A' as (st' & S3 & S4). congruence. }
  apply app_inj_tail in QI as (-> & ->). rewrite HR in K. apply changed_sec in K as (y & L & ->). unfold with_sec. f_equal. f_equal. f_equal.
  destruct L as (ys & z & zs & L1 & L2 & L3). rewrite with_lines_children in L1.
  assert (ys = l1 /\ zs = l2) as (-> & ->).
  { revert L1 L2. clear. revert l1. induction ys as [|t ys IH]; intros [|w l1] H L; cbn [app length] in *; try discriminate.
    - injection H as -> ->. auto.
    - injection H as -> H. injection L as L. destruct (IH _ H L) as (-> & ->). auto. }
  rewrite L3. destruct a; reflexivity.
Qed.
(** ** A line is added, and a line is renamed *)
Lemma add_line E r l d v y : component d -> isdigit d = false -> d <> $"-" -> r_root r = with_sec l -> (forall z, In z l -> ~ called d z) ->
  written_as E (JDict [(PStr d, v)]) [y] ->
  exists r', patch E (p_add (path_text [sec; d]) v) r = (Ok true, r') /\ r_root r' = with_sec (l ++ [y]).
Proof.
  intros C D ND HR HN W.
  destruct (c14_new_key E (p_add (path_text ([sec] ++ [d])) v) [sec] d v r [length before] (with_lines a l) [y]) as (r' & P & _ & K).
  - apply asks_add. discriminate.
  - exact (sec_components d C).
  - exact D.
  - exact ND.
  - rewrite HR. apply sec_addressed.
  - rewrite HR. apply sec_at.
  - unfold bare_value. destruct a; cbn [with_lines n_keyf] in *. rewrite a_key. apply andb_false_r.
  - left. destruct a. exact a_lmf.
  - intros z I X. rewrite with_lines_children in I. exact (HN z I X).
  - exact W.
  - exists r'. split; [exact P|]. rewrite HR in K. apply changed_sec in K as (z & L & ->). unfold with_sec. f_equal. f_equal. f_equal.
    unfold lines_appended in L. rewrite with_lines_children in L. rewrite L. destruct a; reflexivity.
Qed.
Lemma move_line E r l1 x l2 c d v y : component c -> isdigit c = false -> component d -> isdigit d = false -> d <> $"-" -> c <> d ->
  r_root r = with_sec (l1 ++ x :: l2) -> proper_tree (r_root r) = true -> called c x -> (forall z, In z l1 -> ~ called c z) -> bare_value x = false ->
  get_value_node E x None = Ok v -> written_as E (JDict [(PStr d, v)]) [y] -> (forall z, In z (l1 ++ x :: l2) -> ~ called d z) ->
  exists r', patch E (p_move (path_text [sec; c]) (path_text [sec; d])) r = (Ok true, r') /\ r_root r' = with_sec ((l1 ++ l2) ++ [y]).
Proof.
  intros C1 D1 C2 D2 ND NE HR HP HC HF HB V W HN.
  destruct (remove_line E r l1 x l2 c C1 D1 HR HP HC HF HB) as (r1 & R & HR1).
  destruct (add_line E r _ d v y C2 D2 ND HR HN W) as (r2 & A & _).
  destruct (add_line E r1 _ d v y C2 D2 ND HR1) as (r3 & B & HR3); [|exact W|].
  { intros z I. apply HN. apply in_app_or in I as [I|I]; apply in_or_app; [left|right; right]; exact I. }
  destruct (move_works E (path_text [sec; c]) (path_text [sec; d]) v r r1 r2 r3) as (r'' & M & HM).
  - unfold path_text. cbn [map concat]. rewrite !app_nil_r. intros H. injection H as H. apply app_inv_head in H. injection H as H. contradiction.
  - discriminate.
  - discriminate.
  - rewrite HR, (sec_get E c _ None C1 D1), (first_is c l1 x l2 HC HF). exact V.
  - exact A.
  - exact R.
  - exact B.
  - exists r''. split; [exact M|]. rewrite HM. exact HR3.
Qed.

(** ** The steps of the conversion *)
Context (T : tools).
Let E := t_env T.
Lemma move_step s l c d e1 e2 ls : two_names c d = true -> append_to_path (path_text [sec]) e1 = path_text [sec; c] -> append_to_path (path_text [sec]) e2 = path_text [sec; d] ->
  r_root (v1 s) = with_sec l -> proper_tree (r_root (v1 s)) = true -> once c l -> (forall z, In z l -> ~ called d z) -> line_for T l (c, d) ls ->
  exists s', patch_move_base_path T (path_text [sec]) e1 e2 s = (Ok tt, s') /\ msgs s' = msgs s /\ r_root (v1 s') = with_sec (taken c l ++ ls) /\ proper_tree (r_root (v1 s')) = true.
Proof.
  intros H2 P1 P2 HR HP HO HN HL. unfold two_names in H2. rewrite !andb_true_iff, !negb_true_iff in H2. destruct H2 as (((N1 & N2) & N3) & N4).
  apply plain_name_is in N1 as (C1 & D1). apply plain_name_is in N2 as (C2 & D2). apply str_eqb_neq in N3. apply str_eqb_neq in N4.
  unfold patch_move_base_path. cbv zeta. rewrite P1, P2. unfold andthen at 1, has, ask. cbv beta. rewrite HR. rewrite (sec_has c l C1 D1).
  destruct HL as [(F & ->)|(n & v & x & F & V & W & CX & PX & ->)]; cbn [fst snd] in *; rewrite F; cbv beta iota.
  - exists s. split; [reflexivity|]. split; [reflexivity|]. rewrite app_nil_r, (taken_none c l (first_absent c l F)). split; [exact HR|exact HP].
  - destruct (first_split c l n F) as (l1 & l2 & -> & CN & FN). destruct (once_split c l1 n l2 HO CN) as (B & TK). rewrite TK in *.
    destruct (move_line E (v1 s) l1 n l2 c d v x C1 D1 C2 D2 N3 N4 HR HP CN FN B V W HN) as (r' & M & HM).
    exists {| v1 := r'; msgs := msgs s |}. unfold andthen at 1. rewrite (patch_logged T _ s r' M). unfold ret. cbn [v1 msgs].
    split; [reflexivity|]. split; [reflexivity|]. split; [exact HM|]. rewrite HM. rewrite HR in HP. eapply sec_proper; [exact HP|].
    apply sec_proper_lines in HP. rewrite forallb_app in HP |- *. cbn [forallb] in *. rewrite !andb_true_iff in HP. rewrite forallb_app, PX. rewrite !andb_true_iff. tauto.
Qed.
Lemma drop_step s l c : plain_name c = true -> append_to_path (path_text [sec]) c = path_text [sec; c] ->
  r_root (v1 s) = with_sec l -> proper_tree (r_root (v1 s)) = true -> once c l ->
  exists s', (let path := append_to_path (path_text [sec]) c in
    run! there := has path in
    if there : bool then
      run! ok := patch_and_log T (p_remove path) in
      when ok (say WARNING ($"Field at `" ++ path ++ $"` is no longer supported."))
    else ret tt) s = (Ok tt, s')
  /\ get_messages ERROR (msgs s') = get_messages ERROR (msgs s)
  /\ get_messages WARNING (msgs s') = get_messages WARNING (msgs s) ++ (match first_named c l with Some _ => [unsupported_field [sec; c]] | None => [] end)
  /\ r_root (v1 s') = with_sec (taken c l) /\ proper_tree (r_root (v1 s')) = true.
Proof.
  intros N1 P1 HR HP HO. apply plain_name_is in N1 as (C1 & D1). cbv zeta. rewrite P1. unfold andthen at 1, has, ask. cbv beta. rewrite HR. rewrite (sec_has c l C1 D1).
  destruct (first_named c l) as [n|] eqn:F; cbv beta iota.
  - destruct (first_split c l n F) as (l1 & l2 & -> & CN & FN). destruct (once_split c l1 n l2 HO CN) as (B & TK). rewrite TK in *.
    destruct (remove_line E (v1 s) l1 n l2 c C1 D1 HR HP CN FN B) as (r' & M & HM).
    unfold andthen at 1. rewrite (patch_logged T _ s r' M). cbn [when]. unfold say. cbn [v1 msgs].
    eexists. split; [reflexivity|]. cbn [v1 msgs]. rewrite (add_one_more WARNING _ (msgs s) ERROR), (add_one_more WARNING _ (msgs s) WARNING).
    split; [reflexivity|]. split; [reflexivity|]. split; [exact HM|]. rewrite HM. rewrite HR in HP. eapply sec_proper; [exact HP|].
    apply sec_proper_lines in HP. rewrite forallb_app in HP |- *. cbn [forallb] in *. rewrite !andb_true_iff in HP. rewrite !andb_true_iff. tauto.
  - exists s. split; [reflexivity|]. split; [reflexivity|]. rewrite app_nil_r. split; [reflexivity|]. rewrite (taken_none c l (first_absent c l F)). split; [exact HR|exact HP].
Qed.
(** ** All names of the section *)
Definition run_moves (es : list (str * str)) (k : conv unit) : conv unit :=
  fold_right (fun e k => do! patch_move_base_path T (path_text [sec]) (fst e) (snd e) in k) k es.
Definition ext_for (e cd : str * str) : Prop :=
  append_to_path (path_text [sec]) (fst e) = path_text [sec; fst cd] /\ append_to_path (path_text [sec]) (snd e) = path_text [sec; snd cd].
Lemma moves_go es moves : Forall2 ext_for es moves -> NoDup (map fst moves ++ map snd moves) -> forallb (fun cd => two_names (fst cd) (snd cd)) moves = true ->
  forall l s lines, (forall c, In c (map fst moves) -> once c l) -> (forall d z, In d (map snd moves) -> In z l -> ~ called d z) ->
  Forall2 (line_for T l) moves lines -> r_root (v1 s) = with_sec l -> proper_tree (r_root (v1 s)) = true ->
  exists s', (forall k, run_moves es k s = k s') /\ msgs s' = msgs s /\ r_root (v1 s') = with_sec (taken_all (map fst moves) l ++ concat lines)
  /\ proper_tree (r_root (v1 s')) = true.
Proof.
  induction 1 as [|e (c & d) es moves (X1 & X2) HX IH]; intros ND TN l s lines HO HN HL HR HP.
  - inversion HL; subst. exists s. split; [reflexivity|]. split; [reflexivity|]. cbn [map taken_all fold_left concat]. rewrite app_nil_r. split; [exact HR|exact HP].
  - inversion HL as [|? n1 ? ns K HL']; subst. cbn [map fst snd forallb] in *. apply andb_prop in TN as (TN1 & TN). cbn [app] in ND. inversion ND as [|? ? NI ND']; subst.
    assert (c <> d /\ ~ In c (map fst moves) /\ ~ In c (map snd moves)) as (N1 & N2 & N3).
    { repeat split; intros I; apply NI; apply in_or_app; [right; left; congruence|left; exact I|right; right; exact I]. }
    apply NoDup_remove in ND' as (ND' & NI'). assert (~ In d (map fst moves) /\ ~ In d (map snd moves)) as (N4 & N5) by (split; intros I; apply NI'; apply in_or_app; auto).
    destruct (move_step s l c d (fst e) (snd e) n1 TN1 X1 X2 HR HP (HO c (or_introl eq_refl)) (fun z => HN d z (or_introl eq_refl)) K) as (s1 & M1 & G1 & HR1 & HP1).
    pose proof (line_called _ _ _ _ K) as Q. cbn [snd] in Q.
    destruct (IH ND' TN (taken c l ++ n1) s1 ns) as (s2 & M2 & G2 & HR2 & HP2); [| | |exact HR1|exact HP1|].
    + intros k I. apply (step_once c d l n1 Q); [intros ->; contradiction|apply HO; right; exact I].
    + intros k z I. apply (step_absent c d l n1 Q); [intros ->; contradiction|intros y J; exact (HN k y (or_intror I) J)].
    + revert HL'. clear - Q N2 N4. intros H. induction H as [|cd ls cds lss K H IH]; constructor.
      * apply (line_for_same T l); [|exact K]. apply (step_first c d l n1 Q); [intros X; apply N2; left; exact X|intros X; apply N4; left; exact X].
      * apply IH; intros X; [apply N2|apply N4]; right; exact X.
    + exists s2. split; [|split; [congruence|split; [|exact HP2]]].
      * intros k. unfold run_moves. cbn [fold_right]. unfold andthen at 1. rewrite M1. apply M2.
      * rewrite HR2. f_equal. rewrite taken_all_app. change (taken_all (c :: map fst moves) l) with (taken_all (map fst moves) (taken c l)).
        rewrite (taken_all_none (map fst moves) n1); [cbn [concat]; rewrite <- app_assoc; reflexivity|]. intros k y I J. apply (names_differ d k y (Q y J)). intros ->. contradiction.
Qed.
Definition told_for (l : list node) (cs : list str) : list str :=
  flat_map (fun c => match first_named c l with Some _ => [unsupported_field [sec; c]] | None => [] end) cs.
Lemma drops_go l0 cs : forall l s, NoDup cs -> (forall c, In c cs -> plain_name c = true /\ append_to_path (path_text [sec]) c = path_text [sec; c] /\ once c l /\ first_named c l = first_named c l0) ->
  r_root (v1 s) = with_sec l -> proper_tree (r_root (v1 s)) = true ->
  exists s', patch_deprecated_fields T (path_text [sec]) cs s = (Ok tt, s')
  /\ get_messages ERROR (msgs s') = get_messages ERROR (msgs s)
  /\ get_messages WARNING (msgs s') = get_messages WARNING (msgs s) ++ told_for l0 cs
  /\ r_root (v1 s') = with_sec (taken_all cs l) /\ proper_tree (r_root (v1 s')) = true.
Proof.
  induction cs as [|c cs IH]; intros l s ND H HR HP.
  - exists s. split; [reflexivity|]. split; [reflexivity|]. split; [symmetry; apply app_nil_r|]. split; [exact HR|exact HP].
  - destruct (H c (or_introl eq_refl)) as (N1 & P1 & O1 & F1). inversion ND as [|? ? NI ND']; subst.
    destruct (drop_step s l c N1 P1 HR HP O1) as (s1 & M1 & X1 & W1 & HR1 & HP1).
    destruct (IH (taken c l) s1 ND') as (s2 & M2 & X2 & W2 & HR2 & HP2); [|exact HR1|exact HP1|].
    { intros k I. destruct (H k (or_intror I)) as (N & P & O & F). split; [exact N|]. split; [exact P|]. split; [apply once_taken; exact O|].
      rewrite first_taken; [exact F|]. intros ->. contradiction. }
    exists s2. split.
    { unfold patch_deprecated_fields. cbn [each]. unfold andthen at 1. cbv zeta in M1. cbv zeta. rewrite M1. exact M2. }
    split; [congruence|]. split; [|split; [exact HR2|exact HP2]]. rewrite W2, W1, <- app_assoc. f_equal. unfold told_for. cbn [flat_map]. rewrite <- F1. reflexivity.
Qed.
End Sec.
