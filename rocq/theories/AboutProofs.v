(** C133 (proofs only). *)
From Verif Require Export VarsProofs3 AboutSpec.
From Verif Require Import Lemmas FrameProofs FrameProofs2 PatchProofs PatchProofs2 PatchProofs3 PathProofs PathProofs2 RenderProofs RenderProofs2 SectionProofs SectionProofs2
  ContextProofs KeepProofs KeepProofs2 PlainProofs GoesProofs ConvertSpec PlainSpec VarsSpec AboutSpec.

(** * A move that succeeds *)
Lemma move_works E from path v r r1 r2 r' : from <> path -> from <> [] -> path <> [] -> get_value E (r_root r) from None None = Ok v ->
  patch E (p_add path v) r = (Ok true, r2) -> patch E (p_remove from) r = (Ok true, r1) -> patch E (p_add path v) r1 = (Ok true, r') ->
  exists r'', patch E (p_move from path) r = (Ok true, r'') /\ r_root r'' = r_root r'.
Proof.
  intros N NF NP V A R B.
  pose proof (asks_add path v NP) as QA. pose proof (asks_remove from NF) as QR. pose proof (asks_move from path NP) as QM.
  apply (patch_success E _ _ _ _ QA eq_refl eq_refl) in A as (ra & A & _). apply (patch_success E _ _ _ _ QA eq_refl eq_refl) in B as (rb & B & EB & _).
  apply (patch_success E _ _ _ _ QR eq_refl eq_refl) in R as (rr & R & ER & _).
  unfold perform in A, B, R. cbn [request_path] in A, B, R. destruct (str_to_stack_path path) as [st|] eqn:S1; [|discriminate].
  destruct (str_to_stack_path from) as [fs|] eqn:S2; [|discriminate].
  assert (self_move (RMove from path) = false) as SM by (cbn [self_move]; apply str_eqb_neq; congruence).
  assert (perform E (RMove from path) (r_root r) = (Ok true, rb)) as P.
  { unfold perform. cbn [request_path]. rewrite S1. unfold patch_move. rewrite V. unfold patch_add in A.
    destruct (patch_add_find_target (r_root r) st) as [t|] eqn:FT; [|discriminate].
    destruct (at_pos t) as [q|] eqn:AP; [|discriminate]. cbn [at_opt].
    destruct (is_valid_patch_node (node_at (r_root r) q) (at_virt t)); [|discriminate]. cbn [negb]. rewrite S2, R.
    rewrite ER in B. exact B. }
  rewrite (patch_of_perform E _ _ _ _ QM SM eq_refl P). eexists. split; [reflexivity|]. rewrite <- EB. reflexivity.
Qed.

Lemma patch_logged T p s r' : patch (t_env T) p (v1 s) = (Ok true, r') -> patch_and_log T p s = (Ok true, {| v1 := r'; msgs := msgs s |}).
Proof. intros P. unfold patch_and_log, andthen at 1, call. rewrite P. cbn [negb when andthen ret]. reflexivity. Qed.
(** * Lists of lines *)
Definition taken (c : str) (l : list node) : list node := filter (fun x => negb (is_called c x)) l.
Definition once (c : str) (l : list node) : Prop :=
  forall l1 x l2, l = l1 ++ x :: l2 -> called c x -> bare_value x = false /\ forall y, In y (l1 ++ l2) -> ~ called c y.
Lemma is_called_eq c x : is_called c x = true <-> called c x.
Proof. split; [|apply is_called_iff]. unfold is_called, called. apply val_is_eq. Qed.
Lemma taken_app c a b : taken c (a ++ b) = taken c a ++ taken c b.
Proof. apply filter_app. Qed.
Lemma taken_none c l : (forall y, In y l -> ~ called c y) -> taken c l = l.
Proof.
  induction l as [|x l IH]; intros H; [reflexivity|]. unfold taken. cbn [filter]. destruct (is_called c x) eqn:C.
  - exfalso. apply (H x (or_introl eq_refl)). apply is_called_eq. exact C.
  - cbn [negb]. f_equal. apply IH. intros y I. apply H. right. exact I.
Qed.
Lemma taken_In c l x : In x (taken c l) <-> In x l /\ ~ called c x.
Proof.
  unfold taken. rewrite filter_In, negb_true_iff. rewrite <- is_called_eq. destruct (is_called c x); intuition congruence.
Qed.
Lemma find_line c l : {l1 & {x & {l2 | l = l1 ++ x :: l2 /\ called c x /\ forall y, In y l1 -> ~ called c y}}} + {forall y, In y l -> ~ called c y}.
Proof.
  induction l as [|x l IH]; [right; intros y []|]. destruct (is_called c x) eqn:C.
  - left. exists [], x, l. split; [reflexivity|]. split; [apply is_called_eq; exact C|intros y []].
  - assert (~ called c x) as N by (rewrite <- is_called_eq; congruence). destruct IH as [(l1 & y & l2 & -> & K & F)|F].
    + left. exists (x :: l1), y, l2. split; [reflexivity|]. split; [exact K|]. intros z [<-|I]; [exact N|exact (F z I)].
    + right. intros z [<-|I]; [exact N|exact (F z I)].
Qed.
Lemma once_split c l1 x l2 : once c (l1 ++ x :: l2) -> called c x -> bare_value x = false /\ taken c (l1 ++ x :: l2) = l1 ++ l2.
Proof.
  intros O C. destruct (O _ _ _ eq_refl C) as (B & N). split; [exact B|]. rewrite taken_app. unfold taken at 2. cbn [filter]. rewrite (proj2 (is_called_eq c x) C). cbn [negb].
  fold (taken c l2). rewrite !taken_none; [reflexivity| |]; intros y I; apply N; apply in_or_app; auto.
Qed.
Lemma once_none c l : (forall y, In y l -> ~ called c y) -> once c l.
Proof. intros H l1 x l2 -> C. destruct (H x (in_elt x l1 l2) C). Qed.
Lemma once_app c a b : once c a -> (forall y, In y b -> ~ called c y) -> once c (a ++ b).
Proof.
  intros O N l1 x l2 H C. destruct (find_line c a) as [(m1 & y & m2 & -> & K & F)|F].
  - destruct (once_split c m1 y m2 O K) as (B & _). destruct (O _ _ _ eq_refl K) as (_ & U).
    assert (l1 = m1 /\ x = y /\ l2 = m2 ++ b) as (-> & -> & ->).
    { assert (forall z, In z (m2 ++ b) -> ~ called c z) as U2 by (intros z I; apply in_app_or in I as [I|I]; [apply U; apply in_or_app; auto|exact (N z I)]).
      rewrite <- app_assoc in H. cbn [app] in H. revert l1 H F. clear - C K U2.
      induction m1 as [|z m1 IH]; intros [|w l1] H F; cbn [app] in H; injection H as H1 H2.
      - subst. auto.
      - exfalso. apply (U2 x); [rewrite H2; apply in_elt|exact C].
      - exfalso. subst. apply (F x (or_introl eq_refl)). exact C.
      - destruct (IH l1 H2 (fun t I => F t (or_intror I))) as (-> & -> & ->). subst. auto. }
    split; [exact B|]. intros z I. rewrite app_assoc in I. apply in_app_or in I as [I|I]; [apply U; exact I|exact (N z I)].
  - exfalso. assert (In x (a ++ b)) as I by (rewrite H; apply in_elt). apply in_app_or in I as [I|I]; [exact (F x I C)|exact (N x I C)].
Qed.
Lemma once_taken c k l : once c l -> once c (taken k l).
Proof.
  intros O. destruct (find_line c l) as [(l1 & x & l2 & -> & K & F)|F].
  - destruct (O _ _ _ eq_refl K) as (B & U). rewrite taken_app. unfold taken at 2. cbn [filter]. destruct (is_called k x).
    + cbn [negb]. fold (taken k l2). rewrite <- taken_app. apply once_none. intros y I. apply taken_In in I as (I & _). exact (U y I).
    + cbn [negb]. fold (taken k l2). change (taken k l1 ++ x :: taken k l2) with (taken k l1 ++ [x] ++ taken k l2). rewrite app_assoc. apply once_app.
      * intros m1 y m2 H C. assert (forall z, In z (taken k l1) -> ~ called c z) as U1 by (intros z I; apply taken_In in I as (I & _); exact (F z I)).
        revert H U1. generalize (taken k l1) as a. clear - B C. intros a. revert m1. induction a as [|z a IH]; intros [|w m1] H U1; cbn [app] in H; injection H as H1 H2.
        -- subst. split; [exact B|intros z []].
        -- destruct m1; discriminate.
        -- subst. destruct (U1 y (or_introl eq_refl) C).
        -- destruct (IH m1 H2 (fun t I => U1 t (or_intror I))) as (B' & U'). split; [exact B'|]. intros t [<-|I]; [apply U1; left; congruence|exact (U' t I)].
      * intros y I. apply taken_In in I as (I & _). apply U. apply in_or_app. auto.
  - apply once_none. intros y I. apply taken_In in I as (I & _). exact (F y I).
Qed.
Lemma first_none c l : (forall y, In y l -> ~ called c y) -> first_named c l = None.
Proof.
  induction l as [|x l IH]; intros H; [reflexivity|]. rewrite first_cons. destruct (val_is (n_value x) c) eqn:V.
  - exfalso. apply (H x (or_introl eq_refl)). apply is_called_eq. exact V.
  - apply IH. intros y I. apply H. right. exact I.
Qed.
Lemma first_taken k c l : k <> c -> first_named k (taken c l) = first_named k l.
Proof.
  intros N. apply first_filter. intros x V. apply val_is_eq in V. destruct (is_called c x) eqn:C; [|reflexivity]. apply is_called_eq in C. unfold called in C. congruence.
Qed.
Lemma first_is c l1 x l2 : called c x -> (forall y, In y l1 -> ~ called c y) -> first_named c (l1 ++ x :: l2) = Some x.
Proof. intros C F. rewrite first_app, (first_none c l1 F), first_cons. rewrite (proj2 (is_called_eq c x) C : val_is (n_value x) c = true). reflexivity. Qed.

(** * The section [about] of a tree *)
Section About.
Context (root a : node) (before after : list node).
Context (a_called : called $"about" a) (a_first : forall x, In x before -> ~ called $"about" x) (a_lmf : n_lmf a = false).
Definition with_about (l : list node) : node := with_lines root (before ++ with_lines a l :: after).
Lemma about_children l : n_children (with_about l) = before ++ with_lines a l :: after.
Proof. unfold with_about. apply with_lines_children. Qed.
Lemma find_first c l1 x l2 : called c x -> (forall y, In y l1 -> ~ called c y) -> forall j, find_child c j (l1 ++ x :: l2) = Some (j + length l1, x).
Proof.
  intros C. induction l1 as [|y l1 IH]; intros F j; cbn [app find_child length].
  - rewrite (proj2 (is_called_eq c x) C : val_is (n_value x) c = true). f_equal. f_equal. lia.
  - destruct (val_is (n_value y) c) eqn:V; [exfalso; exact (F y (or_introl eq_refl) (proj1 (is_called_eq c y) V))|].
    rewrite (IH (fun t I => F t (or_intror I))). f_equal. f_equal. lia.
Qed.
Lemma find_nothing c l : (forall y, In y l -> ~ called c y) -> forall j, find_child c j l = None.
Proof.
  induction l as [|y l IH]; intros F j; cbn [find_child]; [reflexivity|].
  destruct (val_is (n_value y) c) eqn:V; [exfalso; exact (F y (or_introl eq_refl) (proj1 (is_called_eq c y) V))|]. apply IH. intros t I. apply F. right. exact I.
Qed.
Lemma about_step l : step_child (with_about l) $"about" = Some (length before, with_lines a l).
Proof.
  unfold step_child. change (isdigit $"about") with false. cbv iota. rewrite about_children. rewrite (find_first $"about" before (with_lines a l) after); [reflexivity| |exact a_first].
  unfold called in *. destruct a. exact a_called.
Qed.
Lemma about_at l : node_at (with_about l) [length before] = Some (with_lines a l).
Proof. cbn [node_at]. rewrite about_children, nth_error_app2, Nat.sub_diag by lia. reflexivity. Qed.
Lemma about_addressed l tail : tail = [] \/ tail = $"/" -> addresses (with_about l) ($"/about" ++ tail) [length before].
Proof.
  intros T. exists (rev [$"about"] ++ [ROOT_VALUE]). split; [destruct T as [->| ->]; vm_compute; reflexivity|]. rewrite traverse_pos_components. cbn [traverse_recurse].
  rewrite about_step. reflexivity.
Qed.
Lemma about_traverse c l : isdigit c = false -> traverse_recurse (with_about l) [$"about"; c] = option_map (fun jn => [length before; fst jn]) (find_child c 0 l).
Proof.
  intros D. cbn [traverse_recurse]. rewrite about_step. unfold step_child. rewrite D, with_lines_children. destruct (find_child c 0 l) as [[j x]|]; reflexivity.
Qed.
Lemma about_components c : component c -> Forall component [$"about"; c].
Proof. intros C. apply Forall_cons; [comp|exact (Forall_cons _ C (Forall_nil _))]. Qed.
Lemma about_found c l : component c -> isdigit c = false -> traverse (with_about l) (rev [$"about"; c] ++ [ROOT_VALUE]) = first_named c l.
Proof.
  intros C D. unfold traverse. rewrite traverse_pos_components, (about_traverse c l D). unfold first_named. destruct (find_child c 0 l) as [[j x]|] eqn:F; [|reflexivity].
  cbn [option_map fst snd]. change [length before; j] with ([length before] ++ [j]). rewrite node_at_app, about_at. cbn [node_at]. rewrite with_lines_children.
  apply find_child_hit in F as (_ & H & _). rewrite Nat.sub_0_r in H. rewrite H. reflexivity.
Qed.
Lemma about_has c l : component c -> isdigit c = false ->
  contains_value (with_about l) (path_text [$"about"; c]) = Ok (match first_named c l with Some _ => true | None => false end).
Proof.
  intros C D. destruct (stack_snoc [$"about"] c (about_components c C)) as (HS & _). unfold contains_value. cbn [app] in HS. rewrite HS. cbn [bind].
  change (c :: rev [$"about"] ++ [ROOT_VALUE]) with (rev [$"about"; c] ++ [ROOT_VALUE]). rewrite (about_found c l C D). reflexivity.
Qed.
Lemma about_get E c l d : component c -> isdigit c = false ->
  get_value E (with_about l) (path_text [$"about"; c]) d None
  = match first_named c l with Some n => get_value_node E n None | None => match d with Some v => Ok v | None => Err EKey end end.
Proof.
  intros C D. destruct (stack_snoc [$"about"] c (about_components c C)) as (HS & _). unfold get_value. cbn [app] in HS. rewrite HS. cbn [bind].
  change (c :: rev [$"about"] ++ [ROOT_VALUE]) with (rev [$"about"; c] ++ [ROOT_VALUE]). rewrite (about_found c l C D). destruct (first_named c l); [reflexivity|]. destruct d; reflexivity.
Qed.
Lemma about_proper_parts l : proper_tree (with_about l) = true <->
  (match n_value root with VSent => true | VJ j => proper_value j end = true /\ forallb proper_tree before = true /\ forallb proper_tree after = true
   /\ match n_value a with VSent => true | VJ j => proper_value j end = true) /\ forallb proper_tree l = true.
Proof.
  clear. unfold with_about. destruct root as [v c chs m u k], a as [v2 c2 chs2 m2 u2 k2]. cbn [with_lines proper_tree n_value].
  rewrite andb_true_iff, forallb_app, andb_true_iff. cbn [forallb with_lines proper_tree]. rewrite !andb_true_iff. tauto.
Qed.
Lemma about_proper l l' : proper_tree (with_about l) = true -> forallb proper_tree l' = true -> proper_tree (with_about l') = true.
Proof. rewrite !about_proper_parts. tauto. Qed.
Lemma about_proper_lines l : proper_tree (with_about l) = true -> forallb proper_tree l = true.
Proof. rewrite about_proper_parts. tauto. Qed.
Lemma changed_about (R : node -> node -> Prop) l root' : changed_at R [length before] (with_about l) root' ->
  exists x, R (with_lines a l) x /\ root' = with_lines root (before ++ x :: after).
Proof.
  intros H. inversion H as [|n b0 c c' a0 p HC K HL HR]; subst. rewrite about_children in HC.
  assert (b0 = before /\ c = with_lines a l /\ a0 = after) as (-> & -> & ->).
  { clear - HC HL. rename HL into HL'. assert (length b0 = length before) as HL by congruence. clear HL'. revert b0 HC HL. generalize before as b1. induction b1 as [|y b1 IH]; intros [|z b0] HC HL; cbn [app length] in *; try discriminate.
    - injection HC as -> ->. auto.
    - injection HC as -> HC. injection HL as HL. destruct (IH _ HC HL) as (-> & -> & ->). auto. }
  inversion K as [x y R0|]; subst. exists c'. split; [exact R0|]. unfold with_about. destruct root; reflexivity.
Qed.

(** ** One line is removed *)
Lemma remove_line E r l1 x l2 c : component c -> isdigit c = false -> r_root r = with_about (l1 ++ x :: l2) -> proper_tree (r_root r) = true ->
  called c x -> (forall y, In y l1 -> ~ called c y) -> bare_value x = false ->
  exists r', patch E (p_remove (path_text [$"about"; c])) r = (Ok true, r') /\ r_root r' = with_about (l1 ++ l2).
Proof.
  intros C D HR HP HC HF HB. set (p := p_remove (path_text [$"about"; c])). assert (asks p (RRemove (path_text [$"about"; c]))) as Q by (apply asks_remove; discriminate).
  assert (addresses (r_root r) (path_text [$"about"; c]) ([length before] ++ [length l1])) as A.
  { destruct (stack_snoc [$"about"] c (about_components c C)) as (HS & _). cbn [app] in HS. apply (addresses_stack _ _ _ _ HS).
    change (c :: rev [$"about"] ++ [ROOT_VALUE]) with (rev [$"about"; c] ++ [ROOT_VALUE]). rewrite traverse_pos_components, HR, (about_traverse c _ D), (find_first c l1 x l2 HC HF). reflexivity. }
  assert (node_at (r_root r) ([length before] ++ [length l1]) = Some x) as AN.
  { rewrite node_at_app, HR, about_at. cbn [node_at]. rewrite with_lines_children, nth_error_app2, Nat.sub_diag by lia. reflexivity. }
  destruct (c12_when E p [$"about"; c] r HP Q (about_components c C)) as (_ & W). assert (fst (patch E p r) = Ok true) as OKp by (apply W; exists [length before], (length l1), x; auto).
  destruct (patch E p r) as [o r'] eqn:P. cbn [fst] in OKp. subst o. exists r'. split; [reflexivity|].
  destruct (c12_success E p _ r r' HP Q P) as (q & i & A' & K & _).
  assert (q ++ [i] = [length before] ++ [length l1]) as QI.
  { destruct A as (st & S1 & S2), A' as (st' & S3 & S4). congruence. }
  apply app_inj_tail in QI as (-> & ->). rewrite HR in K. apply changed_about in K as (y & L & ->). unfold with_about. f_equal. f_equal. f_equal.
  destruct L as (ys & z & zs & L1 & L2 & L3). rewrite with_lines_children in L1.
  assert (ys = l1 /\ zs = l2) as (-> & ->).
  { revert L1 L2. clear. revert l1. induction ys as [|t ys IH]; intros [|w l1] H L; cbn [app length] in *; try discriminate.
    - injection H as -> ->. auto.
    - injection H as -> H. injection L as L. destruct (IH _ H L) as (-> & ->). auto. }
  rewrite L3. destruct a; reflexivity.
Qed.
(** ** A line is added, and a line is renamed *)
Lemma add_line E r l d v y : component d -> isdigit d = false -> d <> $"-" -> r_root r = with_about l -> l <> [] -> (forall z, In z l -> ~ called d z) ->
  written_as E (JDict [(PStr d, v)]) [y] ->
  exists r', patch E (p_add (path_text [$"about"; d]) v) r = (Ok true, r') /\ r_root r' = with_about (l ++ [y]).
Proof.
  intros C D ND HR NL HN W.
  destruct (c14_new_key E (p_add (path_text ([$"about"] ++ [d])) v) [$"about"] d v r [length before] (with_lines a l) [y]) as (r' & P & _ & K).
  - apply asks_add. discriminate.
  - exact (about_components d C).
  - exact D.
  - exact ND.
  - rewrite HR. change (path_text [$"about"] ++ [cSL]) with ($"/about" ++ $"/"). apply about_addressed. right. reflexivity.
  - rewrite HR. apply about_at.
  - unfold bare_value, terminal. rewrite with_lines_children. destruct l; [contradiction|reflexivity].
  - left. destruct a. exact a_lmf.
  - intros z I X. rewrite with_lines_children in I. exact (HN z I X).
  - exact W.
  - exists r'. split; [exact P|]. rewrite HR in K. apply changed_about in K as (z & L & ->). unfold with_about. f_equal. f_equal. f_equal.
    unfold lines_appended in L. rewrite with_lines_children in L. rewrite L. destruct a; reflexivity.
Qed.
Lemma move_line E r l1 x l2 c d v y : component c -> isdigit c = false -> component d -> isdigit d = false -> d <> $"-" -> c <> d ->
  r_root r = with_about (l1 ++ x :: l2) -> proper_tree (r_root r) = true -> called c x -> (forall z, In z l1 -> ~ called c z) -> bare_value x = false ->
  get_value_node E x None = Ok v -> written_as E (JDict [(PStr d, v)]) [y] -> (forall z, In z (l1 ++ x :: l2) -> ~ called d z) -> l1 ++ l2 <> [] ->
  exists r', patch E (p_move (path_text [$"about"; c]) (path_text [$"about"; d])) r = (Ok true, r') /\ r_root r' = with_about ((l1 ++ l2) ++ [y]).
Proof.
  intros C1 D1 C2 D2 ND NE HR HP HC HF HB V W HN NL.
  destruct (remove_line E r l1 x l2 c C1 D1 HR HP HC HF HB) as (r1 & R & HR1).
  assert (l1 ++ x :: l2 <> []) as NL' by (destruct l1; discriminate).
  destruct (add_line E r _ d v y C2 D2 ND HR NL' HN W) as (r2 & A & _).
  destruct (add_line E r1 _ d v y C2 D2 ND HR1 NL) as (r3 & B & HR3); [|exact W|].
  { intros z I. apply HN. apply in_app_or in I as [I|I]; apply in_or_app; [left|right; right]; exact I. }
  destruct (move_works E (path_text [$"about"; c]) (path_text [$"about"; d]) v r r1 r2 r3) as (r'' & M & HM).
  - unfold path_text. cbn [map concat]. rewrite !app_nil_r. intros H. injection H as H. contradiction.
  - discriminate.
  - discriminate.
  - rewrite HR, (about_get E c _ None C1 D1), (first_is c l1 x l2 HC HF). exact V.
  - exact A.
  - exact R.
  - exact B.
  - exists r''. split; [exact M|]. rewrite HM. exact HR3.
Qed.

(** ** The steps of the conversion *)
Context (T : tools).
Let E := t_env T.
(** The lines for one new name, and those of the whole section after the three moves. *)
Definition line_for (l : list node) (cd : str * str) (ls : list node) : Prop :=
  (first_named (fst cd) l = None /\ ls = [])
  \/ exists n v x, first_named (fst cd) l = Some n /\ get_value_node E n None = Ok v /\ written_as E (JDict [(PStr (snd cd), v)]) [x]
     /\ called (snd cd) x /\ proper_tree x = true /\ ls = [x].
Lemma path_of ext : ext_of ext [ext] -> forallb comp_ok [ext] = true -> append_to_path $"/about" ext = path_text [$"about"; ext].
Proof.
  intros X Y. apply (SectionProofs2.below [$"about"] $"/about" ext ext); [apply Forall_cons; [comp|apply Forall_nil]|left; vm_compute; reflexivity|exact Y|exact X].
Qed.
Lemma first_split c l n : first_named c l = Some n -> exists l1 l2, l = l1 ++ n :: l2 /\ called c n /\ forall y, In y l1 -> ~ called c y.
Proof.
  intros H. destruct (find_line c l) as [(l1 & x & l2 & -> & C & F)|F].
  - rewrite (first_is c l1 x l2 C F) in H. injection H as <-. eauto.
  - rewrite (first_none c l F) in H. discriminate.
Qed.
Lemma first_absent c l : first_named c l = None -> forall y, In y l -> ~ called c y.
Proof.
  intros H. destruct (find_line c l) as [(l1 & x & l2 & -> & C & F)|F]; [|exact F]. rewrite (first_is c l1 x l2 C F) in H. discriminate.
Qed.
Definition two_names (c d : str) : bool := plain_name c && plain_name d && negb (str_eqb d $"-") && negb (str_eqb c d).
Lemma move_step s l c d ls : two_names c d = true -> append_to_path $"/about" c = path_text [$"about"; c] -> append_to_path $"/about" d = path_text [$"about"; d] ->
  r_root (v1 s) = with_about l -> proper_tree (r_root (v1 s)) = true -> once c l -> (forall z, In z l -> ~ called d z) -> taken c l <> [] -> line_for l (c, d) ls ->
  exists s', patch_move_base_path T $"/about" c d s = (Ok tt, s') /\ msgs s' = msgs s /\ r_root (v1 s') = with_about (taken c l ++ ls) /\ proper_tree (r_root (v1 s')) = true.
Proof.
  intros H2 P1 P2 HR HP HO HN NL HL. unfold two_names in H2. rewrite !andb_true_iff, !negb_true_iff in H2. destruct H2 as (((N1 & N2) & N3) & N4).
  apply plain_name_is in N1 as (C1 & D1). apply plain_name_is in N2 as (C2 & D2). apply str_eqb_neq in N3. apply str_eqb_neq in N4.
  unfold patch_move_base_path. cbv zeta. rewrite P1, P2. unfold andthen at 1, has, ask. cbv beta. rewrite HR. rewrite (about_has c l C1 D1).
  destruct HL as [(F & ->)|(n & v & x & F & V & W & CX & PX & ->)]; cbn [fst snd] in *; rewrite F; cbv beta iota.
  - exists s. split; [reflexivity|]. split; [reflexivity|]. rewrite app_nil_r, (taken_none c l (first_absent c l F)). split; [exact HR|exact HP].
  - destruct (first_split c l n F) as (l1 & l2 & -> & CN & FN). destruct (once_split c l1 n l2 HO CN) as (B & TK). rewrite TK in *.
    destruct (move_line E (v1 s) l1 n l2 c d v x C1 D1 C2 D2 N3 N4 HR HP CN FN B V W HN NL) as (r' & M & HM).
    exists {| v1 := r'; msgs := msgs s |}. unfold andthen at 1. rewrite (patch_logged T _ s r' M). unfold ret. cbn [v1 msgs].
    split; [reflexivity|]. split; [reflexivity|]. split; [exact HM|]. rewrite HM. rewrite HR in HP. eapply about_proper; [exact HP|].
    apply about_proper_lines in HP. rewrite forallb_app in HP |- *. cbn [forallb] in *. rewrite !andb_true_iff in HP. rewrite forallb_app, PX. rewrite !andb_true_iff. tauto.
Qed.
Lemma drop_step s l c : plain_name c = true -> append_to_path $"/about" c = path_text [$"about"; c] ->
  r_root (v1 s) = with_about l -> proper_tree (r_root (v1 s)) = true -> once c l ->
  exists s', (let path := append_to_path $"/about" c in
    run! there := has path in
    if there : bool then
      run! ok := patch_and_log T (p_remove path) in
      when ok (say WARNING ($"Field at `" ++ path ++ $"` is no longer supported."))
    else ret tt) s = (Ok tt, s')
  /\ get_messages ERROR (msgs s') = get_messages ERROR (msgs s)
  /\ get_messages WARNING (msgs s') = get_messages WARNING (msgs s) ++ (match first_named c l with Some _ => [unsupported_field [$"about"; c]] | None => [] end)
  /\ r_root (v1 s') = with_about (taken c l) /\ proper_tree (r_root (v1 s')) = true.
Proof.
  intros N1 P1 HR HP HO. apply plain_name_is in N1 as (C1 & D1). cbv zeta. rewrite P1. unfold andthen at 1, has, ask. cbv beta. rewrite HR. rewrite (about_has c l C1 D1).
  destruct (first_named c l) as [n|] eqn:F; cbv beta iota.
  - destruct (first_split c l n F) as (l1 & l2 & -> & CN & FN). destruct (once_split c l1 n l2 HO CN) as (B & TK). rewrite TK in *.
    destruct (remove_line E (v1 s) l1 n l2 c C1 D1 HR HP CN FN B) as (r' & M & HM).
    unfold andthen at 1. rewrite (patch_logged T _ s r' M). cbn [when]. unfold say. cbn [v1 msgs].
    eexists. split; [reflexivity|]. cbn [v1 msgs]. rewrite (add_one_more WARNING _ (msgs s) ERROR), (add_one_more WARNING _ (msgs s) WARNING).
    split; [reflexivity|]. split; [reflexivity|]. split; [exact HM|]. rewrite HM. rewrite HR in HP. eapply about_proper; [exact HP|].
    apply about_proper_lines in HP. rewrite forallb_app in HP |- *. cbn [forallb] in *. rewrite !andb_true_iff in HP. rewrite !andb_true_iff. tauto.
  - exists s. split; [reflexivity|]. split; [reflexivity|]. rewrite app_nil_r. split; [reflexivity|]. rewrite (taken_none c l (first_absent c l F)). split; [exact HR|exact HP].
Qed.
End About.
