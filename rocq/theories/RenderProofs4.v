(** Recipes that end with a block of text, variables, and checks for examples (proofs only). *)
From Verif Require Export RenderProofs3.

(** * C38 *)
Lemma dset_split (k : str) (v : json) d : NoDup (map fst d) ->
  exists o1 o2, dset k v d = o1 ++ (k, v) :: o2
    /\ o1 ++ o2 = filter (fun kv => if list_eq_dec ascii_dec (fst kv) k then false else true) d
    /\ (forall i w, nth_error d i = Some (k, w) -> length o1 = i) /\ ((forall w, ~ In (k, w) d) -> o2 = []).
Proof.
  induction d as [|[k' v'] d IH]; intros ND.
  - exists [], []. split; [reflexivity|]. split; [reflexivity|]. split; [intros [|i] w H; discriminate|reflexivity].
  - inversion ND as [|? ? NI ND']; subst. cbn [dset fst filter]. destruct (str_eqb k k') eqn:Ek.
    + apply str_eqb_eq in Ek as <-. exists [], d. split; [reflexivity|]. destruct (list_eq_dec ascii_dec k k) as [_|N]; [|congruence]. cbn [app].
      split; [|split].
      * clear -NI. induction d as [|[k1 v1] d IH]; [reflexivity|]. cbn [filter fst]. cbn [map fst] in NI.
        destruct (list_eq_dec ascii_dec k1 k) as [->|N]; [exfalso; apply NI; left; reflexivity|]. rewrite <- IH; [reflexivity|]. intros I; apply NI; right; exact I.
      * intros [|i] w H; [reflexivity|]. exfalso. apply NI. apply (nth_error_In d i) in H. apply (in_map fst) in H. exact H.
      * intros H. exfalso. apply (H v'). left. reflexivity.
    + destruct (IH ND') as (o1 & o2 & -> & E & P & L). exists ((k', v') :: o1), o2. split; [reflexivity|].
      destruct (list_eq_dec ascii_dec k' k) as [->|N]; [rewrite str_eqb_refl in Ek; discriminate|]. cbn [app]. split; [rewrite E; reflexivity|]. split.
      * intros [|i] w H; [injection H as -> _; congruence|]. cbn [length]. f_equal. apply (P i w). exact H.
      * intros H. apply L. intros w I. apply (H w). right. exact I.
Qed.
Lemma c38 E r k v : r_schema r = SV0 -> NoDup (map fst (r_vars r)) ->
  exists before after body,
    render E (set_variable k v r) = join NLs (map statement (before ++ (k, v) :: after) ++ [] :: body)
    /\ render E r = join NLs (map statement (r_vars r) ++ (match r_vars r with [] => [] | _ => [[]] end) ++ body)
    /\ before ++ after = filter (fun kv => if list_eq_dec ascii_dec (fst kv) k then false else true) (r_vars r)
    /\ (forall i w, nth_error (r_vars r) i = Some (k, w) -> length before = i)
    /\ ((forall w, ~ In (k, w) (r_vars r)) -> after = []).
Proof.
  intros S ND. destruct (dset_split k v (r_vars r) ND) as (o1 & o2 & E1 & E2 & P & L). exists o1, o2, (render_lines E (r_root r)).
  split; [|split; [|auto]].
  - unfold render. cbn [set_variable mark_modified with_vars r_schema r_vars r_root]. rewrite S, E1. unfold render_all, var_lines.
    rewrite (map_ext var_line statement var_line_statement), <- app_assoc. destruct o1; reflexivity.
  - unfold render. rewrite S. unfold render_all, var_lines. rewrite (map_ext var_line statement var_line_statement), <- app_assoc. reflexivity.
Qed.
Lemma dset_nodup (k : str) (v : json) d : NoDup (map fst d) -> NoDup (map fst (dset k v d)).
Proof.
  induction d as [|[k' v'] d IH]; intros ND; cbn [dset map fst]; [constructor; [intros []|constructor]|].
  inversion ND as [|? ? NI ND']; subst. destruct (str_eqb k k') eqn:Ek; cbn [map fst]; [constructor; assumption|].
  constructor; [|exact (IH ND')]. intros I. apply NI. clear -I Ek. induction d as [|[k1 v1] d IH]; cbn [dset map fst] in *.
  - destruct I as [<-|[]]. rewrite str_eqb_refl in Ek. discriminate.
  - destruct (str_eqb k k1) eqn:E1; cbn [map fst] in *; [exact I|]. destruct I as [I|I]; [left; exact I|right; apply IH; exact I].
Qed.
Lemma dset_forall (Q : str * json -> Prop) k v d : Forall Q d -> (forall k', k' = k -> Q (k', v)) -> Forall Q (dset k v d).
Proof.
  intros F H. induction d as [|[k' v'] d IH]; cbn [dset]; [constructor; [apply H; reflexivity|constructor]|].
  inversion F as [|? ? Q1 F']; subst. destruct (str_eqb k k') eqn:Ek; constructor; try assumption; [|apply IH; exact F'].
  apply H. apply str_eqb_eq in Ek. congruence.
Qed.
Lemma dget_dset k (v : json) d x : dget x (dset k v d) = if list_eq_dec ascii_dec x k then Some v else dget x d.
Proof.
  induction d as [|[k' v'] d IH]; cbn [dset dget].
  - destruct (list_eq_dec ascii_dec x k) as [->|N]; [rewrite str_eqb_refl; reflexivity|].
    destruct (str_eqb x k) eqn:Ex; [apply str_eqb_eq in Ex; congruence|reflexivity].
  - destruct (str_eqb k k') eqn:Ek; cbn [dget].
    + apply str_eqb_eq in Ek as <-. destruct (list_eq_dec ascii_dec x k) as [->|N]; [rewrite str_eqb_refl; reflexivity|].
      destruct (str_eqb x k) eqn:Ex; [apply str_eqb_eq in Ex; congruence|reflexivity].
    + destruct (str_eqb x k') eqn:Ex; [|exact IH]. apply str_eqb_eq in Ex as ->.
      destruct (list_eq_dec ascii_dec k' k) as [->|N]; [rewrite str_eqb_refl in Ek; discriminate|reflexivity].
Qed.
Lemma c38_read E r xs k v : r_root r = document xs -> r_schema r = SV0 -> canonical_recipe E xs (r_vars r) -> readable_variable E (k, v) ->
  exists r', new_recipe E (render E (set_variable k v r)) = Ok r' /\ r_root r' = r_root r
    /\ forall x d, get_variable x d r' = if list_eq_dec ascii_dec x k then Ok v else get_variable x d r.
Proof.
  intros HR HS (CD & NE & ND & FV) RV.
  assert (canonical_recipe E xs (dset k v (r_vars r))) as C.
  { split; [exact CD|]. split; [exact NE|]. split; [apply dset_nodup; exact ND|]. apply dset_forall; [exact FV|]. intros ? ->. exact RV. }
  rewrite (rendered E (set_variable k v r) xs (dset k v (r_vars r)) HR HS eq_refl C).
  rewrite (read_back E xs _ C). eexists. split; [reflexivity|]. cbn [r_root]. split; [symmetry; exact HR|].
  intros x d. unfold get_variable. cbn [r_vars]. rewrite dget_dset. destruct (list_eq_dec ascii_dec x k); reflexivity.
Qed.

(** * C40 *)
Lemma take_multiline_end i ls : Forall (fun l => strip l = l) ls ->
  take_multiline i (map (fun l => rstrip (spaces (i + 2) ++ l)) ls) = None.
Proof.
  intros F. induction ls as [|l ls IH]; [reflexivity|]. inversion F as [|? ? Hl Fl]; subst. cbn [map take_multiline].
  destruct (block_line i l Hl) as [-> ->]. rewrite (IH Fl). reflexivity.
Qed.
Lemma parse_fail E st line ls e : is_nil (strip line) = false -> line_to_node E line ls = Err e -> parse_loop E st 0 (line :: ls) = Err e.
Proof. intros N H. cbn [parse_loop]. rewrite N. cbv iota. rewrite H. reflexivity. Qed.
Lemma c40 E xs k m ls c : canonical_page E xs -> canonical E (IBlock k m ls c) ->
  parse_lines E (page xs ++ layout 0 (IBlock k m ls c)) = Err EIndex.
Proof.
  intros CP H. unfold parse_lines.
  assert (At init_pstate 0 [] []) as A0.
  { exact (ex_intro _ 0 (conj eq_refl eq_refl)). }
  destruct (parse_page_loop E xs CP init_pstate (layout 0 (IBlock k m ls c)) A0) as (st & -> & _ & _).
  inversion H as [| | |? ? ? ? w H3 SEP H5 H7 H8 H9| | | |]; subst. pose proof SEP as (SP & _). cbn [layout].
  rewrite (parse_fail E st _ _ EIndex); [reflexivity|apply line_nonblank; exact SP|].
  unfold line_to_node. rewrite line_strip by exact SP. unfold parse_line_node.
  rewrite (parse_yaml_plain _ _ _ H8). unfold bind at 1. rewrite line_not_hash by exact SP. cbv zeta.
  rewrite (line_comment_line _ c SEP). unfold bind.
  destruct (header_match 0 k m c H3 SEP H5 H7) as (x & MM & G). rewrite MM, G.
  rewrite (mlv_round m H3). rewrite line_indent by exact SP. 
  rewrite (take_multiline_end 0 ls H9). reflexivity.
Qed.

(** * Checks used by the examples *)
Fixpoint after_blanks (s : str) : bool :=
  match s with [] => false | c :: s' => if is_space c then after_blanks s' else ceq c "|"%char || ceq c ">"%char end.
Fixpoint block_markb (s : str) : bool :=
  match s with
  | [] => false
  | c :: s' => (ceq c ":"%char && match s' with d :: s'' => is_space d && after_blanks s'' | [] => false end) || block_markb s'
  end.
Lemma after_blanks_sound w c b : blank w -> c = "|"%char \/ c = ">"%char -> after_blanks (w ++ c :: b) = true.
Proof.
  intros B H. induction w as [|d w IH]; cbn [app after_blanks].
  - destruct H as [-> | ->]; reflexivity.
  - rewrite (B d (or_introl eq_refl)). apply IH. intros x I. apply B. right. exact I.
Qed.
Lemma block_mark_check s : block_markb s = false -> ~ block_mark s.
Proof.
  intros K (a & w & c & b & -> & NE & B & H). assert (block_markb (a ++ $":" ++ w ++ c :: b) = true); [|congruence]. clear K.
  induction a as [|d a IH]; cbn [app].
  - change ($":" ++ w ++ c :: b) with (":"%char :: w ++ c :: b). cbn [block_markb]. destruct w as [|d w]; [congruence|]. cbn [app].
    rewrite (B d (or_introl eq_refl)), (after_blanks_sound w c b); [reflexivity|intros x I; apply B; right; exact I|exact H].
  - cbn [block_markb]. rewrite IH. apply orb_true_r.
Qed.
Fixpoint comment_markb (s : str) : bool :=
  match s with
  | [] => false
  | c :: s' => (is_space c && match s' with d :: _ => ceq d cHASH | [] => false end) || comment_markb s'
  end.
Lemma comment_mark_check s : comment_markb s = false -> ~ comment_mark s.
Proof.
  intros K (a & c & b & -> & H). assert (comment_markb (a ++ c :: cHASH :: b) = true); [|congruence]. clear K.
  induction a as [|d a IH]; cbn [app comment_markb]; [rewrite H; reflexivity|]. rewrite IH. apply orb_true_r.
Qed.
Lemma ends_clean_check s : (match rev s with c :: _ => is_space c | [] => false end) = false -> ends_clean s.
Proof. intros K t c ->. rewrite rev_app_distr in K. exact K. Qed.
Lemma inert_check l : existsb is_linebreak l || contains_sub $"{%" l || contains_sub $"{#" l = false -> inert l.
Proof.
  intros K. apply orb_false_elim in K as [K K3]. apply orb_false_elim in K as [K1 K2]. split; [|split].
  - intros c I. destruct (is_linebreak c) eqn:L; [|reflexivity]. assert (existsb is_linebreak l = true); [|congruence]. apply existsb_exists. eauto.
  - rewrite <- contains_sub_spec. congruence.
  - rewrite <- contains_sub_spec. congruence.
Qed.
Lemma no_text_check p s : contains_sub p s = false -> ~ has_text p s.
Proof. rewrite <- contains_sub_spec. congruence. Qed.
Lemma not_in_check c s : existsb (ceq c) s = false -> ~ In c s.
Proof. rewrite <- existsb_In. congruence. Qed.
Lemma before_marker_check p : existsb (ceq "_"%char) p = false -> before_marker p.
Proof.
  intros K. apply not_in_check in K. intros a b E.
  destruct (le_lt_dec (length p) (length a)) as [LE|LT].
  - apply (f_equal (@length _)) in E. rewrite !app_length in E. destruct b; [reflexivity|cbn [length] in E; lia].
  - exfalso. apply K. apply (f_equal (fun s => nth_error s (length a))) in E.
    rewrite (nth_error_app1 p marker LT), (nth_error_app2 a (marker ++ b) (le_n _)), Nat.sub_diag in E. exact (nth_error_In _ _ E).
Qed.
Lemma needs_quotes_check s : (match s with c :: _ => existsb (ceq c) reserved | [] => false end) || existsb (ceq cSQ) s || existsb (ceq cDQ) s = false -> ~ needs_quotes s.
Proof.
  intros K. apply orb_false_elim in K as [K K3]. apply orb_false_elim in K as [K1 K2].
  intros [(c & t & -> & I)|([I|I] & _)]; apply existsb_In in I; congruence.
Qed.
(** Conditions of canonical lines. *)
Ltac plain_conditions :=
  split; [split; [eexists _, _; split; [vm_compute; reflexivity|split; [reflexivity|discriminate]]
                 |split; [apply comment_mark_check; vm_compute; reflexivity
                         |first [left; reflexivity
                                |right; split; [eexists; vm_compute; reflexivity|apply ends_clean_check; vm_compute; reflexivity]]]]
         |split; [apply block_mark_check; vm_compute; reflexivity|]].
Ltac plain_check := plain_conditions; left; vm_compute; reflexivity.
