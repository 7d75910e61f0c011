(** Proofs about selector expressions. *)
From Verif Require Export SelectorSpec SelProofs3.
#[local] Arguments init_value : simpl never.

(** * Tables *)
Lemma str_eqb_dec a b : str_eqb a b = if list_eq_dec ascii_dec a b then true else false.
Proof. destruct (list_eq_dec ascii_dec a b) as [->|N]; [apply str_eqb_refl|]. apply str_eqb_neq. exact N. Qed.
Lemma platform_eqb_eq p q : platform_eqb p q = true <-> p = q.
Proof. split; [destruct p, q; intros H; try reflexivity; discriminate H|intros ->; destruct q; reflexivity]. Qed.

Definition known : list str := map platform_str all_platforms ++ map os_str all_os ++ map arch_str all_arch.
Lemma called_known p s : In s (map lit (called p)) -> In s known.
Proof.
  intros H. apply mem_str_In. revert s H. apply forallb_forall. destruct p; vm_compute; reflexivity.
Qed.

Lemma find_str {A} (f : A -> str) l s : (exists a, find (fun x => str_eqb (f x) s) l = Some a /\ f a = s)
  \/ (find (fun x => str_eqb (f x) s) l = None /\ ~ In s (map f l)).
Proof.
  induction l as [|a l IH]; cbn [find map].
  - right. split; [reflexivity|intros []].
  - destruct (str_eqb (f a) s) eqn:H.
    + left. exists a. split; [reflexivity|]. apply str_eqb_eq. exact H.
    + destruct IH as [(x & Hx & Hs)|[Hx Hs]].
      * left. exists x. split; assumption.
      * right. split; [exact Hx|]. intros [HH|HH]; [apply str_eqb_neq in H; contradiction|contradiction].
Qed.

(** Evaluation of a leaf. *)
Definition eval_leaf (v : svalue) : platset := eval_node (SNode v SNone SNone).
Lemma leaf_named w p : plain_word w -> is_logical_op (init_value w) = false /\ eval_leaf (init_value w) p = calls w p.
Proof.
  intros (HA & HO & HN). unfold init_value, platform_of, os_of, arch_of, logic_of.
  generalize HA HO HN. unfold says_and, says_or, says_not, calls. generalize (lower w). clear. intros l HA HO HN.
  destruct (find_str platform_str all_platforms l) as [(x & -> & <-)|[-> H1]].
  { split; [reflexivity|]. destruct x, p; vm_compute; reflexivity. }
  destruct (find_str os_str all_os l) as [(x & -> & <-)|[-> H2]].
  { split; [reflexivity|]. destruct x, p; vm_compute; reflexivity. }
  destruct (find_str arch_str all_arch l) as [(x & -> & <-)|[-> H3]].
  { split; [reflexivity|]. destruct x, p; vm_compute; reflexivity. }
  destruct (find_str logic_str all_logic_ops l) as [(x & -> & <-)|[-> H4]].
  { destruct x; exfalso; [apply HA|apply HO|apply HN]; reflexivity. }
  split; [reflexivity|]. destruct (in_dec _ _ _) as [H|H]; [|reflexivity].
  exfalso. apply called_known in H. unfold known in H. rewrite !in_app_iff in H. tauto.
Qed.
Lemma init_and w : says_and w -> init_value w = SVOp AND.
Proof. unfold says_and, init_value. intros ->. vm_compute. reflexivity. Qed.
Lemma init_or w : says_or w -> init_value w = SVOp OR.
Proof. unfold says_or, init_value. intros ->. vm_compute. reflexivity. Qed.
Lemma init_not w : says_not w -> init_value w = SVOp NOT.
Proof. unfold says_not, init_value. intros ->. vm_compute. reflexivity. Qed.
Lemma all_platforms_all p : set_of all_platforms p = true.
Proof. destruct p; vm_compute; reflexivity. Qed.

(** * Parsing *)
Notation nots k := (repeat (SVOp NOT) k).
Lemma operand_shunt ws f : operand ws f -> exists k v,
  is_logical_op v = false
  /\ (forall ts ops out, shunt (ws ++ ts) ops out = shunt ts (nots k ++ ops) (v :: out))
  /\ forall fuel rest, S k <= fuel ->
     exists t, process_postfix fuel (nots k ++ v :: rest) = (t, rest) /\ forall p, eval_node t p = f p.
Proof.
  induction 1 as [w Hw|n ws f Hn _ (k & v & Hv & HS & HP)].
  - exists 0, (init_value w). destruct (leaf_named w LINUX_32 Hw) as [HL _]. split; [exact HL|]. split.
    + intros ts ops out. cbn [app shunt repeat]. rewrite HL. reflexivity.
    + intros fuel rest Hf. destruct fuel as [|fuel]; [lia|]. cbn [repeat app process_postfix].
      exists (SNode (init_value w) SNone SNone). split.
      * destruct (init_value w); try reflexivity. discriminate HL.
      * intros p. exact (proj2 (leaf_named w p Hw)).
  - exists (S k), v. split; [exact Hv|]. split.
    + intros ts ops out. cbn [app shunt]. rewrite (init_not n Hn). cbn [is_logical_op is_not]. cbv beta iota zeta.
      rewrite HS. f_equal. cbn [repeat app]. change (SVOp NOT :: ops) with ([SVOp NOT] ++ ops).
      rewrite app_assoc, <- repeat_cons. reflexivity.
    + intros fuel rest Hf. destruct fuel as [|fuel]; [lia|]. cbn [repeat app process_postfix].
      destruct (HP fuel rest) as (t & -> & Ht); [lia|]. exists (SNode (SVOp NOT) t SNone). split; [reflexivity|].
      intros p. cbn [eval_node]. unfold set_minus. rewrite all_platforms_all, Ht. reflexivity.
Qed.

Definition no_top_not (ops : list svalue) : Prop := match ops with v :: _ => is_not v = false | [] => True end.
Lemma pop_nots_app k ops out : no_top_not ops -> pop_nots (nots k ++ ops) out = (ops, nots k ++ out).
Proof.
  intros H. revert out. induction k as [|k IH]; intros out; cbn [repeat app].
  - destruct ops as [|v ops]; [reflexivity|]. cbn [pop_nots]. cbn in H. rewrite H. reflexivity.
  - cbn [pop_nots is_not]. cbv beta iota. rewrite IH. f_equal.
    change (SVOp NOT :: out) with ([SVOp NOT] ++ out). rewrite app_assoc, <- repeat_cons. reflexivity.
Qed.
Lemma rev_repeat {A} (x : A) k : rev (repeat x k) = repeat x k.
Proof. induction k as [|k IH]; [reflexivity|]. cbn [repeat rev]. rewrite IH. symmetry. apply repeat_cons. Qed.

Lemma grouped_shunt ws f : right_grouped ws f -> exists bins segs,
  (forall ops out, no_top_not ops -> shunt ws ops out = rev ops ++ bins ++ segs ++ out)
  /\ forall fuel rest, length (bins ++ segs) <= fuel ->
     exists t, process_postfix fuel (bins ++ segs ++ rest) = (t, rest) /\ forall p, eval_node t p = f p.
Proof.
  assert (Step : forall ws f o ws' g v h,
    operand ws f -> init_value o = SVOp v -> v <> NOT ->
    (forall t1 t2, (forall p, eval_node t1 p = f p) -> (forall p, eval_node t2 p = g p) ->
       forall p, eval_node (SNode (SVOp v) t1 t2) p = h p) ->
    (exists bins segs,
      (forall ops out, no_top_not ops -> shunt ws' ops out = rev ops ++ bins ++ segs ++ out)
      /\ forall fuel rest, length (bins ++ segs) <= fuel ->
         exists t, process_postfix fuel (bins ++ segs ++ rest) = (t, rest) /\ forall p, eval_node t p = g p) ->
    exists bins segs,
      (forall ops out, no_top_not ops -> shunt (ws ++ o :: ws') ops out = rev ops ++ bins ++ segs ++ out)
      /\ forall fuel rest, length (bins ++ segs) <= fuel ->
         exists t, process_postfix fuel (bins ++ segs ++ rest) = (t, rest) /\ forall p, eval_node t p = h p).
  { intros ws1 f1 o ws' g v h HO HI HV HE (bins & segs & HS & HP).
    destruct (operand_shunt ws1 f1 HO) as (k & u & Hu & HSu & HPu).
    exists (SVOp v :: bins), (segs ++ nots k ++ [u]). split.
    - intros ops out Hn. rewrite HSu. cbn [shunt]. rewrite HI.
      replace (is_not (SVOp v)) with false by (destruct v; [reflexivity|reflexivity|contradiction]).
      cbn [is_logical_op]. cbv beta iota zeta. rewrite (pop_nots_app k ops (u :: out) Hn).
      rewrite HS by (destruct v; [reflexivity|reflexivity|contradiction]).
      cbn [rev]. rewrite <- !app_assoc. reflexivity.
    - intros fuel rest Hf. destruct fuel as [|fuel]; [cbn in Hf; lia|].
      cbn [app length] in Hf. rewrite !app_length, repeat_length in Hf. cbn [length] in Hf.
      replace ((SVOp v :: bins) ++ (segs ++ nots k ++ [u]) ++ rest)
        with (SVOp v :: (bins ++ segs ++ (nots k ++ u :: rest)))
        by (cbn [app]; rewrite <- !app_assoc; reflexivity).
      destruct (HP fuel (nots k ++ u :: rest)) as (t2 & E2 & H2); [rewrite app_length; lia|].
      destruct (HPu fuel rest) as (t1 & E1 & H1); [lia|].
      exists (SNode (SVOp v) t1 t2). split; [|exact (HE t1 t2 H1 H2)].
      cbn [process_postfix]. destruct v; [| |contradiction]; rewrite E2, E1; reflexivity. }
  induction 1 as [ws f HO|ws f o ws' g HO Ho _ IH|ws f o ws' g HO Ho _ IH].
  - destruct (operand_shunt ws f HO) as (k & u & Hu & HSu & HPu). exists [], (nots k ++ [u]). split.
    + intros ops out _. rewrite <- (app_nil_r ws), HSu. cbn [shunt]. rewrite rev_app_distr, rev_repeat, <- !app_assoc.
      reflexivity.
    + intros fuel rest Hf. cbn [app] in *. rewrite app_length, repeat_length in Hf. cbn [length] in Hf.
      rewrite <- app_assoc. apply HPu. lia.
  - apply (Step ws f o ws' g AND _ HO (init_and o Ho)); [discriminate| |exact IH].
    intros t1 t2 H1 H2 p. cbn [eval_node]. unfold set_inter. rewrite H1, H2. reflexivity.
  - apply (Step ws f o ws' g OR _ HO (init_or o Ho)); [discriminate| |exact IH].
    intros t1 t2 H1 H2 p. cbn [eval_node]. unfold set_union. rewrite H1, H2. reflexivity.
Qed.

Lemma grouped_tree ws f : right_grouped ws f -> forall p, eval_node (parse_selector_tree ws) p = f p.
Proof.
  intros H p. destruct (grouped_shunt ws f H) as (bins & segs & HS & HP).
  unfold parse_selector_tree. cbv zeta. rewrite (HS [] [] I). cbn [rev app]. rewrite app_nil_r.
  destruct (HP (S (length (bins ++ segs))) []) as (t & E & Ht); [lia|]. rewrite app_nil_r in E. rewrite E. apply Ht.
Qed.

(** * Words *)
Lemma split_aux_word w : forall cur s, (forall c, In c w -> is_space c = false) ->
  split_ws_aux cur (w ++ s) = split_ws_aux (rev w ++ cur) s.
Proof.
  induction w as [|c w IH]; intros cur s H; [reflexivity|]. cbn [app split_ws_aux].
  rewrite (H c (or_introl eq_refl)). rewrite IH by (intros d Hd; apply H; right; exact Hd).
  cbn [rev]. rewrite <- app_assoc. reflexivity.
Qed.
Lemma split_blank s t : blank s -> split_ws (s ++ t) = split_ws t.
Proof.
  induction s as [|c s IH]; intros H; [reflexivity|]. unfold split_ws in *. cbn [app split_ws_aux].
  rewrite (H c (or_introl eq_refl)). apply IH. intros d Hd. apply H. right. exact Hd.
Qed.
Lemma rev_cons_not_nil {A} (w : list A) : w <> [] -> exists x l, rev w = x :: l.
Proof. intros H. destruct (rev w) as [|x l] eqn:E; [|eauto]. exfalso. apply H. rewrite <- (rev_involutive w), E. reflexivity. Qed.
Lemma split_words text ws : words_of text ws -> split_ws text = ws.
Proof.
  induction 1 as [s Hs|s w rest ws Hs [Hn Hw] HR _ IH].
  - rewrite <- (app_nil_r s), split_blank by exact Hs. reflexivity.
  - rewrite split_blank by exact Hs. unfold split_ws. rewrite split_aux_word by exact Hw. rewrite app_nil_r.
    destruct (rev_cons_not_nil w Hn) as (x & l & E). rewrite E.
    destruct HR as [->|(c & t & -> & Hc)].
    + cbn [split_ws_aux]. rewrite <- E, rev_involutive. f_equal. exact IH.
    + cbn [split_ws_aux]. rewrite Hc, <- E, rev_involutive. f_equal.
      unfold split_ws in IH. cbn [split_ws_aux] in IH. rewrite Hc in IH. exact IH.
Qed.
(** Every text has words. *)
Lemma words_exist text : exists ws, words_of text ws.
Proof.
  enough (forall n text, length text <= n -> exists ws, words_of text ws) by eauto.
  clear. intros n. induction n as [|n IH]; intros text Hl.
  { destruct text; [|cbn in Hl; lia]. exists []. constructor. intros c []. }
  assert (HB : forall l : str, exists a b, l = a ++ b /\ blank a /\ (b = [] \/ exists c t, b = c :: t /\ is_space c = false)).
  { induction l as [|c l (a & b & -> & Ha & Hb)]; [exists [], []; repeat split; auto; intros c []|].
    destruct (is_space c) eqn:E.
    - exists (c :: a), b. repeat split; auto. intros d [<-|Hd]; auto.
    - exists [], (c :: a ++ b). split; [reflexivity|]. split; [intros d []|right; eauto]. }
  assert (HW : forall l : str, exists a b, l = a ++ b /\ (forall c, In c a -> is_space c = false)
             /\ (b = [] \/ exists c t, b = c :: t /\ is_space c = true)).
  { induction l as [|c l (a & b & -> & Ha & Hb)]; [exists [], []; repeat split; auto; intros c []|].
    destruct (is_space c) eqn:E.
    - exists [], (c :: a ++ b). split; [reflexivity|]. split; [intros d []|right; eauto].
    - exists (c :: a), b. repeat split; auto. intros d [<-|Hd]; auto. }
  destruct (HB text) as (s & b & -> & Hs & [->|(c & t & -> & Hc)]).
  { exists []. rewrite app_nil_r. constructor. exact Hs. }
  destruct (HW t) as (w & rest & -> & Hw & HR).
  destruct (IH rest) as (ws & Hws).
  { rewrite app_length in Hl. cbn [length] in Hl. rewrite app_length in Hl. lia. }
  exists ((c :: w) :: ws). change (c :: w ++ rest) with ((c :: w) ++ rest). constructor; auto.
  split; [discriminate|]. intros d [<-|Hd]; auto.
Qed.
Lemma words_of_split text : words_of text (split_ws text).
Proof. destruct (words_exist text) as (ws & H). rewrite (split_words text ws H). exact H. Qed.

Lemma content_brackets text : init_content (in_brackets text) SV0 = text.
Proof.
  unfold init_content, in_brackets. change ($"[" ++ text ++ $"]") with (cLB :: text ++ [cRB]).
  cbv beta iota. rewrite ceq_refl. change (cLB :: text ++ [cRB]) with ((cLB :: text) ++ [cRB]). rewrite last_last, ceq_refl. cbn [andb].
  cbn [app tl]. apply removelast_last.
Qed.

Lemma c31 text ws f : words_of text ws -> right_grouped ws f -> forall p,
  get_selected_platforms (selector_parser (in_brackets text) SV0) p = f p
  /\ get_selected_platforms (selector_parser text SV1) p = f p.
Proof.
  intros HW HG p. unfold get_selected_platforms, selector_parser. cbv zeta. cbn [s_root]. rewrite content_brackets.
  cbn [init_content]. rewrite (split_words text ws HW). split; apply grouped_tree; exact HG.
Qed.
