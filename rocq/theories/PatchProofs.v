(** Proofs about JSON patches (C09-C17, C20-C22). *)
From Verif Require Export PatchSpec PathProofs2.

(** * Payloads *)
Lemma field_jget k d : field (lit k) d = jget k d.
Proof.
  unfold jget. induction d as [|[k' v] d IH]; cbn [field assoc_prim]; auto.
  destruct k'; cbn [prim_eqb]; auto.
  destruct (list_eq_dec ascii_dec (lit k) s) as [->|N].
  - rewrite str_eqb_refl. auto.
  - apply str_eqb_neq in N. rewrite N. auto.
Qed.
Lemma allowed_known k : allowed_key k = true <-> In k [PStr $"op"; PStr $"path"; PStr $"from"; PStr $"value"].
Proof.
  destruct k; cbn [allowed_key]; try (split; [discriminate|]; cbn [In]; intuition discriminate).
  rewrite mem_str_In. cbn [In].
  split; intros H; repeat (destruct H as [H|H]); try (left; congruence); try (right; left; congruence);
  try (right; right; left; congruence); try (right; right; right; left; congruence); try contradiction.
Qed.
Lemma known_fields_spec d : forallb (fun kv : prim * json => allowed_key (fst kv)) d = true <-> known_fields d.
Proof.
  unfold known_fields. rewrite forallb_forall. split.
  - intros H k v HI. apply allowed_known. apply (H (k, v) HI).
  - intros H [k v] HI. apply allowed_known. eauto.
Qed.
Lemma from_spec d : match jget "from" d with Some (JStr _) | None => true | _ => false end = true <-> text_if_present $"from" d.
Proof.
  unfold text_if_present. rewrite field_jget. destruct (jget "from" d) as [[[]| |]|]; split; intros H; auto; try discriminate;
  try (destruct H as [H|(x & H)]; discriminate); try (right; eauto).
Qed.
Definition op_text (o : opk) : str :=
  match o with OpAdd => $"add" | OpRemove => $"remove" | OpReplace => $"replace" | OpMove => $"move"
             | OpCopy => $"copy" | OpTest => $"test" end.
Lemma op_of_spec s o : op_of s = Some o <-> s = op_text o.
Proof.
  unfold op_of. split.
  - repeat (match goal with |- context[str_eqb s ?x] => destruct (str_eqb s x) eqn:? end;
            [intros [= <-]; apply str_eqb_eq; assumption|]). discriminate.
  - intros ->. destruct o; reflexivity.
Qed.

(** The action behind a request. *)
Definition perform (E : env) (q : request) (root : node) : res bool * node :=
  match str_to_stack_path (request_path q) with
  | Err e => (Err e, root)
  | Ok st =>
      match q with
      | RAdd _ v => patch_add E root st v
      | RRemove _ => patch_remove root st
      | RReplace _ v => patch_replace E root st v
      | RMove from _ => patch_move E root st from
      | RCopy from _ => patch_copy E root st from
      | RTest path v => (patch_test E root path v, root)
      end
  end.
Definition is_test (q : request) : bool := match q with RTest _ _ => true | _ => false end.
Definition self_move (q : request) : bool := match q with RMove f p => str_eqb p f | _ => false end.
Definition finish (E : env) (q : request) (o : res bool * node) (r : recipe) : outcome bool :=
  match fst o with
  | Ok true => if is_test q then (Ok true, with_root r (snd o))
               else (Ok true, mark_modified (rebuild_selectors E (with_root r (snd o))))
  | _ => (fst o, with_root r (snd o))
  end.

Ltac asks_inv H d :=
  let H1 := fresh in let K := fresh "K" in let F := fresh "F" in let O := fresh "O" in let P := fresh "P" in
  let N := fresh "N" in let V := fresh "V" in
  destruct H as (d & -> & K & F & H1);
  first [destruct H1 as (O & P & N & V) | destruct H1 as (O & P & N)];
  rewrite ?field_jget in *; apply known_fields_spec in K; apply from_spec in F.

Lemma asks_valid p q : asks p q -> schema_valid p = true.
Proof.
  intros H. destruct q as [path v|path|path v|from path|from path|path v]; asks_inv H d;
  unfold schema_valid; rewrite K, O, P, F;
  (replace (negb (is_nil path)) with true by (symmetry; apply negb_true_iff, is_nil_false; auto));
  try rewrite V; reflexivity.
Qed.
Lemma valid_asks p : schema_valid p = true -> exists q, asks p q.
Proof.
  destruct p as [|l|d]; try discriminate. unfold schema_valid. intros H.
  apply andb_prop in H as (K & H). apply known_fields_spec in K.
  destruct (jget "op" d) as [[[| | | |o]| |]|] eqn:O; try discriminate.
  destruct (jget "path" d) as [[[| | | |path]| |]|] eqn:P; try discriminate.
  apply andb_prop in H as (H & Hop). apply andb_prop in H as (N & F).
  apply negb_true_iff, is_nil_false in N. pose proof F as F0. apply from_spec in F.
  destruct (op_of o) as [k|] eqn:Ok; [|discriminate]. apply op_of_spec in Ok as ->.
  assert (field $"op" d = Some (JStr (op_text k))) as O' by (rewrite field_jget; auto).
  assert (field $"path" d = Some (JStr path)) as P' by (rewrite field_jget; auto).
  destruct k; cbn [op_text] in O'.
  - destruct (jget "value" d) as [v|] eqn:V; [|discriminate]. rewrite <- field_jget in V.
    exists (RAdd path v), d. repeat split; auto.
  - exists (RRemove path), d. repeat split; auto.
  - destruct (jget "value" d) as [v|] eqn:V; [|discriminate]. rewrite <- field_jget in V.
    exists (RReplace path v), d. repeat split; auto.
  - destruct (jget "from" d) as [[[| | | |from]| |]|] eqn:V; try discriminate. rewrite <- field_jget in V.
    exists (RMove from path), d. repeat split; auto.
  - destruct (jget "from" d) as [[[| | | |from]| |]|] eqn:V; try discriminate. rewrite <- field_jget in V.
    exists (RCopy from path), d. repeat split; auto.
  - destruct (jget "value" d) as [v|] eqn:V; [|discriminate]. rewrite <- field_jget in V.
    exists (RTest path v), d. repeat split; auto.
Qed.

Lemma patch_asks E p q r : asks p q ->
  patch E p r = if self_move q then (Ok true, r) else finish E q (perform E q (r_root r)) r.
Proof.
  intros H. pose proof (asks_valid _ _ H) as Hv. unfold patch. rewrite Hv. cbn [negb].
  unfold finish, perform, call_patch_op.
  destruct q as [path v|path|path v|from path|from path|path v]; asks_inv H d; rewrite O, P; cbn [jstr_of].
  all: match goal with |- context[op_of ?x] =>
    let y := eval vm_compute in (op_of x) in change (op_of x) with y end.
  all: cbv beta iota; rewrite ?V; cbn [jstr_of jval_of self_move is_test request_path].
  4: destruct (str_eqb path from); [reflexivity|].
  all: destruct (str_to_stack_path path) as [st|e]; [|reflexivity].
  1: destruct (patch_add E (r_root r) st v) as [[[|]|e] root'].
  4: destruct (patch_remove (r_root r) st) as [[[|]|e] root'].
  7: destruct (patch_replace E (r_root r) st v) as [[[|]|e] root'].
  10: destruct (patch_move E (r_root r) st from) as [[[|]|e] root'].
  13: destruct (patch_copy E (r_root r) st from) as [[[|]|e] root'].
  16: destruct (patch_test E (r_root r) path v) as [[|]|e].
  all: reflexivity.
Qed.
Lemma patch_invalid E p r : schema_valid p = false -> patch E p r = (Err EPatchSchema, r).
Proof. intros H. unfold patch. rewrite H. reflexivity. Qed.

Lemma with_root_id r : with_root r (r_root r) = r.
Proof. destruct r; reflexivity. Qed.

(** * Failure leaves the tree alone (everything except move) *)
Ltac brk := repeat match goal with
  | |- context[match ?x with _ => _ end] => destruct x eqn:?; cbn [fst snd]; auto; try congruence
  end.
Lemma patch_add_fail E root st v : fst (patch_add E root st v) <> Ok true -> snd (patch_add E root st v) = root.
Proof. unfold patch_add. brk. Qed.
Lemma patch_remove_fail root st : fst (patch_remove root st) <> Ok true -> snd (patch_remove root st) = root.
Proof. unfold patch_remove. brk. Qed.
Lemma patch_replace_fail E root st v : fst (patch_replace E root st v) <> Ok true -> snd (patch_replace E root st v) = root.
Proof. unfold patch_replace. brk. Qed.
Lemma patch_copy_fail E root st f : fst (patch_copy E root st f) <> Ok true -> snd (patch_copy E root st f) = root.
Proof.
  unfold patch_copy. destruct (get_value E root f None None) as [v|[]]; auto. apply patch_add_fail.
Qed.
Definition is_move (q : request) : bool := match q with RMove _ _ => true | _ => false end.
Lemma perform_fail E q root : is_move q = false -> fst (perform E q root) <> Ok true -> snd (perform E q root) = root.
Proof.
  intros Hm. unfold perform. destruct (str_to_stack_path (request_path q)) as [st|e]; auto.
  destruct q; try discriminate; auto using patch_add_fail, patch_remove_fail, patch_replace_fail, patch_copy_fail.
Qed.
Lemma finish_fail E q o r : fst (finish E q o r) <> Ok true -> snd (finish E q o r) = with_root r (snd o).
Proof. unfold finish. destruct (fst o) as [[|]|e]; cbn [fst snd]; auto. destruct (is_test q); cbn [fst]; congruence. Qed.
Lemma finish_fst E q o r : fst (finish E q o r) = fst o.
Proof. unfold finish. destruct (fst o) as [[|]|e]; cbn [fst snd]; auto. destruct (is_test q); reflexivity. Qed.

Lemma c10 E p q r : asks p q -> is_move q = false ->
  fst (patch E p r) <> Ok true -> snd (patch E p r) = r.
Proof.
  intros H Hm. rewrite (patch_asks E p q r H).
  replace (self_move q) with false by (destruct q; try reflexivity; discriminate).
  intros Hf. rewrite finish_fail by auto. rewrite finish_fst in Hf. rewrite perform_fail by auto. apply with_root_id.
Qed.
Lemma c09 E p path v r : asks p (RTest path v) ->
  snd (patch E p r) = r
  /\ (fst (patch E p r) = Ok true <-> exists w, get_value E (r_root r) path None None = Ok w /\ json_eqb w v = true)
  /\ (fst (patch E p r) = Ok false <->
      get_value E (r_root r) path None None = Err EKey
      \/ exists w, get_value E (r_root r) path None None = Ok w /\ json_eqb w v = false).
Proof.
  intros H.
  assert (path <> []) as Hne by (asks_inv H d; auto).
  rewrite (patch_asks E p _ r H). cbn [self_move].
  destruct (str_to_stack_path_ok path Hne) as (st & Hst).
  assert (perform E (RTest path v) (r_root r) = (patch_test E (r_root r) path v, r_root r)) as HP
    by (unfold perform; cbn [request_path]; rewrite Hst; reflexivity).
  rewrite HP. rewrite finish_fst. split.
  { unfold finish; cbn [fst snd is_test]. destruct (patch_test E (r_root r) path v) as [[|]|]; apply with_root_id. }
  cbn [fst]. unfold patch_test.
  destruct (get_value E (r_root r) path None None) as [w|e].
  - split; split.
    + intros [= H1]. eauto.
    + intros (w' & [= ->] & H1). congruence.
    + intros [= H1]. eauto.
    + intros [H1|(w' & [= ->] & H1)]; congruence.
  - split; split.
    + destruct e; intros H1; discriminate.
    + intros (w' & H1 & _). discriminate.
    + destruct e; intros H1; try discriminate. auto.
    + intros [[= ->]|(w' & H1 & _)]; [auto|discriminate].
Qed.

(** * Local changes *)
Lemma with_lines_set n l : with_lines n l = set_children l n.
Proof. destruct n; reflexivity. Qed.
Lemma changed_at_update (R : node -> node -> Prop) root p f n :
  node_at root p = Some n -> R n (f n) -> changed_at R p root (update_at p f root).
Proof.
  revert root. induction p as [|i p IH]; intros root H HR; cbn [node_at update_at] in *.
  - injection H as ->. constructor; auto.
  - destruct (nth_error (n_children root) i) as [c|] eqn:Hc; [|discriminate].
    rewrite (map_nth_split _ _ _ _ Hc). rewrite <- with_lines_set.
    pose proof (nth_error_split _ _ Hc) as (a & b & Hab & <-).
    rewrite Hab at 1 2. rewrite firstn_app, Nat.sub_diag, firstn_all. cbn [firstn]. rewrite app_nil_r.
    replace (skipn (S (length a)) (a ++ c :: b)) with b.
    2:{ replace (S (length a)) with (length (a ++ [c])) by (rewrite app_length; cbn; lia).
        change (a ++ c :: b) with (a ++ [c] ++ b). rewrite app_assoc.
        rewrite skipn_app, Nat.sub_diag, skipn_all. reflexivity. }
    econstructor; eauto.
Qed.
Lemma line_removed_set j n : j < length (n_children n) -> line_removed j n (set_children (remove_nth j (n_children n)) n).
Proof.
  intros H. destruct (nth_error (n_children n) j) as [x|] eqn:E; [|apply nth_error_None in E; lia].
  pose proof (nth_error_split _ _ E) as (a & b & Hab & Hl).
  exists a, x, b. split; auto. split; auto. rewrite with_lines_set. f_equal.
  unfold remove_nth. rewrite Hab, <- Hl. rewrite firstn_app, Nat.sub_diag, firstn_all. cbn [firstn]. rewrite app_nil_r. f_equal.
  replace (S (length a)) with (length (a ++ [x])) by (rewrite app_length; cbn; lia).
  change (a ++ x :: b) with (a ++ [x] ++ b). rewrite app_assoc. rewrite skipn_app, Nat.sub_diag, skipn_all. reflexivity.
Qed.
Lemma lines_inserted_set j new n : j <= length (n_children n) ->
  lines_inserted j new n (set_children (insert_at j new (n_children n)) n).
Proof.
  intros H. exists (firstn j (n_children n)), (skipn j (n_children n)). split; [symmetry; apply firstn_skipn|].
  split; [apply firstn_length_le; auto|]. rewrite with_lines_set. reflexivity.
Qed.
Lemma remove_insert {A} j (new l : list A) : j < length l ->
  remove_nth (j + length new) (insert_at j new l) = firstn j l ++ new ++ skipn (S j) l.
Proof.
  intros H. unfold remove_nth, insert_at.
  assert (length (firstn j l ++ new) = j + length new) as HL by (rewrite app_length, firstn_length_le; lia).
  rewrite app_assoc. rewrite firstn_app, HL, Nat.sub_diag. rewrite <- HL, firstn_all. cbn [firstn]. rewrite app_nil_r.
  rewrite <- app_assoc. f_equal. f_equal.
  rewrite skipn_app. rewrite skipn_all2 by lia. cbn [app].
  replace (S (length (firstn j l ++ new)) - length (firstn j l ++ new)) with 1 by lia.
  clear. revert l; induction j as [|j IH]; intros [|x l]; cbn; auto. apply IH.
Qed.
Lemma line_replaced_set j new n : j < length (n_children n) ->
  line_replaced j new n (set_children (remove_nth (j + length new) (insert_at j new (n_children n))) n).
Proof.
  intros H. rewrite remove_insert by auto.
  destruct (nth_error (n_children n) j) as [x|] eqn:E; [|apply nth_error_None in E; lia].
  exists (firstn j (n_children n)), x, (skipn (S j) (n_children n)). split; [|split].
  - clear H. revert E. generalize (n_children n). induction j as [|j IH]; intros [|y l]; cbn; try discriminate.
    + intros [= ->]. reflexivity.
    + intros H. f_equal. apply IH; auto.
  - apply firstn_length_le. lia.
  - rewrite with_lines_set. reflexivity.
Qed.

(** * Remove *)
Lemma node_eqb_value a b : node_eqb a b = true -> nval_eqb (n_value a) (n_value b) = true.
Proof. destruct a, b. cbn [node_eqb n_value]. intros H. repeat (apply andb_prop in H as (H & _)). exact H. Qed.
Lemma json_eqb_str j s : json_eqb j (JStr s) = true -> j = JStr s.
Proof.
  destruct j as [p| |]; try discriminate. destruct p; try discriminate. cbn [json_eqb prim_eqb].
  intros H. apply str_eqb_eq in H as ->. reflexivity.
Qed.
Lemma prim_eqb_refl p : prim_eqb p p = true.
Proof. destruct p; cbn [prim_eqb]; auto using eqb_reflx, Z.eqb_refl, str_eqb_refl. Qed.
Lemma find_equal_spec x i l j : find_equal x i l = Some j ->
  i <= j /\ exists c, nth_error l (j - i) = Some c /\ node_eqb c x = true.
Proof.
  revert i; induction l as [|c l IH]; intros i; cbn [find_equal]; [discriminate|].
  destruct (node_eqb c x) eqn:E.
  - intros [= <-]. rewrite Nat.sub_diag. split; auto. exists c. auto.
  - intros H. apply IH in H as (H1 & c' & H2 & H3). split; [lia|]. exists c'. split; auto.
    replace (j - i) with (S (j - S i)) by lia. exact H2.
Qed.
Lemma find_equal_first x i l j c : find_equal x i l = Some j -> nth_error l c = Some x -> node_eqb x x = true -> j <= i + c.
Proof.
  revert i c; induction l as [|y l IH]; intros i c; cbn [find_equal]; [discriminate|].
  destruct c; cbn [nth_error].
  - intros H [= ->] Hx. rewrite Hx in H. injection H as <-. lia.
  - intros H Hn Hx. destruct (node_eqb y x); [injection H as <-; lia|].
    specialize (IH _ _ H Hn Hx). lia.
Qed.
Lemma find_equal_none x i l : find_equal x i l = None -> node_eqb x x = true -> ~ In x l.
Proof.
  revert i; induction l as [|y l IH]; intros i; cbn [find_equal]; [auto|].
  destruct (node_eqb y x) eqn:E; [discriminate|]. intros H Hx [->|HI]; [congruence|]. eapply IH; eauto.
Qed.
Lemma prim_eqb_sym a b : prim_eqb a b = prim_eqb b a.
Proof.
  destruct a, b; cbn [prim_eqb]; auto using Z.eqb_sym, str_eqb_sym.
  destruct b0, b; reflexivity.
Qed.
Lemma mlv_eqb_refl m : mlv_eqb m m = true.
Proof. apply str_eqb_refl. Qed.
Lemma json_eqb_refl j : proper_value j = true -> json_eqb j j = true.
Proof.
  induction j as [p|l IH|d IH] using json_ind'; cbn [proper_value json_eqb]; intros H.
  - apply prim_eqb_refl.
  - induction l as [|x l IHl]; auto. cbn [forallb] in H. apply andb_prop in H as (H1 & H2).
    inversion IH; subst. rewrite H3 by auto. cbn [andb]. apply IHl; auto.
  - apply andb_prop in H as (HD & HV). rewrite Nat.eqb_refl. cbn [andb].
    assert (forall k v, In (k, v) d -> assoc_prim k d = Some v) as HA.
    { clear IH HV. induction d as [|[k0 v0] d IHd]; [contradiction|]. cbn [distinct_keys] in HD.
      apply andb_prop in HD as (HD1 & HD2). apply negb_true_iff in HD1.
      intros k v [[= -> ->]|HI]; cbn [assoc_prim].
      - rewrite prim_eqb_refl. auto.
      - assert (prim_eqb k k0 = false) as ->; [|apply IHd; auto].
        destruct (prim_eqb k k0) eqn:E; auto.
        assert (existsb (fun kv : prim * json => prim_eqb (fst kv) k0) d = true); [|congruence].
        apply existsb_exists. exists (k, v). auto. }
    assert (forall d0, incl d0 d ->
      (fix go (d1 : list (prim * json)) : bool :=
         match d1 with
         | [] => true
         | (k, v) :: d' => match assoc_prim k d with Some w => json_eqb v w | None => false end && go d'
         end) d0 = true) as HG; [|apply HG, incl_refl].
    induction d0 as [|[k v] d0 IHd0]; auto. intros Hi.
    assert (In (k, v) d) as HI by (apply Hi; left; auto).
    rewrite (HA k v HI). rewrite IHd0 by (eapply incl_cons_inv; eauto). rewrite andb_true_r.
    rewrite Forall_forall in IH. apply (IH (k, v) HI). rewrite forallb_forall in HV. apply (HV (k, v) HI).
Qed.
Lemma node_eqb_refl n : proper_tree n = true -> node_eqb n n = true.
Proof.
  induction n as [v c chs l m k IH] using node_ind'. cbn [proper_tree node_eqb]. intros H.
  apply andb_prop in H as (HV & HC).
  assert (nval_eqb v v = true) as -> by (destruct v; auto; apply json_eqb_refl; auto).
  rewrite str_eqb_refl, eqb_reflx, mlv_eqb_refl. cbn [andb].
  induction chs as [|x chs IHc]; auto. cbn [forallb] in HC. apply andb_prop in HC as (H1 & H2).
  inversion IH; subst. rewrite H3 by auto. apply IHc; auto.
Qed.
Lemma proper_child n i c : proper_tree n = true -> nth_error (n_children n) i = Some c -> proper_tree c = true.
Proof.
  destruct n; cbn [proper_tree n_children]. intros H Hn. apply andb_prop in H as (_ & H).
  rewrite forallb_forall in H. apply H. eapply nth_error_In; eauto.
Qed.
Lemma proper_at n p m : proper_tree n = true -> node_at n p = Some m -> proper_tree m = true.
Proof.
  revert n; induction p as [|i p IH]; intros n H Hn; cbn [node_at] in Hn.
  - congruence.
  - destruct (nth_error (n_children n) i) eqn:E; [|discriminate]. eapply IH; [|eauto]. eapply proper_child; eauto.
Qed.

(** * Paths and their parents *)
Lemma traverse_pos_parent root p0 pp pos q :
  traverse_pos root (p0 :: pp) = Some pos -> traverse_pos root pp = Some q ->
  exists n i c, pos = q ++ [i] /\ node_at root q = Some n /\ step_child n p0 = Some (i, c).
Proof.
  unfold traverse_pos. cbn [rev]. destruct (rev pp) as [|x [|y l]]; cbn [app]; [discriminate| |].
  - destruct (str_eqb x ROOT_VALUE); [|discriminate]. intros H [= <-]. cbn [traverse_recurse] in H.
    destruct (step_child root p0) as [[i c]|] eqn:E; [|discriminate]. cbn [option_map] in H. injection H as <-.
    exists root, i, c. auto.
  - change (y :: l ++ [p0]) with ((y :: l) ++ [p0]). rewrite traverse_recurse_app.
    intros H Hq. rewrite Hq in H. destruct (node_at root q) as [n|] eqn:Hn; [|discriminate].
    cbn [traverse_recurse] in H. destruct (step_child n p0) as [[i c]|] eqn:E; [|discriminate].
    cbn [option_map] in H. injection H as <-. exists n, i, c. auto.
Qed.
Lemma traverse_pos_step root p0 pp q n i c :
  traverse_pos root pp = Some q -> node_at root q = Some n -> step_child n p0 = Some (i, c) ->
  traverse_pos root (p0 :: pp) = Some (q ++ [i]).
Proof.
  unfold traverse_pos. cbn [rev]. destruct (rev pp) as [|x [|y l]]; cbn [app]; [discriminate| |].
  - destruct (str_eqb x ROOT_VALUE); [|discriminate]. intros [= <-] [= <-] H. cbn [traverse_recurse]. rewrite H. reflexivity.
  - change (y :: l ++ [p0]) with ((y :: l) ++ [p0]). rewrite traverse_recurse_app. intros -> -> H.
    cbn [traverse_recurse]. rewrite H. reflexivity.
Qed.
Lemma traverse_pos_step_none root p0 pp q n :
  traverse_pos root pp = Some q -> node_at root q = Some n -> step_child n p0 = None ->
  traverse_pos root (p0 :: pp) = None.
Proof.
  unfold traverse_pos. cbn [rev]. destruct (rev pp) as [|x [|y l]]; cbn [app]; [discriminate| |].
  - destruct (str_eqb x ROOT_VALUE); [|discriminate]. intros [= <-] [= <-] H. cbn [traverse_recurse]. rewrite H. reflexivity.
  - change (y :: l ++ [p0]) with ((y :: l) ++ [p0]). rewrite traverse_recurse_app. intros -> -> H.
    cbn [traverse_recurse]. rewrite H. reflexivity.
Qed.
Lemma not_leaf_of_child n i c : nth_error (n_children n) i = Some c -> is_leaf n = false.
Proof. unfold is_leaf. destruct (n_children n); cbn; auto. destruct i; discriminate. Qed.

(** A path text with at least one component: its stack and the stack of its parent. *)
Lemma stack_snoc cs c : Forall component (cs ++ [c]) ->
  str_to_stack_path (path_text (cs ++ [c])) = Ok (c :: rev cs ++ [ROOT_VALUE])
  /\ str_to_stack_path (path_text cs ++ [cSL]) = Ok (rev cs ++ [ROOT_VALUE]).
Proof.
  intros H. split.
  - rewrite stack_of_path; auto; [|destruct cs; discriminate]. rewrite rev_app_distr. reflexivity.
  - apply stack_of_path_slash. apply Forall_app in H. tauto.
Qed.

(** * Remove *)
Lemma patch_remove_success root st root' : proper_tree root = true ->
  patch_remove root st = (Ok true, root') ->
  exists p i, traverse_pos root st = Some (p ++ [i]) /\ changed_at (line_removed i) p root root'
              /\ exists n, node_at root p = Some n /\ root' = update_at p (fun n => set_children (remove_nth i (n_children n)) n) root.
Proof.
  intros Hp. unfold patch_remove. destruct st as [|p0 pp]; [discriminate|].
  unfold traverse. destruct (traverse_pos root (p0 :: pp)) as [pos|] eqn:Ht; [|discriminate].
  destruct (node_at root pos) as [x|] eqn:Hx; [|discriminate].
  destruct (is_valid_patch_node (Some x) None); [|discriminate]. cbn [negb].
  destruct (traverse_pos root pp) as [q|] eqn:Hq; [|discriminate].
  destruct (traverse_pos_parent _ _ _ _ _ Ht Hq) as (n & i & c & -> & Hn & Hs).
  rewrite Hn. destruct (is_valid_patch_node (Some n) _); [|discriminate]. cbn [negb].
  rewrite node_at_app, Hn in Hx. cbn [node_at] in Hx. pose proof (step_child_nth _ _ _ _ Hs) as Hc. rewrite Hc in Hx.
  injection Hx as ->.
  assert (forall f root', (Ok true, update_at q f root) = (Ok true, root') -> root' = update_at q f root) as Inj
    by congruence.
  unfold step_child in Hs. destruct (isdigit p0).
  - destruct (nth_error (virt_to_phys (n_children n)) (int_of p0)) as [j|]; [|discriminate].
    destruct (nth_error (n_children n) j) as [d|]; [|discriminate]. destruct (n_lmf d); [|discriminate].
    injection Hs as -> ->. intros H. apply (Inj (fun n => set_children (remove_nth i (n_children n)) n)) in H as ->.
    exists q, i. split; auto. split; [|eauto].
    eapply changed_at_update; eauto. apply line_removed_set. apply nth_error_Some. congruence.
  - destruct (find_equal x 0 (n_children n)) as [j|] eqn:F; [|discriminate].
    assert (j = i) as ->.
    { assert (node_eqb x x = true) as Hr by (eapply node_eqb_refl, proper_child, Hc; eapply proper_at, Hn; auto).
      pose proof (find_equal_first _ _ _ _ _ F Hc Hr). apply find_equal_spec in F as (_ & y & Hy & Hey).
      rewrite Nat.sub_0_r in Hy. apply find_child_spec in Hs as (_ & _ & Hv & Hfirst). rewrite Nat.sub_0_r in *.
      destruct (Nat.lt_ge_cases j i) as [L|]; [|lia].
      specialize (Hfirst j y L Hy). apply node_eqb_value in Hey.
      unfold val_is in Hv. destruct (n_value x) as [|[[| | | |t]| |]]; try discriminate.
      destruct (n_value y) as [|jy]; try discriminate. cbn [nval_eqb] in Hey. apply json_eqb_str in Hey as ->.
      cbn [val_is] in Hfirst. congruence. }
    intros H. apply (Inj (fun n => set_children (remove_nth i (n_children n)) n)) in H as ->.
    exists q, i. split; auto. split; [|eauto].
    eapply changed_at_update; eauto. apply line_removed_set. apply nth_error_Some. congruence.
Qed.
Lemma valid_bare n : is_valid_patch_node (Some n) None = negb (bare_value n).
Proof.
  unfold is_valid_patch_node, bare_value. rewrite leaf_terminal.
  destruct (n_lmf n), (n_keyf n), (terminal n); reflexivity.
Qed.
Lemma find_equal_some x i l : In x l -> node_eqb x x = true -> exists j, find_equal x i l = Some j.
Proof.
  intros HI Hr. destruct (find_equal x i l) eqn:F; eauto. exfalso. eapply find_equal_none; eauto.
Qed.
Lemma patch_remove_works root p0 pp q i x : proper_tree root = true ->
  traverse_pos root pp = Some q -> traverse_pos root (p0 :: pp) = Some (q ++ [i]) -> node_at root (q ++ [i]) = Some x ->
  bare_value x = false -> fst (patch_remove root (p0 :: pp)) = Ok true.
Proof.
  intros Hp Hq Ht Hx Hb.
  destruct (traverse_pos_parent _ _ _ _ _ Ht Hq) as (n & i' & c & Hqi & Hn & Hs). apply app_inj_tail in Hqi as (_ & <-).
  pose proof (step_child_nth _ _ _ _ Hs) as Hc.
  pose proof Hx as Hx'. rewrite node_at_app, Hn in Hx'. cbn [node_at] in Hx'. rewrite Hc in Hx'. injection Hx' as ->.
  unfold patch_remove, traverse. rewrite Ht, Hx, valid_bare, Hb. cbn [negb]. rewrite Hq, Hn.
  assert (is_leaf n = false) as Hl by (eapply not_leaf_of_child; eauto).
  unfold step_child in Hs. unfold is_valid_patch_node. rewrite Hl, !andb_false_r.
  destruct (isdigit p0).
  - destruct (nth_error (virt_to_phys (n_children n)) (int_of p0)) as [j|]; [|discriminate].
    destruct (nth_error (n_children n) j) as [d|]; [|discriminate]. destruct (n_lmf d); [|discriminate].
    reflexivity.
  - cbn [negb].
    destruct (find_equal_some x 0 (n_children n)) as (j & ->); auto.
    + eapply nth_error_In; eauto.
    + eapply node_eqb_refl, proper_child, Hc. eapply proper_at; eauto.
Qed.

(** Lookups only depend on the labels of the lines. *)
Definition label (n : node) : nval * bool * bool := (n_value n, n_lmf n, is_comment n).
Lemma v2p_label k l l' : map label l = map label l' -> virt_to_phys_aux k l = virt_to_phys_aux k l'.
Proof.
  revert k l'; induction l as [|x l IH]; intros k [|y l'] H; try discriminate; auto.
  rewrite !map_cons in H. injection H as H1 H2 H3 H4. cbn [virt_to_phys_aux]. rewrite H3. rewrite (IH _ _ H4). reflexivity.
Qed.
Lemma find_child_label part k l l' : map label l = map label l' ->
  option_map fst (find_child part k l) = option_map fst (find_child part k l').
Proof.
  revert k l'; induction l as [|x l IH]; intros k [|y l'] H; try discriminate; auto.
  rewrite !map_cons in H. injection H as H1 H2 H3 H4. cbn [find_child]. rewrite H1.
  destruct (val_is (n_value y) part); auto.
Qed.
Lemma nth_label l l' i : map label l = map label l' ->
  option_map label (nth_error l i) = option_map label (nth_error l' i).
Proof. intros H. rewrite <- !nth_error_map. congruence. Qed.
Lemma step_child_label n n' part : map label (n_children n) = map label (n_children n') ->
  option_map fst (step_child n part) = option_map fst (step_child n' part).
Proof.
  intros H. unfold step_child. destruct (isdigit part); [|apply find_child_label; auto].
  unfold virt_to_phys. rewrite (v2p_label 0 _ _ H).
  destruct (nth_error (virt_to_phys_aux 0 (n_children n')) (int_of part)) as [i|]; auto.
  pose proof (nth_label _ _ i H) as HN.
  destruct (nth_error (n_children n) i) as [c|], (nth_error (n_children n') i) as [c'|]; try discriminate; auto.
  cbn in HN. injection HN as H1 H2 H3. rewrite H2. destruct (n_lmf c'); auto.
Qed.
Lemma map_nth_label i f l : (forall c, nth_error l i = Some c -> label (f c) = label c) -> map label (map_nth i f l) = map label l.
Proof.
  revert i; induction l as [|x l IH]; intros [|i] H; cbn [map_nth]; auto; rewrite !map_cons; f_equal; auto.
Qed.
Lemma set_children_value l n : n_value (set_children l n) = n_value n.
Proof. destruct n; reflexivity. Qed.
Lemma set_children_lmf l n : n_lmf (set_children l n) = n_lmf n.
Proof. destruct n; reflexivity. Qed.
Lemma set_children_comment l n : n_comment (set_children l n) = n_comment n.
Proof. destruct n; reflexivity. Qed.
Lemma set_children_keyf l n : n_keyf (set_children l n) = n_keyf n.
Proof. destruct n; reflexivity. Qed.
Lemma label_update p f n : (forall m, node_at n p = Some m -> label (f m) = label m) -> label (update_at p f n) = label n.
Proof.
  destruct p as [|i p]; cbn [update_at node_at]; intros H; auto.
  unfold label. rewrite set_children_value, set_children_lmf. f_equal.
  unfold is_comment. rewrite set_children_value, set_children_comment, children_set. f_equal.
  destruct (n_children n) as [|c l]; destruct i; reflexivity.
Qed.
Lemma traverse_recurse_update n parts q f : traverse_recurse n parts = Some q ->
  (forall m, node_at n q = Some m -> label (f m) = label m) ->
  traverse_recurse (update_at q f n) parts = Some q.
Proof.
  revert n q; induction parts as [|x parts IH]; intros n q H HL; cbn [traverse_recurse] in *; auto.
  destruct (step_child n x) as [[i c]|] eqn:Hs; [|discriminate].
  destruct (traverse_recurse c parts) as [q'|] eqn:Hr; [|discriminate]. cbn [option_map] in H. injection H as <-.
  pose proof (step_child_nth _ _ _ _ Hs) as Hc. cbn [update_at node_at] in *. rewrite Hc in HL.
  pose proof (step_child_label n (set_children (map_nth i (update_at q' f) (n_children n)) n) x) as HS.
  rewrite children_set, Hs in HS.
  destruct (step_child (set_children _ n) x) as [[j d]|] eqn:Hs'.
  - cbn [option_map fst] in HS. rewrite map_nth_label in HS.
    2:{ intros c' Hc'. rewrite Hc in Hc'. injection Hc' as <-. apply label_update; auto. }
    specialize (HS eq_refl). injection HS as <-.
    apply step_child_nth in Hs'. rewrite children_set, nth_map_nth_same, Hc in Hs'. injection Hs' as <-.
    rewrite IH; auto.
  - cbn [option_map fst] in HS. rewrite map_nth_label in HS; [specialize (HS eq_refl); discriminate|].
    intros c' Hc'. rewrite Hc in Hc'. injection Hc' as <-. apply label_update; auto.
Qed.
Lemma traverse_pos_update n st q f : traverse_pos n st = Some q ->
  (forall m, node_at n q = Some m -> label (f m) = label m) ->
  traverse_pos (update_at q f n) st = Some q.
Proof.
  unfold traverse_pos. destruct (rev st) as [|a [|b l]]; auto. apply traverse_recurse_update.
Qed.
Lemma contains_value_stack root s st : str_to_stack_path s = Ok st ->
  contains_value root s = Ok (match traverse_pos root st with Some _ => true | None => false end).
Proof.
  intros H. unfold contains_value. rewrite H. cbn [bind]. f_equal. unfold traverse.
  destruct (traverse_pos root st) eqn:E; auto. apply traverse_pos_some in E as (m & ->). reflexivity.
Qed.
