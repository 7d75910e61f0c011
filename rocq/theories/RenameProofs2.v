(** C134, continued (proofs only): the steps of the sections. *)
From Verif Require Export RenameProofs.
From Verif Require Import Lemmas FrameProofs FrameProofs2 PatchProofs PatchProofs2 PatchProofs3 PathProofs PathProofs2 RenderProofs RenderProofs2 SectionProofs SectionProofs2
  ContextProofs KeepProofs KeepProofs2 PlainProofs GoesProofs ConvertSpec PlainSpec VarsSpec AboutProofs AboutProofs2 RenameProofs RenameSpec.

Lemma others_are olds l k : other_lines olds l k -> k = taken_all olds l.
Proof.
  induction 1 as [|x l l' N K IH|c x l l' O C K IH].
  - symmetry. apply taken_all_nil.
  - change (x :: l) with ([x] ++ l). rewrite taken_all_app, <- IH, taken_all_none; [reflexivity|]. intros c y I [<-|[]]. exact (N c I).
  - change (x :: l) with ([x] ++ l). rewrite taken_all_app, <- IH, (taken_all_here _ c x O C). reflexivity.
Qed.
Lemma once_taken_all c cs l : once c l -> once c (taken_all cs l).
Proof. revert l; induction cs as [|k cs IH]; intros l O; [exact O|]. change (taken_all (k :: cs) l) with (taken_all cs (taken k l)). apply IH, once_taken, O. Qed.
Lemma lines_called T l moves lines : Forall2 (line_for T l) moves lines -> forall y, In y (concat lines) -> exists d, In d (map snd moves) /\ called d y.
Proof.
  induction 1 as [|cd ls cds lss K H IH]; intros y I; cbn [concat map] in *; [destruct I|]. apply in_app_or in I as [I|I].
  - exists (snd cd). split; [left; reflexivity|exact (line_called _ _ _ _ K y I)].
  - destruct (IH y I) as (d & J & C). exists d. split; [right; exact J|exact C].
Qed.
Lemma not_among k cs : existsb (str_eqb k) cs = false -> ~ In k cs.
Proof. intros H I. assert (existsb (str_eqb k) cs = true); [|congruence]. apply existsb_exists. exists k. split; [exact I|apply str_eqb_eq; reflexivity]. Qed.

Lemma nodup_left {A} (l m : list A) : NoDup (l ++ m) -> NoDup l.
Proof. induction l as [|x l IH]; cbn [app]; intros N; [constructor|]. inversion N as [|? ? NI N']; subst. constructor; [intros I; apply NI, in_or_app; left; exact I|apply IH; exact N']. Qed.
Lemma nodup_right {A} (l m : list A) : NoDup (l ++ m) -> NoDup m.
Proof. induction l as [|x l IH]; cbn [app]; intros N; [exact N|]. inversion N; subst. apply IH; assumption. Qed.
(** * A section and its names *)
Definition distinct (l : list str) : bool := (fix go l := match l with [] => true | x :: r => negb (existsb (str_eqb x) r) && go r end) l.
Lemma distinct_is l : distinct l = true -> NoDup l.
Proof.
  induction l as [|x l IH]; intros H; [constructor|]. cbn [distinct] in H. apply andb_prop in H as (H1 & H2). constructor; [apply not_among, negb_true_iff, H1|apply IH; exact H2].
Qed.
Definition table_fine (t : names_of_section) : bool :=
  plain_name (fst t) && distinct (old_names_of t ++ map snd (fst (snd t))) && forallb (fun cd => two_names (fst cd) (snd cd)) (fst (snd t))
  && forallb (fun c => plain_name c && str_eqb (append_to_path (path_text [fst t]) c) (path_text [fst t; c])) (snd (snd t)).

Section Names.
Context (T : tools) (t : names_of_section) (fine : table_fine t = true).
Let sec := fst t.
Let moves := fst (snd t).
Let drops := snd (snd t).
Context (root a : node) (before after : list node) (lines : list (list node)).
Context (a_called : called sec a) (a_first : forall x, In x before -> ~ called sec x) (a_lmf : n_lmf a = false) (a_key : n_keyf a = true).
Let l0 := n_children a.
Context (olds_once : forall c, In c (old_names_of t) -> once c l0) (news_absent : forall d z, In d (map snd moves) -> In z l0 -> ~ called d z).
Context (the_lines : Forall2 (line_for T l0) moves lines).
Let l1 := taken_all (map fst moves) l0 ++ concat lines.
Let l2 := taken_all (old_names_of t) l0 ++ concat lines.
Lemma sec_plain : component sec /\ isdigit sec = false.
Proof. unfold table_fine in fine. rewrite !andb_true_iff in fine. apply plain_name_is. tauto. Qed.
Lemma names_distinct : NoDup (old_names_of t ++ map snd moves).
Proof. unfold table_fine in fine. rewrite !andb_true_iff in fine. apply distinct_is. tauto. Qed.
Lemma first_later k cs : existsb (str_eqb k) (cs ++ map snd moves) = false -> first_named k (taken_all cs l0 ++ concat lines) = first_named k l0.
Proof.
  intros H. rewrite existsb_app in H. apply orb_false_iff in H as (H1 & H2). rewrite first_app, (first_taken_all k cs l0 H1), (first_none k (concat lines)); [destruct (first_named k l0); reflexivity|].
  intros y I C. destruct (lines_called _ _ _ _ the_lines y I) as (d & J & D). apply not_among in H2. assert (k = d) as -> by (unfold called in *; congruence). contradiction.
Qed.
Lemma moves_done es s : Forall2 (ext_for sec) es moves -> r_root (v1 s) = with_sec root a before after l0 -> proper_tree (r_root (v1 s)) = true ->
  exists s', (forall k, run_moves sec T es k s = k s') /\ msgs s' = msgs s /\ r_root (v1 s') = with_sec root a before after l1 /\ proper_tree (r_root (v1 s')) = true.
Proof.
  intros HX HR HP. destruct sec_plain as (C & D). apply (moves_go sec C D root a before after a_called a_first a_lmf a_key T es moves HX).
  - pose proof names_distinct as N. unfold old_names_of in N. fold moves drops in N. rewrite <- app_assoc in N.
    revert N. generalize (map fst moves) as x. generalize (map snd moves) as z. generalize drops as y. clear. intros y z x. induction x as [|c x IH]; cbn [app]; intros N.
    + exact (nodup_right _ _ N).
    + inversion N as [|? ? NI N']; subst. constructor; [|apply IH; exact N']. intros I. apply NI. apply in_app_or in I as [I|I]; apply in_or_app; [left; exact I|right; apply in_or_app; right; exact I].
  - unfold table_fine in fine. rewrite !andb_true_iff in fine. tauto.
  - intros c I. apply olds_once. apply in_or_app. left. exact I.
  - exact news_absent.
  - exact the_lines.
  - exact HR.
  - exact HP.
Qed.
Lemma drops_done s : r_root (v1 s) = with_sec root a before after l1 -> proper_tree (r_root (v1 s)) = true ->
  exists s', patch_deprecated_fields T (path_text [sec]) drops s = (Ok tt, s')
  /\ get_messages ERROR (msgs s') = get_messages ERROR (msgs s)
  /\ get_messages WARNING (msgs s') = get_messages WARNING (msgs s) ++ told_for sec l0 drops
  /\ r_root (v1 s') = with_sec root a before after l2 /\ proper_tree (r_root (v1 s')) = true.
Proof.
  intros HR HP. destruct sec_plain as (C & D). pose proof names_distinct as N.
  assert (NoDup drops) as ND by (apply nodup_left in N; exact (nodup_right _ _ N)).
  assert (forall c, In c drops -> ~ In c (map fst moves) /\ ~ In c (map snd moves)) as NA.
  { intros c I. unfold old_names_of in N. fold moves drops in N. apply in_split in I as (d1 & d2 & HD). rewrite HD in N. rewrite <- !app_assoc in N. cbn [app] in N. rewrite app_assoc in N.
    apply NoDup_remove_2 in N. split; intros I; apply N; apply in_or_app; [left; apply in_or_app; left; exact I|right; apply in_or_app; right; exact I]. }
  assert (forall y, In y (concat lines) -> forall c, In c (old_names_of t) -> ~ called c y) as NL.
  { intros y I c J K. destruct (lines_called _ _ _ _ the_lines y I) as (d & I2 & K2). assert (c = d) as -> by (unfold called in *; congruence).
    apply in_split in J as (d1 & d2 & HD). rewrite HD in N. rewrite <- app_assoc in N. cbn [app] in N. apply NoDup_remove_2 in N. apply N. apply in_or_app. right. apply in_or_app. right. exact I2. }
  destruct (drops_go sec C D root a before after a_called a_first a_lmf a_key T l0 drops l1 s ND) as (s' & M & X & W & HR' & HP'); [|exact HR|exact HP|].
  - intros c I. destruct (NA c I) as (N1 & N2). unfold table_fine in fine. rewrite !andb_true_iff in fine. destruct fine as (_ & F). rewrite forallb_forall in F.
    specialize (F c I). apply andb_prop in F as (F1 & F2). apply str_eqb_eq in F2. split; [exact F1|]. split; [exact F2|].
    assert (In c (old_names_of t)) as IO by (apply in_or_app; right; exact I). split.
    + unfold l1. apply once_app; [apply once_taken_all, olds_once, IO|]. intros y J. exact (NL y J c IO).
    + unfold l1. apply first_later. destruct (existsb (str_eqb c) (map fst moves ++ map snd moves)) eqn:X; [|reflexivity]. exfalso.
      apply existsb_exists in X as (k & J & X). apply str_eqb_eq in X as <-. apply in_app_or in J as [J|J]; contradiction.
  - exists s'. split; [exact M|]. split; [exact X|]. split; [exact W|]. split; [|exact HP']. rewrite HR'. f_equal. unfold l1, l2. rewrite taken_all_app.
    unfold old_names_of. fold moves drops. rewrite taken_all_split. f_equal. apply taken_all_none. intros c y I J. apply (NL y J). apply in_or_app. right. exact I.
Qed.
(** The section is sorted. *)
Lemma sort_done s tbl l : r_root (v1 s) = with_sec root a before after l -> proper_tree (r_root (v1 s)) = true ->
  exists s' l', sort_keys (path_text [sec]) tbl s = (Ok tt, s') /\ msgs s' = msgs s /\ r_root (v1 s') = with_sec root a before after l' /\ Permutation l l' /\ proper_tree (r_root (v1 s')) = true.
Proof.
  intros HR HP. destruct sec_plain as (C & D). unfold sort_keys, sort_subtree_keys. rewrite HR, (proj1 (sec_stack sec C)). cbn [bind].
  rewrite (sec_here sec D root a before after a_called a_first a_lmf a_key). cbn [is_nil]. cbv zeta. eexists. exists (sort_by (sort_key tbl) l). split; [reflexivity|]. cbn [v1 msgs with_root r_root].
  assert (forall f, update_at [length before] f (with_sec root a before after l) = with_lines root (before ++ f (with_lines a l) :: after)) as U.
  { intros f. cbn [update_at]. rewrite sec_children. assert (forall g, map_nth (length before) g (before ++ with_lines a l :: after) = before ++ g (with_lines a l) :: after) as ->.
    { intros g. clear. induction before as [|x b IH]; cbn [app length map_nth]; [reflexivity|]. rewrite IH. reflexivity. }
    unfold with_sec. destruct root; reflexivity. }
  rewrite U. assert (set_children (sort_by (sort_key tbl) (n_children (with_lines a l))) (with_lines a l) = with_lines a (sort_by (sort_key tbl) l)) as -> by (destruct a; reflexivity).
  split; [reflexivity|]. split; [reflexivity|]. split; [apply sort_perm|]. fold (with_sec root a before after (sort_by (sort_key tbl) l)). rewrite HR in HP. apply (sec_proper root a before after l); [exact HP|].
  apply sec_proper_lines in HP. rewrite forallb_forall in *. intros x I. apply HP. eapply Permutation_in; [apply Permutation_sym, sort_perm|exact I].
Qed.
Lemma sec_value E l d : get_value E (with_sec root a before after l) (path_text [sec]) d None = get_value_node E (with_lines a l) None.
Proof.
  destruct sec_plain as (C & D). unfold get_value. rewrite (proj1 (sec_stack sec C)). cbn [bind]. unfold traverse. rewrite (sec_here sec D root a before after a_called a_first a_lmf a_key), sec_at. reflexivity.
Qed.
End Names.
