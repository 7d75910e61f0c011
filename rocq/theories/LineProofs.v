(** Proofs for C146. *)
From Verif Require Import LayoutProofs3 LayoutProofs8 CommentFileProofs NewFileProofs ValueProofs JinjaProofs.
From Verif Require Export QueryProofs SelProofs2 LineSpec.

(** Every line other than a comment, and other than the value behind a key, is found at its path. *)
Lemma line_resolves E p : forall n m, addressable n = true -> p <> [] -> node_at n p = Some m -> is_comment m = false ->
  terminal m && negb (n_keyf m) && negb (n_lmf m) = false ->
  (n_lmf m = false -> is_root m = false)
  /\ exists cs, cs <> [] /\ Forall component cs /\ path_at E n p = path_text cs /\ traverse_recurse n cs = Some p.
Proof.
  induction p as [|i p IH]; intros n m Ha NE Hm Hc Hp; [contradiction|]. cbn [node_at] in Hm.
  destruct (nth_error (n_children n) i) as [c|] eqn:Ei; [|discriminate]. pose proof (addressable_children _ _ _ Ha Ei) as Hac.
  destruct p as [|j p].
  - cbn [node_at] in Hm. injection Hm as ->. destruct (own_component E n i m Ha Ei Hc Hp) as (x & Cx & Tx & Sx). split.
    + intros HL. destruct (addressable_list_nth [] _ _ _ (addressable_names _ Ha) Ei) as (G1 & _). unfold addressable_name in G1.
      rewrite HL, andb_true_r in *. rewrite Hp, Hc in G1. cbn [orb] in G1. unfold is_root. destruct (n_value m) as [|[[| | | |s]| |]]; try discriminate G1.
      rewrite !andb_true_iff, !negb_true_iff in G1. destruct G1 as ((_ & N2) & _). cbn [nval_eqb json_eqb prim_eqb].
      apply str_eqb_neq. intros ->. discriminate N2.
    + exists [x]. split; [discriminate|]. split; [constructor; auto|]. split; [cbn [path_at path_text]; rewrite Ei, Tx, ?app_nil_r; reflexivity|].
      cbn [traverse_recurse]. rewrite Sx. reflexivity.
  - assert (exists d, nth_error (n_children c) j = Some d) as (d & Ed).
    { cbn [node_at] in Hm. destruct (nth_error (n_children c) j) as [d|]; [eauto|discriminate]. }
    destruct (IH c m Hac) as (HR & cs & NC & F & T & R); auto; [discriminate|]. split; [exact HR|].
    assert (is_comment c = false) as Hcc by (eapply has_children_not_comment; eauto).
    assert (terminal c && negb (n_keyf c) && negb (n_lmf c) = false) as Hpc.
    { unfold terminal. destruct (n_children c) as [|y l]; [destruct j; discriminate Ed|reflexivity]. }
    destruct (own_component E n i c Ha Ei Hcc Hpc) as (x & Cx & Tx & Sx).
    exists (x :: cs). split; [discriminate|]. split; [constructor; auto|]. split.
    + cbn [path_at path_text] in *. rewrite Ei, Tx, T. reflexivity.
    + cbn [traverse_recurse]. rewrite Sx, R. reflexivity.
Qed.
(** What is known of the node of a line. *)
Definition head_of (c : str) (v : content) (n : node) : Prop :=
  n_comment n = c /\ is_comment n = false /\ terminal n && negb (n_keyf n) && negb (n_lmf n) = false
  /\ forall u, v = CValue (JP u) -> (exists k, n = key_node k c [value_node (JP u) c]) \/ n = Nd (VJ (JP u)) c [] true MNone false.
Lemma row_head l ws : shows l ws -> forall p c v, In (RLine p c v) ws ->
  exists n st, In (n, st) l /\ stack_path_to_str st = p /\ head_of c v n.
Proof.
  induction 1 as [|c st l ws H _ IH|ns sts p c v l ws H1 H2 H3 _ IH]; intros p' c' v' HI; [destruct HI| |].
  - destruct HI as [HI|HI]; [discriminate HI|]. destruct (IH _ _ _ HI) as (n & st' & K & R). exists n, st'. split; [right; exact K|exact R].
  - destruct HI as [HI|HI].
    + injection HI as -> -> ->. destruct H1 as [k c p|k w c p|k c p ls m|n p c Hn Hc|w c p]; cbn [length] in H2; destruct sts as [|st sts]; try discriminate H2;
        pose proof (Forall_inv H3) as P1; cbv beta in P1; eexists _, st; (split; [apply in_or_app; left; left; reflexivity|]); (split; [exact P1|]).
      * split; [reflexivity|]. split; [reflexivity|]. split; [reflexivity|]. intros u Hu. discriminate Hu.
      * split; [reflexivity|]. split; [reflexivity|]. split; [reflexivity|]. intros u Hu. injection Hu as ->. left. eauto.
      * split; [reflexivity|]. split; [reflexivity|]. split; [reflexivity|]. intros u Hu. discriminate Hu.
      * split; [exact Hc|]. split; [destruct (n_children n) as [|y z] eqn:HC; [contradiction|]; apply (has_children_not_comment n 0 y); rewrite HC; reflexivity|].
        split; [unfold terminal; destruct (n_children n); [contradiction|reflexivity]|]. intros u Hu. discriminate Hu.
      * split; [reflexivity|]. split; [reflexivity|]. split; [reflexivity|]. intros u Hu. injection Hu as ->. right. reflexivity.
    + destruct (IH _ _ _ HI) as (n & st' & K & R). exists n, st'. split; [apply in_or_app; right; exact K|exact R].
Qed.
Lemma addressed E root q n : addressable_document root = true -> q <> [] -> node_at root q = Some n -> is_comment n = false ->
  terminal n && negb (n_keyf n) && negb (n_lmf n) = false -> addresses root (path_at E root q) q /\ (n_lmf n = false -> is_root n = false).
Proof.
  intros HA NE Hq H2 H3. unfold addressable_document in HA. rewrite !andb_true_iff in HA. destruct HA as (_ & HA).
  destruct (line_resolves E q _ n HA NE Hq H2 H3) as (HRoot & cs & NC & F & T & R). split; [|exact HRoot].
  exists (rev cs ++ [ROOT_VALUE]). rewrite T, stack_of_path by auto. split; [reflexivity|]. unfold traverse_pos. rewrite rev_app_distr, rev_involutive. cbn [rev app].
  destruct cs; [contradiction|]. exact R.
Qed.
Lemma line_at E xs p c v : Forall (canonical E) xs -> no_slash_key xs -> addressable_document (document xs) = true -> In (RLine p c v) (file_rows 0 xs) ->
  exists q n, addresses (document xs) p q /\ node_at (document xs) q = Some n /\ (n_lmf n = false -> is_root n = false) /\ head_of c v n.
Proof.
  intros HC HK HA HI. destruct (walk_file E xs HC HK) as (l & HV & HS).
  destruct (row_head l _ HS p c v HI) as (n & st & HL & HP & H1 & H2 & H3 & H4).
  assert (exists q, q <> [] /\ node_at (document xs) q = Some n /\ path_at E (document xs) q = p) as (q & NE & Hq & Hpath).
  { rewrite visits_spec, preorder_eq in HV. cbn [map] in HV. injection HV as HV. rewrite <- HV in HL. apply in_map_iff in HL as (q & HQ & HIn).
    assert (In q (preorder (document xs))) as HIn' by (rewrite preorder_eq; right; exact HIn).
    destruct (preorder_node_at _ _ HIn') as (m & Hm). rewrite Hm in HQ. injection HQ as -> <-.
    destruct (preorder_list_In (n_children (document xs)) _ 0 q (fun k c H => H) HIn) as (j & q' & d & -> & _).
    exists (j :: q'). split; [discriminate|]. split; [exact Hm|]. rewrite <- HP, (stack_at_text E _ _ _ n Hm H2). reflexivity. }
  destruct (addressed E _ q n HA NE Hq H2 H3) as (AD & HRoot). rewrite Hpath in AD. exists q, n. repeat split; auto.
Qed.
Lemma found_lines E xs r : r_root r = document xs -> Forall (canonical E) xs -> no_slash_key xs -> addressable_document (document xs) = true ->
  Forall (line_found E r) (file_rows 0 xs).
Proof.
  intros HR HC HK HA. apply Forall_forall. intros [c|p c v] HI; [exact I|].
  destruct (line_at E xs p c v HC HK HA HI) as (q & n & AD & Hq & HRoot & H1 & H2 & H3 & H4).
  assert (p <> []) as PN by exact (addresses_nonempty _ _ _ AD).
  cbn [line_found]. rewrite HR. destruct (get_selector_at (document xs) p q n None r HR AD Hq) as (S1 & S2). rewrite H1 in S1, S2.
  split; [destruct (addresses_lookup _ _ _ AD) as (m & _ & HLk); rewrite contains_lookup, HLk by exact PN; reflexivity|].
  split; [rewrite S1; destruct (selector_of c); reflexivity|]. split; [rewrite S2; destruct (selector_of c); reflexivity|].
  destruct v as [| |[u| |]]; try exact I.
  assert (forall d j, (match u with PStr s => read_as E s j | _ => j = JP u end) -> get_value E (document xs) p d None = Ok j) as G.
  { intros d j HU. rewrite (value_at E _ p q n d None AD Hq). unfold get_value_node. destruct (H4 u eq_refl) as [(k & ->)| ->].
    - rewrite (HRoot eq_refl). match goal with |- context[is_single_key ?n] => change (is_single_key n) with true end. cbn [andb negb].
      cbn [key_node n_children value_node n_ml is_multi n_value]. change (is_multi MNone) with false. cbv iota.
      destruct u as [| | | |t]; try (rewrite HU; reflexivity). rewrite (parse_yaml_read E t j HU). cbn [bind n_lmf]. destruct j; reflexivity.
    - match goal with |- context[is_single_key ?n] => change (is_single_key n) with false end. cbn [andb n_children].
      match goal with |- context[is_leaf ?n] => change (is_leaf n) with true end. cbv iota. cbn [n_value].
      destruct u as [| | | |t]; try (rewrite HU; reflexivity). rewrite (parse_yaml_read E t j HU). cbn [bind]. destruct j; reflexivity. }
  destruct u; intros; apply G; auto.
Qed.
Lemma c146 E xs vars : canonical_recipe E xs vars -> no_slash_key xs -> addressable_document (document xs) = true ->
  exists r, new_recipe E (join NLs (recipe_page xs vars)) = Ok r /\ Forall (line_found E r) (file_rows 0 xs).
Proof.
  intros HC HK HX. eexists. split; [exact (read_back E xs vars HC)|]. destruct HC as (((HC & _) & _ & _) & _). apply found_lines; auto.
Qed.
Lemma c146_new E xs vars : new_file E xs vars -> no_slash_key xs -> addressable_document (document xs) = true ->
  exists r, new_recipe E (join NLs (page xs)) = Ok r /\ Forall (line_found E r) (file_rows 0 xs).
Proof.
  intros HC HK HX. eexists. split; [exact (new_read_back E xs vars HC)|]. destruct HC as (((HC & _) & _ & _) & _). apply found_lines; auto.
Qed.
Lemma c146_session E MS l xs vars xs' vars' : canonical_recipe E xs vars -> canonical_recipe E xs' vars' -> no_slash_key xs' -> addressable_document (document xs') = true ->
  acted_in_turn E MS SV0 l xs vars xs' vars' ->
  exists r, new_recipe E (join NLs (recipe_page xs vars)) = Ok r /\ Forall (line_found E (session E MS l r)) (file_rows 0 xs').
Proof.
  intros HC HC' HK HX HA. eexists. split; [exact (read_back E xs vars HC)|]. set (r0 := {| r_init := _ |}).
  destruct (act_all E MS SV0 l xs vars xs' vars' HA r0 eq_refl eq_refl eq_refl) as (_ & H2 & _ & _).
  apply found_lines; auto. destruct HC' as (((HC' & _) & _ & _) & _). exact HC'.
Qed.
