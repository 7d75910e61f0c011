(** Proofs for C148. *)
From Verif Require Import LayoutProofs3 LayoutProofs4 LayoutProofs8 CommentFileProofs NewFileProofs ValueProofs.
From Verif Require Export LineProofs EntrySpec.

(** The first entry of a mapping in a list is not known to be canonical on a line of its own; its parts are. *)
Definition readable (E : env) (x : item) : Prop :=
  match x with IScalar _ _ _ => True | ISection _ _ cs => proper_section cs /\ Forall (canonical E) cs | _ => canonical E x end.
Lemma canonical_readable E x : canonical E x -> readable E x.
Proof. destruct 1 as [|k c H|k v c H1 H2|k m ls c w H1 H2 H3 H4 H5 H6|k c cs H1 H2 H3|v c H1 H2|k v c rest H1 H2 H3 H4|k c cs rest H1 H2 H3 H4 H5]; cbn [readable]; auto; econstructor; eassumption. Qed.
Lemma all_readable E xs : Forall (canonical E) xs -> Forall (readable E) xs.
Proof. apply Forall_impl. exact (canonical_readable E). Qed.

Section Read.
Variables (E : env) (p : jparser) (text block : str -> json -> Prop).
Hypothesis HT : forall s j, text s j -> parse_yaml E s p = Ok j.
Hypothesis HB : forall s j, block s j -> match p with Some (sv, vars) => yres_to_res (render_jinja_vars E sv vars s) | None => yres_to_res (yload E s) end = Ok j.
Lemma readable_reads root s q x j d : addresses root s q -> node_at root q = Some (tree_of x) -> readable E x -> proper_tree (tree_of x) = true ->
  not_the_root x -> value_reads text block x j -> get_value E root s d p = Ok j.
Proof.
  intros A N C P NR V.
  destruct x as [c|k c|k v c|k m ls c|k c cs|v c|k v c rs|k c cs rs]; try exact (c123_reads E p text block HT HB root s q _ j d A N C P NR V).
  all: rewrite (value_at E root s q _ d p A N); clear A N; unfold get_value_node;
    assert (forall c chs, is_root (key_node k c chs) = false) as HR by (apply root_name; intros ->; apply NR; reflexivity); inversion V; subst.
  - cbn [tree_of]. rewrite HR. match goal with |- context[is_single_key ?n] => change (is_single_key n) with true end. cbn [andb negb].
    cbn [key_node n_children value_node n_ml is_multi n_value]. change (is_multi MNone) with false. cbv iota.
    destruct j as [[| | | |t]| |]; try reflexivity. match goal with H : forall _, _ <> _ |- _ => exfalso; exact (H t eq_refl) end.
  - cbn [tree_of]. rewrite HR. match goal with |- context[is_single_key ?n] => change (is_single_key n) with true end. cbn [andb negb].
    cbn [key_node n_children value_node n_ml is_multi n_value]. change (is_multi MNone) with false. cbv iota.
    match goal with H : text _ _ |- _ => rewrite (HT _ _ H) end. cbn [bind n_lmf]. destruct j; reflexivity.
  - destruct C as ([PS1 PS2] & CC). cbn [tree_of] in *.
    match goal with H : forall x, cs = [x] -> _ |- _ => rename H into H1 end. match goal with H : text _ _ |- _ => rename H into H2 end.
    assert (forall y, cs = [y] -> is_leaf (tree_of y) = false) as NL.
    { intros y ->. specialize (H1 y eq_refl). pose proof (Forall_inv CC) as Cy. rewrite tree_not_leaf.
      - destruct y as [[|? ?]|k' c'|k' v' c'|k' m' l' c'|k' c' cs'|v' c'|k' v' c' rs'|k' c' cs' rs']; try reflexivity; try contradiction.
        + inversion Cy as [? ? [t Ht]| | | | | | |]. discriminate.
        + exfalso. exact (PS2 k' c' eq_refl).
      - destruct y; try exact I. inversion Cy as [| | | |? ? ? ? [NN _]| | |]. exact NN. }
    assert (is_single_key (key_node k c (map tree_of cs)) = false) as ->.
    { unfold is_single_key, key_node. cbn [n_keyf n_children andb]. destruct cs as [|y [|z l]]; try reflexivity. cbn [map]. exact (NL y eq_refl). }
    cbn [andb]. cbv iota.
    assert (is_leaf (key_node k c (map tree_of cs)) = false) as ->.
    { unfold is_leaf, key_node. cbn [n_children]. destruct cs; [contradiction|reflexivity]. }
    rewrite (page_lines E k c cs CC P NL). rewrite (HT _ _ H2). cbn [bind key_node n_children].
    destruct j as [pj|l|dd]; try reflexivity;
    (destruct cs as [|y [|z l']]; try reflexivity; cbn [map]; specialize (H1 y eq_refl);
     destruct y; cbn [tree_of key_node n_lmf]; try reflexivity; try contradiction; destruct H1 as (l0 & Hl); discriminate).
  - cbn [tree_of map]. rewrite HR. match goal with |- context[is_single_key ?n] => change (is_single_key n) with true end. cbn [andb negb key_node n_children n_ml is_multi n_value n_lmf].
    change (is_multi MNone) with false. cbv iota. match goal with H : text _ _ |- _ => rewrite (HT _ _ H) end. cbn [bind]. match goal with |- context[match ?j with JList _ => _ | _ => _ end] => destruct j end; reflexivity.
  - cbn [tree_of map]. rewrite HR. match goal with |- context[is_single_key ?n] => change (is_single_key n) with true end. cbn [andb negb key_node n_children n_ml is_multi n_value n_lmf].
    change (is_multi MNone) with false. cbv iota. destruct j as [[| | | |t]| |]; try reflexivity. match goal with H : forall _, _ <> _ |- _ => exfalso; exact (H t eq_refl) end.
Qed.
End Read.

Section Positions.
Variable E : env.
Lemma count_after pre x : readable E x -> count_elements (pre ++ [tree_of x]) = number_after (count_elements pre) x.
Proof.
  intros C. unfold count_elements. rewrite filter_app, app_length. cbn [filter].
  assert (is_comment (tree_of x) = match x with IComment _ => true | _ => false end) as ->.
  { destruct x as [[|a c]|k c|k v c|k m ls c|k c cs|v c|k v c rs|k c cs rs]; try reflexivity.
    - cbn [readable] in C. inversion C as [? ? [t Ht]| | | | | | |]. discriminate.
    - unfold is_comment. cbn [tree_of n_children is_nil]. apply andb_false_r.
    - unfold is_comment. cbn [tree_of n_children is_nil]. apply andb_false_r. }
  destruct x; cbn [negb number_after length]; lia.
Qed.
Lemma kids_proper n : proper_tree n = true -> Forall (fun c => proper_tree c = true) (n_children n).
Proof. destruct n as [v c chs l m k]. cbn [proper_tree n_children]. intros H. apply andb_prop in H as [_ H]. apply Forall_forall. apply forallb_forall. exact H. Qed.
Definition placed (y : item) : Prop :=
  is_comment (tree_of y) = false /\ terminal (tree_of y) && negb (n_keyf (tree_of y)) && negb (n_lmf (tree_of y)) = false /\ not_the_root y.
Lemma own_key x k before : entry_key x = Some k -> readable E x -> key_text k <> [cSL] -> own_text E before (tree_of x) = cSL :: key_text k.
Proof.
  intros HK C NS. assert (forall c chs, own_text E before (key_node k c chs) = cSL :: key_text k) as G.
  { intros c chs. unfold own_text, key_node. cbn [n_lmf n_keyf negb n_value nval_str]. rewrite andb_false_r. cbv zeta.
    destruct (str_eqb (json_str (JP k)) [cSL]) eqn:Q; [apply str_eqb_eq in Q; contradiction|reflexivity]. }
  destruct x; try discriminate HK; injection HK as ->; apply G.
Qed.
Lemma key_placed x k : entry_key x = Some k -> readable E x -> key_text k <> [cSL] -> placed x.
Proof.
  intros HK C NS. assert (not_the_root x) as NR. { unfold not_the_root. rewrite HK. intros Q. injection Q as ->. apply NS. reflexivity. }
  destruct x; try discriminate HK; (split; [reflexivity|split; [|exact NR]]); cbn [tree_of key_node n_keyf negb]; rewrite andb_false_r; reflexivity.
Qed.
Lemma entry_position up n xs p y : entry_at up n xs p y -> forall N pre, n_children N = pre ++ map tree_of xs -> count_elements pre = n ->
  no_slash_key xs -> Forall (readable E) xs -> proper_tree N = true ->
  exists q m, q <> [] /\ node_at N q = Some m /\ m = tree_of y /\ p = up ++ path_at E N q /\ readable E y /\ placed y /\ proper_tree (tree_of y) = true.
Proof.
  assert (forall N pre x xs, n_children N = pre ++ map tree_of (x :: xs) -> nth_error (n_children N) (length pre) = Some (tree_of x) /\ firstn (length pre) (n_children N) = pre) as HN.
  { intros N pre x l ->. split; [rewrite nth_error_app2, Nat.sub_diag by lia; reflexivity|]. rewrite firstn_app, Nat.sub_diag, firstn_all. apply app_nil_r. }
  induction 1 as [up n x xs k HK|up n x xs HX|up n x xs p y _ IH|up n k c cs xs p y _ IH|up n k v c rest xs p y _ IH|up n k c cs rest xs p y _ IH];
    intros N pre HC HP NS HR HT; pose proof (Forall_inv HR) as Rx; pose proof (Forall_inv_tail HR) as Rxs; destruct (HN _ _ _ _ HC) as (HNth & HF);
    pose proof (nth_error_In _ _ HNth) as HI;
    pose proof (proj1 (Forall_forall _ _) (kids_proper N HT) _ HI) as Px.
  - exists [length pre], (tree_of x). split; [discriminate|]. cbn [node_at path_at]. rewrite HNth, HF, app_nil_r.
    assert (key_text k <> [cSL]) as Hk. { unfold no_slash_key in NS. destruct x; try discriminate HK; injection HK as ->; exact (Forall_inv NS). }
    rewrite (own_key x k pre HK Rx Hk). split; [reflexivity|]. split; [reflexivity|]. split; [reflexivity|]. split; [exact Rx|]. split; [exact (key_placed x k HK Rx Hk)|exact Px].
  - exists [length pre], (tree_of x). split; [discriminate|]. cbn [node_at path_at]. rewrite HNth, HF, app_nil_r.
    split; [reflexivity|]. split; [reflexivity|]. split; [|split; [exact Rx|split; [|exact Px]]].
    + destruct x; try contradiction; unfold own_text; cbn [tree_of n_lmf]; rewrite HP; reflexivity.
    + destruct x; try contradiction; (split; [unfold is_comment; cbn [tree_of n_children n_value is_sent is_nil andb]; rewrite ?andb_false_r; reflexivity|]);
        (split; [cbn [tree_of n_lmf negb]; apply andb_false_r|discriminate]).
  - apply (IH N (pre ++ [tree_of x])).
    + rewrite HC. cbn [map]. rewrite <- app_assoc. reflexivity.
    + rewrite (count_after pre x Rx), HP. reflexivity.
    + unfold no_slash_key in *. cbn [flat_map] in NS. apply Forall_app in NS. apply NS.
    + exact Rxs.
    + exact HT.
  - destruct Rx as (PS & CC). unfold no_slash_key in NS. cbn [flat_map keys_of app] in NS. pose proof (Forall_inv NS) as Hk. apply Forall_inv_tail, Forall_app in NS as (NS & _).
    destruct (IH (tree_of (ISection k c cs)) [] eq_refl eq_refl NS (all_readable E cs CC) Px) as (q & m & NQ & HQ & -> & -> & R & PL & PT).
    exists (length pre :: q), (tree_of y). split; [discriminate|]. cbn [node_at path_at]. rewrite HNth, HF, HQ, (own_key (ISection k c cs) k pre eq_refl (conj PS CC) Hk).
    split; [reflexivity|]. split; [reflexivity|]. split; [unfold at_key; rewrite <- app_assoc; reflexivity|auto].
  - unfold no_slash_key in NS. cbn [flat_map keys_of] in NS. apply Forall_app in NS as (NS & _).
    assert (Forall (readable E) (IScalar k v c :: rest)) as RR.
    { constructor; [exact I|]. cbn [readable] in Rx. inversion Rx as [| | | | | |? ? ? ? _ _ CR _|]. apply all_readable. exact CR. }
    destruct (IH (tree_of (IMapScalar k v c rest)) [] eq_refl eq_refl NS RR Px) as (q & m & NQ & HQ & -> & -> & R & PL & PT).
    exists (length pre :: q), (tree_of y). split; [discriminate|]. cbn [node_at path_at]. rewrite HNth, HF, HQ.
    split; [reflexivity|]. split; [reflexivity|]. split; [|auto]. unfold at_number. unfold own_text at 1. cbn [tree_of n_lmf]. rewrite HP, <- app_assoc. reflexivity.
  - unfold no_slash_key in NS. cbn [flat_map keys_of] in NS. apply Forall_app in NS as (NS & _).
    assert (Forall (readable E) (ISection k c cs :: rest)) as RR.
    { cbn [readable] in Rx. inversion Rx as [| | | | | | |? ? ? ? _ PS CC CR _]. constructor; [split; assumption|]. apply all_readable. exact CR. }
    destruct (IH (tree_of (IMapSection k c cs rest)) [] eq_refl eq_refl NS RR Px) as (q & m & NQ & HQ & -> & -> & R & PL & PT).
    exists (length pre :: q), (tree_of y). split; [discriminate|]. cbn [node_at path_at]. rewrite HNth, HF, HQ.
    split; [reflexivity|]. split; [reflexivity|]. split; [|auto]. unfold at_number. unfold own_text at 1. cbn [tree_of n_lmf]. rewrite HP, <- app_assoc. reflexivity.
Qed.
Lemma entry_found xs p y : Forall (canonical E) xs -> no_slash_key xs -> addressable_document (document xs) = true -> proper_tree (document xs) = true ->
  entry_at [] 0 xs p y ->
  exists q, addresses (document xs) p q /\ node_at (document xs) q = Some (tree_of y) /\ readable E y /\ not_the_root y /\ proper_tree (tree_of y) = true.
Proof.
  intros HC HK HA HP HE. destruct (entry_position [] 0 xs p y HE (document xs) [] eq_refl eq_refl HK (all_readable E xs HC) HP) as (q & m & NQ & HQ & -> & -> & R & (P1 & P2 & P3) & PT).
  exists q. split; [|auto]. exact (proj1 (addressed E _ q _ HA NQ HQ P1 P2)).
Qed.
Lemma read_entries xs r : r_root r = document xs -> Forall (canonical E) xs -> no_slash_key xs -> addressable_document (document xs) = true ->
  proper_tree (document xs) = true -> entries_read E xs r.
Proof.
  intros HR HC HK HA HP p y HE. rewrite HR. destruct (entry_found xs p y HC HK HA HP HE) as (q & A & N & R & NR & PT). split; intros j d V.
  - apply (readable_reads E None (read_as E) (read_block E)) with (q := q) (x := y); auto; [intros; apply parse_yaml_read; assumption|].
    intros t j' H. unfold read_block in H. rewrite H. reflexivity.
  - eapply (readable_reads E (Some (r_schema r, r_vars r))) with (q := q) (x := y); [| |exact A|exact N|exact R|exact PT|exact NR|exact V].
    + intros t j' (j0 & R' & F). apply (parse_yaml_sub E _ t j0); [exact R'|]. apply sub_filled_in. exact F.
    + intros t j' H. unfold read_block in H. unfold render_jinja_vars. rewrite H. reflexivity.
Qed.
End Positions.

Lemma c148 E xs vars : canonical_recipe E xs vars -> no_slash_key xs -> addressable_document (document xs) = true ->
  exists r, new_recipe E (join NLs (recipe_page xs vars)) = Ok r /\ r_schema r = SV0 /\ r_vars r = vars /\ entries_read E xs r.
Proof.
  intros HC HK HA. eexists. split; [exact (read_back E xs vars HC)|]. split; [reflexivity|]. split; [reflexivity|].
  destruct HC as (((HC & _) & HP & _) & _). apply read_entries; auto.
Qed.
Lemma c148_new E xs vars : new_file E xs vars -> no_slash_key xs -> addressable_document (document xs) = true ->
  exists r, new_recipe E (join NLs (page xs)) = Ok r /\ r_schema r = SV1 /\ r_vars r = vars /\ entries_read E xs r.
Proof.
  intros HC HK HA. eexists. split; [exact (new_read_back E xs vars HC)|]. split; [reflexivity|]. split; [reflexivity|].
  destruct HC as (((HC & _) & HP & _) & _). apply read_entries; auto.
Qed.
Lemma c148_session E MS l xs vars xs' vars' : canonical_recipe E xs vars -> canonical_recipe E xs' vars' -> no_slash_key xs' -> addressable_document (document xs') = true ->
  acted_in_turn E MS SV0 l xs vars xs' vars' ->
  exists r, new_recipe E (join NLs (recipe_page xs vars)) = Ok r
    /\ r_schema (session E MS l r) = SV0 /\ r_vars (session E MS l r) = vars' /\ entries_read E xs' (session E MS l r).
Proof.
  intros HC HC' HK HX HA. eexists. split; [exact (read_back E xs vars HC)|]. set (r0 := {| r_init := _ |}).
  destruct (act_all E MS SV0 l xs vars xs' vars' HA r0 eq_refl eq_refl eq_refl) as (_ & H2 & H3 & H4). split; [exact H3|]. split; [exact H4|].
  destruct HC' as (((HC' & _) & HP & _) & _). apply read_entries; auto.
Qed.

(** The entries are the lines that are not comments. *)
Lemma list_entry (P : item -> Prop) : forall l, Forall P l ->
  (forall x, P x -> forall up n xs p, In p (flat_map row_path (rows up n x)) -> exists y, entry_at up n (x :: xs) p y) ->
  forall up n p, In p (flat_map row_path (list_rows up n l)) -> exists y, entry_at up n l p y.
Proof.
  intros l H HP. induction H as [|x l Hx _ IH]; intros up n p HI; [destruct HI|]. cbn [list_rows] in HI. rewrite flat_map_app in HI. apply in_app_or in HI as [HI|HI].
  - exact (HP x Hx up n l p HI).
  - destruct (IH _ _ _ HI) as (y & Hy). exists y. apply at_a_later_entry. exact Hy.
Qed.
Lemma line_entry : forall x up n xs p, In p (flat_map row_path (rows up n x)) -> exists y, entry_at up n (x :: xs) p y.
Proof.
  fix IH 1. intros x.
  assert (forall l, Forall (fun y => forall up n xs p, In p (flat_map row_path (rows up n y)) -> exists z, entry_at up n (y :: xs) p z) l ->
    forall up n p, In p (flat_map row_path (list_rows up n l)) -> exists z, entry_at up n l p z) as HL.
  { intros l H. apply (list_entry _ l H). auto. }
  destruct x as [c|k c|k v c|k m ls c|k c cs|v c|k v c rs|k c cs rs]; intros up n xs p HI; cbn [rows] in HI; rewrite ?below_list in HI; cbn [flat_map row_path app In] in HI.
  - destruct HI.
  - destruct HI as [<-|[]]. eexists. apply at_its_key. reflexivity.
  - destruct HI as [<-|[]]. eexists. apply at_its_key. reflexivity.
  - destruct HI as [<-|[]]. eexists. apply at_its_key. reflexivity.
  - destruct HI as [<-|HI]; [eexists; apply at_its_key; reflexivity|].
    assert (Forall (fun y => forall up n xs p, In p (flat_map row_path (rows up n y)) -> exists z, entry_at up n (y :: xs) p z) cs) as F by (clear - IH; induction cs; constructor; auto).
    destruct (HL cs F _ _ _ HI) as (y & Hy). exists y. apply in_its_section. exact Hy.
  - destruct HI as [<-|[]]. eexists. apply at_its_number. exact I.
  - destruct HI as [<-|[<-|HI]]; [eexists; apply at_its_number; exact I|eexists; apply in_its_mapping, at_its_key; reflexivity|].
    assert (Forall (fun y => forall up n xs p, In p (flat_map row_path (rows up n y)) -> exists z, entry_at up n (y :: xs) p z) rs) as F by (clear - IH; induction rs; constructor; auto).
    destruct (HL rs F _ _ _ HI) as (y & Hy). exists y. apply in_its_mapping, at_a_later_entry. exact Hy.
  - rewrite flat_map_app in HI. destruct HI as [<-|[<-|HI]]; [eexists; apply at_its_number; exact I|eexists; apply in_its_mapping_section, at_its_key; reflexivity|].
    assert (Forall (fun y => forall up n xs p, In p (flat_map row_path (rows up n y)) -> exists z, entry_at up n (y :: xs) p z) cs) as F by (clear - IH; induction cs; constructor; auto).
    assert (Forall (fun y => forall up n xs p, In p (flat_map row_path (rows up n y)) -> exists z, entry_at up n (y :: xs) p z) rs) as F' by (clear - IH; induction rs; constructor; auto).
    apply in_app_or in HI as [HI|HI].
    + destruct (HL cs F _ _ _ HI) as (y & Hy). exists y. apply in_its_mapping_section, in_its_section. exact Hy.
    + destruct (HL rs F' _ _ _ HI) as (y & Hy). exists y. apply in_its_mapping_section, at_a_later_entry. exact Hy.
Qed.
Lemma entry_line up n xs p y : entry_at up n xs p y -> In p (flat_map row_path (list_rows up n xs)).
Proof.
  induction 1 as [up n x xs k HK|up n x xs HX|up n x xs p y _ IH|up n k c cs xs p y _ IH|up n k v c rest xs p y _ IH|up n k c cs rest xs p y _ IH]; cbn [list_rows]; rewrite flat_map_app; apply in_or_app.
  - left. destruct x; try discriminate HK; injection HK as ->; left; reflexivity.
  - left. destruct x; try contradiction; left; reflexivity.
  - right. exact IH.
  - left. cbn [rows]. rewrite below_list. right. exact IH.
  - left. cbn [rows]. rewrite below_list. right. exact IH.
  - left. cbn [rows]. rewrite !below_list. right. cbn [list_rows rows] in IH. rewrite below_list in IH. cbn [app] in IH. exact IH.
Qed.
Lemma c148_lines xs p : (exists y, entry_at [] 0 xs p y) <-> In p (flat_map row_path (file_rows 0 xs)).
Proof.
  rewrite file_rows_list. split; [intros (y & H); exact (entry_line _ _ _ _ _ H)|].
  apply (list_entry (fun _ => True) xs); [apply Forall_forall; auto|]. intros x _. apply line_entry.
Qed.
