(** Proofs for C147 and C149. *)
From Verif Require Import LayoutProofs3 LayoutProofs4 LayoutProofs8 CommentFileProofs NewFileProofs ValueProofs AnswerProofs.
From Verif Require Export EntryProofs DepsProofs3 DepsProofs4 DepListSpec.

(** An entry of a section of the file is an entry of the file. *)
Lemma entry_in up n xs p k c cs : entry_at up n xs p (ISection k c cs) -> forall p' y, entry_at p 0 cs p' y -> entry_at up n xs p' y.
Proof.
  intros H. remember (ISection k c cs) as x eqn:HX. induction H as [up n x xs k' HK|up n x xs HN|up n x xs p y _ IH|up n k' c' cs' xs p y _ IH|up n k' v' c' rest xs p y _ IH|up n k' c' cs' rest xs p y _ IH]; intros p' z Hz.
  - subst x. injection HK as <-. apply in_its_section. exact Hz.
  - subst x. contradiction.
  - apply at_a_later_entry. apply IH; assumption.
  - apply in_its_section. apply IH; assumption.
  - apply in_its_mapping. apply IH; assumption.
  - apply in_its_mapping_section. apply IH; assumption.
Qed.
Lemma entry_key_in up n k x xs : In x xs -> entry_key x = Some k -> entry_at up n xs (at_key up k) x.
Proof. revert n. induction xs as [|y xs IH]; intros n HI HK; [destruct HI|]. destruct HI as [->|HI]; [apply at_its_key; exact HK|apply at_a_later_entry; apply IH; assumption]. Qed.
Lemma find_none name xs : no_entry name xs -> forall i, find_child name i (map tree_of xs) = None.
Proof.
  induction xs as [|x xs IH]; intros N i; [reflexivity|]. cbn [map find_child]. destruct (N x (or_introl eq_refl)) as [N1 N2].
  assert (val_is (n_value (tree_of x)) name = false) as ->.
  { destruct x as [c|k c|k v c|k m ls c|k c cs|v c|k v c rest|k c cs rest]; cbn [tree_of key_node n_value val_is]; try reflexivity; cbn [entry_key] in N1.
    1-4: destruct k; try reflexivity; cbn [val_is]; apply str_eqb_neq; intros ->; apply N1; reflexivity.
    destruct v as [[| | | |] | |]; try reflexivity. apply str_eqb_neq. intros ->. eapply N2. reflexivity. }
  apply IH. intros y I. apply N. right. exact I.
Qed.
Lemma parts_kids x : parts x <> [] -> n_children (tree_of x) = map tree_of (parts x).
Proof. destruct x; intros H; try contradiction; reflexivity. Qed.

Section Tree.
Variables (E : env) (MS : match_spec) (xs : list item) (r : recipe).
Hypothesis HR : r_root r = document xs.
Hypothesis HC : Forall (canonical E) xs.
Hypothesis HK : no_slash_key xs.
Hypothesis HA : addressable_document (document xs) = true.
Hypothesis HP : proper_tree (document xs) = true.

Lemma selector_there p y : entry_at [] 0 xs p y -> exists n, lookup (r_root r) p = Some n /\ n_comment n = n_comment (tree_of y).
Proof.
  intros HI. rewrite HR. destruct (entry_found E xs p y HC HK HA HP HI) as (q & AD & Hq & _).
  destruct (addresses_lookup _ _ _ AD) as (m & Hm & HL). rewrite Hq in Hm. injection Hm as <-. eauto.
Qed.
Lemma lines_listed path scope package sec section : (forall e, below path e = scope ++ e) ->
  forall i es ts ds, section_lists MS (r_schema r) scope package sec section i es ts ds ->
  (forall p y, entry_at (scope ++ $"/requirements/" ++ sec) i es p y -> entry_at [] 0 xs p y) ->
  members_listed MS r package path sec section i ts ds.
Proof.
  intros HB i es ts ds H. induction H as [i|i c1 es ts ds H IH|i v c1 x es ts ds HE H IH|i v c1 x s d es ts ds HE B1 B2 B3 B4 B5 H IH]; intros HW.
  - constructor.
  - apply IH. intros p y Hp. apply HW. apply at_a_later_entry. exact Hp.
  - apply ml_empty; [exact HE|]. apply IH. intros p y Hp. apply HW. apply at_a_later_entry. exact Hp.
  - eapply ml_entry; [exact HE| |apply IH; intros p y Hp; apply HW; apply at_a_later_entry; exact Hp].
    unfold dependency_for. rewrite HB. split; [exact B1|]. split; [exact B2|]. split; [exact B3|]. split; [exact B4|]. rewrite B5.
    assert (entry_at [] 0 xs (d_path d) (IElem v c1)) as HI.
    { apply HW. replace (d_path d) with (at_number (scope ++ $"/requirements/" ++ sec) i); [apply at_its_number; exact I|].
      rewrite B2. unfold at_number. rewrite <- !app_assoc. reflexivity. }
    destruct (selector_there _ _ HI) as (n & -> & ->). reflexivity.
Qed.
Lemma requirements_listed path scope package : (forall e, below path e = scope ++ e) ->
  forall i es reqs ds, requirement_lines MS (r_schema r) scope package es reqs ds ->
  (forall p y, entry_at (scope ++ $"/requirements") i es p y -> entry_at [] 0 xs p y) -> sections_in_order MS r package path reqs ds.
Proof.
  intros HB i es reqs ds H. revert i. induction H as [|c1 es reqs ds H IH|x k v es reqs ds HX HS H IH|sec section c1 ls ts ds es reqs ds' HS HL H IH]; intros i HW.
  - constructor.
  - apply (IH i). intros p y Hp. apply HW. apply at_a_later_entry. exact Hp.
  - apply sl_other; [exact HS|]. eapply IH. intros p y Hp. apply HW. apply at_a_later_entry. exact Hp.
  - apply (sl_section _ _ _ _ sec section (JList ts) ts); [exact HS|constructor| |eapply IH; intros p y Hp; apply HW; apply at_a_later_entry; exact Hp].
    apply (lines_listed path scope package sec section HB 0 ls ts ds HL). intros p y Hp. apply HW. apply in_its_section.
    replace (at_key (scope ++ $"/requirements") (PStr sec)) with (scope ++ $"/requirements/" ++ sec); [exact Hp|]. unfold at_key. rewrite <- app_assoc. reflexivity.
Qed.
Lemma value_there p y j d : entry_at [] 0 xs p y -> value_filled E (r_schema r) (r_vars r) y j -> get_value E (r_root r) p d (Some (r_schema r, r_vars r)) = Ok j.
Proof. intros HE HV. exact (proj2 (read_entries E xs r HR HC HK HA HP p y HE) j d HV). Qed.
Lemma missing_at_top name d s : component name -> isdigit name = false -> no_entry name xs ->
  get_value E (r_root r) (cSL :: name) (Some d) s = Ok d /\ lookup (r_root r) (cSL :: name) = None.
Proof.
  intros HN HD HX. rewrite HR. unfold get_value, lookup. assert (cSL :: name = path_text [name]) as -> by (cbn [path_text]; rewrite app_nil_r; reflexivity).
  rewrite stack_of_path by (try discriminate; auto). cbn [bind]. assert (traverse (document xs) (rev [name] ++ [ROOT_VALUE]) = None) as ->; [|split; reflexivity].
  unfold traverse. rewrite traverse_pos_components. cbn [traverse_recurse]. unfold step_child. rewrite HD. unfold document, root_node. cbn [n_children].
  rewrite (find_none _ _ HX). reflexivity.
Qed.
Lemma missing_in p y name d s : component name -> isdigit name = false -> entry_at [] 0 xs p y -> parts y <> [] -> no_entry name (parts y) ->
  get_value E (r_root r) (p ++ cSL :: name) (Some d) s = Ok d.
Proof.
  intros HN HD HE NP HX. rewrite HR.
  destruct (entry_position E [] 0 xs p y HE (document xs) [] eq_refl eq_refl HK (all_readable E xs HC) HP) as (q & m & NQ & HQ & -> & -> & R & (P1 & P2 & P3) & PT).
  pose proof HA as HA'. unfold addressable_document in HA'. rewrite !andb_true_iff in HA'. destruct HA' as (_ & HA').
  destruct (line_resolves E q _ _ HA' NQ HQ P1 P2) as (_ & cs & NC & F & T & TR). cbn [app]. rewrite T.
  assert (path_text cs ++ cSL :: name = path_text (cs ++ [name])) as ->. { clear. induction cs as [|x cs IH]; [cbn [path_text app]; rewrite app_nil_r; reflexivity|]. cbn [path_text app]. rewrite <- IH, <- app_assoc. reflexivity. }
  unfold get_value. rewrite stack_of_path; [|destruct cs; discriminate|apply Forall_app; split; [exact F|constructor; auto]]. cbn [bind].
  assert (traverse (document xs) (rev (cs ++ [name]) ++ [ROOT_VALUE]) = None) as ->; [|reflexivity].
  unfold traverse. rewrite traverse_pos_components. rewrite (recurse_snoc_none _ cs name q (tree_of y) TR HQ); [reflexivity|].
  unfold step_child. rewrite HD, (parts_kids y NP). apply find_none. exact HX.
Qed.
Lemma scope_listed path scope package ds : (forall e, below path e = scope ++ e) -> scope_dependencies E MS (r_schema r) xs (r_vars r) scope package ds ->
  dependencies_of E MS r package path ds.
Proof.
  assert (component $"requirements") as HCo by (split; [discriminate|vm_compute; intuition discriminate]).
  intros HB H. unfold dependencies_of. rewrite HB. destruct H as [scope package c cs reqs ds H1 H2 H3|package H|scope x package H1 H2 H3].
  - exists reqs. split; [exact (value_there _ _ _ _ H1 H2)|]. apply (requirements_listed path scope package HB 0 cs reqs ds H3). exact (entry_in _ _ _ _ _ _ _ H1).
  - exists []. split; [|constructor]. exact (proj1 (missing_at_top $"requirements" (JDict []) _ HCo eq_refl H)).
  - exists []. split; [|constructor]. exact (missing_in scope x $"requirements" (JDict []) _ HCo eq_refl H1 H2 H3).
Qed.
Lemma listed_dependencies package ds : file_dependencies E MS (r_schema r) xs (r_vars r) package ds -> get_all_dependencies E MS r = Ok [(package, ds)].
Proof.
  intros (H1 & (c & ps & v & c' & I1 & I2 & V1) & (c1 & cs & reqs & I3 & V2 & RL)). apply c50_in_order. exists package, [], ds, [].
  assert (component $"outputs") as HCo by (split; [discriminate|vm_compute; intuition discriminate]).
  destruct (missing_at_top $"outputs" (JList []) None HCo eq_refl H1) as (O1 & O2). split; [|split; [reflexivity|split; [|constructor]]].
  - apply c50_names. exists (JList []), 0. split; [exact O1|]. split; [reflexivity|]. split; [reflexivity|]. split; [|constructor; constructor].
    constructor; [|constructor]. cbn [fst snd]. replace (name_place r $"/") with $"/package/name" by (unfold name_place; change $"/outputs" with (cSL :: $"outputs"); rewrite O2; destruct (r_schema r); reflexivity).
    apply (value_there $"/package/name" (IScalar (PStr $"name") v c')); [|exact V1].
    apply (entry_in [] 0 xs $"/package" (PStr $"package") c ps); [exact (entry_key_in [] 0 (PStr $"package") _ xs I1 eq_refl)|exact (entry_key_in $"/package" 0 (PStr $"name") _ ps I2 eq_refl)].
  - apply (scope_listed $"/" []); [reflexivity|]. eapply requirements_there; [exact (entry_key_in [] 0 (PStr $"requirements") _ xs I3 eq_refl)|exact V2|exact RL].
Qed.
(** Files with outputs. *)
Lemma outputs_numbered {A} (P : nat -> A -> Prop) (f : nat -> str) (Q : prim * str -> A -> Prop) (g : A -> prim) :
  (forall i o, P i o -> Q (g o, f i) o) -> forall outs s, (forall i o, nth_error outs i = Some o -> P (s + i) o) ->
  Forall2 Q (combine (map g outs) (map f (seq s (length outs)))) outs.
Proof.
  intros HPQ. induction outs as [|o outs IH]; intros s H; [constructor|]. cbn [map length seq combine]. constructor.
  - apply HPQ. specialize (H 0 o eq_refl). rewrite Nat.add_0_r in H. exact H.
  - apply IH. intros i o' Ho. specialize (H (S i) o' Ho). rewrite Nat.add_succ_r in H. exact H.
Qed.
Lemma combine_snd {A B} : forall (a : list A) (b : list B), length a = length b -> map snd (combine a b) = b.
Proof. induction a as [|x a IH]; intros [|y b] H; try discriminate H; [reflexivity|]. cbn [combine map snd]. rewrite IH; [reflexivity|]. injection H as H. exact H. Qed.
Lemma combine_fst {A B} : forall (a : list A) (b : list B), length a = length b -> map fst (combine a b) = a.
Proof. induction a as [|x a IH]; intros [|y b] H; try discriminate H; [reflexivity|]. cbn [combine map fst]. rewrite IH; [reflexivity|]. injection H as H. exact H. Qed.
Lemma pairs_fst {A B} (R : A -> A -> Prop) : forall l : list (A * B), ForallOrdPairs R (map fst l) -> ForallOrdPairs (fun a b => R (fst a) (fst b)) l.
Proof.
  induction l as [|x l IH]; cbn [map]; intros H; [constructor|]. inversion H as [|? ? F P]; subst. constructor; [|apply IH; exact P].
  apply Forall_forall. intros y HY. exact (proj1 (Forall_forall _ _) F (fst y) (in_map fst _ _ HY)).
Qed.
Lemma listed_packages m : packages_of_file E MS (r_schema r) xs (r_vars r) m -> get_all_dependencies E MS r = Ok m.
Proof.
  intros (c & os & l & root & rd & outs & HO & HV & HL & HN & HD & HOuts & HF & ->). apply c50_in_order.
  set (f := fun i => path_text [$"outputs"; str_of_nat i]). set (tbl := combine (map fst outs) (map f (seq 0 (length outs)))).
  assert (forall i, f i = output_scope i) as Hf. { intros i. unfold f, output_scope. cbn [path_text]. rewrite app_nil_r. reflexivity. }
  assert (length (map fst outs) = length (map f (seq 0 (length outs)))) as HLen by (rewrite !map_length, seq_length; reflexivity).
  destruct (selector_there _ _ HO) as (on & HOn & _).
  assert (name_place r $"/" = root_name_at (r_schema r)) as NR by (unfold name_place; rewrite HOn; destruct (r_schema r); reflexivity).
  assert (forall i, name_place r (f i) = output_name_at (r_schema r) i) as NO.
  { intros i. unfold name_place, output_name_at. rewrite HOn, Hf. destruct (list_eq_dec ascii_dec (output_scope i) $"/") as [Q|Q]; [discriminate Q|]. destruct (r_schema r); reflexivity. }
  exists root, tbl, rd, (map (fun o => (fst o, snd o ++ map (owned_by (fst o)) rd)) outs). split; [|split; [reflexivity|split]].
  - apply c50_names. exists (JList l), (length l). split; [exact (proj1 (read_entries E xs r HR HC HK HA HP _ _ HO) _ _ HV)|]. split; [reflexivity|].
    split; [cbn [map snd]; unfold tbl; rewrite combine_snd, HL by exact HLen; reflexivity|]. split.
    + constructor; [cbn [fst snd]; rewrite NR; destruct HN as (v & c' & E1 & V1); exact (value_there _ _ _ _ E1 V1)|].
      assert (Forall2 (fun kv (_ : prim * list dependency) => get_value E (r_root r) (name_place r (snd kv)) None (Some (r_schema r, r_vars r)) = Ok (JP (fst kv))) tbl outs) as F2.
      { apply (outputs_numbered (fun i o => named E (r_schema r) xs (r_vars r) (output_name_at (r_schema r) i) (fst o)) f _ fst).
        - intros i o (v & c' & E1 & V1). cbn [fst snd]. rewrite NO. exact (value_there _ _ _ _ E1 V1).
        - intros i (name, own) Ho. cbn [Nat.add fst]. exact (proj1 (HOuts i name own Ho)). }
      clear - F2. induction F2; constructor; auto.
    + apply (pairs_fst (fun a b => prim_eqb a b = false)). cbn [map fst]. unfold tbl. rewrite combine_fst by exact HLen. exact HF.
  - apply (scope_listed $"/" []); [reflexivity|exact HD].
  - assert (Forall2 (fun kv o => fst o = fst kv /\ dependencies_of E MS r (fst kv) (snd kv) (snd o)) tbl outs) as F2.
    { apply (outputs_numbered (fun i o => scope_dependencies E MS (r_schema r) xs (r_vars r) (output_scope i) (fst o) (snd o)) f _ fst).
      - intros i o Ho. cbn [fst snd]. split; [reflexivity|]. apply (scope_listed (f i) (output_scope i)); [|exact Ho].
        intros e. unfold below. rewrite Hf. destruct (list_eq_dec ascii_dec (output_scope i) $"/") as [Q|Q]; [discriminate Q|reflexivity].
      - intros i (name, own) Ho. cbn [Nat.add fst snd]. exact (proj2 (HOuts i name own Ho)). }
    clear - F2. induction F2 as [|kv o t l' (H1 & H2) _ IH]; constructor; [|exact IH]. cbn [fst snd]. split; [exact H1|]. exists (snd o). split; [rewrite H1; reflexivity|exact H2].
Qed.
End Tree.

Lemma c147 E MS xs vars package ds : canonical_recipe E xs vars -> no_slash_key xs -> addressable_document (document xs) = true ->
  file_dependencies E MS SV0 xs vars package ds ->
  exists r, new_recipe E (join NLs (recipe_page xs vars)) = Ok r /\ get_all_dependencies E MS r = Ok [(package, ds)].
Proof.
  intros HC HK HA HD. eexists. split; [exact (read_back E xs vars HC)|]. destruct HC as (((HC & _) & HP & _) & _). apply (listed_dependencies E MS xs); auto.
Qed.
Lemma c147_new E MS xs vars package ds : new_file E xs vars -> no_slash_key xs -> addressable_document (document xs) = true ->
  file_dependencies E MS SV1 xs vars package ds ->
  exists r, new_recipe E (join NLs (page xs)) = Ok r /\ get_all_dependencies E MS r = Ok [(package, ds)].
Proof.
  intros HC HK HA HD. eexists. split; [exact (new_read_back E xs vars HC)|]. destruct HC as (((HC & _) & HP & _) & _). apply (listed_dependencies E MS xs); auto.
Qed.
Lemma c147_session E MS l xs vars xs' vars' package ds : canonical_recipe E xs vars -> canonical_recipe E xs' vars' -> no_slash_key xs' -> addressable_document (document xs') = true ->
  acted_in_turn E MS SV0 l xs vars xs' vars' -> file_dependencies E MS SV0 xs' vars' package ds ->
  exists r, new_recipe E (join NLs (recipe_page xs vars)) = Ok r /\ get_all_dependencies E MS (session E MS l r) = Ok [(package, ds)].
Proof.
  intros HC HC' HK HX HA HD. eexists. split; [exact (read_back E xs vars HC)|]. set (r0 := {| r_init := _ |}).
  destruct (act_all E MS SV0 l xs vars xs' vars' HA r0 eq_refl eq_refl eq_refl) as (_ & H2 & H3 & H4). destruct HC' as (((HC' & _) & HP & _) & _).
  apply (listed_dependencies E MS xs'); auto. rewrite H3, H4. exact HD.
Qed.
Lemma c149 E MS xs vars m : canonical_recipe E xs vars -> no_slash_key xs -> addressable_document (document xs) = true ->
  packages_of_file E MS SV0 xs vars m ->
  exists r, new_recipe E (join NLs (recipe_page xs vars)) = Ok r /\ get_all_dependencies E MS r = Ok m.
Proof.
  intros HC HK HA HD. eexists. split; [exact (read_back E xs vars HC)|]. destruct HC as (((HC & _) & HP & _) & _). apply (listed_packages E MS xs); auto.
Qed.
Lemma c149_new E MS xs vars m : new_file E xs vars -> no_slash_key xs -> addressable_document (document xs) = true ->
  packages_of_file E MS SV1 xs vars m ->
  exists r, new_recipe E (join NLs (page xs)) = Ok r /\ get_all_dependencies E MS r = Ok m.
Proof.
  intros HC HK HA HD. eexists. split; [exact (new_read_back E xs vars HC)|]. destruct HC as (((HC & _) & HP & _) & _). apply (listed_packages E MS xs); auto.
Qed.
Lemma c149_session E MS l xs vars xs' vars' m : canonical_recipe E xs vars -> canonical_recipe E xs' vars' -> no_slash_key xs' -> addressable_document (document xs') = true ->
  acted_in_turn E MS SV0 l xs vars xs' vars' -> packages_of_file E MS SV0 xs' vars' m ->
  exists r, new_recipe E (join NLs (recipe_page xs vars)) = Ok r /\ get_all_dependencies E MS (session E MS l r) = Ok m.
Proof.
  intros HC HC' HK HX HA HD. eexists. split; [exact (read_back E xs vars HC)|]. set (r0 := {| r_init := _ |}).
  destruct (act_all E MS SV0 l xs vars xs' vars' HA r0 eq_refl eq_refl eq_refl) as (_ & H2 & H3 & H4). destruct HC' as (((HC' & _) & HP & _) & _).
  apply (listed_packages E MS xs'); auto. rewrite H3, H4. exact HD.
Qed.
