(** Proofs for C139: adding a dependency to a file in the canonical layout. *)
From Verif Require Import FrameProofs2 DepsProofs ServiceProofs CommandsProofs AnswerProofs PhaseProofs2 ValueProofs AboutProofs PathProofs PathProofs2 PatchProofs PatchProofs2 FrameProofs LayoutProofs8 CommandsProofs4 CanProofs CanProofs5 BumpProofs EditProofs DepsProofs4 DepFileSpec PlainSpec.

(** The section that changes. *)
Definition section_place (cs : list str) (xs : list item) (R : list item -> list item -> Prop) (xs' : list item) : Prop :=
  exists q c ys ys', addresses (document xs) (path_text cs) q /\ node_at (document xs) q = Some (key_node (PStr (last cs [])) c (map tree_of ys)) /\ R ys ys'
  /\ forall R' : node -> node -> Prop, R' (key_node (PStr (last cs [])) c (map tree_of ys)) (key_node (PStr (last cs [])) c (map tree_of ys')) ->
     changed_at R' q (document xs) (document xs').
Lemma section_found R cs xs xs' : Forall component cs -> inside (section_changed (last cs []) R) cs xs xs' -> section_place cs xs R xs'.
Proof.
  intros HC HI. pose proof (inside_nonempty _ _ _ _ HI) as NE.
  destruct (inside_at _ _ _ _ HI [] (document xs) eq_refl (or_introl eq_refl)) as (zs & zs' & (A & x & x' & B & c & ys & ys' & D & HNo & HB & HB' & HR & -> & ->) & q & m & pre' & HT & HN & HM & HP & _ & HCh).
  assert (selects (last cs []) A x) as HS by (unfold selects; rewrite D; split; [exact HNo|destruct HB; reflexivity]).
  pose proof (selects_step _ _ _ _ _ _ HM HP HS) as HSt. destruct (found_address _ _ _ _ _ _ HC NE HT HN HSt) as (HAd & HNx).
  rewrite (key_tree _ _ _ _ HB) in HNx. exists (q ++ [length (pre' ++ map tree_of A)]), c, ys, ys'. split; [exact HAd|]. split; [exact HNx|]. split; [exact HR|].
  intros R' HR'. apply changed_app. rewrite <- (document_lines xs xs'). apply HCh. eapply below_change; [exact HM|reflexivity|].
  rewrite (key_tree _ _ _ _ HB), (key_tree _ _ _ _ HB'). exact HR'.
Qed.
Lemma lines_entries k c ys : dependency_lines ys -> entries_only (key_node k c (map tree_of ys)).
Proof.
  intros H. split; [reflexivity|]. split; [reflexivity|]. cbn [key_node n_children]. apply Forall_map. eapply Forall_impl; [|exact H].
  intros y [(cm & -> & NE)|(v & cm & ->)]; [left; split; [reflexivity|split; [exact NE|reflexivity]]|right; split; reflexivity].
Qed.
Lemma line_found k c A v cm B : entry_line (key_node k c (map tree_of (A ++ IElem v cm :: B))) (elements A) (length A) (tree_of (IElem v cm)).
Proof.
  unfold entry_line. cbn [key_node n_children]. rewrite map_app. cbn [map]. rewrite <- (map_length tree_of A), BumpProofs.nth_middle, firstn_app, firstn_all, Nat.sub_diag, app_nil_r.
  split; [reflexivity|]. split; [intros (H & _); discriminate|]. apply elements_of.
Qed.
Definition added_result (E : env) (MS : match_spec) (dep : dependency) (mode : dep_mode) (smode : sel_mode) (r : recipe) (xs' : list item) : Prop :=
  exists r', add_dependency E MS dep mode smode r = (Ok true, r') /\ r_root r' = document xs' /\ same_but_tree r r'.
Lemma components_of p cs d : requirements_path p cs d -> Forall component cs.
Proof. intros H. destruct (rp_components _ _ _ H) as (_ & HC & _). apply Forall_app in HC as (HC & _). exact HC. Qed.
Lemma replaced_lines k c A v cm cm' B text : line_replaced (length A) [dependency_line text cm']
  (key_node k c (map tree_of (A ++ IElem v cm :: B))) (key_node k c (map tree_of (A ++ IElem (JStr text) cm' :: B))).
Proof.
  exists (map tree_of A), (tree_of (IElem v cm)), (map tree_of B). rewrite !map_app. cbn [map]. split; [reflexivity|]. split; [apply map_length|]. reflexivity.
Qed.
Lemma appended_lines k c ys new l : map tree_of new = l -> lines_appended l (key_node k c (map tree_of ys)) (key_node k c (map tree_of (ys ++ new))).
Proof. intros <-. unfold lines_appended. rewrite map_app. reflexivity. Qed.
Lemma one_more E r xs cs text q c ys : r_root r = document xs -> Forall component cs -> addresses (document xs) (path_text cs) q ->
  node_at (document xs) q = Some (key_node (PStr (last cs [])) c (map tree_of ys)) -> read_with_new E cs text xs ->
  reads_one_more E r cs q (key_node (PStr (last cs [])) c (map tree_of ys)) text.
Proof.
  intros HR HC HAd HN (ys1 & xs1 & l & HI & HG & HL) root' HCh. destruct (section_found _ _ _ _ HC HI) as (q1 & c1 & y1 & y2 & HAd1 & HN1 & (-> & ->) & HCh1).
  rewrite (same_address _ _ _ _ HAd1 HAd) in *. rewrite HN in HN1. injection HN1 as <- HE. rewrite HR in HCh.
  assert (root' = document xs1) as -> by (refine (changed_once _ q (appended_once _) _ _ _ HCh _); apply HCh1, appended_lines; reflexivity).
  exists l. split; [exact HG|]. rewrite HL. f_equal. cbn [key_node n_children]. rewrite HE. symmetry. apply elements_of.
Qed.
Lemma add_once E MS dep mode smode sv vars xs xs' : dependency_added E MS dep mode smode sv vars xs xs' -> forall r, r_root r = document xs ->
  r_schema r = sv -> r_vars r = vars -> added_result E MS dep mode smode r xs'.
Proof.
  intros H r HR HS HV. destruct H as [cs d l xs' HP HG HM HD HO HI|cs d before x after xs' HP HG HM HB HX HD HI|cs d l xs' HP HG HM HD HI|ps sec d xs' HP HM HW HI].
  - pose proof (components_of _ _ _ HP) as HC. destruct (section_found _ _ _ _ HC HI) as (q & c & ys & ys' & HAd & HN & (HL & cm & HCm & ->) & HCh).
    assert (d_sel dep = None \/ reads_one_more E r cs q (key_node (PStr (last cs [])) c (map tree_of ys)) (dep_text dep)) as HO'.
    { destruct HO as [HO|HO]; [left; exact HO|right]. eapply one_more; eassumption. }
    edestruct (c48_append E MS dep mode smode r cs d q (key_node (PStr (last cs [])) c (map tree_of ys)) l cm HP) as (r' & HA & HCh' & HSb); [|exact HM|exact HD|exact HCm|exact HO'|].
    + unfold section_at. rewrite HR, HS, HV. split; [exact HAd|]. split; [exact HN|]. split; [apply lines_entries, HL|exact HG].
    + exists r'. split; [exact HA|]. split; [|exact HSb]. rewrite HR in HCh'. refine (changed_once _ q (appended_once _) _ _ _ HCh' _). apply HCh, appended_lines. reflexivity.
  - subst mode. pose proof (components_of _ _ _ HP) as HC. destruct (section_found _ _ _ _ HC HI) as (q & c & ys & ys' & HAd & HN & (HL & A & v & c0 & cm & B & HEl & HCm & -> & ->) & HCh).
    edestruct (c48_replace E MS dep smode r cs d q (key_node (PStr (last cs [])) c (map tree_of (A ++ IElem v c0 :: B))) before x after (length A) (tree_of (IElem v c0)) cm HP) as (r' & HA & HCh' & HSb);
      [|exact HB|exact HX|rewrite <- HEl; apply line_found|exact HD|exact HCm|].
    + unfold section_at. rewrite HR, HS, HV. split; [exact HAd|]. split; [exact HN|]. split; [apply lines_entries, HL|exact HG].
    + exists r'. split; [exact HA|]. split; [|exact HSb]. rewrite HR in HCh'. refine (changed_once _ q (CanProofs5.line_replaced_once _ _) _ _ _ HCh' _). apply HCh, replaced_lines.
  - subst mode. pose proof (components_of _ _ _ HP) as HC. destruct (section_found _ _ _ _ HC HI) as (q & c & ys & ys' & HAd & HN & (HL & A & v & c0 & cm & B & HEl & HCm & -> & ->) & HCh).
    edestruct (c48_exact E MS dep smode r cs d q (key_node (PStr (last cs [])) c (map tree_of (A ++ IElem v c0 :: B))) l (length A) (tree_of (IElem v c0)) cm HP) as (r' & HA & HCh' & HSb);
      [|rewrite <- HEl; apply line_found|exact HD|exact HCm|].
    + unfold section_at. rewrite HR, HS, HV. split; [exact HAd|]. split; [exact HN|]. split; [apply lines_entries, HL|exact HG].
    + exists r'. split; [exact HA|]. split; [|exact HSb]. rewrite HR in HCh'. refine (changed_once _ q (CanProofs5.line_replaced_once _ _) _ _ _ HCh' _). apply HCh, replaced_lines.
  - pose proof (components_of _ _ _ HP) as HC. apply Forall_app in HC as (HC & _).
    destruct (section_found _ _ _ _ HC HI) as (q & c & ys & ys' & HAd & HN & (HNo & cm & HCm & ->) & HCh).
    edestruct (c48_new_section E MS dep mode smode r ps sec d q (key_node (PStr (last ps [])) c (map tree_of ys)) (tree_of (ISection (PStr sec) [] [IElem (JStr (dep_text dep)) []])) (tree_of (ISection (PStr sec) cm [IElem (JStr (dep_text dep)) cm])) HP HM) as (r' & HA & HCh' & HSb);
      [rewrite HR; exact HAd|rewrite HR; exact HN|reflexivity|reflexivity| |split; [exact HW|split; reflexivity]| |].
    + cbn [key_node n_children]. intros y. apply not_called, HNo.
    + destruct HCm as [|sel b Hb]; [constructor|]. econstructor; [exact Hb|]. reflexivity.
    + exists r'. split; [exact HA|]. split; [|exact HSb]. rewrite HR in HCh'. refine (changed_once _ q (appended_once _) _ _ _ HCh' _). apply HCh, appended_lines. reflexivity.
Qed.
Lemma c139 E MS dep mode smode vars xs xs' : canonical_recipe E xs vars -> canonical_recipe E xs' vars -> dependency_added E MS dep mode smode SV0 vars xs xs' ->
  exists r r', new_recipe E (join NLs (recipe_page xs vars)) = Ok r /\ add_dependency E MS dep mode smode r = (Ok true, r')
  /\ render E r' = join NLs (recipe_page xs' vars).
Proof.
  intros HCa HCa' HA. pose proof (read_back E xs vars HCa) as HRB. cbv zeta in HRB. set (r0 := {| r_init := _ |}) in HRB. exists r0.
  destruct (add_once _ _ _ _ _ _ _ _ _ HA r0 eq_refl eq_refl eq_refl) as (r' & HAd & HR' & _ & HS & HV).
  exists r'. split; [exact HRB|]. split; [exact HAd|]. exact (rendered E r' xs' vars HR' HS HV HCa').
Qed.
Lemma c139_removed E dep vars xs xs' : canonical_recipe E xs vars -> canonical_recipe E xs' vars -> file_edited E (RRemove (d_path dep)) xs xs' ->
  exists r r', new_recipe E (join NLs (recipe_page xs vars)) = Ok r /\ remove_dependency E dep r = (Ok true, r')
  /\ render E r' = join NLs (recipe_page xs' vars).
Proof.
  intros HCa HCa' HA. pose proof (read_back E xs vars HCa) as HRB. cbv zeta in HRB. set (r0 := {| r_init := _ |}) in HRB. exists r0.
  assert (d_path dep <> []) as NE.
  { inversion HA as [p ? ? HC HT HI HE| | | | | | | | | ]. destruct p; [|discriminate]. destruct (inside_nonempty _ _ _ _ HI eq_refl). }
  destruct (edit_once E _ xs xs' HA _ r0 (remove_asks dep NE) eq_refl) as (r' & HP & HR' & _ & HS & HV).
  exists r'. split; [exact HRB|]. split; [exact HP|]. exact (rendered E r' xs' vars HR' HS HV HCa').
Qed.
(** No line of the file changes when a dependency is ignored. *)
Lemma c139_ignored E MS dep smode vars xs cs d before x after : canonical_recipe E xs vars -> requirements_path (d_path dep) cs d ->
  inside (section_changed (last cs []) (fun ys ys' => dependency_lines ys /\ ys' = ys)) cs xs xs ->
  get_value E (document xs) (path_text cs) None (Some (SV0, vars)) = Ok (JList (before ++ x :: after)) ->
  Forall (names_other MS (dep_name dep)) before -> names_package MS (dep_name dep) x ->
  exists r, new_recipe E (join NLs (recipe_page xs vars)) = Ok r /\ add_dependency E MS dep DMIgnore smode r = (Ok false, r)
  /\ render E r = join NLs (recipe_page xs vars).
Proof.
  intros HCa HP HI HG HB HX. pose proof (read_back E xs vars HCa) as HRB. cbv zeta in HRB. set (r0 := {| r_init := _ |}) in HRB. exists r0.
  split; [exact HRB|]. split; [|exact (rendered E r0 xs vars eq_refl eq_refl eq_refl HCa)].
  destruct (section_found _ _ _ _ (components_of _ _ _ HP) HI) as (q & c & ys & ys' & HAd & HN & (HL & _) & _).
  eapply c48_ignore; [exact HP| |exact HB|exact HX]. split; [exact HAd|]. split; [exact HN|]. split; [apply lines_entries, HL|exact HG].
Qed.
