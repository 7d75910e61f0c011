(** Proofs for C144: a session of calls on a file in the canonical layout. *)
From Verif Require Import EditProofs UndoProofs NewFileProofs LayoutProofs8 DepsProofs DepFileProofs CommentFileProofs SessionSpec.

Lemma put_value k v A old B : unset k A -> dset k v (A ++ (k, old) :: B) = A ++ (k, v) :: B.
Proof.
  induction A as [|[k' w] A IH]; intros H; cbn [app dset].
  - rewrite str_eqb_refl. reflexivity.
  - destruct (str_eqb k k') eqn:Q; [apply str_eqb_eq in Q as <-; exfalso; apply (H w); left; reflexivity|].
    f_equal. apply IH. intros u HI. apply (H u). right. exact HI.
Qed.
Lemma put_new k v vars : unset k vars -> dset k v vars = vars ++ [(k, v)].
Proof.
  induction vars as [|[k' w] A IH]; intros H; cbn [app dset]; [reflexivity|].
  destruct (str_eqb k k') eqn:Q; [apply str_eqb_eq in Q as <-; exfalso; apply (H w); left; reflexivity|].
  f_equal. apply IH. intros u HI. apply (H u). right. exact HI.
Qed.
Lemma take_value k A (old : json) B : unset k A -> ddel k (A ++ (k, old) :: B) = A ++ B /\ dmem k (A ++ (k, old) :: B) = true.
Proof.
  unfold dmem. induction A as [|[k' w] A IH]; intros H; cbn [app ddel dget].
  - rewrite str_eqb_refl. split; reflexivity.
  - destruct (str_eqb k k') eqn:Q; [apply str_eqb_eq in Q as <-; exfalso; apply (H w); left; reflexivity|].
    destruct IH as (-> & ->); [intros u HI; apply (H u); right; exact HI|]. split; reflexivity.
Qed.
Lemma remove_once E dep xs xs' : file_edited E (RRemove (d_path dep)) xs xs' -> forall r, r_root r = document xs ->
  exists r', remove_dependency E dep r = (Ok true, r') /\ r_root r' = document xs' /\ same_but_tree r r'.
Proof.
  intros HA r HR. assert (d_path dep <> []) as NE by exact (remove_path E _ xs xs' HA).
  destruct (edit_once E _ xs xs' HA _ r (remove_asks dep NE) HR) as (r' & HP & HR' & HS). exists r'. split; [exact HP|]. split; assumption.
Qed.
Lemma act_once E MS sv a xs vars xs' vars' : acted E MS sv a xs vars xs' vars' -> forall r, r_root r = document xs -> r_schema r = sv -> r_vars r = vars ->
  accepted E MS a r /\ r_root (made E MS a r) = document xs' /\ r_schema (made E MS a r) = sv /\ r_vars (made E MS a r) = vars'.
Proof.
  intros H r HR HS HV. destruct H as [p q xs xs' vars HA HE|e xs xs' vars HL (p & HC & HP & HI)|k v xs vars vars' HP|k xs vars vars' (A & old & B & HU & -> & ->)|dep mode smode xs xs' vars HD|dep xs xs' vars HE].
  - destruct (edit_once E q xs xs' HE p r HA HR) as (r' & HX & H1 & _ & H2 & H3). cbn [accepted made after]. rewrite HX. cbn [fst snd]. repeat split; congruence.
  - destruct (edit_done E p e xs xs' r HC HP HI HR) as (H1 & H2 & _ & H3 & H4). split; [destruct e; try discriminate HL; exact H1|].
    cbn [made]. repeat split; congruence.
  - cbn [accepted made after succeeded set_variable mark_modified with_vars r_root r_schema r_vars]. split; [exact I|]. split; [exact HR|]. split; [exact HS|]. rewrite HV.
    destruct HP as [(A & old & B & HU & -> & ->)|(HU & ->)]; [apply put_value, HU|apply put_new, HU].
  - destruct (take_value k A old B HU) as (H1 & H2). cbn [accepted made after succeeded]. unfold del_variable. rewrite HV, H2.
    cbn [mark_modified with_vars r_root r_schema r_vars]. split; [|repeat split; assumption].
    unfold list_variables, dkeys. rewrite HV, map_app. apply in_or_app. right. left. reflexivity.
  - destruct (add_once E MS dep mode smode sv vars xs xs' HD r HR HS HV) as (r' & HX & H1 & _ & H2 & H3). cbn [accepted made]. rewrite HX. cbn [fst snd]. repeat split; congruence.
  - destruct (remove_once E dep xs xs' HE r HR) as (r' & HX & H1 & _ & H2 & H3). cbn [accepted made]. rewrite HX. cbn [fst snd]. repeat split; congruence.
Qed.
Lemma act_all E MS sv l xs vars xs' vars' : acted_in_turn E MS sv l xs vars xs' vars' -> forall r, r_root r = document xs -> r_schema r = sv -> r_vars r = vars ->
  all_accepted E MS l r /\ r_root (session E MS l r) = document xs' /\ r_schema (session E MS l r) = sv /\ r_vars (session E MS l r) = vars'.
Proof.
  induction 1 as [xs vars|a l xs vars xs1 vars1 xs' vars' HA HL IH]; intros r HR HS HV; [repeat split; assumption|].
  destruct (act_once E MS sv a xs vars xs1 vars1 HA r HR HS HV) as (H1 & H2 & H3 & H4). destruct (IH _ H2 H3 H4) as (G1 & G2 & G3 & G4).
  split; [split; assumption|]. cbn [session]. auto.
Qed.
Lemma c144 E MS l xs vars xs' vars' : canonical_recipe E xs vars -> canonical_recipe E xs' vars' -> acted_in_turn E MS SV0 l xs vars xs' vars' ->
  let text := join NLs (recipe_page xs vars) in let text' := join NLs (recipe_page xs' vars') in
  exists r r2, new_recipe E text = Ok r /\ all_accepted E MS l r /\ render E (session E MS l r) = text'
  /\ new_recipe E text' = Ok r2 /\ r_root r2 = r_root (session E MS l r) /\ r_schema r2 = SV0 /\ r_vars r2 = r_vars (session E MS l r).
Proof.
  intros HC HC' HA text text'. subst text text'. eexists. eexists. split; [exact (read_back E xs vars HC)|]. set (r0 := {| r_init := _ |}).
  destruct (act_all E MS SV0 l xs vars xs' vars' HA r0 eq_refl eq_refl eq_refl) as (H1 & H2 & H3 & H4). split; [exact H1|].
  split; [exact (rendered E _ xs' vars' H2 H3 H4 HC')|]. split; [exact (read_back E xs' vars' HC')|]. cbn [r_root r_schema r_vars]. rewrite H2, H4. repeat split.
Qed.
Lemma c144_new E MS l xs vars xs' vars' vars2 : new_file E xs vars -> new_file E xs' vars2 -> acted_in_turn E MS SV1 l xs vars xs' vars' ->
  let text := join NLs (page xs) in let text' := join NLs (page xs') in
  exists r r2, new_recipe E text = Ok r /\ all_accepted E MS l r /\ render E (session E MS l r) = text'
  /\ new_recipe E text' = Ok r2 /\ r_root r2 = r_root (session E MS l r) /\ r_schema r2 = SV1 /\ r_vars r2 = vars2.
Proof.
  intros HC HC' HA text text'. subst text text'. eexists. eexists. split; [exact (new_read_back E xs vars HC)|]. set (r0 := {| r_init := _ |}).
  destruct (act_all E MS SV1 l xs vars xs' vars' HA r0 eq_refl eq_refl eq_refl) as (H1 & H2 & H3 & H4). split; [exact H1|].
  split; [exact (rendered_v1 E _ xs' H2 H3 (proj1 HC'))|]. split; [exact (new_read_back E xs' vars2 HC')|]. cbn [r_root r_schema r_vars]. rewrite H2. repeat split.
Qed.
Lemma turn_app E MS sv l l' xs vars xs1 vars1 xs' vars' : acted_in_turn E MS sv l xs vars xs1 vars1 -> acted_in_turn E MS sv l' xs1 vars1 xs' vars' ->
  acted_in_turn E MS sv (l ++ l') xs vars xs' vars'.
Proof. induction 1 as [|a l xs vars xs2 vars2 xs1 vars1 HA HL IH]; intros H'; cbn [app]; [exact H'|]. eapply acts_next; [exact HA|apply IH, H']. Qed.
Lemma variable_line xs A k v w B : exists rest, recipe_page xs (A ++ (k, v) :: B) = map statement A ++ statement (k, v) :: rest
  /\ recipe_page xs (A ++ (k, w) :: B) = map statement A ++ statement (k, w) :: rest.
Proof.
  exists (map statement B ++ [[]] ++ page xs). unfold recipe_page. rewrite !map_app. cbn [map]. rewrite <- !app_assoc. cbn [app].
  destruct A; split; reflexivity.
Qed.
