(** Proofs for C155. *)
From Verif Require Import RefProofs SectionProofs4 NewFileProofs EditProofs PatchProofs3.
From Verif Require Export MentionProofs SweepSpec.

Lemma sweep_order E d : forall paths xs xs', swept E d paths xs xs' -> forall r, r_root r = document xs ->
  exists r', in_order E d paths r (Ok true) r' /\ r_root r' = document xs' /\ r_schema r' = r_schema r /\ r_vars r' = r_vars r.
Proof.
  unfold swept. induction paths as [|p paths IH]; intros xs xs' H r HR; cbn [map] in H; inversion H as [|pl q ps ? xs1 ? HA HE HT]; subst.
  - exists r. split; [constructor|]. auto.
  - destruct (edit_once E q xs xs1 HE _ r HA HR) as (r1 & HX & H1 & _ & H2 & H3). destruct (IH xs1 xs' HT r1 H1) as (r' & HO & G1 & G2 & G3).
    exists r'. split; [eapply order_next; eassumption|]. repeat split; congruence.
Qed.
Lemma search_order E rx d ic r o r' : search_and_patch E rx d ic r = (o, r') <-> in_order E d (search E rx ic (r_root r)) r o r'.
Proof.
  rewrite c21, search_is. rewrite (positions_where_ext _ (fun n => terminal n && rx (searched_text ic n))); [reflexivity|].
  intros n. unfold shown_text, searched_text. do 3 f_equal. destruct ic; [|reflexivity]. destruct (n_comment n); reflexivity.
Qed.
Lemma sweep E rx d ic xs xs' r : r_root r = document xs -> Forall (canonical E) xs -> no_slash_key xs -> xs <> [] -> (ic = true -> no_list_comment xs) ->
  swept E d (lines_found rx ic xs) xs xs' ->
  exists r', search_and_patch E rx d ic r = (Ok true, r') /\ r_root r' = document xs' /\ r_schema r' = r_schema r /\ r_vars r' = r_vars r.
Proof.
  intros HR HC HK HX HN HS. destruct (sweep_order E d _ xs xs' HS r HR) as (r' & HO & H). exists r'. split; [|exact H]. apply search_order.
  destruct (was_searched E xs r HR HC HK HX rx) as (S1 & S2).
  assert (search E rx ic (r_root r) = lines_found rx ic xs) as ->; [|exact HO]. unfold lines_found. destruct ic; [apply S2, HN; reflexivity|exact S1].
Qed.
Lemma c155 E rx d ic xs vars xs' : canonical_recipe E xs vars -> canonical_recipe E xs' vars -> no_slash_key xs -> xs <> [] -> (ic = true -> no_list_comment xs) ->
  swept E d (lines_found rx ic xs) xs xs' ->
  exists r, new_recipe E (join NLs (recipe_page xs vars)) = Ok r
  /\ let o := search_and_patch E rx d ic r in fst o = Ok true /\ render E (snd o) = join NLs (recipe_page xs' vars).
Proof.
  intros HC HC' HK HX HN HS. eexists. split; [exact (read_back E xs vars HC)|]. set (r0 := {| r_init := _ |}).
  destruct (sweep E rx d ic xs xs' r0 eq_refl) as (r' & HO & H1 & H2 & H3); auto; [destruct HC as (((HC & _) & _ & _) & _); exact HC|].
  cbv zeta. rewrite HO. split; [reflexivity|]. exact (rendered E r' xs' vars H1 H2 H3 HC').
Qed.
Lemma c155_new E rx d ic xs vars xs' : new_file E xs vars -> canonical_document E xs' -> no_slash_key xs -> xs <> [] -> (ic = true -> no_list_comment xs) ->
  swept E d (lines_found rx ic xs) xs xs' ->
  exists r, new_recipe E (join NLs (page xs)) = Ok r
  /\ let o := search_and_patch E rx d ic r in fst o = Ok true /\ render E (snd o) = join NLs (page xs').
Proof.
  intros HC HC' HK HX HN HS. eexists. split; [exact (new_read_back E xs vars HC)|]. set (r0 := {| r_init := _ |}).
  destruct (sweep E rx d ic xs xs' r0 eq_refl) as (r' & HO & H1 & H2 & H3); auto; [destruct HC as (((HC & _) & _ & _) & _); exact HC|].
  cbv zeta. rewrite HO. split; [reflexivity|]. exact (rendered_v1 E r' xs' H1 H2 HC').
Qed.
(** Nothing is found: nothing changes. *)
Lemma c155_nothing E rx d ic xs vars : canonical_recipe E xs vars -> no_slash_key xs -> xs <> [] -> (ic = true -> no_list_comment xs) -> lines_found rx ic xs = [] ->
  exists r, new_recipe E (join NLs (recipe_page xs vars)) = Ok r /\ search_and_patch E rx d ic r = (Ok true, r).
Proof.
  intros HC HK HX HN HF. eexists. split; [exact (read_back E xs vars HC)|]. set (r0 := {| r_init := _ |}). apply search_order.
  destruct HC as (((HC & _) & _ & _) & _). destruct (was_searched E xs r0 eq_refl HC HK HX rx) as (S1 & S2).
  assert (search E rx ic (r_root r0) = []) as ->; [|constructor]. unfold lines_found in HF. destruct ic; [rewrite S2 by auto|rewrite S1]; exact HF.
Qed.
