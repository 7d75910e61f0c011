(** Patterns without groups: what matches and where (proofs only). *)
From Verif Require Export LayoutProofs.


(** * Where a match ends *)
Fixpoint no_groups (r : re) : bool :=
  match r with
  | Seq a b | Alt a b => no_groups a && no_groups b
  | Opt a => no_groups a
  | Grp _ _ | NotAfter _ => false
  | _ => true
  end.
Lemma adv_pos st c t : rest st = c :: t -> pos (adv st) = S (pos st) /\ rest (adv st) = t.
Proof. intros H. unfold adv. rewrite H. auto. Qed.
Lemma star_sound_pos {A} p s : forall st (k : mst -> option A) x, rest st = s -> star_k p s st k = Some x ->
  exists u st', rest st = u ++ rest st' /\ pos st' = pos st + length u /\ grps st' = grps st /\ Forall (fun c => p c = true) u /\ k st' = Some x.
Proof.
  induction s as [|c s IH]; intros st k x R H; cbn [star_k] in H.
  - exists [], st. cbn [length]. rewrite Nat.add_0_r. auto.
  - destruct (p c) eqn:P.
    + destruct (star_k p s (adv st) k) as [y|] eqn:K.
      * injection H as ->. destruct (adv_pos _ _ _ R) as [Hp Hr].
        destruct (IH _ _ _ Hr K) as (u & st' & Hu & Hl & Hg & Fu & Hk). exists (c :: u), st'.
        split; [rewrite R, <- Hr, Hu; reflexivity|]. split; [cbn [length]; lia|]. split; [rewrite Hg; apply adv_grps|]. split; [constructor; assumption|exact Hk].
      * exists [], st. cbn [length]. rewrite Nat.add_0_r. auto.
    + exists [], st. cbn [length]. rewrite Nat.add_0_r. auto.
Qed.
Lemma m_sound_pos {A} r : no_groups r = true -> forall st (k : mst -> option A) x, m r st k = Some x ->
  exists u st', rest st = u ++ rest st' /\ pos st' = pos st + length u /\ grps st' = grps st /\ lang r u /\ k st' = Some x.
Proof.
  induction r as [p| |a IHa b IHb|a IHa b IHb|p|a IHa|n a IHa|p]; intros NG st k x H; cbn [no_groups] in NG; cbn [m] in H; cbn [lang]; try discriminate.
  - destruct (rest st) as [|c t] eqn:R; [discriminate|]. destruct (p c) eqn:P; [|discriminate]. destruct (adv_pos _ _ _ R) as [Hp Hr].
    exists [c], (adv st). split; [rewrite Hr; reflexivity|]. split; [cbn [length]; lia|]. split; [apply adv_grps|]. split; [exists c; auto|exact H].
  - exists [], st. cbn [length]. rewrite Nat.add_0_r. auto.
  - apply andb_prop in NG as [NA NB]. apply (IHa NA) in H as (u & st' & Hu & Pu & Gu & Lu & H). apply (IHb NB) in H as (v & st'' & Hv & Pv & Gv & Lv & H).
    exists (u ++ v), st''. split; [rewrite Hu, Hv, app_assoc; reflexivity|]. split; [rewrite app_length; lia|]. split; [congruence|]. split; [exists u, v; auto|exact H].
  - apply andb_prop in NG as [NA NB]. destruct (m a st k) as [y|] eqn:K.
    + injection H as ->. apply (IHa NA) in K as (u & st' & Hu & Pu & Gu & Lu & K). exists u, st'. auto 6.
    + apply (IHb NB) in H as (u & st' & Hu & Pu & Gu & Lu & H). exists u, st'. auto 6.
  - apply (star_sound_pos p (rest st)) in H; [exact H|reflexivity].
  - destruct (m a st k) as [y|] eqn:K.
    + injection H as ->. apply (IHa NG) in K as (u & st' & Hu & Pu & Gu & Lu & K). exists u, st'. auto 6.
    + exists [], st. cbn [length]. rewrite Nat.add_0_r. auto 6.
Qed.
Lemma star_complete {A} p u : forall v st (k : mst -> option A), rest st = u ++ v -> Forall (fun c => p c = true) u ->
  (forall st', rest st' = v -> pos st' = pos st + length u -> grps st' = grps st -> k st' <> None) -> star_k p (rest st) st k <> None.
Proof.
  induction u as [|c u IH]; intros v st k R F H.
  - cbn [app length] in *. assert (k st <> None) as Hk by (apply H; [exact R|lia|reflexivity]).
    destruct (rest st) as [|d t]; cbn [star_k]; [exact Hk|]. destruct (p d); [|exact Hk]. destruct (star_k p t (adv st) k); [discriminate|exact Hk].
  - inversion F as [|? ? Pc Fu]; subst. rewrite R. cbn [app star_k]. rewrite Pc. destruct (adv_pos st c (u ++ v) R) as [Hp Hr].
    assert (star_k p (u ++ v) (adv st) k <> None) as K.
    { rewrite <- Hr. apply (IH v (adv st) k Hr Fu). intros st' R' P' G'. apply H; [exact R'|cbn [length]; lia|rewrite G'; apply adv_grps]. }
    destruct (star_k p (u ++ v) (adv st) k); [discriminate|contradiction].
Qed.
Lemma m_complete {A} r : no_groups r = true -> forall u v st (k : mst -> option A), lang r u -> rest st = u ++ v ->
  (forall st', rest st' = v -> pos st' = pos st + length u -> grps st' = grps st -> k st' <> None) -> m r st k <> None.
Proof.
  induction r as [p| |a IHa b IHb|a IHa b IHb|p|a IHa|n a IHa|p]; intros NG u v st k HL R H; cbn [no_groups] in NG; cbn [lang] in HL; cbn [m]; try discriminate.
  - destruct HL as (c & -> & P). rewrite R. cbn [app]. rewrite P. destruct (adv_pos st c v R) as [Hp Hr].
    apply H; [exact Hr|cbn [length]; lia|apply adv_grps].
  - subst u. apply H; [exact R|cbn [length]; lia|reflexivity].
  - apply andb_prop in NG as [NA NB]. destruct HL as (x & y & -> & La & Lb). rewrite <- app_assoc in R.
    apply (IHa NA x (y ++ v) st _ La R). intros st' R' P' G'. apply (IHb NB y v st' k Lb R'). intros st'' R'' P'' G''.
    apply H; [exact R''|rewrite app_length; lia|congruence].
  - apply andb_prop in NG as [NA NB]. destruct (m a st k) as [y|] eqn:K; [discriminate|].
    destruct HL as [La|Lb]; [exfalso; apply (IHa NA u v st k La R H); exact K|exact (IHb NB u v st k Lb R H)].
  - exact (star_complete p u v st k R HL H).
  - destruct (m a st k) as [y|] eqn:K; [discriminate|]. destruct HL as [->|La]; [|exfalso; apply (IHa NG u v st k La R H); exact K].
    apply H; [exact R|cbn [length]; lia|reflexivity].
Qed.
Lemma lang_L s : forall u, lang (L_ s) u <-> u = s.
Proof.
  induction s as [|c s IH]; intros u; [reflexivity|]. destruct s as [|d s].
  - split; [apply lang_L_char|intros ->; exists c; split; [reflexivity|apply ceq_refl]].
  - change (lang (L_ (c :: d :: s)) u) with (exists x y, u = x ++ y /\ lang (C c) x /\ lang (L_ (d :: s)) y). split.
    + intros (x & y & -> & Hx & Hy). apply lang_L_char in Hx as ->. apply IH in Hy as ->. reflexivity.
    + intros ->. exists [c], (d :: s). split; [reflexivity|]. split; [exists c; split; [reflexivity|apply ceq_refl]|]. apply IH. reflexivity.
Qed.
Lemma m_lit {A} s : s <> [] -> forall st (k : mst -> option A) t, rest st = s ++ t ->
  exists st', m (L_ s) st k = k st' /\ rest st' = t /\ pos st' = pos st + length s /\ grps st' = grps st.
Proof.
  induction s as [|c s IH]; intros NE st k t R; [contradiction|]. destruct (adv_pos st c (s ++ t) R) as [Hp Hr]. destruct s as [|d s].
  - exists (adv st). split; [|split; [exact Hr|split; [cbn [length]; lia|apply adv_grps]]].
    cbn [L_]. unfold C. cbn [m]. rewrite R. cbn [app]. rewrite ceq_refl. reflexivity.
  - destruct (IH ltac:(discriminate) (adv st) k t Hr) as (st' & K & R' & P' & G').
    exists st'. split; [|split; [exact R'|split; [cbn [length] in *; lia|rewrite G'; apply adv_grps]]].
    change (m (L_ (c :: d :: s)) st k) with (m (C c) st (fun x => m (L_ (d :: s)) x k)).
    unfold C. cbn [m]. rewrite R. cbn [app]. rewrite ceq_refl. exact K.
Qed.
Lemma m_lit_no {A} s st (k : mst -> option A) : starts_with s (rest st) = false -> m (L_ s) st k = None.
Proof.
  intros H. destruct (m (L_ s) st k) as [x|] eqn:K; [|reflexivity]. exfalso.
  apply m_sound in K as (u & st' & R & HL & _). apply lang_L in HL as ->.
  assert (starts_with s (rest st) = true); [|congruence]. apply starts_with_spec. exists (rest st'). exact R.
Qed.

Lemma has_text_cons p c s : has_text p s -> has_text p (c :: s).
Proof. intros (a & b & ->). exists (c :: a), b. reflexivity. Qed.
Lemma has_text_nil p : p <> [] -> ~ has_text p [].
Proof. intros N (a & b & E). destruct a; [destruct p; [contradiction|discriminate]|discriminate]. Qed.
Lemma slice_mid a t b : slice (length a) (length a + length t) (a ++ t ++ b) = t.
Proof.
  unfold slice. replace (length a + length t - length a) with (length t) by lia. rewrite skipn_app, skipn_all, Nat.sub_diag. cbn [app skipn].
  rewrite firstn_app, Nat.sub_diag, firstn_all. apply app_nil_r.
Qed.
