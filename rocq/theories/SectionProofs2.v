(** Proofs about the section upgrades, section by section. *)
From Verif Require Export SectionProofs.
From Verif Require Import SectionSpec.

Definition comp_ok (x : str) : bool := negb (is_nil x) && negb (existsb (ceq cSL) x).
Lemma comp_ok_spec x : comp_ok x = true -> component x.
Proof.
  unfold comp_ok. rewrite andb_true_iff, !negb_true_iff. intros (H1 & H2). split; [destruct x; [discriminate|congruence]|].
  intros HI. assert (existsb (ceq cSL) x = true); [|congruence]. apply existsb_exists. exists cSL. split; [exact HI|apply ceq_refl].
Qed.
Lemma comps_ok l : forallb comp_ok l = true -> Forall component l.
Proof. rewrite forallb_forall, Forall_forall. intros H x Hx. apply comp_ok_spec, H, Hx. Qed.
Lemma number_ok i : comp_ok (str_of_nat i) = true.
Proof.
  destruct (str_of_nat_spec i) as (_ & _ & H1 & H2). unfold comp_ok. destruct (str_of_nat i) as [|x l]; [contradiction|]. cbn [is_nil negb andb].
  apply negb_true_iff. apply not_true_iff_false. intros K. apply existsb_exists in K as (y & Hy & K). apply ceq_eq in K. subst. auto.
Qed.
(** How paths are written in the code. *)
Definition base_of (bs : list str) (b : str) : Prop := b = path_text bs \/ b = path_text bs ++ [cSL].
Definition ext_of (e : str) (es : list str) : Prop := e = path_text es \/ path_text es = cSL :: e.
Lemma path_of bs b e es c : Forall component bs -> base_of bs b -> forallb comp_ok (es ++ [c]) = true -> ext_of e (es ++ [c]) ->
  append_to_path b e = path_text ((bs ++ es) ++ [c]).
Proof.
  intros HB Hb HC He. rewrite <- app_assoc. apply c02_append; auto using comps_ok, snoc_nonnil.
Qed.
Lemma comps bs es c : Forall component bs -> forallb comp_ok (es ++ [c]) = true -> Forall component ((bs ++ es) ++ [c]).
Proof. intros HB HC. rewrite <- app_assoc. apply Forall_app. split; [exact HB|apply comps_ok, HC]. Qed.

Ltac side :=
  solve [ vm_compute; reflexivity | left; vm_compute; reflexivity | right; vm_compute; reflexivity | intros K; vm_compute in K; discriminate K ].
Section Sections.
Context (T : tools).
Let E := t_env T.
Hypothesis HE : reads_proper E.
Section Base.
Context (ds : list str) (b : str).
Hypothesis HD : Forall component ds.
Hypothesis HB : base_of ds b.
(** [_patch_move_base_path] *)
Lemma helper_move ec c es d ed : forallb comp_ok [c] = true -> forallb comp_ok (es ++ [d]) = true -> ext_of ec [c] -> ext_of ed (es ++ [d]) ->
  isdigit d = false -> str_eqb d $"-" = false -> [c] <> es ++ [d] ->
  doesu (patch_move_base_path T b ec ed) (move E ds c (ds ++ es) d).
Proof.
  intros Hc Hd Xc Xd D ND NE. unfold patch_move_base_path.
  rewrite (path_of ds b ec [] c HD HB Hc Xc), (path_of ds b ed es d HD HB Hd Xd), app_nil_r.
  unfold move. apply (if_has ds c).
  - pose proof (comps ds [] c HD Hc) as K. rewrite app_nil_r in K. exact K.
  - apply only. apply does_move; auto.
    + pose proof (comps ds [] c HD Hc) as K. rewrite app_nil_r in K. exact K.
    + apply comps; auto.
    + apply str_eqb_neq, ND.
    + rewrite <- app_assoc. intros K. apply NE. apply app_inv_head in K. exact K.
Qed.
Lemma helper_rename ec c d ed : forallb comp_ok [c] = true -> forallb comp_ok [d] = true -> ext_of ec [c] -> ext_of ed [d] ->
  isdigit d = false -> str_eqb d $"-" = false -> str_eqb c d = false -> doesu (patch_move_base_path T b ec ed) (rename E ds c d).
Proof.
  intros Hc Hd Xc Xd D ND NE. pose proof (helper_move ec c [] d ed Hc Hd Xc Xd D ND) as K. rewrite app_nil_r in K. apply K.
  apply str_eqb_neq in NE. cbn [app]. congruence.
Qed.
(** [_patch_add_missing_path] *)
Lemma helper_add e c v : forallb comp_ok [c] = true -> ext_of e [c] -> isdigit c = false -> str_eqb c $"-" = false ->
  doesu (patch_add_missing_path T b e v) (if_missing (ds ++ [c]) (in_lines (value_put E ds c v))).
Proof.
  intros Hc Xc D ND. unfold patch_add_missing_path. rewrite (path_of ds b e [] c HD HB Hc Xc), app_nil_r.
  pose proof (comps ds [] c HD Hc) as K. rewrite app_nil_r in K.
  apply (if_has_not ds c); [exact K|]. apply only. apply does_add; auto. apply str_eqb_neq, ND.
Qed.
Lemma helper_has_when e c m A : forallb comp_ok [c] = true -> ext_of e [c] -> doesu m A ->
  doesu (run! there := has (append_to_path b e) in when there m) (if_there (ds ++ [c]) A).
Proof.
  intros Hc Xc H. rewrite (path_of ds b e [] c HD HB Hc Xc), app_nil_r.
  pose proof (comps ds [] c HD Hc) as K. rewrite app_nil_r in K. apply (if_has ds c _ _ K H).
Qed.
(** A test followed by further steps. *)
Lemma has_then cs c m A k B : Forall component (cs ++ [c]) -> doesu m A -> doesu k B ->
  doesu (run! there := has (path_text (cs ++ [c])) in do! when there m in k) (if_there (cs ++ [c]) A >> B).
Proof.
  intros HC H Hk. eapply does_impl; [|apply (does_bind _ _ _ (fun (x : bool) (_ : unit) => (if x then A else nothing) >> B) (does_has cs c HC))].
  - intros a w w' (x & mid & (-> & Hb) & m' & K1 & K2). exists m'. split; [|exact K2].
    destruct x; [left; split; [apply Hb; reflexivity|exact K1]|right; split; [intros P; apply Hb in P; discriminate|exact K1]].
  - intros [|]; cbn [when]; apply does_seq; auto using does_done.
Qed.
(** [_patch_move_new_path] *)
Lemma helper_nest eo c en into ex d : forallb comp_ok [c] = true -> forallb comp_ok [into; d] = true -> ext_of eo [c] -> ext_of en [into] ->
  isdigit into = false -> str_eqb into $"-" = false -> isdigit d = false -> str_eqb d $"-" = false ->
  append_to_path en (match ex with Some e => e | None => eo end) = path_text [into; d] ->
  doesu (patch_move_new_path T b eo en ex) (nest E ds c into d).
Proof.
  intros Hc Hd Xc Xi D1 N1 D2 N2 Hx. unfold patch_move_new_path. cbv zeta. rewrite Hx.
  rewrite (path_of ds b eo [] c HD HB Hc Xc), app_nil_r. pose proof (comps ds [] c HD Hc) as K. rewrite app_nil_r in K.
  unfold nest, created. apply has_then; [exact K| |].
  - apply helper_add; auto. cbn [forallb] in Hd |- *. rewrite andb_true_r. apply andb_prop in Hd. apply Hd.
  - apply (helper_move eo c [into] d); auto; [left; reflexivity|discriminate].
Qed.
(** [_patch_deprecated_fields] *)
Lemma helper_dropped l : forallb (fun c => comp_ok c) l = true ->
  doesu (patch_deprecated_fields T b l) (all_dropped ds l).
Proof.
  intros HL. unfold patch_deprecated_fields, all_dropped. apply does_each. intros c Hc.
  rewrite forallb_forall in HL. specialize (HL c Hc).
  assert (forallb comp_ok [c] = true) as Hc' by (cbn [forallb]; rewrite HL; reflexivity).
  assert (append_to_path b c = path_text (ds ++ [c])) as ->.
  { rewrite (path_of ds b c [] c HD HB Hc'), app_nil_r; [reflexivity|]. right. cbn [app path_text]. rewrite app_nil_r. reflexivity. }
  pose proof (comps ds [] c HD Hc') as K. rewrite app_nil_r in K. unfold dropped. apply (if_has ds c); [exact K|].
  eapply does_impl; [|apply (does_bind _ (fun ok : bool => when ok (say WARNING ($"Field at `" ++ path_text (ds ++ [c]) ++ $"` is no longer supported."))) _
     (fun x (_ : unit) => if x then tell (unsupported_field (ds ++ [c])) else nothing) (does_remove T HE ds c))].
  - intros a w w' (x & mid & (-> & H1) & H2). exists mid. split; auto.
  - intros [|]; [apply does_tell|apply does_done].
Qed.
End Base.
Lemma base_of_path bs : base_of bs (path_text bs).
Proof. left; reflexivity. Qed.
 Lemma below bs b e c : Forall component bs -> base_of bs b -> forallb comp_ok [c] = true -> ext_of e [c] -> append_to_path b e = path_text (bs ++ [c]).
Proof. intros HB Hb HC He. rewrite (path_of bs b e [] c HB Hb HC He), app_nil_r. reflexivity. Qed.
Lemma below_comps bs c : Forall component bs -> forallb comp_ok [c] = true -> Forall component (bs ++ [c]).
Proof. intros HB Hb. apply Forall_app. split; [exact HB|apply comps_ok, Hb]. Qed.

(** * Misspellings *)
Lemma base_text_of bs : base_of bs (base_text bs).
Proof. destruct bs; [right|left]; reflexivity. Qed.
Lemma for_bases bases f A : Forall (Forall component) bases -> (forall bs, Forall component bs -> doesu (f (base_text bs)) (A bs)) ->
  doesu (each (map base_text bases) f) (for_each A bases).
Proof.
  intros HB H. unfold for_each. induction HB as [|bs l H1 H2 IH]; cbn [map each all_of]; [apply does_done|]. apply does_seq; [apply H, H1|exact IH].
Qed.
(** Several renames in a row, followed by something. *)
Lemma rename_first ds b ec c d ed l k B : Forall component ds -> base_of ds b -> forallb comp_ok [c] = true -> forallb comp_ok [d] = true ->
  ext_of ec [c] -> ext_of ed [d] -> isdigit d = false -> str_eqb d $"-" = false -> str_eqb c d = false ->
  doesu k (renames E ds l >> B) ->
  doesu (do! patch_move_base_path T b ec ed in k) (renames E ds ((c, d) :: l) >> B).
Proof.
  intros HD HB H1 H2 H3 H4 H5 H6 H7 HK. eapply does_impl; [|apply does_seq; [apply (helper_rename ds b HD HB ec c d ed H1 H2 H3 H4 H5 H6 H7)|exact HK]].
  intros a w w' (m & R1 & m' & R2 & R3). exists m'. split; [|exact R3]. exists m. split; [exact R1|exact R2].
Qed.
Lemma no_renames ds k B : doesu k B -> doesu k (renames E ds [] >> B).
Proof. apply does_impl. intros a w w' H. exists w. split; [reflexivity|exact H]. Qed.
Lemma misspellings bases : Forall (Forall component) bases ->
  doesu (correct_common_misspellings T (map base_text bases)) (for_each (misspellings_corrected E) bases).
Proof.
  intros HBS. unfold correct_common_misspellings. apply for_bases; [exact HBS|]. intros bs HB. cbv zeta.
  rewrite (below bs (base_text bs) $"/build" $"build") by (auto using base_text_of; side).
  unfold misspellings_corrected.
  assert (Forall component (bs ++ [$"build"])) as HBB by (apply below_comps; [exact HB|side]).
  do 3 (apply rename_first; [exact HBB|apply base_of_path|side|side|side|side|side|side|side|]).
  apply no_renames. apply helper_rename; [exact HB|apply base_text_of|side..].
Qed.

(** * Sources *)
Lemma source_one ds : Forall component ds -> ds <> [] -> doesu (upgrade_source T (path_text ds)) (source_upgraded E ds).
Proof.
  intros HD HN. unfold upgrade_source, source_upgraded.
  rewrite (below ds _ $"svn_url" $"svn_url"), (below ds _ $"hg_url" $"hg_url") by (auto using base_of_path; side).
  apply has_then; [apply below_comps; [exact HD|side]|apply does_tell|].
  apply has_then; [apply below_comps; [exact HD|side]|apply does_tell|].
  do 6 (apply rename_first; [exact HD|apply base_of_path|side|side|side|side|side|side|side|]).
  apply no_renames. destruct (exists_last HN) as (cs & c & ->).
  apply (does_sort cs c V1_SOURCE_SECTION_SORT HD).
  - repeat constructor.
  - repeat constructor.
Qed.
Lemma sources bases : Forall (Forall component) bases ->
  doesu (upgrade_source_section T (map base_text bases)) (for_each (sources_upgraded E) bases).
Proof.
  intros HBS. unfold upgrade_source_section. apply for_bases; [exact HBS|]. intros bs HB. cbv zeta.
  rewrite (below bs (base_text bs) $"/source" $"source") by (auto using base_text_of; side).
  assert (Forall component (bs ++ [$"source"])) as HS by (apply below_comps; [exact HB|side]).
  unfold sources_upgraded. apply (if_has bs $"source"); [exact HS|]. apply with_read. intros v.
  assert (doesu (each [path_text (bs ++ [$"source"])] (upgrade_source T)) (source_upgraded E (bs ++ [$"source"]))) as H1.
  { cbn [each]. eapply does_impl; [|apply does_seq; [apply source_one; [exact HS|apply snoc_nonnil]|apply does_done]].
    intros a w w' (m & H1 & ->). exact H1. }
  destruct v as [p|l|d]; [exact H1| |exact H1].
  assert (forall L, doesu (each (map (fun i => append_to_path (path_text (bs ++ [$"source"])) ($"/" ++ str_of_nat i)) L) (upgrade_source T))
     (all_of (map (fun i => source_upgraded E ((bs ++ [$"source"]) ++ [str_of_nat i])) L))) as HL.
  { induction L as [|i L IH]; cbn [map each all_of]; [apply does_done|]. apply does_seq; [|exact IH].
    assert (forallb comp_ok [str_of_nat i] = true) as Hi by (cbn [forallb]; rewrite number_ok; reflexivity).
    rewrite (below (bs ++ [$"source"]) _ ($"/" ++ str_of_nat i) (str_of_nat i)); auto.
    - apply source_one; [apply below_comps; auto|apply snoc_nonnil].
    - apply base_of_path.
    - left. cbn [path_text]. rewrite app_nil_r. reflexivity. }
  apply HL.
Qed.
End Sections.
