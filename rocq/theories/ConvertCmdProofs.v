(** C115, C116 (proofs only). *)
From Verif Require Export ContextProofs CommandsProofs4 HistProofs WellProofs.
From Verif Require Import Lemmas PatchProofs PathProofs RenderProofs ConvertCmd ConvertCmdSpec.

(** * One file *)
Lemma to_v1_result T copy text t : convert_to_v1 T copy = Ok (text, t) -> exists s', render_to_v1 T {| v1 := copy; msgs := new_table |} = (Ok text, s') /\ t = msgs s'.
Proof. unfold convert_to_v1. destruct (render_to_v1 T {| v1 := copy; msgs := new_table |}) as [[x|e] s']; [|discriminate]. intros [= <- <-]. eauto. Qed.
Lemma no_errors_code c : c_code c = SUCCESS -> c_code (set_return_code c) = SUCCESS \/ c_code (set_return_code c) = RENDER_WARNINGS -> get_messages ERROR (c_messages c) = [].
Proof.
  intros HS H. destruct (c60_code c) as (H1 & _). destruct (get_messages ERROR (c_messages c)) as [|m l] eqn:E; [reflexivity|].
  rewrite H1 in H; [destruct H; discriminate|]. unfold has_messages. rewrite E. discriminate.
Qed.
Lemma c115_file T variants read path pr output c effs : reads_proper (t_env T) ->
  convert_file (t_env T) (prepared variants) (convert_to_v1 T) path read pr output = (inr c, effs) ->
  c_code c = SUCCESS \/ c_code c = RENDER_WARNINGS ->
  exists text, read = ReadOk text /\ converts_to T (pre_process_recipe_text variants text) (c_content c) (get_messages WARNING (c_messages c))
    /\ get_messages ERROR (c_messages c) = []
    /\ (c_code c = SUCCESS <-> get_messages WARNING (c_messages c) = [])
    /\ effs = match output with Some _ => [Write (c_content c)] | None => if pr then [Print (c_content c)] else [] end.
Proof.
  intros HE H HC. unfold convert_file in H. cbv zeta in H.
  destruct read as [text| |e]; [|injection H as <- _; destruct HC; discriminate..]. exists text. split; [reflexivity|].
  unfold prepared in H at 1. set (content := pre_process_recipe_text variants text) in *.
  destruct (new_convert (t_env T) content) as [[r copy]|e] eqn:HN; [|injection H as <- _; destruct HC; discriminate].
  unfold new_convert in HN. destruct (new_recipe (t_env T) content) as [r0|] eqn:HR; cbn [bind] in HN; [|discriminate].
  destruct (new_recipe (t_env T) (render (t_env T) r0)) as [copy0|] eqn:HV; cbn [bind] in HN; [|discriminate]. injection HN as -> ->.
  destruct (schema_eqb (r_schema r) SV0) eqn:HS; cbn [negb] in H; [|injection H as <- _; destruct HC; discriminate].
  destruct (convert_to_v1 T copy) as [[out t]|e] eqn:HT; [|injection H as <- _; destruct HC; discriminate].
  assert (c = set_return_code {| c_code := SUCCESS; c_content := out; c_messages := t |}
    /\ effs = match output with Some _ => [Write out] | None => if pr then [Print out] else [] end) as (EC & EE).
  { destruct output as [[e|]|]; [discriminate|..]; injection H as <- <-; split; reflexivity. }
  clear H. destruct (c60_code {| c_code := SUCCESS; c_content := out; c_messages := t |}) as (_ & CW & CS & CM & CC). rewrite <- EC in *. cbn [c_messages c_content c_code] in *.
  pose proof (no_errors_code {| c_code := SUCCESS; c_content := out; c_messages := t |} eq_refl) as NE. rewrite <- EC in NE. specialize (NE HC). cbn [c_messages] in NE.
  rewrite CC, CM. split; [|split; [exact NE|split; [|exact EE]]].
  - apply to_v1_result in HT as (s' & HT & ->).
    destruct (whole_conversion T {| v1 := copy; msgs := new_table |} out s') as (s1 & s2 & s3 & v & n & root & A1 & A2 & A3 & A4 & A5 & A6 & A7 & A8).
    + exact HE.
    + exact (parsed_proper _ _ _ HE HV).
    + exact (proj2 (proj2 (proj2 (fresh_facts _ _ _ HV)))).
    + split; [exact HT|]. cbn [msgs]. rewrite NE. reflexivity.
    + cbn [v1] in *. exists r, copy, s1, s2, s3, s', v, n, root.
      assert (r_schema r = SV0) as HS' by (destruct (r_schema r); [reflexivity|discriminate]).
      repeat (split; [eassumption|]). try (split; [eassumption|]). try reflexivity; try eassumption.
  - assert (~ has_messages ERROR t) as NH by (intros X; apply X; exact NE). split.
    + intros Z. destruct (get_messages WARNING t) eqn:W; [reflexivity|]. rewrite CW in Z; [discriminate|exact NH|]. unfold has_messages. rewrite W. discriminate.
    + intros Z. apply CS; [exact NH|]. intros X. exact (X Z).
Qed.
Lemma c115 T variants path kind read fails output min_rate code effs rep : reads_proper (t_env T) -> kind = IsFile ->
  convert_command (t_env T) (prepared variants) (convert_to_v1 T) path kind read fails output min_rate = (Exit code, effs, rep) ->
  code = SUCCESS \/ code = RENDER_WARNINGS -> exists text out warnings,
  read path = ReadOk text /\ converts_to T (pre_process_recipe_text variants text) out warnings /\ (code = SUCCESS <-> warnings = [])
  /\ effs = [match output with Some o => Written o out | None => Printed out end] /\ rep = None.
Proof.
  intros HE -> H HC. unfold convert_command, files_list in H. change (path_below path []) with path in H. unfold convert_one in H.
  destruct (convert_file (t_env T) (prepared variants) (convert_to_v1 T) path (read path) true (option_map fails output)) as [x fx] eqn:HF.
  destruct x as [e|c]; [discriminate H|]. injection H as <- <- <-.
  destruct (c115_file _ _ _ _ _ _ _ _ HE HF HC) as (text & R & V & _ & W & ->). exists text, (c_content c), (get_messages WARNING (c_messages c)).
  split; [exact R|]. split; [exact V|]. split; [exact W|]. split; [|reflexivity]. destruct output; reflexivity.
Qed.
(** Only recipes of the old format are converted. *)
Lemma c115_illegal E pre to_v1 file path pr output c effs : convert_file E pre to_v1 path file pr output = (inr c, effs) ->
  (c_code c = ILLEGAL_OPERATION <-> exists text content r copy, file = ReadOk text /\ pre text = Ok content /\ new_recipe E content = Ok r
     /\ new_recipe E (render E r) = Ok copy /\ r_schema r <> SV0).
Proof.
  unfold convert_file. cbv zeta. intros H. destruct file as [text| |e].
  2,3: injection H as <- _; split; [discriminate|intros (t & c0 & r & v & X & _); discriminate].
  destruct (pre text) as [content|e] eqn:HP; [|injection H as <- _; split; [discriminate|intros (t & c0 & r & v & [= <-] & X & _); congruence]].
  destruct (new_convert E content) as [[r copy]|e] eqn:HN.
  - unfold new_convert in HN. destruct (new_recipe E content) as [r0|] eqn:HR; cbn [bind] in HN; [|discriminate].
    destruct (new_recipe E (render E r0)) as [copy0|] eqn:HV; cbn [bind] in HN; [|discriminate]. injection HN as -> ->.
    destruct (schema_eqb (r_schema r) SV0) eqn:HS; cbn [negb] in H.
    + assert (r_schema r = SV0) as S0 by (destruct (r_schema r); [reflexivity|discriminate]).
      split; [|intros (t & c0 & r1 & v & [= <-] & X & Y & _ & Z); congruence].
      intros HC. exfalso. destruct (to_v1 copy) as [[out t]|e]; [|injection H as <- _; discriminate].
      assert (forall t, c_code (set_return_code {| c_code := SUCCESS; c_content := out; c_messages := t |}) <> ILLEGAL_OPERATION) as Q.
      { intros u. unfold set_return_code. cbn [c_code c_messages]. destruct (0 <? _); [discriminate|destruct (0 <? _); discriminate]. }
      destruct output as [[e|]|]; [discriminate|..]; injection H as <- _; exact (Q _ HC).
    + injection H as <- _. split; [|reflexivity]. intros _. exists text, content, r, copy. repeat (split; [auto|]). intros X. rewrite X in HS. discriminate.
  - injection H as <- _. split; [discriminate|]. intros (t & c0 & r & v & [= <-] & X & Y & Z & _). exfalso. rewrite HP in X. injection X as <-.
    unfold new_convert in HN. rewrite Y in HN. cbn [bind] in HN. rewrite Z in HN. discriminate.
Qed.

(** * Paths *)
Definition tail_text (l : list str) : str := concat (map (fun c => $"/" ++ c) l).
Lemma join_tail : forall l a, join SLASH (a :: l) = a ++ tail_text l.
Proof.
  induction l as [|b l IH]; intros a; [cbn; rewrite app_nil_r; reflexivity|]. change (join SLASH (a :: b :: l)) with (a ++ SLASH ++ join SLASH (b :: l)). rewrite IH. unfold tail_text. cbn [map concat]. rewrite <- app_assoc. reflexivity.
Qed.
Lemma tail_inj : forall a b, Forall file_name a -> Forall file_name b -> tail_text a = tail_text b -> a = b.
Proof.
  induction a as [|x a IH]; intros [|y b] Fa Fb E; try discriminate; [reflexivity|].
  inversion Fa as [|? ? (NX & SX) Fa']; inversion Fb as [|? ? (NY & SY) Fb']; subst. unfold tail_text in E. cbn [map concat] in E.
  change $"/" with ["/"%char] in E. cbn [app] in E. injection E as E. fold (tail_text a) in E. fold (tail_text b) in E.
  assert (x = y /\ tail_text a = tail_text b) as [-> T]; [|f_equal; apply IH; assumption].
  assert (forall l, tail_text l = [] \/ exists t, tail_text l = "/"%char :: t) as Q.
  { intros [|c l]; [left; reflexivity|right]. unfold tail_text. cbn [map concat]. change $"/" with ["/"%char]. cbn [app]. eauto. }
  clear - E SX SY Q. change (concat (map (fun c => "/"%char :: c) a)) with (tail_text a) in E. change (concat (map (fun c => "/"%char :: c) b)) with (tail_text b) in E.
  apply app_eq_app in E as (l & [[E1 E2]|[E1 E2]]); destruct l as [|c l].
  - rewrite app_nil_r in E1. auto.
  - exfalso. destruct (Q b) as [Z|(t & Z)]; rewrite Z in E2; [discriminate|]. injection E2 as <- _. apply SX. rewrite E1. apply in_or_app. right. left. reflexivity.
  - rewrite app_nil_r in E1. auto.
  - exfalso. destruct (Q a) as [Z|(t & Z)]; rewrite Z in E2; [discriminate|]. injection E2 as <- _. apply SY. rewrite E1. apply in_or_app. right. left. reflexivity.
Qed.
Lemma path_below_eq path d name : path_below path (d ++ [name]) = path_in path d name.
Proof. unfold path_below, path_in. apply join_tail. Qed.
Lemma beside_eq path d name o : file_name o -> beside path (d ++ [name]) o = path_in path d o.
Proof.
  intros (NE & NS). unfold beside. assert (starts_with SLASH o = false) as ->.
  { destruct (starts_with SLASH o) eqn:S; [|reflexivity]. exfalso. apply starts_with_spec in S as (v & ->). apply NS. left. reflexivity. }
  rewrite removelast_last. unfold path_below, path_in. rewrite join_tail. unfold tail_text. rewrite map_app, concat_app. cbn [map concat].
  rewrite app_nil_r, <- !app_assoc. reflexivity.
Qed.
Lemma path_in_inj path d d' n n' : Forall file_name (d ++ [n]) -> Forall file_name (d' ++ [n']) -> path_in path d n = path_in path d' n' -> d = d' /\ n = n'.
Proof. intros F F' E. unfold path_in in E. apply app_inv_head in E. apply tail_inj in E; [|assumption..]. apply app_inj_tail in E. exact E. Qed.

(** * All the recipes below a directory *)
Definition rels_of (files : list (list str)) : list (list str) := filter is_recipe_file files.
Lemma recipe_file_iff rel : is_recipe_file rel = true <-> exists d, rel = d ++ [$"meta.yaml"].
Proof.
  unfold is_recipe_file. split.
  - destruct (rev rel) as [|x l] eqn:E; [discriminate|]. intros Q. apply str_eqb_eq in Q as ->. exists (rev l).
    rewrite <- (rev_involutive rel), E. reflexivity.
  - intros (d & ->). rewrite rev_app_distr. cbn [rev app]. apply str_eqb_refl.
Qed.
Lemma dirs_of files : exists dirs, rels_of files = map (fun d => d ++ [$"meta.yaml"]) dirs /\ forall d, In d dirs <-> recipe_below files d.
Proof.
  exists (map (@removelast str) (rels_of files)). split.
  - rewrite map_map. unfold rels_of. induction files as [|f files IH]; [reflexivity|]. cbn [filter]. destruct (is_recipe_file f) eqn:Q; [|exact IH].
    cbn [map]. f_equal; [|exact IH]. apply recipe_file_iff in Q as (d & ->). rewrite removelast_last. reflexivity.
  - intros d. rewrite in_map_iff. unfold recipe_below, rels_of. split.
    + intros (rel & E & I). apply filter_In in I as (I & Q). apply recipe_file_iff in Q as (d' & ->). rewrite removelast_last in E. subst d'. exact I.
    + intros I. exists (d ++ [$"meta.yaml"]). rewrite removelast_last. split; [reflexivity|]. apply filter_In. split; [exact I|]. apply recipe_file_iff. eauto.
Qed.
Lemma NoDup_of_map {A B} (f : A -> B) l : NoDup (map f l) -> NoDup l.
Proof. apply NoDup_map_inv. Qed.

Lemma file_same E pre to_v1 path file output : convert_file E pre to_v1 path file true (Some output) = convert_file E pre to_v1 path file false (Some output).
Proof. reflexivity. Qed.
Lemma file_ends E pre to_v1 path file pr : exists c effs, convert_file E pre to_v1 path file pr (Some None) = (inr c, effs) /\ (effs = [] \/ exists t, effs = [Write t]).
Proof.
  unfold convert_file. cbv zeta. destruct file as [text| |e]; [|eexists _, _; split; [reflexivity|left; reflexivity]..].
  destruct (pre text) as [content|e]; [|eexists _, _; split; [reflexivity|left; reflexivity]].
  destruct (new_convert E content) as [[r copy]|e]; [|eexists _, _; split; [reflexivity|left; reflexivity]].
  destruct (negb (schema_eqb (r_schema r) SV0)); [eexists _, _; split; [reflexivity|left; reflexivity]|].
  destruct (to_v1 copy) as [[out t]|e]; [|eexists _, _; split; [reflexivity|left; reflexivity]].
  eexists _, _. split; [reflexivity|]. right. eauto.
Qed.
Lemma all_fine (l : list (str * (exn + conversion))) rs : map (fun x => inr (snd x)) rs = map snd l -> map fst rs = map fst l -> all_results l = inr rs.
Proof.
  revert rs. induction l as [|[n x] l IH]; intros [|[n' c] rs] E1 E2; try discriminate; [reflexivity|]. cbn [map fst snd] in *. injection E1 as E1 E1'. injection E2 as <- E2'.
  cbn [all_results]. rewrite <- E1, (IH rs E1' E2'). reflexivity.
Qed.

Lemma success_count E pre to_v1 path file c effs : convert_file E pre to_v1 path file false (Some None) = (inr c, effs) ->
  existsb (fun k => Z.eqb (exit_number k) (exit_number (c_code c))) [SUCCESS; RENDER_WARNINGS] = ended_well (Exit (c_code c)).
Proof. intros _. destruct (c_code c); reflexivity. Qed.

Lemma c116 E pre to_v1 path files read fails o min_rate : sound_tree files -> (forall p, fails p = None) -> file_name o ->
  forall d1 d2, d1 <> d2 -> recipe_below files d1 -> recipe_below files d2 ->
  exists dirs, NoDup dirs /\ (forall d, In d dirs <-> recipe_below files d) /\
  let alone d := convert_command E pre to_v1 (path_in path d $"meta.yaml") IsFile read fails (Some (path_in path d o)) min_rate in
  let good := length (filter (fun d => ended_well (fst (fst (alone d)))) dirs) in
  exists t effs, convert_command E pre to_v1 path (IsDirectory files) read fails (Some o) min_rate
    = (Exit (bulk_exit good (length dirs) min_rate), effs, Some t)
  /\ effs = concat (map (fun d => snd (fst (alone d))) dirs)
  /\ NoDup (written_paths effs)
  /\ (forall p, In p (written_paths effs) -> exists d, recipe_below files d /\ p = path_in path d o)
  /\ (o <> $"meta.yaml" -> forall d, recipe_below files d -> ~ In (path_in path d $"meta.yaml") (written_paths effs)).
Proof.
  intros (ND & FN) NF HO d1 d2 N12 R1 R2. destruct (dirs_of files) as (dirs & ER & HD). exists dirs.
  assert (NoDup (rels_of files)) as NR by (apply NoDup_filter; exact ND).
  assert (NoDup dirs) as NDd by (rewrite ER in NR; exact (NoDup_of_map _ _ NR)).
  assert (forall d, In d dirs -> Forall file_name (d ++ [$"meta.yaml"])) as FD.
  { intros d I. apply HD in I. rewrite Forall_forall in FN. exact (proj2 (FN _ I)). }
  split; [exact NDd|]. split; [exact HD|]. intros alone good.
  (* each file *)
  assert (forall d, exists c effs, convert_file E pre to_v1 (path_in path d $"meta.yaml") (read (path_in path d $"meta.yaml")) false (Some None) = (inr c, effs) /\ (effs = [] \/ exists t, effs = [Write t])) as HF
    by (intros d; apply file_ends).
  assert (forall d, alone d = let '(x, e) := convert_file E pre to_v1 (path_in path d $"meta.yaml") (read (path_in path d $"meta.yaml")) false (Some None) in
     (match x with inl e => Raise e | inr c => Exit (c_code c) end, map (located (path_in path d o)) e, None)) as HA.
  { intros d. unfold alone, convert_command, files_list. change (path_below (path_in path d $"meta.yaml") []) with (path_in path d $"meta.yaml"). unfold convert_one. cbn [option_map]. rewrite NF, file_same.
    destruct (convert_file E pre to_v1 (path_in path d $"meta.yaml") (read (path_in path d $"meta.yaml")) false (Some None)) as [x e]. reflexivity. }
  pose (conv d := fst (convert_file E pre to_v1 (path_in path d $"meta.yaml") (read (path_in path d $"meta.yaml")) false (Some None))).
  assert (forall d, process_recipe E pre to_v1 read fails path (Some o) (d ++ [$"meta.yaml"]) = (join SLASH (d ++ [$"meta.yaml"]), (conv d, snd (fst (alone d))))) as HP.
  { intros d. unfold process_recipe. f_equal. cbn [option_map]. rewrite path_below_eq, beside_eq by exact HO. unfold convert_one. cbn [option_map]. rewrite NF, HA. unfold conv.
    destruct (convert_file E pre to_v1 (path_in path d $"meta.yaml") (read (path_in path d $"meta.yaml")) false (Some None)) as [x e]. reflexivity. }
  pose (res d := match conv d with inr c => c | inl _ => {| c_code := SUCCESS; c_content := []; c_messages := new_table |} end).
  assert (forall d, conv d = inr (res d)) as HR.
  { intros d. unfold res, conv. destruct (HF d) as (c & e & -> & _). reflexivity. }
  pose (results := map (fun d => (join SLASH (d ++ [$"meta.yaml"]), res d)) dirs).
  assert (all_results (map (fun x => (fst x, fst (snd x))) (map (process_recipe E pre to_v1 read fails path (Some o)) (rels_of files))) = inr results) as HAll.
  { rewrite ER, !map_map. apply all_fine; unfold results; rewrite !map_map; apply map_ext; intros d; rewrite HP; cbn [fst snd]; [rewrite HR|]; reflexivity. }
  assert (NoDup (map fst results)) as NN.
  { unfold results. rewrite map_map. cbn [fst]. clear - NDd FD. induction NDd as [|d dirs NI ND IH]; cbn [map]; constructor.
    - intros I. apply in_map_iff in I as (d' & Ej & I). apply NI.
      assert (tail_text (d' ++ [$"meta.yaml"]) = tail_text (d ++ [$"meta.yaml"])) as TT.
      { assert (forall l, l <> [] -> tail_text l = $"/" ++ join SLASH l) as TJ.
        { intros [|x l] NE; [contradiction|]. rewrite join_tail. unfold tail_text. cbn [map concat]. rewrite <- app_assoc. reflexivity. }
        rewrite !TJ by (destruct d, d'; discriminate). f_equal. exact Ej. }
      apply tail_inj in TT; [|apply FD; right; exact I|apply FD; left; reflexivity]. apply app_inj_tail in TT as [-> _]. exact I.
    - apply IH. intros d' I. apply FD. right. exact I. }
  assert (forall nr, In nr results -> well_coded (snd nr)) as WC.
  { intros nr I. unfold results in I. apply in_map_iff in I as (d & <- & _). cbn [snd]. destruct (HF d) as (c & e & HC & _).
    assert (res d = c) as ->. { unfold res, conv. rewrite HC. reflexivity. } exact (proj1 (c60_result _ _ _ _ _ _ _ _ _ HC)). }
  destruct (c61 (length dirs) results NN WC) as (_ & TS & _). cbv zeta in TS.
  assert (t_success (bulk_report (length dirs) results) = good) as TG.
  { rewrite TS. unfold good, count_codes, results. clear - HA HR. induction dirs as [|d dirs IH]; [reflexivity|]. cbn [map filter snd].
    assert (existsb (fun c => Z.eqb (exit_number c) (exit_number (c_code (res d)))) [SUCCESS; RENDER_WARNINGS] = ended_well (fst (fst (alone d)))) as ->.
    { rewrite HA. specialize (HR d). unfold conv in HR.
      destruct (convert_file E pre to_v1 (path_in path d $"meta.yaml") (read (path_in path d $"meta.yaml")) false (Some None)) as [x e]. cbn [fst] in HR. subst x. cbn [fst]. destruct (c_code (res d)); reflexivity. }
    destruct (ended_well (fst (fst (alone d)))); cbn [length]; [f_equal|]; exact IH. }
  exists (bulk_report (length dirs) results), (concat (map (fun d => snd (fst (alone d))) dirs)). split.
  - unfold convert_command, files_list. fold (rels_of files).
    assert (2 <= length (rels_of files)) as L2.
    { rewrite ER, map_length. apply HD in R1, R2. destruct dirs as [|a [|b l]]; [destruct R1| |cbn [length]; lia]. destruct R1 as [<-|[]]. destruct R2 as [<-|[]]. contradiction. }
    destruct (rels_of files) as [|a [|b l]] eqn:EL; [cbn [length] in L2; lia|cbn [length] in L2; lia|]. rewrite <- EL in *. rewrite HAll.
    assert (length (rels_of files) = length dirs) as -> by (rewrite ER; apply map_length). rewrite TG. f_equal. f_equal.
    rewrite ER, !map_map. f_equal. apply map_ext. intros d. rewrite HP. reflexivity.
  - split; [reflexivity|].
    assert (forall d, written_paths (snd (fst (alone d))) = [] \/ written_paths (snd (fst (alone d))) = [path_in path d o]) as W1.
    { intros d. rewrite HA. destruct (HF d) as (c & e & -> & [->|(t & ->)]); [left|right]; reflexivity. }
    assert (forall ds p, In p (written_paths (concat (map (fun d => snd (fst (alone d))) ds))) -> exists d, In d ds /\ p = path_in path d o) as W2.
    { induction ds as [|d ds IH]; intros p I; [destruct I|]. cbn [map concat] in I. unfold written_paths in I. rewrite flat_map_app in I.
      apply in_app_or in I as [I|I].
      - destruct (W1 d) as [Z|Z]; unfold written_paths in Z; rewrite Z in I; [destruct I|]. destruct I as [<-|[]]. exists d. split; [left|]; reflexivity.
      - destruct (IH p I) as (d' & J & ->). exists d'. split; [right; exact J|reflexivity]. }
    assert (forall d, In d dirs -> Forall file_name (d ++ [o])) as FO.
    { intros d I. apply Forall_app. split; [|constructor; [exact HO|constructor]]. specialize (FD d I). apply Forall_app in FD. exact (proj1 FD). }
    split; [|split].
    + clear - NDd W1 W2 FO. induction NDd as [|d dirs NI ND IH]; [constructor|]. cbn [map concat]. unfold written_paths. rewrite flat_map_app.
      assert (NoDup (written_paths (concat (map (fun d => snd (fst (alone d))) dirs)))) as IH' by (apply IH; intros d' I; apply FO; right; exact I).
      destruct (W1 d) as [Z|Z]; unfold written_paths in Z; rewrite Z; [exact IH'|]. cbn [app]. constructor; [|exact IH'].
      intros I. apply W2 in I as (d' & I & Ep). apply path_in_inj in Ep as [-> _]; [contradiction|apply FO; left; reflexivity|apply FO; right; exact I].
    + intros p I. apply W2 in I as (d & I & ->). exists d. split; [apply HD; exact I|reflexivity].
    + intros NM d Rd I. apply W2 in I as (d' & I & Ep). apply HD in Rd. apply path_in_inj in Ep as [_ Ep]; [congruence|apply FD; exact Rd|apply FO; exact I].
Qed.
Lemma c116_one E pre to_v1 path files read fails output min_rate d : NoDup files -> recipe_below files d -> (forall d', recipe_below files d' -> d' = d) ->
  convert_command E pre to_v1 path (IsDirectory files) read fails output min_rate = convert_command E pre to_v1 (path_in path d $"meta.yaml") IsFile read fails output min_rate.
Proof.
  intros ND R U. destruct (dirs_of files) as (dirs & ER & HD).
  assert (NoDup dirs) as NDd by (apply (NoDup_filter is_recipe_file) in ND; fold (rels_of files) in ND; rewrite ER in ND; exact (NoDup_of_map _ _ ND)).
  assert (dirs = [d]) as ->.
  { apply HD in R. destruct dirs as [|a [|b l]]; [destruct R|..].
    - f_equal. apply U, HD. left. reflexivity.
    - exfalso. inversion NDd as [|? ? NI _]; subst. apply NI. assert (a = d) as -> by (apply U, HD; left; reflexivity). assert (b = d) as -> by (apply U, HD; right; left; reflexivity). left. reflexivity. }
  unfold convert_command, files_list. fold (rels_of files). rewrite ER. cbn [map]. rewrite path_below_eq. reflexivity.
Qed.
Lemma c116_none E pre to_v1 path files read fails output min_rate : (forall d, ~ recipe_below files d) ->
  convert_command E pre to_v1 path (IsDirectory files) read fails output min_rate = (Exit CLICK_USAGE, [], None).
Proof.
  intros U. destruct (dirs_of files) as (dirs & ER & HD). assert (dirs = []) as -> by (destruct dirs as [|a l]; [reflexivity|]; exfalso; apply (U a), HD; left; reflexivity).
  unfold convert_command, files_list. fold (rels_of files). rewrite ER. reflexivity.
Qed.
Lemma located_path o effs p : In p (written_paths (map (located o) effs)) -> p = o.
Proof. unfold written_paths. intros H. apply in_flat_map in H as (e & I & J). apply in_map_iff in I as (x & <- & _). destruct x; [destruct J as [<-|[]]; reflexivity|destruct J]. Qed.
Lemma one_path E pre to_v1 read fails file b o p : In p (written_paths (snd (convert_one E pre to_v1 read fails file b (Some o)))) -> p = o.
Proof.
  unfold convert_one. destruct (convert_file _ _ _ _ _ _ _) as [x effs]. apply located_path.
Qed.
Lemma c116_absolute E pre to_v1 path kind read fails o min_rate f effs rep :
  convert_command E pre to_v1 path kind read fails (Some ($"/" ++ o)) min_rate = (f, effs, rep) -> forall p, In p (written_paths effs) -> p = $"/" ++ o.
Proof.
  assert (forall rels p, In p (written_paths (concat (map (fun x => snd (snd x)) (map (process_recipe E pre to_v1 read fails path (Some ($"/" ++ o))) rels)))) -> p = $"/" ++ o) as HM.
  { induction rels as [|rel rels IH]; intros p I; [destruct I|]. cbn [map concat] in I. unfold written_paths in I. rewrite flat_map_app in I.
    apply in_app_or in I as [I|I]; [|exact (IH p I)]. unfold process_recipe in I. cbn [fst snd option_map] in I.
    exact (one_path _ _ _ _ _ _ _ _ _ I). }
  unfold convert_command. intros H p I. destruct (files_list kind) as [[|rel [|rel2 rels]]|f0].
  - cbn [map concat all_results fst snd] in H. injection H as <- <- <-. destruct I.
  - pose proof (one_path E pre to_v1 read fails (path_below path rel) true ($"/" ++ o) p) as X. destruct (convert_one _ _ _ _ _ _ _ _) as [x e]. injection H as <- <- <-. exact (X I).
  - specialize (HM (rel :: rel2 :: rels) p). destruct (all_results _) as [e|results]; injection H as <- <- <-; exact (HM I).
  - injection H as <- <- <-. destruct I.
Qed.
