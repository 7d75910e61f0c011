(** Proofs about the commands: patch, convert and rattler-bulk-build. *)
From Verif Require Import Lemmas FrameProofs2 DepsProofs ServiceProofs CommandsProofs CommandsSpec.

(** * C57: exit codes *)
Lemma c57_codes E N variants o file written :
  (~ valid_options o -> bump_recipe E N variants o file written = (Exit CLICK_USAGE, []))
  /\ (valid_options o ->
      (file = ReadIO -> bump_recipe E N variants o file written = (Exit IO_ERROR, []))
      /\ (forall content e, file = ReadOk content -> new_recipe E (pre_process_remove_hash_type variants content) = Err e ->
            bump_recipe E N variants o file written = (Exit PARSE_EXCEPTION, []))
      /\ (forall content r, file = ReadOk content -> new_recipe E (pre_process_remove_hash_type variants content) = Ok r ->
            get_value E (r_root r) $"/build" None None = Err EKey ->
            bump_recipe E N variants o file written = (Exit ILLEGAL_OPERATION, []))
      /\ (forall content r v w, file = ReadOk content -> new_recipe E (pre_process_remove_hash_type variants content) = Ok r ->
            b_build_num o = true -> get_value E (r_root r) $"/build" None None = Ok w ->
            contains_value (r_root r) $"/build/number" = Ok true ->
            get_value E (r_root r) $"/build/number" None None = Ok v -> (forall z, v <> JInt z) -> (forall b, v <> JBool b) ->
            bump_recipe E N variants o file written = (Exit ILLEGAL_OPERATION, []))).
Proof.
  split.
  - intros HV. unfold bump_recipe.
    destruct (match b_target o with Some [] => true | _ => false end || (b_interval o <=? 0)%Z) eqn:H1; auto.
    destruct (negb (b_build_num o) && match b_target o with None => true | Some _ => false end) eqn:H2; auto.
    exfalso. apply HV. apply options_spec. auto.
  - intros HV. apply options_spec in HV as (H1 & H2). unfold bump_recipe. rewrite H1, H2. repeat split.
    + intros ->. reflexivity.
    + intros content e -> HE. unfold bump_steps. rewrite HE. reflexivity.
    + intros content r -> HR HG. unfold bump_steps. rewrite HR. unfold update_build_num. rewrite HG. reflexivity.
    + intros content r v w -> HR HB HG HC HN HI HBo. unfold bump_steps. rewrite HR. unfold update_build_num. rewrite HG, HB.
      unfold BUILD_NUM. rewrite HC. cbn [lift then_]. rewrite HN. cbn [lift then_].
      destruct v as [[| | | |]| |]; cbn [as_int then_]; auto; [destruct (HBo b); reflexivity|destruct (HI z); reflexivity].
Qed.
Lemma collect_http N l : forall acc, (exists path name url, In (path, (name, url)) l /\ sha_of_source N path name url = Err EFetch) ->
  (forall path name url e, In (path, (name, url)) l -> sha_of_source N path name url = Err e -> e = EFetch) ->
  collect_hashes N l acc = Stop (Exit HTTP_ERROR).
Proof.
  induction l as [|[path [name url]] l IH]; intros acc (p & n & u & HI & HE) HA; [destruct HI|]. cbn [collect_hashes].
  destruct (sha_of_source N path name url) as [sha|e] eqn:HS.
  - apply IH.
    + exists p, n, u. destruct HI as [[= <- <- <-]|HI]; [congruence|auto].
    + intros. eapply HA; [right|]; eauto.
  - rewrite (HA path name url e (or_introl eq_refl) HS). reflexivity.
Qed.
Lemma c57_http E N r tbl path name url : (forall l, Permutation (n_order N l) l) -> from_recipe E r true = Ok tbl ->
  is_archive tbl path name url -> fst (fst (get_sha256 (n_hash N) (n_fetch N path) (new_http name url))) = Err EFetch ->
  (forall p n u e, is_archive tbl p n u -> fst (fst (get_sha256 (n_hash N) (n_fetch N p) (new_http n u))) = Err e -> e = EFetch) ->
  update_sha256 E N r = Stop (Exit HTTP_ERROR).
Proof.
  intros HP HF HA HE HO. unfold update_sha256. rewrite HF. cbn [lift then_].
  destruct (is_nil tbl) eqn:HN. { destruct tbl; [destruct HA|discriminate]. }
  assert (forall p n u, In (p, (n, u)) (n_order N (http_sources tbl)) <-> is_archive tbl p n u) as HIo.
  { intros p n u. rewrite <- http_sources_In. split; intros HH.
    - eapply Permutation_in; [apply HP|exact HH].
    - eapply Permutation_in; [apply Permutation_sym, HP|exact HH]. }
  assert (collect_hashes N (n_order N (http_sources tbl)) [] = Stop (Exit HTTP_ERROR)) as HC.
  { apply collect_http.
    - exists path, name, url. split; [apply HIo; auto|exact HE].
    - intros p n u e HI HE'. apply HIo in HI. eapply HO; eauto. }
  destruct (check_hash_var E N tbl r) as [[r1|]|f] eqn:HCk; cbn [then_].
  - exfalso. unfold check_hash_var in HCk. destruct (filter _ _) as [|var [|]]; try discriminate.
    destruct (length tbl =? 1) eqn:HL; [|discriminate]. apply Nat.eqb_eq in HL. destruct tbl as [|[k s] [|]]; try discriminate.
    unfold SOURCE in *. cbn [dget] in HCk. destruct (str_eqb $"/source" k) eqn:HEq; [|discriminate]. apply str_eqb_eq in HEq as <-.
    destruct HA as [[= <- ->]|[]]. destruct (mem_str _ _); [|discriminate]. unfold sha_of_source in HCk. rewrite HE in HCk. discriminate.
  - rewrite HC. reflexivity.
  - unfold check_hash_var in HCk. destruct (filter _ _) as [|var [|]]; try discriminate.
    destruct (length tbl =? 1) eqn:HL; [|discriminate]. apply Nat.eqb_eq in HL. destruct tbl as [|[k s] [|]]; try discriminate.
    unfold SOURCE in *. cbn [dget] in HCk. destruct (str_eqb $"/source" k) eqn:HEq; [|discriminate]. apply str_eqb_eq in HEq as <-.
    destruct HA as [[= <- ->]|[]]. destruct (mem_str _ _); [|discriminate]. unfold sha_of_source in HCk. rewrite HE in HCk. congruence.
Qed.

(** * C59 *)
Lemma loop_applied E ps : forall r r', patch_loop E ps r = (Go SUCCESS, r') -> all_applied E ps r r'.
Proof.
  induction ps as [|p ps IH]; intros r r' H; cbn [patch_loop] in H.
  - injection H as <-. constructor.
  - destruct (patch E p r) as [[[|]|e] r1] eqn:HP; try discriminate.
    + econstructor; eauto.
    + destruct e; discriminate.
Qed.
Lemma applied_loop E ps r r' : all_applied E ps r r' -> patch_loop E ps r = (Go SUCCESS, r').
Proof. induction 1 as [|p ps r r1 r2 HP _ IH]; cbn [patch_loop]; auto. rewrite HP. exact IH. Qed.
Lemma loop_codes E ps : forall r c r', patch_loop E ps r = (Go c, r') -> c = SUCCESS \/ c = ILLEGAL_OPERATION \/ c = JSON_ERROR.
Proof.
  induction ps as [|p ps IH]; intros r c r' H; cbn [patch_loop] in H.
  - injection H as <- <-. auto.
  - destruct (patch E p r) as [[[|]|e] r1] eqn:HP; [eauto| |].
    + injection H as <- <-. auto.
    + destruct e; try discriminate. injection H as <- <-. auto.
Qed.
(** The exit code is SUCCESS exactly if all patches are applied and the result is written. *)
Lemma c59_success E patches file written effs :
  patch_command E patches file written = (Exit SUCCESS, effs) <->
  written = None /\ exists j content r r', patches = JsonData j /\ file = ReadOk content /\ new_recipe E content = Ok r
    /\ all_applied E (patch_list j) r r' /\ effs = [Write (render E r')].
Proof.
  split.
  - unfold patch_command. destruct patches as [j| |]; try discriminate. destruct file as [content| |]; try discriminate.
    destruct (new_recipe E content) as [r|] eqn:HR; try discriminate.
    destruct (patch_loop E _ r) as [[c|f] r'] eqn:HL.
    + destruct written; [discriminate|]. intros [= -> <-]. split; auto. exists j, content, r, r'. repeat split; auto.
      apply loop_applied. exact HL.
    + intros [= -> <-]. exfalso. clear HR. revert HL. generalize (match j with JList l => l | _ => [j] end) as ps.
      intros ps. revert r. induction ps as [|p ps IH]; intros r HL; cbn [patch_loop] in HL; [discriminate|].
      destruct (patch E p r) as [[[|]|e] r1]; try discriminate; eauto. destruct e; discriminate.
  - intros (-> & j & content & r & r' & -> & -> & HR & HA & ->). unfold patch_command. rewrite HR.
    apply applied_loop in HA. unfold patch_list in HA. rewrite HA. reflexivity.
Qed.
(** Nothing is written when the patch file or the recipe cannot be read. *)
Lemma c59_unreadable E patches file written :
  (forall j, patches <> JsonData j) \/ (forall content, file <> ReadOk content)
  \/ (exists content e, file = ReadOk content /\ new_recipe E content = Err e) ->
  snd (patch_command E patches file written) = [] /\ fst (patch_command E patches file written) <> Exit SUCCESS.
Proof.
  intros H. unfold patch_command. destruct patches as [j| |]; try (split; [reflexivity|discriminate]).
  destruct file as [content| |]; try (split; [reflexivity|discriminate]).
  destruct H as [H|[H|(c & e & [= <-] & HE)]].
  - destruct (H j). reflexivity.
  - destruct (H content). reflexivity.
  - rewrite HE. split; [reflexivity|discriminate].
Qed.
(** What is written is the result of the patches before the first failing one, possibly with parts of the failing one. *)
Lemma c59_prefix E patches file written f effs : patch_command E patches file written = (f, effs) -> effs <> [] ->
  exists j content r r1, patches = JsonData j /\ file = ReadOk content /\ new_recipe E content = Ok r /\
  ((all_applied E (patch_list j) r r1 /\ effs = [Write (render E r1)])
   \/ exists done p rest o, patch_list j = done ++ p :: rest /\ all_applied E done r r1 /\ fst (patch E p r1) = o
        /\ (o = Ok false /\ f = match written with None => Exit ILLEGAL_OPERATION | Some e => Raise e end
            \/ o = Err EPatchSchema /\ f = match written with None => Exit JSON_ERROR | Some e => Raise e end)
        /\ effs = [Write (render E (snd (patch E p r1)))]).
Proof.
  intros H HN. unfold patch_command in H. destruct patches as [j| |]; try (injection H as <- <-; contradiction).
  destruct file as [content| |]; try (injection H as <- <-; contradiction).
  destruct (new_recipe E content) as [r|e] eqn:HR; [|injection H as <- <-; contradiction].
  exists j, content, r. change (match j with JList l => l | _ => [j] end) with (patch_list j) in H.
  destruct (patch_loop E (patch_list j) r) as [[c|x] r'] eqn:HL; [|injection H as <- <-; contradiction].
  injection H as <- <-.
  assert ((c = SUCCESS /\ all_applied E (patch_list j) r r') \/
    exists done p rest r1, patch_list j = done ++ p :: rest /\ all_applied E done r r1 /\
      ((fst (patch E p r1) = Ok false /\ c = ILLEGAL_OPERATION) \/ (fst (patch E p r1) = Err EPatchSchema /\ c = JSON_ERROR))
      /\ r' = snd (patch E p r1)) as HA.
  { clear HR HN. revert r HL. generalize (patch_list j) as ps. induction ps as [|p ps IH]; intros r HL; cbn [patch_loop] in HL.
    - injection HL as <- <-. left. split; auto. constructor.
    - destruct (patch E p r) as [[[|]|e] r1] eqn:HP.
      + apply IH in HL as [(-> & HA)|(dn & p' & rest & r2 & -> & HA & HC & HE)].
        * left. split; auto. econstructor; eauto.
        * right. exists (p :: dn), p', rest, r2. split; [reflexivity|]. split; [econstructor; eauto|auto].
      + injection HL as <- <-. right. exists [], p, ps, r. split; [reflexivity|]. rewrite HP. split; [constructor|auto].
      + destruct e; try discriminate. injection HL as <- <-. right. exists [], p, ps, r. split; [reflexivity|]. rewrite HP.
        split; [constructor|auto]. }
  destruct HA as [(_ & HA)|(dn & p & rest & r1 & HE & HA & HC & ->)].
  - exists r'. repeat split; auto.
  - exists r1. repeat split; auto. right. exists dn, p, rest, (fst (patch E p r1)). repeat split; auto.
    destruct HC as [(-> & ->)|(-> & ->)]; [left|right]; split; auto.
Qed.

(** * C60 *)
Lemma count_nil c t : (0 <? get_message_count c t) = negb (is_nil (get_messages c t)).
Proof. unfold get_message_count, get_messages. destruct (tbl_get c t) as [[|]|]; reflexivity. Qed.
Lemma has_spec c t : negb (is_nil (get_messages c t)) = true <-> has_messages c t.
Proof. unfold has_messages. destruct (get_messages c t); cbn; intuition (try congruence; try discriminate). Qed.
Lemma has_spec' c t : negb (is_nil (get_messages c t)) = false <-> ~ has_messages c t.
Proof. rewrite <- has_spec. destruct (negb _); intuition congruence. Qed.
Lemma c60_code c : let c' := set_return_code c in
  (has_messages ERROR (c_messages c) -> c_code c' = RENDER_ERRORS)
  /\ (~ has_messages ERROR (c_messages c) -> has_messages WARNING (c_messages c) -> c_code c' = RENDER_WARNINGS)
  /\ (~ has_messages ERROR (c_messages c) -> ~ has_messages WARNING (c_messages c) -> c_code c' = c_code c)
  /\ c_messages c' = c_messages c /\ c_content c' = c_content c.
Proof.
  cbv zeta. unfold set_return_code. cbn [c_code c_messages c_content]. rewrite !count_nil. repeat split.
  - intros H. apply has_spec in H. rewrite H. reflexivity.
  - intros H1 H2. apply has_spec' in H1. apply has_spec in H2. rewrite H1, H2. reflexivity.
  - intros H1 H2. apply has_spec' in H1. apply has_spec' in H2. rewrite H1, H2. reflexivity.
Qed.
Lemma failure_coded code msg : exceptional code ->
  well_coded (record_failure {| c_code := SUCCESS; c_content := []; c_messages := new_table |} code msg).
Proof.
  intros H. right. right. right. unfold record_failure. cbn [c_code c_messages].
  split; [exact H|]. split; intros HM; apply HM; reflexivity.
Qed.
Lemma success_coded text messages : well_coded (set_return_code {| c_code := SUCCESS; c_content := text; c_messages := messages |}).
Proof.
  destruct (c60_code {| c_code := SUCCESS; c_content := text; c_messages := messages |}) as (H1 & H2 & H3 & H4 & _).
  cbn [c_messages c_code] in *. unfold well_coded. rewrite H4.
  destruct (negb (is_nil (get_messages ERROR messages))) eqn:HE.
  - apply has_spec in HE. right. right. left. auto.
  - apply has_spec' in HE. destruct (negb (is_nil (get_messages WARNING messages))) eqn:HW.
    + apply has_spec in HW. right. left. auto.
    + apply has_spec' in HW. left. auto.
Qed.
Lemma c60_result E pre to_v1 path file pr output c effs : convert_file E pre to_v1 path file pr output = (inr c, effs) ->
  well_coded c /\ (exceptional (c_code c) -> effs = [] /\ exists m, get_messages EXCEPTION (c_messages c) = [m]).
Proof.
  unfold convert_file.
  assert (forall code msg, exceptional code -> inr (record_failure {| c_code := SUCCESS; c_content := []; c_messages := new_table |} code msg) = (inr c : exn + conversion) ->
     [] = effs -> well_coded c /\ (exceptional (c_code c) -> effs = [] /\ exists m, get_messages EXCEPTION (c_messages c) = [m])) as HF.
  { intros code msg HE [= <-] <-. split; [apply failure_coded; auto|]. intros _. split; auto. exists msg. reflexivity. }
  assert (forall text messages, ~ exceptional (c_code (set_return_code {| c_code := SUCCESS; c_content := text; c_messages := messages |}))) as HS.
  { intros text messages. unfold set_return_code. cbn [c_code c_messages]. destruct (0 <? _); [|destruct (0 <? _)]; unfold exceptional; cbn [In]; intuition discriminate. }
  destruct file as [content| |e]; try (intros [= H1 H2]; eapply HF; [|rewrite H1; reflexivity|auto]; cbn; auto 8).
  destruct (pre content) as [content'|]; [|intros [= H1 H2]; eapply HF; [|rewrite H1; reflexivity|auto]; cbn; auto 8].
  destruct (new_convert E content') as [[r copy]|]; [|intros [= H1 H2]; eapply HF; [|rewrite H1; reflexivity|auto]; cbn; auto 8].
  destruct (negb (schema_eqb (r_schema r) SV0)); [intros [= H1 H2]; eapply HF; [|rewrite H1; reflexivity|auto]; cbn; auto 8|].
  destruct (to_v1 copy) as [[text messages]|]; [|intros [= H1 H2]; eapply HF; [|rewrite H1; reflexivity|auto]; cbn; auto 8].
  destruct output as [[e|]|]; intros H.
  - discriminate.
  - assert (c = set_return_code {| c_code := SUCCESS; c_content := text; c_messages := messages |}) as -> by congruence.
    split; [apply success_coded|]. intros HX. destruct (HS _ _ HX).
  - assert (c = set_return_code {| c_code := SUCCESS; c_content := text; c_messages := messages |}) as -> by congruence.
    split; [apply success_coded|]. intros HX. destruct (HS _ _ HX).
Qed.

(** * C61 *)
Lemma count_issue_counts l : forall h l0, counts h l0 -> counts (fold_left count_issue l h) (l0 ++ l).
Proof.
  induction l as [|x l IH]; intros h l0 H; cbn [fold_left]; [rewrite app_nil_r; auto|].
  change (x :: l) with ([x] ++ l). rewrite app_assoc. apply IH. intros y. unfold count_issue.
  assert (occurrences y (l0 ++ [x]) = occurrences y l0 + if list_eq_dec ascii_dec x y then 1 else 0) as ->
    by (unfold occurrences; rewrite count_occ_app; reflexivity).
  destruct (list_eq_dec ascii_dec x y) as [->|N].
  - rewrite dget_dset_same, H. destruct (occurrences y l0); cbn [Nat.add]; f_equal; lia.
  - rewrite dget_dset_other, H, Nat.add_0_r; [reflexivity|]. congruence.
Qed.
Definition report_inv (t t0 : report) (l : list (str * conversion)) : Prop :=
  t_files t = t_files t0 /\ t_processed t = t_processed t0
  /\ t_errors t = t_errors t0 + length (messages_of ERROR l)
  /\ t_warnings t = t_warnings t0 + length (messages_of WARNING l)
  /\ t_with_errors t = t_with_errors t0 ++ having ERROR l
  /\ t_with_warnings t = t_with_warnings t0 ++ having WARNING l
  /\ t_with_except t = t_with_except t0 ++ map fst (filter (fun nr => is_exception_code (c_code (snd nr))) l)
  /\ t_success t = t_success t0 + length (filter (fun nr => is_success_code (c_code (snd nr)) && is_nil (get_messages ERROR (c_messages (snd nr)))) l)
  /\ t_errors_hist t = fold_left count_issue (messages_of ERROR l) (t_errors_hist t0)
  /\ t_warnings_hist t = fold_left count_issue (messages_of WARNING l) (t_warnings_hist t0).
Lemma fold_report l : forall t0, report_inv (fold_left add_result l t0) t0 l.
Proof.
  induction l as [|[name r] l IH]; intros t0; cbn [fold_left].
  - unfold report_inv, messages_of, having. cbn [flat_map filter map length fold_left]. rewrite ?app_nil_r, ?Nat.add_0_r. repeat split.
  - destruct (IH (add_result t0 (name, r))) as (H1 & H2 & H3 & H4 & H5 & H6 & H7 & H8 & H9 & H10). unfold report_inv.
    rewrite H1, H2, H3, H4, H5, H6, H7, H8, H9, H10. unfold add_result, messages_of, having.
    cbn [t_files t_processed t_errors t_warnings t_with_except t_with_errors t_with_warnings t_success t_errors_hist t_warnings_hist].
    cbn [flat_map filter map fst snd]. rewrite !fold_left_app, !app_length.
    repeat split; try lia.
    + destruct (is_nil (get_messages ERROR (c_messages r))); cbn [negb map fst]; rewrite <- ?app_assoc; reflexivity.
    + destruct (is_nil (get_messages WARNING (c_messages r))); cbn [negb map fst]; rewrite <- ?app_assoc; reflexivity.
    + destruct (is_exception_code (c_code r)); cbn [map fst]; rewrite <- ?app_assoc; reflexivity.
    + destruct (is_success_code (c_code r) && is_nil (get_messages ERROR (c_messages r))); cbn [length]; lia.
Qed.
Lemma dset_fresh {A} k (v : A) d : ~ In k (dkeys d) -> dset k v d = d ++ [(k, v)].
Proof.
  induction d as [|[k' v'] d IH]; intros H; cbn [dset app]; auto. destruct (str_eqb k k') eqn:E.
  - apply str_eqb_eq in E as ->. exfalso. apply H. left. reflexivity.
  - rewrite IH; auto. intros HI. apply H. right. exact HI.
Qed.
Lemma results_table (A B : Type) (f : B -> A) (l : list (str * B)) : forall d, NoDup (dkeys d ++ map fst l) ->
  fold_left (fun d nr => dset (fst nr) (f (snd nr)) d) l d = d ++ map (fun nr => (fst nr, f (snd nr))) l.
Proof.
  induction l as [|[k v] l IH]; intros d H; cbn [fold_left map fst snd]; [rewrite app_nil_r; auto|].
  assert (~ In k (dkeys d)) as HN.
  { intros HI. cbn [map fst] in H. apply NoDup_remove in H as (_ & H). apply H. apply in_or_app. auto. }
  rewrite dset_fresh; auto. rewrite IH; [rewrite <- app_assoc; reflexivity|].
  unfold dkeys in *. rewrite map_app, <- app_assoc. exact H.
Qed.
Lemma map_pair_id {A} (l : list (str * A)) : map (fun nr => (fst nr, snd nr)) l = l.
Proof. induction l as [|[]]; cbn; congruence. Qed.
Lemma filter_codes codes (P : str * conversion -> bool) l :
  (forall nr, In nr l -> P nr = existsb (fun c => Z.eqb (exit_number c) (exit_number (c_code (snd nr)))) codes) ->
  length (filter P l) = count_codes codes l.
Proof.
  unfold count_codes. intros H. f_equal. apply filter_ext_in. exact H.
Qed.
Lemma errors_is_code r : well_coded r -> negb (is_nil (get_messages ERROR (c_messages r))) = Z.eqb (exit_number RENDER_ERRORS) (exit_number (c_code r)) || false.
Proof.
  rewrite orb_false_r.
  intros [(-> & H & _)|[(-> & H & _)|[(-> & H)|(HE & H & _)]]]; try (apply has_spec' in H; rewrite H; reflexivity).
  - apply has_spec in H. rewrite H. reflexivity.
  - apply has_spec' in H. rewrite H. cbn [exceptional In] in HE. unfold exceptional in HE. cbn [In] in HE.
    repeat (destruct HE as [<-|HE]; [reflexivity|]). destruct HE.
Qed.
Lemma c61 files results : NoDup (map fst results) -> (forall nr, In nr results -> well_coded (snd nr)) ->
  let t := bulk_report files results in
  t_processed t = length results
  /\ t_success t = count_codes [SUCCESS; RENDER_WARNINGS] results
  /\ length (t_with_errors t) = count_codes [RENDER_ERRORS] results
  /\ length (t_with_except t) = count_codes [PARSE_EXCEPTION; READ_EXCEPTION; RENDER_EXCEPTION] results
  /\ t_success t + length (t_with_errors t) + length (t_with_except t)
     + count_codes [PRE_PROCESS_EXCEPTION; ILLEGAL_OPERATION] results = t_processed t
  /\ t_errors t = length (messages_of ERROR results) /\ counts (t_errors_hist t) (messages_of ERROR results)
  /\ t_warnings t = length (messages_of WARNING results) /\ counts (t_warnings_hist t) (messages_of WARNING results)
  /\ t_with_errors t = having ERROR results /\ t_with_warnings t = having WARNING results.
Proof.
  intros HN HW. cbv zeta. unfold bulk_report.
  rewrite (results_table conversion conversion (fun x => x) results []) by exact HN. rewrite map_pair_id. cbn [app].
  cbv zeta. match goal with |- context [fold_left add_result results ?x] => set (t0 := x) end.
  destruct (fold_report results t0) as (H1 & H2 & H3 & H4 & H5 & H6 & H7 & H8 & H9 & H10).
  cbn [t_files t_processed t_errors t_warnings t_with_except t_with_errors t_with_warnings t_success t_errors_hist t_warnings_hist].
  rewrite H2, H3, H4, H5, H6, H7, H8, H9, H10.
  unfold t0. cbn [t_files t_processed t_errors t_warnings t_with_except t_with_errors t_with_warnings t_success t_errors_hist t_warnings_hist].
  cbn [app Nat.add].
  assert (length (filter (fun nr => is_success_code (c_code (snd nr)) && is_nil (get_messages ERROR (c_messages (snd nr)))) results)
          = count_codes [SUCCESS; RENDER_WARNINGS] results) as HS.
  { apply filter_codes. intros nr HI. pose proof (HW nr HI) as HWn. pose proof (errors_is_code _ HWn) as HE.
    rewrite orb_false_r in HE. cbn [existsb]. destruct (is_nil (get_messages ERROR _)); cbn [negb] in HE.
    - rewrite andb_true_r. destruct (c_code (snd nr)); reflexivity.
    - rewrite andb_false_r. symmetry in HE. apply Z.eqb_eq in HE. rewrite <- HE. reflexivity. }
  assert (length (having ERROR results) = count_codes [RENDER_ERRORS] results) as HE.
  { unfold having. rewrite map_length. apply filter_codes. intros nr HI. cbn [existsb]. apply errors_is_code. auto. }
  assert (length (map fst (filter (fun nr => is_exception_code (c_code (snd nr))) results))
          = count_codes [PARSE_EXCEPTION; READ_EXCEPTION; RENDER_EXCEPTION] results) as HX.
  { rewrite map_length. apply filter_codes. intros nr HI. cbn [existsb]. destruct (c_code (snd nr)); reflexivity. }
  rewrite HS, HE, HX. repeat split; auto.
  - unfold count_codes. clear - HW. induction results as [|nr l IH]; [reflexivity|].
    assert (forall nr, In nr l -> well_coded (snd nr)) as HW' by (intros; apply HW; right; auto). specialize (IH HW').
    pose proof (HW nr (or_introl eq_refl)) as HN. cbn [filter length].
    assert (exists k, In k [0; 1; 2; 3] /\
      existsb (fun c => Z.eqb (exit_number c) (exit_number (c_code (snd nr)))) [SUCCESS; RENDER_WARNINGS] = (k =? 0) /\
      existsb (fun c => Z.eqb (exit_number c) (exit_number (c_code (snd nr)))) [RENDER_ERRORS] = (k =? 1) /\
      existsb (fun c => Z.eqb (exit_number c) (exit_number (c_code (snd nr)))) [PARSE_EXCEPTION; READ_EXCEPTION; RENDER_EXCEPTION] = (k =? 2) /\
      existsb (fun c => Z.eqb (exit_number c) (exit_number (c_code (snd nr)))) [PRE_PROCESS_EXCEPTION; ILLEGAL_OPERATION] = (k =? 3)) as (k & Hk & K1 & K2 & K3 & K4).
    { destruct HN as [(-> & _)|[(-> & _)|[(-> & _)|(HE & _)]]].
      - exists 0. cbn. auto 8.
      - exists 0. cbn. auto 8.
      - exists 1. cbn. auto 8.
      - unfold exceptional in HE. cbn [In] in HE.
        destruct HE as [<-|[<-|[<-|[<-|[<-|[]]]]]]; [exists 2|exists 2|exists 2|exists 3|exists 3]; cbn; auto 8. }
    rewrite K1, K2, K3, K4. cbn [In] in Hk. destruct Hk as [<-|[<-|[<-|[<-|[]]]]]; cbn [Nat.eqb length]; lia.
  - apply (count_issue_counts _ [] []). intros x. reflexivity.
  - apply (count_issue_counts _ [] []). intros x. reflexivity.
Qed.
(** * C76 *)
Lemma c76_enough s f m : 0 < f -> m * f <= 100 * s -> bulk_exit s f m = SUCCESS.
Proof.
  intros HF HM. unfold bulk_exit. assert (m <= round_percent s f) as H; [|apply Nat.leb_le in H; rewrite H; reflexivity].
  unfold round_percent. assert (m <= 100 * s / f) as HQ by (apply Nat.div_le_lower_bound; lia).
  destruct (_ <? f); auto. destruct (f <? _); [lia|]. destruct (Nat.even _); lia.
Qed.
Lemma c76_missed s f m : 0 < f -> 200 * s + f < 2 * m * f -> bulk_exit s f m = MISSED_SUCCESS_THRESHOLD.
Proof.
  intros HF HM. unfold bulk_exit. assert (~ m <= round_percent s f) as H; [|apply Nat.leb_nle in H; rewrite H; reflexivity].
  unfold round_percent. pose proof (Nat.div_mod (100 * s) f) as HD. pose proof (Nat.mod_upper_bound (100 * s) f) as HU.
  set (q := 100 * s / f) in *. set (rm := (100 * s) mod f) in *.
  destruct (2 * rm <? f) eqn:H1; [apply Nat.ltb_lt in H1; nia|]. apply Nat.ltb_ge in H1.
  destruct (f <? 2 * rm) eqn:H2; [nia|]. destruct (Nat.even q); nia.
Qed.

(** * C77 *)
Definition ok_build (nb : str * build) : bool := (bd_code (snd nb) =? 0)%Z.
Lemma fold_builds l : forall t0, let t := fold_left add_build l t0 in
  br_files t = br_files t0 /\ br_processed t = br_processed t0
  /\ br_success t = br_success t0 + length (filter ok_build l)
  /\ br_errors t = br_errors t0 + length (filter (fun nb => negb (ok_build nb)) l)
  /\ br_with_errors t = br_with_errors t0 ++ map fst (filter (fun nb => negb (ok_build nb)) l)
  /\ br_hist t = fold_left count_issue (flat_map (fun nb => bd_errors (snd nb)) l) (br_hist t0).
Proof.
  induction l as [|[name b] l IH]; intros t0; cbv zeta; cbn [fold_left].
  - cbn [filter map length flat_map fold_left]. rewrite ?app_nil_r, ?Nat.add_0_r. repeat split.
  - destruct (IH (add_build t0 (name, b))) as (H1 & H2 & H3 & H4 & H5 & H6). rewrite H1, H2, H3, H4, H5, H6.
    unfold add_build. cbn [br_files br_processed br_success br_errors br_with_errors br_hist filter flat_map snd].
    rewrite fold_left_app. change (ok_build (name, b)) with (bd_code b =? 0)%Z. change (exit_number SUCCESS) with 0%Z. repeat split.
    + destruct (bd_code b =? 0)%Z; cbn [length]; lia.
    + destruct (bd_code b =? 0)%Z; cbn [negb length]; lia.
    + destruct (bd_code b =? 0)%Z; cbn [negb map fst]; rewrite <- ?app_assoc; reflexivity.
Qed.
Lemma c77 results min_rate : NoDup (map fst results) -> results <> [] ->
  let bad := filter (fun nr => match snd nr with Ended code _ => negb (code =? 0)%Z | TookTooLong => true end) results in
  exists t, rattler_bulk_build results min_rate = (bulk_exit (length results - length bad) (length results) min_rate, Some t)
  /\ br_files t = length results /\ br_processed t = length results
  /\ br_success t + br_errors t = length results /\ br_errors t = length bad /\ br_with_errors t = map fst bad
  /\ counts (br_hist t) (flat_map (fun nr => bd_errors (build_recipe (snd nr))) results).
Proof.
  intros HN HE. cbv zeta. unfold rattler_bulk_build. destruct results as [|x0 l0] eqn:HR; [contradiction|]. rewrite <- HR in *. clear HE x0 l0 HR.
  rewrite (results_table build process build_recipe results []) by exact HN. cbn [app].
  set (tbl := map (fun nr => (fst nr, build_recipe (snd nr))) results).
  assert (length tbl = length results) as HL by apply map_length.
  unfold build_statistics. match goal with |- context [fold_left add_build tbl ?x] => set (t0 := x) end.
  destruct (fold_builds tbl t0) as (H1 & H2 & H3 & H4 & H5 & H6).
  set (bad := filter (fun nr => match snd nr with Ended code _ => negb (code =? 0)%Z | TookTooLong => true end) results).
  assert (filter (fun nb => negb (ok_build nb)) tbl = map (fun nr => (fst nr, build_recipe (snd nr))) bad) as HB.
  { unfold tbl, bad. clear. induction results as [|[n [code err|]] l IH]; cbn [map filter fst snd]; auto.
    - change (ok_build (n, build_recipe (Ended code err))) with (code =? 0)%Z. destruct (code =? 0)%Z; cbn [negb map fst snd]; rewrite IH; reflexivity.
    - change (ok_build (n, build_recipe TookTooLong)) with false. cbn [negb map fst snd]. rewrite IH. reflexivity. }
  assert (length (filter ok_build tbl) + length (filter (fun nb => negb (ok_build nb)) tbl) = length tbl) as HS.
  { clear. induction tbl as [|x l IH]; cbn [filter length]; auto. destruct (ok_build x); cbn [negb length]; lia. }
  rewrite HB, map_length in *. unfold t0 in *. cbn [br_files br_processed br_success br_errors br_with_errors br_hist Nat.add app] in *.
  exists (fold_left add_build tbl t0). unfold t0. split; [|repeat split].
  - assert (br_success (fold_left add_build tbl t0) = length results - length bad) as HQ by (unfold t0; rewrite H3; lia).
    unfold t0 in HQ. rewrite HQ. reflexivity.
  - exact H1.
  - rewrite H2. exact HL.
  - rewrite H3, H4. lia.
  - exact H4.
  - rewrite H5, map_map. reflexivity.
  - rewrite H6. unfold tbl. rewrite flat_map_concat_map, map_map, <- flat_map_concat_map. apply (count_issue_counts _ [] []). intros x. reflexivity.
Qed.
Lemma c60_numbers : (forall a b, exit_number a = exit_number b -> a = b)
  /\ (forall a, (0 <= exit_number a < 256)%Z /\ exit_number a <> 1%Z) /\ exit_number SUCCESS = 0%Z /\ exit_number CLICK_USAGE = 2%Z
  /\ map exit_number [RENDER_WARNINGS; RENDER_ERRORS; PARSE_EXCEPTION; RENDER_EXCEPTION; READ_EXCEPTION; PRE_PROCESS_EXCEPTION; ILLEGAL_OPERATION]
     = map (fun i => 100 + Z.of_nat i)%Z (seq 0 7).
Proof.
  repeat split; try reflexivity; try (destruct a; reflexivity || discriminate); try (destruct a; vm_compute; congruence).
  intros [] [] H; reflexivity || discriminate H.
Qed.

(** C76: the threshold is met up to half a percent, except for halves. *)
Lemma c76_decided s f m : 0 < f -> 2 * m * f <> 200 * s + f -> (bulk_exit s f m = SUCCESS <-> 2 * m * f < 200 * s + f).
Proof.
  intros F T. split.
  - intros H. destruct (Nat.lt_ge_cases (2 * m * f) (200 * s + f)) as [K|K]; [exact K|].
    rewrite (c76_missed s f m F ltac:(lia)) in H. discriminate.
  - intros H. unfold bulk_exit, round_percent.
    pose proof (Nat.div_mod (100 * s) f ltac:(lia)) as D. pose proof (Nat.mod_upper_bound (100 * s) f ltac:(lia)) as B.
    set (q := 100 * s / f) in *. set (r := (100 * s) mod f) in *.
    assert (forall k, m <= k -> (if m <=? k then SUCCESS else MISSED_SUCCESS_THRESHOLD) = SUCCESS) as G.
    { intros k K. destruct (Nat.leb_spec m k); [reflexivity|lia]. }
    destruct (Nat.ltb_spec (2 * r) f) as [L|L]; [|destruct (Nat.ltb_spec f (2 * r)) as [L2|L2]]; [| |destruct (Nat.even q)]; apply G.
    + destruct (Nat.le_gt_cases m q) as [K|K]; [exact K|exfalso; nia].
    + destruct (Nat.le_gt_cases m (S q)) as [K|K]; [exact K|exfalso; nia].
    + destruct (Nat.le_gt_cases m q) as [K|K]; [exact K|exfalso; nia].
    + destruct (Nat.le_gt_cases m (S q)) as [K|K]; [exact K|exfalso; nia].
Qed.
