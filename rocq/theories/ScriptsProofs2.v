(** C112: reading the logs (proofs only). *)
From Verif Require Export ScriptsProofs.
From Verif Require Import Lemmas PatchProofs PathProofs RenderProofs RegexProofs RenderProofs2 LayoutProofs6 LayoutProofs7 Scripts ScriptsSpec.

(** * Time stamps *)
Lemma chr_step {A} p c t st (k : mst -> option A) x : p c = true -> rest st = c :: t ->
  (forall st', rest st' = t -> pos st' = S (pos st) -> grps st' = grps st -> k st' = Some x) -> m (Chr p) st k = Some x.
Proof. intros P R H. cbn [m]. rewrite R, P. destruct (adv_pos st c t R) as [E1 E2]. apply H; [exact E2|exact E1|apply adv_grps]. Qed.
Lemma among_spec s c : existsb (ceq c) (lit s) = true <-> one_of s c.
Proof.
  unfold one_of. rewrite existsb_exists. split.
  - intros (x & I & E). apply ceq_eq in E as ->. exact I.
  - intros I. exists c. split; [exact I|apply ceq_refl].
Qed.
Lemma z_no_digit : is_digit "Z"%char = false. Proof. reflexivity. Qed.
Lemma stamp_hit u t prev p : is_stamp u -> match_at ISO_8601_REGEX prev p (u ++ t) = Some {| m_start := p; m_end := p + length u; m_grps := [] |}.
Proof.
  intros S. destruct S as [y1 y2 y3 y4 m1 m2 d1 d2 h1 h2 n1 n2 s1 s2 f fs b F Hm Hd Hh Hn Hs Hf Hb].
  repeat match goal with H : Forall digit (_ :: _) |- _ => inversion H; clear H; subst end. unfold digit in *.
  rewrite <- among_spec in Hm, Hd, Hh, Hn, Hs.
  unfold match_at, ISO_8601_REGEX. cbn [seqs]. rewrite <- !app_assoc. cbn [app].
  change ($"-") with ["-"%char]. change ($"T") with ["T"%char]. change ($":") with [":"%char]. change ($".") with ["."%char]. change ($"Z") with ["Z"%char]. cbn [app].
  unfold Scripts.D, charset, L. change (lit "-") with ["-"%char]. change (lit "T") with ["T"%char]. change (lit ":") with [":"%char]. change (lit ".") with ["."%char]. change (lit "Z") with ["Z"%char].
  cbn [L_]. unfold C.
  do 21 (seq1; eapply chr_step; [|first [reflexivity|eassumption]|]; [first [eassumption|apply ceq_refl]|let st := fresh "st" in let R := fresh "R" in let P := fresh "P" in let G := fresh "G" in intros st R P G]).
  seq1. match goal with |- m (StarC is_digit) ?st ?k = ?y => change (star_k is_digit (rest st) st k = y) end.
  rewrite <- app_assoc in R19. cbn [app] in R19.
  eapply star_greedy; [exact R19|exact Hf|exact z_no_digit|].
  intros st' R' P' G'. cbv beta.
  seq1. eapply chr_step; [|eassumption|]; [apply ceq_refl|]. intros sz Rz Pz Gz.
  eapply chr_step; [|eassumption|]; [exact Hb|]. intros sb Rb Pb Gb. f_equal. f_equal.
  - cbn [start_st pos] in *. cbn [length]. rewrite !app_length. cbn [length]. lia.
  - cbn [start_st grps] in *. congruence.
Qed.

Lemma lang_chr p u : lang (Chr p) u -> exists c, u = [c] /\ p c = true.
Proof. intros (c & -> & H). eauto. Qed.
Lemma lang_L1 s c u : lit s = [c] -> lang (L s) u -> u = [c].
Proof. intros E H. unfold L in H. apply lang_L in H. congruence. Qed.
Lemma stamp_lang u : lang ISO_8601_REGEX u -> is_stamp u.
Proof.
  unfold ISO_8601_REGEX. cbn [seqs]. unfold charset, Scripts.D. intros H.
  do 23 (let a := fresh "a" in let b := fresh "b" in let Ha := fresh "Ha" in destruct H as (a & b & -> & Ha & H)).
  repeat match goal with H : lang (Chr _) _ |- _ => apply lang_chr in H; let c := fresh "c" in let E := fresh "E" in destruct H as (c & -> & E) end.
  repeat match goal with H : lang (L ?s) _ |- _ => eapply lang_L1 in H; [|reflexivity]; subst end.
  match goal with H : lang (StarC _) _ |- _ => cbn [lang] in H end.
  repeat match goal with H : existsb _ _ = true |- _ => apply among_spec in H end.
  match goal with |- is_stamp ?x => let y := eval cbn [app] in x in change (is_stamp y) end.
  refine (stamp _ _ _ _ _ _ _ _ _ _ _ _ _ _ _ _ _ _ _ _ _ _ _ _ _); try eassumption.
  repeat constructor; assumption.
Qed.

Lemma one_of_not s c : forallb (fun d => negb (ceq d cNL)) (lit s) = true -> one_of s c -> c <> cNL.
Proof. intros F I ->. rewrite forallb_forall in F. specialize (F cNL I). discriminate. Qed.
Lemma digit_not c : digit c -> c <> cNL.
Proof. intros D ->. discriminate. Qed.
Lemma stamp_nl u : is_stamp u -> exists w b, u = w ++ [b] /\ ~ In cNL w.
Proof.
  intros S. destruct S as [y1 y2 y3 y4 m1 m2 d1 d2 h1 h2 n1 n2 s1 s2 f fs b F Hm Hd Hh Hn Hs Hf Hb].
  exists ([y1; y2; y3; y4] ++ $"-" ++ [m1; m2] ++ $"-" ++ [d1; d2] ++ $"T" ++ [h1; h2] ++ $":" ++ [n1; n2] ++ $":" ++ [s1; s2] ++ $"." ++ f :: fs ++ $"Z"), b.
  split; [rewrite <- !app_assoc; cbn [app]; rewrite <- !app_assoc; reflexivity|].
  apply one_of_not in Hm; [|reflexivity]. apply one_of_not in Hd; [|reflexivity]. apply one_of_not in Hh; [|reflexivity].
  apply one_of_not in Hn; [|reflexivity]. apply one_of_not in Hs; [|reflexivity].
  assert (Forall (fun c => c <> cNL) [y1; y2; y3; y4; m2; d2; h2; n2; s2; f]) as F'.
  { eapply Forall_impl; [|exact F]. intros c. apply digit_not. }
  repeat match goal with H : Forall (fun c => c <> cNL) (_ :: _) |- _ => inversion H; clear H; subst end.
  intros I. change $"-" with ["-"%char] in I. change $"T" with ["T"%char] in I. change $":" with [":"%char] in I. change $"." with ["."%char] in I. change $"Z" with ["Z"%char] in I.
  cbn [app In] in I.
  repeat match goal with H : _ \/ _ |- _ => destruct H as [H|H]; [congruence || discriminate|] end.
  apply in_app_or in I as [I|I]; [|destruct I as [I|[]]; discriminate].
  rewrite Forall_forall in Hf. apply (digit_not _ (Hf _ I)). reflexivity.
Qed.
Lemma line_quiet l t : (forall u, is_stamp u -> ~ has_text u (l ++ [cNL])) -> quiet_in ISO_8601_REGEX (l ++ [cNL]) t.
Proof.
  intros H a b E NB. apply lang_head. intros u v HL X. apply stamp_lang in HL.
  apply app_eq_app in X as (w & [[-> ->]|[-> ->]]).
  - apply (H u HL). exists a, w. rewrite E. reflexivity.
  - destruct w as [|c w].
    + rewrite app_nil_r in HL. apply (H b HL). exists a, []. rewrite app_nil_r. exact E.
    + destruct (exists_last NB) as (b' & d & ->). rewrite app_assoc in E. apply app_inj_tail in E as [_ <-].
      destruct (stamp_nl _ HL) as (x & y & Ex & N). destruct (@exists_last _ (c :: w) ltac:(discriminate)) as (w' & e & Ew).
      rewrite Ew, app_assoc in Ex. apply app_inj_tail in Ex as [<- _]. apply N. apply in_or_app. left. apply in_or_app. right. left. reflexivity.
Qed.
Lemma strip_lines : forall ls whole prev p, Forall log_line_ok ls ->
  sub_aux ISO_8601_REGEX whole (fun _ => []) prev p 0 (log_text ls) = concat (map (fun sl => snd sl ++ [cNL]) ls).
Proof.
  induction ls as [|[s l] ls IH]; intros whole prev p F; [reflexivity|]. inversion F as [|? ? (HS & HB & HN) F']; subst. cbn [fst snd] in *.
  change (log_text ((s, l) :: ls)) with ((s ++ l ++ [cNL]) ++ log_text ls). cbn [map concat snd]. rewrite <- app_assoc.
  assert (exists prev' p', sub_aux ISO_8601_REGEX whole (fun _ => []) prev p 0 (s ++ (l ++ [cNL]) ++ log_text ls)
    = sub_aux ISO_8601_REGEX whole (fun _ => []) prev' p' 0 ((l ++ [cNL]) ++ log_text ls)) as (prev' & p' & ->).
  { destruct HS as [->|HS]; [exists prev, p; reflexivity|].
    destruct (ConvertProofs.sub_hit ISO_8601_REGEX whole (fun _ => []) prev p s ((l ++ [cNL]) ++ log_text ls) _ (fun Z => ltac:(destruct HS; discriminate)) (stamp_hit s _ prev p HS) eq_refl eq_refl) as (prev' & ->).
    exists prev', (p + length s). reflexivity. }
  destruct (ConvertProofs.sub_plain ISO_8601_REGEX whole (fun _ => []) (log_text ls) (l ++ [cNL]) prev' p' (line_quiet l _ HN)) as (prev2 & ->).
  f_equal. apply IH. exact F'.
Qed.
Lemma split_lines : forall ls, Forall log_line_ok ls -> splitlines_aux [] (concat (map (fun sl => snd sl ++ [cNL]) ls)) = map snd ls.
Proof.
  induction ls as [|[s l] ls IH]; intros F; [reflexivity|]. inversion F as [|? ? (HS & HB & HN) F']; subst. cbn [fst snd map concat] in *.
  rewrite <- app_assoc. cbn [app]. rewrite splitlines_line by exact HB. cbn [rev app]. f_equal. apply IH. exact F'.
Qed.
Lemma log_lines_ok ls : Forall log_line_ok ls -> log_lines (log_text ls) = map snd ls.
Proof. intros F. unfold log_lines, splitlines, re_sub, re_sub_f. rewrite strip_lines by exact F. apply split_lines. exact F. Qed.

(** * Blobs *)
Lemma plain_steps loads lines : forall l i start todo acc, Forall plain_log l ->
  scan_lines loads lines i start (l ++ todo) acc = scan_lines loads lines (i + length l) start todo acc.
Proof.
  induction l as [|x l IH]; intros i start todo acc F; [cbn [app length]; rewrite Nat.add_0_r; reflexivity|].
  inversion F as [|? ? (N1 & N2) F']; subst. cbn [app scan_lines]. cbv zeta.
  apply str_eqb_neq in N1, N2. rewrite N1, N2. rewrite IH by exact F'. cbn [length]. rewrite Nat.add_succ_r. reflexivity.
Qed.
Lemma classify_unknown data : unrecognised data -> classify data = Ok None.
Proof. unfold classify. intros [->|(d & -> & H)]; [reflexivity|]. rewrite H. reflexivity. Qed.
Lemma classify_command data v : command_is data v -> classify data = Ok (Some (json_eqb v (JStr $"convert"))).
Proof. unfold classify. intros (d & -> & H). rewrite H. cbn [bind]. reflexivity. Qed.
Lemma blob_step loads lines l done todo start acc : Forall plain_log l -> lines = done ++ ($"{" :: l ++ [$"}"]) ++ todo ->
  exists start', scan_lines loads lines (length done) start (($"{" :: l ++ [$"}"]) ++ todo) acc =
    match loads (blob_text l) with
    | None => scan_lines loads lines (length done + length ($"{" :: l ++ [$"}"])) start' todo acc
    | Some data =>
        let! c := classify data in
        scan_lines loads lines (length done + length ($"{" :: l ++ [$"}"])) start' todo
          (match c with None => acc | Some true => (fst acc ++ [data], snd acc) | Some false => (fst acc, snd acc ++ [data]) end)
    end.
Proof.
  intros F E. cbn [app]. rewrite <- app_assoc. cbn [scan_lines]. cbv zeta.
  change (str_eqb $"{" $"{") with true. change (str_eqb $"{" $"}") with false. cbv iota.
  rewrite plain_steps by exact F. cbn [app scan_lines]. cbv zeta. change (str_eqb $"}" $"{") with false. change (str_eqb $"}" $"}") with true. cbv iota.
  assert (firstn (S (S (length done) + length l) - length done) (skipn (length done) lines) = $"{" :: l ++ [$"}"]) as ->.
  { rewrite E, skipn_app, Nat.sub_diag, skipn_all. cbn [skipn app].
    replace (S (S (length done) + length l) - length done) with (length ($"{" :: l ++ [$"}"]) + 0) by (cbn [length]; rewrite app_length; cbn [length]; lia).
    change ($"{" :: (l ++ [$"}"]) ++ todo) with (($"{" :: l ++ [$"}"]) ++ todo). rewrite firstn_app_2. cbn [firstn]. apply app_nil_r. }
  replace (S (S (length done) + length l)) with (length done + length ($"{" :: l ++ [$"}"])) by (cbn [length]; rewrite app_length; cbn [length]; lia).
  change (join [cNL] ($"{" :: l ++ [$"}"])) with (blob_text l).
  destruct (loads (blob_text l)); eexists; reflexivity.
Qed.
Lemma scan_parts loads : forall ps c d, objects_of loads ps c d -> parts_ok ps -> forall lines done start acc, lines = done ++ flat_map part_lines ps ->
  scan_lines loads lines (length done) start (flat_map part_lines ps) acc = Ok (fst acc ++ c, snd acc ++ d).
Proof.
  intros ps c d H. induction H as [|l ps c d H IH|l ps c d HL H IH|l data ps c d HL HU H IH|l data ps c d HL HU H IH|l data v ps c d HL HU HV H IH];
    intros OK lines done start acc E; cbn [flat_map part_lines] in *.
  - cbn [scan_lines]. rewrite !app_nil_r. destruct acc; reflexivity.
  - inversion OK as [|? ? O1 OK']; subst. rewrite plain_steps by exact O1. rewrite <- app_length. apply IH; [exact OK'|]. rewrite <- app_assoc. reflexivity.
  - inversion OK as [|? ? O1 OK']; subst x l0. destruct (blob_step loads lines l done (flat_map part_lines ps) start acc O1 E) as (start' & ->). rewrite HL.
    rewrite <- app_length. apply IH; [exact OK'|]. rewrite <- app_assoc. exact E.
  - inversion OK as [|? ? O1 OK']; subst x l0. destruct (blob_step loads lines l done (flat_map part_lines ps) start acc O1 E) as (start' & ->). rewrite HL, (classify_unknown data HU). cbn [bind].
    rewrite <- app_length. apply IH; [exact OK'|]. rewrite <- app_assoc. exact E.
  - inversion OK as [|? ? O1 OK']; subst x l0. destruct (blob_step loads lines l done (flat_map part_lines ps) start acc O1 E) as (start' & ->). rewrite HL, (classify_command data _ HU). cbn [bind].
    change (json_eqb (JStr $"convert") (JStr $"convert")) with true. cbv iota. rewrite <- app_length. rewrite IH; [|exact OK'|rewrite <- app_assoc; exact E]. cbn [fst snd]. rewrite <- app_assoc. reflexivity.
  - inversion OK as [|? ? O1 OK']; subst x l0. destruct (blob_step loads lines l done (flat_map part_lines ps) start acc O1 E) as (start' & ->). rewrite HL, (classify_command data _ HU), HV. cbn [bind].
    rewrite <- app_length. rewrite IH; [|exact OK'|rewrite <- app_assoc; exact E]. cbn [fst snd]. rewrite <- app_assoc. reflexivity.
Qed.
Lemma read_logs_ok loads : forall files c d, logs_are loads files c d -> forall acc, read_logs loads files acc = Ok (fst acc ++ c, snd acc ++ d).
Proof.
  intros files c d H. induction H as [|f fs c d HS H IH|f fs ls ps c1 d1 c d ND NS EC OK EL OP HO H IH]; intros acc; cbn [read_logs].
  - rewrite !app_nil_r. destruct acc; reflexivity.
  - assert (lf_is_dir f || str_eqb (lf_name f) $".DS_Store" = true) as ->; [|apply IH].
    apply orb_true_intro. destruct HS as [->| ->]; [left; reflexivity|right; apply str_eqb_refl].
  - assert (lf_is_dir f || str_eqb (lf_name f) $".DS_Store" = false) as ->.
    { rewrite ND. cbn [orb]. apply str_eqb_neq. exact NS. }
    cbv zeta. rewrite EC, (log_lines_ok ls OK), EL. pose proof (scan_parts loads ps c1 d1 HO OP _ [] 0 acc eq_refl) as SP. cbn [app length] in SP. rewrite SP. cbn [bind].
    rewrite IH. cbn [fst snd]. rewrite <- !app_assoc. reflexivity.
Qed.
Lemma c112 loads files c d : logs_are loads files c d -> read_logs loads files ([], []) = Ok (c, d).
Proof. intros H. exact (read_logs_ok loads files c d H ([], [])). Qed.
(** A stamp recognised by the pattern. *)
Lemma stamp_known u : option_map m_end (re_match ISO_8601_REGEX u) = Some (length u) -> is_stamp u.
Proof.
  unfold re_match, match_at. destruct (m ISO_8601_REGEX (start_st None 0 u) _) as [x|] eqn:E; [|discriminate]. cbn [option_map]. intros [= H].
  apply m_sound_pos in E as (v & st & R & P & _ & HL & E); [|reflexivity]. injection E as <-. cbn [m_end start_st rest pos] in *.
  assert (rest st = []) as Z. { apply length_zero_iff_nil. rewrite R, app_length in H. lia. }
  rewrite Z, app_nil_r in R. subst v. apply stamp_lang. exact HL.
Qed.
