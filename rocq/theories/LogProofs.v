(** C112, arbitrary lines (proofs only). *)
From Verif Require Export ScriptsProofs2.
From Verif Require Import Lemmas PatchProofs PathProofs RenderProofs Scripts LogSpec.

Lemma classify_none data : classify data = Ok None <-> no_command data.
Proof.
  unfold classify, no_command. destruct (assoc_prim (PStr $"info") data) as [info|]; [|split; auto].
  destruct info as [[|b|z|x|s]|l|d]; cbn [bind]; try (split; [discriminate|intros []]).
  - destruct (contains_sub $"command_name" s) eqn:E.
    + split; [discriminate|]. intros N. destruct N. apply contains_sub_spec. exact E.
    + split; [|reflexivity]. intros _ N. apply contains_sub_spec in N. congruence.
  - destruct (existsb (json_eqb (JStr $"command_name")) l) eqn:E.
    + split; [discriminate|]. intros F. apply existsb_exists in E as (x & I & E). rewrite Forall_forall in F. rewrite (F x I) in E. discriminate.
    + split; [|reflexivity]. intros _. apply Forall_forall. intros x I. destruct (json_eqb (JStr $"command_name") x) eqn:E2; [|reflexivity].
      assert (existsb (json_eqb (JStr $"command_name")) l = true) as K by (apply existsb_exists; exists x; auto). congruence.
  - destruct (assoc_prim (PStr $"command_name") d) as [v|]; cbn [bind]; split; intros; congruence.
Qed.
Lemma classify_some data b : classify data = Ok (Some b) <-> exists v, command_is data v /\ json_eqb v (JStr $"convert") = b.
Proof.
  split.
  - unfold classify, command_is. destruct (assoc_prim (PStr $"info") data) as [info|]; [|discriminate].
    destruct info as [[|b'|z|x|s]|l|d]; cbn [bind]; try discriminate.
    + destruct (contains_sub $"command_name" s); discriminate.
    + destruct (existsb (json_eqb (JStr $"command_name")) l); discriminate.
    + destruct (assoc_prim (PStr $"command_name") d) as [v|] eqn:E; cbn [bind]; [|discriminate]. intros [= <-]. exists v. split; [exists d; auto|reflexivity].
  - intros (v & H & <-). apply classify_command. exact H.
Qed.

Lemma skipn_cons {A} (l : list A) : forall i x t, skipn i l = x :: t -> nth_error l i = Some x /\ skipn (S i) l = t.
Proof.
  induction l as [|y l IH]; intros [|i] x t E; try discriminate.
  - cbn [skipn] in E. injection E as -> ->. split; reflexivity.
  - apply (IH i x t E).
Qed.
Section Lines.
Variables (loads : str -> option jobject) (lines : list str).

Fixpoint starts (i : nat) : nat :=
  match i with
  | 0 => 0
  | S j =>
      let line := nth j lines [] in
      let s := if str_eqb line $"{" then j else starts j in
      if str_eqb line $"}" then match loads (between lines s j) with None => 0 | Some _ => s end else s
  end.
Lemma opens_at j : j < length lines -> opens lines j <-> str_eqb (nth j lines []) $"{" = true.
Proof. intros L. unfold opens. rewrite (nth_error_nth' lines [] L). split; [intros [= E]; rewrite E; apply str_eqb_refl|intros E; apply str_eqb_eq in E; rewrite E; reflexivity]. Qed.
Lemma closes_at j : j < length lines -> closes lines j <-> str_eqb (nth j lines []) $"}" = true.
Proof. intros L. unfold closes. rewrite (nth_error_nth' lines [] L). split; [intros [= E]; rewrite E; apply str_eqb_refl|intros E; apply str_eqb_eq in E; rewrite E; reflexivity]. Qed.
Lemma closes_not_opens j : closes lines j -> ~ opens lines j.
Proof. unfold closes, opens. intros -> [=]. Qed.
Definition opened (from : nat -> nat) (s i : nat) : Prop :=
  (s < i /\ opens lines s /\ forall k, s < k < i -> ~ opens lines k /\ ~ fails loads lines from k)
  \/ (s = 0 /\ forall k, k < i -> opens lines k -> exists m, k < m < i /\ fails loads lines from m).
Lemma starts_opened : forall i, i <= length lines -> opened starts (starts i) i.
Proof.
  induction i as [|j IH]; intros L; [right; split; [reflexivity|lia]|]. specialize (IH ltac:(lia)). cbn [starts]. cbv zeta.
  pose proof (opens_at j L) as HO. pose proof (closes_at j L) as HC.
  destruct (str_eqb (nth j lines []) $"{") eqn:EO.
  - assert (str_eqb (nth j lines []) $"}" = false) as ->. { apply str_eqb_eq in EO. rewrite EO. reflexivity. }
    left. split; [lia|]. split; [apply HO; reflexivity|]. intros k K. lia.
  - assert (~ opens lines j) as NO by (intros H; apply HO in H; discriminate).
    destruct (str_eqb (nth j lines []) $"}") eqn:EC.
    + assert (closes lines j) as CJ by (apply HC; reflexivity).
      destruct (loads (between lines (starts j) j)) as [data|] eqn:EL.
      * assert (~ fails loads lines starts j) as NF by (intros [_ H]; congruence).
        destruct IH as [(A & B & C)|(A & B)].
        -- left. split; [lia|]. split; [exact B|]. intros k K. destruct (Nat.eq_dec k j) as [->|]; [split; assumption|apply C; lia].
        -- right. split; [exact A|]. intros k K OK. destruct (Nat.eq_dec k j) as [->|]; [contradiction|]. destruct (B k ltac:(lia) OK) as (m & M & F). exists m. split; [lia|exact F].
      * right. split; [reflexivity|]. intros k K OK. exists j. split; [|split; assumption]. assert (k <> j) by congruence. lia.
    + assert (~ fails loads lines starts j) as NF by (intros [H _]; apply HC in H; discriminate).
      destruct IH as [(A & B & C)|(A & B)].
      * left. split; [lia|]. split; [exact B|]. intros k K. destruct (Nat.eq_dec k j) as [->|]; [split; assumption|apply C; lia].
      * right. split; [exact A|]. intros k K OK. destruct (Nat.eq_dec k j) as [->|]; [contradiction|]. destruct (B k ltac:(lia) OK) as (m & M & F). exists m. split; [lia|exact F].
Qed.
Lemma begins_starts : begins loads lines starts.
Proof. intros j C. apply (starts_opened j). assert (nth_error lines j <> None) as N by congruence. apply nth_error_Some in N. lia. Qed.
Lemma begins_unique from : begins loads lines from -> forall j, closes lines j -> from j = starts j.
Proof.
  intros B j. induction (lt_wf j) as [j _ IH]. intros C.
  assert (forall i, i < j -> fails loads lines from i <-> fails loads lines starts i) as F.
  { intros i I. unfold fails. split; intros [Ci Hi]; (split; [exact Ci|]); [rewrite <- (IH i I Ci)|rewrite (IH i I Ci)]; exact Hi. }
  destruct (B j C) as [(A1 & A2 & A3)|(A1 & A2)]; destruct (begins_starts j C) as [(B1 & B2 & B3)|(B1 & B2)].
  - destruct (lt_eq_lt_dec (from j) (starts j)) as [[H|H]|H]; [|exact H|].
    + destruct (A3 (starts j) ltac:(lia)) as [N _]. contradiction.
    + destruct (B3 (from j) ltac:(lia)) as [N _]. contradiction.
  - destruct (B2 _ A1 A2) as (m & M & Fm). destruct (A3 m M) as [_ N]. destruct N. apply F; [lia|exact Fm].
  - destruct (A2 _ B1 B2) as (m & M & Fm). destruct (B3 m M) as [_ N]. destruct N. apply F; [lia|exact Fm].
  - congruence.
Qed.
Lemma begins_parsed from : begins loads lines from -> parsed loads lines from = parsed loads lines starts.
Proof.
  intros B. unfold parsed, closings.
  assert (forall l, (forall j, In j l -> closes lines j) ->
    flat_map (fun j => match loads (between lines (from j) j) with Some data => [data] | None => [] end) l =
    flat_map (fun j => match loads (between lines (starts j) j) with Some data => [data] | None => [] end) l) as X.
  { induction l as [|j l IH]; intros H; [reflexivity|]. cbn [flat_map]. rewrite (begins_unique from B j (H j (or_introl eq_refl))). f_equal. apply IH. intros k I. apply H. right. exact I. }
  apply X. intros j I. apply filter_In in I as [_ I]. unfold closes. destruct (nth_error lines j) as [l|]; [|discriminate]. apply str_eqb_eq in I. congruence.
Qed.
Lemma starts_le i : starts i <= i.
Proof. induction i as [|j IH]; [reflexivity|]. cbn [starts]. cbv zeta. destruct (str_eqb (nth j lines []) $"{"), (str_eqb (nth j lines []) $"}"); try destruct (loads _); lia. Qed.
Lemma starts_next j : starts (S j) =
  (let s := if str_eqb (nth j lines []) $"{" then j else starts j in
   if str_eqb (nth j lines []) $"}" then match loads (between lines s j) with None => 0 | Some _ => s end else s).
Proof. reflexivity. Qed.
Definition parsed_in (l : list nat) : list jobject :=
  flat_map (fun j => match loads (between lines (starts j) j) with Some data => [data] | None => [] end)
    (filter (fun j => match nth_error lines j with Some l => str_eqb l $"}" | None => false end) l).
Lemma scan_exactly : forall todo i acc r, skipn i lines = todo ->
  (scan_lines loads lines i (starts i) todo acc = Ok r <->
   exists c d, sorted_into (parsed_in (seq i (length todo))) c d /\ r = (fst acc ++ c, snd acc ++ d)).
Proof.
  induction todo as [|line todo IH]; intros i acc r E.
  - cbn [scan_lines length seq]. unfold parsed_in. cbn [filter flat_map]. split.
    + intros [= <-]. exists [], []. split; [constructor|]. rewrite !app_nil_r. destruct acc; reflexivity.
    + intros (c & d & S & ->). inversion S; subst. rewrite !app_nil_r. destruct acc; reflexivity.
  - destruct (skipn_cons lines i line todo E) as [NL E'].
    assert (nth i lines [] = line) as NT by (apply nth_error_nth; exact NL).
    cbn [scan_lines length seq]. cbv zeta.
    pose proof (starts_next i) as ES. cbv zeta in ES. rewrite NT in ES.
    unfold parsed_in. cbn [filter]. rewrite NL.
    destruct (str_eqb line $"{") eqn:EO.
    + assert (str_eqb line $"}" = false) as EC. { apply str_eqb_eq in EO. rewrite EO. reflexivity. }
      rewrite EC in *. specialize (IH (S i) acc r E'). rewrite ES in IH. exact IH.
    + destruct (str_eqb line $"}") eqn:EC.
      * cbn [flat_map]. assert (join [cNL] (firstn (S i - starts i) (skipn (starts i) lines)) = between lines (starts i) i) as ->.
        { unfold between. rewrite firstn_skipn_comm. replace (starts i + (S i - starts i)) with (S i) by (pose proof (starts_le i); lia). reflexivity. }
        destruct (loads (between lines (starts i) i)) as [data|].
        -- rewrite <- ES. cbn [app]. fold (parsed_in (seq (S i) (length todo))). destruct (classify data) as [k|e] eqn:EK; cbn [bind].
           ++ rewrite (IH (S i) _ r E'). destruct k as [b|].
              ** destruct (proj1 (classify_some data b) EK) as (v & HV & Hb). split.
                 --- intros (c & d & S & ->). destruct b.
                     +++ exists (data :: c), d. split; [eapply so_convert; eassumption|]. cbn [fst snd]. rewrite <- app_assoc. reflexivity.
                     +++ exists c, (data :: d). split; [eapply so_other; eassumption|]. cbn [fst snd]. rewrite <- app_assoc. reflexivity.
                 --- intros (c & d & S & ->). inversion S as [|? ? ? ? HN S'|? v' ? ? ? HV' Hc S'|? v' ? ? ? HV' Hc S']; subst.
                     +++ apply classify_none in HN. congruence.
                     +++ pose proof (proj2 (classify_some data true) (ex_intro _ v' (conj HV' Hc))) as X. rewrite EK in X. injection X as ->.
                         exists c0, d. split; [exact S'|]. cbn [fst snd]. rewrite <- app_assoc. reflexivity.
                     +++ pose proof (proj2 (classify_some data false) (ex_intro _ v' (conj HV' Hc))) as X. rewrite EK in X. injection X as ->.
                         exists c, d0. split; [exact S'|]. cbn [fst snd]. rewrite <- app_assoc. reflexivity.
              ** pose proof (proj1 (classify_none data) EK) as HN. split.
                 --- intros (c & d & S & ->). exists c, d. split; [apply so_unknown; assumption|reflexivity].
                 --- intros (c & d & S & ->). inversion S as [|? ? ? ? HN' S'|? v' ? ? ? HV' Hc S'|? v' ? ? ? HV' Hc S']; subst.
                     +++ exists c, d. split; [exact S'|reflexivity].
                     +++ pose proof (proj2 (classify_some data true) (ex_intro _ v' (conj HV' Hc))) as X. congruence.
                     +++ pose proof (proj2 (classify_some data false) (ex_intro _ v' (conj HV' Hc))) as X. congruence.
           ++ split; [discriminate|]. intros (c & d & S & ->). exfalso. inversion S as [|? ? ? ? HN' S'|? v' ? ? ? HV' Hc S'|? v' ? ? ? HV' Hc S']; subst.
              ** apply classify_none in HN'. congruence.
              ** pose proof (proj2 (classify_some data true) (ex_intro _ v' (conj HV' Hc))) as X. congruence.
              ** pose proof (proj2 (classify_some data false) (ex_intro _ v' (conj HV' Hc))) as X. congruence.
        -- cbn [app]. specialize (IH (S i) acc r E'). rewrite ES in IH. exact IH.
      * specialize (IH (S i) acc r E'). rewrite ES in IH. exact IH.
Qed.
End Lines.

Lemma scan_any loads lines acc r : scan_lines loads lines 0 0 lines acc = Ok r <->
  exists from c d, begins loads lines from /\ sorted_into (parsed loads lines from) c d /\ r = (fst acc ++ c, snd acc ++ d).
Proof.
  rewrite (scan_exactly loads lines lines 0 acc r eq_refl : scan_lines loads lines 0 0 lines acc = Ok r <-> _). split.
  - intros (c & d & S & E). exists (starts loads lines), c, d. split; [apply begins_starts|]. split; [exact S|exact E].
  - intros (from & c & d & B & S & E). exists c, d. rewrite (begins_parsed loads lines from B) in S. split; [exact S|exact E].
Qed.
Lemma skipped_spec f : lf_is_dir f || str_eqb (lf_name f) $".DS_Store" = false <-> read_file f.
Proof. unfold read_file. rewrite orb_false_iff, str_eqb_neq. reflexivity. Qed.
Lemma any_logs_exactly loads : forall files, Forall (fun f => read_file f -> exists ls, stamped f ls) files -> forall acc r,
  (read_logs loads files acc = Ok r <-> exists c d, any_logs loads files c d /\ r = (fst acc ++ c, snd acc ++ d)).
Proof.
  induction files as [|f files IH]; intros F acc r; cbn [read_logs].
  - split.
    + intros [= <-]. exists [], []. split; [constructor|]. rewrite !app_nil_r. destruct acc; reflexivity.
    + intros (c & d & A & ->). inversion A; subst. rewrite !app_nil_r. destruct acc; reflexivity.
  - inversion F as [|? ? F1 F']; subst. specialize (IH F'). destruct (lf_is_dir f || str_eqb (lf_name f) $".DS_Store") eqn:ED.
    + assert (~ read_file f) as NR by (intros H; apply skipped_spec in H; congruence). rewrite IH. split.
      * intros (c & d & A & ->). exists c, d. split; [apply al_skipped; assumption|reflexivity].
      * intros (c & d & A & ->). inversion A; subst; [|contradiction]. exists c, d. auto.
    + pose proof (proj1 (skipped_spec f) ED) as RF. destruct (F1 RF) as (ls & EC & OK). cbv zeta. rewrite EC, (log_lines_ok ls OK). split.
      * destruct (scan_lines loads (map snd ls) 0 0 (map snd ls) acc) as [acc'|] eqn:ES; cbn [bind]; [|discriminate]. intros H.
        apply scan_any in ES as (from & c1 & d1 & B & S & ->). apply IH in H as (c & d & A & ->). exists (c1 ++ c), (d1 ++ d).
        split; [eapply al_file; try eassumption; split; assumption|]. cbn [fst snd]. rewrite <- !app_assoc. reflexivity.
      * intros (c & d & A & ->). inversion A as [|? ? ? ? NR A'|? ? ls' from c1 d1 c2 d2 RF' [EC' OK'] B S A']; subst; [contradiction|].
        assert (map snd ls = map snd ls') as EL by (rewrite <- (log_lines_ok ls OK), <- (log_lines_ok ls' OK'), <- EC, <- EC'; reflexivity).
        rewrite EL. rewrite (proj2 (scan_any loads (map snd ls') acc _) (ex_intro _ from (ex_intro _ c1 (ex_intro _ d1 (conj B (conj S eq_refl)))))). cbn [bind].
        apply IH. exists c2, d2. split; [exact A'|]. cbn [fst snd]. rewrite <- !app_assoc. reflexivity.
Qed.
Lemma c112_exactly loads files c d : Forall (fun f => read_file f -> exists ls, stamped f ls) files ->
  (read_logs loads files ([], []) = Ok (c, d) <-> any_logs loads files c d).
Proof.
  intros F. rewrite (any_logs_exactly loads files F ([], []) (c, d)). split.
  - intros (c' & d' & A & [= -> ->]). exact A.
  - intros A. exists c, d. auto.
Qed.
