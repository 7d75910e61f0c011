(** C65 for every expression (proofs only). *)
From Verif Require Export PreProofs2 PySpec.
From Verif Require Import Lemmas PatchProofs PathProofs RenderProofs LayoutProofs RegexProofs Commands ConvertProofs ConvertProofs6 ConvertProofs8 Convert PySpec.

Lemma digit_of_alt u : lang (Alt (L "3") (L "2")) u -> u = $"3" \/ u = $"2".
Proof. intros [H|H]; apply lang_L in H as ->; auto. Qed.
(** The last part: the digits of the minor version. *)
Lemma digits_end {A} n st (k : mst -> option A) x : m (Grp n DIG1) st k = Some x -> exists minor st', rest st = minor ++ rest st' /\ minor <> [] /\ Forall (fun c => is_digit c = true) minor
  /\ pos st' = pos st + length minor /\ grps st' = (n, (pos st, pos st')) :: grps st /\ k st' = Some x
  /\ ((forall s, k s <> None) -> match rest st' with c :: _ => is_digit c = false | [] => True end).
Proof.
  intros M. unfold DIG1 in M.
  change (m (Chr is_digit) st (fun s => m (StarC is_digit) s (fun s' => k {| prevc := prevc s'; pos := pos s'; rest := rest s'; grps := (n, (pos st, pos s')) :: grps s' |})) = Some x) in M.
  apply m_sound_pos in M as (d & s1 & R1 & P1 & G1 & (c & -> & D) & M); [|reflexivity]. cbn [m] in M.
  apply star_max in M as (u & s2 & R2 & P2 & G2 & F2 & M & MX); [|reflexivity].
  exists ([c] ++ u), {| prevc := prevc s2; pos := pos s2; rest := rest s2; grps := (n, (pos st, pos s2)) :: grps s2 |}. cbn [rest pos grps].
  split; [rewrite R1, R2, <- app_assoc; reflexivity|]. split; [discriminate|]. split; [constructor; assumption|].
  split; [rewrite app_length; cbn [length] in *; lia|]. split; [rewrite G2, G1; reflexivity|]. split; [exact M|].
  intros T. destruct (rest s2) as [|e v] eqn:RE; [exact I|]. destruct (is_digit e) eqn:DE; [|reflexivity]. exfalso.
  destruct (MX [e] v) as (s3 & R3 & K3); [reflexivity|discriminate|repeat constructor; exact DE|]. exact (T _ K3).
Qed.
Lemma major_part {A} n st (k : mst -> option A) x : m (Grp n (Alt (L "3") (L "2"))) st k = Some x -> exists d st', rest st = [d] ++ rest st' /\ (d = "2"%char \/ d = "3"%char)
  /\ pos st' = pos st + 1 /\ grps st' = (n, (pos st, pos st')) :: grps st /\ k st' = Some x.
Proof.
  intros M. change (m (Alt (L "3") (L "2")) st (fun s' => k {| prevc := prevc s'; pos := pos s'; rest := rest s'; grps := (n, (pos st, pos s')) :: grps s' |}) = Some x) in M.
  apply m_sound_pos in M as (u & s1 & R1 & P1 & G1 & LU & M); [|reflexivity]. apply digit_of_alt in LU.
  assert (exists d, u = [d] /\ (d = "2"%char \/ d = "3"%char)) as (d & -> & HD) by (destruct LU as [-> | ->]; eexists; split; try reflexivity; auto).
  exists d, {| prevc := prevc s1; pos := pos s1; rest := rest s1; grps := (n, (pos st, pos s1)) :: grps s1 |}. cbn [rest pos grps].
  split; [exact R1|]. split; [exact HD|]. split; [exact P1|]. split; [rewrite G1; reflexivity|exact M].
Qed.
Lemma digits_lang minor : minor <> [] -> Forall (fun c => is_digit c = true) minor -> lang DIG1 minor.
Proof.
  intros N F. destruct minor as [|c u]; [contradiction|]. inversion F; subst. exists [c], u. split; [reflexivity|]. split; [exists c; auto|assumption].
Qed.
Lemma major_lang d : d = "2"%char \/ d = "3"%char -> lang (Alt (L "3") (L "2")) [d].
Proof. intros [-> | ->]; [right|left]; apply lang_L; reflexivity. Qed.

(** * Plain versions *)
Lemma is_lang u : written plain_version u -> lang SEL_PY_EQ u.
Proof.
  intros (t & K & OK & ->). destruct t as [| major minor| |]; try contradiction. destruct OK as (HD & N & F). unfold SEL_PY_EQ. cbn [seqs lang token_v0].
  exists $"py", (major :: minor). split; [reflexivity|]. split; [apply lang_L; reflexivity|]. exists [major], minor. split; [reflexivity|].
  split; [apply major_lang; exact HD|apply digits_lang; assumption].
Qed.
Lemma is_upgraded s : version_text plain_version s (upgrade_py_eq s).
Proof.
  apply sub_all_of; [reflexivity|exact is_lang|]. intros done t prev x HS M. unfold match_at, SEL_PY_EQ in M. cbn [seqs] in M.
  set (F := fun st => Some {| m_start := length done; m_end := pos st; m_grps := grps st |}) in M.
  change (m (L "py") (start_st prev (length done) t) (fun st => m (Grp 1 (Alt (L "3") (L "2"))) st (fun st => m (Grp 2 DIG1) st F)) = Some x) in M.
  apply m_sound_pos in M as (p & a1 & R1 & P1 & G1 & L1 & M); [|reflexivity]. apply lang_L in L1 as ->.
  apply major_part in M as (d & a2 & R2 & HD & P2 & G2 & M). apply digits_end in M as (minor & a3 & R3 & N & FD & P3 & G3 & M & ME).
  injection M as <-. cbn [start_st rest pos grps] in *. change (length (lit "py")) with 2 in *.
  assert (token_ok (PyIs d minor)) as OK by (split; [exact HD|split; assumption]).
  assert (t = ($"py" ++ d :: minor) ++ rest a3) as E0 by (rewrite R1, R2, R3, <- !app_assoc; reflexivity).
  exists ($"py" ++ d :: minor), (rest a3). split; [exact E0|]. split; [discriminate|]. cbn [m_start m_end]. split; [reflexivity|].
  split; [rewrite app_length; change (length (lit "py")) with 2; cbn [length]; lia|]. split; [exists (PyIs d minor); cbn [plain_version token_v0]; auto|].
  exists (PyIs d minor). split; [exact I|]. split; [exact OK|]. split; [reflexivity|]. split; [|cbn [ends_version]; apply ME; discriminate].
  unfold grp, group. cbn [m_grps]. rewrite G3, G2, G1. cbn [find fst snd Nat.eqb]. rewrite E0 in HS.
  rewrite (slice_pos s (done ++ $"py") [d] (minor ++ rest a3) (pos a1) (pos a2));
    [|rewrite HS, <- !app_assoc; reflexivity|rewrite app_length; change (length (lit "py")) with 2; lia|cbn [length]; lia].
  rewrite (slice_pos s (done ++ $"py" ++ [d]) minor (rest a3) (pos a2) (pos a3));
    [|rewrite HS, <- !app_assoc; reflexivity|rewrite !app_length; change (length (lit "py")) with 2; cbn [length]; lia|lia].
  reflexivity.
Qed.

(** * Comparisons *)
Definition OPS : re := Alt (L "<") (Alt (L ">") (Alt (L "<=") (Alt (L ">=") (Alt (L "==") (L "!="))))).
Lemma op_lang op : lang OPS op <-> In op [$"<"; $">"; $"<="; $">="; $"=="; $"!="].
Proof.
  unfold OPS. cbn [lang In]. unfold L. rewrite !lang_L. split; intros H; decompose [or] H; auto 10; try contradiction.
Qed.
Lemma compare_lang u : written comparison u -> lang SEL_PY_VERSION u.
Proof.
  intros (t & K & OK & ->). destruct t as [g1 op g2 major minor| | |]; try contradiction. destruct OK as (G1 & G2 & HO & HD & N & F). unfold SEL_PY_VERSION. cbn [seqs token_v0].
  exists $"py", (g1 ++ op ++ g2 ++ major :: minor). split; [reflexivity|]. split; [apply lang_L; reflexivity|].
  exists g1, (op ++ g2 ++ major :: minor). split; [reflexivity|]. split; [exact G1|]. exists op, (g2 ++ major :: minor). split; [reflexivity|]. split; [apply op_lang; exact HO|].
  exists g2, (major :: minor). split; [reflexivity|]. split; [exact G2|]. exists [major], minor. split; [reflexivity|].
  split; [apply major_lang; exact HD|apply digits_lang; assumption].
Qed.
Lemma compare_upgraded s : version_text comparison s (upgrade_py_version s).
Proof.
  apply sub_all_of; [reflexivity|exact compare_lang|]. intros done t prev x HS M. unfold match_at, SEL_PY_VERSION in M. cbn [seqs] in M.
  set (F := fun st => Some {| m_start := length done; m_end := pos st; m_grps := grps st |}) in M.
  change (m (L "py") (start_st prev (length done) t) (fun st => m WS st (fun st => m OPS st (fun st' => (fun st => m WS st (fun st =>
    m (Grp 2 (Alt (L "3") (L "2"))) st (fun st => m (Grp 3 DIG1) st F))) {| prevc := prevc st'; pos := pos st'; rest := rest st'; grps := (1, (pos st, pos st')) :: grps st' |}))) = Some x) in M.
  apply m_sound_pos in M as (p & a1 & R1 & P1 & G1 & L1 & M); [|reflexivity]. apply lang_L in L1 as ->.
  apply m_sound_pos in M as (g1 & a2 & R2 & P2 & G2 & L2 & M); [|reflexivity]. cbn [lang WS] in L2.
  apply m_sound_pos in M as (op & a3 & R3 & P3 & G3 & L3 & M); [|reflexivity]. apply op_lang in L3. cbv beta in M.
  match type of M with m _ ?a _ = _ => set (b3 := a) in M end.
  assert (rest b3 = rest a3) as Rb3 by reflexivity. assert (pos b3 = pos a3) as Pb3 by reflexivity.
  assert (grps b3 = (1, (pos a2, pos a3)) :: grps a3) as Gb3 by reflexivity. clearbody b3.
  apply m_sound_pos in M as (g2 & a4 & R4 & P4 & G4 & L4 & M); [|reflexivity]. cbn [lang WS] in L4.
  apply major_part in M as (d & a5 & R5 & HD & P5 & G5 & M). apply digits_end in M as (minor & a6 & R6 & N & FD & P6 & G6 & M & ME).
  injection M as <-. cbn [start_st rest pos grps] in *. change (length (lit "py")) with 2 in *.
  assert (token_ok (PyCompare g1 op g2 d minor)) as OK by (split; [exact L2|split; [exact L4|split; [exact L3|split; [exact HD|split; assumption]]]]).
  assert (t = ($"py" ++ g1 ++ op ++ g2 ++ d :: minor) ++ rest a6) as E0 by (rewrite R1, R2, R3, <- Rb3, R4, R5, R6, <- !app_assoc; reflexivity).
  exists ($"py" ++ g1 ++ op ++ g2 ++ d :: minor), (rest a6). split; [exact E0|]. split; [discriminate|]. cbn [m_start m_end]. split; [reflexivity|].
  split; [rewrite !app_length; change (length (lit "py")) with 2; cbn [length]; lia|].
  split; [exists (PyCompare g1 op g2 d minor); cbn [comparison token_v0]; auto|].
  exists (PyCompare g1 op g2 d minor). split; [exact I|]. split; [exact OK|]. split; [reflexivity|]. split; [|cbn [ends_version]; apply ME; discriminate].
  unfold grp, group. cbn [m_grps]. rewrite G6, G5, G4, Gb3. cbn [find fst snd Nat.eqb]. rewrite E0 in HS.
  rewrite (slice_pos s (done ++ $"py" ++ g1) op (g2 ++ d :: minor ++ rest a6) (pos a2) (pos a3));
    [|rewrite HS, <- !app_assoc; reflexivity|rewrite !app_length; change (length (lit "py")) with 2; lia|lia].
  rewrite (slice_pos s (done ++ $"py" ++ g1 ++ op ++ g2) [d] (minor ++ rest a6) (pos a4) (pos a5));
    [|rewrite HS, <- !app_assoc; reflexivity|rewrite !app_length; change (length (lit "py")) with 2; lia|cbn [length]; lia].
  rewrite (slice_pos s (done ++ $"py" ++ g1 ++ op ++ g2 ++ [d]) minor (rest a6) (pos a5) (pos a6));
    [|rewrite HS, <- !app_assoc; reflexivity|rewrite !app_length; change (length (lit "py")) with 2; cbn [length]; lia|lia].
  unfold token_v1, python_match. rewrite <- ?app_assoc. reflexivity.
Qed.

(** * After that, no plain version is left, so none is left behind [not] *)
Lemma kept_head s s' : version_text plain_version s s' -> forall c r, s' = c :: r -> c <> "m"%char -> exists s1, s = c :: s1 /\ version_text plain_version s1 r.
Proof.
  intros H. destruct H as [|d s s' N H|u w s s' FU RU H]; intros c r E NC; [discriminate| |].
  - injection E as <- <-. exists s. auto.
  - exfalso. destruct RU as (t & K & OK & -> & -> & _). destruct t; try contradiction. unfold token_v1, python_match in E. injection E as <- _. apply NC. reflexivity.
Qed.
Definition two_digits (u : str) : Prop := exists d e, u = $"py" ++ [d; e] /\ (d = "2"%char \/ d = "3"%char) /\ is_digit e = true.
Lemma none_left s s' : version_text plain_version s s' -> forall u, two_digits u -> ~ has_text u s'.
Proof.
  intros H. induction H as [|c s s' N H IH|v w s s' FU RU H IH]; intros u U (a & b & E).
  - destruct U as (d & e & -> & _). destruct a; discriminate.
  - destruct a as [|x a].
    + cbn [app] in E. destruct U as (d & e & -> & HD & HE). change (lit "py") with ["p"; "y"]%char in E. cbn [app] in E. injection E as EC E. subst c.
      destruct (kept_head _ _ H _ _ E ltac:(discriminate)) as (s1 & -> & H1).
      destruct (kept_head _ _ H1 _ _ eq_refl) as (s2 & -> & H2); [destruct HD as [-> | ->]; discriminate|].
      destruct (kept_head _ _ H2 _ _ eq_refl) as (s3 & -> & H3); [intros ->; discriminate|].
      apply (N ($"py" ++ [d; e]) s3); [reflexivity|]. exists (PyIs d [e]). split; [exact I|]. split; [|reflexivity].
      split; [exact HD|]. split; [discriminate|]. constructor; [exact HE|constructor].
    + cbn [app] in E. injection E as -> E. apply (IH u U). exists a, b. exact E.
  - destruct RU as (t & K & OK & -> & -> & _). destruct t as [| major minor| |]; try contradiction.
    destruct OK as (HD & NM & FM). unfold token_v1, python_match in E.
    assert (forall c, In c u -> c = "p"%char \/ c = "y"%char \/ is_digit c = true) as UC.
    { destruct U as (d & e & -> & HD' & HE). intros c I. change (lit "py") with ["p"; "y"]%char in I. destruct I as [<-|[<-|[<-|[<-|[]]]]]; auto. right; right. destruct HD' as [-> | ->]; reflexivity. }
    assert (~ In """"%char u) as NQ by (intros I; apply UC in I as [I|[I|I]]; discriminate).
    assert (~ In ")"%char u) as NP by (intros I; apply UC in I as [I|[I|I]]; discriminate).
    assert (has_text u ($"match(python, " ++ """"%char :: ($"==" ++ major :: "."%char :: minor) ++ """"%char :: [] ++ ")"%char :: s')) as HT.
    { exists a, b. rewrite <- E. rewrite <- !app_assoc. reflexivity. }
    apply (has_sep u _ _ _ NQ) in HT as [HT|HT]; [|apply (has_sep u _ _ _ NQ) in HT as [HT|HT]; [|apply (has_sep u _ _ _ NP) in HT as [HT|HT]]].
    + destruct U as (d & e & -> & HD' & HE). destruct HT as (x & y & HT).
      assert (has_text ($"py" ++ [d]) $"match(python, ") as HT2 by (exists x, ([e] ++ y); rewrite HT, <- !app_assoc; reflexivity).
      destruct HD' as [-> | ->]; revert HT2; apply has_text_dec; vm_compute; reflexivity.
    + destruct U as (d & e & -> & HD' & HE). destruct HT as (x & y & HT).
      assert (In "p"%char ($"==" ++ major :: "."%char :: minor)) as I by (rewrite HT; apply in_or_app; right; left; reflexivity).
      apply in_app_or in I as [I|[I|[I|I]]]; [vm_compute in I; intuition discriminate|destruct HD as [-> | ->]; discriminate|discriminate|].
      rewrite Forall_forall in FM. apply FM in I. discriminate.
    + destruct U as (d & e & -> & _). destruct HT as (x & y & HT). destruct x; discriminate.
    + exact (IH u U HT).
Qed.
Lemma not_idle s : upgrade_py_ne (upgrade_py_eq s) = upgrade_py_eq s.
Proof.
  pose proof (none_left _ _ (is_upgraded s)) as H. set (t := upgrade_py_eq s) in *. clearbody t. unfold upgrade_py_ne, re_sub_f.
  assert (forall n u prev p, length u <= n -> (forall v, two_digits v -> ~ has_text v u) -> forall f, sub_aux SEL_PY_NE t f prev p 0 u = u) as K.
  { induction n as [|n IH]; intros u prev p Hl HN f; destruct u as [|c u]; try reflexivity; [cbn [length] in Hl; lia|]. cbn [sub_aux].
    destruct (match_at SEL_PY_NE prev p (c :: u)) as [x|] eqn:M.
    - exfalso. apply match_lang in M as (v & w & E & HL). unfold SEL_PY_NE in HL. cbn [seqs] in HL. destruct HL as (a & b & -> & HA & d & e & -> & HD & HE).
      apply lang_L in HA as ->. apply digit_of_alt in HD. destruct HE as (e1 & e2 & -> & (e0 & -> & E0) & _).
      apply (HN ($"py" ++ d ++ [e0])).
      + destruct HD as [-> | ->]; [exists "3"%char, e0|exists "2"%char, e0]; split; try reflexivity; auto.
      + exists $"not ", (e2 ++ w). rewrite E, <- !app_assoc. reflexivity.
    - f_equal. apply IH; [cbn [length] in Hl; lia|]. intros v V (a & b & E). apply (HN v V). exists (c :: a), b. rewrite E. reflexivity. }
  apply (K (length t)); [reflexivity|exact H].
Qed.
Lemma c65_all s : expression_upgraded s (upgrade_expression s).
Proof.
  unfold upgrade_expression. rewrite not_idle. econstructor; [apply compare_upgraded|]. econstructor; [apply is_upgraded|].
  assert (forall name (t0 : py_token) (kind : py_token -> Prop) u, (forall t, kind t <-> t = t0) -> token_ok t0 -> token_v0 t0 = $name -> $name <> [] -> (forall f, ends_version t0 f) ->
     version_text kind u (re_sub (L name) (token_v1 t0) u)) as K.
  { intros name t0 kind u HK OK EN NE EV. apply sub_all_of; [apply no_look_L| |].
    - intros v (t & KT & _ & ->). apply HK in KT as ->. rewrite EN. apply lang_L. reflexivity.
    - intros done t prev x HS M. unfold match_at in M. apply m_sound_len in M as (v & st & R & P & LU & M). apply lang_L in LU as ->. injection M as <-. cbn [start_st rest pos m_start m_end] in *.
      exists ($name), (rest st). split; [exact R|]. split; [exact NE|]. split; [reflexivity|]. split; [lia|]. split; [exists t0; rewrite EN; repeat split; auto; apply HK; reflexivity|].
      exists t0. rewrite EN. repeat split; auto. apply HK. reflexivity. }
  econstructor; [apply (K "py2k"%string Py2k)|econstructor; [apply (K "py3k"%string Py3k)|constructor]]; try exact I; try reflexivity; try discriminate; intros; exact I.
Qed.
