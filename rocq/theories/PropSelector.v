(** Properties C31-C36, C66: selector expressions and platform tables. *)
From Verif Require Import SelectorSpec SelectorProofs2 Samples.

Definition selects (text : string) : list platform :=
  filter (get_selected_platforms (selector_parser (lit text) SV0)) all_platforms.

(** ** C31 *)
Theorem C31_selected_platforms : forall text ws f, words_of text ws -> right_grouped ws f -> forall p,
  get_selected_platforms (selector_parser (in_brackets text) SV0) p = f p
  /\ get_selected_platforms (selector_parser text SV1) p = f p.
Proof. exact c31. Qed.
Print Assumptions C31_selected_platforms.
(** Every text has words, and only one sequence of them. *)
Theorem C31_words : forall text, exists ws, words_of text ws /\ forall ws', words_of text ws' -> ws' = ws.
Proof.
  exact (fun text => ex_intro _ (split_ws text) (conj (words_of_split text) (fun ws' H => eq_sym (split_words text ws' H)))).
Qed.
Print Assumptions C31_words.
Theorem C31_unknown_words_select_nothing : forall w,
  (forall p, ~ In (lower w) (map lit (called p))) -> forall p, calls w p = false.
Proof. exact calls_nothing. Qed.
Print Assumptions C31_unknown_words_select_nothing.
Example C31_example : selects "[not win and (x86)]" = [] /\ selects "[ NOT Win  and X86 ]" = [LINUX_32; LINUX_64; OSX_64]
  /\ selects "[osx and py37]" = [].
Proof. repeat split; vm_compute; reflexivity. Qed.
Example C31_example_reading : exists f, right_grouped [$"NOT"; $"Win"; $"and"; $"X86"] f /\ f OSX_64 = true /\ f OSX_ARM_64 = false.
Proof.
  exists (fun p => negb (calls $"Win" p) && calls $"X86" p). split; [|split; vm_compute; reflexivity].
  apply (rg_and [$"NOT"; $"Win"] (fun p => negb (calls $"Win" p)) $"and" [$"X86"] (calls $"X86")); [|reflexivity|].
  - apply operand_not; [reflexivity|]. apply operand_word. repeat split; discriminate.
  - apply rg_one, operand_word. repeat split; discriminate.
Qed.

(** ** C32 *)
Theorem C32_precedence_refuted : exists text ws f p, words_of text ws /\ python_reading ws f
  /\ f p = true /\ get_selected_platforms (selector_parser (in_brackets text) SV0) p = false.
Proof.
  exists $"osx and arm64 or win", [$"osx"; $"and"; $"arm64"; $"or"; $"win"],
    (fun p => (calls $"osx" p && calls $"arm64" p) || calls $"win" p), WIN_64.
  split; [exact (words_of_split $"osx and arm64 or win")|].
  split; [|split; vm_compute; reflexivity].
  apply (py_or [$"osx"; $"and"; $"arm64"] (fun p => calls $"osx" p && calls $"arm64" p) $"or" [$"win"] (calls $"win")).
  - apply (cj_and [$"osx"] _ $"and" [$"arm64"]); [|reflexivity|apply cj_one]; apply operand_word; repeat split; discriminate.
  - reflexivity.
  - apply py_one, cj_one, operand_word. repeat split; discriminate.
Qed.
Print Assumptions C32_precedence_refuted.
(** Missing: selectors in which some [or] stands to the right of an [and]. *)
Theorem C32_precedence_partial : forall text ws f, words_of text ws -> python_reading ws f -> ors_first ws -> forall p,
  get_selected_platforms (selector_parser (in_brackets text) SV0) p = f p.
Proof. exact c32_partial. Qed.
Print Assumptions C32_precedence_partial.
(** What holds for every selector: no platform is selected that Python's reading does not select. *)
Theorem C32_never_selects_more : forall text ws g, words_of text ws -> python_reading ws g -> forall p,
  get_selected_platforms (selector_parser (in_brackets text) SV0) p = true -> g p = true.
Proof. exact c32_never_more. Qed.
Print Assumptions C32_never_selects_more.
Theorem C32_readings_exist : forall ws f, right_grouped ws f -> exists g, python_reading ws g.
Proof. exact both_readings. Qed.
Print Assumptions C32_readings_exist.
Example C32_example : selects "[osx or win and arm64]" = [OSX_64; OSX_ARM_64; WIN_ARM_64]
  /\ selects "[osx and arm64 or win]" = [OSX_ARM_64].
Proof. split; vm_compute; reflexivity. Qed.

(** ** C33 *)
(** Missing: an old selector that contains the other operator. *)
Theorem C33_combined_meaning_partial : forall E path b r q n a mode wa wb f g,
  no_emptied_element (r_root r) -> mode <> SMReplace ->
  addresses (r_root r) path q -> node_at (r_root r) q = Some n ->
  selector_of (n_comment n) = Some (in_brackets a) -> one_line b ->
  words_of a wa -> right_grouped wa f -> words_of b wb -> right_grouped wb g ->
  only_joined_by (join_word mode) wa ->
  exists r' s', add_selector E path (in_brackets b) mode r = (Ok tt, r')
  /\ get_selector_at_path path None r' = Ok s'
  /\ forall p, get_selected_platforms (selector_parser s' SV0) p
               = match mode with SMAnd => f p && g p | _ => f p || g p end.
Proof.
  exact (fun E path b r q n a mode wa wb f g HN HM HA Hn HS Hb Wa Ga Wb Gb HO =>
    match mode return only_joined_by (join_word mode) wa -> mode <> SMReplace -> exists r' s', add_selector E path (in_brackets b) mode r = (Ok tt, r')
      /\ get_selector_at_path path None r' = Ok s'
      /\ forall p, get_selected_platforms (selector_parser s' SV0) p
                   = match mode with SMAnd => f p && g p | _ => f p || g p end with
    | SMAnd => fun HO HM => c33 E path b r q n a SMAnd wa wb f g HN HM HA Hn HS Hb Wa Ga Wb Gb HO
    | SMOr => fun HO HM => c33 E path b r q n a SMOr wa wb f g HN HM HA Hn HS Hb Wa Ga Wb Gb HO
    | SMReplace => fun _ HM => match HM eq_refl with end
    end HO HM).
Qed.
Print Assumptions C33_combined_meaning_partial.
(** Without that condition: only the last operand [x] of the old selector is joined with the new one, whatever stands
    before it, and every selector has such a last operand. *)
Theorem C33_joined_with_the_last_operand : forall E path b r q n a mode wa wb F x g,
  no_emptied_element (r_root r) -> mode <> SMReplace ->
  addresses (r_root r) path q -> node_at (r_root r) q = Some n ->
  selector_of (n_comment n) = Some (in_brackets a) -> one_line b ->
  words_of a wa -> around_last wa F x -> words_of b wb -> right_grouped wb g ->
  exists r' s', add_selector E path (in_brackets b) mode r = (Ok tt, r')
  /\ get_selector_at_path path None r' = Ok s'
  /\ forall p, get_selected_platforms (selector_parser s' SV0) p
               = F (fun p => match mode with SMAnd => x p && g p | _ => x p || g p end) p.
Proof. exact c33_exact. Qed.
Print Assumptions C33_joined_with_the_last_operand.
Theorem C33_last_operand_exists : forall wa f, right_grouped wa f -> exists F x, around_last wa F x /\ forall p, f p = F x p.
Proof. exact around_last_exists. Qed.
Print Assumptions C33_last_operand_exists.
(** [osx or win] combined with [arm64] by and selects osx-64, which is not an arm64 platform. *)
Theorem C33_combined_meaning_refuted : exists r,
  let r' := snd (add_selector mini_env $"/a" $"[arm64]" SMAnd r) in
  get_selector_at_path $"/a" None r = Ok $"[osx or win]"
  /\ fst (add_selector mini_env $"/a" $"[arm64]" SMAnd r) = Ok tt
  /\ exists s', get_selector_at_path $"/a" None r' = Ok s'
  /\ get_selected_platforms (selector_parser s' SV0) OSX_64 = true
  /\ get_selected_platforms (selector_parser $"[arm64]" SV0) OSX_64 = false.
Proof.
  exists (recipe_of (nl ["a: 1  # [osx or win]"]%string)). cbv zeta.
  split; [vm_compute; reflexivity|]. split; [vm_compute; reflexivity|]. exists $"[osx or win and arm64]".
  repeat split; vm_compute; reflexivity.
Qed.
Print Assumptions C33_combined_meaning_refuted.
Example C33_example :
  let r' := snd (add_selector mini_env $"/a" $"[osx or win]" SMAnd (recipe_of (nl ["a: 1  # [arm64]"]%string))) in
  get_selector_at_path $"/a" None r' = Ok $"[arm64 and osx or win]" /\ selects "[arm64 and osx or win]" = [OSX_ARM_64; WIN_ARM_64].
Proof. split; vm_compute; reflexivity. Qed.

(** ** C34 *)
Theorem C34_systems_partition : forall p,
  let l := get_platforms_by_os $"linux" p in let o := get_platforms_by_os $"osx" p in let w := get_platforms_by_os $"win" p in
  (l = true /\ o = false /\ w = false) \/ (l = false /\ o = true /\ w = false) \/ (l = false /\ o = false /\ w = true).
Proof. exact systems_partition. Qed.
Print Assumptions C34_systems_partition.
Theorem C34_unix_is_linux_and_osx : forall p,
  get_platforms_by_os $"unix" p = get_platforms_by_os $"linux" p || get_platforms_by_os $"osx" p.
Proof. exact unix_union. Qed.
Print Assumptions C34_unix_is_linux_and_osx.
Theorem C34_platform_selects_itself : forall p q,
  get_selected_platforms (selector_parser (in_brackets (platform_str p)) SV0) q = true <-> q = p.
Proof. exact platform_itself. Qed.
Print Assumptions C34_platform_selects_itself.
(** The tables agree with what each platform is called; a platform's own name starts with that of its system. *)
Theorem C34_tables : forall s p,
  (get_platforms_by_os s p = true <-> In (lower (strip s)) (map os_str all_os) /\ In (lower (strip s)) (map lit (called p)))
  /\ (get_platforms_by_arch s p = true <-> In (lower (strip s)) (map arch_str all_arch) /\ In (lower (strip s)) (map lit (called p))).
Proof. exact tables. Qed.
Print Assumptions C34_tables.
Theorem C34_enumerations_complete : (forall p, In p all_platforms) /\ (forall o, In o all_os) /\ (forall a, In a all_arch)
  /\ NoDup (map platform_str all_platforms ++ map os_str all_os ++ map arch_str all_arch).
Proof. exact enumerations. Qed.
Print Assumptions C34_enumerations_complete.
(** Some platforms have no architecture of their own: no architecture name selects linux-aarch64. *)
Theorem C34_every_platform_has_an_arch_refuted : exists p, forall s, get_platforms_by_arch s p = false.
Proof. exists LINUX_AARCH_64. exact no_arch. Qed.
Print Assumptions C34_every_platform_has_an_arch_refuted.
Example C34_example : filter (get_platforms_by_arch $" X86_64 ") all_platforms = [LINUX_64; OSX_64; WIN_64]
  /\ filter (get_platforms_by_os $"Win") all_platforms = [WIN_32; WIN_64; WIN_ARM_64]
  /\ filter (get_platforms_by_os $"beos") all_platforms = [].
Proof. repeat split; vm_compute; reflexivity. Qed.

(** ** C35 *)
Theorem C35_applies : forall s q,
  does_selector_apply s q = true <-> q = None \/ exists p, q = Some p /\ get_selected_platforms s p = true.
Proof. exact applies. Qed.
Print Assumptions C35_applies.
(** [not] before an operand turns the answer around for every platform. *)
Theorem C35_negation : forall text text' ws f p, words_of text ws -> operand ws f -> words_of text' ($"not" :: ws) ->
  does_selector_apply (selector_parser (in_brackets text') SV0) (Some p)
  = negb (does_selector_apply (selector_parser (in_brackets text) SV0) (Some p)).
Proof. exact negation. Qed.
Print Assumptions C35_negation.
(** Before a whole expression it only turns its first operand around. *)
Theorem C35_negation_of_expression_refuted : exists p,
  does_selector_apply (selector_parser $"[not osx and win]" SV0) (Some p)
  = does_selector_apply (selector_parser $"[osx and win]" SV0) (Some p).
Proof. exists LINUX_64. vm_compute. reflexivity. Qed.
Print Assumptions C35_negation_of_expression_refuted.
Example C35_example : does_selector_apply (selector_parser $"[unix and not arm64]" SV0) (Some OSX_64) = true
  /\ does_selector_apply (selector_parser $"[unix and not arm64]" SV0) (Some OSX_ARM_64) = false
  /\ does_selector_apply (selector_parser $"[nothing]" SV0) None = true.
Proof. repeat split; vm_compute; reflexivity. Qed.

(** ** C36 *)
Theorem C36_render_and_reparse : forall text sv,
  let s := selector_parser text sv in let s' := selector_parser (selector_render s) sv in
  selector_eqb s s' = true /\ (forall p, get_selected_platforms s' p = get_selected_platforms s p)
  /\ selector_render s' = selector_render s.
Proof. exact c36. Qed.
Print Assumptions C36_render_and_reparse.
Example C36_example : selector_render (selector_parser $"[  not   osx ]" SV0) = $"[not   osx]".
Proof. vm_compute. reflexivity. Qed.

(** ** C66 *)
Theorem C66_equal_selectors_select_the_same : forall a va b vb,
  selector_eqb (selector_parser a va) (selector_parser b vb) = true ->
  va = vb /\ forall p, get_selected_platforms (selector_parser a va) p = get_selected_platforms (selector_parser b vb) p.
Proof. exact c66. Qed.
Print Assumptions C66_equal_selectors_select_the_same.
Theorem C66_equality_is_an_equivalence : forall a b c,
  selector_eqb a a = true /\ selector_eqb a b = selector_eqb b a
  /\ (selector_eqb a b = true -> selector_eqb b c = true -> selector_eqb a c = true).
Proof. exact selector_equivalence. Qed.
Print Assumptions C66_equality_is_an_equivalence.
(** White space and the case of known names do not matter; the order of operands does. *)
Theorem C66_same_words_are_equal : forall a b ws ws', words_of a ws -> words_of b ws' ->
  Forall2 (fun w w' => w = w' \/ (lower w = lower w' /\ (In (lower w) (map logic_str all_logic_ops) \/ exists p, In (lower w) (map lit (called p))))) ws ws' ->
  selector_eqb (selector_parser (in_brackets a) SV0) (selector_parser (in_brackets b) SV0) = true.
Proof. exact same_words. Qed.
Print Assumptions C66_same_words_are_equal.
Example C66_example : selector_eqb (selector_parser $"[Not OSX]" SV0) (selector_parser $"not   osx" SV0) = true
  /\ selector_eqb (selector_parser $"[unix or osx]" SV0) (selector_parser $"[osx or unix]" SV0) = false
  /\ selector_eqb (selector_parser $"[None]" SV0) (selector_parser $"[]" SV0) = true.
Proof. repeat split; vm_compute; reflexivity. Qed.
