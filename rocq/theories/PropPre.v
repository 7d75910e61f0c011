(** C118 to C121: what the pre-processing of a recipe does, for every text; also C65, C84, C85, C87 and C107 without conditions on the text. *)
From Verif Require Import PyProofs Commands Convert Samples PySpec.

(** ** C118 *)
(** Exactly the empty parentheses of the two case functions after a bar are taken out. *)
Theorem C118_empty_parentheses : forall s, replaced_in empty_call without_parentheses s (pre_parentheses s).
Proof. exact c118. Qed.
Print Assumptions C118_empty_parentheses.
(** There is no other text like that. *)
Theorem C118_only_one_result : forall s a b, replaced_in empty_call without_parentheses s a -> replaced_in empty_call without_parentheses s b -> a = b.
Proof. exact c118_unique. Qed.
Print Assumptions C118_only_one_result.

Example C118_example :
  pre_parentheses $"{{ name | lower() }}-{{ x|upper() }} {{ y | title() }} lower() | lower( )" = $"{{ name | lower }}-{{ x|upper }} {{ y | title() }} lower() | lower( )".
Proof. vm_compute. reflexivity. Qed.
Example C118_replaced : replaced_in empty_call without_parentheses $"| lower()!" $"| lower!".
Proof.
  apply (text_replaced empty_call without_parentheses $"| lower()" $"| lower" $"!" $"!").
  - exists $" ", $"lower". split; [|reflexivity]. split; [repeat constructor|left; reflexivity].
  - reflexivity.
  - apply character_kept; [|constructor]. intros u v EU (g & name & _ & ->). discriminate EU.
Qed.
(** Any other function keeps them. *)
Theorem C118_other_functions_refuted : exists s, s = $"{{ name | trim() }}" /\ pre_parentheses s = s.
Proof. eexists. split; vm_compute; reflexivity. Qed.
Print Assumptions C118_other_functions_refuted.

(** ** C119 *)
(** First in the assignments, then in the substitutions: the last dot before a call at the end of the expression becomes a bar. *)
Theorem C119_functions_after_a_dot : forall s, exists mid,
  replaced_in (call_after_dot set_start set_end) (dot_to_bar set_start set_end) s mid
  /\ replaced_in (call_after_dot sub_start sub_end) (dot_to_bar sub_start sub_end) mid (pre_dots s).
Proof. exact c119. Qed.
Print Assumptions C119_functions_after_a_dot.

Example C119_example :
  pre_dots (nl ["{% set minor = version.replace('.', '_') %}"; "name: {{ name.lower() }}"; "url: {{ name }}.tar.gz"; "x: a.b()"]%string)
  = nl ["{% set minor = version | replace('.', '_') %}"; "name: {{ name | lower() }}"; "url: {{ name }}.tar.gz"; "x: a.b()"]%string.
Proof. vm_compute. reflexivity. Qed.
Example C119_forms : call_after_dot sub_start sub_end $"{{ name.lower() }}" /\ call_after_dot set_start set_end $"{% set x = y.f(1) %}".
Proof.
  split.
  - exists $"{{ name", $"lower() }}". split; [reflexivity|]. split.
    + exists $" ", $"name". split; [reflexivity|]. split; [repeat constructor|]. intros I. vm_compute in I. intuition discriminate.
    + exists $"lower", [], $" ". split; [reflexivity|]. split; [repeat constructor|]. split; [|repeat constructor]. intros [].
  - exists $"{% set x = y", $"f(1) %}". split; [reflexivity|]. split.
    + exists $" ", $" x ", $" y". split; [reflexivity|]. split; [repeat constructor|]. split; intros I; vm_compute in I; intuition discriminate.
    + exists $"f", $"1", $" ". split; [reflexivity|]. split; [|split; [|repeat constructor]]; intros I; vm_compute in I; intuition discriminate.
Qed.
(** Of several calls on a line, or in a chain, only the last one is converted. *)
Theorem C119_every_call_refuted : exists s t, s = nl ["{{ a.lower() }}-{{ b.lower() }}"; "{% set y = x.lower().strip() %}"]%string
  /\ pre_dots s = t /\ t = nl ["{{ a.lower() }}-{{ b | lower() }}"; "{% set y = x.lower() | strip() %}"]%string.
Proof. do 2 eexists. split; [reflexivity|]. split; [reflexivity|]. vm_compute. reflexivity. Qed.
Print Assumptions C119_every_call_refuted.
(** The dot may be part of a text: the assignment is damaged. *)
Theorem C119_texts_are_kept_refuted : exists s, s = $"{% set url = 'https://example.com/' + last(name) %}"
  /\ pre_dots s = $"{% set url = 'https://example | com/' + last(name) %}".
Proof. eexists. split; [reflexivity|]. vm_compute. reflexivity. Qed.
Print Assumptions C119_texts_are_kept_refuted.

(** ** C120 *)
(** A quoted value with an escaped end of line becomes a block of two lines. *)
Theorem C120_quoted_lines : forall s, replaced_in quoted_lines as_block s (pre_multiline s).
Proof. exact c120. Qed.
Print Assumptions C120_quoted_lines.

Example C120_example :
  pre_multiline (nl ["about:"; "  summary: 'one\n  two'"; "  home: 'x'"]%string)
  = nl ["about:"; "  summary: |"; "    one"; "      two"; "  home: 'x'"]%string.
Proof. vm_compute. reflexivity. Qed.
Example C120_form : quoted_lines (cNL :: $"  a: 'b\nc'").
Proof.
  exists (cNL :: $"  "), $"a", $" ", "'"%char, $"b", $"c", "'"%char. split; [reflexivity|].
  split; [repeat constructor|]. split; [intros I; vm_compute in I; intuition discriminate|]. split; [repeat constructor|]. split; [reflexivity|].
  split; [intros I; vm_compute in I; intuition discriminate|]. split; [intros I; vm_compute in I; intuition discriminate|reflexivity].
Qed.
(** The end of the line before is only there to be used if the key has one: on the first line, the result is not a block. *)
Theorem C120_block_on_the_first_line_refuted : exists s, s = nl ["summary: 'one\ntwo'"; "home: x"]%string
  /\ pre_multiline s = nl ["summary: |  one  two"; "home: x"]%string.
Proof. eexists. split; [reflexivity|]. vm_compute. reflexivity. Qed.
Print Assumptions C120_block_on_the_first_line_refuted.
(** An empty line before the key is put before every line of the block. *)
Theorem C120_two_lines_refuted : exists s, s = nl ["about:"; ""; "  summary: 'one\ntwo'"]%string
  /\ pre_multiline s = nl ["about:"; ""; "  summary: |"; ""; "    one"; ""; "    two"]%string.
Proof. eexists. split; [reflexivity|]. vm_compute. reflexivity. Qed.
Print Assumptions C120_two_lines_refuted.
(** Of several escaped ends of lines, only the last one is one afterwards. *)
Theorem C120_every_line_refuted : exists s, s = nl ["about:"; "  summary: 'one\ntwo\nthree'"]%string
  /\ pre_multiline s = nl ["about:"; "  summary: |"; "    one\ntwo"; "    three"]%string.
Proof. eexists. split; [reflexivity|]. vm_compute. reflexivity. Qed.
Print Assumptions C120_every_line_refuted.

(** ** C65: every expression *)
(** Comparisons, then plain versions, then [py2k] and [py3k]; the substitution for [not py36] never finds anything. *)
Theorem C65_every_expression : forall s, expression_upgraded s (upgrade_expression s).
Proof. exact c65_all. Qed.
Print Assumptions C65_every_expression.
Theorem C65_negated_versions_are_left : forall s, upgrade_py_ne (upgrade_py_eq s) = upgrade_py_eq s.
Proof. exact not_idle. Qed.
Print Assumptions C65_negated_versions_are_left.
Example C65_negated : upgrade_expression $"not py36 and py >=310" = $"not match(python, ""==3.6"") and match(python, "">=3.10"")".
Proof. vm_compute. reflexivity. Qed.
(** The texts are found inside of words, too. *)
Theorem C65_only_words_refuted : exists s, s = $"pypy36" /\ upgrade_expression s = $"pymatch(python, ""==3.6"")".
Proof. eexists. split; [reflexivity|]. vm_compute. reflexivity. Qed.
Print Assumptions C65_only_words_refuted.

(** ** C84, C85, C87, C107: every text *)
(** Every pair of braces, from left to right, gets a dollar sign unless there is one. *)
Theorem C84_every_marker : forall s, markers_changed None s (to_v1_marker s).
Proof. exact c84_all. Qed.
Print Assumptions C84_every_marker.
Theorem C84_only_one_result : forall prev s a, markers_changed prev s a -> forall b, markers_changed prev s b -> a = b.
Proof. exact c84_unique. Qed.
Print Assumptions C84_only_one_result.
Example C84_three_braces : markers_changed None $"{{{ x" $"${{{ x".
Proof.
  apply (marker_changed None $"{ x" $"{ x"); [discriminate|]. apply other_kept; [right; discriminate|]. apply other_kept; [right; discriminate|].
  apply other_kept; [right; discriminate|]. constructor.
Qed.
Theorem C85_every_pin : forall s, exists mid, text_for $"min_pin=" $"lower_bound=" s mid /\ text_for $"max_pin=" $"upper_bound=" mid (pre_pins s).
Proof. exact c85_all. Qed.
Print Assumptions C85_every_pin.
Theorem C85_only_one_result : forall old new s a, old <> [] -> text_for old new s a -> forall b, text_for old new s b -> a = b.
Proof. exact text_for_unique. Qed.
Print Assumptions C85_only_one_result.
(** The lookups are found first; then, for each, the first text like it is replaced, wherever it is. *)
Theorem C87_every_lookup : forall s, lookups_changed s (pre_environ s).
Proof. exact c87_all. Qed.
Print Assumptions C87_every_lookup.
Example C87_lookup : asked $" environ['A'] ~ environ['B']" {| l_quote := "'"; l_key := $"A'] ~ environ['B" |} $" }}".
Proof.
  exists $" ", "'"%char. split; [reflexivity|]. split; [discriminate|]. split; [repeat constructor|]. split; [reflexivity|]. split; [reflexivity|].
  split; [intros I; vm_compute in I; intuition discriminate|]. intros p c r EV _ _.
  assert (In "]"%char $" }}") as I; [rewrite EV; apply in_or_app; right; right; left; reflexivity|]. vm_compute in I. intuition discriminate.
Qed.
Theorem C107_every_text : forall variants s, (forall v, In v variants <-> In v HASH_TYPE_VARIANTS) ->
  (forall v, In v variants <-> In v set_lines)
  /\ in_turn (map (fun line => text_for line []) variants ++ [replaced_in hash_key (fun _ w _ => w = $"sha256:")]) s (pre_process_remove_hash_type variants s).
Proof. exact c107_turns. Qed.
Print Assumptions C107_every_text.

(** ** C121 *)
(** All steps, in this order; the set of the lines of the hash type may be walked through in any order. *)
Theorem C121_pre_processing : forall variants s, (forall v, In v variants <-> In v HASH_TYPE_VARIANTS) ->
  (forall v, In v variants <-> In v set_lines) /\ pre_processed variants s (pre_process_recipe_text variants s).
Proof. exact c121. Qed.
Print Assumptions C121_pre_processing.
Example C121_example :
  pre_process_recipe_text HASH_TYPE_VARIANTS (nl ["{% set hash_type = ""sha256"" %}"; "{% set name = Name.lower() %}"; "source:"; "  {{ hash_type }}: abc"; "about:";
     "  summary: 'one\ntwo'"; "  license_file: {{ environ['X'] }}"; "  x: {{ pin('a', max_pin='x') }}"]%string)
  = nl ["{% set name = Name | lower %}"; "source:"; "  sha256: abc"; "about:"; "  summary: |"; "    one"; "    two"; "  license_file: {{ env.get('X') }}";
     "  x: {{ pin('a', upper_bound='x') }}"]%string.
Proof. vm_compute. reflexivity. Qed.
(** The order matters: a lookup by a method is converted to a filter before the lookups by brackets become methods. *)
Theorem C121_lookup_by_method_refuted : exists s, s = $"{{ environ.get('X') }}" /\ pre_process_recipe_text HASH_TYPE_VARIANTS s = $"{{ environ | get('X') }}".
Proof. eexists. split; [reflexivity|]. vm_compute. reflexivity. Qed.
Print Assumptions C121_lookup_by_method_refuted.
