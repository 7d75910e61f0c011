(** Property theorems: the converter and its text pre-processing (C65, C78-C87). *)
From Verif Require Import Samples RenderSpec PathSpec ConvertProofs5 ConvertProofs7 ConvertProofs10 ConvertSpec.
From Coq Require Import Permutation.

(** ** C65 *)
Theorem C65_python_versions : forall first more, expression_ok first more ->
  upgrade_expression (expression token_v0 first more) = expression token_v1 first more.
Proof. exact c65. Qed.
Print Assumptions C65_python_versions.
Example C65_example :
  let more := [(PyCompare [] $">=" [] "3"%char $"10", $" and not "); (Py2k, $" or (linux and pypy_only and "); (PyIs "3"%char $"6", $")")] in
  expression_ok $"not win and " more
  /\ expression token_v0 $"not win and " more = $"not win and py>=310 and not py2k or (linux and pypy_only and py36)"
  /\ expression token_v1 $"not win and " more
     = $"not win and match(python, "">=3.10"") and not match(python, "">=2,<3"") or (linux and pypy_only and match(python, ""==3.6""))".
Proof.
  assert (forall s, forallb (fun i => match skipn i s with p :: y :: c :: _ => negb (ceq p "p"%char && ceq y "y"%char && telling c) | _ => true end) (seq 0 (length s)) = true -> other_text s) as OT.
  { intros s H before c after E. rewrite forallb_forall in H. specialize (H (length before)). rewrite E in H.
    assert (skipn (length before) (before ++ $"py" ++ c :: after) = $"py" ++ c :: after) as X
      by (clear; induction before as [|x before IH]; [reflexivity|exact IH]).
    rewrite X in H. change ($"py" ++ c :: after) with ("p"%char :: "y"%char :: c :: after) in H. cbv beta iota in H.
    change (ceq "p"%char "p"%char) with true in H. change (ceq "y"%char "y"%char) with true in H. cbn [andb] in H.
    destruct (telling c); [|reflexivity]. assert (negb true = true) as F; [apply H|discriminate F].
    apply in_seq. rewrite !app_length. change (length $"py") with 2. cbn [length]. lia. }
  split; [|split; reflexivity]. split; [apply OT; vm_compute; reflexivity|]. split.
  - constructor; [|constructor; [|constructor; [|constructor]]]; cbn [fst snd]; (split; [|apply OT; vm_compute; reflexivity]); cbn [token_ok]; [|exact I|].
    + split; [constructor|]. split; [constructor|]. split; [right; right; right; left; reflexivity|].
      split; [right; reflexivity|]. split; [discriminate|repeat constructor].
    + split; [right; reflexivity|]. split; [discriminate|repeat constructor].
  - repeat constructor.
Qed.

(** ** C78 *)
Theorem C78_every_step_is_a_patch_and_failures_are_reported : forall T s text s', render_to_v1 T s = (Ok text, s') ->
  exists ps s1 root, steps (t_env T) s ps s1 /\ msgs s' = msgs s1
    /\ sort_subtree_keys (r_root (v1 s1)) $"/" TOP_LEVEL_SORT [] = Ok root /\ r_root (v1 s') = root
    /\ exists l, get_messages ERROR (msgs s') = get_messages ERROR (msgs s) ++ l /\ among (map failure ps) l.
Proof. exact c78_trace. Qed.
Print Assumptions C78_every_step_is_a_patch_and_failures_are_reported.
Theorem C78_messages_are_kept : forall T s o s' c, render_to_v1 T s = (o, s') ->
  exists l, get_messages c (msgs s') = get_messages c (msgs s) ++ l.
Proof. exact c78_grow. Qed.
Print Assumptions C78_messages_are_kept.

(** A recipe, and its conversion. *)
Definition plain_tools : tools :=
  {| t_env := mini_env; t_close := fun _ _ => None; t_licenses := [{| l_id := $"MIT"; l_name := $"MIT License" |}]; t_order := fun l => l |}.
Definition converted (l : list string) : res (list string * list string * list string) :=
  match render_to_v1 plain_tools {| v1 := recipe_of (nl l); msgs := new_table |} with
  | (Ok t, s) => Ok (map pr (splitlines t), map pr (get_messages ERROR (msgs s)), map pr (get_messages WARNING (msgs s)))
  | (Err e, _) => Err e
  end.
Definition old_recipe : list string := [
  "{% set name = ""foo"" %}";
  "{% set version = ""1.2"" %}";
  "{% set short = version[0] %}";
  "";
  "package:";
  "  name: {{ name|lower }}";
  "  version: {{ version }}";
  "";
  "about:";
  "  home: https://example.com  # the home page";
  "  license: MIT";
  "";
  "source:";
  "  - url: https://example.com/{{ name }}.tar.gz";
  "";
  "build:";
  "  number: 0";
  "  skip: true  # [py<38]";
  "  merge_build_host: true";
  "  script:";
  "    - one  # [win]";
  "    - two  # [not win]";
  "";
  "test:";
  "  imports:";
  "    - foo"
]%string.
Example C78_example : converted old_recipe = Ok ([
  "schema_version: 1";
  "";
  "context:";
  "  name: foo";
  "  version: 1.2";
  "  short: ${{version[0]}}";
  "";
  "package:";
  "  name: ${{ name|lower }}";
  "  version: ${{ version }}";
  "";
  "source:";
  "  - url: https://example.com/${{ name }}.tar.gz";
  "";
  "build:";
  "  number: 0";
  "  skip: match(python, ""<3.8"")";
  "  script:";
  "    - if: win";
  "      then: one";
  "    - if: not win";
  "      then: two";
  "  merge_build_and_host_envs: true";
  "";
  "tests:";
  "  - python:";
  "      imports:";
  "        - foo";
  "";
  "about:";
  "  license: MIT";
  "  homepage: https://example.com"
]%string, [], ["Could not relocate comment: # the home page"%string]).
Proof. vm_compute. reflexivity. Qed.
(** Refused patches happen: an empty recipe has no place for the schema version. *)
Example C78_refused : converted [] = Ok ([], [
  "Failed to patch: {'op': 'add', 'path': '/schema_version', 'value': 1}"]%string, []).
Proof. vm_compute. reflexivity. Qed.
(** Asking for the converted recipe a second time may give another text: the call works on the object it keeps. *)
Definition twice (l : list string) : res (list string * list string) :=
  match render_to_v1 plain_tools {| v1 := recipe_of (nl l); msgs := new_table |} with
  | (Ok t, s) => match render_to_v1 plain_tools s with (Ok t', _) => Ok (map pr (splitlines t), map pr (splitlines t')) | (Err e, _) => Err e end
  | (Err e, _) => Err e
  end.
Theorem C78_second_call_agrees_refuted : exists l t t', twice l = Ok (t, t') /\ t <> t'.
Proof.
  exists ["build:"; "  number: 1"; "  noarch_python: true  # [win]"; "  noarch_python: true  # [unix]"]%string.
  exists ["schema_version: 1"; ""; "build:"; "  number: 1"; "  noarch_python: true  # [unix]"]%string.
  exists ["schema_version: 1"; ""; "build:"; "  number: 1"]%string. split; [vm_compute; reflexivity|discriminate].
Qed.
Print Assumptions C78_second_call_agrees_refuted.

(** ** C79 *)
Theorem C79_result : forall T s text s', render_to_v1 T s = (Ok text, s') ->
  r_schema (v1 s') = SV1 /\ text = render (t_env T) (v1 s')
  /\ (forall a x b y c, n_children (r_root (v1 s')) = a ++ x :: b ++ y :: c -> not_after (place_of TOP_LEVEL_SORT x) (place_of TOP_LEVEL_SORT y))
  /\ exists d, get_value (t_env T) (r_root (v1 s')) $"/context" (Some (JDict [])) None = Ok (JDict d)
     /\ forall name, dget name (r_vars (v1 s')) = last_entry name d.
Proof. exact c79. Qed.
Print Assumptions C79_result.
Definition after (l : list string) : res str * cstate := render_to_v1 plain_tools {| v1 := recipe_of (nl l); msgs := new_table |}.
Definition sections (s : cstate) : list nval := map n_value (n_children (r_root (v1 s))).
Example C79_example :
  is_some (match fst (after old_recipe) with Ok t => Some t | Err _ => None end) = true
  /\ sections (snd (after old_recipe)) = map (fun s => VJ (JStr (lit s))) ["schema_version"; "context"; "package"; "source"; "build"; "tests"; "about"]%string
  /\ dget $"name" (r_vars (v1 (snd (after old_recipe)))) = Some (JStr $"foo")
  /\ dget $"short" (r_vars (v1 (snd (after old_recipe)))) = Some (JStr $"${{version[0]}}").
Proof. vm_compute. auto. Qed.

(** ** C80 *)
Theorem C80_variables_become_the_context : forall T s s', NoDup (map fst (r_vars (v1 s))) -> upgrade_jinja_to_context_obj T s = (Ok tt, s') ->
  exists ctx, Forall2 (fun a b => fst a = fst b /\ context_entry (snd a) (snd b)) (filter (fun kv => supported (snd kv)) (r_vars (v1 s))) ctx
  /\ (forall name v, In (name, v) (r_vars (v1 s)) -> supported v = false -> In (unsupported_message name) (get_messages WARNING (msgs s')))
  /\ (ctx <> [] -> exists b, fst (patch (t_env T) (add_context ctx) (v1 s)) = Ok b
                             /\ (b = false -> In (failure (add_context ctx)) (get_messages ERROR (msgs s')))).
Proof. exact c80. Qed.
Print Assumptions C80_variables_become_the_context.
Definition with_list : recipe :=
  with_vars (recipe_of (nl ["package:"; "  name: {{ c }}"]%string))
    [($"a", JStr $"x"); ($"b", JList [JInt 1; JInt 2]); ($"c", JStr $"a|lower"); ($"d", JInt 3)].
Definition upgraded : res unit * cstate := upgrade_jinja_to_context_obj plain_tools {| v1 := with_list; msgs := new_table |}.
Example C80_example :
  fst upgraded = Ok tt
  /\ map pr (splitlines (render mini_env (with_vars (v1 (snd upgraded)) [])))
     = ["package:"; "  name: ${{ c }}"; ""; "context:"; "  a: x"; "  c: ${{a|lower}}"; "  d: 3"; ""; "schema_version: 1"]%string
  /\ get_messages WARNING (msgs (snd upgraded)) = [unsupported_message $"b"].
Proof. vm_compute. auto. Qed.
(** The values are not always kept: a text that looks like a number turns into the number. *)
Theorem C80_values_are_kept_refuted : exists l name s, dget name (r_vars (recipe_of (nl l))) = Some (JStr s)
  /\ dget name (r_vars (v1 (snd (after l)))) <> Some (JStr s)
  /\ is_some (match fst (after l) with Ok t => Some t | Err _ => None end) = true.
Proof. exists old_recipe, $"version", $"1.2". vm_compute. split; [reflexivity|]. split; [discriminate|reflexivity]. Qed.
Print Assumptions C80_values_are_kept_refuted.

(** ** C81 *)
Theorem C81_tests_are_split : forall d, NoDup (map fst d) -> exists tests, split_tests (JDict d) = Ok tests
  /\ Permutation (concat (map entries_of tests)) d
  /\ Forall (fun t => exists e, t = JDict e /\ e <> [] /\ ((exists k v, special k /\ e = [(k, v)]) \/ e = filter ordinary d)) tests.
Proof. exact c81. Qed.
Print Assumptions C81_tests_are_split.
Example C81_example :
  let entry k v := (PStr (lit k), JStr (lit v)) in
  split_tests (JDict [entry "script" "s"; entry "python" "p"; entry "files" "f"; entry "downstream" "d"]%string)
  = Ok [JDict [entry "python" "p"]; JDict [entry "downstream" "d"]; JDict [entry "script" "s"; entry "files" "f"]]%string.
Proof. vm_compute. reflexivity. Qed.

(** ** C82 *)
Theorem C82_script_environment : forall path items kinds s, Forall2 env_reads items kinds -> exists env s',
  env_entries path items ([], []) s = (Ok (env, secrets_of kinds), s')
  /\ (forall n, assoc_prim (PStr n) env = last_entry n (settings_of kinds)) /\ NoDup (map fst env) /\ v1 s' = v1 s
  /\ length (get_messages ERROR (msgs s')) = length (get_messages ERROR (msgs s)) + rejected_in kinds
  /\ (forall c, c <> ERROR -> get_messages c (msgs s') = get_messages c (msgs s)).
Proof. exact c82. Qed.
Print Assumptions C82_script_environment.
Example C82_example :
  Forall2 env_reads [JStr $"A = 1"; JStr $"HOME"; JStr $"B=2=3"; JDict [(PStr $"if", JStr $"win"); (PStr $"then", JStr $"C")]]
    [Setting $"A" $"1"; Secret (JStr $"HOME"); Rejected; Secret (JDict [(PStr $"if", JStr $"win"); (PStr $"then", JStr $"C")])]
  /\ converted ["build:"; "  script_env:"; "    - A=x"; "    - HOME"; "    - B=2=3"; "    - C  # [win]"]%string
     = Ok (["schema_version: 1"; ""; "build:"; "  script:"; "    env:"; "      A: x"; "    secrets:"; "      - HOME"; "      - if: win"; "        then: C"]%string,
           ["Could not parse `B=2=3` found in /build/script_env"]%string, []).
Proof.
  assert (forall c s, existsb (ceq c) s = false -> ~ In c s) as NI.
  { intros c s H I. assert (existsb (ceq c) s = true); [|congruence]. apply existsb_exists. exists c. split; [exact I|]. apply ceq_eq. reflexivity. }
  split; [|vm_compute; reflexivity]. constructor; [|constructor; [|constructor; [|constructor; [|constructor]]]].
  - apply (reads_setting $"A " $" 1"); apply NI; reflexivity.
  - apply (reads_name $"HOME"). apply NI. reflexivity.
  - apply (reads_too_many $"B" $"2" $"3").
  - apply reads_conditional with $"C"; [right; left; reflexivity| |apply NI; reflexivity].
    constructor; [intros [H|[]]; discriminate H|constructor; [intros []|constructor]].
Qed.
(** An entry that is neither a text nor a conditional ends the conversion. *)
Theorem C82_every_entry_is_read_refuted : exists l, converted l = Err EAttr.
Proof. exists ["build:"; "  script_env:"; "    - 7"; "    - 8"]%string. vm_compute. reflexivity. Qed.
Print Assumptions C82_every_entry_is_read_refuted.

(** ** C83 *)
Theorem C83_lost_comments_are_reported : forall T old s s', report_lost_comments T old s = (Ok tt, s') ->
  v1 s' = v1 s
  /\ get_messages WARNING (msgs s') = get_messages WARNING (msgs s)
       ++ map (fun kv => lost_message (snd kv))
            (filter (fun kv => negb (dmem (fst kv) (get_comments_table (t_env T) (r_root (v1 s))))
                               && match lookup (r_root (v1 s)) (fst kv) with Some _ => false | None => true end) old)
  /\ (forall c, c <> WARNING -> get_messages c (msgs s') = get_messages c (msgs s)).
Proof. exact c83. Qed.
Print Assumptions C83_lost_comments_are_reported.
(** A comment beside a selector gets lost without a report when the line becomes a conditional. *)
Theorem C83_no_comment_is_lost_silently_refuted : exists l path comment text,
  In (path, comment) (get_comments_table mini_env (r_root (recipe_of (nl l))))
  /\ fst (after l) = Ok text /\ contains_sub comment text = false
  /\ existsb (contains_sub comment) (get_messages WARNING (msgs (snd (after l)))) = false.
Proof.
  exists ["build:"; "  script:"; "    - one  # [win] note"]%string, $"/build/script/0", $"# note".
  exists (nl ["schema_version: 1"; ""; "build:"; "  script:"; "    - if: win"; "      then: one"]%string). vm_compute. auto.
Qed.
Print Assumptions C83_no_comment_is_lost_silently_refuted.

(** ** C84 *)
Theorem C84_markers : forall first more, pieces_ok first more -> to_v1_marker (marked old_marker first more) = marked new_marker first more.
Proof. exact c84. Qed.
Print Assumptions C84_markers.
Theorem C84_twice : forall first more, pieces_ok first more ->
  to_v1_marker (to_v1_marker (marked old_marker first more)) = to_v1_marker (marked old_marker first more).
Proof. exact c84_twice. Qed.
Print Assumptions C84_twice.
Theorem C84_twice_in_general_refuted : exists s, to_v1_marker (to_v1_marker s) <> to_v1_marker s.
Proof. exists $"{{{ x }}}". vm_compute. discriminate. Qed.
Print Assumptions C84_twice_in_general_refuted.
Example C84_example :
  let more := [(false, $" a }}-{b}-"); (true, $" c }}")] in
  pieces_ok $"x" more /\ marked old_marker $"x" more = $"x{{ a }}-{b}-${{ c }}" /\ marked new_marker $"x" more = $"x${{ a }}-{b}-${{ c }}".
Proof.
  assert (forall c d s, c <> d -> ~ ends_with_char c (s ++ [d])) as NE.
  { intros c d s N (a & H). apply app_inj_tail in H as [_ H]. congruence. }
  split; [|split; reflexivity]. cbn [pieces_ok]. split; [apply has_text_dec; reflexivity|]. split; [apply (NE _ _ []); discriminate|].
  split; [intros _; apply (NE _ _ []); discriminate|]. split; [discriminate|]. split; [discriminate|].
  split; [apply has_text_dec; reflexivity|]. split; [apply (NE _ _ $" a }}-{b}"); discriminate|]. split; [discriminate|]. split; [discriminate|]. split; [discriminate|].
  split; [apply has_text_dec; reflexivity|exact I].
Qed.

(** ** C85 *)
Theorem C85_pins : forall first more, unpinned first -> Forall (fun x => unpinned (snd x)) more ->
  pre_pins (pinned old_pin first more) = pinned new_pin first more.
Proof. exact c85_pins. Qed.
Print Assumptions C85_pins.
Example C85_example :
  pinned old_pin $"pin(" [(MinPin, $"'x', "); (MaxPin, $"'x.x')")] = $"pin(min_pin='x', max_pin='x.x')"
  /\ pinned new_pin $"pin(" [(MinPin, $"'x', "); (MaxPin, $"'x.x')")] = $"pin(lower_bound='x', upper_bound='x.x')"
  /\ unpinned $"'x', min_pin max_pi".
Proof. split; [reflexivity|]. split; [reflexivity|]. split; apply has_text_dec; reflexivity. Qed.

(** ** C86 *)
Theorem C86_other_texts_are_left_alone : forall variants s, Forall (fun v => In v HASH_TYPE_VARIANTS) variants -> calm s ->
  pre_process_recipe_text variants s = s.
Proof. exact c86. Qed.
Print Assumptions C86_other_texts_are_left_alone.
Fixpoint calls (seen : bool) (s : str) : bool :=
  match s with
  | [] => false
  | c :: s' => if ceq c cNL then calls false s' else if ceq c "."%char then calls true s'
               else if ceq c "("%char && seen then true else calls seen s'
  end.
Lemma calls_found s : calls false s = false -> ~ dotted_call s.
Proof.
  intros H (a & b & c & -> & N). revert H. generalize false at 1. induction a as [|x a IH]; intros seen H.
  - cbn [app] in H. change ($"." ++ b ++ $"(" ++ c) with ("."%char :: b ++ "("%char :: c) in H. cbn [calls] in H.
    change (ceq "."%char cNL) with false in H. change (ceq "."%char "."%char) with true in H. cbv iota in H.
    induction b as [|x b IH]; cbn [app calls] in H.
    + change (ceq "("%char cNL) with false in H. discriminate H.
    + destruct (ceq x cNL) eqn:Q; [apply ceq_eq in Q as ->; apply N; left; reflexivity|].
      assert (~ In cNL b) as N' by (intros I; apply N; right; exact I).
      destruct (ceq x "."%char); [exact (IH N' H)|]. destruct (ceq x "("%char && true); [discriminate H|exact (IH N' H)].
  - cbn [app calls] in H. destruct (ceq x cNL); [exact (IH _ H)|]. destruct (ceq x "."%char); [exact (IH _ H)|].
    destruct (ceq x "("%char && seen); [discriminate H|exact (IH _ H)].
Qed.
Example C86_example : calm (nl ["# foo(), 1.0"; "package:"; "  name: {{ name | lower }}"; "  sha256: {{ sha256 }}"; "    - {{ compiler('c') }}"]%string).
Proof.
  assert (forall p s, contains_sub p s = false -> ~ has_text p s) as D by exact has_text_dec.
  split; [apply calls_found; vm_compute; reflexivity|]. repeat (split; [try split; apply D; vm_compute; reflexivity|]).
  intros name I. cbn [In] in I. destruct I as [<-|[<-|[<-|[]]]]; (split; apply D; vm_compute; reflexivity).
Qed.

(** ** C87 *)
Theorem C87_environment_variables : forall first more, uses_ok first more ->
  pre_environ (with_uses old_use first more) = with_uses new_use first more.
Proof. exact c87. Qed.
Print Assumptions C87_environment_variables.
Fixpoint closes (s : str) : bool :=
  match s with
  | [] => false
  | c :: s' => if ceq c cNL then false else (is_quote c && starts_with $"]" s') || closes s'
  end.
Lemma closes_found s : closes s = false -> last_on_line s.
Proof.
  intros H a q b E N. subst s. induction a as [|x a IH]; cbn [app closes] in H.
  - destruct (ceq q cNL) eqn:Q; [apply ceq_eq in Q as ->; reflexivity|]. destruct (is_quote q); [|reflexivity]. discriminate H.
  - destruct (ceq x cNL) eqn:Q; [apply ceq_eq in Q as ->; exfalso; apply N; left; reflexivity|].
    apply orb_false_iff in H as [_ H]. apply IH; [exact H|]. intros I. apply N. right. exact I.
Qed.
Example C87_example :
  let one := {| e_gap := $" "; e_quote := cDQ; e_key := $"HOME" |} in
  let two := {| e_gap := $"  "; e_quote := cSQ; e_key := $"A B" |} in
  let more := [(one, $" }}" ++ [cNL] ++ $"b: {{"); (two, $" }}")] in
  uses_ok $"a: {{" more
  /\ with_uses old_use $"a: {{" more = $"a: {{ environ[""HOME""] }}" ++ [cNL] ++ $"b: {{  environ['A B'] }}"
  /\ with_uses new_use $"a: {{" more = $"a: {{ env.get(""HOME"") }}" ++ [cNL] ++ $"b: {{  env.get('A B') }}".
Proof.
  assert (forall p s, contains_sub p s = false -> ~ has_text p s) as D by exact has_text_dec.
  assert (forall s, (forall c, is_space c = true -> ~ ends_with_char c (s ++ $"{"))) as NS.
  { intros s c S (a & H). apply app_inj_tail in H as [_ <-]. discriminate S. }
  assert (forall c s, existsb (ceq c) s = false -> ~ In c s) as NI.
  { intros c s H I. assert (existsb (ceq c) s = true); [|congruence]. apply existsb_exists. exists c. split; [exact I|]. apply ceq_eq. reflexivity. }
  split; [|split; reflexivity]. cbn [uses_ok]. split; [apply D; vm_compute; reflexivity|]. split; [exact (NS $"a: {")|].
  split; [split; [discriminate|split; [repeat constructor|split; [reflexivity|split; [apply NI; reflexivity|apply D; vm_compute; reflexivity]]]]|].
  split; [apply closes_found; vm_compute; reflexivity|]. split; [apply D; vm_compute; reflexivity|]. split; [exact (NS ($" }}" ++ [cNL] ++ $"b: {"))|].
  split; [split; [discriminate|split; [repeat constructor|split; [reflexivity|split; [apply NI; reflexivity|apply D; vm_compute; reflexivity]]]]|].
  split; [apply closes_found; vm_compute; reflexivity|]. split; [apply D; vm_compute; reflexivity|exact I].
Qed.
(** Two uses on one line are taken for one. *)
Theorem C87_two_on_a_line_refuted : pre_environ $"x: {{ environ['A'] ~ environ['B'] }}" = $"x: {{ env.get('A'] ~ environ['B') }}".
Proof. vm_compute. reflexivity. Qed.
Print Assumptions C87_two_on_a_line_refuted.
(** A use that is not meant may be replaced instead of the one that is. *)
Theorem C87_other_use_is_replaced_refuted : exists s, pre_environ ($"{{ os.environ['A'] }}" ++ [cNL] ++ s) = $"{{ os.env.get('A') }}" ++ [cNL] ++ s
  /\ contains_sub $" environ['A']" s = true.
Proof. exists $"{{ environ['A'] }}". vm_compute. auto. Qed.
Print Assumptions C87_other_use_is_replaced_refuted.
