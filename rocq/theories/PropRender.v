(** Properties C38-C46: rendering and reading back, quoting, markers, sorting, equality, the object form. *)
From Verif Require Import RenderProofs4 Samples.

(** * A recipe in canonical form, used by the examples *)
Definition shown_items : list item :=
  [IComment $"# A recipe";
   ISection (PStr $"package") []
     [IScalar (PStr $"name") (JStr $"{{ name }}-core") []; IScalar (PStr $"version") (JStr $"1.2.3") $"# [unix]"];
   ISection (PStr $"requirements") $"# see below"
     [IComment $"# first host";
      ISection (PStr $"host") [] [IElem (JStr $"python >=3") []; IElem (JStr $"pip") $"# [linux]"];
      IEmpty (PStr $"run") []];
   ISection (PStr $"about") []
     [IBlock (PStr $"description") MPipe [$"Hello: world"; []; $"# no comment"] $"# text";
      IScalar (PStr $"count") (JInt 3) []];
   ISection (PStr $"outputs") []
     [IMapScalar (PStr $"name") (JStr $"a") $"# one"
        [IComment $"# nested"; ISection (PStr $"files") [] [IElem (JStr $"x") []]];
      IMapSection (PStr $"test") [] [IScalar (PStr $"command") (JStr $"-m it's") []] [IScalar (PStr $"name") (JStr $"b") []]]].
Definition shown_vars : list (str * json) := [($"name", JStr $"foo"); ($"n", JInt 3)].
Definition shown_text : str := join NLs (map lit
  ["{% set name = ""foo"" %}";
   "{% set n = 3 %}";
   "";
   "# A recipe";
   "package:";
   "  name: {{ name }}-core";
   "  version: 1.2.3  # [unix]";
   "";
   "requirements:  # see below";
   "  # first host";
   "  host:";
   "    - python >=3";
   "    - pip  # [linux]";
   "  run:";
   "";
   "about:";
   "  description: |  # text";
   "    Hello: world";
   "";
   "    # no comment";
   "  count: 3";
   "";
   "outputs:";
   "  - name: a  # one";
   "    # nested";
   "    files:";
   "      - x";
   "  - test:";
   "      command: ""-m it's""";
   "    name: b";
   ""]%string).
Lemma shown_page : join NLs (recipe_page shown_items shown_vars) = shown_text.
Proof. vm_compute. reflexivity. Qed.
Lemma shown_canonical : canonical_recipe mini_env shown_items shown_vars.
Proof.
  assert (forall c, starts_with_hash c -> ends_clean c -> ~ block_mark c -> yload mini_env c = YOk JNull -> canonical mini_env (IComment c)) as CC.
  { intros c A B D F. exact (can_comment mini_env c JNull A B D F). }
  split; [split; [split|split]|split; [|split]].
  - unfold shown_items.
    repeat match goal with
    | |- Forall (canonical _) [] => constructor
    | |- Forall (canonical _) (_ :: _) => constructor
    | |- Forall (entry_beside _) _ => repeat constructor
    | |- canonical _ (IComment _) => apply CC; [eexists; vm_compute; reflexivity|apply ends_clean_check; vm_compute; reflexivity|apply block_mark_check; vm_compute; reflexivity|vm_compute; reflexivity]
    | |- canonical _ (IEmpty _ _) => apply can_empty; plain_check
    | |- canonical _ (IScalar _ (JStr $"{{ name }}-core") _) => apply can_scalar; [discriminate|]
    | |- canonical _ (IScalar _ _ _) => apply can_scalar; [discriminate|plain_check]
    | |- canonical _ (IBlock _ _ _ _) => eapply can_block
    | |- canonical _ (ISection _ _ _) => apply can_section; [plain_check|split; [discriminate|intros; discriminate]|]
    | |- canonical _ (IElem _ _) => apply can_elem; [reflexivity|plain_check]
    | |- canonical _ (IMapScalar _ _ _ _) => apply can_map_scalar; [discriminate|plain_check| |]
    | |- canonical _ (IMapSection _ _ _ _) => apply can_map_section; [plain_check|split; [discriminate|intros; discriminate]| | |]
    end.
    + plain_conditions. right. exists [$"name: "], $"-core", [$"{{ name }}"], (JDict [(PStr $"name", JStr (marked [[]] ++ $"-core"))]).
      repeat match goal with |- _ /\ _ => split end.
      * vm_compute. reflexivity.
      * reflexivity.
      * discriminate.
      * constructor; [|constructor]. apply not_in_check. vm_compute. reflexivity.
      * apply not_in_check. vm_compute. reflexivity.
      * constructor; [|constructor]. exists $" ", $"name", $" ". split; [reflexivity|]. split; [intros c [<-|[]]; reflexivity|].
        split; [|intros c [<-|[]]; reflexivity].
        apply Forall_forall. intros c I. apply expression_chars. repeat destruct I as [<-|I]; [reflexivity..|contradiction].
      * apply no_text_check. vm_compute. reflexivity.
      * intros j'. vm_compute. discriminate.
      * vm_compute. reflexivity.
      * apply rs_dict; [reflexivity|]. eapply rs_cons; [|apply rs_nil].
        apply (rs_text [[]] $"-core" [$"{{ name }}"] []); [constructor; [|constructor]| |reflexivity|].
        -- apply before_marker_check. reflexivity.
        -- apply no_text_check. vm_compute. reflexivity.
        -- apply needs_quotes_check. vm_compute. reflexivity.
    + left. reflexivity.
    + split; [eexists _, _; split; [vm_compute; reflexivity|split; [reflexivity|discriminate]]|]. split; [apply comment_mark_check; vm_compute; reflexivity|].
      right. split; [eexists; vm_compute; reflexivity|apply ends_clean_check; vm_compute; reflexivity].
    + apply block_mark_check. vm_compute. reflexivity.
    + apply not_in_check. vm_compute. reflexivity.
    + vm_compute. reflexivity.
    + repeat constructor; vm_compute; reflexivity.
  - repeat constructor.
  - vm_compute. reflexivity.
  - repeat (constructor; [apply inert_check; vm_compute; reflexivity|]). constructor.
  - intros x I. unfold shown_items in I. repeat destruct I as [<-|I]; try (split; [vm_compute; discriminate|intros; discriminate]). contradiction.
  - repeat constructor; vm_compute; intuition discriminate.
  - repeat constructor; try (vm_compute; reflexivity); try discriminate; try (apply no_text_check; vm_compute; reflexivity);
      intros c I; vm_compute in I; repeat destruct I as [<-|I]; try reflexivity; contradiction.
Qed.
Definition shown_recipe : recipe := recipe_of shown_text.
(** Outcome of reading a text and rendering it again. *)
Definition formatted (text : str) : res str := let! r := new_recipe mini_env text in Ok (render mini_env r).

(** ** C38 *)
(** Old format: exactly one definition line for the variable, at its old place or after all the others, and the rest of
    the text is as before. *)
Theorem C38_definition_line : forall E r k v, r_schema r = SV0 -> NoDup (map fst (r_vars r)) ->
  exists before after body,
    render E (set_variable k v r) = join NLs (map statement (before ++ (k, v) :: after) ++ [] :: body)
    /\ render E r = join NLs (map statement (r_vars r) ++ (match r_vars r with [] => [] | _ => [[]] end) ++ body)
    /\ before ++ after = filter (fun kv => if list_eq_dec ascii_dec (fst kv) k then false else true) (r_vars r)
    /\ (forall i w, nth_error (r_vars r) i = Some (k, w) -> length before = i)
    /\ ((forall w, ~ In (k, w) (r_vars r)) -> after = []).
Proof. exact c38. Qed.
Print Assumptions C38_definition_line.
(** For canonical recipes, reading the rendered text gives the variable its new value, and nothing else changes. *)
Theorem C38_new_value_is_read_back : forall E r xs k v,
  r_root r = document xs -> r_schema r = SV0 -> canonical_recipe E xs (r_vars r) -> readable_variable E (k, v) ->
  exists r', new_recipe E (render E (set_variable k v r)) = Ok r' /\ r_root r' = r_root r
    /\ forall x d, get_variable x d r' = if list_eq_dec ascii_dec x k then Ok v else get_variable x d r.
Proof. exact c38_read. Qed.
Print Assumptions C38_new_value_is_read_back.
Example C38_example :
  render mini_env (set_variable $"name" (JStr $"bar") shown_recipe)
    = join NLs (map lit ["{% set name = ""bar"" %}"; "{% set n = 3 %}"]%string ++ skipn 2 (splitlines shown_text) ++ [[]])
  /\ firstn 4 (splitlines (render mini_env (set_variable $"x" (JInt 7) shown_recipe)))
    = map lit ["{% set name = ""foo"" %}"; "{% set n = 3 %}"; "{% set x = 7 %}"; ""]%string.
Proof. split; vm_compute; reflexivity. Qed.
(** New format: the rendered text ignores the variables, so a new value is lost. *)
Theorem C38_new_format_refuted :
  exists r k v, r_schema r = SV1 /\ get_variable k None r <> Ok v
    /\ render mini_env (set_variable k v r) = render mini_env r
    /\ exists r', new_recipe mini_env (render mini_env (set_variable k v r)) = Ok r' /\ get_variable k None r' = get_variable k None r.
Proof.
  exists (recipe_of (nl ["schema_version: 1"; ""; "context:"; "  name: foo"]%string)), $"name", (JStr $"bar").
  repeat split; [vm_compute; discriminate|]. eexists. split; [vm_compute; reflexivity|vm_compute; reflexivity].
Qed.
Print Assumptions C38_new_format_refuted.

(** ** C39 *)
(** Old format: tree, variables and selectors are read back from the rendered text. *)
Theorem C39_recipe_is_read_back : forall E r xs,
  r_root r = document xs -> r_schema r = SV0 -> canonical_recipe E xs (r_vars r) ->
  exists r', new_recipe E (render E r) = Ok r' /\ r_init r' = render E r /\ r_root r' = r_root r /\ r_schema r' = r_schema r
    /\ r_vars r' = r_vars r /\ r_sel r' = collect_selectors E (r_root r) /\ r_mod r' = false.
Proof.
  intros E r xs HR HS C. rewrite (rendered E r xs _ HR HS eq_refl C), (read_back E xs _ C). eexists. split; [reflexivity|].
  cbn [r_init r_root r_schema r_vars r_sel r_mod]. rewrite HR, HS. repeat split.
Qed.
Print Assumptions C39_recipe_is_read_back.
(** Both formats: the tree. *)
Theorem C39_tree_is_read_back : forall E r xs,
  r_root r = document xs -> canonical_document E xs -> (r_schema r = SV0 -> Forall (readable_variable E) (r_vars r)) ->
  parse_tree E (render E r) = Ok (r_root r).
Proof.
  intros E r xs HR C V. destruct (r_schema r) eqn:S.
  - unfold render. rewrite HR, S, text_eq; [apply read_tree; [exact C|exact (V eq_refl)]|apply C|apply C|reflexivity].
  - rewrite (rendered_v1 E r xs HR S C), HR. exact (read_tree E xs [] C (Forall_nil _)).
Qed.
Print Assumptions C39_tree_is_read_back.
(** The layout is the rendered text. *)
Theorem C39_rendered_layout : forall E r xs, r_root r = document xs -> canonical_document E xs ->
  render E r = join NLs (match r_schema r with SV0 => recipe_page xs (r_vars r) | SV1 => page xs end).
Proof.
  intros E r xs HR C. destruct (r_schema r) eqn:S; [unfold render; rewrite HR, S; apply text_eq; [apply C|apply C|reflexivity]|].
  exact (rendered_v1 E r xs HR S C).
Qed.
Print Assumptions C39_rendered_layout.
Example C39_example : canonical_recipe mini_env shown_items shown_vars
  /\ new_recipe mini_env shown_text = Ok shown_recipe /\ r_root shown_recipe = document shown_items
  /\ render mini_env shown_recipe = shown_text /\ r_schema shown_recipe = SV0 /\ r_vars shown_recipe = shown_vars.
Proof. split; [exact shown_canonical|]. repeat split; vm_compute; reflexivity. Qed.

(** ** C40 *)
(** No text that ends with a block of text at the top level can be read ... *)
Theorem C40_final_block_refuted : forall E xs k m ls c, canonical_page E xs -> canonical E (IBlock k m ls c) ->
  parse_lines E (page xs ++ layout 0 (IBlock k m ls c)) = Err EIndex.
Proof. exact c40. Qed.
Print Assumptions C40_final_block_refuted.
(** ... and neither can a section that ends with one, with or without a newline at the end. *)
Theorem C40_final_nested_block_refuted : exists text,
  new_recipe mini_env text = Err EIndex /\ new_recipe mini_env (text ++ NLs) = Err EIndex
  /\ exists r, new_recipe mini_env (text ++ NLs ++ $"x: 1") = Ok r.
Proof.
  exists (join NLs (map lit ["foo:"; "  bar: |"; "    text"]%string)).
  split; [vm_compute; reflexivity|]. split; [vm_compute; reflexivity|]. eexists. vm_compute. reflexivity.
Qed.
Print Assumptions C40_final_nested_block_refuted.

(** ** C41 *)
Theorem C41_canonical_text_is_stable_partial : forall E xs vars, canonical_recipe E xs vars ->
  let text := join NLs (recipe_page xs vars) in exists r, new_recipe E text = Ok r /\ render E r = text.
Proof.
  intros E xs vars C text. unfold text. rewrite (read_back E xs vars C). eexists. split; [reflexivity|].
  apply rendered; [reflexivity|reflexivity|reflexivity|exact C].
Qed.
Print Assumptions C41_canonical_text_is_stable_partial.
(** A section that ends with a block of text gets one more blank line with every pass. *)
Theorem C41_growing_text_refuted : exists text t1 t2 t3,
  formatted text = Ok t1 /\ formatted t1 = Ok t2 /\ formatted t2 = Ok t3
  /\ length t2 = length t1 + 1 /\ length t3 = length t2 + 1.
Proof.
  exists (nl ["a:"; "  b: |"; "    x"; ""; "c: 1"]%string). eexists _, _, _.
  split; [vm_compute; reflexivity|]. split; [vm_compute; reflexivity|]. split; [vm_compute; reflexivity|]. split; vm_compute; reflexivity.
Qed.
Print Assumptions C41_growing_text_refuted.
(** A section whose only line is a key without value is printed as a value. *)
Theorem C41_lone_key_refuted : exists text,
  formatted text = Ok (nl ["foo: bar"]%string) /\ text <> nl ["foo: bar"]%string
  /\ r_root (recipe_of text) <> r_root (recipe_of (nl ["foo: bar"]%string)).
Proof. exists (nl ["foo:"; "  bar:"]%string). split; [vm_compute; reflexivity|]. split; vm_compute; discriminate. Qed.
Print Assumptions C41_lone_key_refuted.
(** Quotes around a number are lost: the version changes with the second pass. *)
Theorem C41_quoted_number_refuted : exists text,
  formatted text = Ok (nl ["version: 1.10"]%string) /\ formatted (nl ["version: 1.10"]%string) = Ok (nl ["version: 1.1"]%string)
  /\ r_root (recipe_of text) <> r_root (recipe_of (nl ["version: 1.10"]%string)).
Proof. exists $"version: ""1.10""". split; [vm_compute; reflexivity|]. split; [vm_compute; reflexivity|]. vm_compute. discriminate. Qed.
Print Assumptions C41_quoted_number_refuted.
(** A text with a Jinja expression and an apostrophe is quoted and unquoted in turn. *)
Theorem C41_oscillating_quotes_refuted : exists t1 t2,
  t1 <> t2 /\ formatted t1 = Ok t2 /\ formatted t2 = Ok t1.
Proof.
  exists (nl ["foo: {{ bar }} isn't"]%string), (nl ["foo: ""{{ bar }} isn't"""]%string).
  split; [vm_compute; discriminate|]. split; vm_compute; reflexivity.
Qed.
Print Assumptions C41_oscillating_quotes_refuted.
Example C41_example : formatted shown_text = Ok shown_text
  /\ formatted (nl ["a:    1   # x"; ""; ""; "b:"; "   - 'x'"]%string) = Ok (nl ["a: 1  # x"; ""; "b:"; "  - x"]%string).
Proof. split; vm_compute; reflexivity. Qed.

(** ** C42 *)
Theorem C42_quoted_form : forall s m,
  stringify_yaml (VJ (JStr s)) m = s
  \/ (needs_quotes s /\ exists body, stringify_yaml (VJ (JStr s)) m = $"""" ++ body ++ $"""" /\ Forall printable body /\ json_chars body s).
Proof. exact c42. Qed.
Print Assumptions C42_quoted_form.
(** The quoted form determines the string. *)
Theorem C42_decoding_is_unique : forall body s s', json_chars body s -> json_chars body s' -> s = s'.
Proof. exact c42_unique. Qed.
Print Assumptions C42_decoding_is_unique.
(** Which strings are quoted. *)
Theorem C42_when_quoted : forall s, ~ exempt s -> needs_quotes s ->
  exists body, stringify_yaml (VJ (JStr s)) MNone = $"""" ++ body ++ $"""" /\ Forall printable body /\ json_chars body s.
Proof. exact c42_when. Qed.
Print Assumptions C42_when_quoted.
Theorem C42_when_verbatim : forall s m, m <> MNone \/ exempt s \/ ~ needs_quotes s -> stringify_yaml (VJ (JStr s)) m = s.
Proof. exact c42_verbatim. Qed.
Print Assumptions C42_when_verbatim.
Example C42_example :
  stringify_yaml (VJ (JStr ($"say ""it's""" ++ [cNL; ascii_of_nat 200]))) MNone = $"""say \""it's\""\n\u00c8"""
  /\ stringify_yaml (VJ (JStr $"say 'it'")) MPipe = $"say 'it'"
  /\ stringify_yaml (VJ (JStr $"'{{ x }}'")) MNone = $"'{{ x }}'"
  /\ stringify_yaml (VJ (JStr $"1.10")) MNone = $"1.10".
Proof. repeat split; vm_compute; reflexivity. Qed.

(** ** C43 *)
(** Every text is a list of pieces, each followed by a marker, and a last piece without marker ... *)
Theorem C43_every_text_has_pieces : forall s, exists ps last, s = marked ps ++ last /\ Forall before_marker ps /\ ~ has_text marker last.
Proof. exact c43_decompose. Qed.
Print Assumptions C43_every_text_has_pieces.
(** ... and the expressions take the places of the first markers. *)
Theorem C43_expressions_in_order : forall ps last xs,
  Forall before_marker ps -> Forall fits xs -> length xs <= length ps ->
  substitute_markers (marked ps ++ last) xs = filled ps xs ++ marked (skipn (length xs) ps) ++ last.
Proof. exact c43. Qed.
Print Assumptions C43_expressions_in_order.
(** Expressions without a marker are left over, for the next text. *)
Theorem C43_surplus_is_kept : forall ps last xs ys,
  Forall before_marker ps -> Forall fits xs -> length xs = length ps -> ~ has_text marker last ->
  substitute_markers_mut (xs ++ ys) (marked ps ++ last) = (filled ps xs ++ last, ys).
Proof. exact c43_rest. Qed.
Print Assumptions C43_surplus_is_kept.
(** What the parser replaces by markers are Jinja expressions, and the replacement can be undone. *)
Theorem C43_replaced_expressions : forall s x, In x (findall JINJA_V0_SUB s) -> jinja_expression x.
Proof. exact c43_source. Qed.
Print Assumptions C43_replaced_expressions.
Theorem C43_replacement_is_undone : forall ps last xs,
  length xs = length ps -> Forall before_marker ps -> Forall (fun p => ~ In "{"%char p) ps -> ~ In "{"%char last ->
  Forall expression xs -> Forall fits xs ->
  substitute_markers (re_sub JINJA_V0_SUB SUB_MARKER (filled ps xs ++ last)) (findall JINJA_V0_SUB (filled ps xs ++ last)) = filled ps xs ++ last.
Proof. exact c43_undone. Qed.
Print Assumptions C43_replacement_is_undone.
Example C43_example :
  let text := $"a {{ x }} b {{ y | lower }}{{ z }} c" in
  findall JINJA_V0_SUB text = [$"{{ x }}"; $"{{ y | lower }}"; $"{{ z }}"]
  /\ substitute_markers (re_sub JINJA_V0_SUB SUB_MARKER text) (findall JINJA_V0_SUB text) = text
  /\ substitute_markers (re_sub JINJA_V0_SUB SUB_MARKER text) [$"1"; $"2"] = $"a 1 b 2" ++ marker ++ $" c".
Proof. repeat split; vm_compute; reflexivity. Qed.

(** ** C44 *)
Theorem C44_sorted_section : forall root s tbl rename root', machine_table tbl -> sort_subtree_keys root s tbl rename = Ok root' ->
  (lookup root s = None /\ root' = root)
  \/ exists q, addresses root s q /\ changed_at (fun n n' => sorted_lines tbl (n_children n) (n_children n')
       /\ n' = Nd (if is_nil rename then n_value n else VJ (JStr rename)) (n_comment n) (n_children n') (n_lmf n) (n_ml n) (n_keyf n)) q root root'.
Proof. exact c44. Qed.
Print Assumptions C44_sorted_section.
Theorem C44_sorting_never_fails : forall root s tbl rename, s <> [] -> exists root', sort_subtree_keys root s tbl rename = Ok root'.
Proof. exact c44_total. Qed.
Print Assumptions C44_sorting_never_fails.
(** There is one way to sort, and sorted lines are not changed by sorting them again. *)
Theorem C44_sorting_is_determined : forall tbl l l' l'', machine_table tbl -> sorted_lines tbl l l' -> sorted_lines tbl l l'' -> l' = l''.
Proof. exact sorted_unique. Qed.
Print Assumptions C44_sorting_is_determined.
Theorem C44_sorting_twice : forall tbl l l' l'', machine_table tbl -> sorted_lines tbl l l' -> sorted_lines tbl l' l'' -> l'' = l'.
Proof. intros tbl l l' l'' M A B. apply (sorted_unique tbl l' l'' l' M B (sorted_again tbl l l' M A)). Qed.
Print Assumptions C44_sorting_twice.
Example C44_tables : Forall machine_table [TOP_LEVEL_SORT; V1_SOURCE_SECTION_SORT; V1_BUILD_SECTION_SORT; V1_TEST_SECTION_SORT; V1_PYTHON_TEST_SORT].
Proof. repeat constructor. Qed.
Example C44_example :
  let text := nl ["zzz: 1"; ""; "about: 2"; ""; "# c"; "build: 3"; ""; "aaa: 4"; ""; "package: 5"]%string in
  match sort_subtree_keys (r_root (recipe_of text)) $"/" TOP_LEVEL_SORT [] with
  | Ok root' => render_lines mini_env root' = map lit ["# c"; "package: 5"; ""; "build: 3"; ""; "about: 2"; ""; "zzz: 1"; ""; "aaa: 4"; ""]%string
  | Err _ => False
  end.
Proof. vm_compute. reflexivity. Qed.

(** ** C45 *)
Theorem C45_equal_iff_same_text : forall E a b,
  recipe_eq E a b = true <-> r_schema a = r_schema b /\ render E a = render E b.
Proof. exact c45. Qed.
Print Assumptions C45_equal_iff_same_text.
Theorem C45_equality_is_an_equivalence : forall E a b c,
  recipe_eq E a a = true /\ recipe_eq E a b = recipe_eq E b a
  /\ (recipe_eq E a b = true -> recipe_eq E b c = true -> recipe_eq E a c = true).
Proof.
  intros E a b c. split; [apply c45; auto|]. split.
  - destruct (recipe_eq E a b) eqn:A, (recipe_eq E b a) eqn:B; auto; exfalso.
    + assert (recipe_eq E b a = true); [|congruence]. apply c45. apply c45 in A as [? ?]. auto.
    + assert (recipe_eq E a b = true); [|congruence]. apply c45. apply c45 in B as [? ?]. auto.
  - rewrite !c45. intros [? ?] [? ?]. split; congruence.
Qed.
Print Assumptions C45_equality_is_an_equivalence.
Theorem C45_equal_recipes_have_equal_hashes : forall hash E a b, recipe_eq E a b = true -> calc_sha256 hash E a = calc_sha256 hash E b.
Proof. intros hash E a b H. apply c45 in H as [_ H]. unfold calc_sha256. rewrite H. reflexivity. Qed.
Print Assumptions C45_equal_recipes_have_equal_hashes.
(** Different hash, different text; and for a hash without collisions also the converse. *)
Theorem C45_hash_decides_equality : forall hash E a b, (forall s t, hash s = hash t -> s = t) -> r_schema a = r_schema b ->
  (calc_sha256 hash E a = calc_sha256 hash E b <-> recipe_eq E a b = true).
Proof. intros hash E a b INJ S. rewrite c45. unfold calc_sha256. split; [auto|]. intros [_ ->]. reflexivity. Qed.
Print Assumptions C45_hash_decides_equality.
(** Equal canonical recipes have the same tree and the same variables. *)
Theorem C45_equal_canonical_recipes : forall E a b xs ys vs ws,
  r_root a = document xs -> r_root b = document ys -> r_vars a = vs -> r_vars b = ws ->
  r_schema a = SV0 -> r_schema b = SV0 -> canonical_recipe E xs vs -> canonical_recipe E ys ws ->
  recipe_eq E a b = true -> r_root a = r_root b /\ r_vars a = r_vars b.
Proof. exact c45_canonical. Qed.
Print Assumptions C45_equal_canonical_recipes.
Example C45_example :
  recipe_eq mini_env (recipe_of $"a:   1") (recipe_of $"a: 1") = true
  /\ recipe_eq mini_env (recipe_of $"a: 1") (recipe_of $"a: 2") = false
  /\ recipe_eq mini_env (recipe_of $"a: ""1""") (recipe_of $"a: 1") = true.
Proof. repeat split; vm_compute; reflexivity. Qed.

(** ** C46 *)
Theorem C46_object_of_regular_documents_partial : forall E p f xs,
  regular_document xs = true -> Forall (shows E p f) (flat_map leaves xs) ->
  render_to_object E p (document xs) = Ok (object f xs).
Proof. exact c46. Qed.
Print Assumptions C46_object_of_regular_documents_partial.
Definition object_of (text : list string) : res json := render_to_object mini_env None (r_root (recipe_of (nl text))).
Example C46_example :
  let f l := match l with LScalar v => v | LBlock _ ls => JStr (join NLs ls) | LName _ => JNull end in
  regular_document (firstn 4 shown_items) = true
  /\ render_to_object mini_env None (document (firstn 4 shown_items)) = Ok (object f (firstn 4 shown_items))
  /\ object_of ["# c"; "a:"; "  b: x  # y"; "  l:"; "    - 1"; "    - z"; "  e:"; "c: 2"]%string
     = Ok (JDict [(PStr $"a", JDict [(PStr $"b", JStr $"x"); (PStr $"l", JList [JInt 1; JStr $"z"]); (PStr $"e", JNull)]); (PStr $"c", JInt 2)]).
Proof. split; [vm_compute; reflexivity|]. split; vm_compute; reflexivity. Qed.
(** A top-level key without value is shown as an empty mapping. *)
Theorem C46_empty_key_refuted : exists text, object_of text = Ok (JDict [(PStr $"a", JDict [])])
  /\ r_root (recipe_of (nl text)) = document [IEmpty (PStr $"a") []].
Proof. exists ["a:"]%string. split; vm_compute; reflexivity. Qed.
Print Assumptions C46_empty_key_refuted.
(** A top-level list of values cannot be shown. *)
Theorem C46_list_of_values_refuted : exists text, object_of text = Err EAttr
  /\ r_root (recipe_of (nl text)) = document [ISection (PStr $"a") [] [IElem (JInt 1) []; IElem (JInt 2) []]].
Proof. exists ["a:"; "  - 1"; "  - 2"]%string. split; vm_compute; reflexivity. Qed.
Print Assumptions C46_list_of_values_refuted.
(** A list of mappings below the top level cannot be shown. *)
Theorem C46_nested_mappings_refuted : exists text e, object_of text = Err e
  /\ r_root (recipe_of (nl text)) = document [ISection (PStr $"a") [] [ISection (PStr $"b") [] [IMapScalar (PStr $"c") (JInt 1) [] []]]].
Proof. exists ["a:"; "  b:"; "    - c: 1"]%string. eexists. split; vm_compute; reflexivity. Qed.
Print Assumptions C46_nested_mappings_refuted.
(** A section that starts with a key without value cannot be shown. *)
Theorem C46_nested_empty_key_refuted : exists text, object_of text = Err EKey.
Proof. exists ["a:"; "  b:"; "    c:"; "    d: 1"]%string. vm_compute. reflexivity. Qed.
Print Assumptions C46_nested_empty_key_refuted.
(** A key without value inside an element of a list disappears. *)
Theorem C46_lost_key_refuted : exists text, object_of text = Ok (JDict [(PStr $"a", JList [JDict [(PStr $"b", JInt 1)]])])
  /\ r_root (recipe_of (nl text)) = document [ISection (PStr $"a") [] [IMapScalar (PStr $"b") (JInt 1) [] [IEmpty (PStr $"c") []]]].
Proof. exists ["a:"; "  - b: 1"; "    c:"]%string. split; vm_compute; reflexivity. Qed.
Print Assumptions C46_lost_key_refuted.
