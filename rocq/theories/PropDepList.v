(** Properties C147 and C149: the dependencies of a file. *)
From Verif Require Import Samples MiniYaml RenderProofs4 DepsProofs PropDeps PropPatch PropEditFile PropBump PropSession PropQuery DepListProofs DepListSpec.

(** ** C147 *)
Theorem C147_dependencies : forall E MS xs vars package ds,
  canonical_recipe E xs vars -> no_slash_key xs -> addressable_document (document xs) = true -> file_dependencies E MS SV0 xs vars package ds ->
  exists r, new_recipe E (join NLs (recipe_page xs vars)) = Ok r /\ get_all_dependencies E MS r = Ok [(package, ds)].
Proof. exact c147. Qed.
Print Assumptions C147_dependencies.
Theorem C147_dependencies_in_new_format : forall E MS xs vars package ds,
  new_file E xs vars -> no_slash_key xs -> addressable_document (document xs) = true -> file_dependencies E MS SV1 xs vars package ds ->
  exists r, new_recipe E (join NLs (page xs)) = Ok r /\ get_all_dependencies E MS r = Ok [(package, ds)].
Proof. exact c147_new. Qed.
Print Assumptions C147_dependencies_in_new_format.
Theorem C147_dependencies_after_session : forall E MS l xs vars xs' vars' package ds,
  canonical_recipe E xs vars -> canonical_recipe E xs' vars' -> no_slash_key xs' -> addressable_document (document xs') = true ->
  acted_in_turn E MS SV0 l xs vars xs' vars' -> file_dependencies E MS SV0 xs' vars' package ds ->
  exists r, new_recipe E (join NLs (recipe_page xs vars)) = Ok r /\ get_all_dependencies E MS (session E MS l r) = Ok [(package, ds)].
Proof. exact c147_session. Qed.
Print Assumptions C147_dependencies_after_session.

Definition listed_items : list item :=
  [ISection (PStr $"package") [] [IScalar (PStr $"name") (JStr $"{{ name }}") []];
   ISection (PStr $"requirements") [] [
     ISection (PStr $"host") [] [IElem (JStr $"python") []];
     IComment $"# at run time";
     ISection (PStr $"run") $"# [unix] all" [IElem (JStr $"python >=3.8") $"# [osx] stable"; IComment $"# one more [win]"; IElem (JStr $"numpy") []];
     ISection (PStr $"others") [] [IElem (JStr $"gcc") []; IElem (JStr $"make") []]]].
Definition listed_vars : vtbl := [($"name", JStr $"foo")].
Definition listed_deps : list dependency :=
  [{| d_by := PStr $"foo"; d_path := $"/requirements/host/0"; d_type := HOST; d_data := DSpec $"python" $"python"; d_sel := None |};
   {| d_by := PStr $"foo"; d_path := $"/requirements/run/0"; d_type := RUN; d_data := DSpec $"python >=3.8" $"python"; d_sel := Some (selector_parser $"[osx]" SV0) |};
   {| d_by := PStr $"foo"; d_path := $"/requirements/run/1"; d_type := RUN; d_data := DSpec $"numpy" $"numpy"; d_sel := None |}].
Ltac spec_of s := let H := fresh in pose proof (parsed_data mini_spec s) as H; vm_compute in H; exact H.
Ltac line_for s := eapply (dl_line _ _ _ _ _ _ _ _ _ _ s); [eexists; split; [reflexivity|]; split; [apply trims_strip; vm_compute; reflexivity|discriminate]|reflexivity|vm_compute; reflexivity|reflexivity|spec_of s|vm_compute; reflexivity|].
Example C147_canonical : canonical_recipe mini_env listed_items listed_vars /\ no_slash_key listed_items /\ addressable_document (document listed_items) = true.
Proof.
  split; [|split; [repeat constructor; vm_compute; discriminate|vm_compute; reflexivity]]. unfold listed_items, listed_vars.
  split; [split; [split|split]|split; [|split]];
  [repeat match goal with
   | |- Forall (canonical _) [] => constructor
   | |- Forall (canonical _) (_ :: _) => constructor
   | |- canonical _ (IComment _) => apply (can_comment _ _ JNull); [eexists; vm_compute; reflexivity|apply ends_clean_check; vm_compute; reflexivity|apply block_mark_check; vm_compute; reflexivity|vm_compute; reflexivity]
   | |- canonical _ (IScalar _ (JStr $"{{ name }}") _) => apply can_scalar; [discriminate|one_variable $"name: " $"{{ name }}" $"name"]
   | |- canonical _ (ISection _ _ _) => apply can_section; [plain_check|split; [discriminate|intros; discriminate]|]
   | |- canonical _ (IElem _ _) => apply can_elem; [reflexivity|plain_check]
   end
  |repeat constructor
  |vm_compute; reflexivity
  |repeat (constructor; [apply inert_check; vm_compute; reflexivity|]); constructor
  |intros x I; repeat destruct I as [<-|I]; try (split; [vm_compute; discriminate|intros; discriminate]); contradiction
  |repeat constructor; vm_compute; intuition discriminate
  |repeat constructor; try (vm_compute; reflexivity); try discriminate; try (apply no_text_check; vm_compute; reflexivity);
      intros c I; vm_compute in I; repeat destruct I as [<-|I]; try reflexivity; contradiction].
Qed.
Example C147_listed : file_dependencies mini_env mini_spec SV0 listed_items listed_vars (PStr $"foo") listed_deps.
Proof.
  split; [|split].
  - absent.
  - exists [], [IScalar (PStr $"name") (JStr $"{{ name }}") []], (JStr $"{{ name }}"), []. split; [left; reflexivity|]. split; [left; reflexivity|].
    apply vr_text. exists (JStr $"{{ name }}"). split; [|apply fi_text; vm_compute; reflexivity].
    right. exists [[]], [], [$"{{ name }}"], (JStr (marked [[]])). repeat match goal with |- _ /\ _ => split end;
    [reflexivity|reflexivity|discriminate|constructor; [intros []|constructor]|intros []| |apply no_text_check; vm_compute; reflexivity|intros j'; vm_compute; discriminate|vm_compute; reflexivity|].
    { constructor; [|constructor]. exists $" ", $"name", $" ". split; [reflexivity|]. split; [intros c [<-|[]]; reflexivity|]. split; [|intros c [<-|[]]; reflexivity].
      apply Forall_forall; intros c I; apply expression_chars; repeat destruct I as [<-|I]; [reflexivity..|contradiction]. }
    apply (rs_text [[]] [] [$"{{ name }}"] []); [constructor; [|constructor]| |reflexivity|];
      [apply before_marker_check; reflexivity|apply no_text_check; vm_compute; reflexivity|apply needs_quotes_check; vm_compute; reflexivity].
  - eexists. eexists.
    exists [(PStr $"host", JList [JStr $"python"]); (PStr $"run", JList [JStr $"python >=3.8"; JStr $"numpy"]); (PStr $"others", JList [JStr $"gcc"; JStr $"make"])].
    split; [right; left; reflexivity|]. split.
    + apply vr_section; [discriminate|].
      exists (JDict [(PStr $"host", JList [JStr $"python"]); (PStr $"run", JList [JStr $"python >=3.8"; JStr $"numpy"]); (PStr $"others", JList [JStr $"gcc"; JStr $"make"])]).
      split; [left; vm_compute; reflexivity|]. apply fi_dict.
      repeat (constructor; [split; [reflexivity|]; cbn [snd]; apply fi_list; repeat (constructor; [apply fi_text; vm_compute; reflexivity|]); constructor|]). constructor.
    + apply (rl_section _ _ _ _ $"host" HOST _ _ [JStr $"python"] (firstn 1 listed_deps)); [apply section_spells; vm_compute; reflexivity|line_for $"python"; apply dl_end|].
      apply rl_comment.
      apply (rl_section _ _ _ _ $"run" RUN _ _ [JStr $"python >=3.8"; JStr $"numpy"] (skipn 1 listed_deps)); [apply section_spells; vm_compute; reflexivity| |].
      * line_for $"python >=3.8". apply dl_comment. line_for $"numpy". apply dl_end.
      * apply rl_other; [reflexivity| |apply rl_end]. intros s H. apply section_spells in H. vm_compute in H. discriminate H.
Qed.
Example C147_example :
  map pr (splitlines (join NLs (recipe_page listed_items listed_vars))) = ["{% set name = ""foo"" %}"; ""; "package:"; "  name: {{ name }}"; "";
    "requirements:"; "  host:"; "    - python"; "  # at run time"; "  run:  # [unix] all"; "    - python >=3.8  # [osx] stable"; "    # one more [win]"; "    - numpy"; "  others:"; "    - gcc"; "    - make"]%string
  /\ get_all_dependencies mini_env mini_spec (recipe_of (join NLs (recipe_page listed_items listed_vars))) = Ok [(PStr $"foo", listed_deps)].
Proof. split; vm_compute; reflexivity. Qed.
(** A section with one text instead of a list: every letter of the text is a dependency. *)
Theorem C147_one_text_refuted : exists xs r ds, canonical_recipe mini_env xs [] /\ no_slash_key xs /\ addressable_document (document xs) = true
  /\ In (ISection (PStr $"requirements") [] [IScalar (PStr $"run") (JStr $"pip") []]) xs
  /\ new_recipe mini_env (join NLs (recipe_page xs [])) = Ok r /\ get_all_dependencies mini_env mini_spec r = Ok [(PStr $"foo", ds)]
  /\ map d_data ds = [DSpec $"p" $"p"; DSpec $"i" $"i"; DSpec $"p" $"p"].
Proof.
  set (xs := [ISection (PStr $"package") [] [IScalar (PStr $"name") (JStr $"foo") []]; ISection (PStr $"requirements") [] [IScalar (PStr $"run") (JStr $"pip") []]]).
  set (dep := fun i w => {| d_by := PStr $"foo"; d_path := $"/requirements/run/" ++ str_of_nat i; d_type := RUN; d_data := DSpec w w; d_sel := None |}).
  exists xs, (recipe_of (join NLs (recipe_page xs []))), [dep 0 $"p"; dep 1 $"i"; dep 2 $"p"].
  split; [unfold xs; asked_canonical|]. split; [repeat constructor; vm_compute; discriminate|]. split; [vm_compute; reflexivity|]. split; [right; left; reflexivity|].
  split; [vm_compute; reflexivity|]. split; [vm_compute; reflexivity|reflexivity].
Qed.
Print Assumptions C147_one_text_refuted.

(** ** C149 *)
Theorem C149_dependencies : forall E MS xs vars m,
  canonical_recipe E xs vars -> no_slash_key xs -> addressable_document (document xs) = true -> packages_of_file E MS SV0 xs vars m ->
  exists r, new_recipe E (join NLs (recipe_page xs vars)) = Ok r /\ get_all_dependencies E MS r = Ok m.
Proof. exact c149. Qed.
Print Assumptions C149_dependencies.
Theorem C149_dependencies_in_new_format : forall E MS xs vars m,
  new_file E xs vars -> no_slash_key xs -> addressable_document (document xs) = true -> packages_of_file E MS SV1 xs vars m ->
  exists r, new_recipe E (join NLs (page xs)) = Ok r /\ get_all_dependencies E MS r = Ok m.
Proof. exact c149_new. Qed.
Print Assumptions C149_dependencies_in_new_format.
Theorem C149_dependencies_after_session : forall E MS l xs vars xs' vars' m,
  canonical_recipe E xs vars -> canonical_recipe E xs' vars' -> no_slash_key xs' -> addressable_document (document xs') = true ->
  acted_in_turn E MS SV0 l xs vars xs' vars' -> packages_of_file E MS SV0 xs' vars' m ->
  exists r, new_recipe E (join NLs (recipe_page xs vars)) = Ok r /\ get_all_dependencies E MS (session E MS l r) = Ok m.
Proof. exact c149_session. Qed.
Print Assumptions C149_dependencies_after_session.

Definition output_items : list item :=
  [ISection (PStr $"package") [] [IScalar (PStr $"name") (JStr $"foo") []];
   ISection (PStr $"requirements") [] [ISection (PStr $"run") [] [IElem (JStr $"python") $"# [osx]"]];
   ISection (PStr $"outputs") [] [
     IMapScalar (PStr $"name") (JStr $"libfoo") $"# [unix]" [ISection (PStr $"requirements") [] [ISection (PStr $"host") [] [IElem (JStr $"zlib") $"# [win]"; IElem (JStr $"numpy") []]]];
     IComment $"# the second one";
     IMapScalar (PStr $"name") (JStr $"doc") [] []]].
Definition dep_at (by_ path : string) (section : dep_section) (text : string) (sel : option string) : dependency :=
  {| d_by := PStr (lit by_); d_path := lit path; d_type := section; d_data := DSpec (lit text) (lit text); d_sel := option_map (fun s => selector_parser (lit s) SV0) sel |}.
Definition output_deps : dep_map :=
  [(PStr $"foo", [dep_at "foo" "/requirements/run/0" RUN "python" (Some "[osx]"%string)]);
   (PStr $"libfoo", [dep_at "libfoo" "/outputs/0/requirements/host/0" HOST "zlib" (Some "[win]"%string); dep_at "libfoo" "/outputs/0/requirements/host/1" HOST "numpy" None;
                     dep_at "libfoo" "/requirements/run/0" RUN "python" (Some "[osx]"%string)]);
   (PStr $"doc", [dep_at "doc" "/requirements/run/0" RUN "python" (Some "[osx]"%string)])].
Example C149_canonical : canonical_recipe mini_env output_items [] /\ no_slash_key output_items /\ addressable_document (document output_items) = true.
Proof. split; [unfold output_items; asked_canonical|]. split; [repeat constructor; vm_compute; discriminate|vm_compute; reflexivity]. Qed.
Example C149_example :
  map pr (splitlines (join NLs (recipe_page output_items []))) = ["package:"; "  name: foo"; ""; "requirements:"; "  run:"; "    - python  # [osx]"; "";
    "outputs:"; "  - name: libfoo  # [unix]"; "    requirements:"; "      host:"; "        - zlib  # [win]"; "        - numpy"; "  # the second one"; "  - name: doc"]%string
  /\ get_all_dependencies mini_env mini_spec (recipe_of (join NLs (recipe_page output_items []))) = Ok output_deps.
Proof. split; vm_compute; reflexivity. Qed.
Ltac read_text := apply vr_text; eexists; split; [left; vm_compute; reflexivity|apply fi_text; vm_compute; reflexivity].
Example C149_listed : packages_of_file mini_env mini_spec SV0 output_items [] output_deps.
Proof.
  exists [], [IMapScalar (PStr $"name") (JStr $"libfoo") $"# [unix]" [ISection (PStr $"requirements") [] [ISection (PStr $"host") [] [IElem (JStr $"zlib") $"# [win]"; IElem (JStr $"numpy") []]]];
     IComment $"# the second one"; IMapScalar (PStr $"name") (JStr $"doc") [] []].
  exists [JDict [(PStr $"name", JStr $"libfoo"); (PStr $"requirements", JDict [(PStr $"host", JList [JStr $"zlib"; JStr $"numpy"])])]; JDict [(PStr $"name", JStr $"doc")]].
  exists (PStr $"foo"), [dep_at "foo" "/requirements/run/0" RUN "python" (Some "[osx]"%string)].
  exists [(PStr $"libfoo", [dep_at "libfoo" "/outputs/0/requirements/host/0" HOST "zlib" (Some "[win]"%string); dep_at "libfoo" "/outputs/0/requirements/host/1" HOST "numpy" None]); (PStr $"doc", [])].
  split; [do 2 apply at_a_later_entry; apply (at_its_key [] _ _ _ (PStr $"outputs")); reflexivity|].
  split; [apply vr_section; [discriminate|left; vm_compute; reflexivity]|]. split; [reflexivity|].
  split; [|split; [|split; [|split; [|vm_compute; reflexivity]]]].
  - exists (JStr $"foo"), []. split; [apply in_its_section, (at_its_key $"/package" _ _ _ (PStr $"name")); reflexivity|read_text].
  - apply (requirements_there _ _ _ _ _ _ _ [] [ISection (PStr $"run") [] [IElem (JStr $"python") $"# [osx]"]] [(PStr $"run", JList [JStr $"python"])]).
    + apply at_a_later_entry, (at_its_key [] _ _ _ (PStr $"requirements")). reflexivity.
    + apply vr_section; [intros x [= <-]; exact I|]. exists (JDict [(PStr $"run", JList [JStr $"python"])]). split; [left; vm_compute; reflexivity|].
      apply fi_dict. constructor; [split; [reflexivity|]; apply fi_list; constructor; [apply fi_text; vm_compute; reflexivity|constructor]|constructor].
    + rewrite <- (app_nil_r [dep_at "foo" _ _ _ _]). apply (rl_section _ _ _ _ $"run" RUN); [apply section_spells; vm_compute; reflexivity|line_for $"python"; apply dl_end|apply rl_end].
  - intros [|[|i]] name own Ho; [injection Ho as <- <-|injection Ho as <- <-|destruct i; discriminate Ho].
    + split.
      * exists (JStr $"libfoo"), $"# [unix]". split; [do 2 apply at_a_later_entry; apply in_its_section, in_its_mapping, (at_its_key $"/outputs/0" _ _ _ (PStr $"name")); reflexivity|read_text].
      * apply (requirements_there _ _ _ _ _ _ _ [] [ISection (PStr $"host") [] [IElem (JStr $"zlib") $"# [win]"; IElem (JStr $"numpy") []]] [(PStr $"host", JList [JStr $"zlib"; JStr $"numpy"])]).
        -- do 2 apply at_a_later_entry. apply in_its_section, in_its_mapping, at_a_later_entry, (at_its_key $"/outputs/0" _ _ _ (PStr $"requirements")). reflexivity.
        -- apply vr_section; [intros x [= <-]; exact I|]. exists (JDict [(PStr $"host", JList [JStr $"zlib"; JStr $"numpy"])]). split; [left; vm_compute; reflexivity|].
           apply fi_dict. constructor; [split; [reflexivity|]; apply fi_list; repeat (constructor; [apply fi_text; vm_compute; reflexivity|]); constructor|constructor].
        -- rewrite <- (app_nil_r [dep_at _ _ _ _ _; _]). apply (rl_section _ _ _ _ $"host" HOST); [apply section_spells; vm_compute; reflexivity|line_for $"zlib"; line_for $"numpy"; apply dl_end|apply rl_end].
    + split.
      * exists (JStr $"doc"), []. split; [do 2 apply at_a_later_entry; apply in_its_section; do 2 apply at_a_later_entry; apply in_its_mapping, (at_its_key $"/outputs/1" _ _ _ (PStr $"name")); reflexivity|read_text].
      * apply (no_requirements_in _ _ _ _ _ _ (IMapScalar (PStr $"name") (JStr $"doc") [] [])); [|discriminate|absent].
        do 2 apply at_a_later_entry. apply in_its_section. do 2 apply at_a_later_entry. apply (at_its_number $"/outputs" 1). exact I.
  - repeat constructor.
Qed.
(** An output with the name of the file: there is no table at all. *)
Theorem C149_same_name_refuted : exists xs r, canonical_recipe mini_env xs [] /\ no_slash_key xs /\ addressable_document (document xs) = true
  /\ In (ISection (PStr $"outputs") [] [IMapScalar (PStr $"name") (JStr $"foo") [] []; IMapScalar (PStr $"name") (JStr $"libfoo") [] []]) xs
  /\ new_recipe mini_env (join NLs (recipe_page xs [])) = Ok r /\ get_all_dependencies mini_env mini_spec r = Err EValue.
Proof.
  set (xs := [ISection (PStr $"package") [] [IScalar (PStr $"name") (JStr $"foo") []];
              ISection (PStr $"outputs") [] [IMapScalar (PStr $"name") (JStr $"foo") [] []; IMapScalar (PStr $"name") (JStr $"libfoo") [] []]]).
  exists xs, (recipe_of (join NLs (recipe_page xs []))).
  split; [unfold xs; asked_canonical|]. split; [repeat constructor; vm_compute; discriminate|]. split; [vm_compute; reflexivity|]. split; [right; left; reflexivity|].
  split; vm_compute; reflexivity.
Qed.
Print Assumptions C149_same_name_refuted.
