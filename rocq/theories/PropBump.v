(** Property C137: what bump-recipe does to a file in the canonical layout. *)
From Verif Require Import BumpProofs RenderProofs4 Samples MiniYaml PropCommands PropReport BumpSpec.

(** ** C137 *)
(** The file that is written (or printed) is the page of the same recipe with the new build number, the new version and the new
    checksums in the places of the old ones. *)
Theorem C137_file_to_file : forall E N variants o written xs vars xs' vars',
  (forall v, In v variants <-> In v HASH_TYPE_VARIANTS) -> (forall l, Permutation (n_order N l) l) -> valid_options o ->
  canonical_recipe E xs vars -> canonical_recipe E xs' vars' -> no_mark (join NLs (recipe_page xs vars)) ->
  file_bumped E N o xs vars xs' vars' ->
  bump_recipe E N variants o (ReadOk (join NLs (recipe_page xs vars))) written
  = let text := join NLs (recipe_page xs' vars') in
    if b_dry_run o then (Exit SUCCESS, [Print text]) else (match written with None => Exit SUCCESS | Some e => Raise e end, [Write text]).
Proof. exact c137. Qed.
Print Assumptions C137_file_to_file.
(** A new value at a path is a new value on one line of the page: everything in front of it and all other lines stay. *)
Theorem C137_one_line : forall p v v' xs xs', value_set p v v' xs xs' -> value_line_differs v v' (page xs) (page xs').
Proof. exact page_set. Qed.
Print Assumptions C137_one_line.

Definition bump_items (number : Z) (version sum1 sum2 : str) : list item :=
  [IComment $"# A recipe";
   ISection (PStr $"package") [] [IScalar (PStr $"name") (JStr $"foo") $"# short"; IScalar (PStr $"version") (JStr version) []];
   ISection (PStr $"source") []
     [IMapScalar (PStr $"url") (JStr $"https://x.org/a.tar.gz") [] [IScalar (PStr $"sha256") (JStr sum1) []];
      IComment $"# the second one";
      IMapScalar (PStr $"url") (JStr $"https://x.org/b.tar.gz") $"# mirrored" [IComment $"# its sum"; IScalar (PStr $"sha256") (JStr sum2) []]];
   ISection (PStr $"build") $"# last" [IScalar (PStr $"number") (JInt number) []; IScalar (PStr $"noarch") (JStr $"python") []]].
Ltac canonical_now :=
  split; [split; [split|split]|split; [|split]];
  [repeat match goal with
   | |- Forall (canonical _) [] => constructor
   | |- Forall (canonical _) (_ :: _) => constructor
   | |- Forall (entry_beside _) _ => repeat constructor
   | |- canonical _ (IComment _) => apply (can_comment _ _ JNull); [eexists; vm_compute; reflexivity|apply ends_clean_check; vm_compute; reflexivity|apply block_mark_check; vm_compute; reflexivity|vm_compute; reflexivity]
   | |- canonical _ (IScalar _ _ _) => apply can_scalar; [discriminate|plain_check]
   | |- canonical _ (ISection _ _ _) => apply can_section; [plain_check|split; [discriminate|intros; discriminate]|]
   | |- canonical _ (IMapScalar _ _ _ _) => apply can_map_scalar; [discriminate|plain_check| |]
   end
  |repeat constructor
  |vm_compute; reflexivity
  |repeat (constructor; [apply inert_check; vm_compute; reflexivity|]); constructor
  |intros x I; repeat destruct I as [<-|I]; try (split; [vm_compute; discriminate|intros; discriminate]); contradiction
  |repeat constructor; vm_compute; intuition discriminate
  |repeat constructor; try (vm_compute; reflexivity); try discriminate; try (apply no_text_check; vm_compute; reflexivity);
      intros c I; vm_compute in I; repeat destruct I as [<-|I]; try reflexivity; contradiction].
Example C137_example :
  let text := join NLs (recipe_page (bump_items 3 $"1.2.3" $"abc" $"def") []) in
  map pr (splitlines text) = ["# A recipe"; "package:"; "  name: foo  # short"; "  version: 1.2.3"; ""; "source:"; "  - url: https://x.org/a.tar.gz"; "    sha256: abc";
     "  # the second one"; "  - url: https://x.org/b.tar.gz  # mirrored"; "    # its sum"; "    sha256: def"; ""; "build:  # last"; "  number: 3"; "  noarch: python"]%string
  /\ canonical_recipe mini_env (bump_items 3 $"1.2.3" $"abc" $"def") [] /\ canonical_recipe mini_env (bump_items 0 $"2.0.1" $"ff-one" $"ff-two") []
  /\ no_mark text /\ file_bumped mini_env a_net (opts false false (Some $"2.0.1")) (bump_items 3 $"1.2.3" $"abc" $"def") [] (bump_items 0 $"2.0.1" $"ff-one" $"ff-two") []
  /\ bump a_net false false (Some $"2.0.1") text = (Exit SUCCESS, [Write (join NLs (recipe_page (bump_items 0 $"2.0.1" $"ff-one" $"ff-two") []))])
  /\ map pr (splitlines (join NLs (recipe_page (bump_items 0 $"2.0.1" $"ff-one" $"ff-two") [])))
     = ["# A recipe"; "package:"; "  name: foo  # short"; "  version: 2.0.1"; ""; "source:"; "  - url: https://x.org/a.tar.gz"; "    sha256: ff-one";
     "  # the second one"; "  - url: https://x.org/b.tar.gz  # mirrored"; "    # its sum"; "    sha256: ff-two"; ""; "build:  # last"; "  number: 0"; "  noarch: python"]%string.
Proof.
  cbv zeta. split; [vm_compute; reflexivity|]. split; [unfold bump_items; canonical_now|]. split; [unfold bump_items; canonical_now|].
  split; [apply no_mark_check; vm_compute; reflexivity|]. split; [|split; vm_compute; reflexivity].
  assert (forall k l, forallb (fun x => match entry_key x with Some (PStr k') => negb (str_eqb k' k) | _ => true end) l = true ->
    forallb (fun x => match x with IElem _ _ => false | _ => true end) l = true -> no_entry k l) as NE.
  { intros k l H H' x I. rewrite forallb_forall in H, H'. specialize (H x I). specialize (H' x I). split.
    - intros E. rewrite E, str_eqb_refl in H. discriminate.
    - intros c ->. discriminate. }
  exists (bump_items 0 $"1.2.3" $"abc" $"def"). split.
  { split; [eexists; vm_compute; reflexivity|]. exists 3%Z. cbv zeta. split; [vm_compute; reflexivity|].
    refine (set_in_section $"build" _ _ _ $"# last" _ _ (firstn 3 (bump_items 0 $"1.2.3" $"abc" $"def")) [] eq_refl _ _); [apply NE; vm_compute; reflexivity|].
    exact (set_here $"number" (JInt 3) (JInt 0) [] _ eq_refl (NE _ [] eq_refl eq_refl)). }
  cbn [opts b_target]. exists (bump_items 0 $"2.0.1" $"abc" $"def"), []. split.
  { split; [eexists; vm_compute; reflexivity|]. right. split; [intros w []|]. split; [reflexivity|]. split; [vm_compute; reflexivity|]. exists (JStr $"1.2.3").
    refine (set_in_section $"package" _ _ _ [] _ _ [IComment $"# A recipe"] _ eq_refl _ _); [apply NE; vm_compute; reflexivity|].
    refine (set_here $"version" (JStr $"1.2.3") (JStr $"2.0.1") [_] [] eq_refl _). apply NE; vm_compute; reflexivity. }
  eexists. split; [vm_compute; reflexivity|]. right. split; [intros k name url (_ & [] & _)|]. split; [reflexivity|].
  match goal with |- sums_written _ _ ?l _ _ => change l with [(path_text [$"source"; $"1"], ($"foo_1", $"https://x.org/b.tar.gz")); (path_text [$"source"; $"0"], ($"foo_0", $"https://x.org/a.tar.gz"))] end.
  assert (forall i, isdigit i = true -> component i) as CO by (intros i D; split; [intros ->; discriminate|intros I; unfold isdigit in D; destruct i; [discriminate|]; rewrite forallb_forall in D; specialize (D _ I); discriminate D]).
  assert (component $"source") as CS by (split; [discriminate|vm_compute; intuition discriminate]).
  apply (sums_next _ _ [$"source"; $"1"] _ _ $"ff-two" (JStr $"def") _ _ (bump_items 0 $"2.0.1" $"abc" $"ff-two")).
  { constructor; [exact CS|]. constructor; [apply CO; reflexivity|constructor]. }
  { vm_compute. reflexivity. } { vm_compute. reflexivity. }
  { refine (set_in_section $"source" [$"1"; $"sha256"] _ _ [] _ _ (firstn 2 (bump_items 0 $"2.0.1" $"abc" $"def")) _ eq_refl _ _); [apply NE; vm_compute; reflexivity|].
    refine (set_beside_scalar $"1" $"sha256" [] _ _ (PStr $"url") _ _ _ _ [_; _] [] eq_refl _ eq_refl _ _); [vm_compute; reflexivity|discriminate|].
    refine (set_here $"sha256" (JStr $"def") (JStr $"ff-two") [_] [] eq_refl _). apply NE; vm_compute; reflexivity. }
  apply (sums_next _ _ [$"source"; $"0"] _ _ $"ff-one" (JStr $"abc") _ _ (bump_items 0 $"2.0.1" $"ff-one" $"ff-two")).
  { constructor; [exact CS|]. constructor; [apply CO; reflexivity|constructor]. }
  { vm_compute. reflexivity. } { vm_compute. reflexivity. }
  { refine (set_in_section $"source" [$"0"; $"sha256"] _ _ [] _ _ (firstn 2 (bump_items 0 $"2.0.1" $"abc" $"def")) _ eq_refl _ _); [apply NE; vm_compute; reflexivity|].
    refine (set_beside_scalar $"0" $"sha256" [] _ _ (PStr $"url") _ _ _ _ [] [_; _] eq_refl _ eq_refl _ _); [vm_compute; reflexivity|discriminate|].
    refine (set_here $"sha256" (JStr $"abc") (JStr $"ff-one") [] [] eq_refl _). apply NE; vm_compute; reflexivity. }
  constructor.
Qed.
(** With variables: the version and the checksum of the only source are in variables, whose lines change. *)
Definition variable_items (number : Z) : list item :=
  [ISection (PStr $"package") [] [IScalar (PStr $"name") (JStr $"foo") []; IScalar (PStr $"version") (JStr $"{{ version }}") []];
   ISection (PStr $"source") [] [IScalar (PStr $"url") (JStr $"https://x.org/a.tar.gz") []; IScalar (PStr $"sha256") (JStr $"{{ sha256 }}") []];
   ISection (PStr $"build") [] [IScalar (PStr $"number") (JInt number) []]].
Definition bump_vars (version sum : str) : list (str * json) := [($"name", JStr $"foo"); ($"version", JStr version); ($"sha256", JStr sum)].
Ltac one_variable a b v :=
  plain_conditions; right; exists [a], [], [b], (JDict [(PStr v, JStr (marked [[]]))]);
  repeat match goal with |- _ /\ _ => split end;
  [vm_compute; reflexivity|reflexivity|discriminate
  |constructor; [|constructor]; apply not_in_check; vm_compute; reflexivity
  |apply not_in_check; vm_compute; reflexivity
  |constructor; [|constructor]; exists $" ", v, $" "; (split; [reflexivity|]); (split; [intros c [<-|[]]; reflexivity|]);
        (split; [|intros c [<-|[]]; reflexivity]);
        apply Forall_forall; intros c I; apply expression_chars; repeat destruct I as [<-|I]; [reflexivity..|contradiction]
  |apply no_text_check; vm_compute; reflexivity
  |intros j'; vm_compute; discriminate
  |vm_compute; reflexivity
  |apply rs_dict; [reflexivity|]; eapply rs_cons; [|apply rs_nil];
        apply (rs_text [[]] [] [b] []); [constructor; [|constructor]| |reflexivity|];
        [apply before_marker_check; reflexivity|apply no_text_check; vm_compute; reflexivity|apply needs_quotes_check; vm_compute; reflexivity]].
Lemma variables_canonical n v s : (n = 3%Z /\ v = $"1.2.3" /\ s = $"abc") \/ (n = 4%Z /\ v = $"2.0.1" /\ s = $"ff-one") ->
  canonical_recipe mini_env (variable_items n) (bump_vars v s).
Proof.
  intros [(-> & -> & ->)|(-> & -> & ->)]; (split; [split; [split|split]|split; [|split]]).
  1, 8: unfold variable_items;
    repeat match goal with
    | |- Forall (canonical _) [] => constructor
    | |- Forall (canonical _) (_ :: _) => constructor
    | |- canonical _ (IScalar _ (JStr $"{{ version }}") _) => apply can_scalar; [discriminate|one_variable $"version: " $"{{ version }}" $"version"]
    | |- canonical _ (IScalar _ (JStr $"{{ sha256 }}") _) => apply can_scalar; [discriminate|one_variable $"sha256: " $"{{ sha256 }}" $"sha256"]
    | |- canonical _ (IScalar _ _ _) => apply can_scalar; [discriminate|plain_check]
    | |- canonical _ (ISection _ _ _) => apply can_section; [plain_check|split; [discriminate|intros; discriminate]|]
    end.
  1, 7: repeat constructor.
  1, 6: vm_compute; reflexivity.
  1, 5: repeat (constructor; [apply inert_check; vm_compute; reflexivity|]); constructor.
  1, 4: intros x I; repeat destruct I as [<-|I]; try (split; [vm_compute; discriminate|intros; discriminate]); contradiction.
  1, 3: repeat constructor; vm_compute; intuition discriminate.
  1, 2: repeat constructor; try (vm_compute; reflexivity); try discriminate; try (apply no_text_check; vm_compute; reflexivity);
        intros c I; vm_compute in I; repeat destruct I as [<-|I]; try reflexivity; contradiction.
Qed.
Example C137_variables_example :
  let text := join NLs (recipe_page (variable_items 3) (bump_vars $"1.2.3" $"abc")) in
  map pr (splitlines text) = ["{% set name = ""foo"" %}"; "{% set version = ""1.2.3"" %}"; "{% set sha256 = ""abc"" %}"; ""; "package:"; "  name: foo"; "  version: {{ version }}"; "";
     "source:"; "  url: https://x.org/a.tar.gz"; "  sha256: {{ sha256 }}"; ""; "build:"; "  number: 3"]%string
  /\ canonical_recipe mini_env (variable_items 3) (bump_vars $"1.2.3" $"abc") /\ canonical_recipe mini_env (variable_items 4) (bump_vars $"2.0.1" $"ff-one")
  /\ no_mark text
  /\ file_bumped mini_env a_net (opts true true (Some $"2.0.1")) (variable_items 3) (bump_vars $"1.2.3" $"abc") (variable_items 4) (bump_vars $"2.0.1" $"ff-one")
  /\ bump a_net true true (Some $"2.0.1") text = (Exit SUCCESS, [Print (join NLs (recipe_page (variable_items 4) (bump_vars $"2.0.1" $"ff-one")))]).
Proof.
  cbv zeta. split; [vm_compute; reflexivity|]. split; [apply variables_canonical; auto|]. split; [apply variables_canonical; auto|].
  split; [apply no_mark_check; vm_compute; reflexivity|]. split; [|vm_compute; reflexivity].
  exists (variable_items 4). split.
  { split; [eexists; vm_compute; reflexivity|]. exists 3%Z. cbv zeta. split; [vm_compute; reflexivity|].
    refine (set_in_section $"build" _ _ _ [] _ _ (firstn 2 (variable_items 4)) [] eq_refl _ _).
    - intros x I. repeat destruct I as [<-|I]; try (split; [vm_compute; discriminate|intros; discriminate]). contradiction.
    - refine (set_here $"number" (JInt 3) (JInt 4) [] _ eq_refl _). intros x []. }
  cbn [opts b_target]. exists (variable_items 4), (bump_vars $"2.0.1" $"abc"). split.
  { split; [eexists; vm_compute; reflexivity|]. left. exists (JStr $"1.2.3"). split; [right; left; reflexivity|]. split; [discriminate|]. split; [reflexivity|].
    exists [($"name", JStr $"foo")], (JStr $"1.2.3"), [($"sha256", JStr $"abc")]. split; reflexivity. }
  eexists. split; [vm_compute; reflexivity|]. left. exists $"sha256", $"foo", $"https://x.org/a.tar.gz", $"ff-one". split.
  { split; [left; reflexivity|]. split; [right; right; left; reflexivity|]. split.
    - intros k' I1 I2. repeat destruct I1 as [<-|I1]; try reflexivity; try contradiction; vm_compute in I2; repeat destruct I2 as [I2|I2]; try discriminate; contradiction.
    - split; [reflexivity|]. vm_compute. tauto. }
  split; [vm_compute; reflexivity|]. split; [reflexivity|].
  exists [($"name", JStr $"foo"); ($"version", JStr $"2.0.1")], (JStr $"abc"), []. split; reflexivity.
Qed.
(** A comment on a changed line is lost, here a selector: afterwards the line holds on every platform. *)
Theorem C137_comment_is_lost_refuted : exists text text',
  text = nl ["build:"; "  number: 3  # [linux]"; "  number: 103  # [win]"]%string
  /\ bump a_net true false None text = (Exit SUCCESS, [Write text'])
  /\ map pr (splitlines text') = ["build:"; "  number: 4"; "  number: 103  # [win]"]%string.
Proof. eexists _, _. split; [reflexivity|]. split; vm_compute; reflexivity. Qed.
Print Assumptions C137_comment_is_lost_refuted.
