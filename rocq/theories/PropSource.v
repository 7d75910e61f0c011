(** Property C153: the sources of a file. *)
From Verif Require Import EditProofs RenderProofs4 Samples MiniYaml PropPatch PropBump PropEditFile DepsProofs PropDeps PropSession PropQuery PropDepList ServiceSpec SourceProofs SourceSpec.

(** ** C153 *)
Theorem C153_sources : forall E xs vars root ds m,
  canonical_recipe E xs vars -> no_slash_key xs -> addressable_document (document xs) = true ->
  recipe_called E SV0 xs vars root -> sources_listed E SV0 xs vars root ds m ->
  exists r, new_recipe E (join NLs (recipe_page xs vars)) = Ok r /\ sources_found E xs r ds m.
Proof. exact c153. Qed.
Print Assumptions C153_sources.
Theorem C153_sources_in_new_format : forall E xs vars root ds m,
  new_file E xs vars -> no_slash_key xs -> addressable_document (document xs) = true ->
  recipe_called E SV1 xs vars root -> sources_listed E SV1 xs vars root ds m ->
  exists r, new_recipe E (join NLs (page xs)) = Ok r /\ sources_found E xs r ds m.
Proof. exact c153_new. Qed.
Print Assumptions C153_sources_in_new_format.
Theorem C153_sources_after_session : forall E MS acts xs vars xs' vars' root ds m,
  canonical_recipe E xs vars -> canonical_recipe E xs' vars' -> no_slash_key xs' -> addressable_document (document xs') = true ->
  acted_in_turn E MS SV0 acts xs vars xs' vars' -> recipe_called E SV0 xs' vars' root -> sources_listed E SV0 xs' vars' root ds m ->
  exists r, new_recipe E (join NLs (recipe_page xs vars)) = Ok r /\ sources_found E xs' (session E MS acts r) ds m.
Proof. exact c153_session. Qed.
Print Assumptions C153_sources_after_session.

Definition source_items : list item :=
  [ISection (PStr $"package") [] [IScalar (PStr $"name") (JStr $"foo") []];
   ISection (PStr $"source") [] [
     IMapScalar (PStr $"url") (JStr $"http://x/a.tar.gz") $"# [unix]" [IScalar (PStr $"sha256") (JStr $"abc") []];
     IComment $"# patches";
     IMapScalar (PStr $"path") (JStr $"here") [] [];
     IMapScalar (PStr $"git_url") (JStr $"http://y") [] [IScalar (PStr $"git_tag") (JStr $"v1") []]]].
Definition source_maps : list (list (prim * json)) :=
  [[(PStr $"url", JStr $"http://x/a.tar.gz"); (PStr $"sha256", JStr $"abc")]; [(PStr $"path", JStr $"here")]; [(PStr $"git_url", JStr $"http://y"); (PStr $"git_tag", JStr $"v1")]].
Definition source_table : list (str * source) :=
  [($"/source/0", SHttp $"foo_0" $"http://x/a.tar.gz");
   ($"/source/2", SGit $"foo_2" {| g_url := $"http://y"; g_branch := None; g_tag := Some $"v1"; g_rev := None |})].
Example C153_canonical : canonical_recipe mini_env source_items [] /\ no_slash_key source_items /\ addressable_document (document source_items) = true.
Proof. split; [unfold source_items; asked_canonical|]. split; [repeat constructor; vm_compute; discriminate|vm_compute; reflexivity]. Qed.
Example C153_example :
  map pr (splitlines (join NLs (recipe_page source_items []))) = ["package:"; "  name: foo"; ""; "source:"; "  - url: http://x/a.tar.gz  # [unix]"; "    sha256: abc"; "  # patches"; "  - path: here";
    "  - git_url: http://y"; "    git_tag: v1"]%string
  /\ from_recipe mini_env (recipe_of (join NLs (recipe_page source_items []))) true = Ok source_table.
Proof. split; vm_compute; reflexivity. Qed.
Example C153_called : recipe_called mini_env SV0 source_items [] (PStr $"foo").
Proof.
  left. split; [absent|]. exists (JStr $"foo"), []. split; [apply in_its_section, (at_its_key $"/package" _ _ _ (PStr $"name")); reflexivity|read_text].
Qed.
Ltac no_key := left; split; [reflexivity|left; intros w HW; repeat destruct HW as [HW|HW]; try discriminate HW; contradiction].
Ltac the_key before v := right; exists v; split; [exists before; eexists; split; [reflexivity|intros w HW; repeat destruct HW as [HW|HW]; try discriminate HW; contradiction]|split; [discriminate|reflexivity]].
Example C153_listed : sources_listed mini_env SV0 source_items [] (PStr $"foo") source_maps source_table.
Proof.
  apply (source_list _ _ _ _ _ [] [
     IMapScalar (PStr $"url") (JStr $"http://x/a.tar.gz") $"# [unix]" [IScalar (PStr $"sha256") (JStr $"abc") []];
     IComment $"# patches";
     IMapScalar (PStr $"path") (JStr $"here") [] [];
     IMapScalar (PStr $"git_url") (JStr $"http://y") [] [IScalar (PStr $"git_tag") (JStr $"v1") []]]).
  - apply at_a_later_entry, (at_its_key [] _ _ _ (PStr $"source")). reflexivity.
  - repeat constructor.
  - apply vr_section; [discriminate|]. exists (JList (map JDict source_maps)). split; [left; vm_compute; reflexivity|]. unfold source_maps. cbn [map].
    apply fi_list. repeat (constructor; [apply fi_dict; repeat (constructor; [split; [reflexivity|]; apply fi_text; vm_compute; reflexivity|]); constructor|]). constructor.
  - reflexivity.
  - unfold source_maps, source_table. apply co_yes.
    { apply ds_http. the_key (@nil (prim * json)) (JStr $"http://x/a.tar.gz"). }
    apply co_no; [split; no_key|]. apply co_yes; [|apply co_nil].
    eapply ds_git; [reflexivity|no_key|the_key (@nil (prim * json)) (JStr $"http://y")|no_key|the_key [(PStr $"git_url", JStr $"http://y")] (JStr $"v1")|no_key].
Qed.
