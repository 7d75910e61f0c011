(** Property C123: values that are read. *)
From Verif Require Import ValueProofs Samples ValueSpec.

Theorem C123_value_read : forall E root s q x j d,
  addresses root s q -> node_at root q = Some (tree_of x) -> canonical E x -> proper_tree (tree_of x) = true ->
  not_the_root x -> value_read E x j -> get_value E root s d None = Ok j.
Proof. exact c123. Qed.
Print Assumptions C123_value_read.
Theorem C123_whole_recipe : forall E root s q xs j d,
  addresses root s q -> node_at root q = Some (document xs) -> Forall (canonical E) xs ->
  proper_tree (document xs) = true -> xs <> [] -> (forall x, xs = [x] -> n_lmf (tree_of x) = true -> exists l, j = JList l) ->
  read_as E (join NLs (page xs)) j -> get_value E root s d None = Ok j.
Proof. exact c123_root. Qed.
Print Assumptions C123_whole_recipe.

(** The same when variables are replaced. *)
Theorem C123_value_filled : forall E sv vars root s q x j d,
  addresses root s q -> node_at root q = Some (tree_of x) -> canonical E x -> proper_tree (tree_of x) = true ->
  not_the_root x -> value_filled E sv vars x j -> get_value E root s d (Some (sv, vars)) = Ok j.
Proof. exact c123_filled. Qed.
Print Assumptions C123_value_filled.
Theorem C123_whole_recipe_filled : forall E sv vars root s q xs j0 j d,
  addresses root s q -> node_at root q = Some (document xs) -> Forall (canonical E) xs ->
  proper_tree (document xs) = true -> xs <> [] -> (forall x, xs = [x] -> n_lmf (tree_of x) = true -> exists l, j = JList l) ->
  read_as E (join NLs (page xs)) j0 -> filled_in E sv vars (rec_limit E) j0 j -> get_value E root s d (Some (sv, vars)) = Ok j.
Proof. exact c123_root_filled. Qed.
Print Assumptions C123_whole_recipe_filled.

Definition several : list string :=
  ["l:"; "  - a: 1"; "    b: 2"; "  - c: 3"; "m:"; "  x: 1"; "  y:"; "    - p  # q"; "    - 2"; "  z:"; "    - only"; "  n:"; "    - 5"; "e:"; "v: '1.10'"]%string.
Definition value_of (path : string) : res json := get_value mini_env (r_root (recipe_of (nl several))) (lit path) None None.
Example C123_example :
  value_of "/m/x" = Ok (JInt 1) /\ value_of "/m/y" = Ok (JList [JStr $"p"; JInt 2]) /\ value_of "/m/y/0" = Ok (JStr $"p")
  /\ value_of "/m/z" = Ok (JList [JStr $"only"])
  /\ value_of "/l" = Ok (JList [JDict [(PStr $"a", JInt 1); (PStr $"b", JInt 2)]; JDict [(PStr $"c", JInt 3)]]).
Proof. repeat split; vm_compute; reflexivity. Qed.
Example C123_example_conditions : let x := ISection (PStr $"y") [] [IElem (JStr $"p") $"# q"; IElem (JInt 2) []] in
  canonical mini_env x /\ proper_tree (tree_of x) = true /\ not_the_root x /\ value_read mini_env x (JList [JStr $"p"; JInt 2])
  /\ node_at (r_root (recipe_of (nl several))) [1; 1] = Some (tree_of x) /\ addresses (r_root (recipe_of (nl several))) $"/m/y" [1; 1].
Proof.
  split; [|split; [vm_compute; reflexivity|split; [discriminate|split; [|split; [vm_compute; reflexivity|eexists; split; vm_compute; reflexivity]]]]].
  - apply can_section; [plain_check|split; [discriminate|intros; discriminate]|].
    constructor; [apply can_elem; [reflexivity|plain_check]|]. constructor; [apply can_elem; [reflexivity|plain_check]|]. constructor.
  - apply vr_section; [intros x; discriminate|]. left. vm_compute. reflexivity.
Qed.
Definition filled_value (path : string) : res json :=
  get_value mini_env (r_root (recipe_of (nl ["a: x {{ v }}"; "l:"; "  - {{ v }}"; "  - 7"; "b: |"; "  one {{ v }}"; "  two"; "c: 1"]%string))) (lit path) None (Some (SV0, [($"v", JInt 3)])).
Example C123_example_filled :
  filled_value "/a" = Ok (JStr $"x 3") /\ filled_value "/l" = Ok (JList [JInt 3; JInt 7]) /\ filled_value "/l/0" = Ok (JInt 3)
  /\ filled_value "/b" = Ok (JStr ($"one 3" ++ NLs ++ $"two")) /\ filled_value "/c" = Ok (JInt 1)
  /\ filled_in mini_env SV0 [($"v", JInt 3)] 2 (JList [JStr $"{{ v }}"; JInt 7]) (JList [JInt 3; JInt 7]).
Proof.
  repeat (split; [vm_compute; reflexivity|]). apply fi_list. constructor; [|constructor; [|constructor]].
  - apply fi_text. vm_compute. reflexivity.
  - apply fi_other. discriminate.
Qed.
(** A list element that is a mapping cannot be read, unless it has only one key: then it is read as a list. *)
Theorem C123_mapping_element_refuted : exists r,
  render mini_env r = nl ["l:"; "  - a: 1"; "    b: 2"; "  - c: 3"]%string
  /\ get_value mini_env (r_root r) $"/l/0" None None = Err EYaml
  /\ get_value mini_env (r_root r) $"/l/1" None None = Ok (JList [JDict [(PStr $"c", JInt 3)]]).
Proof. exists (recipe_of (nl ["l:"; "  - a: 1"; "    b: 2"; "  - c: 3"]%string)). repeat split; vm_compute; reflexivity. Qed.
Print Assumptions C123_mapping_element_refuted.
(** A list with one number is read as the number, a key without value as its name, and a quoted number as a number. *)
Theorem C123_other_values_refuted : exists r,
  r_root r = document [ISection (PStr $"n") [] [IElem (JInt 5) []]; IEmpty (PStr $"e") []; IScalar (PStr $"v") (JStr $"1.10") []]
  /\ get_value mini_env (r_root r) $"/n" None None = Ok (JInt 5)
  /\ get_value mini_env (r_root r) $"/e" None None = Ok (JStr $"e")
  /\ get_value mini_env (r_root r) $"/v" None None = Ok (JFloat $"1.1").
Proof. exists (recipe_of (nl ["n:"; "  - 5"; "e:"; "v: '1.10'"]%string)). repeat split; vm_compute; reflexivity. Qed.
Print Assumptions C123_other_values_refuted.
