(** Properties C01-C08: paths, lookup, listing. *)
From Verif Require Import PathSpec PathProofs PathProofs2 Samples.

(** ** C01 *)
Theorem C01_path_round_trip : forall cs p,
  cs <> [] -> Forall component cs -> with_optional_slash (path_text cs) p ->
  exists st, str_to_stack_path p = Ok st /\ rev st = $"/" :: cs /\ stack_path_to_str st = path_text cs.
Proof. exact c01_round_trip. Qed.
Print Assumptions C01_path_round_trip.
Theorem C01_paths_stay_distinct : forall cs1 cs2,
  cs1 <> [] -> cs2 <> [] -> Forall component cs1 -> Forall component cs2 ->
  str_to_stack_path (path_text cs1) = str_to_stack_path (path_text cs2) -> cs1 = cs2.
Proof. exact c01_injective. Qed.
Print Assumptions C01_paths_stay_distinct.
(** The document root "/" (zero components) does not round trip: it is printed as "", which is not a path. *)
Theorem C01_root_refuted :
  exists st, str_to_stack_path $"/" = Ok st /\ stack_path_to_str st <> $"/"
             /\ str_to_stack_path (stack_path_to_str st) = Err EIndex.
Proof. exists [$"/"]. split; [reflexivity|]. split; [discriminate|reflexivity]. Qed.
Print Assumptions C01_root_refuted.
Example C01_example :
  Forall component [$"requirements"; $"run"; $"0"] /\ path_text [$"requirements"; $"run"; $"0"] = $"/requirements/run/0"
  /\ str_to_stack_path $"/requirements/run/0/" = Ok [$"0"; $"run"; $"requirements"; $"/"].
Proof.
  split; [|split; reflexivity]. repeat constructor; try discriminate; vm_compute; intuition discriminate.
Qed.

(** ** C02 *)
Theorem C02_append_components : forall bs es base ext,
  Forall component bs -> Forall component es -> es <> [] ->
  base = path_text bs \/ base = path_text bs ++ $"/" ->
  ext = path_text es \/ path_text es = $"/" ++ ext ->
  append_to_path base ext = path_text (bs ++ es).
Proof. exact c02_append. Qed.
Print Assumptions C02_append_components.
(** For arbitrary strings: one trailing slash of the base and one leading slash of the extension are dropped and a
    single slash is put between. *)
Theorem C02_append_any_text : forall base ext,
  append_to_path base ext =
  (match last_char base with
   | Some c => if ceq c cSL then removelast base else base
   | None => []
   end) ++ $"/" ++ (match ext with c :: e => if ceq c cSL then e else ext | [] => [] end).
Proof. exact append_general. Qed.
Print Assumptions C02_append_any_text.
Example C02_example :
  append_to_path $"/" $"/requirements/run" = $"/requirements/run"
  /\ append_to_path $"/outputs/0" $"requirements" = $"/outputs/0/requirements" /\ append_to_path [] $"a" = $"/a".
Proof. repeat split. Qed.

(** ** C03 *)
Theorem C03_listed_paths_resolve : forall E root,
  addressable_document root = true ->
  Forall2 (fun p s => addresses root s (owner root p) /\ contains_value root s = Ok true
                      /\ forall jp, get_value E root s None jp <> Err EKey)
          (positions_where terminal root) (list_value_paths E root).
Proof. exact c03. Qed.
Print Assumptions C03_listed_paths_resolve.
(** Without any condition the listed paths are those of the terminal values in document order. *)
Theorem C03_listed_paths : forall E root,
  list_value_paths E root = map (path_at E root) (positions_where terminal root).
Proof. exact list_value_paths_spec. Qed.
Print Assumptions C03_listed_paths.
Example C03_example :
  addressable_document sample_root = true /\ length (list_value_paths mini_env sample_root) = 11.
Proof. split; vm_compute; reflexivity. Qed.
(** An empty recipe lists the path "" which every lookup function rejects with an IndexError. *)
Theorem C03_empty_recipe_refuted : exists r s,
  new_recipe mini_env [] = Ok r /\ In s (list_value_paths mini_env (r_root r))
  /\ contains_value (r_root r) s = Err EIndex.
Proof.
  exists (recipe_of []), []. split; [vm_compute; reflexivity|]. split; [left; vm_compute; reflexivity|vm_compute; reflexivity].
Qed.
Print Assumptions C03_empty_recipe_refuted.
(** A numeric key is listed but cannot be looked up. *)
Theorem C03_numeric_key_refuted : exists r s,
  new_recipe mini_env (nl ["foo:"; "  12: bar"]%string) = Ok r /\ In s (list_value_paths mini_env (r_root r))
  /\ contains_value (r_root r) s = Ok false.
Proof.
  exists (recipe_of (nl ["foo:"; "  12: bar"]%string)), $"/foo/12".
  split; [vm_compute; reflexivity|]. split; [left; vm_compute; reflexivity|vm_compute; reflexivity].
Qed.
Print Assumptions C03_numeric_key_refuted.

(** ** C04 *)
Theorem C04_comments_do_not_influence_lookup : forall root path,
  elements_have_content root = true ->
  lookup (erase_comment_lines root) path = option_map erase_comment_lines (lookup root path)
  /\ contains_value (erase_comment_lines root) path = contains_value root path.
Proof. exact c04_lookup. Qed.
Print Assumptions C04_comments_do_not_influence_lookup.
Theorem C04_comments_do_not_influence_listing : forall E root,
  sections_have_content root = true ->
  list_value_paths E (erase_comment_lines root) = list_value_paths E root.
Proof. exact list_value_paths_erase. Qed.
Print Assumptions C04_comments_do_not_influence_listing.
Example C04_example :
  sections_have_content sample_root = true /\ elements_have_content sample_root = true
  /\ erase_comment_lines sample_root <> sample_root.
Proof. split; [vm_compute; reflexivity|]. split; [vm_compute; reflexivity|]. vm_compute. discriminate. Qed.
(** A comment below an otherwise empty key hides the key from the listing. *)
Theorem C04_listing_refuted : exists r,
  new_recipe mini_env (nl ["foo:"; "  # nothing yet"; "bar: 1"]%string) = Ok r
  /\ list_value_paths mini_env (r_root r) = [$"/bar"]
  /\ list_value_paths mini_env (erase_comment_lines (r_root r)) = [$"/foo"; $"/bar"].
Proof.
  exists (recipe_of (nl ["foo:"; "  # nothing yet"; "bar: 1"]%string)). repeat split; vm_compute; reflexivity.
Qed.
Print Assumptions C04_listing_refuted.

(** ** C05 *)
Theorem C05_index_addresses_ith_element : forall root cs part,
  Forall component cs -> isdigit part = true ->
  lookup root (path_text (cs ++ [part])) =
  match lookup root (path_text cs ++ $"/") with
  | None => None
  | Some n => match nth_error (filter (fun c => negb (is_comment c)) (n_children n)) (int_of part) with
              | Some c => if n_lmf c then Some c else None
              | None => None
              end
  end.
Proof. exact c05_lookup. Qed.
Print Assumptions C05_index_addresses_ith_element.
Theorem C05_never_a_comment : forall root path n,
  is_comment root = false -> lookup root path = Some n -> ~ comment_line n.
Proof. exact c05_never_comment. Qed.
Print Assumptions C05_never_a_comment.
Theorem C05_index_tables : forall l i j,
  nth_error (virt_to_phys l) i = Some j <->
  exists c, nth_error l j = Some c /\ is_comment c = false /\ i = count_elements (firstn j l).
Proof. exact index_tables. Qed.
Print Assumptions C05_index_tables.
Theorem C05_index_tables_inverse : forall l,
  (forall i j, nth_error (virt_to_phys l) i = Some j -> nth_error (phys_to_virt l) j = Some i)
  /\ (forall j c, nth_error l j = Some c -> is_comment c = false ->
      exists i, nth_error (phys_to_virt l) j = Some i /\ nth_error (virt_to_phys l) i = Some j).
Proof. exact (fun l => conj (p2v_of_v2p l) (index_tables_inverse l)). Qed.
Print Assumptions C05_index_tables_inverse.
Theorem C05_number_text : forall i, isdigit (str_of_nat i) = true /\ int_of (str_of_nat i) = i.
Proof. exact number_text. Qed.
Print Assumptions C05_number_text.
Example C05_example :
  option_map n_value (lookup sample_root $"/build/script/1") = Some (VJ (JStr $"two"))
  /\ lookup sample_root $"/build/script/3" = None /\ lookup sample_root $"/build/0" = None.
Proof. repeat split; vm_compute; reflexivity. Qed.

(** ** C06 *)
Theorem C06_missing_key : forall E root path jp,
  path <> [] -> (get_value E root path None jp = Err EKey <-> contains_value root path = Ok false).
Proof. exact get_value_missing. Qed.
Print Assumptions C06_missing_key.
Theorem C06_default : forall E root path jp d,
  path <> [] ->
  get_value E root path (Some d) jp = match contains_value root path with
                                      | Ok false => Ok d
                                      | _ => get_value E root path None jp
                                      end.
Proof. exact get_value_default. Qed.
Print Assumptions C06_default.
Example C06_example :
  contains_value sample_root $"/build/nope" = Ok false /\ contains_value sample_root $"/build/number" = Ok true
  /\ get_value mini_env sample_root $"/build/number" (Some (JInt 7)) None = Ok (JInt 0).
Proof. repeat split; vm_compute; reflexivity. Qed.

(** ** C07 *)
Theorem C07_find_value_exact : forall E root v,
  find_value E root (JP v) = Ok (map (path_at E root) (positions_where (holds_value v) root)).
Proof. exact find_value_spec. Qed.
Print Assumptions C07_find_value_exact.
Theorem C07_collections_are_rejected : forall E root v, is_prim v = false -> find_value E root v = Err EValue.
Proof. exact find_value_collection. Qed.
Print Assumptions C07_collections_are_rejected.
Example C07_example :
  find_value mini_env sample_root (JInt 0) = Ok [$"/build/number"; $"/outputs/0/number"]
  /\ find_value mini_env sample_root (JBool true) = Ok [$"/build/skip"]
  /\ find_value mini_env sample_root (JInt 1) = Ok []
  /\ find_value mini_env sample_root JNull = Ok [$"/empty"].
Proof. repeat split; vm_compute; reflexivity. Qed.

(** ** C08 *)
Theorem C08_selector_paths : forall r s,
  fst (get_selector_paths s r) =
  match dget s (r_sel r) with
  | None => []
  | Some infos => first_occurrences (map (fun i => stack_path_to_str (snd i)) infos)
  end.
Proof. exact c08_selector_paths. Qed.
Print Assumptions C08_selector_paths.
Theorem C08_variable_references : forall E r var,
  get_variable_references E var r =
  if dmem var (r_vars r)
  then first_occurrences (map (fun np => stack_path_to_str (snd np))
         (filter (fun np => match n_value (fst np) with
                            | VJ (JStr s) => found (var_ref_re (r_schema r) var) s
                            | _ => false
                            end) (visits E (r_root r))))
  else [].
Proof. exact c08_variable_references. Qed.
Print Assumptions C08_variable_references.
Theorem C08_no_duplicates : forall l,
  NoDup (first_occurrences l) /\ (forall x, In x (first_occurrences l) <-> In x l)
  /\ dedupe l = first_occurrences l.
Proof. exact c08_no_duplicates. Qed.
Print Assumptions C08_no_duplicates.
Example C08_example : dedupe [$"b"; $"a"; $"b"; $"c"; $"a"] = [$"b"; $"a"; $"c"].
Proof. reflexivity. Qed.
