(** Property theorems: what patches leave alone and write (C72, C73) and the commands (C57-C61, C74-C77). *)
From Verif Require Import Samples FrameProofs FrameProofs2 CommandsProofs CommandsProofs2 CommandsProofs3 CommandsProofs4 CommandsProofs5 CommandsProofs7.
From Verif Require Import PropDeps PropService CommandsSpec.

(** ** C72 *)
Theorem C72_set_key_is_read_back : forall E p q s cs c v w r r' n,
  asks p q -> sets q s v -> s = path_text (cs ++ [c]) -> Forall component (cs ++ [c]) -> isdigit c = false -> c <> $"-" ->
  lookup (r_root r) s = Some n -> n_keyf n = true -> scalar_reads E v w ->
  patch E p r = (Ok true, r') -> get_value E (r_root r') s None None = Ok (JP w).
Proof. exact c72_existing. Qed.
Print Assumptions C72_set_key_is_read_back.
Theorem C72_added_key_is_read_back : forall E p s cs c v w r r' n,
  asks p (RAdd s v) -> s = path_text (cs ++ [c]) -> Forall component (cs ++ [c]) -> isdigit c = false -> c <> $"-" ->
  lookup (r_root r) s = None -> lookup (r_root r) (path_text cs ++ [cSL]) = Some n ->
  (n_lmf n = false \/ collection_element n = true) -> entry_reads E c v w ->
  patch E p r = (Ok true, r') -> get_value E (r_root r') s None None = Ok (JP w).
Proof. exact c72_missing. Qed.
Print Assumptions C72_added_key_is_read_back.
Example C72_hypotheses : scalar_reads mini_env (JInt 41) (PInt 41) /\ entry_reads mini_env $"number" (JInt 0) (PInt 0)
  /\ scalar_reads mini_env (JStr $"2.0.1") (PStr $"2.0.1").
Proof.
  split; [apply integer_reads; vm_compute; reflexivity|]. split; [apply zero_entry; split; vm_compute; reflexivity|].
  split; [eexists; reflexivity|]. split; [|split; [discriminate|split]].
  - apply plain_word_one_line; try discriminate; [vm_compute; reflexivity|]. left. vm_compute. reflexivity.
  - intros s [= <-]. vm_compute. reflexivity.
  - intros s [= <-]. vm_compute. reflexivity.
Qed.
Example C72_example :
  let o := patch mini_env (payload "replace" "/build/number" [("value", JInt 41)]%string) sample in
  let o' := patch mini_env (payload "add" "/package/license" [("value", JStr $"MIT")]%string) sample in
  fst o = Ok true /\ get_value mini_env (r_root (snd o)) $"/build/number" None None = Ok (JInt 41)
  /\ fst o' = Ok true /\ get_value mini_env (r_root (snd o')) $"/package/license" None None = Ok (JStr $"MIT").
Proof. vm_compute. auto. Qed.

(** ** C73 *)
Theorem C73_other_keys_are_left_alone : forall E p q r ds, asks p q -> stays_clear q ds -> ds <> [] -> Forall component ds ->
  lookup (r_root (snd (patch E p r))) (path_text ds) = lookup (r_root r) (path_text ds).
Proof. intros E p q r ds Ha HS Hne HC. rewrite !lookup_walk by auto. apply (patch_walk E p q r ds); auto. Qed.
Print Assumptions C73_other_keys_are_left_alone.
Theorem C73_other_values_are_left_alone : forall E p q r ds d v, asks p q -> stays_clear q ds -> ds <> [] -> Forall component ds ->
  get_value E (r_root (snd (patch E p r))) (path_text ds) d v = get_value E (r_root r) (path_text ds) d v.
Proof. intros E p q r ds d v Ha HS Hne HC. apply value_walk; auto. apply (patch_walk E p q r ds); auto. Qed.
Print Assumptions C73_other_values_are_left_alone.
Example C73_example :
  let o := patch mini_env (payload "move" "/outputs/0/extra" [("from", JStr $"/build/script/1")]%string) sample in
  stays_clear (RMove $"/build/script/1" $"/outputs/0/extra") [$"package"; $"version"]
  /\ stays_clear (RMove $"/build/script/1" $"/outputs/0/extra") [$"build"; $"number"]
  /\ fst o = Ok true
  /\ get_value mini_env (r_root (snd o)) $"/build/number" None None = Ok (JInt 0)
  /\ get_value mini_env (r_root (snd o)) $"/outputs/0/extra" None None = Ok (JStr $"two").
Proof.
  assert (forall c d rest ds', c <> d -> isdigit c = false -> isdigit d = false -> rest <> [] ->
     parts_from (c :: rest) (d :: ds')) as HP.
  { intros c d rest ds' H1 H2 H3 H4. exists [], c, d, rest, ds'. repeat split; auto. }
  split; [|split; [|vm_compute; auto]]; intros s [<-|[<-|[]]].
  - exists [$"build"; $"script"; $"1"]. split; [reflexivity|]. split; [components|]. apply HP; try discriminate; reflexivity.
  - exists [$"outputs"; $"0"; $"extra"]. split; [reflexivity|]. split; [components|]. apply HP; try discriminate; reflexivity.
  - exists [$"build"; $"script"; $"1"]. split; [reflexivity|]. split; [components|].
    exists [$"build"], $"script", $"number", [$"1"], []. repeat split; try discriminate; reflexivity.
  - exists [$"outputs"; $"0"; $"extra"]. split; [reflexivity|]. split; [components|]. apply HP; try discriminate; reflexivity.
Qed.

(** Recipes, a network and runs of bump-recipe for the examples. *)
Definition two_sources : str := nl
  ["package:"; "  name: foo"; "  version: 1.2"; "source:"; "  - url: https://x.org/a.tar.gz"; "    sha256: abc";
   "  - url: https://x.org/b.tar.gz"; "build:"; "  number: 3"]%string.
Definition with_variables : str := nl
  ["{% set version = ""1.2"" %}"; "{% set sha256 = ""abc"" %}"; "package:"; "  name: foo"; "  version: {{ version }}"; "source:";
   "  url: https://x.org/a.tar.gz"; "  sha256: {{ sha256 }}"; "build:"; "  noarch: python"]%string.
Definition a_net : net :=
  {| n_fetch := fun path _ => if str_eqb path $"/source/1" then io_tar "two" else io_tar "one";
     n_hash := fun b => $"ff-" ++ b; n_order := @rev _ |}.
Definition cut_net : net :=
  {| n_fetch := fun path _ => if str_eqb path $"/source/1" then io_cut "two" else io_tar "one";
     n_hash := fun b => $"ff-" ++ b; n_order := fun l => l |}.
Definition opts (n d : bool) (t : option str) : bump_options :=
  {| b_build_num := n; b_dry_run := d; b_target := t; b_interval := 30 |}.
Definition bump (N : net) (n d : bool) (t : option str) (text : str) : finish * list effect :=
  bump_recipe mini_env N HASH_TYPE_VARIANTS (opts n d t) (ReadOk text) None.
Definition gone (s : step recipe) : recipe := match s with Go r => r | Stop _ => dummy_recipe end.

(** ** C57 *)
Theorem C57_written_only_after_full_success : forall E N variants o file written f effs,
  bump_recipe E N variants o file written = (f, effs) -> (forall l, Permutation (n_order N l) l) ->
  (effs = [] /\ f <> Exit SUCCESS)
  \/ (valid_options o /\ exists content r r', file = ReadOk content
        /\ new_recipe E (pre_process_remove_hash_type variants content) = Ok r /\ bumped E N o r r'
        /\ if b_dry_run o then f = Exit SUCCESS /\ effs = [Print (render E r')]
           else effs = [Write (render E r')] /\ f = match written with None => Exit SUCCESS | Some e => Raise e end).
Proof. exact c57_effects. Qed.
Print Assumptions C57_written_only_after_full_success.
Theorem C57_exit_codes : forall E N variants o file written,
  (~ valid_options o -> bump_recipe E N variants o file written = (Exit CLICK_USAGE, []))
  /\ (valid_options o ->
      (file = ReadIO -> bump_recipe E N variants o file written = (Exit IO_ERROR, []))
      /\ (forall content e, file = ReadOk content -> new_recipe E (pre_process_remove_hash_type variants content) = Err e ->
            bump_recipe E N variants o file written = (Exit PARSE_EXCEPTION, []))
      /\ (forall content r, file = ReadOk content -> new_recipe E (pre_process_remove_hash_type variants content) = Ok r ->
            get_value E (r_root r) $"/build" None None = Err EKey ->
            bump_recipe E N variants o file written = (Exit ILLEGAL_OPERATION, []))
      /\ (forall content r v w, file = ReadOk content -> new_recipe E (pre_process_remove_hash_type variants content) = Ok r ->
            b_build_num o = true -> get_value E (r_root r) $"/build" None None = Ok w ->
            contains_value (r_root r) $"/build/number" = Ok true ->
            get_value E (r_root r) $"/build/number" None None = Ok v -> (forall z, v <> JInt z) -> (forall b, v <> JBool b) ->
            bump_recipe E N variants o file written = (Exit ILLEGAL_OPERATION, []))).
Proof. exact c57_codes. Qed.
Print Assumptions C57_exit_codes.
Theorem C57_failed_download : forall E N r tbl path name url,
  (forall l, Permutation (n_order N l) l) -> from_recipe E r true = Ok tbl -> is_archive tbl path name url ->
  fst (fst (get_sha256 (n_hash N) (n_fetch N path) (new_http name url))) = Err EFetch ->
  (forall p n u e, is_archive tbl p n u -> fst (fst (get_sha256 (n_hash N) (n_fetch N p) (new_http n u))) = Err e -> e = EFetch) ->
  update_sha256 E N r = Stop (Exit HTTP_ERROR).
Proof. exact c57_http. Qed.
Print Assumptions C57_failed_download.
Example C57_example :
  bump a_net false false (Some $"2.0.1") two_sources = (Exit SUCCESS, [Write (nl
    ["package:"; "  name: foo"; "  version: 2.0.1"; ""; "source:"; "  - url: https://x.org/a.tar.gz"; "    sha256: ff-one";
     "  - url: https://x.org/b.tar.gz"; "    sha256: ff-two"; ""; "build:"; "  number: 0"]%string)])
  /\ bump a_net true true None (nl ["build:"; "  number: 3"]%string) = (Exit SUCCESS, [Print (nl ["build:"; "  number: 4"]%string)])
  /\ bump cut_net false false (Some $"2.0.1") two_sources = (Exit HTTP_ERROR, [])
  /\ bump a_net true false None (nl ["package:"; "  name: foo"]%string) = (Exit ILLEGAL_OPERATION, [])
  /\ bump a_net true false None (nl ["build:"; "  number: x"]%string) = (Exit ILLEGAL_OPERATION, [])
  /\ bump a_net false false None two_sources = (Exit CLICK_USAGE, []).
Proof. vm_compute. repeat split. Qed.

(** ** C58 *)
Theorem C58_build_number_partial : forall E N o r r', writes_number_zero E -> bumped E N o r r' ->
  (forall old, key_at (r_root r) $"/build/number" -> get_value E (r_root r) $"/build/number" None None = Ok (JInt old) ->
     reads_integer E (if b_build_num o then old + 1 else 0)%Z ->
     get_value E (r_root r') $"/build/number" None None = Ok (JInt (if b_build_num o then old + 1 else 0)))
  /\ (forall n, lookup (r_root r) $"/build/number" = None -> lookup (r_root r) $"/build" = Some n -> n_lmf n = false ->
     get_value E (r_root r') $"/build/number" None None = Ok (JInt 0)).
Proof. exact c58. Qed.
Print Assumptions C58_build_number_partial.
(** With both options the build number is incremented although the version is new. *)
Theorem C58_both_options_refuted : exists N o content r r',
  b_target o = Some $"2.0.1" /\ bump_steps mini_env N HASH_TYPE_VARIANTS o content = Go r'
  /\ new_recipe mini_env (pre_process_remove_hash_type HASH_TYPE_VARIANTS content) = Ok r
  /\ get_value mini_env (r_root r) $"/build/number" None None = Ok (JInt 3)
  /\ get_value mini_env (r_root r') $"/build/number" None None = Ok (JInt 4)
  /\ get_value mini_env (r_root r') $"/package/version" None None = Ok (JStr $"2.0.1").
Proof.
  exists a_net, (opts true false (Some $"2.0.1")), two_sources, (recipe_of two_sources),
    (gone (bump_steps mini_env a_net HASH_TYPE_VARIANTS (opts true false (Some $"2.0.1")) two_sources)).
  vm_compute. repeat split.
Qed.
Print Assumptions C58_both_options_refuted.
Example C58_example : writes_number_zero mini_env /\ reads_integer mini_env 4 /\ reads_integer mini_env 0
  /\ get_value mini_env (r_root (recipe_of two_sources)) $"/build/number" None None = Ok (JInt 3)
  /\ key_at (r_root (recipe_of two_sources)) $"/build/number"
  /\ exists r', bump_steps mini_env a_net HASH_TYPE_VARIANTS (opts true false None) two_sources = Go r'
       /\ get_value mini_env (r_root r') $"/build/number" None None = Ok (JInt 4).
Proof.
  split; [split; vm_compute; reflexivity|]. split; [vm_compute; reflexivity|]. split; [vm_compute; reflexivity|].
  split; [vm_compute; reflexivity|]. split; [eexists; vm_compute; repeat split|].
  exists (gone (bump_steps mini_env a_net HASH_TYPE_VARIANTS (opts true false None) two_sources)). vm_compute. repeat split.
Qed.

(** ** C74 *)
Theorem C74_version_is_set_partial : forall E N o target r r', bumped E N o r r' -> b_target o = Some target ->
  (forall v, dget $"version" (r_vars r) = Some v -> v <> JNull -> dget $"version" (r_vars r') = Some (JStr target))
  /\ ((dget $"version" (r_vars r) = None \/ dget $"version" (r_vars r) = Some JNull) ->
      settable E (r_root r) $"/package" $"version" (JStr target) (PStr target) ->
      get_value E (r_root r') $"/package/version" None None = Ok (JStr target)).
Proof. exact c74. Qed.
Print Assumptions C74_version_is_set_partial.
(** A version that looks like a number loses its final zero when the recipe is read again. *)
Theorem C74_number_like_version_refuted : exists N o content r',
  b_target o = Some $"1.10" /\ bump_steps mini_env N HASH_TYPE_VARIANTS o content = Go r'
  /\ get_value mini_env (r_root r') $"/package/version" None None = Ok (JFloat $"1.1").
Proof.
  exists a_net, (opts false false (Some $"1.10")), two_sources,
    (gone (bump_steps mini_env a_net HASH_TYPE_VARIANTS (opts false false (Some $"1.10")) two_sources)).
  vm_compute. repeat split.
Qed.
Print Assumptions C74_number_like_version_refuted.
Example C74_example :
  bump a_net false false (Some $"2.0.1") with_variables = (Exit SUCCESS, [Write (nl
    ["{% set version = ""2.0.1"" %}"; "{% set sha256 = ""ff-one"" %}"; ""; "package:"; "  name: foo"; "  version: {{ version }}"; "";
     "source:"; "  url: https://x.org/a.tar.gz"; "  sha256: {{ sha256 }}"; ""; "build:"; "  noarch: python"; "  number: 0"]%string)])
  /\ settable mini_env (r_root (recipe_of two_sources)) $"/package" $"version" (JStr $"2.0.1") (PStr $"2.0.1").
Proof.
  split; [vm_compute; reflexivity|]. left. split; [eexists; vm_compute; repeat split|apply C72_hypotheses].
Qed.

(** ** C75 *)
Theorem C75_checksums_are_set : forall E N r r' tbl,
  update_sha256 E N r = Go r' -> (forall l, Permutation (n_order N l) l) -> from_recipe E r true = Ok tbl ->
  (forall path name url t, is_archive tbl path name url -> checksum N path name url t ->
     settable E (r_root r) path $"sha256" (JStr t) (PStr t)) ->
  forall path name url, is_archive tbl path name url -> exists t, checksum N path name url t /\
    (get_value E (r_root r') (path ++ $"/sha256") None None = Ok (JStr t)
     \/ exists var, tbl = [(path, SHttp name url)] /\ In var [$"sha256"; $"hash"; $"hash_val"; $"hash_value"]
          /\ In (path ++ $"/sha256") (get_variable_references E var r) /\ dget var (r_vars r') = Some (JStr t)).
Proof. exact c75. Qed.
Print Assumptions C75_checksums_are_set.
Example C75_example :
  let r := recipe_of two_sources in
  from_recipe mini_env r true
    = Ok [($"/source/0", SHttp $"foo_0" $"https://x.org/a.tar.gz"); ($"/source/1", SHttp $"foo_1" $"https://x.org/b.tar.gz")]
  /\ checksum a_net $"/source/1" $"foo_1" $"https://x.org/b.tar.gz" $"ff-two"
  /\ exists r', update_sha256 mini_env a_net r = Go r'
       /\ get_value mini_env (r_root r') $"/source/0/sha256" None None = Ok (JStr $"ff-one")
       /\ get_value mini_env (r_root r') $"/source/1/sha256" None None = Ok (JStr $"ff-two").
Proof.
  cbv zeta. split; [vm_compute; reflexivity|]. split; [vm_compute; reflexivity|].
  exists (gone (update_sha256 mini_env a_net (recipe_of two_sources))). vm_compute. repeat split.
Qed.

(** ** C59 *)
Theorem C59_success_means_all_patches_partial : forall E patches file written effs,
  patch_command E patches file written = (Exit SUCCESS, effs) <->
  written = None /\ exists j content r r', patches = JsonData j /\ file = ReadOk content /\ new_recipe E content = Ok r
    /\ all_applied E (patch_list j) r r' /\ effs = [Write (render E r')].
Proof. exact c59_success. Qed.
Print Assumptions C59_success_means_all_patches_partial.
Theorem C59_unreadable_input_writes_nothing : forall E patches file written,
  (forall j, patches <> JsonData j) \/ (forall content, file <> ReadOk content)
  \/ (exists content e, file = ReadOk content /\ new_recipe E content = Err e) ->
  snd (patch_command E patches file written) = [] /\ fst (patch_command E patches file written) <> Exit SUCCESS.
Proof. exact c59_unreadable. Qed.
Print Assumptions C59_unreadable_input_writes_nothing.
Theorem C59_what_is_written : forall E patches file written f effs,
  patch_command E patches file written = (f, effs) -> effs <> [] ->
  exists j content r r1, patches = JsonData j /\ file = ReadOk content /\ new_recipe E content = Ok r /\
  ((all_applied E (patch_list j) r r1 /\ effs = [Write (render E r1)])
   \/ exists done p rest o, patch_list j = done ++ p :: rest /\ all_applied E done r r1 /\ fst (patch E p r1) = o
        /\ (o = Ok false /\ f = match written with None => Exit ILLEGAL_OPERATION | Some e => Raise e end
            \/ o = Err EPatchSchema /\ f = match written with None => Exit JSON_ERROR | Some e => Raise e end)
        /\ effs = [Write (render E (snd (patch E p r1)))]).
Proof. exact c59_prefix. Qed.
Print Assumptions C59_what_is_written.
(** The second of two patches fails; the file is written with the effect of the first. *)
Theorem C59_failed_patch_refuted : exists j content text,
  patch_command mini_env (JsonData j) (ReadOk content) None = (Exit ILLEGAL_OPERATION, [Write text])
  /\ content = nl ["a: 1"]%string /\ text = nl ["a: 2"]%string.
Proof.
  exists (JList [payload "replace" "/a" [("value", JInt 2)]%string; payload "remove" "/zzz" []]), (nl ["a: 1"]%string), (nl ["a: 2"]%string).
  vm_compute. repeat split.
Qed.
Print Assumptions C59_failed_patch_refuted.
Example C59_example :
  patch_command mini_env (JsonData (JList [payload "replace" "/a" [("value", JInt 2)]%string; payload "add" "/b" [("value", JInt 3)]%string]))
    (ReadOk (nl ["a: 1"]%string)) None = (Exit SUCCESS, [Write (nl ["a: 2"; ""; "b: 3"]%string)])
  /\ patch_command mini_env NotJson (ReadOk (nl ["a: 1"]%string)) None = (Exit JSON_ERROR, [])
  /\ patch_command mini_env (JsonData (JList [])) ReadIO None = (Exit IO_ERROR, []).
Proof. vm_compute. repeat split. Qed.

(** ** C60 *)
Theorem C60_errors_outrank_warnings : forall c, let c' := set_return_code c in
  (has_messages ERROR (c_messages c) -> c_code c' = RENDER_ERRORS)
  /\ (~ has_messages ERROR (c_messages c) -> has_messages WARNING (c_messages c) -> c_code c' = RENDER_WARNINGS)
  /\ (~ has_messages ERROR (c_messages c) -> ~ has_messages WARNING (c_messages c) -> c_code c' = c_code c)
  /\ c_messages c' = c_messages c /\ c_content c' = c_content c.
Proof. exact c60_code. Qed.
Print Assumptions C60_errors_outrank_warnings.
Theorem C60_results_of_a_conversion : forall E pre to_v1 path file pr output c effs,
  convert_file E pre to_v1 path file pr output = (inr c, effs) ->
  well_coded c /\ (exceptional (c_code c) -> effs = [] /\ exists m, get_messages EXCEPTION (c_messages c) = [m]).
Proof. exact c60_result. Qed.
Print Assumptions C60_results_of_a_conversion.
(** [set_return_code] on its own does not protect an exception code. *)
Theorem C60_exception_code_refuted : exists c, exceptional (c_code c) /\ ~ exceptional (c_code (set_return_code c)).
Proof.
  exists {| c_code := PARSE_EXCEPTION; c_content := []; c_messages := add_message ERROR $"x" new_table |}.
  split; [left; reflexivity|]. unfold exceptional. vm_compute. intuition discriminate.
Qed.
Print Assumptions C60_exception_code_refuted.
(** Every outcome has a number of its own that a shell can see, 0 is success alone, 1 is left to the command line library, and
    the outcomes of a conversion are ordered by severity. *)
Theorem C60_exit_codes : (forall a b, exit_number a = exit_number b -> a = b)
  /\ (forall a, (0 <= exit_number a < 256)%Z /\ exit_number a <> 1%Z) /\ exit_number SUCCESS = 0%Z /\ exit_number CLICK_USAGE = 2%Z
  /\ map exit_number [RENDER_WARNINGS; RENDER_ERRORS; PARSE_EXCEPTION; RENDER_EXCEPTION; READ_EXCEPTION; PRE_PROCESS_EXCEPTION; ILLEGAL_OPERATION]
     = map (fun i => 100 + Z.of_nat i)%Z (seq 0 7).
Proof. exact c60_numbers. Qed.
Print Assumptions C60_exit_codes.
Definition converted (messages : msg_table) (text : string) : (exn + conversion) * list effect :=
  convert_file mini_env Ok (fun r => Ok ($"text", messages)) $"p" (ReadOk (nl [text])) true None.
Example C60_example :
  converted (add_message WARNING $"w" (add_message ERROR $"e" new_table)) "a: 1"
    = (inr {| c_code := RENDER_ERRORS; c_content := $"text"; c_messages := [(ERROR, [$"e"]); (WARNING, [$"w"])] |}, [Print $"text"])
  /\ converted new_table "schema_version: 1"
    = (inr {| c_code := ILLEGAL_OPERATION; c_content := [];
              c_messages := [(EXCEPTION, [$"ILLEGAL OPERATION: Only V0-formatted recipe files can be converted"])] |}, []).
Proof. vm_compute. repeat split. Qed.

(** ** C61 *)
Theorem C61_statistics_partial : forall files results,
  NoDup (map fst results) -> (forall nr, In nr results -> well_coded (snd nr)) ->
  let t := bulk_report files results in
  t_processed t = length results
  /\ t_success t = count_codes [SUCCESS; RENDER_WARNINGS] results
  /\ length (t_with_errors t) = count_codes [RENDER_ERRORS] results
  /\ length (t_with_except t) = count_codes [PARSE_EXCEPTION; READ_EXCEPTION; RENDER_EXCEPTION] results
  /\ t_success t + length (t_with_errors t) + length (t_with_except t)
     + count_codes [PRE_PROCESS_EXCEPTION; ILLEGAL_OPERATION] results = t_processed t
  /\ t_errors t = length (messages_of ERROR results) /\ counts (t_errors_hist t) (messages_of ERROR results)
  /\ t_warnings t = length (messages_of WARNING results) /\ counts (t_warnings_hist t) (messages_of WARNING results)
  /\ t_with_errors t = having ERROR results /\ t_with_warnings t = having WARNING results.
Proof. exact c61. Qed.
Print Assumptions C61_statistics_partial.
Definition result (code : exit_code) (l : list (category * string)) : conversion :=
  {| c_code := code; c_content := []; c_messages := fold_left (fun t cm => add_message (fst cm) (lit (snd cm)) t) l new_table |}.
(** The recipes with exceptions, and the self-check, whatever the codes. *)
Theorem C61_exceptions : forall files results, NoDup (map fst results) ->
  let t := bulk_report files results in
  let bad := with_codes [PARSE_EXCEPTION; READ_EXCEPTION; RENDER_EXCEPTION] results in
  t_files t = files /\ t_with_except t = map fst bad /\ counts (t_except_hist t) (messages_of EXCEPTION bad)
  /\ t_theoretical t = (Z.of_nat files - Z.of_nat (length (t_with_except t)) - Z.of_nat (length (t_with_errors t)))%Z.
Proof. exact c61_exceptions. Qed.
Print Assumptions C61_exceptions.
(** A recipe that is already in the new format is neither a success nor a failure; the two ways of counting the successes,
    which the code expects to agree, differ. *)
Theorem C61_buckets_refuted : exists results, NoDup (map fst results) /\ (forall nr, In nr results -> well_coded (snd nr))
  /\ let t := bulk_report (length results) results in
     t_success t + length (t_with_errors t) + length (t_with_except t) < t_processed t
     /\ t_theoretical t <> Z.of_nat (t_success t).
Proof.
  exists [($"a", result SUCCESS []); ($"b", result ILLEGAL_OPERATION [(EXCEPTION, "no"%string)])].
  split; [repeat constructor; vm_compute; intuition discriminate|]. split.
  - intros nr [<-|[<-|[]]].
    + left. split; [reflexivity|]. split; intros H; apply H; reflexivity.
    + right. right. right. split; [cbn; auto 8|]. split; intros H; apply H; reflexivity.
  - vm_compute. split; [lia|discriminate].
Qed.
Print Assumptions C61_buckets_refuted.
(** Two recipes in directories of the same name count as one. *)
Theorem C61_same_name_refuted : exists results, t_processed (bulk_report (length results) results) < length results.
Proof. exists [($"a", result SUCCESS []); ($"a", result RENDER_ERRORS [(ERROR, "e"%string)])]. vm_compute. lia. Qed.
Print Assumptions C61_same_name_refuted.
Example C61_example :
  let t := bulk_report 3 [($"a", result SUCCESS []); ($"b", result RENDER_ERRORS [(ERROR, "e"%string); (WARNING, "w"%string); (ERROR, "e"%string)]);
                          ($"c", result PARSE_EXCEPTION [(EXCEPTION, "x"%string)])] in
  (t_success t, t_errors t, t_with_errors t, t_with_warnings t, t_with_except t, t_errors_hist t, t_except_hist t)
  = (1, 2, [$"b"], [$"b"], [$"c"], [($"e", 2)], [($"x", 1)]).
Proof. vm_compute. reflexivity. Qed.

(** ** C76 *)
Theorem C76_enough_successes : forall s f m, 0 < f -> m * f <= 100 * s -> bulk_exit s f m = SUCCESS.
Proof. exact c76_enough. Qed.
Print Assumptions C76_enough_successes.
(** Half a percent below the threshold or more. *)
Theorem C76_too_few_successes_partial : forall s f m, 0 < f -> 200 * s + f < 2 * m * f -> bulk_exit s f m = MISSED_SUCCESS_THRESHOLD.
Proof. exact c76_missed. Qed.
Print Assumptions C76_too_few_successes_partial.
(** Exactly: the rate rounded to whole percents meets the threshold.  What happens half way between two percents depends on
    floating point numbers (see [round_percent]) and is left open. *)
Theorem C76_decided : forall s f m, 0 < f -> 2 * m * f <> 200 * s + f -> (bulk_exit s f m = SUCCESS <-> 2 * m * f < 200 * s + f).
Proof. exact c76_decided. Qed.
Print Assumptions C76_decided.
(** The rate is rounded before it is compared: 79.6 percent pass a threshold of 80 percent. *)
Theorem C76_rounding_refuted : exists s f m, 0 < f /\ 100 * s < m * f /\ bulk_exit s f m = SUCCESS.
Proof.
  exists 199, 250, 80. split; [lia|]. split; [apply Nat.ltb_lt; vm_compute; reflexivity|]. vm_compute. reflexivity.
Qed.
Print Assumptions C76_rounding_refuted.
Example C76_example : bulk_exit 8 10 80 = SUCCESS /\ bulk_exit 7 10 80 = MISSED_SUCCESS_THRESHOLD /\ bulk_exit 0 3 0 = SUCCESS.
Proof. vm_compute. repeat split. Qed.

(** ** C77 *)
(** The messages counted are those of the error outputs, and the one for builds that took too long. *)
Theorem C77_build_statistics : forall results min_rate, NoDup (map fst results) -> results <> [] ->
  let bad := filter (fun nr => match snd nr with Ended code _ => negb (code =? 0)%Z | TookTooLong => true end) results in
  exists t errors, rattler_bulk_build results min_rate = (bulk_exit (length results - length bad) (length results) min_rate, Some t)
  /\ br_files t = length results /\ br_processed t = length results
  /\ br_success t + br_errors t = length results /\ br_errors t = length bad /\ br_with_errors t = map fst bad
  /\ Forall2 (fun nr e => build_errors (snd nr) e) results errors /\ counts (br_hist t) (concat errors).
Proof. exact c77_statistics. Qed.
Print Assumptions C77_build_statistics.
(** The messages of an error output are unique. *)
Theorem C77_messages : forall p errors, build_errors p errors <-> bd_errors (build_recipe p) = errors.
Proof. exact c77_errors. Qed.
Print Assumptions C77_messages.
Example C77_messages_example :
  bd_errors (build_recipe (Ended 1 (nl ["  x Error: one Error: two"; "Error:"; ""; "  three"; "Error:four"]%string)))
  = [$"Error: one Error: two"; $"Error:" ++ [cNL; cNL] ++ $"  three"].
Proof. vm_compute. reflexivity. Qed.
Theorem C77_no_files : forall results min_rate, fst (rattler_bulk_build results min_rate) = NO_FILES_FOUND <-> results = [].
Proof.
  intros results min_rate. unfold rattler_bulk_build. destruct results as [|x l]; [split; reflexivity|]. split; [|discriminate].
  cbn [fst]. unfold bulk_exit. destruct (_ <=? _); discriminate.
Qed.
Print Assumptions C77_no_files.
Example C77_example :
  rattler_bulk_build [($"a", Ended 0 $""); ($"b", Ended 1 ($"x" ++ [cNL] ++ $"Error: bad thing")); ($"c", TookTooLong)] 50
  = (MISSED_SUCCESS_THRESHOLD, Some {| br_files := 3; br_processed := 3; br_success := 1; br_errors := 2; br_with_errors := [$"b"; $"c"];
       br_hist := [($"Error: bad thing", 1); ($"Recipe build dry-run timed out.", 1)] |}).
Proof. vm_compute. reflexivity. Qed.
