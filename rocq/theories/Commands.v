(** Model of conda_recipe_manager/commands: bump-recipe, patch, convert and rattler-bulk-build.  The outside world (files,
    network, child processes, the order in which background tasks finish) is a parameter; what a command does to it is a list
    of effects.  Log messages are not modelled. *)
From Verif Require Export Fetch Messages.

(** commands/utils/types.py 10-47 [ExitCode], the codes used here *)
Inductive exit_code :=
| SUCCESS | CLICK_USAGE | NO_FILES_FOUND | JSON_ERROR | IO_ERROR | MISSED_SUCCESS_THRESHOLD | TIMEOUT
| RENDER_WARNINGS | RENDER_ERRORS | PARSE_EXCEPTION | RENDER_EXCEPTION | READ_EXCEPTION | PRE_PROCESS_EXCEPTION
| ILLEGAL_OPERATION | PATCH_ERROR | HTTP_ERROR.
Definition exit_number (c : exit_code) : Z :=
  match c with
  | SUCCESS => 0 | CLICK_USAGE => 2 | NO_FILES_FOUND => 3 | JSON_ERROR => 4 | IO_ERROR => 5
  | MISSED_SUCCESS_THRESHOLD => 42 | TIMEOUT => 43 | RENDER_WARNINGS => 100 | RENDER_ERRORS => 101 | PARSE_EXCEPTION => 102
  | RENDER_EXCEPTION => 103 | READ_EXCEPTION => 104 | PRE_PROCESS_EXCEPTION => 105 | ILLEGAL_OPERATION => 106
  | PATCH_ERROR => 107 | HTTP_ERROR => 108
  end%Z.
(** How a command ends: with an exit code or with an exception that nobody catches. *)
Inductive finish := Exit (c : exit_code) | Raise (e : exn).
(** What a command does to the outside world.  A write that fails still counts as a write: opening the file has emptied it. *)
Inductive effect := Write (text : str) | Print (text : str).
(** [Path.read_text] *)
Inductive read_result := ReadOk (text : str) | ReadIO | ReadOther (e : exn).
(** A step of a command: go on with a value or end. *)
Inductive step (A : Type) := Go (a : A) | Stop (f : finish).
Arguments Go {A} _.
Arguments Stop {A} _.
Definition then_ {A B} (s : step A) (f : A -> step B) : step B := match s with Go a => f a | Stop x => Stop x end.
Notation "'do' x '<-' s ; k" := (then_ s (fun x => k)) (at level 200, x pattern, right associativity).
(** Exceptions end the command. *)
Definition lift {A} (x : res A) : step A := match x with Ok a => Go a | Err e => Stop (Raise e) end.

(** * commands/bump_recipe.py *)

(** parser/_types.py 136-138 *)
Definition PRE_PROCESS_JINJA_HASH_TYPE_KEY : re :=
  seqs [Alt (L "'") Eps; L "{{ "; Grp 1 (Alt (L "hash_type") (Alt (L "hash") (L "hashtype"))); L " }}"; Alt (L "'") Eps; L ":"].
(** recipe_parser.py 86-90: a set, so the order of the elements is unknown; the order is a parameter below. *)
Definition HASH_TYPE_VARIANTS : list str :=
  map (fun name => $"{% set " ++ name ++ $" = " ++ [cDQ] ++ $"sha256" ++ [cDQ] ++ $" %}" ++ [cNL])
    [$"hash_type"; $"hashtype"; $"hash"].
(** recipe_parser.py 76-94 [pre_process_remove_hash_type] *)
Definition pre_process_remove_hash_type (variants : list str) (content : str) : str :=
  re_sub PRE_PROCESS_JINJA_HASH_TYPE_KEY $"sha256:" (fold_left (fun s v => replace_all v [] s) variants content).

(** bump_recipe.py 30-38 [RecipePaths] *)
Definition BUILD_NUM : str := $"/build/number".
Definition SOURCE : str := $"/source".
Definition SINGLE_SHA_256 : str := $"/source/sha256".
Definition VERSION : str := $"/package/version".
(** bump_recipe.py 42 [_COMMON_HASH_VAR_NAMES] *)
Definition COMMON_HASH_VAR_NAMES : list str := [$"sha256"; $"hash"; $"hash_val"; $"hash_value"].

(** The payloads built by the command *)
Definition edit_payload (op path : str) (value : json) : json :=
  JDict [(PStr $"op", JStr op); (PStr $"path", JStr path); (PStr $"value", value)].
(** bump_recipe.py 84-97 [_exit_on_failed_patch] *)
Definition exit_on_failed_patch (E : env) (p : json) (r : recipe) : step recipe :=
  match patch E p r with
  | (Ok true, r') => Go r'
  | (Ok false, _) => Stop (Exit PATCH_ERROR)
  | (Err e, _) => Stop (Raise e)
  end.
(** [isinstance(x, int)]: Booleans are integers *)
Definition as_int (j : json) : option Z :=
  match j with JInt z => Some z | JBool b => Some (Z_of_bool b) | _ => None end.
(** bump_recipe.py 122-153 [_update_build_num] *)
Definition update_build_num (E : env) (increment : bool) (r : recipe) : step recipe :=
  match get_value E (r_root r) $"/build" None None with
  | Err EKey => Stop (Exit ILLEGAL_OPERATION)
  | Err e => Stop (Raise e)
  | Ok _ =>
      do has <- (if increment then lift (contains_value (r_root r) BUILD_NUM) else Go false);
      if has : bool then
        do v <- lift (get_value E (r_root r) BUILD_NUM None None);
        match as_int v with
        | None => Stop (Exit ILLEGAL_OPERATION)
        | Some n => exit_on_failed_patch E (edit_payload $"replace" BUILD_NUM (JInt (n + 1))) r
        end
      else exit_on_failed_patch E (edit_payload $"add" BUILD_NUM (JInt 0)) r
  end.
(** bump_recipe.py 156-177 [_update_version] *)
Definition update_version (E : env) (target : str) (r : recipe) : step recipe :=
  do old <- lift (get_variable $"version" (Some JNull) r);
  match old with
  | JNull =>
      do has <- lift (contains_value (r_root r) VERSION);
      exit_on_failed_patch E (edit_payload (if has : bool then $"replace" else $"add") VERSION (JStr target)) r
  | _ => Go (set_variable $"version" (JStr target) r)
  end.

(** The network as seen by the command: what happens in each attempt to fetch the archive of a source (named by its path in
    the recipe), the checksum function, and the order in which background tasks finish. *)
Record net := {
  n_fetch : str -> nat -> http_io;
  n_hash : str -> str;
  n_order : list (str * (str * str)) -> list (str * (str * str))
}.
(** bump_recipe.py 180-201: the checksum of the archive of one source, with a new fetcher *)
Definition sha_of_source (N : net) (path name url : str) : res str :=
  fst (fst (get_sha256 (n_hash N) (n_fetch N path) (new_http name url))).
(** bump_recipe.py 204-247 [_update_sha256_check_hash_var]; None: [_update_sha256] goes on *)
Definition check_hash_var (E : env) (N : net) (tbl : sdict source) (r : recipe) : step (option recipe) :=
  match filter (fun v => mem_str v COMMON_HASH_VAR_NAMES) (list_variables r) with
  | [hash_var] =>
      if length tbl =? 1 then
        match dget SOURCE tbl with
        | Some (SHttp name url) =>
            if mem_str SINGLE_SHA_256 (get_variable_references E hash_var r) then
              match sha_of_source N SOURCE name url with
              | Ok sha => Go (Some (set_variable hash_var (JStr sha) r))
              | Err EFetch => Stop (Exit HTTP_ERROR)
              | Err e => Stop (Raise e)
              end
            else Go None
        | _ => Go None
        end
      else Go None
  | _ => Go None
  end.
(** bump_recipe.py 284-286: the sources that are archives *)
Definition http_sources (tbl : sdict source) : list (str * (str * str)) :=
  flat_map (fun kv => match snd kv with SHttp name url => [(fst kv, (name, url))] | SGit _ _ => [] end) tbl.
(** bump_recipe.py 250-261 [_update_sha256_fetch_one], 292-304: the finished tasks in order *)
Fixpoint collect_hashes (N : net) (finished : list (str * (str * str))) (acc : sdict str) : step (sdict str) :=
  match finished with
  | [] => Go acc
  | (path, (name, url)) :: l =>
      match sha_of_source N path name url with
      | Ok sha => collect_hashes N l (dset (append_to_path path $"/sha256") sha acc)
      | Err EFetch => Stop (Exit HTTP_ERROR)
      | Err e => Stop (Raise e)
      end
  end.
(** bump_recipe.py 306-310 *)
Fixpoint write_hashes (E : env) (l : sdict str) (r : recipe) : step recipe :=
  match l with
  | [] => Go r
  | (path, sha) :: l' =>
      do has <- lift (contains_value (r_root r) path);
      do r' <- exit_on_failed_patch E (edit_payload (if has : bool then $"replace" else $"add") path (JStr sha)) r;
      write_hashes E l' r'
  end.
(** bump_recipe.py 264-317 [_update_sha256] *)
Definition update_sha256 (E : env) (N : net) (r : recipe) : step recipe :=
  do tbl <- lift (from_recipe E r true);
  if is_nil tbl then Go r
  else
    do o <- check_hash_var E N tbl r;
    match o with
    | Some r' => Go r'
    | None => do hashes <- collect_hashes N (n_order N (http_sources tbl)) []; write_hashes E hashes r
    end.

(** The options of the command.  Simplification: the retry interval is counted in some fixed unit of time. *)
Record bump_options := { b_build_num : bool; b_dry_run : bool; b_target : option str; b_interval : Z }.
(** bump_recipe.py 371-407: the steps between reading the file and the final output *)
Definition bump_steps (E : env) (N : net) (variants : list str) (o : bump_options) (content : str) : step recipe :=
  match new_recipe E (pre_process_remove_hash_type variants content) with
  | Err _ => Stop (Exit PARSE_EXCEPTION)
  | Ok r =>
      do r <- update_build_num E (b_build_num o) r;
      match b_target o with
      | None => Go r
      | Some target =>
          do _ <- lift (get_value E (r_root r) VERSION (Some JNull) (sub_vars r));
          do r <- update_version E target r;
          update_sha256 E N r
      end
  end.
(** bump_recipe.py 53-81 (checks of the options), 362-408 [bump_recipe].  [written] tells whether writing the file fails. *)
Definition bump_recipe (E : env) (N : net) (variants : list str) (o : bump_options) (file : read_result)
    (written : option exn) : finish * list effect :=
  if match b_target o with Some [] => true | _ => false end || (b_interval o <=? 0)%Z then (Exit CLICK_USAGE, [])
  else if negb (b_build_num o) && match b_target o with None => true | Some _ => false end then (Exit CLICK_USAGE, [])
  else
    match file with
    | ReadIO => (Exit IO_ERROR, [])
    | ReadOther e => (Raise e, [])
    | ReadOk content =>
        match bump_steps E N variants o content with
        | Stop f => (f, [])
        | Go r =>
            if b_dry_run o then (Exit SUCCESS, [Print (render E r)])
            else (match written with None => Exit SUCCESS | Some e => Raise e end, [Write (render E r)])
        end
    end.

(** * commands/patch.py *)

(** [json.loads(path.read_text())] *)
Inductive json_file := JsonData (j : json) | NotJson | JsonOther (e : exn).
(** patch.py 74-82: the loop over the patches *)
Fixpoint patch_loop (E : env) (ps : list json) (r : recipe) : step exit_code * recipe :=
  match ps with
  | [] => (Go SUCCESS, r)
  | p :: ps' =>
      match patch E p r with
      | (Ok true, r') => patch_loop E ps' r'
      | (Ok false, r') => (Go ILLEGAL_OPERATION, r')
      | (Err EPatchSchema, r') => (Go JSON_ERROR, r')
      | (Err e, r') => (Stop (Raise e), r')
      end
  end.
(** patch.py 21-49 [_pre_patch_validate], 59-85 [patch] *)
Definition patch_command (E : env) (patches : json_file) (file : read_result) (written : option exn)
    : finish * list effect :=
  match patches with
  | NotJson => (Exit JSON_ERROR, [])
  | JsonOther e => (Raise e, [])
  | JsonData j =>
      match file with
      | ReadIO => (Exit IO_ERROR, [])
      | ReadOther e => (Raise e, [])
      | ReadOk content =>
          match new_recipe E content with
          | Err _ => (Exit PARSE_EXCEPTION, [])
          | Ok r =>
              match patch_loop E (match j with JList l => l | _ => [j] end) r with
              | (Stop f, _) => (f, [])
              | (Go code, r') => (match written with None => Exit code | Some e => Raise e end, [Write (render E r')])
              end
          end
      end
  end.

(** * commands/convert.py *)

(** convert.py 31-41 [ConversionResult]; the name of the project and the path of the file are kept by the callers *)
Record conversion := { c_code : exit_code; c_content : str; c_messages : msg_table }.
(** convert.py 43-53 [set_return_code] *)
Definition set_return_code (c : conversion) : conversion :=
  let code := if 0 <? get_message_count ERROR (c_messages c) then RENDER_ERRORS
              else if 0 <? get_message_count WARNING (c_messages c) then RENDER_WARNINGS
              else c_code c in
  {| c_code := code; c_content := c_content c; c_messages := c_messages c |}.
(** convert.py 56-79 [_record_unrecoverable_failure] *)
Definition record_failure (c : conversion) (code : exit_code) (msg : str) : conversion :=
  {| c_code := code; c_content := c_content c; c_messages := add_message EXCEPTION msg (c_messages c) |}.
(** recipe_parser_convert.py 26-40 [__init__]: the recipe and the copy that is converted, which is
    made by rendering and reading *)
Definition new_convert (E : env) (content : str) : res (recipe * recipe) :=
  let! r := new_recipe E content in
  let! v := new_recipe E (render E r) in
  Ok (r, v).
(** convert.py 82-171 [convert_file].  [pre] is the pre-processing of the text and [to_v1] the conversion proper of the
    copy (see Convert.v); [output] says whether a file is to be written and whether that fails.  Simplification: the debugging output,
    which can be switched on and then also runs inside the guarded part, is not modelled. *)
Definition convert_file (E : env) (pre : str -> res str) (to_v1 : recipe -> res (str * msg_table)) (path : str)
    (file : read_result) (print_output : bool) (output : option (option exn)) : (exn + conversion) * list effect :=
  let start := {| c_code := SUCCESS; c_content := []; c_messages := new_table |} in
  match file with
  | ReadIO | ReadOther _ => (inr (record_failure start READ_EXCEPTION ($"EXCEPTION: Failed to read: " ++ path)), [])
  | ReadOk content =>
      match pre content with
      | Err _ => (inr (record_failure start PRE_PROCESS_EXCEPTION
                         $"EXCEPTION: An exception occurred while pre-processing the recipe file"), [])
      | Ok content =>
          match new_convert E content with
          | Err _ => (inr (record_failure start PARSE_EXCEPTION
                             $"EXCEPTION: An exception occurred while parsing the recipe file"), [])
          | Ok (r, copy) =>
              if negb (schema_eqb (r_schema r) SV0)
              then (inr (record_failure start ILLEGAL_OPERATION
                           $"ILLEGAL OPERATION: Only V0-formatted recipe files can be converted"), [])
              else
                match to_v1 copy with
                | Err _ => (inr (record_failure start RENDER_EXCEPTION
                                   $"EXCEPTION: An exception occurred while converting to the new recipe file"), [])
                | Ok (text, messages) =>
                    let c := {| c_code := SUCCESS; c_content := text; c_messages := messages |} in
                    match output with
                    | None => (inr (set_return_code c), if print_output then [Print text] else [])
                    | Some None => (inr (set_return_code c), [Write text])
                    | Some (Some e) => (inl e, [Write text])
                    end
                end
          end
      end
  end.

(** convert.py 263-371 [convert]: the report of the bulk operation.  Percentages and timings are left out, except for the
    success rate. *)
Record report := {
  t_files : nat; t_processed : nat; t_errors : nat; t_warnings : nat;
  t_with_except : list str; t_with_errors : list str; t_with_warnings : list str;
  t_success : nat; t_theoretical : Z;
  t_except_hist : sdict nat; t_errors_hist : sdict nat; t_warnings_hist : sdict nat
}.
(** convert.py 225-227, 317-319: counting an issue *)
Definition count_issue (h : sdict nat) (x : str) : sdict nat :=
  dset x (S (match dget x h with Some n => n | None => 0 end)) h.
Definition is_exception_code (c : exit_code) : bool :=
  match c with PARSE_EXCEPTION | READ_EXCEPTION | RENDER_EXCEPTION => true | _ => false end.
Definition is_success_code (c : exit_code) : bool := match c with SUCCESS | RENDER_WARNINGS => true | _ => false end.
(** convert.py 214-229 [_collect_issue_stats], 312-333: one result *)
Definition add_result (t : report) (nr : str * conversion) : report :=
  let '(name, r) := nr in
  let exceptions := get_messages EXCEPTION (c_messages r) in
  let errors := get_messages ERROR (c_messages r) in
  let warnings := get_messages WARNING (c_messages r) in
  let exc := is_exception_code (c_code r) in
  {| t_files := t_files t; t_processed := t_processed t;
     t_errors := t_errors t + length errors;
     t_warnings := t_warnings t + length warnings;
     t_with_except := if exc then t_with_except t ++ [name] else t_with_except t;
     t_with_errors := if is_nil errors then t_with_errors t else t_with_errors t ++ [name];
     t_with_warnings := if is_nil warnings then t_with_warnings t else t_with_warnings t ++ [name];
     t_success := if is_success_code (c_code r) && is_nil errors then S (t_success t) else t_success t;
     t_theoretical := t_theoretical t;
     t_except_hist := if exc then fold_left count_issue exceptions (t_except_hist t) else t_except_hist t;
     t_errors_hist := fold_left count_issue errors (t_errors_hist t);
     t_warnings_hist := fold_left count_issue warnings (t_warnings_hist t) |}.
(** convert.py 290-339; [results] in the order of the files.  [dict(...)] keeps the last result of a name. *)
Definition bulk_report (files : nat) (results : list (str * conversion)) : report :=
  let tbl := fold_left (fun d nr => dset (fst nr) (snd nr) d) results [] in
  let t := fold_left add_result tbl
    {| t_files := files; t_processed := length tbl; t_errors := 0; t_warnings := 0; t_with_except := []; t_with_errors := [];
       t_with_warnings := []; t_success := 0; t_theoretical := 0; t_except_hist := []; t_errors_hist := [];
       t_warnings_hist := [] |} in
  {| t_files := t_files t; t_processed := t_processed t; t_errors := t_errors t; t_warnings := t_warnings t;
     t_with_except := t_with_except t; t_with_errors := t_with_errors t; t_with_warnings := t_with_warnings t;
     t_success := t_success t;
     t_theoretical := Z.of_nat files - Z.of_nat (length (t_with_except t) + length (t_with_errors t));
     t_except_hist := t_except_hist t; t_errors_hist := t_errors_hist t; t_warnings_hist := t_warnings_hist t |}.
(** [round(a / b, 2)] in hundredths: to the nearest, halves to the even number.  Simplification: Python rounds the floating
    point number next to a/b, which may decide a half the other way. *)
Definition round_percent (a b : nat) : nat :=
  let q := 100 * a / b in
  let rem := 100 * a mod b in
  if 2 * rem <? b then q
  else if b <? 2 * rem then S q
  else if Nat.even q then q else S q.
(** convert.py 339, 371: the exit code; [min_rate] in hundredths.  Simplification: the option may have more than two
    decimals. *)
Definition bulk_exit (success files min_rate : nat) : exit_code :=
  if min_rate <=? round_percent success files then SUCCESS else MISSED_SUCCESS_THRESHOLD.

(** * commands/rattler_bulk_build.py *)

(** rattler_bulk_build.py 32-39 [BuildResult] *)
Record build := { bd_code : Z; bd_errors : list str }.
(** rattler_bulk_build.py 27 *)
Definition RATTLER_ERROR_REGEX : re := seqs [L "Error:"; WS1; DOTS].
(** What the child process does: exit with a code and an error output, or take too long. *)
Inductive process := Ended (code : Z) (stderr : str) | TookTooLong.
(** rattler_bulk_build.py 42-72 [build_recipe]; the command line is not modelled *)
Definition build_recipe (p : process) : build :=
  match p with
  | TookTooLong => {| bd_code := exit_number TIMEOUT; bd_errors := [$"Recipe build dry-run timed out."] |}
  | Ended code stderr => {| bd_code := code; bd_errors := findall RATTLER_ERROR_REGEX stderr |}
  end.
Record build_report := { br_files : nat; br_processed : nat; br_success : nat; br_errors : nat; br_with_errors : list str; br_hist : sdict nat }.
(** rattler_bulk_build.py 170-188 *)
Definition add_build (t : build_report) (nb : str * build) : build_report :=
  let '(name, b) := nb in
  let ok := (bd_code b =? exit_number SUCCESS)%Z in
  {| br_files := br_files t; br_processed := br_processed t;
     br_success := if ok then S (br_success t) else br_success t;
     br_errors := if ok then br_errors t else S (br_errors t);
     br_with_errors := if ok then br_with_errors t else br_with_errors t ++ [name];
     br_hist := fold_left count_issue (bd_errors b) (br_hist t) |}.
Definition build_statistics (files : nat) (tbl : sdict build) : build_report :=
  fold_left add_build tbl
    {| br_files := files; br_processed := length tbl; br_success := 0; br_errors := 0; br_with_errors := []; br_hist := [] |}.
(** rattler_bulk_build.py 75-106 [create_debug_file]: for each message the recipes that have it, most frequent first.  Text
    order is a parameter ([sort] of Python strings). *)
Definition error_groups (sort : list str -> list str) (tbl : sdict build) (hist : sdict nat) : list (str * list str) :=
  rev (sort_by (fun g : str * list str => Z.of_nat (length (snd g)))
        (rev (map (fun e => (e, sort (dkeys (filter (fun nb => mem_str e (bd_errors (snd nb))) tbl)))) (dkeys hist)))).
(** rattler_bulk_build.py 140-213 [rattler_bulk_build]; [results] in the order of the files *)
Definition rattler_bulk_build (results : list (str * process)) (min_rate : nat) : exit_code * option build_report :=
  match results with
  | [] => (NO_FILES_FOUND, None)
  | _ =>
      let tbl := fold_left (fun d nr => dset (fst nr) (build_recipe (snd nr)) d) results [] in
      let t := build_statistics (length results) tbl in
      (bulk_exit (br_success t) (length results) min_rate, Some t)
  end.
