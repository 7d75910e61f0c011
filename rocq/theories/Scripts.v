(** Model of scripts/parse_ci_output.py and scripts/randomly_select_recipes.py.  Printing and argument parsing are not
    modelled. *)
From Verif Require Export Regex Json Node.

(** * scripts/parse_ci_output.py *)

(** A JSON object; the keys of a JSON text are strings. *)
Definition jobject := list (prim * json).
(** Arithmetic of Python numbers, a parameter: [a + b] and [round(a / n, 2)]. *)
Record arith := { a_add : prim -> prim -> prim; a_mean : prim -> nat -> prim }.
(** parse_ci_output.py 42-43, 90: the statistics of a result.  Simplification: in [_summarize_tests] a value that is no object
    raises another exception or none; [aggregate_stats] then fails as here *)
Definition statistics_of (r : jobject) : res jobject :=
  let key := match assoc_prim (PStr $"stats") r with Some _ => $"stats" | None => $"statistics" end in
  match assoc_prim (PStr key) r with
  | None => Err EKey
  | Some (JDict d) => Ok d
  | Some _ => Err EAttr
  end.
(** [isinstance(value, (int, float))]: Booleans are integers *)
Definition numeric (j : json) : option prim :=
  match j with JP (PBool b) => Some (PBool b) | JP (PInt z) => Some (PInt z) | JP (PFloat f) => Some (PFloat f) | _ => None end.
(** parse_ci_output.py 43-50: one entry of a table; the sums so far and the keys to average, a set *)
Definition add_stat (A : arith) (s : sdict prim * list str) (kv : prim * json) : sdict prim * list str :=
  let '(sums, percents) := s in
  let key := prim_str (fst kv) in
  match numeric (snd kv) with
  | None => s
  | Some v =>
      (dset key (a_add A (match dget key sums with Some x => x | None => PInt 0 end) v) sums,
       if starts_with $"percent_" key && negb (mem_str key percents) then percents ++ [key] else percents)
  end.
Fixpoint add_tables (A : arith) (l : list jobject) (s : sdict prim * list str) : res (sdict prim * list str) :=
  match l with
  | [] => Ok s
  | r :: l' => let! d := statistics_of r in add_tables A l' (fold_left (add_stat A) d s)
  end.
(** parse_ci_output.py 26-55 [aggregate_stats]; the order in which the set of keys is walked through does not matter, as
    every key is dealt with once *)
Definition average (A : arith) (n : nat) (sums : sdict prim) (key : str) : sdict prim :=
  match dget key sums with Some x => dset key (a_mean A x n) sums | None => sums end.
Definition aggregate_stats (A : arith) (stats : list jobject) : res (sdict prim) :=
  let! s := add_tables A stats ([], []) in
  Ok (fold_left (average A (length stats)) (snd s) (fst s)).

(** parse_ci_output.py 71-79 *)
Definition FIELDS_TO_PULL : list str :=
  [$"percent_recipe_exceptions"; $"percent_recipe_errors"; $"percent_recipe_success"; $"percent_errors"; $"percent_success"].
Record test_entry := { te_count : nat; te_convert : sdict json; te_dry : sdict json }.
(** parse_ci_output.py 85: [Path(result["info"]["directory"]).name]; the name of a path is a parameter *)
Definition directory_of (r : jobject) : res str :=
  match assoc_prim (PStr $"info") r with
  | None => Err EKey
  | Some (JDict d) => match assoc_prim (PStr $"directory") d with None => Err EKey | Some (JStr s) => Ok s | Some _ => Err EType end
  | Some _ => Err EType
  end.
(** parse_ci_output.py 91-94: the fields of one result; a section that does not exist is an empty one here *)
Definition pull_fields (d : jobject) (section : sdict json) : sdict json :=
  fold_left (fun sec f => match assoc_prim (PStr f) d with Some v => dset f v sec | None => sec end) FIELDS_TO_PULL section.
(** parse_ci_output.py 83-94 [_summarize_tests] *)
Fixpoint summarize_tests (pname : str -> str) (convert : bool) (l : list jobject) (t : sdict test_entry) : res (sdict test_entry) :=
  match l with
  | [] => Ok t
  | r :: l' =>
      let! dir := directory_of r in
      let test := pname dir in
      let e := match dget test t with Some e => e | None => {| te_count := 0; te_convert := []; te_dry := [] |} end in
      let! d := statistics_of r in
      let e' := {| te_count := S (te_count e);
                   te_convert := if convert then pull_fields d (te_convert e) else te_convert e;
                   te_dry := if convert then te_dry e else pull_fields d (te_dry e) |} in
      summarize_tests pname convert l' (dset test e' t)
  end.
(** parse_ci_output.py 59-105 [generate_summary]; [sort] orders texts.  Names are different, so [sorted] never compares
    entries. *)
Record summary := { sm_convert : sdict prim; sm_dry : sdict prim; sm_tests : list (str * test_entry) }.
Definition generate_summary (A : arith) (pname : str -> str) (sort : list str -> list str) (convert dry : list jobject) : res summary :=
  let! t1 := summarize_tests pname true convert [] in
  let! t2 := summarize_tests pname false dry t1 in
  let! a := aggregate_stats A convert in
  let! b := aggregate_stats A dry in
  Ok {| sm_convert := a; sm_dry := b;
        sm_tests := flat_map (fun k => match dget k t2 with Some e => [(k, e)] | None => [] end) (sort (dkeys t2)) |}.

(** parse_ci_output.py 15; only the ASCII digits are digits here *)
Definition charset (s : string) : re := Chr (fun c => existsb (ceq c) (lit s)).
Definition D : re := Chr is_digit.
Definition ISO_8601_REGEX : re :=
  seqs [D; D; D; D; L "-"; charset "01"; D; L "-"; charset "0123"; D; L "T"; charset "012"; D; L ":"; charset "012345"; D; L ":";
        charset "012345"; D; L "."; D; StarC is_digit; L "Z"; Chr is_space].
(** parse_ci_output.py 134-140: Some true is a conversion, None an unknown object *)
Definition classify (data : jobject) : res (option bool) :=
  match assoc_prim (PStr $"info") data with
  | None => Ok None
  | Some info =>
      let! has := (match info with
                   | JDict d => Ok (match assoc_prim (PStr $"command_name") d with Some _ => true | None => false end)
                   | JList l => Ok (existsb (json_eqb (JStr $"command_name")) l)
                   | JStr s => Ok (contains_sub $"command_name" s)
                   | _ => Err EType
                   end) in
      if has : bool then
        match info with
        | JDict d => match assoc_prim (PStr $"command_name") d with
                     | Some v => Ok (Some (json_eqb v (JStr $"convert")))
                     | None => Err EKey
                     end
        | _ => Err EType
        end
      else Ok None
  end.
(** parse_ci_output.py 124-144: the lines of one file.  [loads] is [json.loads], None for a JSONDecodeError; a JSON text that
    ends with a brace is an object. *)
Fixpoint scan_lines (loads : str -> option jobject) (lines : list str) (i start : nat) (todo : list str)
    (acc : list jobject * list jobject) : res (list jobject * list jobject) :=
  match todo with
  | [] => Ok acc
  | line :: todo' =>
      let start := if str_eqb line $"{" then i else start in
      if str_eqb line $"}" then
        match loads (join [cNL] (firstn (S i - start) (skipn start lines))) with
        | None => scan_lines loads lines (S i) 0 todo' acc
        | Some data =>
            let! c := classify data in
            scan_lines loads lines (S i) start todo'
              (match c with
               | None => acc
               | Some true => (fst acc ++ [data], snd acc)
               | Some false => (fst acc, snd acc ++ [data])
               end)
        end
      else scan_lines loads lines (S i) start todo' acc
  end.
Definition log_lines (content : str) : list str := splitlines (re_sub ISO_8601_REGEX [] content).
(** parse_ci_output.py 108-145 [read_logs]; the files of the directory in some order *)
Record log_file := { lf_name : str; lf_is_dir : bool; lf_content : str }.
Fixpoint read_logs (loads : str -> option jobject) (files : list log_file) (acc : list jobject * list jobject) : res (list jobject * list jobject) :=
  match files with
  | [] => Ok acc
  | f :: files' =>
      if lf_is_dir f || str_eqb (lf_name f) $".DS_Store" then read_logs loads files' acc
      else
        let lines := log_lines (lf_content f) in
        let! acc' := scan_lines loads lines 0 0 lines acc in
        read_logs loads files' acc'
  end.

(** * scripts/randomly_select_recipes.py *)

(** What a request gives: a status and a text, or one of the exceptions of requests *)
Inductive http_answer := Answer (status : Z) (text : str) | RequestFailed.
(** randomly_select_recipes.py 26-29 *)
Definition url_options (org_repo : str) : list str :=
  map (fun branch => $"https://raw.githubusercontent.com/" ++ org_repo ++ $"/" ++ branch ++ $"/recipe/meta.yaml") [$"main"; $"master"].
(** randomly_select_recipes.py 37-46 *)
Fixpoint first_answer (get : str -> http_answer) (urls : list str) : option str :=
  match urls with
  | [] => None
  | url :: urls' =>
      match get url with
      | Answer status text => if Z.eqb status 200 then Some text else first_answer get urls'
      | RequestFailed => first_answer get urls'
      end
  end.
(** randomly_select_recipes.py 18-46 [fetch_repo]: the result and the file that is written, below the output directory.
    Writing is assumed to work. *)
Definition fetch_repo (get : str -> http_answer) (org_repo : str) : str * option (str * str) :=
  match find_sub [cSL] org_repo with
  | None => ([], None)
  | Some i =>
      let repo := skipn (S i) org_repo in
      match first_answer get (url_options org_repo) with
      | Some text => (org_repo, Some (repo ++ $"/recipe/meta.yaml", text))
      | None => ([], None)
      end
  end.
(** randomly_select_recipes.py 72-76: the lines of the file of excluded repositories *)
Definition excluded_repos (lines : list str) : list str := map strip lines.
(** randomly_select_recipes.py 79-91: the first columns of the rows, without the excluded ones.  Sets are lists here that may
    repeat elements; [sorted_set] turns the elements into a sorted list without repetitions; [sample l n] is [random.sample],
    None when it refuses. *)
Definition pick_repos (sorted_set : list str -> list str) (sample : list str -> nat -> option (list str))
    (rows : list (list str)) (excluded : list str) (num : Z) : option (list str) :=
  let all := flat_map (fun row => match row with x :: _ => [x] | [] => [] end) rows in
  let allowed := sorted_set (filter (fun x => negb (mem_str x excluded)) all) in
  if (Z.of_nat (length allowed) <=? num)%Z then Some allowed
  else if (num <? 0)%Z then None
  else sample allowed (Z.to_nat num).
(** randomly_select_recipes.py 98-104: the repositories that were fetched *)
Definition fetched_repos (sorted_set : list str -> list str) (get : str -> http_answer) (picked : list str) : list str :=
  filter (fun x => negb (is_nil x)) (sorted_set (map (fun r => fst (fetch_repo get r)) picked)).
