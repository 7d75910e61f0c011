(** parser/recipe_reader.py: path helpers, variable references and [render_to_object]. *)
From Verif Require Export Edit.

(** recipe_reader.py 965-983 [append_to_path] *)
Definition append_to_path (base ext : str) : str :=
  let base := if is_nil base then $"/" else base in
  let base := match last_char base with
              | Some c => if ceq c cSL then base else base ++ $"/"
              | None => base
              end in
  let ext := match ext with
             | c :: ext' => if ceq c cSL then ext' else ext
             | [] => ext
             end in
  base ++ ext.

(** [len(v)] of a value; TypeError for numbers, booleans and None *)
Definition json_len (j : json) : res nat :=
  match j with
  | JStr s => Ok (length s)
  | JList l => Ok (length l)
  | JDict d => Ok (length d)
  | _ => Err EType
  end.
(** recipe_reader.py 936-942 [is_multi_output] *)
Definition is_multi_output (root : node) : bool :=
  match traverse root [$"outputs"; $"/"] with Some _ => true | None => false end.
(** recipe_reader.py 944-962 [get_package_paths] *)
Definition get_package_paths (E : env) (root : node) : res (list str) :=
  let! outputs := get_value E root $"/outputs" (Some (JList [])) None in
  let! n := json_len outputs in
  Ok ($"/" :: map (fun i => $"/outputs/" ++ str_of_nat i) (seq 0 n)).

(** recipe_reader.py 1054-1083 [get_variable_references].
    The Python code pastes the name into a regular expression, where a dot stands for any character.
    Simplification: other special characters are taken literally (names from statements are usually made of word characters,
    dashes and dots). *)
Definition name_re (var : str) : re := seqs (map (fun c => if ceq c "."%char then Chr any_c else C c) var).
Definition var_ref_re (sv : schema) (var : str) : re :=
  seqs [ match sv with SV0 => L "{{" | SV1 => L "${{" end; DOTS; name_re var; DOTS; L "}}" ].
Definition get_variable_references (E : env) (var : str) (r : recipe) : list str :=
  if dmem var (r_vars r) then
    dedupe (map (fun np => stack_path_to_str (snd np))
                (filter (fun np => match n_value (fst np) with
                                   | VJ (JStr s) => found (var_ref_re (r_schema r) var) s
                                   | _ => false
                                   end) (visits E (r_root r))))
  else [].

(** * render_to_object: recipe_reader.py 720-801 *)

(** A node value used as a dictionary key.  Lists are unhashable.  Simplification: the sentinel object as a key (top
    level lists) is reported as an error here, Python would use the object itself as a key. *)
Definition obj_key (v : nval) : res prim :=
  match v with
  | VJ (JP p) => Ok p
  | VJ _ => Err EType
  | VSent => Err (EOther $"sentinel key")
  end.
(** [data[key]] *)
Definition obj_item (data : json) (k : prim) : res json :=
  match data with
  | JDict d => match assoc_prim k d with Some v => Ok v | None => Err EKey end
  | _ => Err EType
  end.
Fixpoint pset (k : prim) (v : json) (d : list (prim * json)) : list (prim * json) :=
  match d with
  | [] => [(k, v)]
  | (k', v') :: d' => if prim_eqb k k' then (k', v) :: d' else (k', v') :: pset k v d'
  end.
(** [data[key] = v] *)
Definition obj_put (data : json) (k : prim) (v : json) : res json :=
  match data with
  | JDict d => Ok (JDict (pset k v d))
  | _ => Err EType
  end.
(** [data.setdefault(key, v)] *)
Definition obj_setdefault (data : json) (k : prim) (v : json) : res json :=
  match data with
  | JDict d => match assoc_prim k d with Some _ => Ok data | None => Ok (JDict (pset k v d)) end
  | _ => Err EAttr
  end.
(** [key not in data] for a dictionary; every other type fails on the following item access *)
Definition obj_ensure_list (data : json) (k : prim) : res json :=
  match data with
  | JDict d => match assoc_prim k d with Some _ => Ok data | None => Ok (JDict (pset k (JList []) d)) end
  | _ => Err EType
  end.
(** [data[key].append(v)] *)
Definition obj_append (data : json) (k : prim) (v : json) : res json :=
  let! cur := obj_item data k in
  match cur with
  | JList l => obj_put data k (JList (l ++ [v]))
  | _ => Err EAttr
  end.
(** recipe_reader.py 742-748: the value of a child, after multiline normalisation and variable substitution *)
Definition obj_value (E : env) (p : jparser) (ch : node) : res json :=
  if is_multi (n_ml ch) then
    let! t := normalize_multiline (n_value ch) (n_ml ch) in
    match p with
    | Some (sv, vars) => yres_to_res (render_jinja_vars E sv vars t)
    | None => yres_to_res (yload E t)
    end
  else
    match n_value ch, p with
    | VJ (JStr s), Some (sv, vars) => yres_to_res (render_jinja_vars E sv vars s)
    | VJ j, _ => Ok j
    | VSent, _ => Ok JNull     (* the value of a collection node is never used *)
    end.
(** recipe_reader.py 720-779 [_render_object_tree]; [p] is None when [replace_variables] is False *)
Fixpoint render_object_tree (E : env) (p : jparser) (n : node) (data : json) {struct n} : res json :=
  match n with
  | Nd v cm chs l ml k =>
      if is_comment (Nd v cm chs l ml k) then Ok data
      else
        (fix go (cs : list node) (data : json) {struct cs} : res json :=
           match cs with
           | [] => Ok data
           | ch :: cs' =>
               if is_comment ch then go cs' data
               else
                 let! value := obj_value E p ch in
                 let! key := obj_key v in
                 let! data' :=
                   (if is_empty_key ch then
                      let! cur := obj_item data key in
                      let! k2 := obj_key (n_value ch) in
                      let! cur' := obj_put cur k2 JNull in
                      obj_put data key cur'
                    else if is_collection ch then
                      match ch with
                      | Nd _ _ es _ _ _ =>
                          let! elem := (fix go2 (es : list node) (e : json) {struct es} : res json :=
                                          match es with
                                          | [] => Ok e
                                          | x :: es' => let! e' := render_object_tree E p x e in go2 es' e'
                                          end) es (JDict []) in
                          let! cur := obj_item data key in
                          let! n := json_len cur in
                          let! data1 := (if n =? 0 then obj_put data key (JList []) else Ok data) in
                          obj_append data1 key elem
                      end
                    else if n_lmf ch then
                      let! data1 := obj_ensure_list data key in
                      obj_append data1 key value
                    else if is_leaf ch then obj_put data key value
                    else
                      let! data1 := obj_setdefault data key (JDict []) in
                      let! sub := obj_item data1 key in
                      let! sub' := render_object_tree E p ch sub in
                      obj_put data1 key sub') in
                 go cs' data'
           end) chs data
  end.
(** recipe_reader.py 781-801 [render_to_object] *)
Definition render_to_object (E : env) (p : jparser) (root : node) : res json :=
  fold_left (fun acc ch =>
               let! data := acc in
               if is_comment ch then Ok data
               else
                 let! key := obj_key (n_value ch) in
                 let! data1 := obj_setdefault data key (JDict []) in
                 render_object_tree E p ch data1)
            (n_children root) (Ok (JDict [])).

(** recipe_reader.py 1228-1235 [calc_sha256]; [hash] stands for the SHA-256 digest of the encoded text (utils.hash_str). *)
Definition calc_sha256 (hash : str -> str) (E : env) (r : recipe) : str := hash (render E r).

(** * Sort tables: parser/_types.py 25-101 [CanonicalSortOrder] *)
(** parser/_types.py 34-48 *)
Definition TOP_LEVEL_SORT : list (str * Z) :=
  [($"schema_version", 0%Z); ($"context", 10%Z); ($"package", 20%Z); ($"recipe", 30%Z); ($"source", 40%Z);
   ($"files", 50%Z); ($"build", 60%Z); ($"requirements", 70%Z); ($"outputs", 80%Z); ($"test", 90%Z); ($"tests",
   100%Z); ($"about", 110%Z); ($"extra", 120%Z)].
(** parser/_types.py 51-70 *)
Definition V1_SOURCE_SECTION_SORT : list (str * Z) :=
  [($"url", 0%Z); ($"sha256", 10%Z); ($"md5", 20%Z); ($"path", 30%Z); ($"use_gitignore", 40%Z); ($"git", 50%Z);
   ($"branch", 60%Z); ($"tag", 70%Z); ($"rev", 80%Z); ($"depth", 90%Z); ($"lfs", 100%Z); ($"target_directory",
   120%Z); ($"file_name", 130%Z); ($"patches", 140%Z)].
(** parser/_types.py 73-86 *)
Definition V1_BUILD_SECTION_SORT : list (str * Z) :=
  [($"number", 0%Z); ($"string", 10%Z); ($"skip", 20%Z); ($"noarch", 30%Z); ($"script", 40%Z);
   ($"merge_build_and_host_envs", 50%Z); ($"always_include_files", 60%Z); ($"always_copy_files", 70%Z);
   ($"variant", 80%Z); ($"python", 90%Z); ($"prefix_detection", 100%Z); ($"dynamic_linking", 110%Z)].
(** parser/_types.py 89-95 *)
Definition V1_TEST_SECTION_SORT : list (str * Z) :=
  [($"script", 0%Z); ($"requirements", 10%Z); ($"files", 20%Z); ($"python", 30%Z); ($"downstream", 40%Z)].
(** parser/_types.py 98-101 *)
Definition V1_PYTHON_TEST_SORT : list (str * Z) :=
  [($"imports", 0%Z); ($"pip_check", 10%Z)].
