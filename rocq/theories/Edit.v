(** parser/recipe_parser.py: editing operations.  A method that may raise after mutating the object returns both the
    outcome and the object afterwards. *)
From Verif Require Export Reader.

Definition outcome (A : Type) := (res A * recipe)%type.
Definition with_root (r : recipe) (n : node) : recipe :=
  {| r_init := r_init r; r_root := n; r_schema := r_schema r; r_vars := r_vars r; r_sel := r_sel r; r_mod := r_mod r |}.
Definition with_vars (r : recipe) (v : vtbl) : recipe :=
  {| r_init := r_init r; r_root := r_root r; r_schema := r_schema r; r_vars := v; r_sel := r_sel r; r_mod := r_mod r |}.
Definition with_sel (r : recipe) (t : seltbl) : recipe :=
  {| r_init := r_init r; r_root := r_root r; r_schema := r_schema r; r_vars := r_vars r; r_sel := t; r_mod := r_mod r |}.
Definition mark_modified (r : recipe) : recipe :=
  {| r_init := r_init r; r_root := r_root r; r_schema := r_schema r; r_vars := r_vars r; r_sel := r_sel r; r_mod := true |}.
Definition rebuild_selectors (E : env) (r : recipe) : recipe := with_sel r (collect_selectors E (r_root r)).

(** * Sorting: recipe_parser.py 53-71, recipe_reader.py 504-520 *)
Definition MAXSIZE : Z := 9223372036854775807.
Definition sort_key (tbl : list (str * Z)) (n : node) : Z :=
  if is_comment n then (- MAXSIZE)%Z
  else match n_value n with
       | VJ (JStr s) => match dget s tbl with Some k => k | None => MAXSIZE end
       | _ => MAXSIZE
       end.
(** [list.sort(key=...)] is a stable sort; modelled as stable insertion sort. *)
Fixpoint insert_by {A} (key : A -> Z) (x : A) (l : list A) : list A :=
  match l with
  | [] => [x]
  | y :: l' => if (key x <=? key y)%Z then x :: l else y :: insert_by key x l'
  end.
Fixpoint sort_by {A} (key : A -> Z) (l : list A) : list A :=
  match l with
  | [] => []
  | x :: l' => insert_by key x (sort_by key l')
  end.
Definition sort_subtree_keys (root : node) (path : str) (tbl : list (str * Z)) (rename : str) : res node :=
  let! st := str_to_stack_path path in
  match traverse_pos root st with
  | None => Ok root
  | Some p => Ok (update_at p (fun n =>
                    let n' := if is_nil rename then n else set_value (VJ (JStr rename)) n in
                    set_children (sort_by (sort_key tbl) (n_children n')) n') root)
  end.

(** * Variables: recipe_parser.py 98-117, recipe_reader.py 1021-1052 *)
Definition set_variable (var : str) (v : json) (r : recipe) : recipe :=
  mark_modified (with_vars r (dset var v (r_vars r))).
Definition del_variable (var : str) (r : recipe) : recipe :=
  if dmem var (r_vars r) then mark_modified (with_vars r (ddel var (r_vars r))) else r.
Definition list_variables (r : recipe) : list str := dkeys (r_vars r).
Definition contains_variable (var : str) (r : recipe) : bool := dmem var (r_vars r).
Definition get_variable (var : str) (default : option json) (r : recipe) : res json :=
  match dget var (r_vars r) with
  | Some v => Ok v
  | None => match default with Some d => Ok d | None => Err EKey end
  end.

(** * Selectors and comments *)

(** recipe_reader.py 1087-1126.  [get_selector_paths] converts the stored path lists with [stack_path_to_str], which
    pops their elements: the stored lists are empty afterwards. *)
Definition list_selectors (r : recipe) : list str := dkeys (r_sel r).
Definition contains_selector (s : str) (r : recipe) : bool := dmem s (r_sel r).
Definition get_selector_paths (s : str) (r : recipe) : list str * recipe :=
  match dget s (r_sel r) with
  | None => ([], r)
  | Some infos =>
      (dedupe (map (fun i => fst (stack_path_to_str_mut (snd i))) infos),
       with_sel r (dset s (map (fun i => (fst i, snd (stack_path_to_str_mut (snd i)))) infos) (r_sel r)))
  end.
(** recipe_reader.py 1128-1139 *)
Definition contains_selector_at_path (path : str) (r : recipe) : res bool :=
  let! st := str_to_stack_path path in
  match traverse (r_root r) st with
  | None => Ok false
  | Some n => Ok (found SELECTOR (n_comment n))
  end.
(** recipe_reader.py 1141-1164 *)
Definition get_selector_at_path (path : str) (default : option str) (r : recipe) : res str :=
  let! st := str_to_stack_path path in
  match traverse (r_root r) st with
  | None => Err EKey
  | Some n =>
      match search_text SELECTOR (n_comment n) with
      | Some s => Ok s
      | None => match default with
                | Some d => if matched SELECTOR d then Ok d else Err EValue
                | None => Err EKey
                end
      end
  end.

(** parser/enums.py [SelectorConflictMode] *)
Inductive sel_mode := SMAnd | SMOr | SMReplace.
(** recipe_parser.py 146-148 [_extract_selector] *)
Definition extract_selector (s : str) : str :=
  rev (replace_first [cRB] [] (rev (replace_first [cLB] [] s))).
(** recipe_parser.py 150-164: the new comment *)
Definition new_selector_comment (old selector : str) (mode : sel_mode) : str :=
  let repl := match mode with SMReplace => true | _ => false end in
  if is_nil old || repl then $"# " ++ selector
  else match search_text SELECTOR old with
       | Some o =>
           let op := match mode with SMAnd => $"and" | _ => $"or" end in
           $"# [" ++ extract_selector o ++ $" " ++ op ++ $" " ++ extract_selector selector ++ $"]"
       | None => $"# " ++ selector ++ $" " ++ strip (replace_first [cHASH] [] old)
       end.
(** recipe_parser.py 166-170: the comment is set on the node and, for a single key, on its value *)
Definition put_comment (c : str) (n : node) : node :=
  let n' := set_comment c n in
  if is_single_key n' then set_children (map (set_comment c) (n_children n')) n' else n'.
(** recipe_parser.py 120-172 *)
Definition add_selector (E : env) (path selector : str) (mode : sel_mode) (r : recipe) : outcome unit :=
  match str_to_stack_path path with
  | Err e => (Err e, r)
  | Ok st =>
      match traverse_pos (r_root r) st with
      | None => (Err EKey, r)
      | Some p =>
          match node_at (r_root r) p with
          | None => (Err EKey, r)
          | Some n =>
              if negb (matched SELECTOR selector) then (Err EValue, r)
              else
                let c := new_selector_comment (n_comment n) selector mode in
                (Ok tt, mark_modified (rebuild_selectors E (with_root r (update_at p (put_comment c) (r_root r)))))
          end
      end
  end.
(** recipe_parser.py 192-201: the comment left after removing a selector *)
Definition comment_without_selector (old sel : str) : str :=
  let c := replace_all sel [] old in
  let c := replace_all $"# # " $"# " (replace_all $"#  " $"# " c) in
  if str_eqb (strip c) $"#" then [] else c.
(** recipe_parser.py 174-210 *)
Definition remove_selector (E : env) (path : str) (r : recipe) : outcome (option str) :=
  match str_to_stack_path path with
  | Err e => (Err e, r)
  | Ok st =>
      match traverse_pos (r_root r) st with
      | None => (Err EKey, r)
      | Some p =>
          match node_at (r_root r) p with
          | None => (Err EKey, r)
          | Some n =>
              match search_text SELECTOR (n_comment n) with
              | None => (Ok None, r)
              | Some sel =>
                  let c := comment_without_selector (n_comment n) sel in
                  (Ok (Some sel),
                   mark_modified (rebuild_selectors E (with_root r (update_at p (put_comment c) (r_root r)))))
              end
          end
      end
  end.
(** recipe_parser.py 232-247: the new comment *)
Definition new_comment (old comment : str) : str :=
  let c := match search_text SELECTOR old with
           | Some sel =>
               let c' := match comment with
                         | x :: t => if ceq x cHASH then strip t else comment
                         | [] => comment
                         end in
               $"# " ++ sel ++ $" " ++ c'
           | None => comment
           end in
  match c with
  | x :: _ => if ceq x cHASH then c else $"# " ++ c
  | [] => c
  end.
(** recipe_parser.py 214-253: the selector table is not rebuilt *)
Definition add_comment (path comment : str) (r : recipe) : outcome unit :=
  let comment := strip comment in
  if is_nil comment then (Err EValue, r)
  else if matched SELECTOR comment then (Err EValue, r)
  else
    match str_to_stack_path path with
    | Err e => (Err e, r)
    | Ok st =>
        match traverse_pos (r_root r) st with
        | None => (Err EKey, r)
        | Some p =>
            match node_at (r_root r) p with
            | None => (Err EKey, r)
            | Some n =>
                (Ok tt, mark_modified (with_root r (update_at p (put_comment (new_comment (n_comment n) comment)) (r_root r))))
            end
        end
    end.

(** recipe_reader.py 1168-1201 [get_comments_table] *)
Definition table_comment (n : node) : option str :=
  if is_comment n || is_nil (n_comment n) then None
  else
    let c := n_comment n in
    if found SELECTOR c then
      let c := strip (re_sub SELECTOR [] c) in
      let c := replace_first $"#  " $"# " (replace_first $"#  # " $"# " c) in
      if mem_str c [$""; $"#"] then None
      else match c with
           | x :: _ => if ceq x cHASH then Some c else Some ($"# " ++ c)
           | [] => None
           end
    else Some c.
Definition get_comments_table (E : env) (root : node) : list (str * str) :=
  fold_left (fun t np => match table_comment (fst np) with
                         | Some c => dset (stack_path_to_str (snd np)) c t
                         | None => t
                         end) (visits E root) [].

(** * JSON patch *)

(** recipe_parser.py 257-286 *)
Definition is_valid_patch_node (o : option node) (idx : option nat) : bool :=
  match o with
  | None => false
  | Some n =>
      if negb (n_lmf n) && negb (n_keyf n) && is_leaf n then false
      else match idx with
           | None => true
           | Some i =>
               match nth_error (virt_to_phys (n_children n)) i with
               | None => false
               | Some j => match nth_error (n_children n) j with
                           | Some c => n_lmf c
                           | None => true
                           end
               end
           end
  end.

Definition at_opt (root : node) (o : option position) : option node :=
  match o with Some p => node_at root p | None => None end.

Record add_target := { at_pos : option position; at_virt : option nat; at_phys : option nat;
                       at_create : str; at_append : bool }.
(** recipe_parser.py 288-319 *)
Definition patch_add_find_target (root : node) (path : stack) : res add_target :=
  match path with
  | [] => Ok {| at_pos := None; at_virt := None; at_phys := None; at_create := []; at_append := false |}
  | p0 :: rest0 =>
      let app := str_eqb p0 $"-" in
      let path := if app then rest0 else path in
      let! (o, v, i) := traverse_with_index root path in
      match o, app, path with
      | None, false, c :: rest1 =>
          let! (o2, v2, i2) := traverse_with_index root rest1 in
          Ok {| at_pos := o2; at_virt := v2; at_phys := i2; at_create := c; at_append := false |}
      | _, _, _ => Ok {| at_pos := o; at_virt := v; at_phys := i; at_create := []; at_append := app |}
      end
  end.

Definition insert_at {A} (i : nat) (new l : list A) : list A := firstn i l ++ new ++ skipn i l.
Definition remove_nth {A} (i : nat) (l : list A) : list A := firstn i l ++ skipn (S i) l.

(** Children for a list position: objects are wrapped in a collection node (recipe_parser.py 347-353, 416-423) *)
Definition as_list_members (value : json) (new : list node) : list node :=
  if is_prim value then map (set_lmf true) new
  else [Nd VSent [] new true MNone false].

(** recipe_parser.py 321-364; the returned root is unchanged unless the result is [Ok true] *)
Definition patch_add (E : env) (root : node) (path : stack) (value : json) : res bool * node :=
  match patch_add_find_target root path with
  | Err e => (Err e, root)
  | Ok t =>
      match at_pos t with
      | None => (Ok false, root)
      | Some p =>
          if negb (is_valid_patch_node (node_at root p) (at_virt t)) then (Ok false, root)
          else
            let value := if is_nil (at_create t) then value else JDict [(PStr (at_create t), value)] in
            match generate_subtree E value with
            | Err e => (Err e, root)
            | Ok new =>
                let new := if at_append t || match at_phys t with Some _ => true | None => false end
                           then as_list_members value new else new in
                let edit (n : node) : node :=
                  match at_phys t with
                  | Some i => set_children (insert_at i new (n_children n)) n
                  | None => if at_append t || negb (is_nil (at_create t))
                            then set_children (n_children n ++ new) n
                            else set_children new n
                  end in
                (Ok true, update_at p edit root)
            end
      end
  end.

(** index of the first child equal (Python ==) to a node *)
Fixpoint find_equal (x : node) (i : nat) (l : list node) : option nat :=
  match l with
  | [] => None
  | c :: l' => if node_eqb c x then Some i else find_equal x (S i) l'
  end.
(** recipe_parser.py 366-399 *)
Definition patch_remove (root : node) (path : stack) : res bool * node :=
  match path with
  | [] => (Ok false, root)
  | p0 :: parent_path =>
      let idx := if isdigit p0 then Some (int_of p0) else None in
      match traverse root path with
      | None => (Ok false, root)
      | Some to_rm =>
          if negb (is_valid_patch_node (Some to_rm) None) then (Ok false, root)
          else
            match traverse_pos root parent_path with
            | None => (Ok false, root)
            | Some pp =>
                match node_at root pp with
                | None => (Ok false, root)
                | Some n =>
                    if negb (is_valid_patch_node (Some n) idx) then (Ok false, root)
                    else
                      match idx with
                      | Some i =>
                          match nth_error (virt_to_phys (n_children n)) i with
                          | None => (Err EIndex, root)
                          | Some j => (Ok true, update_at pp (fun n => set_children (remove_nth j (n_children n)) n) root)
                          end
                      | None =>
                          match find_equal to_rm 0 (n_children n) with
                          | Some j => (Ok true, update_at pp (fun n => set_children (remove_nth j (n_children n)) n) root)
                          | None => (Ok false, root)
                          end
                      end
                end
            end
      end
  end.

(** recipe_parser.py 401-431 *)
Definition patch_replace (E : env) (root : node) (path : stack) (value : json) : res bool * node :=
  match traverse_with_index root path with
  | Err e => (Err e, root)
  | Ok (o, virt, phys) =>
      match o with
      | None => (Ok false, root)
      | Some p =>
          if negb (is_valid_patch_node (node_at root p) virt) then (Ok false, root)
          else
            match generate_subtree E value with
            | Err e => (Err e, root)
            | Ok new =>
                match phys with
                | Some i =>
                    let new := as_list_members value new in
                    (Ok true, update_at p (fun n =>
                       set_children (remove_nth (i + length new) (insert_at i new (n_children n))) n) root)
                | None => (Ok true, update_at p (set_children new) root)
                end
            end
      end
  end.

(** recipe_parser.py 458-476 *)
Definition patch_copy (E : env) (root : node) (path : stack) (from : str) : res bool * node :=
  match get_value E root from None None with
  | Err EKey => (Ok false, root)
  | Err e => (Err e, root)
  | Ok v => patch_add E root path v
  end.
(** recipe_parser.py 433-456 *)
Definition patch_move (E : env) (root : node) (path : stack) (from : str) : res bool * node :=
  match get_value E root from None None with
  | Err EKey => (Ok false, root)
  | Err e => (Err e, root)
  | Ok v =>
      match patch_add_find_target root path with
      | Err e => (Err e, root)
      | Ok t =>
          if negb (is_valid_patch_node (at_opt root (at_pos t)) (at_virt t)) then (Ok false, root)
          else
            match str_to_stack_path from with
            | Err e => (Err e, root)
            | Ok fs =>
                match patch_remove root fs with
                | (Ok true, root') => patch_add E root' path v
                | o => o
                end
            end
      end
  end.
(** recipe_parser.py 478-490 *)
Definition patch_test (E : env) (root : node) (path : str) (value : json) : res bool :=
  match get_value E root path None None with
  | Err EKey => Ok false
  | Err e => Err e
  | Ok v => Ok (json_eqb v value)
  end.

(** JSON_PATCH_SCHEMA (parser/types.py 35-101) *)
Inductive opk := OpAdd | OpRemove | OpReplace | OpMove | OpCopy | OpTest.
Definition op_of (s : str) : option opk :=
  if str_eqb s $"add" then Some OpAdd else if str_eqb s $"remove" then Some OpRemove
  else if str_eqb s $"replace" then Some OpReplace else if str_eqb s $"move" then Some OpMove
  else if str_eqb s $"copy" then Some OpCopy else if str_eqb s $"test" then Some OpTest else None.
Definition jget (k : string) (d : list (prim * json)) : option json := assoc_prim (PStr (lit k)) d.
Definition allowed_key (k : prim) : bool :=
  match k with PStr s => mem_str s [$"op"; $"path"; $"from"; $"value"] | _ => false end.
Definition is_some {A} (o : option A) : bool := match o with Some _ => true | None => false end.
Definition schema_valid (p : json) : bool :=
  match p with
  | JDict d =>
      forallb (fun kv => allowed_key (fst kv)) d &&
      match jget "op" d, jget "path" d with
      | Some (JStr o), Some (JStr path) =>
          negb (is_nil path) &&
          match jget "from" d with Some (JStr _) | None => true | _ => false end &&
          match op_of o with
          | Some OpAdd | Some OpReplace | Some OpTest => is_some (jget "value" d)
          | Some OpMove | Some OpCopy => is_some (jget "from" d)
          | Some OpRemove => true
          | None => false
          end
      | _, _ => false
      end
  | _ => false
  end.
Definition jstr_of (o : option json) : str := match o with Some (JStr s) => s | _ => [] end.
Definition jval_of (o : option json) : json := match o with Some j => j | None => JNull end.

(** recipe_parser.py 492-522 [_call_patch_op] *)
Definition call_patch_op (E : env) (op : opk) (path : str) (d : list (prim * json)) (root : node) : res bool * node :=
  match str_to_stack_path path with
  | Err e => (Err e, root)
  | Ok st =>
      match op with
      | OpRemove => patch_remove root st
      | OpAdd => patch_add E root st (jval_of (jget "value" d))
      | OpReplace => patch_replace E root st (jval_of (jget "value" d))
      | OpMove => patch_move E root st (jstr_of (jget "from" d))
      | OpCopy => patch_copy E root st (jstr_of (jget "from" d))
      | OpTest => (patch_test E root path (jval_of (jget "value" d)), root)
      end
  end.
(** recipe_parser.py 524-566 [patch] *)
Definition patch (E : env) (p : json) (r : recipe) : outcome bool :=
  if negb (schema_valid p) then (Err EPatchSchema, r)
  else
    match p with
    | JDict d =>
        let path := jstr_of (jget "path" d) in
        match op_of (jstr_of (jget "op" d)) with
        | None => (Err EPatchSchema, r)
        | Some op =>
            if (match op with OpMove => str_eqb path (jstr_of (jget "from" d)) | _ => false end) then (Ok true, r)
            else
              let '(o, root') := call_patch_op E op path d (r_root r) in
              let r' := with_root r root' in
              match o, op with
              | Ok true, OpTest => (Ok true, r')
              | Ok true, _ => (Ok true, mark_modified (rebuild_selectors E r'))
              | o, _ => (o, r')
              end
        end
    | _ => (Err EPatchSchema, r)
    end.

(** recipe_reader.py 1203-1226 [search]; the regular expression is an arbitrary predicate on text *)
Definition search (E : env) (rx : str -> bool) (include_comment : bool) (root : node) : list str :=
  map (fun np => stack_path_to_str (snd np))
      (filter (fun np =>
                 let n := fst np in
                 let value := stringify_yaml (n_value n) MNone in
                 let value := if include_comment && negb (is_nil (n_comment n))
                              then value ++ TAB ++ n_comment n else value in
                 is_leaf n && rx value) (visits E root)).
Fixpoint jset (k : str) (v : json) (d : list (prim * json)) : list (prim * json) :=
  match d with
  | [] => [(PStr k, v)]
  | (k', v') :: d' => if prim_eqb (PStr k) k' then (k', v) :: d' else (k', v') :: jset k v d'
  end.
(** recipe_parser.py 568-586; after the first failure the remaining paths are skipped ([and] short-circuits) *)
Fixpoint search_and_patch_loop (E : env) (paths : list str) (d : list (prim * json)) (ok : bool) (r : recipe)
  : outcome bool :=
  match paths with
  | [] => (Ok ok, r)
  | p :: ps =>
      let d' := jset $"path" (JStr p) d in
      if ok then
        match patch E (JDict d') r with
        | (Ok b, r') => search_and_patch_loop E ps d' b r'
        | (Err e, r') => (Err e, r')
        end
      else search_and_patch_loop E ps d' false r
  end.
Definition search_and_patch (E : env) (rx : str -> bool) (d : list (prim * json)) (include_comment : bool) (r : recipe)
  : outcome bool :=
  search_and_patch_loop E (search E rx include_comment (r_root r)) d true r.

(** recipe_parser.py 588-602 [diff]; difflib is an oracle *)
Definition diff (E : env) (unified : list str -> list str -> str) (r : recipe) : str :=
  if r_mod r then unified (splitlines (r_init r)) (splitlines (render E r)) else [].
