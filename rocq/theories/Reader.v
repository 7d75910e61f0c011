(** parser/recipe_reader.py: YAML line parsing, tree construction, rendering and value access. *)
From Verif Require Export Traverse.

(** parser/enums.py [SchemaVersion] *)
Inductive schema := SV0 | SV1.
Definition schema_eqb (a b : schema) : bool :=
  match a, b with SV0, SV0 | SV1, SV1 => true | _, _ => false end.

(** * Jinja variable substitution *)

(** recipe_reader.py 229-239 [_set_on_schema_version] *)
Definition jinja_start (sv : schema) : nat := match sv with SV0 => 2 | SV1 => 3 end.
Definition jinja_re (sv : schema) : re := match sv with SV0 => JINJA_V0_SUB | SV1 => JINJA_V1_SUB end.

Definition drop_last (n : nat) (s : str) : str := firstn (length s - n) s.

Record jkey := { jk_key : str; jk_lower : bool; jk_upper : bool; jk_idx : option nat; jk_add : option (str * str) }.
(** recipe_reader.py 241-274 [_set_key_and_matches] *)
Definition set_key_and_matches (key : str) : jkey :=
  let '(key, lo) := match search_text JINJA_FUNCTION_LOWER key with
                    | Some t => (strip (replace_all t [] key), true)
                    | None => (key, false)
                    end in
  let '(key, up) := match search_text JINJA_FUNCTION_UPPER key with
                    | Some t => (strip (replace_all t [] key), true)
                    | None => (key, false)
                    end in
  let '(key, ix) := match re_search JINJA_FUNCTION_IDX_ACCESS key with
                    | Some x => match group 2 key x with
                                | Some d => (strip (replace_all ($"[" ++ d ++ $"]") [] key), Some (int_of d))
                                | None => (key, None)
                                end
                    | None => (key, None)
                    end in
  let add := match re_search JINJA_FUNCTION_ADD_CONCAT key with
             | Some x => match group 1 key x, group 2 key x with
                         | Some a, Some b => Some (a, b)
                         | _, _ => None
                         end
             | None => None
             end in
  {| jk_key := key; jk_lower := lo; jk_upper := up; jk_idx := ix; jk_add := add |}.

Definition vtbl := sdict json.

(** recipe_reader.py 276-301 [_eval_jinja_token] *)
Definition eval_jinja_token (E : env) (vars : vtbl) (s : str) : json :=
  match dget s vars with
  | Some v => v
  | None =>
      if isdigit s then JInt (Z.of_nat (int_of s))
      else match to_float E s with
           | Some r => JFloat r
           | None =>
               match s, rev s with
               | a :: s', b :: _ => if ceq a b && is_quote a then JStr (removelast s') else JStr s
               | _, _ => JStr s
               end
           end
  end.

(** [isinstance(v, (int, float))] and [str(lhs + rhs)] *)
Definition is_num (j : json) : option prim :=
  match j with JP (PInt z) => Some (PInt z) | JP (PBool b) => Some (PInt (Z_of_bool b))
             | JP (PFloat r) => Some (PFloat r) | _ => None end.
Definition add_text (E : env) (l r : json) : str :=
  match is_num l, is_num r with
  | Some (PInt a), Some (PInt b) => str_of_Z (a + b)
  | Some a, Some b => num_add E a b
  | _, _ => cDQ :: json_str l ++ json_str r ++ [cDQ]
  end.

(** One iteration of the loop of [_render_jinja_vars] (recipe_reader.py 317-352). *)
Definition render_jinja_one (E : env) (sv : schema) (vars : vtbl) (s : str) (mt : str) : str :=
  let key := strip (drop_last 2 (skipn (jinja_start sv) mt)) in
  let k := set_key_and_matches key in
  match jk_add k with
  | Some (a, b) => replace_all mt (add_text E (eval_jinja_token E vars a) (eval_jinja_token E vars b)) s
  | None =>
      match dget (jk_key k) vars with
      | Some v =>
          let value := json_str v in
          let value := if jk_lower k then lower value else value in
          let value := if jk_upper k then upper value else value in
          let value := match jk_idx k with
                       | Some i => match nth_error value i with Some c => [c] | None => value end
                       | None => value
                       end in
          replace_all mt value s
      | None =>
          match sv with
          | SV0 => if str_eqb (firstn 2 s) $"{{" then "$"%char :: s else s
          | SV1 => s
          end
      end
  end.
(** recipe_reader.py 303-353 [_render_jinja_vars] *)
Definition render_jinja_text (E : env) (sv : schema) (vars : vtbl) (s : str) : str :=
  fold_left (render_jinja_one E sv vars) (findall (jinja_re sv) s) s.
Definition render_jinja_vars (E : env) (sv : schema) (vars : vtbl) (s : str) : yres :=
  yload E (render_jinja_text E sv vars s).

(** * YAML parsing *)

(** recipe_reader.py 62-81 [_parse_yaml_recursive_sub] with the modifier [_render_jinja_vars].
    The result of the modifier is itself traversed, so the recursion is bounded by Python's recursion limit. *)
Fixpoint recursive_sub_vars (fuel : nat) (f : str -> yres) (data : json) : yres :=
  match fuel with
  | 0 => YFail
  | S fuel' =>
      let go_list := fix go (l : list json) : option (list json) + yres :=
        match l with
        | [] => inl (Some [])
        | x :: l' => match recursive_sub_vars fuel' f x with
                     | YOk y => match go l' with
                                | inl (Some l'') => inl (Some (y :: l''))
                                | e => e
                                end
                     | e => inr e
                     end
        end in
      let go_dict := fix go (d : list (prim * json)) : option (list (prim * json)) + yres :=
        match d with
        | [] => inl (Some [])
        | (k, x) :: d' => match recursive_sub_vars fuel' f x with
                          | YOk y => match go d' with
                                     | inl (Some d'') => inl (Some ((k, y) :: d''))
                                     | e => e
                                     end
                          | e => inr e
                          end
        end in
      let coll (d : json) : yres :=
        match d with
        | JList l => match go_list l with inl (Some l') => YOk (JList l') | inl None => YFail | inr e => e end
        | JDict l => match go_dict l with inl (Some l') => YOk (JDict l') | inl None => YFail | inr e => e end
        | JP _ => YOk d
        end in
      match data with
      | JStr s => match f (quote_special_strings s MNone) with
                  | YOk d => coll d
                  | e => e
                  end
      | d => coll d
      end
  end.

(** The same function with the modifier [substitute_markers] (recipe_reader.py 125-127); the list of
    substitutions is consumed along the traversal. *)
Fixpoint recursive_sub_markers (data : json) (subs : list str) : json * list str :=
  match data with
  | JStr s => let '(s', subs') := substitute_markers_mut subs (quote_special_strings s MNone) in (JStr s', subs')
  | JP p => (JP p, subs)
  | JList l =>
      let '(l', subs') :=
        (fix go (l : list json) (subs : list str) : list json * list str :=
           match l with
           | [] => ([], subs)
           | x :: l' => let '(y, subs1) := recursive_sub_markers x subs in
                        let '(ys, subs2) := go l' subs1 in (y :: ys, subs2)
           end) l subs in
      (JList l', subs')
  | JDict d =>
      let '(d', subs') :=
        (fix go (d : list (prim * json)) (subs : list str) : list (prim * json) * list str :=
           match d with
           | [] => ([], subs)
           | (k, x) :: d' => let '(y, subs1) := recursive_sub_markers x subs in
                             let '(ys, subs2) := go d' subs1 in ((k, y) :: ys, subs2)
           end) d subs in
      (JDict d', subs')
  end.

(** The optional [parser] argument of [_parse_yaml]: schema version and variables of the recipe. *)
Definition jparser := option (schema * vtbl).
Definition sub_jinja (E : env) (p : jparser) (j : json) : yres :=
  match p with
  | None => YOk j
  | Some (sv, vars) => recursive_sub_vars (rec_limit E) (render_jinja_vars E sv vars) j
  end.
Definition ybind (r : yres) (f : json -> yres) : yres := match r with YOk j => f j | e => e end.
Definition yres_to_res (r : yres) : res json := match r with YOk j => Ok j | _ => Err EYaml end.

(** recipe_reader.py 83-129 [_parse_yaml] *)
Definition parse_yaml (E : env) (s : str) (p : jparser) : res json :=
  let first := ybind (yload E s) (sub_jinja E p) in
  let second := match first with
                | YScan => ybind (yload E (quote_special_strings s MNone)) (sub_jinja E p)
                | r => r
                end in
  match second with
  | YOk j => Ok j
  | _ =>
      let subs := findall JINJA_V0_SUB s in
      let s' := re_sub JINJA_V0_SUB SUB_MARKER s in
      yres_to_res (ybind (yload E s') (fun j => sub_jinja E p (fst (recursive_sub_markers j subs))))
  end.

(** recipe_reader.py 131-198 [_parse_line_node] *)
Definition line_comment (s : str) : str :=
  match re_search DETECT_TRAILING_COMMENT s with
  | Some x => match group_start 2 x with Some i => skipn i s | None => [] end
  | None => []
  end.
Definition key_line_node (k : prim) (v : json) (comment : str) : node :=
  let children := match v with
                  | JNull => []
                  | _ => [Nd (VJ v) comment [] false MNone false]
                  end in
  Nd (VJ (JP k)) comment children false MNone true.
Definition parse_line_node (E : env) (s : str) : res node :=
  let! output := parse_yaml E s None in
  if starts_with [cHASH] s then Ok (Nd VSent s [] false MNone false)
  else
    let comment := line_comment s in
    match output with
    | JDict [] => Err EIndex
    | JDict ((k, v) :: _) => Ok (key_line_node k v comment)
    | JList [] => Err EIndex
    | JList (JDict [] :: _) => Err EIndex
    | JList (JDict ((k, v) :: _) :: _) =>
        Ok (Nd VSent comment [key_line_node k v comment] true MNone false)
    | JList (x :: _) => Ok (Nd (VJ x) comment [] true MNone false)
    | j => Ok (Nd (VJ j) comment [] false MNone false)
    end.

(** * Tree construction: recipe_reader.py 410-486 *)

(** The inner loop 443-460: collects the lines of a multiline value; None when the file ends first
    ([lines[line_idx]] raises IndexError). *)
Fixpoint take_multiline (new_indent : nat) (lines : list str) : option (list str) :=
  match lines with
  | [] => None
  | l :: ls => if (new_indent <? num_tab_spaces l) || is_nil l
               then option_map (cons (strip l)) (take_multiline new_indent ls)
               else Some []
  end.

Record pstate := { p_root : node; p_stack : list position; p_indent : nat; p_last : position }.
Definition init_pstate : pstate :=
  {| p_root := root_node []; p_stack := [[]]; p_indent := 0; p_last := [] |}.

Fixpoint pop_n {A} (n : nat) (l : list A) : option (list A) :=
  match n with
  | 0 => Some l
  | S n' => match l with [] => None | _ :: l' => pop_n n' l' end
  end.

Definition append_child (c : node) (n : node) : node := set_children (n_children n ++ [c]) n.

(** Lines 461-485: choose the parent from the indentation and append the node. *)
Definition place_node (st : pstate) (new_indent : nat) (new_node : node) : res pstate :=
  let! stack :=
    (if p_indent st <? new_indent then
       match node_at (p_root st) (p_last st) with
       | None => Err EIndex
       | Some last =>
           let stk := p_last st :: p_stack st in
           if is_collection last
              && negb (match n_children last with c :: _ => is_single_key c | [] => true end)
           then Ok ((p_last st ++ [0]) :: stk)
           else Ok stk
       end
     else if new_indent <? p_indent st then
       match pop_n ((p_indent st - new_indent) / TAB_SPACE_COUNT) (p_stack st) with
       | Some stk => Ok stk
       | None => Err EIndex
       end
     else Ok (p_stack st)) in
  match stack with
  | [] => Err EIndex
  | parent :: _ =>
      match node_at (p_root st) parent with
      | None => Err EIndex
      | Some pn =>
          Ok {| p_root := update_at parent (append_child new_node) (p_root st);
                p_stack := stack;
                p_indent := new_indent;
                p_last := parent ++ [length (n_children pn)] |}
      end
  end.

(** Lines 431-460: the node of one line, together with the number of following lines it consumes. *)
Definition line_to_node (E : env) (line : str) (following : list str) : res (node * nat) :=
  let! new_node := parse_line_node E (strip line) in
  match re_match MULTILINE line with
  | None => Ok (new_node, 0)
  | Some x =>
      let variant := match group 1 line x with Some c => c | None => [] end
                     ++ match group 2 line x with Some c => c | None => [] end in
      match mlv_of_str variant with
      | None => Err EValue
      | Some v =>
          match take_multiline (num_tab_spaces line) following with
          | None => Err EIndex
          | Some vals =>
              Ok (set_children [Nd (VJ (JList (map (fun l => JStr l) vals))) [] [] false v false] new_node,
                  length vals)
          end
      end
  end.

(** The outer loop 424-485; [skip] lines have already been consumed by a multiline value. *)
Fixpoint parse_loop (E : env) (st : pstate) (skip : nat) (lines : list str) : res pstate :=
  match lines with
  | [] => Ok st
  | line :: ls =>
      match skip with
      | S k => parse_loop E st k ls
      | 0 =>
          if is_nil (strip line) then parse_loop E st 0 ls
          else
            let! (new_node, used) := line_to_node E line ls in
            let! st' := place_node st (num_tab_spaces line) new_node in
            parse_loop E st' used ls
      end
  end.
Definition parse_lines (E : env) (lines : list str) : res node :=
  let! st := parse_loop E init_pstate 0 lines in Ok (p_root st).
(** recipe_reader.py 412: Jinja lines are removed, then the text is split into lines. *)
Definition parse_tree (E : env) (content : str) : res node :=
  parse_lines E (splitlines (re_sub JINJA_V0_LINE [] content)).

(** * Rendering: recipe_reader.py 590-692 [_render_tree].
    [d] is the Python [depth] plus one (Python starts at -1). *)
Definition dspaces (d : nat) : str := spaces (TAB_SPACE_COUNT * (d - 1)).
Definition f_first_coll (n : node) (parent : option node) : bool :=
  match parent with
  | Some p => is_collection p && match n_children p with c :: _ => node_eqb n c | [] => false end
  | None => false
  end.

Definition render_single (E : env) (n : node) (d : nat) (first : bool) (c : node) : list str :=
  let sp := dspaces d in
  let sp1 := dspaces (d - 1) in
  let val := nval_str E (n_value n) in
  if n_lmf c then
    [ rstrip ((if first then sp1 ++ $"- " else sp) ++ val ++ $":  " ++ n_comment n);
      rstrip (sp ++ TAB ++ $"- " ++ stringify_yaml (n_value c) (n_ml c) ++ $"  " ++ n_comment c) ]
  else if first then
    [ rstrip (sp1 ++ $"- " ++ val ++ $": " ++ stringify_yaml (n_value c) MNone ++ $"  " ++ n_comment c) ]
  else if is_multi (n_ml c) then
    rstrip (sp ++ val ++ $": " ++ mlv_str (n_ml c) ++ $"  " ++ n_comment n)
    :: map (fun j => rstrip (sp ++ TAB ++ stringify_yaml (VJ j) (n_ml c)))
           (match n_value c with VJ (JList l) => l | VJ (JStr s) => map (fun a => JStr [a]) s | _ => [] end)
  else
    [ rstrip (sp ++ val ++ $": " ++ stringify_yaml (n_value c) MNone ++ $"  " ++ n_comment c) ].

Fixpoint render_tree (E : env) (n : node) (d : nat) (parent : option node) {struct n} : list str :=
  match n with
  | Nd v cm chs l ml k =>
      let n' := Nd v cm chs l ml k in
      let first := f_first_coll n' parent in
      let sp := dspaces d in
      let body :=
        let visible := (0 <? d) && negb (is_collection n') in
        let delta := if visible && l then 2 else 1 in
        let head := if visible then
                      [ rstrip ((if first then skipn TAB_SPACE_COUNT sp else sp)
                                ++ (if l || first then $"- " else []) ++ nval_str E v ++ $":  " ++ cm) ]
                    else [] in
        let tab := if d =? 0 then [] else TAB in
        head ++
        (fix go (cs : list node) : list str :=
           match cs with
           | [] => []
           | c :: cs' =>
               (if is_comment c then [ rstrip (sp ++ tab ++ n_comment c) ]
                else if is_empty_key c then
                  [ rstrip (sp ++ tab ++ stringify_yaml (n_value c) MNone ++ $":  " ++ n_comment c) ]
                else if is_leaf c then
                  [ rstrip (sp ++ tab ++ $"- " ++ stringify_yaml (n_value c) MNone ++ $"  " ++ n_comment c) ]
                else render_tree E c (d + delta) (Some n'))
               ++ (if (d =? 0) && negb (is_comment c) then [[]] else [])
               ++ go cs'
           end) chs in
      match k, chs with
      | true, [c] => if is_leaf c then render_single E n' d first c else body
      | _, _ => body
      end
  end.

(** Rendering from the root (or from any node, as [get_value] does): depth -1, no parent. *)
Definition render_lines (E : env) (n : node) : list str := render_tree E n 0 None.
Definition NLs : str := [cNL].

(** recipe_reader.py 694-718 [render] *)
Definition var_line (kv : str * json) : str :=
  let '(k, v) := kv in
  $"{% set " ++ k ++ $" = " ++ (match v with JStr s => cDQ :: s ++ [cDQ] | _ => json_str v end) ++ $" %}".
Definition var_lines (sv : schema) (vars : vtbl) : list str :=
  match sv with
  | SV0 => map var_line vars ++ (match vars with [] => [] | _ => [[]] end)
  | SV1 => []
  end.
Definition render_all (E : env) (sv : schema) (vars : vtbl) (root : node) : str :=
  join NLs (var_lines sv vars ++ render_lines E root).

(** * Value access: recipe_reader.py 831-886 [get_value] *)
Definition get_value_node (E : env) (n : node) (p : jparser) : res json :=
  let child := match n_children n with c :: _ => Some c | [] => None end in
  let single := if is_single_key n && negb (is_root n) then child else None in
  match single with
  | Some c =>
      if is_multi (n_ml c) then
        let! t := normalize_multiline (n_value c) (n_ml c) in
        match p with
        | Some (sv, vars) => yres_to_res (render_jinja_vars E sv vars t)
        | None => yres_to_res (yload E t)
        end
      else
        match n_value c with
        | VJ (JStr s) =>
            let! v := parse_yaml E s p in
            match v with
            | JList _ => Ok v
            | _ => if n_lmf c then Ok (JList [v]) else Ok v
            end
        | VJ j => Ok j
        | VSent => Ok JNull   (* unreachable for parsed trees: the sentinel object itself would be returned *)
        end
  | None =>
      let text := if is_leaf n then
                    match n_value n with VJ (JStr s) => inl s | VJ j => inr j | VSent => inr JNull end
                  else inl (join NLs (render_lines E n)) in
      match text with
      | inr j => Ok j
      | inl s =>
          let! v := parse_yaml E s p in
          match v, n_children n with
          | JList _, _ => Ok v
          | _, [c] => if n_lmf c then Ok (JList [v]) else Ok v
          | _, _ => Ok v
          end
      end
  end.
Definition get_value (E : env) (root : node) (path : str) (default : option json) (p : jparser) : res json :=
  let! st := str_to_stack_path path in
  match traverse root st with
  | None => match default with None => Err EKey | Some d => Ok d end
  | Some n => get_value_node E n p
  end.
(** recipe_reader.py 820-829 *)
Definition contains_value (root : node) (path : str) : res bool :=
  let! st := str_to_stack_path path in
  Ok (match traverse root st with Some _ => true | None => false end).
(** recipe_reader.py 805-818 *)
Definition list_value_paths (E : env) (root : node) : list str :=
  map (fun np => stack_path_to_str (snd np)) (filter (fun np => is_leaf (fst np)) (visits E root)).
(** recipe_reader.py 888-916; a non-primitive argument raises ValueError *)
Definition find_value_hit (v : prim) (n : node) : bool :=
  (match v with PNull => is_empty_key n | _ => false end)
  || (is_leaf n && match n_value n with VJ (JP w) => prim_same_type w v && prim_eqb w v | _ => false end).
Definition find_value (E : env) (root : node) (v : json) : res (list str) :=
  match v with
  | JP p => Ok (map (fun np => stack_path_to_str (snd np)) (filter (fun np => find_value_hit p (fst np)) (visits E root)))
  | _ => Err EValue
  end.

(** * The recipe object *)
Definition seltbl := list (str * list (node * stack)).
Record recipe := {
  r_init : str;              (* _init_content *)
  r_root : node;             (* _root *)
  r_schema : schema;         (* _schema_version *)
  r_vars : vtbl;             (* _vars_tbl *)
  r_sel : seltbl;            (* _selector_tbl *)
  r_mod : bool               (* _is_modified *)
}.

(** recipe_reader.py 376-395 [_rebuild_selectors] *)
Definition sel_add (t : seltbl) (np : node * stack) : seltbl :=
  let c := n_comment (fst np) in
  if is_nil c then t
  else match search_text SELECTOR c with
       | None => t
       | Some sel => dset sel (match dget sel t with Some l => l ++ [np] | None => [np] end) t
       end.
Definition collect_selectors (E : env) (root : node) : seltbl := fold_left sel_add (visits E root) [].

(** recipe_reader.py 355-374 [_init_vars_tbl] *)
Definition slice_find (s a b : str) : str :=
  (* s[s.find(a)+len(a) : s.find(b)] ; find returning -1 cannot happen for the lines matched by the regex
     except for "%}" and "=", which the regex guarantees *)
  match find_sub a s, find_sub b s with
  | Some i, Some j => slice (i + length a) j s
  | _, _ => []
  end.
Definition init_vars_v0 (E : env) (content : str) : vtbl :=
  fold_left (fun t line =>
               let key := strip (slice_find line $"set" $"=") in
               let value := strip (slice_find line $"=" $"%}") in
               dset key (match lit_eval E value with Some j => j | None => JStr value end) t)
            (findall JINJA_V0_SET_LINE content) [].
(** Simplification: if /context is not a mapping the constructor fails here (Python fails on first use). *)
Definition dict_to_vtbl (d : list (prim * json)) : vtbl :=
  fold_left (fun t kv => dset (prim_str (fst kv)) (snd kv) t) d [].
Definition init_vars (E : env) (sv : schema) (content : str) (root : node) : res vtbl :=
  match sv with
  | SV0 => Ok (init_vars_v0 E content)
  | SV1 => let! v := get_value E root $"/context" (Some (JDict [])) None in
           match v with JDict d => Ok (dict_to_vtbl d) | _ => Err EType end
  end.
(** recipe_reader.py 487-492: schema detection ([True == 1] in Python) *)
Definition detect_schema (E : env) (root : node) : res schema :=
  let! v := get_value E root $"/schema_version" (Some (JInt 0)) None in
  Ok (match v with JInt 1%Z => SV1 | JBool true => SV1 | _ => SV0 end).
(** recipe_reader.py 397-502 [RecipeReader.__init__] *)
Definition new_recipe (E : env) (content : str) : res recipe :=
  let! root := parse_tree E content in
  let! sv := detect_schema E root in
  let! vars := init_vars E sv content root in
  Ok {| r_init := content; r_root := root; r_schema := sv; r_vars := vars;
        r_sel := collect_selectors E root; r_mod := false |}.

(** recipe_reader.py 200-227 [_generate_subtree] *)
Definition generate_subtree (E : env) (value : json) : res (list node) :=
  match value with
  | JStr s =>
      if existsb (ceq cNL) s
      then Ok [Nd (VJ (JList (map (fun l => JStr l) (splitlines s)))) [] [] false MPipe false]
      else let! r := new_recipe E (stringify_yaml (VJ value) MNone) in Ok (n_children (r_root r))
  | JP _ => let! r := new_recipe E (stringify_yaml (VJ value) MNone) in Ok (n_children (r_root r))
  | _ => let! r := new_recipe E (ydump E value) in Ok (n_children (r_root r))
  end.

(** recipe_reader.py 694-718, 561-572, 1228-1235 *)
Definition render (E : env) (r : recipe) : str := render_all E (r_schema r) (r_vars r) (r_root r).
Definition recipe_eq (E : env) (a b : recipe) : bool :=
  schema_eqb (r_schema a) (r_schema b) && str_eqb (render E a) (render E b).
