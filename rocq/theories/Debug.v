(** Model of the texts for debugging: parser/_node.py [__str__] and [short_str], parser/_selector_info.py [__str__],
    parser/recipe_reader.py [_str_tree_recurse] and [__str__]. *)
From Verif Require Export Edit.

(** parser/_node.py 76-94 [__str__] *)
Definition bool_str (b : bool) : str := if b then $"True" else $"False".
Definition node_str (E : env) (n : node) : str :=
  let value := if is_comment n then $"Comment node" else nval_str E (n_value n) in
  let value := if is_collection n then $"Collection node" else value in
  $"Node: " ++ value ++ NLs
  ++ $"  - Comment:      " ++ repr_str (n_comment n) ++ NLs
  ++ $"  - Child count:  " ++ str_of_nat (length (n_children n)) ++ NLs
  ++ $"  - List?:        " ++ bool_str (n_lmf n) ++ NLs
  ++ $"  - Multiline?:   " ++ mlv_str (n_ml n) ++ NLs
  ++ $"  - Key?:         " ++ bool_str (n_keyf n) ++ NLs.
(** parser/_node.py 96-106 [short_str] *)
Definition short_str (E : env) (n : node) : str :=
  if is_comment n then $"<Comment: " ++ n_comment n ++ $">"
  else if is_collection n then $"<Collection Node>"
  else nval_str E (n_value n).
(** parser/_selector_info.py 22-29; the path is copied, so the table keeps its paths *)
Definition selector_info_str (E : env) (info : node * stack) : str := short_str E (fst info) ++ $" -> " ++ stack_path_to_str (snd info).
(** parser/recipe_reader.py 522-535 [_str_tree_recurse]; the lines are returned instead of appended *)
Fixpoint str_tree_recurse (E : env) (n : node) (depth : nat) {struct n} : list str :=
  match n with
  | Nd v c chs l m k =>
      (concat (repeat TAB depth) ++ (if depth =? 0 then [] else $"|- ") ++ short_str E (Nd v c chs l m k))
      :: flat_map (fun child => str_tree_recurse E child (S depth)) chs
  end.
(** [json.dumps(v, indent="  ")] *)
Definition prim_dumps (p : prim) : str :=
  match p with
  | PNull => $"null"
  | PBool true => $"true"
  | PBool false => $"false"
  | PInt z => str_of_Z z
  | PFloat r => r
  | PStr s => json_dumps_str s
  end.
(** Keys that are not texts are written as texts. *)
Definition key_dumps (p : prim) : str := match p with PStr s => json_dumps_str s | _ => cDQ :: prim_dumps p ++ [cDQ] end.
Definition dumped (opening closing : str) (depth : nat) (items : list str) : str :=
  match items with
  | [] => opening ++ closing
  | _ => let line := NLs ++ concat (repeat TAB (S depth)) in
         opening ++ line ++ join ($"," ++ line) items ++ NLs ++ concat (repeat TAB depth) ++ closing
  end.
Fixpoint json_dumps (depth : nat) (j : json) : str :=
  match j with
  | JP p => prim_dumps p
  | JList l => dumped $"[" $"]" depth (map (json_dumps (S depth)) l)
  | JDict d => dumped $"{" $"}" depth (map (fun kv => key_dumps (fst kv) ++ $": " ++ json_dumps (S depth) (snd kv)) d)
  end.
(** parser/recipe_reader.py 537-559 [__str__]; [name] is the name of the class *)
Definition schema_number (s : schema) : str := match s with SV0 => $"0" | SV1 => $"1" end.
Definition selectors_text (E : env) (t : sdict (list (node * stack))) : str :=
  concat (map (fun kv => TAB ++ fst kv ++ NLs ++ concat (map (fun info => TAB ++ TAB ++ $"- " ++ selector_info_str E info ++ NLs) (snd kv))) t).
Definition recipe_str (E : env) (name : str) (r : recipe) : str :=
  let rule := $"--------------------" ++ NLs in
  rule ++ name ++ $" Instance" ++ NLs
  ++ $"- Schema Version: " ++ schema_number (r_schema r) ++ NLs
  ++ $"- Variables Table:" ++ NLs
  ++ json_dumps 0 (JDict (map (fun kv => (PStr (fst kv), snd kv)) (r_vars r))) ++ NLs
  ++ $"- Selectors Table:" ++ NLs ++ selectors_text E (r_sel r)
  ++ $"- is_modified?: " ++ bool_str (r_mod r) ++ NLs
  ++ $"- Tree:" ++ NLs ++ join NLs (str_tree_recurse E (r_root r) 0) ++ NLs ++ rule.
