(** parser/_utils.py *)
From Verif Require Export Node Regex.

(** A [StrStack] in Python order: index 0 is the deepest component, the last element is the root "/". *)
Definition stack := list str.

(** [path[-1]] raises IndexError on the empty string. *)
Definition last_char (s : str) : option ascii := match rev s with [] => None | c :: _ => Some c end.

(** parser/_utils.py 28-52 *)
Definition str_to_stack_path (path : str) : res stack :=
  match last_char path with
  | None => Err EIndex
  | Some c =>
      let path' := if ceq c cSL then removelast path else path in
      let parts := map (fun p => if is_nil p then ROOT_VALUE else p) (split_on cSL path') in
      Ok (rev parts)
  end.

(** parser/_utils.py 55-73.  The components are popped from the end; "/" entries are skipped.
    When the argument is a list (not a tuple) the Python code empties it: see [stack_path_to_str_mut]. *)
Definition stack_path_to_str (p : stack) : str :=
  fold_left (fun acc v => if str_eqb v ROOT_VALUE then acc else acc ++ $"/" ++ v) (rev p) [].
(** Result and the caller's list afterwards (the while loop runs until the list is empty). *)
Definition stack_path_to_str_mut (p : stack) : str * stack := (stack_path_to_str p, []).

(** parser/_utils.py 76-90 *)
Fixpoint num_tab_spaces (s : str) : nat :=
  match s with
  | c :: s' => if ceq c cSP then S (num_tab_spaces s') else 0
  | [] => 0
  end.

(** parser/_types.py 24 *)
Definition SUB_MARKER : str := $"__RECIPE_MANAGER_SUBSTITUTION_MARKER__".
(** parser/_utils.py 93-104: returns the text and the remaining substitutions (the Python list is popped). *)
Fixpoint substitute_markers_mut (subs : list str) (s : str) : str * list str :=
  match subs with
  | [] => (s, [])
  | x :: subs' =>
      if contains_sub SUB_MARKER s
      then substitute_markers_mut subs' (replace_first SUB_MARKER x s)
      else (s, subs)
  end.
Definition substitute_markers (s : str) (subs : list str) : str := fst (substitute_markers_mut subs s).

(** parser/_utils.py 25 *)
Definition TO_QUOTE : list ascii := lit "[],&:*?-=!%@\".

(** [json.dumps(s)] for a string (ensure_ascii).  Simplification: characters >= 128 are escaped as \u00XX
    (exact for Latin-1). *)
Definition hex_digit (n : nat) : ascii := if n <? 10 then ch (48 + n) else ch (87 + n).
Definition json_char (c : ascii) : str :=
  if ceq c cDQ then [cBS; cDQ]
  else if ceq c cBS then [cBS; cBS]
  else if code c =? 10 then [cBS; "n"%char]
  else if code c =? 13 then [cBS; "r"%char]
  else if code c =? 9 then [cBS; "t"%char]
  else if code c =? 12 then [cBS; "f"%char]
  else if code c =? 8 then [cBS; "b"%char]
  else if (code c <? 32) || (126 <? code c)
       then [cBS; "u"%char; "0"%char; "0"%char; hex_digit (code c / 16); hex_digit (code c mod 16)]
       else [c].
Definition json_dumps_str (s : str) : str := cDQ :: flat_map json_char s ++ [cDQ].

(** parser/_utils.py 107-146 *)
Definition starts_special (s : str) : bool :=
  match s with c :: _ => existsb (ceq c) TO_QUOTE | [] => false end.
Definition quote_special_strings (s : str) (v : mlv) : str :=
  if is_multi v
     || negb (is_nil (findall JINJA_V0_SUB s))
     || found JINJA_FUNCTION_MATCH s
  then s
  else if mem_str s (map (fun c => [c]) TO_QUOTE)
          || (negb (contains_sub $"${{" s) && (existsb (ceq cSQ) s || existsb (ceq cDQ) s))
          || starts_special s
       then json_dumps_str s
       else s.

(** parser/_utils.py 149-175, already formatted as text.  (The Python function returns the value itself for
    numbers and lists; every caller formats it with an f-string or [str].) *)
Definition stringify_yaml (v : nval) (ml : mlv) : str :=
  match v with
  | VSent => []
  | VJ JNull => $"null"
  | VJ (JBool true) => $"true"
  | VJ (JBool false) => $"false"
  | VJ (JStr s) => quote_special_strings s ml
  | VJ j => json_str j
  end.

(** parser/types.py 31-32 *)
Definition TAB_SPACE_COUNT : nat := 2.
Definition TAB : str := spaces TAB_SPACE_COUNT.

(** The lines of a multiline value.  In the code the cast to [list[str]] is unchecked; joining a list with a
    non-string member raises TypeError. *)
Fixpoint as_lines (l : list json) : option (list str) :=
  match l with
  | [] => Some []
  | JStr s :: l' => option_map (cons s) (as_lines l')
  | _ => None
  end.
Definition nval_lines (v : nval) : option (list str) :=
  match v with VJ (JList l) => as_lines l | _ => None end.

(** parser/_utils.py 178-194 on a multiline node value (variant is not NONE) *)
Definition normalize_multiline (v : nval) (ml : mlv) : res str :=
  match nval_lines v with
  | Some ls => Ok (mlv_str ml ++ [cNL] ++ TAB ++ join (cNL :: TAB) ls)
  | None => Err EType
  end.

(** parser/_utils.py 197-204: [list(dict.fromkeys(l))] *)
Definition dedupe (l : list str) : list str :=
  dkeys (fold_left (fun d x => dset x tt d) l (@nil (str * unit))).

(** parser/_utils.py 207-217 *)
Definition set_key_conditionally (d : list (prim * json)) (k : str) (v : json) : list (prim * json) :=
  let fix put (d : list (prim * json)) :=
    match d with
    | [] => [(PStr k, v)]
    | (k', v') :: d' => if prim_eqb (PStr k) k' then (k', v) :: d' else (k', v') :: put d'
    end in
  if json_truthy v then put d else d.
