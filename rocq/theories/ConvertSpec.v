(** What the converter is meant to do, stated without its helpers. *)
From Verif Require Export Convert JinjaSpec.

(** * Python versions in selectors (C65) *)

(** The ways a V0 selector speaks about Python's version: [py<37] (with optional spaces around the operator), [py36],
    [py2k] and [py3k]. *)
Inductive py_token :=
| PyCompare (gap1 op gap2 : str) (major : ascii) (minor : str)
| PyIs (major : ascii) (minor : str)
| Py2k
| Py3k.
Definition is_version (major : ascii) (minor : str) : Prop :=
  (major = "2"%char \/ major = "3"%char) /\ minor <> [] /\ Forall (fun c => is_digit c = true) minor.
Definition token_ok (t : py_token) : Prop :=
  match t with
  | PyCompare gap1 op gap2 major minor =>
      Forall (fun c => is_space c = true) gap1 /\ Forall (fun c => is_space c = true) gap2
      /\ In op [$"<"; $">"; $"<="; $">="; $"=="; $"!="] /\ is_version major minor
  | PyIs major minor => is_version major minor
  | _ => True
  end.
(** How it is written in the old format ... *)
Definition token_v0 (t : py_token) : str :=
  match t with
  | PyCompare gap1 op gap2 major minor => $"py" ++ gap1 ++ op ++ gap2 ++ major :: minor
  | PyIs major minor => $"py" ++ major :: minor
  | Py2k => $"py2k"
  | Py3k => $"py3k"
  end.
(** ... and in the new one. *)
Definition python_match (bound : str) : str := $"match(python, """ ++ bound ++ $""")".
Definition token_v1 (t : py_token) : str :=
  python_match match t with
               | PyCompare _ op _ major minor => op ++ major :: "."%char :: minor
               | PyIs major minor => $"==" ++ major :: "."%char :: minor
               | Py2k => $">=2,<3"
               | Py3k => $">=3,<4"
               end.
(** Other text: no [py] in it is followed by white space, by an operator or by a 2 or 3. *)
Definition telling (c : ascii) : bool := is_space c || existsb (ceq c) $"<>=!23".
Definition other_text (s : str) : Prop :=
  forall before c after, s = before ++ $"py" ++ c :: after -> telling c = false.
(** A version ends where its digits end. *)
Definition ends_version (t : py_token) (after : str) : Prop :=
  match t with
  | PyCompare _ _ _ _ _ | PyIs _ _ => match after with c :: _ => is_digit c = false | [] => True end
  | _ => True
  end.
(** A selector expression: text, then version texts each followed by text. *)
Definition expression (shown : py_token -> str) (first : str) (more : list (py_token * str)) : str :=
  first ++ concat (map (fun x => shown (fst x) ++ snd x) more).
Definition expression_ok (first : str) (more : list (py_token * str)) : Prop :=
  other_text first
  /\ Forall (fun x => token_ok (fst x) /\ other_text (snd x)) more
  /\ Forall (fun x => ends_version (fst x) (snd x)) more.

(** * A conversion, step by step (C78) *)

(** The table [t'] is [t] with one more message. *)
Definition one_more (c : category) (m : str) (t t' : msg_table) : Prop :=
  forall d, get_messages d t' = if category_eqb d c then get_messages d t ++ [m] else get_messages d t.
(** What may happen to the recipe and to the messages: a message, a patch that is applied, a patch that is refused - which is
    reported -, a selector that is removed, a section that is sorted. *)
Inductive step (E : env) : cstate -> cstate -> Prop :=
| step_message c m t s : one_more c m (msgs s) t -> step E s {| v1 := v1 s; msgs := t |}
| step_patch p r' s : patch E p (v1 s) = (Ok true, r') -> step E s {| v1 := r'; msgs := msgs s |}
| step_selector path x r' s : remove_selector E path (v1 s) = (Ok x, r') -> step E s {| v1 := r'; msgs := msgs s |}
| step_sort path tbl root s : sort_subtree_keys (r_root (v1 s)) path tbl [] = Ok root ->
    step E s {| v1 := with_root (v1 s) root; msgs := msgs s |}.
Definition refused (E : env) (p : json) (s s' : cstate) : Prop :=
  patch E p (v1 s) = (Ok false, v1 s') /\ one_more ERROR ($"Failed to patch: " ++ json_str p) (msgs s) (msgs s').
(** Several steps; the refused patches in the order in which they were tried. *)
Inductive steps (E : env) : cstate -> list json -> cstate -> Prop :=
| steps_none s : steps E s [] s
| steps_more s s1 ps s2 : step E s s1 -> steps E s1 ps s2 -> steps E s ps s2
| steps_refused s p s1 ps s2 : refused E p s s1 -> steps E s1 ps s2 -> steps E s (p :: ps) s2.
(** How a refused patch is reported. *)
Definition failure (p : json) : str := $"Failed to patch: " ++ json_str p.
(** [l] can be made from [m] by leaving members out. *)
Inductive among {A} : list A -> list A -> Prop :=
| among_nil l : among [] l
| among_skip l x m : among l m -> among l (x :: m)
| among_keep l x m : among l m -> among (x :: l) (x :: m).

(** * The result (C79) *)

(** The value a mapping gives to a name: the last one. *)
Definition last_entry (name : str) (d : list (prim * json)) : option json :=
  option_map snd (find (fun kv => if list_eq_dec ascii_dec (prim_str (fst kv)) name then true else false) (rev d)).

(** * The context object (C80) *)

(** Values that may be written as variables of the new format. *)
Definition supported (v : json) : bool := match v with JP PNull => false | JP _ => true | _ => false end.
Definition gap (s : str) : Prop := Forall (fun c => is_space c = true) s.
Definition word (c : ascii) : Prop := is_word c = true.
Definition on_a_line (s : str) : Prop := ~ In cNL s.
(** A text that is computed: it pipes through a function, takes an element, adds or concatenates, or calls [match]. *)
Inductive computed (s : str) : Prop :=
| computed_case g name : gap g -> In name [$"lower"; $"upper"] -> has_text ($"|" ++ g ++ name) s -> computed s
| computed_replace g args : gap g -> on_a_line args -> has_text ($"|" ++ g ++ $"replace(" ++ args ++ $")") s -> computed s
| computed_element c digits : word c -> digits <> [] -> Forall (fun c => is_digit c = true) digits ->
    has_text (c :: $"[" ++ digits ++ $"]") s -> computed s
| computed_sum c q1 g1 g2 q2 d : (word c \/ c = "."%char) -> (word d \/ d = "."%char) -> gap g1 -> gap g2 ->
    (q1 = [] \/ q1 = [cSQ] \/ q1 = [cDQ]) -> (q2 = [] \/ q2 = [cSQ] \/ q2 = [cDQ]) ->
    has_text (c :: q1 ++ g1 ++ $"+" ++ g2 ++ q2 ++ [d]) s -> computed s
| computed_match a b : on_a_line a -> on_a_line b -> has_text ($"match(" ++ a ++ $"," ++ b ++ $")") s -> computed s.
(** The value of a variable in the new format. *)
Inductive context_entry : json -> json -> Prop :=
| entry_computed s : computed s -> context_entry (JStr s) (JStr ($"{{" ++ s ++ $"}}"))
| entry_text s : ~ computed s -> context_entry (JStr s) (JStr s)
| entry_int z : context_entry (JInt z) (JInt z)
| entry_float x : context_entry (JFloat x) (JFloat x)
| entry_bool b : context_entry (JBool b) (JBool b).
(** The patch that adds the variables, and the report about one that cannot be kept. *)
Definition add_context (ctx : list (str * json)) : json :=
  JDict [(PStr $"op", JStr $"add"); (PStr $"path", JStr $"/context"); (PStr $"value", JDict (map (fun kv => (PStr (fst kv), snd kv)) ctx))].
Definition unsupported_message (name : str) : str := $"The variable `" ++ name ++ $"` is an unsupported type.".

(** * Tests (C81) *)
Definition entries_of (j : json) : list (prim * json) := match j with JDict d => d | _ => [] end.
Definition special (k : prim) : Prop := k = PStr $"python" \/ k = PStr $"downstream".
Definition ordinary (kv : prim * json) : bool :=
  match fst kv with PStr s => negb (str_eqb s $"python") && negb (str_eqb s $"downstream") | _ => true end.

(** * The environment of the build script (C82) *)
Inductive env_kind := Setting (name : str) (v : str) | Secret (j : json) | Rejected.
(** A text without an equals sign names a variable to pass on, one with exactly one sets a variable; a conditional may
    only name a variable. *)
Inductive env_reads : json -> env_kind -> Prop :=
| reads_name s : ~ In "="%char s -> env_reads (JStr s) (Secret (JStr (strip s)))
| reads_setting a b : ~ In "="%char a -> ~ In "="%char b -> env_reads (JStr (a ++ "="%char :: b)) (Setting (strip a) (strip b))
| reads_too_many a b c : env_reads (JStr (a ++ "="%char :: b ++ "="%char :: c)) Rejected
| reads_conditional d s : In (PStr $"then", JStr s) d -> NoDup (map fst d) -> ~ In "="%char s ->
    env_reads (JDict d) (Secret (JDict d))
| reads_conditional_setting d a b : In (PStr $"then", JStr (a ++ "="%char :: b)) d -> NoDup (map fst d) ->
    env_reads (JDict d) Rejected
| reads_other d : (forall v, ~ In (PStr $"then", v) d) -> env_reads (JDict d) Rejected.
Definition secrets_of (l : list env_kind) : list json := flat_map (fun k => match k with Secret j => [j] | _ => [] end) l.
Definition settings_of (l : list env_kind) : list (prim * json) :=
  flat_map (fun k => match k with Setting n v => [(PStr n, JStr v)] | _ => [] end) l.
Definition rejected_in (l : list env_kind) : nat := length (filter (fun k => match k with Rejected => true | _ => false end) l).

(** * Comments that got lost (C83) *)
Definition lost_message (c : str) : str := $"Could not relocate comment: " ++ c.

(** * Markers (C84) *)

(** A text with Jinja expressions: each piece of text before the first, and after each opening marker.  [true]: the marker
    is already the one of the new format. *)
Definition marked (shown : bool -> str) (first : str) (more : list (bool * str)) : str :=
  first ++ concat (map (fun x => shown (fst x) ++ snd x) more).
Definition old_marker (b : bool) : str := if b then $"${{" else $"{{".
Definition new_marker (b : bool) : str := $"${{".
(** A piece holds no marker and does not run into one: no brace at either end, and no dollar before an old marker. *)
Definition ends_with_char (c : ascii) (s : str) : Prop := exists a, s = a ++ [c].
Fixpoint pieces_ok (first : str) (more : list (bool * str)) : Prop :=
  ~ has_text $"{{" first
  /\ match more with
     | [] => True
     | (b, piece) :: more' =>
         ~ ends_with_char "{"%char first /\ (b = false -> ~ ends_with_char "$"%char first)
         /\ (piece = [] -> more' = []) /\ (forall s, piece <> "{"%char :: s) /\ pieces_ok piece more'
     end.

(** * Pre-processing of the text (C85) *)
Inductive pin := MinPin | MaxPin.
Definition old_pin (p : pin) : str := match p with MinPin => $"min_pin=" | MaxPin => $"max_pin=" end.
Definition new_pin (p : pin) : str := match p with MinPin => $"lower_bound=" | MaxPin => $"upper_bound=" end.
Definition pinned (shown : pin -> str) (first : str) (more : list (pin * str)) : str :=
  first ++ concat (map (fun x => shown (fst x) ++ snd x) more).
Definition unpinned (s : str) : Prop := ~ has_text $"min_pin=" s /\ ~ has_text $"max_pin=" s.

(** * Texts without any of the idioms that are rewritten (C86) *)
Definition dotted_call (s : str) : Prop := exists a b c, s = a ++ $"." ++ b ++ $"(" ++ c /\ ~ In cNL b.
Definition calm (s : str) : Prop :=
  ~ dotted_call s /\ ~ has_text $"lower()" s /\ ~ has_text $"upper()" s /\ ~ has_text $"\n" s /\ unpinned s
  /\ ~ has_text $"environ[" s
  /\ (forall name, In name [$"hash_type"; $"hash"; $"hashtype"] ->
        ~ has_text ($"{{ " ++ name ++ $" }}") s /\ ~ has_text ($"{% set " ++ name ++ $" = " ++ [cDQ] ++ $"sha256" ++ [cDQ] ++ $" %}" ++ [cNL]) s).

(** * Reading an environment variable (C87) *)
Record env_use := { e_gap : str; e_quote : ascii; e_key : str }.
Definition old_use (e : env_use) : str := e_gap e ++ $"environ[" ++ [e_quote e] ++ e_key e ++ [e_quote e] ++ $"]".
Definition new_use (e : env_use) : str := e_gap e ++ $"env.get(" ++ [e_quote e] ++ e_key e ++ [e_quote e] ++ $")".
Definition with_uses (shown : env_use -> str) (first : str) (more : list (env_use * str)) : str :=
  first ++ concat (map (fun x => shown (fst x) ++ snd x) more).
Definition use_ok (e : env_use) : Prop :=
  e_gap e <> [] /\ gap (e_gap e) /\ is_quote (e_quote e) = true /\ on_a_line (e_key e) /\ ~ has_text $"environ[" (e_key e).
(** Nothing later on the line looks like the end of such a use. *)
Definition last_on_line (rest : str) : Prop :=
  forall a q b, rest = a ++ q :: "]"%char :: b -> on_a_line a -> is_quote q = false.
Fixpoint uses_ok (first : str) (more : list (env_use * str)) : Prop :=
  ~ has_text $"environ[" first
  /\ match more with
     | [] => True
     | (e, piece) :: more' =>
         (forall c, is_space c = true -> ~ ends_with_char c first) /\ use_ok e
         /\ last_on_line (with_uses old_use piece more') /\ uses_ok piece more'
     end.
