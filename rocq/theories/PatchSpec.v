(** Specification vocabulary for JSON patches and edits.  Nothing here is used by the model. *)
From Verif Require Export PathSpec.

(** * What a patch payload asks for *)
Inductive request :=
| RAdd (path : str) (value : json)
| RRemove (path : str)
| RReplace (path : str) (value : json)
| RMove (from path : str)
| RCopy (from path : str)
| RTest (path : str) (value : json).

(** The value of a field of a payload. *)
Fixpoint field (k : str) (d : list (prim * json)) : option json :=
  match d with
  | [] => None
  | (PStr k', v) :: d' => if list_eq_dec ascii_dec k k' then Some v else field k d'
  | _ :: d' => field k d'
  end.
Definition known_fields (d : list (prim * json)) : Prop :=
  forall k v, In (k, v) d -> In k [PStr $"op"; PStr $"path"; PStr $"from"; PStr $"value"].
Definition text_if_present (k : str) (d : list (prim * json)) : Prop :=
  field k d = None \/ exists s, field k d = Some (JStr s).
(** A payload is a JSON patch that asks for [q]: only known fields, a known operation, a non-empty path, a source (where
    present) that is a text, and the fields the operation needs. *)
Definition asks (p : json) (q : request) : Prop :=
  exists d, p = JDict d /\ known_fields d /\ text_if_present $"from" d /\
  match q with
  | RAdd path v => field $"op" d = Some (JStr $"add") /\ field $"path" d = Some (JStr path) /\ path <> []
                   /\ field $"value" d = Some v
  | RRemove path => field $"op" d = Some (JStr $"remove") /\ field $"path" d = Some (JStr path) /\ path <> []
  | RReplace path v => field $"op" d = Some (JStr $"replace") /\ field $"path" d = Some (JStr path) /\ path <> []
                       /\ field $"value" d = Some v
  | RMove from path => field $"op" d = Some (JStr $"move") /\ field $"path" d = Some (JStr path) /\ path <> []
                       /\ field $"from" d = Some (JStr from)
  | RCopy from path => field $"op" d = Some (JStr $"copy") /\ field $"path" d = Some (JStr path) /\ path <> []
                       /\ field $"from" d = Some (JStr from)
  | RTest path v => field $"op" d = Some (JStr $"test") /\ field $"path" d = Some (JStr path) /\ path <> []
                    /\ field $"value" d = Some v
  end.
Definition request_path (q : request) : str :=
  match q with RAdd p _ | RRemove p | RReplace p _ | RMove _ p | RCopy _ p | RTest p _ => p end.

(** * Local changes of a tree *)

(** The same line with other lines below it. *)
Definition with_lines (n : node) (below : list node) : node :=
  Nd (n_value n) (n_comment n) below (n_lmf n) (n_ml n) (n_keyf n).
(** [n'] is [n] except that the node at position [p] is changed as described by [R]: every line outside, and every line
    above, keeps its content and order. *)
Inductive changed_at (R : node -> node -> Prop) : position -> node -> node -> Prop :=
| changed_here n n' : R n n' -> changed_at R [] n n'
| changed_below n before c c' after p :
    n_children n = before ++ c :: after -> changed_at R p c c' ->
    changed_at R (length before :: p) n (with_lines n (before ++ c' :: after)).
(** The [i]-th line below is removed. *)
Definition line_removed (i : nat) (n n' : node) : Prop :=
  exists before x after, n_children n = before ++ x :: after /\ length before = i /\ n' = with_lines n (before ++ after).
(** New lines are inserted before the [i]-th line below. *)
Definition lines_inserted (i : nat) (new : list node) (n n' : node) : Prop :=
  exists before after, n_children n = before ++ after /\ length before = i /\ n' = with_lines n (before ++ new ++ after).
(** The [i]-th line below is replaced by new lines. *)
Definition line_replaced (i : nat) (new : list node) (n n' : node) : Prop :=
  exists before x after, n_children n = before ++ x :: after /\ length before = i
                         /\ n' = with_lines n (before ++ new ++ after).
(** New lines are added after all the lines below. *)
Definition lines_appended (new : list node) (n n' : node) : Prop := n' = with_lines n (n_children n ++ new).
(** Everything below is replaced by new lines. *)
Definition content_replaced (new : list node) (n n' : node) : Prop := n' = with_lines n new.

(** * Recipes *)

(** Only the tree differs (variables, schema and original text are the same). *)
Definition same_but_tree (r r' : recipe) : Prop :=
  r_init r' = r_init r /\ r_schema r' = r_schema r /\ r_vars r' = r_vars r.
(** The lines a value is written as below a key, and as members of a list: a primitive becomes list-member lines, a
    mapping or list becomes one collection element. *)
Definition written_as (E : env) (v : json) (lines : list node) : Prop := generate_subtree E v = Ok lines.
Definition as_element (v : json) (lines : list node) : list node :=
  match v with
  | JP _ => map (fun n => Nd (n_value n) (n_comment n) (n_children n) true (n_ml n) (n_keyf n)) lines
  | _ => [Nd VSent [] lines true MNone false]
  end.
(** A list element made of lines (a mapping or a nested list). *)
Definition collection_element (n : node) : bool := is_sent (n_value n) && n_lmf n && negb (is_nil (n_children n)).
(** A plain value (the value of a key), which is not addressable on its own. *)
Definition bare_value (n : node) : bool := terminal n && negb (n_lmf n) && negb (n_keyf n).
Definition names (part : str) (n : node) : Prop := n_value n = VJ (JStr part).
(** Values as the YAML reader produces them: no mapping has the same key twice. *)
Fixpoint distinct_keys (d : list (prim * json)) : bool :=
  match d with
  | [] => true
  | (k, _) :: d' => negb (existsb (fun kv => prim_eqb (fst kv) k) d') && distinct_keys d'
  end.
Fixpoint proper_value (j : json) : bool :=
  match j with
  | JP _ => true
  | JList l => forallb proper_value l
  | JDict d => distinct_keys d && forallb (fun kv => proper_value (snd kv)) d
  end.
Fixpoint proper_tree (n : node) : bool :=
  match n with
  | Nd v _ chs _ _ _ => match v with VSent => true | VJ j => proper_value j end && forallb proper_tree chs
  end.

(** * search_and_patch *)

(** The payload with its path set (or replaced). *)
Definition is_path_key (k : prim) : bool := match k with PStr s => if list_eq_dec ascii_dec s $"path" then true else false | _ => false end.
Definition with_path (s : str) (d : list (prim * json)) : list (prim * json) :=
  (PStr $"path", JStr s) :: filter (fun kv => negb (is_path_key (fst kv))) d.
(** Applying the patch to each path in order until one application does not succeed. *)
Inductive in_order (E : env) (d : list (prim * json)) : list str -> recipe -> res bool -> recipe -> Prop :=
| order_done r : in_order E d [] r (Ok true) r
| order_next s ps r r1 o r2 : patch E (JDict (with_path s d)) r = (Ok true, r1) -> in_order E d ps r1 o r2 ->
    in_order E d (s :: ps) r o r2
| order_stop s ps r o r1 : patch E (JDict (with_path s d)) r = (o, r1) -> o <> Ok true -> in_order E d (s :: ps) r o r1.
(** The text a search looks at. *)
Definition shown_text (with_comment : bool) (n : node) : str :=
  stringify_yaml (n_value n) MNone
  ++ (if with_comment && negb (is_nil (n_comment n)) then $"  " ++ n_comment n else []).
